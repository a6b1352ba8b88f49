(** * Range objects over their lifetime: properties C58, C62, C63.

    The model is [DtObject.v]: the object with its attributes, setters and
    lazily set attributes.  [history us o] is what a program sees that makes the
    uses [us] of the object [o] one after the other. *)
From Verif Require Import Base PyRange DtModel DtSpec DtFloat DtProofs DtProofs2 DtProofs3 Prop_Dt DtObject.
Open Scope Z_scope.

(** An object whose attributes are those of [r], with caches empty or right. *)
Definition holds (r : dtr) (o : robj) : Prop :=
  o_length o = Some (r_length r) /\ o_start o = Some (r_start r) /\ o_step o = Some (r_step r) /\
  o_range o = Some (r_length r) /\
  (forall d, o_stop o = Some d -> dtr_stop r = Ok d) /\
  (forall t, o_repr o = Some t ->
     exists d days, dtr_stop r = Ok d /\ t = ReprText (r_start r) days d (r_step r) /\
       match dk (r_start r) with
       | KTime => exists n td, dtr_len r = Ok n /\ td_check (r_step r * n) = Ok td /\
                    days = if 0 <? td / DAY then Some (td / DAY) else None
       | _ => days = None
       end).

(** What each use shows, by the functions of DtModel. *)
Definition shown_repr (r : dtr) : res repr_text :=
  p <- dtr_stop r ;;
  days <- (match dk (r_start r) with
           | KTime => n <- dtr_len r ;; td <- td_check (r_step r * n) ;;
                      Ok (if 0 <? td / DAY then Some (td / DAY) else None)
           | _ => Ok None
           end) ;;
  Ok (ReprText (r_start r) days p (r_step r)).

Definition fresh (r : dtr) : robj :=
  RObj (Some (r_length r)) (Some (r_start r)) (Some (r_step r)) (Some (r_length r)) None None.

Lemma fresh_holds : forall r, holds r (fresh r).
Proof. intros r. repeat split; cbn; congruence. Qed.

Lemma new_range_inv : forall s n st o, new_range s n st = Ok o ->
  exists d z us, s = VDt d /\ n = VInt z /\ st = VTd us /\ step_ok d us = true /\ o = fresh (mkDtr d z us).
Proof.
  intros s n st o. unfold new_range, then_, set_length, set_start, set_step, set_range, blank_robj, attr, fresh.
  cbn [o_length o_start o_step o_range o_stop o_repr r_length r_start r_step].
  destruct n; try discriminate; destruct s; try discriminate; destruct st; cbn [o_start]; try discriminate;
    destruct (step_ok d us) eqn:S; try discriminate; intros H.
  injection H as <-. exists d, z, us. repeat split. exact S.
Qed.

Lemma new_range_ok : forall d z us, step_ok d us = true ->
  new_range (VDt d) (VInt z) (VTd us) = Ok (fresh (mkDtr d z us)).
Proof.
  intros d z us S. unfold new_range, then_, set_length, set_start, set_step, set_range, blank_robj, attr, fresh.
  cbn [o_length o_start o_step o_range o_stop o_repr r_length r_start r_step]. rewrite S. reflexivity.
Qed.

Lemma new_range_dtr : forall d z us, new_range (VDt d) (VInt z) (VTd us) = rmap fresh (dtr_new d z us).
Proof.
  intros d z us. unfold dtr_new. destruct (step_ok d us) eqn:S; [now apply new_range_ok|].
  unfold new_range, then_, set_length, set_start, set_step, set_range, blank_robj, attr.
  cbn [o_length o_start o_step o_range o_stop o_repr]. rewrite S. reflexivity.
Qed.

Section Holds.
  Variables (r : dtr) (o : robj).
  Hypothesis H : holds r o.

  Lemma h_len : o_len o = dtr_len r.
  Proof using H. destruct H as (A & _). unfold o_len, attr. rewrite A. reflexivity. Qed.
  Lemma h_start : attr (o_start o) = Ok (r_start r).
  Proof using H. destruct H as (_ & A & _). unfold attr. now rewrite A. Qed.
  Lemma h_step : attr (o_step o) = Ok (r_step r).
  Proof using H. destruct H as (_ & _ & A & _). unfold attr. now rewrite A. Qed.
  Lemma h_range : o_index_range o = Ok (index_range r).
  Proof using H. destruct H as (_ & _ & _ & A & _). unfold o_index_range, attr. now rewrite A. Qed.

  Lemma h_stop : exists o', get_stop o = (dtr_stop r, o') /\ holds r o'.
  Proof using H.
    unfold get_stop. destruct (o_stop o) eqn:E.
    - exists o. destruct H as (_ & _ & _ & _ & S & _). rewrite (S _ E). auto.
    - rewrite h_len, h_start, h_step. cbn [bind].
      change (n <- dtr_len r ;; index_to_value n (r_start r) (r_step r)) with (dtr_stop r).
      destruct (dtr_stop r) eqn:S; try (exists o; split; [reflexivity|exact H]).
      eexists. split; [reflexivity|]. destruct H as (A & B & C & D & _ & F).
      repeat split; cbn; auto. intros d Q. congruence.
  Qed.

  Lemma h_repr : exists o', get_repr o = (shown_repr r, o') /\ holds r o'.
  Proof using H.
    unfold get_repr. destruct (o_repr o) as [t|] eqn:E.
    - exists o. split; [|exact H]. destruct H as (_ & _ & _ & _ & _ & F). destruct (F _ E) as (d & days & S & -> & K).
      unfold shown_repr. rewrite S. cbn [bind].
      destruct (dk (r_start r)).
      + rewrite K. reflexivity.
      + destruct K as (n & td & -> & Q & ->). cbn [bind]. rewrite Q. reflexivity.
      + rewrite K. reflexivity.
    - destruct h_stop as (o' & -> & H'). unfold shown_repr.
      destruct (dtr_stop r) as [p|e|] eqn:S; try (exists o'; split; [reflexivity|exact H']).
      pose proof H' as (A & B & C & D & F & G). unfold o_len, attr. rewrite A, B, C. cbn [bind].
      change (ssize_check (r_length r)) with (dtr_len r).
      set (dd := match dk (r_start r) with KTime => _ | _ => _ end).
      assert (K : forall days, dd = Ok days ->
        match dk (r_start r) with
        | KTime => exists n td, dtr_len r = Ok n /\ td_check (r_step r * n) = Ok td /\
                    days = if 0 <? td / DAY then Some (td / DAY) else None
        | _ => days = None
        end).
      { intros days Q. unfold dd in Q. destruct (dk (r_start r)); try congruence.
        destruct (dtr_len r) as [n|e|]; cbn [bind] in Q; try discriminate.
        destruct (td_check (r_step r * n)) as [td|e|] eqn:T; cbn [bind] in Q; try discriminate.
        exists n, td. split; [reflexivity|]. split; [exact T|congruence]. }
      clearbody dd. destruct dd as [days|e|]; cbn [bind]; [|exists o'; auto..].
      eexists. split; [reflexivity|].
      repeat split; cbn; auto.
      intros t Q. injection Q as <-. exists p, days. split; [exact S|]. split; [reflexivity|exact (K days eq_refl)].
  Qed.

  Lemma h_get : forall i, o_get o i = dtr_get r i.
  Proof using H.
    intros i. unfold o_get, dtr_get. rewrite h_range, h_start, h_step. cbn [bind].
    destruct (rg_get (index_range r) i); reflexivity.
  Qed.
  Lemma h_slice : forall s, o_slice o s = rmap fresh (dtr_slice r s).
  Proof using H.
    intros s. unfold o_slice, dtr_slice. rewrite h_range, h_start, h_step. cbn [bind].
    destruct (rg_slice (index_range r) s); cbn [bind rmap]; try reflexivity.
    destruct (index_to_value _ _ _); cbn [bind rmap]; try reflexivity.
    destruct (ssize_check _); cbn [bind rmap]; try reflexivity.
    destruct (td_check _); cbn [bind rmap]; try reflexivity.
    apply new_range_dtr.
  Qed.
  Lemma h_mapM : forall l, mapM (fun k => o_get o (Z.of_nat k)) l = mapM (fun k => dtr_get r (Z.of_nat k)) l.
  Proof using H. induction l as [|k l IH]; cbn [mapM]; [reflexivity|]. now rewrite h_get, IH. Qed.
  Lemma h_list : o_list o = dtr_list r.
  Proof using H. unfold o_list, dtr_list. rewrite h_len. destruct (dtr_len r); cbn [bind]; [apply h_mapM|reflexivity..]. Qed.
  Lemma h_hash : o_hash_key o = dtr_hash_key r.
  Proof using H.
    unfold o_hash_key, dtr_hash_key. rewrite h_len, h_start, h_step. destruct (dtr_len r); cbn [bind]; try reflexivity.
    destruct (0 <? a), (1 <? a); reflexivity.
  Qed.
  Lemma h_index : forall v a b, o_index o v a b = dtr_index r v a b.
  Proof using H.
    intros v a b. unfold o_index, dtr_index. rewrite h_start, h_step, h_range. cbn [bind]. reflexivity.
  Qed.
  Lemma h_contains : forall v, o_contains o v = dtr_contains r v.
  Proof using H.
    intros v. unfold o_contains, dtr_contains. rewrite h_start, h_index. cbn [bind]. reflexivity.
  Qed.
  Lemma h_count : forall v, o_count o v = dtr_count r v.
  Proof using H. intros v. unfold o_count, dtr_count. now rewrite h_contains. Qed.
End Holds.

Lemma h_eq : forall r o r' o', holds r o -> holds r' o' -> o_eq o o' = dtr_eq r r'.
Proof.
  intros r o r' o' H H'. unfold o_eq, dtr_eq.
  rewrite (h_len r o H), (h_start r o H), (h_step r o H), (h_len r' o' H'), (h_start r' o' H'), (h_step r' o' H').
  destruct (dtr_len r); cbn [bind]; try reflexivity.
Qed.

(** What a use shows does not depend on what the object has cached. *)
Lemma use_holds : forall r o1 o2 u, holds r o1 -> holds r o2 ->
  fst (do_use u o1) = fst (do_use u o2) /\ holds r (snd (do_use u o1)).
Proof.
  intros r o1 o2 u H1 H2.
  destruct u; cbn [do_use]; unfold pure, run; cbn [fst snd].
  - split; [|exact H1]. now rewrite (h_start r o1 H1), (h_start r o2 H2).
  - split; [|exact H1]. now rewrite (h_step r o1 H1), (h_step r o2 H2).
  - split; [|exact H1]. destruct H1 as (A & _), H2 as (B & _). now rewrite A, B.
  - destruct (h_stop r o1 H1) as (x & -> & X), (h_stop r o2 H2) as (y & -> & Y). cbn [fst snd]. auto.
  - split; [|exact H1]. now rewrite (h_len r o1 H1), (h_len r o2 H2).
  - destruct (h_repr r o1 H1) as (x & -> & X), (h_repr r o2 H2) as (y & -> & Y). cbn [fst snd]. auto.
  - split; [|exact H1]. now rewrite (h_get r o1 H1), (h_get r o2 H2).
  - split; [|exact H1]. now rewrite (h_slice r o1 H1), (h_slice r o2 H2).
  - split; [|exact H1]. now rewrite (h_list r o1 H1), (h_list r o2 H2).
  - split; [|exact H1]. unfold o_reversed. rewrite (h_len r o1 H1), (h_len r o2 H2).
    destruct (dtr_len r); cbn [bind]; [now rewrite (h_mapM r o1 H1), (h_mapM r o2 H2)|reflexivity..].
  - split; [|exact H1]. unfold o_eq.
    now rewrite (h_len r o1 H1), (h_start r o1 H1), (h_step r o1 H1), (h_len r o2 H2), (h_start r o2 H2), (h_step r o2 H2).
  - split; [|exact H1]. now rewrite (h_hash r o1 H1), (h_hash r o2 H2).
  - split; [|exact H1]. now rewrite (h_index r o1 H1), (h_index r o2 H2).
  - split; [|exact H1]. now rewrite (h_contains r o1 H1), (h_contains r o2 H2).
  - split; [|exact H1]. now rewrite (h_count r o1 H1), (h_count r o2 H2).
  - pose proof H1 as (_ & A & _); pose proof H2 as (_ & B & _). unfold set_start. rewrite A, B. auto.
  - pose proof H1 as (_ & _ & A & _); pose proof H2 as (_ & _ & B & _). unfold set_step. rewrite A, B. auto.
  - pose proof H1 as (A & _); pose proof H2 as (B & _). unfold set_length. rewrite A, B. auto.
  - unfold set_stop. auto.
Qed.

Lemma history_holds : forall r us o o0, holds r o -> holds r o0 ->
  history us o = map (fun u => fst (do_use u o0)) us.
Proof.
  intros r. induction us as [|u us IH]; intros o o0 H H0; cbn [history map]; [reflexivity|].
  destruct (use_holds r o o0 u H H0) as (A & B). destruct (do_use u o) as [x o']. cbn [fst snd] in *.
  rewrite A. f_equal. now apply IH.
Qed.

(** ** C58: a range never changes.  Whatever has been done with it before, each
    use shows what it would have shown right after construction ... *)
Theorem C58_never_changes : forall start length step o, new_range start length step = Ok o ->
  forall us, history us o = map (fun u => fst (do_use u o)) us.
Proof.
  intros s n st o N us. destruct (new_range_inv s n st o N) as (d & z & u & _ & _ & _ & _ & ->).
  apply (history_holds (mkDtr d z u)); apply fresh_holds.
Qed.
Print Assumptions C58_never_changes.

(** ... its attributes are those it was given, and cannot be assigned to ... *)
Theorem C58_read_only : forall start length step o, new_range start length step = Ok o ->
  forall before after v u, In u [AssignStart v; AssignStep v; AssignLength v; AssignStop v] ->
  exists d n us, start = VDt d /\ length = VInt n /\ step = VTd us /\
    history (before ++ [u; AskStart; AskLength; AskStep] ++ after) o =
    history before o ++ [Raise AttributeError; Ok (SDt d); Ok (SInt n); Ok (STd us)] ++ history after o.
Proof.
  intros s n st o N before after v u I. pose proof (C58_never_changes s n st o N) as C.
  destruct (new_range_inv s n st o N) as (d & z & us & -> & -> & -> & _ & ->).
  exists d, z, us. do 3 (split; [reflexivity|]).
  rewrite !C, !map_app. cbn [map]. f_equal. cbn [app].
  f_equal. cbn [In] in I. destruct I as [<-|[<-|[<-|[<-|[]]]]]; reflexivity.
Qed.
Print Assumptions C58_read_only.

(** ... and all it shows is what the functions studied in C01-C13 and C57 say. *)
Theorem C58_same_as_functions : forall start n step o, new_range (VDt start) (VInt n) (VTd step) = Ok o ->
  let r := mkDtr start n step in
  let shows u x := forall before, history (before ++ [u]) o = history before o ++ [x] in
  dtr_new start n step = Ok r /\
  shows AskLen (rmap SInt (dtr_len r)) /\
  shows AskStop (rmap SDt (dtr_stop r)) /\
  (forall i, shows (AskItem i) (rmap SDt (dtr_get r i))) /\
  (forall s r', dtr_slice r s = Ok r' -> exists o', shows (AskSlice s) (Ok (SRange o')) /\
     new_range (VDt (r_start r')) (VInt (r_length r')) (VTd (r_step r')) = Ok o') /\
  (forall s e, dtr_slice r s = Raise e -> shows (AskSlice s) (Raise e)) /\
  shows AskList (rmap SList (dtr_list r)) /\
  shows AskHash (rmap SKey (dtr_hash_key r)) /\
  (forall v a b, shows (AskIndex v a b) (rmap SInt (dtr_index r v a b))) /\
  (forall v, shows (AskIn v) (rmap SBool (dtr_contains r v))) /\
  (forall v, shows (AskCount v) (rmap SInt (dtr_count r v))) /\
  (forall start' n' step' o', new_range (VDt start') (VInt n') (VTd step') = Ok o' ->
     shows (AskEqual o') (rmap SBool (dtr_eq r (mkDtr start' n' step')))).
Proof.
  intros d z us o N r shows. pose proof (C58_never_changes _ _ _ _ N) as C.
  destruct (new_range_inv _ _ _ _ N) as (d0 & z0 & us0 & E1 & E2 & E3 & S & Eo).
  assert (d0 = d /\ z0 = z /\ us0 = us) as (-> & -> & ->) by (split; [|split]; congruence). clear E1 E2 E3.
  fold r in Eo.
  assert (H : holds r o) by (subst o; apply fresh_holds).
  assert (W : forall u x, fst (do_use u o) = x -> shows u x).
  { intros u x Q before. rewrite !C, map_app. cbn [map]. now rewrite Q. }
  split; [unfold dtr_new; now rewrite S|].
  split; [apply W; cbn; now rewrite (h_len r o H)|].
  split; [apply W; cbn; unfold run; destruct (h_stop r o H) as (o' & -> & _); reflexivity|].
  split; [intros i; apply W; cbn; now rewrite (h_get r o H)|].
  split.
  { intros s r' Q. exists (fresh r'). split; [apply W; cbn; now rewrite (h_slice r o H), Q|].
    rewrite new_range_dtr. unfold dtr_slice in Q.
    destruct (rg_slice (index_range r) s); try discriminate; cbn [bind] in Q.
    destruct (index_to_value _ _ _); try discriminate; cbn [bind] in Q.
    destruct (ssize_check _); try discriminate; cbn [bind] in Q.
    destruct (td_check _); try discriminate; cbn [bind] in Q.
    destruct (dtr_new_ok _ _ _ _ Q) as (-> & _). cbn [r_start r_length r_step]. rewrite Q. reflexivity. }
  split; [intros s e Q; apply W; cbn; now rewrite (h_slice r o H), Q|].
  split; [apply W; cbn; now rewrite (h_list r o H)|].
  split; [apply W; cbn; now rewrite (h_hash r o H)|].
  split; [intros v a b; apply W; cbn; now rewrite (h_index r o H)|].
  split; [intros v; apply W; cbn; now rewrite (h_contains r o H)|].
  split; [intros v; apply W; cbn; now rewrite (h_count r o H)|].
  intros s' n' st' o' N'. apply W. cbn.
  destruct (new_range_inv _ _ _ _ N') as (d1 & z1 & us1 & F1 & F2 & F3 & _ & ->).
  assert (d1 = s' /\ z1 = n' /\ us1 = st') as (-> & -> & ->) by (split; [|split]; congruence).
  now rewrite (h_eq r o (mkDtr s' n' st') _ H (fresh_holds _)).
Qed.
Print Assumptions C58_same_as_functions.

Example C58_example :
  exists o, new_range (VDt (Dt KTime (23 * HOUR))) (VInt 5) (VTd (6 * HOUR)) = Ok o /\
  history [AskRepr; AssignStart (VDt D20160101); AskStop; AskReversed; AssignLength (VInt 2); AskLen; AskRepr] o =
  [Ok (SText (ReprText (Dt KTime (23 * HOUR)) (Some 1) (Dt KTime (5 * HOUR)) (6 * HOUR)));
   Raise AttributeError; Ok (SDt (Dt KTime (5 * HOUR)));
   Ok (SList [Dt KTime (23 * HOUR); Dt KTime (17 * HOUR); Dt KTime (11 * HOUR); Dt KTime (5 * HOUR); Dt KTime (23 * HOUR)]);
   Raise AttributeError; Ok (SInt 5);
   Ok (SText (ReprText (Dt KTime (23 * HOUR)) (Some 1) (Dt KTime (5 * HOUR)) (6 * HOUR)))].
Proof. eexists. split; [vm_compute; reflexivity|vm_compute; reflexivity]. Qed.

(** ** C62: the length of a range may be given by anything that int() converts,
    as the message of the constructor's error says. *)
Definition C62_statement : Prop := forall start n step length,
  step_ok start step = true -> (length = VInt n \/ length = VCast n) ->
  exists o, new_range (VDt start) length (VTd step) = Ok o /\ fst (do_use AskLength o) = Ok (SInt n).

(** True of integers; what goes wrong otherwise. *)
Theorem C62_length_partial : forall start n step,
  step_ok start step = true ->
  (exists o, new_range (VDt start) (VInt n) (VTd step) = Ok o /\ fst (do_use AskLength o) = Ok (SInt n)) /\
  new_range (VDt start) (VCast n) (VTd step) = Raise TypeError /\
  new_range (VDt start) VNoCast (VTd step) = Raise ValueError.
Proof.
  intros s n st S. split; [|split].
  - exists (fresh (mkDtr s n st)). split; [now apply new_range_ok|reflexivity].
  - unfold new_range, then_, set_length, set_start, set_step, set_range, blank_robj, attr.
    cbn [o_length o_start o_step o_range o_stop o_repr]. rewrite S. reflexivity.
  - reflexivity.
Qed.
Print Assumptions C62_length_partial.

Theorem C62_length_refuted : ~ C62_statement.
Proof.
  intros S. destruct (S D20160101 3 DAY (VCast 3)) as (o & N & _).
  - vm_compute. reflexivity.
  - now right.
  - vm_compute in N. discriminate.
Qed.
Print Assumptions C62_length_refuted.

Example C62_example : step_ok D20160101 (7 * DAY) = true.
Proof. vm_compute. reflexivity. Qed.

(** ** C63: reversed(r) yields the elements of r in reverse. *)
Lemma mapM_app : forall A B (f : A -> res B) l1 l2,
  mapM f (l1 ++ l2) = (a <- mapM f l1 ;; b <- mapM f l2 ;; Ok (a ++ b)).
Proof.
  intros A B f. induction l1 as [|x l1 IH]; intros l2; cbn [mapM app bind].
  - destruct (mapM f l2); reflexivity.
  - destruct (f x); cbn [bind]; try reflexivity. rewrite IH.
    destruct (mapM f l1); cbn [bind]; try reflexivity. destruct (mapM f l2); reflexivity.
Qed.

Lemma mapM_rev : forall A B (f : A -> res B) e l, (forall x, In x l -> (exists y, f x = Ok y) \/ f x = Raise e) ->
  mapM f (rev l) = rmap (@rev B) (mapM f l).
Proof.
  intros A B f e. induction l as [|x l IH]; intros H; cbn [rev mapM]; [reflexivity|].
  rewrite mapM_app, IH by (intros; apply H; now right). cbn [mapM].
  assert (F : mapM f l = Raise e \/ exists ys, mapM f l = Ok ys).
  { assert (G : forall x, In x l -> (exists y, f x = Ok y) \/ f x = Raise e) by (intros; apply H; now right).
    clear - G. induction l as [|z l IH]; cbn [mapM]; [right; eexists; reflexivity|].
    destruct (G z (or_introl eq_refl)) as [[y E]|E]; rewrite E; cbn [bind]; [|now left].
    destruct IH as [IH|[ys IH]]; [intros; apply G; now right|rewrite IH; now left|rewrite IH; right; eexists; reflexivity]. }
  destruct (H x (or_introl eq_refl)) as [[y E]|E]; rewrite E; destruct F as [F|[ys F]]; rewrite F; reflexivity.
Qed.

Theorem C63_reversed : forall start length step o, new_range start length step = Ok o ->
  forall before,
  (forall l, history (before ++ [AskList]) o = history before o ++ [Ok (SList l)] ->
     history (before ++ [AskReversed]) o = history before o ++ [Ok (SList (rev l))]) /\
  (forall e, history (before ++ [AskList]) o = history before o ++ [Raise e] ->
     history (before ++ [AskReversed]) o = history before o ++ [Raise e]).
Proof.
  intros s n st o N before. pose proof (C58_never_changes _ _ _ _ N) as C.
  destruct (new_range_inv s n st o N) as (d & z & us & -> & -> & -> & S & ->).
  set (r := mkDtr d z us). pose proof (fresh_holds r) as H.
  assert (R : o_reversed (fresh r) = rmap (@rev dt) (o_list (fresh r))).
  { unfold o_reversed, o_list. rewrite (h_len r _ H). destruct (dtr_len r) as [m|e|] eqn:L; cbn [bind rmap]; try reflexivity.
    apply mapM_rev with (e := OverflowError).
    intros k I. apply in_seq in I. apply ssize_ok in L. destruct L as (-> & B).
    rewrite ?(h_get r _ H). rewrite dtr_get_nonneg by (cbn [r_length r] in *; lia). apply i2v_total. }
  fold r in C |- *. rewrite !C, !map_app. cbn [map do_use]. unfold pure. cbn [fst]. rewrite R.
  split; [intros l Q|intros e Q]; apply app_inv_head in Q;
    (destruct (o_list (fresh r)); cbn [rmap] in *; try discriminate; [congruence || (injection Q as ->; reflexivity) ..]).
Qed.
Print Assumptions C63_reversed.

Example C63_example :
  exists o, new_range (VDt D20160101) (VInt 3) (VTd (7 * DAY)) = Ok o /\
  history [AskList; AskReversed] o =
  [Ok (SList [D20160101; Dt KDate 735971; Dt KDate 735978]); Ok (SList [Dt KDate 735978; Dt KDate 735971; D20160101])].
Proof. eexists. split; [vm_compute; reflexivity|vm_compute; reflexivity]. Qed.
