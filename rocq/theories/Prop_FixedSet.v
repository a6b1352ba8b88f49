(** * Assigning reset_after_call between the calls (C32, C33)

    The theorems C32_repeats_forever and C33_back_to_back of Prop_Fixed.v follow an
    emitter while reset_after_call stays as it is.  Here it is assigned between the
    requests, any number of times: the assignment by itself moves nothing. *)
From Verif Require Import Base Prims FixedModel ChoiceRun FixedSpec FixedProofs.

(** ** Specification *)

(** Requests, each after some assignments to [em.reset_after_call]. *)
Section Between.
  Context {A S : Type} (emit : M S A) (emit_many : Z -> M S (list A)) (set_rac : bool -> S -> S).
  Fixpoint asks_between (qs : list (list bool * ask)) (s : S) : list (res (list A)) * S :=
    match qs with
    | [] => ([], s)
    | (bs, q) :: t =>
        let '(o, s) := ask_with emit emit_many q (fold_left (fun s b => set_rac b s) bs s) in
        let '(os, s) := asks_between t s in
        (o :: os, s)
    end.
End Between.

(** The value last assigned, if any; otherwise the former one. *)
Definition in_force (former : bool) (bs : list bool) : bool := last bs former.

(** No request but the last is made while reset_after_call is true. *)
Fixpoint off_until_last (former : bool) (qs : list (list bool * ask)) : Prop :=
  match qs with
  | [] => True
  | (bs, _) :: t => (t = [] \/ in_force former bs = false) /\ off_until_last (in_force former bs) t
  end.

(** Every request was for at least zero values. *)
Definition sizes_ok (qs : list (list bool * ask)) : Prop := Forall (fun q => 0 <= ask_size (snd q)) qs.

Definition iter_asks_between {A} fuel := asks_between (iter_emit (A:=A) fuel) (iter_emit_many fuel) iter_set_rac.
Definition seq_asks_between {A} fuel := asks_between (seq_emit (A:=A) fuel) (seq_emit_many fuel) seq_set_rac.

(** ** Proofs *)

Lemma last_cons {X} (b : X) l d : last (b :: l) d = last l b.
Proof. revert b d. induction l as [|x l IH]; intros b d; [reflexivity|]. change (last (x :: l) d = last (x :: l) b). rewrite !IH. reflexivity. Qed.

Lemma iter_sets {A} bs : forall i : iterative A,
  fold_left (fun s b => iter_set_rac b s) bs i = mkIter (i_factory i) (i_gen i) (in_force (i_rac i) bs).
Proof.
  unfold in_force. induction bs as [|b bs IH]; intros i; [now destruct i|].
  cbn [fold_left]. rewrite IH. cbn [i_factory i_gen i_rac iter_set_rac]. now rewrite last_cons.
Qed.
Lemma seq_sets {A} bs : forall s : sequential A,
  fold_left (fun s b => seq_set_rac b s) bs s =
  mkSeq (s_items s) (s_own s) (s_factory s) (s_gen s) (in_force (s_rac s) bs).
Proof.
  unfold in_force. induction bs as [|b bs IH]; intros i; [now destruct i|].
  cbn [fold_left]. rewrite IH. cbn [s_items s_own s_factory s_gen s_rac seq_set_rac]. now rewrite last_cons.
Qed.

Lemma iter_between_go {A} fuel qs : forall (i : iterative A) (outs : list (list A)) i', gen_wf (i_gen i) ->
  off_until_last (i_rac i) qs -> sizes_ok qs ->
  iter_asks_between fuel qs i = (map Ok outs, i') ->
  back_to_back (i_factory i) (fst (stand (i_gen i))) (snd (stand (i_gen i))) (concat outs) /\
  Forall2 (fun q (l : list A) => zlen l = ask_size (snd q)) qs outs.
Proof.
  induction qs as [|[bs q] qs IH]; intros i outs i' W Hoff Hq E.
  - cbn in E. destruct outs; [|discriminate]. cbn. split; constructor.
  - inversion Hq as [|x y Hq1 Hq2]; subst. cbn [snd] in Hq1. unfold iter_asks_between in E. cbn [asks_between] in E.
    fold (@iter_asks_between A fuel) in E. rewrite iter_sets in E.
    rewrite iter_ask_take in E. replace (ask_size q <? 0) with false in E by (symmetry; apply Z.ltb_ge; auto).
    unfold iter_run in E. cbn [i_factory i_gen i_rac] in E. destruct Hoff as [Hlast Hoff].
    set (b := in_force (i_rac i) bs) in *.
    destruct (gen_take fuel (i_factory i) (Z.to_nat (ask_size q)) (i_gen i)) as [[l|e|] g] eqn:Eg.
    2, 3: destruct (iter_asks_between _ _ _) as [os i2]; destruct outs; discriminate.
    apply gen_take_spec in Eg; auto. destruct Eg as (W' & Hc & Hlen & Hin & Hge & HB).
    destruct Hlast as [->|Hb].
    + cbn in E. destruct outs as [|l' [|]]; try discriminate. injection E as <- _. cbn. rewrite app_nil_r. split.
      * specialize (HB [] ltac:(constructor)). now rewrite app_nil_r in HB.
      * constructor; [|constructor]. unfold zlen. cbn [snd]. lia.
    + rewrite Hb in E, Hoff.
      destruct (iter_asks_between fuel qs _) as [os i2] eqn:E2.
      destruct outs as [|l' outs]; [discriminate|]. cbn [map] in E. injection E as -> -> ->.
      apply IH in E2; auto. cbn in E2. destruct E2 as [HB2 HF]. split.
      * cbn. apply HB, HB2.
      * constructor; auto. unfold zlen. cbn [snd]. lia.
Qed.

Lemma seq_between_go {A} fuel (items : list A) qs : items <> [] -> (1 <= fuel)%nat -> forall s, seq_wf items s ->
  off_until_last (s_rac s) qs -> sizes_ok qs ->
  exists (outs : list (list A)) s', seq_asks_between fuel qs s = (map Ok outs, s') /\
    back_to_back (fun _ => Finite items true) (fst (stand (s_gen s))) (snd (stand (s_gen s))) (concat outs) /\
    Forall2 (fun q (l : list A) => zlen l = ask_size (snd q)) qs outs.
Proof.
  intros Hne Hf. induction qs as [|[bs q] qs IH]; intros s W Hoff Hq.
  - exists [], s. cbn. repeat split; constructor.
  - inversion Hq as [|x y Hq1 Hq2]; subst. cbn [snd] in Hq1. unfold seq_asks_between. cbn [asks_between].
    fold (@seq_asks_between A fuel). rewrite seq_sets.
    rewrite seq_ask_take. replace (ask_size q <? 0) with false by (symmetry; apply Z.ltb_ge; auto).
    destruct Hoff as [Hlast Hoff]. set (b := in_force (s_rac s) bs) in *.
    unfold seq_run. rewrite (seq_wf_factory items (mkSeq (s_items s) (s_own s) (s_factory s) (s_gen s) b)); [|destruct W as (?&?&?); repeat split; auto].
    cbn [s_items s_own s_factory s_gen s_rac]. pose proof W as (Hi & Ho & Wg).
    destruct (gen_take_ok fuel (fun _ => Finite items true) (Z.to_nat (ask_size q)) (s_gen s) Hf) as (l & g & Eg).
    { intros _. destruct items; cbn; congruence. }
    rewrite Eg. apply gen_take_spec in Eg; auto. destruct Eg as (W' & Hc & Hlen & Hin & Hge & HB).
    destruct Hlast as [->|Hb].
    + cbn. eexists [l], _. split; [reflexivity|]. cbn. rewrite app_nil_r. split.
      * specialize (HB [] ltac:(constructor)). now rewrite app_nil_r in HB.
      * constructor; [|constructor]. unfold zlen. cbn [snd]. lia.
    + rewrite Hb in *.
      destruct (IH (mkSeq (s_items s) (s_own s) (s_factory s) g false)) as (outs & s' & E2 & HB2 & HF).
      { repeat split; auto. } { exact Hoff. } { auto. }
      rewrite E2. exists (l :: outs), s'. repeat split; auto.
      * cbn. apply HB, HB2.
      * constructor; auto. unfold zlen. cbn [snd]. lia.
Qed.

(** ** C33 *)

(** After any history that ends with a reset (or right after construction), the
    values of all the requests up to and including the first one made with
    reset_after_call on read the iterators back to back, from the start of an
    iterator that has emitted nothing; whatever was assigned in between.  That last
    request leaves the emitter as a reset does. *)
Theorem C33_assignments :
  forall (A : Type) fuel (its : factory A) rac i ops vs i1, iter_new its rac = Ok i ->
  iter_ops fuel ops i = (vs, i1) ->
  let start := iter_reset i1 in
  exists c, (ops = [] -> start = i /\ c = 1%nat) /\
  (forall v, In v vs -> exists c' p, (1 <= c' < c)%nat /\ it_at (its c') p = Some v) /\
  forall qs outs i2, sizes_ok qs -> off_until_last (i_rac start) qs ->
  iter_asks_between fuel qs start = (map Ok outs, i2) ->
  Forall2 (fun q (l : list A) => zlen l = ask_size (snd q)) qs outs /\
  back_to_back its c 0 (concat outs).
Proof.
  intros A fuel its rac i ops vs i1 Hi Hops start.
  assert (Hi' : i = mkIter its (mkGen 1 None) rac).
  { unfold iter_new, check_iter_factory in Hi. destruct (it_at (its 0%nat) 0); [|discriminate]. now injection Hi as <-. }
  subst i. pose proof (iter_ops_inv fuel ops (mkIter its (mkGen 1 None) rac) _ _ I (le_n 1) Hops) as (Hf & W & Hc & Hin & Hst). cbn in *.
  exists (g_calls (i_gen i1)). split.
  { intros ->. unfold iter_ops in Hops. cbn in Hops. injection Hops as <- <-. auto. }
  split. { intros v Hv. destruct (Hin (le_n 1) v Hv) as (c & p & Hr & Ha). exists c, p. split; auto. }
  intros qs outs i2 Hq Hoff E. destruct (iter_between_go fuel qs start outs i2 I Hoff Hq E) as [HB HF].
  cbn in HB. rewrite Hf in HB. auto.
Qed.
Print Assumptions C33_assignments.

(** A request made with reset_after_call on leaves the emitter as after a reset, and
    an assignment sets nothing but the flag. *)
Theorem C33_flag :
  forall (A : Type) fuel (i : iterative A),
  (forall q l i', i_rac i = true -> ask_with (iter_emit fuel) (iter_emit_many fuel) q i = (Ok l, i') -> iter_reset i' = i') /\
  (forall b, i_rac (iter_set_rac b i) = b) /\
  (forall b, iter_set_rac (i_rac i) (iter_set_rac b i) = i).
Proof.
  intros A fuel i. repeat split.
  - intros q l i' Hr E. rewrite iter_ask_take in E. destruct (ask_size q <? 0); [discriminate|].
    unfold iter_run in E. destruct (gen_take _ _ _ _) as [[b|e|] g]; try discriminate.
    cbn [i_rac] in E. rewrite Hr in E. injection E as _ <-. reflexivity.
  - intros b. now destruct i.
Qed.
Print Assumptions C33_flag.

(** ** C32 *)

(** The same of a Sequential: the values are the items, repeated. *)
Theorem C32_assignments :
  forall (A : Type) fuel (items : list A) rac s ops qs, (1 <= fuel)%nat ->
  seq_new items rac = Ok s ->
  let start := seq_reset (snd (seq_ops fuel ops s)) in
  sizes_ok qs -> off_until_last (s_rac start) qs ->
  exists outs s', seq_asks_between fuel qs start = (map Ok outs, s') /\
    Forall2 (fun q (l : list A) => zlen l = ask_size (snd q)) qs outs /\
    repeated items (length (concat outs)) (concat outs).
Proof.
  intros A fuel items rac s ops qs Hf Hs start Hq Hoff.
  assert (Hne : items <> []) by (destruct items; [discriminate|congruence]).
  assert (W : seq_wf items s).
  { destruct items; [discriminate|]. injection Hs as <-. repeat split. }
  assert (W1 : seq_wf items start).
  { pose proof (seq_ops_inv fuel items ops s W) as (H1 & H2 & H3). repeat split; auto. }
  destruct (seq_between_go fuel items qs Hne Hf start W1 Hoff Hq) as (outs & s' & E & HB & HF).
  exists outs, s'. split; auto. split; auto. split; auto. intros k Hk.
  apply (back_to_back_cycle items true _ _ _ Hne (Nat.le_0_l _) HB k Hk).
Qed.
Print Assumptions C32_assignments.

Theorem C32_flag :
  forall (A : Type) fuel (s : sequential A),
  (forall q l s', s_rac s = true -> ask_with (seq_emit fuel) (seq_emit_many fuel) q s = (Ok l, s') -> seq_reset s' = s') /\
  (forall b, s_rac (seq_set_rac b s) = b) /\
  (forall b, seq_set_rac (s_rac s) (seq_set_rac b s) = s).
Proof.
  intros A fuel s. repeat split.
  - intros q l i' Hr E. rewrite seq_ask_take in E. destruct (ask_size q <? 0); [discriminate|].
    unfold seq_run in E. destruct (gen_take _ _ _ _) as [[b|e|] g]; try discriminate.
    cbn [s_rac] in E. rewrite Hr in E. injection E as _ <-. reflexivity.
  - intros b. now destruct s.
Qed.
Print Assumptions C32_flag.

Example C32_assignments_case :
  match seq_new [10; 20; 30]%nat true with
  | Ok s => let qs := [([false], CallN 2); ([true; false], Call0); ([true], CallN 2); ([], Call0)] in
            off_until_last true (firstn 3 qs) /\ sizes_ok qs /\
            fst (seq_asks_between 1 qs s) = [Ok [10; 20]; Ok [30]; Ok [10; 20]; Ok [10]]%nat
  | _ => False
  end.
Proof. cbn. repeat split; auto. repeat constructor; cbn; lia. Qed.

Example C33_assignments_case :
  match iter_new (fun n => match n with 1%nat => Finite [1; 2; 3]%nat false | _ => Infinite (fun k => 100 + k)%nat end) true with
  | Ok i => let qs := [([false], CallN 2); ([true; false], CallN 3); ([true], CallN 2); ([], Call0)] in
            off_until_last true (firstn 3 qs) /\ sizes_ok qs /\
            fst (iter_asks_between 2 qs i) = [Ok [1; 2]; Ok [3; 100; 101]; Ok [102; 103]; Ok [100]]%nat
  | _ => False
  end.
Proof. cbn. repeat split; auto. repeat constructor; cbn; lia. Qed.
