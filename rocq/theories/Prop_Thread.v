(** * Properties C101 and C102: a Choice emitter that several threads call.

    Vocabulary: [ThreadModel.v] (threads, steps of calls, schedules), [ThreadProofs.v]
    ([requests] and [outcomes] of the calls that have ended, in this order),
    [ChoiceRun.v] (requests, [just_shuffled]). *)
From Coq Require Import Permutation QArith Qcanon.
From Verif Require Import Base Prims MathModel MathSpec NumSpec MathProofs NumLaws QcNum
  ChoiceModel ChoiceRun ChoiceProofs ChoiceProofs2 Demo Prop_Choice ThreadModel ThreadProofs.
Open Scope Z_scope.

(** Threads that make the calls [todo] (a list for each thread) of the emitter [c], run as
    the schedule says *)
Definition threads (P : prims) {A} (setsize : list A -> res Z) fuel (c : @choice P A) (todo : list (list ask)) (schedule : list nat) :=
  run (choice_start P c) (choice_step P setsize fuel) schedule (begin todo c).
(** One call at a time: what a lock around the calls achieves *)
Definition locked (P : prims) {A} (setsize : list A -> res Z) fuel (c : @choice P A) (todo : list (list ask)) (schedule : list nat) : Prop :=
  one_at_a_time (choice_start P c) (choice_step P setsize fuel) schedule (begin todo c).
Definition returned {A} (r : res (list A)) : list A := match r with Ok l => l | _ => [] end.
(** All values that the threads have got *)
Definition values {S Q L A} (y : system S Q L (list A)) : list A := concat (map returned (outcomes y)).

(** ** C101: without replacement *)
Definition C101_statement : Prop :=
  forall (P : prims) (A : Type) (setsize : list A -> res Z) fuel items c todo schedule,
  w_true P (w_zero P) = false -> (forall l, incl l items -> exists n, setsize l = Ok n) ->
  just_shuffled P setsize fuel items c -> Forall (Forall (fun r => 0 <= ask_size r)) todo ->
  (* no item is handed out twice *)
  exists rest, Permutation (values (threads P setsize fuel c todo schedule) ++ rest) items.

Definition c101 := made (choice_new (QP demo) 5 demo_items None false false (Some 3%nat) None 0%nat).
Definition s101 : list nat := [0; 1; 0; 1; 0; 1; 0; 0; 0; 0; 1; 1; 1; 1]%nat.
Definition t101 todo s := threads (QP demo) (count_distinct Nat.eq_dec) 5 c101 todo s.

Lemma c101_shuffled : just_shuffled (QP demo) (count_distinct Nat.eq_dec) 5 demo_items c101.
Proof. eapply JS_new; [apply made_ok|]; vm_compute; reflexivity. Qed.

(** Two threads, a call each, four different items: both get the same item. *)
Theorem C101_twice_refuted : ~ C101_statement.
Proof.
  intros S. destruct (S (QP demo) nat (count_distinct Nat.eq_dec) 5%nat demo_items c101 [[Call0]; [Call0]] s101) as [rest H].
  - reflexivity.
  - intros l _. unfold count_distinct. eauto.
  - exact c101_shuffled.
  - repeat constructor; cbn; lia.
  - assert (V : values (threads (QP demo) (count_distinct Nat.eq_dec) 5 c101 [[Call0]; [Call0]] s101) = [20; 20]%nat) by (vm_compute; reflexivity).
    rewrite V in H. apply Permutation_sym, Permutation_NoDup in H; [|unfold demo_items; repeat constructor; cbn; intuition congruence].
    cbn in H. inversion H. apply H2. left. reflexivity.
Qed.
Print Assumptions C101_twice_refuted.

(** After that the other thread's item is skipped: four more calls are refused after two,
    and an item is left that nobody has got. *)
Theorem C101_skips :
  let y := t101 [[Call0]; [Call0; Call0; Call0; Call0]] (s101 ++ repeat 1%nat 30) in
  idle y /\ outcomes y = [Ok [20]; Ok [20]; Ok [10]; Ok [30]; Raise ValueError]%nat /\ In 40%nat demo_items.
Proof.
  split; [|split].
  - intros th H. vm_compute in H. intuition (subst; reflexivity).
  - vm_compute. reflexivity.
  - cbn. tauto.
Qed.
Print Assumptions C101_skips.

(** When the update of the number of items is lost, a call fails with an IndexError. *)
Theorem C101_index_error :
  let y := t101 [[Call0]; [Call0; Call0; Call0; Call0]] ([0; 0; 0; 0; 0] ++ [1; 1; 1; 1; 1] ++ [0; 1; 0; 1] ++ repeat 1 30)%nat in
  idle y /\ outcomes y = [Ok [20]; Ok [40]; Ok [10]; Ok [30]; Raise IndexError]%nat.
Proof.
  split.
  - intros th H. vm_compute in H. intuition (subst; reflexivity).
  - vm_compute. reflexivity.
Qed.
Print Assumptions C101_index_error.

Lemma slice_incl {A} (l : list A) a b : incl (list_slice l a b) l.
Proof. intros x H. unfold list_slice in H. apply in_firstn in H. rewrite <- (firstn_skipn (Z.to_nat (clip_bound (zlen l) a)) l). apply in_or_app. right. exact H. Qed.
Lemma get_in {A} (l : list A) i a : list_get l i = Ok a -> In a l.
Proof. unfold list_get. destruct (norm_index (zlen l) i); [|discriminate]. destruct (nth_error l n) eqn:E; [|discriminate]. intros H. injection H as <-. eapply nth_error_In; eauto. Qed.
Lemma get_raises {A} (l : list A) i : (exists a, list_get l i = Ok a) \/ list_get l i = Raise IndexError.
Proof. unfold list_get. destruct (norm_index (zlen l) i); [|auto]. destruct (nth_error l n); eauto. Qed.

(** Whatever the schedule: what is returned are items, and a call that fails raises a
    ValueError or an IndexError. *)
Theorem C101_values :
  forall (P : prims) (A : Type) (setsize : list A -> res Z) fuel items c todo schedule,
  w_true P (w_zero P) = false -> (forall l, incl l items -> exists n, setsize l = Ok n) ->
  just_shuffled P setsize fuel items c ->
  Forall (fun r => (exists l, r = Ok l /\ incl l items) \/ r = Raise ValueError \/ r = Raise IndexError)
         (outcomes (threads P setsize fuel c todo schedule)).
Proof.
  intros P A setsize fuel items c todo schedule Hz Hs J.
  destruct (just_shuffled_left P setsize fuel Hz items c J) as ((_ & Hi & _ & _ & Hc) & Hr & _). rewrite Hr in Hc. destruct Hc as (i0 & Hp & Si & _).
  set (Inv (d : @choice P A) := c_replace d = false /\ c_shuffled d = c_shuffled c /\ exists i, c_sidx d = Some i).
  set (Here (l : where_in A) := match l with
    | OneCall _ | Begin _ | Draw _ _ => False
    | ReadIndex _ g | WriteIndex _ g _ | ReadLeft _ g | WriteLeft _ g _ => incl g items
    | _ => True end).
  set (Good (r : res (list A)) := (exists l, r = Ok l /\ incl l items) \/ r = Raise ValueError \/ r = Raise IndexError).
  assert (Sub : forall l, incl l (c_shuffled c) -> incl l items) by (intros l H x Hx; eapply Permutation_in; [exact Hp | apply H, Hx]).
  destruct (always_run (choice_start P c) (choice_step P setsize fuel) Inv Here Good) with (schedule := schedule) (todo := todo) (s := c) as (_ & _ & G).
  - intros q. unfold choice_start. rewrite Hr. cbn [negb orb]. destruct q; try exact I. destruct (n =? 1); exact I.
  - intros l d (Rd & Sd & j & Jd) H. destruct l; cbn [choice_step Here] in *; try contradiction.
    + destruct (c_nui d <? n); [|rewrite Rd]; cbn; unfold Inv; eauto 6.
    + unfold uniqueness_violation, mbind, ChoiceModel.get, lift, raise, num_unique_values. rewrite Rd, Jd, Sd.
      destruct (Hs (list_slice (c_shuffled c) j (zlen (c_shuffled c)))) as [k ->]; [apply Sub, slice_incl|]. cbn. unfold Inv, Good. eauto 8.
    + rewrite Jd, Sd. destruct (n =? 1).
      * destruct (get_raises (c_shuffled c) j) as [[a E]|E]; rewrite E; cbn; unfold Inv, Good; (split; [eauto 6|]); [|auto].
        apply Sub. intros x [<-|[]]. eapply get_in, E.
      * cbn. split; [unfold Inv; eauto 6|]. apply Sub, slice_incl.
    + rewrite Jd. cbn. unfold Inv. eauto 6.
    + cbn. unfold Inv. cbn. rewrite Sd. eauto 6.
    + cbn. unfold Inv. eauto 6.
    + cbn. unfold Inv, Good. cbn. split; [eauto 6|]. left. eauto.
  - unfold Inv. eauto 6.
  - unfold threads, outcomes. rewrite Forall_map. exact G.
Qed.
Print Assumptions C101_values.

(** Calls made one at a time deal out the items, however the threads take turns. *)
Theorem C101_locked :
  forall (P : prims) (A : Type) (setsize : list A -> res Z) fuel items c todo schedule,
  w_true P (w_zero P) = false -> (forall l, incl l items -> exists n, setsize l = Ok n) ->
  just_shuffled P setsize fuel items c -> Forall (Forall (fun r => 0 <= ask_size r)) todo ->
  let y := threads P setsize fuel c todo schedule in
  locked P setsize fuel c todo schedule -> idle y ->
  exists order, Permutation order items /\
    outcomes y = map (fun o => match o with Some l => Ok l | None => Raise ValueError end)
                     (deal order (map (fun r => Z.to_nat (ask_size r)) (requests y))) /\
    exists rest, values y ++ rest = order.
Proof.
  intros P A setsize fuel items c todo schedule Hz Hs J Hq y O Id.
  assert (Hr : c_replace c = false) by (apply (just_shuffled_left P setsize fuel Hz items c J)).
  assert (E : do_asks P setsize fuel (requests y) c = (outcomes y, s_shared y)).
  { apply choice_serial; auto. intros X. congruence. }
  assert (F : Forall (fun r => 0 <= ask_size r) (requests y)).
  { unfold y, threads. clear - Hq.
    assert (G : forall z : system (@choice P A) ask (where_in A) (list A),
      Forall (fun th => Forall (fun r => 0 <= ask_size r) (t_todo th) /\ match t_now th with Some (q, _) => 0 <= ask_size q | None => True end) (s_threads z) ->
      Forall (fun r => 0 <= ask_size r) (requests z) ->
      Forall (fun r => 0 <= ask_size r) (requests (run (choice_start P c) (choice_step P setsize fuel) schedule z))).
    { induction schedule as [|i t IH]; intros z T R; [exact R|]. cbn [run].
      assert (U : forall th, Forall (fun r => 0 <= ask_size r) (t_todo th) /\ match t_now th with Some (q, _) => 0 <= ask_size q | None => True end ->
        Forall (fun th => Forall (fun r => 0 <= ask_size r) (t_todo th) /\ match t_now th with Some (q, _) => 0 <= ask_size q | None => True end) (upd i th (s_threads z))).
      { intros th Ht. apply Forall_forall. intros x Hx. apply in_upd in Hx as [->|Hx]; [exact Ht|]. rewrite Forall_forall in T. apply T, Hx. }
      unfold run_one. destruct (nth_error (s_threads z) i) as [th|] eqn:Ei; [|apply IH; auto].
      assert (Tt : Forall (fun r => 0 <= ask_size r) (t_todo th) /\ match t_now th with Some (q, _) => 0 <= ask_size q | None => True end)
        by (rewrite Forall_forall in T; apply T; eapply nth_error_In, Ei).
      destruct (t_now th) as [[q l]|].
      - destruct (choice_step P setsize fuel l (s_shared z)) as [[l'|r] s']; apply IH; cbn [s_threads]; try (apply U; cbn; tauto); auto.
        unfold requests in *. cbn [s_log]. rewrite map_app. apply Forall_app. split; [exact R|]. constructor; [cbn; tauto | constructor].
      - destruct (t_todo th) as [|q t']; apply IH; auto. cbn [s_threads]. apply U. cbn. destruct Tt as [Tt _]. inversion Tt; auto. }
    apply G; [|constructor]. cbn. apply Forall_map. eapply Forall_impl; [|exact Hq]. cbn. auto. }
  destruct (C23_each_item_once P A setsize fuel items c Hz Hs J) as (order & Hp & Rm & Hpre & _). exists order. split; [exact Hp|]. split.
  - specialize (Rm _ F). rewrite E in Rm. cbn [fst] in Rm. rewrite Rm. reflexivity.
  - specialize (Hpre _ F). rewrite E in Hpre. exact Hpre.
Qed.
Print Assumptions C101_locked.

(** Two threads taking turns, a call at a time *)
Example C101_example :
  let todo := [[Call0; CallN 2]; [Call0; Call0]] in
  let s := ([0; 0; 0; 0; 0; 0; 0; 0] ++ [1; 1; 1; 1; 1; 1; 1; 1] ++ [0; 0; 0; 0; 0; 0; 0; 0] ++ [1; 1; 1; 1; 1; 1; 1; 1])%nat in
  (idle (t101 todo s) /\ outcomes (t101 todo s) = [Ok [20]; Ok [40]; Ok [10; 30]; Raise ValueError]%nat /\
   map (fun e => fst (fst e)) (s_log (t101 todo s)) = [0; 1; 0; 1]%nat) /\
  locked (QP demo) (count_distinct Nat.eq_dec) 5 c101 [[Call0]; [Call0]] ([0; 0; 0; 0; 0; 0; 0] ++ [1; 1; 1; 1; 1; 1; 1])%nat.
Proof.
  split; [split; [|split]|].
  - intros th H. vm_compute in H. intuition (subst; reflexivity).
  - vm_compute. reflexivity.
  - vm_compute. reflexivity.
  - unfold locked. cbn [app one_at_a_time].
    repeat (split; [intros [|[|j]] th E N; vm_compute in E; try congruence; try (injection E as <-; reflexivity); try (destruct j; discriminate)|]). exact I.
Qed.

(** ** How many values can there be?  At most T + T^2 + ... + T^N, for T threads and N
    items: so the emitter is exhausted in the end, whatever the schedule. *)
Fixpoint at_most (T N : nat) : nat := match N with O => O | S n => T * (1 + at_most T n) end.
Definition succeeded {A} (rs : list (res A)) : nat := length (filter (fun r => match r with Ok _ => true | _ => false end) rs).

Lemma sum_upd {X} (f : X -> nat) i x y l : nth_error l i = Some x ->
  (list_sum (map f (upd i y l)) + f x = list_sum (map f l) + f y)%nat.
Proof.
  unfold list_sum. revert i. induction l as [|a l IH]; intros [|i] H; try discriminate; cbn [nth_error upd map fold_right] in *.
  - injection H as <-. lia.
  - specialize (IH i H). lia.
Qed.
Lemma upd_len {X} i (x : X) l : length (upd i x l) = length l.
Proof. revert i. induction l as [|a l IH]; intros [|i]; cbn; auto. Qed.

Section Bound.
  Context (P : prims) {A : Type} (setsize : list A -> res Z) (fuel : nat) (c0 : @choice P A) (T : nat).
  Context (R0 : c_replace c0 = false).
  Notation sys := (system (@choice P A) ask (where_in A) (list A)).

  (** successes a thread may still bring about, at level [m] *)
  Definition credit (m : Z) (th : thread ask (where_in A)) : nat :=
    match t_now th with
    | None | Some (_, Check _) | Some (_, Violation) => if (m <=? 0)%Z then 0 else 1 + at_most T (Z.to_nat (m - 1)%Z)
    | Some (_, WriteLeft _ _ k) => 1 + at_most T (Z.to_nat (k - 1)%Z)
    | Some _ => 1 + at_most T (Z.to_nat (m - 1)%Z)
    end%nat.
  Definition single (l : where_in A) : Prop :=
    match l with
    | Check n | Take n | ReadIndex n _ | WriteIndex n _ _ | ReadLeft n _ | WriteLeft n _ _ => n = 1
    | Violation => True
    | _ => False
    end.
  Definition bounded (B : nat) (y : sys) : Prop :=
    c_replace (s_shared y) = false /\ length (s_threads y) = T /\
    (forall th, In th (s_threads y) -> Forall (fun q => ask_size q = 1) (t_todo th) /\ (forall q l, t_now th = Some (q, l) -> single l)) /\
    (succeeded (outcomes y) + list_sum (map (credit (c_nui (s_shared y))) (s_threads y)) <= B)%nat.

  (** When the level becomes [m], the other threads gain no more than this. *)
  Lemma new_level m m' (l : list (thread ask (where_in A))) :
    (list_sum (map (credit m') l) <= list_sum (map (credit m) l) + length l * (if (m' <=? 0)%Z then 0 else 1 + at_most T (Z.to_nat (m' - 1)%Z)))%nat.
  Proof.
    induction l as [|th l IH]; [cbn; lia|]. cbn [map list_sum fold_right length Nat.mul]. fold (list_sum (map (credit m') l)). fold (list_sum (map (credit m) l)).
    enough (credit m' th <= credit m th + (if (m' <=? 0)%Z then 0 else 1 + at_most T (Z.to_nat (m' - 1)%Z)))%nat by lia.
    clear IH. assert (Z0 : m' <= 0 -> at_most T (Z.to_nat (m' - 1)) = 0%nat) by (intros; replace (Z.to_nat (m' - 1)) with 0%nat by lia; reflexivity).
    unfold credit. destruct (t_now th) as [[q w]|]; [destruct w|]; destruct (Z.leb_spec m' 0); try (rewrite (Z0 ltac:(lia))); try lia.
  Qed.
  Lemma succeeded_app (a b : list (res (list A))) : succeeded (a ++ b) = (succeeded a + succeeded b)%nat.
  Proof. unfold succeeded. rewrite filter_app, app_length. reflexivity. Qed.

  Lemma bounded_step B i y : bounded B y -> bounded B (run_one (choice_start P c0) (choice_step P setsize fuel) i y).
  Proof.
    intros (Rr & Lt & W & Bd). unfold run_one. destruct (nth_error (s_threads y) i) as [th|] eqn:Ei; [|split; auto].
    destruct (W th (nth_error_In _ _ Ei)) as [Wt Wn].
    assert (Go : forall now c log, c_replace c = false -> (forall q l, now = Some (q, l) -> single l) ->
      (succeeded (map snd log) + list_sum (map (credit (c_nui c)) (upd i (mkThread (t_todo th) now) (s_threads y))) <= B)%nat ->
      bounded B (mkSystem (upd i (mkThread (t_todo th) now) (s_threads y)) c log)).
    { intros now c log Rc Sc Bc. split; [exact Rc|]. split; [cbn; rewrite upd_len; exact Lt|]. split; [|exact Bc].
      intros t Ht. apply in_upd in Ht as [->|Ht]; [split; [exact Wt | exact Sc] | auto]. }
    (* the level stays and the credit of the thread does not grow *)
    assert (Keep : forall now c log, c_replace c = false -> c_nui c = c_nui (s_shared y) -> (forall q l, now = Some (q, l) -> single l) ->
      (succeeded (map snd log) + credit (c_nui (s_shared y)) (mkThread (t_todo th) now) <= succeeded (outcomes y) + credit (c_nui (s_shared y)) th)%nat ->
      bounded B (mkSystem (upd i (mkThread (t_todo th) now) (s_threads y)) c log)).
    { intros now c log Rc Nc Sc Cr. apply Go; auto. rewrite Nc.
      pose proof (sum_upd (credit (c_nui (s_shared y))) i th (mkThread (t_todo th) now) _ Ei). lia. }
    destruct (t_now th) as [[q l]|] eqn:Nw.
    - specialize (Wn q l eq_refl). set (m := c_nui (s_shared y)) in *.
      assert (Ct : credit m th = credit m (mkThread (t_todo th) (Some (q, l)))) by (unfold credit; rewrite Nw; reflexivity).
      assert (Fail : forall c r, c = s_shared y -> match r with Ok _ => False | _ => True end -> (credit m (mkThread (t_todo th) None) <= credit m th)%nat ->
        bounded B (mkSystem (upd i (mkThread (t_todo th) None) (s_threads y)) c (s_log y ++ [(i, q, r)]))).
      { intros c r -> Hf Hc. apply Keep; auto; [discriminate|]. rewrite map_app, succeeded_app. change (map snd (s_log y)) with (outcomes y).
        assert (succeeded (map snd [(i, q, r)]) = 0%nat) by (destruct r; [contradiction | reflexivity..]). lia. }
      destruct l; cbn [single choice_step] in *; try contradiction; subst.
      + fold m. destruct (Z.ltb_spec m 1).
        * apply Keep; auto; [intros ? ? E; injection E as <- <-; exact I|]. fold (outcomes y). rewrite Ct. unfold credit. cbn. lia.
        * rewrite Rr. cbn [negb]. apply Keep; auto; [intros ? ? E; injection E as <- <-; reflexivity|]. fold (outcomes y). rewrite Ct. unfold credit. cbn [t_now].
          destruct (Z.leb_spec m 0); lia.
      + unfold uniqueness_violation, mbind, ChoiceModel.get, lift, raise. destruct (num_unique_values P setsize (s_shared y)); apply Fail; auto; rewrite Ct; unfold credit; cbn; lia.
      + assert (Cn : (credit m (mkThread (t_todo th) None) <= credit m th)%nat) by (rewrite Ct; unfold credit; cbn [t_now]; destruct (m <=? 0); lia).
        destruct (c_sidx (s_shared y)); [|apply Fail; auto]. cbn [Z.eqb Pos.eqb].
        destruct (list_get _ z); [|apply Fail; auto..]. apply Keep; auto; [intros ? ? E; injection E as <- <-; reflexivity|]. fold (outcomes y). rewrite Ct. unfold credit. cbn. lia.
      + assert (Cn : (credit m (mkThread (t_todo th) None) <= credit m th)%nat) by (rewrite Ct; unfold credit; cbn [t_now]; destruct (m <=? 0); lia).
        destruct (c_sidx (s_shared y)); [|apply Fail; auto]. apply Keep; auto; [intros ? ? E; injection E as <- <-; reflexivity|]. fold (outcomes y). rewrite Ct. unfold credit. cbn. lia.
      + apply Keep; auto; [intros ? ? E; injection E as <- <-; reflexivity|]. fold (outcomes y). rewrite Ct. unfold credit. cbn. lia.
      + apply Keep; auto; [intros ? ? E; injection E as <- <-; reflexivity|]. fold (outcomes y). fold m. rewrite Ct. unfold credit. cbn. lia.
      + apply Go; [exact Rr | discriminate|]. rewrite map_app, succeeded_app. fold (outcomes y). cbn [c_nui set_nui map snd]. unfold succeeded at 2. cbn [filter length].
        set (m' := m0 - 1). set (th' := mkThread (t_todo th) None).
        pose proof (sum_upd (credit m) i th th' _ Ei) as E1. pose proof (sum_upd (credit m') i th th' _ Ei) as E2.
        (* all threads but this one *)
        assert (Split : exists l1 l2, s_threads y = l1 ++ th :: l2) by (apply nth_error_split in Ei as (l1 & l2 & X & _); eauto).
        destruct Split as (l1 & l2 & Sp). rewrite Sp in *. rewrite !map_app in *. cbn [map] in *. rewrite !list_sum_app in *. cbn [list_sum fold_right] in *.
        fold (list_sum (map (credit m') l2)) in *. fold (list_sum (map (credit m) l2)) in *.
        pose proof (new_level m m' l1) as N1. pose proof (new_level m m' l2) as N2.
        assert (Ct1 : credit m th = (1 + at_most T (Z.to_nat m'))%nat) by (rewrite Ct; reflexivity).
        assert (Cn : credit m' th' = (if (m' <=? 0)%Z then 0 else 1 + at_most T (Z.to_nat (m' - 1)))%nat) by reflexivity.
        assert (Lt2 : (length l1 + length l2 + 1 = T)%nat) by (rewrite <- Lt, app_length; cbn [length]; lia).
        rewrite Ct1 in Bd. rewrite Cn in E2. destruct (Z.leb_spec m' 0).
        * rewrite !Nat.mul_0_r in *. lia.
        * assert (Ex : at_most T (Z.to_nat m') = (T * (1 + at_most T (Z.to_nat (m' - 1))))%nat).
          { replace (Z.to_nat m') with (S (Z.to_nat (m' - 1))) by lia. reflexivity. }
          rewrite Ex, <- Lt2 in Bd. rewrite !Nat.mul_add_distr_r in Bd. rewrite Nat.mul_1_l in Bd. rewrite Lt2 in *. lia.
    - destruct (t_todo th) as [|q t] eqn:Td; [split; auto|]. split; [exact Rr|]. split; [cbn; rewrite upd_len; exact Lt|].
      assert (Sg : single (choice_start P c0 q)).
      { inversion Wt as [|? ? Hq _]; subst. unfold choice_start. rewrite R0. cbn [negb orb]. destruct q; cbn in *; subst; reflexivity. }
      split.
      + intros t' Ht. apply in_upd in Ht as [->|Ht]; [|auto]. split; [inversion Wt; auto|]. intros q' l' E. injection E as <- <-. exact Sg.
      + cbn [s_shared s_threads]. unfold outcomes. cbn [s_log].
        pose proof (sum_upd (credit (c_nui (s_shared y))) i th (mkThread t (Some (q, choice_start P c0 q))) _ Ei) as E.
        assert (Cr : credit (c_nui (s_shared y)) (mkThread t (Some (q, choice_start P c0 q))) = credit (c_nui (s_shared y)) th).
        { unfold credit. rewrite Nw. cbn [t_now]. revert Sg. unfold choice_start. rewrite R0. cbn [negb orb]. destruct q; try reflexivity. destruct (n =? 1); reflexivity. }
        fold (outcomes y). lia.
  Qed.
End Bound.

Theorem C101_bound :
  forall (P : prims) (A : Type) (setsize : list A -> res Z) fuel items c todo schedule,
  w_true P (w_zero P) = false -> just_shuffled P setsize fuel items c ->
  Forall (Forall (fun r => ask_size r = 1)) todo ->
  (succeeded (outcomes (threads P setsize fuel c todo schedule)) <= at_most (length todo) (length items))%nat.
Proof.
  intros P A setsize fuel items c todo schedule Hz J Hq.
  destruct (just_shuffled_left P setsize fuel Hz items c J) as ((Hne & Hi & _ & _ & Hc) & Hr & _). rewrite Hr in Hc. destruct Hc as (i0 & Hp & Si & Hi0 & Hn).
  assert (Nn : c_nui c <= zlen items) by lia.
  assert (B : bounded P (length todo) (at_most (length todo) (length items)) (threads P setsize fuel c todo schedule)).
  { unfold threads. assert (B0 : bounded P (length todo) (at_most (length todo) (length items)) (begin (L := where_in A) (R := list A) todo c)).
    { split; [exact Hr|]. split; [cbn; apply map_length|]. split.
      - intros th Ht. cbn in Ht. apply in_map_iff in Ht as (t & <- & Ht). rewrite Forall_forall in Hq. split; [cbn; auto | discriminate].
      - cbn [begin s_shared s_threads outcomes s_log map succeeded filter length]. unfold outcomes, succeeded. cbn [s_log map filter length Nat.add]. rewrite map_map. cbn [credit t_now].
        assert (Mono : forall T a b, (a <= b)%nat -> (at_most T a <= at_most T b)%nat).
        { intros T a b H. revert a H. induction b as [|b IH]; intros [|a] H; cbn [at_most]; try lia. specialize (IH a ltac:(lia)). nia. }
        assert (Cs : forall k, list_sum (map (fun _ : list ask => k) todo) = (length todo * k)%nat).
        { intros k. clear. induction todo as [|x l IH]; [reflexivity|]. cbn [map list_sum fold_right length]. fold (list_sum (map (fun _ : list ask => k) l)). lia. }
        unfold credit. cbn [t_now]. rewrite Cs. destruct (Z.leb_spec (c_nui c) 0); [lia|].
        transitivity (at_most (length todo) (Z.to_nat (c_nui c))); [|apply Mono; unfold zlen in Nn; lia].
        replace (Z.to_nat (c_nui c)) with (S (Z.to_nat (c_nui c - 1))) by lia. cbn [at_most]. lia. }
    revert B0. generalize (begin (L := where_in A) (R := list A) todo c). induction schedule as [|i t IH]; intros y B0; [exact B0|]. cbn [run]. apply IH, bounded_step; auto. }
  destruct B as (_ & _ & _ & B). lia.
Qed.
Print Assumptions C101_bound.

(** Two threads, one item: both may get it, and no schedule brings about a third success. *)
Example C101_bound_example :
  let c := made (choice_new (QP demo) 5 [10]%nat None false false (Some 3%nat) None 0%nat) in
  just_shuffled (QP demo) (count_distinct Nat.eq_dec) 5 [10]%nat c /\
  at_most 2 1 = 2%nat /\
  outcomes (threads (QP demo) (count_distinct Nat.eq_dec) 5 c [[Call0; Emit]; [Call0; Emit]] (s101 ++ [0; 0; 0; 0; 1; 1; 1; 1])%nat)
  = [Ok [10]; Ok [10]; Raise ValueError; Raise ValueError]%nat.
Proof.
  split; [|split; [reflexivity | vm_compute; reflexivity]].
  eapply JS_new; [apply made_ok|]; vm_compute; reflexivity.
Qed.

(** ** One call at a time: any Choice emitter, any requests.  The outcomes are those which a
    single thread gets that makes the same calls in the order in which they ended. *)
Lemma reach_in_range P {A} setsize fuel items (c : @choice P A) : rng_ok P -> reach P setsize fuel items c -> in_range P c.
Proof.
  intros Ok_ H _ r. destruct (reach_inv P setsize fuel (zero_false P Ok_) items c H) as (Hne & Hi & _ & W & _).
  assert (Hl : (0 < length (c_items c))%nat) by (rewrite Hi; destruct items; [congruence | cbn; lia]).
  unfold position_of. destruct W as [[-> _]|(ws & cum & -> & -> & _ & Lc & _)]; [apply floor_ok; auto|].
  destruct (rev cum) as [|t q]; [lia|].
  pose proof (bisect_bounds P (length cum) cum (w_scale P (fst (r_random P r)) t) 0 (length (c_items c) - 1) ltac:(lia)) as B. lia.
Qed.
Theorem C102_locked :
  forall (P : prims) (A : Type) (setsize : list A -> res Z) fuel items c todo schedule,
  rng_ok P -> reach P setsize fuel items c ->
  let y := threads P setsize fuel c todo schedule in
  locked P setsize fuel c todo schedule -> idle y ->
  do_asks P setsize fuel (requests y) c = (outcomes y, s_shared y).
Proof. intros. apply choice_serial; auto. eapply reach_in_range; eauto. Qed.
Print Assumptions C102_locked.

(** ** C102: with replacement, no lock is needed *)
Lemma concat_upd {X Y} (f : X -> list Y) i x y l : nth_error l i = Some x ->
  Permutation (f y ++ concat (map f l)) (f x ++ concat (map f (upd i y l))).
Proof.
  revert i. induction l as [|a l IH]; intros [|i] H; try discriminate; cbn [nth_error upd map concat] in *.
  - injection H as <-. rewrite !app_assoc. apply Permutation_app_tail, Permutation_app_comm.
  - specialize (IH i H). rewrite !app_assoc, (Permutation_app_comm (f y)), (Permutation_app_comm (f x)), <- !app_assoc. apply Permutation_app_head, IH.
Qed.

Section Shared.
  Context (P : prims) {A : Type} (setsize : list A -> res Z) (fuel : nat) (c : @choice P A).
  Context (Rt : c_replace c = true) (Ra : c_roac c = false) (Two : (2 <= length (c_items c))%nat) (B : in_range P c).
  Context (allowed : ask -> Prop).
  Context (Draws : forall n, (exists q, allowed q /\ ask_size q = n) -> forall d, same_settings P c d ->
    choice_step P setsize fuel (Begin n) d = (inl (Draw (Z.to_nat n) []), d)).
  Notation sys := (system (@choice P A) ask (where_in A) (list A)).
  Definition so_far (th : thread ask (where_in A)) : list A := match t_now th with Some (_, Draw _ got) => got | _ => [] end.
  Definition right_place (th : thread ask (where_in A)) : Prop :=
    Forall allowed (t_todo th) /\
    match t_now th with
    | None => True
    | Some (q, Begin n) => allowed q /\ n = ask_size q
    | Some (q, Draw k got) => allowed q /\ (k + length got = Z.to_nat (ask_size q))%nat
    | _ => False
    end.
  Definition full (e : nat * ask * res (list A)) : Prop := exists l, snd e = Ok l /\ length l = Z.to_nat (ask_size (snd (fst e))).
  Definition pooled (y : sys) : Prop :=
    exists N, s_shared y = set_rng P (snd (draws P N (c_rng c))) c /\
      Permutation (values y ++ concat (map so_far (s_threads y))) (flat_map (drawn P c) (fst (draws P N (c_rng c)))) /\
      Forall right_place (s_threads y) /\ Forall full (s_log y).

  Lemma pooled_step i y : pooled y -> pooled (run_one (choice_start P c) (choice_step P setsize fuel) i y).
  Proof.
    intros (N & Sh & Pm & Rp & Fl). unfold run_one. destruct (nth_error (s_threads y) i) as [th|] eqn:Ei; [|exists N; auto].
    assert (Rth : right_place th) by (rewrite Forall_forall in Rp; apply Rp; eapply nth_error_In, Ei).
    assert (Up : forall th', right_place th' -> Forall right_place (upd i th' (s_threads y))).
    { intros th' H. apply Forall_forall. intros x Hx. apply in_upd in Hx as [->|Hx]; [exact H|]. rewrite Forall_forall in Rp. auto. }
    destruct Rth as [Ra1 Rn]. destruct (t_now th) as [[q l]|] eqn:Nw.
    - destruct l as [| | | | | | | |n|k got]; try contradiction; destruct Rn as [Aq Sz].
      + rewrite (Draws n) by (eauto || (rewrite Sh; unfold same_settings; cbn; auto 10)). subst n.
        exists N. split; [exact Sh|]. cbn [s_shared s_threads s_log]. split; [|split].
        * unfold values, outcomes in *. cbn [s_log].
          pose proof (concat_upd so_far i th (mkThread (t_todo th) (Some (q, Draw (Z.to_nat (ask_size q)) []))) _ Ei) as U.
          unfold so_far at 1 3 in U. rewrite Nw in U. cbn [t_now app] in U. rewrite <- U. exact Pm.
        * apply Up. split; [exact Ra1|]. cbn [t_now]. split; [exact Aq|]. cbn [length]. lia.
        * exact Fl.
      + destruct k as [|k]; cbn [choice_step].
        * exists N. split; [exact Sh|]. cbn [s_shared s_threads s_log]. split; [|split].
          -- unfold values, outcomes in *. cbn [s_log]. rewrite !map_app, concat_app. cbn [map snd concat returned]. rewrite app_nil_r.
             pose proof (concat_upd so_far i th (mkThread (t_todo th) None) _ Ei) as U.
             unfold so_far at 1 3 in U. rewrite Nw in U. cbn [t_now app] in U. rewrite <- app_assoc, <- U. exact Pm.
          -- apply Up. split; [exact Ra1 | exact I].
          -- apply Forall_app. split; [exact Fl|]. constructor; [|constructor]. exists got. split; [reflexivity|]. cbn [fst snd]. lia.
        * rewrite Sh. cbn [c_rng set_rng c_items]. destruct (r_random P (snd (draws P N (c_rng c)))) as [u r] eqn:Er.
          change (position_of P (set_rng P (snd (draws P N (c_rng c))) c) u) with (position_of P c u).
          pose proof (B Rt (snd (draws P N (c_rng c)))) as Bu. rewrite Er in Bu. cbn [fst] in Bu.
          destruct (nth_error (c_items c) (position_of P c u)) as [a|] eqn:En; [|apply nth_error_None in En; lia].
          exists (N + 1)%nat. pose proof (draws_app P N 1 (c_rng c)) as Da. destruct (draws P N (c_rng c)) as [us r0]. cbn [snd fst draws] in *. rewrite Er in Da. rewrite Da.
          cbn [fst snd s_shared s_threads s_log]. split; [reflexivity|]. split; [|split].
          -- unfold values, outcomes in *. cbn [s_log]. rewrite flat_map_app. cbn [flat_map]. unfold drawn at 2. rewrite En. cbn [app].
             pose proof (concat_upd so_far i th (mkThread (t_todo th) (Some (q, Draw k (got ++ [a])))) _ Ei) as U.
             unfold so_far at 1 3 in U. rewrite Nw in U. cbn [t_now] in U. rewrite <- app_assoc in U. apply Permutation_app_inv_l in U.
             rewrite <- U, <- Pm, <- app_assoc. apply Permutation_app_head, Permutation_app_comm.
          -- apply Up. split; [exact Ra1|]. cbn [t_now]. split; [exact Aq|]. rewrite app_length. cbn [length]. lia.
          -- exact Fl.
    - destruct (t_todo th) as [|q t] eqn:Td; [exists N; auto|]. inversion Ra1; subst.
      assert (St : choice_start P c q = Begin (ask_size q)).
      { unfold choice_start. rewrite Rt, Ra. cbn [negb orb andb]. destruct q; try reflexivity. destruct (Z.eqb_spec n 1); [subst|]; reflexivity. }
      rewrite St. exists N. split; [exact Sh|]. cbn [s_shared s_threads s_log]. split; [|split].
      + unfold values, outcomes in *. cbn [s_log].
        pose proof (concat_upd so_far i th (mkThread t (Some (q, Begin (ask_size q)))) _ Ei) as U.
        unfold so_far at 1 3 in U. rewrite Nw in U. cbn [t_now app] in U. rewrite <- U. exact Pm.
      + apply Up. split; [assumption|]. cbn [t_now]. auto.
      + exact Fl.
  Qed.
  Lemma pooled_run schedule todo : Forall (Forall allowed) todo -> pooled (threads P setsize fuel c todo schedule).
  Proof.
    intros H. unfold threads. assert (P0 : pooled (begin todo c)).
    { exists 0%nat. split; [destruct c; reflexivity|]. cbn [begin s_threads s_log draws fst flat_map]. split; [|split; [|constructor]].
      - unfold values, outcomes. cbn [s_log map concat app]. rewrite map_map. clear. induction todo as [|x l IH]; [constructor | exact IH].
      - apply Forall_map. eapply Forall_impl; [|exact H]. cbn. intros t Ht. split; [exact Ht | exact I]. }
    revert P0. generalize (begin (L := where_in A) (R := list A) todo c). induction schedule as [|i t IH]; intros y P0; [exact P0|]. cbn [run]. apply IH, pooled_step, P0.
  Qed.
End Shared.

Lemma step_begin P {A} setsize fuel (c : @choice P A) n : (2 <= length (c_items c))%nat -> weights_ok P c ->
  match c_cum c with Some cum => w_total_ok P (last cum (w_zero P)) = true | None => n <> 1 end ->
  choice_step P setsize fuel (Begin n) c = (inl (Draw (Z.to_nat n) []), c).
Proof.
  intros Two W Us. cbn [choice_step]. unfold zlen. rewrite (proj2 (Z.eqb_neq (Z.of_nat (length (c_items c))) 1)) by lia.
  destruct W as [[Wn Cn]|(ws & cum & Wn & Cn & Lw & Lc & _)]; rewrite Wn, ?Cn in *.
  - rewrite (proj2 (Z.eqb_neq n 1)) by exact Us. reflexivity.
  - rewrite Lc, Nat.eqb_refl. cbn [negb]. destruct (rev cum) as [|t q] eqn:Rv.
    + apply (f_equal (@length _)) in Rv. rewrite rev_length in Rv. cbn in Rv. lia.
    + assert (t = last cum (w_zero P)) as ->.
      { rewrite <- (rev_involutive cum), Rv. cbn [rev]. rewrite last_last. reflexivity. }
      rewrite Us. reflexivity.
Qed.

(** Threads that share a Choice with replacement: whatever the schedule, every call gets as
    many values as it asked for, and all values together are, but for their order, those
    which one call in one thread gets that asks for as many.  (Single values from items
    without weights are left out: Random.choice is one step of the model.) *)
Theorem C102_pooled :
  forall (P : prims) (A : Type) (setsize : list A -> res Z) fuel items c todo schedule,
  rng_ok P -> reach P setsize fuel items c -> c_replace c = true -> c_roac c = false -> (2 <= length items)%nat ->
  match c_cum c with
  | Some cum => w_total_ok P (last cum (w_zero P)) = true       (* the sum of the weights is positive and finite *)
  | None => Forall (Forall (fun r => ask_size r <> 1)) todo
  end ->
  let y := threads P setsize fuel c todo schedule in
  idle y ->
  Forall (fun e => exists l, snd e = Ok l /\ zlen l = Z.max 0 (ask_size (snd (fst e)))) (s_log y) /\
  exists l, do_ask P setsize fuel (EmitMany (zlen (values y))) c = (Ok l, s_shared y) /\ Permutation (values y) l.
Proof.
  intros P A setsize fuel items c todo schedule Ok_ Rc Rt Ra Two Us y Id.
  pose proof (reach_in_range P setsize fuel items c Ok_ Rc) as B.
  destruct (reach_inv P setsize fuel (zero_false P Ok_) items c Rc) as (_ & Hi & _ & W & _). rewrite <- Hi in Two.
  set (allowed := fun q : ask => match c_cum c with Some _ => True | None => ask_size q <> 1 end).
  assert (St : forall n, match c_cum c with Some _ => True | None => n <> 1 end ->
    forall d, same_settings P c d -> choice_step P setsize fuel (Begin n) d = (inl (Draw (Z.to_nat n) []), d)).
  { intros n Hn d (S1 & S2 & S3 & _). apply step_begin; [congruence| |].
    - unfold weights_ok in *. rewrite S1, S2, S3. exact W.
    - rewrite S3. destruct (c_cum c); [exact Us | exact Hn]. }
  assert (Pl : pooled P c allowed y).
  { apply pooled_run; auto.
    - intros n (q & Aq & <-). apply St, Aq.
    - unfold allowed. destruct (c_cum c); [|exact Us]. apply Forall_forall. intros t _. apply Forall_forall. auto. }
  destruct Pl as (N & Sh & Pm & Rp & Fl).
  assert (No : concat (map (so_far (A := A)) (s_threads y)) = []).
  { clear - Id. assert (G : forall th, In th (s_threads y) -> so_far th = []) by (intros th H; unfold so_far; rewrite (Id th H); reflexivity).
    revert G. generalize (s_threads y). induction l as [|a l IH]; intros G; [reflexivity|]. cbn [map concat]. rewrite (G a (or_introl eq_refl)), IH; [reflexivity|]. intros; apply G; right; auto. }
  rewrite No, app_nil_r in Pm.
  assert (Len : length (values y) = N).
  { rewrite (Permutation_length Pm). rewrite <- (draws_length P N (c_rng c)) at 2. pose proof (fun r => B Rt r) as Bn. clear - Bn.
    generalize (c_rng c). induction N as [|N IH]; intros r; [reflexivity|]. cbn [draws]. specialize (Bn r) as Br. destruct (r_random P r) as [u r1]. specialize (IH r1).
    destruct (draws P N r1) as [us r2]. cbn [fst flat_map length] in *. rewrite app_length, IH. unfold drawn. destruct (nth_error (c_items c) (position_of P c u)) eqn:E; [cbn; lia|].
    apply nth_error_None in E. lia. }
  split.
  - eapply Forall_impl; [|exact Fl]. intros e (l & E & L). exists l. split; [exact E|]. unfold zlen. lia.
  - exists (flat_map (drawn P c) (fst (draws P N (c_rng c)))). split; [|exact Pm].
    assert (Al : match c_cum c with Some _ => True | None => zlen (values y) <> 1 end).
    { destruct (c_cum c) eqn:Cu; [exact I|]. unfold zlen. intros L1. unfold values, outcomes in L1.
      assert (G : Forall (fun e : nat * ask * res (list A) => ask_size (snd (fst e)) <> 1) (s_log y)).
      { unfold y, threads. clear - Us.
        assert (G : forall z : system (@choice P A) ask (where_in A) (list A),
          Forall (fun th => Forall (fun r => ask_size r <> 1) (t_todo th) /\ match t_now th with Some (q, _) => ask_size q <> 1 | None => True end) (s_threads z) ->
          Forall (fun e => ask_size (snd (fst e)) <> 1) (s_log z) ->
          Forall (fun e => ask_size (snd (fst e)) <> 1) (s_log (run (choice_start P c) (choice_step P setsize fuel) schedule z))).
        { induction schedule as [|i t IH]; intros z T R; [exact R|]. cbn [run].
          assert (U : forall th, Forall (fun r => ask_size r <> 1) (t_todo th) /\ match t_now th with Some (q, _) => ask_size q <> 1 | None => True end ->
            Forall (fun th => Forall (fun r => ask_size r <> 1) (t_todo th) /\ match t_now th with Some (q, _) => ask_size q <> 1 | None => True end) (upd i th (s_threads z))).
          { intros th Ht. apply Forall_forall. intros x Hx. apply in_upd in Hx as [->|Hx]; [exact Ht|]. rewrite Forall_forall in T. apply T, Hx. }
          unfold run_one. destruct (nth_error (s_threads z) i) as [th|] eqn:Ei; [|apply IH; auto].
          assert (Tt : Forall (fun r => ask_size r <> 1) (t_todo th) /\ match t_now th with Some (q, _) => ask_size q <> 1 | None => True end)
            by (rewrite Forall_forall in T; apply T; eapply nth_error_In, Ei).
          destruct (t_now th) as [[q l]|].
          - destruct (choice_step P setsize fuel l (s_shared z)) as [[l'|r] s']; apply IH; cbn [s_threads s_log]; try (apply U; cbn; tauto); auto.
            apply Forall_app. split; [exact R|]. constructor; [cbn; tauto | constructor].
          - destruct (t_todo th) as [|q t']; apply IH; auto. cbn [s_threads]. apply U. cbn. destruct Tt as [Tt _]. inversion Tt; auto. }
        apply G; [|constructor]. cbn. apply Forall_map. eapply Forall_impl; [|exact Us]. cbn. auto. }
      clear - Fl G L1. revert L1. generalize dependent (s_log y). induction l as [|e l IH]; intros Fl G; [cbn; discriminate|].
      inversion Fl as [|? ? (x & E & L) F2]; subst. inversion G; subst. cbn [map concat]. rewrite E. cbn [returned]. rewrite app_length.
      specialize (IH F2 H2). destruct (Z.to_nat (ask_size (snd (fst e)))) as [|[|k]] eqn:K; [|lia|lia]. rewrite L. exact IH. }
    cbn [do_ask]. unfold choice_emit_many, mbind at 1, ChoiceModel.get. rewrite Rt, Ra. cbn [negb orb andb].
    assert (Inv : same_settings P c c /\ in_range P c) by (split; [unfold same_settings; auto 10 | exact B]).
    destruct (cont_go_choice P setsize fuel c (Begin (zlen (values y))) c _ _ Inv Rt (St _ Al c (proj1 Inv))) as [_ E]. cbn [choice_cont] in E. rewrite E.
    unfold zlen. rewrite Nat2Z.id, Len, Sh. destruct (draws P N (c_rng c)) as [us r]. reflexivity.
Qed.
Print Assumptions C102_pooled.

(** Two threads ask for two values each and take turns: the values are those of em(4), in
    another order. *)
Definition c102 := made (choice_new (QP demo) 5 demo_items (Some demo_ws) true false (Some 3%nat) None 0%nat).
Example C102_example :
  let y := threads (QP demo) (count_distinct Nat.eq_dec) 5 c102 [[CallN 2]; [EmitMany 2]] [0; 1; 0; 1; 0; 1; 0; 1; 1; 0]%nat in
  reach (QP demo) (count_distinct Nat.eq_dec) 5 demo_items c102 /\ c_replace c102 = true /\ c_roac c102 = false /\
  match c_cum c102 with Some cum => w_total_ok (QP demo) (last cum (w_zero (QP demo))) = true | None => False end /\
  idle y /\ outcomes y = [Ok [40; 30]; Ok [30; 30]]%nat /\
  fst (do_ask (QP demo) (count_distinct Nat.eq_dec) 5 (EmitMany 4) c102) = Ok [30; 40; 30; 30]%nat.
Proof.
  split; [eapply R_new; apply made_ok; vm_compute; reflexivity|]. split; [vm_compute; reflexivity|]. split; [vm_compute; reflexivity|]. split; [vm_compute; reflexivity|].
  split; [intros th H; vm_compute in H; intuition (subst; reflexivity)|].
  split; vm_compute; reflexivity.
Qed.
