(** * The properties of Static, Iterative and Sequential: C29 (their part), C32, C33. *)
From Verif Require Import Base Prims FixedModel ChoiceRun FixedSpec FixedProofs.

(** ** C29, the part about Static, Iterative and Sequential: em(a) followed by
    em(b) emits the same values, and leaves the same state, as em(a + b). *)
Theorem C29_batching_fixed :
  forall (A : Type) fuel a b, 0 <= a -> 0 <= b ->
  (forall (s s2 : static A) l,
     let call n := ask_with static_emit static_emit_many (CallN n) in
     call (a + b) s = (Ok l, s2) <->
     exists s1 l1 l2, l = l1 ++ l2 /\ call a s = (Ok l1, s1) /\ call b s1 = (Ok l2, s2)) /\
  (forall (s s2 : iterative A) l, i_rac s = false ->
     let call n := ask_with (iter_emit fuel) (iter_emit_many fuel) (CallN n) in
     call (a + b) s = (Ok l, s2) <->
     exists s1 l1 l2, l = l1 ++ l2 /\ call a s = (Ok l1, s1) /\ call b s1 = (Ok l2, s2)) /\
  (forall (s s2 : sequential A) l, s_rac s = false ->
     let call n := ask_with (seq_emit fuel) (seq_emit_many fuel) (CallN n) in
     call (a + b) s = (Ok l, s2) <->
     exists s1 l1 l2, l = l1 ++ l2 /\ call a s = (Ok l1, s1) /\ call b s1 = (Ok l2, s2)).
Proof.
  intros A fuel a b Ha Hb. split; [|split].
  - intros s s2 l call.
    assert (Hc : forall n s, call n s = (Ok (list_rep [st_value s] n), s)).
    { intros n s'. unfold call. cbn [ask_with]. unfold call_number, static_emit, static_emit_many, mbind, ret.
      destruct (n =? 1) eqn:E; auto. apply Z.eqb_eq in E. subst n. reflexivity. }
    assert (Hr : forall (x : A) m n, list_rep_nat [x] (m + n) = list_rep_nat [x] m ++ list_rep_nat [x] n).
    { intros x m n. induction m; cbn; congruence. }
    split.
    + rewrite Hc. intros H. injection H as <- <-.
      exists s, (list_rep [st_value s] a), (list_rep [st_value s] b). rewrite !Hc. split; auto.
      unfold list_rep. now rewrite Z2Nat.inj_add, Hr by auto.
    + intros (s1 & l1 & l2 & -> & H1 & H2). rewrite Hc in H1. injection H1 as <- <-. rewrite Hc in H2. rewrite Hc.
      injection H2 as <- <-. unfold list_rep. now rewrite Z2Nat.inj_add, Hr by auto.
  - intros s s2 l Hr. now apply iter_batch.
  - intros s s2 l Hr. now apply seq_batch.
Qed.
Print Assumptions C29_batching_fixed.

Example C29_fixed_example :
  match seq_new [10; 20; 30]%nat false with
  | Ok s => fst (seq_asks 1 [CallN 4; CallN 3] s) = [Ok [10; 20; 30; 10]%nat; Ok [20; 30; 10]%nat] /\
            fst (seq_asks 1 [CallN 7] s) = [Ok [10; 20; 30; 10; 20; 30; 10]%nat]
  | _ => False
  end.
Proof. vm_compute. auto. Qed.

(** ** C32: Sequential repeats its items forever.

    After construction and after any reset of any history, however the following
    requests are made, they succeed and together they emit the items over and
    over, beginning with the first; with reset_after_call each of them does so
    by itself. *)
Theorem C32_repeats_forever :
  forall (A : Type) fuel (items : list A) rac s ops qs, (1 <= fuel)%nat ->
  seq_new items rac = Ok s ->
  Forall (fun q => 0 <= ask_size q) qs ->
  let start := seq_reset (snd (seq_ops fuel ops s)) in
  (s_rac start = false ->
     exists outs s', seq_asks fuel qs start = (map Ok outs, s') /\
       Forall2 (fun q (l : list A) => zlen l = ask_size q) qs outs /\
       repeated items (length (concat outs)) (concat outs)) /\
  (s_rac start = true ->
     exists outs s', seq_asks fuel qs start = (map Ok outs, s') /\
       Forall2 (fun q l => repeated items (Z.to_nat (ask_size q)) l) qs outs).
Proof.
  intros A fuel items rac s ops qs Hf Hs Hq start.
  assert (Hne : items <> []) by (destruct items; [discriminate|congruence]).
  assert (W : seq_wf items s).
  { destruct items; [discriminate|]. injection Hs as <-. repeat split. }
  assert (W1 : seq_wf items start).
  { pose proof (seq_ops_inv fuel items ops s W) as (H1 & H2 & H3). repeat split; auto. }
  split; intros Hr.
  - destruct (seq_asks_go fuel items qs Hne Hf start W1 Hr Hq) as (outs & s' & E & _ & _ & HB & HF).
    exists outs, s'. split; auto. split; auto. split; auto. intros k Hk.
    apply (back_to_back_cycle items true _ _ _ Hne (Nat.le_0_l _) HB k Hk).
  - apply seq_asks_rac; auto.
Qed.
Print Assumptions C32_repeats_forever.

(** A fresh emitter is in the state of one that was just reset, so the theorem
    covers the time since construction too; an empty list of items is refused. *)
Theorem C32_construction :
  forall (A : Type) (items : list A) rac,
  (seq_new items rac = Raise ValueError <-> items = []) /\
  (forall s, seq_new items rac = Ok s -> seq_reset s = s /\ s_items s = items).
Proof.
  intros A items rac. destruct items as [|a t]; cbn; split; try (split; congruence); try congruence.
  intros s H. injection H as <-. auto.
Qed.
Print Assumptions C32_construction.

Example C32_example :
  match seq_new [10; 20; 30]%nat false with
  | Ok s => let '(_, s) := seq_ops 1 [FAsk (CallN 2); FReset; FAsk Call0; FResetAfterCall true; FAsk (EmitMany (-1))] s in
            fst (seq_asks 1 [CallN 2; CallN 4] (seq_reset s)) = [Ok [10; 20]%nat; Ok [10; 20; 30; 10]%nat] /\
            fst (seq_asks 1 [CallN 2; Call0; CallN 4] (seq_reset (seq_set_rac false s)))
            = [Ok [10; 20]%nat; Ok [30]%nat; Ok [10; 20; 30; 10]%nat]
  | _ => False
  end.
Proof. vm_compute. auto. Qed.

(** Replacing the factory of a Sequential (deprecated): refused factories change
    nothing; otherwise the emitter goes on with the successive iterators of the
    new factory, of which three were used up by the checks. *)
Theorem C32_replaced_factory :
  forall (A : Type) fuel (s s' : sequential A) its o,
  seq_set_factory its s = (o, s') ->
  (o <> Ok tt -> s' = s) /\
  (it_at (its 0%nat) 0 = None -> o = Raise ValueError) /\
  (o = Ok tt -> exists h, its 2%nat = Finite (s_items s') h /\
     forall qs outs s2, s_rac s' = false -> Forall (fun q => 0 <= ask_size q) qs ->
       seq_asks fuel qs s' = (map Ok outs, s2) -> back_to_back its 3 0 (concat outs)).
Proof.
  intros A fuel s s' its o E. unfold seq_set_factory, check_iter_factory, check_seq_iter_factory in E. cbn [bind] in E.
  destruct (it_at (its 0%nat) 0) eqn:E0; cbn [bind] in E.
  2:{ injection E as <- <-. repeat split; auto; discriminate. }
  destruct (its 1%nat) as [l [|]|g] eqn:E1.
  2, 3: injection E as <- <-; repeat split; auto; discriminate.
  destruct (its 2%nat) as [l2 h|g] eqn:E2.
  2: injection E as <- <-; repeat split; auto; discriminate.
  injection E as <- <-. split; [congruence|]. split; [discriminate|]. intros _. exists h. split; auto.
  intros qs outs s2 Hr Hq E. cbn in Hr.
  set (i := mkIter its (mkGen 3 None) false).
  assert (Hsim : forall qs (i : iterative A) (s : sequential A),
            i_factory i = seq_factory s -> i_gen i = s_gen s -> i_rac i = s_rac s ->
            fst (iter_asks fuel qs i) = fst (seq_asks fuel qs s)).
  { clear -fuel. induction qs as [|q qs IH]; intros i s H1 H2 H3; auto.
    unfold iter_asks, seq_asks. cbn [asks_with]. fold (@iter_asks A fuel). fold (@seq_asks A fuel).
    rewrite iter_ask_take, seq_ask_take. destruct (ask_size q <? 0).
    - specialize (IH i s H1 H2 H3). destruct (iter_asks fuel qs i), (seq_asks fuel qs s). cbn in *. congruence.
    - unfold iter_run, seq_run. rewrite H1, H2.
      destruct (gen_take fuel (seq_factory s) (Z.to_nat (ask_size q)) (s_gen s)) as [[l|e|] g]; cbn [i_rac s_rac];
      (match goal with |- fst (let '(_, _) := iter_asks fuel qs ?i in _) = fst (let '(_, _) := seq_asks fuel qs ?s in _) =>
             specialize (IH i s); destruct (iter_asks fuel qs i), (seq_asks fuel qs s) end);
      cbn in *; f_equal; apply IH; rewrite ?H1, ?H3; try destruct (s_rac s); reflexivity. }
  specialize (Hsim qs i (seq_reset (mkSeq l2 false its (mkGen 3 None) (s_rac s))) eq_refl eq_refl (eq_sym Hr)).
  rewrite E in Hsim. cbn [fst] in Hsim.
  destruct (iter_asks fuel qs i) as [os i2] eqn:Ei. cbn in Hsim. subst os.
  apply iter_asks_go in Ei; cbn; auto. apply Ei.
Qed.
Print Assumptions C32_replaced_factory.

Example C32_factory_example :
  match seq_new [10; 20; 30]%nat false with
  | Ok s => match seq_set_factory (fun _ => Finite [1; 2]%nat true) s with
            | (Ok _, s) => fst (seq_asks 1 [CallN 3; CallN 2] s) = [Ok [1; 2; 1]%nat; Ok [2; 1]%nat] /\ s_items s = [1; 2]%nat
            | _ => False
            end /\
            fst (seq_set_factory (fun _ => Infinite (fun n => n)) s) = Raise ValueError
  | _ => False
  end.
Proof. vm_compute. auto. Qed.

(** ** C33: Iterative.  [its n] is what the factory returns at its n-th call,
    counted from 0; the first one is only looked at, to see if it is empty. *)

(** An empty iterator is refused at construction and on assignment (which then
    changes nothing); any other is accepted. *)
Theorem C33_empty_refused :
  forall (A : Type) (its : factory A) rac (i : iterative A),
  (it_at (its 0%nat) 0 = None -> iter_new its rac = Raise ValueError /\ iter_set_factory its i = (Raise ValueError, i)) /\
  (it_at (its 0%nat) 0 <> None ->
     (exists i', iter_new its rac = Ok i') /\
     (exists i', iter_set_factory its i = (Ok tt, i') /\ iter_new its (i_rac i) = Ok i')).
Proof.
  intros A its rac i. unfold iter_new, iter_set_factory, check_iter_factory.
  destruct (it_at (its 0%nat) 0); cbn; split; try congruence; eauto.
Qed.
Print Assumptions C33_empty_refused.

(** From construction on, and after a reset at the end of any history, all the
    requests together read the successive iterators back to back, starting at the
    beginning of an iterator from which nothing has been emitted before; with
    reset_after_call each request by itself does. *)
Theorem C33_back_to_back :
  forall (A : Type) fuel (its : factory A) rac i ops vs i1, iter_new its rac = Ok i ->
  iter_ops fuel ops i = (vs, i1) ->
  let start := iter_reset i1 in
  exists c, (1 <= c)%nat /\
  (ops = [] -> start = i /\ c = 1%nat) /\
  (forall v, In v vs -> exists c' p, (1 <= c' < c)%nat /\ it_at (its c') p = Some v) /\
  forall qs outs i2, Forall (fun q => 0 <= ask_size q) qs ->
  iter_asks fuel qs start = (map Ok outs, i2) ->
  Forall2 (fun q (l : list A) => zlen l = ask_size q) qs outs /\
  (i_rac start = false -> back_to_back its c 0 (concat outs)) /\
  (i_rac start = true -> Forall (fun l => exists c', (c <= c')%nat /\ back_to_back its c' 0 l) outs).
Proof.
  intros A fuel its rac i ops vs i1 Hi Hops start.
  assert (Hi' : i = mkIter its (mkGen 1 None) rac).
  { unfold iter_new, check_iter_factory in Hi. destruct (it_at (its 0%nat) 0); [|discriminate]. now injection Hi as <-. }
  subst i. pose proof (iter_ops_inv fuel ops (mkIter its (mkGen 1 None) rac) _ _ I (le_n 1) Hops) as (Hf & W & Hc & Hin & Hst). cbn in *.
  exists (g_calls (i_gen i1)). split; auto. split.
  { intros ->. unfold iter_ops in Hops. cbn in Hops. injection Hops as <- <-. auto. }
  split. { intros v Hv. destruct (Hin (le_n 1) v Hv) as (c & p & Hr & Ha). exists c, p. split; auto. }
  intros qs outs i2 Hq E. destruct (i_rac start) eqn:Hr.
  - pose proof (iter_asks_rac fuel qs start outs i2 Hr eq_refl Hq E) as HF. cbn in HF. rewrite Hf in HF.
    change (i_rac i1 = true) in Hr. split; [|split; [congruence|intros _]].
    + eapply Forall2_impl'; [|exact HF]. cbn. tauto.
    + clear -HF. induction HF as [|q l qs outs [_ H] HF IH]; constructor; auto.
  - destruct (iter_asks_go fuel qs start outs i2 I Hr Hq E) as [HB HF]. cbn in HB. rewrite Hf in HB.
    change (i_rac i1 = false) in Hr. split; auto. split; auto. congruence.
Qed.
Print Assumptions C33_back_to_back.

(** No request hangs as long as the factory keeps returning non-empty iterators. *)
Theorem C33_no_hang :
  forall (A : Type) fuel (i : iterative A) qs, (1 <= fuel)%nat ->
  (forall c, it_at (i_factory i c) 0 <> None) -> Forall (fun q => 0 <= ask_size q) qs ->
  exists outs i', iter_asks fuel qs i = (map Ok outs, i').
Proof. intros. now apply iter_asks_ok. Qed.
Print Assumptions C33_no_hang.

Definition its_example (n : nat) : iterator nat :=
  match n with 1%nat => Finite [1; 2; 3]%nat false | 2%nat => Finite [] false | 3%nat => Infinite (fun k => 100 + k)%nat | _ => Finite [7]%nat true end.
Example C33_example :
  match iter_new its_example false with
  | Ok i => fst (iter_asks 3 [CallN 2; Call0; CallN 0; CallN 3] i) = [Ok [1; 2]; Ok [3]; Ok []; Ok [100; 101; 102]]%nat /\
            let '(vs, i1) := iter_ops 3 [FAsk (CallN 2); FReset; FAsk Call0] i in
            vs = [1; 2; 100]%nat /\ fst (iter_asks 3 [CallN 2] (iter_reset i1)) = [Ok [7; 7]%nat]
  | _ => False
  end /\ iter_new (fun n => match n with O => Finite [] true | _ => its_example n end) false = Raise ValueError.
Proof. vm_compute. auto. Qed.
