(** * Properties C18, C21-C31: Choice and the functions that make Choice emitters.

    Vocabulary: [MathSpec.v] ([picks], [without_replacement], [deal]),
    [NumSpec.v] ([owns], [qsum]), [ChoiceRun.v] (requests, histories,
    [remaining]).  Models: [ChoiceModel.v], [RealModel.v].  [P : prims] stands for
    any arithmetic and any random generator, [QP g] for exact arithmetic with the
    generator [g], [FP g] for IEEE doubles. *)
From Coq Require Import QArith Qcanon Reals Permutation.
From Flocq Require Import Core BinarySingleNaN.
From Verif Require Import Base Prims MathModel MathSpec NumSpec MathProofs NumLaws QcNum QcProofs
  ChoiceModel ChoiceRun ChoiceProofs ChoiceProofs2 ChoiceProofs3 ChoiceProofs4 RealModel RealProofs
  FloatModel FloatNum ChanceProofs Demo.
Open Scope Z_scope.

Lemma in_firstn {A} n (l : list A) a : In a (firstn n l) -> In a l.
Proof. intros H. rewrite <- (firstn_skipn n l). apply in_or_app. left. exact H. Qed.

Lemma NoDup_app_l {A} (l1 l2 : list A) : NoDup (l1 ++ l2) -> NoDup l1.
Proof.
  induction l1 as [|a l1 IH]; cbn; intros H; [constructor|]. inversion H; subst. constructor; auto.
  intros X. apply H2. apply in_or_app. left. exact X.
Qed.

Lemma Forall2_weaken {A B} (R S : A -> B -> Prop) l m : (forall a b, R a b -> S a b) -> Forall2 R l m -> Forall2 S l m.
Proof. induction 2; constructor; auto. Qed.

Notation q x := (Q2Qc x) (only parsing).

(** ** C18: shares of the unit interval *)
Theorem C18_weighted_intervals :
  forall (g : qgen) (A : Type) (setsize : list A -> res Z) fuel items (c : @choice (QP g) A) (ws : list Qc) req,
  qgen_ok g -> reach_any (QP g) setsize fuel items c ->
  c_replace c = true -> (c_roac c = false \/ ask_size req <= 1) -> c_weights c = Some ws ->
  Forall (fun w => (0 <= w)%Qc) ws -> (0 < qsum ws)%Qc -> (2 <= length items)%nat ->
  (* one draw per value; the value is the item that owns the draw *)
  (exists us l, fst (do_ask (QP g) setsize fuel req c) = Ok l /\
     draws (QP g) (Z.to_nat (ask_size req)) (c_rng c) = (us, c_rng (snd (do_ask (QP g) setsize fuel req c))) /\
     Forall2 (fun u a => exists i, owns ws i u /\ nth_error items i = Some a) us l) /\
  (* exactly one item owns a draw, its weight is not zero, and its share of the
     unit interval is its weight divided by the total *)
  (forall u i j, owns ws i u -> owns ws j u -> i = j) /\
  (forall u i, owns ws i u -> (0 < nth i ws 0)%Qc) /\
  (forall i, (i < length ws)%nat ->
     (qsum (firstn (S i) ws) / qsum ws - qsum (firstn i ws) / qsum ws = nth i ws 0 / qsum ws)%Qc).
Proof.
  intros g A setsize fuel items c ws req G R Hr Hro Hw HF Hp H2.
  split; [|split; [|split]].
  - apply (weighted_owns g setsize fuel G req c items ws); auto. eapply reach_any_inv2; eauto.
  - intros. eapply owns_exact; eauto.
  - intros. eapply owns_positive; eauto.
  - intros i Hi. rewrite (qsum_firstn_S ws i Hi).
    assert (N : qsum ws <> 0%Qc) by (intros E; rewrite E in Hp; discriminate). field. exact N.
Qed.
Print Assumptions C18_weighted_intervals.

(** With doubles: an item of weight zero is never chosen, whatever the rounding
    (weights are zero or at least 2^-1021). *)
Theorem C18_doubles_zero_weight :
  forall (g : fgen) (A : Type) (setsize : list A -> res Z) fuel items (c : @choice (FP g) A) (ws : list double) req l,
  fgen_ok g -> reach_any (FP g) setsize fuel items c ->
  c_replace c = true -> (c_roac c = false \/ ask_size req <= 1) ->
  c_weights c = Some ws -> c_cum c = Some (accumulate (FP g) ws) ->
  Forall plain_weight ws -> (2 <= length items)%nat ->
  fst (do_ask (FP g) setsize fuel req c) = Ok l ->
  Forall (fun a => exists i w, nth_error items i = Some a /\ nth_error ws i = Some w /\ ftrue w = true) l.
Proof.
  intros g A setsize fuel items c ws req l G R Hr Hro Hw Hc HF H2 H.
  apply (weighted_true (FP g) setsize fuel plain_weight _ (float_laws g G) req c items ws l); auto.
  eapply reach_any_inv2; eauto.
Qed.
Print Assumptions C18_doubles_zero_weight.

(** Tools for the examples: a construction that succeeds. *)
Definition nobody : @choice (QP demo) nat := mkChoice (P := QP demo) [] None None true false 0 [] None None 0%nat.
Definition made (r : res (@choice (QP demo) nat)) : @choice (QP demo) nat := match r with Ok c => c | _ => nobody end.
Lemma made_ok r : match r with Ok _ => true | _ => false end = true -> r = Ok (made r).
Proof. destruct r; intros; try discriminate. reflexivity. Qed.

Definition demo_items : list nat := [10; 20; 30; 40]%nat.
Definition demo_ws : list Qc := [q 1; q 0; q 2; q (1 # 2)].
(** A concrete case: 4 items, one of weight zero, values drawn in two requests. *)
Example C18_example :
  match choice_new (QP demo) 5 demo_items (Some demo_ws) true false (Some 3%nat) None 0%nat with
  | Ok c => (0 < qsum demo_ws)%Qc /\ c_weights c = Some demo_ws /\
            fst (do_asks (QP demo) (count_distinct Nat.eq_dec) 5 [CallN 3; Call0] c) = [Ok [30; 40; 30]%nat; Ok [30%nat]]
  | _ => False
  end.
Proof. vm_compute. split; [reflexivity|]. split; [reflexivity|]. reflexivity. Qed.

(** ** C21: the number of items of poisson_choice *)
Definition C21_statement : Prop :=
  forall (P : prims) (A : Type) fuel (value : nat -> pW P) (items : list A) weight_floor seed ent,
  items <> [] ->
  (* the default mu = 1 and replace = True *)
  exists c, poisson_choice P fuel value 1 items weight_floor true false seed ent = Ok c.

(** 171 items or more are never accepted, whatever mu is. *)
Theorem C21_overflow :
  forall (P : prims) (A : Type) fuel (value : nat -> pW P) (items : list A) weight_floor replace roac seed ent,
  (171 <= length items)%nat ->
  (forall mu : Z, poisson_choice P fuel value mu items weight_floor replace roac seed ent = Raise OverflowError) /\
  (forall pow_ok : nat -> bool,
     poisson_choice_float P fuel value pow_ok items weight_floor replace roac seed ent = Raise OverflowError).
Proof.
  intros P A fuel value items wf rep roac sd ent Hl.
  assert (Hin : In (length items) (seq 1 (length items))) by (apply in_seq; lia).
  pose proof (fact_big (length items) Hl) as Hb.
  split; [intros mu|intros pow_ok]; unfold poisson_choice, poisson_choice_float, dist_choice.
  - rewrite (mapM_raises _ _ OverflowError (length items)); auto.
    + intros y. unfold poisson_checked. destruct (negb _); cbn; auto. destruct (negb _); cbn; eauto.
    + unfold poisson_checked. rewrite Hb. cbn [negb]. destruct (negb _); reflexivity.
  - rewrite (mapM_raises _ _ OverflowError (length items)); auto.
    + intros y. unfold poisson_checked_float. destruct (negb _); cbn; auto. destruct (negb _); cbn; eauto.
    + unfold poisson_checked_float. rewrite Hb. cbn [negb]. destruct (negb _); reflexivity.
Qed.
Print Assumptions C21_overflow.

Theorem C21_any_number_refuted : ~ C21_statement.
Proof.
  intros S. destruct (S (QP demo) nat 0%nat (fun _ => 1%Qc) (repeat 0%nat 171) 0%Qc None 0%nat) as (c & H); [discriminate|].
  rewrite (proj1 (C21_overflow (QP demo) nat 0%nat (fun _ => 1%Qc) (repeat 0%nat 171) 0%Qc true false None 0%nat ltac:(cbn; lia))) in H. discriminate.
Qed.
Print Assumptions C21_any_number_refuted.

(** Up to 170 items are accepted (with replacement) as long as the powers of mu
    are in the range of a float, which is always so for mu = 1. *)
Theorem C21_up_to_170_partial :
  forall (P : prims) (A : Type) fuel (value : nat -> pW P) (mu : Z) (items : list A) weight_floor seed ent,
  items <> [] -> (length items <= 170)%nat -> 0 <= mu ->
  (forall x, (1 <= x <= length items)%nat -> int_to_float_ok (mu ^ Z.of_nat x) = true) ->
  exists c, poisson_choice P fuel value mu items weight_floor true false seed ent = Ok c /\ c_items c = items.
Proof.
  intros P A fuel value mu items wf sd ent Hne Hl Hmu Hp. unfold poisson_choice, dist_choice.
  rewrite (mapM_all_ok _ (fun x => clamp (w_lt P) (value x) (Some wf) None)).
  - cbn [bind]. unfold choice_new. destruct items as [|a items]; [congruence|].
    set (ws := map _ _). assert (E : length (a :: items) = length ws) by (subst ws; rewrite map_length, seq_length; reflexivity).
    assert (Hn : nonempty (Some ws) = true) by (destruct ws; [discriminate|reflexivity]). rewrite Hn. cbn [nonempty andb orb].
    unfold all_weights. rewrite <- E, Nat.eqb_refl. cbn [negb bind fst snd]. eexists. split; reflexivity.
  - intros x Hx. apply in_seq in Hx. unfold poisson_checked.
    rewrite (Hp x) by lia. rewrite fact_fits by lia. reflexivity.
Qed.
Print Assumptions C21_up_to_170_partial.

Example C21_example : forall x, (1 <= x <= 170)%nat -> int_to_float_ok (1 ^ Z.of_nat x) = true.
Proof. intros x _. rewrite Z.pow_1_l by lia. reflexivity. Qed.

(** ** C22: only its own items *)
Theorem C22_own_items :
  forall (P : prims) (A : Type) (setsize : list A -> res Z) fuel items c req l,
  reach_any P setsize fuel items c -> fst (do_ask P setsize fuel req c) = Ok l ->
  forall a, In a l -> In a items.
Proof.
  intros P A setsize fuel items c req l R H a Ha.
  destruct (reach_any_inv P setsize fuel items c R) as (Hi & Hs & _). subst items.
  destruct (do_ask P setsize fuel req c) as [o c'] eqn:E. cbn in H. subst o.
  eapply ask_incl; eauto.
Qed.
Print Assumptions C22_own_items.

(** A state reached by a mixed history, failures included. *)
Example C22_example :
  match choice_new (QP demo) 5 demo_items None false false (Some 4%nat) None 0%nat with
  | Ok c => let c := snd (do_ask (QP demo) (count_distinct Nat.eq_dec) 5 (CallN 9) c) in   (* refused *)
            let c := snd (do_setting (QP demo) 5 (Weights (P := QP demo) (Some [q 1])) 0%nat c) in        (* refused *)
            let c := snd (do_setting (QP demo) 5 (Replace_only_after_call true) 0%nat c) in
            fst (do_ask (QP demo) (count_distinct Nat.eq_dec) 5 (CallN 2) c) = Ok [10; 20]%nat
  | _ => False
  end.
Proof. vm_compute. reflexivity. Qed.

(** ** C23: without replacement *)
Theorem C23_each_item_once :
  forall (P : prims) (A : Type) (setsize : list A -> res Z) fuel items c,
  w_true P (w_zero P) = false ->
  (forall l, incl l items -> exists n, setsize l = Ok n) ->   (* items are hashable *)
  just_shuffled P setsize fuel items c ->
  exists order, Permutation order items /\
    (* the emitter deals out [order], request by request, and refuses what
       exceeds the rest, without effect *)
    remaining P setsize fuel c order /\
    (* so all that is emitted is a prefix of that order *)
    (forall reqs, Forall (fun r => 0 <= ask_size r) reqs ->
       let outs := fst (do_asks P setsize fuel reqs c) in
       exists rest, concat (map (fun o => match o with Ok l => l | _ => [] end) outs) ++ rest = order) /\
    (forall reqs r, Forall (fun r => 0 <= ask_size r) reqs -> 0 <= ask_size r ->
       let c' := snd (do_asks P setsize fuel reqs c) in
       forall e, fst (do_ask P setsize fuel r c') = Raise e ->
         e = ValueError /\ snd (do_ask P setsize fuel r c') = c').
Proof.
  intros P A setsize fuel items c Hz Hs J.
  destruct (just_shuffled_left P setsize fuel Hz items c J) as (Hinv & Hr & Hp).
  assert (D : forall reqs, Forall (fun r => 0 <= ask_size r) reqs -> _) by
    (intros reqs HF; exact (asks_deal P setsize fuel items reqs c Hs Hinv Hr HF)).
  exists (left_of P c). split; auto. split; [|split].
  - intros qs HF. apply (D qs HF).
  - intros reqs HF outs. exists (undealt (left_of P c) (map (fun q => Z.to_nat (ask_size q)) reqs)).
    unfold outs. rewrite (proj1 (D reqs HF)).
    rewrite <- (deal_concat (left_of P c) (map (fun q => Z.to_nat (ask_size q)) reqs)) at 3. f_equal.
    rewrite map_map. f_equal. apply map_ext. intros [l|]; reflexivity.
  - intros reqs r HF H0 c' e He. destruct (D reqs HF) as (_ & Hi' & Hr' & _). fold c' in Hi', Hr'.
    destruct (ask_noreplace P setsize fuel items r c' Hi' Hr' H0) as [A1 A2].
    destruct (Z.lt_ge_cases (c_nui c') (ask_size r)) as [L|L].
    + destruct (A1 L) as (o & Eo & _ & Hv). rewrite Eo in *. cbn [fst snd] in *. split; auto.
      assert (o = Raise ValueError).
      { apply Hv. unfold num_unique_values. rewrite Hr'.
        destruct Hi' as (_ & Hit & _ & _ & Hx). rewrite Hr' in Hx. destruct Hx as (i & Hpm & Hsi & _).
        rewrite Hsi. apply Hs. intros a Ha. apply (Permutation_in a Hpm).
        unfold list_slice in Ha. apply in_firstn in Ha. rewrite <- (firstn_skipn (Z.to_nat (clip_bound (zlen (c_shuffled c')) i))).
        apply in_or_app. right. exact Ha. }
      congruence.
    + rewrite (A2 L) in He. discriminate.
Qed.
Print Assumptions C23_each_item_once.

Definition c23 := made (choice_new (QP demo) 5 [10; 20; 30; 20]%nat (Some [q 1; q 3; q 2; q 1]) false false (Some 3%nat) None 0%nat).
Example C23_example :
  just_shuffled (QP demo) (count_distinct Nat.eq_dec) 5 [10; 20; 30; 20]%nat c23 /\
  fst (do_asks (QP demo) (count_distinct Nat.eq_dec) 5 [CallN 2; CallN 3; Call0; CallN 0; EmitMany 1; Emit] c23)
  = [Ok [20; 20]%nat; Raise ValueError; Ok [30%nat]; Ok []; Ok [10%nat]; Raise ValueError].
Proof.
  split; [|vm_compute; reflexivity].
  eapply JS_new; [apply made_ok|]; vm_compute; reflexivity.
Qed.

(** Beside C23: the hypothesis that amounts are not negative is needed.  A
    negative amount is accepted and moves the emitter backwards. *)
Theorem C23_negative_amount_repeats :
  exists (c : @choice (QP demo) nat),
    just_shuffled (QP demo) (count_distinct Nat.eq_dec) 5 demo_items c /\ NoDup demo_items /\
    exists v, fst (do_asks (QP demo) (count_distinct Nat.eq_dec) 5 [Call0; CallN (-1); Call0] c) = [Ok [v]; Ok []; Ok [v]].
Proof.
  exists (made (choice_new (QP demo) 5 demo_items None false false (Some 3%nat) None 0%nat)).
  split; [|split].
  - eapply JS_new; [apply made_ok|]; vm_compute; reflexivity.
  - unfold demo_items. repeat constructor; cbn; intuition congruence.
  - exists 20%nat. vm_compute. reflexivity.
Qed.
Print Assumptions C23_negative_amount_repeats.

(** ** C24: replace_only_after_call *)
Definition C24_statement : Prop :=
  forall (g : qgen) (A : Type) (setsize : list A -> res Z) fuel items (c : @choice (QP g) A) n,
  qgen_ok g -> (exists z, setsize items = Ok z) -> reach_any (QP g) setsize fuel items c ->
  (forall (ws : list Qc), c_weights c = Some ws -> Forall (fun w => (0 < w)%Qc) ws) ->
  c_roac c = true -> 2 <= n ->
  (fst (do_ask (QP g) setsize fuel (CallN n) c) = Raise ValueError <-> zlen items < n).

(** What does not hold: with weights a call that asks for few enough values can
    fail too (a random number of exactly 0.0 makes math.log raise).  What holds: *)
Theorem C24_unique_per_call_partial :
  forall (P : prims) (A : Type) (setsize : list A -> res Z) fuel items c req n,
  rng_ok P -> reach_any P setsize fuel items c ->
  c_roac c = true -> req = CallN n \/ req = EmitMany n -> 2 <= n ->
  let o := fst (do_ask P setsize fuel req c) in
  (* nothing but the random generator changes *)
  (exists r, snd (do_ask P setsize fuel req c) = set_rng P r c) /\
  (forall l, o = Ok l -> without_replacement items l /\ zlen l = n) /\
  (zlen items < n -> (exists z, setsize items = Ok z) -> o = Raise ValueError) /\
  (zlen items < n -> forall l, o <> Ok l) /\
  (n <= zlen items -> c_weights c = None -> exists l, o = Ok l).
Proof.
  intros P A setsize fuel items c req n R Hre Hro Hq Hn. cbn zeta.
  destruct (do_ask P setsize fuel req c) as [o c'] eqn:E. cbn [fst snd].
  pose proof (roac_ask P setsize fuel R items req n c o c' (reach_any_inv2 P setsize fuel items c Hre) Hro Hq Hn E) as (H1 & H2 & H3 & H4 & H5).
  repeat split; auto; try (apply H4; auto).
Qed.
Print Assumptions C24_unique_per_call_partial.

Definition c24 := made (choice_new (QP demo) 5 [10; 20; 30]%nat (Some [q 1; q 3; q 2]) true true (Some 2%nat) None 0%nat).
Theorem C24_value_error_iff_refuted : ~ C24_statement.
Proof.
  intros S.
  specialize (S demo nat (count_distinct Nat.eq_dec) 5%nat [10; 20; 30]%nat c24 3 demo_ok).
  destruct S as [S _].
  - eexists. reflexivity.
  - eapply RA_new. apply made_ok. vm_compute. reflexivity.
  - intros ws Hw. assert (E : c_weights c24 = Some [q 1; q 3; q 2]) by reflexivity.
    rewrite E in Hw. injection Hw as <-. repeat constructor.
  - reflexivity.
  - lia.
  - assert (X : zlen [10; 20; 30]%nat < 3); [|unfold zlen in X; cbn in X; lia].
    apply S. vm_compute. reflexivity.
Qed.
Print Assumptions C24_value_error_iff_refuted.

Example C24_example :
  match choice_new (QP demo) 5 demo_items (Some [q 1; q 3; q 2; q 1]) true true (Some 3%nat) None 0%nat with
  | Ok c => c_roac c = true /\
            fst (do_asks (QP demo) (count_distinct Nat.eq_dec) 5 [CallN 5; CallN 4] (set_rng (QP demo) 3%nat c))
            = [Raise ValueError; Ok [20; 40; 30; 10]%nat]
  | _ => False
  end.
Proof. vm_compute. split; reflexivity. Qed.

(** ** C25: bookkeeping.  [distinct n l]: there are [n] different values in [l]. *)
Definition distinct {A} (n : Z) (l : list A) : Prop :=
  exists d, NoDup d /\ (forall x, In x d <-> In x l) /\ zlen d = n.

Lemma count_distinct_spec {A} (eq_dec : forall x y : A, {x = y} + {x <> y}) l :
  exists n, count_distinct eq_dec l = Ok n /\ distinct n l /\ (n = zlen l <-> NoDup l).
Proof.
  exists (zlen (nodup eq_dec l)). split; [reflexivity|]. split.
  - exists (nodup eq_dec l). split; [apply NoDup_nodup|]. split; [intros; apply nodup_In|reflexivity].
  - unfold zlen. split.
    + intros H. apply Nat2Z.inj in H. clear - H. induction l as [|a l IH]; [constructor|]. cbn in H.
      assert (L : (length (nodup eq_dec l) <= length l)%nat).
      { clear. induction l; cbn; auto. destruct (in_dec eq_dec a l); cbn; lia. }
      destruct (in_dec eq_dec a l) as [i|i]; cbn in H; [lia|]. constructor; auto.
    + intros H. rewrite (nodup_fixed_point eq_dec H). reflexivity.
Qed.

Theorem C25_bookkeeping :
  forall (P : prims) (A : Type) (eq_dec : forall x y : A, {x = y} + {x <> y}) fuel items c,
  w_true P (w_zero P) = false ->
  let setsize := count_distinct eq_dec in
  reach P setsize fuel items c ->
  (* replace=False: [left] is what will be emitted *)
  (c_replace c = false ->
     exists left, remaining P setsize fuel c left /\ without_replacement items left /\
       num_unique_items P c = zlen left /\
       (exists n, num_unique_values P setsize c = Ok n /\ distinct n left) /\
       (exists b, emits_unique_values P setsize c = Ok b /\ (b = true <-> NoDup left))) /\
  (c_replace c = true ->
     num_unique_items P c = zlen items /\
     (exists n, num_unique_values P setsize c = Ok n /\ distinct n items) /\
     emits_unique_values P setsize c = Ok false).
Proof.
  intros P A eq_dec fuel items c Hz setsize R.
  pose proof (reach_inv P setsize fuel Hz items c R) as Hinv. split; intros Hr.
  - exists (left_of P c).
    destruct (inv_left P items c Hinv Hr) as (L1 & L2 & L3).
    assert (E : num_unique_values P setsize c = setsize (left_of P c)).
    { unfold num_unique_values. rewrite Hr. destruct Hinv as (_ & Hit & _ & _ & Hx). rewrite Hr in Hx.
      destruct Hx as (i & Hpm & Hsi & Hi & _). rewrite Hsi. unfold left_of. rewrite Hsi.
      f_equal. unfold list_slice, clip_bound.
      pose proof (Permutation_length Hpm) as PL. unfold zlen in *.
      destruct (Z.ltb_spec i 0); [lia|]. destruct (Z.ltb_spec (Z.of_nat (length (c_shuffled c))) 0); [lia|].
      rewrite !Z.min_l by lia. apply firstn_all2. rewrite skipn_length. lia. }
    destruct (count_distinct_spec eq_dec (left_of P c)) as (n & En & Dn & Un). fold setsize in En.
    split; [|split; [|split; [|split]]]; auto.
    + intros qs HF. apply (asks_deal P setsize fuel items qs c); auto. intros l _. eexists. reflexivity.
    + exists n. rewrite E. auto.
    + unfold emits_unique_values. rewrite Hr, E, En. cbn [bind]. eexists. split; [reflexivity|].
      rewrite Z.eqb_eq, <- L1, <- Un. split; congruence.
  - destruct Hinv as (_ & Hit & _ & _ & Hx). rewrite Hr in Hx. split; [exact Hx|]. split.
    + unfold num_unique_values. rewrite Hr, Hit. destruct (count_distinct_spec eq_dec items) as (n & En & Dn & _). eauto.
    + unfold emits_unique_values. rewrite Hr. reflexivity.
Qed.
Print Assumptions C25_bookkeeping.

(** When what is left is pairwise distinct no value is repeated. *)
Theorem C25_no_repeats :
  forall (P : prims) (A : Type) (eq_dec : forall x y : A, {x = y} + {x <> y}) fuel items c reqs,
  w_true P (w_zero P) = false ->
  let setsize := count_distinct eq_dec in
  reach P setsize fuel items c -> emits_unique_values P setsize c = Ok true ->
  Forall (fun r => 0 <= ask_size r) reqs ->
  NoDup (concat (map (fun o => match o with Ok l => l | _ => [] end) (fst (do_asks P setsize fuel reqs c)))).
Proof.
  intros P A eq_dec fuel items c reqs Hz setsize R He HF.
  destruct (C25_bookkeeping P A eq_dec fuel items c Hz R) as [B1 _].
  destruct (c_replace c) eqn:Hr; [unfold emits_unique_values in He; rewrite Hr in He; discriminate|].
  destruct (B1 eq_refl) as (left & Hrem & _ & _ & _ & b & Hb & Hnd). fold setsize in Hb, Hrem.
  rewrite He in Hb. injection Hb as <-. pose proof (proj1 Hnd eq_refl) as N.
  rewrite (Hrem reqs HF), map_map.
  rewrite <- (deal_concat left (map (fun q => Z.to_nat (ask_size q)) reqs)) in N.
  apply NoDup_app_l in N. erewrite map_ext; [exact N|]. intros [l|]; reflexivity.
Qed.
Print Assumptions C25_no_repeats.

Example C25_example :
  match choice_new (QP demo) 5 [10; 20; 20; 10; 30]%nat None false false (Some 3%nat) None 0%nat with
  | Ok c => let c1 := snd (do_ask (QP demo) (count_distinct Nat.eq_dec) 5 (CallN 2) c) in
            let c2 := snd (do_ask (QP demo) (count_distinct Nat.eq_dec) 5 (CallN 1) c1) in
            map (fun c => (num_unique_items (QP demo) c, num_unique_values (QP demo) (count_distinct Nat.eq_dec) c,
                           emits_unique_values (QP demo) (count_distinct Nat.eq_dec) c)) [c; c1; c2]
            = [(5, Ok 3, Ok false); (3, Ok 3, Ok true); (2, Ok 2, Ok true)]
  | _ => False
  end.
Proof. vm_compute. reflexivity. Qed.

(** ** C26: weights and cum_weights *)
Theorem C26_consistent :
  forall (g : qgen) (A : Type) (setsize : list A -> res Z) fuel items (c : @choice (QP g) A),
  reach_any (QP g) setsize fuel items c ->
  (c_weights c = None /\ c_cum c = None) \/
  exists ws cum : list Qc, c_weights c = Some ws /\ c_cum c = Some cum /\
    length ws = length items /\ length cum = length items /\
    forall i, (i < length items)%nat -> nth i cum 0%Qc = qsum (firstn (S i) ws).
Proof.
  intros g A setsize fuel items c R.
  destruct (reach_any_inv2 (QP g) setsize fuel items c R) as (_ & (Hi & _) & Hw & _).
  pose proof Hw as [H|(ws & cum & E1 & E2 & L1 & L2 & _)]; [left; exact H|right].
  destruct (cum_is_sum g c ws cum items Hw Hi E1 E2) as [-> _].
  exists ws, (accumulate (QP g) ws). rewrite Hi in L1, L2. repeat split; auto.
  intros i Hlt. apply accumulate_prefix. change (@length (pW (QP g)) ws) with (@length Qc ws) in L1. lia.
Qed.
Print Assumptions C26_consistent.

Theorem C26_assignment :
  forall (P : prims) (A : Type) (setsize : list A -> res Z) fuel items (c : @choice P A) ws ent,
  reach_any P setsize fuel items c ->
  (* a wrong number of weights is refused and changes nothing *)
  (length ws <> length items ->
     do_setting P fuel (Weights (Some ws)) ent c = (Raise ValueError, c) /\
     do_setting P fuel (Cum_weights (Some ws)) ent c = (Raise ValueError, c)) /\
  (* otherwise the list assigned is stored, and the other one recomputed *)
  (length ws = length items ->
     let c1 := snd (do_setting P fuel (Weights (Some ws)) ent c) in
     let c2 := snd (do_setting P fuel (Cum_weights (Some ws)) ent c) in
     c_weights c1 = Some ws /\ c_cum c1 = Some (accumulate P ws) /\
     c_cum c2 = Some ws /\ c_weights c2 = Some (de_cum P (w_zero P) ws)) /\
  (* None removes both *)
  (let c1 := snd (do_setting P fuel (Weights None) ent c) in
   let c2 := snd (do_setting P fuel (Cum_weights None) ent c) in
   c_weights c1 = None /\ c_cum c1 = None /\ c_weights c2 = None /\ c_cum c2 = None).
Proof.
  intros P A setsize fuel items c ws ent R.
  destruct (reach_any_inv2 P setsize fuel items c R) as (_ & (Hi & _) & _).
  assert (F : forall wc : option (list (pW P)) * option (list (pW P)),
    let c' := snd ((if c_replace c then ret tt else global_shuffle P fuel) (set_ws P (fst wc) (snd wc) c)) in
    c_weights c' = fst wc /\ c_cum c' = snd wc).
  { intros wc. destruct (c_replace c); [split; reflexivity|].
    destruct (global_shuffle P fuel (set_ws P (fst wc) (snd wc) c)) as [o c'] eqn:E.
    apply global_shuffle_any in E as [(_ & F1 & F2 & _) _]. cbn. auto. }
  split; [|split]; cbn zeta.
  - intros Hl. cbn [do_setting]. unfold set_weights, mbind, get, lift, all_weights. rewrite Hi.
    destruct (Nat.eqb_spec (length items) (length ws)); [congruence|]. cbn [negb]. auto.
  - intros Hl. cbn [do_setting]. unfold set_weights, mbind, get, lift, modify, all_weights. rewrite Hi, Hl, Nat.eqb_refl.
    cbn [negb]. split; [|split; [|split]].
    + apply (F (Some ws, Some (accumulate P ws))).
    + apply (F (Some ws, Some (accumulate P ws))).
    + apply (F (Some (de_cum P (w_zero P) ws), Some ws)).
    + apply (F (Some (de_cum P (w_zero P) ws), Some ws)).
  - cbn [do_setting]. unfold set_weights, mbind, get, lift, modify, all_weights.
    split; [|split; [|split]]; apply (F (None, None)).
Qed.
Print Assumptions C26_assignment.

(** With doubles the differences and the running sums can disagree by rounding. *)
Definition C26_doubles_statement : Prop :=
  forall (g : fgen) (A : Type) (setsize : list A -> res Z) fuel items (c : @choice (FP g) A) ws cum,
  reach_any (FP g) setsize fuel items c -> c_weights c = Some ws -> c_cum c = Some cum ->
  map B2SF cum = map B2SF (accumulate (FP g) ws).

(** A generator for examples with doubles: always 0.75. *)
Definition fdemo : fgen := {|
  f_state := nat; f_seed := nat; f_seeded := fun s => s; f_fresh := fun n => n;
  f_random := fun n => (fl 3 (-2), S n); f_below := fun n r => (r mod n, S r)%nat;
  f_sample := fun n k r => (List.seq 0 k, S r); f_log := fun _ => fl (-1) 0
|}.

Theorem C26_doubles_refuted : ~ C26_doubles_statement.
Proof.
  intros S.
  pose (cum := [fl 1 (-53); fl (2 ^ 52 + 1) (-52)]).
  specialize (S fdemo bool (fun _ => Ok 2) 0%nat [true; false]
    (mkChoice (P := FP fdemo) [true; false] (Some (de_cum (FP fdemo) fzero cum)) (Some cum) true false 2 [] None None 0%nat)
    (de_cum (FP fdemo) fzero cum) cum).
  assert (X : map B2SF cum = map B2SF (accumulate (FP fdemo) (de_cum (FP fdemo) fzero cum))).
  { apply S; try reflexivity.
    apply (RA_new (FP fdemo) (fun _ => Ok 2) 0%nat [true; false] None true false None (Some cum) 0%nat). reflexivity. }
  vm_compute in X. discriminate.
Qed.
Print Assumptions C26_doubles_refuted.

(** ** C27: replace and replace_only_after_call *)
Theorem C27_no_contradiction :
  forall (P : prims) (A : Type) (setsize : list A -> res Z) fuel items (c : @choice P A) b ent,
  reach_any P setsize fuel items c ->
  (c_roac c = true -> c_replace c = true) /\
  (let c1 := snd (do_setting P fuel (Replace b) ent c) in
   c_replace c1 = b /\ (b = false -> c_roac c1 = false) /\ (b = true -> c_roac c1 = c_roac c) /\
   c_items c1 = c_items c /\ c_weights c1 = c_weights c /\ c_cum c1 = c_cum c /\ c_seed c1 = c_seed c) /\
  (let c2 := snd (do_setting P fuel (Replace_only_after_call b) ent c) in
   c_roac c2 = b /\ (b = true -> c_replace c2 = true) /\ (b = false -> c_replace c2 = c_replace c) /\
   c_items c2 = c_items c /\ c_weights c2 = c_weights c /\ c_cum c2 = c_cum c /\ c_seed c2 = c_seed c) /\
  (forall o, match o with Reset | Seed _ | Rng_seed _ | Weights _ | Cum_weights _ => True | _ => False end ->
     let c3 := snd (do_setting P fuel o ent c) in c_replace c3 = c_replace c /\ c_roac c3 = c_roac c).
Proof.
  intros P A setsize fuel items c b ent R.
  destruct (reach_any_inv P setsize fuel items c R) as (Hi & Hs & Hro). split; [exact Hro|].
  assert (F : forall c' : @choice P A, let c'' := snd (global_shuffle P fuel c') in
     c_replace c'' = c_replace c' /\ c_roac c'' = c_roac c' /\
     c_items c'' = c_items c' /\ c_weights c'' = c_weights c' /\ c_cum c'' = c_cum c' /\ c_seed c'' = c_seed c').
  { intros c'. destruct (global_shuffle P fuel c') as [o c''] eqn:E.
    apply global_shuffle_any in E as [(F1 & F2 & F3 & F4 & F5 & F6) _]. cbn. auto 10. }
  assert (FR : forall c' : @choice P A, let c'' := snd ((if c_replace c' then ret tt else global_shuffle P fuel) c') in
     c_replace c'' = c_replace c' /\ c_roac c'' = c_roac c').
  { intros c'. destruct (c_replace c') eqn:E; [cbn; auto|]. destruct (F c') as (F1 & F2 & _). rewrite E in F1. cbn zeta in *. auto. }
  split; [|split].
  - cbn [do_setting]. unfold set_replace, mbind, get, modify.
    destruct (Bool.eqb_spec b (c_replace c)) as [->|Hb].
    + cbn. repeat split; auto. intros Hf. destruct (c_roac c); auto. rewrite Hro in Hf by auto. discriminate.
    + destruct b.
      * cbn. repeat split; auto. discriminate.
      * destruct (F (set_roac P false (set_rep P false c))) as (F1 & F2 & F3 & F4 & F5 & F6). cbn zeta in *. rewrite F1, F2, F3, F4, F5, F6.
        cbn. repeat split; auto. discriminate.
  - cbn [do_setting]. unfold set_replace_only_after_call, set_replace, mbind, get, modify. destruct b.
    + destruct (Bool.eqb_spec true (c_replace (set_roac P true c))) as [Hb|Hb]; cbn in *; repeat split; auto; discriminate.
    + cbn. repeat split; auto. discriminate.
  - intros o Ho. destruct o as [|s|s|w|w|b'|b']; try contradiction; cbn [do_setting].
    + unfold choice_reset, mbind, modify, get. apply (FR (set_rng P (rng_for P (c_seed c) ent) c)).
    + unfold choice_seed, mbind, modify, get. apply (FR (set_rng P (rng_for P s ent) (set_seed P s c))).
    + cbn. auto.
    + unfold set_weights, mbind, modify, get, lift. destruct (all_weights P (c_items c) w false) as [wc| |]; cbn; auto.
      apply (FR (set_ws P (fst wc) (snd wc) c)).
    + unfold set_weights, mbind, modify, get, lift. destruct (all_weights P (c_items c) w true) as [wc| |]; cbn; auto.
      apply (FR (set_ws P (fst wc) (snd wc) c)).
Qed.
Print Assumptions C27_no_contradiction.

Example C27_example :
  match choice_new (QP demo) 5 demo_items None true true (Some 3%nat) None 0%nat with
  | Ok c => (c_replace c, c_roac c) = (true, true) /\
            (let c := snd (do_setting (QP demo) 5 (Replace false) 0%nat c) in (c_replace c, c_roac c)) = (false, false) /\
            (let c := snd (do_setting (QP demo) 5 (Replace_only_after_call false) 0%nat c) in (c_replace c, c_roac c)) = (true, false)
  | _ => False
  end.
Proof. vm_compute. auto. Qed.

(** ** C28: seeding is like constructing.  [ent], [ent'] number uses of the
    operating system's entropy; they do not matter for a seed. *)
Definition same_outcome {P A} (setsize : list A -> res Z) fuel (seeded : res unit * @choice P A) (fresh : res (@choice P A)) : Prop :=
  match seeded, fresh with
  | (Ok _, c), Ok c0 => forall reqs, fst (do_asks P setsize fuel reqs c) = fst (do_asks P setsize fuel reqs c0)
  | (Raise e, _), Raise e0 => e = e0
  | (Diverge, _), Diverge => True
  | _, _ => False
  end.

Theorem C28_seed_is_construction :
  forall (P : prims) (A : Type) (setsize : list A -> res Z) fuel items (c : @choice P A) s ent ent',
  reach_any P setsize fuel items c ->
  (* the settings of c as constructor arguments: weights or cum_weights *)
  exists ws cum, (ws = c_weights c /\ cum = None \/ ws = None /\ cum = c_cum c) /\
    let fresh := choice_new P fuel items ws (c_replace c) (c_roac c) (Some s) cum ent' in
    same_outcome setsize fuel (do_setting P fuel (Seed (Some s)) ent c) fresh /\
    (c_seed c = Some s -> same_outcome setsize fuel (do_setting P fuel Reset ent c) fresh).
Proof.
  intros P A setsize fuel items c s ent ent' R.
  destruct (seed_like_new P fuel items s c ent ent' (reach_any_inv2 P setsize fuel items c R)) as (ws & cum & Ha & H).
  exists ws, cum. split; auto. cbn zeta.
  assert (X : same_outcome setsize fuel (choice_seed P fuel (Some s) ent c)
                (choice_new P fuel items ws (c_replace c) (c_roac c) (Some s) cum ent')).
  { destruct (choice_seed P fuel (Some s) ent c) as [[u|e|] c'].
    - destruct H as (c0 & -> & Hal). cbn. intros reqs. symmetry. apply alike_asks. exact Hal.
    - rewrite H. reflexivity.
    - rewrite H. exact I. }
  split; [exact X|]. intros Hs. cbn [do_setting]. rewrite (reset_is_seed P fuel ent s c Hs). exact X.
Qed.
Print Assumptions C28_seed_is_construction.

Example C28_example :
  match choice_new (QP demo) 5 demo_items (Some [q 1; q 3; q 2; q 1]) false false (Some 3%nat) None 0%nat with
  | Ok c => let c' := snd (do_asks (QP demo) (count_distinct Nat.eq_dec) 5 [CallN 3] c) in
            fst (do_asks (QP demo) (count_distinct Nat.eq_dec) 5 [CallN 2; Call0] (snd (do_setting (QP demo) 5 Reset 0%nat c')))
            = fst (do_asks (QP demo) (count_distinct Nat.eq_dec) 5 [CallN 2; Call0] c) /\
            fst (do_asks (QP demo) (count_distinct Nat.eq_dec) 5 [CallN 2] c) = [Ok [20; 40]%nat]
  | _ => False
  end.
Proof. vm_compute. auto. Qed.

(** ** C29, the part about Choice: batching *)
Theorem C29_batching_choice :
  forall (P : prims) (A : Type) (setsize : list A -> res Z) fuel items (c c2 : @choice P A) a b l,
  w_true P (w_zero P) = false -> 0 <= a -> 0 <= b ->
  (reach P setsize fuel items c /\ c_replace c = false) \/
  (reach_any P setsize fuel items c /\ c_replace c = true /\ c_roac c = false /\ c_weights c <> None) ->
  let call n c := do_ask P setsize fuel (CallN n) c in
  call (a + b) c = (Ok l, c2) <->
  exists c1 l1 l2, l = l1 ++ l2 /\ call a c = (Ok l1, c1) /\ call b c1 = (Ok l2, c2).
Proof.
  intros P A setsize fuel items c c2 a b l Hz Ha Hb H. cbn zeta. destruct H as [(R & Hr)|(R & Hr & Hro & Hw)].
  - pose proof (reach_inv P setsize fuel Hz items c R) as I. split.
    + intros H. destruct (batch_noreplace P setsize fuel items a b c c2 l I Hr Ha Hb H) as (c1 & H1 & H2).
      exists c1, (firstn (Z.to_nat a) l), (skipn (Z.to_nat a) l). rewrite firstn_skipn. auto.
    + intros (c1 & l1 & l2 & -> & H1 & H2). eapply batch_noreplace_conv; eauto.
  - destruct (reach_any_inv2 P setsize fuel items c R) as (_ & (Hi & _) & Hwo & _).
    destruct Hwo as [(X & _)|(ws & cum & E1 & E2 & _)]; [contradiction|]. split.
    + intros H. destruct (batch_weighted P setsize fuel a b c ws cum l c2 Hr Hro E1 E2 Ha Hb H) as (c1 & H1 & H2).
      exists c1, (firstn (Z.to_nat a) l), (skipn (Z.to_nat a) l). rewrite firstn_skipn. auto.
    + intros (c1 & l1 & l2 & -> & H1 & H2). eapply batch_weighted_conv; eauto.
Qed.
Print Assumptions C29_batching_choice.

Example C29_choice_example :
  match choice_new (QP demo) 5 demo_items (Some demo_ws) true false (Some 3%nat) None 0%nat with
  | Ok c => fst (do_asks (QP demo) (count_distinct Nat.eq_dec) 5 [CallN 5] c) = [Ok [30; 40; 30; 30; 10]%nat] /\
            fst (do_asks (QP demo) (count_distinct Nat.eq_dec) 5 [CallN 2; CallN 3] c) = [Ok [30; 40]%nat; Ok [30; 30; 10]%nat]
  | _ => False
  end.
Proof. vm_compute. auto. Qed.

(** ** C30: chance *)
Definition C30_statement : Prop :=
  forall (g : fgen) setsize fuel (p : double) seed ent c0 req,
  fgen_ok g -> is_finite p = true -> chance (FP g) fuel p seed ent = Ok c0 ->
  exists l, fst (do_ask (FP g) setsize fuel req c0) = Ok l.

(** Construction succeeds; then every value of every later request is the answer
    to "is the draw below p": in exact arithmetic for every p. *)
Theorem C30_chance :
  forall (g : qgen) setsize fuel (p : Qc) seed ent, qgen_ok g ->
  exists c0, chance (QP g) fuel p seed ent = Ok c0 /\
  forall reqs req, let c := snd (do_asks (QP g) setsize fuel reqs c0) in
  exists us l, fst (do_ask (QP g) setsize fuel req c) = Ok l /\
    draws (QP g) (Z.to_nat (ask_size req)) (c_rng c) = (us, c_rng (snd (do_ask (QP g) setsize fuel req c))) /\
    Forall2 (fun (u : Qc) b => b = true <-> (u < p)%Qc) us l /\
    ((p <= 0)%Qc -> Forall (fun b => b = false) l) /\
    ((1 <= p)%Qc -> Forall (fun b => b = true) l).
Proof.
  intros g setsize fuel p seed ent G. eexists. split; [apply chance_new|]. intros reqs req c.
  destruct (chance_ask (QP g) setsize fuel p seed ent _ reqs req (chance_new _ _ _ _ _)) as (us & l & H1 & H2 & H3).
  { rewrite qc_chance_total. reflexivity. }
  fold c in H1, H2. exists us, l. split; auto. split; auto.
  assert (H4 : Forall2 (fun (u : Qc) b => b = true <-> (u < p)%Qc) us l).
  { eapply Forall2_weaken; [|exact H3]. intros u b ->. rewrite qc_chance_total. cbn [QP w_lt w_scale].
    rewrite qc_ltb_lt. change (u * 1 < p <-> u < p)%Qc. rewrite Qcmult_1_r. reflexivity. }
  assert (U : Forall (fun u => (0 <= u)%Qc /\ (u < 1)%Qc) us).
  { pose proof (draws_in_unit g G (Z.to_nat (ask_size req)) (c_rng c)) as U. rewrite H2 in U. exact U. }
  split; auto. clear H1 H2 H3. clear c. split; intros Hp; revert U; induction H4 as [|u b us l Hb _ IH]; intros U; inversion U; subst; constructor; auto.
  - destruct b; auto. exfalso. destruct H1 as [U0 _]. apply (Qclt_not_le u p); [apply Hb; auto|]. eapply Qcle_trans; eauto.
  - apply Hb. destruct H1 as [_ U1]. eapply Qclt_le_trans; eauto.
Qed.
Print Assumptions C30_chance.

(** With doubles: the same for |p| <= 2^52. *)
Theorem C30_chance_doubles :
  forall (g : fgen) setsize fuel (p : double) seed ent, fgen_ok g -> is_finite p = true ->
  (Rabs (B2R p) <= bpow radix2 52)%R ->
  exists c0, chance (FP g) fuel p seed ent = Ok c0 /\
  forall reqs req, let c := snd (do_asks (FP g) setsize fuel reqs c0) in
  exists us l, fst (do_ask (FP g) setsize fuel req c) = Ok l /\
    draws (FP g) (Z.to_nat (ask_size req)) (c_rng c) = (us, c_rng (snd (do_ask (FP g) setsize fuel req c))) /\
    Forall2 (fun (u : double) b => b = true <-> (B2R u < B2R p)%R) us l /\
    ((B2R p <= 0)%R -> Forall (fun b => b = false) l) /\
    ((1 <= B2R p)%R -> Forall (fun b => b = true) l).
Proof.
  intros g setsize fuel p seed ent G Fp Hp. eexists. split; [apply chance_new|]. intros reqs req c.
  destruct (fchance_total p Fp Hp) as (Ft & T & _).
  destruct (chance_ask (FP g) setsize fuel p seed ent _ reqs req (chance_new _ _ _ _ _)) as (us & l & H1 & H2 & H3).
  { apply total_ok_pos; [exact Ft|]. change (0 < B2R (fadd p (fsub (fl 1 0) p)))%R. Lra.lra. }
  fold c in H1, H2. exists us, l. split; auto. split; auto.
  assert (U : Forall (fun u : double => exists r, u = fst (f_random g r)) us).
  { apply Forall_forall. intros u Hu. apply (draws_from_state (FP g) (Z.to_nat (ask_size req)) (c_rng c)). rewrite H2. exact Hu. }
  assert (H4 : Forall2 (fun (u : double) b => b = true <-> (B2R u < B2R p)%R) us l).
  { clear H1 H2. clear c. induction H3 as [|u b us l Hb _ IH]; constructor; inversion U; subst; auto.
    destruct H1 as (r & ->). apply (fchance_draw g p r G Fp Hp). }
  split; auto. clear H1 H2 H3. clear c.
  assert (U' : Forall (fun u : double => 0 <= B2R u < 1)%R us).
  { eapply Forall_impl; [|exact U]. intros u (r & ->). destruct (G r) as [_ H]. pose proof (bpow_gt_0 radix2 (-53)). Lra.lra. }
  clear U.
  split; intros Hq; revert U'; induction H4 as [|u b us l Hb _ IH]; intros U'; inversion U'; subst; constructor; auto.
  - destruct b; auto. pose proof (proj1 Hb eq_refl). Lra.lra.
  - apply Hb. Lra.lra.
Qed.
Print Assumptions C30_chance_doubles.

(** For a very large p (here 2^60) the weights cancel and nothing can be emitted. *)
Lemma fdemo_ok : fgen_ok fdemo.
Proof.
  intros r. cbn. split; [reflexivity|].
  assert (E : F2R (Float radix2 6755399441055744 (-53)) = (3 / 4)%R).
  { unfold F2R. cbn [Fnum Fexp]. change 6755399441055744 with (3 * 2 ^ 51). rewrite mult_IZR.
    change (2 ^ 51) with (Zpower radix2 51). rewrite IZR_Zpower by lia. rewrite Rmult_assoc, <- bpow_plus. cbn. Lra.lra. }
  change (B2R (fl 3 (-2))) with (F2R (Float radix2 6755399441055744 (-53))). rewrite E.
  assert (bpow radix2 (-53) <= / 4)%R; [|Lra.lra].
  change (/ 4)%R with (bpow radix2 (-2)). apply bpow_le. lia.
Qed.

Theorem C30_any_p_refuted : ~ C30_statement.
Proof.
  intros S. destruct (S fdemo (fun _ => Ok 2) 0%nat (fl 1 60) None 0%nat _ Call0 fdemo_ok eq_refl (chance_new _ _ _ _ _)) as (l & H).
  vm_compute in H. discriminate.
Qed.
Print Assumptions C30_any_p_refuted.

Example C30_example :
  match chance (QP demo) 0%nat (q (1 # 2)) (Some 0%nat) 0%nat with
  | Ok c => fst (do_asks (QP demo) (count_distinct Bool.bool_dec) 0 [CallN 4; Call0] c)
            = [Ok [true; false; true; true]; Ok [false]]
  | _ => False
  end.
Proof. vm_compute. reflexivity. Qed.

(** ** C31: weight_floor *)
Theorem C31_weight_floor :
  forall (P : prims) (A : Type) fuel (dist : nat -> pW P) (items : list A) weight_floor replace roac seed ent c,
  (forall a, w_lt P a a = false) ->
  ((exists mu : Z, poisson_choice P fuel dist mu items weight_floor replace roac seed ent = Ok c) \/
   (exists pow_ok, poisson_choice_float P fuel dist pow_ok items weight_floor replace roac seed ent = Ok c) \/
   gaussian_choice P fuel dist items weight_floor replace roac seed ent = Ok c) ->
  exists ws, c_weights c = Some ws /\ length ws = length items /\
    forall i w, nth_error ws i = Some w ->
      w_lt P w weight_floor = false /\                               (* at least the floor *)
      (w_lt P (dist (S i)) weight_floor = false -> w = dist (S i)) /\ (* item i is x = i + 1 *)
      (w_lt P (dist (S i)) weight_floor = true -> w = weight_floor).
Proof.
  intros P A fuel dist items wf rep roac sd ent c Hirr H.
  assert (D : exists d : nat -> res (pW P), (forall x w, d x = Ok w -> w = dist x) /\
            dist_choice P fuel d items wf rep roac sd ent = Ok c).
  { destruct H as [(mu & H)|[(pok & H)|H]].
    - exists (poisson_checked dist mu). split; auto. intros x w. unfold poisson_checked.
      destruct (negb _); [discriminate|]. destruct (negb _); [discriminate|]. congruence.
    - exists (poisson_checked_float dist pok). split; auto. intros x w. unfold poisson_checked_float.
      destruct (negb _); [discriminate|]. destruct (negb _); [discriminate|]. congruence.
    - exists (fun x => Ok (dist x)). split; auto. intros x w X. congruence. }
  clear H. destruct D as (d & Hd & H). unfold dist_choice in H.
  destruct (mapM _ (seq 1 (length items))) as [ws| |] eqn:E; try discriminate. cbn [bind] in H.
  apply mapM_ok_inv in E.
  assert (HL : length ws = length items).
  { rewrite <- (seq_length (length items) 1). clear - E. induction E; cbn; auto. }
  destruct (new_weights_given P fuel items ws rep roac sd ent c H HL) as [Hw _].
  exists ws. split; auto. split; auto. intros i w Hi.
  assert (Ei : d (S i) = Ok (dist (S i)) /\ w = clamp (w_lt P) (dist (S i)) (Some wf) None).
  { assert (G : forall l ws i w, Forall2 (fun x b => (w0 <- d x;; Ok (clamp (w_lt P) w0 (Some wf) None)) = Ok b) l ws ->
               nth_error ws i = Some w -> exists x, nth_error l i = Some x /\ (w0 <- d x;; Ok (clamp (w_lt P) w0 (Some wf) None)) = Ok w).
    { clear. intros l ws i w HF. revert i. induction HF; intros [|i] Hi; cbn in *; try discriminate.
      - injection Hi as <-. eauto.
      - eauto. }
    destruct (G _ _ _ _ E Hi) as (x & Hx & Hw'). clear G.
    assert (x = S i).
    { assert (L : (i < length items)%nat) by (rewrite <- HL; apply nth_error_Some; congruence).
      apply (nth_error_nth _ _ 0%nat) in Hx. rewrite seq_nth in Hx by auto. lia. }
    subst x. destruct (d (S i)) as [w0| |] eqn:Ed; try discriminate. cbn [bind] in Hw'.
    pose proof (Hd _ _ Ed) as ->. split; auto. congruence. }
  destruct Ei as [_ ->]. unfold clamp. destruct (w_lt P (dist (S i)) wf) eqn:El.
  - split; auto. split; auto. discriminate.
  - split; auto. split; auto. discriminate.
Qed.
Print Assumptions C31_weight_floor.

Example C31_example :
  match gaussian_choice (QP demo) 0%nat (fun n => q (1 # Pos.of_nat n)) demo_items (q (1 # 3)) true false (Some 0%nat) 0%nat with
  | Ok c => c_weights c = Some [q 1; q (1 # 2); q (1 # 3); q (1 # 3)]
  | _ => False
  end.
Proof. vm_compute. reflexivity. Qed.
