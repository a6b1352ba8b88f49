(** * Exactly when weighted_shuffle and weighted calls of a Choice return: C16, C24. *)
From Coq Require Import QArith Qcanon Lia.
From Verif Require Import Base Prims MathModel MathSpec NumSpec MathProofs NumLaws QcNum QcProofs Threshold Demo
  ChoiceModel ChoiceRun ChoiceProofs ChoiceProofs2 ChoiceProofs3 Prop_Math Prop_Choice.
Open Scope list_scope.
Open Scope Z_scope.

Lemma scores_zero (g : qgen) {A} (ws : list Qc) (items : list A) r :
  length ws = length items -> Forall (fun w => (0 < w)%Qc) ws -> qgen_ok g ->
  In 0%Qc (fst (draws (QP g) (length items) r)) ->
  exists r', scores (QP g) ws items r = (Raise ValueError, r').
Proof.
  intros HL HF G. revert items r HL. induction HF as [|w ws Hw HF IH]; intros [|a items] r HL Hin; try discriminate.
  - destruct Hin.
  - cbn [scores length draws] in *. cbn [QP r_random] in *. destruct (g_random g r) as [u r1] eqn:Er.
    unfold mbind, lift. cbn [QP k_score]. unfold qc_score at 1.
    destruct (Qle_bool u 0) eqn:Eu; [eexists; reflexivity|].
    destruct (Qeq_bool w 0) eqn:Ew.
    { apply Qeq_bool_iff in Ew. unfold Qclt in Hw. rewrite Ew in Hw. discriminate. }
    destruct (IH items r1 ltac:(cbn in HL; lia)) as (r' & E).
    + destruct (draws (QP g) (length items) r1) as [us r2]. cbn [fst] in *. destruct Hin as [->|Hin]; [vm_compute in Eu; discriminate Eu | exact Hin].
    + fold (QP g). rewrite E. eexists. reflexivity.
Qed.

(** ** C16: asked for at most 42% of the items weighted_shuffle always returns;
    asked for more, it raises ValueError exactly if one of its draws, one per
    item, is 0.0. *)
Theorem C16_exact :
  forall (g : qgen) (A : Type) (items : list A) (weights : list Qc) number rng fuel,
  qgen_ok g -> length weights = length items -> Forall (fun w => (0 < w)%Qc) weights ->
  0 <= number <= zlen items -> zlen items < 2 ^ 46 -> (Z.to_nat number < fuel)%nat ->
  let fails := 42 * zlen items < 100 * number /\ In 0%Qc (fst (draws (QP g) (length items) rng)) in
  (fails -> fst (weighted_shuffle (QP g) fuel items weights (Some number) rng) = Raise ValueError) /\
  (~ fails -> exists out, fst (weighted_shuffle (QP g) fuel items weights (Some number) rng) = Ok out).
Proof.
  intros g A items weights number rng fuel G HL HF Hn Hl Hf fails. unfold weighted_shuffle.
  change (@length (pW (QP g)) weights) with (@length Qc weights). rewrite HL, Nat.eqb_refl. cbn [negb].
  destruct items as [|a items].
  { cbn [zlen length Z.of_nat] in Hn. assert (number = 0) as -> by (unfold zlen in Hn; cbn in Hn; lia).
    destruct weights; [|discriminate]. destruct fuel; [lia|].
    split; [intros [X _]; cbn in X; lia|]. intros _. eexists. reflexivity. }
  pose proof (use_low_k_42_percent number (length (a :: items)) ltac:(cbn; lia) Hl) as U.
  destruct (use_low_k number (length (a :: items))) eqn:EU.
  - assert (B : 100 * number <= 42 * Z.of_nat (length (a :: items))) by now apply U.
    split; [intros [X _]; unfold zlen in X; lia|]. intros _. unfold low_k.
    destruct weights as [|w ws]; [discriminate|].
    destruct (low_k_loop_returns g fuel (a :: items) (w :: ws) [] number rng) as (out & r' & E); auto; try discriminate; try lia.
    + eapply Forall_impl; [|exact HF]. intros x Hx. apply Qclt_le_weak. exact Hx.
    + assert (E : forall l, Forall (fun w => (0 < w)%Qc) l -> zeros l = 0%nat).
      { unfold zeros. induction 1 as [|v l Hv _ IH]; cbn; auto. destruct (Qeq_bool v 0) eqn:Ev; [|auto].
        apply Qeq_bool_iff in Ev. unfold Qclt in Hv. rewrite Ev in Hv. discriminate. }
      rewrite E by auto. cbn. lia.
    + unfold zlen. cbn. lia.
    + unfold zlen. cbn [length]. lia.
    + exists out. now rewrite E.
  - assert (B : 42 * Z.of_nat (length (a :: items)) < 100 * number).
    { apply Z.lt_nge. intros X. apply U in X. discriminate. }
    split.
    + intros [_ Hin]. destruct (scores_zero g weights (a :: items) rng HL HF G Hin) as (r' & E).
      unfold high_k, mbind. rewrite E. reflexivity.
    + intros N. destruct (high_k_total g weights (a :: items) number rng HL HF G) as [(sc & r' & E)|(Hin & _)].
      * exists sc. now rewrite E.
      * exfalso. apply N. split; [exact B | exact Hin].
Qed.
Print Assumptions C16_exact.

(** ** C24: exactly when a call of a weighted Choice with replace_only_after_call
    returns. *)
Theorem C24_exact :
  forall (g : qgen) (A : Type) (setsize : list A -> res Z) fuel items (c : @choice (QP g) A) (ws : list Qc) n,
  qgen_ok g -> (exists z, setsize items = Ok z) -> reach_any (QP g) setsize fuel items c ->
  c_roac c = true -> c_weights c = Some ws -> Forall (fun w => (0 < w)%Qc) ws ->
  zlen items < 2 ^ 46 -> 2 <= n -> (length items < fuel)%nat ->
  let fails := zlen items < n \/
    (42 * zlen items < 100 * n /\ In 0%Qc (fst (draws (QP g) (length items) (c_rng c)))) in
  (fails -> fst (do_ask (QP g) setsize fuel (CallN n) c) = Raise ValueError) /\
  (~ fails -> exists l, fst (do_ask (QP g) setsize fuel (CallN n) c) = Ok l).
Proof.
  intros g A setsize fuel items c ws n G Hs Hre Hro Hw HF Hl Hn Hf fails.
  destruct (reach_any_inv2 (QP g) setsize fuel items c Hre) as (Hne & (Hit & _ & Hra) & HW & Hnui).
  specialize (Hra Hro). specialize (Hnui Hra).
  assert (L : length ws = length items).
  { destruct HW as [[X _]|(ws' & cum & X & _ & Y & _)]; [congruence|]. rewrite Hit in Y. rewrite Hw in X. injection X as <-. exact Y. }
  assert (E : do_ask (QP g) setsize fuel (CallN n) c = choice_without_replacement (QP g) setsize fuel n c).
  { rewrite ask_cases, Hra, Hro. cbn [negb andb]. assert (B : (1 <? n) = true) by (apply Z.ltb_lt; lia).
    destruct n as [|[p|p|]|]; try lia; rewrite ?B; auto. }
  rewrite E. clear E.
  destruct (Z.ltb_spec (zlen items) n) as [Hlt|Hge].
  - split; [|intros N; exfalso; apply N; now left]. intros _.
    unfold choice_without_replacement. unfold mbind at 1, get at 1. cbv beta iota. rewrite Hnui.
    assert (B : (zlen items <? n) = true) by (apply Z.ltb_lt; lia). rewrite B.
    unfold mbind at 1, uniqueness_violation, mbind, get, lift, raise. unfold num_unique_values. rewrite Hra, Hit.
    destruct Hs as (z & ->). reflexivity.
  - assert (E : choice_without_replacement (QP g) setsize fuel n c
                = on_rng (QP g) (weighted_shuffle (QP g) fuel items ws (Some n)) c).
    { unfold choice_without_replacement. unfold mbind at 1, get at 1. cbv beta iota. rewrite Hnui, Hra, Hit, Hw.
      assert (B : (zlen items <? n) = false) by (apply Z.ltb_ge; lia). rewrite B. reflexivity. }
    rewrite E. unfold on_rng.
    destruct (C16_exact g A items ws n (c_rng c) fuel G L HF ltac:(lia) Hl) as [F1 F2]; [unfold zlen in *; lia|].
    destruct (weighted_shuffle (QP g) fuel items ws (Some n) (c_rng c)) as [o r]. cbn [fst] in *. split.
    + intros [X|X]; [lia | auto].
    + intros N. apply F2. intros X. apply N. now right.
Qed.
Print Assumptions C24_exact.

Example C16_exact_case : let items := [1; 2; 3]%nat in let ws := [q 1; q 2; q 3] in
  In 0%Qc (fst (draws (QP demo) 3 0%nat)) /\
  fst (weighted_shuffle (QP demo) 4 items ws (Some 3) 0%nat) = Raise ValueError /\
  fst (weighted_shuffle (QP demo) 4 items ws (Some 1) 0%nat) <> Raise ValueError.
Proof. split; [right; right; left; apply Qc_is_canon; vm_compute; reflexivity|]. split; [vm_compute; reflexivity|]. vm_compute. discriminate. Qed.
Example C24_exact_case : c_roac c24 = true /\ c_weights c24 = Some [q 1; q 3; q 2] /\
  reach_any (QP demo) (count_distinct Nat.eq_dec) 5 [10; 20; 30]%nat c24.
Proof. split; [reflexivity|]. split; [reflexivity|]. eapply RA_new. apply made_ok. vm_compute. reflexivity. Qed.
