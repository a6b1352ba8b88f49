(** * The float comparison [number <= nitems * 0.42] of mathtools.py:153 is the
    exact 42% test for all lists of fewer than 2^46 items (proofs only). *)
From Coq Require Import ZArith Reals Psatz Floats.SpecFloat.
From Flocq Require Import Core BinarySingleNaN.
From Verif Require Import Base DtModel DtFloat MathModel.
Open Scope Z_scope.

Local Instance prec_gt_0_ : Prec_gt_0 prec := eq_refl.
Local Instance prec_lt_emax_ : Prec_lt_emax prec emax := eq_refl.

Definition c042 : R := F2R (Float radix2 7566047373982433 (-54)).

Lemma binary_round_equiv sx mx ex :
  SpecFloat.binary_round prec emax sx mx ex = BinarySingleNaN.binary_round prec emax mode_NE sx mx ex.
Proof.
  unfold SpecFloat.binary_round, BinarySingleNaN.binary_round, shl_align_fexp.
  set (z := shl_align _ _ _). clearbody z. destruct z as [mz ez]. apply binary_round_aux_equiv.
Qed.

Lemma int_format z : Z.abs z <= 2 ^ 53 -> generic_format radix2 fe (IZR z).
Proof.
  intros H. destruct (Z.eq_dec (Z.abs z) (2 ^ 53)) as [E|E].
  - apply generic_format_abs_inv. rewrite <- abs_IZR, E.
    change (2 ^ 53) with (Zpower radix2 53). rewrite IZR_Zpower by lia.
    apply generic_format_bpow. unfold FLT_exp, prec, emax. lia.
  - apply generic_format_FLT. exists (Float radix2 z 0).
    + unfold F2R. cbn. ring.
    + cbn [Fnum]. unfold prec. change (Zpower radix2 53) with (2 ^ 53). lia.
    + cbn [Fexp]. unfold prec, emax. lia.
Qed.

Lemma sf_of_nat_spec p : Z.pos p < 2 ^ 53 ->
  exists m e, SpecFloat.binary_normalize prec emax (Z.pos p) 0 false = S754_finite false m e /\
    bounded prec emax m e = true /\ F2R (Float radix2 (Z.pos m) e) = IZR (Z.pos p).
Proof.
  intros H. unfold SpecFloat.binary_normalize. rewrite binary_round_equiv.
  pose proof (binary_round_correct prec emax _ _ mode_NE false p 0) as [Hv Hr].
  cbn zeta in Hr. cbn [cond_Zopp] in Hr.
  assert (E : F2R (Float radix2 (Z.pos p) 0) = IZR (Z.pos p)) by (unfold F2R; cbn; ring).
  change (SpecFloat.cond_Zopp false (Z.pos p)) with (Z.pos p) in Hr.
  rewrite E in Hr.
  change (round_mode mode_NE) with ZnearestE in Hr. change (fexp prec emax) with fe in Hr.
  rewrite round_generic in Hr; [|auto with typeclass_instances|apply int_format; lia].
  rewrite Rlt_bool_true in Hr.
  2:{ rewrite <- abs_IZR. rewrite <- (IZR_Zpower radix2) by (unfold emax; lia). apply IZR_lt.
      apply Z.lt_trans with (2 ^ 53); [lia|]. unfold emax. change (Zpower radix2 1024) with (2 ^ 1024).
      apply Z.pow_lt_mono_r; lia. }
  destruct Hr as (H1 & H2 & H3).
  destruct (BinarySingleNaN.binary_round prec emax mode_NE false p 0) as [s|s| |s m e]; try discriminate.
  - exfalso. cbn [SF2R] in H1. apply eq_IZR in H1. lia.
  - cbn [sign_SF] in H3. subst s. exists m, e. split; auto.
Qed.

Lemma mul042 p : Z.pos p < 2 ^ 53 ->
  let y := SFmul prec emax (SpecFloat.binary_normalize prec emax (Z.pos p) 0 false) sf_042 in
  SF2R radix2 y = rnd (IZR (Z.pos p) * c042) /\ is_finite_SF y = true.
Proof.
  intros H. destruct (sf_of_nat_spec p H) as (m & e & E & Hb & HR). cbn zeta. rewrite E.
  unfold SFmul, sf_042. rewrite binary_round_aux_equiv.
  pose proof (Bmult_correct_aux prec emax _ _ mode_NE false m e Hb false 7566047373982433 (-54) ltac:(reflexivity)) as [_ Hr].
  cbn zeta in Hr. change (SpecFloat.cond_Zopp false ?x) with x in Hr.
  change (SpecFloat.cond_Zopp false (Z.pos m)) with (Z.pos m) in Hr.
  change (SpecFloat.cond_Zopp false 7566047373982433) with 7566047373982433 in Hr.
  rewrite HR in Hr. fold c042 in Hr.
  change (round_mode mode_NE) with ZnearestE in Hr. change (fexp prec emax) with fe in Hr.
  rewrite Rlt_bool_true in Hr.
  - destruct Hr as (H1 & H2 & _). split; assumption.
  - apply Rle_lt_trans with (bpow radix2 53); [|apply bpow_lt; unfold emax; lia].
    apply abs_round_le_generic; auto with typeclass_instances.
    + apply generic_format_bpow. unfold FLT_exp, prec, emax. lia.
    + assert (0 < c042 < 1)%R by (unfold c042, F2R; cbn; lra).
      assert (1 <= IZR (Z.pos p) <= bpow radix2 53)%R.
      { split; [apply (IZR_le 1); lia|]. rewrite <- (IZR_Zpower radix2) by lia. apply IZR_le. change (Zpower radix2 53) with (2^53). lia. }
      rewrite Rabs_pos_eq by nra. nra.
Qed.

Lemma Z_le_sf_spec z y : is_finite_SF y = true -> (Z_le_sf z y = true <-> (IZR z <= SF2R radix2 y)%R).
Proof.
  destruct y as [s|s| |s m e]; cbn [is_finite_SF SF2R Z_le_sf]; try discriminate; intros _.
  - rewrite Z.leb_le. split; intros H; [apply (IZR_le z 0) in H; exact H|apply (le_IZR z 0); exact H].
  - set (m' := if s then Z.neg m else Z.pos m).
    change (SpecFloat.cond_Zopp s (Z.pos m)) with m'.
    destruct (Z.leb_spec 0 e) as [He|He]; rewrite Z.leb_le; unfold F2R; cbn [Fnum Fexp].
    + rewrite <- (IZR_Zpower radix2) by auto. rewrite <- mult_IZR. change (Zpower radix2 e) with (2 ^ e).
      split; [apply IZR_le|apply le_IZR].
    + assert (Hb : (0 < bpow radix2 (- e))%R) by apply bpow_gt_0.
      assert (E : (IZR m' * bpow radix2 e * bpow radix2 (- e) = IZR m')%R).
      { rewrite Rmult_assoc, <- bpow_plus, Z.add_opp_diag_r. cbn. ring. }
      assert (E2 : IZR (z * 2 ^ (- e)) = (IZR z * bpow radix2 (- e))%R).
      { rewrite mult_IZR. f_equal. change (2 ^ (- e)) with (Zpower radix2 (- e)). apply IZR_Zpower. lia. }
      split; intros H.
      * apply IZR_le in H. rewrite E2, <- E in H. eapply Rmult_le_reg_r; eauto.
      * apply le_IZR. rewrite E2, <- E. apply Rmult_le_compat_r; lra.
Qed.

(** 0.42 lies above its double by 0.28 * 2^-54. *)
Lemma c042_gap : (42 / 100 - c042 = 28 / 100 * bpow radix2 (-54))%R.
Proof. unfold c042, F2R. cbn. lra. Qed.

Lemma threshold_le k n : 1 <= n < 2 ^ 46 -> 1 <= k -> 100 * k <= 42 * n -> (IZR k <= rnd (IZR n * c042))%R.
Proof.
  intros Hn Hk H.
  assert (Fk : generic_format radix2 fe (IZR k)) by (apply int_format; lia).
  destruct (Rle_or_lt (IZR k) (IZR n * c042)) as [Hle|Hlt].
  - rewrite <- (round_generic radix2 fe ZnearestE (IZR k)); auto with typeclass_instances.
    apply round_le; auto with typeclass_instances.
  - pose proof c042_gap as G.
    assert (Hp : (bpow radix2 (-54) = / 18014398509481984)%R) by reflexivity.
    assert (HnR : (1 <= IZR n <= 70368744177664)%R).
    { split; [apply (IZR_le 1); lia|apply IZR_le; lia]. }
    (* 100k = 42n exactly *)
    assert (Ex : 100 * k = 42 * n).
    { destruct (Z.eq_dec (100 * k) (42 * n)); auto. exfalso.
      assert (100 * k + 1 <= 42 * n) by lia. apply IZR_le in H0. rewrite plus_IZR, !mult_IZR in H0. nra. }
    destruct (Rle_or_lt (IZR k) (rnd (IZR n * c042))) as [|Hy]; auto. exfalso.
    set (v := (IZR n * c042)%R) in *. set (y := rnd v) in *.
    assert (Fy : generic_format radix2 fe y) by (apply generic_format_round; auto with typeclass_instances).
    assert (Hnear : (Rabs (y - v) <= Rabs (IZR k - v))%R).
    { apply (round_N_pt radix2 fe (fun x => negb (Z.even x)) v). auto. }
    assert (HkR : (1 <= IZR k)%R) by (apply (IZR_le 1); lia).
    assert (Hgap : (IZR k - v = IZR n * (28 / 100 * bpow radix2 (-54)))%R).
    { rewrite <- G. unfold v. apply (f_equal IZR) in Ex. rewrite !mult_IZR in Ex. lra. }
    rewrite (Rabs_pos_eq (IZR k - v)) in Hnear by lra.
    assert (Hy2 : (2 * v - IZR k <= y)%R).
    { unfold Rabs in Hnear. destruct (Rcase_abs (y - v)); lra. }
    assert (Hpred : (y <= pred radix2 fe (IZR k))%R).
    { apply pred_ge_gt; auto with typeclass_instances. }
    rewrite pred_eq_pos in Hpred by lra. unfold pred_pos in Hpred.
    assert (HU : (IZR k * bpow radix2 (-53) < ulp radix2 fe (IZR k))%R).
    { rewrite ulp_neq_0 by lra. unfold cexp.
      pose proof (bpow_mag_gt radix2 (IZR k)) as Hm. rewrite Rabs_pos_eq in Hm by lra.
      apply Rlt_le_trans with (bpow radix2 (mag radix2 (IZR k)) * bpow radix2 (-53))%R.
      { apply Rmult_lt_compat_r; auto. apply bpow_gt_0. }
      rewrite <- bpow_plus. apply bpow_le. unfold FLT_exp, prec, emax. lia. }
    assert (Hp53 : (bpow radix2 (-53) = / 9007199254740992)%R) by reflexivity.
    destruct (Req_bool_spec (IZR k) (bpow radix2 (mag radix2 (IZR k) - 1))) as [Epow|_].
    + (* a power of two is not a multiple of 21 *)
      assert (Hm1 : 0 <= mag radix2 (IZR k) - 1).
      { assert (bpow radix2 0 <= bpow radix2 (mag radix2 (IZR k) - 1))%R by (rewrite <- Epow; cbn; lra).
        apply le_bpow in H0. lia. }
      rewrite <- (IZR_Zpower radix2) in Epow by auto. apply eq_IZR in Epow.
      set (j := mag radix2 (IZR k) - 1) in *. change (Zpower radix2 j) with (2 ^ j) in Epow.
      assert (H3 : 2 ^ j mod 3 = 0).
      { rewrite <- Epow. assert (k = 21 * (n - 2 * k - k * 0) - 21 * n + 42 * k + k) by lia.
        assert (50 * k = 21 * n) by lia. assert (Hm : (50 * k) mod 3 = 0) by (rewrite H1; replace (21 * n) with (7 * n * 3) by lia; apply Z.mod_mul; lia).
        assert (k mod 3 = 0 \/ k mod 3 = 1 \/ k mod 3 = 2) as [C|[C|C]] by (pose proof (Z.mod_pos_bound k 3); lia); auto;
          rewrite Z.mul_mod, C in Hm by lia; cbn in Hm; discriminate. }
      assert (H4 : forall i, 0 <= i -> 2 ^ i mod 3 <> 0).
      { intros i Hi. pattern i. apply natlike_ind; auto.
        - cbn. discriminate.
        - intros x Hx IH. rewrite Z.pow_succ_r by auto. rewrite Z.mul_mod by lia.
          assert (2 ^ x mod 3 = 1 \/ 2 ^ x mod 3 = 2) as [C|C] by (pose proof (Z.mod_pos_bound (2 ^ x) 3); lia);
            rewrite C; cbn; discriminate. }
      apply (H4 j Hm1 H3).
    + apply (f_equal IZR) in Ex. rewrite !mult_IZR in Ex. nra.
Qed.

Lemma threshold_gt k n : 1 <= n < 2 ^ 46 -> 42 * n < 100 * k -> (rnd (IZR n * c042) < IZR k)%R.
Proof.
  intros Hn H.
  assert (Hlt : (IZR n * c042 + 1 / 100 <= IZR k)%R).
  { assert (42 * n + 1 <= 100 * k) by lia. apply IZR_le in H0. rewrite plus_IZR, !mult_IZR in H0.
    pose proof c042_gap as G. assert (Hp : (bpow radix2 (-54) = / 18014398509481984)%R) by reflexivity.
    assert (1 <= IZR n)%R by (apply (IZR_le 1); lia). nra. }
  set (v := (IZR n * c042)%R) in *.
  pose proof (error_le_half_ulp radix2 fe (fun x => negb (Z.even x)) v) as He.
  assert (HnR : (1 <= IZR n <= 70368744177664)%R) by (split; [apply (IZR_le 1); lia|apply IZR_le; lia]).
  assert (Hc : (0 < c042 < 1 / 2)%R) by (unfold c042, F2R; cbn; lra).
  assert (Hv : (0 < v <= bpow radix2 45)%R).
  { unfold v. assert (bpow radix2 45 = 35184372088832)%R by reflexivity. nra. }
  assert (HU : (ulp radix2 fe v <= bpow radix2 (-7))%R).
  { apply Rle_trans with (ulp radix2 fe (bpow radix2 45)).
    - apply ulp_le; auto with typeclass_instances. rewrite !Rabs_pos_eq; lra.
    - rewrite ulp_bpow. apply bpow_le. unfold FLT_exp, prec, emax. lia. }
  assert (bpow radix2 (-7) = / 128)%R by reflexivity.
  unfold Rabs in He. destruct (Rcase_abs (rnd v - v)); lra.
Qed.

Theorem use_low_k_42_percent number nitems :
  (nitems > 0)%nat -> Z.of_nat nitems < 2 ^ 46 ->
  (use_low_k number nitems = true <-> 100 * number <= 42 * Z.of_nat nitems).
Proof.
  intros Hn0 Hn. unfold use_low_k, sf_of_nat.
  destruct (Z.of_nat nitems) as [|p|p] eqn:E; try lia.
  destruct (mul042 p ltac:(lia)) as [H1 H2]. rewrite Z_le_sf_spec by auto. rewrite H1.
  split; intros H.
  - destruct (Z.le_gt_cases (100 * number) (42 * Z.pos p)) as [|C]; auto. exfalso.
    pose proof (threshold_gt number (Z.pos p) ltac:(lia) ltac:(lia)). lra.
  - destruct (Z.le_gt_cases 1 number).
    + apply threshold_le; lia.
    + apply Rle_trans with 0%R; [apply (IZR_le number 0); lia|].
      rewrite <- (round_0 radix2 fe ZnearestE). apply round_le; auto with typeclass_instances.
      apply Rmult_le_pos; [apply (IZR_le 0); lia|]. unfold c042, F2R; cbn; lra.
Qed.
