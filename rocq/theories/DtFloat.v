(** * Correctness of the float checks of dtrange.py:137-150 (proofs only). *)
From Coq Require Import ZArith Reals Psatz Floats.SpecFloat.
From Flocq Require Import Core BinarySingleNaN.
From Verif Require Import Base DtModel.
Open Scope Z_scope.

Local Instance prec_gt_0_ : Prec_gt_0 prec := eq_refl.
Local Instance prec_lt_emax_ : Prec_lt_emax prec emax := eq_refl.

Notation fe := (FLT_exp (3 - emax - prec) prec).
Notation rnd := (round radix2 fe ZnearestE).

Lemma round_nearest_even_equiv s m l :
  round_nearest_even m l = choice_mode mode_NE s m l.
Proof.
  case l; [reflexivity|intro c]. case c; [ | reflexivity..].
  now simpl; unfold Round.cond_incr; case Z.even.
Qed.

Lemma binary_round_aux_equiv sx mx ex lx :
  SpecFloat.binary_round_aux prec emax sx mx ex lx
  = binary_round_aux prec emax mode_NE sx mx ex lx.
Proof.
  unfold SpecFloat.binary_round_aux, binary_round_aux.
  set (mrse' := shr_fexp _ _ _).
  case mrse'; intros mrs' e'; simpl.
  now rewrite (round_nearest_even_equiv sx).
Qed.

Definition secs (us : Z) : R := (IZR us / 1000000)%R.

Lemma rnd_secs_bound : forall us, Z.abs us <= 2 ^ 80 -> (Rabs (rnd (secs us)) <= bpow radix2 80)%R.
Proof.
  intros us H.
  apply abs_round_le_generic; auto with typeclass_instances.
  - apply generic_format_bpow. unfold FLT_exp, prec, emax. lia.
  - unfold secs, Rdiv. rewrite Rabs_mult, <- abs_IZR.
    rewrite (Rabs_right (/ 1000000)) by lra.
    assert (IZR (Z.abs us) <= bpow radix2 80)%R.
    { rewrite <- (IZR_Zpower radix2) by lia. apply IZR_le. exact H. }
    pose proof (IZR_le _ _ (Z.abs_nonneg us)).
    lra.
Qed.

Lemma ts_spec : forall us, Z.abs us <= 2 ^ 80 ->
  SF2R radix2 (total_seconds us) = rnd (secs us) /\
  is_finite_SF (total_seconds us) = true.
Proof.
  intros us Hb. pose proof (rnd_secs_bound us Hb) as Hr.
  destruct us as [|p|p].
  - simpl. unfold secs. replace (0 / 1000000)%R with 0%R by field.
    rewrite round_0 by auto with typeclass_instances. auto.
  - unfold total_seconds.
    pose proof (Bdiv_correct_aux prec emax _ _ mode_NE false p 0 false 1000000 0) as H.
    cbv zeta in H. simpl xorb in H.
    match type of H with context [round _ _ _ ?t] =>
      assert (E : t = secs (Z.pos p)) by
        (unfold secs, F2R; simpl Fnum; simpl Fexp; simpl bpow; rewrite !Rmult_1_r; reflexivity)
    end.
    rewrite E in H.
    unfold SFdiv.
    destruct (SFdiv_core_binary prec emax (Z.pos p) 0 1000000 0) as [[mz ez] lz].
    rewrite binary_round_aux_equiv. simpl xorb.
    destruct H as [_ H].
    change (round_mode mode_NE) with ZnearestE in H.
    change (fexp prec emax) with fe in H.
    rewrite Rlt_bool_true in H.
    + destruct H as (H1 & H2 & _). split; assumption.
    + eapply Rle_lt_trans. exact Hr. apply bpow_lt. unfold emax. lia.
  - unfold total_seconds.
    pose proof (Bdiv_correct_aux prec emax _ _ mode_NE true p 0 false 1000000 0) as H.
    cbv zeta in H. simpl xorb in H.
    match type of H with context [round _ _ _ ?t] =>
      assert (E : t = secs (Z.neg p)) by
        (unfold secs, F2R; simpl Fnum; simpl Fexp; simpl bpow; rewrite !Rmult_1_r; reflexivity)
    end.
    rewrite E in H.
    unfold SFdiv.
    destruct (SFdiv_core_binary prec emax (Z.pos p) 0 1000000 0) as [[mz ez] lz].
    rewrite binary_round_aux_equiv. simpl xorb.
    destruct H as [_ H].
    change (round_mode mode_NE) with ZnearestE in H.
    change (fexp prec emax) with fe in H.
    rewrite Rlt_bool_true in H.
    + destruct H as (H1 & H2 & _). split; assumption.
    + eapply Rle_lt_trans. exact Hr. apply bpow_lt. unfold emax. lia.
Qed.

Lemma float_mod_spec : forall x, is_finite_SF x = true ->
  (float_mod_day_nonzero x = false <-> exists k, SF2R radix2 x = IZR (86400 * k)).
Proof.
  intros [s|s| |s m e]; cbn [is_finite_SF float_mod_day_nonzero float_abs_ge_day SF2R]; intros Hf; try discriminate.
  - split; auto. intros _. exists 0. reflexivity.
  - destruct (Z.leb_spec 0 e) as [He|He].
    + rewrite negb_false_iff, Z.eqb_eq.
      assert (E : @F2R radix2 {| Fnum := SpecFloat.cond_Zopp s (Z.pos m); Fexp := e |}
               = IZR (SpecFloat.cond_Zopp s (Z.pos m) * 2 ^ e)).
      { unfold F2R; simpl Fnum; simpl Fexp. rewrite mult_IZR.
        rewrite <- (IZR_Zpower radix2) by lia. reflexivity. }
      split.
      * intros H. apply Z.mod_divide in H; [|lia]. destruct H as [k Hk].
        destruct s; unfold SpecFloat.cond_Zopp in *.
        -- exists (-k). rewrite E. f_equal. lia.
        -- exists k. rewrite E. f_equal. lia.
      * intros [k Hk]. rewrite E in Hk. apply eq_IZR in Hk.
        apply Z.mod_divide; [lia|].
        destruct s; unfold SpecFloat.cond_Zopp in *.
        -- exists (-k). lia.
        -- exists k. lia.
    + rewrite negb_false_iff, Z.eqb_eq.
      assert (P : 0 < 2 ^ (- e)) by (apply Z.pow_pos_nonneg; lia).
      assert (E : (@F2R radix2 {| Fnum := SpecFloat.cond_Zopp s (Z.pos m); Fexp := e |} * IZR (2 ^ (- e))
               = IZR (SpecFloat.cond_Zopp s (Z.pos m)))%R).
      { unfold F2R; simpl Fnum; simpl Fexp.
        change (2 ^ (- e)) with (Zpower radix2 (- e)). rewrite IZR_Zpower by lia.
        rewrite Rmult_assoc, <- bpow_plus. rewrite Z.add_opp_diag_r. simpl bpow. ring. }
      assert (PR : (0 < IZR (2 ^ (- e)))%R) by (apply IZR_lt; lia).
      split.
      * intros H. apply Z.mod_divide in H; [|lia]. destruct H as [k Hk].
        exists (if s then -k else k).
        apply Rmult_eq_reg_r with (IZR (2 ^ (- e))); [|lra].
        rewrite E, <- mult_IZR. f_equal.
        destruct s; unfold SpecFloat.cond_Zopp; lia.
      * intros [k Hk]. rewrite Hk, <- mult_IZR in E. apply eq_IZR in E.
        apply Z.mod_divide; [lia|].
        destruct s; unfold SpecFloat.cond_Zopp in *.
        -- exists (-k). lia.
        -- exists k. lia.
Qed.

Lemma float_abs_spec : forall x, is_finite_SF x = true ->
  (float_abs_ge_day x = true <-> (86400 <= Rabs (SF2R radix2 x))%R).
Proof.
  intros [s|s| |s m e]; cbn [is_finite_SF float_mod_day_nonzero float_abs_ge_day SF2R]; intros Hf; try discriminate.
  - rewrite Rabs_R0. split; [discriminate|]. lra.
  - rewrite <- F2R_Zabs. replace (Z.abs (SpecFloat.cond_Zopp s (Z.pos m))) with (Z.pos m) by (destruct s; reflexivity).
    destruct (Z.leb_spec 0 e) as [He|He]; rewrite Z.leb_le.
    + assert (E : @F2R radix2 {| Fnum := Z.pos m; Fexp := e |} = IZR (Z.pos m * 2 ^ e)).
      { unfold F2R; simpl Fnum; simpl Fexp. rewrite mult_IZR.
        rewrite <- (IZR_Zpower radix2) by lia. reflexivity. }
      rewrite E. split; intros H. now apply IZR_le in H. now apply le_IZR in H.
    + assert (P : 0 < 2 ^ (- e)) by (apply Z.pow_pos_nonneg; lia).
      assert (E : (@F2R radix2 {| Fnum := Z.pos m; Fexp := e |} * IZR (2 ^ (- e))
               = IZR (Z.pos m))%R).
      { unfold F2R; simpl Fnum; simpl Fexp.
        change (2 ^ (- e)) with (Zpower radix2 (- e)). rewrite IZR_Zpower by lia.
        rewrite Rmult_assoc, <- bpow_plus. rewrite Z.add_opp_diag_r. simpl bpow. ring. }
      assert (PR : (0 < IZR (2 ^ (- e)))%R) by (apply IZR_lt; lia).
      split; intros H.
      * apply IZR_le in H. rewrite mult_IZR, <- E in H. apply Rmult_le_reg_r in H; assumption.
      * apply le_IZR. rewrite mult_IZR, <- E. apply Rmult_le_compat_r; lra.
Qed.

Lemma generic_int : forall z, Z.abs z <= 2 ^ 53 -> generic_format radix2 fe (IZR z).
Proof.
  intros z H.
  destruct (Z.eq_dec (Z.abs z) (2 ^ 53)) as [E|E].
  - assert (D : z = 2 ^ 53 \/ z = - 2 ^ 53) by lia.
    destruct D as [-> | ->].
    + change (IZR (2 ^ 53)) with (IZR (Zpower radix2 53)). rewrite IZR_Zpower by lia.
      apply generic_format_bpow. unfold FLT_exp, prec, emax. lia.
    + rewrite opp_IZR. apply generic_format_opp.
      change (IZR (2 ^ 53)) with (IZR (Zpower radix2 53)). rewrite IZR_Zpower by lia.
      apply generic_format_bpow. unfold FLT_exp, prec, emax. lia.
  - apply generic_format_FLT. exists (Float radix2 z 0).
    + unfold F2R; simpl. ring.
    + simpl. change (Zpower radix2 53) with (2 ^ 53). unfold prec. lia.
    + simpl. unfold emax, prec. lia.
Qed.

(** A whole number of days passes the check. *)
Lemma whole_day_accepted : forall d, Z.abs d <= MAXTD + 1 ->
  float_mod_day_nonzero (total_seconds (d * DAY)) = false.
Proof.
  intros d H. unfold MAXTD in H.
  destruct (ts_spec (d * DAY)) as [E F]. { unfold DAY. lia. }
  apply float_mod_spec; [exact F|]. exists d. rewrite E.
  assert (S : secs (d * DAY) = IZR (86400 * d)).
  { unfold secs. replace (d * DAY) with ((86400 * d) * 1000000) by (unfold DAY; lia).
    rewrite (mult_IZR (86400 * d)). field. }
  rewrite S. apply round_generic; auto with typeclass_instances.
  apply generic_int. lia.
Qed.

(** Rounding error of total_seconds. *)
Lemma ts_error : forall us e, 0 <= e <= 80 -> Z.abs us <= 2 ^ e * 1000000 ->
  (Rabs (rnd (secs us) - secs us) <= bpow radix2 (e - 54))%R.
Proof.
  intros us e He Hus.
  destruct (Z.eq_dec us 0) as [->|Hne].
  { unfold secs. replace (0 / 1000000)%R with 0%R by field.
    rewrite round_0 by auto with typeclass_instances.
    rewrite Rminus_0_r, Rabs_R0. apply bpow_ge_0. }
  assert (Hs : (Rabs (secs us) <= bpow radix2 e)%R).
  { unfold secs, Rdiv. rewrite Rabs_mult, <- abs_IZR. rewrite (Rabs_right (/ 1000000)) by lra.
    apply IZR_le in Hus. rewrite mult_IZR in Hus.
    change (2 ^ e) with (Zpower radix2 e) in Hus. rewrite IZR_Zpower in Hus by lia. lra. }
  assert (Hn0 : secs us <> 0%R).
  { unfold secs. intro K. apply Hne. apply eq_IZR.
    apply Rmult_eq_reg_r with (/ 1000000)%R; [|lra]. unfold Rdiv in K. lra. }
  destruct (Rle_lt_or_eq_dec _ _ Hs) as [Hlt|Heq].
  - eapply Rle_trans. apply error_le_half_ulp; auto with typeclass_instances.
    rewrite ulp_neq_0 by exact Hn0.
    replace (/ 2)%R with (bpow radix2 (-1)) by reflexivity.
    rewrite <- bpow_plus. apply bpow_le.
    unfold cexp. pose proof (mag_le_bpow radix2 _ _ Hn0 Hlt).
    unfold FLT_exp, prec, emax. 
    assert (- 30 < mag radix2 (secs us)).
    { apply mag_gt_bpow.
      unfold secs, Rdiv. rewrite Rabs_mult, <- abs_IZR. rewrite (Rabs_right (/ 1000000)) by lra.
      assert (1 <= IZR (Z.abs us))%R by (apply IZR_le; lia).
      replace (bpow radix2 (-30)) with (/ 1073741824)%R by reflexivity. lra. }
    lia.
  - rewrite round_generic; auto with typeclass_instances.
    + rewrite Rminus_diag_eq by reflexivity. rewrite Rabs_R0. apply bpow_ge_0.
    + apply generic_format_abs_inv. rewrite Heq. apply generic_format_bpow.
      unfold FLT_exp, prec, emax. lia.
Qed.

(** Up to 2^34 seconds (about 544 years) the date check is exact. *)
Lemma accepted_whole_day : forall us, Z.abs us <= 2 ^ 34 * 1000000 ->
  float_mod_day_nonzero (total_seconds us) = false -> us mod DAY = 0.
Proof.
  intros us H A.
  destruct (ts_spec us) as [E F]. { lia. }
  apply float_mod_spec in A; [|exact F]. destruct A as [k Hk]. rewrite E in Hk.
  pose proof (ts_error us 34 ltac:(lia) H) as Er. rewrite Hk in Er.
  replace (bpow radix2 (34 - 54)) with (/ 1048576)%R in Er by reflexivity.
  assert (D : (Rabs (IZR (86400 * k * 1000000 - us)) < 1)%R).
  { rewrite minus_IZR, (mult_IZR (86400 * k)). unfold secs in Er.
    replace (IZR (86400 * k) * 1000000 - IZR us)%R with
      ((IZR (86400 * k) - IZR us / 1000000) * 1000000)%R by field.
    rewrite Rabs_mult, (Rabs_right 1000000) by lra. lra. }
  rewrite <- abs_IZR in D. apply lt_IZR in D.
  assert (us = k * DAY) by (unfold DAY; lia).
  subst us. apply Z.mod_mul. unfold DAY. lia.
Qed.

(** The time check is exact for all timedeltas. *)
Lemma abs_ge_day_exact : forall us, Z.abs us <= 2 ^ 80 ->
  float_abs_ge_day (total_seconds us) = (DAY <=? Z.abs us).
Proof.
  intros us H. destruct (ts_spec us H) as [E F].
  pose proof (float_abs_spec _ F) as S. rewrite E in S.
  assert (Sa : Rabs (secs us) = secs (Z.abs us)).
  { unfold secs, Rdiv. rewrite Rabs_mult, <- abs_IZR. rewrite (Rabs_right (/ 1000000)) by lra. reflexivity. }
  destruct (Z.leb_spec DAY (Z.abs us)) as [L|L].
  - apply S. apply abs_round_ge_generic; auto with typeclass_instances.
    + apply generic_int. lia.
    + rewrite Sa. unfold secs. apply IZR_le in L.
      assert (IZR DAY = 86400 * 1000000)%R by (unfold DAY; rewrite <- mult_IZR; reflexivity). lra.
  - destruct (float_abs_ge_day (total_seconds us)); [|reflexivity].
    exfalso. pose proof (proj1 S eq_refl) as S'.
    pose proof (ts_error us 17 ltac:(lia) ltac:(unfold DAY in L; lia)) as Er.
    replace (bpow radix2 (17 - 54)) with (/ 137438953472)%R in Er by reflexivity.
    assert (secs (Z.abs us) <= 86400 - / 1000000)%R.
    { unfold secs. assert (Z.abs us <= DAY - 1) as L' by lia. apply IZR_le in L'.
      rewrite minus_IZR in L'.
      assert (IZR DAY = 86400 * 1000000)%R by (unfold DAY; rewrite <- mult_IZR; reflexivity). lra. }
    rewrite <- Sa in H0.
    pose proof (Rabs_triang_inv (rnd (secs us)) (secs us)). lra.
Qed.
