(** * C11: exactly which steps a range of dates accepts *)
From Coq Require Import ZArith Reals Psatz Floats.SpecFloat.
From Flocq Require Import Core BinarySingleNaN.
From Verif Require Import Base DtModel DtSpec DtFloat.
Open Scope Z_scope.

Local Instance prec_gt_0_ : Prec_gt_0 prec := eq_refl.

(** [step] is nearer to [k] days than half the gap between the doubles around
    [k] days in seconds (those from 2^e to 2^(e+1) are 2^(e-52) apart). *)
Definition nearly_days (k step : Z) : Prop :=
  Z.abs (step - k * DAY) * 2 ^ (53 - Z.log2 (86400 * Z.abs k)) < 1000000.

Lemma days_log k : k <> 0 -> Z.abs k <= 1000000000 -> 16 <= Z.log2 (86400 * Z.abs k) <= 46.
Proof.
  intros N H. split.
  - apply Z.log2_le_pow2; lia.
  - assert (Z.log2 (86400 * Z.abs k) < 47); [|lia]. apply Z.log2_lt_pow2; lia.
Qed.

(** Between the doubles: positive numbers of days. *)
Lemma days_format k : Z.abs k <= 1000000000 -> generic_format radix2 fe (IZR (86400 * k)).
Proof. intros H. apply generic_int. lia. Qed.

Lemma days_mag k : 0 < k -> mag radix2 (IZR (86400 * k)) = Z.log2 (86400 * k) + 1 :> Z.
Proof.
  intros K. apply mag_unique_pos. pose proof (Z.log2_spec (86400 * k) ltac:(lia)) as [L U].
  rewrite <- !(IZR_Zpower radix2) by (pose proof (Z.log2_nonneg (86400 * k)); lia).
  split; [apply IZR_le|apply IZR_lt]; unfold Z.succ in U; change (Zpower radix2) with (Z.pow 2).
  - replace (Z.log2 (86400 * k) + 1 - 1) with (Z.log2 (86400 * k)) by lia. exact L.
  - exact U.
Qed.

Lemma days_ulp k : 0 < k <= 1000000000 -> ulp radix2 fe (IZR (86400 * k)) = bpow radix2 (Z.log2 (86400 * k) - 52).
Proof.
  intros K. rewrite ulp_neq_0 by (apply not_0_IZR; lia). f_equal. unfold cexp. rewrite days_mag by lia.
  pose proof (days_log k ltac:(lia) ltac:(lia)) as L. rewrite Z.abs_eq in L by lia. unfold FLT_exp, emax, prec. lia.
Qed.

Lemma pow2_mod3 l : 0 <= l -> 2 ^ l mod 3 <> 0.
Proof.
  intros H. pattern l. apply natlike_ind; [vm_compute; discriminate| |exact H]. clear.
  intros l H IH. rewrite Z.pow_succ_r by exact H. pose proof (Z.div_mod (2 ^ l) 3 ltac:(lia)).
  pose proof (Z.mod_pos_bound (2 ^ l) 3 ltac:(lia)). intros E.
  pose proof (Z.div_mod (2 * 2 ^ l) 3 ltac:(lia)). lia.
Qed.

Lemma days_pred k : 0 < k <= 1000000000 ->
  pred radix2 fe (IZR (86400 * k)) = (IZR (86400 * k) - bpow radix2 (Z.log2 (86400 * k) - 52))%R.
Proof.
  intros K. rewrite pred_eq_pos by (apply IZR_le; lia). unfold pred_pos. rewrite Req_bool_false.
  - now rewrite days_ulp.
  - intros E. rewrite days_mag in E by lia.
    pose proof (days_log k ltac:(lia) ltac:(lia)) as L. rewrite Z.abs_eq in L by lia.
    replace (Z.log2 (86400 * k) + 1 - 1) with (Z.log2 (86400 * k)) in E by lia.
    rewrite <- (IZR_Zpower radix2) in E by lia. apply eq_IZR in E. change (Zpower radix2) with (Z.pow 2) in E.
    apply (pow2_mod3 (Z.log2 (86400 * k)) ltac:(lia)). rewrite <- E.
    replace (86400 * k) with (28800 * k * 3) by lia. apply Z.mod_mul. lia.
Qed.

(** Half the gap, in microseconds. *)
Lemma half_gap l : l <= 46 -> (bpow radix2 (l - 52) / 2 * IZR (2 ^ (53 - l)) = 1)%R.
Proof.
  intros H. change (2 ^ (53 - l)) with (Zpower radix2 (53 - l)). rewrite IZR_Zpower by lia.
  replace (bpow radix2 (l - 52) / 2)%R with (bpow radix2 (l - 52) * bpow radix2 (-1))%R by reflexivity.
  rewrite <- !bpow_plus. replace (l - 52 + -1 + (53 - l)) with 0 by lia. reflexivity.
Qed.

Lemma near_iff k step : 0 < k <= 1000000000 ->
  (rnd (secs step) = IZR (86400 * k) <-> nearly_days k step).
Proof.
  intros K. pose proof (days_log k ltac:(lia) ltac:(lia)) as L.
  set (l := Z.log2 (86400 * Z.abs k)) in *.
  assert (El : Z.log2 (86400 * k) = l) by (unfold l; rewrite Z.abs_eq by lia; reflexivity).
  set (T := IZR (86400 * k)). set (h := (bpow radix2 (l - 52) / 2)%R).
  pose proof (half_gap l ltac:(lia)) as HG. fold h in HG.
  set (N := 2 ^ (53 - l)) in *. assert (PN : 0 < N) by (apply Z.pow_pos_nonneg; lia).
  assert (PR : (0 < IZR N)%R) by (apply IZR_lt; exact PN).
  assert (TP : (0 < T)%R) by (apply IZR_lt; lia).
  assert (D : (secs step - T = IZR (step - k * DAY) / 1000000)%R).
  { unfold secs, T. rewrite minus_IZR. replace (IZR (k * DAY)) with (IZR (86400 * k) * 1000000)%R; [field|].
    rewrite <- mult_IZR. f_equal. unfold DAY. lia. }
  assert (Sc : (Rabs (secs step - T) * IZR N * 1000000 = IZR (Z.abs (step - k * DAY) * N))%R).
  { rewrite D. unfold Rdiv. rewrite Rabs_mult, <- abs_IZR, (Rabs_right (/ 1000000)) by lra. rewrite mult_IZR. field. }
  unfold nearly_days. fold l N. split.
  - intros E.
    pose proof (error_le_half_ulp_round radix2 fe (fun x => negb (Z.even x)) (secs step)) as Er.
    rewrite E in Er. fold T in Er. rewrite Rabs_minus_sym in Er.
    unfold T in Er at 2. rewrite days_ulp, El in Er by lia.
    assert (Le : (Rabs (secs step - T) <= h)%R) by (unfold h; lra).
    assert (Le2 : (Rabs (secs step - T) * IZR N * 1000000 <= 1000000)%R).
    { apply Rmult_le_compat_r with (r := IZR N) in Le; [|lra]. rewrite HG in Le. lra. }
    rewrite Sc in Le2. apply le_IZR in Le2.
    assert (Z.abs (step - k * DAY) * N <> 1000000); [|lia].
    intros X. unfold N in X. replace (53 - l) with (7 + (46 - l)) in X by lia.
    rewrite Z.pow_add_r in X by lia.
    assert (M : (1000000 mod 2 ^ 7) = 0).
    { rewrite <- X. replace (Z.abs (step - k * DAY) * (2 ^ 7 * 2 ^ (46 - l))) with (Z.abs (step - k * DAY) * 2 ^ (46 - l) * 2 ^ 7) by lia.
      apply Z.mod_mul. lia. }
    vm_compute in M. discriminate M.
  - intros H. apply IZR_lt in H. rewrite <- Sc in H.
    assert (Lt : (Rabs (secs step - T) < h)%R).
    { apply Rmult_lt_reg_r with (IZR N); [exact PR|]. rewrite HG. lra. }
    apply Rabs_lt_inv in Lt.
    assert (F : generic_format radix2 fe T) by (apply days_format; lia).
    apply Rle_antisym.
    + apply round_N_le_midp; auto with typeclass_instances. rewrite succ_eq_pos by lra.
      unfold T in *. rewrite days_ulp, El by lia. unfold h in Lt. lra.
    + apply round_N_ge_midp; auto with typeclass_instances. unfold T in *. rewrite days_pred, El by lia. unfold h in Lt. lra.
Qed.

Lemma near_neg k step : nearly_days (- k) (- step) <-> nearly_days k step.
Proof. unfold nearly_days. rewrite Z.abs_opp. replace (- step - - k * DAY) with (- (step - k * DAY)) by lia. rewrite Z.abs_opp. reflexivity. Qed.

Lemma secs_neg step : secs (- step) = (- secs step)%R.
Proof. unfold secs. rewrite opp_IZR. field. Qed.

Lemma rnd_neg x : rnd (- x) = (- rnd x)%R.
Proof. apply round_NE_opp. Qed.

Lemma near_zero step : Z.abs step <= 2 ^ 80 -> (rnd (secs step) = 0%R <-> nearly_days 0 step).
Proof.
  intros H. unfold nearly_days. rewrite Z.mul_0_l, Z.sub_0_r. change (Z.log2 (86400 * Z.abs 0)) with 0.
  split.
  - intros E. destruct (Z.eq_dec step 0) as [->|N]; [vm_compute; reflexivity|]. exfalso.
    assert (B : (bpow radix2 (-30) <= Rabs (rnd (secs step)))%R).
    { apply abs_round_ge_generic; auto with typeclass_instances.
      - apply generic_format_bpow. unfold FLT_exp, prec, emax. lia.
      - unfold secs, Rdiv. rewrite Rabs_mult, <- abs_IZR, (Rabs_right (/ 1000000)) by lra.
        assert (1 <= IZR (Z.abs step))%R by (apply IZR_le; lia).
        replace (bpow radix2 (-30)) with (/ 1073741824)%R by reflexivity. lra. }
    rewrite E, Rabs_R0 in B. pose proof (bpow_gt_0 radix2 (-30)). lra.
  - intros E. assert (step = 0) as -> by lia. unfold secs. replace (0 / 1000000)%R with 0%R by field.
    apply round_0; auto with typeclass_instances.
Qed.

(** C11.  A range of dates is made exactly if the step is nearly a whole number of
    days; if not, ValueError.  (The times are in C11_step_validation_partial.) *)
Theorem C11_exact : forall start n step, dk start = KDate -> td_valid step ->
  ((exists r, dtr_new start n step = Ok r) <-> exists k, Z.abs k <= 1000000000 /\ nearly_days k step) /\
  ((exists r, dtr_new start n step = Ok r) \/ dtr_new start n step = Raise ValueError).
Proof.
  intros start n step K V.
  assert (B : Z.abs step <= 1000000000 * DAY).
  { unfold td_valid, MAXTD in V. unfold DAY in *. pose proof (Z.div_mod step 86400000000 ltac:(lia)).
    pose proof (Z.mod_pos_bound step 86400000000 ltac:(lia)). lia. }
  destruct (ts_spec step) as [E F]; [unfold DAY in B; lia|].
  pose proof (float_mod_spec _ F) as S. rewrite E in S.
  unfold dtr_new, step_ok. rewrite K.
  split; [|destruct (float_mod_day_nonzero (total_seconds step)); cbn; eauto].
  assert (I : (exists k, rnd (secs step) = IZR (86400 * k)) <-> exists k, Z.abs k <= 1000000000 /\ nearly_days k step).
  { split.
    - intros (k & Hk).
      assert (Bk : Z.abs k <= 1000000000).
      { assert (R : (Rabs (rnd (secs step)) <= IZR (86400 * 1000000000))%R).
        { apply abs_round_le_generic; auto with typeclass_instances.
          - apply generic_int. lia.
          - unfold secs, Rdiv. rewrite Rabs_mult, <- abs_IZR, (Rabs_right (/ 1000000)) by lra.
            apply IZR_le in B. replace (1000000000 * DAY) with (86400 * 1000000000 * 1000000) in B by (unfold DAY; lia).
            rewrite (mult_IZR _ 1000000) in B. lra. }
        rewrite Hk, <- abs_IZR in R. apply le_IZR in R. lia. }
      exists k. split; auto. destruct (Z.lt_trichotomy k 0) as [C|[C|C]].
      + apply near_neg. apply near_iff; [lia|]. rewrite secs_neg, rnd_neg, Hk, <- opp_IZR. f_equal. lia.
      + subst k. apply near_zero; [unfold DAY in B; lia|exact Hk].
      + apply near_iff; [lia|exact Hk].
    - intros (k & Bk & H). exists k. destruct (Z.lt_trichotomy k 0) as [C|[C|C]].
      + apply near_neg in H. apply near_iff in H; [|lia]. rewrite secs_neg, rnd_neg in H.
        rewrite <- (Ropp_involutive (rnd (secs step))), H, <- opp_IZR. f_equal. lia.
      + subst k. apply near_zero; [unfold DAY in B; lia|exact H].
      + apply near_iff; [lia|exact H]. }
  rewrite <- I, <- S. destruct (float_mod_day_nonzero (total_seconds step)); cbn; split; intros H; try discriminate; eauto.
  destruct H as [r H]. discriminate H.
Qed.
Print Assumptions C11_exact.

(** What nearly means: up to 2^34 seconds it means equal; whatever the step, it is
    less than 8 milliseconds away. *)
Theorem C11_how_near : forall k step, Z.abs k <= 1000000000 -> nearly_days k step ->
  Z.abs (step - k * DAY) < 7813 /\ (86400 * Z.abs k < 2 ^ 34 -> step = k * DAY).
Proof.
  intros k step B H. unfold nearly_days in H. destruct (Z.eq_dec k 0) as [->|N].
  - change (Z.log2 (86400 * Z.abs 0)) with 0 in H. lia.
  - pose proof (days_log k N B) as L. set (l := Z.log2 (86400 * Z.abs k)) in *. split.
    + replace (53 - l) with (7 + (46 - l)) in H by lia. rewrite Z.pow_add_r in H by lia.
      assert (1 <= 2 ^ (46 - l)) by (pose proof (Z.pow_pos_nonneg 2 (46 - l)); lia). nia.
    + intros Small. assert (l < 34) by (apply Z.log2_lt_pow2; lia).
      replace (53 - l) with (20 + (33 - l)) in H by lia. rewrite Z.pow_add_r in H by lia.
      assert (1 <= 2 ^ (33 - l)) by (pose proof (Z.pow_pos_nonneg 2 (33 - l)); lia). nia.
Qed.
Print Assumptions C11_how_near.

(** A step accepted though it is not a whole number of days, one refused, and the
    nearest that is refused near it. *)
Example C11_exact_case :
  (exists r, dtr_new (Dt KDate 1) 3 (200000 * DAY + 1) = Ok r) /\ nearly_days 200000 (200000 * DAY + 1) /\
  dtr_new (Dt KDate 1) 3 (200000 * DAY + 2) = Raise ValueError /\ ~ nearly_days 200000 (200000 * DAY + 2) /\
  td_valid (200000 * DAY + 1) /\ td_valid (200000 * DAY + 2).
Proof.
  split; [eexists; vm_compute; reflexivity|]. split; [vm_compute; reflexivity|]. split; [vm_compute; reflexivity|].
  split; [vm_compute; discriminate|]. split; split; vm_compute; discriminate.
Qed.
