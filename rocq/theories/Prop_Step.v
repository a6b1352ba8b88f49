(** * Property C77: steps of dtrange that are not integers. *)
From Coq Require Import ZArith Reals Lra Lia Psatz Floats.SpecFloat.
From Flocq Require Import Core BinarySingleNaN Sterbenz.
From Verif Require Import Base PyRange DtModel DtSpec DtProofs DtProofs3 Prop_Dt FloatModel FloatNum DtStep.
Open Scope R_scope.

#[local] Opaque bpow.

Lemma B2R_num (x : double) : is_finite x = true -> exists n e, B2R x = IZR n * bpow radix2 e /\ (Z.abs n < 2 ^ 53)%Z /\ (-1074 <= e)%Z /\
  match x with B754_finite s m e' _ => n = (if s then Zneg m else Zpos m) /\ e = e' | _ => n = 0%Z end.
Proof.
  destruct x as [s|s| |s m e H]; intros F; try discriminate F.
  - exists 0%Z, 0%Z. cbn. repeat split; try lia; lra.
  - exists (if s then Zneg m else Zpos m), e. clear F. split; [|split; [|split; [|split; reflexivity]]].
    + cbn [B2R]. unfold F2R. cbn [Fnum Fexp]. destruct s; reflexivity.
    + assert (M : (Zpos m < 2 ^ 53)%Z).
      { unfold SpecFloat.bounded in H. apply andb_prop in H. destruct H as [H _]. unfold SpecFloat.canonical_mantissa in H. apply Zeq_bool_eq in H.
        rewrite Digits.Zpos_digits2_pos in H. unfold SpecFloat.fexp, SpecFloat.emin in H.
        pose proof (Digits.Zpower_gt_Zdigits radix2 53 (Zpos m)) as G. cbn [Z.abs] in G. apply G. lia. }
      destruct s; cbn; lia.
    + unfold SpecFloat.bounded in H. apply andb_prop in H. destruct H as [H _]. unfold SpecFloat.canonical_mantissa in H. apply Zeq_bool_eq in H.
      unfold SpecFloat.fexp, SpecFloat.emin in H. lia.
Qed.

(** Numbers with few bits are represented exactly. *)
Lemma fl_exact n e : (Z.abs n < 2 ^ 53)%Z -> (-1074 <= e <= 900)%Z -> is_finite (fl n e) = true /\ B2R (fl n e) = IZR n * bpow radix2 e.
Proof.
  intros Hn He. unfold fl.
  pose proof (binary_normalize_correct 53 1024 _ _ mode_NE n e false) as H. cbv zeta in H. cbn [round_mode] in H.
  assert (G : generic_format radix2 fexp64 (F2R (Float radix2 n e))).
  { rewrite fexp64_FLT. apply generic_format_FLT. exists (Float radix2 n e); [reflexivity | exact Hn | cbn; lia]. }
  rewrite round_generic in H; [|apply valid_rnd_N | exact G].
  rewrite Rlt_bool_true in H.
  - destruct H as (H1 & H2 & _). split; [exact H2|]. rewrite H1. reflexivity.
  - unfold F2R. cbn [Fnum Fexp]. rewrite Rabs_mult, (Rabs_pos_eq (bpow _ _)) by apply bpow_ge_0.
    apply Rlt_le_trans with (bpow radix2 53 * bpow radix2 e).
    + apply Rmult_lt_compat_r; [apply bpow_gt_0|]. rewrite <- abs_IZR. rewrite <- (IZR_Zpower radix2) by lia. apply IZR_lt. exact Hn.
    + rewrite <- bpow_plus. apply bpow_le. lia.
Qed.

Lemma pow_neg e : (e < 0)%Z -> IZR (2 ^ (- e)) * bpow radix2 e = 1.
Proof.
  intros He. change 2%Z with (radix_val radix2). rewrite IZR_Zpower by lia. rewrite <- bpow_plus.
  replace (- e + e)%Z with 0%Z by lia. reflexivity.
Qed.

Lemma modf_spec x : is_finite x = true ->
  is_finite (snd (modf x)) = true /\ B2R x = IZR (fst (modf x)) + B2R (snd (modf x)) /\ Rabs (B2R (snd (modf x))) < 1.
Proof.
  intros F. destruct (B2R_num x F) as (n & e & E & Hn & He & K).
  destruct x as [s|s| |s m e' H]; try discriminate F.
  - cbn. rewrite Rabs_R0. repeat split; lra.
  - destruct K as [Kn <-]. unfold modf. rewrite <- Kn. destruct (Z.leb_spec 0 e) as [L|L].
    + cbn [fst snd]. change (B2R fzero) with 0. rewrite Rabs_R0. split; [reflexivity|]. split; [|lra].
      rewrite E, mult_IZR. change (2 ^ e)%Z with (radix_val radix2 ^ e)%Z. rewrite IZR_Zpower by exact L. lra.
    + cbn [fst snd]. assert (P : (0 < 2 ^ (- e))%Z) by (apply Z.pow_pos_nonneg; lia).
      pose proof (Z.quot_rem' n (2 ^ (- e))) as Q. pose proof (Z.rem_bound_abs n (2 ^ (- e)) ltac:(lia)) as RB.
      pose proof (Z.rem_le (Z.abs n) (2 ^ (- e)) ltac:(lia) ltac:(lia)) as RL. rewrite Z.rem_abs_l in RL by lia.
      destruct (fl_exact (Z.rem n (2 ^ (- e))) e) as [F1 F2].
      { lia. } { split; [exact He | lia]. }
      split; [exact F1|]. rewrite F2. split.
      * rewrite E. assert (N : IZR n = IZR (2 ^ (- e)) * IZR (Z.quot n (2 ^ (- e))) + IZR (Z.rem n (2 ^ (- e)))) by (rewrite <- mult_IZR, <- plus_IZR; f_equal; exact Q).
        rewrite N at 1. transitivity (IZR (Z.quot n (2 ^ (- e))) * (IZR (2 ^ (- e)) * bpow radix2 e) + IZR (Z.rem n (2 ^ (- e))) * bpow radix2 e); [ring|].
        rewrite pow_neg by exact L. ring.
      * rewrite Rabs_mult, (Rabs_pos_eq (bpow _ _)) by apply bpow_ge_0. rewrite <- abs_IZR. rewrite <- (pow_neg e L).
        apply Rmult_lt_compat_r; [apply bpow_gt_0|]. apply IZR_lt. lia.
Qed.

Lemma cround_spec x : is_finite x = true -> Rabs (IZR (cround x) - B2R x) <= 1 / 2.
Proof.
  intros F. destruct (B2R_num x F) as (n & e & E & Hn & He & K).
  destruct x as [s|s| |s m e' H]; try discriminate F.
  - cbn. rewrite Rminus_0_r, Rabs_R0. lra.
  - destruct K as [Kn <-]. unfold cround. rewrite <- Kn. destruct (Z.leb_spec 0 e) as [L|L].
    + rewrite E, mult_IZR. change (2 ^ e)%Z with (radix_val radix2 ^ e)%Z. rewrite IZR_Zpower by exact L. rewrite Rminus_eq_0, Rabs_R0. lra.
    + assert (P : (0 < 2 ^ (- e))%Z) by (apply Z.pow_pos_nonneg; lia). set (d := (2 ^ (- e))%Z) in *.
      assert (D : IZR d * bpow radix2 e = 1) by (apply pow_neg; exact L).
      pose proof (bpow_gt_0 radix2 e) as B.
      assert (W : Rabs (IZR ((2 * Z.abs n + d) / (2 * d)) - IZR (Z.abs n) * bpow radix2 e) <= 1 / 2).
      { pose proof (Z.div_mod (2 * Z.abs n + d) (2 * d) ltac:(lia)) as M. pose proof (Z.mod_pos_bound (2 * Z.abs n + d) (2 * d) ltac:(lia)) as Mb.
        set (q := ((2 * Z.abs n + d) / (2 * d))%Z) in *. set (r := ((2 * Z.abs n + d) mod (2 * d))%Z) in *.
        assert (M' : 2 * IZR (Z.abs n) + IZR d = 2 * IZR d * IZR q + IZR r).
        { rewrite <- !mult_IZR, <- !plus_IZR. f_equal. exact M. }
        assert (R0 : 0 <= IZR r) by (apply IZR_le; lia). assert (R1 : IZR r < 2 * IZR d) by (rewrite <- mult_IZR; apply IZR_lt; lia).
        assert (M2 : 2 * (IZR (Z.abs n) * bpow radix2 e) + 1 = 2 * IZR q + IZR r * bpow radix2 e).
        { rewrite <- D. transitivity ((2 * IZR (Z.abs n) + IZR d) * bpow radix2 e); [ring|]. rewrite M'.
          transitivity (2 * IZR q * (IZR d * bpow radix2 e) + IZR r * bpow radix2 e); [ring|]. rewrite D. ring. }
        assert (R2 : 0 <= IZR r * bpow radix2 e) by (apply Rmult_le_pos; lra).
        assert (R3 : IZR r * bpow radix2 e < 2).
        { apply Rlt_le_trans with (2 * IZR d * bpow radix2 e); [apply Rmult_lt_compat_r; assumption | lra]. }
        apply Rabs_le. split; lra. }
      rewrite E. destruct (Z.sgn_spec n) as [[S ->]|[[S ->]|[S ->]]].
      * rewrite Z.mul_1_l. rewrite (Z.abs_eq n) in W by lia. rewrite Z.abs_eq by lia. exact W.
      * subst n. rewrite <- S in *. cbn [Z.mul]. rewrite Rmult_0_l, Rminus_0_r, Rabs_R0. lra.
      * rewrite (Z.abs_neq n) in W |- * by lia. rewrite opp_IZR in W. rewrite mult_IZR, (opp_IZR 1).
        rewrite Rabs_minus_sym in W. eapply Rle_trans; [|exact W]. right. f_equal. lra.
Qed.

Lemma ftrue_zero (x : double) : is_finite x = true -> ftrue x = false -> B2R x = 0.
Proof. destruct x; cbn; intros; try discriminate; reflexivity. Qed.

(** A fraction and its nearest integer: the difference is computed exactly. *)
Lemma difference_exact (l : double) : is_finite l = true -> Rabs (B2R l) < 1 ->
  is_finite (fsub (fl (cround l) 0) l) = true /\ B2R (fsub (fl (cround l) 0) l) = IZR (cround l) - B2R l /\
  (cround l = 0%Z \/ cround l = 1%Z /\ 1 / 2 <= B2R l \/ cround l = (-1)%Z /\ B2R l <= - (1 / 2)).
Proof.
  intros F B. pose proof (cround_spec l F) as C. apply Rabs_le_inv in C. apply Rabs_lt_inv in B.
  assert (K : (-2 < cround l < 2)%Z) by (split; apply lt_IZR; lra).
  assert (G : generic_format radix2 fexp64 (IZR (cround l) - B2R l) /\
    (cround l = 0%Z \/ cround l = 1%Z /\ 1 / 2 <= B2R l \/ cround l = (-1)%Z /\ B2R l <= - (1 / 2))).
  { pose proof (generic_format_B2R 53 1024 l) as Gl. fold fexp64 in Gl.
    assert (G1 : generic_format radix2 fexp64 1).
    { rewrite fexp64_FLT. change 1 with (bpow radix2 0). apply generic_format_FLT_bpow; [reflexivity | lia]. }
    assert (J : (cround l = -1 \/ cround l = 0 \/ cround l = 1)%Z) by lia. destruct J as [J|[J|J]]; rewrite J in *.
    - split; [|right; right; split; [reflexivity | lra]]. replace (-1 - B2R l) with (- (1 - - B2R l)) by lra. apply generic_format_opp.
      apply sterbenz; [apply vexp | rewrite fexp64_FLT; apply FLT_exp_monotone | exact G1 | apply generic_format_opp; exact Gl | lra].
    - split; [|left; reflexivity]. rewrite Rminus_0_l. apply generic_format_opp. exact Gl.
    - split; [|right; left; split; [reflexivity | lra]].
      apply sterbenz; [apply vexp | rewrite fexp64_FLT; apply FLT_exp_monotone | exact G1 | exact Gl | lra]. }
  destruct G as [G X]. destruct (fl_exact (cround l) 0) as [F1 F2]; [lia | lia |]. change (bpow radix2 0) with 1 in F2. rewrite Rmult_1_r in F2.
  pose proof (Bminus_correct 53 1024 _ _ mode_NE (fl (cround l) 0) l F1 F) as H. rewrite F2 in H. cbn [round_mode] in H.
  rewrite round_generic in H; [|apply valid_rnd_N | exact G]. rewrite Rlt_bool_true in H.
  - destruct H as (H1 & H2 & _). split; [exact H2|]. split; [exact H1 | exact X].
  - apply Rle_lt_trans with (bpow radix2 0); [change (bpow radix2 0) with 1; apply Rabs_le; lra | apply bpow_lt; lia].
Qed.

Lemma half_float : is_finite (fl 1 (-1)) = true /\ B2R (fl 1 (-1)) = 1 / 2.
Proof. destruct (fl_exact 1 (-1)) as [A B]; [lia | lia |]. split; [exact A|]. rewrite B. change (bpow radix2 (-1)) with (/ 2). lra. Qed.
Lemma minus_half_float : is_finite (fl (-1) (-1)) = true /\ B2R (fl (-1) (-1)) = - (1 / 2).
Proof. destruct (fl_exact (-1) (-1)) as [A B]; [lia | lia |]. split; [exact A|]. rewrite B. change (bpow radix2 (-1)) with (/ 2). lra. Qed.

Lemma strict (x : double) : is_finite x = true -> B2R x <> 0 -> is_finite_strict x = true.
Proof. destruct x; cbn; intros; try discriminate; try reflexivity. congruence. Qed.

(** The result is the integer nearest to the sum, an even one if there are two. *)
Lemma round_leftover_spec t (l : double) : is_finite l = true -> Rabs (B2R l) < 1 ->
  Rabs (IZR (round_leftover t l) - (IZR t + B2R l)) <= 1 / 2 /\
  (Rabs (IZR (round_leftover t l) - (IZR t + B2R l)) = 1 / 2 -> Z.even (round_leftover t l) = true).
Proof.
  intros F B. unfold round_leftover. destruct (ftrue l) eqn:T; cbn [negb].
  2: { rewrite (ftrue_zero l F T), Rplus_0_r, Rminus_eq_0, Rabs_R0. split; lra. }
  destruct (difference_exact l F B) as (D1 & D2 & D3). pose proof (cround_spec l F) as C.
  destruct half_float as [H1 H2]. destruct minus_half_float as [M1 M2].
  destruct (Beqb (Babs (fsub (fl (cround l) 0) l)) (fl 1 (-1))) eqn:Q.
  - assert (Q' : Rabs (IZR (cround l) - B2R l) = 1 / 2).
    { rewrite Beqb_correct in Q; [|rewrite is_finite_Babs; exact D1 | exact H1]. rewrite B2R_Babs, D2, H2 in Q.
      destruct (Req_bool_spec (Rabs (IZR (cround l) - B2R l)) (1 / 2)); [assumption | discriminate]. }
    assert (L : l = fl 1 (-1) \/ l = fl (-1) (-1)).
    { assert (V : B2R l = 1 / 2 \/ B2R l = - (1 / 2)).
      { apply Rabs_lt_inv in B. destruct D3 as [D|[[D D']|[D D']]]; rewrite D in Q'; unfold Rabs in Q'; destruct (Rcase_abs _) in Q'; lra. }
      destruct V as [V|V]; [left | right]; apply B2R_inj; try (apply strict; [assumption | lra]); lra. }
    assert (O : (t mod 2 = 0 \/ t mod 2 = 1)%Z) by (pose proof (Z.mod_pos_bound t 2); lia).
    pose proof (Z.div_mod t 2 ltac:(lia)) as DM.
    assert (X : exists k, (2 * cround (fmul (fadd l (fl (t mod 2) 0)) (fl 1 (-1))) - t mod 2 = k)%Z /\
      Rabs (IZR k - B2R l) = 1 / 2 /\ Z.even (t + k) = true).
    { destruct O as [O|O]; rewrite O; destruct L as [-> | ->].
      - exists 0%Z. split; [vm_compute; reflexivity|]. rewrite H2. split; [rewrite Rminus_0_l, Rabs_Ropp, Rabs_pos_eq; lra|].
        rewrite Z.add_0_r, DM, O, Z.add_0_r, Z.even_mul. reflexivity.
      - exists 0%Z. split; [vm_compute; reflexivity|]. rewrite M2. split; [rewrite Rminus_0_l, Ropp_involutive, Rabs_pos_eq; lra|].
        rewrite Z.add_0_r, DM, O, Z.add_0_r, Z.even_mul. reflexivity.
      - exists 1%Z. split; [vm_compute; reflexivity|]. rewrite H2. split; [rewrite Rabs_pos_eq; lra|].
        rewrite DM, O. replace (2 * (t / 2) + 1 + 1)%Z with (2 * (t / 2 + 1))%Z by lia. rewrite Z.even_mul. reflexivity.
      - exists (-1)%Z. split; [vm_compute; reflexivity|]. rewrite M2. split.
        { replace (-1 - - (1 / 2)) with (- (1 / 2)) by lra. rewrite Rabs_Ropp, Rabs_pos_eq; lra. }
        rewrite DM, O. replace (2 * (t / 2) + 1 + -1)%Z with (2 * (t / 2))%Z by lia. rewrite Z.even_mul. reflexivity. }
    destruct X as (k & -> & X1 & X2). rewrite plus_IZR. replace (IZR t + IZR k - (IZR t + B2R l)) with (IZR k - B2R l) by lra. split; [lra | auto].
  - rewrite plus_IZR. replace (IZR t + IZR (cround l) - (IZR t + B2R l)) with (IZR (cround l) - B2R l) by lra. split; [exact C|].
    intros E. exfalso. rewrite Beqb_correct in Q; [|rewrite is_finite_Babs; exact D1 | exact H1]. rewrite B2R_Babs, D2, H2, E in Q.
    destruct (Req_bool_spec (1 / 2) (1 / 2)); [discriminate | congruence].
Qed.

Lemma product_error z : Rabs z < bpow radix2 40 -> Rabs (rne z - z) <= bpow radix2 (-14).
Proof.
  intros B. destruct (Req_dec z 0) as [->|N].
  { rewrite round_0 by apply valid_rnd_N. rewrite Rminus_0_r, Rabs_R0. apply bpow_ge_0. }
  eapply Rle_trans; [apply error_le_half_ulp; apply vexp|]. rewrite ulp_neq_0 by exact N.
  change (/ 2) with (bpow radix2 (-1)). rewrite <- bpow_plus. apply bpow_le. unfold cexp.
  pose proof (mag_le_bpow radix2 z 40 N B). rewrite fexp64_FLT. unfold FLT_exp. lia.
Qed.

Lemma generic_integer k : (Z.abs k < 2 ^ 53)%Z -> generic_format radix2 fexp64 (IZR k).
Proof.
  intros H. rewrite fexp64_FLT. apply generic_format_FLT. exists (Float radix2 k 0); [unfold F2R; cbn [Fnum Fexp]; change (bpow radix2 0) with 1; lra | exact H | cbn; lia].
Qed.

Lemma accum_spec (x : double) us : is_finite x = true -> (0 < us < 2 ^ 40)%Z ->
  exists t l, accum x us = Ok (t, l) /\ is_finite l = true /\ Rabs (B2R l) < 1 /\
    Rabs (IZR t + B2R l - B2R x * IZR us) <= bpow radix2 (-14) /\
    (forall k, B2R x * IZR us = IZR k -> IZR t + B2R l = IZR k).
Proof.
  intros F U. destruct (modf_spec x F) as (M1 & M2 & M3). destruct (modf x) as [ip fp] eqn:E. cbn [fst snd] in M1, M2, M3.
  assert (A : accum x us = if negb (ftrue fp) then Ok ((ip * us)%Z, fzero)
      else let (ip2, fp2) := modf (fmul (fl us 0) fp) in Ok ((ip * us + ip2)%Z, fp2)).
  { unfold accum. rewrite E. destruct x; try discriminate F; reflexivity. }
  destruct (ftrue fp) eqn:T; cbn [negb] in A.
  2: { exists (ip * us)%Z, fzero. split; [exact A|]. split; [reflexivity|]. change (B2R fzero) with 0.
       rewrite M2, (ftrue_zero fp M1 T), mult_IZR, Rabs_R0. split; [lra|]. split.
       - replace (IZR ip * IZR us + 0 - (IZR ip + 0) * IZR us) with 0 by lra. rewrite Rabs_R0. apply bpow_ge_0.
       - intros k Hk. lra. }
  set (y := fmul (fl us 0) fp) in *.
  assert (U' : 0 < IZR us < bpow radix2 40).
  { split; [apply IZR_lt; lia|]. rewrite <- (IZR_Zpower radix2) by lia. apply IZR_lt. exact (proj2 U). }
  assert (Z1 : Rabs (IZR us * B2R fp) < bpow radix2 40).
  { rewrite Rabs_mult, (Rabs_pos_eq (IZR us)) by lra. pose proof (Rabs_pos (B2R fp)). nra. }
  assert (Y : is_finite y = true /\ B2R y = rne (IZR us * B2R fp)).
  { destruct (fl_exact us 0) as [F1 F2]; [lia | lia |]. change (bpow radix2 0) with 1 in F2. rewrite Rmult_1_r in F2.
    pose proof (Bmult_correct 53 1024 _ _ mode_NE (fl us 0) fp) as H. rewrite F2 in H. cbn [round_mode] in H.
    rewrite Rlt_bool_true in H.
    - destruct H as (H1 & H2 & _). rewrite F1, M1 in H2. split; [exact H2 | exact H1].
    - apply Rle_lt_trans with (bpow radix2 40); [|apply bpow_lt; lia]. apply abs_round_le_generic; [apply vexp | apply valid_rnd_N | | lra].
      rewrite fexp64_FLT. apply generic_format_FLT_bpow; [reflexivity | lia]. }
  destruct Y as [Y1 Y2]. destruct (modf_spec y Y1) as (N1 & N2 & N3). destruct (modf y) as [ip2 fp2]. cbn [fst snd] in N1, N2, N3.
  exists (ip * us + ip2)%Z, fp2. split; [exact A|]. split; [exact N1|]. split; [exact N3|].
  assert (S : IZR (ip * us + ip2) + B2R fp2 = IZR ip * IZR us + rne (IZR us * B2R fp)).
  { rewrite plus_IZR, mult_IZR, <- Y2, N2. lra. }
  rewrite S, M2. split.
  - replace (IZR ip * IZR us + rne (IZR us * B2R fp) - (IZR ip + B2R fp) * IZR us) with (rne (IZR us * B2R fp) - IZR us * B2R fp) by lra.
    apply product_error. exact Z1.
  - intros k Hk. assert (K : IZR us * B2R fp = IZR (k - ip * us)) by (rewrite minus_IZR, mult_IZR; lra).
    rewrite K, round_generic; [rewrite minus_IZR, mult_IZR; lra | apply valid_rnd_N |]. apply generic_integer.
    rewrite K, <- abs_IZR in Z1. rewrite <- (IZR_Zpower radix2) in Z1 by lia. apply lt_IZR in Z1. change (Zpower radix2 40) with (2 ^ 40)%Z in Z1. lia.
Qed.

Lemma timedelta_float (x : double) us : is_finite x = true -> (0 < us < 2 ^ 40)%Z ->
  exists n, timedelta (StFloat x) us = td_check n /\
    Rabs (IZR n - B2R x * IZR us) <= 1 / 2 + bpow radix2 (-14) /\
    (forall k, B2R x * IZR us = IZR k -> n = k).
Proof.
  intros F U. destruct (accum_spec x us F U) as (t & l & A & Fl & Bl & Er & Ex). exists (round_leftover t l).
  unfold timedelta. rewrite A. split; [reflexivity|]. destruct (round_leftover_spec t l Fl Bl) as [R _]. split.
  - replace (IZR (round_leftover t l) - B2R x * IZR us) with ((IZR (round_leftover t l) - (IZR t + B2R l)) + (IZR t + B2R l - B2R x * IZR us)) by lra.
    eapply Rle_trans; [apply Rabs_triang|]. lra.
  - intros k Hk. rewrite (Ex k Hk) in R. rewrite <- minus_IZR, <- abs_IZR in R. assert (Z.abs (round_leftover t l - k) < 1)%Z by (apply lt_IZR; lra). lia.
Qed.

Lemma unit_us_length u us : unit_length u = Some us -> unit_us u = Some us /\ (0 < us < 2 ^ 40)%Z.
Proof. destruct u; cbn; intros [= <-]; split; reflexivity || (split; reflexivity). Qed.
Lemma td_check_type n : td_check n <> Raise TypeError.
Proof. unfold td_check. destruct (_ && _); discriminate. Qed.
Lemma chosen (k : dtkind) u : match u with Some u => u | None => match k with KDate => Udays | _ => Useconds end end = chosen_unit k u.
Proof. destruct u, k; reflexivity. Qed.

(** ** C77 *)

(** A finite float given as step stands for a whole number [n] of microseconds:
    that of the step exactly if it is whole, otherwise one at most half a
    microsecond and 2^-14 of a microsecond away. Everything is then as if [n] had
    been given as a number of microseconds. *)
Theorem C77_float_step :
  forall (str : Type) (isod isot isodt : str -> option Z) a b (x : double) u start us,
  means isod isot isodt a start -> is_finite x = true -> unit_length (chosen_unit (dk start) u) = Some us ->
  exists n, Rabs (IZR n - B2R x * IZR us) <= 1 / 2 + bpow radix2 (-14) /\
    (forall k, B2R x * IZR us = IZR k -> n = k) /\
    dtrange_any isod isot isodt a b (StFloat x) u = dtrange isod isot isodt a b n (Some Umicroseconds).
Proof.
  intros str isod isot isodt a b x u start us Ma F Hu. destruct (unit_us_length _ _ Hu) as [Hu' B].
  destruct (timedelta_float x us F B) as (n & T & H1 & H2). exists n. split; [exact H1|]. split; [exact H2|].
  unfold dtrange_any, dtrange. rewrite (proj1 (parse_means isod isot isodt a start) Ma). cbn [bind].
  destruct (parse_user_date isod isot isodt b) as [stop| |]; cbn [bind]; try reflexivity.
  destruct (negb _); [reflexivity|]. rewrite chosen. unfold step_timedelta. rewrite Hu', T. cbn [unit_us]. rewrite Z.mul_1_r.
  pose proof (td_check_type n) as N. destruct (td_check n) as [z|[]|]; try reflexivity. congruence.
Qed.
Print Assumptions C77_float_step.

(** Hence the elements, as in C01: multiples of [n] from the start on. *)
Theorem C77_elements :
  forall (str : Type) (isod isot isodt : str -> option Z) a b (x : double) u start stop us,
  means isod isot isodt a start -> means isod isot isodt b stop ->
  dt_valid start -> dt_valid stop -> dk start = dk stop -> on_line start ->
  unit_length (chosen_unit (dk start) u) = Some us -> is_finite x = true ->
  exists n, Rabs (IZR n - B2R x * IZR us) <= 1 / 2 + bpow radix2 (-14) /\
    (forall k, B2R x * IZR us = IZR k -> n = k) /\
    ((n <> 0 -> td_valid n -> step_fits start n ->
      (0 < n -> us_of start <= us_of stop) -> (n < 0 -> us_of stop <= us_of start) ->
      exists r l, dtrange_any isod isot isodt a b (StFloat x) u = Ok r /\ dtr_list r = Ok l /\
      forall i v, nth_error l i = Some v <->
        (dk v = dk start /\ us_of v = us_of start + n * Z.of_nat i /\
         (0 < n -> us_of v < us_of stop) /\ (n < 0 -> us_of stop < us_of v)))%Z /\
     (n = 0%Z -> dtrange_any isod isot isodt a b (StFloat x) u = Raise ZeroDivisionError)).
Proof.
  intros str isod isot isodt a b x u start stop us Ma Mb Va Vb K L Hu F.
  destruct (C77_float_step str isod isot isodt a b x u start us Ma F Hu) as (n & H1 & H2 & ->).
  exists n. split; [exact H1|]. split; [exact H2|]. split.
  - intros N T S D1 D2.
    pose proof (C01_dtrange_elements str isod isot isodt a b n (Some Umicroseconds) start stop 1 Ma Mb Va Vb K L eq_refl) as C.
    rewrite Z.mul_1_r in C. exact (C N T S D1 D2).
  - intros ->. unfold dtrange. rewrite (proj1 (parse_means isod isot isodt a start) Ma), (proj1 (parse_means isod isot isodt b stop) Mb). cbn [bind].
    rewrite K. replace (dtkind_eqb (dk stop) (dk stop)) with true by (destruct (dk stop); reflexivity). cbn [negb unit_us]. rewrite Z.mul_0_l.
    change (td_check 0) with (Ok 0%Z). cbn [bind]. unfold dtrange_core. destruct L as [L|L]; rewrite L in *; cbn [dtkind_eqb andb];
      unfold value_to_index; rewrite <- K, L; reflexivity.
Qed.
Print Assumptions C77_elements.

(** Other steps: integers are as before; NaN, the infinities and objects that are
    no numbers are refused. *)
Theorem C77_other_steps :
  forall (str : Type) (isod isot isodt : str -> option Z) a b u start stop us,
  means isod isot isodt a start -> means isod isot isodt b stop -> dk start = dk stop ->
  unit_length (chosen_unit (dk start) u) = Some us ->
  (forall z, dtrange_any isod isot isodt a b (StInt z) u = dtrange isod isot isodt a b z u) /\
  dtrange_any isod isot isodt a b (StFloat B754_nan) u = Raise ValueError /\
  (forall s, dtrange_any isod isot isodt a b (StFloat (B754_infinity s)) u = Raise OverflowError) /\
  dtrange_any isod isot isodt a b StOther u = Raise ValueError.
Proof.
  intros str isod isot isodt a b u start stop us Ma Mb K Hu. destruct (unit_us_length _ _ Hu) as [Hu' _].
  unfold dtrange_any, dtrange. rewrite (proj1 (parse_means isod isot isodt a start) Ma), (proj1 (parse_means isod isot isodt b stop) Mb). cbn [bind].
  rewrite K. replace (dtkind_eqb (dk stop) (dk stop)) with true by (destruct (dk stop); reflexivity). cbn [negb].
  rewrite !chosen. rewrite K in Hu'. unfold step_timedelta. rewrite Hu'. repeat split; try reflexivity.
  intros z. cbn [timedelta]. pose proof (td_check_type (z * us)) as N. destruct (td_check (z * us)) as [q|[]|]; try reflexivity. congruence.
Qed.
Print Assumptions C77_other_steps.

(** ** What one might expect but does not hold *)

(** The elements drift: [n] is rounded once, so the i-th element can be i/2
    microseconds off. *)
Definition C77_terms_statement : Prop :=
  forall (x : double) start stop r i v, is_finite x = true -> 0 < B2R x ->
  dt_valid start -> dt_valid stop -> dk start = KDateTime -> dk stop = KDateTime ->
  dtrange_any noparse noparse noparse (UDt start) (UDt stop) (StFloat x) (Some Useconds) = Ok r ->
  dtr_get r i = Ok v -> (0 <= i)%Z ->
  Rabs (IZR (us_of v) - (IZR (us_of start) + IZR i * (B2R x * 1000000))) <= 1.
(** A third of a second, as a double. *)
Definition third : double := fl 6004799503160661 (-54).
Lemma third_value : is_finite third = true /\ B2R third = 6004799503160661 / 18014398509481984.
Proof.
  destruct (fl_exact 6004799503160661 (-54)) as [A B]; [lia | lia |]. split; [exact A|]. unfold third. rewrite B.
  change (bpow radix2 (-54)) with (/ 18014398509481984). reflexivity.
Qed.
Theorem C77_terms_refuted : ~ C77_terms_statement.
Proof.
  intros H. destruct third_value as [F V].
  specialize (H third (Dt KDateTime DAY) (Dt KDateTime (2 * DAY)) (mkDtr (Dt KDateTime DAY) 259201 333333) 10%Z (Dt KDateTime (DAY + 3333330)) F).
  rewrite V in H.
  assert (E : Rabs (IZR (us_of (Dt KDateTime (DAY + 3333330))) -
     (IZR (us_of (Dt KDateTime DAY)) + 10 * (6004799503160661 / 18014398509481984 * 1000000))) <= 1).
  { apply H; clear H.
    - lra.
    - vm_compute; split; [discriminate | reflexivity].
    - vm_compute; split; [discriminate | reflexivity].
    - reflexivity.
    - reflexivity.
    - vm_compute. reflexivity.
    - vm_compute. reflexivity.
    - lia. }
  unfold us_of, dk, dv in E. rewrite plus_IZR in E. apply Rabs_le_inv in E. lra.
Qed.
Print Assumptions C77_terms_refuted.

(** Nor is the number of elements the distance divided by the step: in ten days
    there are 2592000 thirds of a second, but the range has 2592003 elements, the
    last of which is the 2592002nd step. *)
Definition C77_count_statement : Prop :=
  forall (x : double) start stop r n, is_finite x = true -> 0 < B2R x ->
  dt_valid start -> dt_valid stop -> dk start = KDateTime -> dk stop = KDateTime -> (us_of start <= us_of stop)%Z ->
  dtrange_any noparse noparse noparse (UDt start) (UDt stop) (StFloat x) (Some Useconds) = Ok r ->
  dtr_len r = Ok n -> IZR (n - 1) * (B2R x * 1000000) <= IZR (us_of stop - us_of start) <= IZR n * (B2R x * 1000000).
Theorem C77_count_refuted : ~ C77_count_statement.
Proof.
  intros H. destruct third_value as [F V].
  specialize (H third (Dt KDateTime DAY) (Dt KDateTime (11 * DAY)) (mkDtr (Dt KDateTime DAY) 2592003 333333) 2592003%Z F). rewrite V in H.
  assert (E : IZR (2592003 - 1) * (6004799503160661 / 18014398509481984 * 1000000) <=
    IZR (us_of (Dt KDateTime (11 * DAY)) - us_of (Dt KDateTime DAY)) <= IZR 2592003 * (6004799503160661 / 18014398509481984 * 1000000)).
  { apply H; clear H.
    - lra.
    - vm_compute; split; [discriminate | reflexivity].
    - vm_compute; split; [discriminate | reflexivity].
    - reflexivity.
    - reflexivity.
    - vm_compute. discriminate.
    - vm_compute. reflexivity.
    - reflexivity. }
  destruct E as [E _]. change (us_of (Dt KDateTime (11 * DAY)) - us_of (Dt KDateTime DAY))%Z with 864000000000%Z in E.
  change (2592003 - 1)%Z with 2592002%Z in E. lra.
Qed.
Print Assumptions C77_count_refuted.

(** A positive step can vanish: a ten-millionth of a second. *)
Definition C77_positive_statement : Prop :=
  forall (x : double) start stop, is_finite x = true -> 0 < B2R x <= 1 ->
  dt_valid start -> dt_valid stop -> dk start = KDateTime -> dk stop = KDateTime ->
  exists r, dtrange_any noparse noparse noparse (UDt start) (UDt stop) (StFloat x) (Some Useconds) = Ok r.
Theorem C77_positive_refuted : ~ C77_positive_statement.
Proof.
  intros H. destruct (fl_exact 1 (-23)) as [A B]; [lia | lia |].
  change (bpow radix2 (-23)) with (/ 8388608) in B.
  destruct (H (fl 1 (-23)) (Dt KDateTime DAY) (Dt KDateTime (2 * DAY)) A) as [r E].
  - rewrite B. lra.
  - vm_compute; split; [discriminate | reflexivity].
  - vm_compute; split; [discriminate | reflexivity].
  - reflexivity.
  - reflexivity.
  - vm_compute in E. discriminate E.
Qed.
Print Assumptions C77_positive_refuted.

(** ** Examples *)

(** An hour and a half; -1.5 days of a date range is refused, 2.0 days are fine. *)
Example C77_case :
  is_finite (fl 3 (-1)) = true /\ B2R (fl 3 (-1)) * 3600000000 = IZR 5400000000 /\
  (exists r, dtrange_any noparse noparse noparse (UDt (Dt KDateTime DAY)) (UDt (Dt KDateTime (DAY + 4 * HOUR))) (StFloat (fl 3 (-1))) (Some Uhours) = Ok r /\
     dtr_list r = Ok [Dt KDateTime DAY; Dt KDateTime (DAY + 5400000000); Dt KDateTime (DAY + 10800000000)]) /\
  dtrange_any noparse noparse noparse (UDt D20160101) (UDt D20161231) (StFloat (fl (-3) (-1))) None = Raise ValueError /\
  (exists r, dtrange_any noparse noparse noparse (UDt D20160101) (UDt (Dt KDate 735967)) (StFloat (fl 1 1)) None = Ok r /\
     dtr_list r = Ok [D20160101; Dt KDate 735966]).
Proof.
  destruct (fl_exact 3 (-1)) as [A B]; [lia | lia |]. split; [exact A|]. split.
  { rewrite B. change (bpow radix2 (-1)) with (/ 2). lra. }
  split; [|split].
  - exists (mkDtr (Dt KDateTime DAY) 3 5400000000). split; vm_compute; reflexivity.
  - vm_compute. reflexivity.
  - exists (mkDtr D20160101 2 (2 * DAY)). split; vm_compute; reflexivity.
Qed.
(** Two and a half microseconds: rounded to 2; three and a half: to 4. *)
Example C77_halves :
  timedelta (StFloat (fl 5 (-1))) 1 = Ok 2%Z /\ timedelta (StFloat (fl 7 (-1))) 1 = Ok 4%Z /\
  timedelta (StFloat (fl (-5) (-1))) 1 = Ok (-2)%Z /\ timedelta (StFloat third) 1000000 = Ok 333333%Z.
Proof. vm_compute. repeat split. Qed.
