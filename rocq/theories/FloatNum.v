(** * The laws of NumLaws hold for IEEE doubles. *)
From Coq Require Import ZArith Reals Lra Psatz Floats.SpecFloat.
From Flocq Require Import Core BinarySingleNaN.
From Verif Require Import Base Prims MathModel NumLaws FloatModel.
Open Scope R_scope.

Notation fexp64 := (SpecFloat.fexp 53 1024).
Notation rne := (round radix2 fexp64 ZnearestE).

Lemma fexp64_FLT : fexp64 = FLT_exp (-1074) 53.
Proof. reflexivity. Qed.

#[export] Instance vexp : Valid_exp fexp64.
Proof. rewrite fexp64_FLT. apply FLT_exp_valid. reflexivity. Qed.

#[local] Opaque bpow F2R Rlt_bool.

(** Value in the extended real line. *)
Definition V (x : double) : R :=
  match x with
  | B754_infinity s => if s then - bpow radix2 1024 else bpow radix2 1024
  | _ => B2R x
  end.

Lemma V_lt x y : x <> B754_nan -> y <> B754_nan -> (Bltb x y = true <-> V x < V y).
Proof.
  intros Hx Hy.
  assert (G := bpow_gt_0 radix2 1024).
  assert (B : forall z : double, is_finite z = true -> - bpow radix2 1024 < V z < bpow radix2 1024).
  { intros z Hz. pose proof (abs_B2R_lt_emax 53 1024 z) as A. apply Rabs_lt_inv in A.
    destruct z; cbn in *; try discriminate; auto. }
  destruct (is_finite x) eqn:Fx; destruct (is_finite y) eqn:Fy.
  - rewrite Bltb_correct by auto.
    assert (Ex : V x = B2R x) by (destruct x; try discriminate; auto).
    assert (Ey : V y = B2R y) by (destruct y; try discriminate; auto).
    rewrite Ex, Ey. destruct (Rlt_bool_spec (B2R x) (B2R y)); split; intros; auto; try discriminate; lra.
  - specialize (B x Fx). destruct y as [|[]| |]; try discriminate; try congruence; cbn [V];
    destruct x as [[]|[]| |[]]; cbn in Fx |- *; try discriminate; split; intros; auto; try discriminate; cbn in B; lra.
  - specialize (B y Fy). destruct x as [|[]| |]; try discriminate; try congruence; cbn [V];
    destruct y as [[]|[]| |[]]; cbn in Fy |- *; try discriminate; split; intros; auto; try discriminate; cbn in B; lra.
  - destruct x as [|[]| |], y as [|[]| |]; try discriminate; try congruence; cbn; split; intros; auto; try discriminate; lra.
Qed.

Lemma V_nlt x y : x <> B754_nan -> y <> B754_nan -> (Bltb x y = false <-> V y <= V x).
Proof.
  intros Hx Hy. pose proof (V_lt x y Hx Hy) as H. destruct (Bltb x y); split; intros; try discriminate; auto.
  - destruct H as [H _]. specialize (H eq_refl). lra.
  - destruct (Rle_or_lt (V y) (V x)); auto. apply H in H1. discriminate.
Qed.

Lemma plain_not_nan w : plain_weight w -> w <> B754_nan.
Proof. intros H ->. exact H. Qed.

Lemma plain_nonneg w : plain_weight w -> 0 <= V w.
Proof.
  destruct w as [s|s| |s m e B]; cbn [plain_weight V]; intros H.
  - cbn. lra.
  - subst. apply bpow_ge_0.
  - destruct H.
  - pose proof (bpow_ge_0 radix2 (-1021)). lra.
Qed.

Lemma rne_ge x : bpow radix2 (-1021) <= x -> bpow radix2 (-1021) <= rne x.
Proof.
  intros H. rewrite <- (round_generic radix2 fexp64 ZnearestE (bpow radix2 (-1021))).
  - apply round_le; auto with typeclass_instances.
  - apply generic_format_bpow. vm_compute; discriminate.
Qed.

Lemma plain_add a b : plain_weight a -> plain_weight b -> plain_weight (fadd a b).
Proof.
  intros Ha Hb.
  destruct a as [sa|sa| |sa ma ea Ba] eqn:Ea; [| |destruct Ha|].
  - destruct b as [sb|sb| |sb mb eb Bb]; cbn; auto.
    destruct (Bool.eqb sa sb); exact I.
  - cbn in Ha. subst sa. destruct b as [sb|sb| |sb mb eb Bb]; cbn in *; subst; auto; try reflexivity; destruct Hb.
  - destruct b as [sb|sb| |sb mb eb Bb] eqn:Eb; [| |destruct Hb|].
    + exact Ha.
    + cbn in Hb. subst. reflexivity.
    + rewrite <- Ea, <- Eb in *.
      assert (Fa : is_finite a = true) by (subst; reflexivity).
      assert (Fb : is_finite b = true) by (subst; reflexivity).
      assert (La : bpow radix2 (-1021) <= B2R a) by (subst a; exact Ha).
      assert (Lb : bpow radix2 (-1021) <= B2R b) by (subst b; exact Hb).
      pose proof (bpow_gt_0 radix2 (-1021)) as G.
      pose proof (rne_ge (B2R a + B2R b) ltac:(lra)) as R1.
      pose proof (Bplus_correct 53 1024 _ _ mode_NE a b Fa Fb) as H. cbn [round_mode] in H.
      destruct (Rlt_bool_spec (Rabs (rne (B2R a + B2R b))) (bpow radix2 1024)) as [L|L].
      * destruct H as (H1 & H2 & _). unfold fadd. unfold plain_weight.
        destruct (Bplus mode_NE a b) as [s|s| |s m e B] eqn:E; try discriminate; auto.
        rewrite H1. exact R1.
      * destruct H as (H1 & H2). unfold fadd.
        assert (Sa : Bsign a = false).
        { destruct sa; [|subst; reflexivity]. exfalso. subst a. cbn in La.
          pose proof (F2R_lt_0 radix2 (Float radix2 (Zneg ma) ea) ltac:(reflexivity)). cbn [cond_Zopp] in La. lra. }
        rewrite Sa in H1. cbn in H1. destruct (Bplus mode_NE a b) as [s|s| |s m e B]; cbn in H1; try discriminate.
        injection H1 as ->. reflexivity.
Qed.

Lemma add_zero a b : plain_weight a -> plain_weight b -> ftrue b = false -> V (fadd a b) = V a.
Proof.
  intros Ha Hb H. destruct b as [sb|sb| |sb mb eb Bb]; try discriminate.
  destruct a as [sa|sa| |sa ma ea Ba]; cbn; auto. destruct (Bool.eqb sa sb); reflexivity.
Qed.

(** Multiplying by a number of at most 1 - 2^-53 makes a double of at least
    2^-1021 strictly smaller, in spite of rounding. *)
Lemma rne_shrinks t u : generic_format radix2 fexp64 t -> bpow radix2 (-1021) <= t ->
  0 <= u <= 1 - bpow radix2 (-53) -> 0 <= rne (u * t) < t.
Proof.
  intros Ft Ht Hu.
  assert (G : 0 < bpow radix2 (-1021)) by apply bpow_gt_0.
  assert (G53 : 0 < bpow radix2 (-53)) by apply bpow_gt_0.
  split.
  - rewrite <- (round_0 radix2 fexp64 ZnearestE). apply round_le; auto with typeclass_instances. nra.
  - set (p := pred radix2 fexp64 t).
    assert (Fp : generic_format radix2 fexp64 p) by (apply generic_format_pred; auto with typeclass_instances).
    assert (Hp : p + ulp radix2 fexp64 p = t) by (apply pred_plus_ulp; auto with typeclass_instances; lra).
    assert (Hs : succ radix2 fexp64 p = t) by (apply succ_pred; auto with typeclass_instances).
    assert (Hp0 : 0 <= p) by (apply pred_ge_0; auto with typeclass_instances; lra).
    assert (Hpt : p < t) by (apply pred_lt_id; lra).
    (* the gap below t is smaller than t * 2^-52 *)
    assert (Hp1 : bpow radix2 (-1022) <= p).
    { apply pred_ge_gt; auto with typeclass_instances.
      - apply generic_format_bpow. vm_compute; discriminate.
      - apply Rlt_le_trans with (2 := Ht). apply bpow_lt. reflexivity. }
    assert (Hulp : ulp radix2 fexp64 p <= p * bpow radix2 (-52)).
    { rewrite <- (Rabs_pos_eq p) at 2 by auto. rewrite fexp64_FLT. apply ulp_FLT_le. rewrite Rabs_pos_eq by auto. exact Hp1. }
    assert (E52 : bpow radix2 (-52) = 2 * bpow radix2 (-53)).
    { change (-52)%Z with (1 + -53)%Z. rewrite bpow_plus. reflexivity. }
    apply Rle_lt_trans with p; auto.
    apply round_N_le_midp; auto with typeclass_instances. rewrite Hs.
    assert (u * t <= (1 - bpow radix2 (-53)) * t) by (apply Rmult_le_compat_r; lra).
    rewrite E52 in Hulp. nra.
Qed.

Lemma scale_facts g t r : fgen_ok g -> plain_weight t -> w_total_ok (FP g) t = true ->
  let x := fmul (fst (f_random g r)) t in
  is_finite x = true /\ 0 <= B2R x < B2R t /\ is_finite t = true.
Proof.
  intros G Ht Ho. cbn [FP w_total_ok] in Ho. apply andb_prop in Ho as [H1 H2].
  destruct (G r) as [Fu Hu]. set (u := fst (f_random g r)) in *. cbn zeta.
  assert (Lt : bpow radix2 (-1021) <= B2R t).
  { destruct t as [s|s| |s m e B]; try discriminate; auto. }
  pose proof (generic_format_B2R 53 1024 t) as Ft.
  destruct (rne_shrinks (B2R t) (B2R u) Ft Lt Hu) as [R1 R2].
  pose proof (Bmult_correct 53 1024 _ _ mode_NE u t) as H. cbn [round_mode] in H.
  rewrite Rlt_bool_true in H.
  - destruct H as (E1 & E2 & _). unfold fmul. rewrite E1, E2, Fu, H2. auto.
  - rewrite Rabs_pos_eq by auto. apply Rlt_trans with (B2R t); auto.
    pose proof (abs_B2R_lt_emax 53 1024 t) as A. apply Rabs_lt_inv in A. lra.
Qed.

Lemma finite_V x : is_finite x = true -> V x = B2R x /\ x <> B754_nan.
Proof. destruct x; intros; try discriminate; split; auto; discriminate. Qed.

Theorem float_laws g : fgen_ok g -> wlaws (FP g) plain_weight (fun x => x <> B754_nan).
Proof.
  intros G. constructor; cbn [FP pW w_zero w_add w_true w_lt w_scale r_random].
  - exact I.
  - apply plain_add.
  - apply plain_not_nan.
  - reflexivity.
  - intros x a b Hx Ha Hb H1 H2. apply V_lt in H1; auto. apply V_nlt in H2; auto. apply V_lt; auto. lra.
  - intros a b Ha Hb H. apply V_nlt; auto using plain_not_nan, plain_add. rewrite add_zero; auto. lra.
  - intros t r Ht Ho. destruct (scale_facts g t r G Ht Ho) as (F & _). apply finite_V in F as [_ F]. exact F.
  - intros t r Ht Ho. destruct (scale_facts g t r G Ht Ho) as (F & [_ L] & Ft).
    apply finite_V in F as [E N]. apply finite_V in Ft as [Et Nt]. rewrite <- E, <- Et in L. apply V_lt; auto.
  - intros t r z Ht Ho Hz Hf. destruct (scale_facts g t r G Ht Ho) as (F & [L _] & Ft).
    apply finite_V in F as [E N]. destruct z as [s|s| |s m e B]; try discriminate.
    rewrite <- E in L. apply V_nlt; auto; discriminate.
Qed.
