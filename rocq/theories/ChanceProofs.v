(** * Lemmas about chance, with exact numbers and with doubles *)
From Coq Require Import ZArith QArith Qcanon Reals Lra Floats.SpecFloat.
From Flocq Require Import Core BinarySingleNaN.
From Verif Require Import Base Prims MathModel MathSpec MathProofs ChoiceModel ChoiceRun ChoiceProofs ChoiceProofs2
  ChoiceProofs3 ChoiceProofs4 RealModel NumLaws QcNum QcProofs FloatModel FloatNum.
Open Scope Z_scope.

Section G.
  Context (P : prims) (setsize : list bool -> res Z) (fuel : nat).

  Lemma chance_new p seed ent :
    chance P fuel p seed ent =
    Ok (mkChoice [true; false] (Some [p; w_sub P (w_one P) p]) (Some [p; w_add P p (w_sub P (w_one P) p)])
          true false 2 [] None seed (rng_for P seed ent)).
  Proof. reflexivity. Qed.

  Lemma do_asks_only_rng {A} (ss : list A -> res Z) qs (c : @choice P A) :
    c_replace c = true -> only_rng P c (snd (do_asks P ss fuel qs c)).
  Proof.
    revert c. induction qs as [|q qs IH]; intros c Hr; cbn [do_asks].
    - apply only_rng_refl.
    - destruct (do_ask P ss fuel q c) as [o c1] eqn:E. apply ask_only_rng in E as (r & ->); auto.
      specialize (IH (set_rng P r c) Hr). destruct (do_asks P ss fuel qs (set_rng P r c)) as [os c2]. cbn [snd] in *.
      destruct IH as (r2 & ->). exists r2. apply set_rng_twice.
  Qed.

  Lemma chance_ask p seed ent c0 qs q :
    chance P fuel p seed ent = Ok c0 ->
    let t := w_add P p (w_sub P (w_one P) p) in
    w_total_ok P t = true ->
    let c := snd (do_asks P setsize fuel qs c0) in
    exists us l, fst (do_ask P setsize fuel q c) = Ok l /\
      draws P (Z.to_nat (ask_size q)) (c_rng c) = (us, c_rng (snd (do_ask P setsize fuel q c))) /\
      Forall2 (fun u b => b = w_lt P (w_scale P u t) p) us l.
  Proof.
    rewrite chance_new. intros H t Hok c. injection H as <-.
    destruct (do_asks_only_rng setsize qs (mkChoice [true; false] (Some [p; w_sub P (w_one P) p]) (Some [p; w_add P p (w_sub P (w_one P) p)])
          true false 2 [] None seed (rng_for P seed ent)) eq_refl) as (r & E).
    fold c in E.
    destruct (weighted_any P setsize fuel q c [p; w_sub P (w_one P) p] [p; t] t [p]) as (l & El & Hl); try (rewrite E; cbn; auto; fail); auto.
    - rewrite E. unfold zlen. cbn. lia.
    - rewrite E. cbn. intros i Hi. apply in_map_iff in Hi as (u & <- & _). destruct (w_lt P _ p); lia.
    - exists (fst (draws P (Z.to_nat (ask_size q)) (c_rng c))), l. rewrite El. cbn [fst snd set_rng c_rng].
      split; auto. split; [destruct (draws P (Z.to_nat (ask_size q)) (c_rng c)); reflexivity|].
      assert (Ei : c_items c = [true; false]) by (rewrite E; reflexivity). rewrite Ei in Hl. cbn in Hl.
      revert l El Hl. generalize (fst (draws P (Z.to_nat (ask_size q)) (c_rng c))). clear.
      intros us l _ H. revert l H. induction us; intros l H; inversion H; subst; constructor; auto.
      cbn in H2. destruct (w_lt P (w_scale P a t) p); cbn in H2; congruence.
  Qed.
End G.

Lemma qc_chance_total g p : (w_add (QP g) p (w_sub (QP g) (w_one (QP g)) p)) = 1%Qc.
Proof. cbn [QP w_add w_sub w_one]. change (p + (1 - p) = 1)%Qc. ring. Qed.

(** ** Doubles *)
Open Scope R_scope.

Lemma rne_err k x : (-1000 <= k)%Z -> Rabs x < bpow radix2 k -> Rabs (rne x - x) <= bpow radix2 (k - 54).
Proof.
  intros Hk Hx. destruct (Req_dec x 0) as [->|Hn].
  - rewrite round_0 by auto with typeclass_instances. rewrite Rminus_0_r, Rabs_R0. apply bpow_ge_0.
  - eapply Rle_trans; [apply error_le_half_ulp; auto with typeclass_instances|].
    rewrite ulp_neq_0 by auto. replace (k - 54)%Z with (-1 + (k - 53))%Z by ring. rewrite bpow_plus.
    change (bpow radix2 (-1)) with (/ 2). apply Rmult_le_compat_l; [lra|]. apply bpow_le.
    pose proof (mag_le_bpow radix2 x k Hn Hx). unfold cexp. rewrite fexp64_FLT. unfold FLT_exp. lia.
Qed.

Lemma fl_one : is_finite (fl 1 0) = true /\ B2R (fl 1 0) = 1.
Proof.
  split; [reflexivity|]. change (B2R (fl 1 0)) with (F2R (Float radix2 (2 ^ 52) (-52))).
  unfold F2R. cbn [Fnum Fexp]. change (2 ^ 52)%Z with (Zpower radix2 52).
  rewrite IZR_Zpower by lia. rewrite <- bpow_plus. reflexivity.
Qed.

Lemma fl_small : is_finite (fl 1 (-54)) = true /\ B2R (fl 1 (-54)) = bpow radix2 (-54).
Proof.
  split; [reflexivity|]. change (B2R (fl 1 (-54))) with (F2R (Float radix2 (2 ^ 52) (-106))).
  unfold F2R. cbn [Fnum Fexp]. change (2 ^ 52)%Z with (Zpower radix2 52).
  rewrite IZR_Zpower by lia. rewrite <- bpow_plus. reflexivity.
Qed.

Lemma rne_1 : rne 1 = 1.
Proof. apply round_generic; auto with typeclass_instances. change 1 with (bpow radix2 0). apply generic_format_bpow. vm_compute; discriminate. Qed.

Lemma bpow_vals : bpow radix2 0 = 1 /\ bpow radix2 1 = 2 /\ bpow radix2 (-1) = / 2 /\ 0 < bpow radix2 (-54) < / 4 /\ 2 < bpow radix2 52 /\
  bpow radix2 53 = 2 * bpow radix2 52 /\ bpow radix2 1024 > 4.
Proof.
  repeat split; try reflexivity.
  - apply bpow_gt_0.
  - change (/ 4) with (/ IZR (Zpower radix2 2)). rewrite (IZR_Zpower radix2 2) by lia. rewrite <- bpow_opp. apply bpow_lt. reflexivity.
  - change 2 with (IZR (Zpower radix2 1)). rewrite (IZR_Zpower radix2 1) by lia. apply bpow_lt. reflexivity.
  - change 4 with (IZR (Zpower radix2 2)). rewrite (IZR_Zpower radix2 2) by lia. apply bpow_lt. reflexivity.
Qed.

#[local] Opaque bpow F2R Rlt_bool.

Lemma rne_below_1 : rne (1 - bpow radix2 (-54)) = 1.
Proof.
  destruct fl_one as [F1 E1]. destruct fl_small as [F2 E2].
  pose proof (Bminus_correct 53 1024 _ _ mode_NE (fl 1 0) (fl 1 (-54)) F1 F2) as H.
  rewrite E1, E2 in H. cbn [round_mode] in H. destruct bpow_vals as (B0 & B1 & B2 & B3 & B4 & B5 & B6).
  rewrite Rlt_bool_true in H.
  - destruct H as [H _]. rewrite <- H. etransitivity; [|exact E1]. rewrite <- !SF2R_B2SF. f_equal.
  - apply Rabs_lt.
    assert (-1 <= rne (1 - bpow radix2 (-54)) <= 1); [|lra].
    split.
    + apply Rle_trans with 0; [lra|]. rewrite <- (round_0 radix2 fexp64 ZnearestE). apply round_le; auto with typeclass_instances. lra.
    + rewrite <- rne_1 at 2. apply round_le; auto with typeclass_instances. lra.
Qed.

Lemma rne_above_1 e : 0 <= e <= bpow radix2 (-54) -> rne (1 + e) = 1.
Proof.
  intros He. destruct bpow_vals as (B0 & B1 & B2 & B3 & B4 & B5 & B6). apply Rle_antisym.
  - apply round_N_le_midp; auto with typeclass_instances.
    + rewrite <- B0. apply generic_format_bpow. vm_compute; discriminate.
    + rewrite <- B0 at 3. rewrite succ_eq_pos by (rewrite B0; lra).
      rewrite ulp_bpow. change (fexp64 (0 + 1)) with (-52)%Z. rewrite B0.
      assert (bpow radix2 (-52) = 4 * bpow radix2 (-54)).
      { exact (bpow_plus radix2 2 (-54)). }
      lra.
  - rewrite <- rne_1 at 1. apply round_le; auto with typeclass_instances. lra.
Qed.

Lemma rne_1_near e : Rabs e <= bpow radix2 (-54) -> rne (1 + e) = 1.
Proof.
  intros He. apply Rabs_le_inv in He. destruct (Rle_or_lt 0 e); [apply rne_above_1; lra|].
  apply Rle_antisym.
  - rewrite <- rne_1 at 2. apply round_le; auto with typeclass_instances. lra.
  - rewrite <- rne_below_1 at 1. apply round_le; auto with typeclass_instances. lra.
Qed.

(** The total of the weights [p; 1 - p], in doubles. *)
Lemma fchance_total p : is_finite p = true -> Rabs (B2R p) <= bpow radix2 52 ->
  let t := fadd p (fsub (fl 1 0) p) in
  is_finite t = true /\ / 2 <= B2R t <= 2 /\
  (0 <= B2R p <= 1 -> B2R t = 1) /\ (1 <= B2R p -> B2R t <= B2R p).
Proof.
  intros Fp Hp. destruct fl_one as [F1 E1]. destruct bpow_vals as (B0 & B1 & B2 & B3 & B4 & B5 & B6).
  pose proof (Rabs_le_inv _ _ Hp) as Hp'. set (x := B2R p) in *.
  pose proof (rne_err 53 (1 - x) ltac:(lia) ltac:(apply Rabs_lt; lra)) as He.
  change (53 - 54)%Z with (-1)%Z in He. rewrite B2 in He. apply Rabs_le_inv in He.
  set (b := rne (1 - x)) in *.
  assert (Big : bpow radix2 1024 > 4 * bpow radix2 52).
  { change 4 with (bpow radix2 2). rewrite <- bpow_plus. apply bpow_lt. reflexivity. }
  pose proof (Bminus_correct 53 1024 _ _ mode_NE (fl 1 0) p F1 Fp) as H. rewrite E1 in H. cbn [round_mode] in H. fold x b in H.
  rewrite Rlt_bool_true in H by (apply Rabs_lt; lra). destruct H as (Hb & Fb & _).
  pose proof (Bplus_correct 53 1024 _ _ mode_NE p (fsub (fl 1 0) p) Fp Fb) as H. unfold fsub in H. rewrite Hb in H. cbn [round_mode] in H. fold x in H.
  assert (T : / 2 <= rne (x + b) <= 2).
  { split.
    - rewrite <- B2 at 1. rewrite <- (round_generic radix2 fexp64 ZnearestE (bpow radix2 (-1))).
      + apply round_le; auto with typeclass_instances. lra.
      + apply generic_format_bpow. vm_compute; discriminate.
    - rewrite <- B1. rewrite <- (round_generic radix2 fexp64 ZnearestE (bpow radix2 1)).
      + apply round_le; auto with typeclass_instances. lra.
      + apply generic_format_bpow. vm_compute; discriminate. }
  rewrite Rlt_bool_true in H by (apply Rabs_lt; lra). destruct H as (Ht & Ft & _).
  cbn zeta. unfold fadd, fsub. rewrite Ht, Ft. split; auto. split; auto. split.
  - intros Hx. destruct (Req_dec x 0) as [E0|N0].
    + unfold b. rewrite E0, Rminus_0_r, rne_1, Rplus_0_l. apply rne_1.
    + pose proof (rne_err 0 (1 - x) ltac:(lia) ltac:(rewrite B0; apply Rabs_lt; lra)) as He'. fold b in He'.
      replace (x + b) with (1 + (b - (1 - x))) by ring. apply rne_1_near. exact He'.
  - intros Hx. assert (b <= 0).
    { unfold b. rewrite <- (round_0 radix2 fexp64 ZnearestE). apply round_le; auto with typeclass_instances. lra. }
    rewrite <- (round_generic radix2 fexp64 ZnearestE x) at 2 by (apply generic_format_B2R).
    apply round_le; auto with typeclass_instances. lra.
Qed.

Lemma total_ok_pos g t : is_finite t = true -> 0 < B2R t -> w_total_ok (FP g) t = true.
Proof.
  intros F H. cbn [FP w_total_ok]. rewrite F, andb_true_r. rewrite Bleb_correct by auto.
  rewrite Rle_bool_false; auto.
Qed.

(** A draw in doubles is below the threshold iff it is below p. *)
Lemma fchance_draw g p r : fgen_ok g -> is_finite p = true -> Rabs (B2R p) <= bpow radix2 52 ->
  let u := fst (f_random g r) in
  Bltb (fmul u (fadd p (fsub (fl 1 0) p))) p = true <-> B2R u < B2R p.
Proof.
  intros G Fp Hp u. destruct (fchance_total p Fp Hp) as (Ft & T & T1 & T2).
  set (t := fadd p (fsub (fl 1 0) p)) in *.
  assert (Pt : plain_weight t).
  { destruct t as [s|s| |s m e B]; try discriminate; cbn [plain_weight]; auto.
    apply Rle_trans with (/ 2); [|lra]. change (/ 2) with (bpow radix2 (-1)). apply bpow_le. lia. }
  destruct (scale_facts g t r G Pt (total_ok_pos g t Ft ltac:(lra))) as (Fx & Hx & _). fold u in Fx, Hx.
  destruct (G r) as [Fu Hu]. fold u in Fu, Hu.
  pose proof (bpow_gt_0 radix2 (-53)) as G53.
  rewrite Bltb_correct by auto.
  assert (E : B2R (fmul u t) < B2R p <-> B2R u < B2R p).
  { destruct (Rle_or_lt 0 (B2R p)) as [P0|P0]; [|split; intros; lra].
    destruct (Rle_or_lt (B2R p) 1) as [P1|P1].
    - assert (Eu : B2R (fmul u t) = B2R u); [|rewrite Eu; reflexivity].
      pose proof (Bmult_correct 53 1024 _ _ mode_NE u t) as H. cbn [round_mode] in H. rewrite (T1 (conj P0 P1)), Rmult_1_r in H.
      rewrite (round_generic radix2 fexp64 ZnearestE (B2R u)) in H by apply generic_format_B2R.
      rewrite Rlt_bool_true in H.
      + destruct H as [H _]. exact H.
      + destruct bpow_vals as (_ & _ & _ & _ & _ & _ & B6). apply Rabs_lt. lra.
    - specialize (T2 ltac:(lra)). split; intros; lra. }
  rewrite <- E. destruct (Rlt_bool_spec (B2R (fmul u t)) (B2R p)); split; intros; auto; try discriminate; lra.
Qed.
