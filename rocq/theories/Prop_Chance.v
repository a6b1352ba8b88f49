(** * C30 for every finite probability, in doubles

    [C30_any_p_refuted] (Prop_Choice.v) shows that chance(p) fails for some huge
    p.  Here: exactly for which p it fails, and that it does what it should for
    all others. *)
From Coq Require Import ZArith Reals Lra Floats.SpecFloat.
From Flocq Require Import Core BinarySingleNaN.
From Verif Require Import Base Prims MathModel MathSpec MathProofs ChoiceModel ChoiceRun ChoiceProofs ChoiceProofs2
  ChoiceProofs3 ChoiceProofs4 RealModel NumLaws FloatModel FloatNum ChanceProofs Prop_Choice.
Open Scope R_scope.

(** The 1 gets lost: the double nearest to 1 - p is -p, so that the weights p and
    1 - p cancel. *)
Definition cancels (p : double) : Prop := rne (1 - B2R p) = - B2R p.

Lemma fmt (x : double) : generic_format radix2 fexp64 (B2R x).
Proof. apply generic_format_B2R. Qed.

(** Doubles from 2^52 on, and their roundings, are integers. *)
Lemma big_cexp x : bpow radix2 52 <= Rabs x -> (0 <= cexp radix2 fexp64 x)%Z.
Proof.
  intros H. assert (G := bpow_gt_0 radix2 52).
  pose proof (mag_ge_bpow radix2 x 53 H) as M. unfold cexp. rewrite fexp64_FLT. unfold FLT_exp. lia.
Qed.

Lemma F2R_int m e : (0 <= e)%Z -> exists z, F2R (Float radix2 m e) = IZR z.
Proof.
  intros H. exists (m * Zpower radix2 e)%Z. unfold F2R. cbn [Fnum Fexp]. rewrite mult_IZR, IZR_Zpower by auto. reflexivity.
Qed.

Lemma big_int x : generic_format radix2 fexp64 x -> bpow radix2 52 <= Rabs x -> exists z, x = IZR z.
Proof.
  intros F H. unfold generic_format in F. rewrite F. apply F2R_int. apply big_cexp. exact H.
Qed.

Lemma round_int z : exists y, rne (IZR z) = IZR y.
Proof.
  destruct (Z_le_gt_dec (cexp radix2 fexp64 (IZR z)) 0) as [L|L].
  - exists z. apply round_generic; auto with typeclass_instances.
    replace (IZR z) with (F2R (Float radix2 z 0)) by (unfold F2R; cbn [Fnum Fexp]; change (bpow radix2 0) with 1; ring).
    apply generic_format_F2R. intros _.
    replace (F2R (Float radix2 z 0)) with (IZR z); auto. unfold F2R. cbn [Fnum Fexp]. change (bpow radix2 0) with 1. ring.
  - unfold round. apply F2R_int. lia.
Qed.

#[local] Opaque bpow F2R Rlt_bool.

(** From 2^54 on the next double is at least 4 away. *)
Lemma succ_gap y : generic_format radix2 fexp64 y -> bpow radix2 54 <= y -> y + 4 <= succ radix2 fexp64 y.
Proof.
  intros F H. assert (G := bpow_gt_0 radix2 54). rewrite succ_eq_pos by lra. apply Rplus_le_compat_l.
  replace 4 with (bpow radix2 2) by reflexivity. rewrite ulp_neq_0 by lra. apply bpow_le.
  pose proof (mag_ge_bpow radix2 y 55 ltac:(rewrite Rabs_pos_eq by lra; exact H)) as M.
  unfold cexp. rewrite fexp64_FLT. unfold FLT_exp. lia.
Qed.

Lemma pred_gap z : generic_format radix2 fexp64 z -> bpow radix2 54 < z -> pred radix2 fexp64 z <= z - 4.
Proof.
  intros F H. assert (G := bpow_gt_0 radix2 54).
  set (q := pred radix2 fexp64 z).
  assert (Fq : generic_format radix2 fexp64 q) by (apply generic_format_pred; auto with typeclass_instances).
  assert (Q : bpow radix2 54 <= q).
  { apply pred_ge_gt; auto with typeclass_instances. apply generic_format_bpow. vm_compute; discriminate. }
  pose proof (succ_gap q Fq Q) as S. unfold q in S at 2. rewrite succ_pred in S; auto with typeclass_instances. lra.
Qed.

Lemma minus_ge (p : double) : - B2R p <= rne (1 - B2R p).
Proof.
  rewrite <- (round_generic radix2 fexp64 ZnearestE (- B2R p)) at 1 by (apply generic_format_opp, fmt).
  apply round_le; auto with typeclass_instances. lra.
Qed.

Lemma cancels_huge (p : double) : B2R p <= - bpow radix2 54 \/ bpow radix2 54 < B2R p -> cancels p.
Proof.
  intros H. apply Rle_antisym; [|apply minus_ge].
  assert (Fn : generic_format radix2 fexp64 (- B2R p)) by (apply generic_format_opp, fmt).
  apply round_N_le_midp; auto with typeclass_instances. destruct H as [H|H].
  - pose proof (succ_gap (- B2R p) Fn ltac:(lra)). lra.
  - pose proof (pred_gap (B2R p) (fmt p) H) as Q. rewrite succ_opp. lra.
Qed.

Lemma ulp_small y : 0 <= y < bpow radix2 53 -> ulp radix2 fexp64 y <= 1.
Proof.
  intros H. replace 1 with (bpow radix2 0) by reflexivity.
  destruct (Req_dec y 0) as [->|N].
  - rewrite fexp64_FLT, ulp_FLT_0 by reflexivity. apply bpow_le. lia.
  - rewrite ulp_neq_0 by auto. apply bpow_le. pose proof (mag_le_bpow radix2 y 53 N ltac:(rewrite Rabs_pos_eq; lra)) as M.
    unfold cexp. rewrite fexp64_FLT. unfold FLT_exp. lia.
Qed.

Lemma not_cancels (p : double) : - bpow radix2 53 < B2R p <= bpow radix2 53 -> ~ cancels p.
Proof.
  intros H C. unfold cancels in C.
  assert (Fn : generic_format radix2 fexp64 (- B2R p)) by (apply generic_format_opp, fmt).
  assert (S : succ radix2 fexp64 (- B2R p) <= 1 - B2R p).
  { destruct (Rle_or_lt (B2R p) 0) as [L|L].
    - rewrite succ_eq_pos by lra. pose proof (ulp_small (- B2R p) ltac:(lra)). lra.
    - rewrite succ_opp. set (q := pred radix2 fexp64 (B2R p)).
      assert (q + ulp radix2 fexp64 q = B2R p) by (apply pred_plus_ulp; auto with typeclass_instances; apply fmt).
      assert (0 <= q) by (apply pred_ge_0; auto with typeclass_instances; apply fmt).
      assert (q < B2R p) by (apply pred_lt_id; lra).
      pose proof (ulp_small q ltac:(lra)). lra. }
  assert (X : succ radix2 fexp64 (- B2R p) <= rne (1 - B2R p)).
  { rewrite <- (round_generic radix2 fexp64 ZnearestE (succ radix2 fexp64 (- B2R p))) at 1 by (apply generic_format_succ; auto with typeclass_instances).
    apply round_le; auto with typeclass_instances. }
  pose proof (fmt p) as Fp.
  destruct (Req_dec (B2R p) 0) as [E|N].
  - rewrite E, Rminus_0_r, rne_1 in C. lra.
  - pose proof (succ_gt_id radix2 fexp64 (- B2R p) ltac:(lra)). lra.
Qed.

(** The total of the weights. *)
Lemma total_any (p : double) : is_finite p = true ->
  let t := fadd p (fsub (fl 1 0) p) in
  is_finite t = true /\ B2R t = rne (B2R p + rne (1 - B2R p)).
Proof.
  intros Fp. destruct fl_one as [F1 E1]. destruct bpow_vals as (B0 & B1 & B2 & B3 & B4 & B5 & B6).
  set (x := B2R p). set (b := rne (1 - x)).
  assert (Hx : Rabs x < bpow radix2 1024) by apply abs_B2R_lt_emax. apply Rabs_lt_inv in Hx.
  assert (Big : bpow radix2 1024 > 8 * bpow radix2 53).
  { change 8 with (bpow radix2 3). rewrite <- bpow_plus. apply bpow_lt. reflexivity. }
  assert (Hb : - bpow radix2 1024 < b < bpow radix2 1024 /\ (0 < x -> -x <= b <= 1) /\ (x <= 0 -> 0 <= b)).
  { split; [|split].
    - split.
      + apply Rlt_le_trans with (- x); [lra|]. apply minus_ge.
      + destruct (Rle_or_lt x (- bpow radix2 54)) as [L|L].
        * unfold b, x. rewrite (cancels_huge p) by auto. fold x. lra.
        * assert (B54 : bpow radix2 54 = 2 * bpow radix2 53) by exact (bpow_plus radix2 1 53).
          apply Rle_lt_trans with (4 * bpow radix2 53); [|pose proof (bpow_gt_0 radix2 53); lra].
          change 4 with (bpow radix2 2). rewrite <- bpow_plus.
          rewrite <- (round_generic radix2 fexp64 ZnearestE (bpow radix2 (2 + 53))).
          -- apply round_le; auto with typeclass_instances. rewrite bpow_plus. change (bpow radix2 2) with 4. lra.
          -- apply generic_format_bpow. vm_compute; discriminate.
    - intros P. split; [apply minus_ge|]. unfold b. rewrite <- rne_1 at 2. apply round_le; auto with typeclass_instances. lra.
    - intros P. unfold b. rewrite <- (round_0 radix2 fexp64 ZnearestE). apply round_le; auto with typeclass_instances. lra. }
  destruct Hb as (Hb & Hpos & Hneg).
  pose proof (Bminus_correct 53 1024 _ _ mode_NE (fl 1 0) p F1 Fp) as H. rewrite E1 in H. cbn [round_mode] in H. fold x b in H.
  rewrite Rlt_bool_true in H by (apply Rabs_lt; lra). destruct H as (Eb & Fb & _).
  pose proof (Bplus_correct 53 1024 _ _ mode_NE p (fsub (fl 1 0) p) Fp Fb) as H. unfold fsub in H. rewrite Eb in H. cbn [round_mode] in H. fold x in H.
  assert (Gb : generic_format radix2 fexp64 b) by (unfold b; apply generic_format_round; auto with typeclass_instances).
  assert (T : 0 <= rne (x + b) /\ (rne (x + b) <= b \/ rne (x + b) <= x + 1 \/ rne (x + b) <= bpow radix2 1 \/ rne (x + b) <= x)).
  { split.
    - rewrite <- (round_0 radix2 fexp64 ZnearestE). apply round_le; auto with typeclass_instances.
      pose proof (minus_ge p). fold x b in H0. lra.
    - destruct (Rle_or_lt x 0) as [L|L].
      + left. rewrite <- (round_generic radix2 fexp64 ZnearestE b) at 2 by auto. apply round_le; auto with typeclass_instances. lra.
      + destruct (Rle_or_lt x 1) as [L1|L1].
        * right; right; left. rewrite <- (round_generic radix2 fexp64 ZnearestE (bpow radix2 1)).
          -- apply round_le; auto with typeclass_instances. destruct (Hpos L). rewrite B1. lra.
          -- apply generic_format_bpow. vm_compute; discriminate.
        * right; right; right. rewrite <- (round_generic radix2 fexp64 ZnearestE x) at 2 by apply fmt.
          apply round_le; auto with typeclass_instances.
          assert (b <= 0); [|lra]. unfold b. rewrite <- (round_0 radix2 fexp64 ZnearestE). apply round_le; auto with typeclass_instances. lra. }
  assert (T' : rne (x + b) < bpow radix2 1024).
  { destruct (proj2 T) as [X|[X|[X|X]]]; try lra.
    destruct (Rle_or_lt x 1); try lra.
    destruct (Hpos ltac:(lra)).
    apply Rle_lt_trans with x; [|lra].
    rewrite <- (round_generic radix2 fexp64 ZnearestE x) at 2 by apply fmt.
    apply round_le; auto with typeclass_instances.
    assert (b <= 0); [|lra]. unfold b. rewrite <- (round_0 radix2 fexp64 ZnearestE). apply round_le; auto with typeclass_instances. lra. }
  rewrite Rlt_bool_true in H by (apply Rabs_lt; lra). destruct H as (Ht & Ft & _).
  cbn zeta. unfold fadd, fsub. split; auto.
Qed.

Lemma total_not_cancelled (p : double) : is_finite p = true -> ~ cancels p -> bpow radix2 52 < Rabs (B2R p) ->
  let t := fadd p (fsub (fl 1 0) p) in
  is_finite t = true /\ 1 <= B2R t /\ (1 <= B2R p -> B2R t <= B2R p).
Proof.
  intros Fp NC Hp. destruct (total_any p Fp) as [Ft Et]. cbn zeta. split; auto.
  rewrite Et. set (x := B2R p) in *. pose proof (minus_ge p) as M. fold x in M.
  destruct (big_int x (fmt p) ltac:(lra)) as (z & Ez).
  destruct (round_int (1 - z)) as (y & Ey). rewrite minus_IZR, <- Ez in Ey. rewrite Ey in *.
  assert (N : IZR y <> - x) by (intros E; apply NC; unfold cancels; fold x; rewrite Ey; exact E).
  rewrite Ez in M, N. rewrite <- opp_IZR in M, N. apply le_IZR in M. assert (y <> - z)%Z by congruence.
  split.
  - rewrite <- rne_1 at 1. apply round_le; auto with typeclass_instances. rewrite Ez, <- plus_IZR. apply IZR_le. lia.
  - intros H1. rewrite <- (round_generic radix2 fexp64 ZnearestE x) at 2 by apply fmt.
    apply round_le; auto with typeclass_instances. rewrite <- Ey.
    assert (rne (1 - x) <= 0); [|lra]. rewrite <- (round_0 radix2 fexp64 ZnearestE). apply round_le; auto with typeclass_instances. lra.
Qed.

Lemma draw_any g p r : fgen_ok g -> is_finite p = true -> ~ cancels p ->
  let u := fst (f_random g r) in
  Bltb (fmul u (fadd p (fsub (fl 1 0) p))) p = true <-> B2R u < B2R p.
Proof.
  intros G Fp NC. destruct (Rle_or_lt (Rabs (B2R p)) (bpow radix2 52)) as [L|L]; [apply fchance_draw; auto|].
  intros u. destruct (total_not_cancelled p Fp NC L) as (Ft & T1 & T2).
  set (t := fadd p (fsub (fl 1 0) p)) in *.
  assert (Pt : plain_weight t).
  { destruct t as [s|s| |s m e B]; try discriminate; cbn [plain_weight]; auto.
    apply Rle_trans with 1; [|lra]. change 1 with (bpow radix2 0). apply bpow_le. lia. }
  destruct (scale_facts g t r G Pt (total_ok_pos g t Ft ltac:(lra))) as (Fx & Hx & _). fold u in Fx, Hx.
  destruct (G r) as [Fu Hu]. fold u in Fu, Hu.
  pose proof (bpow_gt_0 radix2 (-53)) as G53. destruct bpow_vals as (_ & _ & _ & _ & B4 & _ & _).
  rewrite Bltb_correct by auto.
  assert (E : B2R (fmul u t) < B2R p <-> B2R u < B2R p).
  { destruct (Rle_or_lt 0 (B2R p)) as [P0|P0]; [|split; intros; lra].
    rewrite Rabs_pos_eq in L by lra. specialize (T2 ltac:(lra)). split; intros; lra. }
  rewrite <- E. destruct (Rlt_bool_spec (B2R (fmul u t)) (B2R p)); split; intros; auto; try discriminate; lra.
Qed.

(** C30.  For every finite p, and every request after any others: if p cancels,
    ValueError; if not, the answers are "is the draw below p". *)
Theorem C30_exact :
  forall (g : fgen) setsize fuel (p : double) seed ent, fgen_ok g -> is_finite p = true ->
  exists c0, chance (FP g) fuel p seed ent = Ok c0 /\
  forall reqs req, let c := snd (do_asks (FP g) setsize fuel reqs c0) in
  (cancels p -> fst (do_ask (FP g) setsize fuel req c) = Raise ValueError) /\
  (~ cancels p ->
   exists us l, fst (do_ask (FP g) setsize fuel req c) = Ok l /\
    draws (FP g) (Z.to_nat (ask_size req)) (c_rng c) = (us, c_rng (snd (do_ask (FP g) setsize fuel req c))) /\
    Forall2 (fun (u : double) b => b = true <-> B2R u < B2R p) us l /\
    (B2R p <= 0 -> Forall (fun b => b = false) l) /\
    (1 <= B2R p -> Forall (fun b => b = true) l)).
Proof.
  intros g setsize fuel p seed ent G Fp. eexists. split; [apply chance_new|]. intros reqs req c.
  destruct (total_any p Fp) as [Ft Et]. split.
  - intros C. unfold cancels in C. rewrite C, Rplus_opp_r, round_0 in Et by auto with typeclass_instances.
    destruct (do_asks_only_rng (FP g) fuel setsize reqs (mkChoice (P := FP g) [true; false] (Some [p; w_sub (FP g) (w_one (FP g)) p]) (Some [p; w_add (FP g) p (w_sub (FP g) (w_one (FP g)) p)])
          true false 2 [] None seed (rng_for (FP g) seed ent)) eq_refl) as (r & E).
    match type of E with _ = ?y => change (c = y) in E end. clearbody c. subst c. unfold set_rng. cbn [c_items c_weights c_cum c_replace c_roac c_nui c_shuffled c_sidx c_seed].
    assert (Bad : w_total_ok (FP g) (w_add (FP g) p (w_sub (FP g) (w_one (FP g)) p)) = false).
    { cbn [FP w_total_ok w_add w_sub w_one]. rewrite Bleb_correct by auto. rewrite Et.
      change (B2R fzero) with 0. rewrite Rle_bool_true by lra. reflexivity. }
    clear - Bad. set (t := w_add (FP g) p (w_sub (FP g) (w_one (FP g)) p)) in *. clearbody t.
    set (v := w_sub (FP g) (w_one (FP g)) p). clearbody v.
    assert (W : forall n (c : choice (FP g)), c_items c = [true; false] -> c_weights c <> None -> c_cum c = Some [p; t] ->
      choice_with_replacement (FP g) n c = (Raise ValueError, c)).
    { intros n [its ws cum rep roac nui sh si sd rg]. cbn. intros -> Nw ->. unfold choice_with_replacement, mbind, get.
      cbn [c_items c_weights c_cum]. change (zlen [true; false] =? 1)%Z with false. cbn iota.
      destruct ws as [ws|]; [|elim Nw; reflexivity]. unfold on_rng, choices_cum. cbn [length Nat.eqb negb rev app c_rng].
      rewrite Bad. reflexivity. }
    match goal with |- fst (do_ask _ _ _ _ ?c) = _ => set (c1 := c) end.
    assert (W1 : forall n, choice_with_replacement (FP g) n c1 = (Raise ValueError, c1)).
    { intros n. apply W; try reflexivity. intros X. discriminate X. }
    assert (W2 : choice_emit (FP g) setsize fuel c1 = (Raise ValueError, c1)).
    { change (choice_emit (FP g) setsize fuel c1) with ((l <~ choice_with_replacement (FP g) 1 ;; lift (list_get l 0)) c1).
      unfold mbind. rewrite W1. reflexivity. }
    assert (W3 : forall n, choice_emit_many (FP g) setsize fuel n c1 = (Raise ValueError, c1)).
    { intros n. exact (W1 n). }
    destruct req as [|n| |n]; cbn [do_ask]; unfold choice_call, choice_call_n.
    + unfold mbind. rewrite W2. reflexivity.
    + destruct (n =? 1)%Z; [unfold mbind; rewrite W2|rewrite W3]; reflexivity.
    + unfold mbind. rewrite W2. reflexivity.
    + rewrite W3. reflexivity.
  - intros NC. rename Et into Et0.
    assert (Pos : 0 < B2R (fadd p (fsub (fl 1 0) p))).
    { destruct (Rle_or_lt (Rabs (B2R p)) (bpow radix2 52)) as [L|L].
      - destruct (fchance_total p Fp L) as (_ & T & _). lra.
      - destruct (total_not_cancelled p Fp NC L) as (_ & T & _). lra. }
    destruct (chance_ask (FP g) setsize fuel p seed ent _ reqs req (chance_new _ _ _ _ _)) as (us & l & H1 & H2 & H3).
    { apply total_ok_pos; [exact Ft|]. exact Pos. }
    fold c in H1, H2. exists us, l. split; auto. split; auto.
    assert (U : Forall (fun u : double => exists r, u = fst (f_random g r)) us).
    { apply Forall_forall. intros u Hu. apply (draws_from_state (FP g) (Z.to_nat (ask_size req)) (c_rng c)). rewrite H2. exact Hu. }
    assert (H4 : Forall2 (fun (u : double) b => b = true <-> (B2R u < B2R p)%R) us l).
    { clear H1 H2. clear c. induction H3 as [|u b us l Hb _ IH]; constructor; inversion U; subst; auto.
      destruct H1 as (r & ->). apply (draw_any g p r G Fp NC). }
    split; auto. clear H1 H2 H3. clear c.
    assert (U' : Forall (fun u : double => 0 <= B2R u < 1)%R us).
    { eapply Forall_impl; [|exact U]. intros u (r & ->). destruct (G r) as [_ H]. pose proof (bpow_gt_0 radix2 (-53)). lra. }
    clear U.
    split; intros Hq; revert U'; induction H4 as [|u b us l Hb _ IH]; intros U'; inversion U'; subst; constructor; auto.
    + destruct b; auto. pose proof (proj1 Hb eq_refl). lra.
    + apply Hb. lra.
Qed.
Print Assumptions C30_exact.

(** Which p cancel: all up to -2^54, all beyond 2^54, and none between -2^53 and
    2^53.  (Between them it depends on the last bit: [C30_exact_between].) *)
Theorem C30_cancels : forall p : double,
  (B2R p <= - bpow radix2 54 \/ bpow radix2 54 < B2R p -> cancels p) /\
  (- bpow radix2 53 < B2R p <= bpow radix2 53 -> ~ cancels p).
Proof. intros p. split; [apply cancels_huge|apply not_cancels]. Qed.
Print Assumptions C30_cancels.

#[local] Transparent F2R.
(** Both occur: p = 3/4 does not cancel, p = 2^60 does. *)
Example C30_exact_case : ~ cancels (fl 3 (-2)) /\ cancels (fl 1 60) /\
  is_finite (fl 3 (-2)) = true /\ is_finite (fl 1 60) = true /\ fgen_ok fdemo.
Proof.
  split; [|split; [|repeat split; try reflexivity; apply fdemo_ok]].
  - apply not_cancels. change (B2R (fl 3 (-2))) with (F2R (Float radix2 6755399441055744 (-53))).
    assert (E : F2R (Float radix2 6755399441055744 (-53)) = 3 * bpow radix2 (-2)).
    { unfold F2R. cbn [Fnum Fexp]. change 6755399441055744%Z with (3 * Zpower radix2 51)%Z.
      rewrite mult_IZR, IZR_Zpower by lia. rewrite Rmult_assoc, <- bpow_plus. reflexivity. }
    rewrite E. change (bpow radix2 (-2)) with (/ 4).
    assert (bpow radix2 3 <= bpow radix2 53) by (apply bpow_le; lia). change (bpow radix2 3) with 8 in H. lra.
  - apply cancels_huge. right. change (B2R (fl 1 60)) with (F2R (Float radix2 (2 ^ 52) 8)).
    unfold F2R. cbn [Fnum Fexp]. change (2 ^ 52)%Z with (Zpower radix2 52). rewrite IZR_Zpower by lia.
    rewrite <- bpow_plus. apply bpow_lt. lia.
Qed.

(** Between 2^53 and 2^54 it depends on the last bit: 2^53 + 2 and 2^53 + 4. *)
Example C30_exact_between :
  match chance (FP fdemo) 0%nat (fl (2 ^ 53 + 2) 0) None 0%nat, chance (FP fdemo) 0%nat (fl (2 ^ 53 + 4) 0) None 0%nat with
  | Ok c1, Ok c2 => fst (do_ask (FP fdemo) (fun _ => Ok 2%Z) 0 (CallN 2) c1) = Ok [true; true] /\
                    fst (do_ask (FP fdemo) (fun _ => Ok 2%Z) 0 (CallN 2) c2) = Raise ValueError
  | _, _ => False
  end.
Proof. vm_compute. split; reflexivity. Qed.
