(** * Lemmas about the exact instance: scores are log(u)/w, weighted draws
    partition the unit interval. *)
From Verif Require Import Base Prims MathModel MathSpec MathProofs NumLaws QcNum NumSpec ChoiceModel.
From Coq Require Import QArith Qpower Qcanon Qreals Reals Lra Permutation Sorting.Sorted.
Open Scope Z_scope.

Lemma Q2R_pow_pos q p : Q2R (Qpower_positive q p) = (Q2R q ^ Pos.to_nat p)%R.
Proof.
  induction p using Pos.peano_ind.
  - change (Qpower_positive q 1) with q. change (Pos.to_nat 1) with 1%nat. cbn [pow]. ring.
  - rewrite Pos2Nat.inj_succ. cbn [pow]. rewrite <- IHp, <- Q2R_mult. apply Qeq_eqR.
    rewrite <- Pos.add_1_l, Qpower_plus_positive. reflexivity.
Qed.

Lemma Q2R_power q z : (0 < q)%Q -> Q2R (Qpower q z) = Rpower (Q2R q) (IZR z).
Proof.
  intros Hq. assert (HR : (0 < Q2R q)%R) by (rewrite <- RMicromega.Q2R_0; apply Qlt_Rlt; auto).
  rewrite <- powerRZ_Rpower by auto. destruct z as [|p|p]; cbn [Qpower powerRZ].
  - apply RMicromega.Q2R_1.
  - apply Q2R_pow_pos.
  - rewrite Q2R_inv; [f_equal; apply Q2R_pow_pos|].
    intros E. apply Qeq_eqR in E. rewrite Q2R_pow_pos, RMicromega.Q2R_0 in E.
    apply pow_nonzero in E; auto. lra.
Qed.

Lemma qle_bool_ln x y a b : (0 < x)%Q -> (0 < y)%Q ->
  negb (Qle_bool (Qpower y b) (Qpower x a)) = true <->
  (IZR a * ln (Q2R x) < IZR b * ln (Q2R y))%R.
Proof.
  intros Hx Hy. rewrite negb_true_iff, <- not_true_iff_false, Qle_bool_iff.
  assert (E : ~ (Qpower y b <= Qpower x a)%Q <-> (Rpower (Q2R x) (IZR a) < Rpower (Q2R y) (IZR b))%R).
  { rewrite <- !Q2R_power by auto. split; intros H.
    - apply Qlt_Rlt. apply Qnot_le_lt. auto.
    - intros C. apply Qle_Rle in C. lra. }
  rewrite E. unfold Rpower. split; intros H; [apply exp_lt_inv; auto|apply exp_increasing; auto].
Qed.

Lemma score_ltb_ln u1 w1 u2 w2 :
  (0 < u1)%Qc -> (0 < u2)%Qc -> w1 <> 0%Qc -> w2 <> 0%Qc ->
  score_ltb (u1, w1) (u2, w2) = true <->
  (ln (QcR u1) / QcR w1 < ln (QcR u2) / QcR w2)%R.
Proof.
  intros H1 H2 N1 N2. unfold QcR. unfold score_ltb.
  unfold Qclt in H1, H2. change (this 0%Qc) with 0%Q in *.
  set (a := ln (Q2R u1)). set (b := ln (Q2R u2)).
  set (n1 := Qnum w1). set (n2 := Qnum w2). set (d1 := Z.pos (Qden w1)). set (d2 := Z.pos (Qden w2)).
  assert (D1 : (0 < IZR d1)%R) by (apply (IZR_lt 0); reflexivity).
  assert (D2 : (0 < IZR d2)%R) by (apply (IZR_lt 0); reflexivity).
  assert (E1 : Q2R w1 = (IZR n1 / IZR d1)%R) by reflexivity.
  assert (E2 : Q2R w2 = (IZR n2 / IZR d2)%R) by reflexivity.
  assert (Z1 : n1 <> 0).
  { intros C. apply N1. apply Qc_is_canon. change (this 0%Qc) with 0%Q. unfold Qeq. fold n1. rewrite C. reflexivity. }
  assert (Z2 : n2 <> 0).
  { intros C. apply N2. apply Qc_is_canon. change (this 0%Qc) with 0%Q. unfold Qeq. fold n2. rewrite C. reflexivity. }
  rewrite E1, E2.
  assert (R1 : IZR n1 <> 0%R) by (intros C; apply Z1; apply eq_IZR; auto).
  assert (R2 : IZR n2 <> 0%R) by (intros C; apply Z2; apply eq_IZR; auto).
  (* difference of the two scores, cleared of denominators *)
  assert (K : (b / (IZR n2 / IZR d2) - a / (IZR n1 / IZR d1)
             = (IZR (n1 * d2) * b - IZR (n2 * d1) * a) / (IZR n1 * IZR n2))%R).
  { rewrite !mult_IZR. field. repeat split; lra. }
  assert (P : ((0 <? n1) && (0 <? n2) || (n1 <? 0) && (n2 <? 0) = true /\ (0 < IZR n1 * IZR n2)%R) \/
              ((0 <? n1) && (0 <? n2) || (n1 <? 0) && (n2 <? 0) = false /\ (IZR n1 * IZR n2 < 0)%R)).
  { rewrite <- mult_IZR.
    destruct (Z.ltb_spec 0 n1), (Z.ltb_spec 0 n2), (Z.ltb_spec n1 0), (Z.ltb_spec n2 0); cbn; try lia;
      [left|right|right|left]; (split; [reflexivity|]); (apply (IZR_lt 0) || apply (IZR_lt _ 0)); nia. }
  destruct P as [[-> P]|[-> P]].
  - rewrite qle_bool_ln by auto. fold a b. split; intros H.
    + assert (0 < (IZR (n1 * d2) * b - IZR (n2 * d1) * a) / (IZR n1 * IZR n2))%R by (apply Rdiv_lt_0_compat; lra). lra.
    + assert (Q : (0 < (IZR (n1 * d2) * b - IZR (n2 * d1) * a) / (IZR n1 * IZR n2))%R) by lra.
      apply Rmult_lt_compat_r with (r := (IZR n1 * IZR n2)%R) in Q; auto.
      unfold Rdiv in Q. rewrite Rmult_assoc, Rinv_l in Q; lra.
  - rewrite qle_bool_ln by auto. fold a b. split; intros H.
    + assert (0 < (IZR (n2 * d1) * a - IZR (n1 * d2) * b) / - (IZR n1 * IZR n2))%R by (apply Rdiv_lt_0_compat; lra).
      replace ((IZR (n2 * d1) * a - IZR (n1 * d2) * b) / - (IZR n1 * IZR n2))%R
        with ((IZR (n1 * d2) * b - IZR (n2 * d1) * a) / (IZR n1 * IZR n2))%R in H0 by (field; split; auto). lra.
    + assert (Q : (0 < (IZR (n1 * d2) * b - IZR (n2 * d1) * a) / (IZR n1 * IZR n2))%R) by lra.
      apply Rmult_lt_compat_r with (r := (- (IZR n1 * IZR n2))%R) in Q; [|lra].
      replace ((IZR (n1 * d2) * b - IZR (n2 * d1) * a) / (IZR n1 * IZR n2) * - (IZR n1 * IZR n2))%R
        with (- (IZR (n1 * d2) * b - IZR (n2 * d1) * a))%R in Q by (field; split; auto). lra.
Qed.

Definition good_key (k : Qc * Qc) : Prop := (0 < fst k)%Qc /\ snd k <> 0%Qc.
Definition key_value (k : Qc * Qc) : R := (ln (QcR (fst k)) / QcR (snd k))%R.

Lemma score_ltb_value a b : good_key a -> good_key b ->
  (score_ltb a b = true <-> (key_value a < key_value b)%R).
Proof. destruct a, b. intros [H1 H2] [H3 H4]. apply score_ltb_ln; auto. Qed.

Lemma score_ltb_value_false a b : good_key a -> good_key b ->
  (score_ltb a b = false <-> (key_value b <= key_value a)%R).
Proof.
  intros Ha Hb. pose proof (score_ltb_value a b Ha Hb) as H.
  destruct (score_ltb a b); split; intros; try discriminate; auto.
  - destruct H as [H _]. specialize (H eq_refl). lra.
  - destruct H as [_ H]. destruct (Rle_or_lt (key_value b) (key_value a)); auto. specialize (H H1). discriminate.
Qed.

Lemma qc_score_ok u w s : qc_score u w = Ok s -> s = (u, w) /\ good_key s.
Proof.
  unfold qc_score. destruct (Qle_bool u 0) eqn:E1; [discriminate|].
  destruct (Qeq_bool w 0) eqn:E2; [discriminate|]. intros H; injection H as <-.
  split; auto. split; cbn [fst snd].
  - apply qc_ltb_lt. unfold qc_ltb. change (this 0%Qc) with 0%Q. rewrite E1. reflexivity.
  - apply qc_true_iff. rewrite E2. reflexivity.
Qed.

Section W.
  Context (g : qgen).
  Notation P := (QP g).

  (** Keys produced in the sorting branch. *)
  Lemma scores_keys us ws ss :
    length us = length ws ->
    Forall2 (fun uw s => k_score P (fst uw) (snd uw) = Ok s) (combine us ws) ss ->
    ss = combine us ws /\ Forall good_key ss.
  Proof.
    intros _ H. induction H as [|[u w] s l ss H1 H2 [IH1 IH2]]; auto.
    apply qc_score_ok in H1 as [-> G]. subst. split; auto.
  Qed.

  Lemma sorted_positions us ws :
    length us = length ws -> Forall good_key (combine us ws) ->
    StronglySorted (ranks_before us ws) (map snd (sort_desc P (tagged P (combine us ws) 0))).
  Proof.
    intros HL HG.
    assert (S : StronglySorted (beats P) (sort_desc P (tagged P (combine us ws) 0))).
    { apply (tagged_sorted P good_key); auto.
      - intros a b Ha Hb H. apply score_ltb_value in H; auto. apply score_ltb_value_false; auto. lra.
      - intros a b c Ha Hb Hc H1 H2. apply score_ltb_value_false in H1, H2; auto. apply score_ltb_value_false; auto. lra. }
    assert (M : forall x, In x (sort_desc P (tagged P (combine us ws) 0)) ->
              fst x = (nth (snd x) us 0%Qc, nth (snd x) ws 0%Qc) /\ good_key (fst x)).
    { intros x Hx. apply (Permutation_in _ (sort_desc_perm P _)) in Hx. destruct x as [k i].
      unfold tagged in Hx. apply (In_nth _ _ (k, i)) in Hx as (n & Hn & E).
      rewrite combine_length, seq_length, Nat.min_id in Hn.
      rewrite combine_nth in E by (rewrite seq_length; auto).
      rewrite seq_nth in E by auto. injection E as E1 E2. cbn [Nat.add] in E2. subst n.
      assert (HK : k = nth i (combine us ws) (0%Qc, 0%Qc)).
      { rewrite <- E1. apply nth_indep. auto. }
      rewrite combine_nth in HK by auto. cbn [fst snd]. split; auto.
      rewrite Forall_forall in HG. apply HG. rewrite HK, <- combine_nth by auto. apply nth_In. auto. }
    induction S as [|x l S IH HF]; cbn; constructor.
    - apply IH. intros; apply M; right; auto.
    - rewrite Forall_forall in *. intros j Hj. apply in_map_iff in Hj as (y & <- & Hy).
      destruct (HF y Hy) as [B1 B2]. destruct (M x (or_introl eq_refl)) as [Mx Gx].
      destruct (M y (or_intror Hy)) as [My Gy].
      cbn [QP k_lt] in B1, B2. apply score_ltb_value_false in B1; auto.
      destruct x as [kx ix], y as [ky iy]. cbn [fst snd] in *. subst kx ky.
      unfold key_value in B1. cbn [fst snd] in B1. unfold ranks_before. cbv zeta.
      destruct (Rle_lt_or_eq_dec _ _ B1) as [C|C]; auto. right. split; auto.
      apply B2. apply score_ltb_value_false; auto. unfold key_value. cbn [fst snd]. lra.
  Qed.

  (** ** Intervals *)
  Lemma accumulate_from_prefix (s : Qc) (l : list Qc) i : (i < length l)%nat ->
    nth i (accumulate_from P s l) 0%Qc = (s + qsum (firstn (S i) l))%Qc.
  Proof.
    revert s i. induction l as [|w l IH]; intros s i H; [cbn in H; lia|].
    destruct i as [|i].
    - change (@eq Qc (s + w) (s + (w + 0)))%Qc. ring.
    - change (nth i (accumulate_from P (s + w)%Qc l) 0%Qc = (s + (w + qsum (firstn (S i) l)))%Qc).
      rewrite IH by (cbn in H; lia).
      change (@eq Qc (s + w + qsum (firstn (S i) l)) (s + (w + qsum (firstn (S i) l))))%Qc. ring.
  Qed.

  Lemma accumulate_prefix (l : list Qc) i : (i < length l)%nat ->
    nth i (accumulate P l) 0%Qc = qsum (firstn (S i) l).
  Proof.
    destruct l as [|w l]; intros H; [cbn in H; lia|].
    destruct i as [|i].
    - change (@eq Qc w (w + 0))%Qc. ring.
    - change (nth i (accumulate_from P w l) 0%Qc = (w + qsum (firstn (S i) l))%Qc).
      apply accumulate_from_prefix. cbn in H. lia.
  Qed.

  Lemma qsum_firstn_S l i : (i < length l)%nat -> qsum (firstn (S i) l) = (qsum (firstn i l) + nth i l 0)%Qc.
  Proof.
    revert i. induction l as [|w l IH]; intros i H; [cbn in H; lia|]. destruct i as [|i].
    - cbn. ring.
    - change (w + qsum (firstn (S i) l) = w + qsum (firstn i l) + nth i l 0)%Qc.
      rewrite IH by (cbn in H; lia). ring.
  Qed.

  Lemma qsum_mono l i j : Forall (fun w => (0 <= w)%Qc) l -> (i <= j)%nat ->
    (qsum (firstn i l) <= qsum (firstn j l))%Qc.
  Proof.
    intros Hl. induction 1 as [|j Hj IH]; [apply Qcle_refl|].
    eapply Qcle_trans; [exact IH|].
    destruct (Nat.lt_ge_cases j (length l)) as [H|H].
    - rewrite qsum_firstn_S by auto.
      replace (qsum (firstn j l)) with (qsum (firstn j l) + 0)%Qc at 1 by ring.
      apply Qcplus_le_compat; [apply Qcle_refl|]. rewrite Forall_forall in Hl. apply Hl, nth_In; auto.
    - rewrite !firstn_all2 by lia. apply Qcle_refl.
  Qed.

  (** Binary search in the running sums finds the interval that contains x. *)
  Lemma bisect_interval (ws : list Qc) (x : Qc) :
    ws <> [] -> Forall (fun w => (0 <= w)%Qc) ws -> (0 <= x)%Qc -> (x < qsum ws)%Qc ->
    let cum := accumulate P ws in
    let i := bisect_right P (length cum) cum x 0 (length ws - 1) in
    (i < length ws)%nat /\ (qsum (firstn i ws) <= x)%Qc /\ (x < qsum (firstn (S i) ws))%Qc.
  Proof.
    intros Hne Hw H0 H1 cum i.
    assert (Hn : (0 < length ws)%nat) by (destruct ws; cbn; [congruence|lia]).
    assert (HL : length cum = length ws) by apply accumulate_length'.
    destruct (bisect_post P (length cum) cum x 0 (length ws - 1) ltac:(lia) ltac:(lia)) as (B1 & B2 & B3).
    fold i in B1, B2, B3. split; [lia|]. cbn [QP w_lt w_zero] in B2, B3. split.
    - destruct B3 as [->|B3]; [exact H0|].
      destruct (Nat.eq_dec i 0) as [->|Hi]; [exact H0|].
      apply qc_ltb_ge in B3. unfold cum in B3. rewrite accumulate_prefix in B3 by lia.
      replace (S (i - 1)) with i in B3 by lia. exact B3.
    - destruct B2 as [E|B2].
      + rewrite firstn_all2 by lia. exact H1.
      + apply qc_ltb_lt in B2. unfold cum in B2. rewrite accumulate_prefix in B2 by lia. exact B2.
  Qed.

  (** The interval is unique. *)
  Lemma interval_unique ws x i j :
    Forall (fun w => (0 <= w)%Qc) ws ->
    (qsum (firstn i ws) <= x)%Qc -> (x < qsum (firstn (S i) ws))%Qc ->
    (qsum (firstn j ws) <= x)%Qc -> (x < qsum (firstn (S j) ws))%Qc -> i = j.
  Proof.
    intros Hw A1 A2 B1 B2. destruct (lt_eq_lt_dec i j) as [[H|H]|H]; auto; exfalso.
    - pose proof (qsum_mono ws (S i) j Hw ltac:(lia)) as M.
      apply (Qclt_not_le _ _ A2). eapply Qcle_trans; eauto.
    - pose proof (qsum_mono ws (S j) i Hw ltac:(lia)) as M.
      apply (Qclt_not_le _ _ B2). eapply Qcle_trans; eauto.
  Qed.

  Lemma accumulate_last (ws : list Qc) : ws <> [] -> exists q, rev (accumulate P ws) = qsum ws :: q.
  Proof.
    intros Hne. destruct (rev (accumulate P ws)) as [|t q] eqn:E.
    - apply (f_equal (@length _)) in E. rewrite rev_length, accumulate_length' in E. destruct ws; [congruence|discriminate].
    - destruct (@rev_last (pW P) (accumulate P ws) t q 0%Qc E) as [H _].
      rewrite accumulate_length' in H. change (@length (pW P) ws) with (@length Qc ws) in H.
      assert (Hn : (0 < length ws)%nat) by (destruct ws; cbn; [congruence|lia]).
      rewrite accumulate_prefix in H by lia. rewrite firstn_all2 in H by lia. exists q. rewrite H. reflexivity.
  Qed.

  (** ** The low-k loop with positive weights returns *)
  Lemma qsum_pos_in l w : Forall (fun w => (0 <= w)%Qc) l -> In w l -> (0 < w)%Qc -> (0 < qsum l)%Qc.
  Proof.
    induction 1 as [|v l Hv Hl IH]; [intros []|]. intros [->|Hin] Hw; cbn [qsum fold_right]; fold (qsum l).
    - assert (0 <= qsum l)%Qc.
      { clear - Hl. induction Hl; [apply Qcle_refl|]. cbn. replace 0%Qc with (0 + 0)%Qc by ring. apply Qcplus_le_compat; auto. }
      replace 0%Qc with (0 + 0)%Qc by ring. apply Qclt_le_trans with (w + 0)%Qc.
      + replace (0 + 0)%Qc with 0%Qc by ring. replace (w + 0)%Qc with w by ring. auto.
      + apply Qcplus_le_compat; auto. apply Qcle_refl.
    - specialize (IH Hin Hw). replace 0%Qc with (0 + 0)%Qc by ring. apply Qclt_le_trans with (0 + qsum l)%Qc.
      + replace (0 + 0)%Qc with 0%Qc by ring. replace (0 + qsum l)%Qc with (qsum l) by ring. auto.
      + apply Qcplus_le_compat; auto. apply Qcle_refl.
  Qed.

  (** Number of zero entries. *)
  Definition zeros (l : list Qc) : nat := length (filter (fun w : Qc => Qeq_bool w 0) l).

  Lemma zeros_le l : (zeros l <= length l)%nat.
  Proof. unfold zeros. induction l as [|w l IH]; cbn; [lia|]. destruct (Qeq_bool w 0); cbn; lia. Qed.

  Lemma zeros_upd l i : (zeros (upd i 0%Qc l) <= S (zeros l))%nat.
  Proof.
    unfold zeros. revert i. induction l as [|w l IH]; intros [|i]; cbn [upd filter]; try (cbn; lia).
    - change (Qeq_bool 0%Qc 0) with true. cbn [length]. destruct (Qeq_bool w 0); cbn [length]; lia.
    - specialize (IH i). destruct (Qeq_bool w 0); cbn [length]; lia.
  Qed.

  Lemma some_positive l : Forall (fun w => (0 <= w)%Qc) l -> (zeros l < length l)%nat -> (0 < qsum l)%Qc.
  Proof.
    intros Hl Hz. assert (E : exists w, In w l /\ (0 < w)%Qc).
    { unfold zeros in Hz. induction Hl as [|w l Hw Hl IH]; cbn in *; [lia|].
      destruct (Qeq_bool w 0) eqn:E.
      - cbn in Hz. destruct IH as (v & H1 & H2); [lia|]. eauto.
      - exists w. split; auto. destruct (Qcle_lt_or_eq _ _ Hw) as [H|H]; auto. subst w. discriminate. }
    destruct E as (w & H1 & H2). eapply qsum_pos_in; eauto.
  Qed.

  Lemma take_new_zeros {A} (items : list A) pos (ws ws' : list Qc) sample sample' :
    take_new P items pos ws sample = Ok (ws', sample') ->
    (zeros ws <= length sample)%nat -> (zeros ws' <= length sample')%nat.
  Proof.
    revert ws sample. induction pos as [|i pos IH]; intros ws sample H Hz; cbn [take_new] in H.
    - injection H as <- <-. auto.
    - change (pW P) with Qc in H. destruct (nth_error ws i) as [w|] eqn:E; [|discriminate].
      destruct (w_true P w).
      + destruct (nth_error items i) as [a|]; [|discriminate].
        apply IH in H; auto. rewrite app_length. cbn [length]. cbn [QP w_zero].
        pose proof (zeros_upd ws i). lia.
      + apply IH in H; auto.
  Qed.

  Lemma low_k_loop_returns {A} fuel (items : list A) (ws : list Qc) sample k r :
    qgen_ok g ->
    length ws = length items -> Forall (fun w => (0 <= w)%Qc) ws -> ws <> [] ->
    (zeros ws <= length sample)%nat -> k <= zlen items ->
    zlen sample <= k -> k - zlen sample < Z.of_nat fuel ->
    exists out r', low_k_loop P fuel items ws sample k r = (Ok out, r').
  Proof.
    intros G HL Ha Hne Hz Hkn Hk Hf.
    destruct (low_k_terminates P _ _ (qc_laws g G) fuel items ws sample k r HL Ha Hne Hk Hf) as [H|(r' & H)]; auto.
    exfalso. revert ws sample r HL Ha Hne Hz Hk Hf H.
    induction fuel as [|f IH]; intros ws sample r HL Ha Hne Hz Hk Hf H; [discriminate|].
    cbn [low_k_loop] in H. destruct (Z.eqb_spec (k - zlen sample) 0) as [E|E]; [discriminate|].
    unfold mbind, lift in H.
    destruct (accumulate_last ws Hne) as (q & Hq).
    assert (Hpos : (0 < qsum ws)%Qc).
    { apply some_positive; auto. unfold zlen in *. rewrite HL. lia. }
    rewrite <- HL in H.
    change (@length Qc ws) with (@length (pW P) ws) in H.
    destruct (round_choices P _ _ (qc_laws g G) ws (k - zlen sample) r Ha Hne) as [(r1 & E1)|(pos & r1 & E1 & Hlen & Hpos')].
    { unfold choices_cum in E1. rewrite accumulate_length', Nat.eqb_refl in E1. cbn [negb] in E1.
      rewrite Hq in E1. cbn [QP w_total_ok] in E1.
      apply qc_total_iff in Hpos. rewrite Hpos in E1. cbn [negb] in E1.
      destruct (draws _ _ _) in E1. discriminate. }
    rewrite E1 in H.
    assert (Hb : Forall (fun i => (i < length ws)%nat) pos).
    { eapply Forall_impl; [|exact Hpos']. intros i [Hi _]. exact Hi. }
    destruct (take_new_total P _ _ (qc_laws g G) items pos ws sample HL Hb) as (ws' & s' & Ht & Hl & Hacc & Hs).
    rewrite Ht in H. cbn [fst snd] in H.
    assert (Hgrow : (length sample < length s')%nat).
    { destruct pos as [|i pos]; [cbn in Hlen; lia|].
      cbn [take_new] in Ht. inversion Hpos' as [|? ? [P1 P2] P3]; subst.
      assert (Hi := @nth_error_nth' (pW P) ws i (w_zero P) P1). rewrite Hi, P2 in Ht.
      destruct (nth_error items i) as [a|] eqn:Ea; [|discriminate].
      destruct (take_new_total P _ _ (qc_laws g G) items pos (upd i (w_zero P) ws) (sample ++ [a])) as (ws2 & s2 & Ht2 & _ & _ & Hs2).
      { rewrite upd_length; auto. } { rewrite upd_length. inversion Hb; auto. }
      rewrite Ht2 in Ht. injection Ht as <- <-. rewrite app_length in Hs2. cbn in Hs2. lia. }
    apply IH in H; auto; unfold zlen in *; try lia.
    - change (@length Qc ws') with (@length (pW P) ws'). rewrite Hl. exact HL.
    - intros ->. destruct ws; [congruence|discriminate].
    - eapply take_new_zeros; eauto.
  Qed.

  (** The sorting branch fails only on a draw of exactly 0. *)
  Lemma scores_total {A} (ws : list Qc) (items : list A) r :
    length ws = length items -> Forall (fun w => (0 < w)%Qc) ws -> qgen_ok g ->
    (exists sc r', scores P ws items r = (Ok sc, r')) \/
    (In 0%Qc (fst (draws P (length items) r)) /\ exists r', scores P ws items r = (Raise ValueError, r')).
  Proof.
    intros HL HF G. revert items r HL. induction HF as [|w ws Hw HF IH]; intros [|a items] r HL; try discriminate.
    - left. eexists _, _. reflexivity.
    - cbn [scores length draws]. pose proof (g_random_ok g G r) as [R0 _].
      cbn [QP r_random]. destruct (g_random g r) as [u r1] eqn:Er. cbn [fst] in R0.
      unfold mbind, lift. cbn [QP k_score]. unfold qc_score at 1 2.
      destruct (Qle_bool u 0) eqn:Eu.
      + right. split; [|eexists; reflexivity]. apply Qle_bool_iff in Eu.
        assert (u = 0%Qc) as -> by (apply Qcle_antisym; auto).
        destruct (draws _ _ _). left. reflexivity.
      + destruct (Qeq_bool w 0) eqn:Ew.
        { apply Qeq_bool_iff in Ew. unfold Qclt in Hw. rewrite Ew in Hw. discriminate. }
        destruct (IH items r1 ltac:(cbn in HL; lia)) as [(sc & r' & E)|(Hin & r' & E)].
        * left. fold P. rewrite E. eexists _, _. reflexivity.
        * right. fold P. rewrite E. split; [|eexists; reflexivity].
          destruct (draws P (length items) r1). right. exact Hin.
  Qed.

  Lemma high_k_total {A} (ws : list Qc) (items : list A) k r :
    length ws = length items -> Forall (fun w => (0 < w)%Qc) ws -> qgen_ok g ->
    (exists sc r', high_k P items ws k r = (Ok sc, r')) \/
    (In 0%Qc (fst (draws P (length items) r)) /\ exists r', high_k P items ws k r = (Raise ValueError, r')).
  Proof.
    intros HL HF G. unfold high_k, mbind.
    destruct (scores_total ws items r HL HF G) as [(sc & r' & ->)|(Hin & r' & ->)]; [left|right; split; auto]; eexists; try eexists; reflexivity.
  Qed.

  (** Differences and running sums are inverse to each other. *)
  Lemma accumulate_de_cum (l : list Qc) :
    accumulate P (de_cum P 0%Qc l) = l.
  Proof.
    destruct l as [|w l]; [reflexivity|].
    assert (E : forall s, accumulate_from P s (de_cum P s l) = l).
    { induction l as [|v l IH]; intros s; [reflexivity|].
      change (let s' := (s + (v - s))%Qc in s' :: accumulate_from P s' (de_cum P v l) = v :: l).
      cbv zeta. replace (s + (v - s))%Qc with v by ring. f_equal. apply IH. }
    change (let s' := (w - 0)%Qc in s' :: accumulate_from P s' (de_cum P w l) = w :: l).
    cbv zeta. replace (w - 0)%Qc with w by ring. f_equal. apply E.
  Qed.
End W.
