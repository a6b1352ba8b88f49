(** * Lemmas about ChoiceModel: weighted requests with replacement, exactly *)
From Verif Require Import Base Prims MathModel MathSpec MathProofs ChoiceModel ChoiceRun ChoiceProofs ChoiceProofs2
  ChoiceProofs3 NumLaws QcNum NumSpec QcProofs.
From Coq Require Import QArith Qcanon Permutation.
Open Scope Z_scope.

Section Ch.
  Context (P : prims) {A : Type}.
  Context (setsize : list A -> res Z) (fuel : nat).
  Notation C := (@choice P A).

  Lemma weighted_any q (c : C) ws cum t rest :
    c_replace c = true -> c_weights c = Some ws -> c_cum c = Some cum ->
    c_roac c = false \/ ask_size q <= 1 ->
    length cum = length (c_items c) -> rev cum = t :: rest -> w_total_ok P t = true ->
    zlen (c_items c) <> 1 ->
    let us := fst (draws P (Z.to_nat (ask_size q)) (c_rng c)) in
    let r := snd (draws P (Z.to_nat (ask_size q)) (c_rng c)) in
    let pos := map (fun u => bisect_right P (length cum) cum (w_scale P u t) 0 (length (c_items c) - 1)) us in
    (forall i, In i pos -> (i < length (c_items c))%nat) ->
    exists l, do_ask P setsize fuel q c = (Ok l, set_rng P r c) /\ picks (c_items c) pos l.
  Proof.
    intros Hr Hw Hc Hro HL Ht Hok H1 us r pos Hpos.
    assert (E : forall n, n = ask_size q -> exists l, choice_with_replacement P n c = (Ok l, set_rng P r c) /\ picks (c_items c) pos l).
    { intros n ->. unfold choice_with_replacement, mbind, get, on_rng, choices_cum. rewrite Hw, Hc.
      destruct (Z.eqb_spec (zlen (c_items c)) 1); [contradiction|].
      rewrite HL, Nat.eqb_refl, Ht, Hok. cbn [negb].
      subst pos us r. destruct (draws P (Z.to_nat (ask_size q)) (c_rng c)) as [us r]. cbn [fst snd] in *.
      destruct (mapS_get_ok (c_items c) (map (fun u => bisect_right P (length cum) cum (w_scale P u t) 0 (length (c_items c) - 1)) us) (set_rng P r c)) as (out & Em); auto.
      rewrite HL in Em.
      rewrite Em. apply mapS_get_incl in Em as [_ Em]. rewrite HL. eauto. }
    assert (Hl : forall l, picks (c_items c) pos l -> length l = Z.to_nat (ask_size q)).
    { intros l Hp. assert (X : length pos = length l) by (clear -Hp; induction Hp; cbn; auto). rewrite <- X. clear X. subst pos us. rewrite map_length. clear.
      generalize (c_rng c). induction (Z.to_nat (ask_size q)); intros s; cbn; auto.
      destruct (r_random P s) as [u s']. specialize (IHn s'). destruct (draws P n s'). cbn in *. auto. }
    assert (S1 : 1 = ask_size q -> exists l, ((l <~ choice_with_replacement P 1 ;; a <~ lift (list_get l 0) ;; ret [a]) c) = (Ok l, set_rng P r c) /\ picks (c_items c) pos l).
    { intros E1. destruct (E 1 E1) as (l & El & Hp). unfold mbind at 1. rewrite El. specialize (Hl l Hp).
      rewrite <- E1 in Hl. destruct l as [|a [|]]; try discriminate. exists [a]. split; auto. }
    rewrite ask_cases, Hr. cbn [negb].
    assert (N : forall n, n = ask_size q -> c_roac c && (1 <? n) = false).
    { intros n ->. destruct Hro as [->|Hle]; auto. destruct (Z.ltb_spec 1 (ask_size q)); [lia|]. apply andb_false_r. }
    destruct q as [|n| |n]; cbn [ask_size] in *; auto.
    - destruct n as [|[p|p|]|]; auto; rewrite N by auto; auto.
    - rewrite N by auto. auto.
  Qed.
  Lemma weighted_refused q (c : C) ws cum t rest :
    c_replace c = true -> c_weights c = Some ws -> c_cum c = Some cum ->
    c_roac c = false \/ ask_size q <= 1 ->
    length cum = length (c_items c) -> rev cum = t :: rest -> w_total_ok P t = false ->
    zlen (c_items c) <> 1 ->
    do_ask P setsize fuel q c = (Raise ValueError, c).
  Proof.
    intros Hr Hw Hc Hro HL Ht Hok H1.
    assert (E : forall n, choice_with_replacement P n c = (Raise ValueError, c)).
    { intros n. unfold choice_with_replacement, mbind, get, on_rng, choices_cum. rewrite Hw, Hc.
      destruct (Z.eqb_spec (zlen (c_items c)) 1); [contradiction|].
      rewrite HL, Nat.eqb_refl, Ht, Hok. cbn [negb]. destruct c; reflexivity. }
    assert (S1 : ((l <~ choice_with_replacement P 1 ;; a <~ lift (list_get l 0) ;; ret [a]) c) = (Raise ValueError, c)).
    { unfold mbind at 1. rewrite E. reflexivity. }
    rewrite ask_cases, Hr. cbn [negb].
    assert (N : forall n, n = ask_size q -> c_roac c && (1 <? n) = false).
    { intros n ->. destruct Hro as [->|Hle]; auto. destruct (Z.ltb_spec 1 (ask_size q)); [lia|]. apply andb_false_r. }
    destruct q as [|n| |n]; cbn [ask_size] in *; auto.
    - destruct n as [|[p|p|]|]; auto; rewrite N by auto; auto.
    - rewrite N by auto. auto.
  Qed.

  (** Items of weight zero are not chosen. *)
  Lemma weighted_true acc num (L : wlaws P acc num) q (c : C) items ws l :
    inv2 P items c -> c_replace c = true -> c_roac c = false \/ ask_size q <= 1 ->
    c_weights c = Some ws -> c_cum c = Some (accumulate P ws) -> Forall acc ws -> (2 <= length items)%nat ->
    fst (do_ask P setsize fuel q c) = Ok l ->
    Forall (fun a => exists i w, nth_error items i = Some a /\ nth_error ws i = Some w /\ w_true P w = true) l.
  Proof.
    intros (Hne & (Hi & _) & Hwo & _) Hr Hro Hw Hc HF H2 H.
    assert (HL : length ws = length items).
    { destruct Hwo as [(X & _)|(w' & c' & X & _ & Y & _)]; [congruence|]. rewrite Hw in X. injection X as <-. rewrite Y, Hi. auto. }
    assert (Lc : length (accumulate P ws) = length (c_items c)) by (rewrite accumulate_length, Hi; exact HL).
    destruct (rev (accumulate P ws)) as [|t rest] eqn:Hlast.
    { apply (f_equal (@length _)) in Hlast. rewrite rev_length, Lc, Hi in Hlast. cbn in Hlast. lia. }
    assert (N1 : zlen (c_items c) <> 1) by (rewrite Hi; unfold zlen; lia).
    destruct (w_total_ok P t) eqn:Hok.
    2:{ rewrite (weighted_refused q c ws (accumulate P ws) t rest) in H by auto. discriminate. }
    set (dr := draws P (Z.to_nat (ask_size q)) (c_rng c)).
    assert (B : forall u, In u (fst dr) ->
      let i := bisect_right P (length (accumulate P ws)) (accumulate P ws) (w_scale P u t) 0 (length ws - 1) in
      (i < length ws)%nat /\ w_true P (nth i ws (w_zero P)) = true).
    { intros u Hu. apply draws_from_state in Hu as (r & ->). eapply choice_true; eauto. }
    destruct (weighted_any q c ws (accumulate P ws) t rest Hr Hw Hc Hro Lc Hlast Hok N1) as (l' & El & Hl).
    - intros i Hin. apply in_map_iff in Hin as (u & <- & Hu). fold dr in Hu. rewrite Hi, <- HL. apply (B u Hu).
    - rewrite El in H. injection H as ->. fold dr in Hl. rewrite Hi in Hl. rewrite <- HL in Hl.
      destruct dr as [us r]. cbn [fst] in *. clear - B Hl HL.
      revert l Hl. induction us as [|u us IH]; intros l Hl; inversion Hl; subst; constructor.
      + destruct (B u (or_introl eq_refl)) as [B1 B2]. eexists _, _. split; [eassumption|]. split; [|exact B2].
        apply nth_error_nth'. exact B1.
      + apply IH; auto. intros u' Hu'. apply B. right; auto.
  Qed.
End Ch.

Section Qw.
  Context (g : qgen) {A : Type}.
  Context (setsize : list A -> res Z) (fuel : nat).
  Notation P := (QP g).
  Hypothesis G : qgen_ok g.

  Lemma div_le a t u : (0 < t)%Qc -> (a <= u * t)%Qc <-> (a / t <= u)%Qc.
  Proof.
    intros Ht. assert (N : t <> 0%Qc) by (intros ->; discriminate).
    assert (E : (a = a / t * t)%Qc) by (field; auto).
    split; intros H.
    - destruct (Qclt_le_dec u (a / t)) as [L|L]; auto. exfalso.
      apply (Qcmult_lt_compat_r _ _ t Ht) in L. rewrite <- E in L. apply (Qclt_not_le _ _ L). exact H.
    - rewrite E at 1. apply Qcmult_le_compat_r; auto. apply Qclt_le_weak. auto.
  Qed.

  Lemma lt_div a t u : (0 < t)%Qc -> (u * t < a)%Qc <-> (u < a / t)%Qc.
  Proof.
    intros Ht. pose proof (div_le a t u Ht) as H. split; intros L.
    - destruct (Qclt_le_dec u (a / t)) as [L'|L']; auto. apply H in L'. exfalso. apply (Qclt_not_le _ _ L); auto.
    - destruct (Qclt_le_dec (u * t) a) as [L'|L']; auto. apply H in L'. exfalso. apply (Qclt_not_le _ _ L); auto.
  Qed.

  Lemma owns_iff ws i u : (0 < qsum ws)%Qc ->
    owns ws i u <-> (qsum (firstn i ws) <= u * qsum ws)%Qc /\ (u * qsum ws < qsum (firstn (S i) ws))%Qc.
  Proof. intros H. unfold owns. rewrite div_le, lt_div by auto. reflexivity. Qed.

  Lemma cum_is_sum (c : @choice P A) ws cum items :
    weights_ok P c -> c_items c = items -> c_weights c = Some ws -> c_cum c = Some cum ->
    cum = accumulate P ws /\ length ws = length items.
  Proof.
    intros [(X & _)|(ws' & cum' & E1 & E2 & L1 & L2 & E)] <- Hw Hc; [congruence|].
    rewrite Hw in E1. rewrite Hc in E2. injection E1 as <-. injection E2 as <-. split; auto.
    destruct E as [E|E]; auto. subst ws. symmetry. apply accumulate_de_cum.
  Qed.

  Lemma owns_exact (ws : list Qc) i j u :
    Forall (fun w => (0 <= w)%Qc) ws -> (0 < qsum ws)%Qc -> owns ws i u -> owns ws j u -> i = j.
  Proof.
    intros HF Hp H1 H2. apply owns_iff in H1 as [H1 H1']; auto. apply owns_iff in H2 as [H2 H2']; auto.
    eapply interval_unique; eauto.
  Qed.

  Lemma owns_positive ws i u : Forall (fun w => (0 <= w)%Qc) ws -> (0 < qsum ws)%Qc -> owns ws i u -> (0 < nth i ws 0)%Qc.
  Proof.
    intros HF Hp H. apply owns_iff in H as [H1 H2]; auto.
    destruct (Nat.lt_ge_cases i (length ws)) as [L|L].
    - rewrite (qsum_firstn_S ws i L) in H2.
      destruct (Qclt_le_dec 0 (nth i ws 0%Qc)) as [X|X]; auto. exfalso.
      apply (Qclt_not_le _ _ H2). apply Qcle_trans with (2 := H1).
      rewrite <- (Qcplus_0_r (qsum (firstn i ws))) at 2. apply Qcplus_le_compat; auto. apply Qcle_refl.
    - rewrite !firstn_all2 in * by lia. exfalso. apply (Qclt_not_le _ _ H2 H1).
  Qed.

  Lemma draws_in_unit k r : Forall (fun u => (0 <= u)%Qc /\ (u < 1)%Qc) (fst (draws P k r)).
  Proof.
    revert r. induction k; intros r; cbn [draws]; [constructor|].
    destruct (r_random P r) as [u r'] eqn:E. specialize (IHk r'). destruct (draws P k r'). cbn [fst] in *.
    constructor; auto. pose proof (g_random_ok g G r) as H. change (g_random g r) with (r_random P r) in H. rewrite E in H. exact H.
  Qed.

  Lemma weighted_owns q (c : @choice P A) items (ws : list Qc) :
    inv2 P items c -> c_replace c = true -> c_roac c = false \/ ask_size q <= 1 ->
    c_weights c = Some ws -> Forall (fun w => (0 <= w)%Qc) ws -> (0 < qsum ws)%Qc -> (2 <= length items)%nat ->
    exists us l, fst (do_ask P setsize fuel q c) = Ok l /\
      draws P (Z.to_nat (ask_size q)) (c_rng c) = (us, c_rng (snd (do_ask P setsize fuel q c))) /\
      Forall2 (fun u a => exists i, owns ws i u /\ nth_error items i = Some a) us l.
  Proof.
    intros (Hne & (Hi & _) & Hwo & _) Hr Hro Hw HF Hp H2.
    assert (exists cum, c_cum c = Some cum) as (cum & Hc).
    { destruct Hwo as [(X & _)|(w' & c' & _ & X & _)]; [congruence|eauto]. }
    destruct (cum_is_sum c ws cum items Hwo Hi Hw Hc) as [-> HL].
    assert (Hwn : ws <> []) by (intros ->; cbn in HL; lia).
    destruct (accumulate_last g ws Hwn) as (rest & Hlast).
    assert (Lc : length (accumulate P ws) = length (c_items c)) by (rewrite accumulate_length, Hi; exact HL).
    set (dr := draws P (Z.to_nat (ask_size q)) (c_rng c)).
    assert (B : forall u, (0 <= u)%Qc -> (u < 1)%Qc ->
      let i := bisect_right P (length (accumulate P ws)) (accumulate P ws) (u * qsum ws)%Qc 0 (length ws - 1) in
      (i < length ws)%nat /\ owns ws i u).
    { intros u U0 U1. destruct (bisect_interval g ws (u * qsum ws)%Qc) as (B1 & B2 & B3); auto.
      - rewrite <- (Qcmult_0_l (qsum ws)). apply Qcmult_le_compat_r; auto. apply Qclt_le_weak; auto.
      - rewrite <- (Qcmult_1_l (qsum ws)) at 2. apply Qcmult_lt_compat_r; auto.
      - split; auto. apply owns_iff; auto. }
    assert (U : Forall (fun u => (0 <= u)%Qc /\ (u < 1)%Qc) (fst dr)) by apply draws_in_unit.
    destruct (weighted_any P setsize fuel q c ws (accumulate P ws) (qsum ws) rest Hr Hw Hc Hro Lc Hlast) as (l & El & Hl).
    - apply qc_total_iff. exact Hp.
    - rewrite Hi. unfold zlen. lia.
    - intros i Hin. apply in_map_iff in Hin as (u & <- & Hu). fold dr in Hu. rewrite Forall_forall in U. destruct (U u Hu) as [U0 U1].
      rewrite Hi. replace (length items) with (length ws) by exact HL. apply (B u U0 U1).
    - fold dr in El, Hl. exists (fst dr), l. rewrite El. cbn [fst snd c_rng set_rng]. split; auto. split; [destruct dr; reflexivity|].
      rewrite Hi in Hl. replace (length items) with (length ws) in Hl by exact HL.
      clearbody dr. destruct dr as [us r]. cbn [fst] in *. clear - U B Hl.
      revert l Hl. induction U as [|u us [U0 U1] _ IH]; intros l Hl; inversion Hl; subst; constructor; auto.
      eexists. split; [|eassumption]. apply (B u U0 U1).
  Qed.
End Qw.
