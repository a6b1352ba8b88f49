(** * Lemmas about ChoiceModel: the invariant of histories, requests without
    replacement, seeding *)
From Verif Require Import Base Prims MathModel MathSpec MathProofs ChoiceModel ChoiceRun ChoiceProofs.
From Coq Require Import Permutation.

Lemma list_slice_ge0 {A} (l : list A) i n :
  0 <= i -> 0 <= n -> i + n <= zlen l -> list_slice l i (i + n) = firstn (Z.to_nat n) (skipn (Z.to_nat i) l).
Proof.
  intros Hi Hn Hl. unfold list_slice, clip_bound.
  destruct (Z.ltb_spec i 0); [lia|]. destruct (Z.ltb_spec (i + n) 0); [lia|].
  rewrite !Z.min_l by lia. f_equal. f_equal. lia.
Qed.

Lemma list_get_ge0 {A} (l : list A) i :
  0 <= i -> i < zlen l -> exists a, list_get l i = Ok a /\ firstn 1 (skipn (Z.to_nat i) l) = [a].
Proof.
  intros Hi Hl. unfold list_get, norm_index.
  destruct (Z.ltb_spec i 0); [lia|]. destruct (Z.leb_spec 0 i); [|lia].
  destruct (Z.ltb_spec i (zlen l)); [|lia]. cbn [andb].
  unfold zlen in Hl. set (k := Z.to_nat i). assert (Hk : (k < length l)%nat) by lia.
  clearbody k. clear - Hk. revert l Hk. induction k; intros [|b l] H; cbn in *; try lia.
  - eauto.
  - apply IHk. lia.
Qed.

Lemma skipn_skipn {A} n m (l : list A) : skipn n (skipn m l) = skipn (m + n) l.
Proof. revert l. induction m; intros [|a l]; cbn; auto. now rewrite skipn_nil. Qed.

Section Ch.
  Context (P : prims) {A : Type}.
  Context (setsize : list A -> res Z) (fuel : nat).
  Notation C := (@choice P A).

  Definition weights_ok (c : C) : Prop :=
    (c_weights c = None /\ c_cum c = None) \/
    exists ws cum, c_weights c = Some ws /\ c_cum c = Some cum /\
      length ws = length (c_items c) /\ length cum = length (c_items c) /\
      (cum = accumulate P ws \/ ws = de_cum P (w_zero P) cum).

  Definition inv (items : list A) (c : C) : Prop :=
    items <> [] /\ c_items c = items /\ (c_roac c = true -> c_replace c = true) /\ weights_ok c /\
    if c_replace c then c_nui c = zlen items
    else exists i, Permutation (c_shuffled c) items /\ c_sidx c = Some i /\ 0 <= i <= zlen items /\
                   c_nui c = zlen items - i.

  Definition advance (n : Z) (c : C) : C :=
    set_nui P (c_nui c - n) (set_shuf P (c_shuffled c) (match c_sidx c with Some i => Some (i + n) | None => None end) c).

  Definition left_of (c : C) : list A :=
    match c_sidx c with Some i => skipn (Z.to_nat i) (c_shuffled c) | None => [] end.

  Lemma inv_left items c : inv items c -> c_replace c = false ->
    zlen (left_of c) = c_nui c /\ without_replacement items (left_of c) /\ 0 <= c_nui c.
  Proof.
    intros (_ & _ & _ & _ & H) Hr. rewrite Hr in H. destruct H as (i & HP & Hs & Hi & Hn).
    unfold left_of. rewrite Hs. unfold zlen in *. rewrite skipn_length.
    pose proof (Permutation_length HP). split; [lia|]. split; [|lia].
    apply Permutation_sym, Permutation_nth_error_bis in HP as (f & Hinj & Hb & Hf).
    exists (map f (seq (Z.to_nat i) (length (c_shuffled c) - Z.to_nat i))). split.
    - apply FinFun.Injective_map_NoDup; auto. apply seq_NoDup.
    - assert (G : forall k l, (forall j, nth_error l j = nth_error (c_shuffled c) (k + j)) ->
                  picks items (map f (seq k (length l))) l).
      { intros k l. revert k. induction l as [|a l IHl]; intros k Hl; cbn; constructor.
        - rewrite <- Hf. specialize (Hl 0%nat). rewrite Nat.add_0_r in Hl. rewrite <- Hl. reflexivity.
        - apply IHl. intros j. specialize (Hl (S j)). cbn in Hl. rewrite Hl. f_equal. lia. }
      rewrite <- skipn_length. apply G. intros j.
      clear. generalize (Z.to_nat i) as n. generalize (c_shuffled c) as l.
      intros l n. revert l. induction n; intros [|a l]; cbn; auto. destruct j; auto.
  Qed.

  (** ** Requests without replacement *)
  Lemma advance_inv items n c : inv items c -> c_replace c = false -> 0 <= n <= c_nui c -> inv items (advance n c).
  Proof.
    intros (H1 & H2 & H3 & H4 & H) Hr Hn. unfold inv. cbn. rewrite Hr in *.
    repeat (split; auto). destruct H as (i & HP & Hs & Hi & Hu). exists (i + n).
    rewrite Hs. repeat split; auto; lia.
  Qed.

  Lemma advance_left items n c : inv items c -> c_replace c = false -> 0 <= n ->
    left_of (advance n c) = skipn (Z.to_nat n) (left_of c).
  Proof.
    intros (_ & _ & _ & _ & H) Hr Hn. rewrite Hr in H. destruct H as (i & HP & Hs & Hi & Hu).
    unfold left_of, advance. cbn. rewrite Hs. rewrite skipn_skipn. f_equal. lia.
  Qed.

  Lemma without_noreplace items n c :
    inv items c -> c_replace c = false -> 0 <= n ->
    (c_nui c < n -> exists o, choice_without_replacement P setsize fuel n c = (o, c) /\
       (forall l, o <> Ok l) /\ ((exists z, num_unique_values P setsize c = Ok z) -> o = Raise ValueError)) /\
    (n <= c_nui c -> choice_without_replacement P setsize fuel n c
                     = (Ok (firstn (Z.to_nat n) (left_of c)), advance n c)).
  Proof.
    intros Hi Hr Hn. pose proof (inv_left _ _ Hi Hr) as (HL & _ & H0).
    destruct Hi as (_ & _ & _ & _ & H). rewrite Hr in H. destruct H as (i & HP & Hs & Hb & Hu).
    split; intros Hc; unfold choice_without_replacement; unfold mbind at 1, get at 1; cbv beta iota; rewrite Hr; cbn [negb].
    - destruct (Z.ltb_spec (c_nui c) n); [|lia].
      unfold mbind at 1. unfold uniqueness_violation, mbind, get, lift, raise.
      destruct (num_unique_values P setsize c) as [z|e|]; eexists; (split; [reflexivity|]);
        (split; [congruence|]); intros (z' & Hz); congruence.
    - destruct (Z.ltb_spec (c_nui c) n); [lia|].
      unfold mbind at 1, ret at 1. cbv beta iota.
 rewrite Hs. unfold mbind at 1, ret at 1. cbv beta iota.
      pose proof (Permutation_length HP) as HPl.
      unfold left_of, advance. rewrite Hs.
      destruct (Z.eqb_spec n 1) as [->|Hn1].
      + destruct (list_get_ge0 (c_shuffled c) i ltac:(lia) ltac:(unfold zlen in *; lia)) as (a & Ha & Hf).
        unfold mbind, lift, ret, modify. rewrite Ha. change (Z.to_nat 1) with 1%nat. rewrite Hf. reflexivity.
      + unfold mbind, ret, modify. rewrite list_slice_ge0 by (unfold zlen in *; lia). reflexivity.
  Qed.

  Lemma ask_noreplace items q c :
    inv items c -> c_replace c = false -> 0 <= ask_size q ->
    let n := ask_size q in
    (c_nui c < n -> exists o, do_ask P setsize fuel q c = (o, c) /\
       (forall l, o <> Ok l) /\ ((exists z, num_unique_values P setsize c = Ok z) -> o = Raise ValueError)) /\
    (n <= c_nui c -> do_ask P setsize fuel q c = (Ok (firstn (Z.to_nat n) (left_of c)), advance n c)).
  Proof.
    intros Hi Hr Hn n. rewrite ask_cases, Hr. cbn [negb].
    pose proof (inv_left _ _ Hi Hr) as (HL & _ & H0).
    assert (G : (c_nui c < 1 -> exists o,
        (l <~ choice_without_replacement P setsize fuel 1 ;; a <~ lift (list_get l 0) ;; ret [a]) c = (o, c) /\
       (forall l, o <> Ok l) /\ ((exists z, num_unique_values P setsize c = Ok z) -> o = Raise ValueError)) /\
       (1 <= c_nui c -> (l <~ choice_without_replacement P setsize fuel 1 ;; a <~ lift (list_get l 0) ;; ret [a]) c
         = (Ok (firstn (Z.to_nat 1) (left_of c)), advance 1 c))).
    { destruct (without_noreplace items 1 c Hi Hr ltac:(lia)) as [G1 G2]. split; intros Hc.
      - destruct (G1 Hc) as (o & E & Ho & Hv). unfold mbind at 1. rewrite E.
        destruct o as [l| |]; [destruct (Ho l eq_refl)| |]; eexists; (split; [reflexivity|]); (split; [congruence|]);
          intros X; apply Hv in X; congruence.
      - specialize (G2 Hc). unfold mbind at 1. rewrite G2.
        assert (exists a t, left_of c = a :: t) as (a & t & ->).
        { destruct (left_of c) as [|a t]; eauto. unfold zlen in HL. cbn in HL. lia. }
        reflexivity. }
    pose proof (fun n => without_noreplace items n c Hi Hr) as W.
    destruct q as [|m| |m]; subst n; cbn [ask_size] in *; auto.
    destruct m as [|[p|p|]|]; auto.
  Qed.

  Lemma ask_inv items q c o c' :
    inv items c -> 0 <= ask_size q -> do_ask P setsize fuel q c = (o, c') -> inv items c'.
  Proof.
    intros Hi Hq H. destruct (c_replace c) eqn:Hr.
    - apply ask_only_rng in H as [r ->]; auto.
    - destruct (ask_noreplace items q c Hi Hr Hq) as [G1 G2].
      destruct (Z.lt_ge_cases (c_nui c) (ask_size q)) as [Hc|Hc].
      + destruct (G1 Hc) as (o1 & E & _). rewrite E in H. injection H as <- <-. auto.
      + rewrite (G2 Hc) in H. injection H as <- <-. apply advance_inv; auto; lia.
  Qed.

  (** ** Settings that succeed *)
  Lemma accumulate_from_length s l : length (accumulate_from P s l) = length l.
  Proof. revert s. induction l; intros; cbn; auto. Qed.
  Lemma accumulate_length l : length (accumulate P l) = length l.
  Proof. destruct l; cbn; auto. now rewrite accumulate_from_length. Qed.
  Lemma de_cum_length s l : length (de_cum P s l) = length l.
  Proof. revert s. induction l; intros; cbn; auto. Qed.

  Lemma all_weights_ok (items : list A) w b wc :
    all_weights P items w b = Ok wc ->
    (w = None /\ wc = (None, None)) \/
    exists l, w = Some l /\ length l = length items /\
      wc = if b then (Some (de_cum P (w_zero P) l), Some l) else (Some l, Some (accumulate P l)).
  Proof.
    unfold all_weights. destruct w as [l|].
    - destruct (Nat.eqb_spec (length items) (length l)); cbn [negb]; [|discriminate].
      intros H. right. exists l. repeat split; auto. destruct b; injection H as <-; auto.
    - intros H; injection H as <-. auto.
  Qed.

  Lemma all_weights_weights_ok (c : C) w b wc :
    all_weights P (c_items c) w b = Ok wc -> c_weights c = fst wc -> c_cum c = snd wc -> weights_ok c.
  Proof.
    intros H H1 H2. apply all_weights_ok in H as [(-> & ->)|(l & -> & HL & ->)].
    - left. auto.
    - right. destruct b; cbn in H1, H2.
      + eexists _, _. repeat split; eauto. now rewrite de_cum_length.
      + eexists _, _. repeat split; eauto. now rewrite accumulate_length.
  Qed.

  Hypothesis Hz : w_true P (w_zero P) = false.

  (** Everything of the invariant except the shuffle. *)
  Definition pre (items : list A) (c : C) : Prop :=
    items <> [] /\ c_items c = items /\ (c_roac c = true -> c_replace c = true) /\ weights_ok c.

  Lemma inv_pre items c : inv items c -> pre items c.
  Proof. unfold inv, pre. tauto. Qed.

  Lemma shuffle_inv items c c' :
    pre items c -> c_replace c = false -> global_shuffle P fuel c = (Ok tt, c') ->
    inv items c' /\ Permutation (left_of c') items /\ fixed P c c'.
  Proof.
    intros (H1 & H2 & H3 & H4) Hr H. apply global_shuffle_ok in H as [F (HP & Hs & Hn)]; auto.
    assert (F0 := F). destruct F as (F1 & F2 & F3 & F4 & F5 & F6).
    assert (H2' : c_items c' = items) by congruence. rewrite H2' in *.
    split; [|split; auto].
    - split; auto. split; auto. split; [rewrite F4, F5; auto|]. split.
      { unfold weights_ok in *. rewrite F2, F3, H2'. rewrite H2 in H4. auto. }
      rewrite F4, Hr. exists 0. repeat split; auto; unfold zlen in *; lia.
    - unfold left_of. rewrite Hs. exact HP.
  Qed.

  Ltac prt := split; [auto|]; split; [auto|]; split;
    [cbn; try match goal with E : c_replace _ = _ |- _ => rewrite E end; auto|auto].

  Lemma setting_inv items o ent c c' :
    inv items c -> do_setting P fuel o ent c = (Ok tt, c') -> inv items c'.
  Proof.
    intros Hi H. pose proof (inv_pre _ _ Hi) as (H1 & H2 & H3 & H4).
    destruct o; cbn [do_setting] in H.
    - unfold choice_reset, mbind, modify, get in H. cbn [set_rng c_replace] in H.
      destruct (c_replace c) eqn:E; [injection H as <-; unfold inv in *; cbn; rewrite E in *; auto|].
      apply (shuffle_inv items) in H as [H _]; auto; prt.
    - unfold choice_seed, mbind, modify, get in H. cbn [set_rng set_seed c_replace] in H.
      destruct (c_replace c) eqn:E; [injection H as <-; unfold inv in *; cbn; rewrite E in *; auto|].
      apply (shuffle_inv items) in H as [H _]; auto; prt.
    - injection H as <-. exact Hi.
    - unfold set_weights, mbind, modify, get, lift in H.
      destruct (all_weights P (c_items c) w false) as [wc| |] eqn:Ew; [|discriminate..].
      assert (W : weights_ok (set_ws P (fst wc) (snd wc) c)) by (eapply all_weights_weights_ok; eauto).
      destruct (c_replace c) eqn:E.
      + injection H as <-. unfold inv in *. cbn. rewrite E in *. tauto.
      + apply (shuffle_inv items) in H as [H _]; auto; prt.
    - unfold set_weights, mbind, modify, get, lift in H.
      destruct (all_weights P (c_items c) w true) as [wc| |] eqn:Ew; [|discriminate..].
      assert (W : weights_ok (set_ws P (fst wc) (snd wc) c)) by (eapply all_weights_weights_ok; eauto).
      destruct (c_replace c) eqn:E.
      + injection H as <-. unfold inv in *. cbn. rewrite E in *. tauto.
      + apply (shuffle_inv items) in H as [H _]; auto; prt.
    - unfold set_replace, mbind, modify, get in H.
      destruct (Bool.eqb b (c_replace c)) eqn:E; [injection H as <-; auto|].
      destruct b.
      + injection H as <-. unfold inv. cbn. rewrite H2. repeat split; auto.
      + apply (shuffle_inv items) in H as [H _]; auto. split; [auto|]. split; [auto|]. split; [cbn; discriminate|auto].
    - unfold set_replace_only_after_call, mbind, modify in H.
      destruct b.
      + unfold set_replace, mbind, modify, get in H. cbn [set_roac c_replace] in H.
        destruct (Bool.eqb true (c_replace c)) eqn:E.
        * injection H as <-. unfold inv in *. cbn. destruct (c_replace c); [|discriminate]. tauto.
        * injection H as <-. unfold inv. cbn. rewrite H2. repeat split; auto.
      + injection H as <-. unfold inv in *. cbn. intuition discriminate.
  Qed.

  Lemma new_inv2 items ws rep roac sd cum ent c :
    choice_new P fuel items ws rep roac sd cum ent = Ok c ->
    inv items c /\ (c_replace c = false -> Permutation (left_of c) items).
  Proof.
    intros H. apply new_inv in H as (wc & Hne & Ha & H & _).
    set (c0 := mkChoice _ _ _ _ _ _ _ _ _ _) in H.
    assert (Hp : pre items c0).
    { repeat split; auto. - cbn. intros ->. apply orb_true_r. - eapply all_weights_weights_ok; eauto. }
    unfold choice_reset, mbind, modify, get in H. cbn [set_rng c_replace] in H.
    destruct (c_replace c0) eqn:E.
    - injection H as <-. destruct Hp as (P1 & P2 & P3 & P4). split.
      + unfold inv. cbn [set_rng c_replace]. fold (c_replace c0). rewrite E. repeat split; auto.
      + cbn [set_rng c_replace]. congruence.
    - apply (shuffle_inv items) in H as (Hi & HP & _); auto.
  Qed.

  Lemma reach_inv items c : reach P setsize fuel items c -> inv items c.
  Proof.
    induction 1 as [ws rep roac sd cum ent c H|o ent c c' _ IH H|q c r c' _ IH Hq H].
    - apply new_inv2 in H. tauto.
    - eapply setting_inv; eauto.
    - eapply ask_inv; eauto.
  Qed.

  Lemma just_shuffled_left items c : just_shuffled P setsize fuel items c ->
    inv items c /\ c_replace c = false /\ Permutation (left_of c) items.
  Proof.
    destruct 1 as [ws rep roac sd cum ent c H Hr|o ent c c' Hre H Hr Ho].
    - apply new_inv2 in H. tauto.
    - apply reach_inv in Hre. pose proof (setting_inv _ _ _ _ _ Hre H) as Hi.
      split; auto. split; auto. pose proof (inv_pre _ _ Hre) as (H1 & H2 & H3 & H4).
      destruct o; cbn [do_setting] in H; try contradiction.
      + unfold choice_reset, mbind, modify, get in H. cbn [set_rng c_replace] in H.
        destruct (c_replace c) eqn:E; [injection H as <-; cbn in Hr; congruence|].
        apply (shuffle_inv items) in H; [tauto|prt|auto].
      + unfold choice_seed, mbind, modify, get in H. cbn [set_rng set_seed c_replace] in H.
        destruct (c_replace c) eqn:E; [injection H as <-; cbn in Hr; congruence|].
        apply (shuffle_inv items) in H; [tauto|prt|auto].
      + unfold set_weights, mbind, modify, get, lift in H.
        destruct (all_weights P (c_items c) w false) as [wc| |] eqn:Ew; [|discriminate..].
        assert (W : weights_ok (set_ws P (fst wc) (snd wc) c)) by (eapply all_weights_weights_ok; eauto).
        destruct (c_replace c) eqn:E; [injection H as <-; cbn in Hr; congruence|].
        apply (shuffle_inv items) in H; [tauto|prt|auto].
      + unfold set_weights, mbind, modify, get, lift in H.
        destruct (all_weights P (c_items c) w true) as [wc| |] eqn:Ew; [|discriminate..].
        assert (W : weights_ok (set_ws P (fst wc) (snd wc) c)) by (eapply all_weights_weights_ok; eauto).
        destruct (c_replace c) eqn:E; [injection H as <-; cbn in Hr; congruence|].
        apply (shuffle_inv items) in H; [tauto|prt|auto].
      + unfold set_replace, mbind, modify, get in H. rewrite Ho in H.
        destruct b; [injection H as <-; congruence|]. cbn [Bool.eqb] in H.
        apply (shuffle_inv items) in H; [tauto| |auto]. split; [auto|]. split; [auto|]. split; [cbn; discriminate|auto].
  Qed.

  (** ** All future requests *)
  Lemma asks_deal items qs c :
    (forall l, incl l items -> exists n, setsize l = Ok n) ->
    inv items c -> c_replace c = false -> Forall (fun q => 0 <= ask_size q) qs ->
    let sizes := map (fun q => Z.to_nat (ask_size q)) qs in
    fst (do_asks P setsize fuel qs c) = map dealt (deal (left_of c) sizes) /\
    let c' := snd (do_asks P setsize fuel qs c) in
    inv items c' /\ c_replace c' = false /\ left_of c' = undealt (left_of c) sizes.
  Proof.
    intros Hset. revert c. induction qs as [|q qs IH]; intros c Hi Hr Hq; cbn zeta.
    - cbn. auto.
    - inversion Hq as [|? ? Hq1 Hq2]; subst. cbn [do_asks map deal undealt].
      destruct (inv_left _ _ Hi Hr) as (HL & HW & H0).
      destruct (ask_noreplace items q c Hi Hr Hq1) as [G1 G2].
      assert (Hv : exists z, num_unique_values P setsize c = Ok z).
      { unfold num_unique_values. rewrite Hr. destruct Hi as (_ & _ & _ & _ & H). rewrite Hr in H.
        destruct H as (i & HP & Hs & Hb & Hu). rewrite Hs. apply Hset.
        intros x Hx. apply in_slice in Hx. eapply Permutation_in; eauto. }
      unfold zlen in HL.
      destruct (Nat.ltb_spec (length (left_of c)) (Z.to_nat (ask_size q))) as [Hc|Hc].
      + destruct (G1 ltac:(lia)) as (o & E & _ & Ho). rewrite E, (Ho Hv).
        destruct (IH c Hi Hr Hq2) as [I1 I2].
        destruct (do_asks P setsize fuel qs c) as [os c'] eqn:Eq. cbn [fst snd map dealt] in *.
        split; [f_equal; auto|auto].
      + rewrite (G2 ltac:(lia)).
        assert (Hi' : inv items (advance (ask_size q) c)) by (apply advance_inv; auto; lia).
        destruct (IH _ Hi' Hr Hq2) as [I1 I2].
        rewrite (advance_left items) in I1, I2 by auto.
        destruct (do_asks P setsize fuel qs _) as [os c'] eqn:Eq. cbn [fst snd map dealt] in *.
        split; [f_equal; auto|auto].
  Qed.
End Ch.
