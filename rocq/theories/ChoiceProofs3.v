(** * Lemmas about ChoiceModel: invariant of all histories (including failed
    operations), seeding, batching, replace_only_after_call *)
From Verif Require Import Base Prims MathModel MathSpec MathProofs ChoiceModel ChoiceRun ChoiceProofs ChoiceProofs2.
From Coq Require Import Permutation.

Lemma deal_concat {A} (deck : list A) sizes :
  concat (map (fun o => match o with Some l => l | None => [] end) (deal deck sizes)) ++ undealt deck sizes = deck.
Proof.
  revert deck. induction sizes as [|n t IH]; intros deck; cbn [deal undealt map concat]; auto.
  destruct (Nat.ltb (length deck) n); cbn [map concat].
  - apply IH.
  - rewrite <- app_assoc, IH. apply firstn_skipn.
Qed.

Lemma split_app {A} n (l1 l2 : list A) : length l1 = n -> firstn n (l1 ++ l2) = l1 /\ skipn n (l1 ++ l2) = l2.
Proof. intros <-. induction l1 as [|a l1 [IH1 IH2]]; cbn; [auto|]. split; congruence. Qed.

Section Ch.
  Context (P : prims) {A : Type}.
  Context (setsize : list A -> res Z) (fuel : nat).
  Notation C := (@choice P A).

  (** ** Every history, whatever fails in it *)
  Definition inv2 (items : list A) (c : C) : Prop :=
    items <> [] /\ inv_any P items c /\ weights_ok P c /\ (c_replace c = true -> c_nui c = zlen items).

  Lemma weights_ok_fixed (c c' : C) : fixed P c c' -> weights_ok P c -> weights_ok P c'.
  Proof. intros (F1 & F2 & F3 & _). unfold weights_ok. rewrite F1, F2, F3. auto. Qed.

  Lemma gs_nui (c : C) o c' : global_shuffle P fuel c = (o, c') -> c_replace c' = c_replace c.
  Proof. intros H. apply global_shuffle_any in H as [F _]. apply F. Qed.

  Lemma setting_inv2 items o ent (c : C) r c' :
    inv2 items c -> do_setting P fuel o ent c = (r, c') -> inv2 items c'.
  Proof.
    intros (H1 & H2 & H3 & H4) H.
    split; [auto|]. split; [eapply setting_any; eauto|].
    assert (GS : forall (c : C) r c', weights_ok P c -> c_replace c = false -> global_shuffle P fuel c = (r, c') ->
                 weights_ok P c' /\ (c_replace c' = true -> c_nui c' = zlen items)).
    { intros c0 r0 c0' W E G. pose proof (gs_nui _ _ _ G) as E'. apply global_shuffle_any in G as [F _].
      split; [eapply weights_ok_fixed; eauto|congruence]. }
    destruct o; cbn [do_setting] in H.
    - unfold choice_reset, mbind, modify, get in H. cbn [set_rng c_replace] in H.
      destruct (c_replace c) eqn:E; [injection H as <- <-; split; auto|]. eapply GS; [| |exact H]; auto.
    - unfold choice_seed, mbind, modify, get in H. cbn [set_rng set_seed c_replace] in H.
      destruct (c_replace c) eqn:E; [injection H as <- <-; split; auto|]. eapply GS; [| |exact H]; auto.
    - injection H as <- <-. split; auto.
    - unfold set_weights, mbind, modify, get, lift in H.
      destruct (all_weights P (c_items c) w false) as [wc| |] eqn:Ew; [|injection H as <- <-; split; auto..].
      assert (W : weights_ok P (set_ws P (fst wc) (snd wc) c)) by (eapply all_weights_weights_ok; eauto).
      destruct (c_replace c) eqn:E; [injection H as <- <-; split; auto|]. eapply GS; [| |exact H]; auto.
    - unfold set_weights, mbind, modify, get, lift in H.
      destruct (all_weights P (c_items c) w true) as [wc| |] eqn:Ew; [|injection H as <- <-; split; auto..].
      assert (W : weights_ok P (set_ws P (fst wc) (snd wc) c)) by (eapply all_weights_weights_ok; eauto).
      destruct (c_replace c) eqn:E; [injection H as <- <-; split; auto|]. eapply GS; [| |exact H]; auto.
    - unfold set_replace, mbind, modify, get in H.
      destruct (Bool.eqb b (c_replace c)) eqn:E; [injection H as <- <-; split; auto|].
      destruct b.
      + injection H as <- <-. split; [exact H3|]. intros _. cbn. destruct H2 as (-> & _). auto.
      + eapply GS; [| |exact H]; auto.
    - unfold set_replace_only_after_call, mbind, modify in H.
      destruct b; [|injection H as <- <-; split; auto].
      unfold set_replace, mbind, modify, get in H. cbn [set_roac c_replace] in H.
      destruct (Bool.eqb true (c_replace c)) eqn:E; injection H as <- <-; split; auto.
      intros _. cbn. destruct H2 as (-> & _). auto.
  Qed.

  Lemma reach_any_inv2 items c : reach_any P setsize fuel items c -> inv2 items c.
  Proof.
    induction 1 as [ws rep roac sd cum ent c H|o ent c r c' Hr IH H|q c r c' Hr IH H].
    - assert (Hra : reach_any P setsize fuel items c) by (eapply RA_new; eauto).
      pose proof (reach_any_inv P setsize fuel items c Hra) as Hi.
      apply new_inv in H as (wc & Hne & Ha & H & _).
      split; [auto|]. split; [auto|].
      set (c0 := mkChoice _ _ _ _ _ _ _ _ _ _) in H.
      assert (W : weights_ok P c0) by (eapply all_weights_weights_ok; eauto).
      split.
      + apply reset_any in H as [F _]. eapply weights_ok_fixed; eauto.
      + unfold choice_reset, mbind, modify, get in H. cbn [set_rng c_replace] in H.
        destruct (c_replace c0) eqn:E; [injection H as <-; auto|].
        apply gs_nui in H. cbn [set_rng c_replace] in H. congruence.
    - eapply setting_inv2; eauto.
    - destruct IH as (H1 & H2 & H3 & H4).
      assert (Hra : reach_any P setsize fuel items c') by (eapply RA_ask; eauto).
      pose proof (reach_any_inv P setsize fuel items c' Hra) as Hi.
      pose proof (ask_state _ _ _ _ _ _ _ H) as [F _].
      split; [auto|]. split; [auto|]. split; [eapply weights_ok_fixed; eauto|].
      intros Hrep. assert (E : c_replace c = true) by (destruct F as (_ & _ & _ & F & _); congruence).
      apply ask_only_rng in H as [r1 ->]; auto.
  Qed.

  (** ** Seeding *)
  (** States that answer all requests alike. *)
  Definition alike (c1 c2 : C) : Prop :=
    c1 = c2 \/
    (c_replace c1 = true /\ exists l i, c2 = set_shuf P l i c1).

  Lemma do_ask_shuf q l i (c : C) : c_replace c = true ->
    do_ask P setsize fuel q (set_shuf P l i c) =
    (fst (do_ask P setsize fuel q c), set_shuf P l i (snd (do_ask P setsize fuel q c))).
  Proof.
    intros Hr.
    assert (W1 : forall n, choice_with_replacement P n (set_shuf P l i c) =
       (fst (choice_with_replacement P n c), set_shuf P l i (snd (choice_with_replacement P n c)))).
    { intros n. unfold choice_with_replacement, mbind, get. cbn [set_shuf c_items c_weights c_cum].
      destruct (zlen (c_items c) =? 1); [reflexivity|].
      assert (MG : forall pos r, mapS (get_item (c_items c)) pos (set_rng P r (set_shuf P l i c)) =
        (fst (mapS (get_item (c_items c)) pos (set_rng P r c)),
         set_shuf P l i (snd (mapS (get_item (c_items c)) pos (set_rng P r c))))).
      { intros pos r. destruct (mapS (get_item (c_items c)) pos (set_rng P r c)) as [o1 s1] eqn:E1.
        destruct (mapS (get_item (c_items c)) pos (set_rng P r (set_shuf P l i c))) as [o2 s2] eqn:E2.
        pose proof (mapS_get_state _ _ _ _ _ E1) as ->. pose proof (mapS_get_state _ _ _ _ _ E2) as ->.
        cbn [fst snd]. f_equal. clear - E1 E2. revert o1 o2 E1 E2.
        induction pos as [|p pos IH]; cbn; intros o1 o2 E1 E2.
        - injection E1 as <-. injection E2 as <-. auto.
        - unfold mbind, get_item at 1 in E1. unfold mbind, get_item at 1 in E2.
          destruct (nth_error (c_items c) p); [|injection E1 as <-; injection E2 as <-; auto].
          unfold ret at 1 in E1. unfold ret at 1 in E2.
          destruct (mapS _ pos (set_rng P r c)) as [[x1|x1|] y1] eqn:F1;
          destruct (mapS _ pos (set_rng P r (set_shuf P l i c))) as [[x2|x2|] y2] eqn:F2;
            pose proof (mapS_get_state _ _ _ _ _ F1); pose proof (mapS_get_state _ _ _ _ _ F2); subst;
            specialize (IH _ _ eq_refl eq_refl); try discriminate; injection E1 as <-; injection E2 as <-; congruence. }
      destruct (c_weights c) as [ws|].
      - unfold on_rng. cbn [set_shuf c_rng].
        destruct ((match c_cum c with Some cum => choices_cum P (length (c_items c)) cum n
                   | None => choices_uniform P (length (c_items c)) n end) (c_rng c)) as [[pos| |] r]; [|reflexivity..].
        apply MG.
      - destruct (n =? 1).
        + unfold on_rng. cbn [set_shuf c_rng]. destruct (r_below P _ _) as [j r].
          unfold get_item, ret, raise. destruct (nth_error (c_items c) j); reflexivity.
        + unfold on_rng. cbn [set_shuf c_rng]. destruct (choices_uniform P _ _ _) as [[pos| |] r]; [|reflexivity..].
          apply MG. }
    assert (W2 : forall n, choice_without_replacement P setsize fuel n (set_shuf P l i c) =
       (fst (choice_without_replacement P setsize fuel n c), set_shuf P l i (snd (choice_without_replacement P setsize fuel n c)))).
    { intros n. unfold choice_without_replacement, mbind, get.
      cbn [set_shuf c_replace c_nui c_weights c_items]. rewrite Hr. cbn [negb].
      assert (U : forall X : C, (c_replace X = true) -> (if c_nui c <? n then @uniqueness_violation P A setsize unit else ret tt) X =
        ((if c_nui c <? n then (match setsize (c_items X) with Ok _ => Raise ValueError | Raise e => Raise e | Diverge => Diverge end) else Ok tt), X)).
      { intros X HX. destruct (c_nui c <? n); [|reflexivity].
        unfold uniqueness_violation, mbind, get, lift, raise, num_unique_values. rewrite HX. destruct (setsize _); reflexivity. }
      rewrite (U c) by auto. rewrite (U (set_shuf P l i c)) by auto. cbn [set_shuf c_items].
      destruct (if c_nui c <? n then (match setsize (c_items c) with Ok _ => Raise ValueError | Raise e => Raise e | Diverge => Diverge end) else Ok tt) as [x| |]; [|reflexivity..].
      destruct (c_weights c) as [ws|].
      - unfold on_rng. cbn [set_shuf c_rng]. destruct (weighted_shuffle _ _ _ _ _ _) as [o1 r]. reflexivity.
      - destruct ((n <? 0) || _); [reflexivity|].
        unfold on_rng. cbn [set_shuf c_rng]. destruct (r_sample P _ _ _) as [pos r].
        assert (MG : forall (X Y : C), fst (mapS (get_item (c_items c)) pos X) = fst (mapS (get_item (c_items c)) pos Y) /\
                     snd (mapS (get_item (c_items c)) pos X) = X).
        { intros X Y. split.
          - clear. induction pos as [|p pos IH]; cbn; auto. unfold mbind, get_item at 1 3.
            destruct (nth_error (c_items c) p); auto. unfold ret at 1 3.
            destruct (mapS _ pos X) as [[x1|x1|] y1]; destruct (mapS _ pos Y) as [[x2|x2|] y2]; cbn in IH; try discriminate; cbn; congruence.
          - destruct (mapS _ pos X) as [o1 s1] eqn:E. apply mapS_get_state in E. auto. }
        set (X := set_rng P r (set_shuf P l i c)). set (Y := set_rng P r c).
        destruct (MG X Y) as [M1 M2]. destruct (MG Y X) as [_ M3].
        destruct (mapS (get_item (c_items c)) pos X) as [ox sx]. destruct (mapS (get_item (c_items c)) pos Y) as [oy sy].
        cbn [fst snd] in *. subst. reflexivity. }
    rewrite !ask_cases. cbn [set_shuf c_replace c_roac]. rewrite Hr. cbn [negb].
    assert (G1 : (l0 <~ choice_with_replacement P 1 ;; a <~ lift (list_get l0 0) ;; ret [a]) (set_shuf P l i c) =
      (fst ((l0 <~ choice_with_replacement P 1 ;; a <~ lift (list_get l0 0) ;; ret [a]) c),
       set_shuf P l i (snd ((l0 <~ choice_with_replacement P 1 ;; a <~ lift (list_get l0 0) ;; ret [a]) c)))).
    { unfold mbind at 1 3 5. rewrite W1. destruct (choice_with_replacement P 1 c) as [[x| |] s]; [|reflexivity..].
      unfold mbind, lift, ret. cbn [fst snd]. destruct (list_get x 0); reflexivity. }
    assert (G2 : forall n, (if c_roac c && (1 <? n) then choice_without_replacement P setsize fuel n else choice_with_replacement P n) (set_shuf P l i c) =
      (fst ((if c_roac c && (1 <? n) then choice_without_replacement P setsize fuel n else choice_with_replacement P n) c),
       set_shuf P l i (snd ((if c_roac c && (1 <? n) then choice_without_replacement P setsize fuel n else choice_with_replacement P n) c)))).
    { intros n. destruct (c_roac c && (1 <? n)); auto. }
    destruct q as [|n| |n]; auto. destruct n as [|[p|p|]|]; auto.
  Qed.

  Lemma do_asks_shuf qs l i (c : C) : c_replace c = true ->
    fst (do_asks P setsize fuel qs (set_shuf P l i c)) = fst (do_asks P setsize fuel qs c).
  Proof.
    revert c. induction qs as [|q qs IH]; intros c Hr; cbn [do_asks]; auto.
    rewrite do_ask_shuf by auto. destruct (do_ask P setsize fuel q c) as [o c1] eqn:E. cbn [fst snd].
    assert (Hr1 : c_replace c1 = true).
    { apply ask_state in E as [(_ & _ & _ & F & _) _]. congruence. }
    specialize (IH c1 Hr1).
    destruct (do_asks P setsize fuel qs (set_shuf P l i c1)). destruct (do_asks P setsize fuel qs c1).
    cbn [fst] in *. congruence.
  Qed.

  Lemma alike_asks c1 c2 qs : alike c1 c2 -> fst (do_asks P setsize fuel qs c1) = fst (do_asks P setsize fuel qs c2).
  Proof.
    intros [->|(Hr & l & i & ->)]; auto. symmetry. apply do_asks_shuf; auto.
  Qed.

  (** The arguments with which the emitter could have been constructed. *)
  Lemma seed_like_new items s (c : C) ent ent' :
    inv2 items c ->
    exists ws cum, (ws = c_weights c /\ cum = None \/ ws = None /\ cum = c_cum c) /\
      match choice_seed P fuel (Some s) ent c with
      | (Ok _, c') => exists c0, choice_new P fuel items ws (c_replace c) (c_roac c) (Some s) cum ent' = Ok c0 /\ alike c0 c'
      | (Raise e, _) => choice_new P fuel items ws (c_replace c) (c_roac c) (Some s) cum ent' = Raise e
      | (Diverge, _) => choice_new P fuel items ws (c_replace c) (c_roac c) (Some s) cum ent' = Diverge
      end.
  Proof.
    intros (Hne & (Hit & _ & Hra) & HW & Hn).
    assert (E : exists ws cum, (ws = c_weights c /\ cum = None \/ ws = None /\ cum = c_cum c) /\
       nonempty ws && nonempty cum = false /\
       all_weights P items (if nonempty ws then ws else cum) (nonempty cum) = Ok (c_weights c, c_cum c)).
    { destruct HW as [(E1 & E2)|(ws & cum & E1 & E2 & L1 & L2 & D)].
      - exists None, None. rewrite E1, E2. split; [left; auto|]. split; auto.
      - rewrite Hit in L1, L2. assert (Hl : (0 < length items)%nat) by (destruct items; cbn; [congruence|lia]).
        destruct D as [->| ->].
        + exists (Some ws), None. rewrite E1, E2. split; [left; auto|].
          destruct ws as [|w ws]; [cbn in L1; lia|]. cbn [nonempty andb]. split; auto.
          unfold all_weights. rewrite <- L1, Nat.eqb_refl. reflexivity.
        + exists None, (Some cum). rewrite E1, E2. split; [right; auto|].
          destruct cum as [|w cum]; [cbn in L2; lia|]. cbn [nonempty andb]. split; auto.
          unfold all_weights. rewrite <- L2, Nat.eqb_refl. reflexivity. }
    destruct E as (ws & cum & D & N & Ha). exists ws, cum. split; auto.
    assert (New : choice_new P fuel items ws (c_replace c) (c_roac c) (Some s) cum ent' =
      match choice_reset P fuel ent' (mkChoice items (c_weights c) (c_cum c) (c_replace c) (c_roac c) (zlen items) [] None
             (Some s) (r_seeded P s)) with
      | (Ok _, c) => Ok c | (Raise e, _) => Raise e | (Diverge, _) => Diverge end).
    { unfold choice_new. destruct items as [|it items]; [congruence|]. rewrite N, Ha. cbn [bind fst snd].
      replace (c_replace c || c_roac c) with (c_replace c); [reflexivity|].
      destruct (c_roac c); [rewrite Hra; auto|]. now rewrite orb_false_r. }
    rewrite New. unfold choice_seed, choice_reset, mbind, modify, get, rng_for.
    cbn [set_rng set_seed c_replace c_seed]. destruct (c_replace c) eqn:Hr.
    - eexists. split; [reflexivity|]. right. cbn. split; auto.
      exists (c_shuffled c), (c_sidx c). unfold set_shuf, set_rng, set_seed. cbn. rewrite Hn, Hit, Hr; auto.
    - rewrite !global_shuffle_eq. unfold shuffle_weights. cbn [set_rng set_seed c_items c_weights c_rng].
      rewrite Hit. destruct (weighted_shuffle _ _ _ _ _ _) as [[sh| |] r]; auto.
      eexists. split; [reflexivity|]. left. unfold set_nui, set_shuf, set_rng, set_seed. cbn. congruence.
  Qed.

  Lemma reset_is_seed ent s (c : C) : c_seed c = Some s -> choice_reset P fuel ent c = choice_seed P fuel (Some s) ent c.
  Proof.
    intros E. unfold choice_reset, choice_seed, mbind, modify. rewrite E.
    replace (set_seed P (Some s) c) with c; [reflexivity|]. destruct c; cbn in *; subst; reflexivity.
  Qed.

  (** ** replace_only_after_call *)
  Hypothesis R : rng_ok P.

  Lemma roac_ask items (q : ask) n (c : C) o c' :
    inv2 items c -> c_roac c = true -> (q = CallN n \/ q = EmitMany n) -> 2 <= n ->
    do_ask P setsize fuel q c = (o, c') ->
    only_rng P c c' /\
    (zlen items < n -> forall l, o <> Ok l) /\
    (zlen items < n -> (exists z, setsize items = Ok z) -> o = Raise ValueError) /\
    (forall l, o = Ok l -> without_replacement items l /\ zlen l = n) /\
    (n <= zlen items -> c_weights c = None -> exists l, o = Ok l).
  Proof.
    intros (Hne & (Hit & _ & Hra) & HW & Hn) Hroac Hq H2 H.
    specialize (Hra Hroac). specialize (Hn Hra).
    split; [eapply ask_only_rng; eauto|].
    assert (E : do_ask P setsize fuel q c = choice_without_replacement P setsize fuel n c).
    { rewrite ask_cases, Hra, Hroac. cbn [negb andb].
      assert (B : (1 <? n) = true) by (apply Z.ltb_lt; lia).
      destruct Hq as [->| ->]; [destruct n as [|[p|p|]|]; try lia|]; rewrite ?B; auto. }
    rewrite E in H. clear E. unfold choice_without_replacement in H. unfold mbind at 1, get at 1 in H.
    cbv beta iota in H. rewrite Hra, Hn, Hit in H. cbn [negb] in H.
    destruct (Z.ltb_spec (zlen items) n) as [Hlt|Hge].
    - unfold mbind at 1, uniqueness_violation, mbind, get, lift, raise in H.
      unfold num_unique_values in H. rewrite Hra, Hit in H.
      split; [|split; [|split; [|intros; exfalso; lia]]].
      + intros _ l. destruct (setsize items); injection H as <- <-; discriminate.
      + intros _ (z & Ez). rewrite Ez in H. injection H as <- <-. auto.
      + intros l. destruct (setsize items); injection H as <- <-; discriminate.
    - unfold mbind at 1, ret at 1 in H. cbv beta iota in H.
      split; [intros; lia|]. split; [intros; lia|].
      destruct (c_weights c) as [ws|].
      + split; [|intros _ X; discriminate].
        intros l ->. unfold on_rng in H. destruct (weighted_shuffle _ _ _ _ _ _) as [o1 r1] eqn:Es.
        injection H as -> <-. apply weighted_shuffle_spec in Es as (_ & W & L); [|apply (zero_false P R)].
        split; auto. rewrite L by lia. lia.
      + destruct (Z.ltb_spec n 0); [lia|]. destruct (Z.ltb_spec (zlen items) n); [lia|]. cbn [orb] in H.
        unfold mbind, on_rng in H. unfold zlen in *.
        pose proof (sample_ok P R (length items) (Z.to_nat n) (c_rng c) ltac:(lia)) as (S1 & S2 & S3).
        destruct (r_sample P (length items) (Z.to_nat n) (c_rng c)) as [pos r1]. cbn [fst] in *.
        destruct (mapS_get_ok items pos (set_rng P r1 c) S3) as (out & Em).
        rewrite Em in H. injection H as <- <-. split; [|eauto].
        intros l X. injection X as <-. apply mapS_get_incl in Em as [_ Em].
        split; [exists pos; auto|]. apply picks_length in Em. lia.
  Qed.

  (** ** Batches *)
  Lemma advance_add a b (c : C) : advance P b (advance P a c) = advance P (a + b) c.
  Proof.
    unfold advance, set_nui, set_shuf. destruct c as [? ? ? ? ? n ? [i|] ? ?]; cbn; rewrite <- Z.sub_add_distr; [rewrite Z.add_assoc|]; reflexivity.
  Qed.

  Lemma firstn_add {B} a b (l : list B) : firstn (a + b) l = firstn a l ++ firstn b (skipn a l).
  Proof. revert l. induction a; intros [|x l]; cbn; auto. now rewrite firstn_nil. f_equal. auto. Qed.

  Lemma batch_noreplace items a b (c c2 : C) l :
    inv P items c -> c_replace c = false -> 0 <= a -> 0 <= b ->
    do_ask P setsize fuel (CallN (a + b)) c = (Ok l, c2) ->
    exists c1, do_ask P setsize fuel (CallN a) c = (Ok (firstn (Z.to_nat a) l), c1) /\
               do_ask P setsize fuel (CallN b) c1 = (Ok (skipn (Z.to_nat a) l), c2).
  Proof.
    intros Hi Hr Ha Hb H.
    destruct (ask_noreplace P setsize fuel items (CallN (a + b)) c Hi Hr ltac:(cbn; lia)) as [G1 G2].
    destruct (ask_noreplace P setsize fuel items (CallN a) c Hi Hr ltac:(cbn; lia)) as [_ G3].
    cbn [ask_size] in *.
    destruct (Z.lt_ge_cases (c_nui c) (a + b)) as [Hc|Hc].
    { destruct (G1 Hc) as (o & E & Ho & _). rewrite E in H. injection H as -> _. destruct (Ho l eq_refl). }
    rewrite (G2 Hc) in H. injection H as <- <-. rewrite (G3 ltac:(lia)).
    exists (advance P a c).
    assert (HL : (Z.to_nat a + Z.to_nat b <= length (left_of P c))%nat).
    { destruct (inv_left P items c Hi Hr) as (L & _). unfold zlen in L. lia. }
    rewrite Z2Nat.inj_add, firstn_add by lia.
    destruct (split_app (Z.to_nat a) (firstn (Z.to_nat a) (left_of P c))
                (firstn (Z.to_nat b) (skipn (Z.to_nat a) (left_of P c)))) as [-> ->].
    { rewrite firstn_length. lia. }
    split; auto.
    destruct (ask_noreplace P setsize fuel items (CallN b) (advance P a c)) as [_ G4]; auto.
    { apply advance_inv; auto; lia. }
    cbn [ask_size] in G4. rewrite G4 by (cbn; lia).
    rewrite (advance_left P items) by auto. rewrite advance_add. reflexivity.
  Qed.

  Lemma batch_noreplace_conv items a b (c c1 c2 : C) l1 l2 :
    inv P items c -> c_replace c = false -> 0 <= a -> 0 <= b ->
    do_ask P setsize fuel (CallN a) c = (Ok l1, c1) -> do_ask P setsize fuel (CallN b) c1 = (Ok l2, c2) ->
    do_ask P setsize fuel (CallN (a + b)) c = (Ok (l1 ++ l2), c2).
  Proof.
    intros Hi Hr Ha Hb H1 H2.
    destruct (ask_noreplace P setsize fuel items (CallN (a + b)) c Hi Hr ltac:(cbn; lia)) as [_ G2].
    destruct (ask_noreplace P setsize fuel items (CallN a) c Hi Hr ltac:(cbn; lia)) as [F3 G3].
    cbn [ask_size] in *.
    destruct (Z.lt_ge_cases (c_nui c) a) as [Hc|Hc].
    { destruct (F3 Hc) as (o & E & Ho & _). rewrite E in H1. injection H1 as -> _. destruct (Ho l1 eq_refl). }
    rewrite (G3 Hc) in H1. injection H1 as <- <-.
    destruct (ask_noreplace P setsize fuel items (CallN b) (advance P a c)) as [F4 G4]; auto.
    { apply advance_inv; auto; lia. }
    cbn [ask_size] in *. change (c_nui (advance P a c)) with (c_nui c - a) in F4, G4.
    destruct (Z.lt_ge_cases (c_nui c - a) b) as [Hd|Hd].
    { destruct (F4 Hd) as (o & E & Ho & _). rewrite E in H2. injection H2 as -> _. destruct (Ho l2 eq_refl). }
    rewrite (G4 Hd) in H2. injection H2 as <- <-. rewrite G2 by lia.
    rewrite (advance_left P items) by auto. rewrite advance_add.
    rewrite Z2Nat.inj_add, firstn_add by lia. reflexivity.
  Qed.

  (** Weighted, with replacement: one draw per value, in order. *)
  Lemma list_rep_app {B} (l : list B) a b : 0 <= a -> 0 <= b -> list_rep l (a + b) = list_rep l a ++ list_rep l b.
  Proof.
    intros Ha Hb. unfold list_rep. rewrite Z2Nat.inj_add by lia.
    induction (Z.to_nat a); cbn; auto. rewrite <- app_assoc. f_equal. auto.
  Qed.

  Lemma list_rep_length {B} (l : list B) n : 0 <= n -> zlen (list_rep l n) = n * zlen l.
  Proof.
    intros H. unfold list_rep, zlen. rewrite <- (Z2Nat.id n) at 2 by auto. induction (Z.to_nat n); [reflexivity|].
    cbn [list_rep_nat]. rewrite app_length. lia.
  Qed.

  Lemma with_weights_ask n (c : C) ws cum :
    c_replace c = true -> c_roac c = false -> c_weights c = Some ws -> c_cum c = Some cum ->
    do_ask P setsize fuel (CallN n) c = choice_with_replacement P n c.
  Proof.
    intros Hr Hro Hw Hc. rewrite ask_cases, Hr, Hro. cbn [negb andb].
    destruct n as [|[p|p|]|]; try reflexivity.
    unfold mbind at 1. destruct (choice_with_replacement P 1 c) as [[l| |] c1] eqn:E; try reflexivity.
    assert (HL : length l = 1%nat).
    { unfold choice_with_replacement, mbind, get in E. rewrite Hw, Hc in E.
      destruct (Z.eqb_spec (zlen (c_items c)) 1) as [E1|E1].
      - injection E as <- <-. pose proof (list_rep_length (c_items c) 1 ltac:(lia)). unfold zlen in *. lia.
      - unfold on_rng in E. unfold choices_cum in E.
        destruct (length cum =? length (c_items c))%nat; cbn [negb] in E; [|discriminate].
        destruct (rev cum) as [|t q]; [discriminate|]. destruct (w_total_ok P t); cbn [negb] in E; [|discriminate].
        pose proof (draws_length P (Z.to_nat 1) (c_rng c)) as D.
        destruct (draws P (Z.to_nat 1) (c_rng c)) as [us r1]. cbn [fst] in D.
        apply mapS_get_incl in E as [_ E]. apply picks_length in E. rewrite map_length in E. cbn in D. lia. }
    destruct l as [|a [|b l]]; try discriminate. reflexivity.
  Qed.

  (** What a weighted call with replacement returns: one draw per value. *)
  Lemma weighted_ask_iff n (c : C) ws cum l c' :
    c_replace c = true -> c_roac c = false -> c_weights c = Some ws -> c_cum c = Some cum ->
    zlen (c_items c) <> 1 ->
    do_ask P setsize fuel (CallN n) c = (Ok l, c') <->
    exists t q us r, length cum = length (c_items c) /\ rev cum = t :: q /\ w_total_ok P t = true /\
      draws P (Z.to_nat n) (c_rng c) = (us, r) /\ c' = set_rng P r c /\
      picks (c_items c) (map (fun u => bisect_right P (length cum) cum (w_scale P u t) 0 (length (c_items c) - 1)) us) l.
  Proof.
    intros Hr Hro Hw Hc H1. rewrite (with_weights_ask n c ws cum) by auto.
    unfold choice_with_replacement, mbind, get, on_rng, choices_cum. rewrite Hw, Hc.
    destruct (Z.eqb_spec (zlen (c_items c)) 1); [contradiction|].
    destruct (Nat.eqb_spec (length cum) (length (c_items c))) as [E2|E2]; cbn [negb].
    2:{ split; [discriminate|]. intros (t & q & us & r & X & _); contradiction. }
    destruct (rev cum) as [|t q] eqn:E3.
    { split; [discriminate|]. intros (t & q & us & r & _ & X & _); discriminate. }
    destruct (w_total_ok P t) eqn:E4; cbn [negb].
    2:{ split; [discriminate|]. intros (t' & q' & us & r & _ & X & Y & _). injection X as <- <-. congruence. }
    destruct (draws P (Z.to_nat n) (c_rng c)) as [us r]. split.
    - intros H. apply mapS_get_incl in H as [-> H]. exists t, q, us, r. repeat split; auto.
    - intros (t' & q' & us' & r' & _ & X & _ & D & -> & H). injection X as <- <-. injection D as <- <-.
      set (pos := map _ us) in *.
      destruct (mapS_get_ok (c_items c) pos (set_rng P r c)) as (out & Em).
      { intros i Hi. eapply picks_lt; eauto. }
      rewrite Em. apply mapS_get_incl in Em as [_ Em]. do 2 f_equal. eapply picks_fun; eauto.
  Qed.

  Lemma single_ask n (c : C) ws cum :
    c_replace c = true -> c_roac c = false -> c_weights c = Some ws -> c_cum c = Some cum ->
    zlen (c_items c) = 1 -> do_ask P setsize fuel (CallN n) c = (Ok (list_rep (c_items c) n), c).
  Proof.
    intros Hr Hro Hw Hc H1. rewrite (with_weights_ask n c ws cum) by auto.
    unfold choice_with_replacement, mbind, get. rewrite H1. reflexivity.
  Qed.

  Lemma batch_weighted a b (c : C) ws cum l c2 :
    c_replace c = true -> c_roac c = false -> c_weights c = Some ws -> c_cum c = Some cum -> 0 <= a -> 0 <= b ->
    do_ask P setsize fuel (CallN (a + b)) c = (Ok l, c2) ->
    exists c1, do_ask P setsize fuel (CallN a) c = (Ok (firstn (Z.to_nat a) l), c1) /\
               do_ask P setsize fuel (CallN b) c1 = (Ok (skipn (Z.to_nat a) l), c2).
  Proof.
    intros Hr Hro Hw Hc Ha Hb H.
    destruct (Z.eq_dec (zlen (c_items c)) 1) as [E|E].
    - rewrite (single_ask _ c ws cum) in H by auto. injection H as <- <-. exists c.
      rewrite !(single_ask _ c ws cum) by auto.
      rewrite list_rep_app by auto.
      pose proof (list_rep_length (c_items c) a Ha) as L. rewrite E, Z.mul_1_r in L. unfold zlen in L.
      destruct (split_app (Z.to_nat a) (list_rep (c_items c) a) (list_rep (c_items c) b)) as [-> ->]; [lia|auto].
    - apply (weighted_ask_iff _ c ws cum) in H as (t & q & us & r & H1 & H2 & H3 & D & -> & Hp); auto.
      rewrite Z2Nat.inj_add, draws_app in D by lia.
      pose proof (draws_length P (Z.to_nat a) (c_rng c)) as La.
      destruct (draws P (Z.to_nat a) (c_rng c)) as [u1 r1] eqn:D1. destruct (draws P (Z.to_nat b) r1) as [u2 r2] eqn:D2.
      injection D as <- <-. cbn [fst] in La. rewrite map_app in Hp.
      apply Forall2_app_inv_l in Hp as (l1 & l2 & P1 & P2 & ->).
      pose proof (picks_length _ _ _ P1) as L1. rewrite map_length in L1.
      destruct (split_app (Z.to_nat a) l1 l2) as [F S]; [lia|].
      rewrite F, S. exists (set_rng P r1 c). split.
      + apply (weighted_ask_iff _ c ws cum); auto. exists t, q, u1, r1. repeat split; auto.
      + apply (weighted_ask_iff _ _ ws cum); auto. exists t, q, u2, r2. repeat split; auto.
  Qed.

  Lemma batch_weighted_conv a b (c c1 c2 : C) ws cum l1 l2 :
    c_replace c = true -> c_roac c = false -> c_weights c = Some ws -> c_cum c = Some cum -> 0 <= a -> 0 <= b ->
    do_ask P setsize fuel (CallN a) c = (Ok l1, c1) -> do_ask P setsize fuel (CallN b) c1 = (Ok l2, c2) ->
    do_ask P setsize fuel (CallN (a + b)) c = (Ok (l1 ++ l2), c2).
  Proof.
    intros Hr Hro Hw Hc Ha Hb H H'.
    destruct (Z.eq_dec (zlen (c_items c)) 1) as [E|E].
    - rewrite (single_ask _ c ws cum) in H by auto. injection H as <- <-.
      rewrite (single_ask _ c ws cum) in H' by auto. injection H' as <- <-.
      rewrite (single_ask _ c ws cum) by auto. rewrite list_rep_app by auto. auto.
    - apply (weighted_ask_iff _ c ws cum) in H as (t & q & us & r & H1 & H2 & H3 & D & -> & Hp); auto.
      apply (weighted_ask_iff _ _ ws cum) in H' as (t' & q' & us' & r' & _ & H2' & _ & D' & -> & Hp'); auto.
      cbn [set_rng c_items] in *. rewrite H2 in H2'. injection H2' as <- <-.
      apply (weighted_ask_iff _ c ws cum); auto. exists t, q, (us ++ us'), r'. repeat split; auto.
      + rewrite Z2Nat.inj_add, draws_app, D by lia. cbn [set_rng c_rng] in D'. rewrite D'. reflexivity.
      + rewrite map_app. apply Forall2_app; auto.
  Qed.
End Ch.
