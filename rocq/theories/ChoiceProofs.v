(** * Lemmas about ChoiceModel *)
From Verif Require Import Base Prims MathModel MathSpec MathProofs ChoiceModel ChoiceRun.
From Coq Require Import Permutation.

Section Ch.
  Context (P : prims) {A : Type}.
  Context (setsize : list A -> res Z) (fuel : nat).
  Notation C := (@choice P A).

  Ltac mstep H := unfold mbind, lift, ret, raise, diverge, get, modify, on_rng in H.

  (** Case analysis on a bind that ended in a known outcome. *)
  Lemma mbind_inv {S B D} (m : M S B) (f : B -> M S D) s o s' :
    mbind m f s = (o, s') ->
    (exists b s1, m s = (Ok b, s1) /\ f b s1 = (o, s')) \/
    (exists e, m s = (Raise e, s') /\ o = Raise e) \/
    (m s = (Diverge, s') /\ o = Diverge).
  Proof.
    unfold mbind. destruct (m s) as [[b|e|] s1]; intros H.
    - left. eauto.
    - injection H as <- <-. right. left. eauto.
    - injection H as <- <-. right. right. auto.
  Qed.

  Lemma mbind_ok {S B D} (m : M S B) (f : B -> M S D) s d s' :
    mbind m f s = (Ok d, s') -> exists b s1, m s = (Ok b, s1) /\ f b s1 = (Ok d, s').
  Proof.
    intros H. apply mbind_inv in H as [H|[(e & _ & H)|(_ & H)]]; eauto; discriminate.
  Qed.

  (** ** Elements come from the items *)
  Lemma take_new_incl (items : list A) pos ws sample ws' sample' :
    take_new P items pos ws sample = Ok (ws', sample') -> incl sample items -> incl sample' items.
  Proof.
    revert ws sample. induction pos as [|i pos IH]; intros ws sample H Hi; cbn in H.
    - injection H as <- <-. auto.
    - destruct (nth_error ws i) as [w|]; [|discriminate].
      destruct (w_true P w); [|eauto].
      destruct (nth_error items i) as [a|] eqn:E; [|discriminate].
      apply IH in H; auto. intros x Hx. apply in_app_iff in Hx as [Hx|[<-|[]]]; auto.
      eapply nth_error_In; eauto.
  Qed.

  Lemma low_k_incl f (items : list A) ws sample k r out r' :
    low_k_loop P f items ws sample k r = (Ok out, r') -> incl sample items -> incl out items.
  Proof.
    revert ws sample r. induction f as [|f IH]; intros ws sample r H Hi; [discriminate|].
    cbn [low_k_loop] in H. destruct (k - zlen sample =? 0).
    - injection H as <- <-. auto.
    - apply mbind_ok in H as (pos & r1 & _ & H).
      apply mbind_ok in H as ([ws' s'] & r2 & H1 & H). unfold lift in H1. injection H1 as H1 <-.
      cbn in H. eapply IH; eauto using take_new_incl.
  Qed.

  Lemma scores_incl ws (items : list A) r sc r' :
    scores P ws items r = (Ok sc, r') -> incl (map snd sc) items.
  Proof.
    revert ws r sc r'. induction items as [|a items IH]; intros [|w ws] r sc r' H; cbn [scores] in H.
    1-3: injection H as <- <-; intros ? [].
    destruct (r_random P r) as [u r1].
    apply mbind_ok in H as (s & r2 & _ & H). apply mbind_ok in H as (rest & r3 & H1 & H).
    injection H as <- <-. apply IH in H1. cbn. intros x [<-|Hx]; [left; auto|right; auto].
  Qed.

  Lemma weighted_shuffle_incl f (items : list A) ws n r out r' :
    weighted_shuffle P f items ws n r = (Ok out, r') -> incl out items.
  Proof.
    unfold weighted_shuffle. destruct (_ =? _)%nat; cbn [negb]; [|discriminate].
    destruct (use_low_k _ _).
    - intros H. apply low_k_incl in H; auto. intros ? [].
    - intros H. apply mbind_ok in H as (sc & r1 & H1 & H). injection H as <- <-.
      apply scores_incl in H1. intros x Hx. apply H1. apply in_map_iff in Hx as (y & <- & Hy).
      apply in_slice in Hy. apply (Permutation_in _ (sort_desc_perm P sc)) in Hy.
      apply in_map. auto.
  Qed.

  Lemma mapS_get_incl {S} (items : list A) pos (s : S) out s' :
    mapS (get_item items) pos s = (Ok out, s') -> s' = s /\ picks items pos out.
  Proof.
    revert out. induction pos as [|i pos IH]; intros out H; cbn in H.
    - injection H as <- <-. split; auto. constructor.
    - apply mbind_ok in H as (a & s1 & H1 & H). apply mbind_ok in H as (bs & s2 & H2 & H).
      injection H as <- <-. unfold get_item in H1.
      destruct (nth_error items i) as [b|] eqn:E; [|discriminate]. injection H1 as -> <-.
      apply IH in H2 as [-> H2]. split; auto. constructor; auto.
  Qed.

  Lemma mapS_get_ok {S} (items : list A) pos (s : S) :
    (forall i, In i pos -> (i < length items)%nat) ->
    exists out, mapS (get_item items) pos s = (Ok out, s).
  Proof.
    induction pos as [|i pos IH]; intros H; cbn.
    - eexists. reflexivity.
    - destruct IH as [out IH]. { intros; apply H; right; auto. }
      unfold mbind. unfold get_item at 1. destruct (nth_error items i) as [a|] eqn:E.
      + unfold ret at 1. rewrite IH. eexists. reflexivity.
      + apply nth_error_None in E. specialize (H i (or_introl eq_refl)). lia.
  Qed.

  Lemma mapS_get_state {S} (items : list A) pos (s : S) o s' :
    mapS (get_item items) pos s = (o, s') -> s' = s.
  Proof.
    revert o. induction pos as [|i pos IH]; intros o H; cbn in H.
    - injection H as <- <-. auto.
    - unfold mbind in H. unfold get_item at 1 in H. destruct (nth_error items i); [|injection H as <- <-; auto].
      unfold ret at 1 in H. destruct (mapS (get_item items) pos s) as [[b| |] s1] eqn:E; injection H as <- <-; eauto.
  Qed.

  Lemma picks_incl (items : list A) ps out : picks items ps out -> incl out items.
  Proof.
    induction 1 as [|p a ps o H1 H2 IH]; [intros ? []|].
    intros x [<-|Hx]; auto. eapply nth_error_In; eauto.
  Qed.

  (** ** Frame: what each operation may change.  [fixed c c'] relates states
      with the same settings. *)
  Definition fixed (c c' : C) : Prop :=
    c_items c' = c_items c /\ c_weights c' = c_weights c /\ c_cum c' = c_cum c /\
    c_replace c' = c_replace c /\ c_roac c' = c_roac c /\ c_seed c' = c_seed c.

  Lemma fixed_refl c : fixed c c.
  Proof. repeat split. Qed.

  Lemma uv_state {B} c o c' : @uniqueness_violation P A setsize B c = (o, c') ->
    c' = c /\ (forall b, o <> Ok b).
  Proof.
    unfold uniqueness_violation, mbind, get, lift, raise.
    destruct (num_unique_values P setsize c); intros H; injection H as <- <-; split; congruence.
  Qed.

  (** Requests on an emitter with replacement only move the RNG. *)
  Definition only_rng (c c' : C) : Prop := exists r, c' = set_rng P r c.
  Lemma only_rng_refl c : only_rng c c.
  Proof. exists (c_rng c). destruct c; reflexivity. Qed.
  Lemma set_rng_twice r1 r2 (c : C) : set_rng P r1 (set_rng P r2 c) = set_rng P r1 c.
  Proof. destruct c; reflexivity. Qed.

  Lemma with_state n (c : C) o c' : choice_with_replacement P n c = (o, c') -> only_rng c c'.
  Proof.
    unfold choice_with_replacement, mbind, get. intros H.
    destruct (zlen (c_items c) =? 1). { injection H as <- <-. apply only_rng_refl. }
    assert (G : forall (m : M (pR P) (list nat)) o c',
      (let '(o, s') := on_rng P m c in match o with
        | Ok a => mapS (get_item (c_items c)) a s'
        | Raise e => (Raise e, s') | Diverge => (Diverge, s') end) = (o, c') -> only_rng c c').
    { intros m o1 c1. unfold on_rng. destruct (m (c_rng c)) as [[pos| |] r].
      - intros Hm. apply mapS_get_state in Hm as ->. exists r. reflexivity.
      - intros Hm; injection Hm as <- <-. exists r. reflexivity.
      - intros Hm; injection Hm as <- <-. exists r. reflexivity. }
    destruct (c_weights c) as [ws|].
    - eapply G. exact H.
    - destruct (n =? 1).
      + unfold on_rng in H. destruct (r_below P (length (c_items c)) (c_rng c)) as [i r].
        unfold get_item, ret, raise in H. destruct (nth_error (c_items c) i); injection H as <- <-; exists r; reflexivity.
      + eapply G. exact H.
  Qed.

  Lemma with_incl n (c : C) l c' : choice_with_replacement P n c = (Ok l, c') -> incl l (c_items c).
  Proof.
    unfold choice_with_replacement, mbind, get. intros H.
    destruct (zlen (c_items c) =? 1).
    { injection H as <- <-. unfold list_rep. induction (Z.to_nat n); cbn; [intros ? []|].
      apply incl_app; auto. apply incl_refl. }
    assert (G : forall (m : M (pR P) (list nat)) l c',
      (let '(o, s') := on_rng P m c in match o with
        | Ok a => mapS (get_item (c_items c)) a s'
        | Raise e => (Raise e, s') | Diverge => (Diverge, s') end) = (Ok l, c') -> incl l (c_items c)).
    { intros m l1 c1. unfold on_rng. destruct (m (c_rng c)) as [[pos| |] r]; [|discriminate..].
      intros Hm. apply mapS_get_incl in Hm as [_ Hm]. eapply picks_incl; eauto. }
    destruct (c_weights c) as [ws|].
    - eapply G. exact H.
    - destruct (n =? 1).
      + unfold on_rng in H. destruct (r_below P (length (c_items c)) (c_rng c)) as [i r].
        unfold get_item, ret, raise in H. destruct (nth_error (c_items c) i) eqn:E; [|discriminate].
        injection H as <- <-. intros x [<-|[]]. eapply nth_error_In; eauto.
      + eapply G. exact H.
  Qed.

  (** The no-replacement path, split in its two uses. *)
  Lemma without_roac_state n (c : C) o c' :
    c_replace c = true -> choice_without_replacement P setsize fuel n c = (o, c') -> only_rng c c'.
  Proof.
    intros Hr H. unfold choice_without_replacement in H. unfold mbind at 1, get at 1 in H.
    rewrite Hr in H. cbn [negb] in H.
    apply mbind_inv in H as [([] & c1 & H1 & H)|[(e & H & _)|(H & _)]].
    2-3: destruct (c_nui c <? n); [apply uv_state in H as [-> _]; apply only_rng_refl|discriminate].
    assert (c1 = c) as ->.
    { destruct (c_nui c <? n); [apply uv_state in H1 as [-> _]; auto|injection H1 as <-; auto]. }
    destruct (c_weights c) as [ws|].
    - unfold on_rng in H. destruct (weighted_shuffle _ _ _ _ _ _) as [o1 r]. injection H as <- <-.
      exists r; auto.
    - destruct ((n <? 0) || _); [injection H as <- <-; apply only_rng_refl|].
      unfold mbind, on_rng in H. destruct (r_sample P _ _ _) as [pos r].
      apply mapS_get_state in H as ->. exists r; auto.
  Qed.

  Lemma without_incl n (c : C) l c' :
    incl (c_shuffled c) (c_items c) ->
    choice_without_replacement P setsize fuel n c = (Ok l, c') -> incl l (c_items c).
  Proof.
    intros Hs H. unfold choice_without_replacement in H. unfold mbind at 1, get at 1 in H.
    apply mbind_ok in H as ([] & c1 & H1 & H).
    assert (c1 = c) as ->.
    { destruct (c_nui c <? n); [apply uv_state in H1 as [-> _]; auto|injection H1 as <-; auto]. }
    destruct (c_replace c); cbn [negb] in H.
    - destruct (c_weights c) as [ws|].
      + unfold on_rng in H. destruct (weighted_shuffle _ _ _ _ _ _) as [o1 r] eqn:E. injection H as -> <-.
        eapply weighted_shuffle_incl; eauto.
      + destruct ((n <? 0) || _); [discriminate|].
        unfold mbind, on_rng in H. destruct (r_sample P _ _ _) as [pos r].
        apply mapS_get_incl in H as [_ H]. eapply picks_incl; eauto.
    - apply mbind_ok in H as (i & c1 & H2 & H).
      destruct (c_sidx c) as [j|]; [|discriminate]. injection H2 as -> <-.
      apply mbind_ok in H as (its & c2 & H2 & H). unfold mbind, modify, ret in H. injection H as -> <-.
      intros x Hx. apply Hs. destruct (n =? 1).
      + apply mbind_ok in H2 as (a & c3 & H2 & H3). unfold lift in H2. injection H3 as <- <-.
        destruct Hx as [<-|[]]. injection H2 as H2 _. unfold list_get in H2.
        destruct (norm_index _ _); [|discriminate]. destruct (nth_error _ _) eqn:E; [|discriminate].
        injection H2 as ->. eapply nth_error_In; eauto.
      + injection H2 as <- <-. eapply in_slice; eauto.
  Qed.

  (** Without replacement: items and settings stay, the shuffle is kept. *)
  Lemma without_state n (c : C) o c' :
    choice_without_replacement P setsize fuel n c = (o, c') ->
    fixed c c' /\ c_shuffled c' = c_shuffled c.
  Proof.
    intros H. destruct (c_replace c) eqn:Hr.
    - apply without_roac_state in H as [r ->]; auto; repeat split.
    - unfold choice_without_replacement in H. unfold mbind at 1, get at 1 in H.
      rewrite Hr in H. cbn [negb] in H.
      apply mbind_inv in H as [([] & c1 & H1 & H)|[(e & H & _)|(H & _)]].
      2-3: destruct (c_nui c <? n); [apply uv_state in H as [-> _]; repeat split|discriminate].
      assert (c1 = c) as ->.
      { destruct (c_nui c <? n); [apply uv_state in H1 as [-> _]; auto|injection H1 as <-; auto]. }
      apply mbind_inv in H as [(i & c1 & H2 & H)|[(e & H & _)|(H & _)]].
      2-3: destruct (c_sidx c); [discriminate|]; injection H; intros; subst; repeat split.
      destruct (c_sidx c) as [j|]; [|discriminate]. injection H2 as -> <-.
      assert (G : forall (x : res (list A)) c2, (if n =? 1 then a <~ lift (list_get (c_shuffled c) i) ;; ret [a]
                else ret (list_slice (c_shuffled c) i (i + n))) c = (x, c2) -> c2 = c).
      { intros x c2. destruct (n =? 1); unfold mbind, lift, ret; [destruct (list_get _ _)|]; congruence. }
      apply mbind_inv in H as [(its & c2 & H2 & H)|[(e & H2 & _)|(H2 & _)]].
      + apply G in H2 as ->. unfold mbind, modify, ret in H. injection H as <- <-. repeat split.
      + apply G in H2 as ->. repeat split.
      + apply G in H2 as ->. repeat split.
  Qed.

  (** ** One request *)
  Lemma ask_cases q (c : C) :
    do_ask P setsize fuel q c =
    (if negb (c_replace c)
     then (match q with
           | Call0 | Emit | CallN 1 =>
               (l <~ choice_without_replacement P setsize fuel 1 ;; a <~ lift (list_get l 0) ;; ret [a])
           | CallN n | EmitMany n => choice_without_replacement P setsize fuel n
           end) c
     else (match q with
           | Call0 | Emit | CallN 1 =>
               (l <~ choice_with_replacement P 1 ;; a <~ lift (list_get l 0) ;; ret [a])
           | CallN n | EmitMany n =>
               if c_roac c && (1 <? n) then choice_without_replacement P setsize fuel n
               else choice_with_replacement P n
           end) c).
  Proof.
    assert (E : forall c : C, (a <~ choice_emit P setsize fuel ;; ret [a]) c =
       (if negb (c_replace c) then (l <~ choice_without_replacement P setsize fuel 1 ;; a <~ lift (list_get l 0) ;; ret [a])
        else (l <~ choice_with_replacement P 1 ;; a <~ lift (list_get l 0) ;; ret [a])) c).
    { intros c1. unfold choice_emit, mbind, get. destruct (negb (c_replace c1)).
      - destruct (choice_without_replacement _ _ _ _ _) as [[l| |] c2]; reflexivity.
      - destruct (choice_with_replacement _ _ _) as [[l| |] c2]; reflexivity. }
    assert (F : forall n (c : C), choice_emit_many P setsize fuel n c =
      (if negb (c_replace c) then choice_without_replacement P setsize fuel n c
       else (if c_roac c && (1 <? n) then choice_without_replacement P setsize fuel n else choice_with_replacement P n) c)).
    { intros n c1. unfold choice_emit_many, mbind, get. destruct (negb (c_replace c1)); cbn [orb]; auto. }
    destruct q; cbn [do_ask]; unfold choice_call, choice_call_n.
    - rewrite E. destruct (negb (c_replace c)); auto.
    - destruct (Z.eqb_spec n 1) as [->|Hn].
      + rewrite E. destruct (negb (c_replace c)); auto.
      + rewrite F. destruct n as [|[p|p|]|]; try lia; destruct (negb (c_replace c)); auto.
    - rewrite E. destruct (negb (c_replace c)); auto.
    - rewrite F. destruct (negb (c_replace c)); auto.
  Qed.

  Lemma single_incl (l : list A) {S} (s : S) o s' items :
    (a <~ lift (list_get l 0) ;; ret [a]) s = (Ok o, s') -> incl l items -> incl o items /\ s' = s.
  Proof.
    unfold mbind, lift, ret. destruct (list_get l 0) eqn:E; [|discriminate..].
    intros H Hi. injection H as <- <-. split; auto.
    intros x [<-|[]]. apply Hi. destruct l; [discriminate|]. unfold list_get in E.
    destruct (norm_index _ 0); [|discriminate]. destruct (nth_error _ _) eqn:E2; [|discriminate].
    injection E as ->. eapply nth_error_In; eauto.
  Qed.

  Lemma single_state (l : list A) {S} (s : S) o s' :
    (a <~ lift (list_get l 0) ;; ret [a]) s = (o, s') -> s' = s.
  Proof. unfold mbind, lift, ret. destruct (list_get l 0); congruence. Qed.

  Lemma ask_incl q (c : C) l c' :
    incl (c_shuffled c) (c_items c) -> do_ask P setsize fuel q c = (Ok l, c') -> incl l (c_items c).
  Proof.
    intros Hs H. rewrite ask_cases in H.
    assert (G1 : forall l c', (l <~ choice_without_replacement P setsize fuel 1 ;; a <~ lift (list_get l 0) ;; ret [a]) c
                 = (Ok l, c') -> incl l (c_items c)).
    { intros l1 c1 H1. apply mbind_ok in H1 as (l2 & c2 & H1 & H2).
      apply without_incl in H1; auto. eapply single_incl in H2 as [H2 _]; eauto. }
    assert (G2 : forall l c', (l <~ choice_with_replacement P 1 ;; a <~ lift (list_get l 0) ;; ret [a]) c
                 = (Ok l, c') -> incl l (c_items c)).
    { intros l1 c1 H1. apply mbind_ok in H1 as (l2 & c2 & H1 & H2).
      apply with_incl in H1; auto. eapply single_incl in H2 as [H2 _]; eauto. }
    assert (G3 : forall n l c', choice_without_replacement P setsize fuel n c = (Ok l, c') -> incl l (c_items c)).
    { intros; eauto using without_incl. }
    assert (G4 : forall n l c', (if c_roac c && (1 <? n) then choice_without_replacement P setsize fuel n
               else choice_with_replacement P n) c = (Ok l, c') -> incl l (c_items c)).
    { intros n l1 c1. destruct (c_roac c && (1 <? n)); eauto using without_incl, with_incl. }
    destruct (negb (c_replace c)).
    - destruct q as [|n| |n]; eauto. destruct n as [|[p|p|]|]; eauto.
    - destruct q as [|n| |n]; eauto. destruct n as [|[p|p|]|]; eauto.
  Qed.

  Lemma only_rng_frame c c' : only_rng c c' -> fixed c c' /\ c_shuffled c' = c_shuffled c.
  Proof. intros [r ->]. repeat split. Qed.

  Lemma ask_state q (c : C) o c' :
    do_ask P setsize fuel q c = (o, c') -> fixed c c' /\ c_shuffled c' = c_shuffled c.
  Proof.
    intros H. rewrite ask_cases in H.
    assert (G1 : forall o c', (l <~ choice_without_replacement P setsize fuel 1 ;; a <~ lift (list_get l 0) ;; ret [a]) c
                 = (o, c') -> fixed c c' /\ c_shuffled c' = c_shuffled c).
    { intros l1 c1 H1. apply mbind_inv in H1 as [(l2 & c2 & H1 & H2)|[(e & H1 & _)|(H1 & _)]];
      apply without_state in H1; auto. apply single_state in H2 as ->. auto. }
    assert (G2 : forall o c', (l <~ choice_with_replacement P 1 ;; a <~ lift (list_get l 0) ;; ret [a]) c
                 = (o, c') -> fixed c c' /\ c_shuffled c' = c_shuffled c).
    { intros l1 c1 H1. apply mbind_inv in H1 as [(l2 & c2 & H1 & H2)|[(e & H1 & _)|(H1 & _)]];
      apply with_state, only_rng_frame in H1; auto. apply single_state in H2 as ->. auto. }
    assert (G3 : forall n o c', choice_without_replacement P setsize fuel n c = (o, c') ->
                 fixed c c' /\ c_shuffled c' = c_shuffled c).
    { intros; eauto using without_state. }
    assert (G4 : forall n o c', (if c_roac c && (1 <? n) then choice_without_replacement P setsize fuel n
               else choice_with_replacement P n) c = (o, c') -> fixed c c' /\ c_shuffled c' = c_shuffled c).
    { intros n l1 c1. destruct (c_roac c && (1 <? n)); eauto using without_state.
      intros H1. apply with_state, only_rng_frame in H1. auto. }
    destruct (negb (c_replace c)).
    - destruct q as [|n| |n]; eauto. destruct n as [|[p|p|]|]; eauto.
    - destruct q as [|n| |n]; eauto. destruct n as [|[p|p|]|]; eauto.
  Qed.

  Lemma ask_only_rng q (c : C) o c' :
    c_replace c = true -> do_ask P setsize fuel q c = (o, c') -> only_rng c c'.
  Proof.
    intros Hr H. rewrite ask_cases, Hr in H. cbn [negb] in H.
    assert (G2 : forall o c', (l <~ choice_with_replacement P 1 ;; a <~ lift (list_get l 0) ;; ret [a]) c
                 = (o, c') -> only_rng c c').
    { intros l1 c1 H1. apply mbind_inv in H1 as [(l2 & c2 & H1 & H2)|[(e & H1 & _)|(H1 & _)]];
      apply with_state in H1; auto. apply single_state in H2 as ->. auto. }
    assert (G4 : forall n o c', (if c_roac c && (1 <? n) then choice_without_replacement P setsize fuel n
               else choice_with_replacement P n) c = (o, c') -> only_rng c c').
    { intros n l1 c1. destruct (c_roac c && (1 <? n)); eauto using without_roac_state, with_state. }
    destruct q as [|n| |n]; eauto. destruct n as [|[p|p|]|]; eauto.
  Qed.

  (** ** Shuffling *)
  Definition shuffle_weights (c : C) : list (pW P) :=
    match c_weights c with Some (w :: t) => w :: t | _ => repeat (w_one P) (length (c_items c)) end.

  Lemma global_shuffle_eq (c : C) :
    global_shuffle P fuel c =
    let '(o, r) := weighted_shuffle P fuel (c_items c) (shuffle_weights c) None (c_rng c) in
    match o with
    | Ok sh => (Ok tt, set_nui P (zlen (c_items c)) (set_shuf P sh (Some 0) (set_rng P r c)))
    | Raise e => (Raise e, set_rng P r c)
    | Diverge => (Diverge, set_rng P r c)
    end.
  Proof.
    unfold global_shuffle, mbind, get, modify, on_rng.
    assert (E : (if nonempty (c_weights c) then match c_weights c with Some w => w | None => [] end
                 else repeat (w_one P) (length (c_items c))) = shuffle_weights c).
    { unfold shuffle_weights. destruct (c_weights c) as [[|w t]|]; auto. }
    rewrite E. destruct (weighted_shuffle _ _ _ _ _ _) as [[sh| |] r]; auto.
  Qed.

  (** The result of a successful shuffle. *)
  Definition shuffled_ok (c : C) : Prop :=
    Permutation (c_shuffled c) (c_items c) /\ c_sidx c = Some 0 /\ c_nui c = zlen (c_items c).

  Lemma global_shuffle_ok (c c' : C) :
    w_true P (w_zero P) = false ->
    global_shuffle P fuel c = (Ok tt, c') -> fixed c c' /\ shuffled_ok c'.
  Proof.
    intros Hz. rewrite global_shuffle_eq.
    destruct (weighted_shuffle _ _ _ _ _ _) as [[sh| |] r] eqn:E; [|discriminate..].
    intros H; injection H as <-. split; [repeat split|].
    apply weighted_shuffle_full in E; auto. repeat split; auto.
  Qed.

  Lemma global_shuffle_any (c : C) o c' :
    global_shuffle P fuel c = (o, c') ->
    fixed c c' /\ (incl (c_shuffled c) (c_items c) -> incl (c_shuffled c') (c_items c')).
  Proof.
    rewrite global_shuffle_eq.
    destruct (weighted_shuffle _ _ _ _ _ _) as [[sh| |] r] eqn:E; intros H; injection H as <- <-;
      (split; [repeat split|]); auto.
    apply weighted_shuffle_incl in E. auto.
  Qed.

  (** ** Settings, whatever the outcome *)
  Lemma reset_any ent (c : C) o c' : choice_reset P fuel ent c = (o, c') ->
    fixed c c' /\ (incl (c_shuffled c) (c_items c) -> incl (c_shuffled c') (c_items c')).
  Proof.
    unfold choice_reset, mbind, modify, get.
    cbn [set_rng c_replace]. destruct (c_replace c).
    - intros H; injection H as <- <-. split; [repeat split|auto].
    - intros H. apply global_shuffle_any in H. exact H.
  Qed.

  Definition inv_any (items : list A) (c : C) : Prop :=
    c_items c = items /\ incl (c_shuffled c) items /\
    (c_roac c = true -> c_replace c = true).

  Lemma setting_any items o ent (c : C) r c' :
    inv_any items c -> do_setting P fuel o ent c = (r, c') -> inv_any items c'.
  Proof.
    assert (GS : forall (c : C) r c', inv_any items c -> global_shuffle P fuel c = (r, c') -> inv_any items c').
    { intros c0 r0 c0' (<- & H1 & H2) H. apply global_shuffle_any in H as [(F1 & F2 & F3 & F4 & F5 & F6) H].
      split; [auto|]. rewrite <- F1. split; auto. rewrite F4, F5. auto. }
    intros Hi H. destruct o; cbn [do_setting] in H.
    - unfold choice_reset, mbind, modify, get in H. cbn [set_rng c_replace] in H.
      destruct (c_replace c) eqn:E; [injection H as <- <-; auto|]. eapply GS; [|exact H]. exact Hi.
    - unfold choice_seed, mbind, modify, get in H. cbn [set_rng set_seed c_replace] in H.
      destruct (c_replace c) eqn:E; [injection H as <- <-; auto|]. eapply GS; [|exact H]. exact Hi.
    - injection H as <- <-. exact Hi.
    - unfold set_weights, mbind, modify, get, lift in H.
      destruct (all_weights P (c_items c) w false); [|injection H as <- <-; auto..].
      destruct (c_replace c); [injection H as <- <-; exact Hi|]. eapply GS; [|exact H]. exact Hi.
    - unfold set_weights, mbind, modify, get, lift in H.
      destruct (all_weights P (c_items c) w true); [|injection H as <- <-; auto..].
      destruct (c_replace c); [injection H as <- <-; exact Hi|]. eapply GS; [|exact H]. exact Hi.
    - unfold set_replace, mbind, modify, get in H.
      destruct (Bool.eqb b (c_replace c)) eqn:E; [injection H as <- <-; auto|].
      destruct Hi as (H1 & H2 & H3). destruct b.
      + injection H as <- <-. repeat split; auto.
      + eapply GS; [|exact H]. split; [auto|]. split; [auto|]. cbn. discriminate.
    - unfold set_replace_only_after_call, mbind, modify in H.
      destruct Hi as (H1 & H2 & H3). destruct b; [|injection H as <- <-; split; [auto|]; split; [auto|]; cbn; discriminate].
      unfold set_replace, mbind, modify, get in H. cbn [set_roac c_replace] in H.
      destruct (Bool.eqb true (c_replace c)) eqn:E; injection H as <- <-; (split; [auto|]; split; [auto|]); auto.
      cbn. destruct (c_replace c); auto; discriminate.
  Qed.

  Lemma new_inv (items : list A) ws rep roac sd cum ent c :
    choice_new P fuel items ws rep roac sd cum ent = Ok c ->
    exists wc, items <> [] /\
      all_weights P items (if nonempty ws then ws else cum) (nonempty cum) = Ok wc /\
      choice_reset P fuel ent (mkChoice items (fst wc) (snd wc) (rep || roac) roac (zlen items) [] None
                     sd (rng_for P sd ent)) = (Ok tt, c) /\
      nonempty ws && nonempty cum = false.
  Proof.
    unfold choice_new. destruct items as [|i items]; [discriminate|].
    destruct (nonempty ws && nonempty cum); [discriminate|].
    destruct (all_weights _ _ _ _) as [wc| |]; cbn [bind]; [|discriminate..].
    destruct (choice_reset _ _ _ _) as [[[]| |] c0] eqn:E; [|discriminate..].
    intros H; injection H as <-. exists wc. repeat split; auto. discriminate.
  Qed.

  Lemma reach_any_inv items c : reach_any P setsize fuel items c -> inv_any items c.
  Proof.
    induction 1 as [ws rep roac sd cum ent c H|o ent c r c' _ IH H|q c r c' _ IH H].
    - apply new_inv in H as (wc & _ & _ & H & _). apply reset_any in H as [(F1 & F2 & F3 & F4 & F5 & F6) H].
      cbn [c_items c_shuffled c_replace c_roac] in *. split; [auto|].
      rewrite <- F1. split; [apply H; intros ? []|]. rewrite F4, F5. intros ->. apply orb_true_r.
    - eapply setting_any; eauto.
    - apply ask_state in H as [(F1 & F2 & F3 & F4 & F5 & F6) H]. destruct IH as (H1 & H2 & H3).
      split; [congruence|]. rewrite H. split; [auto|]. rewrite F4, F5; auto.
  Qed.
End Ch.
