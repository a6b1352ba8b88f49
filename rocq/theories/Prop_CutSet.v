(** * Property C106: assignments, reset() and seed() that are cut off.

    Vocabulary: [CutModel.v] ([left_by]: what an operation that is cut off may leave). *)
From Coq Require Import Permutation QArith Qcanon.
From Verif Require Import Base Prims MathModel MathSpec NumSpec MathProofs NumLaws QcNum
  ChoiceModel ChoiceRun ChoiceProofs ChoiceProofs2 ChoiceProofs3 Demo Prop_Choice ThreadModel ThreadProofs Prop_Thread CutModel Prop_Cut.
Open Scope Z_scope.

(** ** The steps make up the whole operation: enough steps bring it to its end, as in
    [ChoiceModel.v]. *)
Lemma shuffle_end P {A} fuel ent k (c : @choice P A) : cut_setting P fuel ent (4 + k) (Shuffle P) c = (inr (fst (global_shuffle P fuel c)), snd (global_shuffle P fuel c)).
Proof.
  cbn [Nat.add cut_setting setting_step]. unfold global_shuffle, mbind, ChoiceModel.get, on_rng, ChoiceModel.modify.
  destruct (weighted_shuffle P fuel (c_items c) _ None (c_rng c)) as [[sh|e|] r]; reflexivity.
Qed.
Theorem C106_whole :
  forall (P : prims) (A : Type) fuel (o : setting P) ent (c : @choice P A) k,
  cut_setting P fuel ent (8 + k) (setting_start P o) c = (inr (fst (do_setting P fuel o ent c)), snd (do_setting P fuel o ent c)).
Proof.
  intros P A fuel o ent c k.
  assert (If : forall d j, cut_setting P fuel ent (5 + j) (IfShuffle P) d =
     (inr (fst ((if c_replace d then ret tt else global_shuffle P fuel) d)), snd ((if c_replace d then ret tt else global_shuffle P fuel) (d : @choice P A)))).
  { intros d j. change (5 + j)%nat with (Datatypes.S (4 + j)). cbn [cut_setting setting_step]. destruct (c_replace d); [reflexivity|]. apply shuffle_end. }
  destruct o; cbn [setting_start do_setting].
  - change (8 + k)%nat with (Datatypes.S (5 + (2 + k))). cbn [cut_setting setting_step]. rewrite If. reflexivity.
  - change (8 + k)%nat with (Datatypes.S (Datatypes.S (5 + (1 + k)))). cbn [cut_setting setting_step]. rewrite If. reflexivity.
  - reflexivity.
  - change (8 + k)%nat with (Datatypes.S (Datatypes.S (Datatypes.S (5 + k)))). cbn [cut_setting setting_step]. unfold set_weights, mbind, ChoiceModel.get, lift, ChoiceModel.modify.
    destruct (all_weights P (c_items c) w false) as [[w1 cw1]|e|]; [|reflexivity|reflexivity]. cbn [fst snd]. cbn [cut_setting setting_step]. rewrite If. reflexivity.
  - change (8 + k)%nat with (Datatypes.S (Datatypes.S (Datatypes.S (5 + k)))). cbn [cut_setting setting_step]. unfold set_weights, mbind, ChoiceModel.get, lift, ChoiceModel.modify.
    destruct (all_weights P (c_items c) w true) as [[w1 cw1]|e|]; [|reflexivity|reflexivity]. cbn [fst snd]. cbn [cut_setting setting_step]. rewrite If. reflexivity.
  - change (8 + k)%nat with (Datatypes.S (Datatypes.S (Datatypes.S (4 + (1 + k))))). cbn [cut_setting setting_step]. unfold set_replace, mbind, ChoiceModel.get, ret, ChoiceModel.modify.
    destruct (Bool.eqb b (c_replace c)) eqn:E; [reflexivity|]. destruct b; cbn [cut_setting setting_step]; [reflexivity|]. rewrite shuffle_end. reflexivity.
  - change (8 + k)%nat with (Datatypes.S (Datatypes.S (Datatypes.S (4 + (1 + k))))). cbn [cut_setting setting_step]. unfold set_replace_only_after_call, set_replace, mbind, ChoiceModel.get, ret, ChoiceModel.modify.
    destruct b; [|reflexivity]. cbn [cut_setting setting_step c_replace set_roac]. destruct (c_replace c); reflexivity.
Qed.
Print Assumptions C106_whole.

(** ** The English claim: after any operation that was cut off, reset() makes the emitter
    one that behaves as if it had just been constructed with the settings it shows. *)
Definition C106_statement : Prop :=
  forall (g : qgen) (A : Type) (setsize : list A -> res Z) fuel items (c : @choice (QP g) A) o ent c' ent' d s,
  reach (QP g) setsize fuel items c -> left_by (QP g) fuel o ent c c' ->
  choice_reset (QP g) fuel ent' c' = (Ok tt, d) -> c_seed d = Some s ->
  same_outcome setsize fuel (Ok tt, d) (choice_new (QP g) fuel items (c_weights d) (c_replace d) (c_roac d) (Some s) None ent').

Definition c106 ws rep roac := made (choice_new (QP demo) 5 demo_items ws rep roac (Some 3%nat) None 0%nat).
Definition cut106 o k c : @choice (QP demo) nat := snd (cut_setting (QP demo) 5 0 k (setting_start (QP demo) o) c).
Definition reset106 (c : @choice (QP demo) nat) := snd (choice_reset (QP demo) 5 0 c).
Definition asks106 reqs c := fst (do_asks (QP demo) (count_distinct Nat.eq_dec) 5 reqs c).
Definition w1000 : option (list (pW (QP demo))) := Some [q 1; q 0; q 0; q 0].
Definition w0001 : option (list (pW (QP demo))) := Some [q 0; q 0; q 0; q 1].

(** weights assigned, cut off between the lines 157 and 158: the emitter shows the new
    weights and emits by the old ones, after reset() too. *)
Definition x1 := cut106 (Weights w0001) 2 (c106 w1000 true false).
Theorem C106_weights_refuted : ~ C106_statement.
Proof.
  intros S. specialize (S demo nat (count_distinct Nat.eq_dec) 5%nat demo_items (c106 w1000 true false) (Weights w0001) 0%nat x1 0%nat (reset106 x1) 3%nat).
  assert (R : reach (QP demo) (count_distinct Nat.eq_dec) 5 demo_items (c106 w1000 true false)) by (eapply R_new; apply made_ok; vm_compute; reflexivity).
  specialize (S R). clear R.
  assert (L : left_by (QP demo) 5 (Weights w0001) 0 (c106 w1000 true false) x1).
  { unfold x1, cut106. destruct (cut_setting (QP demo) 5 0 2 (setting_start (QP demo) (Weights w0001)) (c106 w1000 true false)) as [l c'] eqn:E. cbn [snd].
    assert (X : exists l0, l = inl l0) by (assert (Y : l = fst (cut_setting (QP demo) 5 0 2 (setting_start (QP demo) (Weights w0001)) (c106 w1000 true false))) by (rewrite E; reflexivity); rewrite Y; clear; eexists; cbn; reflexivity).
    destruct X as [l0 ->]. eapply Left_between. exact E. }
  specialize (S L). clear L.
  assert (E : choice_reset (QP demo) 5 0 x1 = (Ok tt, reset106 x1)) by (unfold reset106; reflexivity).
  specialize (S E eq_refl). unfold same_outcome in S.
  change (choice_new (QP demo) 5 demo_items (c_weights (reset106 x1)) (c_replace (reset106 x1)) (c_roac (reset106 x1)) (Some 3%nat) None 0) with
    (choice_new (QP demo) 5 demo_items w0001 true false (Some 3%nat) None 0) in S.
  assert (N : choice_new (QP demo) 5 demo_items w0001 true false (Some 3%nat) None 0 = Ok (c106 w0001 true false)) by (apply made_ok; vm_compute; reflexivity).
  rewrite N in S. specialize (S [CallN 3]).
  assert (A1 : asks106 [CallN 3] (reset106 x1) = [Ok [10; 10; 10]]%nat) by (vm_compute; reflexivity).
  assert (A2 : asks106 [CallN 3] (c106 w0001 true false) = [Ok [40; 40; 40]]%nat) by (vm_compute; reflexivity).
  unfold asks106 in A1, A2. rewrite A1, A2 in S. discriminate.
Qed.
Print Assumptions C106_weights_refuted.

(** replace_only_after_call = True on an emitter without replacement that has one item
    left, cut off between the lines 211 and 213: em(2) is refused although there are four
    items to choose from; reset() does not help. *)
Theorem C106_number :
  let c := snd (do_ask (QP demo) (count_distinct Nat.eq_dec) 5 (CallN 3) (c106 None false false)) in
  let d := reset106 (cut106 (Replace_only_after_call true) 3 c) in
  (c_replace d, c_roac d, length (c_items d)) = (true, true, 4%nat) /\ num_unique_items (QP demo) d = 1 /\
  asks106 [CallN 2] d = [Raise ValueError] /\ exists l, asks106 [CallN 2] (c106 None true true) = [Ok l].
Proof. vm_compute. eauto 10. Qed.
Print Assumptions C106_number.

(** replace = False, cut off between the lines 211 and 215: replace is False and
    replace_only_after_call is True.  em() raises an AttributeError, also after replace =
    False has been assigned once more.  reset() gives a shuffle, but when replace is set to
    True later, replace_only_after_call is still in force. *)
Theorem C106_contradiction :
  let c := cut106 (Replace false) 2 (c106 None true true) in
  (c_replace c, c_roac c) = (false, true) /\ asks106 [Call0] c = [Raise AttributeError] /\
  asks106 [Call0] (snd (do_setting (QP demo) 5 (Replace false) 0 c)) = [Raise AttributeError] /\
  let d := snd (do_setting (QP demo) 5 (Replace true) 0 (reset106 c)) in
  (c_replace d, c_roac d) = (true, true) /\ asks106 [CallN 5] d = [Raise ValueError].
Proof. vm_compute. auto 10. Qed.
Print Assumptions C106_contradiction.

(** ** What does help *)
Ltac walk E :=
  cbn [cut_setting setting_step setting_start fst snd] in E;
  first
  [ discriminate E
  | match type of E with (inl _, ?x) = (inl _, ?y) => assert (x = y) by congruence; clear E; subst y end
  | match type of E with
    | cut_setting _ _ _ ?k (if ?b then _ else _) _ = _ => destruct b eqn:?; walk E
    | cut_setting _ _ _ ?k _ _ = _ => destruct k as [|k]; walk E
    | context [match ?x with _ => _ end] => lazymatch x with context [match _ with _ => _ end] => fail | _ => destruct x eqn:?; walk E end
    end ].

(** Assigning the weights again, and reset() *)
Lemma gs_fields P {A} fuel (c : @choice P A) o d : global_shuffle P fuel c = (o, d) ->
  c_items d = c_items c /\ c_weights d = c_weights c /\ c_cum d = c_cum c /\ c_replace d = c_replace c /\ c_roac d = c_roac c /\ c_seed d = c_seed c.
Proof.
  unfold global_shuffle, mbind, ChoiceModel.get, on_rng, ChoiceModel.modify. destruct (weighted_shuffle P fuel (c_items c) _ None (c_rng c)) as [[sh|e|] r]; intros E; injection E as <- <-; cbn; auto 10.
Qed.
Lemma left_weights P {A} fuel w (b : bool) ent (c c' : @choice P A) : left_by P fuel (if b then Cum_weights w else Weights w) ent c c' ->
  c_items c' = c_items c /\ c_replace c' = c_replace c /\ c_roac c' = c_roac c /\ c_seed c' = c_seed c /\ (c_replace c = true -> c_nui c' = c_nui c).
Proof. intros [k l c1 E|k c1 r E]; destruct b; walk E; cbn in *; repeat split; auto; intros; try congruence. Qed.
Lemma reset_again P {A} setsize fuel ent (c d : @choice P A) c1 :
  c_items d = c_items c -> c_weights d = c_weights c -> c_cum d = c_cum c -> c_replace d = c_replace c -> c_roac d = c_roac c -> c_seed d = c_seed c ->
  (c_replace c = true -> c_nui d = c_nui c) ->
  do_setting P fuel Reset ent c = (Ok tt, c1) ->
  exists d1, do_setting P fuel Reset ent d = (Ok tt, d1) /\ forall reqs, fst (do_asks P setsize fuel reqs d1) = fst (do_asks P setsize fuel reqs c1).
Proof.
  intros E1 E2 E3 E4 E5 E6 E7 E. destruct (reset_depends P fuel ent c d tt c1) as (d1 & X & L); auto.
  exists d1. split; [exact X|]. intros reqs. symmetry. apply alike_asks. exact L.
Qed.
Theorem C106_weights_again :
  forall (P : prims) (A : Type) (setsize : list A -> res Z) fuel w (o : setting P) ent ent0 ent1 ent2 (c c' c0 c1 d0 : @choice P A),
  o = Weights w \/ o = Cum_weights w ->
  (* cut off, and assigned again *)
  left_by P fuel o ent c c' -> do_setting P fuel o ent1 c' = (Ok tt, c1) ->
  (* not cut off *)
  do_setting P fuel o ent0 c = (Ok tt, c0) ->
  do_setting P fuel Reset ent2 c0 = (Ok tt, d0) ->
  exists d1, do_setting P fuel Reset ent2 c1 = (Ok tt, d1) /\
    forall reqs, fst (do_asks P setsize fuel reqs d1) = fst (do_asks P setsize fuel reqs d0).
Proof.
  intros P A setsize fuel w o ent ent0 ent1 ent2 c c' c0 c1 d0 Ho L E1 E0 E.
  assert (X : exists b : bool, o = if b then Cum_weights w else Weights w) by (destruct Ho; [exists false | exists true]; auto). destruct X as [b ->]. clear Ho.
  destruct (left_weights P fuel w b ent c c' L) as (L1 & L2 & L3 & L4 & L5).
  assert (S : forall (x y : @choice P A) e, do_setting P fuel (if b then Cum_weights w else Weights w) e x = (Ok tt, y) ->
    exists wc, all_weights P (c_items x) w b = Ok wc /\ c_items y = c_items x /\ c_weights y = fst wc /\ c_cum y = snd wc /\
      c_replace y = c_replace x /\ c_roac y = c_roac x /\ c_seed y = c_seed x /\ (c_replace x = true -> c_nui y = c_nui x)).
  { clear. intros x y e H. assert (H' : set_weights P fuel w b x = (Ok tt, y)) by (destruct b; exact H). clear H. unfold set_weights, mbind, ChoiceModel.get, lift, ChoiceModel.modify, ret in H'.
    destruct (all_weights P (c_items x) w b) as [wc|e0|]; try discriminate. exists wc. split; [reflexivity|].
    destruct (c_replace x) eqn:R; [injection H' as <-; cbn; auto 10|].
    apply gs_fields in H' as (G1 & G2 & G3 & G4 & G5 & G6). cbn in *. rewrite G1, G2, G3, G4, G5, G6. repeat split; auto. discriminate. }
  destruct (S c' c1 ent1 E1) as (wc1 & W1 & A1 & A2 & A3 & A4 & A5 & A6 & A7).
  destruct (S c c0 ent0 E0) as (wc0 & W0 & B1 & B2 & B3 & B4 & B5 & B6 & B7).
  rewrite L1 in W1. assert (wc1 = wc0) as -> by congruence.
  eapply reset_again; [.. | exact E]; try congruence. intros R. rewrite B4 in R. rewrite A7, B7, L5 by congruence. reflexivity.
Qed.
Print Assumptions C106_weights_again.

(** Doing reset(), seed() or the assignment of rng_seed again *)
Lemma left_seed P {A} fuel (o : setting P) ent (c c' : @choice P A) : match o with Reset | Seed _ | Rng_seed _ => True | _ => False end -> left_by P fuel o ent c c' ->
  c_items c' = c_items c /\ c_weights c' = c_weights c /\ c_cum c' = c_cum c /\ c_replace c' = c_replace c /\ c_roac c' = c_roac c /\ (o = Reset -> c_seed c' = c_seed c) /\
  (c_replace c = true -> c_nui c' = c_nui c) /\ (match o with Rng_seed _ => c' = c | _ => True end).
Proof. intros H [k l c1 E|k c1 r E]; destruct o; cbn in H; try contradiction; walk E; cbn in *; repeat split; auto; intros; try congruence. Qed.
Theorem C106_seed_again :
  forall (P : prims) (A : Type) (setsize : list A -> res Z) fuel (o : setting P) ent ent1 (c c' d0 : @choice P A),
  match o with Reset | Seed _ | Rng_seed _ => True | _ => False end ->
  left_by P fuel o ent c c' ->
  do_setting P fuel o ent1 c = (Ok tt, d0) ->
  exists d1, do_setting P fuel o ent1 c' = (Ok tt, d1) /\
    forall reqs, fst (do_asks P setsize fuel reqs d1) = fst (do_asks P setsize fuel reqs d0).
Proof.
  intros P A setsize fuel o ent ent1 c c' d0 H L E.
  destruct (left_seed P fuel o ent c c' H L) as (L1 & L2 & L3 & L4 & L5 & L6 & L7 & L8).
  destruct o; cbn in H; try contradiction.
  - eapply reset_again; [.. | exact E]; auto.
  - assert (S : forall (x : @choice P A), do_setting P fuel (Seed s) ent1 x = do_setting P fuel Reset ent1 (set_seed P s x)) by reflexivity.
    rewrite S in E |- *. eapply reset_again; [.. | exact E]; cbn; auto.
  - subst c'. exists d0. auto.
Qed.
Print Assumptions C106_seed_again.

(** The other value, the value, and reset() *)
Lemma replace_fields P {A} fuel b e (x y : @choice P A) : do_setting P fuel (Replace b) e x = (Ok tt, y) ->
  c_items y = c_items x /\ c_weights y = c_weights x /\ c_cum y = c_cum x /\ c_seed y = c_seed x /\ c_replace y = b /\
  (c_replace x = b -> y = x) /\
  (c_replace x = negb b -> if b then c_nui y = zlen (c_items x) /\ c_roac y = c_roac x else c_roac y = false).
Proof.
  cbn [do_setting]. unfold set_replace, mbind, ChoiceModel.get, ChoiceModel.modify, ret. destruct (Bool.eqb b (c_replace x)) eqn:Eb.
  - intros E. injection E as <-. apply Bool.eqb_prop in Eb. repeat split; auto. intros H. exfalso. rewrite H in Eb. destruct b; discriminate.
  - apply Bool.eqb_false_iff in Eb. destruct b.
    + intros E. injection E as <-. cbn. repeat split; auto. intros; congruence.
    + intros E. apply gs_fields in E as (G1 & G2 & G3 & G4 & G5 & G6). cbn in *. repeat split; auto. intros; congruence.
Qed.
Lemma left_replace P {A} fuel b ent (c c' : @choice P A) : c_replace c = negb b -> left_by P fuel (Replace b) ent c c' ->
  c_items c' = c_items c /\ c_weights c' = c_weights c /\ c_cum c' = c_cum c /\ c_seed c' = c_seed c /\ (c' = c \/ c_replace c' = b).
Proof. intros R [k l c1 E|k c1 r E]; walk E; cbn in *; repeat split; auto. Qed.
Theorem C106_replace_again :
  forall (P : prims) (A : Type) (setsize : list A -> res Z) fuel items b ent ent0 ent1 ent2 ent3 (c c' c0 c1 c2 d0 : @choice P A),
  w_true P (w_zero P) = false -> reach P setsize fuel items c -> c_replace c = negb b ->
  (* cut off; then the other value and the value assigned *)
  left_by P fuel (Replace b) ent c c' -> do_setting P fuel (Replace (negb b)) ent1 c' = (Ok tt, c1) -> do_setting P fuel (Replace b) ent2 c1 = (Ok tt, c2) ->
  (* not cut off *)
  do_setting P fuel (Replace b) ent0 c = (Ok tt, c0) ->
  do_setting P fuel Reset ent3 c0 = (Ok tt, d0) ->
  exists d2, do_setting P fuel Reset ent3 c2 = (Ok tt, d2) /\
    forall reqs, fst (do_asks P setsize fuel reqs d2) = fst (do_asks P setsize fuel reqs d0).
Proof.
  intros P A setsize fuel items b ent ent0 ent1 ent2 ent3 c c' c0 c1 c2 d0 Hz R Rb L E1 E2 E0 E.
  destruct (left_replace P fuel b ent c c' Rb L) as (L1 & L2 & L3 & L4 & L5).
  destruct (reach_inv P setsize fuel Hz items c R) as (_ & _ & Ro & _ & _).
  destruct (replace_fields P fuel _ _ _ _ E1) as (A1 & A2 & A3 & A4 & A5 & A6 & A7).
  destruct (replace_fields P fuel _ _ _ _ E2) as (B1 & B2 & B3 & B4 & B5 & B6 & B7). specialize (B7 A5).
  destruct (replace_fields P fuel _ _ _ _ E0) as (D1 & D2 & D3 & D4 & D5 & D6 & D7). specialize (D7 Rb).
  assert (Rc : c_roac c2 = c_roac c0).
  { destruct b; [|congruence]. destruct B7 as [_ ->]. destruct D7 as [_ ->]. cbn [negb] in *.
    assert (Z : c_roac c = false) by (destruct (c_roac c); [rewrite Ro in Rb; auto; discriminate | reflexivity]). rewrite Z.
    destruct L5 as [->|L5]; [rewrite A6 by auto; exact Z | exact (A7 L5)]. }
  eapply reset_again; [.. | exact E]; try congruence. intros Rt. rewrite D5 in Rt. destruct b; [|discriminate Rt]. destruct B7 as [B7 _]. destruct D7 as [D7 _]. congruence.
Qed.
Print Assumptions C106_replace_again.

(** replace_only_after_call = True: replace = False, the assignment again, and reset() *)
Lemma left_after P {A} fuel ent (c c' : @choice P A) : left_by P fuel (Replace_only_after_call true) ent c c' ->
  c_items c' = c_items c /\ c_weights c' = c_weights c /\ c_cum c' = c_cum c /\ c_seed c' = c_seed c.
Proof. intros [k l c1 E|k c1 r E]; walk E; cbn in *; repeat split; auto. Qed.
Lemma after_fields P {A} fuel e (x y : @choice P A) : do_setting P fuel (Replace_only_after_call true) e x = (Ok tt, y) -> c_replace x = false ->
  c_items y = c_items x /\ c_weights y = c_weights x /\ c_cum y = c_cum x /\ c_seed y = c_seed x /\ c_replace y = true /\ c_roac y = true /\ c_nui y = zlen (c_items x).
Proof.
  intros E R. cbn [do_setting] in E. unfold set_replace_only_after_call, set_replace, mbind, ChoiceModel.get, ChoiceModel.modify, ret in E. cbn [c_replace set_roac] in E. rewrite R in E.
  cbn [Bool.eqb] in E. injection E as <-. cbn. auto 10.
Qed.
Theorem C106_after_again :
  forall (P : prims) (A : Type) (setsize : list A -> res Z) fuel ent ent0 ent1 ent2 ent3 (c c' c0 c1 c2 d0 : @choice P A),
  c_replace c = false ->
  left_by P fuel (Replace_only_after_call true) ent c c' -> do_setting P fuel (Replace false) ent1 c' = (Ok tt, c1) ->
  do_setting P fuel (Replace_only_after_call true) ent2 c1 = (Ok tt, c2) ->
  do_setting P fuel (Replace_only_after_call true) ent0 c = (Ok tt, c0) ->
  do_setting P fuel Reset ent3 c0 = (Ok tt, d0) ->
  exists d2, do_setting P fuel Reset ent3 c2 = (Ok tt, d2) /\
    forall reqs, fst (do_asks P setsize fuel reqs d2) = fst (do_asks P setsize fuel reqs d0).
Proof.
  intros P A setsize fuel ent ent0 ent1 ent2 ent3 c c' c0 c1 c2 d0 R L E1 E2 E0 E.
  destruct (left_after P fuel ent c c' L) as (L1 & L2 & L3 & L4).
  destruct (replace_fields P fuel _ _ _ _ E1) as (A1 & A2 & A3 & A4 & A5 & _).
  destruct (after_fields P fuel _ _ _ E2 A5) as (B1 & B2 & B3 & B4 & B5 & B6 & B7).
  destruct (after_fields P fuel _ _ _ E0 R) as (D1 & D2 & D3 & D4 & D5 & D6 & D7).
  eapply reset_again; [.. | exact E]; congruence.
Qed.
Print Assumptions C106_after_again.

(** The three emitters above, put right *)
Example C106_example :
  let set o c := snd (do_setting (QP demo) 5 o 0 c) in
  let c2 := cut106 (Replace_only_after_call true) 3 (snd (do_ask (QP demo) (count_distinct Nat.eq_dec) 5 (CallN 3) (c106 None false false))) in
  let c3 := cut106 (Replace false) 2 (c106 None true true) in
  asks106 [CallN 3] (reset106 (set (Weights w0001) x1)) = [Ok [40; 40; 40]]%nat /\
  asks106 [CallN 4; CallN 5] (reset106 (set (Replace_only_after_call true) (set (Replace false) c2))) = asks106 [CallN 4; CallN 5] (c106 None true true) /\
  asks106 [CallN 4; Call0] (reset106 (set (Replace false) (set (Replace true) c3))) = asks106 [CallN 4; Call0] (c106 None false false) /\
  map (fun o => match o with Ok l => Some (length l) | _ => None end) (asks106 [CallN 4; Call0] (c106 None false false)) = [Some 4; None]%nat.
Proof. vm_compute. auto 10. Qed.
