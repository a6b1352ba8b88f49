(** * Properties C105 and C106: operations on a Choice emitter that are cut off by an
    exception from outside (KeyboardInterrupt), at any point.

    Vocabulary: [CutModel.v] ([cut_call], [cut_calls], [left_by]), [ChoiceRun.v]
    (requests, settings, [reach], [just_shuffled], [remaining]). *)
From Coq Require Import Permutation QArith Qcanon.
From Verif Require Import Base Prims MathModel MathSpec NumSpec MathProofs NumLaws QcNum
  ChoiceModel ChoiceRun ChoiceProofs ChoiceProofs2 ChoiceProofs3 Demo Prop_Choice ThreadModel ThreadProofs Prop_Thread CutModel.
Open Scope Z_scope.

(** ** The steps make up the whole operation. *)
Lemma cut_end P {A} setsize fuel (c0 : @choice P A) k : forall l c r c',
  same_settings P c0 c -> in_range P c ->
  match l with Begin _ | Draw _ _ => c_replace c0 = true | _ => True end ->
  cut P setsize fuel k l c = (inr r, c') -> choice_cont P setsize fuel l c = (r, c').
Proof.
  induction k as [|k IH]; intros l c r c' S B H E; [discriminate|]. cbn [cut] in E.
  pose proof (inv_choice P setsize fuel c0 l c (conj S B)) as [S1 B1].
  destruct (choice_step P setsize fuel l c) as [[l1|r1] c1] eqn:E1; cbn [snd] in *.
  - destruct (cont_go_choice P setsize fuel c0 l c l1 c1 (conj S B) H E1) as [H1 ->]. apply IH; auto.
  - injection E as <- <-. exact (cont_end_choice P setsize fuel c0 l c r1 c1 (conj S B) H E1).
Qed.
(** A call that comes to its end is the call of [ChoiceModel.v]. *)
Theorem C105_whole :
  forall (P : prims) (A : Type) (setsize : list A -> res Z) fuel items (c : @choice P A) k q r c',
  rng_ok P -> reach P setsize fuel items c ->
  cut_call P setsize fuel k q c = (Some r, c') -> do_ask P setsize fuel q c = (r, c').
Proof.
  intros P A setsize fuel items c k q r c' Ok R E. unfold cut_call in E.
  assert (S : same_settings P c c) by (unfold same_settings; auto 10).
  assert (B : in_range P c) by (eapply reach_in_range; eauto).
  destruct (cut P setsize fuel k (choice_start P c q) c) as [[l|r1] c1] eqn:E1; [discriminate|]. injection E as <- <-.
  destruct (cont_start_choice P setsize fuel c q c (conj S B)) as [H <-].
  eapply cut_end; eauto.
Qed.
Print Assumptions C105_whole.

(** ** C105: calls, without replacement *)
Lemma start_false P {A} (c : @choice P A) q : c_replace c = false -> choice_start P c q = Check (ask_size q).
Proof.
  intros R. unfold choice_start. rewrite R. cbn [negb orb]. destruct q; try reflexivity. cbn [ask_size].
  destruct (n =? 1) eqn:E; [|reflexivity]. apply Z.eqb_eq in E. subst n. reflexivity.
Qed.
(** What a call has taken when it has got to line 321 *)
Definition taken {A} (sh : list A) (i n : Z) (got : list A) : Prop :=
  if n =? 1 then exists a, list_get sh i = Ok a /\ got = [a] else got = list_slice sh i (i + n).
Section Calls.
  Context (P : prims) {A : Type} (setsize : list A -> res Z) (fuel : nat).
  Notation C := (@choice P A).
  (** Where a call can be cut off, and how it can end *)
  Lemma cut_cases k q (c : C) i : c_replace c = false -> c_sidx c = Some i ->
    let n := ask_size q in
    let moved := set_shuf P (c_shuffled c) (Some (i + n)) c in
    cut_call P setsize fuel k q c = (None, c) \/
    (n <= c_nui c /\ cut_call P setsize fuel k q c = (None, moved)) \/
    (n <= c_nui c /\ exists got, taken (c_shuffled c) i n got /\ cut_call P setsize fuel k q c = (Some (Ok got), set_nui P (c_nui c - n) moved)) \/
    (n <= c_nui c /\ n = 1 /\ list_get (c_shuffled c) i = Raise IndexError /\ cut_call P setsize fuel k q c = (Some (Raise IndexError), c)) \/
    (c_nui c < n /\ cut_call P setsize fuel k q c = (Some (fst (uniqueness_violation P setsize c)), c)).
  Proof.
    intros R Si n moved. unfold cut_call. rewrite (start_false P c q R). fold n.
    assert (V : (uniqueness_violation P setsize c : res (list A) * C) = (fst (uniqueness_violation P setsize c), c)).
    { unfold uniqueness_violation, mbind, ChoiceModel.get, lift, raise. destruct (num_unique_values P setsize c); reflexivity. }
    destruct k as [|k]; [auto|]. cbn [cut choice_step]. rewrite R. cbn [negb].
    destruct (Z.ltb_spec (c_nui c) n) as [L|L].
    { destruct k as [|k]; [auto|]. cbn [cut choice_step]. rewrite V. cbn [fst]. auto 6. }
    destruct k as [|k]; [auto|]. cbn [cut choice_step]. rewrite Si.
    assert (Rest : forall got, taken (c_shuffled c) i n got ->
      (match cut P setsize fuel k (ReadIndex n got) c with (inl _, c) => (None, c) | (inr r, c) => (Some r, c) end = (None, c) \/
       match cut P setsize fuel k (ReadIndex n got) c with (inl _, c) => (None, c) | (inr r, c) => (Some r, c) end = (None, moved)) \/
       match cut P setsize fuel k (ReadIndex n got) c with (inl _, c) => (None, c) | (inr r, c) => (Some r, c) end = (Some (Ok got), set_nui P (c_nui c - n) moved)).
    { intros got _. destruct k as [|k]; [auto|]. cbn [cut choice_step]. rewrite Si.
      destruct k as [|k]; [auto|]. cbn [cut choice_step].
      destruct k as [|k]; [auto|]. cbn [cut choice_step].
      destruct k as [|k]; [auto|]. cbn [cut choice_step]. auto. }
    unfold taken in Rest. unfold taken. destruct (n =? 1) eqn:N1.
    - destruct (get_raises (c_shuffled c) i) as [[a G]|G]; rewrite G.
      + destruct (Rest [a]) as [[->| ->]| ->]; eauto 10.
      + apply Z.eqb_eq in N1. auto 10.
    - destruct (Rest _ eq_refl) as [[->| ->]| ->]; eauto 10.
  Qed.

  Lemma taken_next (sh : list A) i n got : 0 <= i -> 0 <= n -> taken sh i n got ->
    firstn (Z.to_nat (i + n)) sh = firstn (Z.to_nat i) sh ++ got.
  Proof.
    intros Hi Hn T.
    assert (S : got = firstn (Z.to_nat n) (skipn (Z.to_nat i) sh)).
    { unfold taken in T. destruct (Z.eqb_spec n 1) as [->|N].
      - destruct T as (a & G & ->). unfold list_get, norm_index in G. destruct (Z.ltb_spec i 0); [lia|].
        destruct ((0 <=? i) && (i <? zlen sh)); [|discriminate]. destruct (nth_error sh (Z.to_nat i)) as [b|] eqn:E; [|discriminate]. injection G as ->.
        apply nth_error_split in E as (l1 & l2 & -> & <-). rewrite skipn_app, skipn_all, Nat.sub_diag. reflexivity.
      - subst got. unfold list_slice, clip_bound, zlen.
        destruct (Z.ltb_spec i 0); [lia|]. destruct (Z.ltb_spec (i + n) 0); [lia|].
        destruct (Z.le_gt_cases (Z.of_nat (length sh)) i) as [L|L].
        + rewrite !Z.min_r by lia. rewrite !skipn_all2 by lia. rewrite !firstn_nil. reflexivity.
        + rewrite (Z.min_l i) by lia. destruct (Z.le_gt_cases (i + n) (Z.of_nat (length sh))) as [M|M].
          * rewrite Z.min_l by lia. f_equal. lia.
          * rewrite Z.min_r by lia. rewrite !firstn_all2; [reflexivity| |]; rewrite skipn_length; lia. }
    subst got. rewrite <- (firstn_skipn (Z.to_nat i) sh) at 1. rewrite firstn_app, firstn_firstn, firstn_length.
    destruct (Nat.le_gt_cases (length sh) (Z.to_nat i)) as [L|L].
    - rewrite !(skipn_all2 sh) by lia. rewrite !firstn_nil, !app_nil_r. rewrite !firstn_all2; [reflexivity| |]; lia.
    - f_equal; [|f_equal]; [f_equal|]; lia.
  Qed.
End Calls.

(** The English claim: a call that is cut off has had its effect or none, so that the
    emitter goes on dealing out what is left, and refuses when nothing is. *)
Definition C105_statement : Prop :=
  forall (P : prims) (A : Type) (setsize : list A -> res Z) fuel items (c : @choice P A) k q o c',
  w_true P (w_zero P) = false -> (forall l, incl l items -> exists n, setsize l = Ok n) ->
  reach P setsize fuel items c -> c_replace c = false -> 0 <= ask_size q ->
  cut_call P setsize fuel k q c = (o, c') -> exists left, remaining P setsize fuel c' left.

Lemma c101_reach : reach (QP demo) (count_distinct Nat.eq_dec) 5 demo_items c101.
Proof. eapply R_new. apply made_ok. vm_compute. reflexivity. Qed.

(** Cut off between the lines 321 and 322: the emitter believes that an item is left when
    there is none, and em() raises an IndexError. *)
Theorem C105_statement_refuted : ~ C105_statement.
Proof.
  intros S.
  destruct (cut_call (QP demo) (count_distinct Nat.eq_dec) 5 4 Call0 c101) as [o c'] eqn:E.
  destruct (S (QP demo) nat (count_distinct Nat.eq_dec) 5%nat demo_items c101 4%nat Call0 o c') as [left H].
  - reflexivity.
  - intros l _. unfold count_distinct. eauto.
  - exact c101_reach.
  - vm_compute. reflexivity.
  - cbn. lia.
  - exact E.
  - assert (X : c' = snd (cut_call (QP demo) (count_distinct Nat.eq_dec) 5 4 Call0 c101)) by (rewrite E; reflexivity). subst c'. clear E S.
    specialize (H [Call0; Call0; Call0; Call0]). 
    assert (Y : nth_error (fst (do_asks (QP demo) (count_distinct Nat.eq_dec) 5 [Call0; Call0; Call0; Call0]
                 (snd (cut_call (QP demo) (count_distinct Nat.eq_dec) 5 4 Call0 c101)))) 3 = Some (Raise IndexError)) by (vm_compute; reflexivity).
    rewrite H in Y by (repeat constructor; cbn; lia). apply nth_error_In in Y. apply in_map_iff in Y as ([l|] & Y & _); discriminate.
Qed.
Print Assumptions C105_statement_refuted.

(** em(2) then returns a single value. *)
Theorem C105_short :
  let c := snd (cut_calls (QP demo) (count_distinct Nat.eq_dec) 5 [(9%nat, CallN 2); (4%nat, Call0)] c101) in
  num_unique_items (QP demo) c = 2 /\ num_unique_values (QP demo) (count_distinct Nat.eq_dec) c = Ok 1 /\
  exists a, fst (do_ask (QP demo) (count_distinct Nat.eq_dec) 5 (CallN 2) c) = Ok [a].
Proof. vm_compute. eauto. Qed.
Print Assumptions C105_short.

Lemma singles P {A} setsize fuel m : forall (d : @choice P A) i, c_replace d = false -> c_sidx d = Some i ->
  0 <= i <= zlen (c_shuffled d) -> zlen (c_shuffled d) - i < c_nui d ->
  fst (do_asks P setsize fuel (repeat Call0 m) d) =
  map (fun a => Ok [a]) (firstn m (skipn (Z.to_nat i) (c_shuffled d))) ++ repeat (Raise IndexError) (m - length (skipn (Z.to_nat i) (c_shuffled d))).
Proof.
  induction m as [|m IH]; intros d i R Si Hi Hn; [reflexivity|]. cbn [repeat do_asks].
  assert (E : do_ask P setsize fuel Call0 d =
    match nth_error (c_shuffled d) (Z.to_nat i) with
    | Some a => (Ok [a], set_nui P (c_nui d - 1) (set_shuf P (c_shuffled d) (Some (i + 1)) d))
    | None => (Raise IndexError, d)
    end).
  { cbn [do_ask]. unfold choice_call, choice_emit, choice_without_replacement, mbind, ChoiceModel.get, lift, raise, ret, ChoiceModel.modify.
    cbv beta iota. rewrite R. cbn [negb]. destruct (Z.ltb_spec (c_nui d) 1); [lia|]. rewrite Si. cbn [Z.eqb Pos.eqb].
    unfold list_get, norm_index. destruct (Z.ltb_spec i 0); [lia|]. destruct (Z.leb_spec 0 i); [|lia]. cbn [andb].
    destruct (Z.ltb_spec i (zlen (c_shuffled d))) as [L|L].
    - destruct (nth_error (c_shuffled d) (Z.to_nat i)) eqn:E; rewrite ?R; cbn [negb]; reflexivity.
    - replace (nth_error (c_shuffled d) (Z.to_nat i)) with (@None A); [rewrite ?R; reflexivity|]. symmetry. apply nth_error_None. unfold zlen in L. lia. }
  rewrite E. destruct (nth_error (c_shuffled d) (Z.to_nat i)) as [a|] eqn:En.
  - assert (Lt : (Z.to_nat i < length (c_shuffled d))%nat) by (apply nth_error_Some; congruence).
    specialize (IH (set_nui P (c_nui d - 1) (set_shuf P (c_shuffled d) (Some (i + 1)) d)) (i + 1)). cbn [c_replace c_sidx c_shuffled c_nui set_nui set_shuf] in IH.
    specialize (IH R eq_refl). unfold zlen in *. specialize (IH ltac:(lia) ltac:(lia)).
    destruct (do_asks P setsize fuel (repeat Call0 m) _) as [os c']. cbn [fst] in *. rewrite IH.
    replace (Z.to_nat (i + 1)) with (Datatypes.S (Z.to_nat i)) by lia.
    assert (Sk : skipn (Z.to_nat i) (c_shuffled d) = a :: skipn (Datatypes.S (Z.to_nat i)) (c_shuffled d)).
    { clear - En. revert En. generalize (Z.to_nat i) (c_shuffled d). induction n as [|n IHn]; intros [|x l] En; try discriminate.
      - injection En as ->. reflexivity.
      - exact (IHn l En). }
    rewrite Sk. reflexivity.
  - specialize (IH d i R Si Hi Hn). destruct (do_asks P setsize fuel (repeat Call0 m) d) as [os c']. cbn [fst] in *. rewrite IH.
    apply nth_error_None in En. rewrite skipn_all2 by lia. rewrite !firstn_nil. cbn [map app length]. rewrite !Nat.sub_0_r. reflexivity.
Qed.

(** Wherever the call is cut off: nothing has happened, or its values are lost and the
    emitter takes them to be still there.  Afterwards each em() hands out one of the items
    that are left, and then every em() fails with an IndexError. *)
Theorem C105_points :
  forall (P : prims) (A : Type) (setsize : list A -> res Z) fuel items (c : @choice P A) k q c',
  w_true P (w_zero P) = false -> (forall l, incl l items -> exists n, setsize l = Ok n) ->
  reach P setsize fuel items c -> c_replace c = false -> 0 < ask_size q ->
  cut_call P setsize fuel k q c = (None, c') ->
  exists old, remaining P setsize fuel c old /\
  (c' = c \/
   exists lost left, old = lost ++ left /\ zlen lost = ask_size q /\
     num_unique_items P c' = zlen left + zlen lost /\
     forall m, fst (do_asks P setsize fuel (repeat Call0 m) c') =
               map (fun a => Ok [a]) (firstn m left) ++ repeat (Raise IndexError) (m - length left)).
Proof.
  intros P A setsize fuel items c k q c' Hz Hs R Hr Hq E.
  pose proof (reach_inv P setsize fuel Hz items c R) as Hinv.
  exists (left_of P c). split.
  { intros qs HF. apply (asks_deal P setsize fuel items qs c); auto. }
  destruct Hinv as (_ & Hi & _ & _ & Hc). rewrite Hr in Hc. destruct Hc as (i & Hp & Si & Hb & Hn).
  pose proof (Permutation_length Hp) as Hl.
  destruct (cut_cases P setsize fuel k q c i Hr Si) as [X|[[L X]|[(_ & got & _ & X)|[(_ & _ & _ & X)|[_ X]]]]]; rewrite X in E; try discriminate; injection E as <-; [left; reflexivity|].
  right. unfold left_of. rewrite Si.
  exists (firstn (Z.to_nat (ask_size q)) (skipn (Z.to_nat i) (c_shuffled c))), (skipn (Z.to_nat (i + ask_size q)) (c_shuffled c)).
  unfold zlen in *. assert (Ll : length (firstn (Z.to_nat (ask_size q)) (skipn (Z.to_nat i) (c_shuffled c))) = Z.to_nat (ask_size q)).
  { rewrite firstn_length, skipn_length. lia. }
  split; [|split; [|split]].
  - replace (Z.to_nat (i + ask_size q)) with (Z.to_nat i + Z.to_nat (ask_size q))%nat by lia. rewrite <- skipn_skipn. symmetry. apply firstn_skipn.
  - lia.
  - unfold num_unique_items. cbn [c_nui set_shuf]. rewrite skipn_length. lia.
  - intros m. apply (singles P setsize fuel m (set_shuf P (c_shuffled c) (Some (i + ask_size q)) c) (i + ask_size q)); cbn [c_replace c_sidx c_shuffled c_nui set_shuf]; unfold zlen; auto; lia.
Qed.
Print Assumptions C105_points.

(** All calls of a history, each cut off anywhere or not at all: no item is handed out
    twice, and a call that fails raises a ValueError or an IndexError. *)
Theorem C105_never_twice :
  forall (P : prims) (A : Type) (setsize : list A -> res Z) fuel items (c : @choice P A) qs,
  w_true P (w_zero P) = false -> (forall l, incl l items -> exists n, setsize l = Ok n) ->
  just_shuffled P setsize fuel items c -> Forall (fun kq => 0 <= ask_size (snd kq)) qs ->
  let outs := fst (cut_calls P setsize fuel qs c) in
  (exists rest, Permutation (concat (map (fun o => match o with Some (Ok l) => l | _ => [] end) outs) ++ rest) items) /\
  Forall (fun o => match o with None | Some (Ok _) | Some (Raise ValueError) | Some (Raise IndexError) => True | _ => False end) outs.
Proof.
  intros P A setsize fuel items c qs Hz Hs J F.
  destruct (just_shuffled_left P setsize fuel Hz items c J) as ((_ & Hi & _ & _ & Hc) & Hr & Hl). rewrite Hr in Hc. destruct Hc as (i0 & Hp & Si & Hb & Hn).
  assert (G : forall qs (d : @choice P A) i before, Forall (fun kq => 0 <= ask_size (snd kq)) qs ->
    c_replace d = false -> c_shuffled d = c_shuffled c -> c_sidx d = Some i -> 0 <= i ->
    (exists skipped, Permutation (before ++ skipped) (firstn (Z.to_nat i) (c_shuffled c))) ->
    let outs := fst (cut_calls P setsize fuel qs d) in
    (exists rest, Permutation (before ++ concat (map (fun o => match o with Some (Ok l) => l | _ => [] end) outs) ++ rest) items) /\
    Forall (fun o => match o with None | Some (Ok _) | Some (Raise ValueError) | Some (Raise IndexError) => True | _ => False end) outs).
  { clear F qs. induction qs as [|[k q] qs IH]; intros d i before F Rd Sd Id Pi [skipped B].
    - cbn. split; [|constructor]. exists (skipped ++ skipn (Z.to_nat i) (c_shuffled c)).
      rewrite app_assoc, B, firstn_skipn. exact Hp.
    - apply Forall_cons_iff in F as [F0 F]. cbn [snd] in F0. cbn [cut_calls].
      assert (Done : forall o d' i', cut_call P setsize fuel k q d = (o, d') ->
        match o with None | Some (Ok _) | Some (Raise ValueError) | Some (Raise IndexError) => True | _ => False end ->
        c_replace d' = false -> c_shuffled d' = c_shuffled c -> c_sidx d' = Some i' -> 0 <= i' ->
        (exists skipped, Permutation ((before ++ match o with Some (Ok l) => l | _ => [] end) ++ skipped) (firstn (Z.to_nat i') (c_shuffled c))) ->
        let outs := fst (let '(o, c) := cut_call P setsize fuel k q d in let '(os, c) := cut_calls P setsize fuel qs c in (o :: os, c)) in
        (exists rest, Permutation (before ++ concat (map (fun o => match o with Some (Ok l) => l | _ => [] end) outs) ++ rest) items) /\
        Forall (fun o => match o with None | Some (Ok _) | Some (Raise ValueError) | Some (Raise IndexError) => True | _ => False end) outs).
      { intros o d' i' E Ho R' S' I' P' B'. rewrite E. destruct (IH d' i' _ F R' S' I' P' B') as [[rest X] Y].
        destruct (cut_calls P setsize fuel qs d') as [os c'']. cbn [fst] in *. split; [|constructor; auto].
        exists rest. cbn [map concat]. rewrite <- app_assoc in X. rewrite <- app_assoc. exact X. }
      destruct (cut_cases P setsize fuel k q d i Rd Id) as [E|[[L E]|[(L & got & T & E)|[(L & N1 & G & E)|[L E]]]]].
      + eapply Done; eauto; cbn; auto. rewrite app_nil_r. eauto.
      + apply (Done _ _ (i + ask_size q) E); cbn; auto; [lia|]. rewrite app_nil_r.
        rewrite <- (firstn_firstn (c_shuffled c) (Z.to_nat i) (Z.to_nat (i + ask_size q))) in B || idtac.
        exists (skipped ++ skipn (Z.to_nat i) (firstn (Z.to_nat (i + ask_size q)) (c_shuffled c))).
        rewrite app_assoc, B. rewrite <- (firstn_skipn (Z.to_nat i) (firstn (Z.to_nat (i + ask_size q)) (c_shuffled c))) at 2.
        rewrite firstn_firstn, Nat.min_l by lia. reflexivity.
      + apply (Done _ _ (i + ask_size q) E); cbn; auto; [lia|]. rewrite Sd in T. exists skipped.
        rewrite (taken_next (c_shuffled c) i (ask_size q) got Pi F0 T), <- B.
        rewrite <- !app_assoc. apply Permutation_app_head, Permutation_app_comm.
      + eapply Done; eauto; cbn; auto. rewrite app_nil_r. eauto.
      + apply (Done _ _ i E); auto.
        * unfold uniqueness_violation, mbind, ChoiceModel.get, lift, raise, num_unique_values. rewrite Rd, Id, Sd.
          destruct (Hs (list_slice (c_shuffled c) i (zlen (c_shuffled c)))) as [z ->]; [|exact I].
          intros x Hx. eapply Permutation_in; [exact Hp|]. apply slice_incl in Hx. exact Hx.
        * exists skipped. destruct (uniqueness_violation P setsize d : res (list A) * _) as [[l| |] c1] eqn:U; cbn [fst]; rewrite ?app_nil_r; auto.
          exfalso. unfold uniqueness_violation, mbind, ChoiceModel.get, lift, raise in U. destruct (num_unique_values P setsize d); discriminate. }
  destruct (G qs c i0 [] F Hr eq_refl Si ltac:(lia)) as [X Y]; [|split; auto].
  exists (firstn (Z.to_nat i0) (c_shuffled c)). reflexivity.
Qed.
Print Assumptions C105_never_twice.

(** reset() puts the emitter right, whatever has been cut off (in Random.sample and
    Random.choice too, where the generator may be left in any state [r]): what follows is
    what follows a reset before that call. *)
Lemma reset_depends P {A} fuel ent (c d : @choice P A) u c1 :
  c_items d = c_items c -> c_weights d = c_weights c -> c_cum d = c_cum c -> c_replace d = c_replace c -> c_roac d = c_roac c -> c_seed d = c_seed c ->
  (c_replace c = true -> c_nui d = c_nui c) ->
  choice_reset P fuel ent c = (Ok u, c1) -> exists d1, choice_reset P fuel ent d = (Ok u, d1) /\ alike P c1 d1.
Proof.
  intros E1 E2 E3 E4 E5 E6 E7 E. unfold choice_reset, mbind, ChoiceModel.modify, ChoiceModel.get, ret in *. cbn [c_replace set_rng] in *. rewrite E4.
  destruct (c_replace c) eqn:R.
  - injection E as <- <-. eexists. split; [reflexivity|]. right. split; [exact R|]. exists (c_shuffled d), (c_sidx d).
    specialize (E7 eq_refl). destruct c, d; cbn in *; subst; reflexivity.
  - unfold global_shuffle, mbind, ChoiceModel.modify, ChoiceModel.get, ret, on_rng in *. cbn [c_items c_weights c_rng set_rng] in *. rewrite E1, E2, E6.
    destruct (weighted_shuffle P fuel (c_items c) _ None _) as [[sh| |] r]; try discriminate.
    injection E as <- <-. eexists. split; [reflexivity|]. left. destruct c, d; cbn in *; subst; reflexivity.
Qed.
(** With replacement, a call only moves the generator. *)
Definition pooled {A} (l : where_in A) : Prop := match l with Check _ | Violation | OneCall _ | Begin _ | Draw _ _ => True | _ => False end.
Lemma step_pooled P {A} setsize fuel (c : @choice P A) l : c_replace c = true -> pooled l ->
  (match fst (choice_step P setsize fuel l c) with inl l' => pooled l' | inr _ => True end) /\ exists r, snd (choice_step P setsize fuel l c) = set_rng P r c.
Proof.
  intros R H. assert (Same : exists r, c = set_rng P r c) by (exists (c_rng c); destruct c; reflexivity).
  destruct l; cbn [pooled] in H; try contradiction; cbn [choice_step].
  - rewrite R. cbn [negb]. destruct (c_nui c <? n); cbn; auto.
  - unfold uniqueness_violation, mbind, ChoiceModel.get, lift, raise. destruct (num_unique_values P setsize c); cbn; auto.
  - unfold choice_without_replacement, uniqueness_violation, mbind, ChoiceModel.get, lift, raise, ret, on_rng, ChoiceModel.modify. rewrite R. cbn [negb].
    destruct (c_nui c <? n); [destruct (num_unique_values P setsize c); cbn; auto|].
    destruct (c_weights c) as [ws|].
    + destruct (weighted_shuffle P fuel (c_items c) ws (Some n) (c_rng c)); cbn; eauto.
    + destruct ((n <? 0) || (zlen (c_items c) <? n)); [cbn; auto|].
      destruct (r_sample P (length (c_items c)) (Z.to_nat n) (c_rng c)) as [pos r]. unfold mbind.
      assert (X : forall ps x, snd (mapS (get_item (c_items c)) ps x) = (x : @choice P A)).
      { induction ps as [|p ps IH]; intros x; [reflexivity|]. cbn [mapS]. unfold mbind, get_item, raise, ret.
        destruct (nth_error (c_items c) p); [|reflexivity]. specialize (IH x). unfold get_item in IH. destruct (mapS _ ps x) as [[] ?]; exact IH. }
      specialize (X pos (set_rng P r c)). destruct (mapS (get_item (c_items c)) pos (set_rng P r c)) as [o c1]. cbn [snd fst] in *. subst c1. eauto.
  - destruct (zlen (c_items c) =? 1); [cbn; auto|]. destruct (c_weights c) eqn:W.
    + destruct (c_cum c) as [cum|]; [|cbn; auto]. destruct (negb _); [cbn; auto|]. destruct (rev cum); [cbn; auto|]. destruct (negb _); cbn; auto.
    + destruct (n =? 1); [|cbn; auto]. unfold choice_with_replacement, mbind, ChoiceModel.get, ret, on_rng, get_item, raise. rewrite W. cbn [Z.eqb Pos.eqb].
      destruct (zlen (c_items c) =? 1); [cbn; auto|]. destruct (r_below P (length (c_items c)) (c_rng c)) as [i r]. destruct (nth_error (c_items c) i); cbn; eauto.
  - destruct k; [cbn; auto|]. destruct (r_random P (c_rng c)). destruct (nth_error _ _); cbn; eauto.
Qed.
Lemma cut_pooled P {A} setsize fuel k : forall l (c : @choice P A), c_replace c = true -> pooled l -> exists r, snd (cut P setsize fuel k l c) = set_rng P r c.
Proof.
  induction k as [|k IH]; intros l c R H; cbn [cut]; [exists (c_rng c); destruct c; reflexivity|].
  destruct (step_pooled P setsize fuel c l R H) as [H1 [r E]].
  destruct (choice_step P setsize fuel l c) as [[l1|o] c1]; cbn [fst snd] in *; [|eauto]. subst c1.
  destruct (IH l1 (set_rng P r c) R H1) as [r' ->]. exists r'. reflexivity.
Qed.
Theorem C105_with_replacement :
  forall (P : prims) (A : Type) (setsize : list A -> res Z) fuel (c : @choice P A) k q,
  c_replace c = true -> exists r, snd (cut_call P setsize fuel k q c) = set_rng P r c.
Proof.
  intros P A setsize fuel c k q R. unfold cut_call.
  assert (H : pooled (choice_start P c q)).
  { unfold choice_start. rewrite R. cbn [negb orb]. destruct q; try exact I; [destruct (n =? 1); [exact I|]|]; destruct (c_roac c && (1 <? n)); exact I. }
  destruct (cut_pooled P setsize fuel k _ c R H) as [r E]. exists r. destruct (cut P setsize fuel k (choice_start P c q) c) as [[]]; exact E.
Qed.
Print Assumptions C105_with_replacement.

Theorem C105_reset :
  forall (P : prims) (A : Type) (setsize : list A -> res Z) fuel items (c : @choice P A) qs r ent d,
  w_true P (w_zero P) = false -> reach P setsize fuel items c -> choice_reset P fuel ent c = (Ok tt, d) ->
  exists d', choice_reset P fuel ent (set_rng P r (snd (cut_calls P setsize fuel qs c))) = (Ok tt, d') /\
    forall reqs, fst (do_asks P setsize fuel reqs d') = fst (do_asks P setsize fuel reqs d).
Proof.
  intros P A setsize fuel items c qs r ent d Hz R E.
  set (keeps (c d : @choice P A) := c_items d = c_items c /\ c_weights d = c_weights c /\ c_cum d = c_cum c /\ c_replace d = c_replace c /\
    c_roac d = c_roac c /\ c_seed d = c_seed c /\ (c_replace c = true -> c_nui d = c_nui c) /\ (c_sidx c <> None -> c_sidx d <> None)).
  assert (One : forall k q c, (c_replace c = false -> c_sidx c <> None) -> keeps c (snd (cut_call P setsize fuel k q c))).
  { clear. intros k q c Hs. destruct (c_replace c) eqn:R.
    - destruct (C105_with_replacement P A setsize fuel c k q R) as [r ->]. unfold keeps. cbn. auto 10.
    - specialize (Hs eq_refl). destruct (c_sidx c) as [i|] eqn:Si; [|congruence].
      destruct (cut_cases P setsize fuel k q c i R Si) as [X|[[L X]|[(_ & got & _ & X)|[(_ & _ & _ & X)|[_ X]]]]]; rewrite X; unfold keeps; cbn; rewrite ?R;
        repeat split; auto; try discriminate; intros; congruence. }
  assert (All : forall qs c, (c_replace c = false -> c_sidx c <> None) -> keeps c (snd (cut_calls P setsize fuel qs c))).
  { clear - One. induction qs as [|[k q] qs IH]; intros c Hs; [unfold keeps; cbn; auto 10|]. cbn [cut_calls].
    specialize (One k q c Hs). destruct (cut_call P setsize fuel k q c) as [o c1]. cbn [snd] in One. specialize (IH c1).
    destruct (cut_calls P setsize fuel qs c1) as [os c2]. cbn [snd] in *. unfold keeps in *.
    destruct One as (O1 & O2 & O3 & O4 & O5 & O6 & O7 & O8).
    destruct IH as (I1 & I2 & I3 & I4 & I5 & I6 & I7 & I8); [rewrite O4; auto|].
    rewrite O4 in I7. repeat split; try congruence; intros; [rewrite I7, O7; auto | auto]. }
  assert (Hs : c_replace c = false -> c_sidx c <> None).
  { intros Rf. apply (reach_inv P setsize fuel Hz) in R as (_ & _ & _ & _ & X). rewrite Rf in X. destruct X as (i & _ & -> & _). discriminate. }
  destruct (All qs c Hs) as (K1 & K2 & K3 & K4 & K5 & K6 & K7 & _).
  destruct (reset_depends P fuel ent c (set_rng P r (snd (cut_calls P setsize fuel qs c))) tt d) as (d' & E' & L); auto.
  exists d'. split; [exact E'|]. intros reqs. symmetry. apply alike_asks. exact L.
Qed.
Print Assumptions C105_reset.

(** Six calls, two of them cut off *)
Example C105_example :
  let qs := [(9%nat, Call0); (3%nat, Call0); (4%nat, Call0); (9%nat, CallN 2); (9%nat, Call0)] in
  fst (cut_calls (QP demo) (count_distinct Nat.eq_dec) 5 qs c101) = [Some (Ok [20]); None; None; Some (Ok [10; 30]); Some (Raise IndexError)]%nat /\
  fst (choice_reset (QP demo) 5 0 c101) = Ok tt.
Proof. split; vm_compute; reflexivity. Qed.
