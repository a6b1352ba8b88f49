(** * C94, C95: what changing the list does to a Choice *)
From Verif Require Import Base Prims MathModel ChoiceModel LiveSpec QcNum Demo.

Section Live.
  Context (P : prims) {A : Type} (setsize : list A -> res Z) (fuel : nat).
  Notation C := (@choice P A).

  (** Only [_num_unique_items] differs. *)
  Definition with_count (k : Z) (c : C) : C := set_nui P k c.

  Lemma get_bind {B} (f : C -> M C B) c : mbind (get P) f c = f c c.
  Proof. reflexivity. Qed.

  Lemma on_rng_count {B} (m : M (pR P) B) k (c : C) :
    on_rng P m (with_count k c) = (fst (on_rng P m c), with_count k (snd (on_rng P m c))).
  Proof. unfold on_rng. cbn. now destruct (m (c_rng c)) as [o r]. Qed.

  Lemma mapS_item {S} (l : list A) pos :
    exists r, forall s : S, mapS (get_item l) pos s = (r, s).
  Proof.
    induction pos as [|i pos (r & IH)]; [now exists (Ok [])|]. cbn. unfold mbind, get_item at 1.
    destruct (nth_error l i) as [a|].
    - exists (rmap (cons a) r). intros s. cbn. rewrite IH. now destruct r.
    - now exists (Raise IndexError).
  Qed.

  Lemma then_items_count {T} (m : M (pR P) T) (g : T -> list nat) (l : list A) k (c : C) :
    let f := (pos <~ on_rng P m ;; mapS (get_item l) (g pos)) in
    f (with_count k c) = (fst (f c), with_count k (snd (f c))).
  Proof.
    cbn. unfold mbind. rewrite on_rng_count. destruct (on_rng P m c) as [[t|e|] c1]; cbn; [|reflexivity|reflexivity].
    destruct (@mapS_item C l (g t)) as (r & E). now rewrite !E.
  Qed.

  Lemma with_replacement_count n k (c : C) :
    choice_with_replacement P n (with_count k c) =
      (fst (choice_with_replacement P n c), with_count k (snd (choice_with_replacement P n c))).
  Proof.
    unfold choice_with_replacement. rewrite !get_bind. cbn [c_items with_count set_nui c_weights c_cum].
    destruct (zlen (c_items c) =? 1); [reflexivity|].
    destruct (c_weights c) as [ws|].
    - destruct (c_cum c); apply (then_items_count _ (fun x => x)).
    - destruct (n =? 1); [|apply (then_items_count _ (fun x => x))].
      unfold mbind. rewrite on_rng_count. destruct (on_rng P _ c) as [[t|e|] c1]; cbn; [|reflexivity|reflexivity].
      unfold get_item. now destruct (nth_error (c_items c) t).
  Qed.

  Lemma without_replacement_count n k (c : C) :
    c_replace c = true -> n <= k -> n <= c_nui c ->
    choice_without_replacement P setsize fuel n (with_count k c) =
      (fst (choice_without_replacement P setsize fuel n c), with_count k (snd (choice_without_replacement P setsize fuel n c))).
  Proof.
    intros R K N. unfold choice_without_replacement. rewrite !get_bind.
    cbn [c_items with_count set_nui c_weights c_cum c_nui c_replace].
    replace (k <? n) with false by (symmetry; apply Z.ltb_ge; lia).
    replace (c_nui c <? n) with false by (symmetry; apply Z.ltb_ge; lia).
    rewrite R. cbn [negb]. unfold mbind at 1 3 5, ret.
    destruct (c_weights c) as [ws|]; [apply on_rng_count|].
    destruct ((n <? 0) || (zlen (c_items c) <? n)); [reflexivity|].
    apply (then_items_count _ (fun x => x)).
  Qed.

  Lemma emit_rep (c : C) :
    c_replace c = true ->
    choice_emit P setsize fuel c = (l <~ choice_with_replacement P 1 ;; lift (list_get l 0)) c.
  Proof. intros R. unfold choice_emit. rewrite get_bind, R. reflexivity. Qed.

  Lemma call_count n k (c : C) :
    c_replace c = true -> (c_roac c = true -> 1 < n -> n <= k /\ n <= c_nui c) ->
    choice_call_n P setsize fuel n (with_count k c) =
      (fst (choice_call_n P setsize fuel n c), with_count k (snd (choice_call_n P setsize fuel n c))).
  Proof.
    intros R N. unfold choice_call_n, choice_emit_many.
    destruct (n =? 1).
    - unfold mbind at 1 2 3. rewrite !emit_rep by assumption.
      unfold mbind. rewrite with_replacement_count.
      destruct (choice_with_replacement P 1 c) as [[l|e|] c1]; cbn; try reflexivity.
      destruct (list_get l 0); reflexivity.
    - rewrite !get_bind. cbn [with_count set_nui c_replace c_roac]. rewrite R. cbn [negb orb]. fold (with_count k c).
      destruct (c_roac c); cbn [andb]; [|apply with_replacement_count].
      destruct (1 <? n) eqn:L; [|apply with_replacement_count].
      apply Z.ltb_lt in L. destruct (N eq_refl L). now apply without_replacement_count.
  Qed.

  (** With replacement a call changes nothing but the generator. *)
  Lemma on_rng_only {B} (m : M (pR P) B) (c : C) :
    snd (on_rng P m c) = set_rng P (c_rng (snd (on_rng P m c))) c.
  Proof. unfold on_rng. now destruct (m (c_rng c)). Qed.

  Lemma then_items_only {T} (m : M (pR P) T) (g : T -> list nat) (l : list A) (c : C) :
    let f := (pos <~ on_rng P m ;; mapS (get_item l) (g pos)) in
    snd (f c) = set_rng P (c_rng (snd (f c))) c.
  Proof.
    cbn. unfold mbind. pose proof (on_rng_only m c) as E.
    destruct (on_rng P m c) as [[t|e|] c1]; cbn in *; auto.
    destruct (@mapS_item C l (g t)) as (r & Er). now rewrite Er.
  Qed.

  Lemma with_replacement_only n (c : C) :
    snd (choice_with_replacement P n c) = set_rng P (c_rng (snd (choice_with_replacement P n c))) c.
  Proof.
    unfold choice_with_replacement. rewrite !get_bind.
    destruct (zlen (c_items c) =? 1); [now destruct c|].
    destruct (c_weights c) as [ws|].
    - destruct (c_cum c); apply (then_items_only _ (fun x => x)).
    - destruct (n =? 1); [|apply (then_items_only _ (fun x => x))].
      unfold mbind. pose proof (on_rng_only (fun r => let '(i, r0) := r_below P (length (c_items c)) r in (Ok i, r0)) c) as E.
      destruct (on_rng P _ c) as [[t|e|] c1]; cbn in *; auto.
      unfold get_item. now destruct (nth_error (c_items c) t).
  Qed.

  Lemma violation n (c : C) :
    c_nui c < n ->
    choice_without_replacement P setsize fuel n c =
      (_ <- num_unique_values P setsize c ;; Raise ValueError, c).
  Proof.
    intros N. unfold choice_without_replacement. rewrite get_bind.
    replace (c_nui c <? n) with true by (symmetry; apply Z.ltb_lt; lia).
    unfold mbind at 1. unfold uniqueness_violation. rewrite get_bind.
    unfold mbind, lift, raise. now destruct (num_unique_values P setsize c).
  Qed.

  Lemma without_replacement_only n (c : C) :
    c_replace c = true ->
    snd (choice_without_replacement P setsize fuel n c) =
      set_rng P (c_rng (snd (choice_without_replacement P setsize fuel n c))) c.
  Proof.
    intros R. destruct (c_nui c <? n) eqn:Nu.
    - apply Z.ltb_lt in Nu. rewrite (violation n c Nu). now destruct c.
    - unfold choice_without_replacement. rewrite !get_bind. rewrite Nu.
      unfold mbind at 1 3, ret. rewrite R. cbn [negb].
      destruct (c_weights c) as [ws|]; [apply on_rng_only|].
      destruct ((n <? 0) || (zlen (c_items c) <? n)); [now destruct c|].
      apply (then_items_only _ (fun x => x)).
  Qed.

  Lemma call_only n (c : C) :
    c_replace c = true ->
    snd (choice_call_n P setsize fuel n c) =
      set_rng P (c_rng (snd (choice_call_n P setsize fuel n c))) c.
  Proof.
    intros R. unfold choice_call_n, choice_emit_many.
    destruct (n =? 1).
    - unfold mbind at 1 2. rewrite !emit_rep by assumption. unfold mbind.
      pose proof (with_replacement_only 1 c) as E.
      destruct (choice_with_replacement P 1 c) as [[l|e|] c1]; cbn in *; auto.
      destruct (list_get l 0); cbn; exact E.
    - rewrite !get_bind. rewrite R. cbn [negb orb].
      destruct (c_roac c && (1 <? n)); [now apply without_replacement_only | apply with_replacement_only].
  Qed.

  Section Args.
    Context (w : option (list (pW P))) (replace roac : bool) (seed : option (pSeed P))
            (cw : option (list (pW P))).

    (** A Choice as the constructor makes it. *)
    Definition start (l : list A) ws cum ent : C :=
      mkChoice l ws cum (replace || roac) roac (zlen l) [] None seed (rng_for P seed ent).

    Lemma new_gen l ent (c : C) :
      choice_new P fuel l w replace roac seed cw ent = Ok c ->
      l <> [] /\ exists ws cum,
        choice_reset P fuel ent (start l ws cum ent) = (Ok tt, c) /\
        (ws = None <-> nonempty w = false /\ cw = None) /\
        match ws, cum with
        | Some v, Some u => length v = length l /\ length u = length l
        | None, None => True
        | _, _ => False
        end /\
        (forall (l' : list A) ent', l' <> [] -> (nonempty w = true \/ nonempty cw = true -> length l' = length l) ->
           choice_new P fuel l' w replace roac seed cw ent' =
             match choice_reset P fuel ent' (start l' ws cum ent') with
             | (Ok _, c) => Ok c
             | (Raise e, _) => Raise e
             | (Diverge, _) => Diverge
             end).
    Proof.
      intros E. unfold choice_new in E. destruct l as [|a l0] eqn:El; [discriminate|]. rewrite <- El in *.
      split; [now rewrite El|].
      destruct (nonempty w && nonempty cw) eqn:B; [discriminate|].
      destruct (all_weights P l (if nonempty w then w else cw) (nonempty cw)) as [[ws cum]|e|] eqn:Ew; try discriminate.
      cbn [bind fst snd] in E. fold (start l ws cum ent) in E.
      exists ws, cum. split.
      { destruct (choice_reset P fuel ent (start l ws cum ent)) as [[[]|e|] c1]; try discriminate.
        now injection E as <-. }
      assert (Len : forall l' : list A, length l' = length l ->
                all_weights P l' (if nonempty w then w else cw) (nonempty cw) = Ok (ws, cum)).
      { intros l' L. rewrite <- Ew. unfold all_weights. now rewrite L. }
      assert (Tn : (if nonempty w then w else cw) = None <-> nonempty w = false /\ cw = None).
      { destruct w as [[|x v]|]; cbn; intuition discriminate. }
      assert (Ws : match (if nonempty w then w else cw) with
                   | None => ws = None /\ cum = None
                   | Some v =>
                       match ws, cum with
                       | Some v, Some u => length v = length l /\ length u = length l
                       | _, _ => False
                       end /\ length v = length l
                   end).
      { destruct (if nonempty w then w else cw) as [v|]; cbn in Ew; [|injection Ew as <- <-; auto].
        destruct (length l =? length v)%nat eqn:L; cbn in Ew; [|discriminate].
        apply Nat.eqb_eq in L.
        assert (D : forall z, length (de_cum P z v) = length v) by (clear; induction v; cbn; auto).
        assert (Ac : length (accumulate P v) = length v).
        { clear. destruct v as [|x v]; [reflexivity|]. cbn. f_equal. revert x.
          induction v as [|y v IH]; intros x; cbn; auto. }
        destruct (nonempty cw); injection Ew as <- <-; rewrite ?D, ?Ac; auto. }
      split; [|split].
      - rewrite <- Tn. destruct (if nonempty w then w else cw), ws; intuition congruence.
      - destruct (if nonempty w then w else cw); [destruct Ws as (Ws & _); destruct ws; [exact Ws | contradiction] | destruct Ws as (-> & ->); exact I].
      - intros l' ent' N L. unfold choice_new. destruct l' as [|b l1] eqn:El'; [now elim N|]. rewrite <- El' in *.
        rewrite B. assert (all_weights P l' (if nonempty w then w else cw) (nonempty cw) = Ok (ws, cum)) as ->.
        { destruct (if nonempty w then w else cw) as [v|] eqn:Et.
          - apply Len. apply L. destruct (nonempty w) eqn:Nw; [auto|]. right. subst cw.
            destruct Ws as (_ & Lv). destruct v; [rewrite El in Lv; discriminate | reflexivity].
          - cbn in Ew. injection Ew as <- <-. reflexivity. }
        reflexivity.
    Qed.

    Lemma new_eq l ent (c : C) :
      replace || roac = true -> choice_new P fuel l w replace roac seed cw ent = Ok c ->
      l <> [] /\ exists ws cum,
        c = mkChoice l ws cum true roac (zlen l) [] None seed (rng_for P seed ent) /\
        (ws = None <-> nonempty w = false /\ cw = None) /\
        match ws, cum with
        | Some v, Some u => length v = length l /\ length u = length l
        | None, None => True
        | _, _ => False
        end /\
        (forall (l' : list A) ent', l' <> [] -> (nonempty w = true \/ nonempty cw = true -> length l' = length l) ->
           choice_new P fuel l' w replace roac seed cw ent' =
             Ok (mkChoice l' ws cum true roac (zlen l') [] None seed (rng_for P seed ent'))).
    Proof.
      intros R E. destruct (new_gen l ent c E) as (L & ws & cum & Er & W1 & W2 & New).
      unfold start in *. rewrite R in *. split; [exact L|]. exists ws, cum.
      unfold choice_reset, mbind, modify, get in Er. cbn in Er. injection Er as <-.
      split; [reflexivity|]. split; [exact W1|]. split; [exact W2|].
      intros l' ent' N F. rewrite (New l' ent' N F). reflexivity.
    Qed.

    (** C94.  A Choice with replacement follows the changes: every call answers as a
        new Choice with the same arguments, made from the list as it is now, would. *)
    Theorem C94_follows (l : list A) ent (c : C) evs :
      replace || roac = true ->
      choice_new P fuel l w replace roac seed cw ent = Ok c ->
      fits P w roac cw (length l) evs l ->
      live_answers P setsize fuel evs c = new_each_time P setsize fuel w replace roac seed cw evs l (c_rng c).
    Proof.
      intros R E F. destruct (new_eq l ent c R E) as (_ & ws & cum & -> & _ & _ & New).
      cbn [c_rng]. generalize (rng_for P seed ent). intros r. revert r.
      assert (G : forall l1 r, fits P w roac cw (length l) evs l1 ->
        live_answers P setsize fuel evs (mkChoice l1 ws cum true roac (zlen l) [] None seed r) =
        new_each_time P setsize fuel w replace roac seed cw evs l1 r).
      { clear F. induction evs as [|[l2|n] evs IH]; intros l1 r F; cbn [live_answers new_each_time].
        - reflexivity.
        - apply IH. exact F.
        - destruct F as (F1 & F2 & F3 & F). rewrite (New l1 0%nat F1 F2). cbn [set_rng].
          set (c1 := mkChoice l1 ws cum true roac (zlen l1) [] None seed r).
          change (mkChoice l1 ws cum true roac (zlen l) [] None seed r) with (with_count (zlen l) c1).
          change (set_rng P r (mkChoice l1 ws cum true roac (zlen l1) [] None seed (rng_for P seed 0))) with c1.
          rewrite call_count; [|reflexivity | exact F3].
          pose proof (call_only n c1 eq_refl) as O. destruct (choice_call_n P setsize fuel n c1) as [a c2].
          cbn in O |- *. rewrite O. cbn. f_equal. now apply IH. }
      intros r. now apply G.
    Qed.

    (** Weights and a list of another length, but not of length 1: every call raises
        ValueError and changes nothing. *)
    Theorem C94_weights_stay (l l' : list A) ent (c : C) r n :
      replace || roac = true ->
      choice_new P fuel l w replace roac seed cw ent = Ok c ->
      nonempty w = true \/ nonempty cw = true ->
      length l' <> length l -> length l' <> 1%nat -> (roac = true -> n <= zlen l) ->
      choice_call_n P setsize fuel n (items_changed P l' (set_rng P r c)) =
        (Raise ValueError, items_changed P l' (set_rng P r c)).
    Proof.
      intros R E W L L1 N. destruct (new_eq l ent c R E) as (_ & ws & cum & -> & Wn & Wl & _).
      assert (exists v u, ws = Some v /\ cum = Some u /\ length v = length l /\ length u = length l)
        as (v & u & -> & -> & Lv & Lu).
      { destruct ws as [v|], cum as [u|]; try contradiction; [now exists v, u|].
        destruct (proj1 Wn eq_refl) as (W1 & ->). destruct W; [congruence | discriminate]. }
      unfold items_changed. cbn. set (c' := mkChoice l' (Some v) (Some u) true roac (zlen l) [] None seed r).
      assert (Wr : forall k, choice_with_replacement P k c' = (Raise ValueError, c')).
      { intros k. unfold choice_with_replacement. rewrite get_bind. cbn [c_items c_weights c_cum c'].
        replace (zlen l' =? 1) with false by (symmetry; apply Z.eqb_neq; unfold zlen; lia).
        unfold mbind, on_rng. cbn [c_rng c']. unfold choices_cum.
        replace (length u =? length l')%nat with false by (symmetry; apply Nat.eqb_neq; lia). reflexivity. }
      unfold choice_call_n. destruct (n =? 1).
      - unfold mbind at 1. rewrite emit_rep by reflexivity. unfold mbind. now rewrite Wr.
      - unfold choice_emit_many. rewrite get_bind. cbn [c_replace c_roac c' negb orb].
        destruct (roac && (1 <? n)) eqn:Ro; [|apply Wr].
        apply andb_true_iff in Ro as (-> & _). specialize (N eq_refl).
        unfold choice_without_replacement. rewrite get_bind. cbn [c_nui c_replace c_weights c' negb c_items].
        replace (zlen l <? n) with false by (symmetry; apply Z.ltb_ge; lia).
        unfold mbind, ret, on_rng, weighted_shuffle. cbn [c_rng c'].
        replace (length l' =? length v)%nat with false by (symmetry; apply Nat.eqb_neq; lia). reflexivity.
    Qed.

    (** A list of one item, whatever the weights: that item, [n] times. *)
    Theorem C94_one_item (a : A) (l : list A) ent (c : C) r n :
      replace || roac = true ->
      choice_new P fuel l w replace roac seed cw ent = Ok c ->
      0 <= n -> (roac = true -> n <= 1) ->
      choice_call_n P setsize fuel n (items_changed P [a] (set_rng P r c)) =
        (Ok (repeat a (Z.to_nat n)), items_changed P [a] (set_rng P r c)).
    Proof.
      intros R E N Ro. destruct (new_eq l ent c R E) as (_ & ws & cum & -> & _).
      unfold items_changed. cbn. set (c' := mkChoice [a] ws cum true roac (zlen l) [] None seed r).
      assert (Wr : forall k, choice_with_replacement P k c' = (Ok (repeat a (Z.to_nat k)), c')).
      { intros k. unfold choice_with_replacement. rewrite get_bind. cbn [c_items c' zlen length Z.of_nat Z.eqb].
        unfold zlen. cbn. unfold ret, list_rep. f_equal. f_equal. clear.
        induction (Z.to_nat k) as [|m IH]; cbn; [reflexivity | now rewrite IH]. }
      unfold choice_call_n. destruct (n =? 1) eqn:N1.
      - apply Z.eqb_eq in N1. subst n. unfold mbind at 1. rewrite emit_rep by reflexivity. unfold mbind. now rewrite Wr.
      - unfold choice_emit_many. rewrite get_bind. cbn [c_replace c_roac c' negb orb].
        replace (roac && (1 <? n)) with false; [apply Wr|].
        destruct roac; [|reflexivity]. symmetry. apply Z.ltb_ge. auto.
    Qed.

    (** An emptied list, without weights: IndexError. *)
    Theorem C94_emptied (l : list A) ent (c : C) r n :
      replace || roac = true ->
      choice_new P fuel l w replace roac seed cw ent = Ok c ->
      nonempty w = false -> cw = None -> 1 <= n -> (roac = true -> n = 1) ->
      fst (choice_call_n P setsize fuel n (items_changed P [] (set_rng P r c))) = Raise IndexError.
    Proof.
      intros R E W1 W2 N Ro. destruct (new_eq l ent c R E) as (_ & ws & cum & -> & Wn & _).
      rewrite (proj2 Wn (conj W1 W2)).
      unfold items_changed. cbn. set (c' := mkChoice [] None cum true roac (zlen l) [] None seed r).
      assert (Wr : forall k, 1 <= k -> fst (choice_with_replacement P k c') = Raise IndexError).
      { intros k K. unfold choice_with_replacement. rewrite get_bind. cbn [c_items c_weights c'].
        unfold zlen. cbn [length Z.of_nat Z.eqb]. destruct (k =? 1).
        - unfold mbind, on_rng. cbn. destruct (r_below P 0 r) as [i r1]. unfold get_item. now destruct i.
        - unfold mbind, on_rng. cbn [c_rng c']. unfold choices_uniform.
          destruct (Z.to_nat k) as [|m] eqn:M; [lia|]. cbn [draws]. destruct (r_random P r) as [x r1].
          destruct (draws P m r1) as [us r2]. cbn. unfold mbind, get_item. now destruct (u_floor P x 0). }
      unfold choice_call_n. destruct (n =? 1) eqn:N1.
      - unfold mbind at 1. rewrite emit_rep by reflexivity. unfold mbind. specialize (Wr 1 ltac:(lia)).
        destruct (choice_with_replacement P 1 c') as [[x|e|] c2]; cbn in *; congruence.
      - unfold choice_emit_many. rewrite get_bind. cbn [c_replace c_roac c' negb orb].
        destruct roac; [specialize (Ro eq_refl); apply Z.eqb_neq in N1; lia|]. cbn [andb]. apply Wr. lia.
    Qed.

    (** replace_only_after_call: more values than the list had at first are refused,
        however many it has now. *)
    Theorem C94_first_length (l l' : list A) ent (c : C) r n k :
      roac = true ->
      choice_new P fuel l w replace roac seed cw ent = Ok c ->
      zlen l < n -> 1 < n -> setsize l' = Ok k ->
      choice_call_n P setsize fuel n (items_changed P l' (set_rng P r c)) =
        (Raise ValueError, items_changed P l' (set_rng P r c)).
    Proof.
      intros Ro E N N1 Sz. assert (R : replace || roac = true) by (rewrite Ro; now destruct replace).
      destruct (new_eq l ent c R E) as (_ & ws & cum & -> & _).
      unfold items_changed. cbn. set (c' := mkChoice l' ws cum true roac (zlen l) [] None seed r).
      unfold choice_call_n. replace (n =? 1) with false by (symmetry; apply Z.eqb_neq; lia).
      unfold choice_emit_many. rewrite get_bind. cbn [c_replace c_roac c' negb orb].
      rewrite Ro. replace (1 <? n) with true by (symmetry; apply Z.ltb_lt; lia). cbn [andb].
      rewrite violation by exact N. unfold num_unique_values. cbn [c_replace c_items c']. now rewrite Sz.
    Qed.

    (** Neither does reset() take notice of the new length: with replacement it only
        restarts the generator. *)
    Theorem C94_reset (c : C) ent :
      c_replace c = true ->
      choice_reset P fuel ent c = (Ok tt, set_rng P (rng_for P (c_seed c) ent) c).
    Proof. intros R. unfold choice_reset, mbind, modify, get. cbn. now rewrite R. Qed.
  End Args.

  Lemma emit_norep (c : C) :
    c_replace c = false ->
    choice_emit P setsize fuel c = (l <~ choice_without_replacement P setsize fuel 1 ;; lift (list_get l 0)) c.
  Proof. intros R. unfold choice_emit. rewrite get_bind, R. reflexivity. Qed.

  Lemma call_unseen n (l : list A) (c : C) :
    c_replace c = false ->
    choice_call_n P setsize fuel n (items_changed P l c) =
      (fst (choice_call_n P setsize fuel n c), items_changed P l (snd (choice_call_n P setsize fuel n c))) /\
    c_replace (snd (choice_call_n P setsize fuel n c)) = false.
  Proof.
    intros R.
    assert (Wo : forall k,
      choice_without_replacement P setsize fuel k (items_changed P l c) =
        (fst (choice_without_replacement P setsize fuel k c),
         items_changed P l (snd (choice_without_replacement P setsize fuel k c))) /\
      c_replace (snd (choice_without_replacement P setsize fuel k c)) = false).
    { intros k. destruct (Z.lt_ge_cases (c_nui c) k) as [N|N].
      - rewrite !violation by exact N. unfold num_unique_values. cbn [items_changed c_replace c_sidx c_shuffled].
        rewrite R. auto.
      - unfold choice_without_replacement. rewrite !get_bind. cbn [items_changed c_nui c_replace c_sidx c_shuffled].
        replace (c_nui c <? k) with false by (symmetry; apply Z.ltb_ge; lia). rewrite R. cbn [negb].
        unfold mbind at 1 7 13 19, ret at 1 5 9 13. destruct (c_sidx c) as [i|]; cbn; [|auto].
        unfold mbind, ret, lift, modify. cbn.
        destruct (k =? 1); [destruct (list_get (c_shuffled c) i) as [a|e|]|]; cbn; auto. }
    unfold choice_call_n, choice_emit_many. destruct (n =? 1).
    - unfold mbind at 1 2 3 4. rewrite !emit_norep by assumption.
      unfold mbind. destruct (Wo 1) as (W1 & W2). rewrite W1.
      destruct (choice_without_replacement P setsize fuel 1 c) as [[x|e|] c1]; cbn in *; auto.
      unfold lift. destruct (list_get x 0); cbn; auto.
    - rewrite !get_bind. cbn [items_changed c_replace c_roac]. rewrite R. cbn [negb orb].
      fold (items_changed P l c). apply Wo.
  Qed.

  (** The settings that neither calls, resets nor changes of the list touch. *)
  Definition same_settings (c c' : C) : Prop :=
    c_weights c = c_weights c' /\ c_cum c = c_cum c' /\ c_replace c = c_replace c' /\
    c_roac c = c_roac c' /\ c_seed c = c_seed c'.

  Lemma shuffle_settings (c : C) : same_settings c (snd (global_shuffle P fuel c)).
  Proof.
    unfold global_shuffle. rewrite get_bind. cbv zeta. unfold mbind, on_rng.
    destruct (weighted_shuffle P fuel (c_items c) _ None (c_rng c)) as [[sh|e|] r]; cbn; repeat split.
  Qed.

  Lemma reset_settings ent (c : C) : same_settings c (snd (choice_reset P fuel ent c)).
  Proof.
    unfold choice_reset, modify. unfold mbind at 1. rewrite get_bind. cbn.
    destruct (c_replace c) eqn:R; [repeat split; auto|].
    pose proof (shuffle_settings (set_rng P (rng_for P (c_seed c) ent) c)) as (S1 & S2 & S3 & S4 & S5).
    repeat split; assumption.
  Qed.

  Lemma call_settings n (c : C) :
    c_replace c = false ->
    same_settings c (snd (choice_call_n P setsize fuel n c)) /\
    c_items (snd (choice_call_n P setsize fuel n c)) = c_items c.
  Proof.
    intros R.
    assert (Wo : forall k, same_settings c (snd (choice_without_replacement P setsize fuel k c)) /\
                   c_items (snd (choice_without_replacement P setsize fuel k c)) = c_items c).
    { intros k. destruct (Z.lt_ge_cases (c_nui c) k) as [N|N].
      - rewrite !violation by exact N. repeat split.
      - unfold choice_without_replacement. rewrite !get_bind.
        replace (c_nui c <? k) with false by (symmetry; apply Z.ltb_ge; lia). rewrite R. cbn [negb].
        unfold mbind, ret, lift, modify. destruct (c_sidx c) as [i|]; cbn; [|repeat split].
        destruct (k =? 1); [destruct (list_get (c_shuffled c) i) as [a|e|]|]; cbn; repeat split. }
    unfold choice_call_n, choice_emit_many. destruct (n =? 1).
    - unfold mbind at 1 2. rewrite !emit_norep by assumption.
      unfold mbind. specialize (Wo 1).
      destruct (choice_without_replacement P setsize fuel 1 c) as [[x|e|] c1]; cbn in *; auto.
      unfold lift. destruct (list_get x 0); cbn; auto.
    - rewrite !get_bind. rewrite R. cbn [negb orb]. apply Wo.
  Qed.

  (** C95.  A Choice without replacement does not see the changes: its calls
      return what they would have returned without them. *)
  Theorem C95_unseen evs : forall c : C,
    c_replace c = false ->
    live_answers P setsize fuel evs c = live_answers P setsize fuel (unchanged evs) c.
  Proof.
    assert (G : forall evs (l : list A) (c : C), c_replace c = false ->
      live_answers P setsize fuel evs (items_changed P l c) = live_answers P setsize fuel evs c).
    { clear evs. induction evs as [|[l1|n] evs IH]; intros l c R; cbn [live_answers]; [reflexivity| |].
      - reflexivity.
      - destruct (call_unseen n l c R) as (E1 & E2). rewrite E1.
        destruct (choice_call_n P setsize fuel n c) as [a c1]. cbn in *. f_equal. now apply IH. }
    induction evs as [|[l1|n] evs IH]; intros c R; cbn [live_answers unchanged]; [reflexivity| |].
    - rewrite G by exact R. now apply IH.
    - destruct (call_unseen n [] c R) as (_ & E2).
      destruct (choice_call_n P setsize fuel n c) as [a c1]. cbn in *. f_equal. now apply IH.
  Qed.

  Lemma live_settings evs : forall c : C,
    c_replace c = false -> same_settings c (live_state P setsize fuel evs c).
  Proof.
    induction evs as [|[l1|n] evs IH]; intros c R; cbn [live_state]; [repeat split| |].
    - exact (IH (items_changed P l1 c) R).
    - destruct (call_settings n c R) as ((S1 & S2 & S3 & S4 & S5) & _).
      destruct (IH (snd (choice_call_n P setsize fuel n c))) as (T1 & T2 & T3 & T4 & T5); [congruence|].
      repeat split; congruence.
  Qed.

  (** reset() shuffles the list as it is then: if that is not empty, and has its
      first length if there are weights, the emitter is as a new one. *)
  Theorem C95_reset w seed cw (l : list A) ent ent' (c c2 : C) evs :
    choice_new P fuel l w false false seed cw ent = Ok c ->
    c2 = live_state P setsize fuel evs c ->
    c_items c2 <> [] ->
    (nonempty w = true \/ nonempty cw = true -> length (c_items c2) = length l) ->
    match choice_new P fuel (c_items c2) w false false seed cw ent' with
    | Ok c' => choice_reset P fuel ent' c2 = (Ok tt, c')
    | Raise e => fst (choice_reset P fuel ent' c2) = Raise e
    | Diverge => fst (choice_reset P fuel ent' c2) = Diverge
    end.
  Proof.
    intros E -> N F. set (c2 := live_state P setsize fuel evs c) in *.
    destruct (new_gen w false false seed cw l ent c E) as (_ & ws & cum & Er & _ & _ & New).
    rewrite (New (c_items c2) ent' N F).
    pose proof (reset_settings ent (start false false seed l ws cum ent)) as S1. rewrite Er in S1.
    destruct S1 as (S1 & S2 & S3 & S4 & S5). cbn in S1, S2, S3, S4, S5.
    pose proof (live_settings evs c (eq_sym S3)) as (T1 & T2 & T3 & T4 & T5). fold c2 in T1, T2, T3, T4, T5.
    assert (Es : exists nui sh si r, c2 = mkChoice (c_items c2) ws cum false false nui sh si seed r).
    { exists (c_nui c2), (c_shuffled c2), (c_sidx c2), (c_rng c2). destruct c2. cbn in *. congruence. }
    destruct Es as (nui & sh & si & r & Es). revert Es. generalize (c_items c2). intros l2 ->.
    unfold choice_reset, start, modify. unfold mbind at 1 3 5 7. rewrite !get_bind. cbn [set_rng c_replace c_seed orb].
    unfold global_shuffle. rewrite !get_bind. cbv zeta. unfold mbind, on_rng, modify.
    cbn [c_items c_weights c_rng set_rng].
    destruct (weighted_shuffle P fuel l2 _ None (rng_for P seed ent')) as [[x|e|] r1]; cbn; reflexivity.
  Qed.

  (** With weights and another length it fails, and the emitter goes on as before
      with its old items (its generator is restarted). *)
  Theorem C95_reset_refused w seed cw (l : list A) ent ent' (c c2 : C) evs :
    choice_new P fuel l w false false seed cw ent = Ok c ->
    c2 = live_state P setsize fuel evs c ->
    nonempty w = true \/ nonempty cw = true -> length (c_items c2) <> length l ->
    choice_reset P fuel ent' c2 = (Raise ValueError, set_rng P (rng_for P seed ent') c2).
  Proof.
    intros E -> W L. set (c2 := live_state P setsize fuel evs c) in *.
    destruct (new_gen w false false seed cw l ent c E) as (_ & ws & cum & Er & Wn & Wl & _).
    pose proof (reset_settings ent (start false false seed l ws cum ent)) as S1. rewrite Er in S1.
    destruct S1 as (S1 & S2 & S3 & S4 & S5). cbn in S1, S2, S3, S4, S5.
    pose proof (live_settings evs c (eq_sym S3)) as (T1 & T2 & T3 & T4 & T5). fold c2 in T1, T2, T3, T4, T5.
    assert (exists v, ws = Some v /\ length v = length l /\ v <> []) as (v & -> & Lv & Nv).
    { destruct ws as [v|], cum as [u|]; try contradiction.
      - exists v. split; [reflexivity|]. split; [apply Wl|]. intros ->. destruct Wl as (Wl & _).
        destruct l; [now unfold choice_new in E | discriminate].
      - destruct (proj1 Wn eq_refl) as (W1 & ->). destruct W; [congruence | discriminate]. }
    unfold choice_reset, modify. unfold mbind at 1. rewrite get_bind. cbn [set_rng c_replace c_seed].
    rewrite <- T3, <- S3, <- T5, <- S5. unfold global_shuffle. rewrite get_bind. cbv zeta. unfold mbind, on_rng.
    cbn [c_items c_weights c_rng set_rng]. rewrite <- T1, <- S1. destruct v as [|v0 v]; [now elim Nv|]. cbn [nonempty].
    unfold weighted_shuffle. replace (length (c_items c2) =? length (v0 :: v))%nat with false
      by (symmetry; apply Nat.eqb_neq; congruence).
    reflexivity.
  Qed.
End Live.

(** ** Cases and counterexamples *)
Notation CN := (count_distinct Nat.eq_dec).

(** [l = [10, 20, 30]; em = Choice(l); em(2); l[:] = [40, 50]; em(3)] *)
Example C94_case :
  match choice_new (QP demo) 5 [10; 20; 30]%nat None true false (Some 3%nat) None 0 with
  | Ok c =>
      let evs := [LAsk 2; LChange [40; 50]%nat; LAsk 3] in
      fits (QP demo) None false None 3 evs [10; 20; 30]%nat /\
      live_answers (QP demo) CN 5 evs c = [Ok [20; 30]; Ok [40; 50; 40]]%nat /\
      live_answers (QP demo) CN 5 evs c =
        new_each_time (QP demo) CN 5 None true false (Some 3%nat) None evs [10; 20; 30]%nat (c_rng c)
  | _ => False
  end.
Proof. vm_compute. repeat split; try discriminate; try (intros [X|X]; discriminate X). Qed.

(** With replace_only_after_call and a list that has grown, a call for no more
    values than the list has is not always answered as by a new Choice. *)
Theorem C94_grown_refuted :
  ~ forall (l l' : list nat) (c : choice (QP demo)) n,
      choice_new (QP demo) 5 l None true true (Some 3%nat) None 0 = Ok c ->
      l' <> [] -> 0 <= n <= zlen l' ->
      live_answers (QP demo) CN 5 [LChange l'; LAsk n] c =
        new_each_time (QP demo) CN 5 None true true (Some 3%nat) None [LChange l'; LAsk n] l (c_rng c).
Proof.
  intros F. specialize (F [1; 2]%nat [1; 2; 3]%nat _ 3 eq_refl ltac:(discriminate) ltac:(vm_compute; split; discriminate)).
  vm_compute in F. discriminate F.
Qed.

(** Weights for three items, and a list of two. *)
Example C94_weights_case :
  match choice_new (QP demo) 5 [10; 20; 30]%nat (Some [w_one (QP demo); w_one (QP demo); w_one (QP demo)]) true false (Some 3%nat) None 0 with
  | Ok c => live_answers (QP demo) CN 5 [LAsk 1; LChange [40; 50]%nat; LAsk 1; LChange [60]%nat; LAsk 2] c =
      [Ok [20]%nat; Raise ValueError; Ok [60; 60]%nat]
  | _ => False
  end.
Proof. vm_compute. reflexivity. Qed.

(** Without replacement: the old items, until reset. *)
Example C95_case :
  match choice_new (QP demo) 5 [10; 20; 30]%nat None false false (Some 3%nat) None 0 with
  | Ok c =>
      c_replace c = false /\
      live_answers (QP demo) CN 5 [LAsk 1; LChange [40; 50]%nat; LAsk 2; LAsk 1] c =
        [Ok [20]; Ok [10; 30]; Raise ValueError]%nat /\
      (let c2 := live_state (QP demo) CN 5 [LAsk 1; LChange [40; 50]%nat] c in
       c_items c2 = [40; 50]%nat /\
       match choice_reset (QP demo) 5 0 c2 with
       | (Ok _, c3) => live_answers (QP demo) CN 5 [LAsk 2] c3 = [Ok [50; 40]%nat]
       | _ => False
       end)
  | _ => False
  end.
Proof. vm_compute. repeat split. Qed.

Print Assumptions C94_follows.
Print Assumptions C94_weights_stay.
Print Assumptions C94_one_item.
Print Assumptions C94_emptied.
Print Assumptions C94_first_length.
Print Assumptions C94_reset.
Print Assumptions C94_grown_refuted.
Print Assumptions C95_unseen.
Print Assumptions C95_reset.
Print Assumptions C95_reset_refused.
