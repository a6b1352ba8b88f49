(** * No command goes on for ever. *)
From Coq Require Import String.
From Verif Require Import Base Prims Values MathModel MathSpec MathProofs ChoiceModel ChoiceRun ChoiceProofs NumLaws
  FixedModel GroupModel SigModel SigProofs WrapModel TextModel TextProofs FieldModel World Rel WorldProofs Agree
  WorldSpec WorldReset Histories WorldBuild BuildProofs ProgramSpec EndSpec Prop_Math Prop_Count.
Open Scope list_scope.
Open Scope Z_scope.

Section Ends.
  Context {P : prims} (acc num : pW P -> Prop) (fuel : nat) (str_of : val -> res (list Z)).
  Hypothesis L : wlaws P acc num.
  Hypothesis One : acc (w_one P).
  Hypothesis Score : forall u w, k_score P u w <> Diverge.
  Hypothesis Str : forall v, str_of v <> Diverge.
  Notation world := (World.world P).
  Notation emitter := (World.emitter P).
  Notation get_em := (World.get_em P).
  Notation get_fd := (World.get_fd P).
  Notation C := (@choice P val).
  Notation productive := (EndSpec.productive fuel).
  Notation returns := (EndSpec.returns P).

  (** ** Results *)
  Lemma nd_bind A B (r : res A) (k : A -> res B) : r <> Diverge -> (forall a, r = Ok a -> k a <> Diverge) -> bind r k <> Diverge.
  Proof. destruct r; cbn; intros H K; [apply K; reflexivity | discriminate | congruence]. Qed.
  Lemma nd_mapM A B (f : A -> res B) l : (forall a, f a <> Diverge) -> mapM f l <> Diverge.
  Proof.
    intros H. induction l as [|a l IH]; cbn [mapM]; [discriminate|]. apply nd_bind; [apply H|]. intros b _. apply nd_bind; [exact IH | discriminate].
  Qed.
  Lemma nd_int v : as_int v <> Diverge. Proof. destruct v; discriminate. Qed.
  Lemma nd_sum vs : sum_vals vs <> Diverge.
  Proof. induction vs as [|v t IH]; cbn [sum_vals]; [discriminate|]. apply nd_bind; [apply nd_int|]. intros. apply nd_bind; [exact IH | discriminate]. Qed.
  Lemma nd_join vs : join_strs vs <> Diverge.
  Proof. unfold join_strs. apply nd_bind; [|discriminate]. apply nd_mapM. intros []; discriminate. Qed.
  Lemma nd_join_val v : join_val v <> Diverge. Proof. destruct v; try discriminate; apply nd_join. Qed.
  Lemma nd_get A (l : list A) i : list_get l i <> Diverge.
  Proof. unfold list_get. destruct (norm_index _ _); [|discriminate]. destruct (nth_error _ _); discriminate. Qed.
  Lemma nd_cut cs ns : forall i, cut_words cs i ns <> Diverge.
  Proof.
    induction ns as [|n t IH]; intros i; cbn [cut_words]; [discriminate|]. apply nd_bind; [apply nd_join|]. intros. apply nd_bind; [apply IH | discriminate].
  Qed.
  Lemma nd_size vs : val_setsize vs <> Diverge. Proof. unfold val_setsize. destruct (hash_keys vs); discriminate. Qed.
  Lemma nd_nuv (c : C) : num_unique_values P val_setsize c <> Diverge.
  Proof. unfold num_unique_values. destruct (c_replace c); [apply nd_size|]. destruct (c_sidx c); [apply nd_size | discriminate]. Qed.
  Lemma nd_nuv_of e : nuv_of P e <> Diverge.
  Proof. destruct e; cbn [nuv_of]; try discriminate; (apply nd_bind; [first [apply nd_size | apply nd_nuv] | discriminate]). Qed.
  Lemma nd_pow b e : nuv_pow b e <> Diverge.
  Proof. destruct b; try discriminate. cbn. unfold py_pow. destruct (_ <=? _); [discriminate|]. destruct (_ =? _); discriminate. Qed.
  Lemma nd_word a items : word_nuv a items <> Diverge.
  Proof.
    assert (H : forall a l, word_sum a l <> Diverge).
    { intros b l. induction l as [|i t IH]; cbn [word_sum]; [discriminate|]. apply nd_bind; [apply nd_int|]. intros. apply nd_bind; [apply nd_pow|]. intros.
      apply nd_bind; [exact IH | discriminate]. }
    destruct a, items; cbn [word_nuv]; try discriminate; apply H.
  Qed.
  Lemma nd_text a b items : text_nuv a b items <> Diverge.
  Proof.
    assert (H : forall a b l, text_sum a b l <> Diverge).
    { intros x y l. induction l as [|i t IH]; cbn [text_sum]; [discriminate|]. apply nd_bind; [apply nd_int|]. intros. apply nd_bind; [apply nd_pow|]. intros.
      apply nd_bind; [apply nd_pow|]. intros. apply nd_bind; [exact IH | discriminate]. }
    destruct a, b, items; cbn [text_nuv]; try discriminate; apply H.
  Qed.
  Lemma nd_copy b sep src : copy_emit str_of b sep src <> Diverge.
  Proof.
    unfold copy_emit. destruct (single_valued _ _); [destruct src as [|[? ?] ?]; discriminate|]. destruct sep; [|discriminate].
    apply nd_bind; [apply nd_mapM, Str | discriminate].
  Qed.
  Lemma nd_sig sg n kw : sig_bind sg n kw <> Diverge.
  Proof.
    unfold sig_bind. apply nd_bind.
    - revert n. induction sg as [|p t IH]; intros [|n]; cbn [bind_positional]; try discriminate.
      + destruct (p_kind p), (mem (p_name p) kw), (p_default p); discriminate.
      + destruct (p_kind p); try discriminate; [apply IH|]. destruct (mem _ _); [discriminate | apply IH].
    - intros ps _. generalize false as b. revert kw. induction ps as [|p t IH]; intros kw b; cbn [bind_keywords]; [destruct kw, b; discriminate|].
      destruct (p_kind p); try apply IH; (destruct (mem _ _); [try discriminate; apply IH | destruct (p_default p); [apply IH | discriminate]]).
  Qed.

  (** ** Generators *)
  Lemma nd_next (F : factory val) n : forall g, (exists k, (k < n)%nat /\ it_at (F (g_calls g + k)%nat) 0 <> None) -> fst (gen_next n F g) <> Diverge.
  Proof.
    induction n as [|n IH]; intros g (k & Hk & Hn); [lia|]. cbn [gen_next].
    destruct (match g_cur g with Some (c, p) => match it_at (F c) p with Some a => Some (a, c, p) | None => None end | None => None end) as [[[a c] p]|]; [discriminate|].
    destruct k as [|k].
    - rewrite Nat.add_0_r in Hn. destruct n; cbn [gen_next g_cur]; (destruct (it_at (F (g_calls g)) 0); [discriminate | congruence]).
    - apply IH. exists k. split; [lia|]. cbn. replace (S (g_calls g + k)) with (g_calls g + S k)%nat by lia. exact Hn.
  Qed.
  Lemma nd_gen_next (F : factory val) g : productive F -> fst (gen_next fuel F g) <> Diverge.
  Proof. intros H. apply nd_next. apply H. Qed.
  Lemma nd_take (F : factory val) n : productive F -> forall g, fst (gen_take fuel F n g) <> Diverge.
  Proof.
    intros H. induction n as [|n IH]; intros g; cbn [gen_take]; [discriminate|]. unfold mbind.
    pose proof (nd_gen_next F g H). destruct (gen_next fuel F g) as [[a|e|] g1]; cbn in *; [|discriminate|congruence].
    specialize (IH g1). destruct (gen_take fuel F n g1) as [[l|e|] g2]; cbn in *; [discriminate | discriminate | congruence].
  Qed.

  (** ** Choice *)
  Definition calm (c : C) : Prop :=
    c_items c <> [] /\ (length (c_items c) < fuel)%nat /\ (forall ws, c_weights c = Some ws -> Forall acc ws) /\
    (c_replace c = true -> c_nui c = zlen (c_items c)).
  (** Does not diverge, and leaves a calm Choice. *)
  Definition quiet {A} (m : M C A) : Prop := forall c, calm c -> calm (snd (m c)) /\ fst (m c) <> Diverge.
  Lemma q_bind A B (m : M C A) (k : A -> M C B) : quiet m -> (forall a, quiet (k a)) -> quiet (mbind m k).
  Proof.
    intros H K c Hc. unfold mbind. destruct (H c Hc) as [H1 H2]. destruct (m c) as [[a|e|] c1]; cbn in *; [apply K, H1 | split; [exact H1 | discriminate] | congruence].
  Qed.
  Lemma q_get A (k : C -> M C A) : (forall c, calm c -> calm (snd (k c c)) /\ fst (k c c) <> Diverge) -> quiet (mbind (@ChoiceModel.get P val) k).
  Proof. intros H c Hc. apply (H c Hc). Qed.
  Lemma q_lift A (r : res A) : r <> Diverge -> quiet (lift r).
  Proof. intros H c Hc. split; [exact Hc | exact H]. Qed.
  Lemma q_ret A (a : A) : quiet (ret a). Proof. intros c Hc. split; [exact Hc | discriminate]. Qed.
  Lemma q_raise A e : quiet (@raise C A e). Proof. intros c Hc. split; [exact Hc | discriminate]. Qed.
  Lemma q_mod (f : C -> C) : (forall c, calm c -> calm (f c)) -> quiet (ChoiceModel.modify P f).
  Proof. intros H c Hc. split; [exact (H c Hc) | discriminate]. Qed.
  Lemma q_mapS A B (f : A -> M C B) l : (forall a, quiet (f a)) -> quiet (mapS f l).
  Proof. intros H. induction l as [|a l IH]; cbn [mapS]; [apply q_ret|]. apply q_bind; [apply H|]. intros b. apply q_bind; [exact IH|]. intros; apply q_ret. Qed.
  Lemma q_item (l : list val) i : quiet (@get_item C val l i).
  Proof. unfold get_item. destruct (nth_error _ _); [apply q_ret | apply q_raise]. Qed.
  Lemma q_rng A (m : M (pR P) A) : (forall g, fst (m g) <> Diverge) -> quiet (@on_rng P val A m).
  Proof. intros H c Hc. unfold on_rng. specialize (H (c_rng c)). destruct (m (c_rng c)) as [r g]. split; [exact Hc | exact H]. Qed.

  Lemma nd_shuffle (items : list val) ws n g : items <> [] -> (length items < fuel)%nat -> Forall acc ws ->
    (forall k, n = Some k -> 0 <= k <= zlen items) -> fst (weighted_shuffle P fuel items ws n g) <> Diverge.
  Proof.
    intros Hne Hl Hw Hn.
    assert (H : forall k, 0 <= k <= zlen items -> fst (weighted_shuffle P fuel items ws (Some k) g) <> Diverge).
    { intros k Hk. unfold zlen in Hk. destruct (C16_never_loops P acc num L val items ws k g Hne Hw (proj1 Hk) fuel ltac:(lia)) as [H|(u & x & H)]; [exact H|].
      destruct (Score u x H). }
    destruct n as [k|]; [exact (H k (Hn k eq_refl))|]. apply (H (zlen items)). unfold zlen. lia.
  Qed.
  Lemma q_global : quiet (global_shuffle P fuel (A := val)).
  Proof.
    unfold global_shuffle. apply q_get. intros c (H1 & H2 & H3 & H4). unfold mbind, on_rng. cbn zeta.
    match goal with |- context [weighted_shuffle P fuel _ ?ws None _] => assert (W : Forall acc ws) end.
    { destruct (nonempty (c_weights c)); [destruct (c_weights c); [apply H3; reflexivity | constructor]|].
      apply Forall_forall. intros x Hx. apply repeat_spec in Hx. subst. exact One. }
    pose proof (nd_shuffle (c_items c) _ None (c_rng c) H1 H2 W ltac:(discriminate)) as N.
    destruct (weighted_shuffle _ _ _ _ _ _) as [[sh|e|] g]; cbn in N |- *; [|split; [exact (conj H1 (conj H2 (conj H3 H4))) | discriminate] | congruence].
    split; [|discriminate]. repeat split; cbn; auto.
  Qed.
  Lemma q_maybe : quiet (mbind (@ChoiceModel.get P val) (fun c => if c_replace c then ret tt else global_shuffle P fuel)).
  Proof. apply q_get. intros c Hc. destruct (c_replace c); [apply q_ret | apply q_global]; exact Hc. Qed.
  Lemma q_reset ent : quiet (choice_reset P fuel (A := val) ent).
  Proof. apply q_bind; [|intros _; exact q_maybe]. apply q_mod. intros c H. exact H. Qed.
  Lemma q_seed s ent : quiet (choice_seed P fuel (A := val) s ent).
  Proof. apply q_bind; [|intros _; exact q_maybe]. apply q_mod. intros c H. exact H. Qed.
  Lemma same_differences l : forall p, differences P p l = de_cum P p l.
  Proof. induction l as [|a l IH]; intros p; cbn; [reflexivity | rewrite IH; reflexivity]. Qed.
  Lemma weights_ok (items : list val) ws b wc : accepted P acc b ws -> all_weights P items ws b = Ok wc -> forall l, fst wc = Some l -> Forall acc l.
  Proof.
    unfold all_weights. destruct ws as [ws|]; intros A H l E; [|inversion H; subst; discriminate]. destruct (negb _); [discriminate|].
    specialize (A ws eq_refl). destruct b; inversion H; subst; cbn in E; inversion E; subst; [rewrite <- same_differences|]; exact A.
  Qed.
  Lemma nd_weights (items : list val) ws b : all_weights P items ws b <> Diverge.
  Proof. unfold all_weights. destruct ws; [|discriminate]. destruct (negb _); [discriminate|]. destruct b; discriminate. Qed.
  Lemma q_set_weights ws b : accepted P acc b ws -> quiet (set_weights P fuel (A := val) ws b).
  Proof.
    intros A. apply q_get. intros c Hc. unfold mbind at 1. unfold lift. pose proof (nd_weights (c_items c) ws b) as N.
    destruct (all_weights P (c_items c) ws b) as [wc|e|] eqn:E; [|split; [exact Hc | discriminate] | congruence].
    unfold mbind. cbn. assert (K : calm (set_ws P (fst wc) (snd wc) c)).
    { destruct Hc as (H1 & H2 & _ & H4). split; [exact H1|]. split; [exact H2|]. split; [|exact H4]. exact (weights_ok _ _ _ _ A E). }
    destruct (c_replace c); [split; [exact K | discriminate] | apply q_global; exact K].
  Qed.
  Lemma q_set_replace b : quiet (set_replace P fuel (A := val) b).
  Proof.
    apply q_get. intros c Hc. destruct (Bool.eqb b (c_replace c)); [apply q_ret; exact Hc|]. destruct Hc as (H1 & H2 & H3 & H4). destruct b.
    - unfold mbind, ChoiceModel.modify. cbn. split; [|discriminate]. repeat split; auto.
    - assert (K : calm (set_roac P false (set_rep P false c))) by (repeat split; auto; intros X; discriminate). exact (q_global _ K).
  Qed.
  Lemma q_set_roac b : quiet (set_replace_only_after_call P fuel (A := val) b).
  Proof. unfold set_replace_only_after_call. apply q_bind; [apply q_mod; intros c H; exact H|]. intros _. destruct b; [apply q_set_replace | apply q_ret]. Qed.

  Lemma nd_uniform n k g : fst (choices_uniform P n k g) <> Diverge.
  Proof. unfold choices_uniform. destruct (draws P (Z.to_nat k) g). discriminate. Qed.
  Lemma nd_cum n cum k g : fst (choices_cum P n cum k g) <> Diverge.
  Proof.
    unfold choices_cum. destruct (negb _); [discriminate|]. destruct (rev cum); [discriminate|]. destruct (negb _); [discriminate|].
    destruct (draws P (Z.to_nat k) g). discriminate.
  Qed.
  Lemma q_with n : quiet (choice_with_replacement P (A := val) n).
  Proof.
    apply q_get. intros c Hc. destruct (_ =? 1); [apply q_ret; exact Hc|]. revert c Hc.
    assert (U : forall c0 : C, quiet (pos <~ on_rng P (choices_uniform P (length (c_items c0)) n);; mapS (get_item (c_items c0)) pos)).
    { intros c0. apply q_bind; [apply q_rng, nd_uniform|]. intros. apply q_mapS. intros; apply q_item. }
    intros c Hc. destruct (c_weights c).
    - destruct (c_cum c); [|apply U; exact Hc].
      refine (q_bind _ _ _ _ _ _ c Hc); [apply q_rng, nd_cum|]. intros. apply q_mapS. intros; apply q_item.
    - destruct (n =? 1); [|apply U; exact Hc].
      refine (q_bind _ _ _ _ _ _ c Hc); [apply q_rng; intros g; destruct (r_below P _ g); discriminate|].
      intros. apply q_bind; [apply q_item | intros; apply q_ret].
  Qed.
  Lemma q_violation B : quiet (@uniqueness_violation P val val_setsize B).
  Proof. apply q_get. intros c Hc. refine (q_bind _ _ _ _ _ _ c Hc); [apply q_lift, nd_nuv | intros; apply q_raise]. Qed.
  Lemma get_eq A (k : C -> M C A) c : mbind (@ChoiceModel.get P val) k c = k c c. Proof. reflexivity. Qed.
  Lemma without_quiet n c : calm c -> (c_replace c = true -> 0 <= n) ->
    calm (snd (choice_without_replacement P val_setsize fuel n c)) /\ fst (choice_without_replacement P val_setsize fuel n c) <> Diverge.
  Proof.
    intros Hc Hn. unfold choice_without_replacement. rewrite get_eq. cbv beta. destruct (Z.ltb_spec (c_nui c) n) as [Hlt|Hle].
    - unfold uniqueness_violation, mbind, ChoiceModel.get, lift, raise. pose proof (nd_nuv c) as N.
      destruct (num_unique_values P val_setsize c); [split; [exact Hc|]; cbn; discriminate .. | congruence].
    - unfold mbind at 1, ret at 1. destruct (c_replace c) eqn:Er; cbn [negb].
      + destruct Hc as (H1 & H2 & H3 & H4). pose proof (conj H1 (conj H2 (conj H3 H4)) : calm c) as Hc. destruct (c_weights c) as [ws|] eqn:Ew.
        * apply q_rng; [|exact Hc]. intros g. apply nd_shuffle; auto. intros k E. inversion E; subst k. rewrite (H4 Er) in Hle. split; [apply Hn; reflexivity | exact Hle].
        * destruct (_ || _); [apply q_raise; exact Hc|].
          refine (q_bind _ _ _ _ _ _ c Hc); [apply q_rng; intros g; destruct (r_sample P _ _ g); discriminate|]. intros. apply q_mapS. intros; apply q_item.
      + assert (K : forall i j, calm (set_nui P i (set_shuf P (c_shuffled c) j c))).
        { intros i j. destruct Hc as (H1 & H2 & H3 & H4). repeat split; auto. cbn. congruence. }
        assert (Q : forall i (m : M C (list val)), (forall c, snd (m c) = c /\ fst (m c) <> Diverge) ->
          calm (snd ((its <~ m ;; ChoiceModel.modify P (fun c => set_nui P (c_nui c - n) (set_shuf P (c_shuffled c) (Some i) c)) ;;; ret its) c)) /\
          fst ((its <~ m ;; ChoiceModel.modify P (fun c => set_nui P (c_nui c - n) (set_shuf P (c_shuffled c) (Some i) c)) ;;; ret its) c) <> Diverge).
        { intros i m H. unfold mbind, ChoiceModel.modify, ret. destruct (H c) as [H1 H2]. destruct (m c) as [[l|e|] c1]; cbn in H1, H2 |- *; subst; [|split; [exact Hc | discriminate]|congruence].
          split; [apply (K _ _) | discriminate]. }
        destruct (c_sidx c) as [i|]; [|split; [exact Hc | discriminate]].
        apply Q. intros c1. destruct (n =? 1); [|split; [reflexivity | discriminate]].
        unfold mbind, lift. pose proof (nd_get _ (c_shuffled c) i). destruct (list_get _ _); cbn; [split; [reflexivity | discriminate] .. | congruence].
  Qed.
  Lemma q_many n : quiet (choice_emit_many P val_setsize fuel n).
  Proof.
    apply q_get. intros c Hc. destruct (c_replace c) eqn:Er; cbn [negb orb].
    - destruct (c_roac c); cbn [andb]; [|apply q_with; exact Hc]. destruct (Z.ltb_spec 1 n); [|apply q_with; exact Hc].
      apply without_quiet; [exact Hc | lia].
    - apply without_quiet; [exact Hc | congruence].
  Qed.
  Lemma q_emit : quiet (choice_emit P val_setsize fuel).
  Proof.
    apply q_get. intros c Hc.
    assert (K : forall (m : M C (list val)), calm (snd (m c)) /\ fst (m c) <> Diverge ->
      calm (snd ((l <~ m ;; lift (list_get l 0)) c)) /\ fst ((l <~ m ;; lift (list_get l 0)) c) <> Diverge).
    { intros m [H1 H2]. unfold mbind, lift. destruct (m c) as [[l|e|] c1]; cbn in *; [split; [exact H1 | apply nd_get] | split; [exact H1 | discriminate] | congruence]. }
    apply K. destruct (c_replace c) eqn:Er; cbn [negb]; [apply q_with; exact Hc|]. apply without_quiet; [exact Hc | congruence].
  Qed.

  Lemma new_calm (items : list val) ws rep roac seed cum ent : (length items < fuel)%nat -> accepted P acc false ws -> accepted P acc true cum ->
    choice_new P fuel items ws rep roac seed cum ent <> Diverge /\
    forall c, choice_new P fuel items ws rep roac seed cum ent = Ok c -> calm c.
  Proof.
    intros Hl A1 A2. unfold choice_new. destruct items as [|a t]; [split; discriminate|]. remember (a :: t) as items eqn:Ei.
    destruct (nonempty ws && nonempty cum) eqn:En; [split; discriminate|]. cbn zeta.
    assert (W : forall wc, all_weights P items (if nonempty ws then ws else cum) (nonempty cum) = Ok wc -> forall l, fst wc = Some l -> Forall acc l).
    { intros wc. destruct (nonempty ws); cbn in En; [rewrite En; intros H; exact (weights_ok _ _ _ _ A1 H)|]. destruct (nonempty cum) eqn:Ec; [intros H; exact (weights_ok _ _ _ _ A2 H)|].
      destruct cum as [[|x cum]|]; try discriminate; unfold all_weights; subst items; cbn; [discriminate|]. intros H l E. inversion H; subst. discriminate. }
    pose proof (nd_weights items (if nonempty ws then ws else cum) (nonempty cum)) as N.
    destruct (all_weights P items _ _) as [wc|e|]; cbn [bind]; [|split; discriminate | congruence].
    match goal with |- context [choice_reset P fuel ent ?c] => assert (K : calm c) end.
    { repeat split; cbn; auto; [subst; discriminate|]. exact (W _ eq_refl). }
    destruct (q_reset ent _ K) as [H1 H2]. destruct (choice_reset P fuel ent _) as [[[]|e|] c]; cbn in *; [|split; discriminate|congruence].
    split; [discriminate|]. intros c' E. inversion E; subst. exact H1.
  Qed.

  (** ** Objects *)
  Definition tame (e : emitter) : Prop :=
    match e with
    | EIter _ i => productive (i_factory i)
    | ESeq _ _ s => productive (seq_factory s)
    | EChoice _ _ c => calm c
    | EWrapOne _ _ f _ | EWrapMany _ _ f _ | EBased _ _ _ f _ => returns f
    | EUser _ c _ _ => methods_return P c
    | _ => True
    end.
  Definition tamed (w : world) : Prop := forall i e, get_em i w = Some e -> tame e.
  Definition tag (e : emitter) : nat :=
    match e with
    | EStatic _ _ => 0 | EIter _ _ => 1 | ESeq _ _ _ => 2 | EChoice _ _ _ => 3 | EWord _ _ _ _ _ => 4 | EText _ _ _ _ _ _ => 5
    | EWrapOne _ _ _ _ => 6 | EWrapMany _ _ _ _ => 7 | ECopy _ _ _ _ => 8 | EBased _ _ _ _ _ => 9
    | EUser _ _ _ _ => 10
    end%nat.
  Definition kind (e : emitter) : nat * list nat * list nat * bool :=
    (tag e, children P e, source_of P e, match node_of P e with Some _ => true | None => false end).
  Lemma kind_node e e' : kind e = kind e' -> node_of P e <> None -> node_of P e' <> None.
  Proof.
    unfold kind. intros H N N'. rewrite N' in H. destruct (node_of P e); congruence.
  Qed.
  Lemma kind_with nd e : kind (with_node P nd e) = kind e. Proof. destruct e as [| | | | | | | | | |c o [n|]]; reflexivity. Qed.
  Lemma tame_with nd e : tame e -> tame (with_node P nd e). Proof. destruct e; cbn; auto. Qed.

  Section Triples.
    Context (w0 : world) (Snd : sound P w0).

    Definition J (w : world) : Prop :=
      (forall i, option_map kind (get_em i w) = option_map kind (get_em i w0)) /\
      (forall f, option_map (parts P) (get_fd f w) = option_map (parts P) (get_fd f w0)) /\ tamed w.
    Definition ends {A} (m : M world A) (Q : A -> Prop) : Prop :=
      forall w, J w -> J (snd (m w)) /\ fst (m w) <> Diverge /\ forall a, fst (m w) = Ok a -> Q a.
    Notation always m := (ends m (fun _ => True)).

    Lemma e_ret A (a : A) (Q : A -> Prop) : Q a -> ends (ret a) Q.
    Proof. intros H w Hw. repeat split; try exact (proj1 Hw); try apply Hw; [discriminate|]. cbn. intros a' E. inversion E; subst; exact H. Qed.
    Lemma e_raise A e (Q : A -> Prop) : ends (raise e) Q.
    Proof. intros w Hw. split; [exact Hw|]. split; discriminate. Qed.
    Lemma e_lift A (r : res A) (Q : A -> Prop) : r <> Diverge -> (forall a, r = Ok a -> Q a) -> ends (lift r) Q.
    Proof. intros N H w Hw. split; [exact Hw|]. split; [exact N | exact H]. Qed.
    Lemma e_pure A (f : world -> res A) (Q : A -> Prop) : (forall w, J w -> f w <> Diverge) -> (forall w a, J w -> f w = Ok a -> Q a) -> ends (fun w => (f w, w)) Q.
    Proof. intros N H w Hw. split; [exact Hw|]. split; [exact (N w Hw) | intros a; apply (H w a Hw)]. Qed.
    Lemma e_bind A B (m : M world A) (k : A -> M world B) (Q : A -> Prop) (Q' : B -> Prop) :
      ends m Q -> (forall a, Q a -> ends (k a) Q') -> ends (mbind m k) Q'.
    Proof.
      intros H K w Hw. destruct (H w Hw) as (H1 & H2 & H3). unfold mbind. destruct (m w) as [[a|e|] w1]; cbn in *.
      - exact (K a (H3 a eq_refl) w1 H1).
      - split; [exact H1|]. split; discriminate.
      - congruence.
    Qed.
    Lemma e_seq A B (m : M world A) (k : A -> M world B) (Q : B -> Prop) : always m -> (forall a, ends (k a) Q) -> ends (mbind m k) Q.
    Proof. intros H K. apply (e_bind _ _ _ _ _ _ H). intros a _. apply K. Qed.
    Lemma e_weak A (m : M world A) (Q : A -> Prop) : ends m Q -> always m.
    Proof. intros H w Hw. destruct (H w Hw) as (H1 & H2 & _). auto. Qed.
    Lemma e_mapS A B (f : A -> M world B) l : (forall a, In a l -> always (f a)) -> always (mapS f l).
    Proof.
      induction l as [|a l IH]; intros H; cbn [mapS]; [apply e_ret; exact I|]. apply e_seq; [apply H; left; reflexivity|]. intros b.
      apply e_seq; [apply IH; intros; apply H; right; assumption|]. intros. apply e_ret. exact I.
    Qed.
    Lemma e_number A (e : M world A) (m : Z -> M world (list A)) n : always e -> always (m n) -> always (call_number e m n).
    Proof. intros H K. unfold call_number. destruct (n =? 1); [|exact K]. apply e_seq; [exact H|]. intros. apply e_ret. exact I. Qed.
    Lemma e_catch (m : M world unit) : always m -> always (catch_attribute_error m).
    Proof.
      intros H w Hw. destruct (H w Hw) as (H1 & H2 & _). unfold catch_attribute_error. destruct (m w) as [[a|e|] w1]; cbn in *.
      - repeat split; try apply H1; discriminate.
      - destruct e; cbn; (split; [exact H1|]; split; [discriminate | auto]).
      - congruence.
    Qed.
    Lemma e_finally A (m : M world A) (fin : M world unit) : always m -> always fin -> always (try_finally m fin).
    Proof.
      intros H K w Hw. destruct (H w Hw) as (H1 & H2 & _). unfold try_finally. destruct (m w) as [[a|e|] w1]; cbn in *; [| |congruence].
      all: destruct (K w1 H1) as (K1 & K2 & _); destruct (fin w1) as [[u|e'|] w2]; cbn in *; [..|congruence]; (split; [exact K1|]; split; [discriminate | auto]).
    Qed.
    Lemma e_setattr (has : nat -> world -> bool) (set : nat -> M world unit) objs :
      (forall o, In (Some o) objs -> always (set o)) -> always (group_setattr has set objs).
    Proof.
      induction objs as [|[o|] t IH]; intros H; cbn [group_setattr]; [apply e_ret; exact I| |apply IH; intros; apply H; right; assumption].
      apply e_seq; [|intros _; apply IH; intros; apply H; right; assumption].
      intros w Hw. destruct (has o w); [apply H; [left; reflexivity | exact Hw] | apply e_ret; [exact I | exact Hw]].
    Qed.
    Lemma e_do_method (meth : nat -> world -> option (M world unit)) objs :
      (forall o w m, In (Some o) objs -> J w -> meth o w = Some m -> always m) -> always (group_do_method meth objs).
    Proof.
      induction objs as [|[o|] t IH]; intros H; cbn [group_do_method]; [apply e_ret; exact I| |apply IH; intros o w m Hi; apply H; right; assumption].
      apply e_seq; [|intros _; apply IH; intros o' w m Hi; apply H; right; assumption].
      apply e_catch. intros w Hw. destruct (meth o w) as [m|] eqn:E; [|exact (e_raise unit AttributeError _ w Hw)].
      exact (H o w m (or_introl eq_refl) Hw E w Hw).
    Qed.

    (** *** Objects *)
    Definition here (i : nat) : Prop := (i < length (w_em P w0))%nat.
    Lemma here_get i : here i -> exists e, get_em i w0 = Some e.
    Proof.
      unfold here, World.get_em. intros H. destruct (nth_error (w_em P w0) i) eqn:E; [eauto|]. apply nth_error_None in E. lia.
    Qed.
    Lemma get_here i e : get_em i w0 = Some e -> here i.
    Proof. unfold here, World.get_em. intros H. apply nth_error_Some. destruct (nth_error (w_em P w0) i); congruence. Qed.
    Lemma J_em w i e0 : J w -> get_em i w0 = Some e0 -> exists e, get_em i w = Some e /\ kind e = kind e0 /\ tame e.
    Proof.
      intros (H1 & H2 & H3) E. specialize (H1 i). rewrite E in H1. destruct (get_em i w) as [e|] eqn:Ew; cbn in H1; [|discriminate].
      exists e. split; [reflexivity|]. split; [congruence | exact (H3 i e Ew)].
    Qed.
    Lemma J_put w i e e' : J w -> get_em i w = Some e -> kind e' = kind e -> tame e' -> J (put_em P i e' w).
    Proof.
      intros (H1 & H2 & H3) E K T. split; [|split].
      - intros j. destruct (Nat.eq_dec i j) as [<-|N]; [rewrite (get_put_same _ _ _ _ E), <- H1, E; cbn; congruence | rewrite get_put_other by congruence; apply H1].
      - intros f. unfold put_em. destruct (nth_error (w_em P w) i); exact (H2 f).
      - intros j x. destruct (Nat.eq_dec i j) as [<-|N]; [rewrite (get_put_same _ _ _ _ E) | rewrite get_put_other by congruence; apply H3].
        intros X. inversion X; subst; exact T.
    Qed.
    Lemma J_use w i : J w -> J (use_entropy P i w).
    Proof.
      intros (H1 & H2 & H3). split; [|split].
      - intros j. rewrite get_use. apply H1.
      - intros f. unfold use_entropy. destruct (nth_error (w_em P w) i); exact (H2 f).
      - intros j e. rewrite get_use. apply H3.
    Qed.
    Lemma e_use i : always (fun w => (Ok tt, use_entropy P i w)).
    Proof. intros w Hw. split; [apply J_use; exact Hw|]. split; [discriminate | auto]. Qed.
    Lemma e_at A i (k : emitter -> M world A) (Q : A -> Prop) : here i ->
      (forall e0 e, get_em i w0 = Some e0 -> kind e = kind e0 -> tame e -> ends (k e) Q) -> ends (at_em P i k) Q.
    Proof.
      intros Hi H w Hw. destruct (here_get i Hi) as [e0 E0]. destruct (J_em w i e0 Hw E0) as (e & E & K & T). unfold at_em. rewrite E. exact (H e0 e E0 K T w Hw).
    Qed.
    Lemma e_modify i (f : emitter -> emitter) : here i -> (forall e, tame e -> kind (f e) = kind e /\ tame (f e)) -> always (modify_em P i f).
    Proof.
      intros Hi H w Hw. destruct (here_get i Hi) as [e0 E0]. destruct (J_em w i e0 Hw E0) as (e & E & K & T). unfold modify_em, at_em. rewrite E. destruct (H e T) as [H1 H2].
      split; [exact (J_put w i e (f e) Hw E H1 H2)|]. split; [discriminate | auto].
    Qed.
    Lemma e_node i (g : node P -> world -> node P) : here i ->
      always (fun w => modify_em P i (fun e => match node_of P e with Some nd => with_node P (g nd w) e | None => e end) w).
    Proof.
      intros Hi w Hw. apply (e_modify i (fun e => match node_of P e with Some nd => with_node P (g nd w) e | None => e end) Hi); [|exact Hw].
      intros e T. destruct (node_of P e); [|auto]. split; [apply kind_with | apply tame_with; exact T].
    Qed.
    Lemma e_rng A i e0 (m : M (pR P) A) : get_em i w0 = Some e0 -> node_of P e0 <> None -> (forall g, fst (m g) <> Diverge) -> always (run_rng P i m).
    Proof.
      intros E0 Nd H w Hw. destruct (J_em w i e0 Hw E0) as (e & E & K & T). unfold run_rng, at_em. rewrite E.
      pose proof (kind_node _ _ (eq_sym K) Nd) as N. destruct (node_of P e) as [nd|]; [|congruence]. specialize (H (n_rng P nd)). destruct (m (n_rng P nd)) as [r g]. cbn in *.
      split; [|auto]. apply (J_put w i e); [exact Hw | exact E | apply kind_with | apply tame_with; exact T].
    Qed.
    Lemma e_choice A i b c0 (m : M C A) : get_em i w0 = Some (EChoice P b c0) -> quiet m -> always (run_choice P i m).
    Proof.
      intros E0 H w Hw. destruct (J_em w i _ Hw E0) as (e & E & K & T). unfold run_choice, at_em. rewrite E. destruct e; try discriminate K.
      destruct (H _ T) as [H1 H2]. destruct (m c) as [r c']. cbn in *. split; [|auto]. exact (J_put w i _ (EChoice P islist c') Hw E eq_refl H1).
    Qed.
    Lemma e_iter A i i0 (m : M (iterative val) A) : get_em i w0 = Some (EIter P i0) ->
      (forall x, productive (i_factory x) -> productive (i_factory (snd (m x))) /\ fst (m x) <> Diverge) -> always (run_iter P i m).
    Proof.
      intros E0 H w Hw. destruct (J_em w i _ Hw E0) as (e & E & K & T). unfold run_iter, at_em. rewrite E. destruct e as [|x| | | | | | | | |]; try discriminate K.
      destruct (H _ T) as [H1 H2]. destruct (m x) as [r x']. cbn in *. split; [|auto]. exact (J_put w i _ (EIter P x') Hw E eq_refl H1).
    Qed.
    Lemma e_seqs A i b s0 (m : M (sequential val) A) : get_em i w0 = Some (ESeq P b s0) ->
      (forall x, productive (seq_factory x) -> productive (seq_factory (snd (m x))) /\ fst (m x) <> Diverge) -> always (run_seq P i m).
    Proof.
      intros E0 H w Hw. destruct (J_em w i _ Hw E0) as (e & E & K & T). unfold run_seq, at_em. rewrite E. destruct e as [| |b' x| | | | | | | |]; try discriminate K.
      destruct (H _ T) as [H1 H2]. destruct (m x) as [r x']. cbn in *. split; [|auto]. exact (J_put w i _ (ESeq P b' x') Hw E eq_refl H1).
    Qed.
    Lemma e_user A i c own nd (m : uclass P -> M (val * pR P) A) : get_em i w0 = Some (EUser P c own nd) ->
      (forall k s, methods_return P k -> fst (m k s) <> Diverge) -> always (run_user P i m).
    Proof.
      intros E0 H w Hw. destruct (J_em w i _ Hw E0) as (e & E & K & T). unfold run_user, at_em. rewrite E.
      destruct e as [| | | | | | | | | |c1 o1 n1]; try discriminate K. cbn [tame] in T.
      match goal with |- context [m c1 ?x] => specialize (H c1 x T); destruct (m c1 x) as [r [own' g]] end. cbn [fst snd] in *. split; [|auto].
      apply (J_put w i (EUser P c1 o1 n1)); [exact Hw | exact E | destruct n1; reflexivity | exact T].
    Qed.
    Lemma iter_run_ok A (m : factory val -> M gen A) : (forall F g, productive F -> fst (m F g) <> Diverge) ->
      forall x, productive (i_factory x) -> productive (i_factory (snd (iter_run m x))) /\ fst (iter_run m x) <> Diverge.
    Proof.
      intros H x Hx. unfold iter_run. specialize (H (i_factory x) (i_gen x) Hx). destruct (m (i_factory x) (i_gen x)) as [[a|e|] g]; cbn in *; [|split; [exact Hx|discriminate]|congruence].
      split; [destruct (i_rac x); exact Hx | discriminate].
    Qed.
    Lemma seq_run_ok A (m : factory val -> M gen A) : (forall F g, productive F -> fst (m F g) <> Diverge) ->
      forall x, productive (seq_factory x) -> productive (seq_factory (snd (seq_run m x))) /\ fst (seq_run m x) <> Diverge.
    Proof.
      intros H x Hx. unfold seq_run. specialize (H (seq_factory x) (s_gen x) Hx). destruct (m (seq_factory x) (s_gen x)) as [[a|e|] g]; cbn in *; [|split; [exact Hx|discriminate]|congruence].
      split; [destruct (s_rac x); exact Hx | discriminate].
    Qed.

    (** *** reset and seed *)
    Lemma kids_here i e0 e k : get_em i w0 = Some e0 -> kind e = kind e0 -> In k (children P e) -> (k < i)%nat /\ here k.
    Proof.
      intros E K Hk. assert (X : children P e = children P e0) by (unfold kind in K; congruence). rewrite X in Hk.
      pose proof (proj1 Snd i e0 k E Hk). split; [assumption|]. pose proof (get_here i e0 E). unfold here in *. lia.
    Qed.
    Lemma e_set_seed s k : here k -> always (set_rng_seed P s k).
    Proof. intros Hk. exact (e_node k (fun nd _ => mkNode P s (n_rng P nd)) Hk). Qed.
    Lemma e_reset_rng k : here k -> always (reset_rng P k).
    Proof.
      intros Hk w Hw. unfold reset_rng.
      refine (e_seq unit unit _ (fun _ w => (Ok tt, use_entropy P k w)) _ _ _ w Hw); [|intros; apply e_use].
      apply e_modify; [exact Hk|]. intros e T. destruct (node_of P e); [|auto]. split; [apply kind_with | apply tame_with; exact T].
    Qed.
    Lemma e_seed_own k s : here k -> always (seed_own P k s).
    Proof.
      intros Hk w Hw. unfold seed_own.
      refine (e_seq unit unit _ (fun _ w => (Ok tt, use_entropy P k w)) _ _ _ w Hw); [|intros; apply e_use].
      apply e_modify; [exact Hk|]. intros e T. destruct (node_of P e); [|auto]. split; [apply kind_with | apply tame_with; exact T].
    Qed.
    Lemma in_somes (o : nat) l : In (Some o) (map Some l) -> In o l.
    Proof. intros H. apply in_map_iff in H as (x & E & Hx). inversion E; subst; exact Hx. Qed.
    Lemma e_seed_children s kids : (forall k, In k kids -> here k) -> always (seed_children P s kids).
    Proof. intros H. apply e_setattr. intros o Ho. apply e_set_seed, H, in_somes, Ho. Qed.
    Lemma e_reset_children (reset : nat -> M world unit) kids : (forall k, In k kids -> always (reset k)) -> always (reset_children P reset kids).
    Proof. intros H. apply e_do_method. intros o w m Ho _ E. inversion E; subst. apply H, in_somes, Ho. Qed.
    Lemma e_mixin_reset (reset : nat -> M world unit) own s kids : (forall k, In k kids -> here k) -> (forall k, In k kids -> always (reset k)) -> always own ->
      always (mixin_reset P reset own s kids).
    Proof.
      intros Hh H Ho. unfold mixin_reset. apply e_seq; [apply e_seed_children; exact Hh|]. intros _. apply e_seq; [exact Ho|]. intros _. apply e_reset_children; exact H.
    Qed.
    Lemma e_on_choice A i b c0 (m : nat -> M C A) : get_em i w0 = Some (EChoice P b c0) -> (forall ent, quiet (m ent)) ->
      always (fun w => (run_choice P i (m (em_entropy i (ent_of P i w))) ;;; (fun w => (Ok tt, use_entropy P i w))) w).
    Proof. intros E H w Hw. refine (e_seq A unit _ (fun _ w => (Ok tt, use_entropy P i w)) _ _ _ w Hw); [|intros; apply e_use]. exact (e_choice A i b c0 _ E (H _)). Qed.

    Lemma e_ereset d : forall i, here i -> (i < d)%nat -> always (ereset P fuel d i).
    Proof.
      induction d as [|d IH]; intros i Hi Hd; [lia|]. cbn [ereset]. apply e_at; [exact Hi|]. intros e0 e E K T.
      assert (Hk : forall k, In k (children P e) -> here k) by (intros k H; exact (proj2 (kids_here i e0 e k E K H))).
      assert (Hr : forall k, In k (children P e) -> always (ereset P fuel d k)).
      { intros k H. destruct (kids_here i e0 e k E K H). apply IH; [assumption | lia]. }
      destruct e; try (apply e_ret; exact I).
      - destruct e0; try discriminate K. apply (e_iter _ _ _ _ E). intros x Hx. split; [exact Hx | discriminate].
      - destruct e0; try discriminate K. apply (e_seqs _ _ _ _ _ E). intros x Hx. split; [exact Hx | discriminate].
      - destruct e0; try discriminate K. exact (e_on_choice _ _ _ _ _ E q_reset).
      - apply e_seq; [apply e_mixin_reset; auto using e_reset_rng|]. intros _. apply e_seq; [apply e_seed_children; exact Hk|]. intros _. apply e_reset_children; exact Hr.
      - apply e_seq; [apply e_mixin_reset; auto using e_reset_rng|]. intros _. apply e_seq; [apply e_seed_children; exact Hk|]. intros _. apply e_reset_children; exact Hr.
      - apply e_mixin_reset; auto using e_reset_rng.
      - apply e_mixin_reset; auto using e_reset_rng.
      - apply e_reset_rng; exact Hi.
      - apply e_seq; [destruct nd; [apply e_reset_rng; exact Hi | apply e_ret; exact I]|]. intros _.
        destruct e0 as [| | | | | | | | | |c1 o1 n1]; try discriminate K. apply (e_user _ _ _ _ _ _ E). discriminate.
    Qed.
    Lemma e_seed_all (seed : nat -> M world unit) kids : (forall k, In k kids -> always (seed k)) -> always (seed_all P seed kids).
    Proof. intros H. apply e_do_method. intros o w m Ho _ E. destruct (has_seed P o w); [|discriminate]. inversion E; subst. apply H, in_somes, Ho. Qed.
    Lemma e_mixin_seed (seed : nat -> M world unit) own kids : (forall k, In k kids -> always (seed k)) -> always own -> always (mixin_seed P seed own kids).
    Proof. intros H Ho. unfold mixin_seed. apply e_seq; [apply e_seed_all; exact H|]. intros _. apply e_catch. exact Ho. Qed.
    Lemma e_eseed s d : forall i, here i -> (i < d)%nat -> always (eseed P fuel d s i).
    Proof.
      induction d as [|d IH]; intros i Hi Hd; [lia|]. cbn [eseed]. apply e_at; [exact Hi|]. intros e0 e E K T.
      assert (Hr : forall k, In k (children P e) -> always (eseed P fuel d s k)).
      { intros k H. destruct (kids_here i e0 e k E K H). apply IH; [assumption | lia]. }
      destruct e; try (apply e_raise); try (apply e_seed_own; exact Hi); try (apply e_mixin_seed; auto using e_seed_own).
      - destruct e0; try discriminate K. exact (e_on_choice _ _ _ _ _ E (q_seed s)).
      - apply e_seq; [apply e_mixin_seed; auto using e_seed_own|]. intros _. apply e_seed_all. exact Hr.
      - apply e_seq; [apply e_mixin_seed; auto using e_seed_own|]. intros _. apply e_seed_all. exact Hr.
      - destruct nd; [apply e_seed_own; exact Hi | apply e_raise].
    Qed.

    (** *** Words and texts *)
    Lemma e_call_val (call : M world val) (call_n : Z -> M world (list val)) v : always call -> (forall n, always (call_n n)) -> always (call_val call call_n v).
    Proof.
      intros H K. unfold call_val. destruct v; try exact H; (apply e_seq; [apply e_lift; [apply nd_int | auto]|]; intros ?; apply e_seq; [apply K|]; intros; apply e_ret; exact I).
    Qed.
    Section Texts.
      Context (wc sc : Z -> M world (list val)) (wr : M world unit).
      Context (Hwc : forall n, always (wc n)) (Hwr : always wr).
      Definition fine (w : words) : Prop :=
        match w with WGen u _ nd _ => 1 <= u /\ (forall n, nd = Some n -> 1 <= n) | WList _ => True end.

      Definition left_over (nd : option Z) (r : Z) : Z := match nd with Some n => r - n | None => r end.
      Lemma e_next_batch f : forall u nd r, 1 <= u -> (forall n, nd = Some n -> 1 <= n) -> (Z.to_nat (left_over nd r) < f)%nat ->
        ends (next_batch wc wr f u nd r) (fun aw => fine (snd aw)).
      Proof.
        induction f as [|f IH]; intros u nd r Hu Hn Hf; [lia|]. cbn [next_batch]. apply e_seq; [destruct nd; [exact Hwr | apply e_ret; exact I]|]. intros _.
        change (match nd with Some n => r - n | None => r end) with (left_over nd r). destruct (Z.ltb_spec 0 (left_over nd r)) as [Hr|Hr]; [|apply e_raise].
        assert (Hc : 1 <= clamp Z.ltb u None (Some (left_over nd r)) ) by (unfold clamp; destruct (Z.ltb_spec (left_over nd r) u); lia).
        apply e_seq; [apply Hwc|]. intros [|a t].
        - apply IH; [exact Hu | intros n E; inversion E; subst; exact Hc |]. unfold left_over at 1. lia.
        - apply e_ret. split; [exact Hu|]. intros n E. inversion E; subst; exact Hc.
      Qed.
      Lemma e_next_word w : fine w -> ends (next_word wc wr w) (fun aw => fine (snd aw)).
      Proof.
        intros H. destruct w as [[|a t]|u [|a t] nd r]; cbn [next_word]; [apply e_raise | apply e_ret; exact I | | apply e_ret; exact H].
        destruct H as [H1 H2]. apply e_next_batch; [exact H1 | exact H2|]. destruct nd as [n|]; cbn [left_over]; [specialize (H2 n eq_refl)|]; lia.
      Qed.
      Lemma e_more_words k : forall rd w sp, fine w -> ends (more_words wc wr k rd w sp) (fun rws => fine (snd (fst rws))).
      Proof.
        induction k as [|k IH]; intros rd w sp H; cbn [more_words]; [apply e_ret; exact H|]. destruct (next_sep sp) as [s sp'].
        apply (e_bind _ _ _ _ _ _ (e_next_word w H)). intros aw Ha. apply IH. exact Ha.
      Qed.
      Lemma e_make_texts ns : forall w sp, fine w -> always (make_texts wc wr ns w sp).
      Proof.
        induction ns as [|n t IH]; intros w sp H; cbn [make_texts]; [apply e_ret; exact I|]. destruct (n =? 0); [apply IH; exact H|].
        apply (e_bind _ _ _ _ _ _ (e_next_word w H)). intros aw Ha. apply (e_bind _ _ _ _ _ _ (e_more_words _ _ _ _ Ha)). intros [[rd w'] sp'] Hw.
        apply e_seq; [apply e_lift; [apply nd_join | auto]|]. intros s. apply e_seq; [apply IH; exact Hw|]. intros. apply e_ret. exact I.
      Qed.
    End Texts.

    Lemma e_words wc i total : (forall n, always (wc n)) -> ends (get_words_iterator wc (word_unique P i) total) fine.
    Proof.
      intros H w Hw. unfold get_words_iterator.
      assert (N : word_unique P i w <> Diverge).
      { unfold word_unique. destruct (get_em i w) as [[]|]; try discriminate. destruct (c_roac c); [|discriminate]. apply nd_bind; [apply nd_nuv | discriminate]. }
      assert (Wl : ends (l <~ wc total ;; ret (WList l)) fine) by (apply e_seq; [apply H | intros; apply e_ret; exact I]).
      destruct (word_unique P i w) as [[n|]|e|] eqn:E; [|exact (Wl w Hw) | split; [exact Hw|]; split; discriminate | congruence].
      destruct (negb (n =? 0) && (n <? total)) eqn:En; [|exact (Wl w Hw)]. split; [exact Hw|]. split; [discriminate|]. cbn. intros x X. inversion X; subst x.
      apply andb_true_iff in En as [En _]. apply negb_true_iff, Z.eqb_neq in En. pose proof (unique_pos i w n E). split; [lia | discriminate].
    Qed.
    Lemma e_text (nc wc sc : Z -> M world (list val)) wr i n : (forall n, always (nc n)) -> (forall n, always (wc n)) -> (forall n, always (sc n)) -> always wr ->
      always (text_emit_many nc wc wr (word_unique P i) sc n).
    Proof.
      intros H1 H2 H3 H4. unfold text_emit_many. apply e_seq; [apply H1|]. intros ls. apply e_seq; [apply e_lift; [apply nd_sum | auto]|]. intros total.
      apply (e_bind _ _ _ _ _ _ (e_words wc i total H2)). intros w Hw. apply e_seq; [apply H3|]. intros sp.
      apply e_seq; [apply e_lift; [apply nd_mapM, nd_int | auto]|]. intros ns. apply e_make_texts; assumption.
    Qed.

    (** *** Emitting *)
    Lemma e_wrapped i e0 f args kw : get_em i w0 = Some e0 -> node_of P e0 <> None -> returns f -> always (wrapper_call (bound P i f) args kw).
    Proof.
      intros E N [R1 R2]. assert (Py : forall b, always (py_call (bound P i f) args kw b)).
      { intros b. unfold py_call. destruct (match u_sig (bound P i f) with Some _ => _ | None => true end); [|apply e_raise]. destruct b.
        - apply (e_rng _ i e0); [exact E | exact N | intros g; apply R2].
        - apply e_lift; [apply R1 | auto]. }
      unfold wrapper_call. destruct (wants_rng _); [|apply Py]. destruct (mem _ _); [apply e_raise | apply Py].
    Qed.
    Lemma e_mock i f args kw : returns f -> always (try_mock_call (bound P i f) args kw).
    Proof.
      intros [R1 _]. unfold try_mock_call. destruct (u_sig _).
      - apply e_lift; [apply nd_sig | auto].
      - apply e_seq; [apply e_lift; [apply R1 | auto] | intros; apply e_ret; exact I].
    Qed.

    Lemma e_emits d : forall i, here i -> (i < d)%nat ->
      always (fst (emits P fuel str_of d) i) /\ forall n, always (snd (emits P fuel str_of d) i n).
    Proof.
      induction d as [|d IH]; intros i Hi Hd; [lia|]. cbn [emits fst snd].
      set (em := fst (emits P fuel str_of d)) in *. set (en := snd (emits P fuel str_of d)) in *.
      assert (B : forall e0 e, get_em i w0 = Some e0 -> kind e = kind e0 ->
        forall k, In k (children P e) -> always (em k) /\ (forall n, always (call_number (em k) (en k) n)) /\ always (ereset P fuel d k)).
      { intros e0 e E K k Hk. destruct (kids_here i e0 e k E K Hk) as [Hlt Hh]. destruct (IH k Hh ltac:(lia)) as [I1 I2].
        split; [exact I1|]. split; [intros n; apply e_number; [exact I1 | apply I2] | apply e_ereset; [exact Hh | lia]]. }
      assert (Src : forall e0 srcs f nd, get_em i w0 = Some e0 -> kind (EWrapMany P srcs f nd) = kind e0 ->
        always (call_sources (map (fun ks => (fst ks, (em (snd ks), fun n => call_number (em (snd ks)) (en (snd ks)) n))) srcs))).
      { intros e0 srcs f nd E K. apply e_mapS. intros a Ha. apply in_map_iff in Ha as (x & <- & Hx). cbn [fst snd].
        apply e_seq; [apply (B _ _ E K (snd x)); apply in_map; exact Hx | intros; apply e_ret; exact I]. }
      split; [|intros n]; [unfold emit_body | unfold emit_many_body]; (apply e_at; [exact Hi|]); intros e0 e E K T; pose proof (B e0 e E K) as Bk;
        destruct e; destruct e0; try discriminate K.
      - apply e_lift; [discriminate | auto].
      - apply (e_iter _ _ _ _ E). intros x Hx. apply iter_run_ok; [|exact Hx]. intros. apply nd_gen_next. assumption.
      - apply (e_seqs _ _ _ _ _ E). intros x Hx. apply seq_run_ok; [|exact Hx]. intros. apply nd_gen_next. assumption.
      - apply (e_choice _ _ _ _ _ E). exact q_emit.
      - unfold word_emit. apply e_seq; [apply Bk; cbn; auto|]. intros v. apply e_seq; [apply e_call_val; apply Bk; cbn; auto|]. intros cs.
        apply e_seq; [apply e_lift; [apply nd_join_val | auto] | intros; apply e_ret; exact I].
      - unfold text_emit. apply e_seq; [apply e_text; apply Bk; cbn; auto|]. intros. apply e_lift; [apply nd_get | auto].
      - unfold wrapone_emit. apply e_seq; [apply Bk; cbn; auto|]. intros. apply (e_wrapped i _ _ _ _ E); [discriminate | exact T].
      - unfold wrapmany_emit. apply e_seq; [exact (Src _ _ _ _ E K)|]. intros. apply (e_wrapped i _ _ _ _ E); [discriminate | exact T].
      - apply e_pure; [intros; apply nd_copy | auto].
      - unfold based_emit. intros wx Hw. destruct (action_args _) as [args kw]. apply (e_wrapped i _ _ args kw E); [discriminate | exact T | exact Hw].
      - apply (e_user _ _ _ _ _ _ E). intros k s [H _]. apply H.
      - apply e_lift; [discriminate | auto].
      - unfold iter_emit_many. destruct (n <? 0).
        + apply (e_iter _ _ _ _ E). intros x Hx. split; [exact Hx | discriminate].
        + apply (e_iter _ _ _ _ E). intros x Hx. apply iter_run_ok; [|exact Hx]. intros. apply nd_take. assumption.
      - unfold seq_emit_many. destruct (n <? 0).
        + apply (e_seqs _ _ _ _ _ E). intros x Hx. split; [exact Hx | discriminate].
        + apply (e_seqs _ _ _ _ _ E). intros x Hx. apply seq_run_ok; [|exact Hx]. intros. apply nd_take. assumption.
      - apply (e_choice _ _ _ _ _ E). apply q_many.
      - unfold word_emit_many. apply e_seq; [apply Bk; cbn; auto|]. intros ls. apply e_seq; [apply e_lift; [apply nd_sum | auto]|]. intros total.
        apply e_seq; [apply Bk; cbn; auto|]. intros cs. apply e_lift; [|auto]. apply nd_bind; [apply nd_mapM, nd_int | intros; apply nd_cut].
      - apply e_text; apply Bk; cbn; auto.
      - unfold wrapone_emit_many. apply e_seq; [apply Bk; cbn; auto|]. intros vs. apply e_mapS. intros. apply (e_wrapped i _ _ _ _ E); [discriminate | exact T].
      - unfold wrapmany_emit_many. apply e_seq.
        + apply e_mapS. intros a Ha. apply in_map_iff in Ha as (x & <- & Hx). cbn [fst snd].
          apply e_seq; [apply (Bk (snd x)); cbn; apply in_map; exact Hx | intros; apply e_ret; exact I].
        + intros emdata. apply e_mapS. intros k _. apply e_seq; [|intros; apply (e_wrapped i _ _ _ _ E); [discriminate | exact T]].
          apply e_lift; [|auto]. apply nd_mapM. intros kv. apply nd_bind; [apply nd_get | discriminate].
      - unfold repeat_emit. apply e_seq; [|intros; apply e_ret; exact I]. apply e_pure; [intros; apply nd_copy | auto].
      - unfold repeat_emit. apply e_seq; [|intros; apply e_ret; exact I]. unfold based_emit. intros wx Hw. destruct (action_args _) as [args kw].
        apply (e_wrapped i _ _ args kw E); [discriminate | exact T | exact Hw].
      - apply (e_user _ _ _ _ _ _ E). intros k s [_ H]. apply H.
    Qed.
    Lemma e_call i : here i -> always (em_call P fuel str_of i).
    Proof. intros Hi. apply (e_emits (S i) i Hi). lia. Qed.
    Lemma e_call_n i n : here i -> always (em_call_n P fuel str_of i n).
    Proof. intros Hi. destruct (e_emits (S i) i Hi ltac:(lia)) as [H1 H2]. apply e_number; [exact H1 | apply H2]. Qed.
    Lemma e_em_reset i : here i -> always (em_reset P fuel i).
    Proof. intros Hi. apply e_ereset; [exact Hi | lia]. Qed.
    Lemma e_em_seed i s : here i -> always (em_seed P fuel i s).
    Proof. intros Hi. apply e_eseed; [exact Hi | lia]. Qed.

    (** *** Fields and schemas *)
    Definition there (f : nat) : Prop := (f < length (w_fd P w0))%nat.
    Lemma J_fd w f : J w -> there f -> exists x, get_fd f w = Some x /\ forall p, In p (parts P x) -> here p.
    Proof.
      intros (_ & H2 & _) Hf. specialize (H2 f). unfold there in Hf. destruct (get_fd f w0) as [x0|] eqn:E0; [|unfold World.get_fd in E0; apply nth_error_None in E0; lia].
      destruct (get_fd f w) as [x|] eqn:E; cbn in H2; [|discriminate]. exists x. split; [reflexivity|]. intros p Hp.
      assert (X : parts P x = parts P x0) by congruence. rewrite X in Hp. exact (proj2 (proj2 Snd) f x0 p E0 Hp).
    Qed.
    Lemma J_put_fd w f x x' : J w -> get_fd f w = Some x -> parts P x' = parts P x -> J (put_fd P f x' w).
    Proof.
      intros (H1 & H2 & H3) E K. split; [exact H1|]. split; [|exact H3]. intros g. rewrite <- H2. unfold World.get_fd in *. cbn [w_fd put_fd].
      destruct (Nat.eq_dec f g) as [<-|N]; [rewrite (nth_upd_same _ _ _ _ _ E), E; cbn; congruence | rewrite nth_upd_other by congruence; reflexivity].
    Qed.
    Lemma e_at_fd A f (k : World.field P -> M world A) (Q : A -> Prop) : there f ->
      (forall x, (forall p, In p (parts P x) -> here p) -> ends (k x) Q) -> ends (at_fd P f k) Q.
    Proof. intros Hf H w Hw. destruct (J_fd w f Hw Hf) as (x & E & Hx). unfold at_fd. rewrite E. exact (H x Hx w Hw). Qed.
    Lemma e_modify_fd f (g : World.field P -> World.field P) : there f -> (forall x, parts P (g x) = parts P x) -> always (modify_fd P f g).
    Proof.
      intros Hf H w Hw. destruct (J_fd w f Hw Hf) as (x & E & Hx). unfold modify_fd, at_fd. rewrite E. split; [exact (J_put_fd w f x (g x) Hw E (H x))|]. split; [discriminate | auto].
    Qed.
    Lemma e_fd_call f : there f -> always (fd_call P fuel str_of f).
    Proof.
      intros Hf. apply e_at_fd; [exact Hf|]. intros x Hx. unfold field_call. apply e_seq; [apply e_call, Hx; cbn; auto|]. intros g.
      assert (C : forall v, always (modify_fd P f (fd_cache P v))) by (intros; apply e_modify_fd; [exact Hf | reflexivity]).
      destruct (truthy g).
      - apply e_seq; [apply e_call, Hx; cbn; auto|]. intros r. apply e_seq; [apply e_call_val; [apply e_call, Hx; cbn; auto | intros n; apply e_call_n, Hx; cbn; auto]|].
        intros v. apply e_seq; [apply C|]. intros _. apply e_ret. exact I.
      - apply e_seq; [apply C|]. intros _. apply e_ret. exact I.
    Qed.
    Lemma e_fd_reset f : there f -> always (fd_reset P fuel f).
    Proof.
      intros Hf. apply e_at_fd; [exact Hf|]. intros x Hx. apply e_seq; [|intros _; apply e_modify_fd; [exact Hf | reflexivity]].
      apply e_mixin_reset; [exact Hx | intros k Hk; apply e_em_reset, Hx, Hk | apply e_modify_fd; [exact Hf | reflexivity]].
    Qed.
    Lemma e_fd_seed f s : there f -> always (fd_seed P fuel f s).
    Proof.
      intros Hf. apply e_at_fd; [exact Hf|]. intros x Hx.
      apply e_mixin_seed; [intros k Hk; apply e_em_seed, Hx, Hk | apply e_modify_fd; [exact Hf | reflexivity]].
    Qed.
    Lemma e_doc fs : (forall f, In f (map snd fs) -> there f) -> always (sc_call P fuel str_of fs).
    Proof.
      unfold sc_call, schema_call. generalize (@nil (string * val)). induction fs as [|[n f] t IH]; intros doc H; cbn [schema_loop]; [apply e_ret; exact I|].
      apply e_seq; [apply e_fd_call, H; left; reflexivity|]. intros v w Hw. apply IH; [|exact Hw]. intros g Hg. apply H. right. exact Hg.
    Qed.

    Lemma e_op o : possible P (Do P o) w0 -> always (run P fuel str_of o).
    Proof.
      intros [Pe Pf]. cbn in Pe, Pf.
      assert (Rt : forall A B (m : M world A) (k : A -> B), always m -> always (a <~ m ;; ret (k a))) by (intros; apply e_seq; [assumption | intros; apply e_ret; exact I]).
      destruct o; cbn [run]; apply Rt.
      - apply e_call, Pe; cbn; auto.
      - apply e_call_n, Pe; cbn; auto.
      - apply e_em_reset, Pe; cbn; auto.
      - apply e_em_seed, Pe; cbn; auto.
      - apply e_set_seed, Pe; cbn; auto.
      - apply e_fd_call, Pf; cbn; auto.
      - apply e_fd_reset, Pf; cbn; auto.
      - apply e_fd_seed, Pf; cbn; auto.
      - apply e_modify_fd; [apply Pf; cbn; auto | reflexivity].
      - apply e_doc. exact Pf.
      - apply e_do_method. intros o w m Ho _ E. inversion E; subst. apply e_fd_reset, Pf, in_somes, Ho.
      - apply e_do_method. intros o w m Ho _ E. inversion E; subst. apply e_fd_seed, Pf, in_somes, Ho.
    Qed.

    (** *** Settings *)
    Lemma e_install i f : here i -> returns f -> always (install P i f).
    Proof. intros Hi R. apply e_modify; [exact Hi|]. intros e T. destruct e; auto. Qed.
    Lemma e_set_function i f : here i -> returns f -> always (set_function P fuel str_of i f).
    Proof.
      intros Hi R. apply e_at; [exact Hi|]. intros e0 e E K T.
      assert (Hk : forall k, In k (children P e) -> here k) by (intros k H; exact (proj2 (kids_here i e0 e k E K H))).
      assert (Fin : always (install P i f ;;; em_reset P fuel i)) by (apply e_seq; [apply e_install; assumption | intros _; apply e_em_reset; exact Hi]).
      destruct e; try apply e_raise.
      - unfold wrapone_set. apply e_finally; [|exact Fin]. apply e_seq; [apply e_call, Hk; cbn; auto|]. intros v. apply e_mock. exact R.
      - unfold wrapmany_set. apply e_seq.
        + apply e_mapS. intros a Ha. apply in_map_iff in Ha as (x & <- & Hx). cbn [fst snd].
          apply e_seq; [apply e_call, Hk; cbn; apply in_map; exact Hx | intros; apply e_ret; exact I].
        + intros kw. apply e_finally; [apply e_mock; exact R | exact Fin].
      - intros v Hv. match goal with |- context [based_set ?a ?b ?c ?d v] => assert (B : always (based_set a b c d)); [|exact (B v Hv)] end.
        unfold based_set. apply e_seq; [apply e_install; assumption|]. intros _. apply e_seq.
        + apply e_mapS. intros a Ha. apply in_map_iff in Ha as (x & <- & Hx). cbn [fst snd]. apply e_seq; [|intros; apply e_ret; exact I].
          apply e_fd_call. assert (X : source = source_of P e0) by (unfold kind in K; cbn in K; congruence). rewrite X in Hx. exact (proj1 (proj2 Snd) i e0 x E Hx).
        + intros vals. destruct (action_args vals) as [args kw]. apply e_finally; [apply e_mock; exact R | apply e_em_reset; exact Hi].
    Qed.
    Lemma e_em_set i s : here i -> harmless P acc fuel (SetEmitter P i s) -> always (em_set P fuel i s).
    Proof.
      intros Hi Hs. apply e_at; [exact Hi|]. intros e0 e E K T. destruct e, s; try apply e_raise; try (destruct s; apply e_raise); destruct e0; try discriminate K.
      - apply e_modify; [exact Hi|]. intros e T'. destruct e; auto.
      - apply (e_iter _ _ _ _ E). intros x Hx. unfold iter_set_factory, check_iter_factory. destruct (it_at (f 0%nat) 0); cbn; [split; [exact (proj1 Hs) | discriminate] | split; [exact Hx | discriminate]].
      - apply (e_iter _ _ _ _ E). intros x Hx. split; [exact Hx | discriminate].
      - apply e_seq; [|intros _; apply e_modify; [exact Hi | intros e T'; destruct e; auto]].
        apply (e_seqs _ _ _ _ _ E). intros x Hx. unfold seq_set_factory, check_iter_factory, check_seq_iter_factory.
        destruct (it_at (f 0%nat) 0); cbn [bind]; [|split; [exact Hx | discriminate]]. destruct (f 1%nat) as [l [|]|] eqn:E1; [|split; [exact Hx | discriminate] ..].
        destruct (proj2 Hs (ex_intro _ 1%nat (ex_intro _ l E1)) 2%nat) as (l2 & h & E2). rewrite E2. cbn. split; [exact (proj1 Hs) | discriminate].
      - apply (e_seqs _ _ _ _ _ E). intros x Hx. split; [exact Hx | discriminate].
      - destruct s; apply (e_choice _ _ _ _ _ E); [apply q_set_weights; exact Hs .. | apply q_set_replace | apply q_set_roac].
    Qed.
  End Triples.

  (** ** Every command *)
  Hypothesis Fuel : (0 < fuel)%nat.

  Definition over {A} (p : res A * world) : Prop := fst p <> Diverge /\ tamed (snd p).
  Lemma run_over A (m : M world A) w : tamed w -> ends w m (fun _ => True) -> over (m w).
  Proof.
    intros T H. destruct (H w) as ((_ & _ & T') & N & _); [|split; assumption]. split; [reflexivity|]. split; [reflexivity | exact T].
  Qed.
  Lemma over_ret A B (m : M world A) (k : A -> B) w : over (m w) -> over ((a <~ m ;; ret (k a)) w).
  Proof. unfold over, mbind, ret. destruct (m w) as [[a|e|] w']; cbn; intros [H1 H2]; split; auto; discriminate. Qed.
  Lemma tamed_alloc e w : tamed w -> tame e -> tamed (snd (alloc_em P e w)).
  Proof.
    intros H T i x. cbn [alloc_em snd]. rewrite get_em_app. destruct (Nat.eqb_spec i (length (w_em P w))); [|apply H]. intros E. inversion E; subst. exact T.
  Qed.
  Lemma alloc_over A e (k : nat -> M world A) w : sound P w -> tamed w -> tame e ->
    (forall k, In k (children P e) -> (k < length (w_em P w))%nat) -> (forall f, In f (source_of P e) -> (f < length (w_fd P w))%nat) ->
    (forall w1, sound P w1 -> here w1 (length (w_em P w)) -> get_em (length (w_em P w)) w1 = Some e -> ends w1 (k (length (w_em P w))) (fun _ => True)) ->
    over ((i <~ alloc_em P e ;; k i) w).
  Proof.
    intros S T Te H1 H2 K. pose proof (sound_alloc e w S H1 H2) as S1. pose proof (tamed_alloc e w T Te) as T1. unfold mbind. unfold alloc_em in *. cbn [snd] in *.
    apply run_over; [exact T1|]. apply K; [exact S1 | unfold here; cbn [w_em]; rewrite app_length; cbn; lia|]. rewrite get_em_app, Nat.eqb_refl. reflexivity.
  Qed.
  Lemma alone_over e w : sound P w -> tamed w -> tame e -> over (alloc_em P e w).
  Proof. intros S T Te. split; [discriminate | apply tamed_alloc; assumption]. Qed.
  Lemma not_first A B (m : M world A) (k : A -> M world B) (a : A) w w' : m w = (Ok a, w') -> mbind m k w = k a w'.
  Proof. intros E. unfold mbind. rewrite E. reflexivity. Qed.

  Lemma exec_over c w : sound P w -> tamed w -> possible P c w -> harmless P acc fuel c -> over (exec P fuel str_of c w).
  Proof.
    intros S T Po Ha. pose proof Po as [Pe Pf].
    destruct c; cbn [exec]; cbn [emitters_of fields_of] in Pe, Pf; cbn [harmless] in Ha; try apply over_ret.
    - apply alone_over; auto; exact I.
    - unfold new_iter, iter_new, mbind, lift, check_iter_factory. destruct (it_at (f 0%nat) 0); cbn [bind]; [apply alone_over; auto | split; [discriminate | exact T]].
    - unfold new_seq, seq_new, mbind, lift. destruct items as [|a l]; [split; [discriminate | exact T]|]. apply alone_over; auto. cbn [tame seq_factory seq_reset s_own].
      intros c. exists 0%nat. split; [exact Fuel|]. cbn. discriminate.
    - unfold new_choice. destruct Ha as (Hl & A1 & A2).
      destruct (new_calm items weights replace roac seed cum_weights (em_entropy (length (w_em P w)) (w_run P w)) Hl A1 A2) as [N K].
      unfold mbind at 1, lift. destruct (choice_new _ _ _ _ _ _ _ _ _) as [c|e|]; [|split; [discriminate | exact T]|congruence].
      apply alloc_over; [exact S | exact T | exact (K c eq_refl) | intros ? [] | intros ? [] |]. intros w1 S1 H1 _. apply e_seq; [apply e_use|]. intros _. apply e_ret. exact I.
    - apply alloc_over; [exact S | exact T | exact I | exact Pe | intros ? [] |]. intros w1 S1 H1 _. apply e_seq; [apply e_em_reset; assumption|]. intros _.
      apply e_seq.
      + apply e_pure; [|auto]. intros w' _. apply nd_bind; [|intros; apply nd_word]. unfold nuv_at. destruct (get_em alphabet_em w'); [apply nd_nuv_of | discriminate].
      + intros u. apply e_seq; [|intros; apply e_ret; exact I]. apply e_modify; [exact H1|]. intros e Te. destruct e; auto.
    - unfold new_text.
      assert (Rest : forall sp w', sound P w' -> tamed w' -> (forall k, In k [numwords_em; word_em; sp] -> (k < length (w_em P w'))%nat) ->
        over ((id <~ alloc_em P (EText P numwords_em word_em sp Unknown (new_node P seed)) ;;
          em_reset P fuel id ;;;
          u <~ (fun w => (a <- nuv_at P word_em w ;; b <- nuv_at P sp w ;; text_nuv a b (items_list P numwords_em w), w)) ;;
          modify_em P id (fun e => match e with EText _ n x y _ nd => EText P n x y u nd | e => e end) ;;;
          ret id) w')).
      { intros sp w' S' T' H'. apply alloc_over; [exact S' | exact T' | exact I | exact H' | intros ? [] |]. intros w1 S1 H1 _. apply e_seq; [apply e_em_reset; assumption|]. intros _.
        assert (Nu : forall i w', nuv_at P i w' <> Diverge) by (intros i v; unfold nuv_at; destruct (get_em i v); [apply nd_nuv_of | discriminate]).
        apply e_seq.
        - apply e_pure; [|auto]. intros v _. apply nd_bind; [apply Nu|]. intros. apply nd_bind; [apply Nu|]. intros. apply nd_text.
        - intros u. apply e_seq; [|intros; apply e_ret; exact I]. apply e_modify; [exact H1|]. intros e Te. destruct e; auto. }
      destruct sep_em as [sp|].
      + rewrite (not_first _ _ (ret sp) _ sp w w) by reflexivity. apply Rest; assumption.
      + erewrite not_first by reflexivity. apply Rest.
        * apply (sound_alloc (EStatic P (static_new (VStr [32]))) w S); intros ? [].
        * apply (tamed_alloc (EStatic P (static_new (VStr [32]))) w T I).
        * cbn [w_em]. rewrite app_length. cbn [length]. intros k [<-|[<-|[<-|[]]]]; [| |lia].
          -- pose proof (Pe numwords_em ltac:(left; reflexivity)). lia.
          -- pose proof (Pe word_em ltac:(right; left; reflexivity)). lia.
    - apply alloc_over; [exact S | exact T | exact Ha | exact Pe | intros ? [] |]. intros w1 S1 H1 _. apply e_seq; [apply e_em_reset; assumption|]. intros _.
      apply e_seq; [apply e_set_function; assumption | intros; apply e_ret; exact I].
    - apply alloc_over; [exact S | exact T | exact Ha | exact Pe | intros ? [] |]. intros w1 S1 H1 _. apply e_seq; [apply e_em_reset; assumption|]. intros _.
      apply e_seq; [apply e_set_function; assumption | intros; apply e_ret; exact I].
    - apply alone_over; auto; exact I.
    - apply alloc_over; [exact S | exact T | exact Ha | intros ? [] | exact Pf |]. intros w1 S1 H1 _. apply e_seq; [apply e_em_reset; assumption|]. intros _.
      apply e_seq; [apply e_set_function; assumption | intros; apply e_ret; exact I].
    - unfold new_field.
      assert (Opt : forall (o : option nat) v w, sound P w -> tamed w -> (forall i, o = Some i -> (i < length (w_em P w))%nat) ->
        exists i w', (match o with Some i => ret i | None => new_static P v end) w = (Ok i, w') /\ sound P w' /\ tamed w' /\ (i < length (w_em P w'))%nat /\
          (length (w_em P w) <= length (w_em P w'))%nat).
      { clear. intros [i|] v w Sw T H.
        - exists i, w. split; [reflexivity|]. split; [exact Sw|]. split; [exact T|]. split; [apply H; reflexivity | lia].
        - eexists _, _. split; [reflexivity|]. split; [apply (sound_alloc _ w Sw); intros ? []|]. split; [apply (tamed_alloc (EStatic P (static_new v)) w T I)|]. cbn [w_em]. rewrite app_length. cbn. lia. }
      destruct (Opt rep VNone w S T) as (r & w1 & E1 & S1 & T1 & L1 & M1); [intros i ->; apply Pe; right; left; reflexivity|].
      rewrite (not_first _ _ _ _ r w w1 E1). destruct (Opt gate (VBool true) w1 S1 T1) as (g & w2 & E2 & S2 & T2 & L2 & M2).
      { intros i ->. assert (i < length (w_em P w))%nat by (apply Pe; right; destruct rep; cbn; auto). lia. }
      rewrite (not_first _ _ _ _ g w1 w2 E2).
      pose proof (sound_alloc_fd (mkField P name hide em r g (new_node P seed) VNone 0) w2 S2) as Q.
      assert (Q' : sound P (snd (alloc_fd P (mkField P name hide em r g (new_node P seed) VNone 0) w2))).
      { apply Q. cbn. assert (em < length (w_em P w))%nat by (apply Pe; left; reflexivity). intros p [<-|[<-|[<-|[]]]]; lia. }
      erewrite not_first by reflexivity. apply run_over; [exact T2|]. apply e_seq; [apply e_fd_reset; [exact Q'|] | intros; apply e_ret; exact I].
      unfold there. cbn [w_fd]. rewrite app_length. cbn. lia.
    - apply run_over; [exact T|]. apply e_em_set; [apply Pe; left; reflexivity | exact Ha].
    - apply run_over; [exact T|]. apply e_set_function; [exact S | apply Pe; left; reflexivity | exact Ha].
    - unfold fd_set_part, modify_fd, at_fd. destruct (get_fd f w) as [x|] eqn:E; [split; [discriminate | exact T]|].
      unfold World.get_fd in E. apply nth_error_None in E. pose proof (Pf f ltac:(left; reflexivity)). lia.
    - apply run_over; [exact T|]. apply e_modify_fd; [exact S | apply Pf; left; reflexivity | reflexivity].
    - apply run_over; [exact T|]. apply e_at; [apply Pe; left; reflexivity|]. intros e0 e E K Te. pose proof (proj1 (proj2 S) id e0) as Sf.
      assert (X : source_of P e = source_of P e0) by (unfold kind in K; congruence). rewrite <- X in Sf.
      destruct e; try apply e_raise; (apply e_do_method; intros o w' m Ho _ Em; inversion Em; subst; apply e_fd_reset; [exact S|]; apply Sf; [exact E | apply in_somes; exact Ho]).
    - apply run_over; [exact T|]. apply e_at; [apply Pe; left; reflexivity|]. intros e0 e E K Te. pose proof (proj1 (proj2 S) id e0) as Sf.
      assert (X : source_of P e = source_of P e0) by (unfold kind in K; congruence). rewrite <- X in Sf.
      destruct e; try apply e_raise; (apply e_do_method; intros o w' m Ho _ Em; inversion Em; subst; apply e_fd_seed; [exact S|]; apply Sf; [exact E | apply in_somes; exact Ho]).
    - assert (Put : forall e e', get_em id w = Some e -> tame e' -> tamed (put_em P id e' w)).
      { intros e e' E Te j x. destruct (Nat.eq_dec id j) as [<-|N]; [rewrite (get_put_same _ _ _ _ E); intros X; inversion X; subst; exact Te | rewrite get_put_other by congruence; apply T]. }
      unfold set_source, at_em. destruct (here_get w id ltac:(apply Pe; left; reflexivity)) as [e E]. rewrite E. pose proof (T id e E) as Te.
      destruct e; try (split; [discriminate | exact T]); (split; [discriminate|]); cbn [snd]; eapply Put; [exact E | exact I | exact E | exact Te].
    - assert (Put : forall e e', get_em id w = Some e -> tame e' -> tamed (put_em P id e' w)).
      { intros e e' E Te j x. destruct (Nat.eq_dec id j) as [<-|N]; [rewrite (get_put_same _ _ _ _ E); intros X; inversion X; subst; exact Te | rewrite get_put_other by congruence; apply T]. }
      unfold set_separator, at_em. destruct (here_get w id ltac:(apply Pe; left; reflexivity)) as [e E]. rewrite E.
      destruct e; try (split; [discriminate | exact T]); (split; [discriminate|]); cbn [snd]; eapply Put; [exact E | exact I].
    - apply run_over; [exact T|]. apply e_op; assumption.
    - apply alloc_over; [exact S | exact T | exact Ha | intros ? [] | intros ? [] |]. intros w1 S1 H1 _.
      apply e_seq; [destruct random; [apply e_em_reset; assumption | apply e_ret; exact I] | intros; apply e_ret; exact I].
  Qed.

  Lemma show_over c w : sound P w -> tamed w -> possible P c w -> harmless P acc fuel c -> over (show P fuel str_of c w) /\ sound P (snd (show P fuel str_of c w)).
  Proof.
    intros S T Po Ha. pose proof (exec_over c w S T Po Ha) as O. pose proof (exec_sound fuel str_of c w S Po) as So.
    assert (X : over ((exec P fuel str_of c ;;; ret Done) w) /\ sound P (snd ((exec P fuel str_of c ;;; ret Done) w))).
    { split; [exact (over_ret _ _ (exec P fuel str_of c) (fun _ => Done) w O) | rewrite (bind_ret _ (exec P fuel str_of c) _ (fun _ => Done)); exact So]. }
    destruct c; try exact X. cbn [show].
    split; [apply run_over; [exact T|]; apply e_op; assumption|]. revert So. cbn [exec]. rewrite bind_tt. exact (fun H => H).
  Qed.
  Lemma program_ends l : forall w, sound P w -> tamed w -> all_possible P str_of fuel l w -> Forall (harmless P acc fuel) l ->
    Forall (fun a => a <> Diverge) (fst (run_program P fuel str_of l w)).
  Proof.
    induction l as [|c l IH]; intros w S T Po Ha; cbn [run_program]; [constructor|]. destruct Po as [P1 P2]. inversion Ha; subst.
    destruct (show_over c w S T P1 H1) as [[N T'] S']. specialize (IH _ S' T' P2 H2).
    destruct (show P fuel str_of c w) as [r w']. cbn in *. destruct (run_program P fuel str_of l w') as [rs w'']. cbn in *. constructor; assumption.
  Qed.
End Ends.
