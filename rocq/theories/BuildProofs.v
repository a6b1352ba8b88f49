(** * Reachable worlds are sound. *)
From Coq Require Import String.
From Verif Require Import Base Prims Values MathModel ChoiceModel FixedModel GroupModel
  SigModel SigProofs WrapModel TextModel FieldModel World Rel WorldProofs Agree WorldSpec WorldReset Histories WorldBuild.
Open Scope list_scope.
Open Scope Z_scope.

Section BuildProofs.
  Context {P : prims} (fuel : nat) (str_of : val -> res (list Z)).
  Notation world := (World.world P).
  Notation get_em := (World.get_em P).
  Notation get_fd := (World.get_fd P).
  Notation run := (WorldSpec.run P fuel str_of).

  (** The same objects referring to the same objects. *)
  Definition refs (e : World.emitter P) : list nat * list nat := (children P e, source_of P e).
  Definition shape (w w' : world) : Prop :=
    length (w_em P w) = length (w_em P w') /\ length (w_fd P w) = length (w_fd P w') /\
    (forall i, option_map refs (get_em i w) = option_map refs (get_em i w')) /\
    (forall f, option_map (parts P) (get_fd f w) = option_map (parts P) (get_fd f w')).

  Lemma shape_refl w : shape w w.
  Proof. repeat split. Qed.
  Lemma shape_trans a b c : shape a b -> shape b c -> shape a c.
  Proof. intros (A1 & A2 & A3 & A4) (B1 & B2 & B3 & B4). split; [congruence|]. split; [congruence|]. split; intros; congruence. Qed.

  Lemma shape_sound w w' : shape w w' -> sound P w -> sound P w'.
  Proof.
    intros (A1 & A2 & A3 & A4) (S1 & S2 & S3).
    assert (Em : forall i e', get_em i w' = Some e' -> exists e, get_em i w = Some e /\ refs e = refs e').
    { intros i e' E. specialize (A3 i). rewrite E in A3. destruct (get_em i w) as [e|]; [|discriminate]. injection A3 as Q1 Q2.
      exists e. split; [reflexivity|]. unfold refs. congruence. }
    split; [|split].
    - intros i e k E Hk. destruct (Em i e E) as (e0 & E0 & [= Q1 Q2]). eapply S1; [exact E0 | congruence].
    - intros i e f E Hf. destruct (Em i e E) as (e0 & E0 & [= Q1 Q2]). rewrite <- A2. eapply S2; [exact E0 | congruence].
    - intros f x p E Hp. specialize (A4 f). rewrite E in A4. destruct (get_fd f w) as [x0|] eqn:E0; [|discriminate].
      injection A4 as Q1 Q2 Q3. rewrite <- A1. eapply S3; [exact E0|]. unfold parts in *. congruence.
  Qed.

  Lemma len_nth A B : forall (l : list A) (l' : list B), (forall n, nth_error l n = None <-> nth_error l' n = None) -> length l = length l'.
  Proof.
    induction l as [|a l IH]; intros [|b l'] H; [reflexivity | | |].
    - destruct (H O) as [H1 _]. specialize (H1 eq_refl). discriminate.
    - destruct (H O) as [_ H1]. specialize (H1 eq_refl). discriminate.
    - cbn. f_equal. apply IH. intros n. apply (H (S n)).
  Qed.

  Lemma wconf_shape w w' : wconf w w' -> shape w w'.
  Proof.
    intros [C1 C2]. split; [|split; [|split]].
    - apply len_nth. intros n. specialize (C1 n). unfold World.get_em in C1.
      destruct (nth_error (w_em P w) n), (nth_error (w_em P w') n); try contradiction; split; congruence.
    - apply len_nth. intros n. specialize (C2 n). unfold World.get_fd in C2.
      destruct (nth_error (w_fd P w) n), (nth_error (w_fd P w') n); try contradiction; split; congruence.
    - intros i. specialize (C1 i). destruct (get_em i w), (get_em i w'); try contradiction; [|reflexivity].
      cbn in *. unfold refs. rewrite (conf_children _ _ C1), (conf_source _ _ C1). reflexivity.
    - intros f. specialize (C2 f). destruct (get_fd f w), (get_fd f w'); try contradiction; [|reflexivity].
      cbn in *. destruct C2 as (_ & _ & Q1 & Q2 & Q3). unfold parts. congruence.
  Qed.

  Notation ks := (keeps shape).
  Lemma ks_bind A B (m : M world A) (k : A -> M world B) : ks m -> (forall a, ks (k a)) -> ks (mbind m k).
  Proof. intros. apply keeps_bind; auto using shape_refl. exact shape_trans. Qed.
  Lemma ks_ret A (a : A) : ks (ret a).
  Proof. intros w. apply shape_refl. Qed.
  Lemma ks_lift A (r : res A) : ks (lift r).
  Proof. intros w. apply shape_refl. Qed.
  Lemma ks_raise A e : ks (@raise world A e).
  Proof. intros w. apply shape_refl. Qed.
  Lemma ks_run A (o : op P) (m : M world A) (k : A -> answer) :
    run o = (fun w => (a <~ m ;; ret (k a)) w) -> ks m.
  Proof.
    intros E w. pose proof (run_conf fuel str_of w o) as C. rewrite E in C. apply wconf_shape in C.
    unfold mbind, ret in C. destruct (m w) as [[]]; exact C.
  Qed.
  Lemma ks_call i : ks (em_call P fuel str_of i).
  Proof. apply (ks_run _ (Emit P i) _ Value). reflexivity. Qed.
  Lemma ks_call_n i n : ks (em_call_n P fuel str_of i n).
  Proof. apply (ks_run _ (EmitN P i n) _ Values). reflexivity. Qed.
  Lemma ks_reset i : ks (em_reset P fuel i).
  Proof. apply (ks_run _ (ResetEm P i) _ (fun _ => Done)). reflexivity. Qed.
  Lemma ks_fd_call i : ks (fd_call P fuel str_of i).
  Proof. apply (ks_run _ (Call P i) _ Value). reflexivity. Qed.
  Lemma ks_fd_reset i : ks (fd_reset P fuel i).
  Proof. apply (ks_run _ (Reset P i) _ (fun _ => Done)). reflexivity. Qed.
  Lemma ks_fd_seed i s : ks (fd_seed P fuel i s).
  Proof. apply (ks_run _ (Seed P i s) _ (fun _ => Done)). reflexivity. Qed.

  Lemma put_em_length i e (w : world) : length (w_em P (put_em P i e w)) = length (w_em P w).
  Proof. unfold put_em. destruct (nth_error _ _); [apply upd_len | reflexivity]. Qed.
  Lemma shape_put i e e' (w : world) : get_em i w = Some e -> refs e = refs e' -> shape w (put_em P i e' w).
  Proof.
    intros E R. split; [symmetry; apply put_em_length|]. split; [rewrite fd_put; reflexivity|]. split.
    - intros j. destruct (Nat.eq_dec j i) as [->|N].
      + rewrite (get_put_same _ _ _ _ E), E. cbn. congruence.
      + rewrite get_put_other by exact N. reflexivity.
    - intros f. unfold World.get_fd. rewrite fd_put. reflexivity.
  Qed.
  Lemma ks_modify i f : (forall e, refs (f e) = refs e) -> ks (modify_em P i f).
  Proof.
    intros H w. unfold modify_em, at_em. destruct (get_em i w) as [e|] eqn:E; [|apply shape_refl]. cbn [snd].
    eapply shape_put; [exact E | symmetry; apply H].
  Qed.
  Lemma ks_at A i (k : World.emitter P -> M world A) : (forall e, ks (k e)) -> ks (at_em P i k).
  Proof. intros H w. unfold at_em. destruct (get_em i w); [apply H | apply shape_refl]. Qed.
  Lemma ks_run_iter A i (m : M (iterative val) A) : ks (run_iter P i m).
  Proof.
    intros w. unfold run_iter, at_em. destruct (get_em i w) as [[]|] eqn:E; try apply shape_refl.
    destruct (m _). cbn [snd]. eapply shape_put; [exact E | reflexivity].
  Qed.
  Lemma ks_run_seq A i (m : M (sequential val) A) : ks (run_seq P i m).
  Proof.
    intros w. unfold run_seq, at_em. destruct (get_em i w) as [[]|] eqn:E; try apply shape_refl.
    destruct (m _). cbn [snd]. eapply shape_put; [exact E | reflexivity].
  Qed.
  Lemma ks_run_choice A i (m : M (@choice P val) A) : ks (run_choice P i m).
  Proof.
    intros w. unfold run_choice, at_em. destruct (get_em i w) as [[]|] eqn:E; try apply shape_refl.
    destruct (m _). cbn [snd]. eapply shape_put; [exact E | reflexivity].
  Qed.
  Lemma refs_with nd e : refs (with_node P nd e) = refs e.
  Proof. destruct e; reflexivity. Qed.
  Lemma ks_run_rng A i (m : M (pR P) A) : ks (run_rng P i m).
  Proof.
    intros w. unfold run_rng, at_em. destruct (get_em i w) as [e|] eqn:E; try apply shape_refl.
    destruct (node_of P e); [|apply shape_refl]. destruct (m _). cbn [snd]. eapply shape_put; [exact E | symmetry; apply refs_with].
  Qed.

  Lemma bound_keeps (s0 : world) i f : urel (since shape s0) (bound P i f) (bound P i f).
  Proof.
    split; [reflexivity|]. split; intros args kw; apply keeps_rel; try exact shape_trans; [apply ks_lift | apply ks_run_rng].
  Qed.

  Lemma install_refs f (e : World.emitter P) : refs (match e with
                           | EWrapOne _ s _ nd => EWrapOne P s f nd
                           | EWrapMany _ ss _ nd => EWrapMany P ss f nd
                           | EBased _ b fs _ nd => EBased P b fs f nd
                           | e => e end) = refs e.
  Proof. destruct e; reflexivity. Qed.

  Lemma ks_set_function i f : ks (set_function P fuel str_of i f).
  Proof.
    apply ks_at. intros e.
    assert (Inst : ks (install P i f)) by (apply ks_modify, install_refs).
    destruct e; try apply ks_raise.
    - apply rel_keeps; [exact shape_refl|]. intros s0. apply rel_wrapone_set; try (apply keeps_rel; [exact shape_trans|]);
        auto using ks_call, ks_reset, bound_keeps.
    - apply rel_keeps; [exact shape_refl|]. intros s0. apply rel_wrapmany_set; try (apply keeps_rel; [exact shape_trans|]);
        auto using ks_reset, bound_keeps.
      induction sources as [|[k j] t IH]; cbn [map]; constructor; [|exact IH].
      split; [reflexivity|]. cbn. split; [apply keeps_rel; [exact shape_trans | apply ks_call]|].
      intros n. apply keeps_rel; [exact shape_trans | apply ks_call_n].
    - intros w0.
      assert (K : ks (based_set (map (fun x => (name_of P x w0, fd_call P fuel str_of x)) source)
            (fun _ => install P i f) (em_reset P fuel i) (bound P i f))); [|apply K].
      apply rel_keeps; [exact shape_refl|]. intros s0. apply rel_based_set; try (apply keeps_rel; [exact shape_trans|]);
        auto using ks_reset, bound_keeps.
      induction source as [|j t IH]; cbn [map]; constructor; [|exact IH].
      split; [reflexivity|]. cbn. apply keeps_rel; [exact shape_trans | apply ks_fd_call].
  Qed.

  Lemma ks_do_method O (meth : O -> world -> option (M world unit)) objs :
    (forall o w m, meth o w = Some m -> ks m) -> ks (group_do_method meth objs).
  Proof.
    intros H. induction objs as [|[o|] t IH]; cbn [group_do_method]; [apply ks_ret | | exact IH].
    apply ks_bind; [|intros _; exact IH]. intros w. unfold catch_attribute_error. destruct (meth o w) as [m|] eqn:E; [|apply shape_refl].
    specialize (H o w m E w). destruct (m w) as [[[]|[]|] w1]; exact H.
  Qed.

  (** ** New objects *)

  Lemma sound_bound w i e k : sound P w -> get_em i w = Some e -> In k (children P e) -> (k < length (w_em P w))%nat.
  Proof.
    intros (S1 & _) E Hk. specialize (S1 i e k E Hk). unfold World.get_em in E.
    destruct (nth_error (w_em P w) i) eqn:N; [|discriminate]. assert (i < length (w_em P w))%nat by (apply nth_error_Some; congruence). lia.
  Qed.

  Lemma get_em_app i w o : get_em i (mkWorld P (w_em P w ++ [o]) (w_fd P w) (w_run P w)) =
    if Nat.eqb i (length (w_em P w)) then Some (o_em P o) else get_em i w.
  Proof.
    unfold World.get_em. cbn [w_em]. destruct (Nat.eqb_spec i (length (w_em P w))) as [->|N].
    - rewrite nth_error_app2, Nat.sub_diag by lia. reflexivity.
    - destruct (le_lt_dec (length (w_em P w)) i).
      + rewrite nth_error_app2 by lia. destruct (i - length (w_em P w))%nat as [|n] eqn:Q; [lia|]. cbn. destruct n; cbn; 
        rewrite (proj2 (nth_error_None (w_em P w) i)) by lia; reflexivity.
      + rewrite nth_error_app1 by lia. reflexivity.
  Qed.

  Lemma sound_alloc e w : sound P w -> (forall k, In k (children P e) -> (k < length (w_em P w))%nat) ->
    (forall f, In f (source_of P e) -> (f < length (w_fd P w))%nat) -> sound P (snd (alloc_em P e w)).
  Proof.
    intros (S1 & S2 & S3) Hk Hf. cbn. split; [|split].
    - intros i e' k. rewrite get_em_app. destruct (Nat.eqb_spec i (length (w_em P w))) as [->|N]; [|apply S1].
      intros [= <-]. exact (Hk k).
    - intros i e' f. rewrite get_em_app. destruct (Nat.eqb_spec i (length (w_em P w))) as [->|N]; [|apply S2].
      intros [= <-]. exact (Hf f).
    - intros f x p E Hp. cbn [w_em]. rewrite app_length. specialize (S3 f x p E Hp). lia.
  Qed.

  Lemma sound_alloc_fd x w : sound P w -> (forall p, In p (parts P x) -> (p < length (w_em P w))%nat) ->
    sound P (snd (alloc_fd P x w)).
  Proof.
    intros (S1 & S2 & S3) Hp. cbn. split; [|split].
    - exact S1.
    - intros i e f E Hf. cbn [w_fd]. rewrite app_length. specialize (S2 i e f E Hf). lia.
    - intros f y p. unfold World.get_fd. cbn [w_fd w_em]. intros E Hy.
      destruct (le_lt_dec (length (w_fd P w)) f).
      + rewrite nth_error_app2 in E by lia. destruct (f - length (w_fd P w))%nat as [|n]; [|destruct n; discriminate E].
        cbn in E. injection E as <-. apply Hp, Hy.
      + rewrite nth_error_app1 in E by lia. eapply S3; eauto.
  Qed.

  Lemma exec_sound c w : sound P w -> possible P c w -> sound P (snd (exec P fuel str_of c w)).
  Proof.
    intros Sw [Pe Pf].
    assert (Fin : forall A (m : M world A), sound P (snd (m w)) -> sound P (snd ((m ;;; ret tt) w))).
    { intros A m. unfold mbind, ret. destruct (m w) as [[]]; exact (fun H => H). }
    assert (Keep : forall A (m : M world A), ks m -> sound P (snd (m w))) by (intros A m K; eapply shape_sound; [apply K | exact Sw]).
    assert (After : forall e A (k : nat -> M world A), (forall i, ks (k i)) ->
        (forall k, In k (children P e) -> (k < length (w_em P w))%nat) ->
        (forall f, In f (source_of P e) -> (f < length (w_fd P w))%nat) ->
        sound P (snd ((i <~ alloc_em P e ;; k i) w))).
    { intros e A k K H1 H2. unfold mbind. pose proof (sound_alloc e w Sw H1 H2) as Q.
      unfold alloc_em in *. cbn [snd] in Q. eapply shape_sound; [apply K | exact Q]. }
    destruct c; cbn [exec]; cbn [emitters_of fields_of] in Pe, Pf.
    - apply Fin, sound_alloc; auto; intros ? [].
    - apply Fin. unfold new_iter, mbind, lift. destruct (iter_new f rac); [|exact Sw|exact Sw]. apply sound_alloc; auto; intros ? [].
    - apply Fin. unfold new_seq, mbind, lift. destruct (seq_new items rac); [|exact Sw|exact Sw]. apply sound_alloc; auto; intros ? [].
    - apply Fin. unfold new_choice, mbind at 1, lift. destruct (choice_new _ _ _ _ _ _ _ _ _); [|exact Sw|exact Sw].
      apply After; [|intros ? []|intros ? []]. intros i. apply ks_bind; [|intros; apply ks_ret].
      intros w'. cbn [snd]. unfold use_entropy. destruct (nth_error (w_em P w') i) as [o|] eqn:E; [|apply shape_refl].
      split; [symmetry; apply upd_len|]. split; [reflexivity|]. split; [|reflexivity]. intros j. unfold World.get_em. cbn [w_em].
      destruct (Nat.eq_dec i j) as [<-|N]; [rewrite (nth_upd_same _ _ _ _ _ E), E | rewrite nth_upd_other by exact N]; reflexivity.
    - apply Fin, After; [|exact Pe|intros ? []]. intros i. apply ks_bind; [apply ks_reset|]. intros _.
      apply ks_bind; [intros w'; apply shape_refl|]. intros u. apply ks_bind; [|intros; apply ks_ret]. apply ks_modify. intros []; reflexivity.
    - apply Fin. unfold new_text.
      assert (Rest : forall w, sound P w -> (numwords_em < length (w_em P w))%nat -> (word_em < length (w_em P w))%nat -> forall sp, (sp < length (w_em P w))%nat ->
        sound P (snd ((id <~ alloc_em P (EText P numwords_em word_em sp Unknown (new_node P seed)) ;;
          em_reset P fuel id ;;;
          u <~ (fun w => (a <- nuv_at P word_em w ;; b <- nuv_at P sp w ;; text_nuv a b (items_list P numwords_em w), w)) ;;
          modify_em P id (fun e => match e with EText _ n x y _ nd => EText P n x y u nd | e => e end) ;;;
          ret id) w))).
      { clear -fuel str_of. intros w Sw H1 H2 sp H3. unfold mbind at 1.
        pose proof (sound_alloc (EText P numwords_em word_em sp Unknown (new_node P seed)) w Sw) as Q. unfold alloc_em in *. cbn [snd] in Q.
        eapply shape_sound; [|apply Q; [intros k [<-|[<-|[<-|[]]]]; assumption | intros ? []]].
        assert (K : ks (em_reset P fuel (length (w_em P w)) ;;;
          u <~ (fun w => (a <- nuv_at P word_em w ;; b <- nuv_at P sp w ;; text_nuv a b (items_list P numwords_em w), w)) ;;
          modify_em P (length (w_em P w)) (fun e => match e with EText _ n x y _ nd => EText P n x y u nd | e => e end) ;;;
          ret (length (w_em P w)))); [|apply K].
        apply ks_bind; [apply ks_reset|]. intros _.
        apply ks_bind; [intros w'; apply shape_refl|]. intros u. apply ks_bind; [|intros; apply ks_ret]. apply ks_modify. intros []; reflexivity. }
      destruct sep_em as [sp|].
      + unfold mbind at 1, ret. apply Rest; [exact Sw | apply Pe; left; reflexivity | apply Pe; right; left; reflexivity | apply Pe; right; right; left; reflexivity].
      + unfold mbind at 1, new_static, alloc_em at 1. apply Rest.
        * apply (sound_alloc (EStatic P (static_new (VStr [32]))) w Sw); intros ? [].
        * cbn [w_em]. rewrite app_length. assert (numwords_em < length (w_em P w))%nat by (apply Pe; left; reflexivity). lia.
        * cbn [w_em]. rewrite app_length. assert (word_em < length (w_em P w))%nat by (apply Pe; right; left; reflexivity). lia.
        * cbn [w_em]. rewrite app_length. cbn. lia.
    - apply Fin, After; [|exact Pe|intros ? []]. intros i. apply ks_bind; [apply ks_reset|]. intros _.
      apply ks_bind; [apply ks_set_function | intros; apply ks_ret].
    - apply Fin, After; [|exact Pe|intros ? []]. intros i. apply ks_bind; [apply ks_reset|]. intros _.
      apply ks_bind; [apply ks_set_function | intros; apply ks_ret].
    - apply Fin, sound_alloc; [exact Sw | intros ? [] | exact Pf].
    - apply Fin, After; [|intros ? []|exact Pf]. intros i. apply ks_bind; [apply ks_reset|]. intros _.
      apply ks_bind; [apply ks_set_function | intros; apply ks_ret].
    - apply Fin. unfold new_field.
      assert (Opt : forall (o : option nat) v w, sound P w -> (forall i, o = Some i -> (i < length (w_em P w))%nat) ->
        exists i w', (match o with Some i => ret i | None => new_static P v end) w = (Ok i, w') /\ sound P w' /\ (i < length (w_em P w'))%nat /\
          (length (w_em P w) <= length (w_em P w'))%nat).
      { clear. intros [i|] v w Sw H.
        - exists i, w. split; [reflexivity|]. split; [exact Sw|]. split; [apply H; reflexivity | lia].
        - eexists _, _. split; [reflexivity|]. split; [apply (sound_alloc _ w Sw); intros ? []|]. cbn [w_em]. rewrite app_length. cbn. lia. }
      destruct (Opt rep VNone w Sw) as (r & w1 & E1 & S1 & L1 & M1).
      { intros i ->. apply Pe. right. left. reflexivity. }
      unfold mbind at 1. rewrite E1. destruct (Opt gate (VBool true) w1 S1) as (g & w2 & E2 & S2 & L2 & M2).
      { intros i ->. assert (i < length (w_em P w))%nat by (apply Pe; right; destruct rep; cbn; auto). lia. }
      unfold mbind at 1. rewrite E2. unfold mbind at 1. 
      pose proof (sound_alloc_fd (mkField P name hide em r g (new_node P seed) VNone 0) w2 S2) as Q. unfold alloc_fd in *. cbn [snd] in Q.
      assert (K : ks (fd_reset P fuel (length (w_fd P w2)) ;;; ret (length (w_fd P w2)))) by (apply ks_bind; [apply ks_fd_reset | intros; apply ks_ret]).
      eapply shape_sound; [apply K|]. apply Q. cbn. assert (em < length (w_em P w))%nat by (apply Pe; left; reflexivity).
      intros p [<-|[<-|[<-|[]]]]; lia.
    - apply Keep. apply ks_at. intros e. destruct e, s; try apply ks_raise; try apply ks_run_iter; try apply ks_run_seq.
      + apply ks_modify. intros []; reflexivity.
      + apply ks_bind; [apply ks_run_seq|]. intros _. apply ks_modify. intros []; reflexivity.
      + destruct s; apply ks_run_choice.
    - apply Keep, ks_set_function.
    - unfold fd_set_part, modify_fd, at_fd. destruct (get_fd f w) as [x|] eqn:E; [|exact Sw]. cbn [snd].
      destruct Sw as (S1 & S2 & S3). split; [exact S1|]. split.
      + intros i e g Ei Hg. cbn [put_fd w_fd]. rewrite upd_len. eapply S2; eauto.
      + intros g y q. cbn [put_fd w_em]. unfold World.get_fd at 1. cbn [put_fd w_fd]. destruct (Nat.eq_dec f g) as [<-|N].
        * rewrite (nth_upd_same _ _ _ _ _ E). intros [= <-] Hq. assert (L : (id < length (w_em P w))%nat) by (apply Pe; left; reflexivity).
          assert (Old : forall q, In q (parts P x) -> (q < length (w_em P w))%nat) by (intros q'; eapply S3; eauto).
          unfold parts in *. destruct p; cbn in Hq; destruct Hq as [<-|[<-|[<-|[]]]]; first [exact L | apply Old; cbn; auto].
        * rewrite nth_upd_other by exact N. intros Ey Hq. eapply S3; eauto.
    - apply Keep. intros w'. unfold fd_set_hide, modify_fd, at_fd. destruct (get_fd f w') as [x|] eqn:E; [|apply shape_refl]. cbn [snd].
      split; [reflexivity|]. split; [cbn; symmetry; apply upd_len|]. split; [reflexivity|]. intros g. unfold World.get_fd. cbn [put_fd w_fd].
      destruct (Nat.eq_dec f g) as [<-|N]; [rewrite (nth_upd_same _ _ _ _ _ E)|rewrite nth_upd_other by exact N; reflexivity].
      unfold World.get_fd in E. rewrite E. reflexivity.
    - apply Keep, ks_at. intros e. destruct e; try apply ks_raise; apply ks_do_method; intros o w' m [= <-]; apply ks_fd_reset.
    - apply Keep, ks_at. intros e. destruct e; try apply ks_raise; apply ks_do_method; intros o w' m [= <-]; apply ks_fd_seed.
    - unfold set_source, at_em. destruct (get_em id w) as [e|] eqn:E; [|exact Sw].
      assert (Put : forall e', children P e' = [] -> source_of P e' = fs -> sound P (put_em P id e' w)).
      { intros e' K1 K2. destruct Sw as (S1 & S2 & S3). split; [|split].
        - intros i e1 k Ei Hk. destruct (Nat.eq_dec i id) as [->|N].
          + rewrite (get_put_same id e' w e E) in Ei. injection Ei as <-. rewrite K1 in Hk. destruct Hk.
          + rewrite get_put_other in Ei by exact N. eapply S1; eauto.
        - intros i e1 g Ei Hg. assert (Lf : length (w_fd P (put_em P id e' w)) = length (w_fd P w)).
          { unfold put_em. destruct (nth_error (w_em P w) id); reflexivity. }
          rewrite Lf. destruct (Nat.eq_dec i id) as [->|N].
          + rewrite (get_put_same id e' w e E) in Ei. injection Ei as <-. rewrite K2 in Hg. apply Pf, Hg.
          + rewrite get_put_other in Ei by exact N. eapply S2; eauto.
        - intros f x p Ef. rewrite put_em_length. apply (S3 f).
          unfold World.get_fd, put_em in *. destruct (nth_error (w_em P w) id); exact Ef. }
      destruct e; try exact Sw; apply Put; reflexivity.
    - apply Keep. intros w'. unfold set_separator, at_em. destruct (get_em id w') as [e|] eqn:E; [|apply shape_refl].
      destruct e; try apply shape_refl. eapply shape_put; [exact E | reflexivity].
    - apply Fin, Keep. intros w'. apply wconf_shape, run_conf.
    - apply Fin, After; [|intros ? []|intros ? []]. intros i.
      apply ks_bind; [destruct random; [apply ks_reset | apply ks_ret] | intros; apply ks_ret].
  Qed.

  (** Whatever a program does, no emitter is part of itself, and there are no
      dangling references. *)
  Theorem reachable_sound w : reachable P fuel str_of w -> sound P w.
  Proof.
    induction 1 as [|c w R IH Hp]; [|apply exec_sound; assumption].
    split; [|split]; [intros [|i] e k E | intros [|i] e k E | intros [|i] e k E]; discriminate E.
  Qed.
End BuildProofs.
