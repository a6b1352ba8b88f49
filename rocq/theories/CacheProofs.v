(** * num_unique_values of Word and Text is calculated once, when they are made. *)
From Coq Require Import String Relations.
From Verif Require Import Base Prims Values MathModel ChoiceModel ChoiceRun ChoiceProofs FixedModel GroupModel
  SigModel WrapModel TextModel FieldModel World Rel WorldProofs Agree WorldSpec WorldReset Histories
  WorldBuild BuildProofs FixedSpec ObjectSpec ObjectProofs.
Open Scope list_scope.
Open Scope Z_scope.

Section Caches.
  Context {P : prims} (fuel : nat) (str_of : val -> res (list Z)).
  Notation world := (World.world P).
  Notation emitter := (World.emitter P).
  Notation get_em := (World.get_em P).
  Notation get_fd := (World.get_fd P).

  (** What a Word or Text has stored. *)
  Definition stored_of (e : emitter) : option nuv :=
    match e with EWord _ _ _ u _ | EText _ _ _ _ u _ => Some u | _ => None end.
  Definition stored (i : nat) (w : world) : option nuv :=
    match get_em i w with Some e => stored_of e | None => None end.

  (** Nothing has been assigned to it that would change its items. *)
  Definition plain (e : emitter) : Prop :=
    match e with
    | EStatic _ s => st_items s = [st_value s]
    | ESeq _ _ s => s_own s = true /\ s_items s <> []
    | EChoice _ _ c => c_items c <> []
    | _ => True
    end.
  Lemma plain_same e e' : settings_of P e = settings_of P e' -> plain e -> plain e'.
  Proof.
    destruct e, e'; cbn; intros E; try discriminate; auto.
    - injection E as <- <-. auto.
    - injection E as _ <- E _. destruct (s_own s), (s_own s0); try discriminate; auto.
    - injection E as _ <- _ _ _ _. auto.
  Qed.
  Lemma plain_node nd e : plain e -> plain (with_node P nd e).
  Proof. destruct e; auto. Qed.

  (** What happens to emitters to which nothing is assigned ([D]); the ones in [E]
      are new Words and Texts. *)
  Definition like (e e' : emitter) : Prop := stored_of e = stored_of e' /\ (plain e -> plain e').
  Definition safe (D E : nat -> Prop) (w w' : world) : Prop := forall i, ~ D i ->
    match get_em i w, get_em i w' with
    | Some e, Some e' => (E i \/ stored_of e = stored_of e') /\ (plain e -> plain e')
    | None, Some e' => (E i \/ stored_of e' = None) /\ plain e'
    | None, None => True
    | Some _, None => False
    end.
  Lemma safe_refl D E w : safe D E w w.
  Proof. intros i _. destruct (get_em i w); auto. Qed.
  Lemma safe_trans D E a b c : safe D E a b -> safe D E b c -> safe D E a c.
  Proof.
    intros H1 H2 i N. specialize (H1 i N). specialize (H2 i N). destruct (get_em i a), (get_em i b), (get_em i c); try tauto; intuition congruence.
  Qed.
  Lemma safe_more (D D' E E' : nat -> Prop) w w' : safe D E w w' -> (forall i, D i -> D' i) -> (forall i, E i -> E' i) -> safe D' E' w w'.
  Proof.
    intros H HD HE i N. specialize (H i (fun d => N (HD i d))). specialize (HE i). destruct (get_em i w), (get_em i w'); intuition congruence.
  Qed.
  Lemma steps_stored e e' : own_steps P fuel e e' -> stored_of e = stored_of e'.
  Proof. induction 1 as [e e' H|e|a b c _ IH1 _ IH2]; [destruct H; reflexivity | reflexivity | congruence]. Qed.
  Lemma evo_safe D E w w' : evo fuel w w' -> wconf w w' -> safe D E w w'.
  Proof.
    intros H C i _. specialize (H i). pose proof (proj1 (wconf_kept none none _ _ C) i) as K.
    unfold settings_at in K. destruct (get_em i w), (get_em i w'); cbn in H; try contradiction; try discriminate; auto.
    split; [right; apply (steps_stored _ _ H)|]. apply plain_same. cbn in K.
    specialize (K _ (fun f => f) eq_refl). congruence.
  Qed.

  Section Fix.
    Context (D E : nat -> Prop).
    Notation kk := (keeps (safe D E)).
    Lemma kk_bind A B (m : M world A) (k : A -> M world B) : kk m -> (forall a, kk (k a)) -> kk (mbind m k).
    Proof. apply keeps_bind; [apply safe_refl | apply safe_trans]. Qed.
    Lemma kk_ret A (a : A) : kk (ret a).
    Proof. intros w. apply safe_refl. Qed.
    Lemma kk_lift A (r : res A) : kk (lift r).
    Proof. intros w. apply safe_refl. Qed.
    Lemma kk_raise A e : kk (@raise world A e).
    Proof. intros w. apply safe_refl. Qed.
    Lemma kk_run A (o : op P) (m : M world A) (k : A -> answer) :
      run P fuel str_of o = (fun w => (a <~ m ;; ret (k a)) w) -> kk m.
    Proof.
      intros Em w. pose proof (run_evo fuel str_of o w) as C. pose proof (run_conf fuel str_of w o) as G. rewrite Em in C, G. apply evo_safe.
      - unfold mbind, ret in C. destruct (m w) as [[]]; exact C.
      - unfold mbind, ret in G. destruct (m w) as [[]]; exact G.
    Qed.
    Lemma kk_call i : kk (em_call P fuel str_of i).
    Proof. eapply (kk_run _ (Emit P i)). reflexivity. Qed.
    Lemma kk_call_n i n : kk (em_call_n P fuel str_of i n).
    Proof. eapply (kk_run _ (EmitN P i n)). reflexivity. Qed.
    Lemma kk_reset i : kk (em_reset P fuel i).
    Proof. eapply (kk_run _ (ResetEm P i)). reflexivity. Qed.
    Lemma kk_fd_call f : kk (fd_call P fuel str_of f).
    Proof. eapply (kk_run _ (Call P f)). reflexivity. Qed.
    Lemma kk_fd_reset f : kk (fd_reset P fuel f).
    Proof. eapply (kk_run _ (WorldSpec.Reset P f)). reflexivity. Qed.
    Lemma kk_fd_seed f s : kk (fd_seed P fuel f s).
    Proof. eapply (kk_run _ (WorldSpec.Seed P f s)). reflexivity. Qed.

    Lemma safe_put i e e' (w : world) : get_em i w = Some e ->
      D i \/ (E i \/ stored_of e = stored_of e') /\ (plain e -> plain e') -> safe D E w (put_em P i e' w).
    Proof.
      intros Ei H j N. destruct (Nat.eq_dec j i) as [->|Ne].
      + rewrite (get_put_same _ _ _ _ Ei), Ei. tauto.
      + rewrite get_put_other by exact Ne. destruct (get_em j w); auto.
    Qed.
    Lemma kk_at A i (k : emitter -> M world A) : (forall e w, get_em i w = Some e -> safe D E w (snd (k e w))) -> kk (at_em P i k).
    Proof. intros H w. unfold at_em. destruct (get_em i w) as [e|] eqn:Ei; [apply H; exact Ei | apply safe_refl]. Qed.
    Lemma kk_modify i f : D i \/ (forall e, (E i \/ stored_of e = stored_of (f e)) /\ (plain e -> plain (f e))) -> kk (modify_em P i f).
    Proof. intros H. apply kk_at. intros e w Ei. cbn [snd]. eapply safe_put; [exact Ei|]. destruct H; auto. Qed.
    Lemma kk_run_rng A i (m : M (pR P) A) : kk (run_rng P i m).
    Proof.
      apply kk_at. intros e w Ei. destruct (node_of P e) as [nd|] eqn:En; [|apply safe_refl].
      destruct (m (n_rng P nd)). eapply safe_put; [exact Ei|]. right. destruct e; auto.
    Qed.
    Lemma kk_run_iter A i (m : M (iterative val) A) : D i -> kk (run_iter P i m).
    Proof. intros Hi. apply kk_at. intros e w Ei. destruct e; try apply safe_refl. destruct (m i0). eapply safe_put; eauto. Qed.
    Lemma kk_run_seq A i (m : M (sequential val) A) : D i -> kk (run_seq P i m).
    Proof. intros Hi. apply kk_at. intros e w Ei. destruct e; try apply safe_refl. destruct (m s). eapply safe_put; eauto. Qed.
    Lemma kk_run_choice A i (m : M (@choice P val) A) : D i -> kk (run_choice P i m).
    Proof. intros Hi. apply kk_at. intros e w Ei. destruct e; try apply safe_refl. destruct (m c). eapply safe_put; eauto. Qed.
    Lemma bound_safe (s0 : world) i f : urel (since (safe D E) s0) (bound P i f) (bound P i f).
    Proof.
      split; [reflexivity|]. split; intros args kw; apply keeps_rel; try apply safe_trans; [apply kk_lift | apply kk_run_rng].
    Qed.
    Lemma kk_do_method O (meth : O -> world -> option (M world unit)) objs :
      (forall o w m, meth o w = Some m -> kk m) -> kk (group_do_method meth objs).
    Proof.
      intros H. apply rel_keeps; [apply safe_refl|]. intros s0. apply rel_do_method. intros o _ s1 s2 [<- _].
      destruct (meth o s1) eqn:Ei; [|exact I]. apply keeps_rel; [apply safe_trans | eapply H; exact Ei].
    Qed.

    Lemma kk_sources (s0 : world) (srcs : list (string * nat)) :
      let l := map (fun ks => (fst ks, (em_call P fuel str_of (snd ks), em_call_n P fuel str_of (snd ks)))) srcs in
      Forall2 (srel (since (safe D E) s0)) l l.
    Proof.
      induction srcs as [|[k j] t IH]; cbn [map]; constructor; [|exact IH].
      split; [reflexivity|]. cbn. split; [apply keeps_rel; [apply safe_trans | apply kk_call]|].
      intros n. apply keeps_rel; [apply safe_trans | apply kk_call_n].
    Qed.
    Lemma kk_set_function i f : kk (set_function P fuel str_of i f).
    Proof.
      assert (Inst : kk (install P i f)) by (apply kk_modify; right; intros []; auto).
      unfold set_function. apply kk_at. intros e w _. revert w. change (kk (match e with
        | EWrapOne _ src _ _ => wrapone_set (em_call P fuel str_of src) (fun _ => install P i f) (em_reset P fuel i) (bound P i f)
        | EWrapMany _ srcs _ _ => wrapmany_set (map (fun ks => (fst ks, (em_call P fuel str_of (snd ks), em_call_n P fuel str_of (snd ks)))) srcs)
            (fun _ => install P i f) (em_reset P fuel i) (bound P i f)
        | EBased _ _ fs _ _ => fun w => based_set (map (fun x => (name_of P x w, fd_call P fuel str_of x)) fs)
            (fun _ => install P i f) (em_reset P fuel i) (bound P i f) w
        | _ => raise AttributeError end)).
      destruct e; try apply kk_raise.
      - apply rel_keeps; [apply safe_refl|]. intros s0. apply rel_wrapone_set; try (apply keeps_rel; [apply safe_trans|]);
          auto using kk_call, kk_reset, bound_safe.
      - apply rel_keeps; [apply safe_refl|]. intros s0. apply rel_wrapmany_set; try (apply keeps_rel; [apply safe_trans|]);
          auto using kk_reset, bound_safe, kk_sources.
      - intros w0.
        assert (K : kk (based_set (map (fun x => (name_of P x w0, fd_call P fuel str_of x)) source)
              (fun _ => install P i f) (em_reset P fuel i) (bound P i f))); [|apply K].
        apply rel_keeps; [apply safe_refl|]. intros s0. apply rel_based_set; try (apply keeps_rel; [apply safe_trans|]);
          auto using kk_reset, bound_safe.
        induction source as [|j t IH]; cbn [map]; constructor; [|exact IH].
        split; [reflexivity|]. cbn. apply keeps_rel; [apply safe_trans | apply kk_fd_call].
    Qed.
    Lemma kk_em_set i s : D i -> kk (em_set P fuel i s).
    Proof.
      intros Hi.       unfold em_set. apply kk_at. intros e w _. revert w.
      destruct e, s; try (match goal with c : choice_setting P |- _ => destruct c end);
        try (intros ?; apply safe_refl); try (apply kk_run_iter; exact Hi); try (apply kk_run_seq; exact Hi); try (apply kk_run_choice; exact Hi).
      - apply kk_modify. now left.
      - apply kk_bind; [apply kk_run_seq; exact Hi|]. intros _. apply kk_modify. now left.
    Qed.

    Lemma safe_put_fd f x (w : world) : safe D E w (put_fd P f x w).
    Proof. apply (safe_refl D E w). Qed.
    Lemma kk_modify_fd f g : kk (modify_fd P f g).
    Proof. intros w. unfold modify_fd, at_fd. destruct (get_fd f w) as [x|]; [apply safe_put_fd | apply safe_refl]. Qed.
  End Fix.

  (** Creation *)
  Lemma safe_alloc (D E : nat -> Prop) e (w : world) : (E (length (w_em P w)) \/ stored_of e = None) -> plain e -> safe D E w (snd (alloc_em P e w)).
  Proof.
    intros He Hp i N.
    unfold alloc_em. cbn [snd]. rewrite get_em_app. destruct (Nat.eqb_spec i (length (w_em P w))) as [->|]; [|destruct (get_em i w); auto].
    cbn [o_em]. unfold World.get_em.
    destruct (nth_error (w_em P w) (length (w_em P w))) eqn:Ei; [|auto].
    assert (length (w_em P w) < length (w_em P w))%nat by (apply nth_error_Some; congruence). lia.
  Qed.
  Lemma safe_alloc_fd D E x w : safe D E w (snd (alloc_fd P x w)).
  Proof. apply (safe_refl D E w). Qed.
  Lemma safe_opt_static D E (o : option nat) v w : safe D E w (snd ((match o with Some i => ret i | None => new_static P v end) w)).
  Proof. destruct o; [apply safe_refl | apply safe_alloc; [now right | reflexivity]]. Qed.
  Lemma safe_new (D E : nat -> Prop) A e (k : nat -> M world A) (w : world) :
    E (length (w_em P w)) \/ stored_of e = None -> plain e ->
    keeps (safe D E) (k (length (w_em P w))) -> safe D E w (snd ((i <~ alloc_em P e ;; k i) w)).
  Proof.
    intros HE Hp H. unfold mbind. pose proof (safe_alloc D E e w HE Hp) as Q1. unfold alloc_em in *. cbn [snd] in Q1.
    eapply safe_trans; [exact Q1 | apply H].
  Qed.

  (** The Word or Text that the command makes. *)
  Definition made (c : command P) (w : world) (i : nat) : Prop :=
    match c with
    | NewWord _ _ _ _ | NewText _ _ _ (Some _) _ => i = length (w_em P w)
    | NewText _ _ _ None _ => i = S (length (w_em P w))
    | _ => False
    end.
  Theorem exec_safe c w : safe (fun i => assigns_to P i c) (made c w) w (snd (exec P fuel str_of c w)).
  Proof.
    assert (New : forall A D E (m : M world A), safe D E w (snd (m w)) -> safe D E w (snd ((m ;;; ret tt) w))).
    { intros A D E m. unfold mbind, ret. destruct (m w) as [[]]; exact (fun H => H). }
    destruct c; cbn [exec].
    - apply New, safe_alloc; [now right | reflexivity].
    - apply New. unfold new_iter, mbind, lift. destruct (iter_new f rac); [|apply safe_refl|apply safe_refl]. apply safe_alloc; [now right | exact I].
    - apply New. unfold new_seq, mbind, lift. destruct items as [|v items]; [apply safe_refl|]. cbn [seq_new]. apply safe_alloc; [now right|]. now split.
    - apply New. unfold new_choice, mbind at 1, lift. destruct (choice_new _ _ _ _ _ _ _ _ _) as [c| |] eqn:Ec; [|apply safe_refl|apply safe_refl].
      apply new_inv in Ec as (wc & Hne & _ & Hr & _). apply reset_any in Hr as [(F1 & _) _]. cbn in F1.
      apply safe_new; [now right | cbn; congruence |]. apply kk_bind; [|intros; apply kk_ret].
      intros w'. cbn [snd]. intros j _. rewrite get_use. destruct (get_em j w'); auto.
    - apply New, safe_new; [now left | exact I |]. apply kk_bind; [apply kk_reset|]. intros _.
      apply kk_bind; [intros w'; apply safe_refl|]. intros u. apply kk_bind; [|intros; apply kk_ret].
      apply kk_modify. right. intros e. split; [now left | destruct e; auto].
    - apply New. unfold new_text. set (E := made _ w).
      assert (Q := safe_opt_static (fun _ => False) E sep_em (VStr [32]) w). unfold mbind at 1.
      assert (Q2 : forall r w1, (match sep_em with Some i => ret i | None => new_static P (VStr [32]) end) w = (r, w1) -> E (length (w_em P w1))).
      { intros r w1. subst E. destruct sep_em; [now intros [= <- <-]|]. unfold new_static, alloc_em. intros [= <- <-]. cbn. rewrite app_length. cbn. lia. }
      destruct ((match sep_em with Some i => ret i | None => new_static P (VStr [32]) end) w) as [[sp|e|] w1] eqn:Es; [|exact Q|exact Q].
      specialize (Q2 _ _ eq_refl).
      eapply safe_trans; [exact Q|]. apply safe_new; [now left | exact I |].
      apply kk_bind; [apply kk_reset|]. intros _.
      apply kk_bind; [intros w'; apply safe_refl|]. intros u. apply kk_bind; [|intros; apply kk_ret].
      apply kk_modify. right. intros e. split; [now left | destruct e; auto].
    - apply New, safe_new; [now right | exact I |]. apply kk_bind; [apply kk_reset|]. intros _. apply kk_bind; [apply kk_set_function | intros; apply kk_ret].
    - apply New, safe_new; [now right | exact I |]. apply kk_bind; [apply kk_reset|]. intros _. apply kk_bind; [apply kk_set_function | intros; apply kk_ret].
    - apply New, safe_alloc; [now right | exact I].
    - apply New, safe_new; [now right | exact I |]. apply kk_bind; [apply kk_reset|]. intros _. apply kk_bind; [apply kk_set_function | intros; apply kk_ret].
    - apply New. unfold new_field.
      assert (Q := safe_opt_static (fun _ => False) (fun _ => False) rep VNone w). unfold mbind at 1.
      destruct ((match rep with Some i => ret i | None => new_static P VNone end) w) as [[r|e|] w1] eqn:Es; [|exact Q|exact Q].
      eapply safe_trans; [exact Q|]. cbn [snd].
      assert (Q1 := safe_opt_static (fun _ => False) (fun _ => False) gate (VBool true) w1). unfold mbind at 1.
      destruct ((match gate with Some i => ret i | None => new_static P (VBool true) end) w1) as [[g|e|] w2] eqn:Eg; [|exact Q1|exact Q1].
      eapply safe_trans; [exact Q1|]. cbn [snd]. unfold mbind at 1.
      pose proof (safe_alloc_fd (fun _ => False) (fun _ => False) (mkField P name hide em r g (new_node P seed) VNone 0) w2) as Q2.
      unfold alloc_fd in *. cbn [snd] in Q2. eapply safe_trans; [exact Q2|].
      apply (kk_bind (fun _ => False) (fun _ => False)); [apply kk_fd_reset | intros; apply kk_ret].
    - apply kk_em_set. reflexivity.
    - apply kk_set_function.
    - apply kk_modify_fd.
    - apply kk_modify_fd.
    - unfold em_reset_source. apply kk_at. intros e w' _. revert w'.
      destruct e; try (intros ?; apply safe_refl); apply kk_do_method; intros o w' m [= <-]; apply kk_fd_reset.
    - unfold em_seed_source. apply kk_at. intros e w' _. revert w'.
      destruct e; try (intros ?; apply safe_refl); apply kk_do_method; intros o w' m [= <-]; apply kk_fd_seed.
    - apply kk_at. intros e w' E. destruct e; try apply safe_refl; (eapply safe_put; [exact E | right; auto]).
    - apply kk_at. intros e w' E. destruct e; try apply safe_refl; (eapply safe_put; [exact E | right; auto]).
    - apply New, evo_safe; [apply run_evo | apply run_conf].
    - apply New, safe_new; [now right | exact I |]. apply kk_bind; [destruct random; [apply kk_reset | apply kk_ret] | intros; apply kk_ret].
  Qed.
End Caches.
