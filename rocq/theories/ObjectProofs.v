(** * Objects change only by their own operations, and their settings only by
    assignments. *)
From Coq Require Import String Relations.
From Verif Require Import Base Prims Values MathModel ChoiceModel ChoiceRun FixedModel GroupModel
  SigModel WrapModel TextModel FieldModel World Rel WorldProofs Agree WorldSpec WorldReset Histories
  WorldBuild BuildProofs FixedSpec ObjectSpec.
Open Scope list_scope.
Open Scope Z_scope.

Section Own.
  Context {P : prims} (fuel : nat) (str_of : val -> res (list Z)).
  Notation world := (World.world P).
  Notation emitter := (World.emitter P).
  Notation get_em := (World.get_em P).
  Notation get_fd := (World.get_fd P).
  Notation steps := (own_steps P fuel).

  Lemma steps_refl e : steps e e.
  Proof. apply rt_refl. Qed.
  Lemma steps_trans a b c : steps a b -> steps b c -> steps a c.
  Proof. apply rt_trans. Qed.
  Lemma one_step a b : own_step P fuel a b -> steps a b.
  Proof. apply rt_step. Qed.

  Definition evo (w w' : world) : Prop := forall id, orel steps (get_em id w) (get_em id w').
  Lemma evo_refl w : evo w w.
  Proof. intros id. apply orel_refl, steps_refl. Qed.
  Lemma evo_trans a b c : evo a b -> evo b c -> evo a c.
  Proof. intros H1 H2 id. eapply orel_trans; [exact steps_trans | apply H1 | apply H2]. Qed.
  Lemma evo_put id e e' (w : world) : get_em id w = Some e -> steps e e' -> evo w (put_em P id e' w).
  Proof.
    intros E St j. destruct (Nat.eq_dec j id) as [->|N].
    - rewrite (get_put_same _ _ _ _ E), E. exact St.
    - rewrite get_put_other by exact N. apply orel_refl, steps_refl.
  Qed.
  Lemma evo_use id (w : world) : evo w (use_entropy P id w).
  Proof. intros j. rewrite get_use. apply orel_refl, steps_refl. Qed.
  Lemma evo_fd f x (w : world) : evo w (put_fd P f x w).
  Proof. intros j. apply orel_refl, steps_refl. Qed.

  (** The kind of an emitter *)
  Definition is_choice (e : emitter) : bool := match e with EChoice _ _ _ => true | _ => false end.
  Lemma steps_kind e e' : steps e e' -> is_choice e = is_choice e'.
  Proof. induction 1 as [a b H| |a b c _ IH1 _ IH2]; [destruct H; reflexivity | reflexivity | congruence]. Qed.

  Lemma steps_node e nd : is_choice e = false -> steps e (with_node P nd e).
  Proof.
    destruct e; cbn; intros Hc; try discriminate; try (first [apply steps_refl | apply one_step; constructor; fail]).
    apply one_step, own_user_rng. destruct nd0; split; (reflexivity || discriminate).
  Qed.
  Lemma steps_seed e nd s : node_of P e = Some nd -> steps e (with_node P (mkNode P s (n_rng P nd)) e).
  Proof.
    destruct (is_choice e) eqn:Ec; [|intros _; apply steps_node; exact Ec].
    destruct e; cbn in Ec; try discriminate. cbn. intros [= <-]. cbn. apply one_step.
    assert (Q : set_rng P (c_rng c) (set_seed P s c) = snd (do_setting P fuel (Rng_seed s) O c)) by (destruct c; reflexivity).
    rewrite Q. constructor. right. exists s. right. reflexivity.
  Qed.

  Section After.
    Context (w0 : world).
    Notation rel := (Rel.rel (since evo w0)).

    Lemma since_keeps A (m : M world A) : (forall w, evo w0 w -> evo w (snd (m w))) -> rel m m.
    Proof. intros H s1 s2 [<- E]. split; [reflexivity|]. split; [reflexivity|]. eapply evo_trans; eauto. Qed.
    Lemma rel_same A (m : M world A) : keeps evo m -> rel m m.
    Proof. intros H. apply since_keeps. intros w _. apply H. Qed.

    Definition nochoice (id : nat) : Prop := forall e, get_em id w0 = Some e -> is_choice e = false.
    Lemma later id w e : evo w0 w -> get_em id w = Some e -> exists e0, get_em id w0 = Some e0 /\ steps e0 e.
    Proof. intros H E. specialize (H id). rewrite E in H. destruct (get_em id w0); cbn in H; [eauto | contradiction]. Qed.
    Lemma nochoice_later id w e : nochoice id -> evo w0 w -> get_em id w = Some e -> is_choice e = false.
    Proof. intros N H E. destruct (later id w e H E) as (e0 & E0 & St). rewrite <- (steps_kind _ _ St). auto. Qed.
    Lemma later_nochoice id w e : evo w0 w -> get_em id w = Some e -> is_choice e = false -> nochoice id.
    Proof.
      intros H E N e0 E0. destruct (later id w e H E) as (e1 & E1 & St). rewrite E0 in E1. injection E1 as <-.
      rewrite (steps_kind _ _ St). exact N.
    Qed.

    Lemma e_at A id (k1 k2 : emitter -> M world A) :
      (forall w e, evo w0 w -> get_em id w = Some e -> rel (k1 e) (k2 e)) -> rel (at_em P id k1) (at_em P id k2).
    Proof.
      intros H s1 s2 [<- E]. unfold at_em. destruct (get_em id s1) as [e|] eqn:Ee; [|split; [reflexivity | split; auto]].
      apply (H s1 e E Ee). split; auto.
    Qed.
    Lemma e_run_rng A id (m : M (pR P) A) : nochoice id -> rel (run_rng P id m) (run_rng P id m).
    Proof.
      intros N. apply since_keeps. intros w E. unfold run_rng, at_em. destruct (get_em id w) as [e|] eqn:Ee; [|apply evo_refl].
      destruct (node_of P e) as [nd|]; [|apply evo_refl]. destruct (m (n_rng P nd)). cbn [snd].
      eapply evo_put; [exact Ee | apply steps_node]. eapply nochoice_later; eauto.
    Qed.
    Lemma e_bound id f : nochoice id -> urel (since evo w0) (bound P id f) (bound P id f).
    Proof.
      intros N. split; [reflexivity|]. split; intros; [apply rel_lift | apply e_run_rng; exact N].
    Qed.
    Lemma e_reset_rng id : nochoice id -> rel (reset_rng P id) (reset_rng P id).
    Proof.
      intros N. apply since_keeps. intros w E. unfold reset_rng, mbind, modify_em, at_em.
      destruct (get_em id w) as [e|] eqn:Ee; [|apply evo_refl]. cbn [snd]. eapply evo_trans; [|apply evo_use].
      eapply evo_put; [exact Ee|]. destruct (node_of P e); [|apply steps_refl]. apply steps_node. eapply nochoice_later; eauto.
    Qed.
    Lemma e_seed_own id s : nochoice id -> rel (seed_own P id s) (seed_own P id s).
    Proof.
      intros N. apply since_keeps. intros w E. unfold seed_own, mbind, modify_em, at_em.
      destruct (get_em id w) as [e|] eqn:Ee; [|apply evo_refl]. cbn [snd]. eapply evo_trans; [|apply evo_use].
      eapply evo_put; [exact Ee|]. destruct (node_of P e); [|apply steps_refl]. apply steps_node. eapply nochoice_later; eauto.
    Qed.
  End After.
  Notation rel w0 := (Rel.rel (since evo w0)).

  Lemma k_set_seed s id : keeps evo (set_rng_seed P s id).
  Proof.
    intros w. unfold set_rng_seed, modify_em, at_em. destruct (get_em id w) as [e|] eqn:Ee; [|apply evo_refl]. cbn [snd].
    eapply evo_put; [exact Ee|]. destruct (node_of P e) eqn:En; [apply steps_seed; exact En | apply steps_refl].
  Qed.
  Lemma k_run_iter A id (m : M (iterative val) A) : (forall i, steps (EIter P i) (EIter P (snd (m i)))) -> keeps evo (run_iter P id m).
  Proof.
    intros H w. unfold run_iter, at_em. destruct (get_em id w) as [e|] eqn:Ee; [|apply evo_refl]. destruct e; try apply evo_refl.
    specialize (H i). destruct (m i). eapply evo_put; [exact Ee | exact H].
  Qed.
  Lemma same_option A B (f : A -> B) o : o = None <-> option_map f o = None.
  Proof. destruct o; split; (reflexivity || discriminate). Qed.
  Lemma k_run_user A id (m : uclass P -> M (val * pR P) A) :
    (forall c own g nd nd', (nd = None <-> nd' = None) -> steps (EUser P c own nd) (EUser P c (fst (snd (m c (own, g)))) nd')) ->
    keeps evo (run_user P id m).
  Proof.
    intros H w. unfold run_user, at_em. destruct (get_em id w) as [e|] eqn:Ee; [|apply evo_refl]. destruct e; try apply evo_refl.
    match goal with |- context [m c (own, ?g)] => specialize (H c own g nd); destruct (m c (own, g)) as [r [own' rg]] end.
    eapply evo_put; [exact Ee | apply H, same_option].
  Qed.
  Lemma k_run_seq A id (m : M (sequential val) A) : (forall b i, steps (ESeq P b i) (ESeq P b (snd (m i)))) -> keeps evo (run_seq P id m).
  Proof.
    intros H w. unfold run_seq, at_em. destruct (get_em id w) as [e|] eqn:Ee; [|apply evo_refl]. destruct e; try apply evo_refl.
    specialize (H islist s). destruct (m s). eapply evo_put; [exact Ee | exact H].
  Qed.
  Lemma k_run_choice A id (m : M (@choice P val) A) : (forall b c, steps (EChoice P b c) (EChoice P b (snd (m c)))) -> keeps evo (run_choice P id m).
  Proof.
    intros H w. unfold run_choice, at_em. destruct (get_em id w) as [e|] eqn:Ee; [|apply evo_refl]. destruct e; try apply evo_refl.
    specialize (H islist c). destruct (m c). eapply evo_put; [exact Ee | exact H].
  Qed.

  Lemma r_seed_children w0 s kids : rel w0 (seed_children P s kids) (seed_children P s kids).
  Proof.
    apply rel_setattr; [intros o _ s1 s2 [<- _]; reflexivity|]. intros o _. apply rel_same, k_set_seed.
  Qed.
  Lemma r_reset_children w0 (r : nat -> M world unit) kids : (forall k, rel w0 (r k) (r k)) ->
    rel w0 (reset_children P r kids) (reset_children P r kids).
  Proof. intros H. apply rel_do_method. intros o _ s1 s2 _. apply H. Qed.
  Lemma r_mixin_reset w0 (r : nat -> M world unit) own s kids : (forall k, rel w0 (r k) (r k)) -> rel w0 own own ->
    rel w0 (mixin_reset P r own s kids) (mixin_reset P r own s kids).
  Proof.
    intros H Ho. unfold mixin_reset. apply rel_bind; [apply r_seed_children|]. intros _.
    apply rel_bind; [exact Ho|]. intros _. apply r_reset_children. exact H.
  Qed.
  Lemma r_use w0 id : rel w0 (fun w => (Ok tt, use_entropy P id w)) (fun w => (Ok tt, use_entropy P id w)).
  Proof. apply rel_same. intros w. apply evo_use. Qed.

  Lemma r_reset w0 d : forall id, rel w0 (ereset P fuel d id) (ereset P fuel d id).
  Proof.
    induction d as [|d IH]; intros id; cbn [ereset]; [apply rel_diverge|].
    apply e_at. intros w e Ew Ee. destruct e; try apply rel_ret.
    - apply rel_same, k_run_iter. intros j. apply one_step, own_iter_reset.
    - apply rel_same, k_run_seq. intros b j. apply one_step, own_seq_reset.
    - apply rel_same. intros w1. apply keeps_bind; [exact evo_refl | exact evo_trans | | intros _ w2; apply evo_use].
      apply k_run_choice. intros b c1. apply one_step.
      apply (own_choice_seed P fuel b ChoiceRun.Reset (em_entropy id (ent_of P id w1)) c1). left. reflexivity.
    - assert (N : nochoice w0 id) by (eapply later_nochoice; [exact Ew | exact Ee | reflexivity]).
      apply rel_bind; [apply r_mixin_reset; [exact IH | apply e_reset_rng; exact N]|]. intros _.
      apply rel_bind; [apply r_seed_children|]. intros _. apply r_reset_children. exact IH.
    - assert (N : nochoice w0 id) by (eapply later_nochoice; [exact Ew | exact Ee | reflexivity]).
      apply rel_bind; [apply r_mixin_reset; [exact IH | apply e_reset_rng; exact N]|]. intros _.
      apply rel_bind; [apply r_seed_children|]. intros _. apply r_reset_children. exact IH.
    - assert (N : nochoice w0 id) by (eapply later_nochoice; [exact Ew | exact Ee | reflexivity]).
      apply r_mixin_reset; [exact IH | apply e_reset_rng; exact N].
    - assert (N : nochoice w0 id) by (eapply later_nochoice; [exact Ew | exact Ee | reflexivity]).
      apply r_mixin_reset; [exact IH | apply e_reset_rng; exact N].
    - apply e_reset_rng. eapply later_nochoice; [exact Ew | exact Ee | reflexivity].
    - apply rel_bind.
      + destruct nd; [|apply rel_ret]. apply e_reset_rng. eapply later_nochoice; [exact Ew | exact Ee | reflexivity].
      + intros _. apply rel_same, k_run_user. intros c0 o g nd0 nd' Hn.
        eapply steps_trans; apply one_step; [apply own_user_reset | apply own_user_rng; exact Hn].
  Qed.

  Lemma r_seed_all w0 (r : nat -> M world unit) kids : (forall k, rel w0 (r k) (r k)) ->
    rel w0 (seed_all P r kids) (seed_all P r kids).
  Proof. intros H. apply rel_do_method. intros o _ s1 s2 [<- _]. destruct (has_seed P o s1); [apply H | exact I]. Qed.
  Lemma r_mixin_seed w0 (r : nat -> M world unit) own kids : (forall k, rel w0 (r k) (r k)) -> rel w0 own own ->
    rel w0 (mixin_seed P r own kids) (mixin_seed P r own kids).
  Proof.
    intros H Ho. unfold mixin_seed. apply rel_bind; [apply r_seed_all; exact H|]. intros _. apply rel_catch. exact Ho.
  Qed.
  Lemma r_seed w0 d s : forall id, rel w0 (eseed P fuel d s id) (eseed P fuel d s id).
  Proof.
    induction d as [|d IH]; intros id; cbn [eseed]; [apply rel_diverge|].
    apply e_at. intros w e Ew Ee. destruct e; try apply rel_raise.
    - apply rel_same. intros w1. apply keeps_bind; [exact evo_refl | exact evo_trans | | intros _ w2; apply evo_use].
      apply k_run_choice. intros b c1. apply one_step.
      apply (own_choice_seed P fuel b (ChoiceRun.Seed s) (em_entropy id (ent_of P id w1)) c1). right. exists s. left. reflexivity.
    - assert (N : nochoice w0 id) by (eapply later_nochoice; [exact Ew | exact Ee | reflexivity]).
      apply rel_bind; [apply r_mixin_seed; [exact IH | apply e_seed_own; exact N]|]. intros _. apply r_seed_all. exact IH.
    - assert (N : nochoice w0 id) by (eapply later_nochoice; [exact Ew | exact Ee | reflexivity]).
      apply rel_bind; [apply r_mixin_seed; [exact IH | apply e_seed_own; exact N]|]. intros _. apply r_seed_all. exact IH.
    - apply r_mixin_seed; [exact IH | apply e_seed_own]. eapply later_nochoice; [exact Ew | exact Ee | reflexivity].
    - apply r_mixin_seed; [exact IH | apply e_seed_own]. eapply later_nochoice; [exact Ew | exact Ee | reflexivity].
    - apply e_seed_own. eapply later_nochoice; [exact Ew | exact Ee | reflexivity].
    - destruct nd; [|apply rel_raise]. apply e_seed_own. eapply later_nochoice; [exact Ew | exact Ee | reflexivity].
  Qed.

  Lemma snd_ret1 S A (m : M S A) s : snd ((a <~ m ;; ret [a]) s) = snd (m s).
  Proof. unfold mbind, ret. destruct (m s) as [[] ?]; reflexivity. Qed.

  Lemma r_emits w0 d :
    (forall id, rel w0 (fst (emits P fuel str_of d) id) (fst (emits P fuel str_of d) id)) /\
    (forall id n, rel w0 (snd (emits P fuel str_of d) id n) (snd (emits P fuel str_of d) id n)).
  Proof.
    induction d as [|d [IH1 IH2]]; [split; intros; apply rel_diverge|].
    assert (IHn : forall id n, rel w0 (call_number (fst (emits P fuel str_of d) id) (snd (emits P fuel str_of d) id) n)
                                      (call_number (fst (emits P fuel str_of d) id) (snd (emits P fuel str_of d) id) n)).
    { intros id n. apply rel_call_number; auto. }
    assert (Srcs : forall srcs : list (string * nat), Forall2 (srel (since evo w0))
         (map (fun ks => (fst ks, (fst (emits P fuel str_of d) (snd ks),
                call_number (fst (emits P fuel str_of d) (snd ks)) (snd (emits P fuel str_of d) (snd ks))))) srcs)
         (map (fun ks => (fst ks, (fst (emits P fuel str_of d) (snd ks),
                call_number (fst (emits P fuel str_of d) (snd ks)) (snd (emits P fuel str_of d) (snd ks))))) srcs)).
    { induction srcs as [|[k i] t IHt]; cbn [map]; constructor; [|exact IHt]. split; [reflexivity|]. cbn. auto. }
    assert (Src1 : forall fs s1 s2, since evo w0 s1 s2 -> based_source P fs s1 = based_source P fs s2) by (intros fs s1 s2 [<- _]; reflexivity).
    split; intros id; [|intros n]; cbn [emits fst snd].
    - apply e_at. intros w e Ew Ee. destruct e.
      + apply rel_lift.
      + apply rel_same, k_run_iter. intros j. apply one_step, own_iter_emit.
      + apply rel_same, k_run_seq. intros b j. apply one_step, own_seq_emit.
      + apply rel_same, k_run_choice. intros b c1. apply one_step.
        rewrite <- (snd_ret1 _ _ (choice_emit P val_setsize fuel) c1). apply (own_choice_ask P fuel b ChoiceRun.Emit c1).
      + apply rel_word_emit; auto.
      + apply rel_text_emit; auto; [apply r_reset|]. intros s1 s2 [<- _]. reflexivity.
      + apply rel_wrapone_emit; auto. apply e_bound. eapply later_nochoice; [exact Ew | exact Ee | reflexivity].
      + apply rel_wrapmany_emit; auto. apply e_bound. eapply later_nochoice; [exact Ew | exact Ee | reflexivity].
      + apply rel_pure. intros s1 s2 [<- _]. reflexivity.
      + apply rel_based_emit; [apply Src1|]. apply e_bound. eapply later_nochoice; [exact Ew | exact Ee | reflexivity].
      + apply rel_same, k_run_user. intros c0 o g nd0 nd' Hn. apply one_step, own_user_emit, Hn.
    - apply e_at. intros w e Ew Ee. destruct e.
      + apply rel_lift.
      + apply rel_same, k_run_iter. intros j. apply one_step, own_iter_many.
      + apply rel_same, k_run_seq. intros b j. apply one_step, own_seq_many.
      + apply rel_same, k_run_choice. intros b c1. apply one_step. apply (own_choice_ask P fuel b (EmitMany n) c1).
      + apply rel_word_emit_many; auto.
      + apply rel_text_emit_many; auto; [apply r_reset|]. intros s1 s2 [<- _]. reflexivity.
      + apply rel_wrapone_emit_many; auto. apply e_bound. eapply later_nochoice; [exact Ew | exact Ee | reflexivity].
      + apply rel_wrapmany_emit_many; auto. apply e_bound. eapply later_nochoice; [exact Ew | exact Ee | reflexivity].
      + apply rel_repeat_emit, rel_pure. intros s1 s2 [<- _]. reflexivity.
      + apply rel_repeat_emit, rel_based_emit; [apply Src1|]. apply e_bound. eapply later_nochoice; [exact Ew | exact Ee | reflexivity].
      + apply rel_same, k_run_user. intros c0 o g nd0 nd' Hn. apply one_step, own_user_many, Hn.
  Qed.
  Lemma r_call w0 id : rel w0 (em_call P fuel str_of id) (em_call P fuel str_of id).
  Proof. apply r_emits. Qed.
  Lemma r_call_n w0 id n : rel w0 (em_call_n P fuel str_of id n) (em_call_n P fuel str_of id n).
  Proof. apply rel_call_number; apply r_emits. Qed.

  (** Fields and schemas *)
  Lemma k_modify_fd f g : keeps evo (modify_fd P f g).
  Proof. intros w. unfold modify_fd, at_fd. destruct (get_fd f w); [apply evo_fd | apply evo_refl]. Qed.
  Lemma r_at_fd w0 A f (k : field P -> M world A) : (forall x, rel w0 (k x) (k x)) -> rel w0 (at_fd P f k) (at_fd P f k).
  Proof.
    intros H s1 s2 [<- E]. unfold at_fd. destruct (get_fd f s1) as [x|]; [apply H|]; [split; auto | split; [reflexivity | split; auto]].
  Qed.
  Lemma r_fd_call w0 f : rel w0 (fd_call P fuel str_of f) (fd_call P fuel str_of f).
  Proof.
    apply r_at_fd. intros x. apply rel_field_call; try apply r_call; [intros; apply r_call_n|].
    intros v. apply rel_same, k_modify_fd.
  Qed.
  Lemma r_fd_reset w0 f : rel w0 (fd_reset P fuel f) (fd_reset P fuel f).
  Proof.
    apply r_at_fd. intros x. apply rel_bind; [apply r_mixin_reset|].
    - intros k. apply r_reset.
    - apply rel_same, k_modify_fd.
    - intros _. apply rel_same, k_modify_fd.
  Qed.
  Lemma r_fd_seed w0 f s : rel w0 (fd_seed P fuel f s) (fd_seed P fuel f s).
  Proof.
    apply r_at_fd. intros x. apply r_mixin_seed; [intros k; apply r_seed | apply rel_same, k_modify_fd].
  Qed.

  Lemma after_keeps A (m : M world A) : (forall w0, rel w0 m m) -> keeps evo m.
  Proof. apply rel_keeps. exact evo_refl. Qed.

  Theorem run_evo o w : evo w (snd (run P fuel str_of o w)).
  Proof.
    assert (Fin : forall A B (m : M world A) (k : A -> B), (forall w0, rel w0 m m) -> evo w (snd ((a <~ m ;; ret (k a)) w))).
    { intros A B m k H. apply after_keeps. intros w0. apply rel_bind; [apply H | intros; apply rel_ret]. }
    destruct o; cbn [run]; apply Fin; intros w0.
    - apply r_call.
    - apply r_call_n.
    - apply r_reset.
    - apply r_seed.
    - apply rel_same, k_set_seed.
    - apply r_fd_call.
    - apply r_fd_reset.
    - apply r_fd_seed.
    - apply rel_same, k_modify_fd.
    - apply rel_schema_loop; [intros nf _ s1 s2 [<- _]; reflexivity | intros; apply r_fd_call].
    - apply rel_do_method. intros o _ s1 s2 _. apply r_fd_reset.
    - apply rel_do_method. intros o _ s1 s2 _. apply r_fd_seed.
  Qed.
End Own.

Section Kept.
  Context {P : prims} (fuel : nat) (str_of : val -> res (list Z)).
  Notation world := (World.world P).
  Notation emitter := (World.emitter P).
  Notation get_em := (World.get_em P).
  Notation get_fd := (World.get_fd P).
  Notation settings_at := (ObjectSpec.settings_at P).
  Notation field_settings_at := (ObjectSpec.field_settings_at P).

  (** All settings are as before, except for the emitters in [D] and the fields in [F]. *)
  Definition kept (D F : nat -> Prop) (w w' : world) : Prop :=
    (forall i st, ~ D i -> settings_at i w = Some st -> settings_at i w' = Some st) /\
    (forall f x, ~ F f -> field_settings_at f w = Some x -> field_settings_at f w' = Some x).
  Definition none (_ : nat) : Prop := False.
  Lemma kept_refl D F w : kept D F w w.
  Proof. split; auto. Qed.
  Lemma kept_trans D F a b c : kept D F a b -> kept D F b c -> kept D F a c.
  Proof. intros [H1 H2] [H3 H4]. split; auto. Qed.
  Lemma kept_more (D F D' F' : nat -> Prop) w w' : kept D F w w' -> (forall i, D i -> D' i) -> (forall f, F f -> F' f) -> kept D' F' w w'.
  Proof. intros [H1 H2] HD HF. split; intros; [apply H1 | apply H2]; auto. Qed.

  Lemma conf_settings (e e' : emitter) : conf e e' -> settings_of P e = settings_of P e'.
  Proof.
    destruct e, e'; cbn; try contradiction.
    - intros ->; reflexivity.
    - intros [-> ->]; reflexivity.
    - intros (-> & -> & -> & -> & ->); reflexivity.
    - intros (-> & -> & -> & -> & -> & -> & _); reflexivity.
    - intros [-> ->]; reflexivity.
    - intros (-> & -> & ->); reflexivity.
    - intros [-> ->]; reflexivity.
    - intros [-> ->]; reflexivity.
    - intros (-> & -> & ->); reflexivity.
    - intros (-> & -> & ->); reflexivity.
    - intros [-> Hn]. destruct nd, nd0; try discriminate Hn; reflexivity.
  Qed.
  Lemma wconf_kept D F w w' : wconf w w' -> kept D F w w'.
  Proof.
    intros [H1 H2]. split.
    - intros i st _. unfold ObjectSpec.settings_at. specialize (H1 i).
      destruct (get_em i w) as [e|], (get_em i w') as [e'|]; cbn in *; try contradiction; try discriminate.
      rewrite (conf_settings _ _ H1). auto.
    - intros f x _. unfold ObjectSpec.field_settings_at. specialize (H2 f).
      destruct (get_fd f w) as [e|], (get_fd f w') as [e'|]; cbn in *; try contradiction; try discriminate.
      destruct H2 as (-> & -> & -> & -> & ->). auto.
  Qed.

  Section Fix.
    Context (D F : nat -> Prop).
    Notation kk := (keeps (kept D F)).
    Lemma kk_bind A B (m : M world A) (k : A -> M world B) : kk m -> (forall a, kk (k a)) -> kk (mbind m k).
    Proof. apply keeps_bind; [apply kept_refl | apply kept_trans]. Qed.
    Lemma kk_ret A (a : A) : kk (ret a).
    Proof. intros w. apply kept_refl. Qed.
    Lemma kk_lift A (r : res A) : kk (lift r).
    Proof. intros w. apply kept_refl. Qed.
    Lemma kk_raise A e : kk (@raise world A e).
    Proof. intros w. apply kept_refl. Qed.
    Lemma kk_run A (o : op P) (m : M world A) (k : A -> answer) :
      run P fuel str_of o = (fun w => (a <~ m ;; ret (k a)) w) -> kk m.
    Proof.
      intros E w. pose proof (run_conf fuel str_of w o) as C. rewrite E in C. apply wconf_kept.
      unfold mbind, ret in C. destruct (m w) as [[]]; exact C.
    Qed.
    Lemma kk_call i : kk (em_call P fuel str_of i).
    Proof. eapply (kk_run _ (Emit P i)). reflexivity. Qed.
    Lemma kk_call_n i n : kk (em_call_n P fuel str_of i n).
    Proof. eapply (kk_run _ (EmitN P i n)). reflexivity. Qed.
    Lemma kk_reset i : kk (em_reset P fuel i).
    Proof. eapply (kk_run _ (ResetEm P i)). reflexivity. Qed.
    Lemma kk_fd_call f : kk (fd_call P fuel str_of f).
    Proof. eapply (kk_run _ (Call P f)). reflexivity. Qed.
    Lemma kk_fd_reset f : kk (fd_reset P fuel f).
    Proof. eapply (kk_run _ (WorldSpec.Reset P f)). reflexivity. Qed.
    Lemma kk_fd_seed f s : kk (fd_seed P fuel f s).
    Proof. eapply (kk_run _ (WorldSpec.Seed P f s)). reflexivity. Qed.

    Lemma kept_put i e e' (w : world) : get_em i w = Some e -> D i \/ settings_of P e = settings_of P e' -> kept D F w (put_em P i e' w).
    Proof.
      intros E H. split.
      - intros j st N. unfold ObjectSpec.settings_at. destruct (Nat.eq_dec j i) as [->|Ne].
        + rewrite (get_put_same _ _ _ _ E), E. cbn. destruct H as [H|<-]; [contradiction | auto].
        + rewrite get_put_other by exact Ne. auto.
      - intros f x _. unfold ObjectSpec.field_settings_at, World.get_fd, put_em. destruct (nth_error (w_em P w) i); auto.
    Qed.
    Lemma kk_at A i (k : emitter -> M world A) : (forall e w, get_em i w = Some e -> kept D F w (snd (k e w))) -> kk (at_em P i k).
    Proof. intros H w. unfold at_em. destruct (get_em i w) as [e|] eqn:E; [apply H; exact E | apply kept_refl]. Qed.
    Lemma kk_modify i f : D i \/ (forall e, settings_of P e = settings_of P (f e)) -> kk (modify_em P i f).
    Proof. intros H. apply kk_at. intros e w E. cbn [snd]. eapply kept_put; [exact E|]. destruct H; auto. Qed.
    Lemma kk_run_rng A i (m : M (pR P) A) : kk (run_rng P i m).
    Proof.
      apply kk_at. intros e w E. destruct (node_of P e) as [nd|] eqn:En; [|apply kept_refl].
      destruct (m (n_rng P nd)). eapply kept_put; [exact E|]. right. symmetry. apply conf_settings, conf_sym, conf_node.
    Qed.
    Lemma kk_run_iter A i (m : M (iterative val) A) : D i -> kk (run_iter P i m).
    Proof. intros Hi. apply kk_at. intros e w E. destruct e; try apply kept_refl. destruct (m i0). eapply kept_put; eauto. Qed.
    Lemma kk_run_seq A i (m : M (sequential val) A) : D i -> kk (run_seq P i m).
    Proof. intros Hi. apply kk_at. intros e w E. destruct e; try apply kept_refl. destruct (m s). eapply kept_put; eauto. Qed.
    Lemma kk_run_choice A i (m : M (@choice P val) A) : D i -> kk (run_choice P i m).
    Proof. intros Hi. apply kk_at. intros e w E. destruct e; try apply kept_refl. destruct (m c). eapply kept_put; eauto. Qed.
    Lemma bound_kept (s0 : world) i f : urel (since (kept D F) s0) (bound P i f) (bound P i f).
    Proof.
      split; [reflexivity|]. split; intros args kw; apply keeps_rel; try apply kept_trans; [apply kk_lift | apply kk_run_rng].
    Qed.
    Lemma kk_do_method O (meth : O -> world -> option (M world unit)) objs :
      (forall o w m, meth o w = Some m -> kk m) -> kk (group_do_method meth objs).
    Proof.
      intros H. apply rel_keeps; [apply kept_refl|]. intros s0. apply rel_do_method. intros o _ s1 s2 [<- _].
      destruct (meth o s1) eqn:E; [|exact I]. apply keeps_rel; [apply kept_trans | eapply H; exact E].
    Qed.

    Lemma kk_sources (s0 : world) (srcs : list (string * nat)) :
      let l := map (fun ks => (fst ks, (em_call P fuel str_of (snd ks), em_call_n P fuel str_of (snd ks)))) srcs in
      Forall2 (srel (since (kept D F) s0)) l l.
    Proof.
      induction srcs as [|[k j] t IH]; cbn [map]; constructor; [|exact IH].
      split; [reflexivity|]. cbn. split; [apply keeps_rel; [apply kept_trans | apply kk_call]|].
      intros n. apply keeps_rel; [apply kept_trans | apply kk_call_n].
    Qed.
    Lemma kk_set_function i f : D i -> kk (set_function P fuel str_of i f).
    Proof.
      intros Hi.
      assert (Inst : kk (install P i f)) by (apply kk_modify; left; exact Hi).
      unfold set_function. apply kk_at. intros e w _. revert w. change (kk (match e with
        | EWrapOne _ src _ _ => wrapone_set (em_call P fuel str_of src) (fun _ => install P i f) (em_reset P fuel i) (bound P i f)
        | EWrapMany _ srcs _ _ => wrapmany_set (map (fun ks => (fst ks, (em_call P fuel str_of (snd ks), em_call_n P fuel str_of (snd ks)))) srcs)
            (fun _ => install P i f) (em_reset P fuel i) (bound P i f)
        | EBased _ _ fs _ _ => fun w => based_set (map (fun x => (name_of P x w, fd_call P fuel str_of x)) fs)
            (fun _ => install P i f) (em_reset P fuel i) (bound P i f) w
        | _ => raise AttributeError end)).
      destruct e; try apply kk_raise.
      - apply rel_keeps; [apply kept_refl|]. intros s0. apply rel_wrapone_set; try (apply keeps_rel; [apply kept_trans|]);
          auto using kk_call, kk_reset, bound_kept.
      - apply rel_keeps; [apply kept_refl|]. intros s0. apply rel_wrapmany_set; try (apply keeps_rel; [apply kept_trans|]);
          auto using kk_reset, bound_kept, kk_sources.
      - intros w0.
        assert (K : kk (based_set (map (fun x => (name_of P x w0, fd_call P fuel str_of x)) source)
              (fun _ => install P i f) (em_reset P fuel i) (bound P i f))); [|apply K].
        apply rel_keeps; [apply kept_refl|]. intros s0. apply rel_based_set; try (apply keeps_rel; [apply kept_trans|]);
          auto using kk_reset, bound_kept.
        induction source as [|j t IH]; cbn [map]; constructor; [|exact IH].
        split; [reflexivity|]. cbn. apply keeps_rel; [apply kept_trans | apply kk_fd_call].
    Qed.
    Lemma kk_em_set i s : D i -> kk (em_set P fuel i s).
    Proof.
      intros Hi. unfold em_set. apply kk_at. intros e w _. revert w.
      destruct e, s; try (match goal with c : choice_setting P |- _ => destruct c end);
        try (intros ?; apply kept_refl); try (apply kk_run_iter, Hi); try (apply kk_run_seq, Hi); try (apply kk_run_choice, Hi).
      - apply kk_modify. auto.
      - apply kk_bind; [apply kk_run_seq, Hi|]. intros _. apply kk_modify. auto.
    Qed.

    Lemma kept_put_fd f x x' (w : world) : get_fd f w = Some x ->
      F f \/ (f_name P x = f_name P x' /\ f_hide P x = f_hide P x' /\ f_em P x = f_em P x' /\ f_rep P x = f_rep P x' /\ f_gate P x = f_gate P x') ->
      kept D F w (put_fd P f x' w).
    Proof.
      intros E H. split; [auto|]. intros g y N. unfold ObjectSpec.field_settings_at, World.get_fd in *. cbn [put_fd w_fd].
      destruct (Nat.eq_dec f g) as [<-|Ne].
      - rewrite (nth_upd_same _ _ _ _ _ E), E. cbn. destruct H as [H|(-> & -> & -> & -> & ->)]; [contradiction | auto].
      - rewrite nth_upd_other by exact Ne. auto.
    Qed.
    Lemma kk_modify_fd f g : F f -> kk (modify_fd P f g).
    Proof.
      intros Hf w. unfold modify_fd, at_fd. destruct (get_fd f w) as [x|] eqn:E; [|apply kept_refl]. cbn [snd].
      eapply kept_put_fd; eauto.
    Qed.
  End Fix.

  (** Creation *)
  Lemma settings_lt i (w : world) st : settings_at i w = Some st -> (i < length (w_em P w))%nat.
  Proof.
    unfold ObjectSpec.settings_at, World.get_em. destruct (nth_error (w_em P w) i) eqn:E; [|discriminate]. intros _.
    apply nth_error_Some. congruence.
  Qed.
  Lemma kept_alloc D F e w : kept D F w (snd (alloc_em P e w)).
  Proof.
    split; [|auto]. intros i st _ H. pose proof (settings_lt _ _ _ H) as L. unfold ObjectSpec.settings_at in *.
    unfold alloc_em. cbn [snd]. rewrite get_em_app. destruct (Nat.eqb_spec i (length (w_em P w))); [lia | exact H].
  Qed.
  Lemma kept_alloc_fd D F x w : kept D F w (snd (alloc_fd P x w)).
  Proof.
    split; [auto|]. intros f y _. unfold ObjectSpec.field_settings_at, World.get_fd, alloc_fd. cbn [snd w_fd].
    destruct (nth_error (w_fd P w) f) as [x0|] eqn:E; [|discriminate]. rewrite nth_error_app1 by (apply nth_error_Some; congruence).
    rewrite E. auto.
  Qed.
  Lemma kept_opt_static (o : option nat) v w : kept none none w (snd ((match o with Some i => ret i | None => new_static P v end) w)).
  Proof. destruct o; [apply kept_refl | apply kept_alloc]. Qed.

  (** After making an emitter, only this emitter is changed. *)
  Lemma kept_new A e (k : nat -> M world A) w :
    (forall i, keeps (kept (eq i) none) (k i)) -> kept none none w (snd ((i <~ alloc_em P e ;; k i) w)).
  Proof.
    intros H. unfold mbind. pose proof (kept_alloc none none e w) as [Q1 Q2]. unfold alloc_em in *. cbn [snd] in Q1, Q2.
    specialize (H (length (w_em P w)) (mkWorld P (w_em P w ++ [mkObj P e (w_run P w)]) (w_fd P w) (w_run P w))).
    destruct H as [H1 H2]. split; [|auto]. intros i st N E. apply H1; [|auto]. intros <-. apply settings_lt in E. lia.
  Qed.

  Theorem exec_kept c w : kept (fun i => assigns_to P i c) (fun f => assigns_to_field P f c) w (snd (exec P fuel str_of c w)).
  Proof.
    assert (Fin : forall A D F (m : M world A), kept D F w (snd (m w)) -> kept D F w (snd ((m ;;; ret tt) w))).
    { intros A D F m. unfold mbind, ret. destruct (m w) as [[]]; exact (fun H => H). }
    assert (New : forall A D F (m : M world A), kept none none w (snd (m w)) -> kept D F w (snd ((m ;;; ret tt) w))).
    { intros A D F m H. apply Fin. eapply kept_more; [exact H | intros ? [] | intros ? []]. }
    destruct c; cbn [exec].
    - apply New, kept_alloc.
    - apply New. unfold new_iter, mbind, lift. destruct (iter_new f rac); [|apply kept_refl|apply kept_refl]. apply kept_alloc.
    - apply New. unfold new_seq, mbind, lift. destruct (seq_new items rac); [|apply kept_refl|apply kept_refl]. apply kept_alloc.
    - apply New. unfold new_choice, mbind at 1, lift. destruct (choice_new _ _ _ _ _ _ _ _ _); [|apply kept_refl|apply kept_refl].
      apply kept_new. intros i. apply kk_bind; [|intros; apply kk_ret].
      intros w'. cbn [snd]. split; [|intros f x _; unfold ObjectSpec.field_settings_at, World.get_fd, use_entropy; destruct (nth_error (w_em P w') i); auto].
      intros j st _. unfold ObjectSpec.settings_at. rewrite get_use. auto.
    - apply New, kept_new. intros i. apply kk_bind; [apply kk_reset|]. intros _.
      apply kk_bind; [intros w'; apply kept_refl|]. intros u. apply kk_bind; [apply kk_modify; auto | intros; apply kk_ret].
    - apply New. unfold new_text.
      assert (Q := kept_opt_static sep_em (VStr [32]) w). unfold mbind at 1.
      destruct ((match sep_em with Some i => ret i | None => new_static P (VStr [32]) end) w) as [[sp|e|] w1] eqn:Es; [|exact Q|exact Q].
      eapply kept_trans; [exact Q|]. apply kept_new. intros i. apply kk_bind; [apply kk_reset|]. intros _.
      apply kk_bind; [intros w'; apply kept_refl|]. intros u. apply kk_bind; [apply kk_modify; auto | intros; apply kk_ret].
    - apply New, kept_new. intros i. apply kk_bind; [apply kk_reset|]. intros _. apply kk_bind; [apply kk_set_function; reflexivity | intros; apply kk_ret].
    - apply New, kept_new. intros i. apply kk_bind; [apply kk_reset|]. intros _. apply kk_bind; [apply kk_set_function; reflexivity | intros; apply kk_ret].
    - apply New, kept_alloc.
    - apply New, kept_new. intros i. apply kk_bind; [apply kk_reset|]. intros _. apply kk_bind; [apply kk_set_function; reflexivity | intros; apply kk_ret].
    - apply New. unfold new_field.
      assert (Q := kept_opt_static rep VNone w). unfold mbind at 1.
      destruct ((match rep with Some i => ret i | None => new_static P VNone end) w) as [[r|e|] w1] eqn:Es; [|exact Q|exact Q].
      eapply kept_trans; [exact Q|]. cbn [snd].
      assert (Q1 := kept_opt_static gate (VBool true) w1). unfold mbind at 1.
      destruct ((match gate with Some i => ret i | None => new_static P (VBool true) end) w1) as [[g|e|] w2] eqn:Eg; [|exact Q1|exact Q1].
      eapply kept_trans; [exact Q1|]. cbn [snd]. unfold mbind at 1.
      pose proof (kept_alloc_fd none none (mkField P name hide em r g (new_node P seed) VNone 0) w2) as Q2.
      unfold alloc_fd in *. cbn [snd] in Q2. eapply kept_trans; [exact Q2|].
      apply (kk_bind none none); [apply kk_fd_reset | intros; apply kk_ret].
    - apply kk_em_set. reflexivity.
    - apply kk_set_function. reflexivity.
    - apply kk_modify_fd. reflexivity.
    - apply kk_modify_fd. reflexivity.
    - unfold em_reset_source. apply kk_at. intros e w' _. revert w'.
      destruct e; try (intros ?; apply kept_refl); apply kk_do_method; intros o w' m [= <-]; apply kk_fd_reset.
    - unfold em_seed_source. apply kk_at. intros e w' _. revert w'.
      destruct e; try (intros ?; apply kept_refl); apply kk_do_method; intros o w' m [= <-]; apply kk_fd_seed.
    - apply kk_at. intros e w' E. destruct e; try apply kept_refl; (eapply kept_put; [exact E | left; reflexivity]).
    - apply kk_at. intros e w' E. destruct e; try apply kept_refl; (eapply kept_put; [exact E | left; reflexivity]).
    - apply Fin, wconf_kept, run_conf.
    - apply New, kept_new. intros i. apply kk_bind; [destruct random; [apply kk_reset | apply kk_ret] | intros; apply kk_ret].
  Qed.
End Kept.

(** ** Objects are as if used on their own *)
Section Alone.
  Context {P : prims} (fuel : nat) (str_of : val -> res (list Z)).
  Notation world := (World.world P).
  Notation emitter := (World.emitter P).
  Notation get_em := (World.get_em P).
  Notation alone := (as_if_alone P fuel).

  Lemma frun_app A S (em : M S A) em_n (rs : S -> S) rac ops1 : forall ops2 s,
    snd (frun em em_n rs rac (ops1 ++ ops2) s) = snd (frun em em_n rs rac ops2 (snd (frun em em_n rs rac ops1 s))).
  Proof.
    induction ops1 as [|o t IH]; intros ops2 s; [reflexivity|]. cbn [app frun].
    destruct (match o with FAsk q => _ | FReset => _ | FResetAfterCall b => _ end) as [vs s1].
    specialize (IH ops2 s1). destruct (frun em em_n rs rac (t ++ ops2) s1), (frun em em_n rs rac t s1). exact IH.
  Qed.
  Lemma frun_one A S (em : M S A) em_n (rs : S -> S) rac s :
    (forall q, snd (frun em em_n rs rac [FAsk q] s) = snd (ask_with em em_n q s)) /\
    snd (frun em em_n rs rac [FReset] s) = rs s /\
    (forall b, snd (frun em em_n rs rac [FResetAfterCall b] s) = rac b s).
  Proof.
    split; [|split]; intros; cbn [frun]; auto. destruct (ask_with em em_n q s) as [[] ?]; reflexivity.
  Qed.

  Lemma step_alone e e' : own_step P fuel e e' -> alone e -> alone e'.
  Proof.
    destruct 1; try exact (fun H => H); cbn [as_if_alone].
    - intros (its & rac & i0 & ops & E & ->). exists its, rac, i0, (ops ++ [FAsk ChoiceRun.Emit]). split; [exact E|].
      unfold iter_ops. rewrite frun_app. rewrite (proj1 (frun_one _ _ _ _ _ _ _)). symmetry. apply snd_ret1.
    - intros (its & rac & i0 & ops & E & ->). exists its, rac, i0, (ops ++ [FAsk (EmitMany n)]). split; [exact E|].
      unfold iter_ops. rewrite frun_app. rewrite (proj1 (frun_one _ _ _ _ _ _ _)). reflexivity.
    - intros (its & rac & i0 & ops & E & ->). exists its, rac, i0, (ops ++ [FReset]). split; [exact E|].
      unfold iter_ops. rewrite frun_app. rewrite (proj1 (proj2 (frun_one _ _ _ _ _ _ _))). reflexivity.
    - assert (Q : forall (s0 : sequential val) ops, snd (seq_emit fuel (snd (seq_ops fuel ops s0))) = snd (seq_ops fuel (ops ++ [FAsk ChoiceRun.Emit]) s0)).
      { intros s0 ops. unfold seq_ops. rewrite frun_app, (proj1 (frun_one _ _ _ _ _ _ _)). symmetry. apply snd_ret1. }
      intros [(its & rac & i0 & ops & E & ->)|(its & rac & i0 & ops & E & ->)]; [left|right]; rewrite Q; eauto 6.
    - assert (Q : forall (s0 : sequential val) ops, snd (seq_emit_many fuel n (snd (seq_ops fuel ops s0))) = snd (seq_ops fuel (ops ++ [FAsk (EmitMany n)]) s0)).
      { intros s0 ops. unfold seq_ops. rewrite frun_app, (proj1 (frun_one _ _ _ _ _ _ _)). reflexivity. }
      intros [(its & rac & i0 & ops & E & ->)|(its & rac & i0 & ops & E & ->)]; [left|right]; rewrite Q; eauto 6.
    - assert (Q : forall (s0 : sequential val) ops, seq_reset (snd (seq_ops fuel ops s0)) = snd (seq_ops fuel (ops ++ [FReset]) s0)).
      { intros s0 ops. unfold seq_ops. rewrite frun_app, (proj1 (proj2 (frun_one _ _ _ _ _ _ _))). reflexivity. }
      intros [(its & rac & i0 & ops & E & ->)|(its & rac & i0 & ops & E & ->)]; [left|right]; rewrite Q; eauto 6.
    - intros (items & R). exists items. destruct (do_ask P val_setsize fuel q c) eqn:E. eapply RA_ask; eauto.
    - intros (items & R). exists items. destruct (do_setting P fuel o ent c) eqn:E. eapply RA_setting; eauto.
  Qed.
  Lemma steps_alone e e' : own_steps P fuel e e' -> alone e -> alone e'.
  Proof. induction 1; eauto using step_alone. Qed.

  Definition all_alone (w : world) : Prop := forall id e, get_em id w = Some e -> alone e.
  Definition still (w w' : world) : Prop := all_alone w -> all_alone w'.
  Lemma still_refl w : still w w.
  Proof. exact (fun H => H). Qed.
  Lemma still_trans a b c : still a b -> still b c -> still a c.
  Proof. unfold still. auto. Qed.
  Notation kl := (keeps still).
  Lemma kl_bind A B (m : M world A) (k : A -> M world B) : kl m -> (forall a, kl (k a)) -> kl (mbind m k).
  Proof. apply keeps_bind; [apply still_refl | apply still_trans]. Qed.
  Lemma kl_ret A (a : A) : kl (ret a).
  Proof. intros w. apply still_refl. Qed.
  Lemma kl_lift A (r : res A) : kl (lift r).
  Proof. intros w. apply still_refl. Qed.
  Lemma kl_raise A e : kl (@raise world A e).
  Proof. intros w. apply still_refl. Qed.
  Lemma evo_still w w' : evo fuel w w' -> still w w'.
  Proof.
    intros H A id e' E'. specialize (H id). rewrite E' in H. destruct (get_em id w) as [e|] eqn:E; [|contradiction].
    eapply steps_alone; [exact H | eauto].
  Qed.
  Lemma kl_evo A (m : M world A) : (forall w0, Rel.rel (since (evo fuel) w0) m m) -> kl m.
  Proof. intros H w. apply evo_still. apply after_keeps. exact H. Qed.
  Lemma still_put i e e' (w : world) : get_em i w = Some e -> (alone e -> alone e') -> still w (put_em P i e' w).
  Proof.
    intros E H A j x. destruct (Nat.eq_dec j i) as [->|N].
    - rewrite (get_put_same _ _ _ _ E). intros [= <-]. eauto.
    - rewrite get_put_other by exact N. apply A.
  Qed.
  Lemma still_alloc e w : alone e -> still w (snd (alloc_em P e w)).
  Proof.
    intros He A j x. unfold alloc_em. cbn [snd]. rewrite get_em_app. destruct (Nat.eqb j (length (w_em P w))); [intros [= <-]; exact He | apply A].
  Qed.
  Lemma kl_at A i (k : emitter -> M world A) : (forall e, kl (k e)) -> kl (at_em P i k).
  Proof. intros H w. unfold at_em. destruct (get_em i w); [apply H | apply still_refl]. Qed.
  Lemma kl_modify i f : (forall e, alone e -> alone (f e)) -> kl (modify_em P i f).
  Proof.
    intros H w. unfold modify_em, at_em. destruct (get_em i w) eqn:E; [|apply still_refl]. cbn [snd]. eapply still_put; eauto.
  Qed.
  Lemma kl_run_iter A i (m : M (iterative val) A) : (forall i, alone (EIter P i) -> alone (EIter P (snd (m i)))) -> kl (run_iter P i m).
  Proof.
    intros H w. unfold run_iter, at_em. destruct (get_em i w) as [e|] eqn:E; [|apply still_refl]. destruct e; try apply still_refl.
    specialize (H i0). destruct (m i0). eapply still_put; [exact E | exact H].
  Qed.
  Lemma kl_run_seq A i (m : M (sequential val) A) : (forall b s, alone (ESeq P b s) -> alone (ESeq P b (snd (m s)))) -> kl (run_seq P i m).
  Proof.
    intros H w. unfold run_seq, at_em. destruct (get_em i w) as [e|] eqn:E; [|apply still_refl]. destruct e; try apply still_refl.
    specialize (H islist s). destruct (m s). eapply still_put; [exact E | exact H].
  Qed.
  Lemma kl_run_choice A i (m : M (@choice P val) A) : (forall b s, alone (EChoice P b s) -> alone (EChoice P b (snd (m s)))) -> kl (run_choice P i m).
  Proof.
    intros H w. unfold run_choice, at_em. destruct (get_em i w) as [e|] eqn:E; [|apply still_refl]. destruct e; try apply still_refl.
    specialize (H islist c). destruct (m c). eapply still_put; [exact E | exact H].
  Qed.
  (** A rng consumed by a wrapper *)
  Lemma kl_run_rng A i (m : M (pR P) A) : (forall w e, all_alone w -> get_em i w = Some e -> is_choice e = false) -> kl (run_rng P i m).
  Proof.
    intros N w Aw. unfold run_rng, at_em. destruct (get_em i w) as [e|] eqn:E; [|exact Aw]. destruct (node_of P e); [|exact Aw].
    destruct (m (n_rng P n)). eapply still_put; [exact E | | exact Aw]. specialize (N w e Aw E).
    destruct e; cbn in *; try exact (fun H => H). discriminate.
  Qed.

  (** Assigning a function to a wrapper: [w1] is the world at the beginning. *)
  Definition both (w w' : world) : Prop := still w w' /\ forall i e, get_em i w = Some e -> is_choice e = false -> exists e', get_em i w' = Some e' /\ is_choice e' = false.
  Lemma both_refl w : both w w.
  Proof. split; [apply still_refl | eauto]. Qed.
  Lemma both_trans a b c : both a b -> both b c -> both a c.
  Proof.
    intros [H1 H2] [H3 H4]. split; [eapply still_trans; eauto|]. intros i e E N. destruct (H2 i e E N) as (e' & E' & N'). eauto.
  Qed.
  Lemma evo_both w w' : evo fuel w w' -> both w w'.
  Proof.
    intros H. split; [apply evo_still, H|]. intros i e E N. specialize (H i). rewrite E in H. destruct (get_em i w') as [e'|]; [|contradiction].
    exists e'. split; [reflexivity|]. rewrite <- (steps_kind fuel _ _ H). exact N.
  Qed.
  Lemma kb_evo A (m : M world A) : (forall w0, Rel.rel (since (evo fuel) w0) m m) -> keeps both m.
  Proof. intros H w. apply evo_both. apply after_keeps. exact H. Qed.
  Lemma both_put i e e' (w : world) : get_em i w = Some e -> (alone e -> alone e') -> is_choice e = is_choice e' -> both w (put_em P i e' w).
  Proof.
    intros E H K. split; [eapply still_put; eauto|]. intros j x Ex N. destruct (Nat.eq_dec j i) as [->|Ne].
    - rewrite (get_put_same _ _ _ _ E). exists e'. split; [reflexivity|]. congruence.
    - rewrite get_put_other by exact Ne. eauto.
  Qed.
  Lemma kb_install i f : keeps both (install P i f).
  Proof.
    intros w. unfold install, modify_em, at_em. destruct (get_em i w) as [e|] eqn:E; [|apply both_refl]. cbn [snd].
    eapply both_put; [exact E | |]; destruct e; try exact (fun H => H); reflexivity.
  Qed.
  Lemma bound_both w0 i f e0 : get_em i w0 = Some e0 -> is_choice e0 = false -> urel (since both w0) (bound P i f) (bound P i f).
  Proof.
    intros E0 N0. split; [reflexivity|]. split; intros args kw; [apply rel_lift|].
    intros s1 s2 [<- [B1 B2]]. split; [reflexivity|]. split; [reflexivity|]. eapply both_trans; [split; [exact B1 | exact B2]|].
    destruct (B2 i e0 E0 N0) as (e & E & N). cbn [u_body_rng bound]. unfold run_rng, at_em. rewrite E. destruct (node_of P e) as [nd|]; [|apply both_refl].
    destruct (wf_rng P f args kw (n_rng P nd)). eapply both_put; [exact E | |]; destruct e; cbn in *; try discriminate; try exact (fun H => H); reflexivity.
  Qed.
  Lemma both_rel w0 A (m : M world A) : keeps both m -> Rel.rel (since both w0) m m.
  Proof. intros H. apply keeps_rel; [exact both_trans | exact H]. Qed.

  Lemma still_set_function i f w : still w (snd (set_function P fuel str_of i f w)).
  Proof.
    unfold set_function, at_em. destruct (get_em i w) as [e|] eqn:E; [|apply still_refl].
    assert (Call : forall w0 k, Rel.rel (since both w0) (em_call P fuel str_of k) (em_call P fuel str_of k)) by (intros; apply both_rel, kb_evo; intros; apply r_call).
    assert (Calln : forall w0 k n, Rel.rel (since both w0) (em_call_n P fuel str_of k n) (em_call_n P fuel str_of k n)) by (intros; apply both_rel, kb_evo; intros; apply r_call_n).
    assert (Fcall : forall w0 k, Rel.rel (since both w0) (fd_call P fuel str_of k) (fd_call P fuel str_of k)) by (intros; apply both_rel, kb_evo; intros; apply r_fd_call).
    assert (Rs : forall w0 k, Rel.rel (since both w0) (em_reset P fuel k) (em_reset P fuel k)) by (intros; apply both_rel, kb_evo; intros; apply r_reset).
    assert (Use : forall A (m : M world A), Rel.rel (since both w) m m -> still w (snd (m w))).
    { intros A m H. destruct (H w w (conj eq_refl (both_refl w))) as [_ [_ B]]. apply B. }
    destruct e; try apply still_refl.
    - apply Use. apply rel_wrapone_set; auto; try (intros; apply both_rel, kb_install); try (eapply bound_both; [exact E | reflexivity]).
    - apply Use. apply rel_wrapmany_set; auto; try (intros; apply both_rel, kb_install); try (eapply bound_both; [exact E | reflexivity]).
      clear E. induction sources as [|[k j] t IH]; cbn [map]; constructor; [|exact IH]. split; [reflexivity|]. cbn [fst snd]; auto.
    - apply Use. apply rel_based_set; auto; try (intros; apply both_rel, kb_install); try (eapply bound_both; [exact E | reflexivity]).
      clear E. generalize (fun x => name_of P x w). intros nm. induction source as [|j t IH]; cbn [map]; constructor; [|exact IH]. split; [reflexivity|]. cbn [fst snd]; auto.
  Qed.

  Lemma still_new A e (k : nat -> M world A) w : alone e -> (forall i, kl (k i)) -> still w (snd ((i <~ alloc_em P e ;; k i) w)).
  Proof.
    intros He H. unfold mbind. pose proof (still_alloc e w He) as Q. unfold alloc_em in *. cbn [snd] in Q.
    eapply still_trans; [exact Q | apply H].
  Qed.

  Lemma alone_new (its : factory val) rac i : iter_new its rac = Ok i -> alone (EIter P i).
  Proof. intros E. exists its, rac, i, []. split; [exact E | reflexivity]. Qed.

  Lemma exec_still c w : still w (snd (exec P fuel str_of c w)).
  Proof.
    assert (Fin : forall A (m : M world A), still w (snd (m w)) -> still w (snd ((m ;;; ret tt) w))).
    { intros A m. unfold mbind, ret. destruct (m w) as [[]]; exact (fun H => H). }
    assert (Opt : forall (o : option nat) v w, still w (snd ((match o with Some i => ret i | None => new_static P v end) w))).
    { intros [i|] v w1; [apply still_refl | apply still_alloc; exact I]. }
    assert (Rs : forall i, kl (em_reset P fuel i)) by (intros; apply kl_evo; intros; apply r_reset).
    destruct c; cbn [exec].
    - apply Fin, still_alloc. exact I.
    - apply Fin. unfold new_iter, mbind, lift. destruct (iter_new f rac) eqn:E; [|apply still_refl|apply still_refl].
      apply still_alloc. eapply alone_new; exact E.
    - apply Fin. unfold new_seq, mbind, lift. destruct (seq_new items rac) eqn:E; [|apply still_refl|apply still_refl]. apply still_alloc.
      left. exists items, rac, a, []. split; [exact E | reflexivity].
    - apply Fin. unfold new_choice, mbind at 1, lift. destruct (choice_new _ _ _ _ _ _ _ _ _) eqn:E; [|apply still_refl|apply still_refl].
      apply still_new; [exists items; eapply RA_new; exact E|]. intros i. apply kl_bind; [|intros; apply kl_ret].
      intros w' A j x. cbn [snd]. rewrite get_use. apply A.
    - apply Fin, still_new; [exact I|]. intros i. apply kl_bind; [apply Rs|]. intros _.
      apply kl_bind; [intros w'; apply still_refl|]. intros u. apply kl_bind; [|intros; apply kl_ret]. apply kl_modify. intros []; exact (fun H => H).
    - apply Fin. unfold new_text. assert (Q := Opt sep_em (VStr [32]) w). unfold mbind at 1.
      destruct ((match sep_em with Some i => ret i | None => new_static P (VStr [32]) end) w) as [[sp|e|] w1] eqn:Es; [|exact Q|exact Q].
      eapply still_trans; [exact Q|]. apply still_new; [exact I|]. intros i. apply kl_bind; [apply Rs|]. intros _.
      apply kl_bind; [intros w'; apply still_refl|]. intros u. apply kl_bind; [|intros; apply kl_ret]. apply kl_modify. intros []; exact (fun H => H).
    - apply Fin, still_new; [exact I|]. intros i. apply kl_bind; [apply Rs|]. intros _. apply kl_bind; [intros w'; apply still_set_function | intros; apply kl_ret].
    - apply Fin, still_new; [exact I|]. intros i. apply kl_bind; [apply Rs|]. intros _. apply kl_bind; [intros w'; apply still_set_function | intros; apply kl_ret].
    - apply Fin, still_alloc. exact I.
    - apply Fin, still_new; [exact I|]. intros i. apply kl_bind; [apply Rs|]. intros _. apply kl_bind; [intros w'; apply still_set_function | intros; apply kl_ret].
    - apply Fin. unfold new_field. assert (Q := Opt rep VNone w). unfold mbind at 1.
      destruct ((match rep with Some i => ret i | None => new_static P VNone end) w) as [[r|e|] w1] eqn:Es; [|exact Q|exact Q].
      eapply still_trans; [exact Q|]. cbn [snd]. assert (Q1 := Opt gate (VBool true) w1). unfold mbind at 1.
      destruct ((match gate with Some i => ret i | None => new_static P (VBool true) end) w1) as [[g|e|] w2] eqn:Eg; [|exact Q1|exact Q1].
      eapply still_trans; [exact Q1|]. cbn [snd]. unfold mbind at 1, alloc_fd.
      set (w3 := mkWorld P (w_em P w2) (w_fd P w2 ++ _) (w_run P w2)).
      assert (S3 : still w2 w3) by (exact (fun H => H)). eapply still_trans; [exact S3|].
      apply kl_bind; [|intros; apply kl_ret]. apply kl_evo. intros; apply r_fd_reset.
    - unfold em_set. apply kl_at. intros e. destruct e, s; try (match goal with c : choice_setting P |- _ => destruct c end); try apply kl_raise.
      + apply kl_modify. intros []; exact (fun H => H).
      + apply kl_run_iter. intros i1 A1. unfold iter_set_factory. destruct (check_iter_factory f 0) eqn:E; [|exact A1|exact A1].
        exists f, (i_rac i1). eexists. exists []. unfold iter_new. rewrite E. split; reflexivity.
      + apply kl_run_iter. intros i1 (its & rac & i0 & ops & E & ->). exists its, rac, i0, (ops ++ [FResetAfterCall b]). split; [exact E|].
        unfold iter_ops. rewrite frun_app. rewrite (proj2 (proj2 (frun_one _ _ _ _ _ _ _))). reflexivity.
      + apply kl_bind; [|intros _; apply kl_modify; intros []; exact (fun H => H)]. apply kl_run_seq. intros b q A1.
        destruct (seq_set_factory f q) as [[[]|x|] q'] eqn:E; cbn [snd].
        * right. exists f, q, q', []. split; [exact E | reflexivity].
        * assert (q' = q) as ->; [|exact A1]. unfold seq_set_factory in E. destruct (_ <- check_iter_factory f 0 ;; check_seq_iter_factory f 1); [destruct (f 2%nat)| |]; congruence.
        * assert (q' = q) as ->; [|exact A1]. unfold seq_set_factory in E. destruct (_ <- check_iter_factory f 0 ;; check_seq_iter_factory f 1); [destruct (f 2%nat)| |]; congruence.
      + apply kl_run_seq. intros t q [(its & rac & i0 & ops & E & ->)|(its & rac & i0 & ops & E & ->)]; [left|right]; exists its, rac, i0, (ops ++ [FResetAfterCall b]);
          (split; [exact E|]); unfold seq_ops; rewrite frun_app, (proj2 (proj2 (frun_one _ _ _ _ _ _ _))); reflexivity.
      + apply kl_run_choice. intros b c1 (items & R). exists items. destruct (set_weights P fuel ws false c1) eqn:E. eapply (RA_setting P val_setsize fuel items (Weights ws) O); eauto.
      + apply kl_run_choice. intros b c1 (items & R). exists items. destruct (set_weights P fuel ws true c1) eqn:E. eapply (RA_setting P val_setsize fuel items (Cum_weights ws) O); eauto.
      + apply kl_run_choice. intros b0 c1 (items & R). exists items. destruct (set_replace P fuel b c1) eqn:E. eapply (RA_setting P val_setsize fuel items (Replace b) O); eauto.
      + apply kl_run_choice. intros b0 c1 (items & R). exists items. destruct (set_replace_only_after_call P fuel b c1) eqn:E. eapply (RA_setting P val_setsize fuel items (Replace_only_after_call b) O); eauto.
    - apply still_set_function.
    - unfold fd_set_part, modify_fd, at_fd. destruct (get_fd P f w); [exact (fun H => H) | apply still_refl].
    - unfold fd_set_hide, modify_fd, at_fd. destruct (get_fd P f w); [exact (fun H => H) | apply still_refl].
    - unfold em_reset_source. apply kl_at. intros e. destruct e; try apply kl_raise; apply kl_evo; intros ?;
        apply rel_do_method; intros o _ s1 s2 _; apply r_fd_reset.
    - unfold em_seed_source. apply kl_at. intros e. destruct e; try apply kl_raise; apply kl_evo; intros ?;
        apply rel_do_method; intros o _ s1 s2 _; apply r_fd_seed.
    - unfold set_source, at_em. destruct (get_em id w) as [e|] eqn:E; [|apply still_refl].
      destruct e; try apply still_refl; (eapply still_put; [exact E | exact (fun _ => I)]).
    - unfold set_separator, at_em. destruct (get_em id w) as [e|] eqn:E; [|apply still_refl].
      destruct e; try apply still_refl; (eapply still_put; [exact E | exact (fun _ => I)]).
    - apply Fin, evo_still, run_evo.
    - apply Fin, still_new; [exact I|]. intros i. apply kl_bind; [destruct random; [apply Rs | apply kl_ret] | intros; apply kl_ret].
  Qed.
  Theorem reachable_alone w : reachable P fuel str_of w -> all_alone w.
  Proof.
    induction 1 as [r|c w _ IH Pc]; [intros [|]; discriminate | apply exec_still, IH].
  Qed.
End Alone.
