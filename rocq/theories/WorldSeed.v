(** * What seed does: every part below that has an rng is fresh afterwards. *)
From Verif Require Import Base Prims Values MathModel ChoiceModel FixedModel GroupModel
  SigModel SigProofs WrapModel TextModel FieldModel World Rel WorldProofs Agree WorldSpec WorldReset.
Open Scope list_scope.
Open Scope Z_scope.

Section SeedProofs.
  Context {P : prims} (fuel : nat).
  Hypothesis score_quiet : forall u w, noattr (k_score P u w).
  Notation world := (World.world P).
  Notation get_em := (World.get_em P).
  Notation put_em := (World.put_em P).
  Notation fresh_at := (WorldSpec.fresh_at P fuel).
  Notation belongs := (WorldSpec.belongs P).
  Notation step := (WorldReset.step fuel).

  (** Fresh, unless it is an Iterative, a Sequential or of a user's class. *)
  Definition seeded_at (s : option (pSeed P)) (w : world) (j : nat) : Prop :=
    forall e, get_em j w = Some e -> match e with EIter _ _ | ESeq _ _ _ | EUser _ _ _ _ => True | e => fresh P fuel s e end.

  Lemma seeded_step s w w' j : step s w w' -> seeded_at s w j -> seeded_at s w' j.
  Proof.
    intros (C & _ & F & _) H e E. pose proof (proj1 C j) as Q. rewrite E in Q.
    destruct (get_em j w) as [e0|] eqn:E0; [|contradiction]. cbn in Q. specialize (H e0 E0).
    assert (X : match e0 with EIter _ _ | ESeq _ _ _ | EUser _ _ _ _ => True | e => fresh P fuel s e end ->
                match e0 with EIter _ _ | ESeq _ _ _ | EUser _ _ _ _ => False | _ => True end -> fresh P fuel s e).
    { intros A B. apply (F j); [|exact E]. intros e1 E1. rewrite E0 in E1. injection E1 as <-. destruct e0; auto; contradiction. }
    destruct e0, e; try contradiction; auto.
  Qed.

  Lemma choice_seed_quiet s ent : quiet (choice_seed P fuel s ent : M (@choice P val) unit).
  Proof.
    intros c. rewrite choice_seed_eq. cbv zeta. destruct (c_replace c); [discriminate|].
    apply global_shuffle_quiet. exact score_quiet.
  Qed.
  Lemma catch_quiet S (m : M S unit) : quiet (catch_attribute_error m).
  Proof. intros s. unfold catch_attribute_error. destruct (m s) as [[[]|[]|] s']; discriminate. Qed.
  Lemma mixin_seed_quiet f own kids : quiet (mixin_seed P f own kids).
  Proof. unfold mixin_seed. apply quiet_bind; [apply do_method_quiet | intros _; apply catch_quiet]. Qed.

  (** Only an emitter without an rng has no [seed]. *)
  Lemma eseed_quiet d s id (w : world) : has_seed P id w = true -> noattr (fst (eseed P fuel d s id w)).
  Proof.
    destruct d as [|d]; cbn [eseed]; [discriminate|]. unfold has_seed, at_em.
    destruct (get_em id w) as [e|] eqn:E; [|discriminate].
    destruct e; cbn [node_of]; try discriminate; intros Hn.
    - apply quiet_bind; [|intros _ w'; discriminate]. apply at_quiet. intros e w'. destruct e; try discriminate.
      pose proof (choice_seed_quiet s (em_entropy id (ent_of P id w)) c0) as H.
      destruct (choice_seed _ _ _ _ _) as [o c1]. exact H.
    - apply quiet_bind; [apply mixin_seed_quiet | intros _; apply do_method_quiet].
    - apply quiet_bind; [apply mixin_seed_quiet | intros _; apply do_method_quiet].
    - apply mixin_seed_quiet.
    - apply mixin_seed_quiet.
    - unfold seed_own. apply quiet_bind; [apply modify_quiet | intros _ w'; discriminate].
    - destruct nd; [|discriminate].
      unfold seed_own. apply quiet_bind; [apply modify_quiet | intros _ w'; discriminate].
  Qed.

  Lemma seed_own_step s id w w' : seed_own P id s w = (Ok tt, w') ->
    (forall b c, get_em id w <> Some (EChoice P b c)) ->
    step s w w' /\ seeded_at s w' id.
  Proof.
    intros H Nc. unfold seed_own in H. apply mbind_ok_inv in H. destruct H as ([] & w1 & H1 & H2).
    injection H2 as <-. unfold modify_em, at_em in H1. destruct (get_em id w) as [e|] eqn:E; [|discriminate].
    injection H1 as <-. destruct (node_of P e) as [nd|] eqn:En.
    - assert (F : match e with EUser _ _ _ _ => False | _ => True end ->
        fresh P fuel s (with_node P (mkNode P s (rng_for P s (em_entropy id (ent_of P id w)))) e)).
      { intros Nu. eapply fresh_with; [exact En|]. destruct e; auto. apply (Nc islist c eq_refl). }
      split.
      + eapply step_trans; [|apply step_use]. apply (step_put _ _ _ _ e); auto using conf_node.
        { destruct e; auto. cbn. intros [A _]. split; [exact A|]. cbn in En. subst nd0. cbn. eauto. }
        intros nd0 nd' _ Hn _. rewrite (node_with _ _ _ En) in Hn. injection Hn as <-. reflexivity.
      + intros x. rewrite get_use, (get_put_same _ _ _ _ E). intros [= <-]. destruct e; try discriminate; try (exact (F I)); exact I.
    - split.
      + eapply step_trans; [|apply step_use]. apply (step_put _ _ _ _ e); auto using conf_refl. congruence.
      + intros x. rewrite get_use, (get_put_same _ _ _ _ E). intros [= <-]. destruct e; try discriminate; exact I.
  Qed.

  Lemma seed_all_step s (r : nat -> M world unit) kids :
    (forall k w, has_seed P k w = true -> noattr (fst (r k w))) ->
    (forall k w w', In k kids -> r k w = (Ok tt, w') -> step s w w' /\ forall j, belongs w k j -> seeded_at s w' j) ->
    forall w w', seed_all P r kids w = (Ok tt, w') ->
    step s w w' /\ forall k j, In k kids -> belongs w k j -> seeded_at s w' j.
  Proof.
    intros Hq. unfold seed_all. induction kids as [|k t IH]; intros Hr w w' H; cbn in H.
    - injection H as <-. split; [apply step_refl | intros k j []].
    - apply mbind_ok_inv in H. destruct H as ([] & w1 & H1 & H2).
      destruct (IH ltac:(intros; eapply Hr; eauto; right; auto) _ _ H2) as [S2 Q2].
      assert (S1 : step s w w1 /\ forall j, belongs w k j -> seeded_at s w1 j).
      { unfold catch_attribute_error in H1. destruct (has_seed P k w) eqn:Eh.
        - pose proof (Hq k w Eh) as Hn. apply (Hr k); [left; reflexivity|].
          destruct (r k w) as [[[]|[]|] w2]; try discriminate; [congruence | exfalso; apply Hn; reflexivity].
        - injection H1 as <-. split; [apply step_refl|]. intros j B e E. unfold has_seed in Eh.
          inversion B as [|? e' k' ? E' Hk B']; subst.
          + rewrite E in Eh. destruct e; try discriminate; exact I.
          + rewrite E' in Eh. destruct e'; try discriminate; destruct Hk. }
      destruct S1 as [S1 Q1]. split; [eapply step_trans; eauto|].
      intros k' j [<-|Hk] B; [apply (seeded_step _ _ _ _ S2), Q1, B|].
      apply (Q2 k' j Hk). eapply belongs_wconf; [apply S1 | exact B].
  Qed.

  Theorem eseed_step s d : forall id w w', eseed P fuel d s id w = (Ok tt, w') ->
    step s w w' /\ forall j, belongs w id j -> seeded_at s w' j.
  Proof.
    induction d as [|d IH]; intros id w w' H; cbn [eseed] in H; [discriminate|].
    unfold at_em in H. destruct (get_em id w) as [e|] eqn:E; [|discriminate].
    assert (Leaf : children P e = [] -> forall w', seeded_at s w' id -> forall j, belongs w id j -> seeded_at s w' j).
    { intros Hc w2 F j B. inversion B as [|? e' k ? E' Hk B']; subst; [exact F|]. rewrite E in E'. injection E' as <-.
      rewrite Hc in Hk. destruct Hk. }
    assert (Mix : match e with EChoice _ _ _ => False | _ => True end ->
      forall w1, mixin_seed P (eseed P fuel d s) (seed_own P id s) (children P e) w = (Ok tt, w1) ->
      step s w w1 /\ forall j, belongs w id j -> seeded_at s w1 j).
    { intros Nc w1 H1. unfold mixin_seed in H1. apply mbind_ok_inv in H1. destruct H1 as ([] & w2 & A1 & A2).
      destruct (seed_all_step s (eseed P fuel d s) (children P e) ltac:(intros; apply eseed_quiet; auto)
        ltac:(intros; eapply IH; eauto) _ _ A1) as [S1 Q1].
      assert (A3 : seed_own P id s w2 = (Ok tt, w1)).
      { unfold catch_attribute_error in A2.
        assert (Qt : noattr (fst (seed_own P id s w2))).
        { unfold seed_own. apply quiet_bind; [apply modify_quiet | intros _ w3; discriminate]. }
        destruct (seed_own P id s w2) as [[[]|[]|] w3]; try discriminate; [congruence | exfalso; apply Qt; reflexivity]. }
      pose proof (proj1 (proj1 S1) id) as C. rewrite E in C.
      destruct (seed_own_step s id w2 w1 A3) as [S2 Q2].
      { intros b c Q. rewrite Q in C. cbn in C. destruct e; try contradiction. }
      split; [eapply step_trans; eauto|]. intros j B. inversion B as [|? e' k ? E' Hk B']; subst; [exact Q2|].
      rewrite E in E'. injection E' as <-. eapply seeded_step; [exact S2|]. eapply Q1; eauto. }
    destruct e; try discriminate.
    - apply mbind_ok_inv in H. destruct H as ([] & w1 & H1 & H2). injection H2 as <-.
      unfold run_choice, at_em in H1. rewrite E in H1.
      pose proof (kseed fuel s (em_entropy id (ent_of P id w)) c) as K.
      rewrite choice_seed_eq in H1, K. cbv zeta in H1, K.
      assert (R : (if c_replace c then (Ok tt, set_rng P (rng_for P s (em_entropy id (ent_of P id w))) (set_seed P s c))
                   else global_shuffle P fuel (set_rng P (rng_for P s (em_entropy id (ent_of P id w))) (set_seed P s c))) =
                  choice_reset P fuel (em_entropy id (ent_of P id w)) (set_seed P s c)).
      { rewrite choice_reset_eq. reflexivity. }
      rewrite R in H1, K. clear R.
      destruct (choice_reset P fuel (em_entropy id (ent_of P id w)) (set_seed P s c)) as [r c'] eqn:Er. injection H1 as -> <-.
      cbn [snd] in K.
      assert (F : fresh P fuel s (EChoice P islist c')).
      { exists (set_seed P s c), (em_entropy id (ent_of P id w)). split; [reflexivity|]. split; [apply K | exact Er]. }
      split.
      + eapply step_trans; [|apply step_use]. apply (step_put _ _ _ _ _ _ E); auto.
        * split; [reflexivity | apply K].
        * intros nd nd' [= <-] [= <-]. cbn. intros _. apply K.
      + apply Leaf; [reflexivity|]. intros e. rewrite get_use, (get_put_same _ _ _ _ E). intros [= <-]. exact F.
    - apply mbind_ok_inv in H. destruct H as ([] & w1 & H1 & H2). destruct (Mix I _ H1) as [S1 Q1].
      destruct (seed_all_step s (eseed P fuel d s) _ ltac:(intros; apply eseed_quiet; auto)
        ltac:(intros; eapply IH; eauto) _ _ H2) as [S2 Q2].
      split; [eapply step_trans; eauto|]. intros j B. eapply seeded_step; [exact S2 | apply Q1, B].
    - apply mbind_ok_inv in H. destruct H as ([] & w1 & H1 & H2). destruct (Mix I _ H1) as [S1 Q1].
      destruct (seed_all_step s (eseed P fuel d s) _ ltac:(intros; apply eseed_quiet; auto)
        ltac:(intros; eapply IH; eauto) _ _ H2) as [S2 Q2].
      split; [eapply step_trans; eauto|]. intros j B. eapply seeded_step; [exact S2 | apply Q1, B].
    - exact (Mix I _ H).
    - exact (Mix I _ H).
    - destruct (seed_own_step s id w w' H) as [S F].
      { intros b c Q. rewrite E in Q. discriminate. }
      split; [exact S | apply Leaf; [reflexivity | exact F]].
    - destruct nd; [|discriminate]. destruct (seed_own_step s id w w' H) as [S F].
      { intros b c0 Q. rewrite E in Q. discriminate. }
      split; [exact S | apply Leaf; [reflexivity | exact F]].
  Qed.

  (** ** Fields *)

  Lemma seeded_fstep s w w' j : fstep fuel s w w' -> seeded_at s w j -> seeded_at s w' j.
  Proof.
    intros (C & F & _) H e E. pose proof (proj1 C j) as Q. rewrite E in Q.
    destruct (get_em j w) as [e0|] eqn:E0; [|contradiction]. cbn in Q. specialize (H e0 E0).
    assert (X : match e0 with EIter _ _ | ESeq _ _ _ | EUser _ _ _ _ => True | e => fresh P fuel s e end ->
                match e0 with EIter _ _ | ESeq _ _ _ | EUser _ _ _ _ => False | _ => True end -> fresh P fuel s e).
    { intros A B. apply (F j); [|exact E]. intros e1 E1. rewrite E0 in E1. injection E1 as <-. destruct e0; auto; contradiction. }
    destruct e0, e; try contradiction; auto.
  Qed.

  (** The last values of all fields are kept. *)
  Definition same_values (w w' : world) : Prop := forall f, previous P f w = previous P f w'.

  Theorem fd_seed_step s f w w' : fd_seed P fuel f s w = (Ok tt, w') ->
    fstep fuel s w w' /\ (forall j, uses P w f j -> seeded_at s w' j) /\ fseed s w' f /\ same_values w w'.
  Proof.
    intros H. unfold fd_seed, at_fd in H. destruct (get_fd P f w) as [x|] eqn:E; [|discriminate].
    unfold mixin_seed in H. apply mbind_ok_inv in H. destruct H as ([] & w1 & A1 & A2).
    destruct (seed_all_step s (fun k => em_seed P fuel k s) (parts P x) ltac:(intros; apply eseed_quiet; auto)
      (fun k w w1 _ Hk => eseed_step s (S k) k w w1 Hk) _ _ A1) as [S1 Q1].
    assert (E1 : get_fd P f w1 = Some x) by (unfold get_fd in *; rewrite (proj1 (proj2 S1)); exact E).
    unfold catch_attribute_error in A2.
    destruct (modify_fd P f (fun x => fd_node P (mkNode P s (rng_for P s (fd_entropy f (f_ent P x)))) (S (f_ent P x)) x) w1)
      as [r w2] eqn:M.
    assert (r = Ok tt /\ w2 = w') as [-> ->].
    { unfold modify_fd, at_fd in M. rewrite E1 in M. injection M as <- <-. injection A2 as <-. auto. }
    destruct (modify_fd_step fuel s f _ w1 w' M) as (S2 & G2 & X2); [intros y; repeat split | auto | auto |].
    split; [eapply fstep_trans; [apply step_fstep; exact S1 | exact S2]|]. split; [|split].
    - intros j (y & p & E' & Hp & B). rewrite E in E'. injection E' as <-. eapply seeded_fstep; [exact S2|]. eapply Q1; eauto.
    - intros x' Q. destruct (X2 x' Q) as (y & -> & _). reflexivity.
    - intros g. unfold modify_fd, at_fd in M. rewrite E1 in M. injection M as <-. unfold previous.
      assert (K : w_fd P w1 = w_fd P w) by apply S1. unfold get_fd, put_fd in *. cbn.
      destruct (Nat.eq_dec g f) as [->|N].
      + rewrite E, (nth_upd_same _ _ _ _ _ E1). reflexivity.
      + rewrite nth_upd_other by congruence. rewrite K. reflexivity.
  Qed.

  Lemma fd_seed_quiet s f : quiet (fd_seed P fuel f s).
  Proof. intros w. unfold fd_seed, at_fd. destruct (get_fd P f w); [apply mixin_seed_quiet | discriminate]. Qed.

  Theorem sc_seed_step s fs : forall w w', sc_seed_fields P fuel fs s w = (Ok tt, w') ->
    fstep fuel s w w' /\ same_values w w' /\
    (forall f, In f (map snd fs) -> fseed s w' f /\ forall j, uses P w f j -> seeded_at s w' j).
  Proof.
    unfold sc_seed_fields. induction (map snd fs) as [|f l IH]; intros w w' H.
    - cbn in H. injection H as <-. split; [apply fstep_refl|]. split; [intros f; reflexivity | intros f []].
    - apply (do_method_ok _ _ (fun f => fd_seed P fuel f s) (f :: l)) in H; [|intros; apply fd_seed_quiet].
      destruct H as (w1 & H1 & H2). destruct (fd_seed_step _ _ _ _ H1) as (S1 & U1 & F1 & V1).
      destruct (IH _ _ H2) as (S2 & V2 & Q2). split; [eapply fstep_trans; eauto|].
      split; [intros g; rewrite (V1 g); apply V2|]. intros g [<-|Hg].
      + split; [apply S2, F1|]. intros j U. eapply seeded_fstep; [exact S2 | apply U1, U].
      + split; [apply Q2, Hg|]. intros j U. apply (Q2 g Hg). eapply uses_wconf; [apply S1 | exact U].
  Qed.
End SeedProofs.
