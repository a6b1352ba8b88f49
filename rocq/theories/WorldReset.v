(** * What reset and seed do: every emitter below is fresh afterwards. *)
From Verif Require Import Base Prims Values MathModel ChoiceModel FixedModel GroupModel
  SigModel SigProofs WrapModel TextModel FieldModel World Rel WorldProofs Agree WorldSpec.
Open Scope list_scope.
Open Scope Z_scope.

(** ** AttributeErrors (which ObjectMap.do_method ignores) do not come from reset *)

Definition noattr {A} (r : res A) : Prop := r <> Raise AttributeError.
Definition quiet {S A} (m : M S A) : Prop := forall s, noattr (fst (m s)).

Lemma quiet_bind S A B (m : M S A) (k : A -> M S B) : quiet m -> (forall a, quiet (k a)) -> quiet (mbind m k).
Proof.
  intros Hm Hk s. specialize (Hm s). unfold mbind. destruct (m s) as [[a|e|] s1]; [apply Hk| |discriminate].
  cbn in *. congruence.
Qed.
Lemma quiet_ret S A (a : A) : quiet (@ret S A a).
Proof. intros s. discriminate. Qed.
Lemma quiet_ok S A (f : S -> A * S) : quiet (fun s => (Ok (fst (f s)), snd (f s))).
Proof. intros s. discriminate. Qed.

Lemma do_method_quiet S O (meth : O -> S -> option (M S unit)) objs : quiet (group_do_method meth objs).
Proof.
  induction objs as [|[o|] t IH]; cbn; [apply quiet_ret| |exact IH].
  apply quiet_bind; [|intros _; exact IH]. intros s. unfold catch_attribute_error.
  destruct (match meth o s with Some m => m s | None => _ end) as [[[]|[]|] s1]; discriminate.
Qed.
Lemma setattr_quiet S O has (set : O -> M S unit) objs : (forall o, quiet (set o)) -> quiet (group_setattr has set objs).
Proof.
  intros H. induction objs as [|[o|] t IH]; cbn; [apply quiet_ret| |exact IH].
  apply quiet_bind; [|intros _; exact IH]. intros s. destruct (has o s); [apply H | discriminate].
Qed.

(** A loop of methods none of which raises AttributeError, run to its end. *)
Lemma do_method_ok S O (meth : O -> M S unit) l s s' : (forall o, quiet (meth o)) ->
  group_do_method (fun o _ => Some (meth o)) (map Some l) s = (Ok tt, s') ->
  match l with
  | [] => s' = s
  | o :: t => exists s1, meth o s = (Ok tt, s1) /\ group_do_method (fun o _ => Some (meth o)) (map Some t) s1 = (Ok tt, s')
  end.
Proof.
  intros Hq H. destruct l as [|o t]; cbn in H; [unfold ret in H; congruence|].
  apply mbind_ok_inv in H. destruct H as ([] & s1 & H1 & H2). exists s1. split; [|exact H2].
  unfold catch_attribute_error in H1. specialize (Hq o s). destruct (meth o s) as [[[]|[]|] s2]; cbn in *;
    try discriminate; congruence.
Qed.

Section Quiet.
  Context (P : prims) (fuel : nat).
  Hypothesis score_quiet : forall u w, noattr (k_score P u w).

  Lemma choices_cum_quiet n cum k : quiet (choices_cum P n cum k).
  Proof.
    intros r. unfold choices_cum. destruct (negb _); [discriminate|]. destruct (rev cum); [discriminate|].
    destruct (negb _); [discriminate|]. destruct (draws _ _ _); discriminate.
  Qed.
  Lemma take_new_quiet A (items : list A) pos : forall ws sm, noattr (take_new P items pos ws sm).
  Proof.
    induction pos as [|i pos IH]; intros ws sm; cbn; [discriminate|].
    destruct (nth_error ws i); [|discriminate]. destruct (w_true P p); [|apply IH].
    destruct (nth_error items i); [apply IH | discriminate].
  Qed.
  Lemma low_k_quiet A f (items : list A) : forall ws sm k, quiet (low_k_loop P f items ws sm k).
  Proof.
    induction f as [|f IH]; intros ws sm k; cbn [low_k_loop]; [intros s; discriminate|].
    destruct (_ =? 0); [apply quiet_ret|]. apply quiet_bind; [apply choices_cum_quiet|]. intros pos.
    apply quiet_bind; [|intros a; apply IH]. intros s. apply take_new_quiet.
  Qed.
  Lemma scores_quiet A ws : forall items : list A, quiet (scores P ws items).
  Proof.
    induction ws as [|w ws IH]; intros [|a t] r; cbn [scores]; try discriminate.
    destruct (r_random P r) as [u r1]. apply quiet_bind; [intros s; apply score_quiet|]. intros sc.
    apply quiet_bind; [apply IH|]. intros rest. apply quiet_ret.
  Qed.
  Lemma shuffle_quiet A (items : list A) ws k : quiet (weighted_shuffle P fuel items ws k).
  Proof.
    unfold weighted_shuffle. destruct (negb _); [intros s; discriminate|].
    destruct (use_low_k _ _); [apply low_k_quiet|]. unfold high_k.
    apply quiet_bind; [apply scores_quiet|]. intros sc. apply quiet_ret.
  Qed.
  Lemma global_shuffle_quiet A : quiet (global_shuffle P fuel : M (@choice P A) unit).
  Proof.
    unfold global_shuffle. apply quiet_bind; [intros s; discriminate|]. intros c.
    apply quiet_bind; [|intros l s; discriminate]. intros s. unfold on_rng.
    pose proof (shuffle_quiet _ (c_items c)
      (if nonempty (c_weights c) then match c_weights c with Some w => w | None => [] end
       else repeat (w_one P) (length (c_items c))) None (c_rng s)) as H.
    destruct (weighted_shuffle _ _ _ _ _ _) as [o r]. exact H.
  Qed.
  Lemma choice_reset_quiet ent : quiet (choice_reset P fuel ent : M (@choice P val) unit).
  Proof.
    intros c. rewrite choice_reset_eq. cbn zeta. destruct (c_replace c); [discriminate | apply global_shuffle_quiet].
  Qed.

  Lemma at_quiet A id (k : emitter P -> M (world P) A) : (forall e, quiet (k e)) -> quiet (at_em P id k).
  Proof. intros H w. unfold at_em. destruct (get_em P id w); [apply H | discriminate]. Qed.
  Lemma modify_quiet id f : quiet (modify_em P id f).
  Proof. apply at_quiet. intros e w. discriminate. Qed.
  Lemma reset_rng_quiet id : quiet (reset_rng P id).
  Proof.
    intros w. unfold reset_rng. apply quiet_bind; [apply modify_quiet|]. intros _ w'. discriminate.
  Qed.
  Lemma mixin_reset_quiet r own s kids : quiet own -> quiet (mixin_reset P r own s kids).
  Proof.
    intros Ho. unfold mixin_reset. apply quiet_bind; [apply setattr_quiet; intros o; apply modify_quiet|].
    intros _. apply quiet_bind; [exact Ho|]. intros _. apply do_method_quiet.
  Qed.
  Lemma ereset_quiet d id : quiet (ereset P fuel d id).
  Proof.
    destruct d as [|d]; cbn [ereset]; [intros s; discriminate|]. apply at_quiet. intros e.
    destruct e; try (apply quiet_ret).
    - apply at_quiet. intros e w. destruct e; discriminate.
    - apply at_quiet. intros e w. destruct e; discriminate.
    - intros w. apply quiet_bind; [|intros _ w'; discriminate]. apply at_quiet. intros e w'. destruct e; try discriminate.
      pose proof (choice_reset_quiet (em_entropy id (ent_of P id w)) c0) as H.
      destruct (choice_reset _ _ _ _) as [o c1]. exact H.
    - apply quiet_bind; [apply mixin_reset_quiet, reset_rng_quiet | intros _].
      apply quiet_bind; [apply setattr_quiet; intros o; apply modify_quiet | intros _; apply do_method_quiet].
    - apply quiet_bind; [apply mixin_reset_quiet, reset_rng_quiet | intros _].
      apply quiet_bind; [apply setattr_quiet; intros o; apply modify_quiet | intros _; apply do_method_quiet].
    - apply mixin_reset_quiet, reset_rng_quiet.
    - apply mixin_reset_quiet, reset_rng_quiet.
    - apply reset_rng_quiet.
    - apply quiet_bind; [destruct nd; [apply reset_rng_quiet | apply quiet_ret] | intros _].
      apply at_quiet. intros e w. destruct e; discriminate.
  Qed.
  Lemma fd_reset_quiet f : quiet (fd_reset P fuel f).
  Proof.
    intros w. unfold fd_reset, at_fd. destruct (get_fd P f w); [|discriminate].
    apply quiet_bind; [apply mixin_reset_quiet|].
    - intros w'. unfold fd_own_rng, modify_fd, at_fd. destruct (get_fd P f w'); discriminate.
    - intros _ w'. unfold modify_fd, at_fd. destruct (get_fd P f w'); discriminate.
  Qed.
End Quiet.

(** ** Reset *)

Section ResetProofs.
  Context {P : prims} (fuel : nat) (str_of : val -> res (list Z)).
  Hypothesis score_quiet : forall u w, noattr (k_score P u w).
  Notation world := (World.world P).
  Notation get_em := (World.get_em P).
  Notation put_em := (World.put_em P).
  Notation fresh_at := (WorldSpec.fresh_at P fuel).
  Notation belongs := (WorldSpec.belongs P).

  Definition seed_at (s : option (pSeed P)) (w : world) (j : nat) : Prop :=
    forall e nd, get_em j w = Some e -> node_of P e = Some nd -> n_seed P nd = s.

  (** A step of resetting and seeding with [s]. *)
  Definition step (s : option (pSeed P)) (w w' : world) : Prop :=
    wconf w w' /\ w_fd P w' = w_fd P w /\
    (forall j, fresh_at s w j -> fresh_at s w' j) /\
    (forall j, seed_at s w j -> seed_at s w' j).

  Lemma step_refl s w : step s w w.
  Proof. repeat split; auto using wconf_refl; apply wconf_refl. Qed.
  Lemma step_trans s a b c : step s a b -> step s b c -> step s a c.
  Proof.
    intros (H1 & H2 & H3 & H4) (G1 & G2 & G3 & G4). repeat split; auto; try congruence;
      apply (wconf_trans _ _ _ H1 G1).
  Qed.

  Lemma belongs_wconf w w' i j : wconf w w' -> belongs w i j -> belongs w' i j.
  Proof.
    intros C H. induction H as [i|i e k j E Hk _ IH]; [constructor|].
    destruct C as [C _]. specialize (C i). rewrite E in C. destruct (get_em i w') as [e'|] eqn:E'; [|contradiction].
    econstructor; [exact E' | rewrite <- (conf_children _ _ C); exact Hk | exact IH].
  Qed.

  Lemma step_put s w id e e' : get_em id w = Some e -> conf e e' ->
    (fresh P fuel s e -> fresh P fuel s e') ->
    (forall nd nd', node_of P e = Some nd -> node_of P e' = Some nd' -> n_seed P nd = s -> n_seed P nd' = s) ->
    step s w (put_em id e' w).
  Proof.
    intros E C Hf Hs.
    assert (W : within (fun _ => True) (fun _ => True) w (put_em id e' w)).
    { eapply within_put; eauto using within_refl. }
    split; [apply W|]. split; [apply fd_put|]. split; intros j Hj.
    - intros x. destruct (Nat.eq_dec j id) as [->|N].
      + rewrite (get_put_same _ _ _ _ E). intros [= <-]. apply Hf. apply Hj; exact E.
      + rewrite get_put_other by exact N. apply Hj.
    - intros x nd. destruct (Nat.eq_dec j id) as [->|N].
      + rewrite (get_put_same _ _ _ _ E). intros [= <-] Hn.
        destruct (node_of P e) as [nd0|] eqn:En.
        * apply (Hs nd0 nd eq_refl Hn). apply (Hj e nd0 E En).
        * apply (conf_has_node _ _ C) in En. congruence.
      + rewrite get_put_other by exact N. apply Hj.
  Qed.
  Lemma step_use s w id : step s w (use_entropy P id w).
  Proof.
    assert (W : within (fun _ => True) (fun _ => True) w (use_entropy P id w)) by (apply within_use; auto using within_refl).
    split; [apply W|]. split; [apply fd_use|].
    split; intros j Hj; [intros e | intros e nd]; rewrite get_use; apply Hj.
  Qed.

  Lemma fresh_with s e nd ent : node_of P e = Some nd ->
    match e with EChoice _ _ _ | EUser _ _ _ _ => False | _ => True end -> fresh P fuel s (with_node P (mkNode P s (rng_for P s ent)) e).
  Proof. intros En He. destruct e; try discriminate En; try contradiction; cbn; eauto. Qed.

  (** Writing the seed [s]: *)
  Lemma with_same_node e nd : node_of P e = Some nd -> with_node P nd e = e.
  Proof.
    destruct e; cbn; intros E; try discriminate; try (rewrite E; reflexivity); injection E as <-; try reflexivity.
    cbn. f_equal. destruct c; reflexivity.
  Qed.

  Lemma fresh_seed s e nd : fresh P fuel s e -> node_of P e = Some nd -> n_seed P nd = s.
  Proof.
    destruct e; cbn [fresh node_of]; intros F E; try discriminate;
      try (subst; destruct F as [_ [ent ->]]; reflexivity); injection E as <-; cbn [n_seed]; try (destruct F as [ent ->]; reflexivity).
    destruct F as (c0 & ent & Hs & _ & Hr). pose proof (proj2 (kreset fuel ent c0)) as X. rewrite Hr in X. cbn in X. congruence.
  Qed.

  Lemma set_rng_seed_step s id w w' : set_rng_seed P s id w = (Ok tt, w') -> step s w w' /\ seed_at s w' id.
  Proof.
    unfold set_rng_seed, modify_em, at_em. destruct (get_em id w) as [e|] eqn:E; [|discriminate].
    intros H. injection H as <-. destruct (node_of P e) as [nd|] eqn:En.
    - split.
      + apply (step_put _ _ _ e); auto using conf_node.
        * intros F. pose proof (fresh_seed _ _ _ F En) as Q.
          replace (mkNode P s (n_rng P nd)) with nd by (destruct nd; cbn in *; congruence).
          rewrite (with_same_node _ _ En). exact F.
        * intros nd0 nd' _ Hn _. rewrite (node_with _ _ _ En) in Hn. injection Hn as <-. reflexivity.
      + intros e' nd'. rewrite (get_put_same _ _ _ _ E). intros [= <-] Hn.
        rewrite (node_with _ _ _ En) in Hn. injection Hn as <-. reflexivity.
    - split.
      + apply (step_put _ _ _ e); auto using conf_refl. congruence.
      + intros e' nd'. rewrite (get_put_same _ _ _ _ E). intros [= <-] Hn. congruence.
  Qed.

  Lemma seed_children_step s kids : forall w w', seed_children P s kids w = (Ok tt, w') ->
    step s w w' /\ forall k, In k kids -> seed_at s w' k.
  Proof.
    unfold seed_children. induction kids as [|k t IH]; intros w w' H; cbn in H.
    - injection H as <-. split; [apply step_refl | intros k []].
    - apply mbind_ok_inv in H. destruct H as ([] & w1 & H1 & H2). destruct (IH _ _ H2) as [S2 Q2].
      assert (S1 : step s w w1 /\ seed_at s w1 k).
      { destruct (has_seed P k w) eqn:Eh; [apply set_rng_seed_step; exact H1|]. injection H1 as <-.
        split; [apply step_refl|]. intros e nd E En. unfold has_seed in Eh. rewrite E, En in Eh. discriminate. }
      destruct S1 as [S1 Q1]. split; [eapply step_trans; eauto|].
      intros k' [<-|Hk]; [apply S2; exact Q1 | apply Q2; exact Hk].
  Qed.

  (** Random(self.rng_seed) *)
  Lemma reset_rng_step s id w w' : seed_at s w id -> reset_rng P id w = (Ok tt, w') ->
    (forall e, get_em id w = Some e -> match e with EChoice _ _ _ | EUser _ _ _ _ => False | _ => True end) ->
    step s w w' /\ (forall e, get_em id w = Some e -> node_of P e <> None -> fresh_at s w' id).
  Proof.
    intros Hs H Nc. unfold reset_rng in H. apply mbind_ok_inv in H. destruct H as ([] & w1 & H1 & H2).
    injection H2 as <-. unfold modify_em, at_em in H1. destruct (get_em id w) as [e|] eqn:E; [|discriminate].
    injection H1 as <-. destruct (node_of P e) as [nd|] eqn:En.
    - rewrite (Hs e nd E En).
      assert (F : fresh P fuel s (with_node P (mkNode P s (rng_for P s (em_entropy id (ent_of P id w)))) e)).
      { eapply fresh_with; [exact En|]. apply Nc; reflexivity. }
      split.
      + eapply step_trans; [|apply step_use]. apply (step_put _ _ _ e); auto using conf_node.
        intros nd0 nd' _ Hn _. rewrite (node_with _ _ _ En) in Hn. injection Hn as <-. reflexivity.
      + intros e0 _ _ x. rewrite get_use, (get_put_same _ _ _ _ E). intros [= <-]. exact F.
    - split.
      + eapply step_trans; [|apply step_use]. apply (step_put _ _ _ e); auto using conf_refl. congruence.
      + intros e0 [= <-] Hn. congruence.
  Qed.

  Lemma user_rng_step s id w c own nd w1 : get_em id w = Some (EUser P c own nd) -> seed_at s w id ->
    match nd with Some _ => reset_rng P id | None => ret tt end w = (Ok tt, w1) ->
    step s w w1 /\ exists nd', get_em id w1 = Some (EUser P c own nd') /\
      match nd' with Some x => exists ent, x = mkNode P s (rng_for P s ent) | None => True end.
  Proof.
    intros E Hs H. destruct nd as [nd|].
    - unfold reset_rng in H. apply mbind_ok_inv in H. destruct H as ([] & w2 & H1 & H2). injection H2 as <-.
      unfold modify_em, at_em in H1. rewrite E in H1. injection H1 as <-.
      pose proof (Hs _ nd E eq_refl) as Hn. cbn. rewrite Hn. split.
      + eapply step_trans; [|apply step_use]. apply (step_put _ _ _ _ _ E).
        * split; reflexivity.
        * cbn. intros [F _]. split; eauto.
        * intros n1 n2 _ [= <-] _. reflexivity.
      + eexists. split; [rewrite get_use, (get_put_same _ _ _ _ E); reflexivity|]. cbn. eauto.
    - injection H as <-. split; [apply step_refl|]. exists None. split; [exact E | exact I].
  Qed.

  Lemma reset_children_step s (r : nat -> M world unit) kids : (forall k, quiet (r k)) ->
    (forall k w w', In k kids -> seed_at s w k -> r k w = (Ok tt, w') ->
       step s w w' /\ forall j, belongs w k j -> fresh_at s w' j) ->
    forall w w', (forall k, In k kids -> seed_at s w k) -> reset_children P r kids w = (Ok tt, w') ->
    step s w w' /\ forall k j, In k kids -> belongs w k j -> fresh_at s w' j.
  Proof.
    intros Hq Hr. unfold reset_children. induction kids as [|k t IH]; intros w w' Hs H.
    - cbn in H. injection H as <-. split; [apply step_refl | intros k j []].
    - apply (do_method_ok _ _ r (k :: t)) in H; [|exact Hq]. destruct H as (w1 & H1 & H2).
      destruct (Hr k w w1 (or_introl eq_refl) (Hs k (or_introl eq_refl)) H1) as [S1 F1].
      destruct (IH ltac:(intros; eapply Hr; eauto; right; assumption) w1 w') as [S2 F2]; auto.
      { intros k' Hk. apply S1. apply Hs. right; exact Hk. }
      split; [eapply step_trans; eauto|]. intros k' j [<-|Hk] B.
      + apply S2. apply F1; exact B.
      + apply (F2 k' j Hk). eapply belongs_wconf; [apply S1 | exact B].
  Qed.

  Lemma mixin_reset_step s (r : nat -> M world unit) own kids : (forall k, quiet (r k)) ->
    (forall k w w', In k kids -> seed_at s w k -> r k w = (Ok tt, w') ->
       step s w w' /\ forall j, belongs w k j -> fresh_at s w' j) ->
    forall Q : world -> world -> Prop,
    (forall w w', own w = (Ok tt, w') -> Q w w') ->
    forall w w', mixin_reset P r own s kids w = (Ok tt, w') ->
    exists w1 w2, step s w w1 /\ Q w1 w2 /\ (step s w1 w2 -> step s w2 w' /\ forall k j, In k kids -> belongs w k j -> fresh_at s w' j).
  Proof.
    intros Hq Hr Q HQ w w' H. unfold mixin_reset in H.
    apply mbind_ok_inv in H. destruct H as ([] & w1 & H1 & H). apply mbind_ok_inv in H. destruct H as ([] & w2 & H2 & H3).
    destruct (seed_children_step _ _ _ _ H1) as [S1 Q1]. exists w1, w2. split; [exact S1|]. split; [apply HQ; exact H2|].
    intros S2. destruct (reset_children_step s r kids Hq Hr w2 w') as [S3 F3]; auto.
    { intros k Hk. apply S2, Q1, Hk. }
    split; [exact S3|]. intros k j Hk B. apply (F3 k j Hk). eapply belongs_wconf; [|exact B].
    apply (wconf_trans _ w1); [apply S1 | apply S2].
  Qed.

  (** The one reset of the children in RandomWithChildrenMixin *)
  Lemma mixin_ok s d id e nd w w' :
    (forall id w w', seed_at s w id -> ereset P fuel d id w = (Ok tt, w') ->
       step s w w' /\ forall j, belongs w id j -> fresh_at s w' j) ->
    get_em id w = Some e -> node_of P e = Some nd -> seed_at s w id ->
    match e with EChoice _ _ _ | EUser _ _ _ _ => False | _ => True end ->
    mixin_reset P (ereset P fuel d) (reset_rng P id) s (children P e) w = (Ok tt, w') ->
    step s w w' /\ forall j, belongs w id j -> fresh_at s w' j.
  Proof.
    intros IH E En Hs Hc H.
    destruct (mixin_reset_step s (ereset P fuel d) (reset_rng P id) (children P e)
      ltac:(intros; apply ereset_quiet; exact score_quiet) ltac:(intros; eapply IH; eauto)
      (fun a b => reset_rng P id a = (Ok tt, b)) ltac:(auto) w w' H) as (w1 & w2 & S1 & HQ & S3).
    assert (E1 : exists e1, get_em id w1 = Some e1 /\ conf e e1).
    { destruct S1 as ((C & _) & _). specialize (C id). rewrite E in C. destruct (get_em id w1) as [e1|]; [eauto|contradiction]. }
    destruct E1 as (e1 & E1 & C1).
    destruct (reset_rng_step s id w1 w2 (proj2 (proj2 (proj2 S1)) id Hs) HQ) as [S2 F2].
    { intros b Q. rewrite E1 in Q. injection Q as <-. destruct e, e1; try contradiction; exact I. }
    destruct (S3 S2) as [S3' F3].
    split; [eapply step_trans; [exact S1 | eapply step_trans; eauto]|].
    intros j B. inversion B as [|? e' k ? E' Hk B']; subst.
    - apply S3'. apply (F2 e1 E1). intros Q. apply (conf_has_node _ _ C1) in Q. congruence.
    - rewrite E in E'. injection E' as <-. apply (F3 k j Hk B').
  Qed.

  Theorem ereset_step s d : forall id w w', seed_at s w id -> ereset P fuel d id w = (Ok tt, w') ->
    step s w w' /\ forall j, belongs w id j -> fresh_at s w' j.
  Proof.
    induction d as [|d IH]; intros id w w' Hs H; cbn [ereset] in H; [discriminate|].
    unfold at_em in H. destruct (get_em id w) as [e|] eqn:E; [|discriminate].
    assert (Leaf : children P e = [] -> forall w', fresh_at s w' id -> forall j, belongs w id j -> fresh_at s w' j).
    { intros Hc w2 F j B. inversion B as [|? e' k ? E' Hk B']; subst; [exact F|]. rewrite E in E'. injection E' as <-.
      rewrite Hc in Hk. destruct Hk. }
    destruct e.
    - injection H as <-. split; [apply step_refl|]. apply Leaf; [reflexivity|]. intros e Q. rewrite E in Q. injection Q as <-. exact I.
    - unfold run_iter, at_em in H. rewrite E in H. injection H as <-. split.
      + apply (step_put _ _ _ _ _ E); cbn; auto. discriminate.
      + apply Leaf; [reflexivity|]. intros e. rewrite (get_put_same _ _ _ _ E). intros [= <-]. reflexivity.
    - unfold run_seq, at_em in H. rewrite E in H. injection H as <-. split.
      + apply (step_put _ _ _ _ _ E); cbn; auto 10. discriminate.
      + apply Leaf; [reflexivity|]. intros e. rewrite (get_put_same _ _ _ _ E). intros [= <-]. reflexivity.
    - apply mbind_ok_inv in H. destruct H as ([] & w1 & H1 & H2). injection H2 as <-.
      unfold run_choice, at_em in H1. rewrite E in H1.
      pose proof (kreset fuel (em_entropy id (ent_of P id w)) c) as K.
      destruct (choice_reset P fuel (em_entropy id (ent_of P id w)) c) as [r c'] eqn:Er. injection H1 as -> <-.
      pose proof (Hs _ _ E eq_refl) as Hs'. cbn in Hs', K.
      assert (F : fresh P fuel s (EChoice P islist c')).
      { exists c, (em_entropy id (ent_of P id w)). split; [exact Hs'|]. split; [apply K | exact Er]. }
      split.
      + eapply step_trans; [|apply step_use]. apply (step_put _ _ _ _ _ E); auto.
        * split; [reflexivity | apply K].
        * intros nd nd' [= <-] [= <-]. cbn. intros <-. symmetry; apply K.
      + apply Leaf; [reflexivity|]. intros e. rewrite get_use, (get_put_same _ _ _ _ E). intros [= <-]. exact F.
    - pose proof (Hs _ _ E eq_refl) as Hn. rewrite Hn in H.
      apply mbind_ok_inv in H. destruct H as ([] & w1 & H1 & H). apply mbind_ok_inv in H. destruct H as ([] & w2 & H2 & H3).
      destruct (mixin_ok s d id _ nd w w1 IH E eq_refl Hs I H1) as [S1 F1].
      destruct (seed_children_step _ _ _ _ H2) as [S2 Q2].
      destruct (reset_children_step s (ereset P fuel d) _ ltac:(intros; apply ereset_quiet; exact score_quiet)
        ltac:(intros; eapply IH; eauto) w2 w' Q2 H3) as [S3 F3].
      split; [eapply step_trans; [exact S1 | eapply step_trans; eauto]|]. intros j B. apply S3, S2, F1, B.
    - pose proof (Hs _ _ E eq_refl) as Hn. rewrite Hn in H.
      apply mbind_ok_inv in H. destruct H as ([] & w1 & H1 & H). apply mbind_ok_inv in H. destruct H as ([] & w2 & H2 & H3).
      destruct (mixin_ok s d id _ nd w w1 IH E eq_refl Hs I H1) as [S1 F1].
      destruct (seed_children_step _ _ _ _ H2) as [S2 Q2].
      destruct (reset_children_step s (ereset P fuel d) _ ltac:(intros; apply ereset_quiet; exact score_quiet)
        ltac:(intros; eapply IH; eauto) w2 w' Q2 H3) as [S3 F3].
      split; [eapply step_trans; [exact S1 | eapply step_trans; eauto]|]. intros j B. apply S3, S2, F1, B.
    - pose proof (Hs _ _ E eq_refl) as Hn. rewrite Hn in H. apply (mixin_ok s d id _ nd w w' IH E eq_refl Hs I H).
    - pose proof (Hs _ _ E eq_refl) as Hn. rewrite Hn in H. apply (mixin_ok s d id _ nd w w' IH E eq_refl Hs I H).
    - injection H as <-. split; [apply step_refl|]. apply Leaf; [reflexivity|]. intros e Q. rewrite E in Q. injection Q as <-. exact I.
    - destruct (reset_rng_step s id w w' Hs H) as [S F].
      { intros b Q. rewrite E in Q. injection Q as <-. exact I. }
      split; [exact S|]. apply Leaf; [reflexivity|]. apply (F _ E). discriminate.
    - apply mbind_ok_inv in H. destruct H as ([] & w1 & H1 & H2).
      destruct (user_rng_step s id w c own nd w1 E Hs H1) as (S1 & nd' & E1 & N1).
      unfold run_user, at_em in H2. rewrite E1 in H2. cbn [fst snd] in H2. injection H2 as <-.
      assert (F : fresh P fuel s (EUser P c (uc_reset P c own) (option_map (fun x => mkNode P (n_seed P x)
        (match nd' with Some x => n_rng P x | None => r_fresh P 0 end)) nd'))).
      { split; [eauto|]. destruct nd' as [x|]; [|exact I]. destruct N1 as [ent ->]. exists ent. reflexivity. }
      split.
      + eapply step_trans; [exact S1|]. apply (step_put _ _ _ _ _ E1); auto.
        * split; [reflexivity | destruct nd'; reflexivity].
        * intros n1 n2 Q1 Q2. cbn in Q1, Q2. subst nd'. injection Q2 as <-. auto.
      + apply Leaf; [reflexivity|]. intros e. rewrite (get_put_same _ _ _ _ E1). intros [= <-]. exact F.
  Qed.

  (** ** Fields *)

  Definition fseed (s : option (pSeed P)) (w : world) (f : nat) : Prop :=
    forall x, get_fd P f w = Some x -> n_seed P (f_nd P x) = s.
  Definition blank (w : world) (f : nat) : Prop := forall x, get_fd P f w = Some x -> f_cache P x = VNone.

  Definition fstep (s : option (pSeed P)) (w w' : world) : Prop :=
    wconf w w' /\
    (forall j, fresh_at s w j -> fresh_at s w' j) /\
    (forall f, fseed s w f -> fseed s w' f) /\
    (forall f, blank w f -> blank w' f).
  Lemma fstep_refl s w : fstep s w w.
  Proof. repeat split; auto; apply wconf_refl. Qed.
  Lemma fstep_trans s a b c : fstep s a b -> fstep s b c -> fstep s a c.
  Proof.
    intros (H1 & H2 & H3 & H4) (G1 & G2 & G3 & G4). repeat split; auto; try congruence;
      apply (wconf_trans _ _ _ H1 G1).
  Qed.
  Lemma step_fstep s w w' : step s w w' -> fstep s w w'.
  Proof.
    intros (H1 & H2 & H3 & _). split; [exact H1|]. split; [exact H3|].
    split; intros f; unfold fseed, blank, World.get_fd; rewrite H2; auto.
  Qed.

  Lemma modify_fd_step s f g w w' : modify_fd P f g w = (Ok tt, w') ->
    (forall x, fconf x (g x)) ->
    (forall x, n_seed P (f_nd P x) = s -> n_seed P (f_nd P (g x)) = s) ->
    (forall x, f_cache P x = VNone -> f_cache P (g x) = VNone) ->
    fstep s w w' /\ w_em P w' = w_em P w /\ forall x', get_fd P f w' = Some x' -> exists x, x' = g x /\ get_fd P f w = Some x.
  Proof.
    unfold modify_fd, at_fd. destruct (get_fd P f w) as [x|] eqn:E; [|discriminate]. intros [= <-] C Hs Hb.
    assert (G : forall h, get_fd P h (put_fd P f (g x) w) = if Nat.eq_dec h f then Some (g x) else get_fd P h w).
    { intros h. unfold World.get_fd, put_fd in *. cbn. destruct (Nat.eq_dec h f) as [->|N].
      - apply (nth_upd_same _ _ _ _ _ E).
      - apply nth_upd_other; congruence. }
    split; [|split; [reflexivity|]].
    - split; [|split; [|split]].
      + apply (within_put_fd (fun _ => True) (fun _ => True) w w f x (g x)); auto using within_refl.
      + auto.
      + intros h Hh y. rewrite G. destruct (Nat.eq_dec h f) as [->|N]; [intros [= <-]; apply Hs, Hh, E | apply Hh].
      + intros h Hh y. rewrite G. destruct (Nat.eq_dec h f) as [->|N]; [intros [= <-]; apply Hb, Hh, E | apply Hh].
    - intros x'. rewrite G. destruct (Nat.eq_dec f f); [intros [= <-]; eauto | congruence].
  Qed.

  Theorem fd_reset_step s f w w' : fseed s w f -> fd_reset P fuel f w = (Ok tt, w') ->
    fstep s w w' /\ (forall j, uses P w f j -> fresh_at s w' j) /\ blank w' f.
  Proof.
    intros Hs H. unfold fd_reset, at_fd in H. destruct (get_fd P f w) as [x|] eqn:E; [|discriminate].
    rewrite (Hs x E) in H. apply mbind_ok_inv in H. destruct H as ([] & w3 & H1 & H2).
    unfold mixin_reset in H1. apply mbind_ok_inv in H1. destruct H1 as ([] & w1 & A1 & H1).
    apply mbind_ok_inv in H1. destruct H1 as ([] & w2 & A2 & A3).
    destruct (seed_children_step _ _ _ _ A1) as [S1 Q1].
    destruct (modify_fd_step s f _ w1 w2 A2) as (S2 & G2 & _); [intros y; repeat split | auto | auto |].
    assert (Q2 : forall k, In k (parts P x) -> seed_at s w2 k).
    { intros k Hk e nd. unfold World.get_em. rewrite G2. apply Q1, Hk. }
    destruct (reset_children_step s (em_reset P fuel) (parts P x) ltac:(intros; apply ereset_quiet; exact score_quiet)
      ltac:(intros; eapply ereset_step; eauto) w2 w3 Q2 A3) as [S3 F3].
    destruct (modify_fd_step s f _ w3 w' H2) as (S4 & G4 & X4); [intros y; repeat split | auto | auto |].
    assert (S : fstep s w w3).
    { eapply fstep_trans; [apply step_fstep; exact S1 | eapply fstep_trans; [exact S2 | apply step_fstep; exact S3]]. }
    split; [eapply fstep_trans; eauto|]. split.
    - intros j (y & p & E' & Hp & B). rewrite E in E'. injection E' as <-. apply S4. apply (F3 p j Hp).
      eapply belongs_wconf; [|exact B]. apply (wconf_trans _ w1); [apply S1 | apply S2].
    - intros x' Q. destruct (X4 x' Q) as (y & -> & _). reflexivity.
  Qed.

  Lemma uses_wconf w w' f j : wconf w w' -> uses P w f j -> uses P w' f j.
  Proof.
    intros C (x & p & E & Hp & B). pose proof (proj2 C f) as Cf. rewrite E in Cf.
    destruct (get_fd P f w') as [x'|] eqn:E'; [|contradiction]. destruct Cf as (_ & _ & Q1 & Q2 & Q3).
    exists x', p. split; [exact E'|]. split; [|eapply belongs_wconf; eauto]. unfold parts in *. rewrite <- Q1, <- Q2, <- Q3. exact Hp.
  Qed.

  Theorem sc_reset_step s fs : forall w w', (forall f, In f (map snd fs) -> fseed s w f) ->
    sc_reset_fields P fuel fs w = (Ok tt, w') ->
    fstep s w w' /\ (forall f, In f (map snd fs) -> blank w' f /\ forall j, uses P w f j -> fresh_at s w' j).
  Proof.
    unfold sc_reset_fields. induction (map snd fs) as [|f l IH]; intros w w' Hs H.
    - cbn in H. injection H as <-. split; [apply fstep_refl | intros f []].
    - apply (do_method_ok _ _ (fd_reset P fuel) (f :: l)) in H; [|intros; apply fd_reset_quiet; exact score_quiet].
      destruct H as (w1 & H1 & H2).
      destruct (fd_reset_step s f w w1 (Hs f (or_introl eq_refl)) H1) as (S1 & F1 & B1).
      destruct (IH w1 w') as [S2 F2]; auto.
      { intros g Hg. apply S1, Hs. right; exact Hg. }
      split; [eapply fstep_trans; eauto|]. intros g [<-|Hg].
      + split; [apply S2, B1 | intros j U; apply S2, F1, U].
      + split; [apply F2, Hg|]. intros j U. apply (F2 g Hg). eapply uses_wconf; [apply S1 | exact U].
  Qed.
End ResetProofs.
