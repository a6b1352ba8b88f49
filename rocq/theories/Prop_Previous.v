(** * What fields remember: properties C45, C46, C48 and C51 for fields as objects. *)
From Verif Require Import Base Prims Values MathModel ChoiceModel FixedModel GroupModel
  SigModel SigSpec SigProofs WrapModel WrapSpec Prop_Wrap TextSpec TextModel FieldModel FieldSpec Prop_Field
  World Rel WorldProofs Agree WorldSpec WorldReset Histories Demo WorldDemo.
Open Scope list_scope.
Open Scope Z_scope.

Section Previous.
  Context (P : prims) (fuel : nat) (str_of : val -> res (list Z)).
  Notation world := (World.world P).
  Notation get_em := (World.get_em P).
  Notation get_fd := (World.get_fd P).
  Notation previous := (World.previous P).
  Notation run := (WorldSpec.run P fuel str_of).
  Notation until_raise := (WorldSpec.until_raise P fuel str_of).

  (** ** A document is made by calling the fields in turn *)

  Lemma doc_pieces fs : forall doc w,
    snd (schema_loop (fd_hide P) (fd_call P fuel str_of) fs doc w) =
    snd (until_raise (pieces P (Doc P fs)) w).
  Proof.
    induction fs as [|[n f] t IH]; intros doc w; [reflexivity|].
    cbn [schema_loop pieces map WorldSpec.until_raise WorldSpec.run snd]. unfold mbind, ret.
    destruct (fd_call P fuel str_of f w) as [[v|e|] w1]; try reflexivity.
    rewrite IH. cbn [pieces]. destruct (until_raise _ w1). reflexivity.
  Qed.

  Lemma fd_seed_quiet f s : quiet (fd_seed P fuel f s).
  Proof.
    intros w. unfold fd_seed, at_fd. destruct (get_fd f w) as [x|]; [|discriminate].
    unfold mixin_seed. apply quiet_bind; [apply do_method_quiet|]. intros _ w'.
    unfold catch_attribute_error. destruct (modify_fd _ _ _ _) as [[[]|[]|] w4]; discriminate.
  Qed.

  Lemma loop_pieces (m : nat -> M world unit) (o : nat -> op P) : (forall f, quiet (m f)) ->
    (forall f w, run (o f) w = mbind (m f) (fun _ => ret Done) w) ->
    forall (fs : list (string * nat)) w, snd (group_do_method (fun f _ => Some (m f)) (map Some (map snd fs)) w) =
      snd (until_raise (map (fun nf => o (snd nf)) fs) w).
  Proof.
    intros Q R. induction fs as [|[n f] t IH]; intros w; [reflexivity|].
    cbn [map WorldSpec.until_raise snd]. rewrite R. cbn [group_do_method]. unfold mbind at 1. unfold catch_attribute_error.
    unfold mbind. pose proof (Q f w) as Qf. destruct (m f w) as [[[]|e|] w1]; cbn [fst] in Qf.
    - unfold ret. rewrite IH. destruct (until_raise _ w1). reflexivity.
    - destruct e; try reflexivity. exfalso; apply Qf; reflexivity.
    - reflexivity.
  Qed.

  Theorem run_pieces o w : snd (run o w) = snd (until_raise (pieces P o) w).
  Proof.
    assert (One : forall o, snd (run o w) = snd (until_raise [o] w)).
    { intros o'. cbn [WorldSpec.until_raise]. destruct (run o' w) as [[a|e|] w1]; reflexivity. }
    destruct o; try apply One.
    - cbn [WorldSpec.run]. rewrite <- (doc_pieces fs []). unfold sc_call, schema_call, mbind, ret. destruct (schema_loop _ _ _ _ _) as [[]]; reflexivity.
    - cbn [WorldSpec.run pieces].
      rewrite <- (loop_pieces (fd_reset P fuel) (Reset P) (fd_reset_quiet P fuel) ltac:(reflexivity)).
      unfold sc_reset_fields, mbind, ret. destruct (group_do_method _ _ _) as [[]]; reflexivity.
    - cbn [WorldSpec.run pieces].
      rewrite <- (loop_pieces (fun f => fd_seed P fuel f s) (fun f => Seed P f s) (fun f => fd_seed_quiet f s) ltac:(reflexivity)).
      unfold sc_seed_fields, mbind, ret. destruct (group_do_method _ _ _) as [[]]; reflexivity.
  Qed.

  (** ** C45 *)

  Definition basic (o : op P) : Prop :=
    match o with Doc _ _ | ResetFields _ _ | SeedFields _ _ _ => False | _ => True end.

  (** What emitters do, fields do not remember. *)
  Lemma within_em (w w' : world) : within (fun _ => True) (fun _ => False) w w' -> forall f, get_fd f w' = get_fd f w.
  Proof. intros (_ & _ & H) f. symmetry. apply H. auto. Qed.
  Lemma closed_none (w : world) : closed (fun _ => True) (fun _ => False) w.
  Proof. split; [auto | intros f x p []]. Qed.
  Definition blind {A} (m : M world A) : Prop := forall w f, get_fd f (snd (m w)) = get_fd f w.
  Lemma blind_bind A B (m : M world A) (k : A -> M world B) : blind m -> (forall a, blind (k a)) -> blind (mbind m k).
  Proof.
    intros H1 H2 w f. unfold mbind. pose proof (H1 w f) as Q. destruct (m w) as [[a|e|] w1]; cbn [snd] in *; try exact Q.
    rewrite <- Q. apply H2.
  Qed.
  Lemma blind_run A (o : op P) (m : M world A) (k : A -> answer) : allowed (fun _ => True) (fun _ => True) (fun _ => False) o ->
    run o = (fun w => (a <~ m ;; ret (k a)) w) -> blind m.
  Proof.
    intros Ho E w f. pose proof (run_within fuel str_of _ _ w o (closed_none w) Ho) as H. rewrite E in H.
    unfold mbind, ret in H. rewrite <- (within_em _ _ H f). destruct (m w) as [[]]; reflexivity.
  Qed.
  Lemma blind_call i : blind (em_call P fuel str_of i).
  Proof. apply (blind_run _ (Emit P i) _ Value); [exact I | reflexivity]. Qed.
  Lemma blind_call_n i n : blind (em_call_n P fuel str_of i n).
  Proof. apply (blind_run _ (EmitN P i n) _ Values); [exact I | reflexivity]. Qed.
  Lemma blind_lift A (r : res A) : blind (lift r).
  Proof. intros w f. reflexivity. Qed.
  Lemma blind_call_val i v : blind (call_val (em_call P fuel str_of i) (em_call_n P fuel str_of i) v).
  Proof.
    unfold call_val. destruct v; try apply blind_call; try (intros w f; reflexivity);
      (apply blind_bind; [apply blind_lift | intros n; apply blind_bind; [apply blind_call_n | intros a w f; reflexivity]]).
  Qed.

  Lemma get_put_fd f x y (w : world) : get_fd f w = Some y -> get_fd f (put_fd P f x w) = Some x.
  Proof. intros H. unfold World.get_fd, put_fd in *. cbn. eapply nth_upd_same. exact H. Qed.

  (** A call of a field: what it returns, it remembers; if it raises an exception,
      it remembers what it did before. *)
  Theorem call_previous f w : get_fd f w <> None ->
    match fd_call P fuel str_of f w with
    | (Ok v, w') => previous f w' = v
    | (_, w') => previous f w' = previous f w
    end.
  Proof.
    intros Hf. unfold fd_call, at_fd. destruct (get_fd f w) as [x|] eqn:E; [|congruence]. clear Hf.
    unfold field_call, mbind at 1. pose proof (blind_call (f_gate P x) w f) as B0.
    assert (Set_ : forall v w1, get_fd f w1 = get_fd f w ->
      exists w2, modify_fd P f (fd_cache P v) w1 = (Ok tt, w2) /\ previous f w2 = v).
    { intros v w1 Q. unfold modify_fd, at_fd. rewrite Q, E. eexists. split; [reflexivity|]. unfold World.previous.
      rewrite (get_put_fd _ _ x); [reflexivity | congruence]. }
    assert (Same : forall w1, get_fd f w1 = get_fd f w -> previous f w1 = previous f w).
    { intros w1 Q. unfold World.previous. rewrite Q. reflexivity. }
    destruct (em_call P fuel str_of (f_gate P x) w) as [[g|e|] w1]; cbn [snd] in B0; try (apply Same; exact B0).
    destruct (truthy g).
    - unfold mbind at 1. pose proof (blind_call (f_rep P x) w1 f) as B1.
      destruct (em_call P fuel str_of (f_rep P x) w1) as [[r|e|] w2]; cbn [snd] in B1; try (apply Same; congruence).
      unfold mbind at 1. pose proof (blind_call_val (f_em P x) r w2 f) as B2.
      destruct (call_val _ _ r w2) as [[v|e|] w3]; cbn [snd] in B2; try (apply Same; congruence).
      destruct (Set_ v w3 ltac:(congruence)) as (w4 & Q1 & Q2). unfold mbind. rewrite Q1. exact Q2.
    - destruct (Set_ VNone w1 ltac:(congruence)) as (w4 & Q1 & Q2). unfold mbind. rewrite Q1. exact Q2.
  Qed.

  (** Computations after which every field remembers what it did before. *)
  Definition kept {A} (m : M world A) : Prop := forall w f, previous f (snd (m w)) = previous f w.
  Lemma kept_bind A B (m : M world A) (k : A -> M world B) : kept m -> (forall a, kept (k a)) -> kept (mbind m k).
  Proof.
    intros H1 H2 w f. unfold mbind. pose proof (H1 w f) as Q. destruct (m w) as [[a|e|] w1]; cbn [snd] in *; try exact Q.
    rewrite <- Q. apply H2.
  Qed.
  Lemma kept_ret A (a : A) : kept (ret a).
  Proof. intros w f. reflexivity. Qed.
  Lemma blind_kept A (m : M world A) : blind m -> kept m.
  Proof. intros H w f. unfold World.previous. rewrite H. reflexivity. Qed.
  Lemma kept_catch (m : M world unit) : kept m -> kept (catch_attribute_error m).
  Proof. intros H w f. specialize (H w f). unfold catch_attribute_error. destruct (m w) as [[[]|[]|] w1]; exact H. Qed.
  Lemma kept_do_method O (meth : O -> world -> option (M world unit)) objs :
    (forall o w m, meth o w = Some m -> kept m) -> kept (group_do_method meth objs).
  Proof.
    intros H. induction objs as [|[o|] t IH]; cbn [group_do_method]; [apply kept_ret | | exact IH].
    apply kept_bind; [|intros _; exact IH]. intros w f. unfold catch_attribute_error. destruct (meth o w) as [m|] eqn:E; [|reflexivity].
    apply (kept_catch m (H o w m E) w f).
  Qed.
  Lemma kept_setattr O (has : O -> world -> bool) (set : O -> M world unit) objs :
    (forall o, kept (set o)) -> kept (group_setattr has set objs).
  Proof.
    intros H. induction objs as [|[o|] t IH]; cbn [group_setattr]; [apply kept_ret | | exact IH].
    apply kept_bind; [|intros _; exact IH]. intros w f. destruct (has o w); [apply H | reflexivity].
  Qed.
  Lemma kept_modify g (h : World.field P -> World.field P) : (forall x, f_cache P (h x) = f_cache P x) -> kept (modify_fd P g h).
  Proof.
    intros H w f. unfold modify_fd, at_fd. destruct (get_fd g w) as [x|] eqn:E; [|reflexivity]. cbn [snd].
    destruct (Nat.eq_dec g f) as [<-|N].
    - unfold World.previous. rewrite (get_put_fd _ _ _ _ E), E. apply H.
    - unfold World.previous, World.get_fd, put_fd. cbn. rewrite nth_upd_other by exact N. reflexivity.
  Qed.
  Lemma kept_em_reset i : kept (em_reset P fuel i).
  Proof. apply blind_kept, (blind_run _ (ResetEm P i) _ (fun _ => Done)); [exact I | reflexivity]. Qed.
  Lemma kept_em_seed s i : kept (em_seed P fuel i s).
  Proof. apply blind_kept, (blind_run _ (SeedEm P i s) _ (fun _ => Done)); [cbn; auto | reflexivity]. Qed.
  Lemma kept_set_seed s i : kept (set_rng_seed P s i).
  Proof. apply blind_kept, (blind_run _ (SetSeedEm P i s) _ (fun _ => Done)); [cbn; auto | reflexivity]. Qed.

  Lemma reset_previous f w : get_fd f w <> None ->
    match fd_reset P fuel f w with
    | (Ok _, w') => previous f w' = VNone
    | (_, w') => previous f w' = previous f w
    end.
  Proof.
    intros Hf. unfold fd_reset, at_fd. destruct (get_fd f w) as [x|] eqn:E; [|congruence].
    assert (K : kept (mixin_reset P (em_reset P fuel) (fd_own_rng P f) (n_seed P (f_nd P x)) (parts P x))).
    { apply kept_bind; [apply kept_setattr; intros; apply kept_set_seed|]. intros _.
      apply kept_bind; [apply kept_modify; reflexivity|]. intros _.
      apply kept_do_method. intros o w' m [= <-]. apply kept_em_reset. }
    unfold mbind. specialize (K w f). destruct (mixin_reset _ _ _ _ _ w) as [[[]|e|] w1] eqn:Em; try exact K.
    unfold modify_fd, at_fd. destruct (get_fd f w1) as [y|] eqn:Ey.
    - unfold World.previous. rewrite (get_put_fd _ _ _ _ Ey). reflexivity.
    - exact K.
  Qed.
  Lemma seed_previous g s : kept (fd_seed P fuel g s).
  Proof.
    intros w f. unfold fd_seed, at_fd. destruct (get_fd g w) as [x|] eqn:E; [|reflexivity].
    refine (kept_bind _ _ _ _ _ _ w f).
    - apply kept_do_method. intros o w' m. destruct (has_seed P o w'); [intros [= <-]; apply kept_em_seed | discriminate].
    - intros _. apply kept_catch, kept_modify. reflexivity.
  Qed.

  Lemma no_field f (w : world) : get_fd f w = None -> forall o, get_fd f (snd (run o w)) = None.
  Proof.
    intros E o. pose proof (proj2 (run_conf fuel str_of w o) f) as C. rewrite E in C.
    destruct (get_fd f (snd (run o w))); [contradiction | reflexivity].
  Qed.

  Lemma basic_previous f o w : basic o ->
    previous f (snd (run o w)) = last_returned P f [(o, fst (run o w))] (previous f w).
  Proof.
    intros B. unfold last_returned; cbn [fold_left].
    assert (Em : allowed (fun _ => True) (fun _ => True) (fun _ => False) o -> previous f (snd (run o w)) = previous f w).
    { intros H. unfold World.previous. rewrite (within_em _ _ (run_within fuel str_of _ _ w o (closed_none w) H) f). reflexivity. }
    assert (Other : forall g, g <> f -> allowed (fun _ => True) (fun _ => True) (fun h => h = g) o -> previous f (snd (run o w)) = previous f w).
    { intros g N H.
      assert (C : closed (fun _ => True) (fun h => h = g) w) by (split; auto).
      destruct (run_within fuel str_of _ _ w o C H) as (_ & _ & Q & _). unfold World.previous. rewrite <- (Q f); [reflexivity | congruence]. }
    destruct o as [| | | | |g|g|g s|g s| | |]; try contradiction B; try (apply Em; cbn; auto; fail).
    - (* Call *) destruct (Nat.eqb_spec g f) as [->|N].
      + destruct (get_fd f w) as [x|] eqn:E.
        * pose proof (call_previous f w ltac:(congruence)) as H. cbn [WorldSpec.run]. unfold mbind, ret.
          destruct (fd_call P fuel str_of f w) as [[v|e|] w']; exact H.
        * pose proof (no_field f w E (Call P f)) as H. unfold World.previous. rewrite H, E.
          cbn [WorldSpec.run]. unfold fd_call, at_fd, mbind, ret. rewrite E. reflexivity.
      + rewrite (Other g N ltac:(cbn; auto)). destruct (fst (run (Call P g) w)) as [[]| |]; reflexivity.
    - (* Reset *) destruct (Nat.eqb_spec g f) as [->|N].
      + destruct (get_fd f w) as [x|] eqn:E.
        * pose proof (reset_previous f w ltac:(congruence)) as H. cbn [WorldSpec.run]. unfold mbind, ret.
          destruct (fd_reset P fuel f w) as [[v|e|] w']; exact H.
        * pose proof (no_field f w E (Reset P f)) as H. unfold World.previous. rewrite H, E. 
          cbn [WorldSpec.run]. unfold fd_reset, at_fd, mbind, ret. rewrite E. reflexivity.
      + rewrite (Other g N ltac:(cbn; auto)). destruct (fst (run (Reset P g) w)) as [[]| |]; reflexivity.
    - cbn [WorldSpec.run]. pose proof (seed_previous g s w f) as H. unfold mbind, ret. destruct (fd_seed P fuel g s w) as [[]]; exact H.
    - cbn [WorldSpec.run]. pose proof (kept_modify g (fun x => fd_node P (mkNode P s (n_rng P (f_nd P x))) (f_ent P x) x) ltac:(reflexivity) w f) as H.
      unfold fd_set_seed, mbind, ret. destruct (modify_fd _ _ _ _) as [[]]; exact H.
  Qed.

  Lemma until_previous f : forall l w, Forall basic l ->
    previous f (snd (until_raise l w)) = last_returned P f (fst (until_raise l w)) (previous f w).
  Proof.
    induction l as [|o t IH]; intros w H; [reflexivity|]. inversion H as [|? ? Ho Ht]; subst. cbn [WorldSpec.until_raise].
    pose proof (basic_previous f o w Ho) as Q. destruct (run o w) as [[a|e|] w1]; cbn [fst snd] in Q; try exact Q.
    specialize (IH w1 Ht). destruct (until_raise t w1) as [rs w2]. cbn [fst snd] in *. rewrite IH, Q. reflexivity.
  Qed.
  Lemma pieces_basic o : Forall basic (pieces P o).
  Proof. destruct o; cbn; try (constructor; [exact I | constructor]); apply Forall_forall; intros x Hx; apply in_map_iff in Hx; destruct Hx as (? & <- & _); exact I. Qed.

  (** Whatever is done, and whatever raises exceptions: the [previous] of a field
      is the value it returned when it was last called, or None if it has been
      reset since. *)
  Theorem C45_previous f : forall h w,
    previous f (after P fuel str_of h w) = last_returned P f (steps P fuel str_of h w) (previous f w).
  Proof.
    induction h as [|o t IH]; intros w; [reflexivity|].
    unfold after. cbn [history steps]. unfold last_returned. rewrite fold_left_app.
    change (fold_left _ (fst (until_raise (pieces P o) w)) (previous f w)) with (last_returned P f (fst (until_raise (pieces P o) w)) (previous f w)).
    rewrite <- (until_previous f _ _ (pieces_basic o)), <- run_pieces.
    destruct (run o w) as [r w1]. cbn [snd]. specialize (IH w1). unfold after in IH.
    destruct (history P fuel str_of t w1) as [rs w2]. exact IH.
  Qed.

  Theorem C45_new name em rep gate hide seed w f w' :
    new_field P fuel name em rep gate hide seed w = (Ok f, w') -> previous f w' = VNone.
  Proof.
    unfold new_field. intros H. apply mbind_ok_inv in H. destruct H as (r & w1 & _ & H).
    apply mbind_ok_inv in H. destruct H as (g & w2 & _ & H).
    apply mbind_ok_inv in H. destruct H as (f' & w3 & H3 & H).
    apply mbind_ok_inv in H. destruct H as ([] & w4 & H4 & H). injection H as -> ->.
    injection H3 as <- <-.
    match type of H4 with fd_reset _ _ ?f ?w = _ => pose proof (reset_previous f w) as Q end.
    rewrite H4 in Q. apply Q. unfold World.get_fd. cbn [w_fd]. rewrite nth_error_app2 by lia. rewrite Nat.sub_diag. discriminate.
  Qed.

  (** ** C46 *)

  (** A closed gate: the field returns None; of all the emitters only the gate and
      its parts have been used, and no other field has changed. *)
  Theorem C46_gate f x w g w1 :
    get_fd f w = Some x -> em_call P fuel str_of (f_gate P x) w = (Ok g, w1) -> falsy g ->
    exists w', fd_call P fuel str_of f w = (Ok VNone, w') /\ previous f w' = VNone /\
      (forall j, ~ belongs P w (f_gate P x) j -> nth_error (w_em P w') j = nth_error (w_em P w) j) /\
      (forall h, h <> f -> get_fd h w' = get_fd h w).
  Proof.
    intros E G Hg.
    pose proof (blind_call (f_gate P x) w f) as B. rewrite G in B. cbn [snd] in B.
    assert (W : within (belongs P w (f_gate P x)) (fun _ => False) w w1).
    { pose proof (run_within fuel str_of _ _ w (Emit P (f_gate P x)) (closed_tree w (f_gate P x)) (belongs_self P w _)) as W.
      cbn [WorldSpec.run] in W. unfold mbind in W. rewrite G in W. exact W. }
    assert (C : modify_fd P f (fd_cache P VNone) w1 = (Ok tt, put_fd P f (fd_cache P VNone x) w1)).
    { unfold modify_fd, at_fd. rewrite B, E. reflexivity. }
    exists (put_fd P f (fd_cache P VNone x) w1). split; [|split; [|split]].
    - unfold fd_call, at_fd. rewrite E. eapply C46_closed; eauto.
    - unfold World.previous. rewrite (get_put_fd _ _ x); [reflexivity | congruence].
    - intros j Hj. cbn. symmetry. apply W. exact Hj.
    - intros h Hh. unfold World.get_fd, put_fd. cbn. rewrite nth_upd_other by congruence. symmetry. apply W. auto.
  Qed.

  (** ** C48 *)

  Lemma hide_wconf (w w' : world) f : wconf w w' -> fd_hide P f w' = fd_hide P f w.
  Proof.
    intros [_ C]. specialize (C f). unfold fd_hide. destruct (get_fd f w) as [x|], (get_fd f w') as [x'|]; try contradiction; try reflexivity.
    symmetry. apply C.
  Qed.
  Lemma call_conf f (w : world) : wconf w (snd (fd_call P fuel str_of f w)).
  Proof.
    pose proof (run_conf fuel str_of w (Call P f)) as C. cbn [WorldSpec.run] in C. unfold mbind, ret in C.
    destruct (fd_call P fuel str_of f w) as [[]]; exact C.
  Qed.

  (** [each_previous]: all fields have been called, and remember their value. *)
  Lemma call_other f g w v w' : fd_call P fuel str_of g w = (Ok v, w') -> g <> f -> previous f w' = previous f w.
  Proof.
    intros H N. pose proof (basic_previous f (Call P g) w I) as Q. cbn [WorldSpec.run] in Q. unfold mbind, ret in Q.
    rewrite H in Q. cbn in Q. destruct (Nat.eqb_spec g f); [contradiction | exact Q].
  Qed.
  Lemma call_same f w v w' : fd_call P fuel str_of f w = (Ok v, w') -> previous f w' = v.
  Proof.
    intros H. assert (E : get_fd f w <> None).
    { intros E. unfold fd_call, at_fd in H. rewrite E in H. discriminate. }
    pose proof (call_previous f w E) as Q. rewrite H in Q. exact Q.
  Qed.
  Lemma each_other f : forall ids w vals w', each (fd_call P fuel str_of) ids w vals w' -> ~ In f ids -> previous f w' = previous f w.
  Proof.
    induction ids as [|g t IH]; intros w vals w' H N; inversion H; subst; [reflexivity|].
    rewrite (IH _ _ _ ltac:(eassumption)) by (intros Q; apply N; right; exact Q).
    eapply call_other; eauto. intros ->. apply N. left; reflexivity.
  Qed.
  Lemma each_previous : forall ids w vals w', each (fd_call P fuel str_of) ids w vals w' -> NoDup ids ->
    vals = map (fun f => previous f w') ids.
  Proof.
    induction ids as [|g t IH]; intros w vals w' H N; inversion H; subst; [reflexivity|]. inversion N; subst. cbn. f_equal; [|eauto].
    rewrite (each_other g t _ _ _ ltac:(eassumption)) by assumption. symmetry. eapply call_same; eauto.
  Qed.

  (** schema(): the fields that are not hidden, in order, each with the value it
      now has as [previous]; all the fields, hidden ones included, have been called
      in order, each once. *)
  Theorem C48_document fs w doc w' :
    NoDup (map fst fs) -> NoDup (map snd fs) ->
    sc_call P fuel str_of fs w = (Ok doc, w') ->
    doc = map (fun nf => (fst nf, previous (snd nf) w')) (filter (fun nf => negb (fd_hide P (snd nf) w)) fs) /\
    history P fuel str_of (map (fun nf => Call P (snd nf)) fs) w =
      (map (fun nf => Ok (Value (previous (snd nf) w'))) fs, w').
  Proof.
    intros N1 N2 H. unfold sc_call in H. apply C48_schema in H; [|intros f g s; apply hide_wconf, call_conf | exact N1].
    destruct H as (vals & E & ->). pose proof (each_previous _ _ _ _ E N2) as V. split.
    - subst vals. rewrite map_map. unfold document. clear. induction fs as [|[n f] t IH]; [reflexivity|]. cbn.
      destruct (fd_hide P f w); cbn; [exact IH | f_equal; exact IH].
    - assert (R : forall fs (w : world) vals, each (fd_call P fuel str_of) (map (@snd string nat) fs) w vals w' ->
        history P fuel str_of (map (fun nf => Call P (snd nf)) fs) w = (map (fun v => Ok (Value v)) vals, w')).
      { clear. induction fs as [|[n f] t IH]; intros w vals E; cbn in E; inversion E; subst; [reflexivity|].
        cbn [map history WorldSpec.run snd]. unfold mbind. match goal with Hc : fd_call _ _ _ f w = _ |- _ => rewrite Hc end.
        unfold ret at 1. rewrite (IH _ _ ltac:(eassumption)). reflexivity. }
      rewrite (R _ _ _ E), V, !map_map. reflexivity.
  Qed.

  (** ** C51 *)

  Lemma each_app : forall l1 l2 w vals w', each (fd_call P fuel str_of) (l1 ++ l2) w vals w' ->
    exists v1 v2 w1, vals = v1 ++ v2 /\ each (fd_call P fuel str_of) l1 w v1 w1 /\ each (fd_call P fuel str_of) l2 w1 v2 w'.
  Proof.
    induction l1 as [|g t IH]; intros l2 w vals w' H.
    - exists [], vals, w. split; [reflexivity|]. split; [constructor | exact H].
    - cbn in H. inversion H; subst. destruct (IH _ _ _ _ ltac:(eassumption)) as (v1 & v2 & w1 & -> & A1 & A2).
      exists (b :: v1), v2, w1. split; [reflexivity|]. split; [econstructor; eauto | exact A2].
  Qed.
  Lemma each_conf : forall ids w vals w', each (fd_call P fuel str_of) ids w vals w' -> wconf w w'.
  Proof.
    induction ids as [|g t IH]; intros w vals w' H; inversion H; subst; [apply wconf_refl|].
    eapply wconf_trans; [|eapply IH; eauto]. pose proof (call_conf g w) as C.
    match goal with Hc : fd_call _ _ _ g w = _ |- _ => rewrite Hc in C end. exact C.
  Qed.

  (** A field with the default repeat and gate emitters that copies field [f]. *)
  Definition copies (w : world) (g f : nat) : Prop :=
    exists y, get_fd g w = Some y /\ get_em (f_em P y) w = Some (ECopy P true [f] None) /\
      get_em (f_gate P y) w = Some (EStatic P (static_new (VBool true))) /\
      get_em (f_rep P y) w = Some (EStatic P (static_new VNone)).

  Lemma copies_call (w : world) g f : copies w g f ->
    fst (fd_call P fuel str_of g w) = copy_emit str_of true None [(field_multi P w f, previous f w)].
  Proof.
    intros (y & E & Em & Eg & Er). unfold fd_call, at_fd. rewrite E.
    assert (S1 : em_call P fuel str_of (f_gate P y) w = (Ok (VBool true), w)).
    { unfold em_call, em_emit. cbn [emits fst]. unfold emit_body, at_em. rewrite Eg. reflexivity. }
    assert (S2 : em_call P fuel str_of (f_rep P y) w = (Ok VNone, w)).
    { unfold em_call, em_emit. cbn [emits fst]. unfold emit_body, at_em. rewrite Er. reflexivity. }
    assert (S3 : em_call P fuel str_of (f_em P y) w = (copy_emit str_of true None [(field_multi P w f, previous f w)], w)).
    { unfold em_call, em_emit. cbn [emits fst]. unfold emit_body, at_em. rewrite Em. reflexivity. }
    unfold field_call. unfold mbind at 1. rewrite S1. cbn [truthy]. unfold mbind at 1. rewrite S2. cbn [call_val].
    unfold mbind at 1. rewrite S3. destruct (copy_emit _ _ _ _) as [v|e|]; try reflexivity.
    unfold mbind, modify_fd, at_fd. rewrite E. reflexivity.
  Qed.
  Lemma copies_wconf w w' g f : wconf w w' -> copies w g f -> copies w' g f.
  Proof.
    intros [C1 C2] (y & E & Em & Eg & Er). pose proof (C2 g) as Q. rewrite E in Q. destruct (get_fd g w') as [y'|] eqn:E'; [|contradiction].
    destruct Q as (_ & _ & Q1 & Q2 & Q3). exists y'. split; [exact E'|]. rewrite <- Q1, <- Q2, <- Q3.
    assert (St : forall i s, get_em i w = Some (EStatic P s) -> get_em i w' = Some (EStatic P s)).
    { intros i s Ei. pose proof (C1 i) as Q. rewrite Ei in Q. destruct (get_em i w') as [[]|]; try contradiction. cbn in Q. congruence. }
    split; [|auto]. pose proof (C1 (f_em P y)) as Q. rewrite Em in Q. destruct (get_em (f_em P y) w') as [[]|]; try contradiction.
    cbn in Q. destruct Q as (<- & <- & <-). reflexivity.
  Qed.

  Lemma in_order_call fs pre nf f mid ng g post w vals w' :
    fs = pre ++ (nf, f) :: mid ++ (ng, g) :: post -> NoDup (map snd fs) -> copies w g f ->
    each (fd_call P fuel str_of) (map (@snd string nat) fs) w vals w' ->
    copy_emit str_of true None [(field_multi P w f, previous f w')] = Ok (previous g w').
  Proof.
    intros -> N C E. rewrite !map_app in *. cbn [map snd] in *. rewrite map_app in *. cbn [map snd] in *.
    pose proof (each_previous _ _ _ _ E N) as V.
    destruct (each_app _ _ _ _ _ E) as (v1 & v2 & w1 & -> & E1 & E2). inversion E2 as [|? ? ? ? w2 ? ? F2 E3]; subst.
    destruct (each_app _ _ _ _ _ E3) as (v3 & v4 & w3 & -> & E4 & E5). inversion E5 as [|? ? ? ? w4 ? ? G5 E6]; subst.
    assert (Nf : ~ In f (map snd mid ++ g :: map snd post)) by (apply NoDup_remove_2 in N; intros Q; apply N, in_or_app; right; exact Q).
    assert (Ng : ~ In g (map snd post)).
    { apply NoDup_remove_1 in N. rewrite app_assoc in N. apply NoDup_remove_2 in N. intros Q. apply N, in_or_app. right; exact Q. }
    rewrite (each_other f _ _ _ _ E6) by (intros Q; apply Nf, in_or_app; right; right; exact Q).
    rewrite (call_other f g _ _ _ G5) by (intros ->; apply Nf, in_or_app; right; left; reflexivity).
    rewrite (each_other g _ _ _ _ E6 Ng), (call_same _ _ _ _ G5).
    assert (W : wconf w w3).
    { eapply wconf_trans; [eapply each_conf; exact E1|]. eapply wconf_trans; [|eapply each_conf; exact E4].
      pose proof (call_conf f w1) as Q. rewrite F2 in Q. exact Q. }
    pose proof (copies_call w3 g f (copies_wconf _ _ _ _ W C)) as Q. rewrite G5 in Q. cbn [fst] in Q.
    rewrite (multi_wconf _ _ _ W). symmetry. exact Q.
  Qed.

  (** Field [g] copies field [f], which comes before it in the schema.  In every
      document, if [f] is single-valued, or its value is a list that is not empty,
      [g] has the value [f] has. *)
  Theorem C51_copy_partial fs pre nf f mid ng g post w doc w' :
    fs = pre ++ (nf, f) :: mid ++ (ng, g) :: post ->
    NoDup (map fst fs) -> NoDup (map snd fs) -> copies w g f ->
    sc_call P fuel str_of fs w = (Ok doc, w') ->
    field_multi P w f = false \/ (exists x l, previous f w' = VList (x :: l)) ->
    exists v,
      (fd_hide P f w = false -> In (nf, v) doc) /\
      (fd_hide P g w = false -> In (ng, v) doc) /\
      previous f w' = v /\ previous g w' = v.
  Proof.
    intros Hfs N1 N2 C H Hm. destruct (C48_document fs w doc w' N1 N2 H) as [D _].
    assert (Q : previous g w' = previous f w').
    { unfold sc_call in H. apply C48_schema in H; [|intros a b s; apply hide_wconf, call_conf | exact N1].
      destruct H as (vals & E & _). pose proof (in_order_call fs pre nf f mid ng g post w vals w' Hfs N2 C E) as Q.
      destruct Hm as [Hm | (x & l & Hv)].
      - rewrite Hm in Q. cbn in Q. congruence.
      - rewrite Hv in *. destruct (field_multi P w f); cbn in Q; [rewrite app_nil_r in Q|]; congruence. }
    exists (previous f w'). split; [|split; [|split; [reflexivity | exact Q]]]; intros Hh; subst doc.
    - apply in_map_iff. exists (nf, f). split; [reflexivity|]. apply filter_In. cbn [snd]. rewrite Hh. split; [|reflexivity].
      rewrite Hfs. apply in_or_app. right. left. reflexivity.
    - apply in_map_iff. exists (ng, g). cbn [fst snd]. rewrite Q. split; [reflexivity|]. apply filter_In. cbn [snd]. rewrite Hh. split; [|reflexivity].
      rewrite Hfs. apply in_or_app. right. right. apply in_or_app. right. left. reflexivity.
  Qed.

  (** What the copy of a field with value [v] has.  A field that has only single
      values is copied as it is.  Of the others the copy makes a list: the empty
      list becomes None, and a single value, which such a field gives when it is
      asked for None repetitions, becomes a list of one. *)
  Definition copy_value (several : bool) (v : val) : val :=
    if several then
      match v with
      | VNone | VList [] | VTuple [] => VNone
      | VList l | VTuple l => VList l
      | x => VList [x]
      end
    else v.

  (** In every document the copy has exactly that, so it has the value of the field
      unless this is an empty list, a tuple or a single value of a field with several. *)
  Theorem C51_exact fs pre nf f mid ng g post w doc w' :
    fs = pre ++ (nf, f) :: mid ++ (ng, g) :: post ->
    NoDup (map fst fs) -> NoDup (map snd fs) -> copies w g f ->
    sc_call P fuel str_of fs w = (Ok doc, w') ->
    previous g w' = copy_value (field_multi P w f) (previous f w') /\
    (previous g w' = previous f w' <->
       field_multi P w f = false \/ previous f w' = VNone \/ exists x l, previous f w' = VList (x :: l)).
  Proof.
    intros Hfs N1 N2 C H.
    assert (Q : previous g w' = copy_value (field_multi P w f) (previous f w')).
    { unfold sc_call in H. apply C48_schema in H; [|intros a b s; apply hide_wconf, call_conf | exact N1].
      destruct H as (vals & E & _). pose proof (in_order_call fs pre nf f mid ng g post w vals w' Hfs N2 C E) as Q.
      destruct (field_multi P w f); cbn in Q; [|cbn; congruence].
      rewrite app_nil_r in Q. destruct (previous f w') as [| | | |[]|[]|]; cbn in Q |- *; congruence. }
    split; [exact Q|]. rewrite Q. clear. destruct (field_multi P w f); cbn [copy_value].
    - destruct (previous f w') as [|b|z|s|[|x l]|[|x l]|z]; split; intros H; try discriminate H; eauto 6;
        destruct H as [H|[H|(x' & l' & H)]]; discriminate H.
    - split; [left; reflexivity | reflexivity].
  Qed.
End Previous.

Definition is_copy (w : world DP) (i f : nat) : bool :=
  match get_em DP i w with Some (ECopy _ true [h] None) => Nat.eqb h f | _ => false end.
Definition is_true (w : world DP) (i : nat) : bool :=
  match get_em DP i w with Some (EStatic _ (mkStatic (VBool true) [VBool true])) => true | _ => false end.
Definition is_none (w : world DP) (i : nat) : bool :=
  match get_em DP i w with Some (EStatic _ (mkStatic VNone [VNone])) => true | _ => false end.
Lemma copies_check w g f : match parts_of w g with [e; r; t] => is_copy w e f && is_none w r && is_true w t | _ => false end = true ->
  copies DP w g f.
Proof.
  unfold copies, parts_of. destruct (get_fd DP g w) as [y|] eqn:E; [|discriminate]. cbn [parts].
  unfold is_copy, is_none, is_true. intros H. exists y. split; [reflexivity|]. revert H.
  destruct (get_em DP (f_em DP y) w) as [[]|]; try discriminate. destruct single; try discriminate.
  destruct source as [|h [|]]; try discriminate. destruct separator; try discriminate.
  destruct (Nat.eqb_spec h f) as [->|]; try discriminate. cbn [andb].
  destruct (get_em DP (f_rep DP y) w) as [[[[] [|[] []]]| | | | | | | | | |]|]; try discriminate. cbn [andb].
  destruct (get_em DP (f_gate DP y) w) as [[[[| [] | | | | |] [|[|[]| | | | |] []]]| | | | | | | | | |]|]; try discriminate. auto.
Qed.

(** The full claim... *)
Definition C51_statement : Prop := forall P fuel str_of fs pre nf f mid ng g post w doc w',
    fs = pre ++ (nf, f) :: mid ++ (ng, g) :: post ->
    NoDup (map fst fs) -> NoDup (map snd fs) -> copies P w g f ->
    sc_call P fuel str_of fs w = (Ok doc, w') ->
    previous P g w' = previous P f w'.
(** ... is not true of a field that has emitted the empty list: its copy has None. *)
Definition none_schema : M (world DP) (list (string * nat)) :=
  a <~ new_static DP (VInt 5) ;;
  z <~ new_static DP (VInt 0) ;;
  f <~ new_field DP 9 "a" a (Some z) None false None ;;
  c <~ new_copy DP true [f] None ;;
  g <~ new_field DP 9 "b" c None None false None ;;
  ret [("a", f); ("b", g)]%string.
Theorem C51_copy_refuted : ~ C51_statement.
Proof.
  intros H.
  specialize (H DP 9%nat demo_str [("a", 0%nat); ("b", 1%nat)]%string [] "a"%string 0%nat [] "b"%string 1%nat []
    (made_world none_schema) [("a", VList []); ("b", VNone)]%string (snd (sc_call DP 9 demo_str [("a", 0%nat); ("b", 1%nat)]%string (made_world none_schema)))
    eq_refl).
  assert (Q : VNone = VList []); [|discriminate].
  transitivity (previous DP 1 (snd (sc_call DP 9 demo_str [("a", 0%nat); ("b", 1%nat)]%string (made_world none_schema)))); [vm_compute; reflexivity|].
  rewrite H; [vm_compute; reflexivity | | | |].
  - cbn. repeat constructor; cbn; intuition discriminate.
  - cbn. repeat constructor; cbn; intuition discriminate.
  - apply copies_check; vm_compute; reflexivity.
  - apply ran. vm_compute. reflexivity.
Qed.

(** Concrete cases *)
Example C45_case :
  let h := [Doc DP demo_fields; Doc DP demo_fields; Emit DP 0; Call DP 0; Reset DP 2; SeedFields DP demo_fields (Some 3%nat)] in
  previous DP 0 (after DP 9 demo_str h demo_world) = VInt 3 /\ previous DP 1 (after DP 9 demo_str h demo_world) = VInt 1 /\
  previous DP 2 (after DP 9 demo_str h demo_world) = VNone /\ previous DP 3 (after DP 9 demo_str h demo_world) = VInt 20 /\
  length (steps DP 9 demo_str h demo_world) = 15%nat.
Proof. vm_compute. repeat split. Qed.
Example C51_case : copies DP demo_world 1 0 /\ field_multi DP demo_world 0 = false /\ fst (sc_call DP 9 demo_str demo_fields demo_world) = 
  Ok [("id", VInt 3); ("copy", VInt 3); ("word", VStr [98; 97; 98])]%string.
Proof.
  split; [|split; vm_compute; reflexivity].
  apply copies_check; vm_compute; reflexivity.
Qed.
(** A field that is asked for None repetitions, then for two: the copy of its single
    value is a list *)
Definition mixed_schema : M (world DP) (list (string * nat)) :=
  a <~ new_static DP (VInt 5) ;;
  z <~ new_seq DP true [VNone; VInt 2; VInt 0] false ;;
  f <~ new_field DP 9 "a" a (Some z) None false None ;;
  c <~ new_copy DP true [f] None ;;
  g <~ new_field DP 9 "b" c None None false None ;;
  ret [("a", f); ("b", g)]%string.
Example C51_exact_case :
  let fs := [("a", 0%nat); ("b", 1%nat)]%string in
  let w0 := made_world mixed_schema in
  let w1 := snd (sc_call DP 9 demo_str fs w0) in
  let w2 := snd (sc_call DP 9 demo_str fs w1) in
  copies DP w0 1 0 /\ field_multi DP w0 0 = true /\
  fst (sc_call DP 9 demo_str fs w0) = Ok [("a", VInt 5); ("b", VList [VInt 5])]%string /\
  fst (sc_call DP 9 demo_str fs w1) = Ok [("a", VList [VInt 5; VInt 5]); ("b", VList [VInt 5; VInt 5])]%string /\
  fst (sc_call DP 9 demo_str fs w2) = Ok [("a", VList []); ("b", VNone)]%string.
Proof.
  cbv zeta. split; [apply copies_check; vm_compute; reflexivity|]. repeat split; vm_compute; reflexivity.
Qed.
Example C46_case : let w := snd (sc_call DP 9 demo_str demo_fields demo_world) in
  fst (em_call DP 9 demo_str 4 w) = Ok (VBool false) /\ fst (fd_call DP 9 demo_str 2 w) = Ok VNone.
Proof. split; vm_compute; reflexivity. Qed.

Print Assumptions C45_previous.
Print Assumptions C45_new.
Print Assumptions C46_gate.
Print Assumptions C48_document.
Print Assumptions C51_copy_partial.
Print Assumptions C51_exact.
Print Assumptions C51_copy_refuted.
