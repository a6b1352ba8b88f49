(** * Objects and their counterparts do the same: the relation of Agree.v, with
    the objects of the second world at other places of the heap.  All seeds are
    other than None here. *)
From Verif Require Import Base Prims Values MathModel ChoiceModel FixedModel GroupModel
  SigModel WrapModel TextModel FieldModel World Rel WorldProofs Agree WorldSpec TwinSpec.
Open Scope list_scope.
Open Scope Z_scope.

(** The methods of the members of two groups correspond. *)
Section Groups.
  Context {S : Type} (R : S -> S -> Prop).
  Lemma rel_setattr2 O (has1 has2 : O -> S -> bool) (set1 set2 : O -> M S unit) (r : O -> O) l :
    (forall o, In o l -> forall s1 s2, R s1 s2 -> has1 o s1 = has2 (r o) s2) ->
    (forall o, In o l -> rel R (set1 o) (set2 (r o))) ->
    rel R (group_setattr has1 set1 (map Some l)) (group_setattr has2 set2 (map Some (map r l))).
  Proof.
    induction l as [|o t IH]; intros Hh Hs; cbn [map group_setattr]; [apply rel_ret|].
    apply rel_bind.
    - intros s1 s2 H. cbv beta. rewrite <- (Hh o (or_introl eq_refl) s1 s2 H).
      destruct (has1 o s1); [apply Hs; [left; reflexivity | exact H] | split; [reflexivity | exact H]].
    - intros _. apply IH; intros; [eapply Hh | eapply Hs]; try (right; eassumption); assumption.
  Qed.
  Lemma rel_do_method2 O (meth1 meth2 : O -> S -> option (M S unit)) (r : O -> O) l :
    (forall o, In o l -> forall s1 s2, R s1 s2 ->
       match meth1 o s1, meth2 (r o) s2 with
       | Some m1, Some m2 => rel R m1 m2
       | None, None => True
       | _, _ => False
       end) ->
    rel R (group_do_method meth1 (map Some l)) (group_do_method meth2 (map Some (map r l))).
  Proof.
    induction l as [|o t IH]; intros Hm; cbn [map group_do_method]; [apply rel_ret|].
    apply rel_bind.
    - apply rel_catch. intros s1 s2 H. cbv beta.
      specialize (Hm o (or_introl eq_refl) s1 s2 H).
      destruct (meth1 o s1), (meth2 (r o) s2); try contradiction; [apply Hm; exact H | split; [reflexivity | exact H]].
    - intros _. apply IH. intros o' Ho'. apply Hm. right; exact Ho'.
  Qed.
End Groups.

Section Twin.
  Context {P : prims} (fuel : nat) (str_of : val -> res (list Z)).
  (** [D]: emitters; [F]: fields; [N]: fields whose names may be looked at. *)
  Context (rho sigma : nat -> nat) (D F N : nat -> Prop).
  Notation world := (World.world P).
  Notation emitter := (World.emitter P).
  Notation field := (World.field P).
  Notation get_em := (World.get_em P).
  Notation put_em := (World.put_em P).
  Notation get_fd := (World.get_fd P).
  Notation put_fd := (World.put_fd P).
  Notation use_entropy := (World.use_entropy P).
  Notation ent_of := (World.ent_of P).
  Notation node_of := (World.node_of P).
  Notation with_node := (World.with_node P).
  Notation children := (World.children P).
  Notation source_of := (World.source_of P).
  Notation items_of := (World.items_of P).
  Notation previous := (World.previous P).
  Notation name_of := (World.name_of P).
  Notation field_multi := (World.field_multi P).
  Notation renamed := (TwinSpec.renamed P rho sigma).

  Hypothesis rho_inj : forall i j, D i -> D j -> rho i = rho j -> i = j.
  Hypothesis sigma_inj : forall f g, F f -> F g -> sigma f = sigma g -> f = g.

  Definition tsim (e1 e2 : emitter) : Prop := osim false (renamed e1) e2.
  Definition tfsim (x1 x2 : field) : Prop :=
    f_hide P x2 = f_hide P x1 /\ f_em P x2 = rho (f_em P x1) /\ f_rep P x2 = rho (f_rep P x1) /\
    f_gate P x2 = rho (f_gate P x1) /\ f_cache P x1 = f_cache P x2 /\ n_seed P (f_nd P x1) = n_seed P (f_nd P x2).

  Record twin (w1 w2 : world) : Prop := mkTwin {
    tw_em : forall id, D id -> orel tsim (get_em id w1) (get_em (rho id) w2);
    tw_kids : forall id e k, D id -> get_em id w1 = Some e -> In k (children e) -> D k /\ (k < id)%nat /\ (rho k < rho id)%nat;
    tw_src : forall id e f, D id -> get_em id w1 = Some e -> In f (source_of e) -> F f /\ N f;
    tw_name : forall f, N f -> name_of f w1 = name_of (sigma f) w2;
    tw_sok : forall id e nd, D id -> get_em id w1 = Some e -> node_of e = Some nd -> n_seed P nd <> None;
    tw_fd : forall f, F f -> orel tfsim (get_fd f w1) (get_fd (sigma f) w2);
    tw_parts : forall f x p, F f -> get_fd f w1 = Some x -> In p (parts P x) -> D p;
    tw_fsok : forall f x, F f -> get_fd f w1 = Some x -> n_seed P (f_nd P x) <> None
  }.
  Notation rel := (Rel.rel twin).

  Lemma ren_node e : node_of (renamed e) = node_of e.
  Proof. destruct e; reflexivity. Qed.
  Lemma ren_with nd e : renamed (with_node nd e) = with_node nd (renamed e).
  Proof. destruct e; reflexivity. Qed.
  Lemma ren_children e : children (renamed e) = map rho (children e).
  Proof. destruct e; try reflexivity. cbn. rewrite !map_map. reflexivity. Qed.
  Lemma ren_source e : source_of (renamed e) = map sigma (source_of e).
  Proof. destruct e; reflexivity. Qed.
  Lemma ren_items e : items_of (renamed e) = items_of e.
  Proof. destruct e; reflexivity. Qed.

  Lemma name_put id e (w : world) f : name_of f (put_em id e w) = name_of f w.
  Proof. unfold World.name_of, World.get_fd. rewrite fd_put. reflexivity. Qed.
  Lemma name_use id (w : world) f : name_of f (use_entropy id w) = name_of f w.
  Proof. unfold World.name_of, World.get_fd. rewrite fd_use. reflexivity. Qed.

  Lemma twin_put w1 w2 id e1 e2 e1' e2' : twin w1 w2 -> D id ->
    get_em id w1 = Some e1 -> get_em (rho id) w2 = Some e2 -> conf e1 e1' -> tsim e1' e2' ->
    (forall nd, node_of e1' = Some nd -> n_seed P nd <> None) ->
    twin (put_em id e1' w1) (put_em (rho id) e2' w2).
  Proof.
    intros A Hd E1 E2 C1 O S. destruct A. constructor; auto.
    - intros j Hj. destruct (Nat.eq_dec j id) as [->|Ne].
      + rewrite (get_put_same _ _ _ _ E1), (get_put_same _ _ _ _ E2). exact O.
      + rewrite get_put_other by exact Ne. rewrite get_put_other by (intros Q; apply Ne, (rho_inj _ _ Hj Hd Q)). auto.
    - intros j e k Hj. destruct (Nat.eq_dec j id) as [->|Ne].
      + rewrite (get_put_same _ _ _ _ E1). intros [= <-]. rewrite <- (conf_children _ _ C1). eauto.
      + rewrite get_put_other by exact Ne. eauto.
    - intros j e k Hj. destruct (Nat.eq_dec j id) as [->|Ne].
      + rewrite (get_put_same _ _ _ _ E1). intros [= <-]. rewrite <- (conf_source _ _ C1). eauto.
      + rewrite get_put_other by exact Ne. eauto.
    - intros f Hf. rewrite !name_put. auto.
    - intros j e nd Hj. destruct (Nat.eq_dec j id) as [->|Ne].
      + rewrite (get_put_same _ _ _ _ E1). intros [= <-]. auto.
      + rewrite get_put_other by exact Ne. eauto.
    - intros f Hf. unfold World.get_fd. rewrite !fd_put. apply tw_fd0; exact Hf.
    - intros f x p Hf. unfold World.get_fd. rewrite fd_put. apply (tw_parts0 f x p Hf).
    - intros f x Hf. unfold World.get_fd. rewrite fd_put. apply (tw_fsok0 f x Hf).
  Qed.

  Lemma twin_use w1 w2 id : twin w1 w2 -> twin (use_entropy id w1) (use_entropy (rho id) w2).
  Proof.
    intros A. destruct A. constructor; auto.
    - intros j Hj. rewrite !get_use. auto.
    - intros j e k Hj. rewrite get_use. eauto.
    - intros j e k Hj. rewrite get_use. eauto.
    - intros f Hf. rewrite !name_use. auto.
    - intros j e nd Hj. rewrite get_use. eauto.
    - intros f Hf. unfold World.get_fd. rewrite !fd_use. apply tw_fd0; exact Hf.
    - intros f x p Hf. unfold World.get_fd. rewrite fd_use. apply (tw_parts0 f x p Hf).
    - intros f x Hf. unfold World.get_fd. rewrite fd_use. apply (tw_fsok0 f x Hf).
  Qed.

  (** Looking at an emitter *)
  Lemma t_at T id (k1 k2 : emitter -> M world T) : D id ->
    (forall w1 w2 e1 e2, twin w1 w2 -> get_em id w1 = Some e1 -> get_em (rho id) w2 = Some e2 -> tsim e1 e2 ->
       fst (k1 e1 w1) = fst (k2 e2 w2) /\ twin (snd (k1 e1 w1)) (snd (k2 e2 w2))) ->
    rel (at_em P id k1) (at_em P (rho id) k2).
  Proof.
    intros Hd H w1 w2 A. unfold at_em. pose proof (tw_em _ _ A id Hd) as O.
    destruct (get_em id w1) as [e1|] eqn:E1, (get_em (rho id) w2) as [e2|] eqn:E2; try contradiction.
    - apply H; auto.
    - split; [reflexivity | exact A].
  Qed.

  Lemma t_modify id (f1 f2 : emitter -> emitter) : D id ->
    (forall e1 e2 w1 w2, twin w1 w2 -> get_em id w1 = Some e1 -> get_em (rho id) w2 = Some e2 -> tsim e1 e2 ->
       conf e1 (f1 e1) /\ tsim (f1 e1) (f2 e2) /\
       (forall nd, node_of (f1 e1) = Some nd -> n_seed P nd <> None)) ->
    rel (modify_em P id f1) (modify_em P (rho id) f2).
  Proof.
    intros Hd H. apply t_at; [exact Hd|]. intros w1 w2 e1 e2 A E1 E2 O. cbn.
    destruct (H e1 e2 w1 w2 A E1 E2 O) as (C1 & O' & S). split; [reflexivity|].
    eapply twin_put; eauto.
  Qed.

  Lemma t_run_iter T id (m : M (iterative val) T) : D id ->
    (forall i, conf (EIter P i) (EIter P (snd (m i)))) ->
    (forall i1 i2, osim false (EIter P i1) (EIter P i2) ->
       fst (m i1) = fst (m i2) /\ osim false (EIter P (snd (m i1))) (EIter P (snd (m i2)))) ->
    rel (run_iter P id m) (run_iter P (rho id) m).
  Proof.
    intros Hd C1 H. apply t_at; [exact Hd|]. intros w1 w2 e1 e2 A E1 E2 O. unfold tsim in O.
    destruct e1, e2; try discriminate O; try (split; [reflexivity | exact A]).
    specialize (H _ _ O). specialize (C1 i).
    destruct (m i) as [r1 j1], (m i0) as [r2 j2]. cbn [fst snd] in *. destruct H as [-> H].
    split; [reflexivity|]. eapply twin_put; eauto. discriminate.
  Qed.

  Lemma t_run_user T id (m : uclass P -> M (val * pR P) T) : D id -> rel (run_user P id m) (run_user P (rho id) m).
  Proof.
    intros Hd. apply t_at; [exact Hd|]. intros w1 w2 e1 e2 A E1 E2 O. unfold tsim in O.
    destruct e1, e2; try discriminate O; try (split; [reflexivity | exact A]).
    cbn in O. injection O as <- <- <-.
    match goal with |- context [m c ?x] => destruct (m c x) as [r [own' rg]] end.
    split; [reflexivity|]. eapply twin_put; eauto; try (split; destruct nd; reflexivity); try reflexivity.
    intros x Hx. destruct nd as [y|]; [|discriminate]. injection Hx as <-. cbn.
    exact (tw_sok _ _ A id _ y Hd E1 eq_refl).
  Qed.

  Lemma t_run_seq T id (m : M (sequential val) T) : D id ->
    (forall b i, conf (ESeq P b i) (ESeq P b (snd (m i)))) ->
    (forall b i1 i2, osim false (ESeq P b i1) (ESeq P b i2) ->
       fst (m i1) = fst (m i2) /\ osim false (ESeq P b (snd (m i1))) (ESeq P b (snd (m i2)))) ->
    rel (run_seq P id m) (run_seq P (rho id) m).
  Proof.
    intros Hd C1 H. apply t_at; [exact Hd|]. intros w1 w2 e1 e2 A E1 E2 O. unfold tsim in O.
    destruct e1, e2; try discriminate O; try (split; [reflexivity | exact A]).
    pose proof (proj1 O) as Hb. subst islist0.
    specialize (H _ _ _ O). specialize (C1 islist s).
    destruct (m s) as [r1 j1], (m s0) as [r2 j2]. cbn [fst snd] in *. destruct H as [-> H].
    split; [reflexivity|]. eapply twin_put; eauto. discriminate.
  Qed.

  Lemma t_run_choice T id (m : M (@choice P val) T) : D id -> keeps cseed m -> Rel.rel (csim false) m m ->
    rel (run_choice P id m) (run_choice P (rho id) m).
  Proof.
    intros Hd C Hm. apply t_at; [exact Hd|]. intros w1 w2 e1 e2 A0 E1 E2 O. unfold tsim in O.
    destruct e1; (try (cbn in O; destruct e2; try discriminate O; split; [reflexivity | exact A0])).
    destruct e2; try discriminate O. destruct O as [<- O]. destruct (Hm _ _ O) as [Er Oc]. clear Hm O.
    pose proof (C c) as C1. destruct (m c) as [r c'], (m c0) as [r0 c0']. cbn [fst snd] in *.
    subst r0. split; [reflexivity|].
    eapply twin_put; eauto; [split; [reflexivity | apply C1] | split; [reflexivity | exact Oc]|].
    intros nd [= <-]. cbn.
    rewrite <- (proj2 C1). apply (tw_sok _ _ A0 id _ (mkNode P (c_seed c) (c_rng c)) Hd E1). reflexivity.
  Qed.

  Lemma tsim_node e1 e2 : tsim e1 e2 -> node_of e1 = node_of e2.
  Proof. intros O. rewrite <- (ren_node e1). exact (osim_node _ _ _ O). Qed.
  Lemma tsim_with nd e1 e2 : tsim e1 e2 -> tsim (with_node nd e1) (with_node nd e2).
  Proof. intros O. unfold tsim. rewrite ren_with. apply osim_with; exact O. Qed.

  Lemma t_run_rng T id (m : M (pR P) T) : D id -> rel (run_rng P id m) (run_rng P (rho id) m).
  Proof.
    intros Hd. apply t_at; [exact Hd|]. intros w1 w2 e1 e2 A0 E1 E2 O.
    pose proof (tsim_node _ _ O) as Nd. rewrite <- Nd. destruct (node_of e1) as [nd|] eqn:En;
      [|split; [reflexivity | exact A0]].
    destruct (m (n_rng P nd)) as [r rg]. cbn [fst snd]. split; [reflexivity|].
    eapply twin_put; eauto using conf_node, tsim_with.
    intros nd' H. rewrite (node_with _ _ _ En) in H. injection H as <-. cbn.
    eapply tw_sok; eauto.
  Qed.

  Lemma t_bound id f : D id -> urel twin (bound P id f) (bound P (rho id) f).
  Proof.
    intros Hd. split; [reflexivity|]. split; intros args kw; cbn; [apply rel_lift | apply t_run_rng; exact Hd].
  Qed.

  (** ** reset *)

  Lemma has_seed_twin id w1 w2 : D id -> twin w1 w2 -> has_seed P id w1 = has_seed P (rho id) w2.
  Proof.
    intros Hd A. unfold has_seed. pose proof (tw_em _ _ A id Hd) as O.
    destruct (get_em id w1), (get_em (rho id) w2); try contradiction; [|reflexivity].
    rewrite (tsim_node _ _ O). reflexivity.
  Qed.

  Lemma t_set_rng_seed id s : D id -> s <> None -> rel (set_rng_seed P s id) (set_rng_seed P s (rho id)).
  Proof.
    intros Hd Hs. apply t_modify; [exact Hd|]. intros e1 e2 w1 w2 A E1 E2 O.
    pose proof (tsim_node _ _ O) as Nd. rewrite <- Nd. destruct (node_of e1) as [nd|] eqn:En.
    - repeat split; auto using conf_node, tsim_with.
      intros nd' H. rewrite (node_with _ _ _ En) in H. injection H as <-. exact Hs.
    - repeat split; auto using conf_refl. congruence.
  Qed.

  Lemma t_use id : rel (fun w => (Ok tt, use_entropy id w)) (fun w => (Ok tt, use_entropy (rho id) w)).
  Proof. intros w1 w2 A. split; [reflexivity | apply twin_use; assumption]. Qed.

  Lemma rng_any s k1 k2 : s <> None -> rng_for P s k1 = rng_for P s k2.
  Proof. destruct s; [reflexivity | congruence]. Qed.

  Lemma t_reset_rng id : D id -> rel (reset_rng P id) (reset_rng P (rho id)).
  Proof.
    intros Hd w1 w2 A. unfold reset_rng. revert w1 w2 A.
    assert (X : forall k1 k2,
      rel (modify_em P id (fun e => match node_of e with
             | Some nd => with_node (mkNode P (n_seed P nd) (rng_for P (n_seed P nd) k1)) e
             | None => e end) ;;; (fun w => (Ok tt, use_entropy id w)))
          (modify_em P (rho id) (fun e => match node_of e with
             | Some nd => with_node (mkNode P (n_seed P nd) (rng_for P (n_seed P nd) k2)) e
             | None => e end) ;;; (fun w => (Ok tt, use_entropy (rho id) w)))).
    { intros k1 k2. apply rel_bind; [|intros _; apply t_use].
      apply t_modify; [exact Hd|]. intros e1 e2 w1 w2 A E1 E2 O.
      pose proof (tsim_node _ _ O) as Nd. rewrite <- Nd. destruct (node_of e1) as [nd|] eqn:En.
      - assert (Hs : n_seed P nd <> None) by (eapply tw_sok; eauto).
        rewrite (rng_any _ k1 k2 Hs). repeat split; auto using conf_node, tsim_with.
        intros nd' H. rewrite (node_with _ _ _ En) in H. injection H as <-. exact Hs.
      - repeat split; auto using conf_refl. congruence. }
    intros w1 w2 A. apply X; exact A.
  Qed.

  Lemma t_seed_children s kids : s <> None -> (forall k, In k kids -> D k) ->
    rel (seed_children P s kids) (seed_children P s (map rho kids)).
  Proof.
    intros Hs Hk. apply rel_setattr2.
    - intros o Ho w1 w2 A. apply has_seed_twin; auto.
    - intros o Ho. apply t_set_rng_seed; auto.
  Qed.

  Lemma t_reset_children r1 r2 kids : (forall k, In k kids -> rel (r1 k) (r2 (rho k))) ->
    rel (reset_children P r1 kids) (reset_children P r2 (map rho kids)).
  Proof. intros Hk. apply rel_do_method2. intros o Ho w1 w2 A. cbn. apply Hk, Ho. Qed.

  Lemma t_mixin_reset r1 r2 own1 own2 s kids : s <> None -> (forall k, In k kids -> D k) ->
    (forall k, In k kids -> rel (r1 k) (r2 (rho k))) -> rel own1 own2 ->
    rel (mixin_reset P r1 own1 s kids) (mixin_reset P r2 own2 s (map rho kids)).
  Proof.
    intros Hs Hd Hk Ho. unfold mixin_reset.
    apply rel_bind; [apply t_seed_children; assumption|]. intros _.
    apply rel_bind; [exact Ho|]. intros _. apply t_reset_children; exact Hk.
  Qed.

  Ltac same_kind O e1 e2 :=
    destruct e1; destruct e2; try discriminate O; cbn beta iota.

  (** Both depths exceed the depth of nesting. *)
  Definition tdeep (d1 d2 id : nat) : Prop := (id < d1)%nat /\ (rho id < d2)%nat.
  Lemma tdeep_kid d1 d2 id e k w1 w2 : tdeep (S d1) (S d2) id -> D id -> twin w1 w2 -> get_em id w1 = Some e ->
    In k (children e) -> tdeep d1 d2 k.
  Proof. intros [H1 H2] Hd A E Hk. destruct (tw_kids _ _ A id e k Hd E Hk) as (_ & L1 & L2). split; lia. Qed.

  Theorem t_ereset d1 : forall d2 id, tdeep d1 d2 id -> D id -> rel (ereset P fuel d1 id) (ereset P fuel d2 (rho id)).
  Proof.
    induction d1 as [|d1 IH]; intros [|d2] id Hdp Hd; [destruct Hdp; lia .. |]. cbn [ereset].
    apply t_at; [exact Hd|]. intros w1 w2 e1 e2 A E1 E2 O.
    assert (Kid : forall k, In k (children e1) -> D k) by (intros k Hk; eapply tw_kids; eauto).
    assert (Dp : forall k, In k (children e1) -> tdeep d1 d2 k) by (intros k Hk; eapply tdeep_kid; eauto).
    assert (Sok : forall nd, node_of e1 = Some nd -> n_seed P nd <> None) by (intros nd Hn; eapply tw_sok; eauto).
    unfold tsim in O. same_kind O e1 e2.
    - apply rel_ret; exact A.
    - apply t_run_iter; try assumption.
      + intros j; cbn; auto.
      + intros i1 i2 (Q1 & Q2 & Q3). cbn. repeat split; auto. apply (gsim_reset false); exact Q3.
    - apply t_run_seq; try assumption.
      + intros b j; cbn; auto 10.
      + intros b i1 i2 (Q0 & Q1 & Q2 & Q3 & Q4 & Q5). cbn. repeat split; auto. unfold seq_factory in *. cbn.
        apply (gsim_reset false _ (s_gen i1) (s_gen i2)); exact Q5.
    - destruct O as [<- _]. revert w1 w2 A E1 E2.
      assert (X : forall k1 k2,
        rel (run_choice P id (choice_reset P fuel k1) ;;; (fun w => (Ok tt, use_entropy id w)))
            (run_choice P (rho id) (choice_reset P fuel k2) ;;; (fun w => (Ok tt, use_entropy (rho id) w)))).
      { intros k1 k2. apply rel_bind; [|intros _; apply t_use].
        intros w1 w2 A.
        assert (Q : run_choice P (rho id) (choice_reset P fuel k2) w2 =
                    run_choice P (rho id) (choice_reset P fuel k1) w2).
        { unfold run_choice, at_em. destruct (get_em (rho id) w2) as [e|] eqn:E; [|reflexivity].
          destruct e; try reflexivity. rewrite !choice_reset_eq. rewrite (rng_any _ k2 k1); [reflexivity|].
          pose proof (tw_em _ _ A id Hd) as O. rewrite E in O. destruct (get_em id w1) as [e|] eqn:E'; [|contradiction].
          apply (tw_sok _ _ A id e (mkNode P (c_seed c1) (c_rng c1)) Hd E').
          rewrite (tsim_node _ _ O). reflexivity. }
        rewrite Q. apply t_run_choice; [exact Hd | apply kreset | apply cs_reset | exact A]. }
      intros w1 w2 A E1 E2. apply X; exact A.
    - cbn in O. destruct O as (<- & <- & <- & _).
      apply rel_bind; [| |exact A]; [|intros _; apply rel_bind; [|intros _]].
      + apply (t_mixin_reset _ _ _ _ _ (children (EWord P length_em alphabet_em u nd))); auto using t_reset_rng.
      + apply (t_seed_children _ (children (EWord P length_em alphabet_em u nd))); auto.
      + apply (t_reset_children _ _ (children (EWord P length_em alphabet_em u nd))); auto.
    - cbn in O. destruct O as (<- & <- & <- & <- & _).
      apply rel_bind; [| |exact A]; [|intros _; apply rel_bind; [|intros _]].
      + apply (t_mixin_reset _ _ _ _ _ (children (EText P numwords_em word_em sep_em u nd))); auto using t_reset_rng.
      + apply (t_seed_children _ (children (EText P numwords_em word_em sep_em u nd))); auto.
      + apply (t_reset_children _ _ (children (EText P numwords_em word_em sep_em u nd))); auto.
    - cbn in O. injection O as <- <- <-.
      apply (t_mixin_reset _ _ _ _ _ (children (EWrapOne P source w nd))); auto using t_reset_rng.
    - cbn in O. injection O as <- <- <-.
      replace (children (EWrapMany P (map (fun ks => (fst ks, rho (snd ks))) sources) w nd))
        with (map rho (children (EWrapMany P sources w nd))) by (cbn; rewrite !map_map; reflexivity).
      apply (t_mixin_reset _ _ _ _ _ (children (EWrapMany P sources w nd))); auto using t_reset_rng.
    - apply rel_ret; exact A.
    - cbn in O. injection O as <- <- <- <-. apply t_reset_rng; [exact Hd | exact A].
    - cbn in O. injection O as <- <- <-.
      apply rel_bind; [destruct nd; [apply t_reset_rng; exact Hd | apply rel_ret] | intros _; apply t_run_user; exact Hd | exact A].
  Qed.

  (** ** seed *)

  Lemma t_seed_own id s : D id -> s <> None -> rel (seed_own P id s) (seed_own P (rho id) s).
  Proof.
    intros Hd Hs. unfold seed_own.
    assert (X : forall k1 k2,
      rel (modify_em P id (fun e => match node_of e with
             | Some nd => with_node (mkNode P s (rng_for P s k1)) e
             | None => e end) ;;; (fun w => (Ok tt, use_entropy id w)))
          (modify_em P (rho id) (fun e => match node_of e with
             | Some nd => with_node (mkNode P s (rng_for P s k2)) e
             | None => e end) ;;; (fun w => (Ok tt, use_entropy (rho id) w)))).
    { intros k1 k2. apply rel_bind; [|intros _; apply t_use].
      apply t_modify; [exact Hd|]. intros e1 e2 w1 w2 A E1 E2 O.
      pose proof (tsim_node _ _ O) as Nd. rewrite <- Nd. destruct (node_of e1) as [nd|] eqn:En.
      - rewrite (rng_any _ k1 k2 Hs). repeat split; auto using conf_node, tsim_with.
        intros nd' H. rewrite (node_with _ _ _ En) in H. injection H as <-. exact Hs.
      - repeat split; auto using conf_refl. congruence. }
    intros w1 w2 A. apply X; exact A.
  Qed.

  Lemma t_seed_all r1 r2 kids : (forall k, In k kids -> D k) -> (forall k, In k kids -> rel (r1 k) (r2 (rho k))) ->
    rel (seed_all P r1 kids) (seed_all P r2 (map rho kids)).
  Proof.
    intros Hd Hk. apply rel_do_method2. intros x Hx w1 w2 A.
    rewrite <- (has_seed_twin x w1 w2 (Hd x Hx) A). destruct (has_seed P x w1); [apply Hk; exact Hx | exact I].
  Qed.

  Lemma t_mixin_seed r1 r2 own1 own2 kids : (forall k, In k kids -> D k) ->
    (forall k, In k kids -> rel (r1 k) (r2 (rho k))) -> rel own1 own2 ->
    rel (mixin_seed P r1 own1 kids) (mixin_seed P r2 own2 (map rho kids)).
  Proof.
    intros Hd Hk Ho. unfold mixin_seed. apply rel_bind; [apply t_seed_all; assumption|]. intros _.
    apply rel_catch; exact Ho.
  Qed.

  Theorem t_eseed d1 s : s <> None -> forall d2 id, tdeep d1 d2 id -> D id ->
    rel (eseed P fuel d1 s id) (eseed P fuel d2 s (rho id)).
  Proof.
    intros Hs. induction d1 as [|d1 IH]; intros [|d2] id Hdp Hd; [destruct Hdp; lia .. |]. cbn [eseed].
    apply t_at; [exact Hd|]. intros w1 w2 e1 e2 A E1 E2 O.
    assert (Kid : forall k, In k (children e1) -> D k) by (intros k Hk; eapply tw_kids; eauto).
    assert (Dp : forall k, In k (children e1) -> tdeep d1 d2 k) by (intros k Hk; eapply tdeep_kid; eauto).
    unfold tsim in O. same_kind O e1 e2; try (split; [reflexivity | exact A]).
    - destruct O as [<- _]. revert w1 w2 A E1 E2.
      assert (X : forall k1 k2,
        rel (run_choice P id (choice_seed P fuel s k1) ;;; (fun w => (Ok tt, use_entropy id w)))
            (run_choice P (rho id) (choice_seed P fuel s k2) ;;; (fun w => (Ok tt, use_entropy (rho id) w)))).
      { intros k1 k2. apply rel_bind; [|intros _; apply t_use].
        apply t_at; [exact Hd|]. intros w1 w2 e1 e2 A E1 E2 O. unfold tsim in O.
        destruct e1; (try (cbn in O; destruct e2; try discriminate O; split; [reflexivity | exact A])).
        destruct e2; try discriminate O. destruct O as [<- O].
        rewrite (choice_seed_eq fuel s k2), (rng_any s k2 k1 Hs), <- choice_seed_eq.
        pose proof (kseed fuel s k1 c1) as [C1 C2].
        destruct (cs_seed false fuel s k1 _ _ O) as [Er Oc].
        destruct (choice_seed P fuel s k1 c1) as [r c'], (choice_seed P fuel s k1 c2) as [r0 c0'].
        cbn [fst snd] in *. subst r0. split; [reflexivity|].
        eapply twin_put; eauto; [split; [reflexivity | exact C1] | split; [reflexivity | exact Oc]|].
        intros nd [= <-]. cbn. rewrite C2. exact Hs. }
      intros w1 w2 A E1 E2. apply X; exact A.
    - cbn in O. destruct O as (<- & <- & <- & _). apply rel_bind; [| |exact A].
      + apply (t_mixin_seed _ _ _ _ (children (EWord P length_em alphabet_em u nd))); auto. apply t_seed_own; assumption.
      + intros _. apply (t_seed_all _ _ (children (EWord P length_em alphabet_em u nd))); auto.
    - cbn in O. destruct O as (<- & <- & <- & <- & _). apply rel_bind; [| |exact A].
      + apply (t_mixin_seed _ _ _ _ (children (EText P numwords_em word_em sep_em u nd))); auto. apply t_seed_own; assumption.
      + intros _. apply (t_seed_all _ _ (children (EText P numwords_em word_em sep_em u nd))); auto.
    - cbn in O. injection O as <- <- <-.
      apply (t_mixin_seed _ _ _ _ (children (EWrapOne P source w nd))); auto. apply t_seed_own; assumption.
    - cbn in O. injection O as <- <- <-.
      replace (children (EWrapMany P (map (fun ks => (fst ks, rho (snd ks))) sources) w nd))
        with (map rho (children (EWrapMany P sources w nd))) by (cbn; rewrite !map_map; reflexivity).
      apply (t_mixin_seed _ _ _ _ (children (EWrapMany P sources w nd))); auto. apply t_seed_own; assumption.
    - cbn in O. injection O as <- <- <- <-. apply t_seed_own; assumption.
    - cbn in O. injection O as <- <- <-. destruct nd; [apply t_seed_own; assumption | apply rel_raise; exact A].
  Qed.

  (** ** emit *)

  Lemma previous_twin f w1 w2 : twin w1 w2 -> F f -> previous f w1 = previous (sigma f) w2.
  Proof.
    intros A Hf. unfold World.previous. pose proof (tw_fd _ _ A f Hf) as X.
    destruct (get_fd f w1), (get_fd (sigma f) w2); try contradiction; [apply X | reflexivity].
  Qed.
  Lemma multi_twin f w1 w2 : twin w1 w2 -> F f -> field_multi w1 f = field_multi w2 (sigma f).
  Proof.
    intros A Hf. unfold World.field_multi. pose proof (tw_fd _ _ A f Hf) as X.
    destruct (get_fd f w1) as [x1|] eqn:E1, (get_fd (sigma f) w2) as [x2|]; try contradiction; [|reflexivity].
    destruct X as (_ & _ & R & _). rewrite R.
    assert (Hd : D (f_rep P x1)) by (eapply (tw_parts _ _ A f x1); [exact Hf | exact E1 | cbn; auto]).
    pose proof (tw_em _ _ A _ Hd) as O. destruct (get_em (f_rep P x1) w1), (get_em (rho (f_rep P x1)) w2); try contradiction; [|reflexivity].
    rewrite <- (ren_items e), (osim_items _ _ _ O). reflexivity.
  Qed.

  Lemma word_unique_twin id w1 w2 : D id -> twin w1 w2 -> word_unique P id w1 = word_unique P (rho id) w2.
  Proof.
    intros Hd A. unfold word_unique. pose proof (tw_em _ _ A id Hd) as O. unfold orel, tsim in O.
    destruct (get_em id w1) as [e1|], (get_em (rho id) w2) as [e2|]; try contradiction; [|reflexivity].
    destruct e1, e2; try discriminate O; try reflexivity. destruct O as [_ O].
    pose proof (csim_same _ _ _ O) as (_&_&_&_&<-&_). rewrite (cs_nuv _ _ _ O). reflexivity.
  Qed.

  Lemma based_twin fs w1 w2 : twin w1 w2 -> (forall f, In f fs -> F f /\ N f) ->
    based_source P fs w1 = based_source P (map sigma fs) w2.
  Proof.
    intros A H. unfold based_source. rewrite map_map. apply map_ext_in. intros f Hf. destruct (H f Hf) as [Ff Nf].
    rewrite (tw_name _ _ A f Nf), (previous_twin f _ _ A Ff). reflexivity.
  Qed.
  Lemma copy_twin fs w1 w2 : twin w1 w2 -> (forall f, In f fs -> F f) -> copy_source P fs w1 = copy_source P (map sigma fs) w2.
  Proof.
    intros A H. unfold copy_source. rewrite map_map. apply map_ext_in. intros f Hf.
    rewrite (multi_twin f _ _ A (H f Hf)), (previous_twin f _ _ A (H f Hf)). reflexivity.
  Qed.

  Theorem t_emits d1 : forall d2,
    (forall id, tdeep d1 d2 id -> D id -> rel (fst (emits P fuel str_of d1) id) (fst (emits P fuel str_of d2) (rho id))) /\
    (forall id n, tdeep d1 d2 id -> D id ->
       rel (snd (emits P fuel str_of d1) id n) (snd (emits P fuel str_of d2) (rho id) n)).
  Proof.
    induction d1 as [|d1 IH]; intros [|d2];
      [split; [intros id [? ?] | intros id n [? ?]]; lia .. |].
    assert (IHn : forall id n, tdeep d1 d2 id -> D id ->
       rel (call_number (fst (emits P fuel str_of d1) id) (snd (emits P fuel str_of d1) id) n)
           (call_number (fst (emits P fuel str_of d2) (rho id)) (snd (emits P fuel str_of d2) (rho id)) n)).
    { intros id n Hp Hd. apply rel_call_number; apply IH; auto. }
    assert (IH1 : forall id, tdeep d1 d2 id -> D id ->
       rel (fst (emits P fuel str_of d1) id) (fst (emits P fuel str_of d2) (rho id))) by (intros; apply IH; auto).
    assert (Srcs : forall srcs, (forall k, In k (map snd srcs) -> D k) -> (forall k, In k (map snd srcs) -> tdeep d1 d2 k) ->
       Forall2 (srel twin)
         (map (fun ks => (fst ks, (fst (emits P fuel str_of d1) (snd ks),
                call_number (fst (emits P fuel str_of d1) (snd ks)) (snd (emits P fuel str_of d1) (snd ks))))) srcs)
         (map (fun ks : string * nat => (fst ks, (fst (emits P fuel str_of d2) (snd ks),
                call_number (fst (emits P fuel str_of d2) (snd ks)) (snd (emits P fuel str_of d2) (snd ks)))))
            (map (fun ks => (fst ks, rho (snd ks))) srcs))).
    { induction srcs as [|[k i] t IHt]; intros Hk Hp; cbn [map]; constructor.
      - split; [reflexivity|]. cbn. split; [apply IH1 | intros n; apply IHn];
          first [apply Hk | apply Hp]; left; reflexivity.
      - apply IHt; intros j Hj; [apply Hk | apply Hp]; right; exact Hj. }
    split; [intros id Hdp Hd | intros id n Hdp Hd]; cbn [emits fst snd].
    - unfold emit_body. apply t_at; [exact Hd|]. intros w1 w2 e1 e2 A E1 E2 O.
      assert (Kid : forall k, In k (children e1) -> D k) by (intros k Hk; eapply tw_kids; eauto).
      assert (Dp : forall k, In k (children e1) -> tdeep d1 d2 k) by (intros k Hk; eapply tdeep_kid; eauto).
      assert (Src : forall f, In f (source_of e1) -> F f) by (intros k Hk; eapply tw_src; eauto).
      assert (SrcN : forall f, In f (source_of e1) -> F f /\ N f) by (intros k Hk; eapply tw_src; eauto).
      unfold tsim in O. same_kind O e1 e2.
      + cbn in O. injection O as <-. apply rel_lift; exact A.
      + apply t_run_iter; try assumption; try apply conf_iter_run.
        intros i1 i2 Q. apply osim_iter_run; [|exact Q]. intros f g1 g2 G. apply gsim_next; exact G.
      + apply t_run_seq; try assumption; try (intros b j; apply conf_seq_run).
        intros b i1 i2 Q. apply osim_seq_run; [|exact Q]. intros f g1 g2 G. apply gsim_next; exact G.
      + apply t_run_choice; [exact Hd | apply kemit | apply cs_emit | exact A].
      + cbn in O. destruct O as (<- & <- & <- & _). cbn in Kid, Dp. apply rel_word_emit; auto.
      + cbn in O. destruct O as (<- & <- & <- & <- & _). cbn in Kid, Dp. apply rel_text_emit; try (intros; apply IHn; auto 8; fail); [| |exact A].
        * apply t_ereset; auto.
        * intros s1 s2 Q. apply word_unique_twin; auto.
      + cbn in O. injection O as <- <- <-. cbn in Kid, Dp. apply rel_wrapone_emit; auto. apply t_bound; exact Hd.
      + cbn in O. injection O as <- <- <-. apply rel_wrapmany_emit; auto. apply t_bound; exact Hd.
      + cbn in O. injection O as <- <- <-. cbn in Src. cbn [fst snd]. split; [|exact A]. f_equal. apply copy_twin; assumption.
      + cbn in O. injection O as <- <- <- <-. apply rel_based_emit; [| apply t_bound; exact Hd | exact A].
        intros s1 s2 Q. apply based_twin; [exact Q | exact SrcN].
      + apply t_run_user; [exact Hd | exact A].
    - unfold emit_many_body. apply t_at; [exact Hd|]. intros w1 w2 e1 e2 A E1 E2 O.
      assert (Kid : forall k, In k (children e1) -> D k) by (intros k Hk; eapply tw_kids; eauto).
      assert (Dp : forall k, In k (children e1) -> tdeep d1 d2 k) by (intros k Hk; eapply tdeep_kid; eauto).
      assert (Src : forall f, In f (source_of e1) -> F f) by (intros k Hk; eapply tw_src; eauto).
      assert (SrcN : forall f, In f (source_of e1) -> F f /\ N f) by (intros k Hk; eapply tw_src; eauto).
      unfold tsim in O. same_kind O e1 e2.
      + cbn in O. injection O as <-. apply rel_lift; exact A.
      + apply t_run_iter; try assumption; unfold iter_emit_many; destruct (n <? 0);
          try apply conf_iter_run; try (intros; cbn; auto; fail).
        all: intros i1 i2 Q; first [split; [reflexivity | exact Q] |
          apply osim_iter_run; [|exact Q]; intros f g1 g2 G; apply gsim_take; exact G].
      + apply t_run_seq; try assumption; unfold seq_emit_many; destruct (n <? 0);
          try (intros b j; apply conf_seq_run); try (intros; cbn; auto 10; fail).
        all: intros b i1 i2 Q; first [split; [reflexivity | exact Q] |
          apply osim_seq_run; [|exact Q]; intros f g1 g2 G; apply gsim_take; exact G].
      + apply t_run_choice; [exact Hd | apply kemit_many | apply cs_emit_many | exact A].
      + cbn in O. destruct O as (<- & <- & <- & _). cbn in Kid, Dp. apply rel_word_emit_many; auto.
      + cbn in O. destruct O as (<- & <- & <- & <- & _). cbn in Kid, Dp. apply rel_text_emit_many; try (intros; apply IHn; auto 8; fail); [| |exact A].
        * apply t_ereset; auto.
        * intros s1 s2 Q. apply word_unique_twin; auto.
      + cbn in O. injection O as <- <- <-. cbn in Kid, Dp. apply rel_wrapone_emit_many; auto. apply t_bound; exact Hd.
      + cbn in O. injection O as <- <- <-. apply rel_wrapmany_emit_many; auto. apply t_bound; exact Hd.
      + cbn in O. injection O as <- <- <-. cbn in Src. apply rel_repeat_emit; [|exact A].
        apply rel_pure. intros s1 s2 Q. f_equal. apply copy_twin; assumption.
      + cbn in O. injection O as <- <- <- <-. apply rel_repeat_emit; [|exact A].
        apply rel_based_emit; [| apply t_bound; exact Hd].
        intros s1 s2 Q. apply based_twin; [exact Q | exact SrcN].
      + apply t_run_user; [exact Hd | exact A].
  Qed.

  Lemma tdeep_own id : tdeep (S id) (S (rho id)) id.
  Proof. split; lia. Qed.
  Lemma t_em_call id : D id -> rel (em_call P fuel str_of id) (em_call P fuel str_of (rho id)).
  Proof. intros Hd. apply t_emits; auto using tdeep_own. Qed.
  Lemma t_em_call_n id n : D id -> rel (em_call_n P fuel str_of id n) (em_call_n P fuel str_of (rho id) n).
  Proof. intros Hd. apply rel_call_number; apply t_emits; auto using tdeep_own. Qed.
  Lemma t_em_reset id : D id -> rel (em_reset P fuel id) (em_reset P fuel (rho id)).
  Proof. intros Hd. apply t_ereset; auto using tdeep_own. Qed.
  Lemma t_em_seed id s : D id -> s <> None -> rel (em_seed P fuel id s) (em_seed P fuel (rho id) s).
  Proof. intros Hd Hs. apply t_eseed; auto using tdeep_own. Qed.

  (** ** Fields *)

  Lemma twin_put_fd w1 w2 f x1 x2 x1' x2' : twin w1 w2 -> F f ->
    get_fd f w1 = Some x1 -> get_fd (sigma f) w2 = Some x2 -> fconf x1 x1' -> fconf x2 x2' -> tfsim x1' x2' ->
    n_seed P (f_nd P x1') <> None ->
    twin (put_fd f x1' w1) (put_fd (sigma f) x2' w2).
  Proof.
    intros A Hk E1 E2 C1 C2 O S. destruct A. constructor; auto.
    - intros g Hg. specialize (tw_name0 g Hg). unfold World.name_of, World.get_fd, World.put_fd in *. cbn.
      assert (X : forall (l : list field) h y y' k, nth_error l h = Some y -> fconf y y' ->
        match nth_error (upd h y' l) k with Some x => f_name P x | None => EmptyString end =
        match nth_error l k with Some x => f_name P x | None => EmptyString end).
      { intros l h y y' k E C. destruct (Nat.eq_dec k h) as [->|Ne].
        - rewrite (nth_upd_same _ _ _ _ _ E), E. symmetry. apply C.
        - rewrite nth_upd_other by congruence. reflexivity. }
      rewrite (X _ _ _ _ _ E1 C1), (X _ _ _ _ _ E2 C2). exact tw_name0.
    - intros g Hg. destruct (Nat.eq_dec g f) as [->|Ne].
      + unfold World.get_fd, World.put_fd in *. cbn.
        rewrite (nth_upd_same _ _ _ _ _ E1), (nth_upd_same _ _ _ _ _ E2). exact O.
      + unfold World.get_fd, World.put_fd in *. cbn. rewrite nth_upd_other by congruence.
        rewrite nth_upd_other by (intros Q; apply Ne; symmetry; apply (sigma_inj _ _ Hk Hg Q)). apply tw_fd0; exact Hg.
    - intros g x p Hg. destruct (Nat.eq_dec g f) as [->|Ne].
      + unfold World.get_fd, World.put_fd in *. cbn. rewrite (nth_upd_same _ _ _ _ _ E1). intros [= <-].
        intros Hp. apply (tw_parts0 f x1 p Hk E1). destruct C1 as (_ & _ & Q1 & Q2 & Q3).
        unfold parts in *. rewrite Q1, Q2, Q3. exact Hp.
      + unfold World.get_fd, World.put_fd in *. cbn. rewrite !nth_upd_other by congruence. apply (tw_parts0 g x p Hg).
    - intros g x Hg. destruct (Nat.eq_dec g f) as [->|Ne].
      + unfold World.get_fd, World.put_fd in *. cbn. rewrite (nth_upd_same _ _ _ _ _ E1). intros [= <-]. exact S.
      + unfold World.get_fd, World.put_fd in *. cbn. rewrite !nth_upd_other by congruence. apply (tw_fsok0 g x Hg).
  Qed.

  Lemma t_at_fd T f (k1 k2 : field -> M world T) : F f ->
    (forall w1 w2 x1 x2, twin w1 w2 -> get_fd f w1 = Some x1 -> get_fd (sigma f) w2 = Some x2 -> tfsim x1 x2 ->
       fst (k1 x1 w1) = fst (k2 x2 w2) /\ twin (snd (k1 x1 w1)) (snd (k2 x2 w2))) ->
    rel (at_fd P f k1) (at_fd P (sigma f) k2).
  Proof.
    intros Hk H w1 w2 A. unfold at_fd. pose proof (tw_fd _ _ A f Hk) as O.
    destruct (get_fd f w1) as [x1|] eqn:E1, (get_fd (sigma f) w2) as [x2|] eqn:E2; try contradiction.
    - apply H; auto.
    - split; [reflexivity | exact A].
  Qed.

  Lemma t_modify_fd f (g1 g2 : field -> field) : F f ->
    (forall x1 x2, tfsim x1 x2 -> n_seed P (f_nd P x1) <> None -> fconf x1 (g1 x1) /\ fconf x2 (g2 x2) /\ tfsim (g1 x1) (g2 x2) /\
       n_seed P (f_nd P (g1 x1)) <> None) ->
    rel (modify_fd P f g1) (modify_fd P (sigma f) g2).
  Proof.
    intros Hk H. apply t_at_fd; [exact Hk|]. intros w1 w2 x1 x2 A E1 E2 O. cbn.
    destruct (H x1 x2 O (tw_fsok _ _ A f x1 Hk E1)) as (C1 & C2 & O' & S). split; [reflexivity|].
    eapply twin_put_fd; eauto.
  Qed.

  Lemma t_set_cache f v : F f -> rel (modify_fd P f (fd_cache P v)) (modify_fd P (sigma f) (fd_cache P v)).
  Proof.
    intros Hk. apply t_modify_fd; [exact Hk|]. intros x1 x2 (Q1 & Q2 & Q3 & Q4 & Q5 & Q6) Hs. repeat split; assumption.
  Qed.

  Theorem t_fd_call f : F f -> rel (fd_call P fuel str_of f) (fd_call P fuel str_of (sigma f)).
  Proof.
    intros Hk. apply t_at_fd; [exact Hk|]. intros w1 w2 x1 x2 A E1 E2 (Q1 & Q3 & Q4 & Q5 & _).
    rewrite Q3, Q4, Q5.
    assert (Hp : forall p, In p (parts P x1) -> D p) by (intros p; eapply tw_parts; eauto).
    cbn in Hp. apply rel_field_call; [| | | | |exact A].
    - apply t_em_call; auto.
    - apply t_em_call; auto.
    - apply t_em_call; auto.
    - intros n. apply t_em_call_n; auto.
    - intros v. apply t_set_cache; exact Hk.
  Qed.

  Theorem t_fd_reset f : F f -> rel (fd_reset P fuel f) (fd_reset P fuel (sigma f)).
  Proof.
    intros Hk. apply t_at_fd; [exact Hk|]. intros w1 w2 x1 x2 A E1 E2 (Q1 & Q3 & Q4 & Q5 & _ & S).
    assert (Hp : forall p, In p (parts P x1) -> D p) by (intros p; eapply tw_parts; eauto).
    assert (Hs : n_seed P (f_nd P x1) <> None) by (eapply tw_fsok; eauto).
    replace (parts P x2) with (map rho (parts P x1)) by (unfold parts; cbn; congruence). rewrite <- S.
    apply rel_bind; [| |exact A].
    - apply t_mixin_reset; auto.
      + intros k Hp'. apply t_em_reset; auto.
      + apply t_modify_fd; [exact Hk|]. intros y1 y2 (R1 & R2 & R3 & R4 & R5 & R6) Hs'. repeat split; assumption.
    - intros _. apply t_set_cache; exact Hk.
  Qed.

  Theorem t_fd_seed f s : F f -> s <> None -> rel (fd_seed P fuel f s) (fd_seed P fuel (sigma f) s).
  Proof.
    intros Hk Hs. apply t_at_fd; [exact Hk|]. intros w1 w2 x1 x2 A E1 E2 (Q1 & Q3 & Q4 & Q5 & _ & S).
    assert (Hp : forall p, In p (parts P x1) -> D p) by (intros p; eapply tw_parts; eauto).
    replace (parts P x2) with (map rho (parts P x1)) by (unfold parts; cbn; congruence).
    apply t_mixin_seed; auto.
    - intros k Hp'. apply t_em_seed; auto.
    - apply t_modify_fd; [exact Hk|]. intros y1 y2 (R1 & R2 & R3 & R4 & R5 & R6) Hs'. repeat split; assumption.
  Qed.

  Theorem t_fd_set_seed f s : F f -> s <> None -> rel (fd_set_seed P f s) (fd_set_seed P (sigma f) s).
  Proof.
    intros Hk Hs. apply t_modify_fd; [exact Hk|]. intros y1 y2 (R1 & R2 & R3 & R4 & R5 & R6) Hs'. repeat split; assumption.
  Qed.

  Lemma hide_twin f w1 w2 : twin w1 w2 -> F f -> fd_hide P f w1 = fd_hide P (sigma f) w2.
  Proof.
    intros A Hf. unfold fd_hide. pose proof (tw_fd _ _ A f Hf) as X.
    destruct (get_fd f w1), (get_fd (sigma f) w2); try contradiction; [symmetry; apply X | reflexivity].
  Qed.

  Notation fren := (fields_renamed sigma).

  Theorem t_sc_call fs : (forall nf, In nf fs -> F (snd nf)) ->
    rel (sc_call P fuel str_of fs) (sc_call P fuel str_of (fren fs)).
  Proof.
    intros Hk. unfold sc_call, schema_call. generalize (@nil (string * val)).
    induction fs as [|[n f] t IH]; intros doc; cbn [fields_renamed map schema_loop fst snd]; [apply rel_ret|].
    assert (Hf : F f) by (apply (Hk (n, f)); left; reflexivity).
    apply rel_bind; [apply t_fd_call; exact Hf|]. intros v w1 w2 A. cbv beta. rewrite <- (hide_twin f w1 w2 A Hf).
    apply IH; [|exact A]. intros nf H. apply Hk. right; exact H.
  Qed.

  Lemma fren_snd fs : map snd (fren fs) = map sigma (map snd fs).
  Proof. unfold fields_renamed. rewrite !map_map. reflexivity. Qed.

  Theorem t_sc_reset fs : (forall f, In f (map snd fs) -> F f) ->
    rel (sc_reset_fields P fuel fs) (sc_reset_fields P fuel (fren fs)).
  Proof.
    intros Hk. unfold sc_reset_fields. rewrite fren_snd. apply rel_do_method2. intros o Ho w1 w2 A. cbn. apply t_fd_reset; auto.
  Qed.
  Theorem t_sc_seed fs s : s <> None -> (forall f, In f (map snd fs) -> F f) ->
    rel (sc_seed_fields P fuel fs s) (sc_seed_fields P fuel (fren fs) s).
  Proof.
    intros Hs Hk. unfold sc_seed_fields. rewrite fren_snd. apply rel_do_method2. intros o Ho w1 w2 A. cbn. apply t_fd_seed; auto.
  Qed.

  (** ** Operations *)

  Definition t_allowed (o : op P) : Prop :=
    match o with
    | Emit _ id | EmitN _ id _ | ResetEm _ id => D id
    | SeedEm _ id s | SetSeedEm _ id s => D id /\ s <> None
    | Call _ f | Reset _ f => F f
    | Seed _ f s | SetSeed _ f s => F f /\ s <> None
    | Doc _ fs | ResetFields _ fs => forall f, In f (map snd fs) -> F f
    | SeedFields _ fs s => (forall f, In f (map snd fs) -> F f) /\ s <> None
    end.

  Theorem t_run o : t_allowed o -> rel (run P fuel str_of o) (run P fuel str_of (op_renamed P rho sigma o)).
  Proof.
    intros H. destruct o; cbn [op_renamed run t_allowed] in *;
      (apply rel_bind; [|intros; apply rel_ret]);
      [ apply t_em_call | apply t_em_call_n | apply t_em_reset | apply t_em_seed | apply t_set_rng_seed
      | apply t_fd_call | apply t_fd_reset | apply t_fd_seed | apply t_fd_set_seed
      | apply t_sc_call; intros nf Hn; apply H, in_map; exact Hn | apply t_sc_reset | apply t_sc_seed ];
      try apply H; auto.
  Qed.

  Theorem t_history h : Forall t_allowed h -> forall w1 w2, twin w1 w2 ->
    fst (history P fuel str_of h w1) = fst (history P fuel str_of (map (op_renamed P rho sigma) h) w2).
  Proof.
    induction 1 as [|o t Ho Ht IH]; intros w1 w2 A; [reflexivity|]. cbn [map history].
    destruct (t_run o Ho w1 w2 A) as [E R].
    destruct (run P fuel str_of o w1) as [r1 u1], (run P fuel str_of (op_renamed P rho sigma o) w2) as [r2 u2].
    cbn [fst snd] in E, R. subst r2. specialize (IH u1 u2 R).
    destruct (history P fuel str_of t u1) as [a b], (history P fuel str_of (map (op_renamed P rho sigma) t) u2) as [c d].
    cbn [fst] in *. congruence.
  Qed.
End Twin.
