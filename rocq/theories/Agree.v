(** * Two worlds that agree on a set of objects: every operation on these objects
    has the same outcome in both and changes nothing else. *)
From Verif Require Import Base Prims Values MathModel ChoiceModel FixedModel GroupModel
  SigModel WrapModel TextModel FieldModel World Rel WorldProofs.
Open Scope list_scope.
Open Scope Z_scope.

Section Agree.
  Context {P : prims} (fuel : nat) (str_of : val -> res (list Z)).
  Notation world := (World.world P).
  Notation emitter := (World.emitter P).
  Notation field := (World.field P).
  Notation get_em := (World.get_em P).
  Notation put_em := (World.put_em P).
  Notation get_fd := (World.get_fd P).
  Notation put_fd := (World.put_fd P).
  Notation use_entropy := (World.use_entropy P).
  Notation ent_of := (World.ent_of P).
  Notation node_of := (World.node_of P).
  Notation with_node := (World.with_node P).
  Notation children := (World.children P).
  Notation source_of := (World.source_of P).
  Notation items_of := (World.items_of P).
  Notation previous := (World.previous P).
  Notation name_of := (World.name_of P).
  Notation field_multi := (World.field_multi P).

  (** [strict]: see [osim].  [sok]: the seeds that may occur; if None is among
      them, the objects must have the same entropy ahead.  [D]: emitters; [F]:
      fields; [K]: fields that may be called, reset and seeded. [v1], [v2]: the
      worlds at the beginning. *)
  Context (strict : bool) (sok : option (pSeed P) -> Prop) (D F K : nat -> Prop) (v1 v2 : world).

  Definition fsim (x1 x2 : field) : Prop :=
    fconf x1 x2 /\ f_cache P x1 = f_cache P x2 /\ n_seed P (f_nd P x1) = n_seed P (f_nd P x2).

  Record agree (w1 w2 : world) : Prop := mkAgree {
    ag_em : forall id, D id -> orel (osim strict) (get_em id w1) (get_em id w2);
    ag_kids : forall id e k, D id -> get_em id w1 = Some e -> In k (children e) -> D k;
    ag_src : forall id e f, D id -> get_em id w1 = Some e -> In f (source_of e) -> F f;
    ag_sok : forall id e nd, D id -> get_em id w1 = Some e -> node_of e = Some nd -> sok (n_seed P nd);
    ag_ent : sok None -> forall id, D id -> ent_of id w1 = ent_of id w2;
    ag_fd : forall f, F f -> orel fsim (get_fd f w1) (get_fd f w2);
    ag_multi : forall f, F f -> field_multi w1 f = field_multi w2 f;
    ag_K : forall f, K f -> F f;
    ag_parts : forall f x p, K f -> get_fd f w1 = Some x -> In p (parts P x) -> D p;
    ag_fsok : forall f x, K f -> get_fd f w1 = Some x -> sok (n_seed P (f_nd P x));
    ag_in1 : within D K v1 w1;
    ag_in2 : within D K v2 w2
  }.

  Notation rel := (Rel.rel agree).

  Lemma multi_put id e e' (w : world) f : get_em id w = Some e -> conf e e' ->
    field_multi (put_em id e' w) f = field_multi w f.
  Proof.
    intros E C. unfold World.field_multi, World.get_fd. rewrite fd_put.
    destruct (nth_error (w_fd P w) f) as [x|]; [|reflexivity].
    destruct (Nat.eq_dec (f_rep P x) id) as [->|N].
    - rewrite (get_put_same _ _ _ _ E), E, (conf_items _ _ C). reflexivity.
    - rewrite get_put_other by exact N. reflexivity.
  Qed.

  Lemma agree_put w1 w2 id e1 e2 e1' e2' : agree w1 w2 -> D id ->
    get_em id w1 = Some e1 -> get_em id w2 = Some e2 -> conf e1 e1' -> conf e2 e2' -> osim strict e1' e2' ->
    (forall nd, node_of e1' = Some nd -> sok (n_seed P nd)) ->
    agree (put_em id e1' w1) (put_em id e2' w2).
  Proof.
    intros A Hd E1 E2 C1 C2 O S. destruct A. constructor; auto.
    - intros j Hj. destruct (Nat.eq_dec j id) as [->|N].
      + rewrite (get_put_same _ _ _ _ E1), (get_put_same _ _ _ _ E2). exact O.
      + rewrite !get_put_other by exact N. auto.
    - intros j e k Hj. destruct (Nat.eq_dec j id) as [->|N].
      + rewrite (get_put_same _ _ _ _ E1). intros [= <-]. rewrite <- (conf_children _ _ C1). eauto.
      + rewrite get_put_other by exact N. eauto.
    - intros j e k Hj. destruct (Nat.eq_dec j id) as [->|N].
      + rewrite (get_put_same _ _ _ _ E1). intros [= <-]. rewrite <- (conf_source _ _ C1). eauto.
      + rewrite get_put_other by exact N. eauto.
    - intros j e nd Hj. destruct (Nat.eq_dec j id) as [->|N].
      + rewrite (get_put_same _ _ _ _ E1). intros [= <-]. auto.
      + rewrite get_put_other by exact N. eauto.
    - intros Hs j Hj. rewrite !ent_put. auto.
    - intros f Hf. unfold World.get_fd. rewrite !fd_put. apply ag_fd0; exact Hf.
    - intros f Hf. rewrite (multi_put _ _ _ _ _ E1 C1), (multi_put _ _ _ _ _ E2 C2). auto.
    - intros f x p Hf. unfold World.get_fd. rewrite fd_put. apply (ag_parts0 f x p Hf).
    - intros f x Hf. unfold World.get_fd. rewrite fd_put. apply (ag_fsok0 f x Hf).
    - eapply within_put; eauto.
    - eapply within_put; eauto.
  Qed.

  Lemma agree_use w1 w2 id : agree w1 w2 -> D id -> agree (use_entropy id w1) (use_entropy id w2).
  Proof.
    intros A Hd. destruct A. constructor; auto.
    - intros j Hj. rewrite !get_use. auto.
    - intros j e k Hj. rewrite get_use. eauto.
    - intros j e k Hj. rewrite get_use. eauto.
    - intros j e nd Hj. rewrite get_use. eauto.
    - intros Hs j Hj. destruct (Nat.eq_dec j id) as [->|N].
      + specialize (ag_em0 id Hd). specialize (ag_ent0 Hs id Hd).
        destruct (get_em id w1) as [e1|] eqn:E1, (get_em id w2) as [e2|] eqn:E2; try contradiction.
        * rewrite (ent_use _ _ _ E1), (ent_use _ _ _ E2). congruence.
        * unfold World.use_entropy, World.get_em in *.
          destruct (nth_error (w_em P w1) id), (nth_error (w_em P w2) id); try discriminate. exact ag_ent0.
      + rewrite !ent_use_other by exact N. auto.
    - intros f Hf. unfold World.get_fd. rewrite !fd_use. apply ag_fd0; exact Hf.
    - intros f Hf. unfold World.field_multi, World.get_fd. rewrite !fd_use.
      specialize (ag_multi0 f Hf). unfold World.field_multi, World.get_fd in ag_multi0.
      destruct (nth_error (w_fd P w1) f), (nth_error (w_fd P w2) f); rewrite ?get_use; exact ag_multi0.
    - intros f x p Hf. unfold World.get_fd. rewrite fd_use. apply (ag_parts0 f x p Hf).
    - intros f x Hf. unfold World.get_fd. rewrite fd_use. apply (ag_fsok0 f x Hf).
    - apply within_use; assumption.
    - apply within_use; assumption.
  Qed.

  (** Looking at an emitter *)
  Lemma rel_at T id (k1 k2 : emitter -> M world T) : D id ->
    (forall w1 w2 e1 e2, agree w1 w2 -> get_em id w1 = Some e1 -> get_em id w2 = Some e2 -> osim strict e1 e2 ->
       fst (k1 e1 w1) = fst (k2 e2 w2) /\ agree (snd (k1 e1 w1)) (snd (k2 e2 w2))) ->
    rel (at_em P id k1) (at_em P id k2).
  Proof.
    intros Hd H w1 w2 A. unfold at_em. pose proof (ag_em _ _ A id Hd) as O.
    destruct (get_em id w1) as [e1|] eqn:E1, (get_em id w2) as [e2|] eqn:E2; try contradiction.
    - apply H; auto.
    - split; [reflexivity | exact A].
  Qed.

  Lemma rel_modify id (f1 f2 : emitter -> emitter) : D id ->
    (forall e1 e2 w1 w2, agree w1 w2 -> get_em id w1 = Some e1 -> get_em id w2 = Some e2 -> osim strict e1 e2 ->
       conf e1 (f1 e1) /\ conf e2 (f2 e2) /\ osim strict (f1 e1) (f2 e2) /\
       (forall nd, node_of (f1 e1) = Some nd -> sok (n_seed P nd))) ->
    rel (modify_em P id f1) (modify_em P id f2).
  Proof.
    intros Hd H. apply rel_at; [exact Hd|]. intros w1 w2 e1 e2 A E1 E2 O. cbn.
    destruct (H e1 e2 w1 w2 A E1 E2 O) as (C1 & C2 & O' & S). split; [reflexivity|].
    eapply agree_put; eauto.
  Qed.

  Lemma rel_run_iter T id (m1 m2 : M (iterative val) T) : D id ->
    (forall i, conf (EIter P i) (EIter P (snd (m1 i)))) -> (forall i, conf (EIter P i) (EIter P (snd (m2 i)))) ->
    (forall i1 i2, osim strict (EIter P i1) (EIter P i2) ->
       fst (m1 i1) = fst (m2 i2) /\ osim strict (EIter P (snd (m1 i1))) (EIter P (snd (m2 i2)))) ->
    rel (run_iter P id m1) (run_iter P id m2).
  Proof.
    intros Hd C1 C2 H. apply rel_at; [exact Hd|]. intros w1 w2 e1 e2 A E1 E2 O.
    destruct e1, e2; try discriminate O; try (split; [reflexivity | exact A]).
    specialize (H _ _ O). specialize (C1 i). specialize (C2 i0).
    destruct (m1 i) as [r1 j1], (m2 i0) as [r2 j2]. cbn [fst snd] in *. destruct H as [-> H].
    split; [reflexivity|]. eapply agree_put; eauto. discriminate.
  Qed.

  Lemma rel_run_user T id (m : uclass P -> M (val * pR P) T) : D id -> rel (run_user P id m) (run_user P id m).
  Proof.
    intros Hd. apply rel_at; [exact Hd|]. intros w1 w2 e1 e2 A E1 E2 O.
    destruct e1, e2; try discriminate O; try (split; [reflexivity | exact A]).
    cbn in O. injection O as <- <- <-.
    match goal with |- context [m c ?x] => destruct (m c x) as [r [own' rg]] end.
    split; [reflexivity|]. eapply agree_put; eauto; try (split; destruct nd; reflexivity); try reflexivity.
    intros x Hx. destruct nd as [y|]; [|discriminate]. injection Hx as <-. cbn.
    exact (ag_sok _ _ A id _ y Hd E1 eq_refl).
  Qed.

  Lemma rel_run_seq T id (m1 m2 : M (sequential val) T) : D id ->
    (forall b i, conf (ESeq P b i) (ESeq P b (snd (m1 i)))) -> (forall b i, conf (ESeq P b i) (ESeq P b (snd (m2 i)))) ->
    (forall b i1 i2, osim strict (ESeq P b i1) (ESeq P b i2) ->
       fst (m1 i1) = fst (m2 i2) /\ osim strict (ESeq P b (snd (m1 i1))) (ESeq P b (snd (m2 i2)))) ->
    rel (run_seq P id m1) (run_seq P id m2).
  Proof.
    intros Hd C1 C2 H. apply rel_at; [exact Hd|]. intros w1 w2 e1 e2 A E1 E2 O.
    destruct e1, e2; try discriminate O; try (split; [reflexivity | exact A]).
    pose proof (proj1 O) as Hb. subst islist0.
    specialize (H _ _ _ O). specialize (C1 islist s). specialize (C2 islist s0).
    destruct (m1 s) as [r1 j1], (m2 s0) as [r2 j2]. cbn [fst snd] in *. destruct H as [-> H].
    split; [reflexivity|]. eapply agree_put; eauto. discriminate.
  Qed.

  Lemma rel_run_choice T id (m : M (@choice P val) T) : D id -> keeps cseed m -> Rel.rel (csim strict) m m ->
    rel (run_choice P id m) (run_choice P id m).
  Proof.
    intros Hd C Hm. apply rel_at; [exact Hd|]. intros w1 w2 e1 e2 A0 E1 E2 O.
    destruct e1; (try (cbn in O; destruct e2; try discriminate O; split; [reflexivity | exact A0])).
    destruct e2; try discriminate O. destruct O as [<- O]. destruct (Hm _ _ O) as [Er Oc]. clear Hm O.
    pose proof (C c) as C1. pose proof (C c0) as C2. destruct (m c) as [r c'], (m c0) as [r0 c0']. cbn [fst snd] in *.
    subst r0. split; [reflexivity|].
    eapply agree_put; eauto; [split; [reflexivity | apply C1] | split; [reflexivity | apply C2] | split; [reflexivity | exact Oc]|].
    intros nd [= <-]. cbn.
    rewrite <- (proj2 C1). apply (ag_sok _ _ A0 id _ (mkNode P (c_seed c) (c_rng c)) Hd E1). reflexivity.
  Qed.

  Lemma rel_run_rng T id (m : M (pR P) T) : D id -> rel (run_rng P id m) (run_rng P id m).
  Proof.
    intros Hd. apply rel_at; [exact Hd|]. intros w1 w2 e1 e2 A0 E1 E2 O.
    pose proof (osim_node _ _ _ O) as N. rewrite <- N. destruct (node_of e1) as [nd|] eqn:En;
      [|split; [reflexivity | exact A0]].
    destruct (m (n_rng P nd)) as [r rg]. cbn [fst snd]. split; [reflexivity|].
    eapply agree_put; eauto using conf_node, osim_with.
    intros nd' H. rewrite (node_with _ _ _ En) in H. injection H as <-. cbn.
    eapply ag_sok; eauto.
  Qed.

  Lemma bound_urel id f : D id -> urel agree (bound P id f) (bound P id f).
  Proof.
    intros Hd. split; [reflexivity|]. split; intros args kw; cbn; [apply rel_lift | apply rel_run_rng; exact Hd].
  Qed.

  (** ** reset *)

  Lemma has_seed_agree id w1 w2 : D id -> agree w1 w2 -> has_seed P id w1 = has_seed P id w2.
  Proof.
    intros Hd A. unfold has_seed. pose proof (ag_em _ _ A id Hd) as O.
    destruct (get_em id w1), (get_em id w2); try contradiction; [|reflexivity].
    rewrite (osim_node _ _ _ O). reflexivity.
  Qed.

  Lemma rel_set_rng_seed id s : D id -> sok s -> rel (set_rng_seed P s id) (set_rng_seed P s id).
  Proof.
    intros Hd Hs. apply rel_modify; [exact Hd|]. intros e1 e2 w1 w2 A E1 E2 O.
    pose proof (osim_node _ _ _ O) as N. rewrite <- N. destruct (node_of e1) as [nd|] eqn:En.
    - repeat split; auto using conf_node, osim_with.
      intros nd' H. rewrite (node_with _ _ _ En) in H. injection H as <-. exact Hs.
    - repeat split; auto using conf_refl. congruence.
  Qed.

  Lemma rel_use id : D id -> rel (fun w => (Ok tt, use_entropy id w)) (fun w => (Ok tt, use_entropy id w)).
  Proof. intros Hd w1 w2 A. split; [reflexivity | apply agree_use; assumption]. Qed.

  (** The rng made from a seed that may occur, by an object of both worlds. *)
  Lemma rng_agree id s w1 w2 : D id -> agree w1 w2 -> sok s ->
    rng_for P s (em_entropy id (ent_of id w1)) = rng_for P s (em_entropy id (ent_of id w2)).
  Proof.
    intros Hd A Hs. destruct s as [s|]; [reflexivity|]. cbn. rewrite (ag_ent _ _ A Hs id Hd). reflexivity.
  Qed.

  Lemma rel_reset_rng id : D id -> rel (reset_rng P id) (reset_rng P id).
  Proof.
    intros Hd w1 w2 A. unfold reset_rng. revert w1 w2 A.
    assert (X : forall k1 k2, (forall s, sok s -> rng_for P s (em_entropy id k1) = rng_for P s (em_entropy id k2)) ->
      rel (modify_em P id (fun e => match node_of e with
             | Some nd => with_node (mkNode P (n_seed P nd) (rng_for P (n_seed P nd) (em_entropy id k1))) e
             | None => e end) ;;; (fun w => (Ok tt, use_entropy id w)))
          (modify_em P id (fun e => match node_of e with
             | Some nd => with_node (mkNode P (n_seed P nd) (rng_for P (n_seed P nd) (em_entropy id k2))) e
             | None => e end) ;;; (fun w => (Ok tt, use_entropy id w)))).
    { intros k1 k2 Hk. apply rel_bind; [|intros _; apply rel_use; exact Hd].
      apply rel_modify; [exact Hd|]. intros e1 e2 w1 w2 A E1 E2 O.
      pose proof (osim_node _ _ _ O) as N. rewrite <- N. destruct (node_of e1) as [nd|] eqn:En.
      - assert (Hs : sok (n_seed P nd)) by (eapply ag_sok; eauto).
        rewrite (Hk _ Hs). repeat split; auto using conf_node, osim_with.
        intros nd' H. rewrite (node_with _ _ _ En) in H. injection H as <-. exact Hs.
      - repeat split; auto using conf_refl. congruence. }
    intros w1 w2 A. apply X; [|exact A]. intros s Hs. apply rng_agree; assumption.
  Qed.

  Lemma rel_seed_children s kids : sok s -> (forall k, In k kids -> D k) ->
    rel (seed_children P s kids) (seed_children P s kids).
  Proof.
    intros Hs Hk. apply rel_setattr.
    - intros o Ho w1 w2 A. apply has_seed_agree; [|exact A]. apply Hk.
      apply in_map_iff in Ho. destruct Ho as (x & [= <-] & Hx). exact Hx.
    - intros o Ho. apply rel_set_rng_seed; [|exact Hs]. apply Hk.
      apply in_map_iff in Ho. destruct Ho as (x & [= <-] & Hx). exact Hx.
  Qed.

  Lemma rel_reset_children r1 r2 kids : (forall k, In k kids -> rel (r1 k) (r2 k)) ->
    rel (reset_children P r1 kids) (reset_children P r2 kids).
  Proof.
    intros Hk. apply rel_do_method. intros o Ho w1 w2 A. cbn. apply Hk.
    apply in_map_iff in Ho. destruct Ho as (x & [= <-] & Hx). exact Hx.
  Qed.

  Lemma rel_mixin_reset r1 r2 own1 own2 s kids : sok s -> (forall k, In k kids -> D k) ->
    (forall k, In k kids -> rel (r1 k) (r2 k)) -> rel own1 own2 ->
    rel (mixin_reset P r1 own1 s kids) (mixin_reset P r2 own2 s kids).
  Proof.
    intros Hs Hd Hk Ho. unfold mixin_reset.
    apply rel_bind; [apply rel_seed_children; assumption|]. intros _.
    apply rel_bind; [exact Ho|]. intros _. apply rel_reset_children; exact Hk.
  Qed.

  Ltac same_kind O e1 e2 :=
    destruct e1; destruct e2; try discriminate O; cbn beta iota.

  (** The depths [d1] and [d2] are the same; or both exceed the depth of nesting
      below [id]: as all parts are older than the object they are part of, or as
      [n] bounds it. *)
  Definition older (w : world) : Prop :=
    forall id e k, get_em id w = Some e -> In k (children e) -> (k < id)%nat.
  (** Parts of [id] are nested at most [n] deep. *)
  Fixpoint nested (n : nat) (w : world) (id : nat) : Prop :=
    match get_em id w with
    | None => True
    | Some e => match n with
                | O => children e = []
                | S n => forall k, In k (children e) -> nested n w k
                end
    end.
  Definition deep (d1 d2 id : nat) : Prop :=
    (d1 = d2 \/ exists n, nested n v1 id /\ (n < d1)%nat /\ (n < d2)%nat) \/
    (older v1 /\ (id < d1)%nat /\ (id < d2)%nat).
  Lemma deep_same d id : deep d d id.
  Proof. left; left; reflexivity. Qed.
  Lemma deep_kid d1 d2 id e k w1 w2 : deep (S d1) (S d2) id -> agree w1 w2 -> get_em id w1 = Some e ->
    In k (children e) -> deep d1 d2 k.
  Proof.
    intros Hd A E Hk.
    destruct (ag_in1 _ _ A) as [[C _] _]. specialize (C id). rewrite E in C.
    destruct (get_em id v1) as [e0|] eqn:E0; [|contradiction]. cbn in C.
    rewrite <- (conf_children _ _ C) in Hk.
    destruct Hd as [[H|(n & Hn & H1 & H2)]|(Ho & H1 & H2)].
    - left. left. congruence.
    - destruct n as [|n]; cbn [nested] in Hn; rewrite E0 in Hn; [rewrite Hn in Hk; destruct Hk|].
      left. right. exists n. split; [apply Hn, Hk | lia].
    - right. split; [exact Ho|]. specialize (Ho id e0 k E0 Hk). lia.
  Qed.
  Lemma deep_zero d1 d2 id : deep d1 d2 id -> (d1 = O /\ d2 = O) \/ exists a b, d1 = S a /\ d2 = S b.
  Proof.
    intros [[->|(n & _ & H1 & H2)]|(_ & H1 & H2)]; [destruct d2; eauto| |]; destruct d1, d2; try lia; eauto.
  Qed.

  Theorem rel_ereset d1 : forall d2 id, deep d1 d2 id -> D id -> rel (ereset P fuel d1 id) (ereset P fuel d2 id).
  Proof.
    induction d1 as [|d1 IH]; intros d2 id Hdp Hd; destruct (deep_zero _ _ _ Hdp) as [[? ->]|(? & d2' & [= <-] & ->)];
      try discriminate; cbn [ereset]; [apply rel_diverge|]. rename d2' into d2.
    apply rel_at; [exact Hd|]. intros w1 w2 e1 e2 A E1 E2 O.
    assert (Kid : forall k, In k (children e1) -> D k) by (intros k Hk; eapply ag_kids; eauto).
    assert (Dp : forall k, In k (children e1) -> deep d1 d2 k) by (intros k Hk; eapply deep_kid; eauto).
    assert (Sok : forall nd, node_of e1 = Some nd -> sok (n_seed P nd)) by (intros nd Hn; eapply ag_sok; eauto).
    same_kind O e1 e2.
    - apply rel_ret; exact A.
    - apply rel_run_iter; try assumption.
      + intros j; cbn; auto.
      + intros j; cbn; auto.
      + intros i1 i2 (Q1 & Q2 & Q3). cbn. repeat split; auto. apply gsim_reset; exact Q3.
    - apply rel_run_seq; try assumption.
      + intros b j; cbn; auto 10.
      + intros b j; cbn; auto 10.
      + intros b i1 i2 (Q0 & Q1 & Q2 & Q3 & Q4 & Q5). cbn. repeat split; auto. unfold seq_factory in *. cbn.
        apply (gsim_reset _ _ (s_gen i1) (s_gen i2)); exact Q5.
    - destruct O as [<- _]. revert w1 w2 A E1 E2.
      assert (X : forall k1 k2, (forall s, sok s -> rng_for P s (em_entropy id k1) = rng_for P s (em_entropy id k2)) ->
        rel (run_choice P id (choice_reset P fuel (em_entropy id k1)) ;;; (fun w => (Ok tt, use_entropy id w)))
            (run_choice P id (choice_reset P fuel (em_entropy id k2)) ;;; (fun w => (Ok tt, use_entropy id w)))).
      { intros k1 k2 Hk. apply rel_bind; [|intros _; apply rel_use; exact Hd].
        intros w1 w2 A.
        assert (Q : run_choice P id (choice_reset P fuel (em_entropy id k2)) w2 =
                    run_choice P id (choice_reset P fuel (em_entropy id k1)) w2).
        { unfold run_choice, at_em. destruct (get_em id w2) as [e|] eqn:E; [|reflexivity].
          destruct e; try reflexivity. rewrite !choice_reset_eq. rewrite Hk; [reflexivity|].
          pose proof (ag_em _ _ A id Hd) as O. rewrite E in O. destruct (get_em id w1) as [e|] eqn:E'; [|contradiction].
          apply (ag_sok _ _ A id e (mkNode P (c_seed c1) (c_rng c1)) Hd E').
          rewrite (osim_node _ _ _ O). reflexivity. }
        rewrite Q. apply rel_run_choice; [exact Hd | apply kreset | apply cs_reset | exact A]. }
      intros w1 w2 A E1 E2. apply X; [|exact A]. intros s Hs. apply rng_agree; assumption.
    - cbn in O. destruct O as (<- & <- & <- & _).
      apply rel_bind; [| |exact A]; [|intros _; apply rel_bind; [|intros _]].
      + apply rel_mixin_reset; auto using rel_reset_rng.
      + apply rel_seed_children; auto.
      + apply rel_reset_children; auto.
    - cbn in O. destruct O as (<- & <- & <- & <- & _).
      apply rel_bind; [| |exact A]; [|intros _; apply rel_bind; [|intros _]].
      + apply rel_mixin_reset; auto using rel_reset_rng.
      + apply rel_seed_children; auto.
      + apply rel_reset_children; auto.
    - cbn in O. injection O as <- <- <-. apply rel_mixin_reset; auto using rel_reset_rng.
    - cbn in O. injection O as <- <- <-. apply rel_mixin_reset; auto using rel_reset_rng.
    - apply rel_ret; exact A.
    - cbn in O. injection O as <- <- <- <-. apply rel_reset_rng; [exact Hd | exact A].
    - cbn in O. injection O as <- <- <-.
      apply rel_bind; [destruct nd; [apply rel_reset_rng; exact Hd | apply rel_ret] | intros _; apply rel_run_user; exact Hd | exact A].
  Qed.

  (** ** seed *)

  Lemma rel_seed_own id s : D id -> sok s -> rel (seed_own P id s) (seed_own P id s).
  Proof.
    intros Hd Hs. unfold seed_own.
    assert (X : forall k1 k2, (forall s, sok s -> rng_for P s (em_entropy id k1) = rng_for P s (em_entropy id k2)) ->
      rel (modify_em P id (fun e => match node_of e with
             | Some nd => with_node (mkNode P s (rng_for P s (em_entropy id k1))) e
             | None => e end) ;;; (fun w => (Ok tt, use_entropy id w)))
          (modify_em P id (fun e => match node_of e with
             | Some nd => with_node (mkNode P s (rng_for P s (em_entropy id k2))) e
             | None => e end) ;;; (fun w => (Ok tt, use_entropy id w)))).
    { intros k1 k2 Hk. apply rel_bind; [|intros _; apply rel_use; exact Hd].
      apply rel_modify; [exact Hd|]. intros e1 e2 w1 w2 A E1 E2 O.
      pose proof (osim_node _ _ _ O) as N. rewrite <- N. destruct (node_of e1) as [nd|] eqn:En.
      - rewrite (Hk _ Hs). repeat split; auto using conf_node, osim_with.
        intros nd' H. rewrite (node_with _ _ _ En) in H. injection H as <-. exact Hs.
      - repeat split; auto using conf_refl. congruence. }
    intros w1 w2 A. apply X; [|exact A]. intros t Ht. apply rng_agree; assumption.
  Qed.

  Lemma rel_seed_all r1 r2 kids : (forall k, In k kids -> D k) -> (forall k, In k kids -> rel (r1 k) (r2 k)) ->
    rel (seed_all P r1 kids) (seed_all P r2 kids).
  Proof.
    intros Hd Hk. apply rel_do_method. intros o Ho w1 w2 A.
    apply in_map_iff in Ho. destruct Ho as (x & [= <-] & Hx).
    rewrite <- (has_seed_agree x w1 w2 (Hd x Hx) A). destruct (has_seed P x w1); [apply Hk; exact Hx | exact I].
  Qed.

  Lemma rel_mixin_seed r1 r2 own1 own2 kids : (forall k, In k kids -> D k) ->
    (forall k, In k kids -> rel (r1 k) (r2 k)) -> rel own1 own2 ->
    rel (mixin_seed P r1 own1 kids) (mixin_seed P r2 own2 kids).
  Proof.
    intros Hd Hk Ho. unfold mixin_seed. apply rel_bind; [apply rel_seed_all; assumption|]. intros _.
    apply rel_catch; exact Ho.
  Qed.

  Theorem rel_eseed d1 s : sok s -> forall d2 id, deep d1 d2 id -> D id ->
    rel (eseed P fuel d1 s id) (eseed P fuel d2 s id).
  Proof.
    intros Hs. induction d1 as [|d1 IH]; intros d2 id Hdp Hd;
      destruct (deep_zero _ _ _ Hdp) as [[? ->]|(? & d2' & [= <-] & ->)];
      try discriminate; cbn [eseed]; [apply rel_diverge|]. rename d2' into d2.
    apply rel_at; [exact Hd|]. intros w1 w2 e1 e2 A E1 E2 O.
    assert (Kid : forall k, In k (children e1) -> D k) by (intros k Hk; eapply ag_kids; eauto).
    assert (Dp : forall k, In k (children e1) -> deep d1 d2 k) by (intros k Hk; eapply deep_kid; eauto).
    same_kind O e1 e2; try (split; [reflexivity | exact A]).
    - destruct O as [<- _]. revert w1 w2 A E1 E2.
      assert (X : forall k1 k2, (forall s, sok s -> rng_for P s (em_entropy id k1) = rng_for P s (em_entropy id k2)) ->
        rel (run_choice P id (choice_seed P fuel s (em_entropy id k1)) ;;; (fun w => (Ok tt, use_entropy id w)))
            (run_choice P id (choice_seed P fuel s (em_entropy id k2)) ;;; (fun w => (Ok tt, use_entropy id w)))).
      { intros k1 k2 Hk. apply rel_bind; [|intros _; apply rel_use; exact Hd].
        apply rel_at; [exact Hd|]. intros w1 w2 e1 e2 A E1 E2 O.
        destruct e1; (try (cbn in O; destruct e2; try discriminate O; split; [reflexivity | exact A])).
        destruct e2; try discriminate O. destruct O as [<- O].
        rewrite (choice_seed_eq fuel s (em_entropy id k2)), <- (Hk s Hs), <- choice_seed_eq.
        pose proof (kseed fuel s (em_entropy id k1) c1) as [C1 C2]. pose proof (kseed fuel s (em_entropy id k1) c2) as [C3 C4].
        destruct (cs_seed strict fuel s (em_entropy id k1) _ _ O) as [Er Oc].
        destruct (choice_seed P fuel s (em_entropy id k1) c1) as [r c'], (choice_seed P fuel s (em_entropy id k1) c2) as [r0 c0'].
        cbn [fst snd] in *. subst r0. split; [reflexivity|].
        eapply agree_put; eauto; [split; [reflexivity | exact C1] | split; [reflexivity | exact C3] | split; [reflexivity | exact Oc]|].
        intros nd [= <-]. cbn. rewrite C2. exact Hs. }
      intros w1 w2 A E1 E2. apply X; [|exact A]. intros t Ht. apply rng_agree; assumption.
    - cbn in O. destruct O as (<- & <- & <- & _). apply rel_bind; [| |exact A].
      + apply rel_mixin_seed; auto. apply rel_seed_own; assumption.
      + intros _. apply rel_seed_all; auto.
    - cbn in O. destruct O as (<- & <- & <- & <- & _). apply rel_bind; [| |exact A].
      + apply rel_mixin_seed; auto. apply rel_seed_own; assumption.
      + intros _. apply rel_seed_all; auto.
    - cbn in O. injection O as <- <- <-. apply rel_mixin_seed; auto. apply rel_seed_own; assumption.
    - cbn in O. injection O as <- <- <-. apply rel_mixin_seed; auto. apply rel_seed_own; assumption.
    - cbn in O. injection O as <- <- <- <-. apply rel_seed_own; assumption.
    - cbn in O. injection O as <- <- <-. destruct nd; [apply rel_seed_own; assumption | apply rel_raise; exact A].
  Qed.

  (** ** emit *)

  Lemma previous_agree f w1 w2 : agree w1 w2 -> F f -> previous f w1 = previous f w2.
  Proof.
    intros A Hf. unfold World.previous. pose proof (ag_fd _ _ A f Hf) as X.
    destruct (get_fd f w1), (get_fd f w2); try contradiction; [apply X | reflexivity].
  Qed.
  Lemma name_agree f w1 w2 : agree w1 w2 -> F f -> name_of f w1 = name_of f w2.
  Proof.
    intros A Hf. unfold World.name_of. pose proof (ag_fd _ _ A f Hf) as X.
    destruct (get_fd f w1), (get_fd f w2); try contradiction; [apply X | reflexivity].
  Qed.

  Lemma word_unique_agree id w1 w2 : D id -> agree w1 w2 -> word_unique P id w1 = word_unique P id w2.
  Proof.
    intros Hd A. unfold word_unique. pose proof (ag_em _ _ A id Hd) as O.
    destruct (get_em id w1) as [e1|], (get_em id w2) as [e2|]; try contradiction; [|reflexivity].
    destruct e1, e2; try discriminate O; try reflexivity. destruct O as [_ O].
    pose proof (csim_same _ _ _ O) as (_&_&_&_&<-&_). rewrite (cs_nuv _ _ _ O). reflexivity.
  Qed.

  Theorem rel_emits d1 : forall d2,
    (forall id, deep d1 d2 id -> D id -> rel (fst (emits P fuel str_of d1) id) (fst (emits P fuel str_of d2) id)) /\
    (forall id n, deep d1 d2 id -> D id ->
       rel (snd (emits P fuel str_of d1) id n) (snd (emits P fuel str_of d2) id n)).
  Proof.
    induction d1 as [|d1 IH]; intros d2.
    { split; [intros id Hdp Hd | intros id n Hdp Hd]; destruct (deep_zero _ _ _ Hdp) as [[? ->]|(? & d2' & ? & ->)];
        try discriminate; apply rel_diverge. }
    assert (IHn : forall d2 id n, deep d1 d2 id -> D id ->
       rel (call_number (fst (emits P fuel str_of d1) id) (snd (emits P fuel str_of d1) id) n)
           (call_number (fst (emits P fuel str_of d2) id) (snd (emits P fuel str_of d2) id) n)).
    { intros d id n Hp Hd. apply rel_call_number; apply IH; auto. }
    assert (IH1 : forall d2 id, deep d1 d2 id -> D id ->
       rel (fst (emits P fuel str_of d1) id) (fst (emits P fuel str_of d2) id)) by (intros; apply IH; auto).
    assert (Srcs : forall d2 srcs, (forall k, In k (map snd srcs) -> D k) -> (forall k, In k (map snd srcs) -> deep d1 d2 k) ->
       Forall2 (srel agree)
         (map (fun ks => (fst ks, (fst (emits P fuel str_of d1) (snd ks),
                call_number (fst (emits P fuel str_of d1) (snd ks)) (snd (emits P fuel str_of d1) (snd ks))))) srcs)
         (map (fun ks : string * nat => (fst ks, (fst (emits P fuel str_of d2) (snd ks),
                call_number (fst (emits P fuel str_of d2) (snd ks)) (snd (emits P fuel str_of d2) (snd ks))))) srcs)).
    { intros d. induction srcs as [|[k i] t IHt]; intros Hk Hp; cbn [map]; constructor.
      - split; [reflexivity|]. cbn. split; [apply IH1 | intros n; apply IHn];
          first [apply Hk | apply Hp]; left; reflexivity.
      - apply IHt; intros j Hj; [apply Hk | apply Hp]; right; exact Hj. }
    split; [intros id Hdp Hd | intros id n Hdp Hd];
      (destruct (deep_zero _ _ _ Hdp) as [[? ->]|(? & d2' & [= <-] & ->)]; [discriminate|]);
      rename d2' into d2; cbn [emits fst snd].
    - unfold emit_body. apply rel_at; [exact Hd|]. intros w1 w2 e1 e2 A E1 E2 O.
      assert (Kid : forall k, In k (children e1) -> D k) by (intros k Hk; eapply ag_kids; eauto).
      assert (Dp : forall k, In k (children e1) -> deep d1 d2 k) by (intros k Hk; eapply deep_kid; eauto).
      assert (Src : forall f, In f (source_of e1) -> F f) by (intros k Hk; eapply ag_src; eauto).
      same_kind O e1 e2.
      + cbn in O. injection O as <-. apply rel_lift; exact A.
      + apply rel_run_iter; try assumption; try apply conf_iter_run.
        intros i1 i2 Q. apply osim_iter_run; [|exact Q]. intros f g1 g2 G. apply gsim_next; exact G.
      + apply rel_run_seq; try assumption; try (intros b j; apply conf_seq_run).
        intros b i1 i2 Q. apply osim_seq_run; [|exact Q]. intros f g1 g2 G. apply gsim_next; exact G.
      + apply rel_run_choice; [exact Hd | apply kemit | apply cs_emit | exact A].
      + cbn in O. destruct O as (<- & <- & <- & _). cbn in Kid, Dp. apply rel_word_emit; auto.
      + cbn in O. destruct O as (<- & <- & <- & <- & _). cbn in Kid, Dp. apply rel_text_emit; try (intros; apply IHn; auto 8; fail); [| |exact A].
        * apply rel_ereset; auto.
        * intros s1 s2 Q. apply word_unique_agree; auto.
      + cbn in O. injection O as <- <- <-. cbn in Kid, Dp. apply rel_wrapone_emit; auto. apply bound_urel; exact Hd.
      + cbn in O. injection O as <- <- <-. apply rel_wrapmany_emit; auto. apply bound_urel; exact Hd.
      + cbn in O. injection O as <- <- <-. cbn in Src. cbn [fst snd]. split; [|exact A]. f_equal.
        unfold copy_source. apply map_ext_in. intros f Hf. rewrite (ag_multi _ _ A f (Src f Hf)), (previous_agree f _ _ A (Src f Hf)). reflexivity.
      + cbn in O. injection O as <- <- <- <-. cbn in Src. apply rel_based_emit; [| apply bound_urel; exact Hd | exact A].
        intros s1 s2 Q. unfold based_source. apply map_ext_in. intros f Hf.
        rewrite (name_agree f _ _ Q (Src f Hf)), (previous_agree f _ _ Q (Src f Hf)). reflexivity.
      + apply rel_run_user; [exact Hd | exact A].
    - unfold emit_many_body. apply rel_at; [exact Hd|]. intros w1 w2 e1 e2 A E1 E2 O.
      assert (Kid : forall k, In k (children e1) -> D k) by (intros k Hk; eapply ag_kids; eauto).
      assert (Dp : forall k, In k (children e1) -> deep d1 d2 k) by (intros k Hk; eapply deep_kid; eauto).
      assert (Src : forall f, In f (source_of e1) -> F f) by (intros k Hk; eapply ag_src; eauto).
      same_kind O e1 e2.
      + cbn in O. injection O as <-. apply rel_lift; exact A.
      + apply rel_run_iter; try assumption; unfold iter_emit_many; destruct (n <? 0);
          try apply conf_iter_run; try (intros; cbn; auto; fail).
        all: intros i1 i2 Q; first [split; [reflexivity | exact Q] |
          apply osim_iter_run; [|exact Q]; intros f g1 g2 G; apply gsim_take; exact G].
      + apply rel_run_seq; try assumption; unfold seq_emit_many; destruct (n <? 0);
          try (intros b j; apply conf_seq_run); try (intros; cbn; auto 10; fail).
        all: intros b i1 i2 Q; first [split; [reflexivity | exact Q] |
          apply osim_seq_run; [|exact Q]; intros f g1 g2 G; apply gsim_take; exact G].
      + apply rel_run_choice; [exact Hd | apply kemit_many | apply cs_emit_many | exact A].
      + cbn in O. destruct O as (<- & <- & <- & _). cbn in Kid, Dp. apply rel_word_emit_many; auto.
      + cbn in O. destruct O as (<- & <- & <- & <- & _). cbn in Kid, Dp. apply rel_text_emit_many; try (intros; apply IHn; auto 8; fail); [| |exact A].
        * apply rel_ereset; auto.
        * intros s1 s2 Q. apply word_unique_agree; auto.
      + cbn in O. injection O as <- <- <-. cbn in Kid, Dp. apply rel_wrapone_emit_many; auto. apply bound_urel; exact Hd.
      + cbn in O. injection O as <- <- <-. apply rel_wrapmany_emit_many; auto. apply bound_urel; exact Hd.
      + cbn in O. injection O as <- <- <-. cbn in Src. apply rel_repeat_emit; [|exact A].
        apply rel_pure. intros s1 s2 Q. f_equal.
        unfold copy_source. apply map_ext_in. intros f Hf. rewrite (ag_multi _ _ Q f (Src f Hf)), (previous_agree f _ _ Q (Src f Hf)). reflexivity.
      + cbn in O. injection O as <- <- <- <-. cbn in Src. apply rel_repeat_emit; [|exact A].
        apply rel_based_emit; [| apply bound_urel; exact Hd].
        intros s1 s2 Q. unfold based_source. apply map_ext_in. intros f Hf.
        rewrite (name_agree f _ _ Q (Src f Hf)), (previous_agree f _ _ Q (Src f Hf)). reflexivity.
      + apply rel_run_user; [exact Hd | exact A].
  Qed.

  Lemma rel_em_call id : D id -> rel (em_call P fuel str_of id) (em_call P fuel str_of id).
  Proof. intros Hd. apply rel_emits; auto using deep_same. Qed.
  Lemma rel_em_emit_many id n : D id -> rel (em_emit_many P fuel str_of id n) (em_emit_many P fuel str_of id n).
  Proof. intros Hd. apply rel_emits; auto using deep_same. Qed.
  Lemma rel_em_call_n id n : D id -> rel (em_call_n P fuel str_of id n) (em_call_n P fuel str_of id n).
  Proof. intros Hd. apply rel_call_number; apply rel_emits; auto using deep_same. Qed.
  Lemma rel_em_reset id : D id -> rel (em_reset P fuel id) (em_reset P fuel id).
  Proof. intros Hd. apply rel_ereset; auto using deep_same. Qed.
  Lemma rel_em_seed id s : D id -> sok s -> rel (em_seed P fuel id s) (em_seed P fuel id s).
  Proof. intros Hd Hs. apply rel_eseed; auto using deep_same. Qed.

  (** ** Fields *)

  Lemma multi_put_fd f x x' (w : world) g : get_fd f w = Some x -> fconf x x' ->
    field_multi (put_fd f x' w) g = field_multi w g.
  Proof.
    intros E C. unfold World.field_multi, World.get_fd, World.put_fd, World.get_em in *. cbn.
    destruct (Nat.eq_dec g f) as [->|N].
    - rewrite (nth_upd_same _ _ _ _ _ E), E. destruct C as (_ & _ & _ & R & _). rewrite R. reflexivity.
    - rewrite nth_upd_other by congruence. reflexivity.
  Qed.

  Lemma agree_put_fd w1 w2 f x1 x2 x1' x2' : agree w1 w2 -> K f ->
    get_fd f w1 = Some x1 -> get_fd f w2 = Some x2 -> fconf x1 x1' -> fconf x2 x2' -> fsim x1' x2' ->
    sok (n_seed P (f_nd P x1')) ->
    agree (put_fd f x1' w1) (put_fd f x2' w2).
  Proof.
    intros A Hk E1 E2 C1 C2 O S. destruct A. constructor; auto.
    - intros g Hg. destruct (Nat.eq_dec g f) as [->|N].
      + unfold World.get_fd, World.put_fd in *. cbn.
        rewrite (nth_upd_same _ _ _ _ _ E1), (nth_upd_same _ _ _ _ _ E2). exact O.
      + unfold World.get_fd, World.put_fd in *. cbn. rewrite !nth_upd_other by congruence. apply ag_fd0; exact Hg.
    - intros g Hg. rewrite (multi_put_fd _ _ _ _ _ E1 C1), (multi_put_fd _ _ _ _ _ E2 C2). auto.
    - intros g x p Hg. destruct (Nat.eq_dec g f) as [->|N].
      + unfold World.get_fd, World.put_fd in *. cbn. rewrite (nth_upd_same _ _ _ _ _ E1). intros [= <-].
        intros Hp. apply (ag_parts0 f x1 p Hk E1). destruct C1 as (_ & _ & Q1 & Q2 & Q3).
        unfold parts in *. rewrite Q1, Q2, Q3. exact Hp.
      + unfold World.get_fd, World.put_fd in *. cbn. rewrite !nth_upd_other by congruence. apply (ag_parts0 g x p Hg).
    - intros g x Hg. destruct (Nat.eq_dec g f) as [->|N].
      + unfold World.get_fd, World.put_fd in *. cbn. rewrite (nth_upd_same _ _ _ _ _ E1). intros [= <-]. exact S.
      + unfold World.get_fd, World.put_fd in *. cbn. rewrite !nth_upd_other by congruence. apply (ag_fsok0 g x Hg).
    - eapply within_put_fd; eauto.
    - eapply within_put_fd; eauto.
  Qed.

  Lemma rel_at_fd T f (k1 k2 : field -> M world T) : K f ->
    (forall w1 w2 x1 x2, agree w1 w2 -> get_fd f w1 = Some x1 -> get_fd f w2 = Some x2 -> fsim x1 x2 ->
       fst (k1 x1 w1) = fst (k2 x2 w2) /\ agree (snd (k1 x1 w1)) (snd (k2 x2 w2))) ->
    rel (at_fd P f k1) (at_fd P f k2).
  Proof.
    intros Hk H w1 w2 A. unfold at_fd. pose proof (ag_fd _ _ A f (ag_K _ _ A f Hk)) as O.
    destruct (get_fd f w1) as [x1|] eqn:E1, (get_fd f w2) as [x2|] eqn:E2; try contradiction.
    - apply H; auto.
    - split; [reflexivity | exact A].
  Qed.

  Lemma rel_modify_fd f (g1 g2 : field -> field) : K f ->
    (forall x1 x2, fsim x1 x2 -> sok (n_seed P (f_nd P x1)) -> fconf x1 (g1 x1) /\ fconf x2 (g2 x2) /\ fsim (g1 x1) (g2 x2) /\
       sok (n_seed P (f_nd P (g1 x1)))) ->
    rel (modify_fd P f g1) (modify_fd P f g2).
  Proof.
    intros Hk H. apply rel_at_fd; [exact Hk|]. intros w1 w2 x1 x2 A E1 E2 O. cbn.
    destruct (H x1 x2 O (ag_fsok _ _ A f x1 Hk E1)) as (C1 & C2 & O' & S). split; [reflexivity|].
    eapply agree_put_fd; eauto.
  Qed.

  Lemma rel_set_cache f v : K f -> rel (modify_fd P f (fd_cache P v)) (modify_fd P f (fd_cache P v)).
  Proof.
    intros Hk. apply rel_modify_fd; [exact Hk|]. intros x1 x2 (C & E & S) Hs. repeat split; try apply C; assumption.
  Qed.

  Theorem rel_fd_call f : K f -> rel (fd_call P fuel str_of f) (fd_call P fuel str_of f).
  Proof.
    intros Hk. apply rel_at_fd; [exact Hk|]. intros w1 w2 x1 x2 A E1 E2 ((Q1 & Q2 & Q3 & Q4 & Q5) & _).
    rewrite <- Q3, <- Q4, <- Q5.
    assert (Hp : forall p, In p (parts P x1) -> D p) by (intros p; eapply ag_parts; eauto).
    cbn in Hp. apply rel_field_call; [| | | | |exact A].
    - apply rel_em_call; auto.
    - apply rel_em_call; auto.
    - apply rel_em_call; auto.
    - intros n. apply rel_em_call_n; auto.
    - intros v. apply rel_set_cache; exact Hk.
  Qed.

  Theorem rel_fd_reset f : K f -> rel (fd_reset P fuel f) (fd_reset P fuel f).
  Proof.
    intros Hk. apply rel_at_fd; [exact Hk|]. intros w1 w2 x1 x2 A E1 E2 ((Q1 & Q2 & Q3 & Q4 & Q5) & _ & S).
    assert (Hp : forall p, In p (parts P x1) -> D p) by (intros p; eapply ag_parts; eauto).
    assert (Hs : sok (n_seed P (f_nd P x1))) by (eapply ag_fsok; eauto).
    replace (parts P x2) with (parts P x1) by (unfold parts; congruence). rewrite <- S.
    apply rel_bind; [| |exact A].
    - apply rel_mixin_reset; auto.
      + intros k Hp'. apply rel_em_reset; auto.
      + apply rel_modify_fd; [exact Hk|]. intros y1 y2 (C & E & S') Hs'. repeat split; try apply C; assumption.
    - intros _. apply rel_set_cache; exact Hk.
  Qed.

  Theorem rel_fd_seed f s : K f -> sok s -> rel (fd_seed P fuel f s) (fd_seed P fuel f s).
  Proof.
    intros Hk Hs. apply rel_at_fd; [exact Hk|]. intros w1 w2 x1 x2 A E1 E2 ((Q1 & Q2 & Q3 & Q4 & Q5) & _ & S).
    assert (Hp : forall p, In p (parts P x1) -> D p) by (intros p; eapply ag_parts; eauto).
    replace (parts P x2) with (parts P x1) by (unfold parts; congruence).
    apply rel_mixin_seed; auto.
    - intros k Hp'. apply rel_em_seed; auto.
    - apply rel_modify_fd; [exact Hk|]. intros y1 y2 (C & E & S') Hs'. repeat split; try apply C; assumption.
  Qed.

  Lemma hide_agree f w1 w2 : agree w1 w2 -> F f -> fd_hide P f w1 = fd_hide P f w2.
  Proof.
    intros A Hf. unfold fd_hide. pose proof (ag_fd _ _ A f Hf) as X.
    destruct (get_fd f w1), (get_fd f w2); try contradiction; [apply X | reflexivity].
  Qed.

  Theorem rel_sc_call fs : (forall nf, In nf fs -> K (snd nf)) ->
    rel (sc_call P fuel str_of fs) (sc_call P fuel str_of fs).
  Proof.
    intros Hk. apply rel_schema_loop.
    - intros nf Hn w1 w2 A. apply hide_agree; [exact A | eapply ag_K; eauto].
    - intros nf Hn. apply rel_fd_call. auto.
  Qed.

  Theorem rel_sc_reset fs : (forall nf, In nf fs -> K (snd nf)) ->
    rel (sc_reset_fields P fuel fs) (sc_reset_fields P fuel fs).
  Proof.
    intros Hk. apply rel_do_method. intros o Ho w1 w2 A. cbn. apply rel_fd_reset.
    apply in_map_iff in Ho. destruct Ho as (x & [= <-] & Hx). apply in_map_iff in Hx. destruct Hx as (nf & <- & Hn). auto.
  Qed.
  Theorem rel_sc_seed fs s : sok s -> (forall nf, In nf fs -> K (snd nf)) ->
    rel (sc_seed_fields P fuel fs s) (sc_seed_fields P fuel fs s).
  Proof.
    intros Hs Hk. apply rel_do_method. intros o Ho w1 w2 A. cbn. apply rel_fd_seed; [|exact Hs].
    apply in_map_iff in Ho. destruct Ho as (x & [= <-] & Hx). apply in_map_iff in Hx. destruct Hx as (nf & <- & Hn). auto.
  Qed.
End Agree.
