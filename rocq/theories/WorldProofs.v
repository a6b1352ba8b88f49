(** * Proofs about the heap of objects: what the methods read and write. *)
From Verif Require Import Base Prims Values MathModel ChoiceModel FixedModel GroupModel
  SigModel WrapModel TextModel FieldModel World Rel.
Open Scope list_scope.
Open Scope Z_scope.

Lemma nth_upd_same A (x : A) l n a : nth_error l n = Some a -> nth_error (upd n x l) n = Some x.
Proof. revert n; induction l as [|b l IH]; intros [|n] H; cbn in *; try discriminate; auto. Qed.

Lemma nth_upd_other A (x : A) l n m : n <> m -> nth_error (upd n x l) m = nth_error l m.
Proof.
  revert n m; induction l as [|b l IH]; intros [|n] [|m] H; cbn; try congruence; auto.
Qed.

Lemma upd_len A (x : A) l n : length (upd n x l) = length l.
Proof. revert n; induction l as [|b l IH]; intros [|n]; cbn; auto. Qed.

Definition orel {A} (R : A -> A -> Prop) (a b : option A) : Prop :=
  match a, b with Some x, Some y => R x y | None, None => True | _, _ => False end.

Section Heap.
  Context {P : prims}.
  Notation world := (World.world P).
  Notation emitter := (World.emitter P).
  Notation field := (World.field P).
  Notation get_em := (World.get_em P).
  Notation put_em := (World.put_em P).
  Notation get_fd := (World.get_fd P).
  Notation put_fd := (World.put_fd P).
  Notation use_entropy := (World.use_entropy P).
  Notation ent_of := (World.ent_of P).
  Notation node_of := (World.node_of P).
  Notation with_node := (World.with_node P).
  Notation children := (World.children P).
  Notation source_of := (World.source_of P).
  Notation items_of := (World.items_of P).

  (** ** The heap *)

  Lemma get_put_same id e (w : world) e0 : get_em id w = Some e0 -> get_em id (put_em id e w) = Some e.
  Proof.
    unfold World.get_em, World.put_em. destruct (nth_error (w_em P w) id) as [o|] eqn:E; [|discriminate].
    intros _. cbn. rewrite (nth_upd_same _ _ _ _ _ E). reflexivity.
  Qed.
  Lemma put_other id e (w : world) j : j <> id -> nth_error (w_em P (put_em id e w)) j = nth_error (w_em P w) j.
  Proof.
    intros H. unfold World.put_em. destruct (nth_error (w_em P w) id); [|reflexivity].
    cbn. apply nth_upd_other. congruence.
  Qed.
  Lemma get_put_other id e (w : world) j : j <> id -> get_em j (put_em id e w) = get_em j w.
  Proof. intros H. unfold World.get_em. rewrite put_other by exact H. reflexivity. Qed.
  Lemma fd_put id e (w : world) : w_fd P (put_em id e w) = w_fd P w.
  Proof. unfold World.put_em. destruct (nth_error (w_em P w) id); reflexivity. Qed.
  Lemma ent_put id e (w : world) j : ent_of j (put_em id e w) = ent_of j w.
  Proof.
    unfold World.ent_of, World.put_em. destruct (nth_error (w_em P w) id) as [o|] eqn:E; [|reflexivity].
    cbn. destruct (Nat.eq_dec j id) as [->|N].
    - rewrite (nth_upd_same _ _ _ _ _ E), E. reflexivity.
    - rewrite nth_upd_other by congruence. reflexivity.
  Qed.
  Lemma get_use id (w : world) j : get_em j (use_entropy id w) = get_em j w.
  Proof.
    unfold World.get_em, World.use_entropy. destruct (nth_error (w_em P w) id) as [o|] eqn:E; [|reflexivity].
    cbn. destruct (Nat.eq_dec j id) as [->|N].
    - rewrite (nth_upd_same _ _ _ _ _ E), E. reflexivity.
    - rewrite nth_upd_other by congruence. reflexivity.
  Qed.
  Lemma use_other id (w : world) j : j <> id -> nth_error (w_em P (use_entropy id w)) j = nth_error (w_em P w) j.
  Proof.
    intros H. unfold World.use_entropy. destruct (nth_error (w_em P w) id); [|reflexivity].
    cbn. apply nth_upd_other. congruence.
  Qed.
  Lemma fd_use id (w : world) : w_fd P (use_entropy id w) = w_fd P w.
  Proof. unfold World.use_entropy. destruct (nth_error (w_em P w) id); reflexivity. Qed.
  Lemma ent_use id (w : world) e : get_em id w = Some e -> ent_of id (use_entropy id w) = next_ent (ent_of id w).
  Proof.
    unfold World.get_em, World.ent_of, World.use_entropy.
    destruct (nth_error (w_em P w) id) as [o|] eqn:E; [|discriminate]. intros _. cbn.
    rewrite (nth_upd_same _ _ _ _ _ E). reflexivity.
  Qed.
  Lemma ent_use_other id (w : world) j : j <> id -> ent_of j (use_entropy id w) = ent_of j w.
  Proof. intros H. unfold World.ent_of. rewrite use_other by exact H. reflexivity. Qed.

  (** ** The same objects in possibly different states *)

  (** Choice: with replacement, nothing changes but the rng (and the left-overs of an
      earlier shuffle, which are not used); without it also the shuffled items and the
      two counters. *)
  Definition cconf (c1 c2 : @choice P val) : Prop :=
    c_items c1 = c_items c2 /\ c_weights c1 = c_weights c2 /\ c_cum c1 = c_cum c2 /\
    c_replace c1 = c_replace c2 /\ c_roac c1 = c_roac c2 /\
    (c_replace c1 = true -> c_nui c1 = c_nui c2).
  Lemma cconf_refl c : cconf c c.
  Proof. unfold cconf; intuition. Qed.
  Lemma cconf_trans a b c : cconf a b -> cconf b c -> cconf a c.
  Proof.
    unfold cconf. intros (?&?&?&R&?&HA) (?&?&?&?&?&HB). repeat (split; [congruence|]).
    intros T. rewrite (HA T). apply HB. congruence.
  Qed.
  Lemma cconf_sym a b : cconf a b -> cconf b a.
  Proof.
    unfold cconf. intros (?&?&?&R&?&HA). repeat (split; [congruence|]).
    intros T. symmetry. apply HA. congruence.
  Qed.

  Definition is_some {A} (o : option A) : bool := match o with Some _ => true | None => false end.
  (** Same configuration. *)
  Definition conf (e1 e2 : emitter) : Prop :=
    match e1, e2 with
    | EStatic _ s1, EStatic _ s2 => s1 = s2
    | EIter _ i1, EIter _ i2 => i_factory i1 = i_factory i2 /\ i_rac i1 = i_rac i2
    | ESeq _ b1 s1, ESeq _ b2 s2 =>
        b1 = b2 /\ s_items s1 = s_items s2 /\ s_own s1 = s_own s2 /\ s_factory s1 = s_factory s2 /\ s_rac s1 = s_rac s2
    | EChoice _ b1 c1, EChoice _ b2 c2 =>
        b1 = b2 /\ cconf c1 c2
    | EWord _ l1 a1 _ _, EWord _ l2 a2 _ _ => l1 = l2 /\ a1 = a2
    | EText _ n1 x1 s1 _ _, EText _ n2 x2 s2 _ _ => n1 = n2 /\ x1 = x2 /\ s1 = s2
    | EWrapOne _ s1 f1 _, EWrapOne _ s2 f2 _ => s1 = s2 /\ f1 = f2
    | EWrapMany _ s1 f1 _, EWrapMany _ s2 f2 _ => s1 = s2 /\ f1 = f2
    | ECopy _ b1 s1 p1, ECopy _ b2 s2 p2 => b1 = b2 /\ s1 = s2 /\ p1 = p2
    | EBased _ b1 s1 f1 _, EBased _ b2 s2 f2 _ => b1 = b2 /\ s1 = s2 /\ f1 = f2
    | EUser _ c1 _ n1, EUser _ c2 _ n2 => c1 = c2 /\ is_some n1 = is_some n2
    | _, _ => False
    end.

  Lemma conf_refl e : conf e e.
  Proof. destruct e; cbn; repeat split. Qed.
  Lemma conf_trans a b c : conf a b -> conf b c -> conf a c.
  Proof.
    destruct a, b; cbn; try contradiction; destruct c; cbn; try contradiction;
      try (intuition congruence).
    intros [-> H1] [-> H2]. split; [reflexivity | eapply cconf_trans; eauto].
  Qed.
  Lemma conf_sym a b : conf a b -> conf b a.
  Proof.
    destruct a, b; cbn; try contradiction; try (intuition congruence).
    intros [-> H1]. split; [reflexivity | apply cconf_sym; assumption].
  Qed.
  Lemma conf_children a b : conf a b -> children a = children b.
  Proof. destruct a, b; cbn; try contradiction; intuition congruence. Qed.
  Lemma conf_source a b : conf a b -> source_of a = source_of b.
  Proof. destruct a, b; cbn; try contradiction; intuition congruence. Qed.
  Lemma conf_items a b : conf a b -> items_of a = items_of b.
  Proof. destruct a, b; cbn; unfold cconf; try contradiction; intuition congruence. Qed.
  Lemma conf_node nd e : conf e (with_node nd e).
  Proof. destruct e; cbn; repeat split; destruct nd0; repeat split. Qed.
  Lemma node_with nd e nd0 : node_of e = Some nd0 -> node_of (with_node nd e) = Some nd.
  Proof. destruct e, nd; cbn; try discriminate; intros H; rewrite ?H; reflexivity. Qed.
  Lemma conf_has_node a b : conf a b -> (node_of a = None <-> node_of b = None).
  Proof. destruct a, b; cbn; try contradiction; try (intuition congruence). destruct nd, nd0; cbn; intuition congruence. Qed.

  Definition fconf (x1 x2 : field) : Prop :=
    f_name P x1 = f_name P x2 /\ f_hide P x1 = f_hide P x2 /\ f_em P x1 = f_em P x2 /\
    f_rep P x1 = f_rep P x2 /\ f_gate P x1 = f_gate P x2.

  Lemma orel_refl A (R : A -> A -> Prop) : (forall a, R a a) -> forall o, orel R o o.
  Proof. intros H [a|]; cbn; auto. Qed.
  Lemma orel_trans A (R : A -> A -> Prop) : (forall a b c, R a b -> R b c -> R a c) ->
    forall a b c, orel R a b -> orel R b c -> orel R a c.
  Proof. intros H [a|] [b|] [c|]; cbn; try contradiction; eauto. Qed.
  Lemma orel_sym A (R : A -> A -> Prop) : (forall a b, R a b -> R b a) -> forall a b, orel R a b -> orel R b a.
  Proof. intros H [a|] [b|]; cbn; try contradiction; eauto. Qed.

  (** The same objects with the same configuration. *)
  Definition wconf (w1 w2 : world) : Prop :=
    (forall id, orel conf (get_em id w1) (get_em id w2)) /\
    (forall f, orel fconf (get_fd f w1) (get_fd f w2)).

  Lemma fconf_refl x : fconf x x.
  Proof. repeat split. Qed.
  Lemma fconf_trans a b c : fconf a b -> fconf b c -> fconf a c.
  Proof. unfold fconf. intuition congruence. Qed.
  Lemma fconf_sym a b : fconf a b -> fconf b a.
  Proof. unfold fconf. intuition congruence. Qed.
  Lemma wconf_refl w : wconf w w.
  Proof. split; intros; apply orel_refl; [apply conf_refl | apply fconf_refl]. Qed.
  Lemma wconf_trans a b c : wconf a b -> wconf b c -> wconf a c.
  Proof.
    intros [E1 F1] [E2 F2]. split; intros; eapply orel_trans; eauto using conf_trans, fconf_trans.
  Qed.
  Lemma wconf_sym a b : wconf a b -> wconf b a.
  Proof. intros [E F]. split; intros; apply orel_sym; auto using conf_sym, fconf_sym. Qed.

  (** Only emitters in [D] and fields in [K] have changed since [v]. *)
  Definition within (D K : nat -> Prop) (v w : world) : Prop :=
    wconf v w /\
    (forall id, ~ D id -> nth_error (w_em P v) id = nth_error (w_em P w) id) /\
    (forall f, ~ K f -> get_fd f v = get_fd f w) /\
    w_run P v = w_run P w.

  Lemma within_refl D K w : within D K w w.
  Proof. split; [apply wconf_refl | repeat split; reflexivity]. Qed.
  Lemma within_trans D K a b c : within D K a b -> within D K b c -> within D K a c.
  Proof.
    intros (A1 & A2 & A3 & A4) (B1 & B2 & B3 & B4). split; [eapply wconf_trans; eauto|].
    split; [|split]; intros; [rewrite A2, B2 by assumption | rewrite A3, B3 by assumption | rewrite A4, B4]; reflexivity.
  Qed.
  Lemma within_more (D K D' K' : nat -> Prop) v w : (forall i, D i -> D' i) -> (forall i, K i -> K' i) ->
    within D K v w -> within D' K' v w.
  Proof. intros HD HK (A & B & C & E). split; [exact A|]. split; [|split]; intros; [apply B | apply C | exact E]; auto. Qed.

  Lemma within_put (D K : nat -> Prop) v w id e e' : within D K v w -> D id -> get_em id w = Some e -> conf e e' ->
    within D K v (put_em id e' w).
  Proof.
    intros H Hd E C. eapply within_trans; [exact H|]. split; [split|split; [|split]].
    - intros j. destruct (Nat.eq_dec j id) as [->|N].
      + rewrite (get_put_same _ _ _ _ E), E. exact C.
      + rewrite get_put_other by exact N. apply orel_refl, conf_refl.
    - intros f. unfold World.get_fd. rewrite fd_put. apply orel_refl, fconf_refl.
    - intros j Hj. rewrite put_other by congruence. reflexivity.
    - intros f _. unfold World.get_fd. rewrite fd_put. reflexivity.
    - unfold World.put_em. destruct (nth_error (w_em P w) id); reflexivity.
  Qed.
  Lemma within_use (D K : nat -> Prop) v w id : within D K v w -> D id -> within D K v (use_entropy id w).
  Proof.
    intros H Hd. eapply within_trans; [exact H|]. split; [split|split; [|split]].
    - intros j. rewrite get_use. apply orel_refl, conf_refl.
    - intros f. unfold World.get_fd. rewrite fd_use. apply orel_refl, fconf_refl.
    - intros j Hj. rewrite use_other by congruence. reflexivity.
    - intros f _. unfold World.get_fd. rewrite fd_use. reflexivity.
    - unfold World.use_entropy. destruct (nth_error (w_em P w) id); reflexivity.
  Qed.
  Lemma within_put_fd (D K : nat -> Prop) v w f x x' : within D K v w -> K f -> get_fd f w = Some x -> fconf x x' ->
    within D K v (put_fd f x' w).
  Proof.
    intros H Hk E C. eapply within_trans; [exact H|]. split; [split|split; [|split]].
    - intros j. apply orel_refl, conf_refl.
    - intros g. unfold World.get_fd, World.put_fd in *; cbn. destruct (Nat.eq_dec g f) as [->|N].
      + rewrite (nth_upd_same _ _ _ _ _ E), E. exact C.
      + rewrite nth_upd_other by congruence. apply orel_refl, fconf_refl.
    - reflexivity.
    - intros g Hg. unfold World.get_fd, World.put_fd; cbn. rewrite nth_upd_other by congruence. reflexivity.
    - reflexivity.
  Qed.

  (** ** Iterators in corresponding states *)

  (** The factory gives the same iterator at every call. *)
  Definition steady (f : factory val) : Prop := forall m n, f m = f n.

  (** [G true]: equal; [G false]: equal, or equal up to how often a steady
      factory has been called. *)
  Definition gsim (strict : bool) (f : factory val) (g1 g2 : gen) : Prop :=
    if strict then g1 = g2
    else g1 = g2 \/ (steady f /\ option_map snd (g_cur g1) = option_map snd (g_cur g2)).

  Lemma gsim_refl b f g : gsim b f g g.
  Proof. destruct b; cbn; auto. Qed.

  Lemma gsim_next b fuel f g1 g2 : gsim b f g1 g2 ->
    fst (gen_next fuel f g1) = fst (gen_next fuel f g2) /\ gsim b f (snd (gen_next fuel f g1)) (snd (gen_next fuel f g2)).
  Proof.
    destruct b; cbn [gsim]; [intros ->; auto|].
    revert g1 g2. induction fuel as [|k IH]; intros g1 g2 [->|[St E]]; auto.
    - cbn. pose proof E as E0.
      destruct (g_cur g1) as [[c1 p1]|] eqn:E1, (g_cur g2) as [[c2 p2]|] eqn:E2; cbn in E; try discriminate.
      + injection E as ->. rewrite (St c2 c1). destruct (it_at (f c1) p2); cbn; rewrite ?E1, ?E2; split; auto.
      + cbn. rewrite E1, E2. auto.
    - cbn [gen_next].
      assert (X : forall c1 c2, option_map snd (g_cur (mkGen (S c1) (Some (c1, 0%nat)))) =
                                option_map snd (g_cur (mkGen (S c2) (Some (c2, 0%nat))))) by reflexivity.
      destruct (g_cur g1) as [[c1 p1]|], (g_cur g2) as [[c2 p2]|]; cbn in E; try discriminate.
      + injection E as ->. rewrite (St c2 c1). destruct (it_at (f c1) p2); cbn [fst snd]; [auto|].
        apply IH. right. split; [exact St | apply X].
      + apply IH. right. split; [exact St | apply X].
  Qed.

  Lemma gsim_take b fuel f n : forall g1 g2, gsim b f g1 g2 ->
    fst (gen_take fuel f n g1) = fst (gen_take fuel f n g2) /\ gsim b f (snd (gen_take fuel f n g1)) (snd (gen_take fuel f n g2)).
  Proof.
    intros g1 g2. apply (rel_bind (gsim b f) _ _ (ret tt) (ret tt) (fun _ => gen_take fuel f n) (fun _ => gen_take fuel f n)).
    { apply rel_ret. }
    intros _. induction n as [|n IH]; cbn [gen_take]; [apply rel_ret|].
    apply rel_bind; [intros a c H; apply gsim_next; exact H|]. intros a.
    apply rel_bind; [exact IH|]. intros l. apply rel_ret.
  Qed.

  Lemma gsim_reset b f g1 g2 : gsim b f g1 g2 -> gsim b f (mkGen (g_calls g1) None) (mkGen (g_calls g2) None).
  Proof. destruct b; cbn; [intros ->; reflexivity|]. intros [->|[St _]]; auto. Qed.

  (** Choices that will do the same: equal, but for the left-overs of an earlier
      shuffle when [strict] is false and the choice is with replacement now. *)
  Definition csim (strict : bool) (c1 c2 : @choice P val) : Prop :=
    c1 = c2 \/ (strict = false /\ c_replace c1 = true /\ c2 = set_shuf P (c_shuffled c2) (c_sidx c2) c1).

  (** Emitters that will do the same: equal, but for such left-overs, the factory
      call counts of Iterative and Sequential and the number of unique values a Word or
      Text says it has (nothing that is emitted depends on it) when [strict] is false. *)
  Definition osim (strict : bool) (e1 e2 : emitter) : Prop :=
    match e1, e2 with
    | EIter _ i1, EIter _ i2 =>
        i_factory i1 = i_factory i2 /\ i_rac i1 = i_rac i2 /\ gsim strict (i_factory i1) (i_gen i1) (i_gen i2)
    | ESeq _ b1 s1, ESeq _ b2 s2 =>
        b1 = b2 /\ s_items s1 = s_items s2 /\ s_own s1 = s_own s2 /\ s_factory s1 = s_factory s2 /\ s_rac s1 = s_rac s2 /\
        gsim strict (seq_factory s1) (s_gen s1) (s_gen s2)
    | EChoice _ b1 c1, EChoice _ b2 c2 => b1 = b2 /\ csim strict c1 c2
    | EWord _ l1 a1 u1 n1, EWord _ l2 a2 u2 n2 => l1 = l2 /\ a1 = a2 /\ n1 = n2 /\ (strict = true -> u1 = u2)
    | EText _ m1 x1 s1 u1 n1, EText _ m2 x2 s2 u2 n2 =>
        m1 = m2 /\ x1 = x2 /\ s1 = s2 /\ n1 = n2 /\ (strict = true -> u1 = u2)
    | _, _ => e1 = e2
    end.

  Lemma csim_refl b c : csim b c c.
  Proof. left; reflexivity. Qed.
  Lemma csim_same b c1 c2 : csim b c1 c2 ->
    c_items c1 = c_items c2 /\ c_weights c1 = c_weights c2 /\ c_cum c1 = c_cum c2 /\ c_replace c1 = c_replace c2 /\
    c_roac c1 = c_roac c2 /\ c_nui c1 = c_nui c2 /\ c_seed c1 = c_seed c2 /\ c_rng c1 = c_rng c2.
  Proof. intros [->|(_ & _ & ->)]; repeat split. Qed.
  Lemma csim_left b c1 c2 : csim b c1 c2 -> c_replace c1 = false -> c1 = c2.
  Proof. intros [E|(_ & R & _)]; congruence. Qed.
  Lemma csim_conf b c1 c2 : csim b c1 c2 -> cconf c1 c2.
  Proof. intros H. apply csim_same in H. unfold cconf. intuition. Qed.
  Lemma osim_refl b e : osim b e e.
  Proof. destruct e; cbn; repeat split; try apply gsim_refl. apply csim_refl. Qed.
  Lemma osim_children b e1 e2 : osim b e1 e2 -> children e1 = children e2.
  Proof. destruct e1, e2; cbn; intros; try congruence; intuition congruence. Qed.
  Lemma osim_source b e1 e2 : osim b e1 e2 -> source_of e1 = source_of e2.
  Proof. destruct e1, e2; cbn; intros; try congruence; reflexivity. Qed.
  Lemma osim_node b e1 e2 : osim b e1 e2 -> node_of e1 = node_of e2.
  Proof.
    destruct e1, e2; cbn; intros H; try congruence; try (intuition congruence). destruct H as [_ H].
    apply csim_same in H. destruct H as (_&_&_&_&_&_&-> & ->). reflexivity.
  Qed.
  Lemma osim_items b e1 e2 : osim b e1 e2 -> items_of e1 = items_of e2.
  Proof.
    destruct e1, e2; cbn; intros H; try congruence; try (intuition congruence).
    destruct H as [-> H]. apply csim_same in H. destruct H as [-> _]. reflexivity.
  Qed.
  Lemma osim_with b nd e1 e2 : osim b e1 e2 -> osim b (with_node nd e1) (with_node nd e2).
  Proof.
    destruct e1, e2; cbn; intros H; try congruence; auto; try (intuition congruence).
    destruct H as [-> H]. split; [reflexivity|]. destruct H as [->|(-> & R & ->)]; [left; reflexivity | right]. repeat split. exact R.
  Qed.
  Lemma osim_conf b e1 e2 : osim b e1 e2 -> conf e1 e2.
  Proof.
    destruct e1, e2; intros H; try discriminate H; try (rewrite H; apply conf_refl);
      cbn in *; try (intuition congruence). destruct H as [-> H]. split; [reflexivity | eapply csim_conf; exact H].
  Qed.

  Lemma osim_iter_run b B (m : factory val -> M gen B) i1 i2 :
    (forall f g1 g2, gsim b f g1 g2 -> fst (m f g1) = fst (m f g2) /\ gsim b f (snd (m f g1)) (snd (m f g2))) ->
    osim b (EIter P i1) (EIter P i2) ->
    fst (iter_run m i1) = fst (iter_run m i2) /\
    osim b (EIter P (snd (iter_run m i1))) (EIter P (snd (iter_run m i2))).
  Proof.
    intros Hm (E1 & E2 & E3). unfold iter_run. rewrite <- E1. specialize (Hm _ _ _ E3).
    destruct (m (i_factory i1) (i_gen i1)) as [r1 g1], (m (i_factory i1) (i_gen i2)) as [r2 g2].
    cbn in Hm. destruct Hm as [<- Hg]. destruct r1; cbn; rewrite <- E2;
      try (split; [reflexivity|]; repeat split; assumption).
    destruct (i_rac i1); cbn; repeat split; auto. apply gsim_reset; assumption.
  Qed.

  Lemma osim_seq_run b B (m : factory val -> M gen B) l s1 s2 :
    (forall f g1 g2, gsim b f g1 g2 -> fst (m f g1) = fst (m f g2) /\ gsim b f (snd (m f g1)) (snd (m f g2))) ->
    osim b (ESeq P l s1) (ESeq P l s2) ->
    fst (seq_run m s1) = fst (seq_run m s2) /\
    osim b (ESeq P l (snd (seq_run m s1))) (ESeq P l (snd (seq_run m s2))).
  Proof.
    intros Hm (_ & E1 & E2 & E3 & E4 & E5). unfold seq_run.
    assert (EF : seq_factory s2 = seq_factory s1) by (unfold seq_factory; rewrite E1, E2, E3; reflexivity).
    rewrite EF. specialize (Hm _ _ _ E5).
    destruct (m (seq_factory s1) (s_gen s1)) as [r1 g1], (m (seq_factory s1) (s_gen s2)) as [r2 g2].
    cbn in Hm. destruct Hm as [<- Hg]. unfold seq_factory in Hg. destruct r1; cbn; rewrite <- E4;
      try (split; [reflexivity|]; repeat split; assumption).
    destruct (s_rac s1); cbn; repeat split; auto. apply (gsim_reset _ _ g1 g2); assumption.
  Qed.

  (** ** Configuration is kept by the operations of one object *)

  Lemma conf_iter_run B (m : factory val -> M gen B) i : conf (EIter P i) (EIter P (snd (iter_run m i))).
  Proof.
    unfold iter_run. destruct (m (i_factory i) (i_gen i)) as [[r|e|] g]; cbn; try (split; reflexivity).
    destruct (i_rac i) eqn:E; cbn; rewrite ?E; auto.
  Qed.
  Lemma conf_seq_run B (m : factory val -> M gen B) b s : conf (ESeq P b s) (ESeq P b (snd (seq_run m s))).
  Proof.
    unfold seq_run. destruct (m (seq_factory s) (s_gen s)) as [[r|e|] g]; cbn; try (repeat split; reflexivity).
    destruct (s_rac s) eqn:E; cbn; rewrite ?E; auto 10.
  Qed.

  (** ... and with the seed kept as well *)
  Definition cseed (c1 c2 : @choice P val) : Prop := cconf c1 c2 /\ c_seed c1 = c_seed c2.
  Lemma cseed_refl c : cseed c c.
  Proof. split; [apply cconf_refl | reflexivity]. Qed.
  Lemma cseed_trans a b c : cseed a b -> cseed b c -> cseed a c.
  Proof. intros [A1 A2] [B1 B2]. split; [eapply cconf_trans; eauto | congruence]. Qed.

  Notation kp := (keeps cseed).
  Lemma kbind A B (m : M (@choice P val) A) (k : A -> M (@choice P val) B) :
    kp m -> (forall a, kp (k a)) -> kp (mbind m k).
  Proof. apply keeps_bind; [apply cseed_refl | apply cseed_trans]. Qed.
  Lemma kret A (a : A) : kp (ret a).
  Proof. intros s; apply cseed_refl. Qed.
  Lemma klift A (r : res A) : kp (lift r).
  Proof. intros s; apply cseed_refl. Qed.
  Lemma kraise A e : kp (@raise (@choice P val) A e).
  Proof. intros s; apply cseed_refl. Qed.
  Lemma kget : kp (ChoiceModel.get P).
  Proof. intros s; apply cseed_refl. Qed.
  Lemma krng A (m : M (pR P) A) : kp (on_rng P m).
  Proof. intros c. unfold on_rng. destruct (m (c_rng c)). cbn. repeat split. Qed.
  Lemma kmapS A B (f : A -> M (@choice P val) B) l : (forall a, kp (f a)) -> kp (mapS f l).
  Proof.
    intros H. induction l as [|a l IH]; cbn; [apply kret|]. apply kbind; [apply H|]. intros b.
    apply kbind; [exact IH|]. intros; apply kret.
  Qed.
  Lemma kitem A (l : list A) i : kp (get_item l i).
  Proof. intros c. unfold get_item. destruct (nth_error l i); apply cseed_refl. Qed.

  Lemma kshuffle fuel c : c_replace c = false -> cseed c (snd (global_shuffle P fuel c)).
  Proof.
    intros Hr. unfold global_shuffle, mbind, ChoiceModel.get, on_rng, modify.
    match goal with |- context [weighted_shuffle P fuel ?a ?b ?n ?r] => destruct (weighted_shuffle P fuel a b n r) as [[l|e|] rg] end;
      cbn; repeat split; cbn; congruence.
  Qed.

  Lemma kwith n : kp (choice_with_replacement P n : M (@choice P val) (list val)).
  Proof.
    unfold choice_with_replacement. apply kbind; [apply kget|]. intros c.
    destruct (_ =? 1); [apply kret|]. destruct (c_weights c).
    - apply kbind; [apply krng|]. intros pos. apply kmapS. intros; apply kitem.
    - destruct (n =? 1).
      + apply kbind; [apply krng|]. intros i. apply kbind; [apply kitem|]. intros a. apply kret.
      + apply kbind; [apply krng|]. intros pos. apply kmapS. intros; apply kitem.
  Qed.

  Lemma kviolation B : kp (uniqueness_violation P val_setsize : M (@choice P val) B).
  Proof.
    unfold uniqueness_violation. apply kbind; [apply kget|]. intros c.
    apply kbind; [apply klift|]. intros _. apply kraise.
  Qed.

  Lemma kwithout fuel n : kp (choice_without_replacement P val_setsize fuel n).
  Proof.
    intros c. unfold choice_without_replacement.
    assert (V : kp (if c_nui c <? n then uniqueness_violation P val_setsize else ret tt)).
    { destruct (_ <? _); [apply kviolation | apply kret]. }
    destruct (c_replace c) eqn:R.
    - assert (X : kp ((if c_nui c <? n then uniqueness_violation P val_setsize else ret tt) ;;;
               match c_weights c with
               | None =>
                   if (n <? 0) || (zlen (c_items c) <? n) then raise ValueError
                   else
                     pos <~ on_rng P (fun r => let '(l, r) := r_sample P (length (c_items c)) (Z.to_nat n) r in (Ok l, r)) ;;
                     mapS (get_item (c_items c)) pos
               | Some ws => on_rng P (weighted_shuffle P fuel (c_items c) ws (Some n))
               end)).
      { apply kbind; [exact V|]. intros _. destruct (c_weights c); [apply krng|].
        destruct (_ || _); [apply kraise|]. apply kbind; [apply krng|]. intros pos. apply kmapS. intros; apply kitem. }
      specialize (X c). unfold mbind at 1, ChoiceModel.get at 1. cbv beta iota. rewrite R. cbn [negb]. exact X.
    - unfold mbind at 1, ChoiceModel.get at 1. cbv beta iota. rewrite R. cbn [negb].
      specialize (V c). unfold mbind at 1.
      destruct (_ c) as [[u|e|] c1] in V |- *; cbn [snd] in V |- *; try exact V.
      unfold mbind at 1. destruct (c_sidx c) as [i|]; cbn [ret raise snd]; [|exact V].
      assert (W : forall m : M (@choice P val) (list val), kp m ->
        cseed c1 (snd ((items <~ m ;;
          modify P (fun c => set_nui P (c_nui c - n) (set_shuf P (c_shuffled c) (Some (i + n)) c)) ;;; ret items) c1))).
      { intros m Hm. specialize (Hm c1). unfold mbind. destruct (m c1) as [[l|e|] c2]; cbn [snd] in Hm; try exact Hm.
        eapply cseed_trans; [exact Hm|]. cbn. destruct Hm as [(_&_&_&Hr&_) _]. destruct V as [(_&_&_&Hr2&_) _].
        repeat split; cbn; congruence. }
      eapply cseed_trans; [exact V|]. apply W.
      destruct (n =? 1); [|apply kret]. apply kbind; [apply klift|]. intros a; apply kret.
  Qed.

  Lemma kemit fuel : kp (choice_emit P val_setsize fuel).
  Proof.
    unfold choice_emit. apply kbind; [apply kget|]. intros c. apply kbind.
    - destruct (negb _); [apply kwithout | apply kwith].
    - intros l. apply klift.
  Qed.
  Lemma kemit_many fuel n : kp (choice_emit_many P val_setsize fuel n).
  Proof.
    unfold choice_emit_many. apply kbind; [apply kget|]. intros c.
    destruct (_ || _); [apply kwithout | apply kwith].
  Qed.

  Lemma choice_reset_eq fuel ent (c : @choice P val) :
    choice_reset P fuel ent c =
    let c1 := set_rng P (rng_for P (c_seed c) ent) c in
    if c_replace c then (Ok tt, c1) else global_shuffle P fuel c1.
  Proof.
    unfold choice_reset. unfold mbind at 1, modify at 1. cbv beta iota.
    unfold mbind at 1, ChoiceModel.get at 1. cbv beta iota. change (c_replace (set_rng P _ c)) with (c_replace c).
    destruct (c_replace c); reflexivity.
  Qed.
  Lemma choice_seed_eq fuel s ent (c : @choice P val) :
    choice_seed P fuel s ent c =
    let c1 := set_rng P (rng_for P s ent) (set_seed P s c) in
    if c_replace c then (Ok tt, c1) else global_shuffle P fuel c1.
  Proof.
    unfold choice_seed. unfold mbind at 1, modify at 1. cbv beta iota.
    unfold mbind at 1, ChoiceModel.get at 1. cbv beta iota. change (c_replace (set_rng P _ _)) with (c_replace c).
    destruct (c_replace c); reflexivity.
  Qed.

  Lemma kreset fuel ent : kp (choice_reset P fuel ent : M (@choice P val) unit).
  Proof.
    intros c. rewrite choice_reset_eq. cbv zeta. destruct (c_replace c) eqn:R.
    - repeat split.
    - apply (cseed_trans _ (set_rng P (rng_for P (c_seed c) ent) c)); [repeat split | apply kshuffle; exact R].
  Qed.
  Lemma kseed fuel s ent (c : @choice P val) :
    cconf c (snd (choice_seed P fuel s ent c)) /\ c_seed (snd (choice_seed P fuel s ent c)) = s.
  Proof.
    rewrite choice_seed_eq. cbv zeta. destruct (c_replace c) eqn:R.
    - repeat split.
    - destruct (kshuffle fuel (set_rng P (rng_for P s ent) (set_seed P s c)) R) as [A B].
      split; [eapply cconf_trans; [|exact A]; repeat split | rewrite <- B; reflexivity].
  Qed.

  (** ** Choices that will do the same, do the same *)

  Section Csim.
    Context (b : bool).
    Notation rc := (rel (csim b)).
    Lemma cs_get B (k : @choice P val -> M (@choice P val) B) :
      (forall c1 c2, csim b c1 c2 -> rc (k c1) (k c2)) -> rc (c <~ ChoiceModel.get P ;; k c) (c <~ ChoiceModel.get P ;; k c).
    Proof. intros H c1 c2 C. exact (H c1 c2 C c1 c2 C). Qed.
    Lemma cs_mod g : (forall c1 c2, csim b c1 c2 -> csim b (g c1) (g c2)) -> rc (modify P g) (modify P g).
    Proof. intros H c1 c2 C. split; [reflexivity | apply H, C]. Qed.
    Lemma cs_rng A (m : M (pR P) A) : rc (on_rng P m) (on_rng P m).
    Proof.
      intros c1 c2 C. unfold on_rng. pose proof (csim_same _ _ _ C) as (_&_&_&_&_&_&_&<-).
      destruct (m (c_rng c1)) as [r rg]. split; [reflexivity|].
      destruct C as [->|(-> & R & ->)]; [left; reflexivity | right; repeat split; exact R].
    Qed.
    Lemma cs_item A (l : list A) i : rc (get_item l i) (get_item l i).
    Proof. intros c1 c2 C. unfold get_item. destruct (nth_error l i); split; auto. Qed.
    Lemma cs_nuv c1 c2 : csim b c1 c2 -> num_unique_values P val_setsize c1 = num_unique_values P val_setsize c2.
    Proof.
      intros C. unfold num_unique_values. destruct (c_replace c1) eqn:R.
      - pose proof (csim_same _ _ _ C) as (<-&_&_&<-&_). rewrite R. reflexivity.
      - rewrite <- (csim_left _ _ _ C R), R. reflexivity.
    Qed.
    Lemma cs_with n : rc (choice_with_replacement P n) (choice_with_replacement P n).
    Proof.
      apply cs_get. intros c1 c2 C. pose proof (csim_same _ _ _ C) as (<-&<-&<-&_).
      destruct (_ =? 1); [apply rel_ret|]. destruct (c_weights c1).
      - apply rel_bind; [apply cs_rng|]. intros pos. apply rel_mapS. intros; apply cs_item.
      - destruct (n =? 1).
        + apply rel_bind; [apply cs_rng|]. intros i. apply rel_bind; [apply cs_item|]. intros; apply rel_ret.
        + apply rel_bind; [apply cs_rng|]. intros pos. apply rel_mapS. intros; apply cs_item.
    Qed.
    Lemma cs_without fuel n : rc (choice_without_replacement P val_setsize fuel n) (choice_without_replacement P val_setsize fuel n).
    Proof.
      apply cs_get. intros c1 c2 C. pose proof (csim_same _ _ _ C) as (<-&<-&_&<-&_&<-&_).
      apply rel_bind.
      - destruct (_ <? _); [|apply rel_ret]. apply cs_get. intros d1 d2 E. rewrite (cs_nuv _ _ E).
        apply rel_bind; [apply rel_lift | intros; apply rel_raise].
      - intros _. destruct (c_replace c1) eqn:R; cbn [negb].
        + destruct (c_weights c1); [apply cs_rng|]. destruct (_ || _); [apply rel_raise|].
          apply rel_bind; [apply cs_rng|]. intros pos. apply rel_mapS. intros; apply cs_item.
        + rewrite <- (csim_left _ _ _ C R). apply rel_bind; [destruct (c_sidx c1); [apply rel_ret | apply rel_raise]|].
          intros i. apply rel_bind.
          * destruct (n =? 1); [|apply rel_ret]. apply rel_bind; [apply rel_lift | intros; apply rel_ret].
          * intros items. apply rel_bind; [|intros; apply rel_ret]. apply cs_mod.
            intros d1 d2 [->|(-> & Rd & ->)]; [left; reflexivity | right; repeat split; exact Rd].
    Qed.
    Lemma cs_emit fuel : rc (choice_emit P val_setsize fuel) (choice_emit P val_setsize fuel).
    Proof.
      apply cs_get. intros c1 c2 C. pose proof (csim_same _ _ _ C) as (_&_&_&<-&_).
      apply rel_bind; [destruct (negb _); [apply cs_without | apply cs_with] | intros; apply rel_lift].
    Qed.
    Lemma cs_emit_many fuel n : rc (choice_emit_many P val_setsize fuel n) (choice_emit_many P val_setsize fuel n).
    Proof.
      apply cs_get. intros c1 c2 C. pose proof (csim_same _ _ _ C) as (_&_&_&<-&<-&_).
      destruct (_ || _); [apply cs_without | apply cs_with].
    Qed.
    Lemma cs_shuffle fuel : rc (global_shuffle P fuel) (global_shuffle P fuel).
    Proof.
      apply cs_get. intros c1 c2 C. pose proof (csim_same _ _ _ C) as (<-&<-&_).
      apply rel_bind; [apply cs_rng|]. intros sh. apply cs_mod.
      intros d1 d2 [->|(-> & Rd & ->)]; [left; reflexivity | right; repeat split; exact Rd].
    Qed.
    Lemma cs_reset fuel ent : rc (choice_reset P fuel ent) (choice_reset P fuel ent).
    Proof.
      apply rel_bind.
      - apply cs_mod. intros d1 d2 [->|(-> & Rd & ->)]; [left; reflexivity | right; repeat split; exact Rd].
      - intros _. apply cs_get. intros c1 c2 C. pose proof (csim_same _ _ _ C) as (_&_&_&<-&_).
        destruct (c_replace c1); [apply rel_ret | apply cs_shuffle].
    Qed.
    Lemma cs_seed fuel s ent : rc (choice_seed P fuel s ent) (choice_seed P fuel s ent).
    Proof.
      apply rel_bind.
      - apply cs_mod. intros d1 d2 [->|(-> & Rd & ->)]; [left; reflexivity | right; repeat split; exact Rd].
      - intros _. apply cs_get. intros c1 c2 C. pose proof (csim_same _ _ _ C) as (_&_&_&<-&_).
        destruct (c_replace c1); [apply rel_ret | apply cs_shuffle].
    Qed.
  End Csim.
End Heap.
