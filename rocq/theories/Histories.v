(** * Histories of operations in agreeing worlds. *)
From Verif Require Import Base Prims Values MathModel ChoiceModel FixedModel GroupModel
  SigModel SigProofs WrapModel TextModel FieldModel World Rel WorldProofs Agree WorldSpec WorldReset.
Open Scope list_scope.
Open Scope Z_scope.

Section Histories.
  Context {P : prims} (fuel : nat) (str_of : val -> res (list Z)).
  Notation world := (World.world P).
  Notation get_em := (World.get_em P).
  Notation get_fd := (World.get_fd P).
  Notation run := (WorldSpec.run P fuel str_of).
  Notation history := (WorldSpec.history P fuel str_of).
  Notation after := (WorldSpec.after P fuel str_of).
  Notation belongs := (WorldSpec.belongs P).
  Notation uses := (WorldSpec.uses P).
  Notation op := (WorldSpec.op P).

  (** The operation stays within emitters [D], fields [K] and seeds [sok]. *)
  Definition allowed (sok : option (pSeed P) -> Prop) (D K : nat -> Prop) (o : op) : Prop :=
    match o with
    | Emit _ id | EmitN _ id _ | ResetEm _ id => D id
    | SeedEm _ id s | SetSeedEm _ id s => D id /\ sok s
    | Call _ f | Reset _ f => K f
    | Seed _ f s | SetSeed _ f s => K f /\ sok s
    | Doc _ fs | ResetFields _ fs => forall f, In f (map snd fs) -> K f
    | SeedFields _ fs s => (forall f, In f (map snd fs) -> K f) /\ sok s
    end.

  Theorem rel_run strict sok D F K v1 v2 o : allowed sok D K o ->
    rel (agree strict sok D F K v1 v2) (run o) (run o).
  Proof.
    destruct o; cbn [allowed WorldSpec.run]; intros Ha;
      (apply rel_bind; [|intros a; apply rel_ret]).
    - apply rel_em_call; exact Ha.
    - apply rel_em_call_n; exact Ha.
    - apply rel_em_reset; exact Ha.
    - apply rel_em_seed; apply Ha.
    - apply rel_set_rng_seed; apply Ha.
    - apply rel_fd_call; exact Ha.
    - apply rel_fd_reset; exact Ha.
    - apply rel_fd_seed; apply Ha.
    - apply rel_modify_fd; [apply Ha|]. intros x1 x2 (C & E & S) Hs. destruct Ha as [_ Ha].
      repeat split; try apply C; assumption.
    - apply rel_sc_call. intros nf Hn. apply Ha. apply in_map; exact Hn.
    - apply rel_sc_reset. intros nf Hn. apply Ha. apply in_map; exact Hn.
    - apply rel_sc_seed; [apply Ha|]. intros nf Hn. apply Ha. apply in_map; exact Hn.
  Qed.

  Theorem history_agree strict sok D F K v1 v2 h : Forall (allowed sok D K) h ->
    forall w1 w2, agree strict sok D F K v1 v2 w1 w2 ->
    fst (history h w1) = fst (history h w2) /\ agree strict sok D F K v1 v2 (after h w1) (after h w2).
  Proof.
    unfold after. induction 1 as [|o t Ho _ IH]; intros w1 w2 A; cbn [WorldSpec.history]; [split; [reflexivity | exact A]|].
    destruct (rel_run strict sok D F K v1 v2 o Ho w1 w2 A) as [E A'].
    destruct (run o w1) as [r1 u1], (run o w2) as [r2 u2]. cbn [fst snd] in *. subst r2.
    destruct (IH u1 u2 A') as [E' A'']. destruct (history t u1) as [rs1 x1], (history t u2) as [rs2 x2].
    cbn [fst snd] in *. split; [congruence | exact A''].
  Qed.

  (** ** A world agrees with itself *)

  Definition closed (D K : nat -> Prop) (w : world) : Prop :=
    (forall id e k, D id -> get_em id w = Some e -> In k (children P e) -> D k) /\
    (forall f x p, K f -> get_fd f w = Some x -> In p (parts P x) -> D p).

  Lemma agree_self D K w : closed D K w -> agree true (fun _ => True) D (fun _ => True) K w w w w.
  Proof.
    intros [H1 H2]. constructor; auto using within_refl.
    - intros id _. apply orel_refl, osim_refl.
    - intros f _. apply orel_refl. intros x. repeat split.
  Qed.

  Lemma rebase strict sok D F K (v1 v2 w1 w2 : world) : agree strict sok D F K v1 v2 w1 w2 -> agree strict sok D F K w1 w2 w1 w2.
  Proof. intros []. constructor; auto using within_refl. Qed.

  Theorem run_within D K w o : closed D K w -> allowed (fun _ => True) D K o -> within D K w (snd (run o w)).
  Proof. intros C Ho. apply (rel_run true (fun _ => True) D (fun _ => True) K w w o Ho w w). apply agree_self; exact C. Qed.

  Theorem history_within D K w h : closed D K w -> Forall (allowed (fun _ => True) D K) h -> within D K w (after h w).
  Proof. intros C Ho. apply (history_agree true (fun _ => True) D (fun _ => True) K w w h Ho w w). apply agree_self; exact C. Qed.

  Lemma closed_all w : closed (fun _ => True) (fun _ => True) w.
  Proof. split; auto. Qed.
  Lemma allowed_all o : allowed (fun _ => True) (fun _ => True) (fun _ => True) o.
  Proof. destruct o; cbn; auto. Qed.

  (** No operation changes the configuration. *)
  Theorem history_conf w h : wconf w (after h w).
  Proof.
    apply (history_within (fun _ => True) (fun _ => True) w h (closed_all w)).
    apply Forall_forall. intros o _. apply allowed_all.
  Qed.
  Theorem run_conf w o : wconf w (snd (run o w)).
  Proof. apply (run_within (fun _ => True) (fun _ => True) w o (closed_all w)), allowed_all. Qed.

  Lemma belongs_trans w i j k : belongs w i j -> belongs w j k -> belongs w i k.
  Proof. induction 1; intros B; [exact B|]. econstructor; eauto. Qed.
  Lemma uses_part w f j e k : uses w f j -> get_em j w = Some e -> In k (children P e) -> uses w f k.
  Proof.
    intros (x & p & E & Hp & B) Ej Hk. exists x, p. split; [exact E|]. split; [exact Hp|].
    eapply belongs_trans; [exact B|]. econstructor; [exact Ej | exact Hk | constructor].
  Qed.
  Lemma closed_field w f : closed (uses w f) (fun g => g = f) w.
  Proof.
    split; [intros; eapply uses_part; eauto|]. intros g x p -> E Hp. exists x, p. repeat split; auto. constructor.
  Qed.
  Lemma closed_fields w fs : closed (fun j => exists f, In f fs /\ uses w f j) (fun g => In g fs) w.
  Proof.
    split.
    - intros j e k (f & Hf & U) E Hk. exists f. eauto using uses_part.
    - intros f x p Hf E Hp. exists f. split; [exact Hf|]. exists x, p. split; [exact E|]. split; [exact Hp | constructor].
  Qed.
  Lemma closed_tree w i : closed (belongs w i) (fun _ => False) w.
  Proof.
    split; [|intros f x p []]. intros id e k B E Hk. eapply belongs_trans; [exact B|]. econstructor; eauto. constructor.
  Qed.

  Lemma multi_wconf w w' f : wconf w w' -> field_multi P w f = field_multi P w' f.
  Proof.
    intros [C1 C2]. unfold field_multi. specialize (C2 f).
    destruct (get_fd f w) as [x|], (get_fd f w') as [x'|]; try contradiction; [|reflexivity].
    destruct C2 as (_ & _ & _ & R & _). rewrite <- R. specialize (C1 (f_rep P x)).
    destruct (get_em (f_rep P x) w), (get_em (f_rep P x) w'); try contradiction; [|reflexivity].
    cbn in C1. rewrite (conf_items _ _ C1). reflexivity.
  Qed.

  (** ** Independent fields *)

  Lemma agree_frame strict sok D F K (Df Kf : nat -> Prop) (w1 w2 w1' : world) : agree strict sok D F K w1 w2 w1 w2 ->
    (forall j, Df j -> ~ D j) -> (forall f, Kf f -> ~ F f) -> within Df Kf w1 w1' ->
    agree strict sok D F K w1' w2 w1' w2.
  Proof.
    intros A HD HF (C & E & G).
    assert (E' : forall j, D j -> nth_error (w_em P w1) j = nth_error (w_em P w1') j).
    { intros j Hj. apply E. intros Q. apply (HD j Q Hj). }
    assert (G' : forall f, F f -> get_fd f w1 = get_fd f w1').
    { intros f Hf. apply G. intros Q. apply (HF f Q Hf). }
    assert (Em : forall j, D j -> get_em j w1' = get_em j w1) by (intros j Hj; unfold World.get_em; rewrite (E' j Hj); reflexivity).
    destruct A. constructor; auto using within_refl.
    - intros j Hj. rewrite (Em j Hj). auto.
    - intros j e k Hj. rewrite (Em j Hj). eauto.
    - intros j e k Hj. rewrite (Em j Hj). eauto.
    - intros j e nd Hj. rewrite (Em j Hj). eauto.
    - intros Hs j Hj. unfold ent_of at 1. rewrite <- (E' j Hj). apply ag_ent; assumption.
    - intros f Hf. rewrite <- (G' f Hf). auto.
    - intros f Hf. rewrite <- (multi_wconf _ _ f C). auto.
    - intros f x p Hf. rewrite <- (G' f (ag_K f Hf)). eauto.
    - intros f x Hf. rewrite <- (G' f (ag_K f Hf)). eauto.
  Qed.

  Lemma about_allowed w w' fs o : wconf w w' -> about P w fs o ->
    allowed (fun _ => True) (fun j => exists f, In f fs /\ uses w' f j) (fun g => In g fs) o.
  Proof. intros C. destruct o; cbn; auto; intros (f & Hf & U); eauto using uses_wconf. Qed.
End Histories.
