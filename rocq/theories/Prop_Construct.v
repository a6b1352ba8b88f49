(** * Creating objects and changing their settings: properties C43, C44, C53. *)
From Coq Require Import String.
From Verif Require Import Base Prims Values MathModel ChoiceModel ChoiceProofs FixedModel GroupModel
  SigModel SigSpec SigProofs WrapModel WrapSpec TextModel FieldModel World Rel WorldProofs Agree
  WorldSpec WorldReset Histories WorldBuild BuildProofs Demo WorldDemo Prop_World.
Open Scope list_scope.
Open Scope Z_scope.

(** ** The bound on nesting does not matter *)

Section Depth.
  Context {P : prims} (fuel : nat) (str_of : val -> res (list Z)).
  Notation world := (World.world P).
  Notation get_em := (World.get_em P).
  Notation get_fd := (World.get_fd P).

  Lemma osim_eq (e1 e2 : World.emitter P) : osim true e1 e2 -> e1 = e2.
  Proof.
    destruct e1, e2; cbn; try discriminate; try exact (fun H => H).
    - intros (H1 & H2 & H3). destruct i, i0; cbn in *. subst. reflexivity.
    - intros (-> & H1 & H2 & H3 & H4 & H5). destruct s, s0; cbn in *. subst. reflexivity.
    - intros [-> [->|[Q _]]]; [reflexivity | discriminate Q].
    - intros (-> & -> & -> & H). rewrite (H eq_refl). reflexivity.
    - intros (-> & -> & -> & -> & H). rewrite (H eq_refl). reflexivity.
  Qed.

  Lemma list_eq_nth {A} : forall l l' : list A, (forall n, nth_error l n = nth_error l' n) -> l = l'.
  Proof.
    induction l as [|a l IH]; intros [|b l'] H; try reflexivity; try (specialize (H O); discriminate).
    f_equal; [specialize (H O); cbn in H; congruence | apply IH; intros n; apply (H (S n))].
  Qed.

  (** Computations on emitters that correspond have the same effect. *)
  Lemma same_effect A (m1 m2 : M world A) (w : world) :
    rel (agree true (fun _ => True) (fun _ => True) (fun _ => True) (fun _ => False) w w) m1 m2 -> m1 w = m2 w.
  Proof.
    intros R. destruct (R w w) as [E Q].
    - apply agree_self. split; [auto | intros ? ? ? []].
    - destruct (m1 w) as [r1 w1], (m2 w) as [r2 w2]. cbn [fst snd] in *. subst r2. f_equal.
      destruct Q as [Qe _ _ _ Qn _ _ _ _ _ (_ & _ & Q1 & R1) (_ & _ & Q2 & R2)].
      assert (Fd : w_fd P w1 = w_fd P w2).
      { apply list_eq_nth. intros n. change (get_fd n w1 = get_fd n w2). rewrite <- (Q1 n), <- (Q2 n); auto. }
      assert (Em : w_em P w1 = w_em P w2).
      { apply list_eq_nth. intros n. specialize (Qe n I). specialize (Qn I n I). unfold World.get_em, ent_of in *.
        destruct (nth_error (w_em P w1) n) as [[e1 n1]|], (nth_error (w_em P w2) n) as [[e2 n2]|]; try contradiction; [|reflexivity].
        cbn in *. apply osim_eq in Qe. congruence. }
      destruct w1, w2; cbn in *; congruence.
  Qed.

  (** Emitters are nested at most as deep as the model's bound says: any other
      bound that is large enough gives the same results. *)
  Theorem depth_enough (w : world) id d : sound P w -> (id < d)%nat ->
    fst (emits P fuel str_of d) id w = em_emit P fuel str_of id w /\
    (forall n, snd (emits P fuel str_of d) id n w = em_emit_many P fuel str_of id n w) /\
    ereset P fuel d id w = em_reset P fuel id w /\
    (forall s, eseed P fuel d s id w = em_seed P fuel id s w).
  Proof.
    intros (So & _) Hd. assert (Dp : deep w d (S id) id) by (right; split; [exact So | lia]).
    split; [|split; [intros n|split; [|intros s]]]; apply same_effect.
    - apply (rel_emits fuel str_of); [exact Dp | exact I].
    - apply (rel_emits fuel str_of); [exact Dp | exact I].
    - apply (rel_ereset fuel); [exact Dp | exact I].
    - apply (rel_eseed fuel); [exact I | exact Dp | exact I].
  Qed.
End Depth.

(** ** C43 *)

Section Wrappers.
  Context {P : prims} (fuel : nat) (str_of : val -> res (list Z)).
  Hypothesis score_quiet : forall u w, k_score P u w <> Raise AttributeError.
  Notation world := (World.world P).
  Notation get_em := (World.get_em P).
  Notation get_fd := (World.get_fd P).

  Definition seed_of (i : nat) (w : world) : option (option (option (pSeed P))) :=
    option_map (fun e => option_map (n_seed P) (node_of P e)) (get_em i w).
  (** In a sound world: the objects stay, and so does the seed of [i]. *)
  Definition stays (i : nat) (w w' : world) : Prop := sound P w -> shape w w' /\ seed_of i w = seed_of i w'.
  Lemma stays_refl i w : stays i w w.
  Proof. intros _. split; [apply shape_refl | reflexivity]. Qed.
  Lemma stays_trans i a b c : stays i a b -> stays i b c -> stays i a c.
  Proof.
    intros H1 H2 Sa. destruct (H1 Sa) as [A1 A2]. destruct (H2 (shape_sound _ _ A1 Sa)) as [B1 B2].
    split; [eapply shape_trans; eauto | congruence].
  Qed.

  Lemma belongs_le w i j : sound P w -> belongs P w i j -> (j <= i)%nat.
  Proof.
    intros (So & _) B. induction B as [|i e k j E Hk B IH]; [lia|]. specialize (So i e k E Hk). lia.
  Qed.
  Lemma belongs_shape w w' i j : shape w w' -> belongs P w i j -> belongs P w' i j.
  Proof.
    intros (_ & _ & H & _) B. induction B as [|i e k j E Hk B IH]; [constructor|].
    specialize (H i). rewrite E in H. destruct (get_em i w') as [e'|] eqn:E'; [|discriminate]. injection H as Q1 Q2.
    econstructor; [exact E' | rewrite <- Q1; exact Hk | exact IH].
  Qed.

  (** What is done with an older emitter leaves a younger one alone. *)
  Lemma op_stays i src o : (src < i)%nat -> (forall w, allowed (fun _ => True) (belongs P w src) (fun _ => False) o) ->
    forall w, stays i w (snd (run P fuel str_of o w)).
  Proof.
    intros L Ho w Sw. destruct (run_within fuel str_of _ _ w o (closed_tree w src) (Ho w)) as (C & E & _).
    split; [apply wconf_shape; exact C|]. unfold seed_of, World.get_em. rewrite E; [reflexivity|].
    intros B. apply (belongs_le w src i Sw) in B. lia.
  Qed.
  Lemma call_stays i src : (src < i)%nat -> keeps (stays i) (em_call P fuel str_of src).
  Proof.
    intros L w. pose proof (op_stays i src (Emit P src) L (fun w => belongs_self P w src) w) as Q.
    cbn [run] in Q. unfold mbind, ret in Q. destruct (em_call P fuel str_of src w) as [[]]; exact Q.
  Qed.
  Lemma call_n_stays i src n : (src < i)%nat -> keeps (stays i) (em_call_n P fuel str_of src n).
  Proof.
    intros L w. pose proof (op_stays i src (EmitN P src n) L (fun w => belongs_self P w src) w) as Q.
    cbn [run] in Q. unfold mbind, ret in Q. destruct (em_call_n P fuel str_of src n w) as [[]]; exact Q.
  Qed.

  Lemma stays_put i k e e' (w : world) : get_em k w = Some e -> refs e = refs e' ->
    option_map (n_seed P) (node_of P e) = option_map (n_seed P) (node_of P e') -> stays i w (put_em P k e' w).
  Proof.
    intros E R N _. split; [eapply shape_put; eauto|]. unfold seed_of. destruct (Nat.eq_dec i k) as [->|Q].
    - rewrite (get_put_same _ _ _ _ E), E. cbn. congruence.
    - rewrite get_put_other by exact Q. reflexivity.
  Qed.

  Lemma bound_stays s0 i f : urel (since (stays i) s0) (bound P i f) (bound P i f).
  Proof.
    split; [reflexivity|]. split; intros args kw; apply keeps_rel; try exact (stays_trans i).
    - intros w. apply stays_refl.
    - intros w. cbn [bound u_body_rng]. unfold run_rng, at_em. destruct (get_em i w) as [e|] eqn:E; [|apply stays_refl].
      destruct (node_of P e) as [nd|] eqn:N; [|apply stays_refl]. destruct (wf_rng P f args kw (n_rng P nd)) as [r rg]. cbn [snd].
      eapply stays_put; [exact E | symmetry; apply refs_with|]. rewrite N, (node_with _ _ _ N). reflexivity.
  Qed.
  Lemma install_stays i f : keeps (stays i) (install P i f).
  Proof.
    intros w. unfold install, modify_em, at_em. destruct (get_em i w) as [e|] eqn:E; [|apply stays_refl]. cbn [snd].
    eapply stays_put; [exact E | symmetry; apply install_refs | destruct e; reflexivity].
  Qed.

  Lemma stays_seed_at i w w' s : sound P w -> stays i w w' -> seed_at s w i -> seed_at s w' i.
  Proof.
    intros Sw H Q e' nd' E' N'. destruct (H Sw) as [_ Sd]. unfold seed_of in Sd. rewrite E' in Sd. cbn in Sd. rewrite N' in Sd.
    destruct (get_em i w) as [e|] eqn:E; [|discriminate]. cbn in Sd. destruct (node_of P e) as [nd|] eqn:N; [|discriminate].
    cbn in Sd. injection Sd as Sd. rewrite <- Sd. eapply Q; eauto.
  Qed.

  (** Assigning a function to a wrapper leaves the wrapper and all it is made of
      in the state of a reset. *)
  Theorem C43_set s i e f w w' :
    sound P w -> get_em i w = Some e ->
    match e with EWrapOne _ _ _ _ | EWrapMany _ _ _ _ => True | _ => False end ->
    seed_at s w i ->
    set_function P fuel str_of i f w = (Ok tt, w') ->
    shape w w' /\ forall j, belongs P w i j -> fresh_at P fuel s w' j.
  Proof.
    intros Sw E Hw Hs H. unfold set_function, at_em in H. rewrite E in H.
    assert (Fin : forall w1, stays i w w1 -> (install P i f ;;; em_reset P fuel i) w1 = (Ok tt, w') ->
      shape w w' /\ forall j, belongs P w i j -> fresh_at P fuel s w' j).
    { intros w1 S1 R. apply mbind_ok_inv in R. destruct R as ([] & w2 & R1 & R2).
      pose proof (install_stays i f w1) as S2. rewrite R1 in S2. cbn [snd] in S2.
      pose proof (stays_trans _ _ _ _ S1 S2) as S3. destruct (S3 Sw) as [Sh _].
      destruct (ereset_step fuel score_quiet s _ _ _ _ (stays_seed_at _ _ _ _ Sw S3 Hs) R2) as [(C & _) F].
      split; [eapply shape_trans; [exact Sh | apply wconf_shape; exact C]|].
      intros j B. apply F. eapply belongs_shape; eauto. }
    destruct e; try contradiction Hw.
    - unfold wrapone_set in H. apply try_finally_ok_inv in H. destruct H as (w1 & H1 & H2). apply (Fin w1); [|exact H2].
      assert (L : (source < i)%nat) by (eapply Sw; [exact E | left; reflexivity]).
      assert (K : keeps (stays i) (v <~ em_call P fuel str_of source ;; try_mock_call (bound P i f) [v] [])).
      { apply keeps_bind; [exact (stays_refl i) | exact (stays_trans i) | apply call_stays; exact L|]. intros v.
        apply rel_keeps; [exact (stays_refl i)|]. intros s0. apply rel_try_mock_call, bound_stays. }
      specialize (K w). rewrite H1 in K. exact K.
    - unfold wrapmany_set in H. apply mbind_ok_inv in H. destruct H as (kw & w1 & H1 & H2).
      apply try_finally_ok_inv in H2. destruct H2 as (w2 & H2 & H3). apply (Fin w2); [|exact H3].
      assert (L : forall k, In k (map snd sources) -> (k < i)%nat) by (intros k Hk; eapply Sw; [exact E | exact Hk]).
      assert (K : keeps (stays i) (call_sources (map (fun ks => (fst ks, (em_call P fuel str_of (snd ks), em_call_n P fuel str_of (snd ks)))) sources))).
      { apply rel_keeps; [exact (stays_refl i)|]. intros s0. apply rel_call_sources. clear -L.
        induction sources as [|[k j] t IH]; cbn [map]; constructor.
        - split; [reflexivity|]. cbn. split; [|intros n]; apply keeps_rel; try exact (stays_trans i);
            [apply call_stays | apply call_n_stays]; apply L; left; reflexivity.
        - apply IH. intros k' Hk. apply L. right; exact Hk. }
      assert (K2 : keeps (stays i) (try_mock_call (bound P i f) [] kw)).
      { apply rel_keeps; [exact (stays_refl i)|]. intros s0. apply rel_try_mock_call, bound_stays. }
      specialize (K w). rewrite H1 in K. specialize (K2 w1). rewrite H2 in K2. cbn [snd] in K, K2.
      eapply stays_trans; eauto.
  Qed.

  Lemma new_wrapper_fresh e seed f w id w' :
    sound P w -> (forall k, In k (children P e) -> (k < length (w_em P w))%nat) -> source_of P e = [] ->
    match e with EWrapOne _ _ _ nd | EWrapMany _ _ _ nd => nd = new_node P seed | _ => False end ->
    (id <~ alloc_em P e ;; em_reset P fuel id ;;; set_function P fuel str_of id f ;;; ret id) w = (Ok id, w') ->
    id = length (w_em P w) /\ forall j, belongs P w' id j -> fresh_at P fuel seed w' j.
  Proof.
    intros Sw Hk Hf He H. apply mbind_ok_inv in H. destruct H as (i & w0 & H0 & H).
    assert (Hi : i = length (w_em P w)) by (injection H0 as <- <-; reflexivity).
    assert (S0 : sound P w0).
    { pose proof (sound_alloc e w Sw Hk) as Q. rewrite Hf in Q. rewrite H0 in Q. apply Q. intros ? []. }
    assert (E0 : get_em i w0 = Some e).
    { injection H0 as <- <-. rewrite get_em_app, Nat.eqb_refl. reflexivity. }
    apply mbind_ok_inv in H. destruct H as ([] & w1 & H1 & H).
    apply mbind_ok_inv in H. destruct H as ([] & w2 & H2 & H). injection H as <- <-.
    assert (Sd : seed_at seed w0 i).
    { intros e' nd E' N. rewrite E0 in E'. injection E' as <-. destruct e; try contradiction He; cbn in N; injection N as <-; subst; reflexivity. }
    destruct (ereset_step fuel score_quiet seed _ _ _ _ Sd H1) as [(C1 & _ & _ & Sd1) _].
    pose proof (proj1 C1 i) as Q. rewrite E0 in Q. destruct (get_em i w1) as [e1|] eqn:E1; [|contradiction].
    destruct (C43_set seed i e1 f w1 w2) as [Sh F]; auto.
    - eapply shape_sound; [apply wconf_shape; exact C1 | exact S0].
    - cbn in Q. destruct e; try contradiction He; destruct e1; try contradiction Q; exact I.
    - split; [exact Hi|]. intros j B. apply F. eapply belongs_shape; [|exact B].
      destruct Sh as (A1 & A2 & A3 & A4). repeat split; symmetry; auto.
  Qed.

  (** WrapOne(source, f, rng_seed=seed): afterwards the wrapper, the source and
      everything the source is made of are in the state of a reset. *)
  Theorem C43_wrapone source f seed w id w' :
    reachable P fuel str_of w -> (source < length (w_em P w))%nat ->
    new_wrapone P fuel str_of source f seed w = (Ok id, w') ->
    belongs P w' id source /\ forall j, belongs P w' id j -> fresh_at P fuel seed w' j.
  Proof.
    intros R L H. apply reachable_sound in R.
    destruct (new_wrapper_fresh (EWrapOne P source f (new_node P seed)) seed f w id w') as [Hi F]; auto.
    - intros k [<-|[]]. exact L.
    - split; [|exact F]. (* the source is a part of it *)
      assert (Sh : exists w0, alloc_em P (EWrapOne P source f (new_node P seed)) w = (Ok id, w0) /\ shape w0 w').
      { unfold new_wrapone in H. apply mbind_ok_inv in H. destruct H as (i & w0 & H0 & H).
        apply mbind_ok_inv in H. destruct H as ([] & w1 & H1 & H).
        apply mbind_ok_inv in H. destruct H as ([] & w2 & H2 & H). injection H as <- <-.
        exists w0. split; [exact H0|]. pose proof (ks_reset fuel str_of i w0) as Q1. rewrite H1 in Q1.
        pose proof (ks_set_function fuel str_of i f w1) as Q2. rewrite H2 in Q2. eapply shape_trans; eauto. }
      destruct Sh as (w0 & H0 & Sh). eapply belongs_shape; [exact Sh|]. injection H0 as _ <-. rewrite Hi.
      econstructor; [rewrite get_em_app, Nat.eqb_refl; reflexivity | left; reflexivity | constructor].
  Qed.

  (** WrapMany(sources, f, rng_seed=seed) *)
  Theorem C43_wrapmany sources f seed w id w' :
    reachable P fuel str_of w -> (forall k, In k (map snd sources) -> (k < length (w_em P w))%nat) ->
    new_wrapmany P fuel str_of sources f seed w = (Ok id, w') ->
    (forall k, In k (map snd sources) -> belongs P w' id k) /\ forall j, belongs P w' id j -> fresh_at P fuel seed w' j.
  Proof.
    intros R L H. apply reachable_sound in R.
    destruct (new_wrapper_fresh (EWrapMany P sources f (new_node P seed)) seed f w id w') as [Hi F]; auto.
    split; [|exact F]. intros k Hk.
    assert (Sh : exists w0, alloc_em P (EWrapMany P sources f (new_node P seed)) w = (Ok id, w0) /\ shape w0 w').
    { unfold new_wrapmany in H. apply mbind_ok_inv in H. destruct H as (i & w0 & H0 & H).
      apply mbind_ok_inv in H. destruct H as ([] & w1 & H1 & H).
      apply mbind_ok_inv in H. destruct H as ([] & w2 & H2 & H). injection H as <- <-.
      exists w0. split; [exact H0|]. pose proof (ks_reset fuel str_of i w0) as Q1. rewrite H1 in Q1.
      pose proof (ks_set_function fuel str_of i f w1) as Q2. rewrite H2 in Q2. eapply shape_trans; eauto. }
    destruct Sh as (w0 & H0 & Sh). eapply belongs_shape; [exact Sh|]. injection H0 as _ <-. rewrite Hi.
    econstructor; [rewrite get_em_app, Nat.eqb_refl; reflexivity | exact Hk | constructor].
  Qed.
End Wrappers.

(** ** Emitters all of whose parts are fresh do the same *)

Section FreshTrees.
  Context {P : prims} (fuel : nat) (str_of : val -> res (list Z)).
  Notation world := (World.world P).
  Notation get_em := (World.get_em P).
  Notation get_fd := (World.get_fd P).

  Lemma fresh_tree s i (v1 v2 : world) :
    (forall j, belongs P v1 i j -> orel conf (get_em j v1) (get_em j v2)) ->
    (forall j, belongs P v1 i j -> fresh_at P fuel (Some s) v1 j) ->
    (forall j, belongs P v1 i j -> fresh_at P fuel (Some s) v2 j) ->
    pure_parts P v1 i ->
    (forall j e f, belongs P v1 i j -> get_em j v1 = Some e -> In f (source_of P e) ->
       get_fd f v1 = get_fd f v2 /\ field_multi P v1 f = field_multi P v2 f) ->
    forall h, Forall (about_emitter P v1 i) h ->
    fst (history P fuel str_of h v1) = fst (history P fuel str_of h v2).
  Proof.
    intros C F1 F2 Hp Hf h Hh.
    apply (history_agree fuel str_of false (fun s => s <> None) (belongs P v1 i)
      (fun f => exists j e, belongs P v1 i j /\ get_em j v1 = Some e /\ In f (source_of P e)) (fun _ => False) v1 v2 h).
    - eapply Forall_impl; [|exact Hh]. intros o. destruct o; cbn; auto; contradiction.
    - constructor; auto using within_refl; try contradiction.
      + intros j B. pose proof (C j B) as Q. destruct (get_em j v1) as [e1|] eqn:E1, (get_em j v2) as [e2|] eqn:E2; try contradiction; [|exact I].
        cbn in Q |- *. apply (fresh_same fuel s); [exact Q | apply (F1 j B); exact E1 | apply (F2 j B); exact E2|].
        exact (Hp j e1 B E1).
      + intros j e k B E Hk. eapply belongs_trans; [exact B|]. econstructor; [exact E | exact Hk | constructor].
      + intros j e f B E Hin. exists j, e. auto.
      + intros j e nd B E En. rewrite (fresh_seed fuel _ _ _ (F1 j B e E) En). discriminate.
      + intros f (j & e & B & E & Hin). destruct (Hf j e f B E Hin) as [<- _]. apply orel_refl. intros x. split; [apply fconf_refl | auto].
      + intros f (j & e & B & E & Hin). apply (Hf j e f B E Hin).
  Qed.

  Hypothesis score_quiet : forall u w, k_score P u w <> Raise AttributeError.

  (** So constructing a wrapper with a seed consumes nothing: whatever is done
      with the wrapper and its sources gives the same as after one more reset. *)
  Theorem C43_unconsumed s id w' w'' h :
    (forall j, belongs P w' id j -> fresh_at P fuel (Some s) w' j) ->
    pure_parts P w' id ->
    em_reset P fuel id w' = (Ok tt, w'') ->
    Forall (about_emitter P w' id) h ->
    fst (history P fuel str_of h w') = fst (history P fuel str_of h w'').
  Proof.
    intros F Hp R Hh.
    assert (Sd : seed_at (Some s) w' id).
    { intros e nd E N. eapply fresh_seed; [|exact N]. apply (F id); [constructor | exact E]. }
    destruct (ereset_step fuel score_quiet (Some s) _ _ _ _ Sd R) as [(C & Fd & _) F2].
    apply (fresh_tree s id); auto.
    - intros j _. apply C.
    - intros j e f B E Hin. split; [unfold World.get_fd; rewrite Fd; reflexivity | apply multi_wconf; exact C].
  Qed.
End FreshTrees.

(** Programs, to show that concrete states are reachable. *)
Definition can {P} (c : command P) (w : world P) : bool :=
  forallb (fun i => Nat.ltb i (length (w_em P w))) (emitters_of P c) &&
  forallb (fun f => Nat.ltb f (length (w_fd P w))) (fields_of P c).
Fixpoint program (l : list (command DP)) (w : world DP) : world DP :=
  match l with [] => w | c :: t => program t (snd (exec DP 9 demo_str c w)) end.
Fixpoint can_all (l : list (command DP)) (w : world DP) : bool :=
  match l with [] => true | c :: t => can c w && can_all t (snd (exec DP 9 demo_str c w)) end.
Lemma program_reachable l : forall w, reachable DP 9 demo_str w -> can_all l w = true -> reachable DP 9 demo_str (program l w).
Proof.
  induction l as [|c t IH]; intros w R H; [exact R|]. cbn [program can_all] in *. apply andb_prop in H. destruct H as [H1 H2].
  apply IH; [|exact H2]. constructor; [exact R|]. apply andb_prop in H1. destruct H1 as [A B]. rewrite forallb_forall in A, B.
  split; intros i Hi; [specialize (A i Hi) | specialize (B i Hi)]; apply Nat.ltb_lt; assumption.
Qed.

(** Two sources, in use already, and a wrapper for each. *)
Definition used_sources : list (command DP) :=
  [NewChoice DP true [VInt 1; VInt 2; VInt 3] None true false (Some 4%nat) None;
   NewSequential DP true [VInt 10; VInt 20; VInt 30] false;
   Do DP (EmitN DP 0 2); Do DP (Emit DP 1)].
Example C43_case :
  let w := program used_sources empty in
  reachable DP 9 demo_str w /\
  fst (new_wrapone DP 9 demo_str 1 identity (Some 5%nat) w) = Ok 2%nat /\
  let w' := snd (new_wrapone DP 9 demo_str 1 identity (Some 5%nat) w) in
  fst (history DP 9 demo_str [Emit DP 1] w) = [Ok (Value (VInt 20))] /\
  fst (history DP 9 demo_str [Emit DP 2; EmitN DP 2 3] w') =
    [Ok (Value (VInt 10)); Ok (Values [VInt 20; VInt 30; VInt 10])] /\
  Forall (about_emitter DP w' 2) [Emit DP 2; EmitN DP 2 3].
Proof.
  split; [apply program_reachable; [constructor | vm_compute; reflexivity]|].
  split; [vm_compute; reflexivity|]. split; [vm_compute; reflexivity|]. split; [vm_compute; reflexivity|].
  repeat constructor.
Qed.

(** ** C53 *)

(** A Choice with a seed of its own, put into a field without a seed, should go on
    as it did before. *)
Definition C53_statement : Prop :=
  forall (items : list val) s name w id w1 f w2 n,
    reachable DP 9 demo_str w ->
    new_choice DP 9 true items None true false (Some s) None w = (Ok id, w1) ->
    new_field DP 9 name id None None false None w1 = (Ok f, w2) ->
    fst (em_call_n DP 9 demo_str id n w2) = fst (em_call_n DP 9 demo_str id n w1).
Theorem C53_own_seed_refuted : ~ C53_statement.
Proof.
  intros H. pose (items := [VInt 1; VInt 2; VInt 3; VInt 4; VInt 5]).
  pose (m1 := new_choice DP 9 true items None true false (Some 7%nat) None).
  pose (m2 := new_field DP 9 "x"%string 0 None None false None).
  assert (E1 : m1 empty = (Ok 0%nat, snd (m1 empty))) by (apply ran; vm_compute; reflexivity).
  assert (E2 : m2 (snd (m1 empty)) = (Ok 0%nat, snd (m2 (snd (m1 empty))))) by (apply ran; vm_compute; reflexivity).
  specialize (H items 7%nat "x"%string empty 0%nat _ 0%nat _ 3 (reach_start DP 9 demo_str 4) E1 E2).
  vm_compute in H. discriminate H.
Qed.

Section OwnSeed.
  Context {P : prims} (fuel : nat) (str_of : val -> res (list Z)).
  Hypothesis score_quiet : forall u w, k_score P u w <> Raise AttributeError.
  Notation world := (World.world P).
  Notation get_em := (World.get_em P).
  Notation get_fd := (World.get_fd P).

  (** It does if the field is given the same seed: whatever is done with the
      emitter (and its parts), which was freshly made with seed [s], gives the
      same whether or not it has been put into a field with seed [s].
      Missing from the full statement: the field having no seed (refuted above). *)
  Theorem C53_same_seed_partial name em rep gate hide s w f w' h :
    reachable P fuel str_of w ->
    possible P (NewField P name em rep gate hide (Some s)) w ->
    (forall j, belongs P w em j -> fresh_at P fuel (Some s) w j) ->
    pure_parts P w em ->
    new_field P fuel name em rep gate hide (Some s) w = (Ok f, w') ->
    Forall (about_emitter P w em) h ->
    fst (history P fuel str_of h w) = fst (history P fuel str_of h w').
  Proof.
    intros R Hpos F Hp H Hh. apply reachable_sound in R. unfold new_field in H.
    (* the default parts come after everything that exists *)
    assert (Ext : exists r g w1, (forall i, (i < length (w_em P w))%nat -> nth_error (w_em P w1) i = nth_error (w_em P w) i) /\
       w_fd P w1 = w_fd P w /\
       (f <~ alloc_fd P (mkField P name hide em r g (new_node P (Some s)) VNone 0) ;; fd_reset P fuel f ;;; ret f) w1 = (Ok f, w')).
    { destruct rep as [r|], gate as [g|]; eexists; eexists; eexists; (split; [|split; [|exact H]]); cbn;
        intros; rewrite ?nth_error_app1; auto; rewrite ?app_length; cbn; lia. }
    clear H. destruct Ext as (r & g & w1 & X1 & X2 & H).
    apply mbind_ok_inv in H. destruct H as (f0 & w2 & H0 & H).
    apply mbind_ok_inv in H. destruct H as ([] & w3 & H1 & H). injection H as <- <-.
    assert (E2 : w_em P w2 = w_em P w1 /\ w_fd P w2 = w_fd P w1 ++ [mkField P name hide em r g (new_node P (Some s)) VNone 0] /\
      f0 = length (w_fd P w1)) by (injection H0 as <- <-; auto).
    destruct E2 as (E2 & E3 & Hf). clear H0.
    assert (Gf : get_fd f0 w2 = Some (mkField P name hide em r g (new_node P (Some s)) VNone 0)).
    { unfold World.get_fd. rewrite E3, nth_error_app2 by lia. rewrite Hf, Nat.sub_diag. reflexivity. }
    assert (Old : forall i, (i < length (w_em P w))%nat -> get_em i w2 = get_em i w).
    { intros i L. unfold World.get_em. rewrite E2, X1; auto. }
    assert (Lt : forall j, belongs P w em j -> (j < length (w_em P w))%nat).
    { intros j B. apply (belongs_le w em j R) in B. destruct Hpos as [Q _]. specialize (Q em (or_introl eq_refl)). lia. }
    assert (Bel : forall j, belongs P w em j -> belongs P w2 em j).
    { intros j B. assert (Lem : (em < length (w_em P w))%nat) by (apply Lt; constructor). clear -B Old R Lem.
      induction B as [|i e k j E Hk B IH]; [constructor|]. econstructor; [rewrite Old; [exact E | exact Lem] | exact Hk|].
      apply IH. eapply sound_bound; eauto. }
    destruct (fd_reset_step fuel score_quiet (Some s) f0 w2 w3) as ((C & _) & Fr & _).
    { intros x E. rewrite Gf in E. injection E as <-. reflexivity. }
    { exact H1. }
    pose proof (run_within fuel str_of _ _ w2 (Reset P f0) (closed_field w2 f0) eq_refl) as Wi.
    cbn [run] in Wi. unfold mbind in Wi. rewrite H1 in Wi. cbn [ret snd] in Wi. destruct Wi as (_ & _ & Wf & _).
    assert (Fd : forall i, (i < length (w_fd P w))%nat -> get_fd i w3 = get_fd i w).
    { intros i L. rewrite <- Wf by (rewrite Hf, X2; lia). unfold World.get_fd. rewrite E3, nth_error_app1, X2; [reflexivity | rewrite X2; exact L]. }
    apply (fresh_tree fuel str_of s em); auto.
    - intros j B. rewrite <- Old by auto. apply C.
    - intros j B. apply Fr. eexists; exists em. split; [exact Gf|]. split; [left; reflexivity | apply Bel; exact B].
    - intros j e i B E Hin. assert (L : (i < length (w_fd P w))%nat) by (eapply R; eauto). rewrite Fd by exact L. split; [reflexivity|].
      unfold World.field_multi. rewrite Fd by exact L. destruct (get_fd i w) as [x|] eqn:Ei; [|reflexivity].
      assert (Lr : (f_rep P x < length (w_em P w))%nat) by (eapply R; [exact Ei | right; left; reflexivity]).
      pose proof (proj1 C (f_rep P x)) as Q. rewrite Old in Q by exact Lr.
      destruct (get_em (f_rep P x) w) as [e1|], (get_em (f_rep P x) w3) as [e2|]; try contradiction; [|reflexivity].
      cbn in Q. rewrite (conf_items _ _ Q). reflexivity.
  Qed.
End OwnSeed.

(** Emitters just made with seed [s] are as the theorem asks. *)
Section NewFresh.
  Context {P : prims} (fuel : nat).
  Hypothesis score_quiet : forall u w, k_score P u w <> Raise AttributeError.

  Theorem new_choice_fresh b items ws rep roac seed cum w id w' :
    new_choice P fuel b items ws rep roac seed cum w = (Ok id, w') ->
    forall j, belongs P w' id j -> fresh_at P fuel seed w' j.
  Proof.
    unfold new_choice. intros H. apply mbind_ok_inv in H. destruct H as (c & w1 & H1 & H).
    unfold lift in H1. injection H1 as H1 <-. apply mbind_ok_inv in H. destruct H as (i & w2 & H2 & H).
    injection H2 as Hi <-. unfold mbind, ret in H. injection H as <- <-.
    apply new_inv in H1 as (wc & _ & _ & H1 & _).
    assert (G : get_em P i (use_entropy P i (mkWorld P (w_em P w ++ [mkObj P (EChoice P b c) (w_run P w)]) (w_fd P w) (w_run P w))) = Some (EChoice P b c)).
    { rewrite get_use, get_em_app, <- Hi, Nat.eqb_refl. reflexivity. }
    intros j B. inversion B as [i0 Q|i0 e k j0 E Hk B' Q]; clear B; subst.
    - intros e E. rewrite G in E. injection E as <-. eexists; eexists. split; [|split; [|exact H1]]; [reflexivity|].
      match type of H1 with choice_reset _ _ ?n ?c0 = _ => pose proof (kreset fuel n c0) as K end.
      rewrite H1 in K. apply K.
    - rewrite G in E. injection E as <-. destruct Hk.
  Qed.

  (** Word and Text reset themselves and all their parts. *)
  Lemma reset_then_keep seed e w id w1 w2 g :
    alloc_em P e w = (Ok id, w1) -> (forall nd, node_of P e = Some nd -> n_seed P nd = seed) ->
    em_reset P fuel id w1 = (Ok tt, w2) ->
    (forall e, refs (g e) = refs e /\ (fresh P fuel seed e -> fresh P fuel seed (g e))) ->
    forall w', modify_em P id g w2 = (Ok tt, w') -> forall j, belongs P w' id j -> fresh_at P fuel seed w' j.
  Proof.
    intros H1 Hs H2 Hg w' H3 j B.
    assert (E1 : get_em P id w1 = Some e) by (injection H1 as <- <-; rewrite get_em_app, Nat.eqb_refl; reflexivity).
    assert (Sd : seed_at seed w1 id) by (intros e' nd E N; apply Hs; congruence).
    destruct (ereset_step fuel score_quiet seed _ _ _ _ Sd H2) as [(C & _) F].
    assert (Sh : shape w2 w').
    { pose proof (ks_modify id g (fun e => proj1 (Hg e)) w2) as K. rewrite H3 in K. exact K. }
    assert (B1 : belongs P w1 id j).
    { eapply belongs_wconf; [apply wconf_sym; exact C|]. eapply belongs_shape; [|exact B].
      destruct Sh as (A1 & A2 & A3 & A4). repeat split; symmetry; auto. }
    specialize (F j B1). unfold modify_em, at_em in H3. destruct (get_em P id w2) as [e2|] eqn:E2; [|discriminate].
    injection H3 as <-. intros e' E'. destruct (Nat.eq_dec j id) as [->|N].
    - rewrite (get_put_same _ _ _ _ E2) in E'. injection E' as <-. apply Hg, F, E2.
    - rewrite get_put_other in E' by exact N. apply F, E'.
  Qed.

  Theorem new_word_fresh l a seed w id w' : new_word P fuel l a seed w = (Ok id, w') ->
    forall j, belongs P w' id j -> fresh_at P fuel seed w' j.
  Proof.
    unfold new_word. intros H. apply mbind_ok_inv in H. destruct H as (i & w1 & H1 & H).
    apply mbind_ok_inv in H. destruct H as ([] & w2 & H2 & H). apply mbind_ok_inv in H. destruct H as (u & w3 & H3 & H).
    injection H3 as _ <-. apply mbind_ok_inv in H. destruct H as ([] & w4 & H4 & H). injection H as <- <-.
    eapply reset_then_keep; [exact H1 | | exact H2 | | exact H4].
    - intros nd [= <-]. reflexivity.
    - intros []; split; try reflexivity; exact (fun H => H).
  Qed.

  Theorem new_text_fresh n x sp seed w id w' : new_text P fuel n x sp seed w = (Ok id, w') ->
    forall j, belongs P w' id j -> fresh_at P fuel seed w' j.
  Proof.
    unfold new_text. intros H. apply mbind_ok_inv in H. destruct H as (s & w0 & _ & H).
    apply mbind_ok_inv in H. destruct H as (i & w1 & H1 & H).
    apply mbind_ok_inv in H. destruct H as ([] & w2 & H2 & H). apply mbind_ok_inv in H. destruct H as (u & w3 & H3 & H).
    injection H3 as _ <-. apply mbind_ok_inv in H. destruct H as ([] & w4 & H4 & H). injection H as <- <-.
    eapply reset_then_keep; [exact H1 | | exact H2 | | exact H4].
    - intros nd [= <-]. reflexivity.
    - intros []; split; try reflexivity; exact (fun H => H).
  Qed.
End NewFresh.

(** A Word with seed 7 in a field with seed 7. *)
Example C53_case :
  let m := c <~ new_choice DP 9 true [VInt 2; VInt 3] None true false None None ;;
           a <~ new_choice DP 9 true [VStr [97]; VStr [98]; VStr [99]] None true false None None ;;
           new_word DP 9 c a (Some 7%nat) in
  let w := snd (m empty) in
  fst (m empty) = Ok 2%nat /\
  fst (new_field DP 9 "x"%string 2 None None false (Some 7%nat) w) = Ok 0%nat /\
  fst (em_call_n DP 9 demo_str 2 3 w) =
  fst (em_call_n DP 9 demo_str 2 3 (snd (new_field DP 9 "x"%string 2 None None false (Some 7%nat) w))) /\
  exists l, fst (em_call_n DP 9 demo_str 2 3 w) = Ok l /\ length l = 3%nat.
Proof.
  split; [vm_compute; reflexivity|]. split; [vm_compute; reflexivity|]. split; [vm_compute; reflexivity|].
  eexists. split; [vm_compute; reflexivity | reflexivity].
Qed.

(** ** C44 *)

Definition C44_statement : Prop :=
  forall b source f seed w id w' h,
    reachable DP 9 demo_str w ->
    new_based DP 9 demo_str b source f seed w = (Ok id, w') ->
    (forall o, In o h -> exists s, In s source /\ o = Call DP s) ->
    fst (history DP 9 demo_str h w') = fst (history DP 9 demo_str h w).
Definition one_field : list (command DP) :=
  [NewSequential DP true [VInt 10; VInt 20; VInt 30] false;
   NewField DP "x"%string 0 None None false None].
Theorem C44_construct_refuted : ~ C44_statement.
Proof.
  intros H. pose (w := program one_field empty). pose (m := new_based DP 9 demo_str true [0%nat] identity None).
  assert (R : reachable DP 9 demo_str w) by (apply program_reachable; [constructor | vm_compute; reflexivity]).
  assert (E : m w = (Ok 3%nat, snd (m w))) by (apply ran; vm_compute; reflexivity).
  specialize (H true [0%nat] identity None w 3%nat _ [Call DP 0] R E).
  enough (fst (history DP 9 demo_str [Call DP 0] (snd (m w))) <> fst (history DP 9 demo_str [Call DP 0] w)) as N.
  { apply N, H. intros o [<-|[]]. exists 0%nat. split; [left; reflexivity | reflexivity]. }
  vm_compute. discriminate.
Qed.

Section BasedOn.
  Context {P : prims} (fuel : nat) (str_of : val -> res (list Z)).
  Notation world := (World.world P).
  Notation get_em := (World.get_em P).
  Notation get_fd := (World.get_fd P).

  (** The emitters and fields of [w]. *)
  Definition older_em (w : world) (i : nat) : Prop := (i < length (w_em P w))%nat.
  Definition older_fd (w : world) (f : nat) : Prop := (f < length (w_fd P w))%nat.
  Notation alike w := (agree true (fun _ => True) (older_em w) (older_fd w) (older_fd w)).

  Lemma calls_alike w v1 v2 (names : nat -> string) l : (forall f, In f l -> older_fd w f) ->
    forall w1 w2 vals w1', alike w v1 v2 w1 w2 ->
    mapS (fun nc => v <~ snd nc ;; ret (fst nc, v)) (map (fun x => (names x, fd_call P fuel str_of x)) l) w1 = (Ok vals, w1') ->
    alike w v1 v2 w1' (after P fuel str_of (map (Call P) l) w2).
  Proof.
    induction l as [|f t IH]; intros Hl w1 w2 vals w1' A H; [injection H as _ <-; exact A|].
    cbn [map mapS fst snd] in H. apply mbind_ok_inv in H. destruct H as (v & w3 & H1 & H).
    apply mbind_ok_inv in H1. destruct H1 as (v' & w3' & H1 & Q). injection Q as _ <-.
    apply mbind_ok_inv in H. destruct H as (vs & w4 & H2 & H). injection H as _ <-.
    destruct (rel_run fuel str_of true (fun _ => True) (older_em w) (older_fd w) (older_fd w) v1 v2 (Call P f)
      (Hl f (or_introl eq_refl)) w1 w2 A) as [_ A'].
    cbn [run] in A'. unfold mbind at 1 in A'. rewrite H1 in A'. cbn [ret snd] in A'.
    cbn [map]. unfold after. cbn [history]. destruct (run P fuel str_of (Call P f) w2) as [r w5] eqn:E. cbn [run] in E. rewrite E in A'. cbn [snd] in A'.
    specialize (IH (fun g Hg => Hl g (or_intror Hg)) _ _ _ _ A' H2). unfold after in IH.
    destruct (history P fuel str_of (map (Call P) t) w5). exact IH.
  Qed.

  Notation only i := (within (fun j => j = i) (fun _ : nat => False)).
  Lemma mock_only i f args kw : keeps (only i) (try_mock_call (bound P i f) args kw).
  Proof.
    apply rel_keeps; [exact (within_refl _ _)|]. intros s0. apply rel_try_mock_call.
    split; [reflexivity|]. split; intros args' kw'; apply keeps_rel; try exact (within_trans _ _).
    - intros w. apply within_refl.
    - intros w. cbn [bound u_body_rng]. unfold run_rng, at_em. destruct (get_em i w) as [e|] eqn:E; [|apply within_refl].
      destruct (node_of P e) as [nd|] eqn:N; [|apply within_refl]. destruct (wf_rng P f args' kw' (n_rng P nd)) as [r rg]. cbn [snd].
      eapply within_put; [apply within_refl | reflexivity | exact E | apply conf_node].
  Qed.
  Lemma install_only i b fs f nd w : get_em i w = Some (EBased P b fs f nd) -> only i w (snd (install P i f w)).
  Proof.
    intros E. unfold install, modify_em, at_em. rewrite E. cbn [snd].
    eapply within_put; [apply within_refl | reflexivity | exact E | cbn; auto].
  Qed.
  Lemma reset_only i b fs f nd w : get_em i w = Some (EBased P b fs f nd) -> only i w (snd (em_reset P fuel i w)).
  Proof.
    intros E. pose proof (run_within fuel str_of (fun j => j = i) (fun _ => False) w (ResetEm P i)) as Q.
    cbn [run] in Q. unfold mbind, ret in Q. destruct (em_reset P fuel i w) as [[]]; apply Q; try reflexivity;
      (split; [|contradiction]); intros j e1 k -> E' Hk; rewrite E in E'; injection E' as <-; destruct Hk.
  Qed.
  Lemma only_based i w w' b fs f nd : only i w w' -> get_em i w = Some (EBased P b fs f nd) ->
    exists nd', get_em i w' = Some (EBased P b fs f nd').
  Proof.
    intros (C & _) E. pose proof (proj1 C i) as Q. rewrite E in Q. destruct (get_em i w') as [e|]; [|contradiction].
    cbn in Q. destruct e; try contradiction. destruct Q as (<- & <- & <-). eauto.
  Qed.

  (** What constructing BasedOnFields does to all that exists already: exactly
      what calling each of the source fields once does. *)
  Theorem C44_construct_partial b source f seed w id w' h :
    reachable P fuel str_of w ->
    possible P (NewBasedOnFields P b source f seed) w ->
    new_based P fuel str_of b source f seed w = (Ok id, w') ->
    Forall (fun o => possible P (Do P o) w) h ->
    fst (history P fuel str_of h w') =
    fst (history P fuel str_of h (after P fuel str_of (map (Call P) source) w)).
  Proof.
    intros R [_ Hs] H Hh. apply reachable_sound in R.
    unfold new_based in H. apply mbind_ok_inv in H. destruct H as (i & w0 & H0 & H).
    apply mbind_ok_inv in H. destruct H as ([] & w1 & H1 & H).
    apply mbind_ok_inv in H. destruct H as ([] & w2 & H2 & H). injection H as _ <-.
    assert (Hi : i = length (w_em P w)) by (injection H0 as <- _; reflexivity).
    assert (E0 : get_em i w0 = Some (EBased P b source f (new_node P seed))).
    { injection H0 as <- <-. rewrite get_em_app, Nat.eqb_refl. reflexivity. }
    (* the new object changes nothing for the others *)
    assert (A0 : alike w w0 w w0 w).
    { injection H0 as _ <-. destruct R as (R1 & R2 & R3).
      assert (Old : forall j, older_em w j -> nth_error (w_em P w ++ [mkObj P (EBased P b source f (new_node P seed)) (w_run P w)]) j = nth_error (w_em P w) j)
        by (intros j L; apply nth_error_app1; exact L).
      constructor; auto using within_refl; unfold World.get_em, ent_of; cbn [w_em].
      - intros j L. rewrite Old by exact L. apply orel_refl, osim_refl.
      - intros j e k L E Hk. rewrite Old in E by exact L. specialize (R1 j e k E Hk). unfold older_em in *. lia.
      - intros j e k L E Hk. rewrite Old in E by exact L. exact (R2 j e k E Hk).
      - intros _ j L. rewrite Old by exact L. reflexivity.
      - intros g L. apply orel_refl. intros x. split; [apply fconf_refl | auto].
      - intros g L. unfold World.field_multi. change (get_fd g _) with (get_fd g w).
        destruct (get_fd g w) as [x|] eqn:E; [|reflexivity]. unfold World.get_em; cbn [w_em]. rewrite Old; [reflexivity|].
        eapply R3; [exact E | right; left; reflexivity].
      - intros g x p L E Hp. exact (R3 g x p E Hp). }
    assert (Fr : forall v1 v2 u : world, alike w v1 v2 v1 v2 -> only i v1 u -> alike w u v2 u v2).
    { intros v1 v2 u A W. eapply agree_frame; [exact A | | | exact W]; [intros j ->; unfold older_em; lia | contradiction]. }
    pose proof (reset_only _ _ _ _ _ _ E0) as O1. rewrite H1 in O1. cbn [snd] in O1.
    pose proof (Fr _ _ _ A0 O1) as A1. destruct (only_based _ _ _ _ _ _ _ O1 E0) as (nd1 & E1).
    unfold set_function, at_em in H2. rewrite E1 in H2. unfold based_set in H2.
    apply mbind_ok_inv in H2. destruct H2 as ([] & w3 & H3 & H2).
    pose proof (install_only _ _ _ _ _ _ E1) as O2. rewrite H3 in O2. cbn [snd] in O2.
    pose proof (Fr _ _ _ A1 O2) as A2. destruct (only_based _ _ _ _ _ _ _ O2 E1) as (nd2 & E2).
    apply mbind_ok_inv in H2. destruct H2 as (vals & w4 & H4 & H2).
    pose proof (calls_alike w _ _ _ source Hs _ _ _ _ A2 H4) as A3.
    assert (E3 : get_em i w4 = Some (EBased P b source f nd2)).
    { destruct (ag_in1 _ _ _ _ _ _ _ _ _ A3) as (_ & Q & _). unfold World.get_em in *. rewrite <- Q; [exact E2 | unfold older_em; lia]. }
    apply rebase in A3. destruct (action_args vals) as [args kw].
    apply try_finally_ok_inv in H2. destruct H2 as (w5 & H5 & H6).
    pose proof (mock_only i f args kw w4) as O3. rewrite H5 in O3. cbn [snd] in O3.
    pose proof (Fr _ _ _ A3 O3) as A4. destruct (only_based _ _ _ _ _ _ _ O3 E3) as (nd3 & E4).
    pose proof (reset_only _ _ _ _ _ _ E4) as O4. rewrite H6 in O4. cbn [snd] in O4.
    pose proof (Fr _ _ _ A4 O4) as A5.
    refine (proj1 (history_agree fuel str_of _ _ _ _ _ _ _ h _ _ _ A5)). eapply Forall_impl; [|exact Hh].
    intros o [Ho1 Ho2]. destruct o; cbn in *; unfold older_em, older_fd; auto.
  Qed.
End BasedOn.

Example C44_case :
  let w := program one_field empty in
  let m := new_based DP 9 demo_str true [0%nat] identity None in
  reachable DP 9 demo_str w /\ fst (m w) = Ok 3%nat /\
  fst (history DP 9 demo_str [Call DP 0; Call DP 0] w) = [Ok (Value (VInt 10)); Ok (Value (VInt 20))] /\
  fst (history DP 9 demo_str [Call DP 0; Call DP 0] (snd (m w))) = [Ok (Value (VInt 20)); Ok (Value (VInt 30))].
Proof.
  split; [apply program_reachable; [constructor | vm_compute; reflexivity]|]. vm_compute. auto.
Qed.

Print Assumptions depth_enough.
Print Assumptions C43_set.
Print Assumptions C43_wrapone.
Print Assumptions C43_wrapmany.
Print Assumptions C43_unconsumed.
Print Assumptions C53_own_seed_refuted.
Print Assumptions C53_same_seed_partial.
Print Assumptions new_word_fresh.
Print Assumptions C44_construct_refuted.
Print Assumptions C44_construct_partial.

(** ** C60 *)

(** A wrapper function of two parameters, which WrapOne must refuse. *)
Definition two_params : wfun DP :=
  mkWfun DP (Some [mkParam "x" PosOrKw false; mkParam "y" PosOrKw false])
    (fun args _ => match args with [v; _] => Ok v | _ => Raise TypeError end)
    (fun args _ r => (match args with [v; _] => Ok v | _ => Raise TypeError end, r)).

(** A function that is refused should change nothing. *)
Definition C60_statement : Prop :=
  forall w id f e w',
    reachable DP 9 demo_str w ->
    set_function DP 9 demo_str id f w = (Raise e, w') ->
    fst (em_call DP 9 demo_str id w') = fst (em_call DP 9 demo_str id w).
Definition one_wrapper : list (command DP) :=
  [NewSequential DP true [VInt 10; VInt 20] false; NewWrapOne DP 0 identity (Some 1%nat)].
Theorem C60_rejected_refuted : ~ C60_statement.
Proof.
  intros H. pose (w := program one_wrapper empty). pose (m := set_function DP 9 demo_str 1 two_params).
  assert (R : reachable DP 9 demo_str w) by (apply program_reachable; [constructor | vm_compute; reflexivity]).
  assert (E : m w = (Raise TypeError, snd (m w))).
  { assert (Q : fst (m w) = Raise TypeError) by (vm_compute; reflexivity). destruct (m w); cbn in *; congruence. }
  specialize (H w 1%nat two_params TypeError _ R E).
  assert (N : fst (em_call DP 9 demo_str 1 (snd (m w))) <> fst (em_call DP 9 demo_str 1 w)) by (vm_compute; discriminate).
  exact (N H).
Qed.

Section Rejected.
  Context {P : prims} (fuel : nat) (str_of : val -> res (list Z)).
  Notation world := (World.world P).
  Notation get_em := (World.get_em P).

  (** Only parts of [i] have changed. *)
  Definition confined (i : nat) (w w' : world) : Prop :=
    (forall j, belongs P w i j <-> belongs P w' i j) /\
    (forall j, ~ belongs P w i j -> nth_error (w_em P w) j = nth_error (w_em P w') j) /\
    w_fd P w = w_fd P w'.
  Lemma confined_refl i w : confined i w w.
  Proof. repeat split; auto. Qed.
  Lemma confined_trans i a b c : confined i a b -> confined i b c -> confined i a c.
  Proof.
    intros (A1 & A2 & A3) (B1 & B2 & B3). split; [|split; [|congruence]].
    - intros j. rewrite A1. apply B1.
    - intros j N. rewrite A2 by exact N. apply B2. rewrite <- A1. exact N.
  Qed.
  Lemma shape_sym (w w' : world) : shape w w' -> shape w' w.
  Proof. intros (A1 & A2 & A3 & A4). repeat split; symmetry; auto. Qed.

  Lemma within_confined i k w w' : belongs P w i k -> within (belongs P w k) (fun _ => False) w w' -> confined i w w'.
  Proof.
    intros B (C & E & F & _). split; [|split].
    - intros j. split; apply belongs_shape; [|apply shape_sym]; apply wconf_shape; exact C.
    - intros j N. apply E. intros Bk. apply N. eapply belongs_trans; eauto.
    - apply list_eq_nth. intros n. apply (F n). auto.
  Qed.

  (** As long as all of [ks] are parts of [i]: *)
  Definition inside (ks : list nat) (i : nat) (w w' : world) : Prop :=
    (forall k, In k ks -> belongs P w i k) -> confined i w w'.
  Lemma inside_trans ks i a b c : inside ks i a b -> inside ks i b c -> inside ks i a c.
  Proof.
    intros H1 H2 B. pose proof (H1 B) as Q. eapply confined_trans; [exact Q|]. apply H2. intros k Hk. apply Q, B, Hk.
  Qed.
  Lemma inside_refl ks i w : inside ks i w w.
  Proof. intros _. apply confined_refl. Qed.

  Lemma op_inside A (o : op P) ks k i (m : M world A) (g : A -> answer) :
    run P fuel str_of o = (fun w => (a <~ m ;; ret (g a)) w) ->
    (forall w, allowed (fun _ => True) (belongs P w k) (fun _ => False) o) ->
    k = i \/ In k ks -> keeps (inside ks i) m.
  Proof.
    intros E Ho Hk w B. eapply (within_confined i k); [destruct Hk as [->|Hk]; [constructor | auto]|].
    pose proof (run_within fuel str_of _ _ w o (closed_tree w k) (Ho w)) as Q. rewrite E in Q.
    unfold mbind, ret in Q. destruct (m w) as [[] ?]; exact Q.
  Qed.
  Lemma call_inside ks k i : In k ks -> keeps (inside ks i) (em_call P fuel str_of k).
  Proof. intros H. eapply (op_inside _ (Emit P k) ks k); [reflexivity | intros w; constructor | auto]. Qed.
  Lemma call_n_inside ks k i n : In k ks -> keeps (inside ks i) (em_call_n P fuel str_of k n).
  Proof. intros H. eapply (op_inside _ (EmitN P k n) ks k); [reflexivity | intros w; constructor | auto]. Qed.
  Lemma reset_inside ks i : keeps (inside ks i) (em_reset P fuel i).
  Proof. eapply (op_inside _ (ResetEm P i) ks i i _ (fun _ => Done)); [reflexivity | intros w; constructor | auto]. Qed.

  Lemma put_confined i e e' w : get_em i w = Some e -> refs e = refs e' -> confined i w (put_em P i e' w).
  Proof.
    intros E R. pose proof (shape_put i e e' w E R) as Sh. split; [|split].
    - intros j. split; apply belongs_shape; [exact Sh | apply shape_sym; exact Sh].
    - intros j N. destruct (Nat.eq_dec j i) as [->|Q]; [destruct N; constructor|].
      symmetry. apply put_other. exact Q.
    - symmetry. apply fd_put.
  Qed.
  Lemma bound_inside s0 ks i f : urel (since (inside ks i) s0) (bound P i f) (bound P i f).
  Proof.
    split; [reflexivity|]. split; intros args kw; apply keeps_rel; try exact (inside_trans ks i).
    - intros w. apply inside_refl.
    - intros w. cbn [bound u_body_rng]. unfold run_rng, at_em. destruct (get_em i w) as [e|] eqn:E; [|apply inside_refl].
      destruct (node_of P e) as [nd|] eqn:N; [|apply inside_refl]. destruct (wf_rng P f args kw (n_rng P nd)) as [r rg]. cbn [snd].
      intros _. eapply put_confined; [exact E | symmetry; apply refs_with].
  Qed.
  Lemma install_inside ks i f : keeps (inside ks i) (install P i f).
  Proof.
    intros w _. unfold install, modify_em, at_em. destruct (get_em i w) as [e|] eqn:E; [|apply confined_refl]. cbn [snd].
    eapply put_confined; [exact E | symmetry; apply install_refs].
  Qed.

  Lemma sources_inside all s0 i (srcs : list (string * nat)) : (forall k, In k (map snd srcs) -> In k all) ->
    let l := map (fun ks => (fst ks, (em_call P fuel str_of (snd ks), em_call_n P fuel str_of (snd ks)))) srcs in
    Forall2 (srel (since (inside all i) s0)) l l.
  Proof.
    intros L. cbv zeta. induction srcs as [|[k j] t IH]; cbn [map]; constructor.
    - split; [reflexivity|]. cbn. split; [|intros n]; apply keeps_rel; try exact (inside_trans _ i);
        [apply call_inside | apply call_n_inside]; apply L; left; reflexivity.
    - apply IH. intros k' Hk. apply L. right; exact Hk.
  Qed.

  (** What is proved instead: whether the function is accepted or refused, nothing
      but the wrapper and the emitters it is made of is affected. *)
  Theorem C60_confined_partial i e f r w w' :
    get_em i w = Some e ->
    match e with EWrapOne _ _ _ _ | EWrapMany _ _ _ _ => True | _ => False end ->
    set_function P fuel str_of i f w = (r, w') ->
    (forall j, ~ belongs P w i j -> nth_error (w_em P w) j = nth_error (w_em P w') j) /\ w_fd P w = w_fd P w'.
  Proof.
    intros E He H.
    assert (K : keeps (inside (children P e) i) (fun w => match e with
       | EWrapOne _ src _ _ => wrapone_set (em_call P fuel str_of src) (fun _ => install P i f) (em_reset P fuel i) (bound P i f) w
       | EWrapMany _ srcs _ _ => wrapmany_set (map (fun ks => (fst ks, (em_call P fuel str_of (snd ks), em_call_n P fuel str_of (snd ks)))) srcs)
            (fun _ => install P i f) (em_reset P fuel i) (bound P i f) w
       | _ => (r, w) end)).
    { destruct e; try contradiction He; (apply rel_keeps; [exact (inside_refl _ i)|]); intros s0.
      - apply rel_wrapone_set; [apply keeps_rel; [exact (inside_trans _ i) | apply call_inside; left; reflexivity] | | | apply bound_inside].
        + intros; apply keeps_rel; [exact (inside_trans _ i) | apply install_inside].
        + apply keeps_rel; [exact (inside_trans _ i) | apply reset_inside].
      - apply rel_wrapmany_set; [| | | apply bound_inside].
        + apply sources_inside. auto.
        + intros; apply keeps_rel; [exact (inside_trans _ i) | apply install_inside].
        + apply keeps_rel; [exact (inside_trans _ i) | apply reset_inside]. }
    specialize (K w). unfold set_function, at_em in H. rewrite E in H.
    assert (B : forall k, In k (children P e) -> belongs P w i k) by (intros k Hk; econstructor; [exact E | exact Hk | constructor]).
    destruct e; try contradiction He; cbv beta in K; rewrite H in K; apply (K B).
  Qed.
End Rejected.

(** The refused function does reach the wrapper, and nothing else. *)
Example C60_case :
  let w := program one_wrapper empty in
  let m := set_function DP 9 demo_str 1 two_params in
  fst (m w) = Raise TypeError /\
  fst (em_call DP 9 demo_str 1 w) = Ok (VInt 10) /\ fst (em_call DP 9 demo_str 1 (snd (m w))) = Raise TypeError.
Proof. vm_compute. auto. Qed.

Print Assumptions C60_rejected_refuted.
Print Assumptions C60_confined_partial.
