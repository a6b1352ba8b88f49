(** * Seeding alone: property C73. *)
From Coq Require Import String.
From Verif Require Import Base Prims Values MathModel ChoiceModel FixedModel GroupModel
  SigModel SigSpec SigProofs WrapModel WrapSpec TextModel FieldModel World Rel WorldProofs Agree WorldSpec
  WorldReset WorldSeed Histories WorldBuild BuildProofs Demo WorldDemo Prop_World Prop_Construct.
Open Scope list_scope.
Open Scope Z_scope.

(** ** Specification *)

Section Spec.
  Context (P : prims).
  (** The emitters with a position in a sequence: they have no rng, and no seed. *)
  Definition positionless (e : emitter P) : Prop :=
    match e with EIter _ _ | ESeq _ _ _ | EUser _ _ _ _ => False | _ => True end.
  Definition all_positionless (w : world P) (i : nat) : Prop :=
    forall j e, belongs P w i j -> get_em P j w = Some e -> positionless e.
  Definition fields_positionless (w : world P) (fs : list (string * nat)) : Prop :=
    forall f j e, In f (map snd fs) -> uses P w f j -> get_em P j w = Some e -> positionless e.

  (** A field's [rng_seed] *)
  Definition field_seed (f : nat) (w : world P) : option (option (pSeed P)) :=
    option_map (fun x => n_seed P (f_nd P x)) (get_fd P f w).
  (** The field shows the same in both states. *)
  Definition same_field (f : nat) (w1 w2 : world P) : Prop :=
    previous P f w1 = previous P f w2 /\ field_seed f w1 = field_seed f w2.
End Spec.

(** ** Proofs *)

Section Seeding.
  Context {P : prims} (fuel : nat) (str_of : val -> res (list Z)).
  Hypothesis score_quiet : forall u w, k_score P u w <> Raise AttributeError.
  Notation world := (World.world P).
  Notation get_em := (World.get_em P).
  Notation get_fd := (World.get_fd P).

  Lemma positionless_conf e e' : conf e e' -> positionless P e -> positionless P e'.
  Proof. destruct e, e'; cbn; auto; contradiction. Qed.
  Lemma belongs_back w w' i j : wconf w w' -> belongs P w' i j -> belongs P w i j.
  Proof. intros C. apply belongs_wconf. apply wconf_sym. exact C. Qed.

  Lemma get_back w w' j e : wconf w w' -> get_em j w' = Some e -> exists e0, get_em j w = Some e0 /\ conf e0 e.
  Proof. intros C E. pose proof (proj1 C j) as Q. rewrite E in Q. destruct (get_em j w) as [e0|]; [eauto | contradiction]. Qed.

  Lemma seeded_fresh s w j : seeded_at fuel s w j -> (forall e, get_em j w = Some e -> positionless P e) -> fresh_at P fuel s w j.
  Proof. intros H N e E. specialize (H e E). specialize (N e E). destruct e; auto; contradiction. Qed.

  Lemma history_conf h : forall w : world, wconf w (after P fuel str_of h w).
  Proof.
    induction h as [|o t IH]; intros w; unfold after; cbn; [apply wconf_refl|].
    pose proof (run_conf fuel str_of w o) as C. destruct (run P fuel str_of o w) as [r w1]. cbn in C.
    specialize (IH w1). unfold after in IH. destruct (history P fuel str_of t w1). cbn in *. eapply wconf_trans; eauto.
  Qed.

  (** Two states in which all parts of an emitter without positions are fresh. *)
  Lemma fresh_alike s i (v1 v2 : world) h : wconf v1 v2 -> all_positionless P v1 i ->
    (forall j, belongs P v1 i j -> seeded_at fuel (Some s) v1 j) ->
    (forall j, belongs P v1 i j -> seeded_at fuel (Some s) v2 j) ->
    (forall j e f, belongs P v1 i j -> get_em j v1 = Some e -> In f (source_of P e) -> same_field P f v1 v2) ->
    Forall (about_emitter P v1 i) h ->
    fst (history P fuel str_of h v1) = fst (history P fuel str_of h v2).
  Proof.
    intros C Hp F1 F2 Hf Hh.
    assert (G1 : forall j, belongs P v1 i j -> fresh_at P fuel (Some s) v1 j).
    { intros j B. apply seeded_fresh; [auto|]. intros e E. exact (Hp j e B E). }
    assert (G2 : forall j, belongs P v1 i j -> fresh_at P fuel (Some s) v2 j).
    { intros j B. apply seeded_fresh; [auto|]. intros e E. destruct (get_back _ _ _ _ C E) as (e0 & E0 & C0).
      eapply positionless_conf; [exact C0 | exact (Hp j e0 B E0)]. }
    apply (history_agree fuel str_of false (fun s => s <> None) (belongs P v1 i)
      (fun f => exists j e, belongs P v1 i j /\ get_em j v1 = Some e /\ In f (source_of P e)) (fun _ => False) v1 v2 h).
    - eapply Forall_impl; [|exact Hh]. intros o. destruct o; cbn; auto; contradiction.
    - constructor; auto using within_refl; try contradiction.
      + intros j B. pose proof (proj1 C j) as Q. destruct (get_em j v1) as [e1|] eqn:E1, (get_em j v2) as [e2|] eqn:E2; try contradiction; [|exact I].
        cbn in Q |- *. apply (fresh_same fuel s); [exact Q | apply (G1 j B); exact E1 | apply (G2 j B); exact E2|].
        specialize (Hp j e1 B E1). destruct e1; auto; contradiction.
      + intros j e k B E Hk. eapply belongs_trans; [exact B|]. econstructor; [exact E | exact Hk | constructor].
      + intros j e f B E Hin. exists j, e. auto.
      + intros j e nd B E En. rewrite (fresh_seed fuel _ _ _ (G1 j B e E) En). discriminate.
      + intros f (j & e & B & E & Hin). destruct (Hf j e f B E Hin) as [V S]. pose proof (proj2 C f) as Q.
        unfold previous in V. unfold field_seed in S.
        destruct (get_fd f v1) as [x1|], (get_fd f v2) as [x2|]; try contradiction; [|exact I].
        cbn in *. split; [exact Q|]. split; [exact V | congruence].
      + intros f _. apply multi_wconf. exact C.
  Qed.

  (** ** C73 *)

  (** What em.seed(s) leaves behind: every part, at any depth, that has an rng
      stores the seed and is as a reset with that seed would leave it. *)
  Theorem C73_reaches i s (w w' : world) : em_seed P fuel i s w = (Ok tt, w') ->
    forall j e, belongs P w i j -> get_em j w' = Some e -> positionless P e -> fresh P fuel s e.
  Proof.
    intros H j e B E N. destruct (eseed_step fuel score_quiet s _ _ _ _ H) as [_ Q].
    specialize (Q j B e E). destruct e; auto; contradiction.
  Qed.

  (** An emitter is seeded at two points of its life, after any histories; from
      then on it does the same, if it has no parts with a position, and the
      fields it reads show the same. *)
  Theorem C73_emitter w i s h1 h2 u1 u2 later : all_positionless P w i ->
    em_seed P fuel i (Some s) (after P fuel str_of h1 w) = (Ok tt, u1) ->
    em_seed P fuel i (Some s) (after P fuel str_of h2 w) = (Ok tt, u2) ->
    (forall j e f, belongs P w i j -> get_em j w = Some e -> In f (source_of P e) ->
       same_field P f (after P fuel str_of h1 w) (after P fuel str_of h2 w)) ->
    Forall (about_emitter P w i) later ->
    fst (history P fuel str_of later u1) = fst (history P fuel str_of later u2).
  Proof.
    intros Hp H1 H2 Hf Hh.
    destruct (eseed_step fuel score_quiet (Some s) _ _ _ _ H1) as [(C1 & D1 & _) Q1].
    destruct (eseed_step fuel score_quiet (Some s) _ _ _ _ H2) as [(C2 & D2 & _) Q2].
    pose proof (history_conf h1 w) as W1. pose proof (history_conf h2 w) as W2.
    assert (X1 : wconf w u1) by (eapply wconf_trans; [exact W1 | exact C1]).
    assert (X2 : wconf w u2) by (eapply wconf_trans; [exact W2 | exact C2]).
    apply (fresh_alike s i).
    - eapply wconf_trans; [apply wconf_sym; exact X1 | exact X2].
    - intros j e B E. destruct (get_back _ _ _ _ X1 E) as (e0 & E0 & C0). eapply positionless_conf; [exact C0|].
      apply (Hp j e0); [eapply belongs_back; [exact X1 | exact B] | exact E0].
    - intros j B. apply Q1. eapply belongs_back; [exact C1 | exact B].
    - intros j B. apply Q2. eapply belongs_wconf; [exact W2|]. eapply belongs_back; [exact X1 | exact B].
    - intros j e f B E Hin. destruct (get_back _ _ _ _ X1 E) as (e0 & E0 & C0).
      destruct (Hf j e0 f) as [V S]; [eapply belongs_back; [exact X1 | exact B] | exact E0 | rewrite (conf_source _ _ C0); exact Hin |].
      unfold same_field, previous, field_seed, World.get_fd in *. rewrite D1, D2. auto.
    - eapply Forall_impl; [|exact Hh]. intros o. destruct o; cbn; auto; try (apply belongs_wconf; exact X1).
      + intros [A B]. split; [eapply belongs_wconf; [exact X1 | exact A] | exact B].
      + intros [A B]. split; [eapply belongs_wconf; [exact X1 | exact A] | exact B].
  Qed.

  (** For such an emitter em.seed(s) does what em.rng_seed = s; em.reset() does. *)
  Theorem C73_as_reset w i s u1 u2 v2 later : all_positionless P w i ->
    em_seed P fuel i (Some s) w = (Ok tt, u1) ->
    set_rng_seed P (Some s) i w = (Ok tt, u2) -> em_reset P fuel i u2 = (Ok tt, v2) ->
    Forall (about_emitter P w i) later ->
    fst (history P fuel str_of later u1) = fst (history P fuel str_of later v2).
  Proof.
    intros Hp H1 H2 H3 Hh.
    destruct (eseed_step fuel score_quiet (Some s) _ _ _ _ H1) as [(C1 & D1 & _) Q1].
    destruct (set_rng_seed_step fuel (Some s) _ _ _ H2) as [(C2 & D2 & _) S2].
    destruct (ereset_step fuel score_quiet (Some s) _ _ _ _ S2 H3) as [(C3 & D3 & _) Q3].
    apply (fresh_alike s i).
    - eapply wconf_trans; [apply wconf_sym; exact C1 | eapply wconf_trans; [exact C2 | exact C3]].
    - intros j e B E. destruct (get_back _ _ _ _ C1 E) as (e0 & E0 & C0). eapply positionless_conf; [exact C0|].
      apply (Hp j e0); [eapply belongs_back; [exact C1 | exact B] | exact E0].
    - intros j B. apply Q1. eapply belongs_back; [exact C1 | exact B].
    - intros j B e E. assert (F : fresh P fuel (Some s) e); [|destruct e; auto].
      eapply (Q3 j); [|exact E]. eapply belongs_wconf; [exact C2|]. eapply belongs_back; [exact C1 | exact B].
    - intros j e f B E Hin. unfold same_field, previous, field_seed, World.get_fd. rewrite D1, D3, D2. auto.
    - eapply Forall_impl; [|exact Hh]. intros o. destruct o; cbn; auto; try (apply belongs_wconf; exact C1).
      + intros [A B]. split; [eapply belongs_wconf; [exact C1 | exact A] | exact B].
      + intros [A B]. split; [eapply belongs_wconf; [exact C1 | exact A] | exact B].
  Qed.

  (** A schema is seeded (and not reset) at two points of its life; from then on
      it does the same, if no field uses an emitter with a position and the
      fields that others read have the same values at these points. *)
  Theorem C73_schema w fs s h1 h2 u1 u2 later : fields_positionless P w fs ->
    self_contained P w fs ->
    sc_seed_fields P fuel fs (Some s) (after P fuel str_of h1 w) = (Ok tt, u1) ->
    sc_seed_fields P fuel fs (Some s) (after P fuel str_of h2 w) = (Ok tt, u2) ->
    (forall f, In f (map snd fs) -> previous P f (after P fuel str_of h1 w) = previous P f (after P fuel str_of h2 w)) ->
    Forall (about_schema P w fs) later ->
    fst (history P fuel str_of later u1) = fst (history P fuel str_of later u2).
  Proof.
    intros Hp Hc H1 H2 Hv Hh.
    destruct (sc_seed_step fuel score_quiet (Some s) fs _ _ H1) as ((C1 & _) & V1 & Q1).
    destruct (sc_seed_step fuel score_quiet (Some s) fs _ _ H2) as ((C2 & _) & V2 & Q2).
    pose proof (history_conf h1 w) as W1. pose proof (history_conf h2 w) as W2.
    assert (X1 : wconf w u1) by (eapply wconf_trans; [exact W1 | exact C1]).
    assert (X2 : wconf w u2) by (eapply wconf_trans; [exact W2 | exact C2]).
    assert (C12 : wconf u1 u2) by (eapply wconf_trans; [apply wconf_sym; exact X1 | exact X2]).
    assert (G : forall v0 v, wconf w v0 -> wconf w v ->
      (forall f, In f (map snd fs) -> fseed (Some s) v f /\ forall j, uses P v0 f j -> seeded_at fuel (Some s) v j) ->
      forall f j, In f (map snd fs) -> uses P w f j -> fresh_at P fuel (Some s) v j).
    { intros v0 v A B Q f j Hf U. apply seeded_fresh.
      - apply (Q f Hf). eapply uses_wconf; [exact A | exact U].
      - intros e E. destruct (get_back _ _ _ _ B E) as (e0 & E0 & C0).
        eapply positionless_conf; [exact C0 | exact (Hp f j e0 Hf U E0)]. }
    pose proof (G _ _ W1 X1 Q1) as G1. pose proof (G _ _ W2 X2 Q2) as G2. clear G.
    apply (history_agree fuel str_of false (fun s => s <> None) (fun j => exists f, In f (map snd fs) /\ uses P w f j)
      (fun f => In f (map snd fs)) (fun f => In f (map snd fs)) u1 u2 later).
    - eapply Forall_impl; [|exact Hh]. intros o. destruct o; cbn; auto.
    - constructor; auto using within_refl.
      + intros j (f & Hf & U). pose proof (proj1 C12 j) as Q.
        destruct (get_em j u1) as [e1|] eqn:E1, (get_em j u2) as [e2|] eqn:E2; try contradiction; [|exact I].
        cbn in Q |- *. apply (fresh_same fuel s); [exact Q | apply (G1 f j Hf U); exact E1 | apply (G2 f j Hf U); exact E2|].
        destruct (get_back _ _ _ _ X1 E1) as (e0 & E0 & C0). specialize (Hp f j e0 Hf U E0).
        destruct e0, e1; try contradiction; auto.
      + intros j e k (f & Hf & U) E Hk. exists f. split; [exact Hf|]. destruct (get_back _ _ _ _ X1 E) as (e0 & E0 & C0).
        eapply uses_part; [exact U | exact E0 | rewrite (conf_children _ _ C0); exact Hk].
      + intros j e g (f & Hf & U) E Hg. destruct (get_back _ _ _ _ X1 E) as (e0 & E0 & C0). apply (Hc f g Hf).
        exists j, e0. split; [exact U|]. split; [exact E0 | rewrite (conf_source _ _ C0); exact Hg].
      + intros j e nd (f & Hf & U) E En. rewrite (fresh_seed fuel _ _ _ (G1 f j Hf U e E) En). discriminate.
      + intros Q; congruence.
      + intros f Hf. pose proof (proj2 C12 f) as Q. pose proof (Hv f Hf) as V. rewrite (V1 f), (V2 f) in V. unfold previous in V.
        destruct (get_fd f u1) as [x1|] eqn:E1, (get_fd f u2) as [x2|] eqn:E2; try contradiction; [|exact I].
        split; [exact Q|]. rewrite (proj1 (Q1 f Hf) x1 E1), (proj1 (Q2 f Hf) x2 E2). auto.
      + intros f _. apply multi_wconf; exact C12.
      + intros f x p Hf E Hin. exists f. split; [exact Hf|]. pose proof (proj2 X1 f) as Q. rewrite E in Q.
        destruct (get_fd f w) as [x0|] eqn:E0; [|contradiction]. destruct Q as (_ & _ & R1 & R2 & R3).
        exists x0, p. split; [exact E0|]. split; [|constructor]. unfold parts in *. rewrite R1, R2, R3. exact Hin.
      + intros f x Hf E. rewrite (proj1 (Q1 f Hf) x E). discriminate.
  Qed.
End Seeding.

(** ** Cases *)

(** The word emitter of the concrete schema, and the schema without 'serial'. *)
Definition three_fields : list (string * nat) := [("id", 0%nat); ("copy", 1%nat); ("word", 2%nat)]%string.
Definition three_parts : list nat := [0; 1; 2; 3; 4; 6; 7; 8; 9; 10; 11]%nat.
Definition no_position_in (l : list nat) (w : world DP) : bool :=
  forallb (fun j => match get_em DP j w with Some (EIter _ _) | Some (ESeq _ _ _) | Some (EUser _ _ _ _) => false | _ => true end) l.

Example word_positionless : all_positionless DP demo_world 3.
Proof.
  intros j e B E.
  assert (Hj : In j three_parts).
  { apply (belongs_in demo_world three_parts 3 j); [vm_compute; reflexivity | exact B | cbn; auto 6]. }
  assert (H : no_position_in three_parts demo_world = true) by (vm_compute; reflexivity).
  unfold no_position_in in H. rewrite forallb_forall in H. specialize (H j Hj). rewrite E in H. destruct e; cbn; auto; discriminate.
Qed.
Example three_positionless : fields_positionless DP demo_world three_fields.
Proof.
  intros f j e Hf U E.
  assert (Hj : In j three_parts).
  { apply (uses_in demo_world three_parts f j); [vm_compute; reflexivity | | exact U].
    cbn in Hf. destruct Hf as [<-|[<-|[<-|[]]]]; vm_compute; reflexivity. }
  assert (H : no_position_in three_parts demo_world = true) by (vm_compute; reflexivity).
  unfold no_position_in in H. rewrite forallb_forall in H. specialize (H j Hj). rewrite E in H. destruct e; cbn; auto; discriminate.
Qed.
Example three_self_contained : self_contained DP demo_world three_fields.
Proof.
  intros f g Hf R. apply (reads_in demo_world three_parts (map snd three_fields) f g); [vm_compute; reflexivity | | vm_compute; reflexivity | exact R].
  cbn in Hf. destruct Hf as [<-|[<-|[<-|[]]]]; vm_compute; reflexivity.
Qed.

Definition seed_word (h : list (op DP)) : M (world DP) unit := fun w => em_seed DP 9 3 (Some 3%nat) (after DP 9 demo_str h w).
Definition used_word : list (op DP) := [EmitN DP 3 4; Emit DP 1; SeedEm DP 2 (Some 8%nat); Emit DP 3].
Definition more_words : list (op DP) := [Emit DP 3; EmitN DP 3 2; ResetEm DP 3; Emit DP 3].
Example C73_case_emitter :
  fst (seed_word [] demo_world) = Ok tt /\ fst (seed_word used_word demo_world) = Ok tt /\
  Forall (about_emitter DP demo_world 3) more_words /\
  fst (history DP 9 demo_str more_words (snd (seed_word used_word demo_world))) =
    [Ok (Value (VStr [98; 99; 97])); Ok (Values [VStr [99; 97; 98]; VStr [97; 98]]); Ok Done; Ok (Value (VStr [98; 99; 97]))].
Proof.
  split; [vm_compute; reflexivity|]. split; [vm_compute; reflexivity|]. split; [|vm_compute; reflexivity].
  repeat (apply Forall_cons; [apply belongs_self|]). apply Forall_nil.
Qed.

Definition seed_three (h : list (op DP)) : M (world DP) unit := fun w =>
  sc_seed_fields DP 9 three_fields (Some 3%nat) (after DP 9 demo_str h w).
Definition used_three : list (op DP) := [Doc DP three_fields; Doc DP three_fields; ResetFields DP three_fields; EmitN DP 3 4; Emit DP 0].
Definition two_documents : list (op DP) := [Doc DP three_fields; Doc DP three_fields].
Example C73_case_schema :
  fst (seed_three [] demo_world) = Ok tt /\ fst (seed_three used_three demo_world) = Ok tt /\
  (forall f, In f (map snd three_fields) -> previous DP f demo_world = previous DP f (after DP 9 demo_str used_three demo_world)) /\
  Forall (about_schema DP demo_world three_fields) two_documents /\
  fst (history DP 9 demo_str two_documents (snd (seed_three used_three demo_world))) =
    [Ok (Document [("id", VInt 1); ("copy", VInt 1); ("word", VNone)]);
     Ok (Document [("id", VInt 2); ("copy", VInt 2); ("word", VStr [98; 99; 97])])]%string.
Proof.
  split; [vm_compute; reflexivity|]. split; [vm_compute; reflexivity|]. split; [|split; [|vm_compute; reflexivity]].
  - intros f Hf. cbn in Hf. destruct Hf as [<-|[<-|[<-|[]]]]; vm_compute; reflexivity.
  - repeat (apply Forall_cons; [intros f Hf; exact Hf|]). apply Forall_nil.
Qed.

(** ** The conditions matter *)

(** Seeding alone does not replay a schema with a Sequential: *)
Definition C73_positions_statement : Prop :=
  forall (w : world DP) fs s h1 h2 u1 u2 later,
    self_contained DP w fs ->
    sc_seed_fields DP 9 fs (Some s) (after DP 9 demo_str h1 w) = (Ok tt, u1) ->
    sc_seed_fields DP 9 fs (Some s) (after DP 9 demo_str h2 w) = (Ok tt, u2) ->
    (forall f, In f (map snd fs) -> previous DP f (after DP 9 demo_str h1 w) = previous DP f (after DP 9 demo_str h2 w)) ->
    Forall (about_schema DP w fs) later ->
    fst (history DP 9 demo_str later u1) = fst (history DP 9 demo_str later u2).
Definition seed_serial (h : list (op DP)) : M (world DP) unit := fun w =>
  sc_seed_fields DP 9 demo_fields (Some 3%nat) (after DP 9 demo_str h w).
Lemma seed_serial_ok h : fst (seed_serial h demo_world) = Ok tt ->
  sc_seed_fields DP 9 demo_fields (Some 3%nat) (after DP 9 demo_str h demo_world) = (Ok tt, snd (seed_serial h demo_world)).
Proof. unfold seed_serial. apply ran. Qed.
Theorem C73_positions_refuted : ~ C73_positions_statement.
Proof.
  intros H.
  assert (X1 : fst (history DP 9 demo_str [Call DP 3] (snd (seed_serial [] demo_world))) = [Ok (Value (VInt 10))]) by (vm_compute; reflexivity).
  assert (X2 : fst (history DP 9 demo_str [Call DP 3] (snd (seed_serial [Emit DP 5] demo_world))) = [Ok (Value (VInt 20))]) by (vm_compute; reflexivity).
  specialize (H demo_world demo_fields 3%nat [] [Emit DP 5] (snd (seed_serial [] demo_world)) (snd (seed_serial [Emit DP 5] demo_world))
    [Call DP 3]).
  assert (Q : fst (history DP 9 demo_str [Call DP 3] (snd (seed_serial [] demo_world))) =
              fst (history DP 9 demo_str [Call DP 3] (snd (seed_serial [Emit DP 5] demo_world)))).
  { apply H; clear H.
    - exact demo_self_contained.
    - apply seed_serial_ok. vm_compute; reflexivity.
    - apply seed_serial_ok. vm_compute; reflexivity.
    - intros f Hf. cbn in Hf. destruct Hf as [<-|[<-|[<-|[<-|[]]]]]; vm_compute; reflexivity.
    - repeat (apply Forall_cons; [cbn; auto 6|]). apply Forall_nil. }
  rewrite X1, X2 in Q. discriminate.
Qed.

(** Nor one in which a field reads another that is called after it: *)
Definition C73_values_statement : Prop :=
  forall (w : world DP) fs s h1 h2 u1 u2 later,
    fields_positionless DP w fs -> self_contained DP w fs ->
    sc_seed_fields DP 9 fs (Some s) (after DP 9 demo_str h1 w) = (Ok tt, u1) ->
    sc_seed_fields DP 9 fs (Some s) (after DP 9 demo_str h2 w) = (Ok tt, u2) ->
    Forall (about_schema DP w fs) later ->
    fst (history DP 9 demo_str later u1) = fst (history DP 9 demo_str later u2).
Lemma seed_three_ok h : fst (seed_three h demo_world) = Ok tt ->
  sc_seed_fields DP 9 three_fields (Some 3%nat) (after DP 9 demo_str h demo_world) = (Ok tt, snd (seed_three h demo_world)).
Proof. unfold seed_three. apply ran. Qed.
Theorem C73_values_refuted : ~ C73_values_statement.
Proof.
  intros H.
  assert (X1 : fst (history DP 9 demo_str [Call DP 1] (snd (seed_three [] demo_world))) = [Ok (Value VNone)]) by (vm_compute; reflexivity).
  assert (X2 : fst (history DP 9 demo_str [Call DP 1] (snd (seed_three [Call DP 0] demo_world))) = [Ok (Value (VInt 3))]) by (vm_compute; reflexivity).
  specialize (H demo_world three_fields 3%nat [] [Call DP 0] (snd (seed_three [] demo_world)) (snd (seed_three [Call DP 0] demo_world))
    [Call DP 1]).
  assert (Q : fst (history DP 9 demo_str [Call DP 1] (snd (seed_three [] demo_world))) =
              fst (history DP 9 demo_str [Call DP 1] (snd (seed_three [Call DP 0] demo_world)))).
  { apply H; clear H.
    - exact three_positionless.
    - exact three_self_contained.
    - apply seed_three_ok. vm_compute; reflexivity.
    - apply seed_three_ok. vm_compute; reflexivity.
    - repeat (apply Forall_cons; [cbn; auto 6|]). apply Forall_nil. }
  rewrite X1, X2 in Q. discriminate.
Qed.

Print Assumptions C73_reaches.
Print Assumptions C73_emitter.
Print Assumptions C73_as_reset.
Print Assumptions C73_schema.
Print Assumptions C73_positions_refuted.
Print Assumptions C73_values_refuted.
