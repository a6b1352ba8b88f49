(** * C89: emitter classes written by users. *)
From Coq Require Import String.
From Verif Require Import Base Prims Values MathModel ChoiceModel FixedModel GroupModel
  SigModel SigProofs WrapModel TextModel FieldModel World Rel WorldProofs Agree CountSpec EndSpec
  WorldSpec WorldReset Histories WorldBuild BuildProofs QcNum Demo WorldDemo Prop_World Prop_Objects Prop_Runs UserSpec.
Open Scope list_scope.
Open Scope Z_scope.

Section C89.
  Context {P : prims} (fuel : nat) (str_of : val -> res (list Z)).
  Notation world := (World.world P).
  Notation get_em := (World.get_em P).
  Notation get_fd := (World.get_fd P).
  Notation history := (WorldSpec.history P fuel str_of).
  Notation after := (WorldSpec.after P fuel str_of).
  Notation on_its_own := (UserSpec.on_its_own P).
  Notation user_at := (UserSpec.user_at P).
  Notation others_same := (UserSpec.others_same P).

  Lemma others_refl id w : others_same id w w.
  Proof. split; reflexivity. Qed.
  Lemma others_trans id w1 w2 w3 : others_same id w1 w2 -> others_same id w2 w3 -> others_same id w1 w3.
  Proof. intros [A B] [C D]. split; intros; [rewrite C, A by assumption | rewrite D, B]; reflexivity. Qed.
  Lemma others_put id e w : others_same id w (put_em P id e w).
  Proof. split; intros; [apply get_put_other; assumption | apply get_fd_put]. Qed.

  Definition start (nd : option (node P)) : pR P := match nd with Some nd => n_rng P nd | None => r_fresh P 0 end.

  Lemma user_runs A id c own nd (m : uclass P -> M (val * pR P) A) w : get_em id w = Some (EUser P c own nd) ->
    run_user P id m w =
      let '(r, (own, g)) := m c (own, start nd) in
      (r, put_em P id (EUser P c own (option_map (fun nd => mkNode P (n_seed P nd) g) nd)) w).
  Proof. intros E. unfold run_user, at_em. rewrite E. reflexivity. Qed.

  Lemma emits_user id c own nd w : get_em id w = Some (EUser P c own nd) ->
    em_emit P fuel str_of id w = run_user P id (uc_emit P) w /\
    forall n, em_emit_many P fuel str_of id n w = run_user P id (fun c => uc_emit_many P c n) w.
  Proof.
    intros E. split; [|intros n].
    - unfold em_emit. cbn [emits fst]. unfold emit_body, at_em at 1. rewrite E. reflexivity.
    - unfold em_emit_many. cbn [emits snd]. unfold emit_many_body, at_em at 1. rewrite E. reflexivity.
  Qed.

  Lemma one_ask id c own nd q w : get_em id w = Some (EUser P c own nd) ->
    run P fuel str_of (asked P id q) w =
      let '(r, (own, g)) := answers P c q (own, start nd) in
      (r, put_em P id (EUser P c own (option_map (fun nd => mkNode P (n_seed P nd) g) nd)) w).
  Proof.
    intros E. destruct (emits_user id c own nd w E) as [E1 E2].
    assert (X : forall k : val -> answer,
      (v <~ em_emit P fuel str_of id ;; ret (k v)) w =
      let '(r, (own, g)) := match uc_emit P c (own, start nd) with (Ok v, s) => (Ok (k v), s) | (Raise e, s) => (Raise e, s) | (Diverge, s) => (Diverge, s) end in
      (r, put_em P id (EUser P c own (option_map (fun nd => mkNode P (n_seed P nd) g) nd)) w)).
    { intros k. unfold mbind. rewrite E1, (user_runs _ id c own nd _ w E).
      destruct (uc_emit P c (own, start nd)) as [[v|e|] [own' g]]; reflexivity. }
    destruct q as [|n]; cbn [asked run answers].
    - apply X.
    - unfold em_call_n, call_number. destruct (n =? 1).
      + rewrite <- X. unfold mbind. destruct (em_emit P fuel str_of id w) as [[v|e|] u]; reflexivity.
      + unfold mbind. rewrite E2, (user_runs _ id c own nd _ w E).
        destruct (uc_emit_many P c n (own, start nd)) as [[v|e|] [own' g]]; reflexivity.
  Qed.

  (** Asking an object of a class with RandomMixin for values, any number of times:
      the outcomes are those of its methods run one after the other from its own
      attributes and generator, they leave it in the state these methods leave,
      and no other object is changed. *)
  Theorem C89_calls w id c own g qs : user_at w id c own (Some g) ->
    let '(outcomes, (own', g')) := on_its_own c qs (own, g) in
    let h := map (asked P id) qs in
    fst (history h w) = outcomes /\ user_at (after h w) id c own' (Some g') /\ others_same id w (after h w).
  Proof.
    unfold WorldSpec.after. revert w own g. induction qs as [|q qs IH]; intros w own g (nd & E & Eg).
    - cbn. split; [reflexivity|]. split; [exists nd; auto | apply others_refl].
    - destruct nd as [nd|]; [|discriminate]. injection Eg as <-. cbn [UserSpec.on_its_own map WorldSpec.history].
      pose proof (one_ask id c own (Some nd) q w E) as Q. cbn [start] in Q.
      destruct (answers P c q (own, n_rng P nd)) as [r [own1 g1]]. rewrite Q. cbn [option_map].
      set (e1 := EUser P c own1 (Some (mkNode P (n_seed P nd) g1))).
      specialize (IH (put_em P id e1 w) own1 g1).
      destruct (UserSpec.on_its_own P c qs (own1, g1)) as [rs [own' g']]. cbn zeta in IH |- *.
      destruct IH as (I1 & I2 & I3).
      { exists (Some (mkNode P (n_seed P nd) g1)). split; [eapply get_put_same; eauto | reflexivity]. }
      destruct (WorldSpec.history P fuel str_of (map (asked P id) qs) (put_em P id e1 w)) as [rs2 w2].
      cbn [fst snd] in *. subst rs2. split; [reflexivity|]. split; [exact I2|].
      eapply others_trans; [apply others_put | exact I3].
  Qed.

  (** A class without RandomMixin: the same, and no generator matters. *)
  Theorem C89_calls_plain w id c own g qs : no_generator P c -> user_at w id c own None ->
    let '(outcomes, (own', _)) := on_its_own c qs (own, g) in
    let h := map (asked P id) qs in
    fst (history h w) = outcomes /\ user_at (after h w) id c own' None /\ others_same id w (after h w).
  Proof.
    intros Ng. unfold WorldSpec.after. revert w own g. induction qs as [|q qs IH]; intros w own g (nd & E & Eg).
    - cbn. split; [reflexivity|]. split; [exists nd; auto | apply others_refl].
    - destruct nd as [nd|]; [discriminate|]. cbn [UserSpec.on_its_own map WorldSpec.history].
      pose proof (one_ask id c own None q w E) as Q. cbn [start] in Q.
      assert (A : fst (answers P c q (own, g)) = fst (answers P c q (own, r_fresh P 0)) /\
        fst (snd (answers P c q (own, g))) = fst (snd (answers P c q (own, r_fresh P 0)))).
      { destruct (Ng g own) as (N1 & N2 & N3). destruct q as [|n]; cbn [answers].
        - destruct (uc_emit P c (own, g)) as [[]?], (uc_emit P c (own, r_fresh P 0)) as [[]?]; cbn in *; split; congruence.
        - destruct (N3 n) as [M1 M2]. destruct (n =? 1).
          + destruct (uc_emit P c (own, g)) as [[]?], (uc_emit P c (own, r_fresh P 0)) as [[]?]; cbn in *; split; congruence.
          + destruct (uc_emit_many P c n (own, g)) as [[]?], (uc_emit_many P c n (own, r_fresh P 0)) as [[]?]; cbn in *; split; congruence. }
      destruct (answers P c q (own, r_fresh P 0)) as [r [own1 g1]].
      destruct (answers P c q (own, g)) as [r' [own1' g1']]. cbn [fst snd] in A. destruct A as [-> ->].
      rewrite Q. cbn [option_map].
      specialize (IH (put_em P id (EUser P c own1 None) w) own1 g1').
      destruct (UserSpec.on_its_own P c qs (own1, g1')) as [rs [own' g']]. cbn zeta in IH |- *.
      destruct IH as (I1 & I2 & I3).
      { exists None. split; [eapply get_put_same; eauto | reflexivity]. }
      destruct (WorldSpec.history P fuel str_of (map (asked P id) qs) (put_em P id (EUser P c own1 None) w)) as [rs2 w2].
      cbn [fst snd] in *. subst rs2. split; [reflexivity|]. split; [exact I2|].
      eapply others_trans; [apply others_put | exact I3].
  Qed.

  (** reset(): the class's own reset, and with RandomMixin a new generator made
      from the seed. *)
  Lemma reset_user id c own nd w : get_em id w = Some (EUser P c own nd) ->
    exists v, em_reset P fuel id w = (Ok tt, v) /\ others_same id w v /\
      get_em id v = Some (EUser P c (uc_reset P c own)
        (option_map (fun nd => mkNode P (n_seed P nd) (rng_for P (n_seed P nd) (em_entropy id (ent_of P id w)))) nd)).
  Proof.
    intros E. unfold em_reset. cbn [ereset]. unfold at_em at 1. rewrite E. destruct nd as [nd|]; cbn [option_map].
    - unfold mbind at 1. unfold reset_rng, modify_em, mbind, at_em at 1. rewrite E. cbn [node_of with_node option_map].
      set (nd' := mkNode P _ _). set (e' := EUser P c own (Some nd')).
      assert (E' : get_em id (use_entropy P id (put_em P id e' w)) = Some e')
        by (rewrite get_use; eapply get_put_same; eauto).
      rewrite (user_runs _ id c own (Some nd') _ _ E'). cbn [start fst snd option_map].
      eexists. split; [reflexivity|]. split.
      + eapply others_trans; [|apply others_put]. split; intros.
        * rewrite get_use. apply get_put_other; assumption.
        * unfold World.get_fd. rewrite fd_use. apply get_fd_put.
      + erewrite get_put_same by exact E'. destruct nd'. reflexivity.
    - unfold mbind at 1, ret at 1. rewrite (user_runs _ id c own None _ _ E). cbn [start fst snd option_map].
      eexists. split; [reflexivity|]. split; [apply others_put | eapply get_put_same; eauto].
  Qed.
  Theorem C89_reset id c own g w : user_at w id c own g ->
    exists v, em_reset P fuel id w = (Ok tt, v) /\ others_same id w v /\
      exists g', user_at v id c (uc_reset P c own) g' /\ (g' = None <-> g = None) /\
        forall s, seed_at (Some s) w id -> g' = option_map (fun _ => r_seeded P s) g.
  Proof.
    intros (nd & E & <-). destruct (reset_user id c own nd w E) as (v & H & O & G).
    exists v. split; [exact H|]. split; [exact O|]. eexists. split; [eexists; split; [exact G | reflexivity]|].
    destruct nd as [nd|]; cbn.
    - split; [split; discriminate|]. intros s Sd. rewrite (Sd _ nd E eq_refl). reflexivity.
    - split; [tauto | reflexivity].
  Qed.

  (** seed(s): the attributes stay, the generator is that of [s]. *)
  Theorem C89_seed id c own g s w : user_at w id c own (Some g) ->
    exists v, em_seed P fuel id (Some s) w = (Ok tt, v) /\ user_at v id c own (Some (r_seeded P s)) /\
      seed_at (Some s) v id /\ others_same id w v.
  Proof.
    intros (nd & E & Eg). destruct nd as [nd|]; [|discriminate]. unfold em_seed. cbn [eseed]. unfold at_em at 1. rewrite E.
    unfold seed_own, modify_em, mbind, at_em at 1. rewrite E. cbn [node_of with_node option_map].
    set (e' := EUser P c own _).
    assert (E' : get_em id (use_entropy P id (put_em P id e' w)) = Some e')
      by (rewrite get_use; eapply get_put_same; eauto).
    eexists. split; [reflexivity|]. split; [eexists; split; [exact E' | reflexivity]|]. split.
    - intros e x Q N. rewrite E' in Q. injection Q as <-. cbn in N. injection N as <-. reflexivity.
    - split; intros.
      + rewrite get_use. apply get_put_other; assumption.
      + unfold World.get_fd. rewrite fd_use. apply get_fd_put.
  Qed.
  (** Without RandomMixin there is no seed method, and nothing changes. *)
  Theorem C89_seed_plain id c own s w : user_at w id c own None -> em_seed P fuel id s w = (Raise AttributeError, w).
  Proof.
    intros (nd & E & Eg). destruct nd as [nd|]; [discriminate|]. unfold em_seed. cbn [eseed]. unfold at_em at 1. rewrite E. reflexivity.
  Qed.

  (** A new object. *)
  Theorem C89_new c own random w id v : new_user P fuel c own random w = (Ok id, v) ->
    match random with
    | None => user_at v id c own None
    | Some seed => exists g, user_at v id c (uc_reset P c own) (Some g) /\ forall s, seed = Some s -> g = r_seeded P s
    end.
  Proof.
    intros H. apply mbind_ok_inv in H as (i & w0 & H0 & H). apply mbind_ok_inv in H as ([] & w1 & H1 & H).
    injection H as <- <-. injection H0 as <- <-.
    set (w0 := mkWorld P _ _ _) in H1. set (id := length (w_em P w)) in *.
    assert (E0 : get_em id w0 = Some (EUser P c own (option_map (new_node P) random)))
      by (unfold w0; rewrite get_em_app; unfold id; rewrite Nat.eqb_refl; reflexivity).
    destruct random as [seed|].
    - destruct (reset_user _ _ _ _ _ E0) as (v & H & _ & G). rewrite H1 in H. injection H as <-.
      eexists. split; [eexists; split; [exact G | reflexivity]|]. intros s ->. reflexivity.
    - injection H1 as <-. eexists. split; [exact E0 | reflexivity].
  Qed.

  Hypothesis score_quiet : forall u w, k_score P u w <> Raise AttributeError.

  (** In a schema: after seed_fields(s) and reset_fields(), at whatever point, an
      object of a user's class anywhere inside the fields, whose reset restores
      one and the same state, is in that state with the generator of [s]; what it
      gives when it is asked is what its methods give from there. *)
  Theorem C89_schema w fs s h u v f id c own g x qs :
    sc_seed_fields P fuel fs (Some s) (after h w) = (Ok tt, u) -> sc_reset_fields P fuel fs u = (Ok tt, v) ->
    In f (map snd fs) -> uses P w f id -> user_at w id c own (Some g) -> restores P c ->
    user_at v id c (uc_reset P c x) (Some (r_seeded P s)) /\
    fst (history (map (asked P id) qs) v) = fst (on_its_own c qs (uc_reset P c x, r_seeded P s)).
  Proof.
    intros A B Hf U (nd & E & Eg) Hr.
    assert (C : wconf w u).
    { eapply wconf_trans; [apply (history_conf fuel str_of w h)|].
      pose proof (run_conf fuel str_of (after h w) (SeedFields P fs (Some s))) as C.
      cbn [run] in C. unfold mbind in C. rewrite A in C. exact C. }
    destruct (sc_reset_step fuel score_quiet (Some s) fs u v (sc_seed_stores _ _ _ _ _ A) B) as [(S1 & _) F].
    assert (Q : user_at v id c (uc_reset P c x) (Some (r_seeded P s))).
    { assert (Fr : fresh_at P fuel (Some s) v id) by (apply (F f Hf); eapply uses_wconf; eauto).
      pose proof (proj1 (wconf_trans _ _ _ C S1) id) as Q. rewrite E in Q.
      destruct (get_em id v) as [e|] eqn:Ev; [|contradiction]. specialize (Fr e Ev).
      destruct e; try contradiction. cbn in Q, Fr. destruct Q as (<- & Qn), Fr as [[o ->] Fn].
      destruct nd as [nd|]; [|discriminate]. destruct nd0 as [nd0|]; [|discriminate]. destruct Fn as [ent ->].
      rewrite (Hr o x) in Ev. eexists. split; [exact Ev | reflexivity]. }
    split; [exact Q|]. pose proof (C89_calls v id c _ _ qs Q) as X.
    destruct (UserSpec.on_its_own P c qs (uc_reset P c x, r_seeded P s)) as [rs [own' g']]. apply X.
  Qed.
End C89.

(** ** Concrete classes *)

(** class Tick(RandomMixin, Emitter): counts its values in an attribute; a value is
    ten times the count plus a number drawn below three.  [again]: its reset sets
    the count back to zero.  (Its emit_many is [self.emit() for _ in range(n)].) *)
Definition tick_emit : M (val * pR DP) val := fun s =>
  match fst s with
  | VInt z => (Ok (VInt (10 * z + Z.of_nat (fst (r_below DP 3 (snd s))))), (VInt (z + 1), snd (r_below DP 3 (snd s))))
  | _ => (Raise TypeError, s)
  end.
Definition tick (again : bool) : uclass DP :=
  mkUclass DP tick_emit (fun n => mapS (fun _ => tick_emit) (seq 0 (Z.to_nat n))) (fun own => if again then VInt 0 else own).
Lemma tick_many l s r : fst (mapS (fun _ : nat => tick_emit) l s) = Ok r -> zlen r = Z.of_nat (List.length l).
Proof.
  revert s r. induction l as [|a l IH]; intros s r H; cbn [mapS] in H.
  - injection H as <-. reflexivity.
  - unfold mbind, ret in H. destruct (tick_emit s) as [[v|e|] s1]; try discriminate.
    specialize (IH s1). destruct (mapS (fun _ : nat => tick_emit) l s1) as [[vs|e|] s2]; try discriminate.
    injection H as <-. specialize (IH vs eq_refl). unfold zlen in *. cbn [List.length]. rewrite !Nat2Z.inj_succ, IH. reflexivity.
Qed.
Example tick_counting again : counting DP (tick again).
Proof. intros n s l Hn H. cbn [uc_emit_many tick] in H. apply tick_many in H. rewrite seq_length, Z2Nat.id in H by exact Hn. exact H. Qed.
Example tick_restores : restores DP (tick true). Proof. intros a b. reflexivity. Qed.

(** A schema with one field whose emitter is such an object, and another field. *)
Definition user_schema (class : uclass DP) : M (world DP) (list (string * nat)) :=
  u <~ new_user DP 9 class (VInt 0) (Some (Some 5%nat)) ;;
  f <~ new_field DP 9 "tick" u None None false None ;;
  c <~ new_choice DP 9 true [VInt 1; VInt 2; VInt 3] None true false None None ;;
  g <~ new_field DP 9 "id" c None None false None ;;
  ret [("tick", f); ("id", g)]%string.
Definition user_world (class : uclass DP) : world DP := made_world (user_schema class).
Definition user_fields : list (string * nat) := [("tick", 0%nat); ("id", 1%nat)]%string.
Lemma user_schema_ok class : fst (user_schema class empty) = Ok user_fields.
Proof. vm_compute; reflexivity. Qed.
Lemma user_class class : user_at DP (user_world class) 0 class (uc_reset DP class (uc_reset DP class (VInt 0))) (Some 152%nat).
Proof. exists (Some (mkNode DP None 152%nat)). split; reflexivity. Qed.

Definition replayed (h : list (op DP)) (w : world DP) : res unit * world DP :=
  (sc_seed_fields DP 9 user_fields (Some 3%nat) ;;; sc_reset_fields DP 9 user_fields) (after DP 9 demo_str h w).
Definition used_before : list (op DP) := [Doc DP user_fields; EmitN DP 0 4].
Definition four_asks : list ask := [One; Many 2; Many 1; One].
Lemma replayed_inv h w v : replayed h w = (Ok tt, v) ->
  exists u, sc_seed_fields DP 9 user_fields (Some 3%nat) (after DP 9 demo_str h w) = (Ok tt, u) /\ sc_reset_fields DP 9 user_fields u = (Ok tt, v).
Proof. intros H. apply mbind_ok_inv in H as ([] & u & A & B). exists u. auto. Qed.

(** The theorems apply to the object: it has been used, the schema is seeded and
    reset, and then it gives what the class gives from zero with the generator of
    seed 3. *)
Lemma demo_score u w : k_score DP u w <> Raise AttributeError.
Proof. change (k_score DP u w) with (qc_score u w). unfold qc_score. destruct (QArith_base.Qle_bool _ _); [discriminate|]. destruct (QArith_base.Qeq_bool _ _); discriminate. Qed.
Lemma replayed_class class h v qs : restores DP class -> uses DP (user_world class) 0 0 -> replayed h (user_world class) = (Ok tt, v) ->
  fst (history DP 9 demo_str (map (asked DP 0) qs) v) = fst (on_its_own DP class qs (uc_reset DP class VNone, r_seeded DP 3%nat)).
Proof.
  pose proof (user_class class) as C. revert C. generalize (user_world class). intros w C R U H.
  destruct (replayed_inv _ _ _ H) as (u & A & B).
  eapply C89_schema; eauto using demo_score. left. reflexivity.
Qed.
Example C89_case : exists v, replayed used_before (user_world (tick true)) = (Ok tt, v) /\
  uses DP (user_world (tick true)) 0 0 /\
  fst (history DP 9 demo_str (map (asked DP 0) four_asks) v) = fst (on_its_own DP (tick true) four_asks (VInt 0, r_seeded DP 3%nat)) /\
  fst (on_its_own DP (tick true) four_asks (VInt 0, r_seeded DP 3%nat)) =
    [Ok (Value (VInt 0)); Ok (Values [VInt 11; VInt 22]); Ok (Values [VInt 30]); Ok (Value (VInt 41))].
Proof.
  assert (U : uses DP (user_world (tick true)) 0 0) by (apply part_used; vm_compute; reflexivity).
  exists (snd (replayed used_before (user_world (tick true)))).
  assert (R : replayed used_before (user_world (tick true)) = (Ok tt, snd (replayed used_before (user_world (tick true))))) by (apply ran; vm_compute; reflexivity).
  split; [exact R|]. split; [exact U|]. split; [|vm_compute; reflexivity].
  exact (replayed_class (tick true) used_before _ four_asks tick_restores U R).
Qed.

(** ** The class's reset has to restore the state *)

(** The full statement, for all classes with RandomMixin: after seeding and
    resetting the schema at two points, the object does the same. *)
Definition C89_replay_any (P : prims) (fuel : nat) (str_of : val -> res (list Z)) : Prop :=
  forall w fs s h1 h2 u1 v1 u2 v2 f id c own g qs,
    sc_seed_fields P fuel fs (Some s) (after P fuel str_of h1 w) = (Ok tt, u1) -> sc_reset_fields P fuel fs u1 = (Ok tt, v1) ->
    sc_seed_fields P fuel fs (Some s) (after P fuel str_of h2 w) = (Ok tt, u2) -> sc_reset_fields P fuel fs u2 = (Ok tt, v2) ->
    In f (map snd fs) -> uses P w f id -> user_at P w id c own (Some g) ->
    fst (history P fuel str_of (map (asked P id) qs) v1) = fst (history P fuel str_of (map (asked P id) qs) v2).
Theorem C89_replay_any_refuted : ~ C89_replay_any DP 9 demo_str.
Proof.
  intros H.
  assert (R1 : replayed [] (user_world (tick false)) = (Ok tt, snd (replayed [] (user_world (tick false))))) by (apply ran; vm_compute; reflexivity).
  assert (R2 : replayed used_before (user_world (tick false)) = (Ok tt, snd (replayed used_before (user_world (tick false))))) by (apply ran; vm_compute; reflexivity).
  destruct (replayed_inv _ _ _ R1) as (u1 & A1 & B1), (replayed_inv _ _ _ R2) as (u2 & A2 & B2).
  assert (U : uses DP (user_world (tick false)) 0 0) by (apply part_used; vm_compute; reflexivity).
  specialize (H (user_world (tick false)) user_fields 3%nat [] used_before u1 _ u2 _ 0%nat 0%nat (tick false) _ _ four_asks
    A1 B1 A2 B2 (or_introl eq_refl) U (user_class (tick false))).
  clear -H. vm_compute in H. discriminate.
Qed.

(** A class without RandomMixin. *)
Definition counter : uclass DP :=
  mkUclass DP (fun s => match fst s with VInt z => (Ok (VInt z), (VInt (z + 1), snd s)) | _ => (Raise TypeError, s) end)
    (fun n s => (Raise (ValueError), s)) (fun own => own).
Example counter_plain : no_generator DP counter.
Proof. intros g own. cbn. destruct own; repeat split. Qed.
Example C89_plain_case : exists id w, new_user DP 9 counter (VInt 7) None empty = (Ok id, w) /\
  user_at DP w id counter (VInt 7) None /\
  fst (history DP 9 demo_str (map (asked DP id) [One; Many 3; Many 1]) w) = [Ok (Value (VInt 7)); Raise ValueError; Ok (Values [VInt 8])].
Proof.
  exists 0%nat, (snd (new_user DP 9 counter (VInt 7) None empty)).
  assert (R : new_user DP 9 counter (VInt 7) None empty = (Ok 0%nat, snd (new_user DP 9 counter (VInt 7) None empty))) by (apply ran; vm_compute; reflexivity).
  split; [exact R|]. split; [exact (C89_new 9 counter (VInt 7) None empty 0 _ R) | vm_compute; reflexivity].
Qed.

Print Assumptions C89_calls.
Print Assumptions C89_calls_plain.
Print Assumptions C89_reset.
Print Assumptions C89_seed.
Print Assumptions C89_seed_plain.
Print Assumptions C89_new.
Print Assumptions C89_schema.
Print Assumptions C89_replay_any_refuted.
