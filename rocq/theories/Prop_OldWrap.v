(** * C88: the deprecated class Wrap, /repo/src/fauxdoc/emitters/wrappers.py:157-205. *)
From Coq Require Import String.
From Verif Require Import Base Prims Values MathModel ChoiceModel FixedModel GroupModel
  SigModel SigProofs WrapModel TextModel FieldModel World Rel WorldProofs Agree
  WorldSpec WorldReset Histories WorldBuild BuildProofs Demo WorldDemo Prop_World Prop_Construct Prop_Objects Prop_Runs Prop_Parts.
Open Scope list_scope.
Open Scope Z_scope.

(** ** Model *)
Section OldWrap.
  Context (P : prims) (fuel : nat) (str_of : val -> res (list Z)).

  (** wrappers.py:189-205 [Wrap.__init__].  Wrap is abstract: it has no [emit], a
      user's subclass must define it.  Modelled are subclasses whose emit and
      emit_many are those of WrapMany (wrappers.py:398-413); the object is
      therefore represented in the same way.  The function is stored as it is:
      neither is its signature checked nor is it, or any of the sources, called. *)
  Definition new_wrap (sources : list (string * nat)) (f : wfun P) (seed : option (pSeed P)) : M (world P) nat :=
    id <~ alloc_em P (EWrapMany P sources f (new_node P seed)) ;;
    em_reset P fuel id ;;;
    ret id.

  (** [em.wrapper = BoundWrapper(f, em)]: [wrapper] is a plain attribute here
      (line 203), nothing is checked and nothing is reset. *)
  Definition wrap_set (id : nat) (f : wfun P) : M (world P) unit := install P id f.
End OldWrap.

(** ** What holds *)
Section C88.
  Context {P : prims} (fuel : nat) (str_of : val -> res (list Z)).
  Hypothesis score_quiet : forall u w, k_score P u w <> Raise AttributeError.
  Notation world := (World.world P).
  Notation get_em := (World.get_em P).
  Notation get_fd := (World.get_fd P).

  Lemma new_wrap_inv sources f seed w id v : new_wrap P fuel sources f seed w = (Ok id, v) ->
    exists w0, alloc_em P (EWrapMany P sources f (new_node P seed)) w = (Ok id, w0) /\ em_reset P fuel id w0 = (Ok tt, v).
  Proof.
    intros H. apply mbind_ok_inv in H as (i & w0 & H0 & H). apply mbind_ok_inv in H as ([] & w1 & H1 & H).
    injection H as <- <-. exists w0. auto.
  Qed.

  (** After the construction the emitter, its sources and all they are made of are
      in the state of a reset. *)
  Theorem C88_fresh sources f seed w id v :
    new_wrap P fuel sources f seed w = (Ok id, v) ->
    (forall k, In k (map snd sources) -> belongs P v id k) /\ forall j, belongs P v id j -> fresh_at P fuel seed v j.
  Proof.
    intros H. apply new_wrap_inv in H as (w0 & H0 & H1). injection H0 as <- <-.
    set (w0 := mkWorld P _ _ _) in H1.
    assert (E0 : get_em (length (w_em P w)) w0 = Some (EWrapMany P sources f (new_node P seed)))
      by (unfold w0; rewrite get_em_app, Nat.eqb_refl; reflexivity).
    assert (Sd : seed_at seed w0 (length (w_em P w))).
    { intros e nd E N. rewrite E0 in E. injection E as <-. cbn in N. injection N as <-. reflexivity. }
    destruct (ereset_step fuel score_quiet seed _ _ _ _ Sd H1) as [(C & _) F]. pose proof (wconf_shape _ _ C) as Sh.
    split.
    - intros k Hk. eapply belongs_shape; [exact Sh|]. econstructor; [exact E0 | exact Hk | constructor].
    - intros j B. apply F. eapply belongs_shape; [|exact B]. destruct Sh as (A1 & A2 & A3 & A4). repeat split; symmetry; auto.
  Qed.

  Lemma conf_set id sources f nd w w' : get_em id w = Some (EWrapMany P sources f nd) ->
    set_function P fuel str_of id f w = (Ok tt, w') -> wconf w w'.
  Proof.
    intros E H. unfold set_function, at_em in H. rewrite E in H. unfold wrapmany_set in H.
    apply mbind_ok_inv in H as (kw & w1 & H1 & H2). apply try_finally_ok_inv in H2 as (w2 & H2 & H3).
    apply mbind_ok_inv in H3 as ([] & w3 & H3 & H4).
    assert (C1 : wconf w w1).
    { assert (K : keeps (@wconf P) (call_sources (map (fun ks => (fst ks, (em_call P fuel str_of (snd ks), em_call_n P fuel str_of (snd ks)))) sources))).
      { apply rel_keeps; [exact wconf_refl|]. intros s0. apply rel_call_sources. clear.
        induction sources as [|[k j] t IH]; cbn [map]; constructor; [|exact IH].
        split; [reflexivity|]. cbn. split; [|intros n]; apply keeps_rel; try exact wconf_trans; [apply kw_call | apply kw_call_n]. }
      specialize (K w). rewrite H1 in K. exact K. }
    assert (C2 : wconf w1 w2) by (pose proof (kw_mock id f [] kw w1) as K; rewrite H2 in K; exact K).
    assert (C12 : wconf w w2) by (eapply wconf_trans; eauto).
    assert (C3 : wconf w2 w3).
    { unfold install, modify_em, at_em in H3. pose proof (proj1 C12 id) as Q. rewrite E in Q.
      destruct (get_em id w2) as [e2|] eqn:E2; [|contradiction]. injection H3 as <-.
      destruct e2; try contradiction. destruct Q as [<- <-].
      apply (within_put (fun _ => True) (fun _ => True) w2 w2 id _ _ (within_refl _ _ w2) I E2). split; reflexivity. }
    assert (C4 : wconf w3 w') by (pose proof (kw_reset fuel str_of id w3) as K; rewrite H4 in K; exact K).
    eapply wconf_trans; [exact C12|]. eapply wconf_trans; eauto.
  Qed.

  (** Where WrapMany accepts the function, an instance of such a subclass can be made
      with the same arguments, and whatever is done with it and its sources has the
      same outcomes. *)
  Theorem C88_same sources f s w id v :
    reachable P fuel str_of w -> (forall k, In k (map snd sources) -> (k < length (w_em P w))%nat) ->
    new_wrapmany P fuel str_of sources f (Some s) w = (Ok id, v) ->
    pure_parts P v id ->
    exists v', new_wrap P fuel sources f (Some s) w = (Ok id, v') /\
      forall h, Forall (about_emitter P v id) h ->
        fst (history P fuel str_of h v') = fst (history P fuel str_of h v).
  Proof.
    intros R L H Hp. pose proof (C43_wrapmany fuel str_of score_quiet _ _ _ _ _ _ R L H) as [_ F2].
    unfold new_wrapmany in H. apply mbind_ok_inv in H as (i & w0 & H0 & H).
    apply mbind_ok_inv in H as ([] & w1 & H1 & H). apply mbind_ok_inv in H as ([] & w2 & H2 & H). injection H as <- <-.
    assert (N : new_wrap P fuel sources f (Some s) w = (Ok i, w1)).
    { unfold new_wrap, mbind. rewrite H0, H1. reflexivity. }
    exists w1. split; [exact N|]. intros h Hh. pose proof (C88_fresh _ _ _ _ _ _ N) as [_ F1].
    assert (E0 : get_em i w0 = Some (EWrapMany P sources f (new_node P (Some s))))
      by (injection H0 as <- <-; rewrite get_em_app, Nat.eqb_refl; reflexivity).
    assert (C0 : wconf w0 w1) by (pose proof (kw_reset fuel str_of i w0) as K; rewrite H1 in K; exact K).
    assert (E1 : exists nd, get_em i w1 = Some (EWrapMany P sources f nd)).
    { pose proof (proj1 C0 i) as Q. rewrite E0 in Q. destruct (get_em i w1) as [e|]; [|contradiction].
      destruct e; try contradiction. destruct Q as [<- <-]. eauto. }
    destruct E1 as (nd & E1). pose proof (conf_set _ _ _ _ _ _ E1 H2) as C.
    pose proof (proj2 (C60_confined_partial fuel str_of i _ f _ _ _ E1 I H2)) as Fd.
    pose proof (wconf_shape _ _ C) as Sh. assert (Sh' : shape w2 w1) by (destruct Sh as (A1 & A2 & A3 & A4); repeat split; symmetry; auto).
    symmetry. apply (fresh_tree fuel str_of s i); auto.
    - intros j _. pose proof (proj1 C j) as Q. destruct (get_em j w1), (get_em j w2); try contradiction; [|exact I]. apply conf_sym, Q.
    - intros j B. apply F1. eapply belongs_shape; eauto.
    - intros j e g B E Hg. split; [unfold World.get_fd; rewrite Fd; reflexivity | symmetry; apply multi_wconf; exact C].
  Qed.

  (** Giving it another function changes nothing else: no source is called or
      reset. *)
  Theorem C88_assign id sources f g nd w :
    get_em id w = Some (EWrapMany P sources f nd) ->
    exists w', wrap_set P id g w = (Ok tt, w') /\
      get_em id w' = Some (EWrapMany P sources g nd) /\
      (forall j, j <> id -> get_em j w' = get_em j w) /\ (forall j, get_fd j w' = get_fd j w).
  Proof.
    intros E. unfold wrap_set, install, modify_em, at_em. rewrite E. eexists. split; [reflexivity|]. split; [|split].
    - apply (get_put_same _ _ _ _ E).
    - intros j Hj. apply get_put_other, Hj.
    - intros j. unfold World.get_fd. rewrite fd_put. reflexivity.
  Qed.
End C88.

(** Two used sources.  With [pair_of] the old and the new class give the same;
    [identity], which WrapMany refuses (it has no parameter y), makes trouble with
    the old class only when the emitter is called. *)
Example C88_case :
  let w := program used_sources empty in
  let srcs := [("x", 1%nat); ("y", 0%nat)]%string in
  let old := new_wrap DP 9 srcs pair_of (Some 5%nat) w in
  let new := new_wrapmany DP 9 demo_str srcs pair_of (Some 5%nat) w in
  reachable DP 9 demo_str w /\ fst old = Ok 2%nat /\ fst new = Ok 2%nat /\ pure_parts DP (snd new) 2 /\
  fst (history DP 9 demo_str [EmitN DP 2 2; Emit DP 2] (snd old)) =
  fst (history DP 9 demo_str [EmitN DP 2 2; Emit DP 2] (snd new)) /\
  fst (history DP 9 demo_str [EmitN DP 2 2] (snd old)) = [Ok (Values [VTuple [VInt 10; VInt 1]; VTuple [VInt 20; VInt 3]])] /\
  fst (new_wrapmany DP 9 demo_str srcs identity (Some 5%nat) w) = Raise TypeError /\
  fst (new_wrap DP 9 srcs identity (Some 5%nat) w) = Ok 2%nat /\
  fst (history DP 9 demo_str [Emit DP 2] (snd (new_wrap DP 9 srcs identity (Some 5%nat) w))) = [Raise TypeError].
Proof.
  split; [apply program_reachable; [constructor | vm_compute; reflexivity]|].
  split; [vm_compute; reflexivity|]. split; [vm_compute; reflexivity|].
  split; [apply (pure_at _ [0%nat; 1%nat; 2%nat]); [vm_compute; reflexivity | auto with datatypes | vm_compute; reflexivity]|].
  repeat split; vm_compute; reflexivity.
Qed.

Print Assumptions C88_fresh.
Print Assumptions C88_same.
Print Assumptions C88_assign.
