(** * Programs and what fields remember: property C45 for all commands. *)
From Coq Require Import String.
From Verif Require Import Base Prims Values MathModel ChoiceModel FixedModel GroupModel
  SigModel SigSpec SigProofs WrapModel WrapSpec Prop_Wrap TextSpec TextModel FieldModel FieldSpec Prop_Field
  World Rel WorldProofs Agree WorldSpec WorldReset Histories WorldBuild BuildProofs ProgramSpec Demo WorldDemo Prop_Previous.
Open Scope list_scope.
Open Scope Z_scope.

Section Remember.
  Context (P : prims) (fuel : nat) (str_of : val -> res (list Z)).
  Notation world := (World.world P).
  Notation get_em := (World.get_em P).
  Notation get_fd := (World.get_fd P).
  Notation previous := (World.previous P).
  Notation run := (WorldSpec.run P fuel str_of).
  Notation exec := (WorldBuild.exec P fuel str_of).
  Notation until_raise := (WorldSpec.until_raise P fuel str_of).
  Notation kept := (Prop_Previous.kept P).

  (** ** Commands after which every field remembers what it did before *)

  Lemma kept_at A id (k : World.emitter P -> M world A) : (forall e, kept (k e)) -> kept (at_em P id k).
  Proof. intros H w f. unfold at_em. destruct (get_em id w); [apply H | reflexivity]. Qed.
  Lemma previous_put id e (w : world) f : previous f (put_em P id e w) = previous f w.
  Proof. unfold put_em. destruct (nth_error (w_em P w) id); reflexivity. Qed.
  Lemma kept_modify_em id g : kept (modify_em P id g).
  Proof. apply kept_at. intros e w f. apply previous_put. Qed.
  Lemma kept_use id : kept (fun w => (Ok tt, use_entropy P id w)).
  Proof. intros w f. cbn [snd]. unfold use_entropy. destruct (nth_error (w_em P w) id); reflexivity. Qed.
  Lemma kept_alloc e : kept (alloc_em P e).
  Proof. intros w f. reflexivity. Qed.
  Lemma kept_iter A id (m : M (iterative val) A) : kept (run_iter P id m).
  Proof. apply kept_at. intros e w f. destruct e; try reflexivity. destruct (m i). apply previous_put. Qed.
  Lemma kept_seq A id (m : M (sequential val) A) : kept (run_seq P id m).
  Proof. apply kept_at. intros e w f. destruct e; try reflexivity. destruct (m s). apply previous_put. Qed.
  Lemma kept_choice A id (m : M (@choice P val) A) : kept (run_choice P id m).
  Proof. apply kept_at. intros e w f. destruct e; try reflexivity. destruct (m c). apply previous_put. Qed.
  Lemma kept_rng A id (m : M (pR P) A) : kept (run_rng P id m).
  Proof. apply kept_at. intros e w f. destruct (node_of P e); [|reflexivity]. destruct (m _). apply previous_put. Qed.
  Lemma kept_lift A (r : res A) : kept (lift r).
  Proof. intros w f. reflexivity. Qed.
  Lemma kept_raise A e : kept (@raise world A e).
  Proof. intros w f. reflexivity. Qed.
  Lemma kept_finally A (m : M world A) fin : kept m -> kept fin -> kept (try_finally m fin).
  Proof.
    intros H1 H2 w f. unfold try_finally. pose proof (H1 w f) as Q. destruct (m w) as [[a|e|] w1]; cbn [snd] in *; try exact Q;
      pose proof (H2 w1 f) as Q2; destruct (fin w1) as [[]]; cbn [snd] in *; congruence.
  Qed.
  Lemma kept_mapS A B (g : A -> M world B) : forall l, (forall a, In a l -> kept (g a)) -> kept (mapS g l).
  Proof.
    induction l as [|a t IH]; intros H; cbn [mapS]; [apply kept_ret|].
    apply kept_bind; [apply H; left; reflexivity|]. intros b. apply kept_bind; [apply IH; intros; apply H; right; assumption|].
    intros bs. apply kept_ret.
  Qed.
  Lemma kept_mock id f args kw : kept (try_mock_call (bound P id f) args kw).
  Proof. unfold try_mock_call. destruct (u_sig _); [apply kept_lift|]. apply kept_bind; [apply kept_lift | intros; apply kept_ret]. Qed.
  Lemma kept_call i : kept (em_call P fuel str_of i).
  Proof. apply blind_kept, blind_call. Qed.

  Lemma kept_em_set id s : kept (em_set P fuel id s).
  Proof.
    apply kept_at. intros e. destruct e, s; try apply kept_raise; try apply kept_modify_em; try apply kept_iter; try apply kept_seq.
    - apply kept_bind; [apply kept_seq|]. intros _. apply kept_modify_em.
    - destruct s; apply kept_choice.
  Qed.

  (** ** Those that try an action with values from the source fields *)

  Lemma calls_until (names : world -> nat -> string) w0 : forall fs w,
    snd (mapS (fun nc => v <~ snd nc ;; ret (fst nc, v)) (map (fun x => (names w0 x, fd_call P fuel str_of x)) fs) w) =
    snd (until_raise (map (Call P) fs) w).
  Proof.
    induction fs as [|x t IH]; intros w; [reflexivity|]. cbn [map mapS WorldSpec.until_raise WorldSpec.run fst snd].
    unfold mbind at 1 2. unfold mbind at 3.
    destruct (fd_call P fuel str_of x w) as [[v|e|] w1]; try reflexivity. unfold ret at 1 3. unfold mbind at 1.
    specialize (IH w1). unfold ret in *. destruct (mapS _ _ w1) as [[l|e|] w2], (until_raise (map (Call P) t) w1); exact IH.
  Qed.

  Lemma calls_basic fs : Forall (basic P) (map (Call P) fs).
  Proof. apply Forall_forall. intros o H. apply in_map_iff in H as (x & <- & _). exact I. Qed.
  Lemma resets_basic fs : Forall (basic P) (map (Reset P) fs).
  Proof. apply Forall_forall. intros o H. apply in_map_iff in H as (x & <- & _). exact I. Qed.

  Lemma set_based id f b fs f0 nd w : get_em id w = Some (EBased P b fs f0 nd) -> forall g,
    previous g (snd (set_function P fuel str_of id f w)) = previous g (snd (until_raise (map (Call P) fs) (snd (install P id f w)))).
  Proof.
    intros E g. unfold set_function, at_em. rewrite E. unfold based_set. unfold mbind at 1.
    assert (Ei : install P id f w = (Ok tt, snd (install P id f w))).
    { unfold install, modify_em, at_em. rewrite E. reflexivity. }
    rewrite Ei. cbn [snd]. unfold mbind at 1.
    pose proof (calls_until (fun w x => name_of P x w) w fs (snd (install P id f w))) as C. cbv beta in C.
    rewrite <- C. clear C. match goal with |- context [mapS ?a ?b ?c] => destruct (mapS a b c) as [[vals|e|] w2] end; try reflexivity.
    destruct (action_args vals) as [args kw].
    apply (kept_finally _ _ _ (kept_mock id f args kw) (kept_em_reset P fuel str_of id)).
  Qed.

  Lemma set_other id f w : (forall b fs f0 nd, get_em id w <> Some (EBased P b fs f0 nd)) -> forall g,
    previous g (snd (set_function P fuel str_of id f w)) = previous g w.
  Proof.
    intros N g. unfold set_function, at_em. destruct (get_em id w) as [e|] eqn:E; [|reflexivity].
    assert (Fin : kept (install P id f ;;; em_reset P fuel id)).
    { apply kept_bind; [apply kept_modify_em|]. intros _. apply (kept_em_reset P fuel str_of). }
    destruct e; try reflexivity; [| |exfalso; eapply N; reflexivity].
    - apply kept_finally; [|exact Fin]. apply kept_bind; [apply kept_call | intros v; apply kept_mock].
    - refine (kept_bind _ _ _ _ _ _ _ w g).
      + apply kept_mapS. intros kc Hin. apply in_map_iff in Hin as (ks & <- & _). cbn [fst snd].
        apply kept_bind; [apply kept_call | intros v; apply kept_ret].
      + intros kw. apply kept_finally; [apply kept_mock | exact Fin].
  Qed.

  Lemma show_world c w : snd (show P fuel str_of c w) = snd (exec c w).
  Proof.
    destruct c; cbn [show WorldBuild.exec]; unfold mbind, ret;
      match goal with |- context [match ?x with _ => _ end] => destruct x as [[]] end; reflexivity.
  Qed.

  (** An emitter that has been created and reset is still of its class. *)
  Lemma made e (w : world) : let id := length (w_em P w) in
    orel conf (Some e) (get_em id (snd (em_reset P fuel id (snd (alloc_em P e w))))).
  Proof.
    intros id. pose proof (proj1 (run_conf fuel str_of (snd (alloc_em P e w)) (ResetEm P id)) id) as C.
    assert (E : get_em id (snd (alloc_em P e w)) = Some e).
    { unfold World.get_em, alloc_em, id. cbn. rewrite nth_error_app2, Nat.sub_diag by apply Nat.le_refl. reflexivity. }
    rewrite E in C. cbn [WorldSpec.run] in C. unfold mbind, ret in C. destruct (em_reset P fuel id _) as [[]]; exact C.
  Qed.

  Lemma new_other e f : (forall b fs f0 nd, e <> EBased P b fs f0 nd) ->
    kept (id <~ alloc_em P e ;; em_reset P fuel id ;;; set_function P fuel str_of id f ;;; ret id).
  Proof.
    intros N w g. pose proof (made e w) as C. cbn zeta in C. unfold mbind at 1. cbn [alloc_em]. fold (alloc_em P e w).
    set (w1 := mkWorld P (w_em P w ++ [mkObj P e (w_run P w)]) (w_fd P w) (w_run P w)) in *.
    change (snd (alloc_em P e w)) with w1 in C. set (id := length (w_em P w)) in *.
    pose proof (kept_em_reset P fuel str_of id w1 g) as K. unfold mbind at 1.
    destruct (em_reset P fuel id w1) as [[[]|x|] w2]; cbn [snd] in *; try exact K.
    change (previous g w1) with (previous g w) in K.
    assert (S : previous g (snd (set_function P fuel str_of id f w2)) = previous g w2).
    { apply set_other. intros b fs f0 nd E. rewrite E in C. destruct e; try contradiction C. eapply N; reflexivity. }
    unfold mbind, ret. destruct (set_function P fuel str_of id f w2) as [[]]; cbn [snd] in *; congruence.
  Qed.

  Lemma new_based_steps b fs f s w g :
    previous g (snd (new_based P fuel str_of b fs f s w)) =
    last_returned P g (field_steps P fuel str_of (NewBasedOnFields P b fs f s) w) (previous g w).
  Proof.
    cbn [field_steps]. unfold new_based. set (e := EBased P b fs f (new_node P s)).
    pose proof (made e w) as C. cbn zeta in C. unfold mbind at 1 2. cbn [alloc_em].
    set (w1 := mkWorld P (w_em P w ++ [mkObj P e (w_run P w)]) (w_fd P w) (w_run P w)) in *.
    change (snd (alloc_em P e w)) with w1 in C. set (id := length (w_em P w)) in *.
    pose proof (kept_em_reset P fuel str_of id w1 g) as K. unfold mbind at 1 2.
    assert (Er : exists w2, em_reset P fuel id w1 = (Ok tt, w2)).
    { assert (E : get_em id w1 = Some e).
      { unfold World.get_em, id, w1. cbn. rewrite nth_error_app2, Nat.sub_diag by apply Nat.le_refl. reflexivity. }
      unfold em_reset. cbn [ereset]. unfold at_em. rewrite E. unfold e at 1. unfold reset_rng, mbind, modify_em, at_em. rewrite E. eexists. reflexivity. }
    destruct Er as [w2 Er]. rewrite Er in *. cbn [snd] in *.
    destruct (get_em id w2) as [[]|] eqn:E; try contradiction C. destruct C as (<- & <- & <-).
    rewrite <- (kept_modify_em id (fun e => match e with
                           | EWrapOne _ s _ nd => EWrapOne P s f nd
                           | EWrapMany _ ss _ nd => EWrapMany P ss f nd
                           | EBased _ b fs _ nd => EBased P b fs f nd
                           | e => e end) w2 g) in K.
    fold (install P id f) in K. change (previous g w1) with (previous g w) in K. rewrite <- K.
    change (let (r, s') := alloc_em P e w in match r with Ok a => (em_reset P fuel a;;; install P a f) s' | Raise e0 => (Raise e0, s') | Diverge => (Diverge, s') end)
      with ((em_reset P fuel id ;;; install P id f) w1).
    unfold mbind at 1. rewrite Er.
    rewrite <- (until_previous P fuel str_of g _ _ (calls_basic _)).
    rewrite <- (set_based id f _ _ _ _ w2 E g). unfold mbind, ret. destruct (set_function P fuel str_of id f w2) as [[]]; reflexivity.
  Qed.

  Lemma source_resets fs w :
    snd (group_do_method (fun f _ => Some (fd_reset P fuel f)) (map Some fs) w) = snd (until_raise (map (Reset P) fs) w).
  Proof.
    pose proof (loop_pieces P fuel str_of (fd_reset P fuel) (Reset P) (fd_reset_quiet P fuel) ltac:(reflexivity)
                  (map (fun f => (EmptyString, f)) fs) w) as L.
    rewrite !map_map in L. cbn [snd] in L. exact L.
  Qed.

  (** ** All commands *)

  Lemma kept_new_static v : kept (new_static P v).
  Proof. apply kept_alloc. Qed.
  Lemma kept_reset_new name hide em r g nd w f : let w1 := snd (alloc_fd P (mkField P name hide em r g nd VNone 0) w) in
    previous f (snd (fd_reset P fuel (length (w_fd P w)) w1)) = previous f w.
  Proof.
    intros w1. set (k := length (w_fd P w)).
    assert (A : forall x, previous x w1 = previous x w).
    { intros x. unfold World.previous, World.get_fd, w1, alloc_fd. cbn. destruct (Nat.lt_ge_cases x k) as [H|H].
      - rewrite nth_error_app1 by exact H. reflexivity.
      - rewrite nth_error_app2 by exact H. rewrite (proj2 (nth_error_None (w_fd P w) x)) by exact H.
        fold k. destruct (x - k)%nat; [reflexivity|]. destruct n; reflexivity. }
    destruct (Nat.eq_dec k f) as [<-|N].
    - assert (Ek : get_fd k w1 = Some (mkField P name hide em r g nd VNone 0)).
      { unfold World.get_fd, w1, alloc_fd, k. cbn. rewrite nth_error_app2, Nat.sub_diag by apply Nat.le_refl. reflexivity. }
      pose proof (reset_previous P fuel str_of k w1 ltac:(congruence)) as R.
      assert (V : previous k w1 = VNone) by (unfold World.previous; rewrite Ek; reflexivity).
      rewrite <- A, V. destruct (fd_reset P fuel k w1) as [[]]; cbn [snd]; congruence.
    - rewrite <- A. pose proof (basic_previous P fuel str_of f (Reset P k) w1 I) as B.
      cbn [WorldSpec.run] in B. unfold last_returned, mbind, ret in B; cbn [fold_left] in B.
      rewrite (proj2 (Nat.eqb_neq k f) N) in B. destruct (fd_reset P fuel k w1) as [[]]; exact B.
  Qed.

  Theorem command_previous g c w :
    previous g (snd (exec c w)) = last_returned P g (field_steps P fuel str_of c w) (previous g w).
  Proof.
    assert (T : forall A (m : M world A), kept m -> kept (m ;;; ret tt)).
    { intros A m H. apply kept_bind; [exact H | intros; apply kept_ret]. }
    assert (Z : forall A B (m : M world A) (b : B), snd ((m ;;; ret b) w) = snd (m w)).
    { intros A B m b. unfold mbind, ret. destruct (m w) as [[]]; reflexivity. }
    destruct c; cbn [WorldBuild.exec].
    - apply T, kept_new_static.
    - apply T. apply kept_bind; [apply kept_lift | intros; apply kept_alloc].
    - apply T. apply kept_bind; [apply kept_lift | intros; apply kept_alloc].
    - cbn [field_steps]. apply T. intros w0 f0. unfold new_choice.
      refine (kept_bind _ _ _ _ _ _ _ w0 f0); [apply kept_lift|]. intros c.
      apply kept_bind; [apply kept_alloc|]. intros id. apply kept_bind; [apply kept_use | intros; apply kept_ret].
    - apply T. apply kept_bind; [apply kept_alloc|]. intros id. apply kept_bind; [apply (kept_em_reset P fuel str_of)|]. intros _.
      apply kept_bind; [intros w0 f0; reflexivity|]. intros u. apply kept_bind; [apply kept_modify_em | intros; apply kept_ret].
    - apply T. apply kept_bind; [destruct sep_em; [apply kept_ret | apply kept_new_static]|]. intros sp.
      apply kept_bind; [apply kept_alloc|]. intros id. apply kept_bind; [apply (kept_em_reset P fuel str_of)|]. intros _.
      apply kept_bind; [intros w0 f0; reflexivity|]. intros u. apply kept_bind; [apply kept_modify_em | intros; apply kept_ret].
    - apply T. apply new_other. discriminate.
    - apply T. apply new_other. discriminate.
    - apply T. apply kept_alloc.
    - rewrite Z. apply new_based_steps.
    - cbn [field_steps]. apply T. apply kept_bind; [destruct rep; [apply kept_ret | apply kept_new_static]|]. intros r.
      apply kept_bind; [destruct gate; [apply kept_ret | apply kept_new_static]|]. intros ga. intros w0 f0.
      pose proof (kept_reset_new name hide em r ga (new_node P seed) w0 f0) as K. cbn zeta in K.
      unfold mbind at 1. unfold alloc_fd in *. cbn [snd] in K. unfold mbind, ret.
      destruct (fd_reset P fuel _ _) as [[]]; exact K.
    - apply kept_em_set.
    - cbn [field_steps]. destruct (get_em id w) as [e|] eqn:E.
      + destruct e; try (apply set_other; intros; congruence).
        rewrite (set_based _ _ _ _ _ _ _ E). rewrite (until_previous P fuel str_of g _ _ (calls_basic _)).
        f_equal. apply kept_modify_em.
      + apply set_other. congruence.
    - apply kept_modify. destruct p; reflexivity.
    - apply kept_modify. reflexivity.
    - cbn [field_steps]. unfold em_reset_source, at_em. destruct (get_em id w) as [[]|]; try reflexivity;
        (rewrite source_resets; apply until_previous, resets_basic).
    - cbn [field_steps]. unfold em_seed_source. refine (kept_at _ _ _ _ w g). intros e; destruct e; try apply kept_raise.
      apply kept_do_method. intros o w' m [= <-]. apply (seed_previous P fuel str_of).
    - refine (kept_at _ _ _ _ w g). intros e; destruct e; try apply kept_raise; intros v0 f0; apply previous_put.
    - refine (kept_at _ _ _ _ w g). intros e; destruct e; try apply kept_raise; intros v0 f0; apply previous_put.
    - rewrite Z, run_pieces. apply until_previous, pieces_basic.
    - apply T. apply kept_bind; [apply kept_alloc|]. intros id.
      apply kept_bind; [destruct random; [apply (kept_em_reset P fuel str_of) | apply kept_ret] | intros; apply kept_ret].
  Qed.

  (** In every program, whatever is constructed, assigned, used, reset or seeded,
      and whatever raises exceptions: the [previous] of a field is the value it
      returned when it was last called, or None if it has been reset since. *)
  Theorem C45_program f : forall l w,
    previous f (snd (run_program P fuel str_of l w)) = last_returned P f (program_steps P fuel str_of l w) (previous f w).
  Proof.
    induction l as [|c t IH]; intros w; [reflexivity|]. cbn [run_program program_steps].
    pose proof (command_previous f c w) as Q. rewrite <- show_world in Q.
    destruct (show P fuel str_of c w) as [r w1]. cbn [snd] in *. specialize (IH w1).
    destruct (run_program P fuel str_of t w1) as [rs w2]. cbn [snd] in *.
    unfold last_returned in *. rewrite fold_left_app, <- Q. exact IH.
  Qed.
End Remember.

(** A field of a sequence is called when an action is tried; hiding it changes
    nothing; resetting the source does. *)
Definition sum_action : wfun DP :=
  mkWfun DP None (fun args _ => match args with v :: _ => Ok v | [] => Raise TypeError end) (fun _ _ => ret VNone).
Definition remember_program : list (command DP) :=
  [ NewSequential DP true [VInt 3; VInt 4; VInt 5] false; NewField DP "a" 0 None None false None;
    Do DP (Call DP 0); NewBasedOnFields DP true [0%nat] sum_action None; SetHide DP 0 true; SetPart DP 0 PEmitter 0 ].
Example C45_program_case :
  let w l := snd (run_program DP 9 demo_str l (start DP 0)) in
  previous DP 0 (w (firstn 3 remember_program)) = VInt 3 /\
  previous DP 0 (w remember_program) = VInt 4 /\
  length (program_steps DP 9 demo_str remember_program (start DP 0)) = 2%nat /\
  previous DP 0 (w (remember_program ++ [ResetSource DP 3])) = VNone.
Proof. vm_compute. repeat split. Qed.

Print Assumptions C45_program.
