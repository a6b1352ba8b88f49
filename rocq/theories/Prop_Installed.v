(** * C60: a function that is assigned is there afterwards, refused or not. *)
From Coq Require Import String Relations.
From Verif Require Import Base Prims Values MathModel NumLaws ChoiceModel ChoiceRun ChoiceProofs FixedModel FixedSpec GroupModel
  SigModel SigSpec SigProofs WrapModel WrapSpec TextModel TextSpec TextProofs FieldModel FieldSpec World Rel WorldProofs Agree
  WorldSpec WorldReset Histories WorldBuild BuildProofs CountSpec Demo WorldDemo Prop_World Prop_Construct ProgramSpec
  ObjectSpec ObjectProofs ObjectCalls Prop_Choice Prop_Objects.
Open Scope list_scope.
Open Scope Z_scope.

Section Installed.
  Context {P : prims} (fuel : nat) (str_of : val -> res (list Z)).
  Notation world := (World.world P).
  Notation settings_at := (ObjectSpec.settings_at P).
  Notation kk := (keeps (kept none none)).

  Lemma reset_at id w r w' st : em_reset P fuel id w = (r, w') -> settings_at id w = Some st -> settings_at id w' = Some st.
  Proof. intros H. eapply kk_at; [apply (kk_reset fuel str_of) | exact H]. Qed.

  Lemma install_ok id f w st : settings_at id w = Some st -> exists w1, install P id f w = (Ok tt, w1).
  Proof. intros H. apply settings_get in H as (e & E & _). unfold install, modify_em, at_em. rewrite E. eauto. Qed.
  Lemma fin_at id f w r w' st : settings_at id w = Some st ->
    (install P id f ;;; em_reset P fuel id) w = (r, w') -> settings_at id w' = Some (with_function f st).
  Proof.
    intros H1 H2. destruct (install_ok id f w st H1) as (w1 & E). unfold mbind in H2. rewrite E in H2.
    eapply reset_at; [exact H2|]. pose proof (install_settings id f w st H1) as Q. rewrite E in Q. exact Q.
  Qed.

  Lemma sources_raise srcs w e w' :
    call_sources (map (fun ks => (fst ks, (em_call P fuel str_of (snd ks), em_call_n P fuel str_of (snd ks)))) srcs) w = (Raise e, w') ->
    fst (mapS (em_call P fuel str_of) (map snd srcs) w) = Raise e.
  Proof.
    unfold call_sources. revert w. induction srcs as [|[k s] t IH]; intros w H; cbn [map mapS fst snd] in *; [discriminate|].
    unfold mbind at 1 in H. unfold mbind at 1. unfold mbind at 1 in H.
    destruct (em_call P fuel str_of s w) as [[v|e1|] w1]; cbn [ret] in H; try (injection H as -> ->; reflexivity); try discriminate.
    unfold ret at 1 in H. unfold mbind at 1 in H. unfold mbind at 1.
    destruct (mapS _ (map _ t) w1) as [[vs|e2|] w2] eqn:E; try discriminate.
    injection H as -> ->. specialize (IH w1 E).
    destruct (mapS (em_call P fuel str_of) (map snd t) w1) as [[]]; cbn in *; congruence.
  Qed.

  (** The function assigned to the wrapper attribute of a WrapOne or WrapMany, or to the
      action attribute of a BasedOnFields, is installed whatever the outcome of the
      assignment is.  The exception is a WrapMany one of whose sources raises an
      exception when it is called for the test: then nothing is installed.  (Diverge:
      the assignment does not end.) *)
  Theorem C60_exact id f w r w' st :
    settings_at id w = Some st ->
    match st with IsWrapOne _ _ | IsWrapMany _ _ | IsBasedOnFields _ _ _ => True | _ => False end ->
    set_function P fuel str_of id f w = (r, w') -> r <> Diverge ->
    settings_at id w' = Some (with_function f st) \/
    (exists srcs f0 e, st = IsWrapMany srcs f0 /\ r = Raise e /\ settings_at id w' = Some st /\
       fst (mapS (em_call P fuel str_of) (map snd srcs) w) = Raise e).
  Proof.
    intros Hst Hk H Nd. pose proof Hst as Hst0. apply settings_get in Hst as (e & E & <-). unfold set_function, at_em in H. rewrite E in H.
    destruct e; cbn [settings_of] in Hk; try contradiction; clear Hk.
    - left. unfold wrapone_set, try_finally in H.
      destruct ((v <~ em_call P fuel str_of source ;; try_mock_call (bound P id f) [v] []) w) as [r1 w1] eqn:E1.
      assert (H1 : settings_at id w1 = Some (settings_of P (EWrapOne P source w0 nd))).
      { eapply kk_at; [|exact E1|exact Hst0]. apply kk_bind; [apply kk_call|]. intros v. apply kk_mock. }
      destruct r1 as [a|e1|]; [| |congruence];
      destruct ((install P id f ;;; em_reset P fuel id) w1) as [r2 w2] eqn:E2;
      pose proof (fin_at id f w1 r2 w2 _ H1 E2); destruct r2; congruence.
    - unfold wrapmany_set in H. unfold mbind at 1 in H.
      destruct (call_sources _ w) as [r1 w1] eqn:E1.
      assert (H1 : settings_at id w1 = Some (settings_of P (EWrapMany P sources w0 nd))).
      { eapply kk_at; [|exact E1|exact Hst0]. apply rel_keeps; [apply kept_refl|]. intros s0. apply rel_call_sources. apply kk_sources. }
      destruct r1 as [kw|e1|]; [left | right | congruence].
      + unfold try_finally in H. destruct (try_mock_call (bound P id f) [] kw w1) as [r2 w2] eqn:E2.
        assert (H2 : settings_at id w2 = Some (settings_of P (EWrapMany P sources w0 nd))) by (eapply kk_at; [apply kk_mock | exact E2 | exact H1]).
        destruct r2 as [a|e2|]; [| |congruence];
        destruct ((install P id f ;;; em_reset P fuel id) w2) as [r3 w3] eqn:E3;
        pose proof (fin_at id f w2 r3 w3 _ H2 E3); destruct r3; congruence.
      + injection H as <- <-. cbn [settings_of] in *. eexists _, _, _. split; [reflexivity|]. split; [reflexivity|]. split; [exact H1|].
        eapply sources_raise. exact E1.
    - left. unfold based_set in H. unfold mbind at 1 in H.
      destruct (install_ok id f w _ Hst0) as (w1 & E1). rewrite E1 in H.
      pose proof (install_settings id f w _ Hst0) as H1. rewrite E1 in H1. cbn [snd] in H1.
      unfold mbind at 1 in H. destruct (mapS _ _ w1) as [r2 w2] eqn:E2.
      assert (H2 : settings_at id w2 = Some (with_function f (settings_of P (EBased P single source w0 nd)))).
      { eapply kk_at; [|exact E2|exact H1].
        apply rel_keeps; [apply kept_refl|]. intros s0. apply rel_mapS. intros nc Hin. apply in_map_iff in Hin as (x & <- & _). cbn [fst snd].
        apply keeps_rel; [apply kept_trans|]. apply kk_bind; [apply kk_fd_call|]. intros v. apply kk_ret. }
      destruct r2 as [vals|e2|]; [| injection H as <- <-; exact H2 | congruence].
      destruct (action_args vals) as [args kw]. unfold try_finally in H.
      destruct (try_mock_call (bound P id f) args kw w2) as [r3 w3] eqn:E3.
      assert (H3 : settings_at id w3 = Some (with_function f (settings_of P (EBased P single source w0 nd)))) by (eapply kk_at; [apply kk_mock | exact E3 | exact H2]).
      destruct r3 as [a|e3|]; [| |congruence];
      destruct (em_reset P fuel id w3) as [r4 w4] eqn:E4;
      pose proof (reset_at id w3 r4 w4 _ E4 H3); destruct r4; congruence.
  Qed.
End Installed.
Print Assumptions C60_exact.

(** A refused function, installed. *)
Example C60_exact_case :
  let w := program one_wrapper empty in
  let m := set_function DP 9 demo_str 1 two_params w in
  settings_at DP 1 w = Some (IsWrapOne 0 identity) /\ fst m = Raise TypeError /\
  settings_at DP 1 (snd m) = Some (IsWrapOne 0 two_params).
Proof. repeat split; vm_compute; reflexivity. Qed.
