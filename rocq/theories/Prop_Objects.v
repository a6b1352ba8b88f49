(** * Settings of objects: properties C67 and C68; objects as parts of others: C69. *)
From Coq Require Import String Relations.
From Verif Require Import Base Prims Values MathModel NumLaws ChoiceModel ChoiceRun ChoiceProofs FixedModel FixedSpec GroupModel
  SigModel SigSpec SigProofs WrapModel WrapSpec TextModel TextSpec TextProofs FieldModel FieldSpec World Rel WorldProofs Agree
  WorldSpec WorldReset Histories WorldBuild BuildProofs CountSpec Demo WorldDemo Prop_World Prop_Construct ProgramSpec
  ObjectSpec ObjectProofs ObjectCalls Prop_Choice.
Open Scope list_scope.
Open Scope Z_scope.

Section Settings.
  Context {P : prims} (fuel : nat) (str_of : val -> res (list Z)).
  Notation world := (World.world P).
  Notation emitter := (World.emitter P).
  Notation get_em := (World.get_em P).
  Notation get_fd := (World.get_fd P).
  Notation settings_at := (ObjectSpec.settings_at P).
  Notation field_settings_at := (ObjectSpec.field_settings_at P).
  Notation exec := (WorldBuild.exec P fuel str_of).
  Notation run_program := (ProgramSpec.run_program P fuel str_of).

  (** ** C67: settings last *)

  Lemma show_exec c w : snd (show P fuel str_of c w) = snd (exec c w).
  Proof.
    destruct c; cbn [show]; try (unfold mbind; destruct (exec _ w) as [[|e|] w1]; reflexivity).
    cbn [WorldBuild.exec]. unfold mbind. destruct (run P fuel str_of o w) as [[a|e|] w1]; reflexivity.
  Qed.

  (** Whatever is done with objects, this one included, and whatever exceptions
      are raised: the settings of an emitter change only when they are assigned
      to. *)
  Theorem C67_kept id st l : forall w,
    settings_at id w = Some st -> Forall (fun c => ~ assigns_to P id c) l ->
    settings_at id (snd (run_program l w)) = Some st.
  Proof.
    induction l as [|c t IH]; intros w H F; [exact H|]. inversion F as [|? ? Hc Ht]; subst.
    cbn [ProgramSpec.run_program]. pose proof (show_exec c w) as E. destruct (show P fuel str_of c w) as [r w1]. cbn [snd] in E. subst w1.
    specialize (IH (snd (exec c w))). destruct (run_program t (snd (exec c w))) as [rs w2]. cbn [snd] in *. apply IH; [|exact Ht].
    apply (proj1 (exec_kept fuel str_of c w)); assumption.
  Qed.
  Theorem C67_kept_field f st l : forall w,
    field_settings_at f w = Some st -> Forall (fun c => ~ assigns_to_field P f c) l ->
    field_settings_at f (snd (run_program l w)) = Some st.
  Proof.
    induction l as [|c t IH]; intros w H F; [exact H|]. inversion F as [|? ? Hc Ht]; subst.
    cbn [ProgramSpec.run_program]. pose proof (show_exec c w) as E. destruct (show P fuel str_of c w) as [r w1]. cbn [snd] in E. subst w1.
    specialize (IH (snd (exec c w))). destruct (run_program t (snd (exec c w))) as [rs w2]. cbn [snd] in *. apply IH; [|exact Ht].
    apply (proj2 (exec_kept fuel str_of c w)); assumption.
  Qed.

  (** ** C67: assignments take effect *)

  Lemma settings_get id w st : settings_at id w = Some st -> exists e, get_em id w = Some e /\ settings_of P e = st.
  Proof. unfold ObjectSpec.settings_at. destruct (get_em id w) as [e|]; [|discriminate]. intros H. injection H as <-. eauto. Qed.
  Lemma settings_put id e e' w : get_em id w = Some e -> settings_at id (put_em P id e' w) = Some (settings_of P e').
  Proof. intros H. unfold ObjectSpec.settings_at. erewrite get_put_same by exact H. reflexivity. Qed.

  Lemma sums_of ws : running_sums P ws (accumulate P ws).
  Proof.
    split; [apply accumulate_length'|]. split.
    - destruct ws as [|w t]; cbn; [discriminate|]. auto.
    - intros i c w Hc Hw.
      assert (Hi : (S i < length ws)%nat) by (apply nth_error_Some; congruence).
      rewrite (nth_error_nth' _ c); [|rewrite accumulate_length'; exact Hi]. f_equal.
      rewrite accumulate_nth by exact Hi. f_equal; [now apply nth_error_nth | now apply nth_error_nth].
  Qed.
  Lemma de_cum_nth cs : forall p i, nth_error (de_cum P p cs) i =
    match i with
    | O => option_map (fun c => w_sub P c p) (nth_error cs 0)
    | S j => match nth_error cs j, nth_error cs i with Some a, Some b => Some (w_sub P b a) | _, _ => None end
    end.
  Proof.
    induction cs as [|c t IH]; intros p [|i]; cbn [de_cum nth_error]; try reflexivity.
    - destruct i; reflexivity.
    - rewrite IH. destruct i as [|i]; cbn [nth_error]; [destruct t; reflexivity | reflexivity].
  Qed.
  Lemma de_cum_len cs : forall p, length (de_cum P p cs) = length cs.
  Proof. induction cs; intros; cbn; auto. Qed.
  Lemma differences_of cs : differences P (de_cum P (w_zero P) cs) cs.
  Proof.
    split; [apply de_cum_len|]. split.
    - intros c H. rewrite de_cum_nth, H. reflexivity.
    - intros i c c' H H'. rewrite de_cum_nth, H, H'. reflexivity.
  Qed.

  Lemma weights_after ws cum (c c' : @choice P val) : set_weights P fuel ws cum c = (Ok tt, c') ->
    exists wc, all_weights P (c_items c) ws cum = Ok wc /\
      c_items c' = c_items c /\ c_weights c' = fst wc /\ c_cum c' = snd wc /\ c_replace c' = c_replace c /\ c_roac c' = c_roac c.
  Proof.
    unfold set_weights, mbind, ChoiceModel.get, lift, modify, ret. destruct (all_weights P (c_items c) ws cum) as [wc| |]; try discriminate.
    destruct (c_replace c) eqn:Er.
    - intros H. injection H as <-. exists wc. rewrite <- Er. repeat split.
    - intros H. apply global_shuffle_any in H as [(F1 & F2 & F3 & F4 & F5 & _) _]. exists wc.
      rewrite F1, F2, F3, F4, F5, <- Er. repeat split.
  Qed.
  Lemma replace_after b (c c' : @choice P val) : (c_roac c = true -> c_replace c = true) -> set_replace P fuel b c = (Ok tt, c') ->
      c_items c' = c_items c /\ c_weights c' = c_weights c /\ c_cum c' = c_cum c /\ c_replace c' = b /\ c_roac c' = (b && c_roac c)%bool.
  Proof.
    intros Hr. unfold set_replace, mbind, ChoiceModel.get, modify, ret. destruct (Bool.eqb b (c_replace c)) eqn:E.
    - apply Bool.eqb_prop in E. subst b. intros H. injection H as <-. repeat split.
      destruct (c_replace c), (c_roac c); try reflexivity. discriminate (Hr eq_refl).
    - destruct b.
      + intros H. injection H as <-. repeat split.
      + intros H. apply global_shuffle_any in H as [(F1 & F2 & F3 & F4 & F5 & _) _].
        rewrite F1, F2, F3, F4, F5. repeat split.
  Qed.
  Lemma roac_after b (c c' : @choice P val) : set_replace_only_after_call P fuel b c = (Ok tt, c') ->
      c_items c' = c_items c /\ c_weights c' = c_weights c /\ c_cum c' = c_cum c /\ c_replace c' = (b || c_replace c)%bool /\ c_roac c' = b.
  Proof.
    unfold set_replace_only_after_call, mbind, modify, ret. destruct b.
    - unfold set_replace, mbind, ChoiceModel.get, modify, ret. destruct (Bool.eqb true _) eqn:E; intros H; injection H as <-; repeat split.
      cbn in E |- *. destruct (c_replace c); [reflexivity | discriminate].
    - intros H. injection H as <-. repeat split.
  Qed.

  Lemma em_set_effect id s w w' st : all_alone fuel w -> em_set P fuel id s w = (Ok tt, w') -> settings_at id w = Some st ->
    exists st', assigned P st (SetEmitter P id s) st' /\ settings_at id w' = Some st'.
  Proof.
    intros Al H Hst. apply settings_get in Hst as (e & E & <-). pose proof (Al _ _ E) as Ae. unfold em_set, at_em in H. rewrite E in H.
    destruct e, s as [v|fa|b|cs]; try discriminate; cbn [settings_of].
    - unfold modify_em, at_em in H. rewrite E in H. injection H as <-. eexists. split; [constructor|]. rewrite (settings_put _ _ _ _ E). reflexivity.
    - unfold run_iter, at_em, iter_set_factory in H. rewrite E in H. destruct (check_iter_factory fa 0); try discriminate.
      injection H as <-. eexists. split; [constructor|]. rewrite (settings_put _ _ _ _ E). reflexivity.
    - unfold run_iter, at_em in H. rewrite E in H. injection H as <-. eexists. split; [constructor|]. rewrite (settings_put _ _ _ _ E). reflexivity.
    - unfold mbind, run_seq, at_em, seq_set_factory in H. rewrite E in H.
      destruct (_ <- check_iter_factory fa 0 ;; check_seq_iter_factory fa 1); try discriminate.
      destruct (fa 2%nat) as [l h|] eqn:Ef; [|discriminate]. unfold modify_em, at_em in H.
      erewrite get_put_same in H by exact E. injection H as <-. eexists.
      split; [eapply as_seq_factory; exact Ef|].
      rewrite (settings_put id (ESeq P islist (seq_reset (mkSeq l false fa (mkGen 3 None) (s_rac s0))))) by (eapply get_put_same; exact E).
      reflexivity.
    - unfold run_seq, at_em in H. rewrite E in H. injection H as <-. eexists. split; [constructor|]. rewrite (settings_put _ _ _ _ E). reflexivity.
    - cbn in Ae. destruct Ae as (items & Re). destruct (reach_any_inv P val_setsize fuel _ _ Re) as (Hi & _ & Hr).
      destruct cs as [ws|ws|b|b]; unfold run_choice, at_em in H; rewrite E in H.
      + destruct (set_weights P fuel ws false c) as [r c'] eqn:Ew. injection H as -> <-.
        apply weights_after in Ew as (wc & Ha & E1 & E2 & E3 & E4 & E5). rewrite (settings_put _ _ _ _ E). cbn [settings_of].
        rewrite E1, E2, E3, E4, E5. eexists. split; [|reflexivity].
        destruct ws as [ws|]; cbn in Ha; [|injection Ha as <-; constructor; auto].
        destruct (Nat.eqb_spec (length (c_items c)) (length ws)) as [El|]; [|discriminate]. cbn [negb] in Ha. injection Ha as <-.
        constructor; [auto | apply sums_of].
      + destruct (set_weights P fuel ws true c) as [r c'] eqn:Ew. injection H as -> <-.
        apply weights_after in Ew as (wc & Ha & E1 & E2 & E3 & E4 & E5). rewrite (settings_put _ _ _ _ E). cbn [settings_of].
        rewrite E1, E2, E3, E4, E5. eexists. split; [|reflexivity].
        destruct ws as [ws|]; cbn in Ha; [|injection Ha as <-; constructor; auto].
        destruct (Nat.eqb_spec (length (c_items c)) (length ws)) as [El|]; [|discriminate]. cbn [negb] in Ha. injection Ha as <-.
        constructor; [auto | apply differences_of].
      + destruct (set_replace P fuel b c) as [r c'] eqn:Ew. injection H as -> <-.
        apply replace_after in Ew as (E1 & E2 & E3 & E4 & E5); [|exact Hr]. rewrite (settings_put _ _ _ _ E). cbn [settings_of].
        rewrite E1, E2, E3, E4, E5. eexists. split; [constructor | reflexivity].
      + destruct (set_replace_only_after_call P fuel b c) as [r c'] eqn:Ew. injection H as -> <-.
        apply roac_after in Ew as (E1 & E2 & E3 & E4 & E5). rewrite (settings_put _ _ _ _ E). cbn [settings_of].
        rewrite E1, E2, E3, E4, E5. eexists. split; [constructor | reflexivity].
  Qed.

  Notation kk := (keeps (kept none none)).
  Lemma kk_mock i f args kw : kk (try_mock_call (bound P i f) args kw).
  Proof. apply rel_keeps; [apply kept_refl|]. intros s0. apply rel_try_mock_call. apply bound_kept. Qed.
  Lemma kk_at A (m : M world A) r i w w' st : kk m -> m w = (r, w') -> settings_at i w = Some st -> settings_at i w' = Some st.
  Proof. intros K H. specialize (K w). rewrite H in K. apply (proj1 K). exact (fun x => x). Qed.

  (** What installing a function makes of the settings. *)
  Definition with_function (f : wfun P) (st : settings P) : settings P :=
    match st with
    | IsWrapOne s _ => IsWrapOne s f
    | IsWrapMany ss _ => IsWrapMany ss f
    | IsBasedOnFields b fs _ => IsBasedOnFields b fs f
    | st => st
    end.
  Lemma install_settings i f w st : settings_at i w = Some st -> settings_at i (snd (install P i f w)) = Some (with_function f st).
  Proof.
    intros H. apply settings_get in H as (e & E & <-). unfold install, modify_em, at_em. rewrite E. cbn [snd].
    rewrite (settings_put _ _ _ _ E). destruct e; reflexivity.
  Qed.

  (** A function that is assigned is there afterwards, even if the check of its
      signature raises an exception (the sources must not). *)
  Lemma set_function_effect id f w w' st : set_function P fuel str_of id f w = (Ok tt, w') -> settings_at id w = Some st ->
    assigned P st (SetFunction P id f) (with_function f st) /\ settings_at id w' = Some (with_function f st).
  Proof.
    intros H Hst. pose proof Hst as Hst0. apply settings_get in Hst as (e & E & <-). unfold set_function, at_em in H. rewrite E in H.
    assert (Fin : forall w1 w2, settings_at id w1 = Some (settings_of P e) -> (install P id f ;;; em_reset P fuel id) w1 = (Ok tt, w2) ->
      settings_at id w2 = Some (with_function f (settings_of P e))).
    { intros w1 w2 H1 H2. apply mbind_ok_inv in H2 as (u & w3 & H2 & H3).
      eapply kk_at; [apply (kk_reset fuel str_of) | exact H3|]. apply install_settings with (f := f) in H1. rewrite H2 in H1. exact H1. }
    destruct e; try discriminate.
    - split; [constructor|]. apply try_finally_ok_inv in H as (w1 & H1 & H2). eapply Fin; [|exact H2].
      eapply kk_at; [|exact H1|exact Hst0]. apply kk_bind; [apply kk_call|]. intros v. apply kk_mock.
    - split; [constructor|]. apply mbind_ok_inv in H as (kw & w1 & H1 & H). apply try_finally_ok_inv in H as (w2 & H2 & H3).
      eapply Fin; [|exact H3]. eapply kk_at; [apply kk_mock | exact H2|]. eapply kk_at; [|exact H1|exact Hst0].
      apply rel_keeps; [apply kept_refl|]. intros s0. apply rel_call_sources. apply kk_sources.
    - split; [constructor|]. apply mbind_ok_inv in H as ([] & w1 & H1 & H). apply mbind_ok_inv in H as (vals & w2 & H2 & H).
      destruct (action_args vals) as [args kw]. apply try_finally_ok_inv in H as (w3 & H3 & H4).
      eapply kk_at; [apply (kk_reset fuel str_of) | exact H4|]. eapply kk_at; [apply kk_mock | exact H3|].
      eapply kk_at; [|exact H2|].
      + apply rel_keeps; [apply kept_refl|]. intros s0. apply rel_mapS. intros nc Hin. apply in_map_iff in Hin as (x & <- & _). cbn [fst snd].
        apply keeps_rel; [apply kept_trans|]. apply kk_bind; [apply kk_fd_call|]. intros v. apply kk_ret.
      + apply install_settings with (f := f) in Hst0. rewrite H1 in Hst0. exact Hst0.
  Qed.

  (** An assignment that raises no exception has the effect it should have. *)
  Theorem C67_assigned id c w w' st :
    reachable P fuel str_of w -> assigns_to P id c -> exec c w = (Ok tt, w') -> settings_at id w = Some st ->
    exists st', assigned P st c st' /\ settings_at id w' = Some st'.
  Proof.
    intros Rw Ha H Hst. destruct c; try contradiction; cbn in Ha; subst; cbn [WorldBuild.exec] in H.
    - eapply em_set_effect; eauto. eapply reachable_alone; exact Rw.
    - exists (with_function f st). eapply set_function_effect; eauto.
    - apply settings_get in Hst as (e & E & <-). unfold set_source, at_em in H. rewrite E in H.
      destruct e; try discriminate; injection H as <-; eexists; (split; [constructor|]); rewrite (settings_put _ _ _ _ E); reflexivity.
    - apply settings_get in Hst as (e & E & <-). unfold set_separator, at_em in H. rewrite E in H.
      destruct e; try discriminate; injection H as <-; eexists; (split; [constructor|]); rewrite (settings_put _ _ _ _ E); reflexivity.
  Qed.

  Definition with_part (p : part) (i : nat) (x : string * bool * nat * nat * nat) : string * bool * nat * nat * nat :=
    let '(n, h, e, r, g) := x in
    match p with PEmitter => (n, h, i, r, g) | PRepeat => (n, h, e, i, g) | PGate => (n, h, e, r, i) end.
  Theorem C67_assigned_field f w x : field_settings_at f w = Some x ->
    (forall p i, exec (SetPart P f p i) w = (Ok tt, snd (exec (SetPart P f p i) w)) /\
       field_settings_at f (snd (exec (SetPart P f p i) w)) = Some (with_part p i x)) /\
    (forall b, exec (SetHide P f b) w = (Ok tt, snd (exec (SetHide P f b) w)) /\
       field_settings_at f (snd (exec (SetHide P f b) w)) = Some (let '(n, _, e, r, g) := x in (n, b, e, r, g))).
  Proof.
    unfold ObjectSpec.field_settings_at. destruct (get_fd f w) as [y|] eqn:E; [|discriminate]. intros H. injection H as <-.
    
    split.
    - intros p i. cbn [WorldBuild.exec]. unfold fd_set_part, modify_fd, at_fd. rewrite E. cbn [snd]. split; [reflexivity|].
      unfold World.get_fd, put_fd. cbn [w_fd]. erewrite nth_upd_same by exact E. destruct p; reflexivity.
    - intros b. cbn [WorldBuild.exec]. unfold fd_set_hide, modify_fd, at_fd. rewrite E. cbn [snd]. split; [reflexivity|].
      unfold World.get_fd, put_fd. cbn [w_fd]. erewrite nth_upd_same by exact E. reflexivity.
  Qed.
End Settings.

(** ** C68: what the constructors make *)

Section Constructors.
  Context {P : prims} (fuel : nat) (str_of : val -> res (list Z)).
  Notation world := (World.world P).
  Notation get_em := (World.get_em P).
  Notation get_fd := (World.get_fd P).
  Notation settings_at := (ObjectSpec.settings_at P).
  Notation field_settings_at := (ObjectSpec.field_settings_at P).

  (** A new object. *)
  Definition new_emitter (id : nat) (w : world) : Prop := get_em id w = None.
  Lemma fresh_new (w : world) : new_emitter (length (w_em P w)) w.
  Proof. unfold new_emitter, World.get_em. rewrite (proj2 (nth_error_None _ _)); auto. Qed.
  Lemma alloc_get e (w : world) : get_em (length (w_em P w)) (snd (alloc_em P e w)) = Some e.
  Proof. unfold alloc_em. cbn [snd]. rewrite get_em_app, Nat.eqb_refl. reflexivity. Qed.
  Lemma alloc_settings e (w : world) : settings_at (length (w_em P w)) (snd (alloc_em P e w)) = Some (settings_of P e).
  Proof. unfold ObjectSpec.settings_at. rewrite alloc_get. reflexivity. Qed.

  Theorem C68_static v w : exists id w', new_static P v w = (Ok id, w') /\ new_emitter id w /\
    settings_at id w' = Some (IsStatic v [v]).
  Proof. do 2 eexists. split; [reflexivity|]. split; [apply fresh_new | apply (alloc_settings (EStatic P (static_new v)))]. Qed.
  Theorem C68_iterative f rac w id w' : new_iter P f rac w = (Ok id, w') -> new_emitter id w /\ settings_at id w' = Some (IsIterative f rac).
  Proof.
    unfold new_iter, iter_new. unfold mbind, lift. destruct (check_iter_factory f 0); cbn [bind]; try discriminate.
    intros H. injection H as <- <-. split; [apply fresh_new | apply (alloc_settings (EIter P (iter_reset (mkIter f (mkGen 1 None) rac))))].
  Qed.
  Theorem C68_sequential b items rac w id w' : new_seq P b items rac w = (Ok id, w') ->
    items <> [] /\ new_emitter id w /\ settings_at id w' = Some (IsSequential b items None rac).
  Proof.
    unfold new_seq, seq_new. unfold mbind, lift. destruct items as [|x t]; try discriminate.
    intros H. injection H as <- <-. split; [discriminate|]. split; [apply fresh_new|].
    apply (alloc_settings (ESeq P b (seq_reset (mkSeq (x :: t) true (fun _ => Finite (x :: t) true) (mkGen 0 None) rac)))).
  Qed.

  (** The weights and cumulative weights from the two arguments, of which at most
      one may be given (an empty list counts as not given). *)
  Inductive weights_from : option (list (pW P)) -> option (list (pW P)) -> option (list (pW P)) -> option (list (pW P)) -> Prop :=
  | from_none w : nonempty w = false -> weights_from w None None None
  | from_weights ws cs cum : nonempty cum = false -> running_sums P ws cs -> weights_from (Some ws) cum (Some ws) (Some cs)
  | from_cum ws cs w : nonempty w = false -> differences P ws cs -> weights_from w (Some cs) (Some ws) (Some cs).
  Theorem C68_choice b items weights replace roac seed cum w id w' :
    new_choice P fuel b items weights replace roac seed cum w = (Ok id, w') ->
    items <> [] /\ new_emitter id w /\
    exists ws cs, weights_from weights cum ws cs /\
      (forall l, ws = Some l -> length l = length items) /\ (forall l, cs = Some l -> length l = length items) /\
      settings_at id w' = Some (IsChoice b items ws cs (replace || roac) roac) /\
      (forall c, get_em id w' = Some (EChoice P b c) -> c_seed c = seed).
  Proof.
    unfold new_choice. unfold mbind, lift.
    destruct (choice_new P fuel items weights replace roac seed cum (em_entropy (length (w_em P w)) (w_run P w))) as [c| |] eqn:E; try discriminate.
    apply new_inv in E as (wc & Hne & Ha & Hr & Hn). intros H. injection H as <- <-.
    split; [exact Hne|]. split; [apply fresh_new|].
    assert (F : c_items c = items /\ c_weights c = fst wc /\ c_cum c = snd wc /\ c_replace c = (replace || roac)%bool /\ c_roac c = roac /\ c_seed c = seed).
    { apply reset_any in Hr as [(F1 & F2 & F3 & F4 & F5 & F6) _]. cbn in *. repeat split; auto. }
    destruct F as (F1 & F2 & F3 & F4 & F5 & F6). exists (fst wc), (snd wc).
    assert (G : get_em (length (w_em P w)) (use_entropy P (length (w_em P w)) (snd (alloc_em P (EChoice P b c) w))) = Some (EChoice P b c)).
    { rewrite get_use. apply alloc_get. }
    assert (S : settings_at (length (w_em P w)) (use_entropy P (length (w_em P w)) (snd (alloc_em P (EChoice P b c) w))) =
      Some (IsChoice b items (fst wc) (snd wc) (replace || roac) roac)).
    { unfold ObjectSpec.settings_at. rewrite G. cbn. rewrite F1, F2, F3, F4, F5. reflexivity. }
    assert (W : weights_from weights cum (fst wc) (snd wc) /\
      (forall l, fst wc = Some l -> length l = length items) /\ (forall l, snd wc = Some l -> length l = length items)).
    { destruct (nonempty weights) eqn:N1; cbn [andb] in Hn.
      - rewrite Hn in Ha. destruct weights as [ws|]; [|discriminate]. cbn in Ha.
        destruct (Nat.eqb_spec (length items) (length ws)) as [El|]; [|discriminate]. injection Ha as <-. cbn [fst snd].
        split; [constructor; [exact Hn | apply sums_of]|].
        split; intros l Hl; injection Hl as <-; [auto | rewrite accumulate_length'; auto].
      - destruct cum as [cs|]; cbn in Ha.
        + destruct (Nat.eqb_spec (length items) (length cs)) as [El|]; [|discriminate]. cbn [negb] in Ha.
          destruct cs as [|x cs]; [destruct items; [congruence | discriminate El]|]. cbn [nonempty] in Ha. injection Ha as <-. cbn [fst snd].
          split; [constructor; [exact N1 | apply (differences_of (x :: cs))]|].
          split; intros l Hl; injection Hl as <-; [change (length (de_cum P (w_zero P) (x :: cs)) = length items); rewrite de_cum_len; auto | auto].
        + injection Ha as <-. cbn [fst snd]. split; [|split; intros l Hl; discriminate Hl].
          constructor. exact N1. }
    destruct W as (W1 & W2 & W3). split; [exact W1|]. split; [exact W2|]. split; [exact W3|]. split; [exact S|].
    intros c0 Hc. unfold alloc_em in G. cbn [snd] in G. rewrite G in Hc. injection Hc as <-. exact F6.
  Qed.
  Lemma alloc_inv e (w : world) id w' : alloc_em P e w = (Ok id, w') -> id = length (w_em P w) /\ new_emitter id w /\ w' = snd (alloc_em P e w) /\ get_em id w' = Some e.
  Proof. intros H. pose proof (alloc_get e w) as G. rewrite H in G |- *. injection H as <- <-. repeat split; auto using fresh_new. Qed.
  Lemma settings_some id (w : world) e : get_em id w = Some e -> settings_at id w = Some (settings_of P e).
  Proof. unfold ObjectSpec.settings_at. intros ->. reflexivity. Qed.

  (** Word(length_emitter, alphabet_emitter): num_unique_values is calculated from
      what the two are then. *)
  Theorem C68_word l a seed w id w' : (l < length (w_em P w))%nat -> (a < length (w_em P w))%nat ->
    new_word P fuel l a seed w = (Ok id, w') ->
    new_emitter id w /\ settings_at id w' = Some (IsWord l a) /\
    nuv_at P id w' = (n <- nuv_at P a w' ;; word_nuv n (items_list P l w')).
  Proof.
    intros Ll La H. unfold new_word in H. apply mbind_ok_inv in H as (i & w1 & H1 & H). apply alloc_inv in H1 as (Hi & N & _ & G).
    apply mbind_ok_inv in H as ([] & w2 & H2 & H). apply mbind_ok_inv in H as (u & w3 & H3 & H).
    injection H3 as Hu <-. apply mbind_ok_inv in H as ([] & w4 & H4 & H). injection H as <- <-.
    split; [exact N|].
    pose proof (kk_at _ _ _ i _ _ _ (kk_reset fuel str_of none none i) H2 (settings_some _ _ _ G)) as S2.
    cbn [settings_of] in S2. apply settings_get in S2 as (e & E & Se). destruct e; try discriminate. injection Se as -> ->.
    unfold modify_em, at_em in H4. rewrite E in H4. injection H4 as <-.
    assert (G4 : get_em i (put_em P i (EWord P l a u nd) w2) = Some (EWord P l a u nd)) by (eapply get_put_same; exact E).
    split; [apply (settings_some _ _ _ G4)|].
    unfold nuv_at at 1. rewrite G4. cbn [nuv_of].
    unfold nuv_at, items_list in *. rewrite !get_put_other by lia. symmetry. exact Hu.
  Qed.

  (** Text(numwords_emitter, word_emitter, sep_emitter); without sep_emitter there
      is a new Static emitter for a space. *)
  Theorem C68_text n x sep seed w id w' :
    (n < length (w_em P w))%nat -> (x < length (w_em P w))%nat -> (forall s, sep = Some s -> (s < length (w_em P w))%nat) ->
    new_text P fuel n x sep seed w = (Ok id, w') ->
    exists sp, new_emitter id w /\ settings_at id w' = Some (IsText n x sp) /\
      (sep = Some sp \/ sep = None /\ new_emitter sp w /\ settings_at sp w' = Some (IsStatic (VStr [32]) [VStr [32]])) /\
      nuv_at P id w' = (a <- nuv_at P x w' ;; b <- nuv_at P sp w' ;; text_nuv a b (items_list P n w')).
  Proof.
    intros Ln Lx Ls H. unfold new_text in H. apply mbind_ok_inv in H as (sp & w0 & H0 & H).
    assert (A : (sp < length (w_em P w0))%nat /\ (length (w_em P w) <= length (w_em P w0))%nat /\
      (sep = Some sp \/ sep = None /\ new_emitter sp w /\ settings_at sp w0 = Some (IsStatic (VStr [32]) [VStr [32]]))).
    { destruct sep as [s|].
      - injection H0 as <- <-. split; [apply Ls; reflexivity | auto].
      - pose proof (alloc_settings (EStatic P (static_new (VStr [32]))) w) as A. unfold new_static in H0. rewrite H0 in A.
        injection H0 as <- <-. cbn [w_em]. rewrite app_length. cbn [length]. split; [lia|]. split; [lia|].
        right. split; [reflexivity|]. split; [apply fresh_new | exact A]. }
    destruct A as (Lsp & Le & A).
    apply mbind_ok_inv in H as (i & w1 & H1 & H). pose proof (kept_alloc none none (EText P n x sp Unknown (new_node P seed)) w0) as K1.
    rewrite H1 in K1. apply alloc_inv in H1 as (Hi & _ & _ & G).
    assert (N : new_emitter i w). { unfold new_emitter, World.get_em. rewrite (proj2 (nth_error_None _ _)); auto. lia. }
    apply mbind_ok_inv in H as ([] & w2 & H2 & H). apply mbind_ok_inv in H as (u & w3 & H3 & H).
    injection H3 as Hu <-. apply mbind_ok_inv in H as ([] & w4 & H4 & H). injection H as <- <-.
    exists sp. split; [exact N|].
    pose proof (kk_at _ _ _ i _ _ _ (kk_reset fuel str_of none none i) H2 (settings_some _ _ _ G)) as S2.
    cbn [settings_of] in S2. apply settings_get in S2 as (e & E & Se). destruct e; try discriminate. injection Se as -> -> ->.
    unfold modify_em, at_em in H4. rewrite E in H4. injection H4 as <-.
    assert (G4 : get_em i (put_em P i (EText P n x sp u nd) w2) = Some (EText P n x sp u nd)) by (eapply get_put_same; exact E).
    split; [apply (settings_some _ _ _ G4)|]. split.
    - destruct A as [A|(A1 & A2 & A3)]; [left; exact A|]. right. split; [exact A1|]. split; [exact A2|].
      unfold ObjectSpec.settings_at. rewrite get_put_other by lia.
      eapply kk_at; [apply (kk_reset fuel str_of none none i) | exact H2|]. apply (proj1 K1); [exact (fun x => x) | exact A3].
    - unfold nuv_at at 1. rewrite G4. cbn [nuv_of].
      unfold nuv_at, items_list in *. rewrite !get_put_other by lia. symmetry. exact Hu.
  Qed.

  Lemma wrapper_made e f w id w' st : settings_of P e = st -> with_function f st = st ->
    (id <~ alloc_em P e ;; em_reset P fuel id ;;; set_function P fuel str_of id f ;;; ret id) w = (Ok id, w') ->
    new_emitter id w /\ settings_at id w' = Some st.
  Proof.
    intros He Hf H. apply mbind_ok_inv in H as (i & w1 & H1 & H). apply alloc_inv in H1 as (Hi & N & _ & G).
    apply mbind_ok_inv in H as ([] & w2 & H2 & H). apply mbind_ok_inv in H as ([] & w3 & H3 & H). injection H as <- <-.
    split; [exact N|]. pose proof (kk_at _ _ _ i _ _ _ (kk_reset fuel str_of none none i) H2 (settings_some _ _ _ G)) as S2.
    rewrite He in S2. rewrite <- Hf. eapply set_function_effect; eauto.
  Qed.
  Theorem C68_wrapone src f seed w id w' : new_wrapone P fuel str_of src f seed w = (Ok id, w') ->
    new_emitter id w /\ settings_at id w' = Some (IsWrapOne src f).
  Proof. eapply wrapper_made; reflexivity. Qed.
  Theorem C68_wrapmany srcs f seed w id w' : new_wrapmany P fuel str_of srcs f seed w = (Ok id, w') ->
    new_emitter id w /\ settings_at id w' = Some (IsWrapMany srcs f).
  Proof. eapply wrapper_made; reflexivity. Qed.
  Theorem C68_basedonfields b fs f seed w id w' : new_based P fuel str_of b fs f seed w = (Ok id, w') ->
    new_emitter id w /\ settings_at id w' = Some (IsBasedOnFields b fs f).
  Proof. eapply wrapper_made; reflexivity. Qed.
  Theorem C68_copyfields b fs sep w : exists id w', new_copy P b fs sep w = (Ok id, w') /\ new_emitter id w /\
    settings_at id w' = Some (IsCopyFields b fs sep).
  Proof. do 2 eexists. split; [reflexivity|]. split; [apply fresh_new | apply (alloc_settings (ECopy P b fs sep))]. Qed.

  (** Field(name, emitter, repeat_emitter, gate_emitter, hide): without
      repeat_emitter and gate_emitter there are new Static emitters for None and
      True; the last value is None. *)
  Theorem C68_field name em rep gate hide seed w f w' :
    new_field P fuel name em rep gate hide seed w = (Ok f, w') ->
    exists r g, get_fd f w = None /\ field_settings_at f w' = Some (name, hide, em, r, g) /\ previous P f w' = VNone /\
      (rep = Some r \/ rep = None /\ new_emitter r w /\ settings_at r w' = Some (IsStatic VNone [VNone])) /\
      (gate = Some g \/ gate = None /\ new_emitter g w /\ settings_at g w' = Some (IsStatic (VBool true) [VBool true])).
  Proof.
    intros H. unfold new_field in H. apply mbind_ok_inv in H as (r & w1 & H1 & H). apply mbind_ok_inv in H as (g & w2 & H2 & H).
    apply mbind_ok_inv in H as (i & w3 & H3 & H). apply mbind_ok_inv in H as ([] & w4 & H4 & H). injection H as <- <-.
    assert (K1 : kept none none w w1) by (pose proof (kept_opt_static rep VNone w) as K; rewrite H1 in K; exact K).
    assert (K2 : kept none none w1 w2) by (pose proof (kept_opt_static gate (VBool true) w1) as K; rewrite H2 in K; exact K).
    pose proof (kept_alloc_fd none none (mkField P name hide em r g (new_node P seed) VNone 0) w2) as K3. rewrite H3 in K3.
    pose proof (kk_fd_reset fuel str_of none none i w3) as K4. rewrite H4 in K4. cbn [snd] in K3, K4.
    exists r, g.
    assert (Fw1 : w_fd P w1 = w_fd P w /\ (length (w_em P w) <= length (w_em P w1))%nat /\
      (rep = Some r \/ rep = None /\ new_emitter r w /\ settings_at r w1 = Some (IsStatic VNone [VNone]))).
    { destruct rep as [r0|].
      - injection H1 as <- <-. auto.
      - pose proof (alloc_settings (EStatic P (static_new VNone)) w) as A. unfold new_static in H1. rewrite H1 in A. injection H1 as <- <-.
        cbn [w_em w_fd]. rewrite app_length. split; [reflexivity|]. split; [lia|]. right. split; [reflexivity|]. split; [apply fresh_new | exact A]. }
    assert (Fw2 : w_fd P w2 = w_fd P w1 /\
      (gate = Some g \/ gate = None /\ new_emitter g w1 /\ settings_at g w2 = Some (IsStatic (VBool true) [VBool true]))).
    { destruct gate as [g0|].
      - injection H2 as <- <-. auto.
      - pose proof (alloc_settings (EStatic P (static_new (VBool true))) w1) as A. unfold new_static in H2. rewrite H2 in A. injection H2 as <- <-.
        cbn [w_fd]. split; [reflexivity|]. right. split; [reflexivity|]. split; [apply fresh_new | exact A]. }
    destruct Fw1 as (Fd1 & Len & A1). destruct Fw2 as (Fd2 & A2).
    assert (Gi : get_fd i w3 = Some (mkField P name hide em r g (new_node P seed) VNone 0)).
    { unfold alloc_fd in H3. injection H3 as <- <-. unfold World.get_fd. cbn [w_fd]. rewrite nth_error_app2, Nat.sub_diag by lia. reflexivity. }
    assert (Ni : get_fd i w = None).
    { unfold alloc_fd in H3. injection H3 as <- _. unfold World.get_fd. apply nth_error_None. rewrite Fd2, Fd1. lia. }
    assert (S3 : field_settings_at i w3 = Some (name, hide, em, r, g)) by (unfold ObjectSpec.field_settings_at; rewrite Gi; reflexivity).
    assert (X : forall k st, settings_at k w2 = Some st -> settings_at k w4 = Some st).
    { intros k st Hk. apply (proj1 K4); [exact (fun x => x)|]. apply (proj1 K3); [exact (fun x => x) | exact Hk]. }
    split; [exact Ni|]. split; [apply (proj2 K4); [exact (fun x => x) | exact S3]|]. split.
    - unfold fd_reset, at_fd in H4. rewrite Gi in H4. apply mbind_ok_inv in H4 as ([] & w5 & _ & H4).
      unfold modify_fd, at_fd in H4. destruct (get_fd i w5) as [y|] eqn:Ey; [|discriminate]. injection H4 as <-.
      unfold previous, World.get_fd, put_fd. cbn [w_fd]. erewrite nth_upd_same by exact Ey. reflexivity.
    - split.
      + destruct A1 as [A1|(B1 & B2 & B3)]; [left; exact A1|]. right. split; [exact B1|]. split; [exact B2|].
        apply X. apply (proj1 K2); [exact (fun x => x) | exact B3].
      + destruct A2 as [A2|(B1 & B2 & B3)]; [left; exact A2|]. right. split; [exact B1|]. split; [|apply X; exact B3].
        unfold new_emitter, World.get_em in *. destruct (nth_error (w_em P w1) g) eqn:En; [discriminate|].
        apply nth_error_None in En. rewrite (proj2 (nth_error_None _ _)); auto. lia.
  Qed.
End Constructors.

(** ** C69: objects as parts of others *)
Section Parts.
  Context {P : prims} (fuel : nat) (str_of : val -> res (list Z)).

  (** However emitters and fields are used: each emitter changes by its own
      operations only... *)
  Theorem C69_steps o w id e : get_em P id w = Some e ->
    exists e', get_em P id (snd (run P fuel str_of o w)) = Some e' /\ own_steps P fuel e e'.
  Proof.
    intros E. pose proof (run_evo fuel str_of o w) as H. specialize (H id). rewrite E in H.
    destruct (get_em P id (snd (run P fuel str_of o w))) as [e'|]; [|contradiction]. eauto.
  Qed.
  (** ... so that at any time it is in a state which it could have reached if it
      had been used on its own; the theorems about Iterative, Sequential and Choice
      hold for it. *)
  Theorem C69_alone w id e : reachable P fuel str_of w -> get_em P id w = Some e -> as_if_alone P fuel e.
  Proof. intros R. apply reachable_alone with (str_of := str_of). exact R. Qed.
End Parts.

(** ** Examples *)

(** The function returns its argument and the next number of its rng. *)
Definition with_draw : wfun DP :=
  mkWfun DP (Some [mkParam "x" PosOrKw false; mkParam "rng" KwOnly false])
    (fun _ _ => Raise TypeError)
    (fun args _ r => let '(n, r) := r_below DP 10 r in
                     (match args with [v] => Ok (VList [v; VInt (Z.of_nat n)]) | _ => Raise TypeError end, r)).
(** x and y of WrapMany and BasedOnFields; a function without a signature. *)
Definition pair_of : wfun DP :=
  mkWfun DP (Some [mkParam "x" PosOrKw false; mkParam "y" PosOrKw false])
    (fun _ kw => match kw with [(_, a); (_, b)] => Ok (VTuple [a; b]) | _ => Raise TypeError end)
    (fun _ _ r => (Raise TypeError, r)).
Definition builtin_id : wfun DP :=
  mkWfun DP None (fun args kw => match args, kw with [v], [] => Ok v | _, _ => Raise TypeError end)
    (fun _ _ r => (Raise TypeError, r)).

Definition workshop : list (command DP) :=
  [NewChoice DP true [VInt 1; VInt 2] None true false (Some 1%nat) None;                   (* 0 *)
   NewChoice DP true [VStr [97]; VStr [98]; VStr [99]] None true false (Some 2%nat) None;  (* 1 *)
   NewWord DP 0 1 (Some 3%nat);                                                            (* 2 *)
   NewWrapOne DP 2 with_draw (Some 4%nat);                                                 (* 3 *)
   NewWrapMany DP [("x", 2%nat); ("y", 0%nat)]%string pair_of None;                        (* 4 *)
   NewField DP "x" 2 None None false None;                                                 (* field 0; 5 and 6 *)
   NewField DP "y" 3 (Some 0%nat) None false None;                                         (* field 1; 7 *)
   NewCopyFields DP true [0%nat] None;                                                     (* 8 *)
   NewCopyFields DP false [0%nat; 1%nat] (Some [45]);                                      (* 9 *)
   NewBasedOnFields DP false [0%nat; 1%nat] pair_of None;                                  (* 10 *)
   NewSequential DP true [VInt 5; VInt 6; VInt 7] false;                                   (* 11 *)
   NewText DP 0 2 None None;                                                               (* 13, its separator 12 *)
   Do DP (Call DP 0); Do DP (Call DP 1); Do DP (EmitN DP 3 2); Do DP (EmitN DP 11 2)].
Definition shop : world DP := program workshop empty.
Example shop_reachable : reachable DP 9 demo_str shop.
Proof. apply program_reachable; [constructor | vm_compute; reflexivity]. Qed.

(** Settings of the objects after all this. *)
Example C68_demo :
  map (fun i => settings_at DP i shop) [0%nat; 2%nat; 3%nat; 4%nat; 5%nat; 8%nat; 9%nat; 10%nat; 11%nat; 12%nat; 13%nat] =
  [Some (IsChoice true [VInt 1; VInt 2] None None true false);
   Some (IsWord 0 1); Some (IsWrapOne 2 with_draw); Some (IsWrapMany [("x", 2%nat); ("y", 0%nat)]%string pair_of);
   Some (IsStatic VNone [VNone]); Some (IsCopyFields true [0%nat] None); Some (IsCopyFields false [0%nat; 1%nat] (Some [45]));
   Some (IsBasedOnFields false [0%nat; 1%nat] pair_of);
   Some (IsSequential true [VInt 5; VInt 6; VInt 7] None false); Some (IsStatic (VStr [32]) [VStr [32]]); Some (IsText 0 2 12)].
Proof. vm_cast_no_check (eq_refl (map (fun i => settings_at DP i shop) [0%nat; 2%nat; 3%nat; 4%nat; 5%nat; 8%nat; 9%nat; 10%nat; 11%nat; 12%nat; 13%nat])). Qed.
Example C68_demo_fields : map (fun f => field_settings_at DP f shop) [0%nat; 1%nat] =
  [Some ("x"%string, false, 2%nat, 5%nat, 6%nat); Some ("y"%string, false, 3%nat, 0%nat, 7%nat)].
Proof. vm_compute. reflexivity. Qed.

(** A program that uses emitter 0 and changes other settings; assignments. *)
Example C67_demo :
  let l := [Do DP (ResetEm DP 3); SetHide DP 1 true; SetEmitter DP 11 (SRac DP true); Do DP (Doc DP [("x", 0%nat); ("y", 1%nat)]%string)] in
  Forall (fun c => ~ assigns_to DP 0 c) l /\ Forall (fun c => ~ assigns_to_field DP 0 c) l /\
  (exists w', exec DP 9 demo_str (SetEmitter DP 0 (SChoice DP (CReplace DP false))) shop = (Ok tt, w')) /\
  (exists w', exec DP 9 demo_str (SetFunction DP 3 identity) shop = (Ok tt, w')).
Proof.
  split; [repeat (apply Forall_cons; [cbn; intros X; discriminate || exact X|]); apply Forall_nil|].
  split; [repeat (apply Forall_cons; [cbn; intros X; discriminate || exact X|]); apply Forall_nil|]. split.
  - eexists. apply ran. vm_compute. reflexivity.
  - eexists. apply ran. vm_compute. reflexivity.
Qed.

Example C69_demo : exists e, get_em DP 11 shop = Some e /\ as_if_alone DP 9 e /\
  fst (em_call DP 9 demo_str 11 shop) = Ok (VInt 7).
Proof.
  assert (G : match get_em DP 11 shop with Some _ => True | None => False end) by (vm_compute; exact I).
  destruct (get_em DP 11 shop) as [e|] eqn:E; [|contradiction]. exists e. split; [reflexivity|].
  split; [eapply C69_alone; [exact shop_reachable | exact E] | vm_compute; reflexivity].
Qed.

Print Assumptions C67_kept.
Print Assumptions C67_kept_field.
Print Assumptions C67_assigned.
Print Assumptions C67_assigned_field.
Print Assumptions C68_static.
Print Assumptions C68_iterative.
Print Assumptions C68_sequential.
Print Assumptions C68_choice.
Print Assumptions C68_word.
Print Assumptions C68_text.
Print Assumptions C68_wrapone.
Print Assumptions C68_wrapmany.
Print Assumptions C68_basedonfields.
Print Assumptions C68_copyfields.
Print Assumptions C68_field.
Print Assumptions C69_steps.
Print Assumptions C69_alone.
