(** * What emitters can emit: property C70, and C39 for objects. *)
From Coq Require Import String.
From Verif Require Import Base Prims Values MathModel ChoiceModel ChoiceRun ChoiceProofs FixedModel GroupModel
  SigModel SigSpec SigProofs WrapModel WrapSpec TextModel TextSpec TextProofs FieldModel FieldSpec World Rel WorldProofs Agree
  WorldSpec WorldReset Histories WorldBuild BuildProofs CountSpec Demo WorldDemo Prop_World Prop_Construct Prop_Count ProgramSpec
  ObjectSpec ObjectProofs ObjectCalls Prop_Wrap Prop_Text Prop_Field Prop_Choice CallSpec Prop_Objects Prop_Previous Prop_Calls EmitSpec QcNum.
Open Scope list_scope.
Open Scope Z_scope.

Section Emits.
  Context {P : prims} (fuel : nat) (str_of : val -> res (list Z)) (RO : rng_ok P).
  Notation world := (World.world P).
  Notation get_em := (World.get_em P).
  Notation get_fd := (World.get_fd P).
  Notation settings_at := (ObjectSpec.settings_at P).
  Notation field_settings_at := (ObjectSpec.field_settings_at P).
  Notation em_call := (World.em_call P fuel str_of).
  Notation em_call_n := (World.em_call_n P fuel str_of).
  Notation em_reset := (World.em_reset P fuel).
  Notation reachable := (WorldBuild.reachable P fuel str_of).
  Notation orderly := (CountSpec.orderly P fuel str_of).
  Notation can_emit := (EmitSpec.can_emit P str_of).

  (** ** What can be emitted does not change by calls *)
  Definition view (w w' : world) : Prop :=
    (forall id, settings_at id w' = settings_at id w) /\ (forall f, get_fd f w' = get_fd f w).
  Lemma view_refl w : view w w.
  Proof. split; reflexivity. Qed.
  Lemma view_trans a b c : view a b -> view b c -> view a c.
  Proof. intros [A1 A2] [B1 B2]. split; intros; [rewrite B1; apply A1 | rewrite B2; apply A2]. Qed.

  Lemma single_view w w' f : view w w' -> single_valued_field P f w' -> single_valued_field P f w.
  Proof.
    intros [V1 V2] (n & h & e & r & g & H & Q). exists n, h, e, r, g. unfold ObjectSpec.field_settings_at in *. rewrite V2 in H.
    split; [exact H|]. rewrite <- V1. exact Q.
  Qed.
  Lemma view_sym w w' : view w w' -> view w' w.
  Proof. intros [V1 V2]. split; intros; symmetry; auto. Qed.
  Lemma previous_view w w' f : view w w' -> previous P f w' = previous P f w.
  Proof. intros [_ V]. unfold previous. rewrite V. reflexivity. Qed.
  Lemma name_view w w' f : view w w' -> name_of P f w' = name_of P f w.
  Proof. intros [_ V]. unfold name_of. rewrite V. reflexivity. Qed.
  Lemma copied_view b fs sep w w' v : view w w' -> copied P str_of b fs sep w' v -> copied P str_of b fs sep w v.
  Proof.
    intros V [(f & Hs & Hf & Hq & Hv)|(N & parts & H1 & H2)].
    - left. exists f. split; [exact Hs|]. split; [exact Hf|]. split; [eapply single_view; eauto|]. rewrite Hv. apply previous_view. exact V.
    - right. split.
      + intros (Hs & f & Hf & Hq). apply N. split; [exact Hs|]. exists f. split; [exact Hf|]. eapply single_view; [apply view_sym; exact V | exact Hq].
      + exists parts. split; [|exact H2]. rewrite (map_ext _ (fun f => previous P f w')); [exact H1|]. intros f. symmetry. apply previous_view. exact V.
  Qed.
  Lemma last_view fs w w' kw : view w w' -> last_values P fs w' kw -> last_values P fs w kw.
  Proof.
    intros V [H1 H2]. split.
    - rewrite H1. f_equal. apply map_ext. intros f. apply name_view. exact V.
    - intros n v Hn. destruct (H2 n v Hn) as (f & Hf & ->). exists f. split; [|apply previous_view; exact V].
      rewrite <- Hf. unfold last_named. induction (rev fs) as [|g t IH]; [reflexivity|]. cbn [find]. rewrite (name_view _ _ g V).
      destruct (String.string_dec (name_of P g w) n); [reflexivity | exact IH].
  Qed.

  Lemma can_view w w' : view w w' -> forall id v, can_emit w' id v -> can_emit w id v.
  Proof.
    intros V. fix IH 3. intros id v H. destruct H;
      match goal with S : settings_at _ _ = Some _ |- _ => rewrite (proj1 V) in S end.
    - eapply ce_static; eauto.
    - eapply ce_iterative; eauto.
    - eapply ce_sequential; eauto.
    - eapply ce_seq_factory; eauto.
    - eapply ce_choice; eauto.
    - eapply ce_word; eauto.
    - eapply ce_word_none; eauto.
    - eapply ce_word_list; eauto.
    - eapply ce_text with (ws := ws) (seps := seps); eauto.
    - eapply ce_wrapone; eauto.
    - eapply ce_wrapmany; eauto.
    - eapply ce_copyfields; eauto. eapply copied_view; eauto.
    - eapply ce_based_one; eauto. rewrite <- (previous_view _ _ g V). assumption.
    - eapply ce_based_many; eauto. eapply last_view; eauto.
    - eapply ce_user; eauto.
    - eapply ce_user_many; eauto.
  Qed.

  (** ** Calls keep the view and the order *)
  Lemma op_view (o : op P) w : (match o with Emit _ _ | EmitN _ _ _ | ResetEm _ _ => True | _ => False end) ->
    view w (snd (run P fuel str_of o w)).
  Proof.
    intros Ho. split.
    - intros id. pose proof (exec_kept fuel str_of (Do P o) w) as K. cbn [WorldBuild.exec] in K.
      assert (E : snd ((run P fuel str_of o ;;; ret tt) w) = snd (run P fuel str_of o w)).
      { unfold mbind. destruct (run P fuel str_of o w) as [[]]; reflexivity. }
      rewrite E in K. destruct (settings_at id w) as [st|] eqn:S; [apply (proj1 K); [exact (fun x => x) | exact S]|].
      pose proof (run_conf fuel str_of w o) as [C _]. specialize (C id). unfold ObjectSpec.settings_at in *.
      destruct (get_em id w); [discriminate|]. destruct (get_em id (snd (run P fuel str_of o w))); [contradiction | reflexivity].
    - intros f. apply within_em. apply (run_within fuel str_of); [apply closed_none | destruct o; try contradiction; exact I].
  Qed.
  Definition fine (w w' : world) : Prop := orderly w' /\ view w w'.
  Lemma after_op (o : op P) w A (m : M world A) k r w' : (match o with Emit _ _ | EmitN _ _ _ | ResetEm _ _ => True | _ => False end) ->
    run P fuel str_of o = (fun w => (a <~ m ;; ret (k a)) w) -> m w = (r, w') ->
    possible P (Do P o) w -> CountSpec.proper P fuel str_of (Do P o) w -> orderly w -> fine w w'.
  Proof.
    intros Ho E H Po Pr O.
    assert (X : snd (run P fuel str_of o w) = w') by (rewrite E; unfold mbind; rewrite H; destruct r; reflexivity).
    pose proof (op_view o w Ho) as V. rewrite X in V. split; [|exact V].
    pose proof (orderly_step P fuel str_of (Do P o) w O Po Pr) as S. cbn [WorldBuild.exec] in S.
    assert (Y : snd ((run P fuel str_of o ;;; ret tt) w) = snd (run P fuel str_of o w)) by (unfold mbind; destruct (run P fuel str_of o w) as [[]]; reflexivity).
    rewrite Y, X in S. exact S.
  Qed.
  Lemma get_lt id (w : world) e : get_em id w = Some e -> (id < length (w_em P w))%nat.
  Proof. unfold World.get_em. intros H. apply nth_error_Some. destruct (nth_error (w_em P w) id); discriminate. Qed.
  Lemma get_none id (w : world) : ~ (id < length (w_em P w))%nat -> get_em id w = None.
  Proof. intros H. unfold World.get_em. rewrite (proj2 (nth_error_None (w_em P w) id)) by lia. reflexivity. Qed.
  Lemma one_possible (o : op P) id w : emitters_of P (Do P o) = [id] -> fields_of P (Do P o) = [] -> (id < length (w_em P w))%nat -> possible P (Do P o) w.
  Proof. intros E1 E2 H. split; [rewrite E1; intros i [<-|[]]; exact H | rewrite E2; intros i []]. Qed.

  Lemma call_fine id w v w' : orderly w -> em_call id w = (Ok v, w') -> fine w w'.
  Proof.
    intros O H. destruct (Nat.lt_ge_cases id (length (w_em P w))) as [L|L].
    - apply (after_op (Emit P id) w _ (em_call id) Value (Ok v)); [exact I | reflexivity | exact H | apply one_possible with id; auto | exact I | exact O].
    - exfalso. rewrite (call_unfold fuel str_of) in H by apply (orderly_good fuel str_of RO w O).
      unfold emit_body, at_em in H. rewrite get_none in H by lia. discriminate.
  Qed.
  Lemma call_n_fine id n w v w' : 0 <= n -> orderly w -> em_call_n id n w = (Ok v, w') -> fine w w'.
  Proof.
    intros Hn O H. destruct (Nat.lt_ge_cases id (length (w_em P w))) as [L|L].
    - apply (after_op (EmitN P id n) w _ (em_call_n id n) Values (Ok v)); [exact I | reflexivity | exact H | apply one_possible with id; auto | exact Hn | exact O].
    - exfalso. destruct (Z.eq_dec n 1) as [->|N].
      + rewrite call_one in H. apply mbind_ok_inv in H as (a & w1 & H & _).
        rewrite (call_unfold fuel str_of) in H by apply (orderly_good fuel str_of RO w O).
        unfold emit_body, at_em in H. rewrite get_none in H by lia. discriminate.
      + rewrite (many_unfold fuel str_of) in H by (exact N || apply (orderly_good fuel str_of RO w O)).
        unfold emit_many_body, at_em in H. rewrite get_none in H by lia. discriminate.
  Qed.
  Lemma reset_fine id w w' : (id < length (w_em P w))%nat -> orderly w -> em_reset id w = (Ok tt, w') -> fine w w'.
  Proof.
    intros L O H. apply (after_op (ResetEm P id) w _ (em_reset id) (fun _ => Done) (Ok tt)); [exact I | reflexivity | exact H | apply one_possible with id; auto | exact I | exact O].
  Qed.

  Lemma fine_trans a b c : fine a b -> fine b c -> fine a c.
  Proof. intros [_ V1] [O V2]. split; [exact O | eapply view_trans; eauto]. Qed.

  (** ** The leaves *)
  Lemma gen_item (f : factory val) k : forall g a g', gen_next k f g = (Ok a, g') -> exists c p, it_at (f c) p = Some a.
  Proof.
    induction k as [|k IH]; intros g a g' H; cbn [gen_next] in H.
    - destruct (g_cur g) as [[c p]|]; [|discriminate]. destruct (it_at (f c) p) eqn:E; [|discriminate]. injection H as <- _. eauto.
    - destruct (g_cur g) as [[c p]|]; [|eauto]. destruct (it_at (f c) p) eqn:E; [|eauto]. injection H as <- _. eauto.
  Qed.
  Lemma gen_items (f : factory val) k n : forall g l g', gen_take k f n g = (Ok l, g') -> Forall (fun a => exists c p, it_at (f c) p = Some a) l.
  Proof.
    induction n as [|n IH]; intros g l g' H; cbn [gen_take] in H; [injection H as <- _; constructor|].
    apply mbind_ok_inv in H as (a & g1 & H1 & H). apply mbind_ok_inv in H as (t & g2 & H2 & H). injection H as <- _.
    constructor; [eapply gen_item; exact H1 | eapply IH; exact H2].
  Qed.
  Lemma rep_in (v x : val) n : In x (list_rep [v] n) -> x = v.
  Proof.
    unfold list_rep. induction (Z.to_nat n) as [|k IH]; cbn; [intros []|]. intros [H|H]; [symmetry; exact H | apply IH; exact H].
  Qed.

  Definition only_own (id : nat) : Prop := forall w, orderly w ->
    (forall v w', em_call id w = (Ok v, w') -> can_emit w id v) /\
    (forall n vs w', 0 <= n -> em_call_n id n w = (Ok vs, w') -> forall v, In v vs -> can_emit w id v).

  (** In [em(1)] there is one value, that of [em()]. *)
  Lemma from_many id w : (forall v w', em_call id w = (Ok v, w') -> can_emit w id v) ->
    (forall n vs w', 0 <= n -> n <> 1 -> em_call_n id n w = (Ok vs, w') -> forall v, In v vs -> can_emit w id v) ->
    (forall v w', em_call id w = (Ok v, w') -> can_emit w id v) /\
    (forall n vs w', 0 <= n -> em_call_n id n w = (Ok vs, w') -> forall v, In v vs -> can_emit w id v).
  Proof.
    intros H1 H2. split; [exact H1|]. intros n vs w' Hn H v Hv. destruct (Z.eq_dec n 1) as [->|N]; [|eauto].
    rewrite call_one in H. apply mbind_ok_inv in H as (a & w1 & H & H'). injection H' as <- _. destruct Hv as [<-|[]]. eauto.
  Qed.

  Lemma settings_eq id (w : world) e : get_em id w = Some e -> settings_at id w = Some (settings_of P e).
  Proof. intros E. unfold ObjectSpec.settings_at. rewrite E. reflexivity. Qed.

  Lemma ks_each srcs : (forall k, In k srcs -> only_own k) -> forall w0 w xs w', orderly w -> view w0 w ->
    each em_call srcs w xs w' -> length xs = length srcs /\ (forall i k x, nth_error srcs i = Some k -> nth_error xs i = Some x -> can_emit w0 k x) /\ fine w0 w'.
  Proof.
    induction srcs as [|k t IH]; intros Hk w0 w xs w' O V H; inversion H; subst.
    - split; [reflexivity|]. split; [intros [|i]; discriminate | split; assumption].
    - match goal with Hc : em_call k w = (Ok ?b, ?w1), Ht : each em_call t ?w1 ?bs w' |- _ =>
        pose proof (call_fine _ _ _ _ O Hc) as [O1 V1];
        destruct (IH (fun k Hi => Hk k (or_intror Hi)) w0 w1 bs w' O1 (view_trans _ _ _ V V1) Ht) as (L & Q & F);
        pose proof (proj1 (Hk k (or_introl eq_refl) w O) _ _ Hc) as C end.
      split; [cbn; congruence|]. split; [|exact F]. intros [|i] k' x Hi Hx; cbn in Hi, Hx; [|eauto]. injection Hi as <-. injection Hx as <-.
      eapply can_view; eauto.
  Qed.
  Lemma ks_each_n srcs n : 0 <= n -> (forall k, In k srcs -> only_own k) -> forall w0 w data w', orderly w -> view w0 w ->
    each (fun k => em_call_n k n) srcs w data w' ->
    length data = length srcs /\ (forall i k col, nth_error srcs i = Some k -> nth_error data i = Some col -> forall x, In x col -> can_emit w0 k x) /\ fine w0 w'.
  Proof.
    intros Hn. induction srcs as [|k t IH]; intros Hk w0 w xs w' O V H; inversion H; subst.
    - split; [reflexivity|]. split; [intros [|i]; discriminate | split; assumption].
    - match goal with Hc : em_call_n k n w = (Ok ?b, ?w1), Ht : each _ t ?w1 ?bs w' |- _ =>
        pose proof (call_n_fine _ _ _ _ _ Hn O Hc) as [O1 V1];
        destruct (IH (fun k Hi => Hk k (or_intror Hi)) w0 w1 bs w' O1 (view_trans _ _ _ V V1) Ht) as (L & Q & F);
        pose proof (proj2 (Hk k (or_introl eq_refl) w O) _ _ _ Hn Hc) as C end.
      split; [cbn; congruence|]. split; [|exact F]. intros [|i] k' x Hi Hx y Hy; cbn in Hi, Hx; [|eauto]. injection Hi as <-. injection Hx as <-.
      eapply can_view; eauto.
  Qed.

  Lemma applied_returns i f args kw w v w' : applied P i f args kw w v w' -> returns P f args kw v.
  Proof.
    intros [N H|g g' w1 T _ H _]; [left; auto|]. right. split; [exact T|]. exists g. rewrite H. reflexivity.
  Qed.
  Lemma applied_all_returns i f l : forall w vs w', applied_to_all P i f l w vs w' ->
    Forall2 (fun a v => returns P f (fst a) (snd a) v) l vs.
  Proof.
    induction l as [|a t IH]; intros w vs w' H; inversion H; subst; constructor; [eapply applied_returns; eauto | eauto].
  Qed.
  Lemma forall2_in_r {A B} (Q : A -> B -> Prop) l m : Forall2 Q l m -> forall y, In y m -> exists x, In x l /\ Q x y.
  Proof. induction 1 as [|x y l m H _ IH]; intros z []; [subst; exists x; split; [left|]; auto | destruct (IH z H0) as (x' & ? & ?); exists x'; split; [right|]; auto]. Qed.

  Lemma static_own id w s : orderly w -> get_em id w = Some (EStatic P s) ->
    (forall v w', em_call id w = (Ok v, w') -> can_emit w id v) /\
    (forall n vs w', 0 <= n -> n <> 1 -> em_call_n id n w = (Ok vs, w') -> forall v, In v vs -> can_emit w id v).
  Proof.
    intros O E. pose proof (proj1 (orderly_good fuel str_of RO w O)) as R. pose proof (settings_eq _ _ _ E) as S. cbn [settings_of] in S. split.
    - intros v w' H. rewrite (call_unfold fuel str_of) in H by exact R. unfold emit_body, at_em in H. rewrite E in H.
      unfold lift in H. injection H as <- _. eapply ce_static; exact S.
    - intros n vs w' Hn N H v Hv. rewrite (many_unfold fuel str_of) in H by assumption. unfold emit_many_body, at_em in H. rewrite E in H.
      unfold lift in H. injection H as <- _. apply rep_in in Hv. subst v. eapply ce_static; exact S.
  Qed.
  Lemma iter_own id w i : orderly w -> get_em id w = Some (EIter P i) ->
    (forall v w', em_call id w = (Ok v, w') -> can_emit w id v) /\
    (forall n vs w', 0 <= n -> n <> 1 -> em_call_n id n w = (Ok vs, w') -> forall v, In v vs -> can_emit w id v).
  Proof.
    intros O E. pose proof (proj1 (orderly_good fuel str_of RO w O)) as R. pose proof (settings_eq _ _ _ E) as S. cbn [settings_of] in S. split.
    - intros v w' H. rewrite (call_unfold fuel str_of) in H by exact R. unfold emit_body, run_iter, at_em in H. rewrite !E in H.
      unfold iter_emit, iter_run in H. destruct (gen_next fuel (i_factory i) (i_gen i)) as [[a| |] g'] eqn:G; try discriminate.
      injection H as <- _. apply gen_item in G as (c & p & G). eapply ce_iterative; eauto.
    - intros n vs w' Hn N H v Hv. rewrite (many_unfold fuel str_of) in H by assumption. unfold emit_many_body, run_iter, at_em in H. rewrite !E in H.
      unfold iter_emit_many in H. destruct (n <? 0); [discriminate|]. unfold iter_run in H.
      destruct (gen_take fuel (i_factory i) (Z.to_nat n) (i_gen i)) as [[a| |] g'] eqn:G; try discriminate.
      injection H as <- _. apply gen_items in G. rewrite Forall_forall in G. destruct (G v Hv) as (c & p & Q). eapply ce_iterative; eauto.
  Qed.
  Lemma seq_item id w b q v : get_em id w = Some (ESeq P b q) -> (exists c p, it_at (seq_factory q c) p = Some v) -> can_emit w id v.
  Proof.
    intros E (c & p & H). pose proof (settings_eq _ _ _ E) as S. cbn [settings_of] in S. unfold seq_factory in H. destruct (s_own q).
    - cbn in H. eapply ce_sequential; [exact S | eapply nth_error_In; exact H].
    - eapply ce_seq_factory; eauto.
  Qed.
  Lemma seq_own id w b q : orderly w -> get_em id w = Some (ESeq P b q) ->
    (forall v w', em_call id w = (Ok v, w') -> can_emit w id v) /\
    (forall n vs w', 0 <= n -> n <> 1 -> em_call_n id n w = (Ok vs, w') -> forall v, In v vs -> can_emit w id v).
  Proof.
    intros O E. pose proof (proj1 (orderly_good fuel str_of RO w O)) as R. split.
    - intros v w' H. rewrite (call_unfold fuel str_of) in H by exact R. unfold emit_body, run_seq, at_em in H. rewrite !E in H.
      unfold seq_emit, seq_run in H. destruct (gen_next fuel (seq_factory q) (s_gen q)) as [[a| |] g'] eqn:G; try discriminate.
      injection H as <- _. apply gen_item in G. eapply seq_item; eauto.
    - intros n vs w' Hn N H v Hv. rewrite (many_unfold fuel str_of) in H by assumption. unfold emit_many_body, run_seq, at_em in H. rewrite !E in H.
      unfold seq_emit_many in H. destruct (n <? 0); [discriminate|]. unfold seq_run in H.
      destruct (gen_take fuel (seq_factory q) (Z.to_nat n) (s_gen q)) as [[a| |] g'] eqn:G; try discriminate.
      injection H as <- _. apply gen_items in G. rewrite Forall_forall in G. eapply seq_item; eauto.
  Qed.
  Lemma choice_own id w b c : orderly w -> get_em id w = Some (EChoice P b c) ->
    (forall v w', em_call id w = (Ok v, w') -> can_emit w id v) /\
    (forall n vs w', 0 <= n -> n <> 1 -> em_call_n id n w = (Ok vs, w') -> forall v, In v vs -> can_emit w id v).
  Proof.
    intros O E. pose proof (proj1 (orderly_good fuel str_of RO w O)) as R. pose proof (settings_eq _ _ _ E) as S. cbn [settings_of] in S.
    destruct (reachable_alone fuel str_of w R id _ E) as (items & Rc). destruct (reach_any_inv P val_setsize fuel items c Rc) as (Hi & _ & _). split.
    - intros v w' H. rewrite (call_unfold fuel str_of) in H by exact R. unfold emit_body, run_choice, at_em in H. rewrite !E in H.
      destruct (choice_emit P val_setsize fuel c) as [[a| |] c'] eqn:G; try discriminate. injection H as <- _.
      eapply ce_choice; [exact S|]. rewrite Hi. eapply (C22_own_items P val val_setsize fuel items c ChoiceRun.Emit [a] Rc); [|left; reflexivity].
      cbn [do_ask]. unfold mbind. rewrite G. reflexivity.
    - intros n vs w' Hn N H v Hv. rewrite (many_unfold fuel str_of) in H by assumption. unfold emit_many_body, run_choice, at_em in H. rewrite !E in H.
      destruct (choice_emit_many P val_setsize fuel n c) as [[a| |] c'] eqn:G; try discriminate. injection H as <- _.
      eapply ce_choice; [exact S|]. rewrite Hi. eapply (C22_own_items P val val_setsize fuel items c (EmitMany n) a Rc); [|exact Hv].
      cbn [do_ask]. rewrite G. reflexivity.
  Qed.

  Lemma as_int_value v n : as_int v = Ok n -> int_value v n.
  Proof. unfold int_value. destruct v as [|[]|z| | | |]; cbn; intros H; try discriminate; injection H as <-; auto. Qed.
  Lemma int_value_as v n : int_value v n -> as_int v = Ok n.
  Proof. intros [->|[[-> ->]|[-> ->]]]; reflexivity. Qed.

  Lemma word_own id w l a u nd : orderly w -> get_em id w = Some (EWord P l a u nd) -> only_own l -> only_own a ->
    (forall v w', em_call id w = (Ok v, w') -> can_emit w id v) /\
    (forall n vs w', 0 <= n -> n <> 1 -> em_call_n id n w = (Ok vs, w') -> forall v, In v vs -> can_emit w id v).
  Proof.
    intros O E Ol Oa. destruct (orderly_good fuel str_of RO w O) as [R [Hh Hs]]. pose proof (settings_eq _ _ _ E) as S. cbn [settings_of] in S.
    assert (At : only_at P w l (at_least 0)) by (eapply (proj1 Hs); exact E). split.
    - intros v w' H. rewrite (call_unfold fuel str_of) in H by exact R. unfold emit_body, at_em in H. rewrite E in H. unfold word_emit in H.
      apply mbind_ok_inv in H as (nv & w1 & H1 & H). apply mbind_ok_inv in H as (cs & w2 & H2 & H). apply mbind_ok_inv in H as (str & w3 & H3 & H).
      unfold lift in H3. injection H3 as H3 <-. injection H as <- <-.
      pose proof (proj1 (Ol w O) _ _ H1) as C1. pose proof (call_fine _ _ _ _ O H1) as [O1 V1].
      assert (Cs : nv = VNone /\ em_call a w1 = (Ok cs, w2) \/ exists n chars, int_value nv n /\ em_call_n a n w1 = (Ok chars, w2) /\ cs = VList chars).
      { unfold call_val in H2. destruct nv; auto; right;
          (apply mbind_ok_inv in H2 as (kk & w4 & Hn & H2); unfold lift in Hn; pose proof (f_equal fst Hn) as Hx; apply (f_equal snd) in Hn; cbn [fst snd] in Hx, Hn; subst w4;
           apply mbind_ok_inv in H2 as (chars & w4 & Hc & H2); injection H2 as <- <-; exists kk, chars; split; [apply as_int_value; exact Hx | auto]). }
      destruct Cs as [[-> Hc]|(n & chars & Hn & Hc & ->)].
      + pose proof (can_view _ _ V1 _ _ (proj1 (Oa w1 O1) _ _ Hc)) as C2. unfold join_val in H3. destruct cs; try discriminate.
        * injection H3 as <-. eapply ce_word_none; eauto.
        * apply join_strs_spelled in H3. eapply ce_word_list; eauto.
        * apply join_strs_spelled in H3. eapply ce_word_list; eauto.
      + assert (0 <= n). { apply (C34_single_partial fuel str_of RO w l nv w1 O H1 _ At). apply int_value_as. exact Hn. }
        destruct (C34_count_partial fuel str_of RO w1 a n chars w2 O1 H Hc) as [Len _]. cbn in H3. apply join_strs_spelled in H3.
        eapply ce_word; eauto. intros c Hi. eapply can_view; [exact V1|]. eapply (proj2 (Oa w1 O1)); eauto.
    - intros n vs w' Hn N H v Hv. destruct (proj2 (C36_object fuel str_of w id l a R S) n vs w' N H) as (lengths & w1 & ns & chars & H1 & H2 & H3 & _ & H5).
      pose proof (proj2 (Ol w O) _ _ _ Hn H1) as C1. pose proof (call_n_fine _ _ _ _ _ Hn O H1) as [O1 V1].
      assert (Pos : Forall (fun n => 0 <= n) ns).
      { destruct (C34_count_partial fuel str_of RO w l n lengths w1 O Hn H1) as [_ Q]. specialize (Q _ At). clear -Q H2.
        induction H2; inversion Q; subst; constructor; auto. apply H3. apply int_value_as. exact H. }
      assert (Z0 : 0 <= zsum ns) by (clear -Pos; unfold zsum; induction Pos; cbn; lia).
      destruct (C34_count_partial fuel str_of RO w1 a _ chars w' O1 Z0 H3) as [Len _].
      destruct (H5 Pos Len) as (groups & G1 & G2 & G3).
      assert (Ca : forall c, In c chars -> can_emit w a c) by (intros c Hi; eapply can_view; [exact V1|]; eapply (proj2 (Oa w1 O1)); eauto).
      assert (X : forall gs ns lens vs, Forall2 (fun g n => zlen g = n) gs ns -> Forall2 int_value lens ns -> Forall2 spelled gs vs ->
        (forall c, In c (concat gs) -> can_emit w a c) -> (forall x, In x lens -> can_emit w l x) -> In v vs -> can_emit w id v).
      { clear -S. induction gs as [|g gs IH]; intros ns lens vs A1 A2 A3 A4 A5 Hv; inversion A1; subst; inversion A2; subst; inversion A3; subst; [destruct Hv|].
        destruct Hv as [<-|Hv].
        - eapply ce_word with (chars := g); [exact S | apply A5; left; reflexivity | eassumption | reflexivity | | assumption].
          intros c Hc. apply A4. cbn. apply in_or_app. left. exact Hc.
        - eapply IH; eauto; [intros c Hc; apply A4; cbn; apply in_or_app; right; exact Hc | intros y1 Hy1; apply A5; right; exact Hy1]. }
      eapply X; eauto. intros c Hc. rewrite G1 in Hc. auto.
  Qed.

  Lemma batches_own x u : only_own x -> forall r w ws w', drawn_in_batches (em_call_n x) (em_reset x) u r w ws w' -> 0 < u -> (x < length (w_em P w))%nat ->
    orderly w -> (forall c, In c ws -> can_emit w x c).
  Proof.
    intros Ox r w ws w' H. induction H as [r w ws w' H0 H1 Hc|r w ws w1 w2 ws' w' H1 Hc Hr Hd IH]; intros Hu Hx O c Hi.
    - eapply (proj2 (Ox w O)); [|exact Hc | exact Hi]. lia.
    - apply in_app_or in Hi. destruct Hi as [Hi|Hi]; [eapply (proj2 (Ox w O)); [|exact Hc | exact Hi]; lia|].
      assert (F1 : fine w w1) by (eapply call_n_fine; [|exact O | exact Hc]; lia).
      assert (Len : forall a b, view a b -> (x < length (w_em P a))%nat -> (x < length (w_em P b))%nat).
      { intros a b [Vs _] L. specialize (Vs x). unfold ObjectSpec.settings_at, World.get_em in Vs.
        destruct (nth_error (w_em P b) x) eqn:Eb; [apply nth_error_Some; congruence|].
        destruct (nth_error (w_em P a) x) eqn:Ea; [discriminate|]. apply nth_error_None in Ea. lia. }
      assert (F2 : fine w1 w2) by (eapply reset_fine; [eapply Len; [apply F1 | exact Hx] | apply F1 | exact Hr]).
      pose proof (fine_trans _ _ _ F1 F2) as F3. eapply can_view; [apply F3|]. apply IH; auto; [eapply Len; [apply F3 | exact Hx] | apply F3].
  Qed.

  Lemma text_own id w m x s u nd : orderly w -> get_em id w = Some (EText P m x s u nd) -> only_own m -> only_own x -> only_own s ->
    (forall n vs w', 0 <= n -> em_call_n id n w = (Ok vs, w') -> forall v, In v vs -> can_emit w id v).
  Proof.
    intros O E Om Ox Os n vs w' Hn H v Hv. destruct (orderly_good fuel str_of RO w O) as [R [Hh Hs]].
    pose proof (settings_eq _ _ _ E) as S. cbn [settings_of] in S.
    destruct (C37_object fuel str_of RO w id m x s n vs w' O S Hn H) as (lengths & w1 & ns & ws & seps & gs & sgs & H1 & H2 & H3 & D & G1 & G2 & G3 & G4 & G5).
    pose proof (proj2 (Om w O) _ _ _ Hn H1) as C1. pose proof (call_n_fine _ _ _ _ _ Hn O H1) as [O1 V1].
    assert (Z0 : n <= zsum ns).
    { destruct (C34_count_partial fuel str_of RO w m n lengths w1 O Hn H1) as [Len _]. apply forall2_length in H2. unfold zlen in Len. rewrite H2 in Len.
      rewrite <- Len. clear -H3. unfold zsum. induction H3; cbn [fold_right length]; lia. }
    assert (Lx : (x < length (w_em P w1))%nat).
    { pose proof (reachable_sound fuel str_of w R) as (So & _). assert (x < id)%nat by (eapply So; [exact E | right; left; reflexivity]).
      pose proof (get_lt _ _ _ E). destruct V1 as [V1 _]. specialize (V1 id). rewrite S in V1. unfold ObjectSpec.settings_at in V1.
      destruct (get_em id w1) eqn:E1; [|discriminate]. apply get_lt in E1. lia. }
    assert (Cw : (forall c, In c ws -> can_emit w x c) /\ (forall c, In c seps -> can_emit w s c)).
    { destruct D as [(w2 & _ & D1 & D2)|(k & w2 & _ & D0 & _ & D2 & D3)].
      - assert (F : fine w1 w2) by (eapply call_n_fine; [|exact O1 | exact D1]; lia). split; intros c Hc.
        + eapply can_view; [exact V1|]. eapply (proj2 (Ox w1 O1)); [|exact D1 | exact Hc]. lia.
        + eapply can_view; [eapply view_trans; [exact V1 | apply F]|]. eapply (proj2 (Os w2 (proj1 F))); [|exact D2 | exact Hc]. lia.
      - assert (F : fine w1 w2) by (eapply call_n_fine; [|exact O1 | exact D2]; lia). split; intros c Hc.
        + eapply can_view; [eapply view_trans; [exact V1 | apply F]|]. eapply batches_own; [exact Ox | exact D3 | exact D0 | | apply F | exact Hc].
          destruct F as [_ [F _]]. specialize (F x). unfold ObjectSpec.settings_at, World.get_em in F.
          destruct (nth_error (w_em P w2) x) eqn:Eb; [apply nth_error_Some; congruence|].
          destruct (nth_error (w_em P w1) x) eqn:Ea; [discriminate|]. apply nth_error_None in Ea. lia.
        + eapply can_view; [exact V1|]. eapply (proj2 (Os w1 O1)); [|exact D2 | exact Hc]. lia. }
    destruct Cw as [Cw Cs].
    assert (X : forall gs sgs ns lens vs, map zlen gs = ns -> map (fun sg => zlen sg + 1) sgs = ns -> Forall2 int_value lens ns ->
      Forall2 (fun gs v => spelled (interleave (fst gs) (snd gs)) v) (combine gs sgs) vs ->
      (forall c, In c (concat gs) -> can_emit w x c) -> (forall c, In c (concat sgs) -> can_emit w s c) ->
      (forall y, In y lens -> can_emit w m y) -> In v vs -> can_emit w id v).
    { clear -S. induction gs as [|g gs IH]; intros [|sg sgs] ns lens vs A1 A2 A3 A4 A5 A6 A7 Hv; subst; cbn in A2; try discriminate; cbn [combine map] in *.
      - inversion A4; subst. destruct Hv.
      - injection A2 as B1 B2. inversion A3; subst. inversion A4; subst. destruct Hv as [<-|Hv].
        + eapply ce_text with (ws := g) (seps := sg); [exact S | apply A7; left; reflexivity | eassumption | reflexivity | exact B1 | | | assumption].
          * intros c Hc. apply A5. cbn. apply in_or_app. left. exact Hc.
          * intros c Hc. apply A6. cbn. apply in_or_app. left. exact Hc.
        + match goal with Hl : Forall2 int_value ?l (map zlen gs), Ho : Forall2 _ (combine gs sgs) ?o |- _ => apply (IH sgs (map zlen gs) l o); [reflexivity | exact B2 | exact Hl | exact Ho | | | | exact Hv] end.
          * intros c Hc. apply A5. cbn. apply in_or_app. right. exact Hc.
          * intros c Hc. apply A6. cbn. apply in_or_app. right. exact Hc.
          * intros y1 Hy1. apply A7. right. exact Hy1. }
    eapply X; eauto; [rewrite G1; exact Cw | rewrite G3; exact Cs].
  Qed.

  (** ** Wrappers and copies *)
  Lemma one_own id w src f : orderly w -> settings_at id w = Some (IsWrapOne src f) -> only_own src ->
    (forall v w', em_call id w = (Ok v, w') -> can_emit w id v) /\
    (forall n vs w', 0 <= n -> em_call_n id n w = (Ok vs, w') -> forall v, In v vs -> can_emit w id v).
  Proof.
    intros O S Oc. destruct (orderly_good fuel str_of RO w O) as [R _]. destruct (C40_object fuel str_of w id src f R S) as [H1 H2]. split.
    - intros v w' H. apply H1 in H as (x & w1 & Hx & Ha). eapply ce_wrapone; [exact S | eapply (proj1 (Oc w O)); exact Hx | eapply applied_returns; exact Ha].
    - intros n vs w' Hn H v Hv. apply H2 in H as (xs & w1 & Hx & Ha & _). apply applied_all_returns in Ha.
      destruct (forall2_in_r _ _ _ Ha v Hv) as ((args & kw) & Hi & Q). apply in_map_iff in Hi as (x & E & Hi). injection E as <- <-.
      eapply ce_wrapone; [exact S | eapply (proj2 (Oc w O)); [exact Hn | exact Hx | exact Hi] | exact Q].
  Qed.

  Lemma row_values labels data i kw : row labels data i kw ->
    length data = length labels /\
    exists xs, kw = combine labels xs /\ length xs = length data /\
      forall j x, nth_error xs j = Some x -> exists col, nth_error data j = Some col /\ In x col.
  Proof.
    intros [L F]. split; [rewrite <- L, map_length; apply forall2_length in F; exact F|]. exists (map snd kw). split; [|split].
    - rewrite <- L. clear. induction kw as [|[k v] t IH]; cbn; congruence.
    - rewrite map_length. symmetry. apply forall2_length in F. exact F.
    - clear L. revert kw F. induction data as [|col data IH]; intros kw F j x H; inversion F; subst; [destruct j; discriminate|].
      destruct j as [|j]; cbn in H |- *; [|eauto]. injection H as <-. exists col. split; [reflexivity | eapply nth_error_In; eauto].
  Qed.
  Lemma many_own id w srcs f : orderly w -> settings_at id w = Some (IsWrapMany srcs f) -> (forall k, In k (map snd srcs) -> only_own k) ->
    (forall v w', em_call id w = (Ok v, w') -> can_emit w id v) /\
    (forall n vs w', 0 <= n -> n <> 1 -> em_call_n id n w = (Ok vs, w') -> forall v, In v vs -> can_emit w id v).
  Proof.
    intros O S Oc. destruct (orderly_good fuel str_of RO w O) as [R _]. destruct (C41_object fuel str_of w id srcs f R S) as [H1 H2].
    assert (At : forall i (l : string) k, nth_error srcs i = Some (l, k) -> nth_error (map snd srcs) i = Some k)
      by (intros i l k Hi; rewrite nth_error_map, Hi; reflexivity). split.
    - intros v w' H. apply H1 in H as (xs & w1 & Hx & Ha). destruct (ks_each _ Oc w w xs w1 O (view_refl _) Hx) as (L & Q & _).
      eapply ce_wrapmany; [exact S | rewrite L; apply map_length | | eapply applied_returns; exact Ha]. intros i l k x Hi Hj. eapply Q; eauto.
    - intros n vs w' Hn N H v Hv. apply (H2 n vs w' N) in H as (data & w1 & kws & Hx & Lk & Hr & Ha & _).
      destruct (ks_each_n _ n Hn Oc w w data w1 O (view_refl _) Hx) as (L & Q & _). apply applied_all_returns in Ha.
      destruct (forall2_in_r _ _ _ Ha v Hv) as ((args & kw) & Hi & Hf). apply in_map_iff in Hi as (kw' & E & Hi). injection E as <- ->.
      apply In_nth_error in Hi as (i & Hi). destruct (row_values _ _ _ _ (Hr i kw Hi)) as (Ld & xs & -> & Lx & Hxs).
      eapply ce_wrapmany; [exact S | rewrite Lx, L; apply map_length | | exact Hf].
      intros j l k x Hj Hx'. destruct (Hxs j x Hx') as (col & Hc & Hin). eapply Q; eauto.
  Qed.

  Lemma copy_own id w b fs sep : orderly w -> settings_at id w = Some (IsCopyFields b fs sep) ->
    (forall v w', em_call id w = (Ok v, w') -> can_emit w id v) /\
    (forall n vs w', 0 <= n -> em_call_n id n w = (Ok vs, w') -> forall v, In v vs -> can_emit w id v).
  Proof.
    intros O S. destruct (orderly_good fuel str_of RO w O) as [R _]. destruct (C50_object fuel str_of w id b fs sep R S) as [H1 H2].
    assert (One : forall v w', em_call id w = (Ok v, w') -> can_emit w id v).
    { intros v w' H. apply H1 in H as [_ H]. eapply ce_copyfields; [exact S | exact H]. }
    split; [exact One|]. intros n vs w' Hn H v Hv. apply H2 in H as (a & H & ->). apply repeat_spec in Hv as ->. eauto.
  Qed.

  Lemma lookup_last_map {F} (name : F -> string) (g : F -> val) n (l : list F) d :
    lookup_last n (map (fun f => (name f, g f)) l) d = match last_named name n l with Some f => Some (g f) | None => d end.
  Proof.
    unfold last_named. revert d. induction l as [|f t IH]; intros d; [reflexivity|]. cbn [map lookup_last rev]. rewrite IH.
    assert (Hfind : forall (p : F -> bool) a b, find p (a ++ b) = match find p a with Some x => Some x | None => find p b end).
    { clear. intros p a b. induction a as [|x a IHa]; [reflexivity|]. cbn. destruct (p x); auto. }
    rewrite Hfind. destruct (find _ (rev t)); [reflexivity|]. cbn. destruct (string_dec (name f) n); reflexivity.
  Qed.
  Lemma dict_in {V} n (v : V) d : NoDup (map fst d) -> In (n, v) d -> dict_get String.eqb n d = Some v.
  Proof.
    induction d as [|[k x] d IH]; intros Nd H; [destruct H|]. cbn in Nd |- *. inversion Nd; subst. destruct H as [H|H].
    - injection H as -> ->. rewrite String.eqb_refl. reflexivity.
    - destruct (String.eqb_spec n k) as [->|]; [|auto]. exfalso. apply H2. change k with (fst (k, v)). apply in_map. exact H.
  Qed.
  Lemma args_last fs w : last_values P fs w (dict_update String.eqb [] (based_source P fs w)).
  Proof.
    assert (K : map fst (dict_update String.eqb [] (based_source P fs w)) = new_names [] (map (fun f => name_of P f w) fs)).
    { rewrite (update_keys (S := unit) (fun _ : val => ""%string) (fun _ _ => true) (fun v => ret v)). cbn [map app]. unfold based_source. rewrite map_map. reflexivity. }
    split; [exact K|]. intros n v H. apply dict_in in H; [|rewrite K; apply new_names_nodup]. rewrite update_get in H. cbn [dict_get] in H.
    unfold based_source in H. rewrite lookup_last_map in H. destruct (last_named _ n fs) as [f|]; [|discriminate]. injection H as <-. eauto.
  Qed.
  Lemma based_own id w b fs f : orderly w -> settings_at id w = Some (IsBasedOnFields b fs f) ->
    (forall v w', em_call id w = (Ok v, w') -> can_emit w id v) /\
    (forall n vs w', 0 <= n -> em_call_n id n w = (Ok vs, w') -> forall v, In v vs -> can_emit w id v).
  Proof.
    intros O S. destruct (orderly_good fuel str_of RO w O) as [R _]. destruct (C61_object fuel str_of w id b fs f R S) as [H1 H2].
    assert (One : forall v w', em_call id w = (Ok v, w') -> can_emit w id v).
    { intros v w' H. destruct (Nat.eq_dec (length fs) 1) as [L|L].
      - destruct fs as [|g [|]]; try discriminate. destruct (H1 v w' H) as [Hg _]. eapply ce_based_one; [exact S|]. eapply applied_returns. eauto.
      - pose proof S as S0. apply settings_get in S0 as (e & E & S0). destruct e; try discriminate. injection S0 as -> -> ->.
        rewrite (call_unfold fuel str_of) in H by exact R. unfold emit_body, at_em in H. rewrite E in H. unfold based_emit in H.
        assert (A : action_args (based_source P fs w) = ([], dict_update String.eqb [] (based_source P fs w))).
        { unfold based_source. destruct fs as [|g [|g2 t]]; [reflexivity | contradiction L; reflexivity | reflexivity]. }
        rewrite A in H. eapply ce_based_many; [exact S | exact L | apply args_last|]. eapply applied_returns. apply applied_of. apply user_call_inv. exact H. }
    split; [exact One|]. intros n vs w' Hn H v Hv. apply H2 in H as (a & H & ->). apply repeat_spec in Hv as ->. eauto.
  Qed.

  Lemma user_own id w c b : orderly w -> settings_at id w = Some (IsUser c b) ->
    (forall v w', em_call id w = (Ok v, w') -> can_emit w id v) /\
    (forall n vs w', 0 <= n -> em_call_n id n w = (Ok vs, w') -> forall v, In v vs -> can_emit w id v).
  Proof.
    intros O S. destruct (orderly_good fuel str_of RO w O) as [R _].
    pose proof S as S0. apply settings_get in S0 as (e & E & S0). destruct e; try discriminate. injection S0 as -> _.
    assert (One : forall v w', em_call id w = (Ok v, w') -> can_emit w id v).
    { intros v w' H. rewrite (call_unfold fuel str_of) in H by exact R. unfold emit_body, run_user, at_em in H. rewrite !E in H.
      match type of H with context [uc_emit P c ?x] => destruct (uc_emit P c x) as [r [o g]] eqn:Em end. injection H as -> _.
      eapply ce_user; [exact S|]. rewrite Em. reflexivity. }
    split; [exact One|]. intros n vs w' Hn H v Hv. destruct (Z.eq_dec n 1) as [->|N].
    - rewrite call_one in H. apply mbind_ok_inv in H as (a & w1 & H & H'). injection H' as <- _. destruct Hv as [<-|[]]. eauto.
    - rewrite (many_unfold fuel str_of) in H by assumption. unfold emit_many_body, run_user, at_em in H. rewrite !E in H.
      match type of H with context [uc_emit_many P c n ?x] => destruct (uc_emit_many P c n x) as [r [o g]] eqn:Em end. injection H as -> _.
      eapply ce_user_many; [exact S | rewrite Em; reflexivity | exact Hv].
  Qed.

  (** ** C70 *)
  Lemma all_own : forall id, only_own id.
  Proof.
    intros id. induction id as [id IH] using (well_founded_induction lt_wf). intros w O.
    destruct (orderly_good fuel str_of RO w O) as [R _]. pose proof (reachable_sound fuel str_of w R) as (So & _).
    destruct (get_em id w) as [e|] eqn:E.
    2: { split; [intros v w' H; exfalso | intros n vs w' Hn H v Hv; exfalso].
         - rewrite (call_unfold fuel str_of) in H by exact R. unfold emit_body, at_em in H. rewrite E in H. discriminate.
         - destruct (Z.eq_dec n 1) as [->|N].
           + rewrite call_one in H. apply mbind_ok_inv in H as (a & w1 & H & _).
             rewrite (call_unfold fuel str_of) in H by exact R. unfold emit_body, at_em in H. rewrite E in H. discriminate.
           + rewrite (many_unfold fuel str_of) in H by assumption. unfold emit_many_body, at_em in H. rewrite E in H. discriminate. }
    pose proof (settings_eq _ _ _ E) as S.
    assert (Kids : forall k, In k (children P e) -> only_own k) by (intros k Hk; apply IH; eapply So; eauto).
    destruct e as [s|i|b q|b c|l a u nd|m x s u nd|src f nd|srcs f nd|b fs sep|b fs f nd|uc own nd]; cbn [settings_of children] in S, Kids.
    - apply from_many; eapply static_own; eauto.
    - apply from_many; eapply iter_own; eauto.
    - apply from_many; eapply seq_own; eauto.
    - apply from_many; eapply choice_own; eauto.
    - apply from_many; eapply word_own; eauto; apply Kids; cbn; auto.
    - assert (Many : forall n vs w', 0 <= n -> em_call_n id n w = (Ok vs, w') -> forall v, In v vs -> can_emit w id v)
        by (eapply text_own; eauto; apply Kids; cbn; auto).
      split; [|exact Many]. intros v w' H. eapply (Many 1 [v] w'); [lia | rewrite call_one; unfold mbind; rewrite H; reflexivity | left; reflexivity].
    - eapply one_own; eauto. apply Kids. cbn. auto.
    - apply from_many; eapply many_own; eauto.
    - eapply copy_own; eauto.
    - eapply based_own; eauto.
    - eapply user_own; eauto.
  Qed.

  (** Whatever calls an emitter has had before, and whatever else has been done:
      a value it emits is one that its settings allow. *)
  Theorem C70_emit_partial w id v w' : orderly w -> em_call id w = (Ok v, w') -> can_emit w id v.
  Proof. intros O H. eapply (proj1 (all_own id w O)); exact H. Qed.
  Theorem C70_emit_many_partial w id n vs w' : orderly w -> 0 <= n -> em_call_n id n w = (Ok vs, w') -> Forall (can_emit w id) vs.
  Proof. intros O Hn H. apply Forall_forall. eapply (proj2 (all_own id w O)); eauto. Qed.
End Emits.

(** ** Examples *)
Example shop_orderly : orderly DP 9 demo_str shop.
Proof. apply program_orderly; [apply orderly_start | vm_compute; reflexivity | vm_compute; reflexivity]. Qed.

(** The values of wrappers, of CopyFields and of BasedOnFields in that world, and
    those of a Text. *)
Example C70_case :
  can_emit DP demo_str shop 3 (VList [VStr [98]; VInt 4]) /\
  Forall (can_emit DP demo_str shop 4) [VTuple [VStr [99; 97]; VInt 2]; VTuple [VStr [99]; VInt 1]] /\
  Forall (can_emit DP demo_str shop 9) [VStr [98; 45; 45]; VStr [98; 45; 45]].
Proof.
  pose proof (at_place _ _ _ (proj1 (proj2 shop_calls)) 1%nat _ _ eq_refl eq_refl) as C. cbv beta in C.
  pose proof (at_place _ _ _ (proj1 shop_calls) 2%nat _ _ eq_refl eq_refl) as D. cbv beta in D.
  pose proof (at_place _ _ _ (proj1 shop_calls) 3%nat _ _ eq_refl eq_refl) as E. cbv beta in E.
  split; [|split].
  - eapply C70_emit_partial; [apply qc_rng_ok; exact demo_ok | exact shop_orderly | exact (ran (em_call DP 9 demo_str 3) shop _ C)].
  - eapply C70_emit_many_partial; [apply qc_rng_ok; exact demo_ok | exact shop_orderly | | exact (ran (em_call_n DP 9 demo_str 4 2) shop _ D)]. lia.
  - eapply C70_emit_many_partial; [apply qc_rng_ok; exact demo_ok | exact shop_orderly | | exact (ran (em_call_n DP 9 demo_str 9 2) shop _ E)]. lia.
Qed.
Example C70_case_text : exists out w',
  em_call_n DP 9 demo_str 5 2 (program some_texts empty) = (Ok out, w') /\ length out = 2%nat /\
  Forall (can_emit DP demo_str (program some_texts empty) 5) out.
Proof.
  destruct C34_case as (O & l & w' & H & L). exists l, w'. split; [exact H|]. split; [exact L|].
  eapply C70_emit_many_partial; [apply qc_rng_ok; exact demo_ok | exact O | | exact H]. lia.
Qed.

(** ** Without the restriction

    Both witnesses are words.  In the first, the length emitter gives -1 and 3: of
    the two letters drawn for both, each word gets one.  In the second, lengths are
    2, but the Choice without replacement that gives the letters has been asked
    for -1 letters before: now it gives none. *)
Definition C70_statement : Prop := forall w id n vs w',
  reachable DP 9 demo_str w -> 0 <= n -> em_call_n DP 9 demo_str id n w = (Ok vs, w') -> Forall (can_emit DP demo_str w id) vs.
Definition C70_statement_single : Prop := forall w id v w',
  reachable DP 9 demo_str w -> sized DP w -> em_call DP 9 demo_str id w = (Ok v, w') -> can_emit DP demo_str w id v.

Lemma emit_static w id v l x : settings_at DP id w = Some (IsStatic v l) -> can_emit DP demo_str w id x -> x = v.
Proof. intros S H. inversion H; subst; congruence. Qed.
Lemma emit_seq w id t its b x : settings_at DP id w = Some (IsSequential t its None b) -> can_emit DP demo_str w id x -> In x its.
Proof. intros S H. inversion H; subst; try congruence. Qed.
Lemma emit_word w id l a x : settings_at DP id w = Some (IsWord l a) -> (forall y, can_emit DP demo_str w l y -> y <> VNone) ->
  can_emit DP demo_str w id x ->
  exists nv n chars, can_emit DP demo_str w l nv /\ int_value nv n /\ zlen chars = n /\ (forall c, In c chars -> can_emit DP demo_str w a c) /\ spelled chars x.
Proof.
  intros S N H. inversion H; subst; try congruence.
  - match goal with K : settings_at _ _ _ = Some (IsWord ?l0 ?a0) |- _ => assert (l0 = l /\ a0 = a) as [-> ->] by (rewrite S in K; injection K as -> ->; auto) end. eauto 10.
  - match goal with K : settings_at _ _ _ = Some (IsWord ?l0 ?a0) |- _ => assert (l0 = l /\ a0 = a) as [-> ->] by (rewrite S in K; injection K as -> ->; auto) end.
    exfalso. eapply N; eauto.
  - match goal with K : settings_at _ _ _ = Some (IsWord ?l0 ?a0) |- _ => assert (l0 = l /\ a0 = a) as [-> ->] by (rewrite S in K; injection K as -> ->; auto) end.
    exfalso. eapply N; eauto.
Qed.
Lemma emit_choice w id t its ws cs r o x : settings_at DP id w = Some (IsChoice t its ws cs r o) -> can_emit DP demo_str w id x -> In x its.
Proof. intros S H. inversion H; subst; try congruence. Qed.

(** A word of single letters has as many letters as were put together. *)
Lemma letters_length chars s : (forall c, In c chars -> exists z, c = VStr [z]) -> spelled chars (VStr s) -> zlen s = zlen chars.
Proof.
  intros L (ss & -> & E). injection E as ->.
  induction ss as [|x ss IH]; [reflexivity|]. cbn [map List.concat].
  destruct (L (VStr x)) as [z E]; [now left|]. injection E as ->.
  assert (I : zlen (List.concat ss) = zlen (map VStr ss)) by (apply IH; intros c Hc; apply L; right; exact Hc).
  unfold zlen in *. cbn [app length]. lia.
Qed.

Definition short_word : list (command DP) :=
  [NewSequential DP true [VInt (-1); VInt 3] false; NewStatic DP (VStr [97]); NewWord DP 0 1 (Some 4%nat)].
Theorem C70_refuted : ~ C70_statement.
Proof.
  intros H. pose (w := program short_word empty). pose (m := em_call_n DP 9 demo_str 2 2).
  assert (R : reachable DP 9 demo_str w) by (apply program_reachable; [constructor | vm_compute; reflexivity]).
  assert (E : m w = (Ok [VStr [97]; VStr [97]], snd (m w))) by (apply ran; vm_compute; reflexivity).
  specialize (H w 2%nat 2 _ _ R ltac:(lia) E). apply Forall_inv in H.
  assert (S2 : settings_at DP 2 w = Some (IsWord 0 1)) by (vm_cast_no_check (eq_refl (A:=option (settings DP)) (Some (IsWord 0 1)))).
  assert (S1 : settings_at DP 1 w = Some (IsStatic (VStr [97]) [VStr [97]])) by (vm_cast_no_check (eq_refl (A:=option (settings DP)) (Some (IsStatic (VStr [97]) [VStr [97]])))).
  assert (S0 : settings_at DP 0 w = Some (IsSequential true [VInt (-1); VInt 3] None false)) by (vm_cast_no_check (eq_refl (A:=option (settings DP)) (Some (IsSequential true [VInt (-1); VInt 3] None false)))).
  clearbody w. apply (emit_word w _ _ _ _ S2) in H.
  2: { intros y Hy ->. pose proof (emit_seq _ _ _ _ _ _ S0 Hy) as [K|[K|[]]]; discriminate K. }
  destruct H as (nv & n & chars & A & B & C & D & F).
  pose proof (letters_length chars [97]) as L. rewrite C in L.
  assert (zlen [97] = n). { apply L; [|exact F]. intros c Hc. exists 97. exact (emit_static _ _ _ _ _ S1 (D c Hc)). }
  pose proof (emit_seq _ _ _ _ _ _ S0 A) as [<-|[<-|[]]]; destruct B as [K|[[K _]|[K _]]]; try discriminate K;
    injection K as <-; discriminate.
Qed.

Definition no_letters : list (command DP) :=
  [NewChoice DP true [VStr [97]; VStr [98]; VStr [99]] None false false (Some 4%nat) None; NewStatic DP (VInt 2);
   NewWord DP 1 0 (Some 4%nat); Do DP (EmitN DP 0 (-1))].
Theorem C70_single_refuted : ~ C70_statement_single.
Proof.
  intros H. pose (w := program no_letters empty). pose (m := em_call DP 9 demo_str 2).
  assert (R : reachable DP 9 demo_str w) by (apply program_reachable; [constructor | vm_compute; reflexivity]).
  assert (SZ : sized DP w) by (apply all_sized_ok; vm_compute; reflexivity).
  assert (E : m w = (Ok (VStr []), snd (m w))) by (apply ran; vm_compute; reflexivity).
  specialize (H w 2%nat _ _ R SZ E).
  assert (S2 : settings_at DP 2 w = Some (IsWord 1 0)) by (vm_cast_no_check (eq_refl (A:=option (settings DP)) (Some (IsWord 1 0)))).
  assert (S1 : settings_at DP 1 w = Some (IsStatic (VInt 2) [VInt 2])) by (vm_cast_no_check (eq_refl (A:=option (settings DP)) (Some (IsStatic (VInt 2) [VInt 2])))).
  assert (S0 : settings_at DP 0 w = Some (IsChoice true [VStr [97]; VStr [98]; VStr [99]] None None false false)) by (vm_cast_no_check (eq_refl (A:=option (settings DP)) (Some (IsChoice true [VStr [97]; VStr [98]; VStr [99]] None None false false)))).
  clearbody w. apply (emit_word w _ _ _ _ S2) in H.
  2: { intros y Hy ->. pose proof (emit_static _ _ _ _ _ S1 Hy) as K. discriminate K. }
  destruct H as (nv & n & chars & A & B & C & D & F).
  pose proof (letters_length chars []) as L. rewrite C in L.
  assert (zlen (A:=Z) [] = n).
  { apply L; [|exact F]. intros c Hc. pose proof (emit_choice _ _ _ _ _ _ _ _ _ S0 (D c Hc)) as [<-|[<-|[<-|[]]]]; eexists; reflexivity. }
  pose proof (emit_static _ _ _ _ _ S1 A) as ->. destruct B as [K|[[K _]|[K _]]]; try discriminate K. injection K as <-. discriminate.
Qed.

Print Assumptions C70_emit_partial.
Print Assumptions C70_emit_many_partial.
Print Assumptions C70_refuted.
Print Assumptions C70_single_refuted.
