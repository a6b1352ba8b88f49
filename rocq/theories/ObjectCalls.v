(** * What a call of an emitter, of a field, of a schema is made of. *)
From Coq Require Import String Relations.
From Verif Require Import Base Prims Values MathModel ChoiceModel ChoiceRun FixedModel GroupModel
  SigModel WrapModel TextModel FieldModel World Rel WorldProofs Agree WorldSpec WorldReset Histories
  WorldBuild BuildProofs Prop_Construct ObjectSpec ObjectProofs.
Open Scope list_scope.
Open Scope Z_scope.

Section Unfold.
  Context {P : prims} (fuel : nat) (str_of : val -> res (list Z)).
  Notation world := (World.world P).
  Notation emitter := (World.emitter P).
  Notation get_em := (World.get_em P).
  Notation em_emit := (World.em_emit P fuel str_of).
  Notation em_emit_many := (World.em_emit_many P fuel str_of).
  Notation em_reset := (World.em_reset P fuel).
  Notation em_call := (World.em_call P fuel str_of).
  Notation em_call_n := (World.em_call_n P fuel str_of).

  Section At.
    Context (w : world) (So : older w) (id : nat).
    Notation rel := (Rel.rel (agree true (fun _ => True) (fun _ => True) (fun _ => True) (fun _ => False) w w)).
    Lemma below_emit k : (k < id)%nat -> rel (fst (emits P fuel str_of id) k) (em_emit k).
    Proof. intros H. apply (rel_emits fuel str_of); [|exact I]. right. split; [exact So | lia]. Qed.
    Lemma below_many k n : (k < id)%nat -> rel (snd (emits P fuel str_of id) k n) (em_emit_many k n).
    Proof. intros H. apply (rel_emits fuel str_of); [|exact I]. right. split; [exact So | lia]. Qed.
    Lemma below_reset k : (k < id)%nat -> rel (ereset P fuel id k) (em_reset k).
    Proof. intros H. apply (rel_ereset fuel); [|exact I]. right. split; [exact So | lia]. Qed.
    Lemma below_call_n k n : (k < id)%nat ->
      rel (call_number (fst (emits P fuel str_of id) k) (snd (emits P fuel str_of id) k) n) (em_call_n k n).
    Proof. intros H. apply rel_call_number; [apply below_emit | apply below_many]; exact H. Qed.
    Lemma below_sources (srcs : list (string * nat)) : (forall k, In k (map snd srcs) -> (k < id)%nat) ->
      Forall2 (srel (agree true (fun _ => True) (fun _ => True) (fun _ => True) (fun _ => False) w w))
        (map (fun ks => (fst ks, (fst (emits P fuel str_of id) (snd ks),
            call_number (fst (emits P fuel str_of id) (snd ks)) (snd (emits P fuel str_of id) (snd ks))))) srcs)
        (map (fun ks => (fst ks, (em_call (snd ks), em_call_n (snd ks)))) srcs).
    Proof.
      induction srcs as [|[k j] t IH]; cbn [map]; constructor.
      - split; [reflexivity|]. cbn [fst snd]. assert (j < id)%nat by (apply H; left; reflexivity). split; [apply below_emit | intros n; apply below_call_n]; assumption.
      - apply IH. intros k' Hk'. apply H. right. exact Hk'.
    Qed.
  End At.

  (** em() and em(n) are the class's emit and emit_many, with the parts called in
      the same way. *)
  Theorem emit_unfold w id : sound P w -> em_emit id w = emit_body P fuel str_of em_emit em_emit_many em_reset id w.
  Proof.
    intros Sw. pose proof Sw as (So & _). unfold World.em_emit at 1. cbn [emits fst]. unfold emit_body, at_em.
    destruct (get_em id w) as [e|] eqn:E; [|reflexivity]. assert (K : forall k, In k (children P e) -> (k < id)%nat) by (intros k; eapply So; exact E).
    destruct e; cbn [children] in K; [reflexivity|reflexivity|reflexivity|reflexivity| | | | |reflexivity|reflexivity|reflexivity]; apply same_effect.
    - apply rel_word_emit; [apply below_emit | apply below_emit | intros n; apply below_call_n]; auto; apply K; cbn; auto.
    - apply rel_text_emit; try (intros n; apply below_call_n; auto; apply K; cbn; auto; fail).
      + apply below_reset; auto; apply K; cbn; auto.
      + intros s1 s2 A. eapply word_unique_agree; [exact I | exact A].
    - apply rel_wrapone_emit; [apply below_emit; auto; apply K; cbn; auto | apply bound_urel; exact I].
    - apply rel_wrapmany_emit; [apply below_sources; auto | apply bound_urel; exact I].
  Qed.
  Theorem emit_many_unfold w id n : sound P w -> em_emit_many id n w = emit_many_body P fuel str_of em_emit em_emit_many em_reset id n w.
  Proof.
    intros Sw. pose proof Sw as (So & _). unfold World.em_emit_many at 1. cbn [emits snd]. unfold emit_many_body, at_em.
    destruct (get_em id w) as [e|] eqn:E; [|reflexivity]. assert (K : forall k, In k (children P e) -> (k < id)%nat) by (intros k; eapply So; exact E).
    destruct e; cbn [children] in K; [reflexivity|reflexivity|reflexivity|reflexivity| | | | |reflexivity|reflexivity|reflexivity]; apply same_effect.
    - apply rel_word_emit_many; intros m; apply below_call_n; auto; apply K; cbn; auto.
    - apply rel_text_emit_many; try (intros m; apply below_call_n; auto; apply K; cbn; auto; fail).
      + apply below_reset; auto; apply K; cbn; auto.
      + intros s1 s2 A. eapply word_unique_agree; [exact I | exact A].
    - apply rel_wrapone_emit_many; [intros m; apply below_call_n; auto; apply K; cbn; auto | apply bound_urel; exact I].
    - apply rel_wrapmany_emit_many; [apply below_sources; auto | apply bound_urel; exact I].
  Qed.
End Unfold.
