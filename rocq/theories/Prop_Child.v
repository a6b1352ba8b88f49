(** * Replacing children through [emitters]: property C99. *)
From Coq Require Import String.
From Verif Require Import Base Prims Values MathModel ChoiceModel ChoiceRun ChoiceProofs FixedModel GroupModel
  SigModel SigProofs WrapModel TextModel FieldModel World Rel WorldProofs Agree WorldSpec WorldReset WorldSeed Histories
  WorldBuild BuildProofs ProgramSpec ObjectSpec ObjectProofs Demo WorldDemo Prop_World Prop_Construct
  Prop_Seed Prop_RngSeed ChildModel ChildProofs.
Open Scope list_scope.
Open Scope Z_scope.

(** ** Specification *)

Section Spec.
  Context (P : prims) (fuel : nat) (str_of : val -> res (list Z)).
  Notation world := (World.world P).
  Notation emitter := (World.emitter P).

  (** em.emitters, as a list of labels and emitters in order; [None]: AttributeError. *)
  Definition emitters_at (i : nat) (w : world) : option (list (string * nat)) :=
    match get_em P i w with Some e => child_map P e | None => None end.
  Definition is_wrapmany (i : nat) (w : world) : Prop := exists ss f nd, get_em P i w = Some (EWrapMany P ss f nd).

  (** What else there is to an emitter with children: its class, the function
      of a wrapper, num_unique_values, rng_seed and rng. *)
  Definition class_of (e : emitter) : string :=
    match e with
    | EWord _ _ _ _ _ => "Word" | EText _ _ _ _ _ _ => "Text" | EWrapOne _ _ _ _ => "WrapOne" | EWrapMany _ _ _ _ => "WrapMany"
    | _ => "no children"
    end%string.
  Definition function_of (e : emitter) : option (wfun P) :=
    match e with EWrapOne _ _ f _ | EWrapMany _ _ f _ => Some f | _ => None end.
  Definition rest_of (e : emitter) : string * option (wfun P) * res nuv * option (node P) :=
    (class_of e, function_of e, nuv_of P e, node_of P e).

  (** Nothing but em.emitters has changed. *)
  Definition only_children (i : nat) (w w' : world) : Prop :=
    option_map rest_of (get_em P i w') = option_map rest_of (get_em P i w) /\ ent_of P i w' = ent_of P i w /\
    (forall j, j <> i -> nth_error (w_em P w') j = nth_error (w_em P w) j) /\
    w_fd P w' = w_fd P w /\ w_run P w' = w_run P w.

  (** The act is done with emitter [i] or one of its parts, and is none that
      replaces children or takes away a seed. *)
  Definition about (w : world) (i : nat) (a : act P) : Prop :=
    match a with
    | ACall _ j | ACallN _ j _ | AReset _ j => belongs P w i j
    | ASeed _ j s | AAssign _ j s => belongs P w i j /\ s <> None
    | AReplace _ _ _ _ | ARemove _ _ _ => False
    end.

  (** Somewhere in [i] is an emitter that is part of itself. *)
  Definition contains_loop (w : world) (i : nat) : Prop := exists j, belongs P w i j /\ part_of P w j j.
End Spec.

(** ** Proofs *)

Section Dict.
  Lemma dict_set_get label (k : nat) l : dict_get String.eqb label (dict_set String.eqb label k l) = Some k.
  Proof.
    induction l as [|[n v] t IH]; cbn [dict_set].
    - cbn. rewrite String.eqb_refl. reflexivity.
    - destruct (String.eqb label n) eqn:E; cbn; rewrite E; [reflexivity | exact IH].
  Qed.
  Lemma dict_set_other label n (k : nat) l : n <> label -> dict_get String.eqb n (dict_set String.eqb label k l) = dict_get String.eqb n l.
  Proof.
    intros N. induction l as [|[m v] t IH]; cbn [dict_set].
    - cbn. destruct (String.eqb_spec n label); [contradiction | reflexivity].
    - destruct (String.eqb_spec label m) as [->|M]; cbn; [destruct (String.eqb_spec n m); [contradiction | reflexivity]|].
      destruct (String.eqb n m); [reflexivity | exact IH].
  Qed.
  Lemma dict_set_keys label (k : nat) l :
    map fst (dict_set String.eqb label k l) =
    match dict_get String.eqb label l with Some _ => map fst l | None => map fst l ++ [label] end.
  Proof.
    induction l as [|[m v] t IH]; cbn [dict_set]; [reflexivity|]. cbn [dict_get].
    destruct (String.eqb label m); cbn; [reflexivity|]. rewrite IH. destruct (dict_get String.eqb label t); reflexivity.
  Qed.
  Lemma dict_set_back label (k old : nat) l : dict_get String.eqb label l = Some old ->
    dict_set String.eqb label old (dict_set String.eqb label k l) = l.
  Proof.
    induction l as [|[m v] t IH]; cbn [dict_get]; [discriminate|]. cbn [dict_set]. destruct (String.eqb label m) eqn:E; cbn; rewrite E.
    - intros [= ->]. reflexivity.
    - intros H. rewrite IH by exact H. reflexivity.
  Qed.
  Lemma dict_del_some label l m : dict_del label l = Some m ->
    exists l1 k l2, l = l1 ++ (label, k) :: l2 /\ m = l1 ++ l2 /\ ~ In label (map fst l1).
  Proof.
    revert m. induction l as [|[n v] t IH]; intros m; cbn; [discriminate|].
    destruct (String.eqb_spec label n) as [->|N].
    - intros [= <-]. exists [], v, t. auto.
    - destruct (dict_del label t) as [m'|]; [|discriminate]. cbn. intros [= <-]. destruct (IH m' eq_refl) as (l1 & k & l2 & -> & -> & H).
      exists ((n, v) :: l1), k, l2. cbn. repeat split. intros [->|Hi]; [apply N; reflexivity | exact (H Hi)].
  Qed.
  Lemma dict_del_none label l : dict_del label l = None -> ~ In label (map fst l).
  Proof.
    induction l as [|[n v] t IH]; cbn; [intros _ []|]. destruct (String.eqb_spec label n) as [->|N]; [discriminate|].
    destruct (dict_del label t); [discriminate|]. intros _ [->|H]; [apply N; reflexivity | exact (IH eq_refl H)].
  Qed.
End Dict.

Section Proofs.
  Context {P : prims} (fuel : nat) (str_of : val -> res (list Z)).
  Notation world := (World.world P).
  Notation emitter := (World.emitter P).
  Notation get_em := (World.get_em P).
  Notation belongs := (WorldSpec.belongs P).
  Notation perform := (ChildModel.perform P fuel str_of).
  Notation acts := (ChildModel.acts P fuel str_of).
  Notation acted := (ChildModel.acted P fuel str_of).
  Notation emitters_at := (Prop_Child.emitters_at P).
  Notation rng_seed_at := (Prop_RngSeed.rng_seed_at P).

  Lemma performed A (m : M world A) (k : A -> answer) (w w' : world) r : (a <~ m ;; ret (k a)) w = (Ok r, w') -> exists a, m w = (Ok a, w') /\ r = k a.
  Proof. unfold mbind, ret. destruct (m w) as [[a|e|] w1]; intros [= <- <-]. eauto. Qed.

  Lemma put_only i e e' (w : world) : get_em i w = Some e -> rest_of P e' = rest_of P e -> only_children P i w (put_em P i e' w).
  Proof.
    intros E R. split; [rewrite (get_put_same _ _ _ _ E), E; cbn; congruence|]. split; [apply ent_put|].
    split; [intros j N; apply put_other, N|]. split; [apply fd_put|]. unfold put_em. destruct (nth_error (w_em P w) i); reflexivity.
  Qed.
  Lemma put_twice i e e' (w : world) : get_em i w = Some e -> put_em P i e (put_em P i e' w) = w.
  Proof.
    intros E. destruct w as [os fs r]. unfold put_em, World.get_em in *. cbn in *.
    destruct (nth_error os i) as [o|] eqn:Eo; [|discriminate]. cbn. rewrite (nth_upd_same _ _ _ _ _ Eo). cbn. f_equal.
    apply list_eq_nth. intros j. destruct (Nat.eq_dec i j) as [<-|N].
    - rewrite (nth_upd_same _ _ _ _ (mkObj P e' (o_ent P o))) by (apply (nth_upd_same _ _ _ _ _ Eo)). rewrite Eo. destruct o. cbn in *. congruence.
    - rewrite !nth_upd_other by exact N. reflexivity.
  Qed.
  Lemma with_children_rest m e e' : with_children P m e = Some e' -> rest_of P e' = rest_of P e.
  Proof.
    destruct e; cbn; try discriminate; try (intros [= <-]; reflexivity);
      repeat (destruct m as [|[? ?] m]; try discriminate); intros [= <-]; reflexivity.
  Qed.
  (** The labels of Word, Text and WrapOne stay. *)
  Lemma with_children_map m l e e' : child_map P e = Some l -> (map fst m = map fst l \/ class_of P e = "WrapMany"%string) ->
    with_children P m e = Some e' -> child_map P e' = Some m.
  Proof.
    destruct e; cbn; try discriminate; intros [= <-] H;
      try (intros [= <-]; reflexivity);
      destruct H as [H|H]; try discriminate; repeat (destruct m as [|[? ?] m]; try discriminate); intros [= <-]; cbn in *;
      injection H; intros; subst; reflexivity.
  Qed.
  Lemma with_children_some m l e : child_map P e = Some l -> (map fst m = map fst l \/ class_of P e = "WrapMany"%string) ->
    exists e', with_children P m e = Some e'.
  Proof.
    destruct e; cbn; try discriminate; intros [= <-] H; eauto; destruct H as [H|H]; try discriminate;
      repeat (destruct m as [|[? ?] m]; try discriminate); eauto.
  Qed.
  Lemma dict_get_in label (l : list (string * nat)) : In label (map fst l) <-> dict_get String.eqb label l <> None.
  Proof.
    induction l as [|[n v] t IH]; cbn; [split; [intros [] | congruence]|]. destruct (String.eqb_spec label n) as [->|N].
    - split; [discriminate | auto].
    - rewrite <- IH. split; [intros [->|H]; [contradiction | exact H] | auto].
  Qed.

  Lemma set_child_inv d i label k w a w' : perform d (AReplace P i label k) w = (Ok a, w') ->
    exists e l e', get_em i w = Some e /\ child_map P e = Some l /\
      with_children P (dict_set String.eqb label k l) e = Some e' /\ w' = put_em P i e' w.
  Proof.
    cbn [ChildModel.perform]. intros H. apply performed in H. destruct H as (u & H & _). unfold set_child, at_em in H.
    destruct (get_em i w) as [e|] eqn:E; [|discriminate]. destruct (child_map P e) as [l|] eqn:L; [|discriminate].
    unfold put_children, at_em in H. rewrite E in H. destruct (with_children P _ e) as [e'|] eqn:W; [|discriminate].
    injection H as _ <-. eauto 8.
  Qed.

  (** em.emitters[label] = k: afterwards em.emitters[label] is k; the other labels
      are as they were, in the same order, a new label (WrapMany) being the last;
      and nothing else has changed, neither in this emitter nor in any other. *)
  Theorem C99_assign d w i label k l :
    emitters_at i w = Some l -> In label (map fst l) \/ is_wrapmany P i w ->
    exists w' m, perform d (AReplace P i label k) w = (Ok Done, w') /\ emitters_at i w' = Some m /\
      dict_get String.eqb label m = Some k /\
      (forall n, n <> label -> dict_get String.eqb n m = dict_get String.eqb n l) /\
      (In label (map fst l) -> map fst m = map fst l) /\
      (~ In label (map fst l) -> map fst m = map fst l ++ [label]) /\
      only_children P i w w'.
  Proof.
    intros Hl Ha. unfold Prop_Child.emitters_at in Hl. destruct (get_em i w) as [e|] eqn:E; [|discriminate].
    assert (Keys : map fst (dict_set String.eqb label k l) = map fst l \/ class_of P e = "WrapMany"%string).
    { destruct Ha as [Ha|(ss & f & nd & Ha)]; [left | right; rewrite E in Ha; injection Ha as ->; reflexivity].
      rewrite dict_set_keys. apply dict_get_in in Ha. destruct (dict_get String.eqb label l); [reflexivity | congruence]. }
    destruct (with_children_some _ _ _ Hl Keys) as (e' & W).
    exists (put_em P i e' w), (dict_set String.eqb label k l). split; [|split; [|split; [|split; [|split; [|split]]]]].
    - cbn [ChildModel.perform]. unfold set_child, put_children, at_em, mbind, ret. rewrite E, Hl, E, W. reflexivity.
    - unfold Prop_Child.emitters_at. rewrite (get_put_same _ _ _ _ E). eapply with_children_map; eauto.
    - apply dict_set_get.
    - intros n N. apply dict_set_other, N.
    - intros Hi. rewrite dict_set_keys. apply dict_get_in in Hi. destruct (dict_get String.eqb label l); [reflexivity | congruence].
    - intros Hi. rewrite dict_set_keys. destruct (dict_get String.eqb label l) eqn:G; [|reflexivity].
      exfalso. apply Hi, dict_get_in. congruence.
    - apply (put_only _ e); [exact E|]. eapply with_children_rest; eauto.
  Qed.

  (** An emitter of a class without children has no such attribute. *)
  Theorem C99_missing d w i label k e : get_em i w = Some e -> emitters_at i w = None ->
    perform d (AReplace P i label k) w = (Raise AttributeError, w) /\
    perform d (ARemove P i label) w = (Raise AttributeError, w).
  Proof.
    intros E H. unfold Prop_Child.emitters_at in H. rewrite E in H. cbn [ChildModel.perform].
    unfold set_child, del_child, at_em, mbind. rewrite E, H. auto.
  Qed.

  (** Setting the former child back makes everything as it was. *)
  Theorem C99_restore d w i label k l old w1 :
    emitters_at i w = Some l -> dict_get String.eqb label l = Some old ->
    perform d (AReplace P i label k) w = (Ok Done, w1) ->
    perform d (AReplace P i label old) w1 = (Ok Done, w).
  Proof.
    intros Hl Ho H. destruct (set_child_inv _ _ _ _ _ _ _ H) as (e & l' & e' & E & L & W & ->).
    unfold Prop_Child.emitters_at in Hl. rewrite E in Hl. rewrite L in Hl. injection Hl as ->.
    assert (Keys : map fst (dict_set String.eqb label k l) = map fst l).
    { rewrite dict_set_keys, Ho. reflexivity. }
    assert (L' : child_map P e' = Some (dict_set String.eqb label k l)) by (eapply with_children_map; eauto).
    cbn [ChildModel.perform]. unfold set_child, put_children, at_em, mbind, ret.
    rewrite (get_put_same _ _ _ _ E), L', (get_put_same _ _ _ _ E), (dict_set_back _ _ _ _ Ho).
    assert (B : with_children P l e' = Some e).
    { clear -L W. destruct e; cbn in L; try discriminate; injection L as <-; cbn in *;
        repeat match goal with |- context [String.eqb ?a ?b] => destruct (String.eqb a b) end;
        repeat match type of W with context [String.eqb ?a ?b] => destruct (String.eqb a b) end; cbn in W; try discriminate;
        injection W as <-; reflexivity. }
    rewrite B. rewrite (put_twice _ _ _ _ E). reflexivity.
  Qed.

  (** del em.emitters[label] of a WrapMany: the label is gone, the others are as
      they were; KeyError if there is none. *)
  Theorem C99_remove d w i label l : emitters_at i w = Some l -> is_wrapmany P i w ->
    (forall l1 k l2, l = l1 ++ (label, k) :: l2 -> ~ In label (map fst l1) ->
       exists w', perform d (ARemove P i label) w = (Ok Done, w') /\ emitters_at i w' = Some (l1 ++ l2) /\ only_children P i w w') /\
    (~ In label (map fst l) -> perform d (ARemove P i label) w = (Raise KeyError, w)).
  Proof.
    intros Hl (ss & f & nd & E). unfold Prop_Child.emitters_at in Hl. rewrite E in Hl. injection Hl as ->. split.
    - intros l1 k l2 -> Hn.
      assert (D : dict_del label (l1 ++ (label, k) :: l2) = Some (l1 ++ l2)).
      { clear -Hn. induction l1 as [|[n v] t IH]; cbn in *; [rewrite String.eqb_refl; reflexivity|].
        destruct (String.eqb_spec label n) as [->|N]; [exfalso; apply Hn; auto|]. rewrite IH by auto. reflexivity. }
      exists (put_em P i (EWrapMany P (l1 ++ l2) f nd) w). split; [|split].
      + cbn [ChildModel.perform]. unfold del_child, put_children, at_em, mbind, ret. rewrite E. cbn. rewrite D, E. reflexivity.
      + unfold Prop_Child.emitters_at. rewrite (get_put_same _ _ _ _ E). reflexivity.
      + apply (put_only _ _ _ _ E). reflexivity.
    - intros Hn. cbn [ChildModel.perform]. unfold del_child, at_em, mbind. rewrite E. cbn.
      destruct (dict_del label l) as [m|] eqn:D; [|reflexivity]. destruct (dict_del_some _ _ _ D) as (l1 & k & l2 & -> & _).
      exfalso. apply Hn. rewrite map_app. apply in_or_app. right. left. reflexivity.
  Qed.

  (** The new child and everything it is made of belong to the emitter now. *)
  Theorem C99_part d w i label k w1 j : perform d (AReplace P i label k) w = (Ok Done, w1) ->
    belongs w1 k j -> belongs w1 i j.
  Proof.
    intros H B. destruct (set_child_inv _ _ _ _ _ _ _ H) as (e & l & e' & E & L & W & ->).
    econstructor; [apply (get_put_same _ _ _ _ E) | | exact B].
    clear -L W. destruct e; cbn in L; try discriminate; injection L as <-; cbn in W.
    - destruct (String.eqb label "length"); [injection W as <-; cbn; auto|].
      cbn in W. destruct (String.eqb label "alphabet"); [injection W as <-; cbn; auto | discriminate].
    - destruct (String.eqb label "numwords"); [injection W as <-; cbn; auto|]. cbn in W.
      destruct (String.eqb label "word"); [injection W as <-; cbn; auto|]. cbn in W.
      destruct (String.eqb label "sep"); [injection W as <-; cbn; auto | discriminate].
    - destruct (String.eqb label "source"); [injection W as <-; cbn; auto | discriminate].
    - injection W as <-. cbn. apply in_map_iff. exists (label, k). split; [reflexivity|].
      clear. induction sources as [|[n v] t IH]; cbn; [left; reflexivity|].
      destruct (String.eqb_spec label n) as [->|N]; [left; reflexivity | right; exact IH].
  Qed.

  (** *** What is done with the emitter *)

  Hypothesis score_quiet : forall u w, k_score P u w <> Raise AttributeError.

  Lemma seed_is s i w : rng_seed_at i w = Some s -> seed_at s w i.
  Proof.
    intros A e nd E En. unfold Prop_RngSeed.rng_seed_at in A. rewrite E, En in A. cbn in A. congruence.
  Qed.
  Lemma replaced_seed d i label k w w1 : perform d (AReplace P i label k) w = (Ok Done, w1) -> rng_seed_at i w1 = rng_seed_at i w.
  Proof.
    intros H. destruct (set_child_inv _ _ _ _ _ _ _ H) as (e & l & e' & E & L & W & ->).
    unfold Prop_RngSeed.rng_seed_at. rewrite (get_put_same _ _ _ _ E), E. apply with_children_rest in W.
    unfold rest_of in W. injection W as _ _ _ ->. reflexivity.
  Qed.

  (** A reset after the replacement resets the new child and all its parts, and
      gives them the seed of the emitter. *)
  Theorem C99_reset d w i label k w1 w2 s :
    perform d (AReplace P i label k) w = (Ok Done, w1) -> rng_seed_at i w = Some s ->
    perform d (AReset P i) w1 = (Ok Done, w2) ->
    forall j e, belongs w1 i j -> get_em j w2 = Some e ->
      fresh P fuel s e /\ (rng_seed_at j w2 = None \/ rng_seed_at j w2 = Some s).
  Proof.
    intros H Hs R j e B E. apply performed in R. destruct R as ([] & R & _).
    rewrite <- (replaced_seed _ _ _ _ _ _ H) in Hs.
    destruct (ereset_step fuel score_quiet s _ _ _ _ (seed_is _ _ _ Hs) R) as [_ F]. specialize (F j B e E). split; [exact F|].
    unfold Prop_RngSeed.rng_seed_at. rewrite E. destruct (node_of P e) as [nd|] eqn:En; [right | left; reflexivity].
    cbn. f_equal. eapply fresh_seed; eauto.
  Qed.

  (** And seed(s) seeds them all (what emits from a position keeps it, C73). *)
  Theorem C99_seed d w i s w' : perform d (ASeed P i s) w = (Ok Done, w') ->
    forall j e, belongs w i j -> get_em j w' = Some e ->
      match e with EIter _ _ | ESeq _ _ _ | EUser _ _ _ _ => True | e => fresh P fuel s e end.
  Proof.
    intros R j e B E. apply performed in R. destruct R as ([] & R & _).
    destruct (eseed_step fuel score_quiet s _ _ _ _ R) as [_ F]. exact (F j B e E).
  Qed.

  (** What is not part of the emitter any more is left alone, whatever is done
      with the emitter: the replaced child can be used elsewhere. *)
  Theorem C99_left_alone d w i l :
    Forall (fun a => belongs w i (target a) /\ replaces a = false) l ->
    (forall j, ~ belongs w i j -> nth_error (w_em P (acted d l w)) j = nth_error (w_em P w) j) /\
    w_fd P (acted d l w) = w_fd P w.
  Proof.
    intros H. destruct (acts_within fuel str_of d l w (belongs w i) (closed_tree w i) H) as (_ & A & B & _). split.
    - intros j N. symmetry. apply A, N.
    - symmetry. apply list_eq_nth. intros f. apply B. auto.
  Qed.

  (** From the reset on, only the present children count: two histories, with any
      replacements, that end with the same children everywhere in the emitter and the
      same seed, are followed by the same values. *)
  Theorem C99_replay d w i s h1 h2 v1 v2 later :
    let u1 := acted d h1 w in let u2 := acted d h2 w in
    (forall j, belongs u1 i j -> emitters_at j u1 = emitters_at j u2) ->
    pure_parts P u1 i -> (forall j e, belongs u1 i j -> get_em j u1 = Some e -> source_of P e = []) ->
    rng_seed_at i u1 = Some (Some s) -> rng_seed_at i u2 = Some (Some s) ->
    perform d (AReset P i) u1 = (Ok Done, v1) -> perform d (AReset P i) u2 = (Ok Done, v2) ->
    Forall (about P u1 i) later ->
    fst (acts d later v1) = fst (acts d later v2).
  Proof.
    intros u1 u2 Hm Hp Hs A1 A2 R1 R2 Hl.
    assert (K : wkin u1 u2) by (eapply wkin_trans; [apply wkin_sym|]; apply acted_kin).
    assert (C12 : forall j, belongs u1 i j -> orel conf (get_em j u1) (get_em j u2)).
    { intros j B. specialize (K j). specialize (Hm j B). unfold Prop_Child.emitters_at in Hm.
      destruct (get_em j u1), (get_em j u2); try contradiction; [|exact I]. cbn in *. apply kin_conf; assumption. }
    assert (B12 : forall k j, belongs u1 k j -> belongs u1 i k -> belongs u2 k j).
    { intros k j B. induction B as [|k e x j E Hx B IH]; intros Hk; [constructor|].
      specialize (C12 k Hk). rewrite E in C12. destruct (get_em k u2) as [e2|] eqn:E2; [|contradiction]. cbn in C12.
      econstructor; [exact E2 | rewrite <- (conf_children _ _ C12); exact Hx|]. apply IH.
      eapply belongs_trans; [exact Hk|]. econstructor; [exact E | exact Hx | constructor]. }
    apply performed in R1. destruct R1 as ([] & R1 & _). apply performed in R2. destruct R2 as ([] & R2 & _).
    destruct (ereset_step fuel score_quiet (Some s) _ _ _ _ (seed_is _ _ _ A1) R1) as [(C1 & _) Q1].
    destruct (ereset_step fuel score_quiet (Some s) _ _ _ _ (seed_is _ _ _ A2) R2) as [(C2 & _) Q2].
    assert (Back : forall j, belongs v1 i j -> belongs u1 i j) by (intros j; apply Prop_Seed.belongs_back, C1).
    apply (acts_agree fuel str_of false (fun s => s <> None) (belongs v1 i) (fun _ => False) (fun _ => False) v1 v2 d later).
    - eapply Forall_impl; [|exact Hl]. intros a Ha. destruct a; cbn in *; try contradiction;
        (split; [eapply belongs_wconf; [exact C1 | tauto] | split; [reflexivity | tauto]]).
    - constructor; auto using within_refl; try contradiction.
      + intros j B. specialize (Back j B). specialize (C12 j Back). pose proof (proj1 C1 j) as D1. pose proof (proj1 C2 j) as D2.
        pose proof (Q1 j Back) as F1. pose proof (Q2 j (B12 i j Back (belongs_self _ _ _))) as F2.
        destruct (get_em j v1) as [e1|] eqn:E1; destruct (get_em j v2) as [e2|] eqn:E2;
          destruct (get_em j u1) as [x1|] eqn:X1, (get_em j u2) as [x2|] eqn:X2; try contradiction; [|exact I].
        cbn in *. apply (fresh_same fuel s).
        * eapply conf_trans; [apply conf_sym; exact D1|]. eapply conf_trans; [exact C12 | exact D2].
        * apply F1. exact E1.
        * apply F2. exact E2.
        * specialize (Hp j x1 Back X1). destruct x1, e1; try contradiction; auto; cbn in D1.
          -- destruct D1 as [<- _]. exact Hp.
          -- destruct D1 as (_ & _ & <- & <- & _). exact Hp.
          -- destruct D1 as (<- & _). exact Hp.
      + intros j e k B E Hk. eapply belongs_trans; [exact B|]. econstructor; [exact E | exact Hk | constructor].
      + intros j e f B E Hin. specialize (Back j B). destruct (Prop_Seed.get_back _ _ _ _ C1 E) as (e0 & E0 & C0).
        rewrite <- (conf_source _ _ C0), (Hs j e0 Back E0) in Hin. destruct Hin.
      + intros j e nd B E En. rewrite (fresh_seed fuel _ _ _ (Q1 j (Back j B) e E) En). discriminate.
  Qed.

  (** *** Emitters that are parts of themselves *)

  Lemma loop_eq w i : contains_loop P w i <-> looping w i.
  Proof. split; intros (j & B & e & k & H); exists j; (split; [exact B|]); exists e, k; exact H. Qed.

  (** If the new child is the emitter or something containing it, the emitter is part
      of itself. *)
  Theorem C99_loop_made d w i label k w1 : perform d (AReplace P i label k) w = (Ok Done, w1) ->
    belongs w1 k i -> contains_loop P w1 i.
  Proof.
    intros H B. exists i. split; [constructor|]. destruct (set_child_inv _ _ _ _ _ _ _ H) as (e & l & e' & E & L & W & ->).
    (* the children include k *)
    exists e', k. split; [apply (get_put_same _ _ _ _ E)|]. split; [|exact B].
    clear -L W. destruct e; cbn in L; try discriminate; injection L as <-; cbn in W.
    - destruct (String.eqb label "length"); [injection W as <-; cbn; auto|].
      cbn in W. destruct (String.eqb label "alphabet"); [injection W as <-; cbn; auto | discriminate].
    - destruct (String.eqb label "numwords"); [injection W as <-; cbn; auto|]. cbn in W.
      destruct (String.eqb label "word"); [injection W as <-; cbn; auto|]. cbn in W.
      destruct (String.eqb label "sep"); [injection W as <-; cbn; auto | discriminate].
    - destruct (String.eqb label "source"); [injection W as <-; cbn; auto | discriminate].
    - injection W as <-. cbn. apply in_map_iff. exists (label, k). split; [reflexivity|].
      clear. induction sources as [|[n v] t IH]; cbn; [left; reflexivity|].
      destruct (String.eqb_spec label n) as [->|N]; [left; reflexivity | right; exact IH].
  Qed.

  (** Then nothing done with it, or with anything containing it, comes to an end,
      whatever the recursion limit: no value, no reset, no seeding. *)
  Theorem C99_loop d w i : contains_loop P w i ->
    forall r w',
      perform d (ACall P i) w <> (Ok r, w') /\ (forall n, perform d (ACallN P i n) w <> (Ok r, w')) /\
      perform d (AReset P i) w <> (Ok r, w') /\ (forall s, perform d (ASeed P i s) w <> (Ok r, w')).
  Proof.
    intros L. apply loop_eq in L. intros r w'.
    assert (X : forall A (m : M world A) (k : A -> answer), dead w m -> (a <~ m ;; ret (k a)) w <> (Ok r, w')).
    { intros A m k D H. apply performed in H. destruct H as (a & H & _). specialize (D w (wconf_refl w)). rewrite H in D. exact D. }
    destruct (dead_emits fuel str_of w d i L) as [D1 Dn]. split; [|split; [intros n|split; [|intros s]]].
    - apply X, D1.
    - apply X, dead_number; [exact D1 | apply Dn].
    - apply X, dead_reset; assumption.
    - apply X, dead_seed; assumption.
  Qed.

  (** Otherwise there is a limit, the number of emitters, from which on it does not
      matter. *)
  Theorem C99_no_loop d1 d2 w i : ~ contains_loop P w i ->
    (length (w_em P w) < d1)%nat -> (length (w_em P w) < d2)%nat ->
    forall a, target a = i -> perform d1 a w = perform d2 a w.
  Proof.
    intros L H1 H2 a Ha. destruct (nested_or_looping w i) as [N|N]; [|exfalso; apply L, loop_eq, N].
    unfold ChildModel.perform, mbind, call_at, reset_at, seed_at_depth. destruct a; cbn in Ha; subst i0; try reflexivity.
    - rewrite (depth_emit fuel str_of _ d1 d2 w i N H1 H2). reflexivity.
    - rewrite (depth_calln fuel str_of _ d1 d2 n w i N H1 H2). reflexivity.
    - rewrite (depth_reset fuel _ d1 d2 w i N H1 H2). reflexivity.
    - rewrite (depth_seed fuel _ d1 d2 s w i N H1 H2). reflexivity.
  Qed.
  (** Whether there is a loop can be decided. *)
  Theorem C99_loop_or_not w i : contains_loop P w i \/ ~ contains_loop P w i.
  Proof.
    destruct (nested_or_looping w i) as [N|N]; [right | left; apply loop_eq, N].
    intros L. apply loop_eq in L. exact (nested_not_looping _ _ _ N L).
  Qed.

  (** *** Values come from the present children *)

  Theorem C99_word d w i l a : emitters_at i w = Some [("length", l); ("alphabet", a)]%string -> ~ is_wrapmany P i w ->
    perform (S d) (ACall P i) w =
      (n <~ call_at P fuel str_of d l ;;
       chars <~ call_val (call_at P fuel str_of d a) (calln_at P fuel str_of d a) n ;;
       s <~ lift (join_val chars) ;;
       ret (Value (VStr s))) w.
  Proof.
    intros H N. unfold Prop_Child.emitters_at in H. destruct (get_em i w) as [e|] eqn:E; [|discriminate].
    destruct e; cbn in H; try discriminate; [injection H as -> ->|exfalso; apply N; unfold is_wrapmany; eauto].
    cbn [ChildModel.perform]. unfold call_at at 1. cbn [World.emits fst]. unfold emit_body, at_em, mbind, ret, word_emit. rewrite E. cbn.
    unfold call_at, calln_at, mbind, ret. destruct (fst (emits P fuel str_of d) l w) as [[n|x|] w1]; try reflexivity.
    destruct (call_val _ _ n w1) as [[c|x|] w2]; try reflexivity. unfold lift. destruct (join_val c); reflexivity.
  Qed.

  (** A WrapOne gives the function what its present source emits, a WrapMany what
      each of its present sources emits, under their labels and in their order. *)
  Theorem C99_wrapone d w i k f nd : get_em i w = Some (EWrapOne P k f nd) ->
    perform (S d) (ACall P i) w =
      (v <~ call_at P fuel str_of d k ;; r <~ wrapper_call (bound P i f) [v] [] ;; ret (Value r)) w.
  Proof.
    intros E. cbn [ChildModel.perform]. unfold call_at at 1. cbn [World.emits fst]. unfold emit_body, at_em, mbind, ret, wrapone_emit.
    rewrite E. unfold call_at, mbind. destruct (fst (emits P fuel str_of d) k w) as [[v|x|] w1]; reflexivity.
  Qed.
  Theorem C99_wrapmany d w i ss f nd : get_em i w = Some (EWrapMany P ss f nd) ->
    perform (S d) (ACall P i) w =
      (kw <~ mapS (fun lk => v <~ call_at P fuel str_of d (snd lk) ;; ret (fst lk, v)) ss ;;
       r <~ wrapper_call (bound P i f) [] kw ;; ret (Value r)) w.
  Proof.
    intros E. cbn [ChildModel.perform]. unfold call_at at 1. cbn [World.emits fst]. unfold emit_body, at_em, mbind, ret, wrapmany_emit.
    rewrite E. unfold mbind, call_sources.
    assert (X : forall l w,
      mapS (fun kc : string * (M world val * (Z -> M world (list val))) => v <~ fst (snd kc) ;; ret (fst kc, v))
        (map (fun ks : string * nat => (fst ks, (fst (emits P fuel str_of d) (snd ks),
           call_number (fst (emits P fuel str_of d) (snd ks)) (snd (emits P fuel str_of d) (snd ks))))) l) w =
      mapS (fun lk => v <~ call_at P fuel str_of d (snd lk) ;; ret (fst lk, v)) l w).
    { induction l as [|[n k] t IH]; intros u; [reflexivity|]. unfold mbind, ret in *. cbn [map mapS fst snd]. unfold mbind, ret, call_at in *.
      destruct (fst (emits P fuel str_of d) k u) as [[v|x|] u1]; try reflexivity. rewrite IH. reflexivity. }
    unfold ret, mbind in *. rewrite X.
    destruct (mapS _ ss w) as [[kw|x|] w1]; reflexivity.
  Qed.
End Proofs.

(** num_unique_values, however, is not that of the present children: a Word of one
    letter out of 'ab', told to use another alphabet of three letters, still has
    num_unique_values 2, and emits three different words. *)
Definition count_world : world DP := made_world (
  l <~ new_static DP (VInt 1) ;;
  a <~ new_seq DP true [VStr [97]; VStr [98]] false ;;
  wd <~ new_word DP 9 l a (Some 7%nat) ;;
  b <~ new_seq DP true [VStr [97]; VStr [98]; VStr [99]] false ;;
  ret wd).
Definition count_at (i : nat) (w : world DP) : option (res nuv) := option_map (nuv_of DP) (get_em DP i w).
Theorem C99_count_refuted :
  let w1 := acted DP 9 demo_str 5 [AReplace DP 2 "alphabet" 3] count_world in
  emitters_at DP 2 w1 = Some [("length", 0%nat); ("alphabet", 3%nat)]%string /\
  count_at 2 count_world = Some (Ok (Exactly 2)) /\ count_at 2 w1 = Some (Ok (Exactly 2)) /\
  count_at 4 (snd (new_word DP 9 0 3 (Some 7%nat) w1)) = Some (Ok (Exactly 3)) /\
  fst (acts DP 9 demo_str 5 [ACallN DP 2 3] w1) = [Ok (Values [VStr [97]; VStr [98]; VStr [99]])].
Proof. cbv zeta. repeat split; vm_compute; reflexivity. Qed.

(** ** The hypotheses can be met *)

Definition child_world : world DP := made_world (
  l <~ new_choice DP 9 true [VInt 2; VInt 3] None true false None None ;;
  a <~ new_choice DP 9 true [VStr [97]; VStr [98]; VStr [99]] None true false None None ;;
  wd <~ new_word DP 9 l a (Some 7%nat) ;;
  b <~ new_choice DP 9 true [VStr [120]; VStr [121]] None true false None None ;;
  o <~ new_wrapone DP 9 demo_str wd identity (Some 5%nat) ;;
  ret o).

(** The alphabet is replaced, the Word is reset: the words are made of the other
    letters, the new alphabet has the seed of the Word. *)
Definition swapped : list (act DP) := [AReplace DP 2 "alphabet" 3; AReset DP 2].
Definition swapped_world : world DP := acted DP 9 demo_str 5 swapped child_world.
Example C99_case :
  emitters_at DP 2 child_world = Some [("length", 0%nat); ("alphabet", 1%nat)]%string /\
  emitters_at DP 2 swapped_world = Some [("length", 0%nat); ("alphabet", 3%nat)]%string /\
  fst (acts DP 9 demo_str 5 swapped child_world) = [Ok Done; Ok Done] /\
  rng_seed_at DP 2 child_world = Some (Some 5%nat) /\
  rng_seed_at DP 3 child_world = Some None /\ rng_seed_at DP 3 swapped_world = Some (Some 5%nat) /\
  fst (acts DP 9 demo_str 5 [ACall DP 2; ACall DP 4] child_world) =
    [Ok (Value (VStr [97; 99; 97])); Ok (Value (VStr [98; 97]))] /\
  fst (acts DP 9 demo_str 5 [ACall DP 2; ACall DP 4] swapped_world) =
    [Ok (Value (VStr [120; 121; 120])); Ok (Value (VStr [121; 120]))].
Proof. repeat split; vm_compute; reflexivity. Qed.

(** The former alphabet is not part of it any more. *)
Example C99_case_left_alone :
  Forall (fun a => belongs DP swapped_world 4 (target a) /\ replaces a = false)
    [ACall DP 4; ASeed DP 4 (Some 8%nat); AReset DP 4] /\
  ~ belongs DP swapped_world 4 1 /\ belongs DP swapped_world 4 3.
Proof.
  split; [repeat constructor|]. split.
  - intros B. assert (X : In 1%nat [4; 2; 0; 3]%nat).
    { eapply belongs_in; [|exact B | left; reflexivity]. vm_compute. reflexivity. }
    cbn in X. lia.
  - assert (E4 : option_map (children DP) (get_em DP 4 swapped_world) = Some [2%nat]) by (vm_compute; reflexivity).
    assert (E2 : option_map (children DP) (get_em DP 2 swapped_world) = Some [0%nat; 3%nat]) by (vm_compute; reflexivity).
    destruct (get_em DP 4 swapped_world) as [e4|] eqn:Q4; [|discriminate E4]. injection E4 as E4.
    destruct (get_em DP 2 swapped_world) as [e2|] eqn:Q2; [|discriminate E2]. injection E2 as E2.
    apply (belongs_part DP _ _ e4 2%nat); [exact Q4 | rewrite E4; left; reflexivity|].
    apply (belongs_part DP _ _ e2 3%nat); [exact Q2 | rewrite E2; right; left; reflexivity | constructor].
Qed.

(** Two histories, one with a child that is replaced again. *)
Definition detour : list (act DP) :=
  [ACall DP 2; AReplace DP 2 "length" 3; AReplace DP 2 "alphabet" 0; ACallN DP 4 2; AReplace DP 2 "length" 0; AReplace DP 2 "alphabet" 3].
Definition detour_world : world DP := acted DP 9 demo_str 5 detour child_world.
Definition plain (w : world DP) (j : nat) : bool :=
  match get_em DP j w with Some (EChoice _ _ _ | EWord _ _ _ _ _ | EWrapOne _ _ _ _) => true | _ => false end.
Example C99_case_replay :
  (forall j, belongs DP swapped_world 4 j -> emitters_at DP j swapped_world = emitters_at DP j detour_world) /\
  pure_parts DP swapped_world 4 /\
  (forall j e, belongs DP swapped_world 4 j -> get_em DP j swapped_world = Some e -> source_of DP e = []) /\
  rng_seed_at DP 4 swapped_world = Some (Some 5%nat) /\ rng_seed_at DP 4 detour_world = Some (Some 5%nat) /\
  Forall (about DP swapped_world 4) [ACall DP 4; ACallN DP 4 2] /\
  fst (acts DP 9 demo_str 5 [ACall DP 4] swapped_world) = [Ok (Value (VStr [120; 121; 120]))] /\
  fst (acts DP 9 demo_str 5 [ACall DP 4] detour_world) = [Ok (Value (VStr [121; 120]))] /\
  fst (acts DP 9 demo_str 5 [AReset DP 4; ACall DP 4; ACallN DP 4 2] swapped_world) =
    [Ok Done; Ok (Value (VStr [120; 121; 120])); Ok (Values [VStr [121; 120; 120]; VStr [121; 120]])] /\
  fst (acts DP 9 demo_str 5 [AReset DP 4; ACall DP 4; ACallN DP 4 2] detour_world) =
    [Ok Done; Ok (Value (VStr [120; 121; 120])); Ok (Values [VStr [121; 120; 120]; VStr [121; 120]])].
Proof.
  assert (B : forall j, belongs DP swapped_world 4 j -> In j [4; 2; 0; 3]%nat).
  { intros j B. eapply belongs_in; [|exact B | left; reflexivity]. vm_compute. reflexivity. }
  assert (Pl : forallb (plain swapped_world) [4; 2; 0; 3]%nat = true) by (vm_compute; reflexivity).
  assert (X : forall j e, belongs DP swapped_world 4 j -> get_em DP j swapped_world = Some e ->
    match e with EChoice _ _ _ | EWord _ _ _ _ _ | EWrapOne _ _ _ _ => True | _ => False end).
  { intros j e Bj E. rewrite forallb_forall in Pl. specialize (Pl j (B j Bj)). unfold plain in Pl. rewrite E in Pl.
    destruct e; try discriminate; exact I. }
  split; [intros j Bj; destruct (B j Bj) as [<-|[<-|[<-|[<-|[]]]]]; vm_compute; reflexivity|].
  split; [intros j e Bj E; specialize (X j e Bj E); destruct e; auto; contradiction|].
  split; [intros j e Bj E; specialize (X j e Bj E); destruct e; auto; contradiction|].
  split; [vm_compute; reflexivity|]. split; [vm_compute; reflexivity|]. split; [repeat constructor|].
  repeat split; vm_compute; reflexivity.
Qed.

(** The Word is told to take its lengths from the WrapOne around it: RecursionError. *)
Definition looped : list (act DP) := [AReplace DP 2 "length" 4].
Definition looped_world : world DP := acted DP 9 demo_str 5 looped child_world.
Example C99_case_loop :
  contains_loop DP looped_world 2 /\ contains_loop DP looped_world 4 /\
  fst (acts DP 9 demo_str 5 (looped ++ [ACall DP 2; ACallN DP 4 2; AReset DP 4; ASeed DP 2 None]) child_world) =
    [Ok Done; Diverge; Diverge; Diverge; Diverge].
Proof.
  assert (E4 : option_map (children DP) (get_em DP 4 looped_world) = Some [2%nat]) by (vm_compute; reflexivity).
  assert (E2 : option_map (children DP) (get_em DP 2 looped_world) = Some [4%nat; 1%nat]) by (vm_compute; reflexivity).
  destruct (get_em DP 4 looped_world) as [e4|] eqn:Q4; [|discriminate E4]. injection E4 as E4.
  destruct (get_em DP 2 looped_world) as [e2|] eqn:Q2; [|discriminate E2]. injection E2 as E2.
  assert (B42 : belongs DP looped_world 4 2) by (apply (belongs_part DP _ _ e4 2%nat); [exact Q4 | rewrite E4; left; reflexivity | constructor]).
  assert (L : part_of DP looped_world 2 2).
  { exists e2, 4%nat. split; [exact Q2|]. split; [rewrite E2; left; reflexivity | exact B42]. }
  split; [exists 2%nat; split; [constructor | exact L]|]. split; [exists 2%nat; split; [exact B42 | exact L]|].
  vm_compute. reflexivity.
Qed.

(** A WrapMany that is given a source more, and one less. *)
Definition listed : wfun DP :=
  mkWfun DP None (fun _ kw => Ok (VList (map snd kw))) (fun _ kw r => (Ok (VList (map snd kw)), r)).
Definition many_world : world DP := made_world (
  a <~ new_seq DP true [VInt 1; VInt 2] false ;;
  b <~ new_seq DP true [VInt 3; VInt 4] false ;;
  c <~ new_static DP (VInt 5) ;;
  o <~ new_wrapmany DP 9 demo_str [("x", a); ("y", b)]%string listed None ;;
  ret o).
Example C99_case_many :
  is_wrapmany DP 3 many_world /\
  fst (acts DP 9 demo_str 5 [ACall DP 3; AReplace DP 3 "z" 2; ACall DP 3; ARemove DP 3 "x"; ACall DP 3; ARemove DP 3 "x"; AReplace DP 2 "q" 3]
    many_world) =
  [Ok (Value (VList [VInt 1; VInt 3])); Ok Done; Ok (Value (VList [VInt 2; VInt 4; VInt 5])); Ok Done;
   Ok (Value (VList [VInt 3; VInt 5])); Raise KeyError; Raise AttributeError].
Proof.
  split; [|vm_compute; reflexivity].
  assert (Q : match get_em DP 3 many_world with Some (EWrapMany _ _ _ _) => true | _ => false end = true) by (vm_compute; reflexivity).
  unfold is_wrapmany. destruct (get_em DP 3 many_world) as [[]|]; try discriminate Q. eauto.
Qed.

Print Assumptions C99_assign.
Print Assumptions C99_missing.
Print Assumptions C99_restore.
Print Assumptions C99_remove.
Print Assumptions C99_part.
Print Assumptions C99_reset.
Print Assumptions C99_seed.
Print Assumptions C99_left_alone.
Print Assumptions C99_replay.
Print Assumptions C99_loop_made.
Print Assumptions C99_loop.
Print Assumptions C99_no_loop.
Print Assumptions C99_loop_or_not.
Print Assumptions C99_word.
Print Assumptions C99_wrapone.
Print Assumptions C99_wrapmany.
Print Assumptions C99_count_refuted.
