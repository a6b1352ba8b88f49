(** * How many values come back: property C34. *)
From Coq Require Import String Permutation.
From Verif Require Import Base Prims Values MathModel MathSpec MathProofs ChoiceModel ChoiceRun ChoiceProofs ChoiceProofs2 ChoiceProofs3
  FixedModel GroupModel SigModel SigSpec SigProofs WrapModel WrapSpec TextModel TextSpec TextProofs FieldModel World Rel WorldProofs Agree
  WorldSpec WorldReset Histories WorldBuild BuildProofs CountSpec Demo WorldDemo Prop_World Prop_Construct Prop_Number.
Open Scope list_scope.
Open Scope Z_scope.

Section Count.
  Context {P : prims} (fuel : nat) (str_of : val -> res (list Z)).
  Hypothesis R : rng_ok P.
  Notation world := (World.world P).
  Notation emitter := (World.emitter P).
  Notation get_em := (World.get_em P).
  Notation get_fd := (World.get_fd P).
  Notation conf := (@WorldProofs.conf P).
  Notation wconf := (@WorldProofs.wconf P).
  Notation C := (@choice P val).

  (** ** Choice *)

  (** A Choice whose settings have all been accepted and that has not been asked
      for a negative number ([ChoiceRun.reach] describes the same states by how
      they come about). *)
  Definition sane (c : C) : Prop := inv P (c_items c) c.

  Lemma with_count n (c : C) l c' : 0 <= n -> choice_with_replacement P n c = (Ok l, c') -> zlen l = n.
  Proof.
    intros Hn H. unfold choice_with_replacement in H. apply mbind_ok_inv in H. destruct H as (c0 & c1 & G & H).
    injection G as <- <-. destruct (Z.eqb_spec (zlen (c_items c)) 1) as [E|_].
    - injection H as <- <-. destruct (c_items c) as [|a [|b t]]; try (unfold zlen in E; cbn in E; lia).
      unfold list_rep, zlen. clear -Hn. rewrite <- (Z2Nat.id n Hn) at 2. f_equal.
      induction (Z.to_nat n) as [|k IH]; cbn; auto.
    - assert (Pick : forall pos s' (m : M C (list nat)), m c = (Ok pos, s') -> length pos = Z.to_nat n ->
        mapS (get_item (c_items c)) pos s' = (Ok l, c') -> zlen l = n).
      { intros pos s' m _ Lp Hm. apply mapS_get_incl in Hm. destruct Hm as [_ Hp]. apply picks_length in Hp. unfold zlen. lia. }
      assert (U : forall k r pos r', choices_uniform P k n r = (Ok pos, r') -> length pos = Z.to_nat n).
      { intros k r pos r' Q. unfold choices_uniform in Q. pose proof (draws_length P (Z.to_nat n) r) as D.
        destruct (draws P (Z.to_nat n) r). injection Q as <- <-. rewrite map_length. exact D. }
      destruct (c_weights c) as [ws|].
      + apply mbind_ok_inv in H. destruct H as (pos & c1 & H1 & H). eapply Pick; [exact H1 | | exact H].
        unfold on_rng in H1. destruct (c_cum c) as [cum|].
        * destruct (choices_cum P (length (c_items c)) cum n (c_rng c)) as [r1 r2] eqn:Q. injection H1 as -> _.
          eapply choices_cum_ok; eauto.
        * destruct (choices_uniform P (length (c_items c)) n (c_rng c)) as [r1 r2] eqn:Q. injection H1 as -> _.
          eapply U; eauto.
      + destruct (Z.eqb_spec n 1) as [->|_].
        * apply mbind_ok_inv in H. destruct H as (i & c1 & H1 & H). apply mbind_ok_inv in H. destruct H as (a & c2 & H2 & H).
          injection H as <- <-. reflexivity.
        * apply mbind_ok_inv in H. destruct H as (pos & c1 & H1 & H). eapply Pick; [exact H1 | | exact H].
          unfold on_rng in H1. destruct (choices_uniform P (length (c_items c)) n (c_rng c)) as [r1 r2] eqn:Q. injection H1 as -> _.
          eapply U; eauto.
  Qed.

  Lemma sane_inv2 (c : C) : sane c -> c_replace c = true -> incl (c_shuffled c) (c_items c) -> inv2 P (c_items c) c.
  Proof. intros (H1 & _ & H3 & H4 & H5) E Hi. rewrite E in H5. repeat (split; [assumption || reflexivity|]); auto. repeat split; auto. Qed.

  Lemma many_good n (c : C) r c' : sane c -> 0 <= n -> choice_emit_many P val_setsize fuel n c = (r, c') ->
    sane c' /\ forall l, r = Ok l -> zlen l = n /\ incl l (c_items c).
  Proof.
    intros Hi Hn H.
    assert (Hi' : inv P (c_items c) c') by (eapply (ask_inv P val_setsize fuel (c_items c) (EmitMany n)); eauto).
    assert (Hit : c_items c' = c_items c) by apply Hi'.
    split; [unfold sane; rewrite Hit; exact Hi'|]. intros l ->.
    destruct (c_replace c) eqn:Er.
    - unfold choice_emit_many, mbind, ChoiceModel.get in H. rewrite Er in H. cbn [negb orb] in H.
      destruct (c_roac c && (1 <? n)) eqn:Eb.
      + apply Bool.andb_true_iff in Eb. destruct Eb as [Eo En]. apply Z.ltb_lt in En.
        (* the left-overs of a shuffle do not matter with replacement *)
        assert (Ha : do_ask P val_setsize fuel (EmitMany n) c = (Ok l, c')).
        { cbn [do_ask]. unfold choice_emit_many, mbind, ChoiceModel.get. rewrite Er, Eo. cbn [negb orb andb].
          rewrite (proj2 (Z.ltb_lt 1 n) En). exact H. }
        pose proof (do_ask_shuf P val_setsize fuel (EmitMany n) (c_items c) (c_sidx c) c Er) as Hs. rewrite Ha in Hs. cbn [fst snd] in Hs.
        assert (I2 : inv2 P (c_items c) (set_shuf P (c_items c) (c_sidx c) c)).
        { destruct Hi as (H1 & _ & H3 & H4 & H5). rewrite Er in H5. split; [exact H1|]. split; [|split; [exact H4 | intros _; exact H5]].
          split; [reflexivity|]. split; [apply incl_refl | exact H3]. }
        destruct (roac_ask P val_setsize fuel R (c_items c) (EmitMany n) n _ _ _ I2 Eo (or_intror eq_refl) ltac:(lia) Hs) as (_ & _ & _ & Q & _).
        destruct (Q l eq_refl) as [(ps & _ & W) Q2]. split; [exact Q2 | eapply picks_incl; eauto].
      + split; [eapply with_count; eauto | eapply with_incl; eauto].
    - destruct (ask_noreplace P val_setsize fuel (c_items c) (EmitMany n) c Hi Er Hn) as [A1 A2]. cbn [ask_size do_ask] in *.
      destruct (Z.lt_ge_cases (c_nui c) n) as [L|L].
      + destruct (A1 L) as (o & Q & N & _). rewrite Q in H. injection H as -> <-. destruct (N l); reflexivity.
      + rewrite (A2 L) in H. injection H as <- <-. destruct (inv_left P (c_items c) c Hi Er) as (L1 & W & _). split.
        * unfold zlen in *. rewrite firstn_length. lia.
        * intros x Hx. assert (Hx' : In x (left_of P c)) by (rewrite <- (firstn_skipn (Z.to_nat n)); apply in_or_app; left; exact Hx).
          destruct W as (ps & _ & W). apply picks_incl in W. exact (W x Hx').
  Qed.

  Lemma one_good (c : C) r c' : sane c -> choice_emit P val_setsize fuel c = (r, c') ->
    sane c' /\ forall a, r = Ok a -> In a (c_items c).
  Proof.
    intros Hi H.
    assert (Ha : do_ask P val_setsize fuel ChoiceRun.Emit c = (match r with Ok a => Ok [a] | Raise e => Raise e | Diverge => Diverge end, c')).
    { cbn [do_ask]. unfold mbind. rewrite H. destruct r; reflexivity. }
    assert (Hi' : inv P (c_items c) c') by (eapply (ask_inv P val_setsize fuel (c_items c) ChoiceRun.Emit); [exact Hi | cbn; lia | exact Ha]).
    assert (Hit : c_items c' = c_items c) by apply Hi'.
    split; [unfold sane; rewrite Hit; exact Hi'|]. intros a ->.
    destruct (c_replace c) eqn:Er.
    - unfold choice_emit in H. apply mbind_ok_inv in H. destruct H as (c0 & c1 & G & H). injection G as <- <-. rewrite Er in H.
      cbn [negb] in H. apply mbind_ok_inv in H. destruct H as (l & c2 & H & G). apply with_incl in H. injection G as G _.
      unfold list_get in G. destruct (norm_index _ _); [|discriminate]. destruct (nth_error l _) eqn:E; [|discriminate].
      injection G as ->. apply H. eapply nth_error_In; eauto.
    - destruct (ask_noreplace P val_setsize fuel (c_items c) ChoiceRun.Emit c Hi Er ltac:(cbn; lia)) as [A1 A2]. cbn [ask_size] in *.
      destruct (Z.lt_ge_cases (c_nui c) 1) as [L|L].
      + destruct (A1 L) as (o & Q & N & _). rewrite Ha in Q. injection Q as <- <-. destruct (N [a]); reflexivity.
      + rewrite (A2 L) in Ha. destruct (inv_left P (c_items c) c Hi Er) as (L1 & W & _).
        assert (Hx' : In a (left_of P c)).
        { rewrite <- (firstn_skipn (Z.to_nat 1)). apply in_or_app; left. apply (f_equal fst) in Ha. cbn [fst] in Ha.
          assert (Hf : firstn (Z.to_nat 1) (left_of P c) = [a]) by congruence. rewrite Hf. left; reflexivity. }
        destruct W as (ps & _ & W). apply picks_incl in W. exact (W a Hx').
  Qed.

  Lemma shuffle_sane (c : C) r c' : sane c -> c_replace c = false -> global_shuffle P fuel c = (r, c') -> sane c'.
  Proof.
    intros Hi Er H. destruct r as [[]|e|].
    - destruct (shuffle_inv P fuel (zero_false P R) (c_items c) c c' (inv_pre P val_setsize (c_items c) c Hi) Er H) as (Q & _).
      unfold sane. replace (c_items c') with (c_items c) by (symmetry; apply Q). exact Q.
    - rewrite global_shuffle_eq in H. destruct (weighted_shuffle _ _ _ _ _ _) as [[sh|x|] g]; try discriminate H. injection H as _ <-. exact Hi.
    - rewrite global_shuffle_eq in H. destruct (weighted_shuffle _ _ _ _ _ _) as [[sh|x|] g]; try discriminate H. injection H as <-. exact Hi.
  Qed.
  Lemma reset_sane ent (c : C) r c' : sane c -> choice_reset P fuel ent c = (r, c') -> sane c'.
  Proof.
    intros Hi H. rewrite choice_reset_eq in H. cbv zeta in H. destruct (c_replace c) eqn:Er; [injection H as _ <-; exact Hi|].
    eapply shuffle_sane; [| |exact H]; [exact Hi | exact Er].
  Qed.
  Lemma seed_sane s ent (c : C) r c' : sane c -> choice_seed P fuel s ent c = (r, c') -> sane c'.
  Proof.
    intros Hi H. rewrite choice_seed_eq in H. cbv zeta in H. destruct (c_replace c) eqn:Er; [injection H as _ <-; exact Hi|].
    eapply shuffle_sane; [| |exact H]; [exact Hi | exact Er].
  Qed.

  (** ** What an emitter can emit at all, from its settings *)

  Notation only := (CountSpec.only P).
  Notation only_at := (CountSpec.only_at P).
  Notation sized := (CountSpec.sized P).

  Lemma only_conf Q e e' : conf e e' -> only Q e -> only Q e'.
  Proof.
    destruct e, e'; cbn; try contradiction; try tauto.
    - intros ->. auto.
    - intros [-> _]. auto.
    - unfold seq_factory. intros (_ & -> & -> & -> & _). auto.
    - intros (_ & -> & _). auto.
    - intros (_ & ->). auto.
    - intros (_ & ->). auto.
    - intros (_ & _ & ->). auto.
    - intros (-> & _). auto.
  Qed.

  Definition healthy (w : world) : Prop := forall i b c, get_em i w = Some (EChoice P b c) -> sane c.

  Lemma only_at_conf w w' i Q : wconf w w' -> only_at w i Q -> only_at w' i Q.
  Proof.
    intros [H _] O e' E'. specialize (H i). rewrite E' in H. destruct (get_em i w) as [e|] eqn:E; cbn in H; [|contradiction].
    eapply only_conf; [exact H | apply O; exact E].
  Qed.

  Lemma sized_conf w w' : wconf w w' -> sized w -> sized w'.
  Proof.
    intros H (S1 & S2 & S3 & S4). split; [|split; [|split]].
    - intros i l a u nd E. destruct H as [H1 H2]. pose proof (H1 i) as Hi. rewrite E in Hi. destruct (get_em i w) as [e|] eqn:Ei; cbn in Hi; [|contradiction].
      destruct e; cbn in Hi; try contradiction. destruct Hi as (-> & ->). eapply only_at_conf; [split; eassumption | eapply S1; exact Ei].
    - intros i n x s u nd E. destruct H as [H1 H2]. pose proof (H1 i) as Hi. rewrite E in Hi. destruct (get_em i w) as [e|] eqn:Ei; cbn in Hi; [|contradiction].
      destruct e; cbn in Hi; try contradiction. destruct Hi as (-> & -> & ->). eapply only_at_conf; [split; eassumption | eapply S2; exact Ei].
    - intros f x E. destruct H as [H1 H2]. pose proof (H2 f) as Hi. rewrite E in Hi. destruct (get_fd f w) as [y|] eqn:Ei; cbn in Hi; [|contradiction].
      destruct Hi as (_ & _ & _ & <- & _). eapply only_at_conf; [split; eassumption | eapply S3; exact Ei].
    - intros i c own nd E. destruct H as [H1 _]. pose proof (H1 i) as Hi. rewrite E in Hi. destruct (get_em i w) as [e|] eqn:Ei; cbn in Hi; [|contradiction].
      destruct e; cbn in Hi; try contradiction. destruct Hi as (-> & _). eapply S4; exact Ei.
  Qed.

  (** ** Triples *)
  Section Triples.
    Context (w0 : world) (Sz : sized w0).

    Definition J (w : world) : Prop := wconf w0 w /\ healthy w.
    Definition hoare {A} (m : M world A) (Q : A -> Prop) : Prop :=
      forall w, J w -> J (snd (m w)) /\ forall a, fst (m w) = Ok a -> Q a.

    Lemma h_ret A (a : A) (Q : A -> Prop) : Q a -> hoare (ret a) Q.
    Proof. intros H w Hw. split; [exact Hw | intros b [= <-]; exact H]. Qed.
    Lemma h_lift A (r : res A) (Q : A -> Prop) : (forall a, r = Ok a -> Q a) -> hoare (lift r) Q.
    Proof. intros H w Hw. split; [exact Hw | exact H]. Qed.
    Lemma h_raise A e (Q : A -> Prop) : hoare (raise e) Q.
    Proof. intros w Hw. split; [exact Hw | discriminate]. Qed.
    Lemma h_diverge A (Q : A -> Prop) : hoare diverge Q.
    Proof. intros w Hw. split; [exact Hw | discriminate]. Qed.
    Lemma h_pure A (f : world -> res A) (Q : A -> Prop) : (forall w a, J w -> f w = Ok a -> Q a) -> hoare (fun w => (f w, w)) Q.
    Proof. intros H w Hw. split; [exact Hw | cbn; intros a; apply H; exact Hw]. Qed.
    Lemma h_weak A (m : M world A) (Q Q' : A -> Prop) : hoare m Q -> (forall a, Q a -> Q' a) -> hoare m Q'.
    Proof. intros H HQ w Hw. destruct (H w Hw) as [H1 H2]. split; [exact H1 | intros a E; apply HQ, H2, E]. Qed.
    Lemma h_bind A B (m : M world A) (k : A -> M world B) (Q : A -> Prop) (Q' : B -> Prop) :
      hoare m Q -> (forall a, Q a -> hoare (k a) Q') -> hoare (mbind m k) Q'.
    Proof.
      intros Hm Hk w Hw. destruct (Hm w Hw) as [H1 H2]. unfold mbind. destruct (m w) as [[a|e|] w1]; cbn [fst snd] in *;
        [apply (Hk a (H2 a eq_refl)); exact H1 | split; [exact H1 | discriminate]..].
    Qed.
    Lemma h_mapS A B (f : A -> M world B) l (Q : A -> B -> Prop) :
      (forall a, In a l -> hoare (f a) (Q a)) -> hoare (mapS f l) (fun bs => Forall2 Q l bs).
    Proof.
      induction l as [|a l IH]; intros H; cbn [mapS].
      - apply h_ret. constructor.
      - eapply h_bind; [apply H; left; reflexivity|]. intros b Hb.
        eapply h_bind; [apply IH; intros; apply H; right; assumption|]. intros bs Hbs. apply h_ret. constructor; assumption.
    Qed.
    Lemma h_number A (e : M world A) (m : Z -> M world (list A)) n (Q : A -> Prop) :
      hoare e Q -> hoare (m n) (fun l => zlen l = n /\ Forall Q l) -> hoare (call_number e m n) (fun l => zlen l = n /\ Forall Q l).
    Proof.
      intros He Hm. unfold call_number. destruct (Z.eqb_spec n 1) as [->|_]; [|exact Hm].
      eapply h_bind; [exact He|]. intros a Ha. apply h_ret. split; [reflexivity | constructor; [exact Ha | constructor]].
    Qed.
    Lemma h_catch (m : M world unit) (Q : unit -> Prop) : (forall u, Q u) -> hoare m Q -> hoare (catch_attribute_error m) Q.
    Proof.
      intros T H w Hw. destruct (H w Hw) as [H1 H2]. unfold catch_attribute_error. split; [|auto].
      destruct (m w) as [[a|[]|] w1]; exact H1.
    Qed.
    Lemma h_setattr (has : nat -> world -> bool) (set : nat -> M world unit) objs :
      (forall o, In (Some o) objs -> hoare (set o) (fun _ => True)) -> hoare (group_setattr has set objs) (fun _ => True).
    Proof.
      induction objs as [|[o|] t IH]; intros H; cbn [group_setattr].
      - apply h_ret. exact I.
      - eapply h_bind with (Q := fun _ => True).
        + intros w Hw. destruct (has o w); [apply H; [left; reflexivity | exact Hw] | split; [exact Hw | auto]].
        + intros _ _. apply IH. intros; apply H; right; assumption.
      - apply IH. intros; apply H; right; assumption.
    Qed.
    Lemma h_do_method (meth : nat -> world -> option (M world unit)) objs :
      (forall o w m, In (Some o) objs -> meth o w = Some m -> hoare m (fun _ => True)) -> hoare (group_do_method meth objs) (fun _ => True).
    Proof.
      induction objs as [|[o|] t IH]; intros H; cbn [group_do_method].
      - apply h_ret. exact I.
      - eapply h_bind with (Q := fun _ => True).
        + apply h_catch; [auto|]. intros w Hw. destruct (meth o w) eqn:E; [eapply H; [left; reflexivity | exact E | exact Hw] | split; [exact Hw | auto]].
        + intros _ _. apply IH. intros; eapply H; [right; eassumption | eassumption].
      - apply IH. intros; eapply H; [right; eassumption | eassumption].
    Qed.

    (** *** Objects *)
    Lemma J_em w i e : J w -> get_em i w = Some e -> exists e0, get_em i w0 = Some e0 /\ conf e0 e.
    Proof.
      intros [[H _] _] E. specialize (H i). rewrite E in H. destruct (get_em i w0) as [e0|]; cbn in H; [eauto | contradiction].
    Qed.
    Lemma J_put w i e e' : J w -> get_em i w = Some e -> conf e e' -> (forall b c, e' = EChoice P b c -> sane c) -> J (put_em P i e' w).
    Proof.
      intros [H1 H2] E Hc Hs. split.
      - eapply wconf_trans; [exact H1|]. apply (within_put (fun _ => True) (fun _ => True) w w i e e'); auto using within_refl.
      - intros j b c Ej. destruct (Nat.eq_dec j i) as [->|N].
        + rewrite (get_put_same i e' w e) in Ej by exact E. injection Ej as ->. eapply Hs; reflexivity.
        + rewrite get_put_other in Ej by exact N. eapply H2; exact Ej.
    Qed.
    Lemma J_use w i : J w -> J (use_entropy P i w).
    Proof.
      intros [H1 H2]. split.
      - eapply wconf_trans; [exact H1|]. apply (within_use (fun _ => True) (fun _ => True) w w i); auto using within_refl.
      - intros j b c Ej. rewrite get_use in Ej. eapply H2; exact Ej.
    Qed.
    Lemma J_put_fd w f x x' : J w -> get_fd f w = Some x -> fconf x x' -> J (put_fd P f x' w).
    Proof.
      intros [H1 H2] E Hc. split.
      - eapply wconf_trans; [exact H1|]. apply (within_put_fd (fun _ => True) (fun _ => True) w w f x x'); auto using within_refl.
      - intros j b c Ej. eapply H2; exact Ej.
    Qed.
    Lemma h_use i : hoare (fun w => (Ok tt, use_entropy P i w)) (fun _ => True).
    Proof. intros w Hw. split; [apply J_use; exact Hw | auto]. Qed.
    Lemma h_at A i (k : emitter -> M world A) (Q : A -> Prop) :
      (forall e0 e, get_em i w0 = Some e0 -> conf e0 e -> hoare (k e) Q) -> hoare (at_em P i k) Q.
    Proof.
      intros H w Hw. unfold at_em. destruct (get_em i w) as [e|] eqn:E; [|split; [exact Hw | discriminate]].
      destruct (J_em w i e Hw E) as (e0 & E0 & Hc). eapply H; eauto.
    Qed.
    Lemma h_modify i (f : emitter -> emitter) : (forall e, conf e (f e)) -> (forall b c, exists b' c', f (EChoice P b c) = EChoice P b' c' /\ (sane c -> sane c')) ->
      (forall e b c, f e = EChoice P b c -> exists b' c', e = EChoice P b' c') ->
      hoare (modify_em P i f) (fun _ => True).
    Proof.
      intros Hf Hs Hk w Hw. unfold modify_em, at_em. destruct (get_em i w) as [e|] eqn:E; [|split; [exact Hw | discriminate]].
      split; [|auto]. cbn [snd]. eapply J_put; [exact Hw | exact E | apply Hf|]. intros b c Hq.
      destruct (Hk _ _ _ Hq) as (b' & c' & ->). destruct (Hs b' c') as (b2 & c2 & Q1 & Q2). rewrite Q1 in Hq. injection Hq as <- <-.
      apply Q2. eapply Hw; exact E.
    Qed.
    Lemma node_kind nd e b c : with_node P nd e = EChoice P b c -> exists b' c', e = EChoice P b' c' /\ (sane c' -> sane c).
    Proof. destruct e; cbn; try discriminate. intros [= <- <-]. eexists _, _. split; [reflexivity | intros H; exact H]. Qed.
    Lemma h_node i (g : node P -> world -> node P) :
      hoare (fun w => modify_em P i (fun e => match node_of P e with Some nd => with_node P (g nd w) e | None => e end) w) (fun _ => True).
    Proof.
      intros w Hw. unfold modify_em, at_em. destruct (get_em i w) as [e|] eqn:E; [|split; [exact Hw | discriminate]].
      split; [|auto]. cbn [snd]. eapply J_put; [exact Hw | exact E | |].
      - destruct (node_of P e); [apply conf_node | apply conf_refl].
      - intros b c Hq. destruct (node_of P e) as [nd|] eqn:En.
        + destruct (node_kind _ _ _ _ Hq) as (b' & c' & -> & Q). apply Q. eapply Hw; exact E.
        + subst e. discriminate En.
    Qed.
    Lemma h_rng A i (m : M (pR P) A) (Q : A -> Prop) : (forall g a, fst (m g) = Ok a -> Q a) -> hoare (run_rng P i m) Q.
    Proof.
      intros H w Hw. unfold run_rng, at_em. destruct (get_em i w) as [e|] eqn:E; [|split; [exact Hw | discriminate]].
      destruct (node_of P e) as [nd|] eqn:En; [|split; [exact Hw | discriminate]].
      specialize (H (n_rng P nd)). destruct (m (n_rng P nd)) as [r g]. cbn [fst snd] in *. split; [|exact H].
      eapply J_put; [exact Hw | exact E | apply conf_node|]. intros b c Hq.
      destruct (node_kind _ _ _ _ Hq) as (b' & c' & -> & Q'). apply Q'. eapply Hw; exact E.
    Qed.
    Lemma h_choice A i (m : M C A) (Q : A -> Prop) :
      (forall c, sane c -> (forall b0 c0, get_em i w0 = Some (EChoice P b0 c0) -> c_items c0 = c_items c) ->
         sane (snd (m c)) /\ cconf c (snd (m c)) /\ forall a, fst (m c) = Ok a -> Q a) -> hoare (run_choice P i m) Q.
    Proof.
      intros H w Hw. unfold run_choice, at_em. destruct (get_em i w) as [e|] eqn:E; [|split; [exact Hw | discriminate]].
      destruct e; try (split; [exact Hw | discriminate]).
      assert (Sc : sane c) by (eapply Hw; exact E).
      specialize (H c Sc). destruct H as (H1 & H2 & H3).
      { intros b0 c0 E0. destruct (J_em w i _ Hw E) as (e0 & E0' & Hc). rewrite E0 in E0'. injection E0' as <-. apply Hc. }
      destruct (m c) as [r c']. cbn [fst snd] in *. split; [|exact H3]. eapply J_put; [exact Hw | exact E | split; auto|].
      intros b c1 [= <- <-]. exact H1.
    Qed.

    Lemma h_run_iter A i (m : factory val -> M gen A) (Q : A -> Prop) :
      (forall i0 g a, get_em i w0 = Some (EIter P i0) -> fst (m (i_factory i0) g) = Ok a -> Q a) ->
      hoare (run_iter P i (iter_run m)) Q.
    Proof.
      intros H w Hw. unfold run_iter, at_em. destruct (get_em i w) as [e|] eqn:E; [|split; [exact Hw | discriminate]].
      destruct e as [|i1| | | | | | | | |]; try (split; [exact Hw | discriminate]).
      destruct (J_em w i _ Hw E) as (e0 & E0 & Hc). destruct e0 as [|i0| | | | | | | | |]; try contradiction Hc. destruct Hc as [Hf _].
      pose proof (conf_iter_run (P := P) A m i1) as Hcf. destruct (iter_run m i1) as [r i2] eqn:Em. cbn [fst snd] in *. split.
      - eapply J_put; [exact Hw | exact E | exact Hcf | discriminate].
      - intros a ->. apply (H i0 (i_gen i1) a E0). rewrite Hf. unfold iter_run in Em.
        destruct (m (i_factory i1) (i_gen i1)) as [[x|x|] g]; [|discriminate..]. injection Em as <- _. reflexivity.
    Qed.
    Lemma h_run_seq A i (m : factory val -> M gen A) (Q : A -> Prop) :
      (forall b s0 g a, get_em i w0 = Some (ESeq P b s0) -> fst (m (seq_factory s0) g) = Ok a -> Q a) ->
      hoare (run_seq P i (seq_run m)) Q.
    Proof.
      intros H w Hw. unfold run_seq, at_em. destruct (get_em i w) as [e|] eqn:E; [|split; [exact Hw | discriminate]].
      destruct e as [| |b1 s1| | | | | | | |]; try (split; [exact Hw | discriminate]).
      destruct (J_em w i _ Hw E) as (e0 & E0 & Hc). destruct e0 as [| |b0 s0| | | | | | | |]; try contradiction Hc.
      assert (Hf : seq_factory s0 = seq_factory s1). { unfold seq_factory. destruct Hc as (_ & -> & -> & -> & _). reflexivity. }
      pose proof (conf_seq_run (P := P) A m b1 s1) as Hcf. destruct (seq_run m s1) as [r s2] eqn:Em. cbn [fst snd] in *. split.
      - eapply J_put; [exact Hw | exact E | exact Hcf | discriminate].
      - intros a ->. apply (H b0 s0 (s_gen s1) a E0). rewrite Hf. unfold seq_run in Em.
        destruct (m (seq_factory s1) (s_gen s1)) as [[x|x|] g]; [|discriminate..]. injection Em as <- _. reflexivity.
    Qed.

    Lemma h_run_user A i (m : uclass P -> M (val * pR P) A) (Q : A -> Prop) :
      (forall c own nd s a, get_em i w0 = Some (EUser P c own nd) -> fst (m c s) = Ok a -> Q a) ->
      hoare (run_user P i m) Q.
    Proof.
      intros H w Hw. unfold run_user, at_em. destruct (get_em i w) as [e|] eqn:E; [|split; [exact Hw | discriminate]].
      destruct e; try (split; [exact Hw | discriminate]).
      destruct (J_em w i _ Hw E) as (e0 & E0 & Hc). destruct e0; try contradiction Hc. destruct Hc as [-> _].
      specialize (H c own0 nd0).
      match goal with |- context [m c ?x] => specialize (H x); destruct (m c x) as [r [own' g]] eqn:Em end. cbn [fst snd] in *. split.
      - eapply J_put; [exact Hw | exact E | | discriminate]. split; [reflexivity | destruct nd; reflexivity].
      - intros a ->. apply (H a E0 eq_refl).
    Qed.

    Lemma next_from f : forall (g : gen) F a, fst (gen_next f F g) = Ok a -> exists c p, it_at (F c) p = Some (a : val).
    Proof.
      induction f as [|f IH]; intros g F a H; cbn [gen_next] in H.
      - destruct (g_cur g) as [[c p]|]; [|discriminate]. destruct (it_at (F c) p) eqn:E; [|discriminate]. cbn in H. injection H as <-. eauto.
      - destruct (g_cur g) as [[c p]|]; [|eapply IH; exact H]. destruct (it_at (F c) p) eqn:E; [|eapply IH; exact H]. cbn in H. injection H as <-. eauto.
    Qed.
    Lemma take_from F n : forall (g : gen) l, fst (gen_take fuel F n g) = Ok l ->
      length l = n /\ Forall (fun a => exists c p, it_at (F c) p = Some (a : val)) l.
    Proof.
      induction n as [|n IH]; intros g l H; cbn [gen_take] in H.
      - injection H as <-. split; [reflexivity | constructor].
      - unfold mbind in H. pose proof (next_from fuel g F) as N. destruct (gen_next fuel F g) as [[a|e|] g1]; try discriminate H.
        specialize (IH g1). destruct (gen_take fuel F n g1) as [[t|e|] g2]; try discriminate H. cbn in H. injection H as <-.
        destruct (IH t eq_refl) as [L T]. split; [cbn; lia|]. constructor; [exact (N a eq_refl) | exact T].
    Qed.

    (** *** reset and seed *)
    Lemma h_set_seed s k : hoare (set_rng_seed P s k) (fun _ => True).
    Proof. apply (h_node k (fun nd _ => mkNode P s (n_rng P nd))). Qed.
    Lemma h_reset_rng k : hoare (reset_rng P k) (fun _ => True).
    Proof.
      intros w Hw. unfold reset_rng.
      apply (h_bind _ _ (fun w' => modify_em P k _ w') (fun _ w' => (Ok tt, use_entropy P k w')) (fun _ => True) (fun _ => True)); [| intros; apply h_use | exact Hw].
      apply (h_node k (fun nd _ => mkNode P (n_seed P nd) (rng_for P (n_seed P nd) (em_entropy k (ent_of P k w))))).
    Qed.
    Lemma h_seed_own k s : hoare (seed_own P k s) (fun _ => True).
    Proof.
      intros w Hw. unfold seed_own.
      apply (h_bind _ _ (fun w' => modify_em P k _ w') (fun _ w' => (Ok tt, use_entropy P k w')) (fun _ => True) (fun _ => True)); [| intros; apply h_use | exact Hw].
      apply (h_node k (fun nd _ => mkNode P s (rng_for P s (em_entropy k (ent_of P k w))))).
    Qed.
    Lemma h_seed_children s kids : hoare (seed_children P s kids) (fun _ => True).
    Proof. apply h_setattr. intros; apply h_set_seed. Qed.
    Lemma h_reset_children (reset : nat -> M world unit) kids : (forall k, hoare (reset k) (fun _ => True)) -> hoare (reset_children P reset kids) (fun _ => True).
    Proof. intros H. apply h_do_method. intros o w m _ [= <-]. apply H. Qed.
    Lemma h_mixin_reset (reset : nat -> M world unit) own s kids : (forall k, hoare (reset k) (fun _ => True)) -> hoare own (fun _ => True) ->
      hoare (mixin_reset P reset own s kids) (fun _ => True).
    Proof.
      intros H Ho. unfold mixin_reset. eapply h_bind; [apply h_seed_children|]. intros _ _.
      eapply h_bind; [exact Ho|]. intros _ _. apply h_reset_children. exact H.
    Qed.

    Lemma h_reset d : forall k, hoare (ereset P fuel d k) (fun _ => True).
    Proof.
      induction d as [|d IH]; intros k; cbn [ereset]; [apply h_diverge|].
      apply h_at. intros e0 e _ _. destruct e.
      - apply h_ret. exact I.
      - intros w Hw. unfold run_iter, at_em. destruct (get_em k w) as [e|] eqn:E; [|split; [exact Hw | discriminate]].
        destruct e; try (split; [exact Hw | discriminate]). split; [|auto]. cbn [snd]. eapply J_put; [exact Hw | exact E | split; reflexivity | discriminate].
      - intros w Hw. unfold run_seq, at_em. destruct (get_em k w) as [e|] eqn:E; [|split; [exact Hw | discriminate]].
        destruct e; try (split; [exact Hw | discriminate]). split; [|auto]. cbn [snd]. eapply J_put; [exact Hw | exact E | repeat split; reflexivity | discriminate].
      - intros w Hw.
        apply (h_bind _ _ (run_choice P k (choice_reset P fuel (em_entropy k (ent_of P k w)))) (fun _ w' => (Ok tt, use_entropy P k w')) (fun _ => True) (fun _ => True)); [| intros; apply h_use | exact Hw].
        apply h_choice. intros c0 Hc _. pose proof (kreset fuel (em_entropy k (ent_of P k w)) c0) as [Q _].
        destruct (choice_reset P fuel (em_entropy k (ent_of P k w)) c0) as [r c1] eqn:Er. cbn [fst snd] in *. split; [eapply reset_sane; eauto|]. split; [exact Q | auto].
      - eapply h_bind; [apply h_mixin_reset; [exact IH | apply h_reset_rng]|]. intros _ _.
        eapply h_bind; [apply h_seed_children|]. intros _ _. apply h_reset_children. exact IH.
      - eapply h_bind; [apply h_mixin_reset; [exact IH | apply h_reset_rng]|]. intros _ _.
        eapply h_bind; [apply h_seed_children|]. intros _ _. apply h_reset_children. exact IH.
      - apply h_mixin_reset; [exact IH | apply h_reset_rng].
      - apply h_mixin_reset; [exact IH | apply h_reset_rng].
      - apply h_ret. exact I.
      - apply h_reset_rng.
      - eapply h_bind with (Q := fun _ => True); [destruct nd; [apply h_reset_rng | apply h_ret; exact I]|].
        intros _ _. apply h_run_user. auto.
    Qed.

    Lemma h_seed_all (seed : nat -> M world unit) kids : (forall k, hoare (seed k) (fun _ => True)) -> hoare (seed_all P seed kids) (fun _ => True).
    Proof. intros H. apply h_do_method. intros o w m _. destruct (has_seed P o w); [intros [= <-]; apply H | discriminate]. Qed.
    Lemma h_mixin_seed (seed : nat -> M world unit) own kids : (forall k, hoare (seed k) (fun _ => True)) -> hoare own (fun _ => True) ->
      hoare (mixin_seed P seed own kids) (fun _ => True).
    Proof.
      intros H Ho. unfold mixin_seed. eapply h_bind; [apply h_seed_all; exact H|]. intros _ _. apply h_catch; auto.
    Qed.
    Lemma h_seed d s : forall k, hoare (eseed P fuel d s k) (fun _ => True).
    Proof.
      induction d as [|d IH]; intros k; cbn [eseed]; [apply h_diverge|].
      apply h_at. intros e0 e _ _. destruct e; try apply h_raise.
      - intros w Hw.
        apply (h_bind _ _ (run_choice P k (choice_seed P fuel s (em_entropy k (ent_of P k w)))) (fun _ w' => (Ok tt, use_entropy P k w')) (fun _ => True) (fun _ => True)); [| intros; apply h_use | exact Hw].
        apply h_choice. intros c0 Hc _. pose proof (kseed fuel s (em_entropy k (ent_of P k w)) c0) as [Q _].
        destruct (choice_seed P fuel s (em_entropy k (ent_of P k w)) c0) as [r c1] eqn:Er. cbn [fst snd] in *. split; [eapply seed_sane; eauto|]. split; [exact Q | auto].
      - eapply h_bind; [apply h_mixin_seed; [exact IH | apply h_seed_own]|]. intros _ _. apply h_seed_all. exact IH.
      - eapply h_bind; [apply h_mixin_seed; [exact IH | apply h_seed_own]|]. intros _ _. apply h_seed_all. exact IH.
      - apply h_mixin_seed; [exact IH | apply h_seed_own].
      - apply h_mixin_seed; [exact IH | apply h_seed_own].
      - apply h_seed_own.
      - destruct nd; [apply h_seed_own | apply h_raise].
    Qed.

    (** *** Words and texts *)
    Section Texts.
      Context (wc sc : Z -> M world (list val)) (wr : M world unit).
      Context (Hwc : forall n, 0 <= n -> hoare (wc n) (fun l => zlen l = n)) (Hwr : hoare wr (fun _ => True)).
      Definition fine (w : words) : Prop := match w with WGen u _ _ _ => 0 <= u | WList _ => True end.

      Lemma h_next_batch f : forall u nd r, 0 <= u -> hoare (next_batch wc wr f u nd r) (fun aw => fine (snd aw)).
      Proof.
        induction f as [|f IH]; intros u nd r Hu; cbn [next_batch]; [apply h_diverge|].
        eapply h_bind with (Q := fun _ => True); [destruct nd; [exact Hwr | apply h_ret; exact I]|]. intros _ _. cbv zeta.
        destruct (Z.ltb_spec 0 (match nd with Some n => r - n | None => r end)) as [L|_]; [|apply h_raise].
        eapply h_bind; [apply Hwc; rewrite clamp_mx; lia|]. intros [|a t] _; [apply IH; exact Hu | apply h_ret; exact Hu].
      Qed.
      Lemma h_next_word w : fine w -> hoare (next_word wc wr w) (fun aw => fine (snd aw)).
      Proof.
        destruct w as [[|a l]|u [|a p] nd r]; cbn [next_word fine]; intros H;
          [apply h_raise | apply h_ret; exact I | apply h_next_batch; exact H | apply h_ret; exact H].
      Qed.
      Lemma h_more_words k : forall rd w sp, fine w -> hoare (more_words wc wr k rd w sp) (fun rws => fine (snd (fst rws))).
      Proof.
        induction k as [|k IH]; intros rd w sp H; cbn [more_words]; [apply h_ret; exact H|].
        destruct (next_sep sp) as [a sp']. eapply h_bind; [apply h_next_word; exact H|]. intros aw Haw. apply IH. exact Haw.
      Qed.
      Lemma h_make_texts ns : forall w sp, Forall (fun n => 1 <= n) ns -> fine w ->
        hoare (make_texts wc wr ns w sp) (fun l => zlen l = zlen ns /\ Forall (fun v => exists s, v = VStr s) l).
      Proof.
        induction ns as [|n ns IH]; intros w sp Hn Hw; cbn [make_texts]; [apply h_ret; split; [reflexivity | constructor]|].
        inversion Hn; subst. destruct (Z.eqb_spec n 0); [lia|].
        eapply h_bind; [apply h_next_word; exact Hw|]. intros aw Haw.
        eapply h_bind; [apply h_more_words; exact Haw|]. intros [[rd w'] sp'] Hw'. cbn [fst snd] in Hw'.
        eapply h_bind with (Q := fun _ => True); [apply h_lift; auto|]. intros s _.
        eapply h_bind; [apply IH; assumption|]. intros ts [L T]. apply h_ret. split.
        - unfold zlen in *. cbn [length]. lia.
        - constructor; [eauto | exact T].
      Qed.
    End Texts.

    Lemma sums vs zs k : mapM as_int vs = Ok zs -> Forall (at_least k) vs -> Forall (fun z => k <= z) zs /\ k * zlen vs <= zsum zs.
    Proof.
      intros H. apply mapM_ok in H. induction H as [|v z vs zs E _ IH]; intros Hv; [split; [constructor | cbn; lia]|].
      inversion Hv; subst. destruct IH as [I1 I2]; [assumption|]. specialize (H1 z E). split; [constructor; assumption|].
      unfold zlen in *. cbn [length zsum fold_right] in *. fold (zsum zs) in *. lia.
    Qed.
    Lemma setsize_pos l z : val_setsize l = Ok z -> 0 <= z.
    Proof.
      unfold val_setsize. destruct (hash_keys l) as [ks|]; [|discriminate]. intros [= <-].
      generalize (@nil val). induction ks as [|k t IH]; intros seen; cbn [count_new]; [lia|].
      destruct (existsb _ _); [apply IH | specialize (IH (k :: seen)); lia].
    Qed.
    Lemma unique_pos i w n : word_unique P i w = Ok (Some n) -> 0 <= n.
    Proof.
      unfold word_unique. destruct (get_em i w) as [[]|]; try discriminate. destruct (c_roac c); [|discriminate].
      unfold num_unique_values. destruct (c_replace c).
      - destruct (val_setsize (c_items c)) eqn:E; try discriminate. intros [= <-]. eapply setsize_pos; exact E.
      - destruct (c_sidx c); [|discriminate]. destruct (val_setsize _) eqn:E; try discriminate. intros [= <-]. eapply setsize_pos; exact E.
    Qed.

    (** *** Emitting *)
    Definition from (i : nat) (v : val) : Prop := forall Q, only_at w0 i Q -> Q v.
    Definition emits_ok (em : nat -> M world val) (em_n : nat -> Z -> M world (list val)) : Prop :=
      (forall i, hoare (em i) (from i)) /\ (forall i n, 0 <= n -> hoare (em_n i n) (fun l => zlen l = n /\ Forall (from i) l)).

    Lemma rep_len v n : 0 <= n -> zlen (list_rep [v : val] n) = n.
    Proof. intros H. rewrite (list_rep_length [v] n) by exact H. unfold zlen; cbn [length]; lia. Qed.
    Lemma rep_all (Q : val -> Prop) v n : Q v -> Forall Q (list_rep [v] n).
    Proof.
      intros H. unfold list_rep. induction (Z.to_nat n) as [|k IH]; cbn; [constructor|]. constructor; [exact H | exact IH].
    Qed.

    Lemma h_wrapped i f args kw : hoare (wrapper_call (bound P i f) args kw)
      (fun v => (exists a k, wf_plain P f a k = Ok v) \/ (exists a k g, fst (wf_rng P f a k g) = Ok v)).
    Proof.
      assert (H : forall b, hoare (py_call (bound P i f) args kw b)
        (fun v => (exists a k, wf_plain P f a k = Ok v) \/ (exists a k g, fst (wf_rng P f a k g) = Ok v))).
      { intros b. unfold py_call. destruct (match u_sig _ with Some _ => _ | None => _ end); [|apply h_raise].
        destruct b; cbn [bound u_body_rng u_body].
        - apply h_rng. intros g a Ha. right. eauto.
        - apply h_lift. intros a Ha. left. eauto. }
      unfold wrapper_call. destruct (wants_rng _); [destruct (mem _ _); [apply h_raise | apply H] | apply H].
    Qed.
    Lemma from_fun i f v e : get_em i w0 = Some e ->
      (match e with EWrapOne _ _ f' _ | EWrapMany _ _ f' _ | EBased _ _ _ f' _ => f' = f | _ => False end) ->
      ((exists a k, wf_plain P f a k = Ok v) \/ (exists a k g, fst (wf_rng P f a k g) = Ok v)) -> from i v.
    Proof.
      intros E He H Q O. specialize (O e E). destruct e; try contradiction; subst; destruct O as [O1 O2];
        destruct H as [(a & k & H)|(a & k & g & H)]; eauto.
    Qed.

    Lemma f2_of A B (Q : B -> Prop) (l : list A) (l' : list B) : Forall2 (fun _ => Q) l l' -> length l = length l' /\ Forall Q l'.
    Proof. induction 1 as [|a b l l' H _ [I1 I2]]; cbn; split; auto. Qed.

    Lemma h_emits d : emits_ok (fst (emits P fuel str_of d)) (snd (emits P fuel str_of d)).
    Proof.
      induction d as [|d [IH1 IH2]]; [split; intros; apply h_diverge|].
      set (em := fst (emits P fuel str_of d)) in *. set (em_n := snd (emits P fuel str_of d)) in *.
      assert (Hn : forall i n, 0 <= n -> hoare (call_number (em i) (em_n i) n) (fun l => zlen l = n /\ Forall (from i) l)).
      { intros i n H. apply h_number; [apply IH1 | apply IH2; exact H]. }
      assert (Hn' : forall i n, 0 <= n -> hoare (call_number (em i) (em_n i) n) (fun l => zlen l = n)).
      { intros i n H. eapply h_weak; [apply Hn; exact H|]. intros l [E _]; exact E. }
      assert (Lens : forall i n k, 0 <= n -> only_at w0 i (at_least k) ->
        hoare (call_number (em i) (em_n i) n) (fun l => zlen l = n /\ Forall (at_least k) l)).
      { intros i n k H O. eapply h_weak; [apply Hn; exact H|]. intros l [E F]. split; [exact E|].
        eapply Forall_impl; [|exact F]. intros v Hv. apply Hv. exact O. }
      assert (Texts : forall i nw wd sp u nd n, 0 <= n -> get_em i w0 = Some (EText P nw wd sp u nd) ->
        hoare (text_emit_many (call_number (em nw) (em_n nw)) (call_number (em wd) (em_n wd)) (ereset P fuel d wd) (word_unique P wd)
                 (call_number (em sp) (em_n sp)) n)
              (fun l => zlen l = n /\ Forall (from i) l)).
      { intros i nw wd sp u nd n H0 E0. unfold text_emit_many.
        eapply h_bind; [apply (Lens nw n 1 H0); exact (proj1 (proj2 Sz) _ _ _ _ _ _ E0)|]. intros ls [Ll Fl].
        eapply h_bind with (Q := fun t => n <= t).
        { apply h_lift. intros t Ht. apply sum_vals_ok in Ht. destruct Ht as (zs & Hz & ->).
          destruct (sums ls zs 1 Hz Fl) as [_ Q]. lia. }
        intros t Ht. eapply h_bind with (Q := fine).
        { intros w Hw. unfold get_words_iterator. pose proof (unique_pos wd w) as Up.
          assert (Wl : hoare (l <~ call_number (em wd) (em_n wd) t ;; ret (WList l)) fine).
          { eapply h_bind; [apply Hn'; lia|]. intros l _. apply h_ret. exact I. }
          destruct (word_unique P wd w) as [[m|]|e|]; try (split; [exact Hw | discriminate]); [|apply Wl; exact Hw].
          destruct (_ && _); [|apply Wl; exact Hw]. split; [exact Hw|]. intros a [= <-]. exact (Up m eq_refl). }
        intros wds Hwds. eapply h_bind; [apply Hn'; lia|]. intros sps _.
        eapply h_bind with (Q := fun ns => Forall (fun z => 1 <= z) ns /\ zlen ns = n).
        { apply h_lift. intros ns Hns. split; [apply (sums ls ns 1 Hns Fl)|]. apply mapM_len in Hns. unfold zlen in *. lia. }
        intros ns [N1 N2]. eapply h_weak; [apply h_make_texts; [apply Hn' | apply h_reset | exact N1 | exact Hwds]|].
        intros l [L1 L2]. split; [lia|]. eapply Forall_impl; [|exact L2]. intros v (s & ->) Q O. exact (O _ E0 s). }
      split.
      - intros i. cbn [emits fst]. unfold emit_body. apply h_at. intros e0 e E0 Hc.
        destruct e as [s|i1|b s|b c|l a u nd|nw wd sp u nd|src f nd|srcs f nd|single fs sep|single fs f nd|uc own nd]; destruct e0; try contradiction Hc.
        + apply h_lift. intros v [= <-] Q O. cbn in Hc. subst. exact (O _ E0).
        + apply h_run_iter. intros i2 g v E Hv Q O. apply next_from in Hv. destruct Hv as (c & p & Hv).
          exact (O _ E c p v Hv).
        + apply h_run_seq. intros b2 s2 g v E Hv Q O. apply next_from in Hv. destruct Hv as (c & p & Hv). exact (O _ E c p v Hv).
        + apply h_choice. intros c1 Hs Hi. pose proof (kemit fuel c1) as [K _]. destruct (choice_emit P val_setsize fuel c1) as [r c2] eqn:Ec.
          cbn [fst snd] in *. destruct (one_good c1 r c2 Hs Ec) as [G1 G2]. split; [exact G1|]. split; [exact K|]. intros v -> Q O.
          apply (O _ E0). rewrite (Hi _ _ E0). apply G2. reflexivity.
        + destruct Hc as (-> & ->). unfold word_emit. eapply h_bind with (Q := at_least 0).
          { eapply h_weak; [apply IH1|]. intros v Hv. apply Hv. exact (proj1 Sz _ _ _ _ _ E0). }
          intros n Hlen. eapply h_bind with (Q := fun _ => True).
          { unfold call_val. assert (X : hoare (n0 <~ lift (as_int n) ;; l0 <~ call_number (em a) (em_n a) n0 ;; ret (VList l0)) (fun _ => True)).
            { eapply h_bind with (Q := fun z => 0 <= z); [apply h_lift; exact Hlen|]. intros z Hz. eapply h_bind; [apply Hn'; exact Hz|].
              intros l0 _. apply h_ret. exact I. }
            destruct n; try exact X. eapply h_weak; [apply IH1 | auto]. }
          intros cs _. eapply h_bind with (Q := fun _ => True); [apply h_lift; auto|]. intros s _. apply h_ret. intros Q O. exact (O _ E0 s).
        + destruct Hc as (-> & -> & ->). unfold text_emit. eapply h_bind; [eapply Texts; [lia | exact E0]|]. intros l [L1 L2].
          apply h_lift. intros v Hv. unfold list_get in Hv. destruct (norm_index _ _); [|discriminate]. destruct (nth_error l _) eqn:En; [|discriminate].
          injection Hv as ->. rewrite Forall_forall in L2. apply L2. eapply nth_error_In; eauto.
        + destruct Hc as [-> ->]. unfold wrapone_emit. eapply h_bind; [apply IH1|]. intros v _.
          eapply h_weak; [apply h_wrapped|]. intros v' Hv. eapply from_fun; [exact E0 | reflexivity | exact Hv].
        + destruct Hc as [-> ->]. unfold wrapmany_emit. eapply h_bind with (Q := fun _ => True).
          { unfold call_sources. eapply h_weak; [apply (h_mapS _ _ _ _ (fun _ _ => True))|auto]. intros [k [c1 c2]] Hin.
            apply in_map_iff in Hin. destruct Hin as ([k' j] & [= <- <- <-] & _). cbn [fst snd].
            eapply h_bind; [apply IH1|]. intros; apply h_ret; exact I. }
          intros kw _. eapply h_weak; [apply h_wrapped|]. intros v' Hv. eapply from_fun; [exact E0 | reflexivity | exact Hv].
        + apply h_pure. intros w v _ _ Q O. exact (O _ E0 v).
        + destruct Hc as (-> & -> & ->). unfold based_emit. intros w Hw.
          destruct (action_args (based_source P fs w)) as [args kw] eqn:Ea.
          pose proof (h_weak _ _ _ (from i) (h_wrapped i f args kw) (fun v' Hv => from_fun i f v' _ E0 eq_refl Hv) w Hw) as X. exact X.
        + apply h_run_user. intros c1 own1 nd1 s v E Hv Q O. exact (proj1 (O _ E) s v Hv).
      - intros i n H0. cbn [emits snd]. unfold emit_many_body. apply h_at. intros e0 e E0 Hc.
        destruct e as [s|i1|b s|b c|l a u nd|nw wd sp u nd|src f nd|srcs f nd|single fs sep|single fs f nd|uc own nd]; destruct e0; try contradiction Hc.
        + apply h_lift. intros v [= <-]. cbn in Hc. subst. split; [apply rep_len; exact H0|]. apply rep_all. intros Q O. exact (O _ E0).
        + unfold iter_emit_many. destruct (Z.ltb_spec n 0); [lia|]. apply h_run_iter. intros i2 g v E Hv. apply take_from in Hv. destruct Hv as [L F].
          split; [unfold zlen; lia|]. eapply Forall_impl; [|exact F]. intros x (c & p & Hx) Q O. exact (O _ E c p x Hx).
        + unfold seq_emit_many. destruct (Z.ltb_spec n 0); [lia|]. apply h_run_seq. intros b2 s2 g v E Hv. apply take_from in Hv. destruct Hv as [L F].
          split; [unfold zlen; lia|]. eapply Forall_impl; [|exact F]. intros x (c & p & Hx) Q O. exact (O _ E c p x Hx).
        + apply h_choice. intros c1 Hs Hi. pose proof (kemit_many fuel n c1) as [K _]. destruct (choice_emit_many P val_setsize fuel n c1) as [r c2] eqn:Ec.
          cbn [fst snd] in *. destruct (many_good n c1 r c2 Hs H0 Ec) as [G1 G2]. split; [exact G1|]. split; [exact K|]. intros v ->.
          destruct (G2 v eq_refl) as [G3 G4]. split; [exact G3|]. apply Forall_forall. intros x Hx Q O. apply (O _ E0). rewrite (Hi _ _ E0). apply G4. exact Hx.
        + destruct Hc as (-> & ->). unfold word_emit_many.
          eapply h_bind; [apply (Lens l n 0 H0); exact (proj1 Sz _ _ _ _ _ E0)|]. intros ls [Ll Fl].
          eapply h_bind with (Q := fun t => 0 <= t).
          { apply h_lift. intros t Ht. apply sum_vals_ok in Ht. destruct Ht as (zs & Hz & ->). destruct (sums ls zs 0 Hz Fl) as [_ Q]. lia. }
          intros t Ht. eapply h_bind; [apply Hn'; exact Ht|]. intros cs _. apply h_lift. intros ws Hws.
          apply bind_ok_inv in Hws. destruct Hws as (zs & Hz & Hws). pose proof (cut_words_length _ _ _ _ Hws) as L1. pose proof (mapM_len _ _ _ Hz) as L2.
          split; [unfold zlen in *; lia|]. apply cut_words_from in Hws. eapply Forall_impl; [|exact Hws]. intros x (g & _ & ss & _ & ->) Q O. exact (O _ E0 _).
        + destruct Hc as (-> & -> & ->). apply (Texts i nw wd sp _ _ n H0 E0).
        + destruct Hc as [-> ->]. unfold wrapone_emit_many. eapply h_bind; [apply Hn'; exact H0|]. intros vs Lv.
          eapply h_weak; [apply (h_mapS _ _ _ _ (fun _ => from i))|].
          * intros v _. eapply h_weak; [apply h_wrapped|]. intros v' Hv. eapply from_fun; [exact E0 | reflexivity | exact Hv].
          * intros l F. destruct (f2_of _ _ _ _ _ F) as [F1 F2]. cbv beta in Lv. split; [unfold zlen in *; lia | exact F2].
        + destruct Hc as [-> ->]. unfold wrapmany_emit_many. eapply h_bind with (Q := fun _ => True).
          { eapply h_weak; [apply (h_mapS _ _ _ _ (fun _ _ => True))|auto]. intros [k [c1 c2]] Hin.
            apply in_map_iff in Hin. destruct Hin as ([k' j] & [= <- <- <-] & _). cbn [fst snd].
            eapply h_bind; [apply Hn; exact H0|]. intros; apply h_ret; exact I. }
          intros data _. eapply h_weak; [apply (h_mapS _ _ _ _ (fun _ => from i))|].
          * intros k _. eapply h_bind with (Q := fun _ => True); [apply h_lift; auto|]. intros kw _.
            eapply h_weak; [apply h_wrapped|]. intros v' Hv. eapply from_fun; [exact E0 | reflexivity | exact Hv].
          * intros l F. destruct (f2_of _ _ _ _ _ F) as [F1 F2]. split; [|exact F2]. unfold zlen. rewrite <- F1. unfold indices. rewrite map_length, seq_length. lia.
        + unfold repeat_emit. eapply h_bind with (Q := fun _ => True); [apply h_pure; auto|]. intros v _. apply h_ret.
          split; [apply rep_len; exact H0|]. apply rep_all. intros Q O. exact (O _ E0 v).
        + destruct Hc as (-> & -> & ->). unfold repeat_emit. eapply h_bind with (Q := from i).
          { intros w Hw. unfold based_emit. destruct (action_args (based_source P fs w)) as [args kw].
            exact (h_weak _ _ _ (from i) (h_wrapped i f args kw) (fun v' Hv => from_fun i f v' _ E0 eq_refl Hv) w Hw). }
          intros v Hv. apply h_ret. split; [apply rep_len; exact H0 | apply rep_all; exact Hv].
        + apply h_run_user. intros c1 own1 nd1 s l E Hl. split; [eapply (proj2 (proj2 (proj2 Sz))); eassumption|].
          apply Forall_forall. intros v Hv Q O. exact (proj2 (O _ E) s n l v Hl Hv).
    Qed.

    Lemma h_call i : hoare (em_call P fuel str_of i) (from i).
    Proof. apply (proj1 (h_emits (S i))). Qed.
    Lemma h_call_n i n : 0 <= n -> hoare (em_call_n P fuel str_of i n) (fun l => zlen l = n /\ Forall (from i) l).
    Proof. intros H. apply h_number; [apply h_call | apply (proj2 (h_emits (S i))); exact H]. Qed.

    (** *** Fields and schemas *)
    Lemma h_at_fd A f (k : World.field P -> M world A) (Q : A -> Prop) :
      (forall x0 x, get_fd f w0 = Some x0 -> fconf x0 x -> hoare (k x) Q) -> hoare (at_fd P f k) Q.
    Proof.
      intros H w Hw. unfold at_fd. destruct (get_fd f w) as [x|] eqn:E; [|split; [exact Hw | discriminate]].
      destruct Hw as [[Hw1 Hw2] Hw3]. pose proof (Hw2 f) as Hf. rewrite E in Hf. destruct (get_fd f w0) as [x0|] eqn:E0; cbn in Hf; [|contradiction].
      apply (H x0 x eq_refl Hf). split; [split; assumption | assumption].
    Qed.
    Lemma h_modify_fd f (g : World.field P -> World.field P) : (forall x, fconf x (g x)) -> hoare (modify_fd P f g) (fun _ => True).
    Proof.
      intros H w Hw. unfold modify_fd, at_fd. destruct (get_fd f w) as [x|] eqn:E; [|split; [exact Hw | discriminate]].
      split; [|auto]. cbn [snd]. eapply J_put_fd; [exact Hw | exact E | apply H].
    Qed.
    Lemma fconf_cache v x : @fconf P x (fd_cache P v x). Proof. repeat split. Qed.
    Lemma fconf_node nd k x : @fconf P x (fd_node P nd k x). Proof. repeat split. Qed.

    Lemma h_fd_call f : hoare (fd_call P fuel str_of f) (fun _ => True).
    Proof.
      unfold fd_call. apply h_at_fd. intros x0 x E0 Hx. unfold field_call.
      eapply h_bind; [apply h_call|]. intros g _.
      assert (Rep : only_at w0 (f_rep P x) (at_least 0)).
      { destruct Hx as (_ & _ & _ & <- & _). exact (proj1 (proj2 (proj2 Sz)) _ _ E0). }
      destruct (truthy g).
      - eapply h_bind; [apply h_call|]. intros r Hr. eapply h_bind with (Q := fun _ => True).
        { unfold call_val. assert (X : hoare (n <~ lift (as_int r) ;; l <~ em_call_n P fuel str_of (f_em P x) n ;; ret (VList l)) (fun _ => True)).
          { eapply h_bind with (Q := fun z => 0 <= z); [apply h_lift; exact (Hr _ Rep)|]. intros z Hz.
            eapply h_bind; [apply h_call_n; exact Hz|]. intros; apply h_ret; exact I. }
          destruct r; try exact X. eapply h_weak; [apply h_call | auto]. }
        intros v _. eapply h_bind; [apply h_modify_fd, fconf_cache|]. intros _ _. apply h_ret. exact I.
      - eapply h_bind; [apply h_modify_fd, fconf_cache|]. intros _ _. apply h_ret. exact I.
    Qed.
    Lemma h_fd_reset f : hoare (fd_reset P fuel f) (fun _ => True).
    Proof.
      unfold fd_reset. apply h_at_fd. intros x0 x _ _. eapply h_bind; [apply h_mixin_reset|].
      - intros k. apply h_reset.
      - apply h_modify_fd. intros; apply fconf_node.
      - intros _ _. apply h_modify_fd, fconf_cache.
    Qed.
    Lemma h_fd_seed f s : hoare (fd_seed P fuel f s) (fun _ => True).
    Proof.
      unfold fd_seed. apply h_at_fd. intros x0 x _ _. apply h_mixin_seed.
      - intros k. apply h_seed.
      - apply h_modify_fd. intros; apply fconf_node.
    Qed.
    Lemma h_doc fs : hoare (sc_call P fuel str_of fs) (fun _ => True).
    Proof.
      unfold sc_call, schema_call. generalize (@nil (string * val)). induction fs as [|[k f] t IH]; intros doc; cbn [schema_loop]; [apply h_ret; exact I|].
      eapply h_bind; [apply h_fd_call|]. intros v _ w Hw. apply IH. exact Hw.
    Qed.

    (** No operation asks for a negative number. *)
    Definition counts (o : op P) : Prop := match o with EmitN _ _ n => 0 <= n | _ => True end.
    Definition told (o : op P) (a : answer) : Prop :=
      match o, a with
      | Emit _ i, Value v => from i v
      | EmitN _ i n, Values l => zlen l = n /\ Forall (from i) l
      | Emit _ _, _ | EmitN _ _ _, _ => False
      | _, _ => True
      end.
    Lemma h_op o : counts o -> hoare (run P fuel str_of o) (told o).
    Proof.
      intros Hc. destruct o; cbn [run counts] in *.
      - eapply h_bind; [apply h_call|]. intros v Hv. apply h_ret. exact Hv.
      - eapply h_bind; [apply h_call_n; exact Hc|]. intros l Hl. apply h_ret. exact Hl.
      - eapply h_bind; [apply h_reset|]. intros; apply h_ret; exact I.
      - eapply h_bind; [apply h_seed|]. intros; apply h_ret; exact I.
      - eapply h_bind; [apply h_set_seed|]. intros; apply h_ret; exact I.
      - eapply h_bind; [apply h_fd_call|]. intros; apply h_ret; exact I.
      - eapply h_bind; [apply h_fd_reset|]. intros; apply h_ret; exact I.
      - eapply h_bind; [apply h_fd_seed|]. intros; apply h_ret; exact I.
      - eapply h_bind; [apply h_modify_fd; intros; apply fconf_node|]. intros; apply h_ret; exact I.
      - eapply h_bind; [apply h_doc|]. intros; apply h_ret; exact I.
      - eapply h_bind; [apply h_do_method; intros ? ? ? _ [= <-]; apply h_fd_reset|]. intros; apply h_ret; exact I.
      - eapply h_bind; [apply h_do_method; intros ? ? ? _ [= <-]; apply h_fd_seed|]. intros; apply h_ret; exact I.
    Qed.
  End Triples.

  (** ** Programs *)
  Definition good (w : world) : Prop := healthy w /\ sized w.

  Lemma good_run A (m : M world A) (Q : A -> Prop) w : (sized w -> hoare w m Q) -> good w ->
    good (snd (m w)) /\ wconf w (snd (m w)).
  Proof.
    intros H [G1 G2]. destruct (H G2 w) as [[H1 H2] _]; [split; [apply wconf_refl | exact G1]|].
    split; [split; [exact H2 | eapply sized_conf; eauto] | exact H1].
  Qed.

  Lemma only_at_app w i o Q : (i < length (w_em P w))%nat -> only_at w i Q -> only_at (mkWorld P (w_em P w ++ [o]) (w_fd P w) (w_run P w)) i Q.
  Proof. intros L H e E. rewrite get_em_app in E. destruct (Nat.eqb_spec i (length (w_em P w))); [lia | apply H; exact E]. Qed.

  Lemma good_alloc e w : sound P w -> good w -> (forall k, In k (children P e) -> (k < length (w_em P w))%nat) ->
    (forall b c, e = EChoice P b c -> sane c) ->
    match e with
    | EWord _ l _ _ _ => only_at w l (at_least 0)
    | EText _ n _ _ _ _ => only_at w n (at_least 1)
    | EUser _ c _ _ => counting P c
    | _ => True
    end -> good (snd (alloc_em P e w)).
  Proof.
    intros (S1 & S2 & S3) [G (Z1 & Z2 & Z3 & Z4)] Hk Hc He. unfold alloc_em. cbn [snd].
    assert (Sb : forall i e k, get_em i w = Some e -> In k (children P e) -> (k < length (w_em P w))%nat).
    { intros. eapply sound_bound; [split; [exact S1 | split; [exact S2 | exact S3]] | eassumption..]. }
    split; [|split; [|split; [|split]]].
    - intros i b c E. rewrite get_em_app in E. destruct (Nat.eqb i _); [injection E as E; eapply Hc; exact E | eapply G; exact E].
    - intros i l a u nd E. rewrite get_em_app in E. destruct (Nat.eqb i _).
      + injection E as E. cbn [o_em] in E. subst e. apply only_at_app; [apply Hk; left; reflexivity | exact He].
      + apply only_at_app; [eapply Sb; [exact E | left; reflexivity] | eapply Z1; exact E].
    - intros i n x s u nd E. rewrite get_em_app in E. destruct (Nat.eqb i _).
      + injection E as E. cbn [o_em] in E. subst e. apply only_at_app; [apply Hk; left; reflexivity | exact He].
      + apply only_at_app; [eapply Sb; [exact E | left; reflexivity] | eapply Z2; exact E].
    - intros f x E. apply only_at_app; [eapply S3; [exact E | right; left; reflexivity] | eapply Z3; exact E].
    - intros i c own nd E. rewrite get_em_app in E. destruct (Nat.eqb i _); [|eapply Z4; exact E].
      injection E as E. cbn [o_em] in E. subst e. exact He.
  Qed.

  Lemma good_alloc_fd x w : good w -> only_at w (f_rep P x) (at_least 0) -> good (snd (alloc_fd P x w)).
  Proof.
    intros [G (Z1 & Z2 & Z3 & Z4)] Hx. unfold alloc_fd. cbn [snd]. split; [|split; [|split; [|split]]]; try assumption.
    intros f y E. unfold World.get_fd in E. cbn [w_fd] in E. destruct (Nat.lt_ge_cases f (length (w_fd P w))) as [L|L].
    - rewrite nth_error_app1 in E by exact L. exact (Z3 f y E).
    - rewrite nth_error_app2 in E by exact L. destruct (f - length (w_fd P w))%nat as [|k]; [injection E as <-; exact Hx | destruct k; discriminate E].
  Qed.

  (** *** Functions *)
  Definition installed (f : wfun P) (e : emitter) : emitter :=
    match e with
    | EWrapOne _ s _ nd => EWrapOne P s f nd
    | EWrapMany _ ss _ nd => EWrapMany P ss f nd
    | EBased _ b fs _ nd => EBased P b fs f nd
    | e => e end.
  Lemma install_eq i f w : install P i f w = match get_em i w with Some e => (Ok tt, put_em P i (installed f e) w) | None => (Diverge, w) end.
  Proof. unfold install, modify_em, at_em. destruct (get_em i w); reflexivity. Qed.
  Lemma install_conf i f w w' : wconf w w' -> wconf (snd (install P i f w)) (snd (install P i f w')).
  Proof.
    intros [H1 H2]. rewrite !install_eq. pose proof (H1 i) as Hi. destruct (get_em i w) as [e|] eqn:E, (get_em i w') as [e'|] eqn:E'; cbn in Hi; try contradiction; [|split; assumption].
    cbn [snd]. split.
    - intros j. destruct (Nat.eq_dec j i) as [->|N].
      + rewrite (get_put_same i _ w e E), (get_put_same i _ w' e' E'). cbn. destruct e, e'; cbn in *; try contradiction; intuition (subst; auto).
      + rewrite !get_put_other by exact N. apply H1.
    - intros j. unfold World.get_fd. rewrite !fd_put. apply H2.
  Qed.
  Lemma install_healthy i f w : healthy w -> healthy (snd (install P i f w)).
  Proof.
    intros H. rewrite install_eq. destruct (get_em i w) as [e|] eqn:E; [|exact H]. intros j b c Ej. cbn [snd] in Ej.
    destruct (Nat.eq_dec j i) as [->|N].
    - rewrite (get_put_same i _ w e E) in Ej. injection Ej as Ej. destruct e; try discriminate Ej. cbn in Ej. injection Ej as -> ->. eapply H; exact E.
    - rewrite get_put_other in Ej by exact N. eapply H; exact Ej.
  Qed.

  Lemma h_mock w0 i f args kw : hoare w0 (try_mock_call (bound P i f) args kw) (fun _ => True).
  Proof.
    unfold try_mock_call. destruct (u_sig _); [apply h_lift; auto|].
    eapply h_bind with (Q := fun _ => True); [cbn [bound u_body]; apply h_lift; auto|]. intros _ _. apply h_ret. exact I.
  Qed.

  Definition passes {A} (G : world -> Prop) (m : M world A) (G' : world -> Prop) : Prop := forall w, G w -> G' (snd (m w)).
  Lemma p_bind A B (G G1 G2 : world -> Prop) (m : M world A) (k : A -> M world B) : (forall w, G1 w -> G2 w) ->
    passes G m G1 -> (forall a, passes G1 (k a) G2) -> passes G (mbind m k) G2.
  Proof.
    intros H12 Hm Hk w Hw. specialize (Hm w Hw). unfold mbind. destruct (m w) as [[a|e|] w1]; cbn [snd] in *; [apply Hk; exact Hm | apply H12; exact Hm..].
  Qed.
  Lemma p_finally A (G G1 G2 : world -> Prop) (m : M world A) (fin : M world unit) : (forall w, G1 w -> G2 w) ->
    passes G m G1 -> passes G1 fin G2 -> passes G (try_finally m fin) G2.
  Proof.
    intros H12 Hm Hk w Hw. specialize (Hm w Hw). unfold try_finally. destruct (m w) as [[a|e|] w1]; cbn [snd] in *;
      [specialize (Hk w1 Hm); destruct (fin w1) as [[]]; exact Hk .. | apply H12; exact Hm].
  Qed.

  (** Good, and the objects are configured as in [v]. *)
  Definition like (v w : world) : Prop := good w /\ wconf v w.
  Lemma p_hoare A (m : M world A) (Q : A -> Prop) v : (forall w0, sized w0 -> hoare w0 m Q) -> passes (like v) m (like v).
  Proof.
    intros H w [G1 G2]. destruct (good_run A m Q w (H w) G1) as [G3 G4]. split; [exact G3 | eapply wconf_trans; eauto].
  Qed.
  Lemma p_install i f v : sized (snd (install P i f v)) -> passes (like v) (install P i f) good.
  Proof.
    intros Hs w [[G1 G2] G3]. split; [apply install_healthy; exact G1|]. eapply sized_conf; [apply install_conf; exact G3 | exact Hs].
  Qed.
  Lemma p_good A (m : M world A) (Q : A -> Prop) : (forall w0, sized w0 -> hoare w0 m Q) -> passes good m good.
  Proof. intros H w G. apply (good_run A m Q w (H w) G). Qed.

  Lemma set_function_good i f w : good w -> sized (snd (install P i f w)) -> good (snd (set_function P fuel str_of i f w)).
  Proof.
    intros G Hs. unfold set_function, at_em. destruct (get_em i w) as [e|] eqn:E; [|exact G].
    assert (Lg : forall w', like w w' -> good w') by (intros w' [L _]; exact L).
    assert (Fin : passes (like w) (install P i f ;;; em_reset P fuel i) good).
    { eapply p_bind with (G1 := good); [auto | apply p_install; exact Hs|]. intros _. eapply p_good. intros v0 S0. apply (h_reset v0). }
    assert (Lw : like w w) by (split; [exact G | apply wconf_refl]).
    destruct e; try exact G.
    - unfold wrapone_set.
      apply (p_finally _ (like w) (like w) good _ _ Lg); [|exact Fin|exact Lw].
      eapply p_hoare. intros v0 S0. eapply h_bind; [apply h_call; exact S0|]. intros v _. apply h_mock.
    - unfold wrapmany_set. apply (p_bind _ _ (like w) (like w) good _ _ Lg); [| |exact Lw].
      + eapply p_hoare. intros v0 S0. unfold call_sources. apply (h_mapS v0 _ _ _ _ (fun _ _ => True)). intros [k [c1 c2]] Hin.
        apply in_map_iff in Hin. destruct Hin as ([k' j] & [= <- <- <-] & _). cbn [fst snd]. eapply h_bind; [apply h_call; exact S0|]. intros; apply h_ret; exact I.
      + intros kw. apply (p_finally _ (like w) (like w) good _ _ Lg); [|exact Fin]. eapply p_hoare. intros v0 S0. apply h_mock.
    - unfold based_set. apply (p_bind _ _ (like w) good good); [auto | apply p_install; exact Hs | | exact Lw]. intros _.
      apply (p_bind _ _ good good good); [auto | |].
      + eapply p_good. intros v0 S0. apply (h_mapS v0 _ _ _ _ (fun _ _ => True)). intros [k c1] Hin.
        apply in_map_iff in Hin. destruct Hin as (x & [= <- <-] & _). cbn [fst snd]. eapply h_bind; [apply h_fd_call; exact S0|]. intros; apply h_ret; exact I.
      + intros vals. destruct (action_args vals) as [args kw]. apply (p_finally _ good good good); [auto | eapply p_good; intros; apply h_mock |].
        eapply p_good. intros v0 S0. apply (h_reset v0).
  Qed.

  (** *** Every command *)
  Lemma bind_tt A (m : M world A) w : snd ((m ;;; ret tt) w) = snd (m w).
  Proof. unfold mbind. destruct (m w) as [[a|e|] w1]; reflexivity. Qed.
  Lemma bind_ret A (m : M world A) B (k : A -> B) w : snd ((a <~ m ;; ret (k a)) w) = snd (m w).
  Proof. unfold mbind. destruct (m w) as [[a|e|] w1]; reflexivity. Qed.

  Lemma put_good i e e' w : good w -> get_em i w = Some e -> sized (put_em P i e' w) -> (forall b c, e' = EChoice P b c -> sane c) ->
    good (put_em P i e' w).
  Proof.
    intros [G1 G2] E Hs Hc. split; [|exact Hs]. intros j b c Ej. destruct (Nat.eq_dec j i) as [->|N].
    - rewrite (get_put_same i e' w e) in Ej by exact E. injection Ej as ->. eapply Hc; reflexivity.
    - rewrite get_put_other in Ej by exact N. eapply G1; exact Ej.
  Qed.
  (** Changing what the sizes do not depend on. *)
  Lemma put_sized i e e' w : sized w -> get_em i w = Some e -> children P e = children P e' ->
    (forall Q, only Q e -> only Q e') ->
    (forall l a u nd, e' = EWord P l a u nd -> exists u nd, e = EWord P l a u nd) ->
    (forall n x s u nd, e' = EText P n x s u nd -> exists u nd, e = EText P n x s u nd) ->
    (forall c own nd, e' <> EUser P c own nd) ->
    sized (put_em P i e' w).
  Proof.
    intros (Z1 & Z2 & Z3 & Z4) E _ Ho Hw Ht Hu.
    assert (O : forall j Q, only_at w j Q -> only_at (put_em P i e' w) j Q).
    { intros j Q O x Ex. destruct (Nat.eq_dec j i) as [->|N].
      - rewrite (get_put_same i e' w e E) in Ex. injection Ex as <-. apply Ho, O, E.
      - rewrite get_put_other in Ex by exact N. apply O, Ex. }
    split; [|split; [|split]].
    - intros j l a u nd Ej. apply O. destruct (Nat.eq_dec j i) as [->|N].
      + rewrite (get_put_same i e' w e E) in Ej. injection Ej as Ej. destruct (Hw _ _ _ _ Ej) as (u0 & nd0 & ->). eapply Z1; exact E.
      + rewrite get_put_other in Ej by exact N. eapply Z1; exact Ej.
    - intros j n x s u nd Ej. apply O. destruct (Nat.eq_dec j i) as [->|N].
      + rewrite (get_put_same i e' w e E) in Ej. injection Ej as Ej. destruct (Ht _ _ _ _ _ Ej) as (u0 & nd0 & ->). eapply Z2; exact E.
      + rewrite get_put_other in Ej by exact N. eapply Z2; exact Ej.
    - intros f x Ef. apply O. unfold World.get_fd in Ef. rewrite fd_put in Ef. eapply Z3; exact Ef.
    - intros j c own nd Ej. destruct (Nat.eq_dec j i) as [->|N].
      + rewrite (get_put_same i e' w e E) in Ej. injection Ej as Ej. destruct (Hu _ _ _ Ej).
      + rewrite get_put_other in Ej by exact N. eapply Z4; exact Ej.
  Qed.

  Lemma set_good i (s : WorldBuild.setting P) w : good w -> proper P fuel str_of (SetEmitter P i s) w -> good (snd (em_set P fuel i s w)).
  Proof.
    intros G Hp. assert (Hx : exec P fuel str_of (SetEmitter P i s) w = em_set P fuel i s w) by reflexivity.
    unfold proper in Hp. rewrite Hx in Hp. clear Hx. unfold em_set, at_em in *. destruct (get_em i w) as [e|] eqn:E; [|exact G].
    assert (Ch : forall b c (m : M C unit) o, e = EChoice P b c ->
      m = do_setting P fuel o 0 -> fst (run_choice P i m w) = Ok tt -> good (snd (run_choice P i m w))).
    { intros b c m o -> -> Hr. unfold run_choice, at_em in *. rewrite E in *.
      destruct (do_setting P fuel o 0 c) as [r c'] eqn:Ed. cbn [fst snd] in *. subst r.
      assert (Sc : inv P (c_items c) c') by (eapply (setting_inv P val_setsize fuel (zero_false P R)); [eapply G; exact E | exact Ed]).
      assert (Ic : c_items c' = c_items c) by apply Sc.
      apply (put_good i (EChoice P b c)); [exact G | exact E | |].
      - eapply put_sized; [apply G | exact E | reflexivity | | discriminate | discriminate | discriminate]. cbn. rewrite Ic. auto.
      - intros b1 c1 [= <- <-]. unfold sane. rewrite Ic. exact Sc. }
    destruct e, s as [v|fa|ra|st]; try exact G.
    - unfold modify_em, at_em in *. rewrite E in *. cbn [snd] in *. eapply put_good; [exact G | exact E | exact Hp | discriminate].
    - unfold run_iter, at_em in *. rewrite E in *. destruct (iter_set_factory fa i0) as [r i1]. cbn [snd] in *.
      eapply put_good; [exact G | exact E | exact Hp | discriminate].
    - unfold run_iter, at_em in *. rewrite E in *. cbn [snd] in *. eapply put_good; [exact G | exact E | exact Hp | discriminate].
    - split; [|exact Hp]. clear Hp. unfold mbind, run_seq, at_em. rewrite E. destruct (seq_set_factory fa s0) as [r s1].
      assert (H1 : healthy (put_em P i (ESeq P islist s1) w)).
      { intros j b c Ej. destruct (Nat.eq_dec j i) as [->|N]; [rewrite (get_put_same i _ w _ E) in Ej; discriminate|].
        rewrite get_put_other in Ej by exact N. eapply G; exact Ej. }
      destruct r; try exact H1. unfold modify_em, at_em. rewrite (get_put_same i _ w _ E). cbn [snd].
      intros j b c Ej. destruct (Nat.eq_dec j i) as [->|N].
      + rewrite (get_put_same i _ _ _ (get_put_same i _ w _ E)) in Ej. discriminate.
      + rewrite !get_put_other in Ej by exact N. eapply G; exact Ej.
    - unfold run_seq, at_em in *. rewrite E in *. cbn [snd] in *. eapply put_good; [exact G | exact E | exact Hp | discriminate].
    - destruct st as [ws|ws|x|x].
      + exact (Ch _ _ _ (Weights ws) eq_refl eq_refl Hp).
      + exact (Ch _ _ _ (Cum_weights ws) eq_refl eq_refl Hp).
      + exact (Ch _ _ _ (Replace x) eq_refl eq_refl Hp).
      + exact (Ch _ _ _ (Replace_only_after_call x) eq_refl eq_refl Hp).
  Qed.

  Lemma exec_good c w : reachable P fuel str_of w -> good w -> possible P c w -> proper P fuel str_of c w -> good (snd (exec P fuel str_of c w)).
  Proof.
    intros Rw G [Pe Pf] Hp. pose proof (reachable_sound fuel str_of w Rw) as So.
    assert (Nw : forall m : M world nat, (passes (fun w' => w' = w) m good) -> good (snd ((m ;;; ret tt) w))).
    { intros m H. rewrite bind_tt. apply H. reflexivity. }
    assert (Rst : forall i, passes good (em_reset P fuel i) good).
    { intros i. eapply p_good. intros v0 S0. apply (h_reset v0). }
    assert (Stat : forall v, good (snd (alloc_em P (EStatic P (static_new v)) w))).
    { intros v. apply good_alloc; auto; try discriminate; try (intros k []). }
    assert (StatS : forall v, sound P (snd (alloc_em P (EStatic P (static_new v)) w))).
    { intros v. apply sound_alloc; auto; intros k []. }
    assert (Upd : forall i (g : emitter -> emitter),
      (forall e, g e = e \/ (exists l a u u' nd, e = EWord P l a u nd /\ g e = EWord P l a u' nd) \/
                 (exists n x s u u' nd, e = EText P n x s u nd /\ g e = EText P n x s u' nd)) -> passes good (modify_em P i g) good).
    { intros i g Hg v Gv. unfold modify_em, at_em. destruct (get_em i v) as [e|] eqn:E; [|exact Gv]. cbn [snd].
      destruct (Hg e) as [->|[(l & a & u & u' & nd & -> & ->)|(n & x & s & u & u' & nd & -> & ->)]].
      - rewrite put_same by exact E. exact Gv.
      - eapply put_good; [exact Gv | exact E | | discriminate]. eapply put_sized; [apply Gv | exact E | reflexivity | auto | | discriminate | discriminate].
        intros ? ? ? ? [= <- <- <- <-]. eauto.
      - eapply put_good; [exact Gv | exact E | | discriminate]. eapply put_sized; [apply Gv | exact E | reflexivity | auto | discriminate | | discriminate].
        intros ? ? ? ? ? [= <- <- <- <- <-]. eauto. }
    assert (Fun : forall (i : nat) f, passes (fun v => good v /\ exists e, get_em i v = Some e /\ installed f e = e) (set_function P fuel str_of i f) good).
    { intros i f v [Gv (e & E & He)]. apply set_function_good; [exact Gv|]. rewrite install_eq, E. cbn [snd]. rewrite He, put_same by exact E. apply Gv. }
    assert (Wrap : forall e f, (forall k, In k (children P e) -> (k < length (w_em P w))%nat) -> installed f e = e ->
      (forall nd, installed f (with_node P nd e) = with_node P nd e) ->
      match e with EWrapOne _ _ _ _ | EWrapMany _ _ _ _ | EBased _ _ _ _ _ => True | _ => False end ->
      passes (fun w' => w' = w) (id <~ alloc_em P e ;; em_reset P fuel id ;;; set_function P fuel str_of id f ;;; ret id) good).
    { intros e f Hk Hi Hi2 He v ->. unfold mbind at 1. pose proof (good_alloc e w So G Hk) as Ga. unfold alloc_em in *. cbn [snd] in Ga |- *.
      assert (Ga' : good (mkWorld P (w_em P w ++ [mkObj P e (w_run P w)]) (w_fd P w) (w_run P w))).
      { apply Ga; [|destruct e; try contradiction; exact I]. intros b c0 ->. contradiction. }
      clear Ga. set (w1 := mkWorld P (w_em P w ++ [mkObj P e (w_run P w)]) (w_fd P w) (w_run P w)) in *. set (i := length (w_em P w)).
      assert (Ei : get_em i w1 = Some e) by (unfold w1; rewrite get_em_app; unfold i; rewrite Nat.eqb_refl; reflexivity).
      destruct (good_run unit (em_reset P fuel i) (fun _ => True) w1 ltac:(intros; apply h_reset) Ga') as [G1 C1].
      unfold mbind at 1. destruct (em_reset P fuel i w1) as [[u|x|] w2]; cbn [snd] in *; try exact G1.
      rewrite bind_ret with (k := fun _ => i). apply Fun. split; [exact G1|]. destruct C1 as [C1 _]. specialize (C1 i). rewrite Ei in C1.
      destruct (get_em i w2) as [e2|]; cbn in C1; [|contradiction]. exists e2. split; [reflexivity|].
      destruct e, e2; cbn in *; try contradiction; cbn in Hi; intuition congruence. }
    destruct c; cbn [exec] in *.
    - apply Nw. intros v0 ->. apply Stat.
    - apply Nw. intros v0 ->. unfold new_iter, mbind, lift. destruct (iter_new f rac); try exact G.
      apply good_alloc; auto; try discriminate; try (intros k []).
    - apply Nw. intros v0 ->. unfold new_seq, mbind, lift. destruct (seq_new items rac); try exact G.
      apply good_alloc; auto; try discriminate; try (intros k []).
    - apply Nw. intros v0 ->. unfold new_choice. unfold mbind at 1, lift at 1. destruct (choice_new _ _ _ _ _ _ _ _ _) as [c|e|] eqn:Ec; try exact G.
      cbn [snd]. assert (Gc : good (snd (alloc_em P (EChoice P islist c) w))).
      { apply good_alloc; auto. intros b c0 [= <- <-]. unfold sane.
        destruct (new_inv2 P fuel (zero_false P R) _ _ _ _ _ _ _ _ Ec) as [Q _]. replace (c_items c) with items; [exact Q | symmetry; apply Q]. }
      unfold mbind, alloc_em, ret in *. cbn [snd] in *.
      destruct Gc as [Gc1 Gc2]. destruct (h_use (mkWorld P (w_em P w ++ [mkObj P (EChoice P islist c) (w_run P w)]) (w_fd P w) (w_run P w)) (length (w_em P w)) _ (conj (wconf_refl _) Gc1)) as [[Q1 Q2] _].
      split; [exact Q2 | eapply sized_conf; eauto].
    - apply Nw. intros v0 ->. unfold new_word. unfold mbind at 1.
      assert (Ga : good (snd (alloc_em P (EWord P length_em alphabet_em Unknown (new_node P seed)) w))).
      { apply good_alloc; auto; discriminate. }
      unfold alloc_em in *. cbn [snd] in *. revert Ga. generalize (mkWorld P (w_em P w ++ [mkObj P (EWord P length_em alphabet_em Unknown (new_node P seed)) (w_run P w)]) (w_fd P w) (w_run P w)).
      apply (p_bind _ _ good good good); [auto | apply Rst|]. intros _. apply (p_bind _ _ good good good); [auto | intros v Gv; exact Gv|]. intros u.
      apply (p_bind _ _ good good good); [auto | | intros _ v Gv; exact Gv]. apply Upd. intros [] ; auto. right. left. eexists _, _, _, _, _. split; reflexivity.
    - apply Nw. intros v0 ->. unfold new_text.
      assert (Main : forall sp w1, good w1 -> sound P w1 -> only_at w1 numwords_em (at_least 1) ->
        (forall k, In k [numwords_em; word_em; sp] -> (k < length (w_em P w1))%nat) ->
        good (snd ((id <~ alloc_em P (EText P numwords_em word_em sp Unknown (new_node P seed)) ;; em_reset P fuel id ;;;
           u <~ (fun w => (a <- nuv_at P word_em w ;; b <- nuv_at P sp w ;; text_nuv a b (items_list P numwords_em w), w)) ;;
           modify_em P id (fun e => match e with EText _ n x y _ nd => EText P n x y u nd | e => e end) ;;; ret id) w1))).
      { intros sp w1 G1 S1 O1 K1. unfold mbind at 1.
        assert (Ga : good (snd (alloc_em P (EText P numwords_em word_em sp Unknown (new_node P seed)) w1))).
        { apply good_alloc; auto; discriminate. }
        unfold alloc_em in *. cbn [snd] in *. revert Ga. generalize (mkWorld P (w_em P w1 ++ [mkObj P (EText P numwords_em word_em sp Unknown (new_node P seed)) (w_run P w1)]) (w_fd P w1) (w_run P w1)).
        apply (p_bind _ _ good good good); [auto | apply Rst|]. intros _. apply (p_bind _ _ good good good); [auto | intros v Gv; exact Gv|]. intros u.
        apply (p_bind _ _ good good good); [auto | | intros _ v Gv; exact Gv]. apply Upd. intros []; auto. right. right. eexists _, _, _, _, _, _. split; reflexivity. }
      destruct sep_em as [sp|].
      + apply Main; auto.
      + unfold mbind at 1. unfold new_static. pose proof (Stat (VStr [32])) as G1. pose proof (StatS (VStr [32])) as S1.
        unfold alloc_em at 1. unfold alloc_em at 1 in G1. unfold alloc_em at 1 in S1. cbn [snd] in G1, S1. cbv beta iota. apply Main; auto.
        * apply only_at_app; [apply Pe; left; reflexivity | exact Hp].
        * cbn [w_em]. rewrite app_length. cbn [length]. intros k [<-|[<-|[<-|[]]]]; [|..|lia].
          -- specialize (Pe numwords_em (or_introl eq_refl)). lia.
          -- specialize (Pe word_em (or_intror (or_introl eq_refl))). lia.
    - apply Nw. apply Wrap; auto.
    - apply Nw. apply Wrap; auto.
    - apply Nw. intros v0 ->. apply good_alloc; auto; try discriminate; try (intros k []).
    - apply Nw. apply Wrap; auto.
    - apply Nw. intros v0 ->. unfold new_field.
      assert (Main : forall r g w1, good w1 -> only_at w1 r (at_least 0) ->
        good (snd ((f <~ alloc_fd P (mkField P name hide em r g (new_node P seed) VNone 0) ;; fd_reset P fuel f ;;; ret f) w1))).
      { intros r g w1 G1 O1. unfold mbind at 1. pose proof (good_alloc_fd (mkField P name hide em r g (new_node P seed) VNone 0) w1 G1 O1) as Ga.
        unfold alloc_fd in *. cbn [snd] in *. rewrite bind_ret with (k := fun _ => length (w_fd P w1)). revert Ga. 
        generalize (mkWorld P (w_em P w1) (w_fd P w1 ++ [mkField P name hide em r g (new_node P seed) VNone 0]) (w_run P w1)).
        eapply p_good. intros v0 S0. apply h_fd_reset. }
      assert (Gate : forall r w1, good w1 -> sound P w1 -> (r < length (w_em P w1))%nat -> only_at w1 r (at_least 0) ->
        good (snd ((g <~ match gate with Some i => ret i | None => new_static P (VBool true) end ;;
           f <~ alloc_fd P (mkField P name hide em r g (new_node P seed) VNone 0) ;; fd_reset P fuel f ;;; ret f) w1))).
      { intros r w1 G1 S1 L1 O1. destruct gate as [g|]; [apply Main; assumption|]. unfold mbind at 1, new_static, alloc_em. apply Main.
        - apply (good_alloc (EStatic P (static_new (VBool true))) w1); auto; [intros k [] | discriminate].
        - apply only_at_app; assumption. }
      destruct rep as [r|].
      + apply Gate; auto. apply Pe. cbn. auto.
      + unfold mbind at 1, new_static, alloc_em at 1. pose proof (Stat VNone) as G1. pose proof (StatS VNone) as S1.
        unfold alloc_em in G1, S1. cbn [snd] in G1, S1. apply Gate; auto.
        * cbn [w_em]. rewrite app_length. cbn. lia.
        * intros e E. rewrite get_em_app, Nat.eqb_refl in E. injection E as <-. intros z Hz. discriminate Hz.
    - apply set_good; assumption.
    - apply set_function_good; [exact G | exact Hp].
    - unfold fd_set_part, modify_fd, at_fd. destruct (get_fd f w) as [x|] eqn:E; [|exact G]. cbn [snd]. destruct G as [G1 (Z1 & Z2 & Z3 & Z4)].
      split; [exact G1|]. split; [exact Z1|]. split; [exact Z2|]. split; [|exact Z4]. intros g y Ey. unfold World.get_fd, put_fd in *. cbn [w_fd] in Ey.
      destruct (Nat.eq_dec g f) as [->|N].
      + rewrite nth_upd_same with (a := x) in Ey by exact E. injection Ey as <-. destruct p; cbn; [eapply Z3; exact E | exact Hp | eapply Z3; exact E].
      + rewrite nth_upd_other in Ey by congruence. eapply Z3; exact Ey.
    - unfold fd_set_hide, modify_fd, at_fd. destruct (get_fd f w) as [x|] eqn:E; [|exact G]. cbn [snd]. destruct G as [G1 (Z1 & Z2 & Z3 & Z4)].
      split; [exact G1|]. split; [exact Z1|]. split; [exact Z2|]. split; [|exact Z4]. intros g y Ey. unfold World.get_fd, put_fd in *. cbn [w_fd] in Ey.
      destruct (Nat.eq_dec g f) as [->|N].
      + rewrite nth_upd_same with (a := x) in Ey by exact E. injection Ey as <-. exact (Z3 f x E).
      + rewrite nth_upd_other in Ey by congruence. eapply Z3; exact Ey.
    - apply (p_good unit (em_reset_source P fuel id) (fun _ => True)); [|exact G]. intros v0 S0. unfold em_reset_source. apply h_at. intros e0 e _ _.
      destruct e; try apply h_raise; (apply h_do_method; intros ? ? ? _ [= <-]; apply h_fd_reset).
    - apply (p_good unit (em_seed_source P fuel id s) (fun _ => True)); [|exact G]. intros v0 S0. unfold em_seed_source. apply h_at. intros e0 e _ _.
      destruct e; try apply h_raise; (apply h_do_method; intros ? ? ? _ [= <-]; apply h_fd_seed).
    - unfold set_source, at_em. destruct (get_em id w) as [e|] eqn:E; [|exact G]. destruct e; try exact G;
        (eapply put_good; [exact G | exact E | | discriminate];
         eapply put_sized; [apply G | exact E | reflexivity | auto | discriminate | discriminate | discriminate]).
    - unfold set_separator, at_em. destruct (get_em id w) as [e|] eqn:E; [|exact G]. destruct e; try exact G;
        (eapply put_good; [exact G | exact E | | discriminate];
         eapply put_sized; [apply G | exact E | reflexivity | auto | discriminate | discriminate | discriminate]).
    - rewrite bind_tt. apply (p_good _ (run P fuel str_of o) (fun _ => True)); [|exact G]. intros v0 S0.
      eapply h_weak; [apply h_op; [exact S0|]|auto]. destruct o; exact Hp || exact I.
    - apply Nw. intros v0 ->. unfold new_user. unfold mbind at 1.
      assert (Ga : good (snd (alloc_em P (EUser P c own (option_map (new_node P) random)) w))).
      { apply good_alloc; auto; try discriminate. }
      unfold alloc_em in *. cbn [snd] in *. rewrite bind_ret with (k := fun _ => length (w_em P w)). revert Ga.
      generalize (mkWorld P (w_em P w ++ [mkObj P (EUser P c own (option_map (new_node P) random)) (w_run P w)]) (w_fd P w) (w_run P w)).
      destruct random; [apply Rst | intros v Gv; exact Gv].
  Qed.

  Lemma orderly_good w : orderly P fuel str_of w -> reachable P fuel str_of w /\ good w.
  Proof.
    induction 1 as [|c w _ [Rw Gw] Hp Hc].
    - split; [constructor|]. split; [intros i b c E; destruct i; discriminate E|].
      repeat split; intros i; intros; destruct i; discriminate.
    - split; [constructor; assumption | apply exec_good; assumption].
  Qed.

  (** ** C34 *)

  (** Whatever an orderly program has done before (exceptions included): a call
      with a number returns that many values, and all values, of single calls as
      well, are such as the settings of the emitter allow.  Missing: programs in
      which a Text is told to consist of 0 words (refuted below), and those that
      ask for a negative number or give negative lengths. *)
  Theorem C34_count_partial w i n l w' : orderly P fuel str_of w -> 0 <= n ->
    em_call_n P fuel str_of i n w = (Ok l, w') ->
    zlen l = n /\ forall Q, only_at w i Q -> Forall Q l.
  Proof.
    intros O Hn H. destruct (orderly_good w O) as [_ [G1 G2]].
    destruct (h_call_n w G2 i n Hn w (conj (wconf_refl w) G1)) as [_ Q]. rewrite H in Q. destruct (Q l eq_refl) as [Q1 Q2].
    split; [exact Q1|]. intros Q0 HQ. eapply Forall_impl; [|exact Q2]. intros v Hv. apply Hv. exact HQ.
  Qed.
  Theorem C34_single_partial w i v w' : orderly P fuel str_of w ->
    em_call P fuel str_of i w = (Ok v, w') -> forall Q, only_at w i Q -> Q v.
  Proof.
    intros O H. destruct (orderly_good w O) as [_ [G1 G2]].
    destruct (h_call w G2 i w (conj (wconf_refl w) G1)) as [_ Q]. rewrite H in Q. exact (Q v eq_refl).
  Qed.
End Count.

(** Without the restriction: a Text of 0 words is left out. *)
Definition C34_statement : Prop := forall w i n l w',
  reachable DP 9 demo_str w -> 0 <= n -> em_call_n DP 9 demo_str i n w = (Ok l, w') -> zlen l = n.
Definition no_words : list (command DP) :=
  [NewStatic DP (VInt 0); NewStatic DP (VStr [97]); NewText DP 0 1 None (Some 4%nat)].
Theorem C34_count_refuted : ~ C34_statement.
Proof.
  intros H. pose (w := program no_words empty). pose (m := em_call_n DP 9 demo_str 3 2).
  assert (R : reachable DP 9 demo_str w) by (apply program_reachable; [constructor | vm_compute; reflexivity]).
  assert (E : m w = (Ok [], snd (m w))) by (apply ran; vm_compute; reflexivity).
  specialize (H w 3%nat 2 [] (snd (m w)) R ltac:(lia) E). discriminate H.
Qed.

(** A Text of Words, with a Choice without replacement for the alphabet, made
    and used by an orderly program. *)
Definition some_texts : list (command DP) :=
  [NewChoice DP true [VInt 1; VInt 2] None true false (Some 1%nat) None;
   NewChoice DP true (map VInt [0; 1]) None true false (Some 1%nat) None;
   NewChoice DP true (map (fun z => VStr [z]) (map Z.of_nat (seq 97 4))) None false false (Some 4%nat) None;
   NewWord DP 1 2 (Some 4%nat); NewText DP 0 3 None (Some 4%nat);
   Do DP (EmitN DP 5 2)].
Definition int_from (k : Z) (v : val) : bool := match v with VInt z => k <=? z | VNone => true | _ => false end.
Definition ints (w : world DP) (i : nat) (k : Z) : bool :=
  match get_em DP i w with
  | Some (EStatic _ s) => int_from k (st_value s)
  | Some (EChoice _ _ c) => forallb (int_from k) (c_items c)
  | _ => false
  end.
Definition all_sized (w : world DP) : bool :=
  forallb (fun o => match o_em DP o with
                    | EWord _ l _ _ _ => ints w l 0
                    | EText _ n _ _ _ _ => ints w n 1
                    | EUser _ _ _ _ => false
                    | _ => true end) (w_em DP w) &&
  forallb (fun x => ints w (f_rep DP x) 0) (w_fd DP w).
Definition fits (c : command DP) (w : world DP) : bool :=
  match c with
  | NewStatic _ _ | NewChoice _ _ _ _ _ _ _ _ => true
  | NewWord _ l _ _ => ints w l 0
  | NewText _ n _ _ _ => ints w n 1
  | NewField _ _ _ (Some r) _ _ _ => ints w r 0
  | NewField _ _ _ None _ _ _ | NewSequential _ _ _ _ | NewWrapOne _ _ _ _ | NewWrapMany _ _ _ _
  | NewCopyFields _ _ _ _ | NewBasedOnFields _ _ _ _ _ => true
  | SetEmitter _ i (SChoice _ _) => false
  | SetEmitter _ i _ => all_sized (snd (exec DP 9 demo_str c w))
  | Do _ (EmitN _ _ n) => 0 <=? n
  | Do _ _ => true
  | _ => false
  end.
Fixpoint fits_all (l : list (command DP)) (w : world DP) : bool :=
  match l with [] => true | c :: t => fits c w && fits_all t (snd (exec DP 9 demo_str c w)) end.
Lemma int_from_ok k v : int_from k v = true -> at_least k v.
Proof. destruct v; intros H x Hx; cbn in H, Hx; try discriminate H; try discriminate Hx. injection Hx as <-. apply Z.leb_le. exact H. Qed.
Lemma ints_only w i k : ints w i k = true -> only_at DP w i (at_least k).
Proof.
  unfold ints. intros H e E. rewrite E in H. destruct e; try discriminate H; cbn.
  - apply int_from_ok. exact H.
  - intros v Hv. rewrite forallb_forall in H. apply int_from_ok, H, Hv.
Qed.
Lemma all_sized_ok w : all_sized w = true -> sized DP w.
Proof.
  intros H. apply andb_prop in H as [H1 H2]. rewrite forallb_forall in H1, H2.
  assert (Q : forall i e, get_em DP i w = Some e -> match e with EWord _ l _ _ _ => ints w l 0 | EText _ n _ _ _ _ => ints w n 1 | EUser _ _ _ _ => false | _ => true end = true).
  { intros i e E. unfold get_em in E. destruct (nth_error (w_em DP w) i) as [o|] eqn:En; [|discriminate]. injection E as <-. apply (H1 o). eapply nth_error_In; eauto. }
  split; [|split; [|split]].
  - intros i l a u nd E. apply ints_only. exact (Q _ _ E).
  - intros i n x s u nd E. apply ints_only. exact (Q _ _ E).
  - intros f x E. apply ints_only. unfold get_fd in E. apply H2. eapply nth_error_In; exact E.
  - intros i c own nd E. specialize (Q _ _ E). discriminate Q.
Qed.
Lemma fits_proper c w : fits c w = true -> proper DP 9 demo_str c w.
Proof.
  intros F1. destruct c; try discriminate F1; cbn [proper fits] in *; try exact I; try (apply ints_only; exact F1).
  - destruct rep; [apply ints_only; exact F1 | exact I].
  - destruct s; try discriminate F1; apply all_sized_ok; exact F1.
  - destruct o; try exact I. apply Z.leb_le. exact F1.
Qed.
Lemma program_orderly l : forall w, orderly DP 9 demo_str w -> can_all l w = true -> fits_all l w = true -> orderly DP 9 demo_str (program l w).
Proof.
  induction l as [|c t IH]; intros w O H F; [exact O|]. cbn [program can_all fits_all] in *. apply andb_prop in H. destruct H as [H1 H2].
  apply andb_prop in F. destruct F as [F1 F2]. apply IH; [|exact H2 | exact F2]. constructor; [exact O | |].
  - apply andb_prop in H1. destruct H1 as [A B]. rewrite forallb_forall in A, B.
    split; intros i Hi; [specialize (A i Hi) | specialize (B i Hi)]; apply Nat.ltb_lt; assumption.
  - apply fits_proper. exact F1.
Qed.
Example C34_case : orderly DP 9 demo_str (program some_texts empty) /\
  exists l w', em_call_n DP 9 demo_str 5 2 (program some_texts empty) = (Ok l, w') /\ length l = 2%nat.
Proof.
  split; [apply program_orderly; [apply orderly_start | vm_compute; reflexivity | vm_compute; reflexivity]|].
  pose (m := em_call_n DP 9 demo_str 5 2). pose (w := program some_texts empty).
  assert (X : match fst (m w) with Ok l => length l = 2%nat | _ => False end) by (vm_compute; reflexivity).
  fold m. fold w. destruct (m w) as [[l|e|] w']; cbn [fst] in X; try contradiction. exists l, w'. auto.
Qed.

Print Assumptions C34_count_partial.
Print Assumptions C34_single_partial.
Print Assumptions C34_count_refuted.
