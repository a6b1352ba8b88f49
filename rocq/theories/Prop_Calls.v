(** * What a call of an object is made of: properties C36, C37, C40, C41, C42, C46,
    C47, C48, C50 and C61 for objects. *)
From Coq Require Import String.
From Verif Require Import Base Prims Values MathModel ChoiceModel FixedModel GroupModel
  SigModel SigSpec SigProofs WrapModel WrapSpec TextModel TextSpec TextProofs FieldModel FieldSpec World Rel WorldProofs Agree
  WorldSpec WorldReset Histories WorldBuild BuildProofs CountSpec Demo WorldDemo Prop_World Prop_Construct Prop_Count ProgramSpec
  ObjectSpec ObjectProofs ObjectCalls Prop_Wrap Prop_Text Prop_Field CallSpec Prop_Objects.
Open Scope list_scope.
Open Scope Z_scope.

Section Calls.
  Context {P : prims} (fuel : nat) (str_of : val -> res (list Z)).
  Notation world := (World.world P).
  Notation get_em := (World.get_em P).
  Notation get_fd := (World.get_fd P).
  Notation settings_at := (ObjectSpec.settings_at P).
  Notation field_settings_at := (ObjectSpec.field_settings_at P).
  Notation em_call := (World.em_call P fuel str_of).
  Notation em_call_n := (World.em_call_n P fuel str_of).
  Notation em_reset := (World.em_reset P fuel).
  Notation reachable := (WorldBuild.reachable P fuel str_of).

  Lemma call_unfold w id : reachable w -> em_call id w = emit_body P fuel str_of em_call (World.em_emit_many P fuel str_of) em_reset id w.
  Proof. intros R. apply emit_unfold. eapply reachable_sound; exact R. Qed.
  Lemma many_unfold w id n : reachable w -> n <> 1 ->
    em_call_n id n w = emit_many_body P fuel str_of em_call (World.em_emit_many P fuel str_of) em_reset id n w.
  Proof.
    intros R Hn. unfold World.em_call_n, call_number. destruct (Z.eqb_spec n 1); [contradiction|].
    apply emit_many_unfold. eapply reachable_sound; exact R.
  Qed.
  Lemma call_one id w : em_call_n id 1 w = (v <~ em_call id ;; ret [v]) w.
  Proof. reflexivity. Qed.

  (** ** The function of a wrapper *)

  Lemma takes_iff i f : takes_rng (bound P i f) <-> takes_the_rng P f.
  Proof. reflexivity. Qed.

  Lemma applied_of i f args kw w v w' : user_call (bound P i f) args kw w v w' -> applied P i f args kw w v w'.
  Proof.
    intros [[T H]|[T H]]; cbn [bound u_body u_body_rng] in H.
    - unfold run_rng, at_em in H. destruct (get_em i w) as [e|] eqn:E; [|discriminate].
      destruct (node_of P e) as [nd|] eqn:N; [|discriminate].
      destruct (wf_rng P f args kw (n_rng P nd)) as [r g'] eqn:W. injection H as -> <-.
      eapply applied_rng; [exact T | | exact W |].
      + unfold rng_at. rewrite E, N. reflexivity.
      + split; [|split; [|split]].
        * unfold rng_at. erewrite get_put_same by exact E. destruct e; try discriminate N; cbn in *; try (rewrite N); reflexivity.
        * unfold ObjectSpec.settings_at. erewrite get_put_same by exact E. rewrite E. destruct e as [| | | | | | | | | |c o [|]]; reflexivity.
        * intros j Hj. apply get_put_other. auto.
        * intros g. unfold World.get_fd, put_em. destruct (nth_error (w_em P w) i); reflexivity.
    - unfold lift in H. injection H as H <-. apply applied_plain; assumption.
  Qed.
  Lemma applied_all i f l : forall w vs w', user_calls (bound P i f) l w vs w' -> applied_to_all P i f l w vs w'.
  Proof.
    induction l as [|[args kw] t IH]; intros w vs w' H; inversion H; subst; [constructor|].
    econstructor; [apply applied_of; eassumption | apply IH; assumption].
  Qed.

  (** ** C40 WrapOne *)
  Theorem C40_object w id src f : reachable w -> settings_at id w = Some (IsWrapOne src f) ->
    (forall v w', em_call id w = (Ok v, w') ->
       exists x w1, em_call src w = (Ok x, w1) /\ applied P id f [x] [] w1 v w') /\
    (forall n vs w', em_call_n id n w = (Ok vs, w') ->
       exists xs w1, em_call_n src n w = (Ok xs, w1) /\
         applied_to_all P id f (map (fun x => ([x], [])) xs) w1 vs w' /\ length vs = length xs).
  Proof.
    intros R S. apply settings_get in S as (e & E & S). destruct e; try discriminate. injection S as -> ->.
    assert (One : forall v w', em_call id w = (Ok v, w') -> exists x w1, em_call src w = (Ok x, w1) /\ applied P id f [x] [] w1 v w').
    { intros v w' H. rewrite call_unfold in H by exact R. unfold emit_body, at_em in H. rewrite E in H.
      apply (proj1 (C40_wrapone _ _ (fun n => em_call_n src n) _ _)) in H as (x & w1 & H1 & H2). exists x, w1. split; [exact H1 | apply applied_of; exact H2]. }
    split; [exact One|]. intros n vs w' H. destruct (Z.eq_dec n 1) as [->|Hn].
    - rewrite call_one in H. apply mbind_ok_inv in H as (v & w2 & H & H'). injection H' as <- <-.
      apply One in H as (x & w1 & H1 & H2). exists [x], w1. split; [rewrite call_one; unfold mbind; rewrite H1; reflexivity|].
      split; [|reflexivity]. cbn [map]. econstructor; [exact H2 | constructor].
    - rewrite many_unfold in H by assumption. unfold emit_many_body, at_em in H. rewrite E in H.
      apply (proj2 (C40_wrapone _ (em_call src) _ _ _)) in H as (xs & w1 & H1 & H2 & H3). exists xs, w1.
      split; [exact H1|]. split; [apply applied_all; exact H2 | exact H3].
  Qed.

  (** ** C41 WrapMany *)
  Definition source_calls (srcs : list (string * nat)) := map (fun ks : string * nat => (fst ks, (em_call (snd ks), em_call_n (snd ks)))) srcs.
  Lemma labels srcs : map fst (source_calls srcs) = map fst srcs.
  Proof. unfold source_calls. rewrite map_map. reflexivity. Qed.
  Lemma each_source (g : M world val * (Z -> M world (list val)) -> M world val) (h : nat -> M world val) srcs :
    (forall k, g (em_call k, em_call_n k) = h k) ->
    forall w xs w', each (fun kc => g (snd kc)) (source_calls srcs) w xs w' -> each h (map snd srcs) w xs w'.
  Proof.
    intros Hg. induction srcs as [|[l k] t IH]; intros w xs w' H; inversion H; subst; cbn [map]; [constructor|].
    econstructor; [rewrite <- Hg; eassumption | apply IH; assumption].
  Qed.
  Lemma each_source_n n srcs :
    forall w xs w', each (fun kc => snd (snd kc) n) (source_calls srcs) w xs w' -> each (fun k => em_call_n k n) (map snd srcs) w xs w'.
  Proof.
    induction srcs as [|[l k] t IH]; intros w xs w' H; inversion H; subst; cbn [map]; [constructor|].
    econstructor; [eassumption | apply IH; assumption].
  Qed.

  Theorem C41_object w id srcs f : reachable w -> settings_at id w = Some (IsWrapMany srcs f) ->
    (forall v w', em_call id w = (Ok v, w') ->
       exists xs w1, each em_call (map snd srcs) w xs w1 /\ applied P id f [] (combine (map fst srcs) xs) w1 v w') /\
    (forall n vs w', n <> 1 -> em_call_n id n w = (Ok vs, w') ->
       exists data w1 kws, each (fun k => em_call_n k n) (map snd srcs) w data w1 /\
         length kws = Z.to_nat n /\
         (forall i kwargs, nth_error kws i = Some kwargs -> row (map fst srcs) data i kwargs) /\
         applied_to_all P id f (map (fun kwargs => ([], kwargs)) kws) w1 vs w' /\
         length vs = Z.to_nat n).
  Proof.
    intros R S. apply settings_get in S as (e & E & S). destruct e; try discriminate. injection S as -> ->. split.
    - intros v w' H. rewrite call_unfold in H by exact R. unfold emit_body, at_em in H. rewrite E in H.
      apply C41_emit in H as (xs & w1 & H1 & H2). exists xs, w1. split; [eapply (each_source fst); [reflexivity | exact H1]|].
      apply applied_of. rewrite <- (labels srcs). exact H2.
    - intros n vs w' Hn H. rewrite many_unfold in H by assumption. unfold emit_many_body, at_em in H. rewrite E in H.
      apply C41_emit_many in H as (data & w1 & kws & H1 & H2 & H3 & H4 & H5). exists data, w1, kws.
      split; [apply each_source_n; exact H1|]. split; [exact H2|]. split; [rewrite <- (labels srcs); exact H3|].
      split; [apply applied_all; exact H4 | exact H5].
  Qed.

  (** ** C36 Word *)
  Theorem C36_object w id l a : reachable w -> settings_at id w = Some (IsWord l a) ->
    (forall v w' n w1, em_call id w = (Ok v, w') -> em_call l w = (Ok (VInt n), w1) ->
       exists chars, em_call_n a n w1 = (Ok chars, w') /\ spelled chars v) /\
    (forall number words w', number <> 1 -> em_call_n id number w = (Ok words, w') ->
       exists lengths w1 ns chars,
         em_call_n l number w = (Ok lengths, w1) /\ Forall2 int_value lengths ns /\
         em_call_n a (zsum ns) w1 = (Ok chars, w') /\ length words = length lengths /\
         (Forall (fun n => 0 <= n) ns -> zlen chars = zsum ns ->
          exists groups, concat groups = chars /\
            Forall2 (fun g n => zlen g = n) groups ns /\ Forall2 spelled groups words)).
  Proof.
    intros R S. apply settings_get in S as (e & E & S). destruct e; try discriminate. injection S as -> ->. split.
    - intros v w' n w1 H Hl. rewrite call_unfold in H by exact R. unfold emit_body, at_em in H. rewrite E in H.
      eapply C36_word in H; [exact H | exact Hl].
    - intros n vs w' Hn H. rewrite many_unfold in H by assumption. unfold emit_many_body, at_em in H. rewrite E in H.
      apply C36_words in H. exact H.
  Qed.

  Lemma forall2_length {A B} (Q : A -> B -> Prop) l m : Forall2 Q l m -> length l = length m.
  Proof. induction 1; cbn; congruence. Qed.

  (** ** C37 Text *)
  Section Texts.
    Hypothesis RO : rng_ok P.

    Lemma unique_limited x w u : word_unique P x w = Ok (Some u) <-> limited P x w u.
    Proof.
      unfold word_unique, limited, ObjectSpec.settings_at, nuv_at. split.
      - destruct (get_em x w) as [[]|]; try discriminate. destruct (c_roac c) eqn:Er; [|discriminate]. cbn [option_map settings_of nuv_of].
        rewrite Er. destruct (num_unique_values P val_setsize c) as [n| |]; cbn [bind]; try discriminate. intros H. injection H as ->.
        split; [do 5 eexists; reflexivity | reflexivity].
      - intros [(t & l & ws & cs & r & H) Hn]. destruct (get_em x w) as [[]|]; try discriminate. cbn in H. injection H as _ _ _ _ _ ->.
        cbn [nuv_of] in Hn. destruct (num_unique_values P val_setsize c) as [n| |]; cbn [bind] in *; try discriminate. congruence.
    Qed.

    Theorem C37_object w id nw x s number out w' :
      orderly P fuel str_of w -> settings_at id w = Some (IsText nw x s) -> 0 <= number ->
      em_call_n id number w = (Ok out, w') ->
      exists lengths w1 ns ws seps groups sepgroups,
        em_call_n nw number w = (Ok lengths, w1) /\ Forall2 int_value lengths ns /\ Forall (fun n => 1 <= n) ns /\
        ((exists w2, (forall u, limited P x w1 u -> u = 0 \/ zsum ns <= u) /\
            em_call_n x (zsum ns) w1 = (Ok ws, w2) /\ em_call_n s (zsum ns - number) w2 = (Ok seps, w')) \/
         (exists u w2, limited P x w1 u /\ 0 < u /\ u < zsum ns /\
            em_call_n s (zsum ns - number) w1 = (Ok seps, w2) /\
            drawn_in_batches (em_call_n x) (em_reset x) u (zsum ns) w2 ws w')) /\
        concat groups = ws /\ map zlen groups = ns /\
        concat sepgroups = seps /\ map (fun sg => zlen sg + 1) sepgroups = ns /\
        Forall2 (fun gs v => spelled (interleave (fst gs) (snd gs)) v) (combine groups sepgroups) out.
    Proof.
      intros O S Hn H. destruct (orderly_good fuel str_of RO w O) as [R [Hh Hs]].
      apply settings_get in S as (e & E & S). destruct e as [| | | | |? ? ? u0 nd| | | | |]; try discriminate. injection S as -> -> ->.
      assert (J0 : J w w) by (split; [apply wconf_refl | exact Hh]).
      assert (RW : forall k, returns_within (J w) (em_call_n k)).
      { intros k n w0 l w0' H0 Jw Hc. destruct (h_call_n fuel str_of RO w Hs k n H0 w0 Jw) as [J1 Q]. rewrite Hc in J1, Q.
        split; [apply (Q l); reflexivity | exact J1]. }
      assert (Out : exists out', text_emit_many (em_call_n nw) (em_call_n x) (em_reset x) (word_unique P x) (em_call_n s) number w = (Ok out', w') /\
                (number = 1 -> length out' = 1%nat -> out' = out) /\ (number <> 1 -> out' = out)).
      { destruct (Z.eq_dec number 1) as [->|Hne].
        - rewrite call_one in H. apply mbind_ok_inv in H as (v & w2 & H & H'). injection H' as <- <-.
          rewrite call_unfold in H by exact R. unfold emit_body, at_em in H. rewrite E in H. unfold text_emit in H.
          apply mbind_ok_inv in H as (l & w3 & H & H'). unfold lift in H'. injection H' as Hg <-.
          exists l. split; [exact H|]. split; [|congruence]. intros _ Hl. destruct l as [|a [|b t]]; try discriminate.
          cbn in Hg. injection Hg as ->. reflexivity.
        - rewrite many_unfold in H by assumption. unfold emit_many_body, at_em in H. rewrite E in H. exists out. split; [exact H|]. split; [congruence|reflexivity]. }
      destruct Out as (out' & Ho & O1 & O2).
      destruct (C37_within (em_call_n nw) (em_call_n x) (em_reset x) (word_unique P x) (em_call_n s) (J w) number w out' w') as (lengths & w1 & ns & Hl & Hns & Rest); auto.
      - intros w0 w0' Jw Hr. pose proof (h_reset fuel RO w (S x) x w0 Jw) as [J1 _]. unfold World.em_reset in Hr. rewrite Hr in J1. exact J1.
      - intros w0 u _ Hu. eapply unique_pos; exact Hu.
      - assert (Hpos : Forall (fun n => 1 <= n) ns).
        { destruct (h_call_n fuel str_of RO w Hs nw number Hn w J0) as [_ Q]. rewrite Hl in Q. specialize (Q _ eq_refl). destruct Q as [_ Q].
          assert (At : only_at P w nw (at_least 1)) by (eapply (proj1 (proj2 Hs)); exact E).
          clear -Hns Q At. induction Hns as [|v n lv ln Hv Hns IH]; constructor.
          - inversion Q; subst. assert (F : at_least 1 v) by (apply H1; exact At). apply F. destruct Hv as [->|[[-> ->]|[-> ->]]]; reflexivity.
          - inversion Q; subst. apply IH; assumption. }
        destruct (Rest Hpos) as (ws & seps & gs & sgs & D & G1 & G2 & G3 & G4 & G5).
        exists lengths, w1, ns, ws, seps, gs, sgs. split; [exact Hl|]. split; [exact Hns|]. split; [exact Hpos|]. split; [|split; [exact G1|split; [exact G2|split; [exact G3|split; [exact G4|]]]]].
        + destruct D as [(w2 & U & D1 & D2)|(u & w2 & U & D0 & D1 & D2 & D3)].
          * left. exists w2. split; [|auto]. intros u Hu. apply unique_limited in Hu. destruct U as [U|(u' & U & B)]; [congruence|].
            rewrite U in Hu. injection Hu as <-. exact B.
          * right. exists u, w2. split; [apply unique_limited; exact U|]. auto.
        + replace out with out'; [exact G5|]. destruct (Z.eq_dec number 1) as [->|]; [|auto]. apply O1; [reflexivity|].
          destruct (RW nw 1 w lengths w1 Hn J0 Hl) as [L1 _]. assert (L2 : length ns = length lengths) by (symmetry; eapply forall2_length; exact Hns).
          apply forall2_length in G5. rewrite combine_length in G5. apply (f_equal (@length Z)) in G2, G4. rewrite map_length in G2, G4. unfold zlen in L1. lia.
    Qed.
  End Texts.

  (** ** C42: assigning a function *)
  Theorem C42_wrapone_object w id src f0 f w' :
    settings_at id w = Some (IsWrapOne src f0) -> exec P fuel str_of (SetFunction P id f) w = (Ok tt, w') ->
    exists x w1, em_call src w = (Ok x, w1) /\
      (wf_sig P f = None -> exists v, wf_plain P f [x] [] = Ok v) /\
      (valid_function (bound P id f) -> forall y, runs_body (bound P id f) [y] []).
  Proof.
    intros S H. apply settings_get in S as (e & E & S). destruct e; try discriminate. injection S as -> ->.
    cbn [WorldBuild.exec] in H. unfold set_function, at_em in H. rewrite E in H. pose proof H as H0. unfold wrapone_set in H.
    apply try_finally_ok_inv in H as (w1 & H & _). apply mbind_ok_inv in H as (x & w2 & H1 & H2). exists x, w2. split; [exact H1|]. split.
    - intros Sg. unfold try_mock_call in H2. cbn [bound u_sig] in H2. rewrite Sg in H2. apply mbind_ok_inv in H2 as (v & w3 & H2 & _).
      cbn [bound u_body] in H2. unfold lift in H2. injection H2 as H2 _. exists v. exact H2.
    - intros V y. eapply C42_wrapone; eauto.
  Qed.
  Theorem C42_wrapmany_object w id srcs f0 f w' :
    settings_at id w = Some (IsWrapMany srcs f0) -> exec P fuel str_of (SetFunction P id f) w = (Ok tt, w') ->
    exists xs w1, each em_call (map snd srcs) w xs w1 /\
      (wf_sig P f = None -> exists v, wf_plain P f [] (combine (map fst srcs) xs) = Ok v) /\
      (valid_function (bound P id f) -> (takes_the_rng P f -> ~ In "rng"%string (map fst srcs)) ->
       forall ys, length ys = length srcs -> runs_body (bound P id f) [] (combine (map fst srcs) ys)).
  Proof.
    intros S H. apply settings_get in S as (e & E & S). destruct e; try discriminate. injection S as -> ->.
    cbn [WorldBuild.exec] in H. unfold set_function, at_em in H. rewrite E in H. pose proof H as H0. unfold wrapmany_set in H.
    apply mbind_ok_inv in H as (kw & w1 & H1 & H). unfold call_sources in H1. apply mapS_tag in H1 as (xs & H1 & ->). fold (source_calls srcs) in *.
    exists xs, w1. split; [eapply (each_source fst); [reflexivity | exact H1]|]. split.
    - intros Sg. apply try_finally_ok_inv in H as (w2 & H & _). unfold try_mock_call in H. cbn [bound u_sig] in H. rewrite Sg in H.
      apply mbind_ok_inv in H as (v & w3 & H & _). cbn [bound u_body] in H. unfold lift in H. injection H as H _. exists v. rewrite <- (labels srcs). exact H.
    - intros V Nr ys Hy. rewrite <- (labels srcs). eapply C42_wrapmany_partial; [exact V | rewrite labels; exact Nr | exact H0 |].
      unfold source_calls. rewrite map_length. exact Hy.
  Qed.

  (** ** C46, C47 A field *)
  Lemma fd_get f w n h e r g : field_settings_at f w = Some (n, h, e, r, g) ->
    exists x, get_fd f w = Some x /\ f_name P x = n /\ f_hide P x = h /\ f_em P x = e /\ f_rep P x = r /\ f_gate P x = g.
  Proof.
    unfold ObjectSpec.field_settings_at. destruct (get_fd f w) as [x|]; [|discriminate]. intros H. injection H as <- <- <- <- <-.
    exists x. repeat (split; [reflexivity|]). reflexivity.
  Qed.
  Lemma cached f v w w' : modify_fd P f (fd_cache P v) w = (Ok tt, w') -> only_previous_changed P f v w w'.
  Proof.
    unfold modify_fd, at_fd. destruct (get_fd f w) as [x|] eqn:E; [|discriminate]. intros H. injection H as <-.
    assert (G : get_fd f (put_fd P f (fd_cache P v x) w) = Some (fd_cache P v x)).
    { unfold World.get_fd, put_fd in *. cbn. eapply nth_upd_same. exact E. }
    split; [|split; [|split]].
    - unfold previous. rewrite G. reflexivity.
    - unfold ObjectSpec.field_settings_at. rewrite G, E. reflexivity.
    - reflexivity.
    - intros g Hg. unfold World.get_fd, put_fd. cbn. apply nth_upd_other. congruence.
  Qed.

  Theorem C46_object w f n h e r g v w' :
    field_settings_at f w = Some (n, h, e, r, g) -> fd_call P fuel str_of f w = (Ok v, w') ->
    exists gv w1 w3, em_call g w = (Ok gv, w1) /\ only_previous_changed P f v w3 w' /\
      ((falsy gv /\ v = VNone /\ w3 = w1) \/
       (~ falsy gv /\ exists rv w2, em_call r w1 = (Ok rv, w2) /\
          ((rv = VNone /\ em_call e w2 = (Ok v, w3)) \/
           (exists k l, int_value rv k /\ em_call_n e k w2 = (Ok l, w3) /\ v = VList l)))).
  Proof.
    intros S H. apply fd_get in S as (x & E & <- & <- & <- & <- & <-). unfold fd_call, at_fd in H. rewrite E in H. pose proof H as H0.
    unfold field_call in H0. apply mbind_ok_inv in H0 as (gv & w1 & Hg & H0). destruct (truthy gv) eqn:T.
    - assert (F : ~ falsy gv) by (rewrite <- truthy_false; congruence).
      eapply C46_open in H; [|exact Hg | exact F]. destruct H as (rv & w2 & w3 & Hr & Hc & Hcase).
      exists gv, w1, w3. split; [exact Hg|]. split; [apply cached; exact Hc|]. right. split; [exact F|]. exists rv, w2. auto.
    - apply truthy_false in T. apply mbind_ok_inv in H0 as ([] & w3 & Hc & H0). unfold ret in H0. injection H0 as <- <-.
      exists gv, w1, w1. split; [exact Hg|]. split; [apply cached; exact Hc|]. left. auto.
  Qed.

  (** How many values: as many as the repeat emitter says. *)
  Theorem C47_object (RO : rng_ok P) w f n h e r g l w' :
    orderly P fuel str_of w -> field_settings_at f w = Some (n, h, e, r, g) ->
    fd_call P fuel str_of f w = (Ok (VList l), w') ->
    exists gv w1 rv w2, em_call g w = (Ok gv, w1) /\ em_call r w1 = (Ok rv, w2) /\
      ((rv = VNone /\ exists w3, em_call e w2 = (Ok (VList l), w3)) \/ int_value rv (zlen l)).
  Proof.
    intros O S H. destruct (orderly_good fuel str_of RO w O) as [R [Hh Hs]].
    pose proof (C46_object _ _ _ _ _ _ _ _ _ S H) as (gv & w1 & w3 & Hg & _ & [(_ & D & _)|(_ & rv & w2 & Hr & Hc)]); [discriminate|].
    exists gv, w1, rv, w2. split; [exact Hg|]. split; [exact Hr|].
    destruct Hc as [[-> Hc]|(k & l' & Hk & Hc & D)]; [left; eauto|]. injection D as <-. right.
    assert (J0 : J w w) by (split; [apply wconf_refl | exact Hh]).
    pose proof (h_call fuel str_of RO w Hs g w J0) as [J1 _]. rewrite Hg in J1. cbn [snd] in J1.
    pose proof (h_call fuel str_of RO w Hs r w1 J1) as [J2 Q]. rewrite Hr in J2, Q. cbn [fst snd] in J2, Q.
    assert (At : only_at P w r (at_least 0)).
    { apply fd_get in S as (x & E & _ & _ & _ & <- & _). eapply (proj2 (proj2 Hs)). exact E. }
    assert (0 <= k). { apply (Q rv eq_refl _ At). destruct Hk as [->|[[-> ->]|[-> ->]]]; reflexivity. }
    pose proof (h_call_n fuel str_of RO w Hs e k H0 w2 J2) as [_ Q2]. rewrite Hc in Q2. destruct (Q2 l eq_refl) as [Q3 _]. rewrite Q3. exact Hk.
  Qed.

  (** ** C50, C61 CopyFields, BasedOnFields *)
  Lemma multi_iff f w : field_multi P w f = false <-> single_valued_field P f w.
  Proof.
    unfold field_multi, single_valued_field, ObjectSpec.field_settings_at. destruct (get_fd f w) as [x|]; cbn [option_map].
    2: { split; [discriminate | intros (? & ? & ? & ? & ? & D & _); discriminate]. }
    unfold ObjectSpec.settings_at. split.
    - intros H. do 5 eexists. split; [reflexivity|]. apply C47_multi_valued in H. destruct (get_em (f_rep P x) w) as [[]|]; try discriminate; cbn in H |- *.
      + injection H as ->. left. eauto.
      + injection H as -> ->. right. left. do 2 eexists. reflexivity.
      + injection H as -> ->. right. right. do 4 eexists. reflexivity.
    - intros (n & h & e & r & g & D & H). injection D as <- <- <- <- <-. apply C47_multi_valued.
      destruct (get_em (f_rep P x) w) as [[]|]; cbn in H |- *;
        destruct H as [(v & H)|[(o & b & H)|(ws & cs & b & o & H)]]; try discriminate; injection H; intros; subst; congruence.
  Qed.

  Lemma repeat_inv (m : M world val) n w vs w' : repeat_emit m n w = (Ok vs, w') -> exists v, m w = (Ok v, w') /\ vs = repeat v (Z.to_nat n).
  Proof.
    intros H. pose proof H as H0. unfold repeat_emit in H0. apply mbind_ok_inv in H0 as (v & w2 & H0 & H1). injection H1 as _ <-.
    exists v. split; [exact H0|]. rewrite (C50_many _ m n _ _ _ H0) in H. injection H as H. symmetry. exact H.
  Qed.

  Theorem C50_object w id single fs sep : reachable w -> settings_at id w = Some (IsCopyFields single fs sep) ->
    (forall v w', em_call id w = (Ok v, w') -> w' = w /\
       ((exists f, single = true /\ fs = [f] /\ single_valued_field P f w /\ v = previous P f w) \/
        (~ (single = true /\ exists f, fs = [f] /\ single_valued_field P f w)) /\
        exists parts, Forall2 adds (map (fun f => previous P f w) fs) parts /\
          match sep with
          | None => v = match concat parts with [] => VNone | _ => VList (concat parts) end
          | Some sp => exists ss out, Forall2 (fun x s => str_of x = Ok s) (concat parts) ss /\ joined sp ss out /\ v = VStr out
          end)) /\
    (forall n vs w', em_call_n id n w = (Ok vs, w') ->
       exists v, em_call id w = (Ok v, w') /\ vs = repeat v (Z.to_nat n)).
  Proof.
    intros R S. apply settings_get in S as (e & E & S). destruct e; try discriminate. injection S as -> -> ->. split.
    - intros v w' H. rewrite call_unfold in H by exact R. unfold emit_body, at_em in H. rewrite E in H. injection H as H <-. split; [reflexivity|].
      destruct (single_valued single (map fst (copy_source P fs w))) eqn:Sv.
      + left. unfold copy_emit in H. rewrite Sv in H. unfold copy_source in *. rewrite map_map in Sv. cbn [fst] in Sv.
        destruct fs as [|f [|f2 t]]; try discriminate. cbn in Sv, H. destruct single; [|discriminate]. injection H as <-.
        exists f. split; [reflexivity|]. split; [reflexivity|]. split; [|reflexivity]. apply multi_iff. destruct (field_multi P w f); [discriminate | reflexivity].
      + assert (N : ~ (single = true /\ exists f, fs = [f] /\ single_valued_field P f w)).
        { intros (-> & f & -> & Hf). apply multi_iff in Hf. cbn in Sv. rewrite Hf in Sv. discriminate. }
        assert (N' : ~ (single = true /\ exists x, copy_source P fs w = [(false, x)])).
        { intros (-> & x & Hx). rewrite Hx in Sv. discriminate. }
        right. split; [exact N|]. destruct sep as [sp|].
        * apply C50_joined in H as (parts & ss & out & H1 & H2 & H3 & H4); [|exact N']. exists parts. split; [|exists ss, out; auto].
          unfold copy_source in H1. rewrite map_map in H1. exact H1.
        * destruct (C50_flattened str_of single (copy_source P fs w) N') as (parts & H1 & H2). exists parts.
          split; [unfold copy_source in H1; rewrite map_map in H1; exact H1|]. congruence.
    - intros n vs w' H. destruct (Z.eq_dec n 1) as [->|Hn].
      + rewrite call_one in H. apply mbind_ok_inv in H as (v & w2 & H & H'). injection H' as <- <-. exists v. split; [exact H | reflexivity].
      + rewrite many_unfold in H by assumption. unfold emit_many_body, at_em in H. rewrite E in H. rewrite call_unfold by exact R. unfold emit_body, at_em. rewrite E.
        apply repeat_inv in H. exact H.
  Qed.

  Lemma dict_fresh (l : list (string * val)) : forall d, NoDup (map fst l) -> (forall k, In k (map fst l) -> ~ In k (map fst d)) ->
    dict_update String.eqb d l = d ++ l.
  Proof.
    induction l as [|[k v] t IH]; intros d N F; [cbn; symmetry; apply app_nil_r|]. inversion N; subst.
    change (dict_update String.eqb (dict_set String.eqb k v d) t = d ++ (k, v) :: t).
    rewrite dict_set_new by (apply F; left; reflexivity). rewrite IH; [rewrite <- app_assoc; reflexivity | assumption |].
    intros k' Hk. rewrite map_app, in_app_iff. intros [Hd|[<-|[]]]; [eapply F; [right; exact Hk | exact Hd] | contradiction].
  Qed.

  Theorem C61_object w id single fs f : reachable w -> settings_at id w = Some (IsBasedOnFields single fs f) ->
    (forall v w', em_call id w = (Ok v, w') ->
       (forall g, fs = [g] -> applied P id f [previous P g w] [] w v w') /\
       (length fs <> 1%nat -> NoDup (map (fun g => name_of P g w) fs) ->
        applied P id f [] (map (fun g => (name_of P g w, previous P g w)) fs) w v w')) /\
    (forall n vs w', em_call_n id n w = (Ok vs, w') ->
       exists v, em_call id w = (Ok v, w') /\ vs = repeat v (Z.to_nat n)).
  Proof.
    intros R S. apply settings_get in S as (e & E & S). destruct e; try discriminate. injection S as -> -> ->. split.
    - intros v w' H. rewrite call_unfold in H by exact R. unfold emit_body, at_em in H. rewrite E in H. unfold based_emit in H. split.
      + intros g ->. cbn in H. apply applied_of. apply user_call_inv. exact H.
      + intros L N. assert (A : action_args (based_source P fs w) = ([], map (fun g => (name_of P g w, previous P g w)) fs)).
        { unfold based_source. destruct fs as [|g [|g2 t]]; [reflexivity | contradiction L; reflexivity |]. unfold action_args. cbn [map].
          rewrite (dict_fresh ((name_of P g w, previous P g w) :: (name_of P g2 w, previous P g2 w) :: map _ t) []); [reflexivity | | intros k _ []].
          cbn [map fst]. rewrite map_map. exact N. }
        rewrite A in H. apply applied_of. apply user_call_inv. exact H.
    - intros n vs w' H. destruct (Z.eq_dec n 1) as [->|Hn].
      + rewrite call_one in H. apply mbind_ok_inv in H as (v & w2 & H & H'). injection H' as <- <-. exists v. split; [exact H | reflexivity].
      + rewrite many_unfold in H by assumption. unfold emit_many_body, at_em in H. rewrite E in H. rewrite call_unfold by exact R. unfold emit_body, at_em. rewrite E.
        apply repeat_inv in H. exact H.
  Qed.
End Calls.

(** ** Examples: the calls of Prop_Objects.shop, whose settings are listed there *)
Example shop_calls :
  map (fun i => fst (em_call_n DP 9 demo_str i 2 shop)) [2%nat; 3%nat; 4%nat; 9%nat; 10%nat] =
  [Ok [VStr [99; 97]; VStr [99]];
   Ok [VList [VStr [99; 97]; VInt 4]; VList [VStr [99]; VInt 5]];
   Ok [VTuple [VStr [99; 97]; VInt 2]; VTuple [VStr [99]; VInt 1]];
   Ok [VStr [98; 45; 45]; VStr [98; 45; 45]];
   Ok [VTuple [VStr [98]; VList [VList [VStr [99]; VInt 0]; VList [VStr [97; 98]; VInt 1]]];
       VTuple [VStr [98]; VList [VList [VStr [99]; VInt 0]; VList [VStr [97; 98]; VInt 1]]]]] /\
  map (fun i => fst (em_call DP 9 demo_str i shop)) [2%nat; 3%nat; 4%nat; 8%nat] =
  [Ok (VStr [98]); Ok (VList [VStr [98]; VInt 4]); Ok (VTuple [VStr [98]; VInt 2]); Ok (VStr [98])] /\
  fst (fd_call DP 9 demo_str 1 shop) = Ok (VList [VList [VStr [99; 97]; VInt 4]]) /\
  fst (exec DP 9 demo_str (SetFunction DP 3 builtin_id) shop) = Ok tt /\
  fst (exec DP 9 demo_str (SetFunction DP 4 pair_of) shop) = Ok tt.
Proof. repeat (split; [vm_compute; reflexivity|]). vm_compute. reflexivity. Qed.

Lemma at_place {A B} (f : A -> B) l m : map f l = m -> forall k x y, nth_error l k = Some x -> nth_error m k = Some y -> f x = y.
Proof. intros <- k x y Hx Hy. rewrite (map_nth_error f k l Hx) in Hy. injection Hy as Hy. exact Hy. Qed.

(** C40 for emitter 3, in full. *)
Example C40_object_case : exists x w1 v w', em_call DP 9 demo_str 3 shop = (Ok v, w') /\
  em_call DP 9 demo_str 2 shop = (Ok x, w1) /\ applied DP 3 with_draw [x] [] w1 v w'.
Proof.
  pose proof (at_place _ _ _ C68_demo 2%nat _ _ eq_refl eq_refl) as D. cbv beta in D.
  pose proof (at_place _ _ _ (proj1 (proj2 shop_calls)) 1%nat _ _ eq_refl eq_refl) as C. cbv beta in C.
  pose proof (ran (em_call DP 9 demo_str 3) shop _ C) as E.
  destruct (proj1 (C40_object 9 demo_str shop 3 2 with_draw shop_reachable D) _ _ E) as (x & w1 & H1 & H2).
  do 4 eexists. split; [exact E|]. split; [exact H1 | exact H2].
Qed.

(** C37: a Text made by an orderly program. *)
Example C37_object_case : exists out w',
  orderly DP 9 demo_str (program some_texts empty) /\
  settings_at DP 5 (program some_texts empty) = Some (IsText 0 3 4) /\
  em_call_n DP 9 demo_str 5 2 (program some_texts empty) = (Ok out, w').
Proof.
  destruct C34_case as (O & l & w' & H & _). exists l, w'. split; [exact O|]. split; [|exact H].
  vm_cast_no_check (eq_refl (Some (@IsText DP 0 3 4))).
Qed.

Print Assumptions C36_object.
Print Assumptions C37_object.
Print Assumptions C40_object.
Print Assumptions C41_object.
Print Assumptions C42_wrapone_object.
Print Assumptions C42_wrapmany_object.
Print Assumptions C46_object.
Print Assumptions C47_object.
Print Assumptions C50_object.
Print Assumptions C61_object.
