(** * Emitters, fields and schemas as objects: properties C43, C45, C46, C48, C52, C54. *)
From Verif Require Import Base Prims Values MathModel ChoiceModel FixedModel GroupModel
  SigModel SigProofs WrapModel WrapSpec TextModel FieldModel World Rel WorldProofs Agree WorldSpec WorldReset Histories Demo WorldDemo.
Open Scope list_scope.
Open Scope Z_scope.

Lemma nth_ext_error A : forall l l' : list A, (forall n, nth_error l n = nth_error l' n) -> l = l'.
Proof.
  induction l as [|a l IH]; intros [|b l'] H; try reflexivity; try (specialize (H O); discriminate).
  f_equal; [specialize (H O); cbn in H; congruence | apply IH; intros n; apply (H (S n))].
Qed.

(** ** C52 Resetting a seeded schema replays the same documents *)

Section Replay.
  Context {P : prims} (fuel : nat) (str_of : val -> res (list Z)).
  Notation world := (World.world P).

  Lemma fresh_shuffle ent1 ent2 s (a1 a2 c1 c2 : @choice P val) :
    c_seed a1 = Some s -> c_seed a2 = Some s -> cconf c1 c2 ->
    choice_reset P fuel ent1 a1 = (Ok tt, c1) -> choice_reset P fuel ent2 a2 = (Ok tt, c2) -> csim false c1 c2.
  Proof.
    intros S1 S2 C R1 R2.
    pose proof (proj1 (kreset fuel ent1 a1)) as K1. rewrite R1 in K1.
    pose proof (proj1 (kreset fuel ent2 a2)) as K2. rewrite R2 in K2. cbn [snd] in K1, K2.
    assert (C0 : cconf a1 a2) by (eapply cconf_trans; [exact K1|]; eapply cconf_trans; [exact C | apply cconf_sym; exact K2]).
    rewrite choice_reset_eq in R1, R2. cbn zeta in R1, R2.
    rewrite S1 in R1. rewrite S2 in R2. cbn [rng_for] in R1, R2.
    destruct C0 as (I1 & I2 & I3 & I4 & I5 & I6). rewrite <- I4 in R2.
    destruct (c_replace a1) eqn:Er.
    - specialize (I6 eq_refl). injection R1 as <-. injection R2 as <-. right. repeat split; [exact Er|].
      unfold set_rng, set_shuf. cbn. congruence.
    - left. assert (E : set_shuf P [] None (set_nui P 0 (set_rng P (r_seeded P s) a1)) =
                  set_shuf P [] None (set_nui P 0 (set_rng P (r_seeded P s) a2))).
      { unfold set_shuf, set_nui, set_rng. cbn. congruence. }
      unfold global_shuffle, ChoiceModel.get, mbind, on_rng, modify in R1, R2. cbn in R1, R2.
      rewrite <- I1, <- I2 in R2.
      destruct (weighted_shuffle _ _ _ _ _ _) as [[sh|e|] r]; try discriminate.
      injection R1 as <-. injection R2 as <-.
      unfold set_rng, set_nui, set_shuf. cbn. congruence.
  Qed.

  Lemma fresh_same s (e1 e2 : emitter P) : conf e1 e2 -> fresh P fuel (Some s) e1 -> fresh P fuel (Some s) e2 ->
    match e1 with
    | EIter _ i => pure_factory (i_factory i)
    | ESeq _ _ q => s_own q = true \/ pure_factory (s_factory q)
    | EUser _ c _ _ => restores P c
    | _ => True
    end -> osim false e1 e2.
  Proof.
    intros C F1 F2 Hp. destruct e1, e2; try contradiction; cbn [conf fresh] in *.
    - cbn. congruence.
    - destruct C as (C1 & C2). repeat split; auto. right. split; [exact Hp|]. rewrite F1, F2. reflexivity.
    - destruct C as (C1 & C2 & C3 & C4 & C5). repeat split; auto. right. split; [|rewrite F1, F2; reflexivity].
      unfold seq_factory. destruct (s_own s0); [intros m n; reflexivity|]. destruct Hp as [Hp|Hp]; [discriminate|exact Hp].
    - destruct C as (-> & C). destruct F1 as (a1 & ent1 & S1 & _ & R1), F2 as (a2 & ent2 & S2 & _ & R2).
      split; [reflexivity|]. exact (fresh_shuffle _ _ _ _ _ _ _ S1 S2 C R1 R2).
    - destruct C as (-> & ->), F1 as [n1 ->], F2 as [n2 ->]. repeat split. discriminate.
    - destruct C as (-> & -> & ->), F1 as [n1 ->], F2 as [n2 ->]. repeat split. discriminate.
    - destruct C as (-> & ->), F1 as [n1 ->], F2 as [n2 ->]. reflexivity.
    - destruct C as (-> & ->), F1 as [n1 ->], F2 as [n2 ->]. reflexivity.
    - destruct C as (-> & -> & ->). reflexivity.
    - destruct C as (-> & -> & ->), F1 as [n1 ->], F2 as [n2 ->]. reflexivity.
    - destruct C as (-> & Cn), F1 as [[o1 ->] N1], F2 as [[o2 ->] N2]. rewrite (Hp o1 o2).
      destruct nd, nd0; try discriminate; [|reflexivity]. destruct N1 as [n1 ->], N2 as [n2 ->]. reflexivity.
  Qed.

  (** seed_fields stores the seed in the fields. *)
  Lemma fd_seed_stores f s w r w' : fd_seed P fuel f s w = (r, w') ->
    (forall g, fseed s w g -> fseed s w' g) /\ (r = Ok tt -> fseed s w' f).
  Proof.
    intros H. unfold fd_seed, at_fd in H. destruct (get_fd P f w) as [x|] eqn:E.
    2:{ injection H as <- <-. split; [auto | discriminate]. }
    unfold mixin_seed in H.
    assert (K : w_fd P (snd (seed_all P (fun k => em_seed P fuel k s) (parts P x) w)) = w_fd P w).
    { assert (X : rel (fun a b => a = b /\ w_fd P a = w_fd P w) (seed_all P (fun k => em_seed P fuel k s) (parts P x))
                                                             (seed_all P (fun k => em_seed P fuel k s) (parts P x))).
      { apply rel_do_method. intros o _ w1 w2 [-> Hw]. destruct (has_seed P o w2); [|exact I].
        intros a b [-> Hb]. split; [reflexivity|]. split; [reflexivity|].
        assert (W : within (fun _ => True) (fun _ => False) b (snd (em_seed P fuel o s b))).
        { apply (rel_em_seed fuel true (fun _ => True) (fun _ => True) (fun _ => True) (fun _ => False) b b o s I I b b).
          apply agree_self. split; auto. }
        destruct W as (_ & _ & W & _). assert (Q : forall g, nth_error (w_fd P b) g = nth_error (w_fd P (snd (em_seed P fuel o s b))) g).
        { intros g. apply (W g). tauto. }
        rewrite <- Hb. symmetry. exact (nth_ext_error _ _ _ Q). }
      apply (X w w). auto. }
    unfold mbind in H. destruct (seed_all P (fun k => em_seed P fuel k s) (parts P x) w) as [[[]|e|] w1] eqn:E1; cbn [snd] in K.
    - unfold catch_attribute_error, modify_fd, at_fd in H.
      assert (E2 : get_fd P f w1 = Some x) by (unfold get_fd in *; rewrite K; exact E).
      rewrite E2 in H. injection H as <- <-.
      assert (Q : forall g, fseed s w g \/ g = f -> fseed s (put_fd P f (fd_node P (mkNode P s (rng_for P s (fd_entropy f (f_ent P x)))) (S (f_ent P x)) x) w1) g).
      { intros g Hg y. unfold get_fd, put_fd. cbn. destruct (Nat.eq_dec g f) as [->|N].
        - unfold get_fd in E2. rewrite (nth_upd_same _ _ _ _ _ E2). intros [= <-]. reflexivity.
        - rewrite nth_upd_other by congruence. rewrite K. destruct Hg as [Hg| ->]; [apply Hg | congruence]. }
      split; [intros g Hg; apply Q; left; exact Hg | intros _; apply Q; right; reflexivity].
    - injection H as <- <-. split; [|discriminate]. intros g Hg y. unfold get_fd. rewrite K. apply Hg.
    - injection H as <- <-. split; [|discriminate]. intros g Hg y. unfold get_fd. rewrite K. apply Hg.
  Qed.

  Lemma sc_seed_stores s fs : forall w w', sc_seed_fields P fuel fs s w = (Ok tt, w') ->
    forall f, In f (map snd fs) -> fseed s w' f.
  Proof.
    unfold sc_seed_fields. intros w w' H.
    assert (X : forall l w w', group_do_method (fun f _ => Some (fd_seed P fuel f s)) (map Some l) w = (Ok tt, w') ->
      (forall f, fseed s w f -> fseed s w' f) /\ (forall f, In f l -> fseed s w' f)).
    { clear. induction l as [|f l IH]; intros w w' H; cbn in H.
      - injection H as <-. split; [auto | intros f []].
      - apply mbind_ok_inv in H. destruct H as ([] & w1 & H1 & H2). destruct (IH _ _ H2) as [I1 I2].
        unfold catch_attribute_error in H1. destruct (fd_seed P fuel f s w) as [r w2] eqn:E.
        destruct (fd_seed_stores _ _ _ _ _ E) as [J1 J2].
        assert (Q : w2 = w1 /\ (r = Ok tt \/ r = Raise AttributeError)).
        { destruct r as [[]|[]|]; try discriminate; injection H1 as <-; auto. }
        destruct Q as [-> Q]. split; [intros g Hg; auto|]. intros g [<-|Hg]; [|auto]. apply I1.
        destruct Q as [-> | ->]; [auto|].
        (* seed() of a field does not raise AttributeError *)
        exfalso. unfold fd_seed, at_fd in E. destruct (get_fd P f w) as [x|]; [|discriminate].
        unfold mixin_seed in E.
        pose proof (do_method_quiet _ _ (fun k w => if has_seed P k w then Some (em_seed P fuel k s) else None) (map Some (parts P x)) w) as Qt.
        fold (seed_all P (fun k => em_seed P fuel k s) (parts P x)) in Qt. unfold mbind in E.
        destruct (seed_all P (fun k => em_seed P fuel k s) (parts P x) w) as [[[]|e|] w3]; cbn [fst] in Qt.
        + unfold catch_attribute_error in E. destruct (modify_fd _ _ _ _) as [[[]|[]|] w4]; discriminate.
        + injection E as ->. apply Qt; reflexivity.
        + discriminate. }
    intros f Hf. apply (X _ _ _ H). exact Hf.
  Qed.

  Hypothesis score_quiet : forall u w, k_score P u w <> Raise AttributeError.

  (** After reset_fields() in two states with the same objects, in which the
      fields store the seed [s]: *)
  Theorem stored_agree w fs s u1 v1 u2 v2 :
    wconf w u1 -> wconf w u2 ->
    (forall f, In f (map snd fs) -> pure_factories P w f) ->
    self_contained P w fs ->
    (forall f, In f (map snd fs) -> fseed (Some s) u1 f) -> sc_reset_fields P fuel fs u1 = (Ok tt, v1) ->
    (forall f, In f (map snd fs) -> fseed (Some s) u2 f) -> sc_reset_fields P fuel fs u2 = (Ok tt, v2) ->
    agree false (fun s => s <> None) (fun j => exists f, In f (map snd fs) /\ uses P w f j)
      (fun f => In f (map snd fs)) (fun f => In f (map snd fs)) v1 v2 v1 v2.
  Proof.
    intros W1 W2 Hp Hc A1 B1 A2 B2.
    assert (X : forall u v, wconf w u -> (forall f, In f (map snd fs) -> fseed (Some s) u f) ->
       sc_reset_fields P fuel fs u = (Ok tt, v) ->
       wconf w v /\ (forall f, In f (map snd fs) -> fseed (Some s) v f) /\ (forall f, In f (map snd fs) -> blank v f) /\
       (forall f j, In f (map snd fs) -> uses P w f j -> fresh_at P fuel (Some s) v j)).
    { clear -score_quiet str_of. intros u v C A B.
      destruct (sc_reset_step fuel score_quiet (Some s) fs u v A B) as [(S1 & S2 & S3 & S4) F].
      split; [eapply wconf_trans; eauto|]. split; [|split].
      - intros f Hf. apply S3. exact (A f Hf).
      - intros f Hf. apply F, Hf.
      - intros f j Hf U. apply (F f Hf). eapply uses_wconf; eauto. }
    destruct (X u1 v1 W1 A1 B1) as (C1 & S1 & K1 & F1). destruct (X u2 v2 W2 A2 B2) as (C2 & S2 & K2 & F2).
    assert (C12 : wconf v1 v2) by (eapply wconf_trans; [apply wconf_sym; exact C1 | exact C2]).
    (* an emitter of v1 has a counterpart in w *)
    assert (Back : forall j e, get_em P j v1 = Some e -> exists e0, get_em P j w = Some e0 /\ conf e0 e).
    { intros j e E. pose proof (proj1 C1 j) as Q. rewrite E in Q. destruct (get_em P j w) as [e0|]; [eauto | contradiction]. }
    assert (BackF : forall f x, get_fd P f v1 = Some x -> exists x0, get_fd P f w = Some x0 /\ fconf x0 x).
    { intros f x E. pose proof (proj2 C1 f) as Q. rewrite E in Q. destruct (get_fd P f w) as [e0|]; [eauto | contradiction]. }
    constructor; auto using within_refl.
    - intros j (f & Hf & U). pose proof (proj1 C12 j) as Q.
      destruct (get_em P j v1) as [e1|] eqn:E1, (get_em P j v2) as [e2|] eqn:E2; try contradiction; [|exact I].
      cbn in Q |- *. apply (fresh_same s); [exact Q | apply (F1 f j Hf U); exact E1 | apply (F2 f j Hf U); exact E2|].
      destruct (Back j e1 E1) as (e0 & E0 & C0). specialize (Hp f Hf j e0 U E0).
      destruct e0, e1; try contradiction; auto; cbn in C0.
      + destruct C0 as [<- _]. exact Hp.
      + destruct C0 as (_ & _ & <- & <- & _). exact Hp.
      + destruct C0 as (<- & _). exact Hp.
    - intros j e k (f & Hf & U) E Hk. exists f. split; [exact Hf|]. destruct (Back j e E) as (e0 & E0 & C0).
      eapply uses_part; [exact U | exact E0 | rewrite (conf_children _ _ C0); exact Hk].
    - intros j e g (f & Hf & U) E Hg. destruct (Back j e E) as (e0 & E0 & C0). apply (Hc f g Hf).
      exists j, e0. split; [exact U|]. split; [exact E0 | rewrite (conf_source _ _ C0); exact Hg].
    - intros j e nd (f & Hf & U) E En. rewrite (fresh_seed fuel _ _ _ (F1 f j Hf U e E) En). discriminate.
    - intros Q; congruence.
    - intros f Hf. pose proof (proj2 C12 f) as Q.
      destruct (get_fd P f v1) as [x1|] eqn:E1, (get_fd P f v2) as [x2|] eqn:E2; try contradiction; [|exact I].
      split; [exact Q|]. rewrite (S1 f Hf x1 E1), (S2 f Hf x2 E2), (K1 f Hf x1 E1), (K2 f Hf x2 E2). auto.
    - intros f _. apply multi_wconf; exact C12.
    - intros f x p Hf E Hin. exists f. split; [exact Hf|]. destruct (BackF f x E) as (x0 & E0 & _ & _ & Q1 & Q2 & Q3).
      exists x0, p. split; [exact E0|]. split; [|constructor]. unfold parts in *. rewrite Q1, Q2, Q3. exact Hin.
    - intros f x Hf E. rewrite (S1 f Hf x E). discriminate.
  Qed.

  (** After seed_fields(s) and reset_fields() in two states with the same objects: *)
  Theorem seeded_agree w w1 w2 fs s u1 v1 u2 v2 :
    wconf w w1 -> wconf w w2 ->
    (forall f, In f (map snd fs) -> pure_factories P w f) ->
    self_contained P w fs ->
    sc_seed_fields P fuel fs (Some s) w1 = (Ok tt, u1) -> sc_reset_fields P fuel fs u1 = (Ok tt, v1) ->
    sc_seed_fields P fuel fs (Some s) w2 = (Ok tt, u2) -> sc_reset_fields P fuel fs u2 = (Ok tt, v2) ->
    agree false (fun s => s <> None) (fun j => exists f, In f (map snd fs) /\ uses P w f j)
      (fun f => In f (map snd fs)) (fun f => In f (map snd fs)) v1 v2 v1 v2.
  Proof.
    intros W1 W2 Hp Hc A1 B1 A2 B2.
    assert (X : forall w' u, wconf w w' -> sc_seed_fields P fuel fs (Some s) w' = (Ok tt, u) -> wconf w u).
    { intros w' u W A. eapply wconf_trans; [exact W|].
      pose proof (run_conf fuel str_of w' (SeedFields P fs (Some s))) as C.
      cbn [run] in C. unfold mbind in C. rewrite A in C. exact C. }
    exact (stored_agree w fs s u1 v1 u2 v2 (X w1 u1 W1 A1) (X w2 u2 W2 A2) Hp Hc
      (sc_seed_stores _ _ _ _ A1) B1 (sc_seed_stores _ _ _ _ A2) B2).
  Qed.

  (** A schema is seeded and reset at two different points of its life: after
      whatever history [h1], and after whatever history [h2].  From then on it
      does the same: every sequence [later] of operations on it has the same
      outcomes. *)
  Theorem C52_replay w fs s h1 h2 u1 v1 u2 v2 later :
    (forall f, In f (map snd fs) -> pure_factories P w f) ->
    self_contained P w fs ->
    sc_seed_fields P fuel fs (Some s) (after P fuel str_of h1 w) = (Ok tt, u1) -> sc_reset_fields P fuel fs u1 = (Ok tt, v1) ->
    sc_seed_fields P fuel fs (Some s) (after P fuel str_of h2 w) = (Ok tt, u2) -> sc_reset_fields P fuel fs u2 = (Ok tt, v2) ->
    Forall (about_schema P w fs) later ->
    fst (history P fuel str_of later v1) = fst (history P fuel str_of later v2).
  Proof.
    intros Hp Hc A1 B1 A2 B2 Hl.
    apply (history_agree fuel str_of false (fun s => s <> None) (fun j => exists f, In f (map snd fs) /\ uses P w f j)
      (fun f => In f (map snd fs)) (fun f => In f (map snd fs)) v1 v2 later).
    - eapply Forall_impl; [|exact Hl]. intros o. destruct o; exact (fun H => H).
    - exact (seeded_agree w _ _ fs s u1 v1 u2 v2 (history_conf fuel str_of w h1) (history_conf fuel str_of w h2) Hp Hc A1 B1 A2 B2).
  Qed.
End Replay.

(** The concrete schema is of the kind the theorem is about, it can be seeded and
    reset at any two points, and does produce documents then. *)
Example demo_pure f : In f (map snd demo_fields) -> pure_factories DP demo_world f.
Proof.
  intros Hf. apply pure_by_class with (seq 0 14); [vm_compute; reflexivity | | vm_compute; reflexivity].
  cbn in Hf. destruct Hf as [<-|[<-|[<-|[<-|[]]]]]; vm_compute; reflexivity.
Qed.
Example demo_self_contained : self_contained DP demo_world demo_fields.
Proof.
  intros f g Hf R. apply (reads_in demo_world (seq 0 14) (map snd demo_fields) f g); [vm_compute; reflexivity | | vm_compute; reflexivity | exact R].
  cbn in Hf. destruct Hf as [<-|[<-|[<-|[<-|[]]]]]; vm_compute; reflexivity.
Qed.
Definition replay (h : list (op DP)) : M (world DP) unit := fun w =>
  (sc_seed_fields DP 9 demo_fields (Some 3%nat) ;;; sc_reset_fields DP 9 demo_fields) (after DP 9 demo_str h w).
Example C52_case :
  let h1 := [] in
  let h2 := [Doc DP demo_fields; EmitN DP 0 5; SetSeed DP 2 None; Call DP 2] in
  let later := [Doc DP demo_fields; Doc DP demo_fields; SeedEm DP 3 (Some 5%nat); Doc DP demo_fields] in
  fst (replay h1 demo_world) = Ok tt /\ fst (replay h2 demo_world) = Ok tt /\
  Forall (about_schema DP demo_world demo_fields) later /\
  fst (history DP 9 demo_str later (snd (replay h2 demo_world))) =
    [Ok (Document [("id", VInt 1); ("copy", VInt 1); ("word", VNone)]);
     Ok (Document [("id", VInt 2); ("copy", VInt 2); ("word", VStr [98; 99; 97])]);
     Ok Done;
     Ok (Document [("id", VInt 3); ("copy", VInt 3); ("word", VNone)])]%string.
Proof.
  split; [vm_compute; reflexivity|]. split; [vm_compute; reflexivity|]. split; [|vm_compute; reflexivity].
  apply Forall_cons; [intros f H; exact H|]. apply Forall_cons; [intros f H; exact H|].
  apply Forall_cons; [|apply Forall_cons; [intros f H; exact H | apply Forall_nil]].
  split; [|discriminate]. exists 2%nat. split; [cbn; auto|]. apply part_used. vm_compute. reflexivity.
Qed.

(** ** Independent fields do not influence each other *)

Section Independent.
  Context (P : prims) (fuel : nat) (str_of : val -> res (list Z)).
  Notation world := (World.world P).
  Notation get_em := (World.get_em P).
  Notation get_fd := (World.get_fd P).

  Lemma agree_own w gs : agree true (fun _ => True) (fun j => exists f, In f gs /\ uses P w f j)
     (fun f => In f gs \/ exists g, In g gs /\ reads P w g f) (fun f => In f gs) w w w w.
  Proof.
    destruct (agree_self _ _ w (closed_fields w gs)). constructor; auto.
    intros j e f (g & Hg & U) E Hf. right. exists g. split; [exact Hg|]. exists j, e. auto.
  Qed.

  (** Whatever is done, in whatever order, with the fields [fs]: what is seen of
      the fields [gs] is what would be seen if nothing had been done with [fs]. *)
  Theorem C54_independent w fs gs h : independent P w fs gs ->
    Forall (fun o => match o with inl o => about P w fs o | inr o => about P w gs o end) h ->
    second_sees P fuel str_of h w = fst (history P fuel str_of (second_does P h) w).
  Proof.
    intros Hi Hh.
    set (Dg := fun j => exists f, In f gs /\ uses P w f j).
    set (Fg := fun f => In f gs \/ exists g, In g gs /\ reads P w g f).
    assert (X : forall w1 w2, wconf w w1 -> agree true (fun _ => True) Dg Fg (fun f => In f gs) w1 w2 w1 w2 ->
      second_sees P fuel str_of h w1 = fst (history P fuel str_of (second_does P h) w2)).
    { induction Hh as [|o t Ho Ht IH]; intros w1 w2 C A; [reflexivity|].
      destruct o as [o|o]; cbn [second_sees second_does].
      - pose proof (run_conf fuel str_of w1 o) as C'. apply IH; [eapply wconf_trans; eauto|].
        eapply agree_frame; [exact A| | |].
        3: { eapply (run_within fuel str_of _ _ w1 o); [apply (closed_fields w1 fs) | apply (about_allowed w w1); assumption]. }
        + intros j (f & Hf & U) (g & Hg & V). destruct (Hi f g Hf Hg) as (_ & _ & N). apply (N j); [|exact V].
          eapply uses_wconf; [apply wconf_sym; exact C | exact U].
        + intros f Hf [Hg | (g & Hg & R)].
          * destruct (Hi f f Hf Hg) as (N & _). congruence.
          * destruct (Hi f g Hf Hg) as (_ & N & _). contradiction.
      - cbn [history]. assert (L : allowed (fun _ => True) Dg (fun f => In f gs) o) by exact (about_allowed w w gs o (wconf_refl w) Ho).
        destruct (rel_run fuel str_of _ _ _ _ _ _ _ o L w1 w2 A) as [E R]. pose proof (run_conf fuel str_of w1 o) as C'.
        destruct (run P fuel str_of o w1) as [r1 w1'], (run P fuel str_of o w2) as [r2 w2']. cbn [fst snd] in E, R, C'. subst r2.
        apply rebase in R. rewrite (IH w1' w2'); [|eapply wconf_trans; eauto | exact R].
        destruct (history P fuel str_of (second_does P t) w2') as [rs w']. reflexivity. }
    apply X; [apply wconf_refl | apply agree_own].
  Qed.
End Independent.

(** In the concrete schema, 'word' and 'serial' have nothing to do with 'id'. *)
Example C54_case : independent DP demo_world [0%nat] [2; 3]%nat.
Proof.
  intros f g Hf Hg. cbn in Hf. destruct Hf as [<-|[]].
  assert (Lf : forall j, uses DP demo_world 0 j -> In j [0; 6; 7]%nat)
    by (intros j; apply (uses_in demo_world [0; 6; 7]%nat 0 j); vm_compute; reflexivity).
  assert (Lg : forall j, uses DP demo_world g j -> In j [1; 2; 3; 4; 5; 11; 12; 13]%nat)
    by (intros j; apply (uses_in demo_world [1; 2; 3; 4; 5; 11; 12; 13]%nat g j); [vm_compute; reflexivity|];
        cbn in Hg; destruct Hg as [<-|[<-|[]]]; vm_compute; reflexivity).
  split; [cbn in Hg; destruct Hg as [<-|[<-|[]]]; discriminate|]. split.
  - intros R. apply (reads_in demo_world [1; 2; 3; 4; 5; 11; 12; 13]%nat [] g 0) in R; [exact R | vm_compute; reflexivity | | vm_compute; reflexivity].
    cbn in Hg; destruct Hg as [<-|[<-|[]]]; vm_compute; reflexivity.
  - intros j H1 H2. apply Lf in H1. apply Lg in H2. cbn in H1, H2. intuition congruence.
Qed.
Example C54_case_values :
  let h := [inl (Call DP 0); inr (Call DP 2); inl (Reset DP 0); inl (EmitN DP 0 4); inr (Call DP 3); inr (Call DP 2)] in
  second_sees DP 9 demo_str h demo_world = [Ok (Value (VStr [98; 97; 98])); Ok (Value (VInt 10)); Ok (Value VNone)].
Proof. vm_compute. reflexivity. Qed.

Print Assumptions C52_replay.
Print Assumptions C54_independent.
