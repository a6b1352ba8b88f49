(** * C84: what is set up alike and given the same seed does the same. *)
From Coq Require Import String.
From Verif Require Import Base Prims Values MathModel ChoiceModel ChoiceRun ChoiceProofs3 FixedModel GroupModel
  SigModel WrapModel TextModel FieldModel World Rel WorldProofs Agree WorldSpec WorldBuild BuildProofs
  ObjectSpec ObjectProofs WorldReset Histories Prop_Field Prop_World QcNum Demo WorldDemo Prop_Construct TwinSpec Twin.
Open Scope list_scope.
Open Scope Z_scope.

Section C84.
  Context (P : prims) (fuel : nat) (str_of : val -> res (list Z)).
  Context (rho sigma : nat -> nat).
  Notation world := (World.world P).
  Notation get_em := (World.get_em P).
  Notation renamed := (TwinSpec.renamed P rho sigma).
  Hypothesis score_quiet : forall u w, k_score P u w <> Raise AttributeError.

  Lemma nui_known w i b c : reachable P fuel str_of w -> get_em i w = Some (EChoice P b c) ->
    c_replace c = true -> c_nui c = zlen (c_items c).
  Proof.
    intros R E Hr. pose proof (reachable_alone fuel str_of w R i _ E) as (items & A). cbn in A.
    pose proof (reach_any_inv2 P val_setsize fuel items c A) as (_ & (I & _) & _ & N). rewrite I. exact (N Hr).
  Qed.

  Lemma alike_conf w1 w2 i e1 e2 : reachable P fuel str_of w1 -> reachable P fuel str_of w2 ->
    get_em i w1 = Some e1 -> get_em (rho i) w2 = Some e2 -> same_settings P (renamed e1) e2 -> conf (renamed e1) e2.
  Proof.
    intros R1 R2 E1 E2 S. destruct e1, e2; try contradiction; try exact S; cbn in S |- *;
      [|destruct S as [-> S]; split; [reflexivity|]; destruct nd, nd0; cbn in *; try reflexivity; destruct S as [S S']; [now specialize (S' eq_refl) | now specialize (S eq_refl)]].
    destruct S as (-> & S1 & S2 & S3 & S4 & S5). split; [reflexivity|]. unfold cconf. repeat (split; [assumption|]).
    intros Hr. rewrite (nui_known w1 i _ _ R1 E1 Hr), (nui_known w2 (rho i) _ _ R2 E2) by congruence. congruence.
  Qed.

  Lemma renamed_conf e e' : conf e e' -> conf (renamed e) (renamed e').
  Proof. destruct e, e'; cbn; try contradiction; try tauto; intuition congruence. Qed.
  Lemma renamed_fresh s e : fresh P fuel s e -> fresh P fuel s (renamed e).
  Proof. destruct e; exact (fun H => H). Qed.

  Lemma alike_belongs w1 w2 p i : reachable P fuel str_of w1 -> reachable P fuel str_of w2 ->
    belongs P w1 p i -> (forall j, belongs P w1 p j -> alike P rho sigma w1 w2 j) -> belongs P w2 (rho p) (rho i).
  Proof.
    intros R1 R2 B. induction B as [|p e k i E Hk B IH]; intros H; [constructor|].
    destruct (H p (belongs_self _ _ _)) as (e1 & e2 & E1 & E2 & Sm). rewrite E in E1. injection E1 as <-.
    apply (belongs_part _ _ (rho p) e2 (rho k)); [exact E2| |].
    - rewrite <- (conf_children _ _ (alike_conf w1 w2 p e e2 R1 R2 E E2 Sm)). rewrite ren_children. apply in_map, Hk.
    - apply IH. intros j Hj. apply H. eapply belongs_part; eauto.
  Qed.

  (** After seeding and resetting: nothing but state has changed, and all is fresh. *)
  Definition made_fresh (s : pSeed P) (w v : world) (fs : list nat) : Prop :=
    wconf w v /\ (forall f, In f fs -> fseed (Some s) v f) /\ (forall f, In f fs -> blank v f) /\
    (forall f j, In f fs -> uses P w f j -> fresh_at P fuel (Some s) v j).
  Lemma seeded_fresh w fs s u v : sc_seed_fields P fuel fs (Some s) w = (Ok tt, u) -> sc_reset_fields P fuel fs u = (Ok tt, v) ->
    made_fresh s w v (map snd fs).
  Proof.
    intros A B.
    assert (C : wconf w u).
    { pose proof (run_conf fuel str_of w (SeedFields P fs (Some s))) as C.
      cbn [run] in C. unfold mbind in C. rewrite A in C. exact C. }
    destruct (sc_reset_step fuel score_quiet (Some s) fs u v (sc_seed_stores fuel _ _ _ _ A) B) as [(S1 & S2 & S3 & S4) F].
    split; [eapply wconf_trans; eauto|]. split; [|split].
    - intros f Hf. apply S3. exact (sc_seed_stores fuel _ _ _ _ A f Hf).
    - intros f Hf. apply F, Hf.
    - intros f j Hf U. apply (F f Hf). eapply uses_wconf; eauto.
  Qed.
  Lemma fewer_fresh s w v fs gs : (forall f, In f gs -> In f fs) -> made_fresh s w v fs -> made_fresh s w v gs.
  Proof. intros H (A & B & C & D). split; [exact A|]. split; [|split]; eauto. Qed.

  (** Then the states of the objects correspond, in one program and in another (or
      in the same). *)
  Lemma seeded_twin w1 w2 fs s v1 v2 :
    reachable P fuel str_of w1 -> reachable P fuel str_of w2 ->
    (forall f, In f fs -> pure_factories P w1 f) ->
    fields_alike P rho sigma w1 w2 fs ->
    made_fresh s w1 v1 fs -> made_fresh s w2 v2 (map sigma fs) ->
    twin rho sigma (fun i => exists f, In f fs /\ uses P w1 f i) (fun f => In f fs)
      (fun g => exists f, In f fs /\ reads P w1 f g) v1 v2.
  Proof.
    intros R1 R2 Hp [Af Ae Ar Ad Adf] (C1 & S1 & K1 & F1) (C2 & S2 & K2 & F2).
    (* what is used by a field has a counterpart used by the field's counterpart *)
    assert (Bel : forall p i, belongs P w1 p i -> (forall j, belongs P w1 p j -> alike P rho sigma w1 w2 j) -> belongs P w2 (rho p) (rho i))
      by (intros; apply (alike_belongs w1 w2); assumption).
    assert (Use : forall f i, In f fs -> uses P w1 f i -> uses P w2 (sigma f) (rho i)).
    { intros f i Hf (x & p & Ex & Hpx & B). destruct (Af f Hf) as (x1 & x2 & E1 & E2 & _ & Q1 & Q2 & Q3).
      rewrite Ex in E1. injection E1 as <-. exists x2, (rho p). split; [exact E2|]. split.
      - unfold parts. rewrite Q1, Q2, Q3. apply (in_map rho (parts P x)), Hpx.
      - apply Bel; [exact B|]. intros j Hj. apply (Ae f j Hf). exists x, p. auto. }
    (* an emitter of v1 *)
    assert (Back : forall j e, get_em j v1 = Some e -> exists e0, get_em j w1 = Some e0 /\ conf e0 e).
    { intros j e E. pose proof (proj1 C1 j) as Q. rewrite E in Q. destruct (get_em j w1) as [e0|]; [eauto | contradiction]. }
    assert (BackF : forall f x, get_fd P f v1 = Some x -> exists x0, get_fd P f w1 = Some x0 /\ fconf x0 x).
    { intros f x E. pose proof (proj2 C1 f) as Q. rewrite E in Q. destruct (get_fd P f w1) as [e0|]; [eauto | contradiction]. }
    constructor.
    - intros j (f & Hf & U). destruct (Ae f j Hf U) as (a1 & a2 & E1 & E2 & Sm).
      pose proof (alike_conf w1 w2 j a1 a2 R1 R2 E1 E2 Sm) as Cf.
      pose proof (proj1 C1 j) as Q1. pose proof (proj1 C2 (rho j)) as Q2. rewrite E1 in Q1. rewrite E2 in Q2.
      destruct (get_em j v1) as [e1|] eqn:G1; [|contradiction]. destruct (get_em (rho j) v2) as [e2|] eqn:G2; [|contradiction].
      cbn in Q1, Q2 |- *. unfold tsim. apply (fresh_same fuel s).
      + eapply conf_trans; [apply renamed_conf, conf_sym, Q1|]. eapply conf_trans; [exact Cf | exact Q2].
      + apply renamed_fresh, (F1 f j Hf U), G1.
      + apply (F2 (sigma f) (rho j)); [apply in_map, Hf | apply Use; assumption | exact G2].
      + specialize (Hp f Hf j a1 U E1). destruct a1, e1; try contradiction; auto; cbn in Q1 |- *.
        * destruct Q1 as [<- _]. exact Hp.
        * destruct Q1 as (_ & _ & <- & <- & _). exact Hp.
        * destruct Q1 as [<- _]. exact Hp.
    - intros j e k (f & Hf & U) E Hk. destruct (Back j e E) as (e0 & E0 & C0).
      rewrite <- (conf_children _ _ C0) in Hk. split; [|split].
      + exists f. split; [exact Hf|]. eapply uses_part; eauto.
      + destruct (reachable_sound fuel str_of w1 R1) as [O _]. eapply O; eauto.
      + destruct (Ae f j Hf U) as (a1 & a2 & E1 & E2 & Sm). rewrite E0 in E1. injection E1 as <-.
        destruct (reachable_sound fuel str_of w2 R2) as [O _]. apply (O (rho j) a2 (rho k) E2).
        rewrite <- (conf_children _ _ (alike_conf w1 w2 j e0 a2 R1 R2 E0 E2 Sm)), ren_children. apply in_map, Hk.
    - intros j e g (f & Hf & U) E Hg. destruct (Back j e E) as (e0 & E0 & C0).
      assert (Rd : reads P w1 f g).
      { exists j, e0. split; [exact U|]. split; [exact E0 | rewrite (conf_source _ _ C0); exact Hg]. }
      split; [apply (Ar f g Hf Rd) | exists f; auto].
    - intros g (f & Hf & Rd). destruct (Ar f g Hf Rd) as [_ En].
      assert (Nm : forall w v h, wconf w v -> name_of P h v = name_of P h w).
      { intros w v h C. unfold name_of. pose proof (proj2 C h) as Q. destruct (get_fd P h w), (get_fd P h v); try contradiction; [|reflexivity].
        symmetry. apply Q. }
      rewrite (Nm _ _ _ C1), (Nm _ _ _ C2). exact En.
    - intros j e nd (f & Hf & U) E En. rewrite (fresh_seed fuel _ _ _ (F1 f j Hf U e E) En). discriminate.
    - intros f Hf. destruct (Af f Hf) as (x1 & x2 & E1 & E2 & Q0 & Q1 & Q2 & Q3).
      pose proof (proj2 C1 f) as Y1. pose proof (proj2 C2 (sigma f)) as Y2. rewrite E1 in Y1. rewrite E2 in Y2.
      destruct (get_fd P f v1) as [y1|] eqn:G1; [|contradiction]. destruct (get_fd P (sigma f) v2) as [y2|] eqn:G2; [|contradiction].
      destruct Y1 as (_ & Y1h & Y1e & Y1r & Y1g). destruct Y2 as (_ & Y2h & Y2e & Y2r & Y2g).
      cbn. unfold tfsim. rewrite (S1 f Hf y1 G1), (S2 (sigma f) (in_map _ _ _ Hf) y2 G2), (K1 f Hf y1 G1), (K2 (sigma f) (in_map _ _ _ Hf) y2 G2).
      rewrite <- Y1h, <- Y1e, <- Y1r, <- Y1g, <- Y2h, <- Y2e, <- Y2r, <- Y2g. auto 10.
    - intros f x p Hf E Hin. exists f. split; [exact Hf|]. destruct (BackF f x E) as (x0 & E0 & _ & _ & Q1 & Q2 & Q3).
      exists x0, p. split; [exact E0|]. split; [|constructor]. unfold parts in *. rewrite Q1, Q2, Q3. exact Hin.
    - intros f x Hf E. rewrite (S1 f Hf x E). discriminate.
  Qed.

  (** Two schemas that were set up alike, in two programs or in one: after both are
      seeded with the same seed and reset, every sequence of operations has the
      same outcomes with the one as with the other. *)
  Theorem C84_schemas w1 w2 fs s u1 v1 u2 v2 later :
    reachable P fuel str_of w1 -> reachable P fuel str_of w2 ->
    (forall f, In f (map snd fs) -> pure_factories P w1 f) ->
    fields_alike P rho sigma w1 w2 (map snd fs) ->
    sc_seed_fields P fuel fs (Some s) w1 = (Ok tt, u1) -> sc_reset_fields P fuel fs u1 = (Ok tt, v1) ->
    sc_seed_fields P fuel (fields_renamed sigma fs) (Some s) w2 = (Ok tt, u2) ->
    sc_reset_fields P fuel (fields_renamed sigma fs) u2 = (Ok tt, v2) ->
    Forall (about_schema P w1 fs) later ->
    fst (history P fuel str_of later v1) = fst (history P fuel str_of (map (op_renamed P rho sigma) later) v2).
  Proof.
    intros R1 R2 Hp A A1 B1 A2 B2 Hl.
    eapply (t_history fuel str_of rho sigma (fun i => exists f, In f (map snd fs) /\ uses P w1 f i) (fun f => In f (map snd fs))
      (fun g => exists f, In f (map snd fs) /\ reads P w1 f g)).
    - intros i j (f & Hf & Ui) (g & Hg & Uj). exact (fa_distinct _ _ _ _ _ _ A f g i j Hf Hg Ui Uj).
    - exact (fa_distinct_fields _ _ _ _ _ _ A).
    - eapply Forall_impl; [|exact Hl]. intros o. destruct o; exact (fun H => H).
    - apply (seeded_twin w1 w2 (map snd fs) s v1 v2 R1 R2 Hp A); [exact (seeded_fresh _ _ _ _ _ A1 B1)|].
      rewrite <- (fren_snd sigma fs). exact (seeded_fresh _ _ _ _ _ A2 B2).
  Qed.

  (** The same for an emitter with its parts: objects of the same kind set up alike
      and given the same seed (em.rng_seed = s; em.reset()) give the same. *)
  Theorem C84_emitters i w1 w2 s u1 v1 u2 v2 later :
    reachable P fuel str_of w1 -> reachable P fuel str_of w2 ->
    pure_parts P w1 i ->
    emitters_alike P rho sigma w1 w2 i ->
    set_rng_seed P (Some s) i w1 = (Ok tt, u1) -> em_reset P fuel i u1 = (Ok tt, v1) ->
    set_rng_seed P (Some s) (rho i) w2 = (Ok tt, u2) -> em_reset P fuel (rho i) u2 = (Ok tt, v2) ->
    Forall (about_emitter P w1 i) later ->
    fst (history P fuel str_of later v1) = fst (history P fuel str_of (map (op_renamed P rho sigma) later) v2).
  Proof.
    intros R1 R2 Hp [Ae Ar Ad] A1 B1 A2 B2 Hl.
    assert (X : forall i w u v, set_rng_seed P (Some s) i w = (Ok tt, u) -> em_reset P fuel i u = (Ok tt, v) ->
      wconf w v /\ forall j, belongs P w i j -> fresh_at P fuel (Some s) v j).
    { clear -score_quiet. intros i w u v A B. destruct (set_rng_seed_step fuel _ _ _ _ A) as [(C & _) S].
      destruct (ereset_step fuel score_quiet (Some s) _ _ _ _ S B) as [(C' & _) F].
      split; [eapply wconf_trans; eauto|]. intros j Bj. apply F. eapply belongs_wconf; eauto. }
    destruct (X _ _ _ _ A1 B1) as [C1 F1]. destruct (X _ _ _ _ A2 B2) as [C2 F2]. clear X.
    assert (Back : forall j e, get_em j v1 = Some e -> exists e0, get_em j w1 = Some e0 /\ conf e0 e).
    { intros j e E. pose proof (proj1 C1 j) as Q. rewrite E in Q. destruct (get_em j w1) as [e0|]; [eauto | contradiction]. }
    eapply (t_history fuel str_of rho sigma (belongs P w1 i) (fun _ => False) (fun _ => False)).
    - intros j k Bj Bk. apply Ad; assumption.
    - contradiction.
    - eapply Forall_impl; [|exact Hl]. intros o. destruct o; cbn; try contradiction; exact (fun H => H).
    - constructor; try contradiction.
      + intros j U. destruct (Ae j U) as (a1 & a2 & E1 & E2 & Sm).
        pose proof (alike_conf w1 w2 j a1 a2 R1 R2 E1 E2 Sm) as Cf.
        pose proof (proj1 C1 j) as Q1. pose proof (proj1 C2 (rho j)) as Q2. rewrite E1 in Q1. rewrite E2 in Q2.
        destruct (get_em j v1) as [e1|] eqn:G1; [|contradiction]. destruct (get_em (rho j) v2) as [e2|] eqn:G2; [|contradiction].
        cbn in Q1, Q2 |- *. unfold tsim. apply (fresh_same fuel s).
        * eapply conf_trans; [apply renamed_conf, conf_sym, Q1|]. eapply conf_trans; [exact Cf | exact Q2].
        * apply renamed_fresh, (F1 j U), G1.
        * apply (F2 (rho j)); [apply (alike_belongs w1 w2); auto | exact G2].
        * specialize (Hp j a1 U E1). destruct a1, e1; try contradiction; auto; cbn in Q1 |- *.
          -- destruct Q1 as [<- _]. exact Hp.
          -- destruct Q1 as (_ & _ & <- & <- & _). exact Hp.
          -- destruct Q1 as [<- _]. exact Hp.
      + intros j e k U E Hk. destruct (Back j e E) as (e0 & E0 & C0).
        rewrite <- (conf_children _ _ C0) in Hk. split; [|split].
        * eapply belongs_trans; [exact U|]. econstructor; [exact E0 | exact Hk | constructor].
        * destruct (reachable_sound fuel str_of w1 R1) as [O _]. eapply O; eauto.
        * destruct (Ae j U) as (a1 & a2 & E1 & E2 & Sm). rewrite E0 in E1. injection E1 as <-.
          destruct (reachable_sound fuel str_of w2 R2) as [O _]. apply (O (rho j) a2 (rho k) E2).
          rewrite <- (conf_children _ _ (alike_conf w1 w2 j e0 a2 R1 R2 E0 E2 Sm)), ren_children. apply in_map, Hk.
      + intros j e g U E Hg. destruct (Back j e E) as (e0 & E0 & C0). rewrite <- (conf_source _ _ C0), (Ar j e0 U E0) in Hg. destruct Hg.
      + intros j e nd U E En. rewrite (fresh_seed fuel _ _ _ (F1 j U e E) En). discriminate.
  Qed.
End C84.

(** ** Fields of one schema *)

Section OneSchema.
  Context (P : prims) (fuel : nat) (str_of : val -> res (list Z)).
  Notation world := (World.world P).
  Notation get_em := (World.get_em P).
  Hypothesis score_quiet : forall u w, k_score P u w <> Raise AttributeError.

  Definition calls (fs : list (string * nat)) : list (op P) := map (fun nf => Call P (snd nf)) fs.
  (** The calls of field [f] are the second party's. *)
  Definition tag (f : nat) (o : op P) : op P + op P :=
    match o with Call _ g => if Nat.eqb g f then inr o else inl o | o => inl o end.

  Lemma sees_app h1 : forall h2 w, second_sees P fuel str_of (h1 ++ h2) w =
    second_sees P fuel str_of h1 w ++ second_sees P fuel str_of h2 (snd (history P fuel str_of (map (fun o => match o with inl o => o | inr o => o end) h1) w)).
  Proof.
    induction h1 as [|o t IH]; intros h2 w; [reflexivity|]. cbn [app map].
    destruct o as [o|o]; cbn [second_sees history]; destruct (run P fuel str_of o w) as [r w1] eqn:E; cbn [snd]; rewrite IH;
      destruct (history P fuel str_of (map _ t) w1); reflexivity.
  Qed.
  Lemma untag f l : map (fun o => match o with inl o => o | inr o => o end) (map (tag f) l) = l.
  Proof. induction l as [|o t IH]; [reflexivity|]. cbn [map]. rewrite IH. f_equal. destruct o; cbn; try reflexivity. destruct (f0 =? f)%nat; reflexivity. Qed.

  Lemma hide_wconf f (w v : world) : wconf w v -> fd_hide P f v = fd_hide P f w.
  Proof.
    intros [_ C]. specialize (C f). unfold fd_hide. destruct (get_fd P f w), (get_fd P f v); try contradiction; [|reflexivity].
    symmetry. apply C.
  Qed.

  Lemma loop_untouched a fs : forall d (w : world) d' w', ~ In a (map fst fs) ->
    schema_loop (fd_hide P) (fd_call P fuel str_of) fs d w = (Ok d', w') -> dict_get String.eqb a d' = dict_get String.eqb a d.
  Proof.
    induction fs as [|[n g] t IH]; intros d w d' w' Ha H; cbn [schema_loop] in H.
    - injection H as <- _. reflexivity.
    - unfold mbind at 1 in H. destruct (fd_call P fuel str_of g w) as [[v|x|] w1]; try discriminate.
      apply IH in H; [|intros X; apply Ha; right; exact X]. rewrite H. destruct (fd_hide P g w1); [reflexivity|].
      rewrite dict_set_get. destruct (string_dec n a) as [->|]; [|reflexivity]. destruct Ha. left. reflexivity.
  Qed.
  Lemma loop_unseen f fs : forall d (w : world) d' w', ~ In f (map snd fs) ->
    schema_loop (fd_hide P) (fd_call P fuel str_of) fs d w = (Ok d', w') ->
    second_sees P fuel str_of (map (tag f) (calls fs)) w = [] /\ snd (history P fuel str_of (calls fs) w) = w'.
  Proof.
    induction fs as [|[n g] t IH]; intros d w d' w' Ha H; cbn [schema_loop] in H.
    - injection H as _ <-. split; reflexivity.
    - unfold mbind at 1 in H. cbn [calls map snd tag second_sees history run].
      assert (Hg : (g =? f)%nat = false) by (apply Nat.eqb_neq; intros ->; apply Ha; left; reflexivity). rewrite Hg.
      cbn [second_sees run]. unfold mbind.
      destruct (fd_call P fuel str_of g w) as [[v|x|] w1]; try discriminate. cbn [snd].
      apply IH in H; [|intros X; apply Ha; right; exact X]. destruct H as [H1 H2]. split; [exact H1|].
      fold (calls t). unfold ret. destruct (history P fuel str_of (calls t) w1). exact H2.
  Qed.

  (** A document, seen as one call of each field. *)
  Lemma loop_seen a f fs : forall d (w : world) d' w', NoDup (map fst fs) -> NoDup (map snd fs) -> In (a, f) fs ->
    schema_loop (fd_hide P) (fd_call P fuel str_of) fs d w = (Ok d', w') -> dict_get String.eqb a d = None ->
    exists x, second_sees P fuel str_of (map (tag f) (calls fs)) w = [Ok (Value x)] /\
      dict_get String.eqb a d' = (if fd_hide P f w then None else Some x) /\
      snd (history P fuel str_of (calls fs) w) = w'.
  Proof.
    induction fs as [|[n g] t IH]; intros d w d' w' N1 N2 Hin H Hd; [destruct Hin|].
    cbn [schema_loop] in H. unfold mbind at 1 in H. cbn [map fst snd] in N1, N2. apply NoDup_cons_iff in N1, N2.
    destruct N1 as [M1 N1], N2 as [M2 N2].
    pose proof (run_conf fuel str_of w (Call P g)) as C. cbn [run] in C. unfold mbind in C.
    cbn [calls map snd tag history run]. fold (calls t). destruct Hin as [Q|Hin].
    - injection Q as -> ->. rewrite Nat.eqb_refl. cbn [second_sees run]. unfold mbind.
      destruct (fd_call P fuel str_of f w) as [[v|x|] w1]; try discriminate. cbn [snd] in C.
      pose proof (loop_untouched a t _ _ _ _ M1 H) as L. destruct (loop_unseen f t _ _ _ _ M2 H) as [L1 L2].
      exists v. unfold ret. split; [rewrite L1; reflexivity|]. split.
      + rewrite L, (hide_wconf f w w1 C). destruct (fd_hide P f w); [exact Hd|]. rewrite dict_set_get. destruct (string_dec a a); [reflexivity | congruence].
      + unfold ret. destruct (history P fuel str_of (calls t) w1). exact L2.
    - assert (Hg : (g =? f)%nat = false).
      { apply Nat.eqb_neq. intros ->. apply M2. apply in_map_iff. exists (a, f). auto. }
      rewrite Hg. cbn [second_sees run]. unfold mbind.
      destruct (fd_call P fuel str_of g w) as [[v|x|] w1]; try discriminate. cbn [snd ret] in *.
      destruct (IH _ _ _ _ N1 N2 Hin H) as (x & X1 & X2 & X3).
      { destruct (fd_hide P g w1); [exact Hd|]. rewrite dict_set_get. destruct (string_dec n a) as [->|]; [|exact Hd].
        destruct M1. apply in_map_iff. exists (a, f). auto. }
      exists x. split; [exact X1|]. split; [rewrite X2, (hide_wconf f w w1 C); reflexivity|].
      unfold ret. destruct (history P fuel str_of (calls t) w1). exact X3.
  Qed.

  (** A number of documents. *)
  Lemma docs_seen a f fs n : forall (w : world), NoDup (map fst fs) -> NoDup (map snd fs) -> In (a, f) fs ->
    (forall r, In r (fst (history P fuel str_of (repeat (Doc P fs) n) w)) -> exists d, r = Ok (Document d)) ->
    exists ds xs, fst (history P fuel str_of (repeat (Doc P fs) n) w) = map (fun d => Ok (Document d)) ds /\
      second_sees P fuel str_of (map (tag f) (concat (repeat (calls fs) n))) w = map (fun x => Ok (Value x)) xs /\
      Forall2 (fun d x => dict_get String.eqb a d = if fd_hide P f w then None else Some x) ds xs.
  Proof.
    induction n as [|n IH]; intros w N1 N2 Hin H.
    - exists [], []. repeat split. constructor.
    - cbn [repeat history concat] in *. pose proof (run_conf fuel str_of w (Doc P fs)) as C.
      destruct (run P fuel str_of (Doc P fs) w) as [r w1] eqn:E.
      destruct (history P fuel str_of (repeat (Doc P fs) n) w1) as [rs w2] eqn:E2. cbn [fst snd] in *.
      destruct (H r (or_introl eq_refl)) as [d ->]. cbn [run] in E. unfold mbind in E.
      destruct (sc_call P fuel str_of fs w) as [[d0|x|] w0] eqn:E0; try discriminate. injection E as -> ->.
      destruct (loop_seen a f fs [] w d w1 N1 N2 Hin E0 eq_refl) as (x & X1 & X2 & X3).
      destruct (IH w1 N1 N2 Hin) as (ds & xs & Y1 & Y2 & Y3).
      { rewrite E2. intros r Hr. apply H. right. exact Hr. }
      rewrite E2 in Y1. cbn [fst] in Y1. exists (d :: ds), (x :: xs). cbn [map]. rewrite Y1. split; [reflexivity|].
      rewrite map_app, sees_app, X1, untag, X3, Y2. split; [reflexivity|]. constructor; [exact X2|].
      rewrite (hide_wconf f w w1 C) in Y3. exact Y3.
  Qed.

  Lemma tags_does f fs n : NoDup (map snd fs) -> In f (map snd fs) ->
    second_does P (map (tag f) (concat (repeat (calls fs) n))) = repeat (Call P f) n.
  Proof.
    intros N Hin.
    assert (A : forall h1 h2, second_does P (h1 ++ h2) = second_does P h1 ++ second_does P h2).
    { induction h1 as [|[o|o] t IH]; intros h2; cbn [app second_does]; rewrite ?IH; reflexivity. }
    assert (B : second_does P (map (tag f) (calls fs)) = [Call P f]).
    { clear n. induction fs as [|[a g] t IH]; [destruct Hin|]. cbn [map calls snd tag] in *. fold (calls t). apply NoDup_cons_iff in N. destruct N as [M N].
      destruct (Nat.eqb_spec g f) as [->|Hn]; cbn [second_does].
      - f_equal. clear IH N Hin. induction t as [|[b g] t IH]; [reflexivity|]. cbn [map calls snd tag] in *. fold (calls t).
        destruct (Nat.eqb_spec g f) as [->|Hn]; [destruct M; left; reflexivity|]. cbn [second_does]. apply IH. intros X. apply M. right. exact X.
      - apply IH; [exact N|]. destruct Hin; [congruence | assumption]. }
    induction n as [|n IH]; [reflexivity|]. cbn [repeat concat]. rewrite map_app, A, B, IH. reflexivity.
  Qed.

  (** In a schema seeded as a whole, two fields that are set up alike have the same
      value in every document. *)
  Theorem C85_equal_fields rho w fs a f b g s u v n d :
    reachable P fuel str_of w ->
    NoDup (map fst fs) -> NoDup (map snd fs) -> In (a, f) fs -> In (b, g) fs ->
    fields_alike P rho (fun _ => g) w w [f] -> pure_factories P w f ->
    (forall x, In x (map snd fs) -> x <> f -> independent P w [x] [f]) ->
    (forall x, In x (map snd fs) -> x <> g -> independent P w [x] [g]) ->
    sc_seed_fields P fuel fs (Some s) w = (Ok tt, u) -> sc_reset_fields P fuel fs u = (Ok tt, v) ->
    let docs := fst (history P fuel str_of (repeat (Doc P fs) n) v) in
    (forall r, In r docs -> exists d, r = Ok (Document d)) ->
    In (Ok (Document d)) docs -> dict_get String.eqb a d = dict_get String.eqb b d.
  Proof.
    intros R N1 N2 Ha Hb A Hp If Ig A1 B1 docs Hd Hin.
    pose proof (seeded_fresh P fuel str_of score_quiet w fs s u v A1 B1) as F.
    assert (C : wconf w v) by apply F.
    assert (Hf : In f (map snd fs)) by (apply in_map_iff; exists (a, f); auto).
    assert (Hg : In g (map snd fs)) by (apply in_map_iff; exists (b, g); auto).
    destruct (docs_seen a f fs n v N1 N2 Ha Hd) as (ds & xs & X1 & X2 & X3).
    destruct (docs_seen b g fs n v N1 N2 Hb Hd) as (ds' & ys & Y1 & Y2 & Y3).
    fold docs in X1, Y1. rewrite X1 in Y1.
    assert (ds = ds').
    { clear -Y1. revert ds' Y1. induction ds as [|x t IH]; intros [|y t']; try discriminate; [reflexivity|].
      cbn. intros [= -> H]. f_equal. apply IH, H. }
    subst ds'.
    (* what the document shows of a field is what the field alone gives *)
    assert (Al : forall f, In f (map snd fs) -> (forall x, In x (map snd fs) -> x <> f -> independent P w [x] [f]) ->
      second_sees P fuel str_of (map (tag f) (concat (repeat (calls fs) n))) v = fst (history P fuel str_of (repeat (Call P f) n) v)).
    { intros h Hh Ih. rewrite (C54_independent P fuel str_of v (filter (fun x => negb (Nat.eqb x h)) (map snd fs)) [h]).
      - rewrite tags_does by assumption. reflexivity.
      - intros x y Hx Hy. destruct Hy as [<-|[]]. apply filter_In in Hx. destruct Hx as [Hx Nx]. apply negb_true_iff, Nat.eqb_neq in Nx.
        destruct (Ih x Hx Nx x h (or_introl eq_refl) (or_introl eq_refl)) as (Q1 & Q2 & Q3).
        split; [exact Q1|]. split.
        + intros (j & e & U & E & S). apply Q2. pose proof (proj1 C j) as Q. rewrite E in Q.
          destruct (get_em j w) as [e0|] eqn:E0; [|contradiction]. exists j, e0. split; [|split; [exact E0 | rewrite (conf_source _ _ Q); exact S]].
          eapply uses_wconf; [apply wconf_sym; exact C | exact U].
        + intros j U V. apply (Q3 j); (eapply uses_wconf; [apply wconf_sym; exact C | assumption]).
      - assert (L : forall l, (forall o, In o l -> exists nf, In nf fs /\ o = Call P (snd nf)) ->
          Forall (fun o => match o with inl o => about P v (filter (fun x => negb (Nat.eqb x h)) (map snd fs)) o | inr o => about P v [h] o end) (map (tag h) l)).
        { induction l as [|o t IH]; intros Hl; cbn [map]; constructor; [|apply IH; intros; apply Hl; right; assumption].
          destruct (Hl o (or_introl eq_refl)) as (nf & Hnf & ->). cbn [tag]. destruct (Nat.eqb_spec (snd nf) h) as [->|Hn]; cbn [about].
          - left. reflexivity.
          - apply filter_In. split; [apply in_map, Hnf | apply negb_true_iff, Nat.eqb_neq, Hn]. }
        apply L. intros o Ho. apply in_concat in Ho. destruct Ho as (l & Hl & Ho). apply repeat_spec in Hl. subst l.
        unfold calls in Ho. apply in_map_iff in Ho. destruct Ho as (nf & <- & Hnf). eauto. }
    rewrite (Al f Hf If) in X2. rewrite (Al g Hg Ig) in Y2.
    assert (T : fst (history P fuel str_of (repeat (Call P f) n) v) = fst (history P fuel str_of (repeat (Call P g) n) v)).
    { assert (Em : repeat (Call P g) n = map (op_renamed P rho (fun _ => g)) (repeat (Call P f) n)).
      { clear. induction n as [|n IH]; [reflexivity|]. cbn [repeat map]. f_equal. exact IH. }
      rewrite Em.
      apply (t_history fuel str_of rho (fun _ => g) (fun i => exists h, In h [f] /\ uses P w h i) (fun h => In h [f])
        (fun y => exists h, In h [f] /\ reads P w h y)).
      - intros i j (h & Hh & Ui) (h' & Hh' & Uj). exact (fa_distinct _ _ _ _ _ _ A h h' i j Hh Hh' Ui Uj).
      - intros x y [<-|[]] [<-|[]] _. reflexivity.
      - apply Forall_forall. intros o Ho. apply repeat_spec in Ho. subst o. left. reflexivity.
      - apply (seeded_twin P fuel str_of rho (fun _ => g) w w [f] s v v R R); [intros ? [<-|[]]; exact Hp | exact A | |].
        + apply (fewer_fresh P fuel s w v (map snd fs)); [|exact F]. intros ? [<-|[]]. exact Hf.
        + apply (fewer_fresh P fuel s w v (map snd fs)); [|exact F]. intros ? [<-|[]]. exact Hg. }
    rewrite X2, Y2 in T.
    assert (xs = ys).
    { clear -T. revert ys T. induction xs as [|x t IH]; intros [|y t']; try discriminate; [reflexivity|].
      cbn. intros [= -> H]. f_equal. apply IH, H. }
    subst ys.
    assert (Eh : fd_hide P f v = fd_hide P g v).
    { rewrite !(hide_wconf _ w v C). destruct (fa_fields _ _ _ _ _ _ A f (or_introl eq_refl)) as (x1 & x2 & E1 & E2 & Q & _).
      unfold fd_hide. rewrite E1, E2. symmetry. exact Q. }
    rewrite X1 in Hin. rewrite Eh in X3. clear -X3 Y3 Hin.
    revert X3 Y3. generalize xs as zs. induction ds as [|d0 t IH]; intros zs X Y; [destruct Hin|].
    inversion X as [|? z ? zt Xa Xb]; subst. inversion Y as [|? ? ? ? Ya Yb]; subst.
    destruct Hin as [Q|Hin]; [injection Q as ->; congruence | exact (IH Hin zt Xb Yb)].
  Qed.
End OneSchema.

(** ** Concrete cases *)

Lemma DP_quiet : forall u w, k_score DP u w <> Raise AttributeError.
Proof. intros u w. change (k_score DP u w) with (qc_score u w). unfold qc_score. destruct (QArith_base.Qle_bool _ _); [discriminate|]. destruct (QArith_base.Qeq_bool _ _); discriminate. Qed.

(** The concrete schema, made [k] emitters and [l] fields later. *)
Definition schema_at (k l : nat) : list (command DP) :=
  [NewChoice DP true [VInt 1; VInt 2; VInt 3] None true false None None;
   NewChoice DP true [VInt 2; VInt 3] None true false None None;
   NewChoice DP true [VStr [97]; VStr [98]; VStr [99]] None true false None None;
   NewWord DP (k + 1) (k + 2) None;
   NewChoice DP true [VBool true; VBool false] None true false None None;
   NewSequential DP true [VInt 10; VInt 20] false;
   NewField DP "id" k None None false None;
   NewCopyFields DP true [l] None;
   NewField DP "copy" (k + 8) None None false None;
   NewField DP "word" (k + 3) None (Some (k + 4)%nat) false None;
   NewField DP "serial" (k + 5) None None true None].
(** Two of them in one program, the first of which has been used; between them
    something else is made. *)
Definition two_schemas : world DP :=
  program (schema_at 0 0 ++ [Do DP (Doc DP demo_fields); NewStatic DP VNone; Do DP (Doc DP demo_fields)] ++ schema_at 15 4) empty.
Example two_reachable : reachable DP 9 demo_str two_schemas.
Proof. apply program_reachable; [constructor | vm_compute; reflexivity]. Qed.
(** Comparing settings of concrete objects (of the kinds used here). *)
Definition summary (e : emitter DP) : option (list bool * list val * option (static val) * option (factory val) * list nat * option (list Z)) :=
  match e with
  | EStatic _ s => Some ([], [], Some s, None, [], None)
  | ESeq _ b q => Some ([b; s_own q; s_rac q; true], s_items q, None, Some (s_factory q), [], None)
  | EChoice _ b c => match c_weights c, c_cum c with
                     | None, None => Some ([b; c_replace c; c_roac c], c_items c, None, None, [], None)
                     | _, _ => None end
  | EWord _ l a _ _ => Some ([], [], None, None, [l; a], None)
  | ECopy _ b fs sep => Some ([b], [], None, None, fs, sep)
  | _ => None
  end.
Definition alike_summary (rho sigma : nat -> nat) (w1 w2 : world DP) (i : nat) : Prop :=
  match get_em DP i w1, get_em DP (rho i) w2 with
  | Some e1, Some e2 => summary e2 <> None /\ summary (renamed DP rho sigma e1) = summary e2
  | _, _ => False
  end.
Lemma by_summary rho sigma w1 w2 i : alike_summary rho sigma w1 w2 i -> alike DP rho sigma w1 w2 i.
Proof.
  unfold alike_summary, alike. destruct (get_em DP i w1) as [e1|]; [|contradiction]. destruct (get_em DP (rho i) w2) as [e2|]; [|contradiction].
  intros [N H]. exists e1, e2. split; [reflexivity|]. split; [reflexivity|]. revert N H. generalize (renamed DP rho sigma e1) as e. clear e1.
  intros e1. destruct e1, e2; cbn [summary same_settings]; intros N H; try congruence;
    repeat match type of H with context [match ?x with _ => _ end] => destruct x eqn:?; try congruence end;
    try discriminate; try (injection H; clear H; intros); subst; repeat split; congruence.
Qed.
Definition field_summary (w : world DP) (f : nat) : option (bool * nat * nat * nat) :=
  match get_fd DP f w with Some x => Some (f_hide DP x, f_em DP x, f_rep DP x, f_gate DP x) | None => None end.
Lemma by_field_summary rho sigma w1 w2 f h e r g : field_summary w1 f = Some (h, e, r, g) ->
  field_summary w2 (sigma f) = Some (h, rho e, rho r, rho g) -> field_alike DP rho sigma w1 w2 f.
Proof.
  unfold field_summary, field_alike. destruct (get_fd DP f w1) as [x1|]; [|discriminate]. destruct (get_fd DP (sigma f) w2) as [x2|]; [|discriminate].
  intros [= <- <- <- <-] [= Q0 Q1 Q2 Q3]. exists x1, x2. auto 10.
Qed.

Example two_alike : fields_alike DP (Nat.add 15) (Nat.add 4) two_schemas two_schemas (map snd demo_fields).
Proof.
  assert (L : forall f i, In f (map snd demo_fields) -> uses DP two_schemas f i -> In i (seq 0 14)).
  { intros f i Hf. apply (uses_in two_schemas (seq 0 14) f i); [vm_compute; reflexivity|].
    cbn in Hf. destruct Hf as [<-|[<-|[<-|[<-|[]]]]]; vm_compute; reflexivity. }
  constructor.
  - intros f Hf. cbn in Hf. destruct Hf as [<-|[<-|[<-|[<-|[]]]]]; (eapply by_field_summary; vm_compute; reflexivity).
  - intros f i Hf U. apply (L f i Hf) in U. clear Hf f L. apply by_summary. cbn in U.
    repeat (destruct U as [<-|U]; [vm_compute; split; [discriminate | reflexivity]|]).
    destruct U.
  - intros f g Hf R.
    assert (G : In g (map snd demo_fields)).
    { apply (reads_in two_schemas (seq 0 14) (map snd demo_fields) f g); [vm_compute; reflexivity | | vm_compute; reflexivity | exact R].
      cbn in Hf. destruct Hf as [<-|[<-|[<-|[<-|[]]]]]; vm_compute; reflexivity. }
    split; [exact G|]. cbn in G. destruct G as [<-|[<-|[<-|[<-|[]]]]]; vm_compute; reflexivity.
  - intros. lia.
  - intros. lia.
Qed.
Example two_pure f : In f (map snd demo_fields) -> pure_factories DP two_schemas f.
Proof.
  intros Hf. apply pure_by_class with (seq 0 14); [vm_compute; reflexivity | | vm_compute; reflexivity].
  cbn in Hf. destruct Hf as [<-|[<-|[<-|[<-|[]]]]]; vm_compute; reflexivity.
Qed.
Example C84_case :
  let fs := demo_fields in
  let gs := fields_renamed (Nat.add 4) demo_fields in
  let start fs := [SeedFields DP fs (Some 3%nat); ResetFields DP fs] in
  fst (history DP 9 demo_str (start fs ++ [Doc DP fs; Doc DP fs; EmitN DP 2 4]) two_schemas) =
  fst (history DP 9 demo_str (start gs ++ [Doc DP gs; Doc DP gs; EmitN DP 17 4]) two_schemas) /\
  fst (history DP 9 demo_str (start fs ++ [Doc DP fs; Doc DP fs; EmitN DP 2 4]) two_schemas) =
    [Ok Done; Ok Done;
     Ok (Document [("id", VInt 1); ("copy", VInt 1); ("word", VNone)]);
     Ok (Document [("id", VInt 2); ("copy", VInt 2); ("word", VStr [98; 99; 97])]);
     Ok (Values [VStr [99]; VStr [97]; VStr [98]; VStr [97]])]%string.
Proof. vm_compute. split; reflexivity. Qed.

(** ** C85: seeding a schema as a whole makes its fields depend on each other *)

(** The first document of the schema after seeding and resetting. *)
Definition first_document (fs : list (string * nat)) (s : nat) (w : world DP) : res (list (string * val)) :=
  fst ((sc_seed_fields DP 9 fs (Some s) ;;; sc_reset_fields DP 9 fs ;;; sc_call DP 9 demo_str fs) w).

(** Two fields have nothing to do with each other.  If the first may have the
    value [x], and the second the value [y], then both should be able to happen in
    one document. *)
Definition C85_statement : Prop :=
  forall w a f b g s1 s2 x x' y y',
    reachable DP 9 demo_str w -> a <> b ->
    independent DP w [f] [g] -> independent DP w [g] [f] ->
    first_document [(a, f); (b, g)] s1 w = Ok [(a, x); (b, y')] ->
    first_document [(a, f); (b, g)] s2 w = Ok [(a, x'); (b, y)] ->
    exists s, first_document [(a, f); (b, g)] s w = Ok [(a, x); (b, y)].

(** Field('a', Choice([1, 2])) and Field('b', Choice([1, 2])) *)
Definition same_choices : world DP :=
  program [NewChoice DP true [VInt 1; VInt 2] None true false None None;
           NewChoice DP true [VInt 1; VInt 2] None true false None None;
           NewField DP "a" 0 None None false None;
           NewField DP "b" 1 None None false None] empty.
Definition two_fields : list (string * nat) := [("a", 0%nat); ("b", 1%nat)]%string.
Definition swap (i : nat) : nat := match i with 0 => 1 | 2 => 4 | 3 => 5 | i => i end%nat.
Example same_reachable : reachable DP 9 demo_str same_choices.
Proof. apply program_reachable; [constructor | vm_compute; reflexivity]. Qed.
Lemma same_uses_a i : uses DP same_choices 0 i -> In i [0; 2; 3]%nat.
Proof. apply (uses_in same_choices [0; 2; 3]%nat 0 i); vm_compute; reflexivity. Qed.
Lemma same_uses_b i : uses DP same_choices 1 i -> In i [1; 4; 5]%nat.
Proof. apply (uses_in same_choices [1; 4; 5]%nat 1 i); vm_compute; reflexivity. Qed.
Lemma same_reads f g : In f [0; 1]%nat -> ~ reads DP same_choices f g.
Proof.
  intros Hf R. apply (reads_in same_choices (seq 0 6) [] f g) in R; [exact R | vm_compute; reflexivity | | vm_compute; reflexivity].
  cbn in Hf. destruct Hf as [<-|[<-|[]]]; vm_compute; reflexivity.
Qed.
Example same_independent : independent DP same_choices [0%nat] [1%nat] /\ independent DP same_choices [1%nat] [0%nat].
Proof.
  split; intros f g [<-|[]] [<-|[]]; (split; [discriminate|]); (split; [apply same_reads; cbn; auto|]); intros j U V.
  - apply same_uses_a in U. apply same_uses_b in V. cbn in U, V. intuition congruence.
  - apply same_uses_b in U. apply same_uses_a in V. cbn in U, V. intuition congruence.
Qed.
Example same_alike : fields_alike DP swap (fun _ => 1%nat) same_choices same_choices [0%nat].
Proof.
  constructor.
  - intros f [<-|[]]. eapply by_field_summary; vm_compute; reflexivity.
  - intros f i [<-|[]] U. apply same_uses_a in U. apply by_summary. cbn in U.
    repeat (destruct U as [<-|U]; [vm_compute; split; [discriminate | reflexivity]|]). destruct U.
  - intros f g [<-|[]] R. destruct (same_reads 0 g); [left; reflexivity | exact R].
  - intros f g i j [<-|[]] [<-|[]] U V. apply same_uses_a in U, V. cbn in U, V.
    destruct U as [<-|[<-|[<-|[]]]], V as [<-|[<-|[<-|[]]]]; cbn; congruence.
  - intros f g [<-|[]] [<-|[]] _. reflexivity.
Qed.
Example same_pure : pure_factories DP same_choices 0.
Proof. apply pure_by_class with [0; 2; 3]%nat; vm_compute; reflexivity. Qed.

(** The concrete case of [C85_equal_fields]: both fields have the same value in the
    first document, whatever the seed. *)
Lemma three_steps {S A} (m1 m2 : M S unit) (m3 : M S A) w x : fst ((m1 ;;; m2 ;;; m3) w) = Ok x ->
  exists u v t, m1 w = (Ok tt, u) /\ m2 u = (Ok tt, v) /\ m3 v = (Ok x, t).
Proof.
  unfold mbind. destruct (m1 w) as [[[]|e|] u]; try discriminate. destruct (m2 u) as [[[]|e|] v] eqn:E2; try discriminate.
  destruct (m3 v) as [r t] eqn:E3. cbn. intros ->. exists u, v, t. auto.
Qed.
Lemma one_document {P} fuel str_of fs (v : world P) d t : sc_call P fuel str_of fs v = (Ok d, t) ->
  fst (history P fuel str_of (repeat (Doc P fs) 1) v) = [Ok (Document d)].
Proof. intros E. cbn [repeat history run]. unfold mbind. rewrite E. reflexivity. Qed.
Lemma first_equal P fuel str_of rho (w : world P) a f b g s x y :
  (forall u w, k_score P u w <> Raise AttributeError) -> reachable P fuel str_of w -> a <> b -> f <> g ->
  fields_alike P rho (fun _ => g) w w [f] -> pure_factories P w f ->
  independent P w [f] [g] -> independent P w [g] [f] ->
  fst ((sc_seed_fields P fuel [(a, f); (b, g)] (Some s) ;;; sc_reset_fields P fuel [(a, f); (b, g)] ;;;
        sc_call P fuel str_of [(a, f); (b, g)]) w) = Ok [(a, x); (b, y)] -> x = y.
Proof.
  intros Q R Nab Nfg A Hp I1 I2 H. apply three_steps in H. destruct H as (u & v & t & E1 & E2 & E3).
  apply one_document in E3.
  assert (Qe : dict_get String.eqb a [(a, x); (b, y)] = dict_get String.eqb b [(a, x); (b, y)]).
  { refine (C85_equal_fields P fuel str_of Q rho w _ a f b g s u v 1 _ R _ _ _ _ A Hp _ _ E1 E2 _ _).
    - repeat constructor; cbn; intuition congruence.
    - repeat constructor; cbn; intuition congruence.
    - cbn; auto.
    - cbn; auto.
    - intros z Hz Nz. cbn in Hz. destruct Hz as [<-|[<-|[]]]; [congruence | assumption].
    - intros z Hz Nz. cbn in Hz. destruct Hz as [<-|[<-|[]]]; [assumption | congruence].
    - rewrite E3. intros r [<-|[]]. eauto.
    - rewrite E3. left. reflexivity. }
  cbn in Qe. rewrite !String.eqb_refl in Qe. destruct (String.eqb_spec b a); congruence.
Qed.
Lemma same_first s x y : first_document two_fields s same_choices = Ok [("a", x); ("b", y)]%string -> x = y.
Proof.
  apply (first_equal DP 9 demo_str swap same_choices "a"%string 0 "b"%string 1 s x y DP_quiet same_reachable);
    [discriminate | discriminate | exact same_alike | exact same_pure | apply same_independent | apply same_independent].
Qed.
Example C85_first :
  first_document two_fields 2 same_choices = Ok [("a", VInt 1); ("b", VInt 1)]%string /\
  first_document two_fields 1 same_choices = Ok [("a", VInt 2); ("b", VInt 2)]%string.
Proof. vm_compute. auto. Qed.
Theorem C85_fields_vary_refuted : ~ C85_statement.
Proof.
  intros H.
  destruct (H same_choices "a"%string 0%nat "b"%string 1%nat 2%nat 1%nat (VInt 1) (VInt 2) (VInt 2) (VInt 1)) as [s Hs].
  - exact same_reachable.
  - discriminate.
  - apply same_independent.
  - apply same_independent.
  - apply C85_first.
  - apply C85_first.
  - apply same_first in Hs. discriminate.
Qed.

Print Assumptions C84_schemas.
Print Assumptions C84_emitters.
Print Assumptions C85_equal_fields.
Print Assumptions C85_fields_vary_refuted.
