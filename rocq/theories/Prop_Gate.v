(** * C87: gate and value of a seeded field. *)
From Coq Require Import String.
From Verif Require Import Base Prims Values MathModel MathSpec MathProofs NumLaws ChoiceModel ChoiceRun ChoiceProofs ChoiceProofs4 FixedModel GroupModel
  SigModel WrapModel TextModel FieldModel World Rel WorldProofs Agree WorldSpec WorldBuild BuildProofs
  ObjectSpec ObjectCalls WorldReset WorldSeed Histories Prop_Field Prop_World Prop_Objects Prop_Parts.
Open Scope list_scope.
Open Scope nat_scope.

(** The position that belongs to the random number [u], for items with these weights *)
Definition position (P : prims) (ws : list (pW P)) (u : pU P) : nat :=
  let cum := accumulate P ws in
  bisect_right P (length cum) cum (w_scale P u (last cum (w_zero P))) 0 (length ws - 1).

(** Field [f] has the gate emitter Choice([True, False], weights=gs), as chance makes
    it, no repeat emitter, and the emitter Choice(items, weights=ws). *)
Definition gated (P : prims) (w : World.world P) (f : nat) (gs : list (pW P)) (items : list val) (ws : list (pW P)) : Prop :=
  exists name hide em rep gate some b1 b2 roac1 roac2,
    field_settings_at P f w = Some (name, hide, em, rep, gate) /\ em <> gate /\
    settings_at P gate w = Some (IsChoice b1 [VBool true; VBool false] (Some gs) (Some (accumulate P gs)) true roac1) /\
    settings_at P rep w = Some (IsStatic VNone some) /\
    settings_at P em w = Some (IsChoice b2 items (Some ws) (Some (accumulate P ws)) true roac2).
(** The first value of the field when it is given the seed [s]: field.seed(s),
    field.reset(), field(). *)
Definition first_value (P : prims) (fuel : nat) (str_of : val -> res (list Z)) (f : nat) (s : pSeed P) (w : World.world P) : res val :=
  fst ((fd_seed P fuel f (Some s) ;;; fd_reset P fuel f ;;; fd_call P fuel str_of f) w).

Section C87.
  Context {P : prims} (fuel : nat) (str_of : val -> res (list Z)).
  Notation world := (World.world P).
  Notation get_em := (World.get_em P).
  Notation get_fd := (World.get_fd P).
  Hypothesis score_quiet : forall u w, k_score P u w <> Raise AttributeError.

  (** Operations that succeed on simple emitters and keep them so *)
  Definition simple (e : emitter P) : Prop :=
    match e with EStatic _ _ => True | EChoice _ _ c => c_replace c = true | _ => False end.
  Definition fine (l : list nat) (f : nat) (w : world) : Prop :=
    (forall j, In j l -> exists e, get_em j w = Some e /\ simple e) /\ exists x, get_fd f w = Some x /\ parts P x = l.
  Definition good (l : list nat) (f : nat) (m : M world unit) : Prop :=
    forall w, fine l f w -> fst (m w) = Ok tt /\ fine l f (snd (m w)).

  Lemma good_bind l f m n : good l f m -> good l f n -> good l f (m ;;; n).
  Proof.
    intros Hm Hn w F. destruct (Hm w F) as [E F']. unfold mbind. destruct (m w) as [r w1]. cbn [fst snd] in *. subst r. apply Hn, F'.
  Qed.
  Lemma good_ret l f : good l f (ret tt).
  Proof. intros w F. split; [reflexivity | exact F]. Qed.

  Lemma simple_put l f j e' w : fine l f w -> simple e' -> fine l f (put_em P j e' w).
  Proof.
    intros [Hs Hx] Se. split.
    - intros k Hk. destruct (Hs k Hk) as (e & E & S). destruct (Nat.eq_dec k j) as [->|N].
      + exists e'. split; [exact (get_put_same j e' w e E) | exact Se].
      + exists e. rewrite get_put_other by exact N. auto.
    - unfold World.get_fd in *. rewrite fd_put. exact Hx.
  Qed.
  Lemma simple_use l f j w : fine l f w -> fine l f (use_entropy P j w).
  Proof.
    intros [Hs Hx]. split.
    - intros k Hk. rewrite get_use. exact (Hs k Hk).
    - unfold World.get_fd in *. rewrite fd_use. exact Hx.
  Qed.
  Lemma good_set_seed l f j s : In j l -> good l f (set_rng_seed P s j).
  Proof.
    intros Hj w F. unfold set_rng_seed, modify_em, at_em. destruct (proj1 F j Hj) as (e & -> & S). cbn [fst snd].
    split; [reflexivity|]. apply simple_put; [exact F|]. destruct e; cbn in *; auto; contradiction.
  Qed.
  Lemma good_reset l f j : In j l -> good l f (em_reset P fuel j).
  Proof.
    intros Hj w F. unfold em_reset. cbn [ereset]. unfold at_em. destruct (proj1 F j Hj) as (e & E & S). rewrite E.
    destruct e as [| | |b c| | | | | | |]; try contradiction; [split; [reflexivity | exact F]|]. cbn in S.
    assert (X : forall ent, run_choice P j (choice_reset P fuel ent) w = (Ok tt, put_em P j (EChoice P b (set_rng P (rng_for P (c_seed c) ent) c)) w)).
    { intros ent. unfold run_choice, at_em. rewrite E. unfold choice_reset, mbind, ChoiceModel.modify, ChoiceModel.get, ret.
      cbn [c_replace set_rng]. rewrite S. reflexivity. }
    unfold mbind. rewrite X. cbn [fst snd]. split; [reflexivity|]. apply simple_use, simple_put; [exact F | exact S].
  Qed.
  Lemma good_seed l f j s : In j l -> forall w, fine l f w -> has_seed P j w = true ->
    fst (em_seed P fuel j s w) = Ok tt /\ fine l f (snd (em_seed P fuel j s w)).
  Proof.
    intros Hj w F. unfold has_seed, em_seed. cbn [eseed]. unfold at_em. destruct (proj1 F j Hj) as (e & E & S). rewrite E.
    destruct e as [| | |b c| | | | | | |]; try contradiction; [discriminate|]. cbn in S. intros _.
    assert (X : forall ent, run_choice P j (choice_seed P fuel s ent) w = (Ok tt, put_em P j (EChoice P b (set_rng P (rng_for P s ent) (set_seed P s c))) w)).
    { intros ent. unfold run_choice, at_em. rewrite E. unfold choice_seed, mbind, ChoiceModel.modify, ChoiceModel.get, ret.
      cbn [c_replace set_rng set_seed]. rewrite S. reflexivity. }
    unfold mbind. rewrite X. cbn [fst snd]. split; [reflexivity|]. apply simple_use, simple_put; [exact F | exact S].
  Qed.
  Lemma good_modify l f g : (forall x, parts P (g x) = parts P x) -> good l f (modify_fd P f g).
  Proof.
    intros Hg w [Hs (x & Ex & Hx)]. unfold modify_fd, at_fd. rewrite Ex. cbn [fst snd]. split; [reflexivity|]. split; [exact Hs|].
    exists (g x). split; [|rewrite Hg; exact Hx]. unfold World.get_fd, put_fd in *. cbn. exact (nth_upd_same _ _ _ _ _ Ex).
  Qed.

  Lemma good_seed_all l f s k : incl k l -> good l f (seed_all P (fun j => em_seed P fuel j s) k).
  Proof.
    unfold seed_all. induction k as [|j k IH]; intros Hk; cbn [map group_do_method]; [apply good_ret|].
    apply good_bind; [|apply IH; intros z Hz; apply Hk; right; exact Hz].
    intros w F. unfold catch_attribute_error. destruct (has_seed P j w) eqn:Hh; [|split; [reflexivity | exact F]].
    destruct (good_seed l f j s (Hk j (or_introl eq_refl)) w F Hh) as [E F']. destruct (em_seed P fuel j s w) as [r w1]. cbn [fst snd] in *.
    subst r. auto.
  Qed.
  Lemma good_set_children l f s k : incl k l -> good l f (seed_children P s k).
  Proof.
    unfold seed_children. induction k as [|j k IH]; intros Hk; cbn [map group_setattr]; [apply good_ret|].
    apply good_bind; [|apply IH; intros z Hz; apply Hk; right; exact Hz].
    intros w F. destruct (has_seed P j w); [|split; [reflexivity | exact F]]. exact (good_set_seed l f j s (Hk j (or_introl eq_refl)) w F).
  Qed.
  Lemma good_reset_children l f k : incl k l -> good l f (reset_children P (em_reset P fuel) k).
  Proof.
    unfold reset_children. induction k as [|j k IH]; intros Hk; cbn [map group_do_method]; [apply good_ret|].
    apply good_bind; [|apply IH; intros z Hz; apply Hk; right; exact Hz].
    intros w F. unfold catch_attribute_error. destruct (good_reset l f j (Hk j (or_introl eq_refl)) w F) as [E F'].
    destruct (em_reset P fuel j w) as [r w1]. cbn [fst snd] in *. subst r. auto.
  Qed.
  Lemma good_fd_seed l f s : good l f (fd_seed P fuel f (Some s)).
  Proof.
    intros w F. pose proof F as [Hs (x & Ex & Hx)]. unfold fd_seed, at_fd. rewrite Ex, Hx. unfold mixin_seed.
    apply (good_bind l f); [apply good_seed_all, incl_refl| |exact F].
    intros w1 F1. unfold catch_attribute_error.
    match goal with |- context [modify_fd P f ?g w1] => pose proof (good_modify l f g (fun _ => eq_refl) w1 F1) as [E F2]; destruct (modify_fd P f g w1) as [r w2] end.
    cbn [fst snd] in *. subst r. auto.
  Qed.
  Lemma good_fd_reset l f : good l f (fd_reset P fuel f).
  Proof.
    intros w F. pose proof F as [Hs (x & Ex & Hx)]. unfold fd_reset, at_fd. rewrite Ex, Hx. unfold mixin_reset.
    apply (good_bind l f); [|apply good_modify; reflexivity|exact F].
    apply good_bind; [apply good_set_children, incl_refl|]. apply good_bind; [apply good_modify; reflexivity|].
    apply good_reset_children, incl_refl.
  Qed.

  (** The first draw of a seeded Choice *)
  Lemma last_cum (ws : list (pW P)) : ws <> [] -> exists q, rev (accumulate P ws) = last (accumulate P ws) (w_zero P) :: q.
  Proof.
    intros N. destruct (rev (accumulate P ws)) as [|t q] eqn:E.
    - apply (f_equal (@length _)) in E. rewrite rev_length, accumulate_length' in E. destruct ws; [congruence | discriminate].
    - exists q. f_equal. rewrite <- (rev_involutive (accumulate P ws)), E. cbn [rev]. rewrite last_last. reflexivity.
  Qed.
  Lemma position_bound (ws : list (pW P)) u : ws <> [] -> position P ws u < length ws.
  Proof.
    intros N. unfold position. pose proof (bisect_bounds P (length (accumulate P ws)) (accumulate P ws)
      (w_scale P u (last (accumulate P ws) (w_zero P))) 0 (length ws - 1) ltac:(lia)) as B.
    assert (length ws <> 0) by (destruct ws; [congruence | discriminate]). lia.
  Qed.
  Lemma first_draw s b c ws : fresh P fuel (Some s) (EChoice P b c) -> c_replace c = true -> c_weights c = Some ws ->
    c_cum c = Some (accumulate P ws) -> length ws = length (c_items c) -> 2 <= length (c_items c) ->
    w_total_ok P (last (accumulate P ws) (w_zero P)) = true ->
    exists r, choice_emit P val_setsize fuel c =
      (Ok (nth (position P ws (fst (r_random P (r_seeded P s)))) (c_items c) VNone), set_rng P r c).
  Proof.
    intros (c0 & ent & Es & Ei & Er) Hr Hw Hc Hl Hn Ht.
    assert (Eg : c_rng c = r_seeded P s).
    { unfold choice_reset, mbind, ChoiceModel.modify, ChoiceModel.get in Er. destruct (c_replace (set_rng P (rng_for P (c_seed c0) ent) c0)) eqn:R0.
      - injection Er as <-. cbn [c_rng set_rng]. rewrite Es. reflexivity.
      - exfalso. assert (X : choice_reset P fuel ent c0 = (Ok tt, c)).
        { unfold choice_reset, mbind, ChoiceModel.modify, ChoiceModel.get. rewrite R0. exact Er. }
        apply reset_any in X as [X _]. cbn [c_replace set_rng] in R0. destruct X as (_ & _ & _ & X & _). congruence. }
    assert (Nw : ws <> []) by (intros ->; cbn in Hl; lia).
    destruct (last_cum ws Nw) as (q & Eq).
    assert (Z1 : zlen (c_items c) <> 1%Z) by (unfold zlen; lia).
    destruct (weighted_any P val_setsize fuel (ChoiceRun.Emit) c ws (accumulate P ws) _ q Hr Hw Hc (or_intror (Z.le_refl 1))
      (eq_trans (accumulate_length' P ws) Hl) Eq Ht Z1) as (l & El & Hp).
    { intros i Hi. apply in_map_iff in Hi as (u & <- & _). rewrite <- Hl. apply position_bound, Nw. }
    change (Z.to_nat (ask_size ChoiceRun.Emit)) with 1 in *. cbn [draws] in *. rewrite Eg in *.
    destruct (r_random P (r_seeded P s)) as [u r1]. cbn [fst snd map] in *. exists r1.
    cbn [do_ask] in El. unfold mbind in El. destruct (choice_emit P val_setsize fuel c) as [[a|e|] c1]; try discriminate.
    cbv [ret] in El. injection El as <- ->. f_equal. f_equal. inversion Hp as [|p x ps xs Hn1 Hn2]; subst.
    unfold position. rewrite Hl in *. symmetry. apply nth_error_nth. exact Hn1.
  Qed.

  Lemma conf_choice w v j b items ws cum rep roac : wconf w v ->
    settings_at P j w = Some (IsChoice b items (Some ws) cum rep roac) ->
    exists c, get_em j v = Some (EChoice P b c) /\ c_items c = items /\ c_weights c = Some ws /\ c_cum c = cum /\ c_replace c = rep.
  Proof.
    intros C St. apply settings_get in St as (e & E & St). pose proof (proj1 C j) as Q. rewrite E in Q.
    destruct (get_em j v) as [e'|]; [|contradiction]. destruct e; try discriminate. injection St as <- <- Hw <- <- <-.
    destruct e'; try contradiction. destruct Q as [-> (Q1 & Q2 & Q3 & Q4 & _)]. exists c0. repeat split; congruence.
  Qed.
  Lemma emit_choice j b c (v : world) : get_em j v = Some (EChoice P b c) ->
    em_call P fuel str_of j v = (fst (choice_emit P val_setsize fuel c), put_em P j (EChoice P b (snd (choice_emit P val_setsize fuel c))) v).
  Proof.
    intros E. unfold em_call, em_emit. cbn [emits fst]. unfold emit_body, at_em, run_choice, at_em. rewrite E. cbv beta iota. rewrite E.
    destruct (choice_emit P val_setsize fuel c). reflexivity.
  Qed.

  (** The gate and the value are decided by one and the same random number. *)
  Theorem C87_same_draw w f gs items ws s : gated P w f gs items ws ->
    length gs = 2 -> length ws = length items -> 2 <= length items ->
    w_total_ok P (last (accumulate P gs) (w_zero P)) = true -> w_total_ok P (last (accumulate P ws) (w_zero P)) = true ->
    let u := fst (r_random P (r_seeded P s)) in
    first_value P fuel str_of f s w =
    Ok (if position P gs u =? 0 then nth (position P ws u) items VNone else VNone).
  Proof.
    intros (name & hide & em & rep & gate & some & b1 & b2 & ro1 & ro2 & Sf & Ne & Sg & Sr & Se) Lg Lw Ln Tg Tw u.
    assert (F : fine [em; rep; gate] f w).
    { split.
      - intros j [<-|[<-|[<-|[]]]]; [apply settings_get in Se as (e & E & St) | apply settings_get in Sr as (e & E & St) | apply settings_get in Sg as (e & E & St)];
          exists e; (split; [exact E|]); destruct e; try discriminate; cbn; auto; injection St; auto.
      - unfold field_settings_at in Sf. destruct (get_fd f w) as [x|]; [|discriminate]. injection Sf as _ _ <- <- <-. eauto. }
    destruct (good_fd_seed _ _ s _ F) as [E1 F1]. destruct (good_fd_reset _ _ _ F1) as [E2 F2].
    unfold first_value, mbind. destruct (fd_seed P fuel f (Some s) w) as [r1 w1] eqn:A1. cbn [fst snd] in *. subst r1.
    destruct (fd_reset P fuel f w1) as [r2 v] eqn:A2. cbn [fst snd] in *. subst r2.
    destruct (field_alone_fresh fuel str_of score_quiet s f w v) as (C & _ & Fr); [exists w1; auto|].
    destruct F2 as [_ (x & Ex & Hx)]. injection Hx as <- <- <-.
    assert (U : forall p, In p (parts P x) -> fresh_at P fuel (Some s) v p).
    { intros p Hp. apply Fr. unfold field_settings_at in Sf. destruct (get_fd f w) as [y|] eqn:Ey; [|discriminate].
      injection Sf as _ _ Q1 Q2 Q3. exists y, p. split; [exact Ey|]. split; [unfold parts; rewrite Q1, Q2, Q3; exact Hp | apply belongs_self]. }
    destruct (conf_choice w v _ _ _ _ _ _ _ C Sg) as (cg & Gg & Ig & Wg & Kg & Rg).
    destruct (conf_choice w v _ _ _ _ _ _ _ C Se) as (ce & Ge & Ie & We & Ke & Re).
    destruct (first_draw s b1 cg gs (U _ (or_intror (or_intror (or_introl eq_refl))) _ Gg) Rg Wg Kg) as (r1 & D1); [rewrite Ig; exact Lg | rewrite Ig; cbn; lia | exact Tg |].
    destruct (first_draw s b2 ce ws (U _ (or_introl eq_refl) _ Ge) Re We Ke) as (r2 & D2); [rewrite Ie; exact Lw | rewrite Ie; exact Ln | exact Tw |].
    fold u in D1, D2. rewrite Ig in D1. rewrite Ie in D2.
    unfold fd_call, at_fd. rewrite Ex. unfold field_call. unfold mbind at 1. rewrite (emit_choice _ _ _ _ Gg), D1. cbn [fst snd].
    set (v1 := put_em P (f_gate P x) _ v).
    assert (Fd : w_fd P v1 = w_fd P v) by apply fd_put.
    assert (Bd : position P gs u < 2) by (rewrite <- Lg; apply position_bound; intros ->; discriminate).
    assert (Mo : forall c (V : world), w_fd P V = w_fd P v -> fst ((modify_fd P f (fd_cache P c) ;;; ret c) V) = Ok c).
    { intros c V Q. unfold modify_fd, at_fd, mbind. replace (get_fd f V) with (Some x); [reflexivity|]. unfold World.get_fd in *. rewrite Q. auto. }
    destruct (position P gs u) as [|[|]] eqn:Eq; [| |lia]; cbn [Nat.eqb nth truthy].
    - unfold mbind at 1.
      assert (Er : em_call P fuel str_of (f_rep P x) v1 = (Ok VNone, v1)).
      { apply settings_get in Sr as (e & E & St). destruct e as [st| | | | | | | | | |]; try discriminate. injection St as St _.
        assert (Nr : f_rep P x <> f_gate P x).
        { intros Q. rewrite Q in E. unfold settings_at in Sg. rewrite E in Sg. discriminate. }
        assert (E' : get_em (f_rep P x) v1 = Some (EStatic P st)).
        { unfold v1. rewrite get_put_other by exact Nr. pose proof (proj1 C (f_rep P x)) as Q. rewrite E in Q.
          destruct (get_em (f_rep P x) v) as [e|]; [|contradiction]. destruct e; try contradiction. cbn in Q. congruence. }
        unfold em_call, em_emit. cbn [emits fst]. unfold emit_body, at_em. rewrite E'. unfold static_emit, lift. cbn [fst]. rewrite St. reflexivity. }
      rewrite Er. cbn [call_val]. unfold mbind at 1.
      assert (Ge' : get_em (f_em P x) v1 = Some (EChoice P b2 ce)) by (unfold v1; rewrite get_put_other by exact Ne; exact Ge).
      rewrite (emit_choice _ _ _ _ Ge'), D2. cbn [fst snd]. apply Mo. rewrite fd_put. exact Fd.
    - apply Mo. exact Fd.
  Qed.
End C87.
Print Assumptions C87_same_draw.

(** A field with a gate Choice([True, False], weights=[g1, g2]) and the emitter
    Choice([1, 2], weights=[w1, w2]) *)
Section Made.
  Context (P : prims) (fuel : nat) (str_of : val -> res (list Z)) (g1 g2 w1 w2 : pW P).
  Definition made_gated : World.world P :=
    snd ((exec P fuel str_of (NewChoice P true [VBool true; VBool false] (Some [g1; g2]) true false None None) ;;;
          exec P fuel str_of (NewChoice P true [VInt 1; VInt 2] (Some [w1; w2]) true false None None) ;;;
          exec P fuel str_of (NewField P "x" 1 None (Some 0) false None)) (mkWorld P [] [] (run_entropy 0))).
  Lemma made_reachable : reachable P fuel str_of made_gated.
  Proof.
    unfold made_gated.
    assert (R0 := reach_start P fuel str_of 0).
    assert (R1 := reach_step P fuel str_of (NewChoice P true [VBool true; VBool false] (Some [g1; g2]) true false None None) _ R0
      ltac:(split; intros ? [])).
    assert (R2 := reach_step P fuel str_of (NewChoice P true [VInt 1; VInt 2] (Some [w1; w2]) true false None None) _ R1
      ltac:(split; intros ? [])).
    refine (reach_step P fuel str_of (NewField P "x" 1 None (Some 0) false None) _ R2 _).
    split; [|intros ? []]. cbn. intros i [<-|[<-|[]]]; cbn; lia.
  Qed.
  Lemma made_is_gated : gated P made_gated 0 [g1; g2] [VInt 1; VInt 2] [w1; w2].
  Proof.
    exists "x"%string, false, 1, 2, 0, [VNone], true, true, false, false.
    split; [reflexivity|]. split; [discriminate|]. split; [reflexivity|]. split; reflexivity.
  Qed.
End Made.

(** ** Exact numbers, any generator *)
From Coq Require Import QArith Qcanon.
From Verif Require Import QcNum QcProofs.

Lemma QP_quiet g : forall u w, k_score (QP g) u w <> Raise AttributeError.
Proof. intros u w. cbn [QP k_score]. unfold qc_score. repeat match goal with |- context [if ?b then _ else _] => destruct b end; discriminate. Qed.

Lemma plus_lt (a b c d : Qc) : (a < b)%Qc -> (c < d)%Qc -> (a + c < b + d)%Qc.
Proof.
  unfold Qclt. intros H1 H2. cbn [Qcplus this Q2Qc]. rewrite !Qred_correct.
  apply Qplus_lt_le_compat; [exact H1 | apply Qlt_le_weak; exact H2].
Qed.

(** With the gate chance(0.5) and the emitter Choice([1, 2], weights=[1, 1]) the first
    value is 1 or none, whatever the seed: never 2.  In particular with the generator
    of CPython (Mersenne.v). *)
Theorem C87_never : forall (g : qgen) fuel str_of (w : World.world (QP g)) f a b (p q : Qc) s,
  gated (QP g) w f [p; (1 - p)%Qc] [a; b] [q; q] -> (p <= Q2Qc (1 # 2))%Qc -> (0 < q)%Qc ->
  first_value (QP g) fuel str_of f s w = Ok a \/ first_value (QP g) fuel str_of f s w = Ok VNone.
Proof.
  intros g fuel str_of w f a b p q s G Hp Hq.
  assert (T1 : w_total_ok (QP g) (last (accumulate (QP g) [p; (1 - p)%Qc]) (w_zero (QP g))) = true).
  { cbn [accumulate accumulate_from last QP w_add w_total_ok]. replace (p + (1 - p))%Qc with 1%Qc by ring. reflexivity. }
  assert (T2 : w_total_ok (QP g) (last (accumulate (QP g) [q; q]) (w_zero (QP g))) = true).
  { cbn [accumulate accumulate_from last QP w_add w_total_ok]. change (qc_ltb 0%Qc (q + q)%Qc = true). apply qc_ltb_lt.
    exact (plus_lt 0%Qc q 0%Qc q Hq Hq). }
  rewrite (C87_same_draw fuel str_of (QP_quiet g) w f _ _ _ s G eq_refl eq_refl (le_n 2) T1 T2).
  set (u := fst _). clearbody u.
  destruct (position (QP g) [p; (1 - p)%Qc] u) eqn:E1; [|right; reflexivity]. left. cbn [Nat.eqb].
  enough (position (QP g) [q; q] u = 0%nat) as -> by reflexivity.
  unfold position in *. cbn [accumulate accumulate_from last length QP w_add w_scale w_lt w_zero Nat.sub] in *.
  cbn [bisect_right Nat.ltb Nat.leb Nat.add Nat.div Nat.divmod fst nth w_lt QP] in *.
  destruct (qc_ltb (u * (p + (1 - p)))%Qc p) eqn:L; [|discriminate E1].
  replace (p + (1 - p))%Qc with 1%Qc in L by ring. apply qc_ltb_lt in L.
  enough (qc_ltb (u * (q + q))%Qc q = true) as -> by reflexivity. apply qc_ltb_lt.
  assert (U : (u < Q2Qc (1 # 2))%Qc) by (eapply Qclt_le_trans; [|exact Hp]; replace u with (u * 1)%Qc by ring; exact L).
  pose proof (plus_lt _ _ _ _ U U) as U2. replace (Q2Qc (1 # 2) + Q2Qc (1 # 2))%Qc with 1%Qc in U2 by (apply Qc_is_canon; reflexivity).
  pose proof (Qcmult_lt_compat_r _ _ _ Hq U2) as X. replace (u * (q + q))%Qc with ((u + u) * q)%Qc by ring.
  replace (1 * q)%Qc with q in X by ring. exact X.
Qed.
Print Assumptions C87_never.

Example C87_never_case : let P := QP Demo.demo in
  let w := made_gated P 9 (fun _ => Ok []) (Q2Qc (1 # 2)) (Q2Qc (1 # 2)) 1%Qc 1%Qc in
  reachable P 9 (fun _ => Ok []) w /\ gated P w 0 [Q2Qc (1 # 2); (1 - Q2Qc (1 # 2))%Qc] [VInt 1; VInt 2] [1%Qc; 1%Qc] /\
  map (fun s => first_value P 9 (fun _ => Ok []) 0 s w) [0; 1; 2; 3]%nat = [Ok (VInt 1); Ok VNone; Ok (VInt 1); Ok (VInt 1)].
Proof.
  cbv zeta. split; [apply made_reachable|]. split.
  - replace (1 - Q2Qc (1 # 2))%Qc with (Q2Qc (1 # 2)) by (apply Qc_is_canon; reflexivity). apply made_is_gated.
  - vm_compute. reflexivity.
Qed.
