(** * C100: length and letters of the words of a seeded Word. *)
From Coq Require Import String.
From Verif Require Import Base Prims Values MathModel MathSpec MathProofs NumLaws ChoiceModel ChoiceRun ChoiceProofs ChoiceProofs4 FixedModel GroupModel
  SigModel WrapModel TextModel FieldModel World Rel WorldProofs Agree WorldSpec WorldBuild BuildProofs
  ObjectSpec ObjectCalls WorldReset WorldSeed Histories Prop_World Prop_Objects Prop_Parts Prop_Gate.
Open Scope list_scope.
Open Scope nat_scope.

(** ** Specification *)

(** Letters, as strings *)
Definition letters (codes : list Z) : list val := map (fun c => VStr [c]) codes.
(** Which of [k] letters belongs to the random number [u]: according to the weights,
    if there are weights ([position], Prop_Gate.v), otherwise floor(u * k). *)
Definition letter_index (P : prims) (aws : option (list (pW P))) (k : nat) (u : pU P) : nat :=
  match aws with Some ws => position P ws u | None => u_floor P u k end.
(** The positions of [n] letters drawn by a generator in the state [g]: one random number
    for each, except that a single letter without weights is drawn with randrange (by
    Random.choice). *)
Definition letter_indices (P : prims) (aws : option (list (pW P))) (k : nat) (n : Z) (g : pR P) : list nat :=
  match aws with
  | None => if (n =? 1)%Z then [fst (r_below P k g)] else map (letter_index P aws k) (fst (draws P (Z.to_nat n) g))
  | Some _ => map (letter_index P aws k) (fst (draws P (Z.to_nat n) g))
  end.
(** The letters at these positions *)
Definition spell (codes : list Z) (pos : list nat) : res (list Z) :=
  mapM (fun p => match nth_error codes p with Some c => Ok c | None => Raise IndexError end) pos.

(** [id] is a Word made of Choice(lens, weights=lws) and, another emitter,
    Choice(letters, weights=aws). *)
Definition spelled (P : prims) (w : World.world P) (id : nat) (lens : list Z) (lws : list (pW P))
    (codes : list Z) (aws : option (list (pW P))) : Prop :=
  exists l a b1 b2 roac cum,
    settings_at P id w = Some (IsWord l a) /\ l <> a /\ l < id /\ a < id /\
    settings_at P l w = Some (IsChoice b1 (map VInt lens) (Some lws) (Some (accumulate P lws)) true roac) /\
    settings_at P a w = Some (IsChoice b2 (letters codes) aws cum true false) /\
    match aws with Some ws => cum = Some (accumulate P ws) | None => True end.
(** What random.choices requires of the weights *)
Definition usable (P : prims) (ws : list (pW P)) (n : nat) : Prop :=
  length ws = n /\ w_total_ok P (last (accumulate P ws) (w_zero P)) = true.

(** The first word when it is given the seed [s]: em.rng_seed = s, em.reset(), em(). *)
Definition first_word (P : prims) (fuel : nat) (str_of : val -> res (list Z)) (id : nat) (s : pSeed P) (w : World.world P) : res val :=
  fst ((set_rng_seed P (Some s) id ;;; em_reset P fuel id ;;; em_call P fuel str_of id) w).

(** The first word when the two emitters it is made of are given seeds of their own. *)
Definition first_word_apart (P : prims) (fuel : nat) (str_of : val -> res (list Z)) (id : nat) (s t : pSeed P) (w : World.world P) : res val :=
  match settings_at P id w with
  | Some (IsWord l a) =>
      fst ((set_rng_seed P (Some s) l ;;; em_reset P fuel l ;;; set_rng_seed P (Some t) a ;;; em_reset P fuel a ;;; em_call P fuel str_of id) w)
  | _ => Raise TypeError
  end.

(** ** Proofs *)

Section Spell.
  Context {P : prims} (fuel : nat) (str_of : val -> res (list Z)).
  Notation world := (World.world P).
  Notation get_em := (World.get_em P).
  Hypothesis score_quiet : forall u w, k_score P u w <> Raise AttributeError.

  (** Seeding and resetting simple emitters succeeds, *)
  Definition fine_ems (l : list nat) (i : nat) (w : world) : Prop :=
    (forall j, In j l -> exists e, get_em j w = Some e /\ simple e) /\ exists e, get_em i w = Some e.
  Definition good_on (l : list nat) (i : nat) (m : M world unit) : Prop :=
    forall w, fine_ems l i w -> fst (m w) = Ok tt /\ fine_ems l i (snd (m w)).
  Lemma on_bind l i m n : good_on l i m -> good_on l i n -> good_on l i (m ;;; n).
  Proof.
    intros Hm Hn w F. destruct (Hm w F) as [E F']. unfold mbind. destruct (m w) as [r w1]. cbn [fst snd] in *. subst r. apply Hn, F'.
  Qed.
  Lemma on_put l i j e' w : fine_ems l i w -> (In j l -> simple e') -> fine_ems l i (put_em P j e' w).
  Proof.
    intros [Hs [x Hx]] Se. split.
    - intros k Hk. destruct (Hs k Hk) as (e & E & S). destruct (Nat.eq_dec k j) as [->|N].
      + exists e'. split; [exact (get_put_same j e' w e E) | exact (Se Hk)].
      + exists e. rewrite get_put_other by exact N. auto.
    - destruct (Nat.eq_dec i j) as [->|N]; [exists e'; exact (get_put_same j e' w x Hx) | exists x; now rewrite get_put_other].
  Qed.
  Lemma on_use l i j w : fine_ems l i w -> fine_ems l i (use_entropy P j w).
  Proof. intros [Hs Hx]. split; [intros k Hk|]; rewrite get_use; auto. Qed.
  Lemma on_set_seed l i j s : In j l -> good_on l i (set_rng_seed P s j).
  Proof.
    intros Hj w F. unfold set_rng_seed, modify_em, at_em. destruct (proj1 F j Hj) as (e & E & S). rewrite E. cbn [fst snd].
    split; [reflexivity|]. apply on_put; [exact F|]. intros _. destruct e; cbn in *; auto; contradiction.
  Qed.
  Lemma on_reset l i d j : In j l -> good_on l i (ereset P fuel (S d) j).
  Proof.
    intros Hj w F. cbn [ereset]. unfold at_em. destruct (proj1 F j Hj) as (e & E & S). rewrite E.
    destruct e as [| | |b c| | | | | | |]; try contradiction; [split; [reflexivity | exact F]|]. cbn in S.
    assert (X : forall ent, run_choice P j (choice_reset P fuel ent) w = (Ok tt, put_em P j (EChoice P b (set_rng P (rng_for P (c_seed c) ent) c)) w)).
    { intros ent. unfold run_choice, at_em. rewrite E. unfold choice_reset, mbind, ChoiceModel.modify, ChoiceModel.get, ret.
      cbn [c_replace set_rng]. rewrite S. reflexivity. }
    unfold mbind. rewrite X. cbn [fst snd]. split; [reflexivity|]. apply on_use, on_put; [exact F | intros _; exact S].
  Qed.
  Lemma on_set_children l i s k : incl k l -> good_on l i (seed_children P s k).
  Proof.
    unfold seed_children. induction k as [|j k IH]; intros Hk; cbn [map group_setattr]; [intros w F; auto|].
    apply on_bind; [|apply IH; intros z Hz; apply Hk; right; exact Hz].
    intros w F. destruct (has_seed P j w); [|split; [reflexivity | exact F]]. exact (on_set_seed l i j s (Hk j (or_introl eq_refl)) w F).
  Qed.
  Lemma on_reset_children l i d k : incl k l -> good_on l i (reset_children P (ereset P fuel (S d)) k).
  Proof.
    unfold reset_children. induction k as [|j k IH]; intros Hk; cbn [map group_do_method]; [intros w F; auto|].
    apply on_bind; [|apply IH; intros z Hz; apply Hk; right; exact Hz].
    intros w F. unfold catch_attribute_error. destruct (on_reset l i d j (Hk j (or_introl eq_refl)) w F) as [E F'].
    destruct (ereset P fuel (S d) j w) as [r w1]. cbn [fst snd] in *. subst r. auto.
  Qed.
  Lemma on_rng l i : ~ In i l -> good_on l i (reset_rng P i).
  Proof.
    intros N w F. unfold reset_rng, modify_em, at_em, mbind. destruct (proj2 F) as [e E]. rewrite E. cbn [fst snd].
    split; [reflexivity|]. apply on_use, on_put; [exact F|]. intros Q. contradiction.
  Qed.
  (** so a Word made of such can be seeded and reset. *)
  Lemma word_alone w id l a u nd s : get_em id w = Some (EWord P l a u nd) -> l < id -> a < id -> fine_ems [l; a] id w ->
    exists v, alone P fuel s id w v.
  Proof.
    intros E Nl Na F. unfold alone.
    set (e1 := EWord P l a u (mkNode P (Some s) (n_rng P nd))).
    assert (F1 : fine_ems [l; a] id (put_em P id e1 w)).
    { apply on_put; [exact F|]. intros [Q|[Q|[]]]; lia. }
    assert (G : exists v, em_reset P fuel id (put_em P id e1 w) = (Ok tt, v)).
    { unfold em_reset. destruct id as [|d]; [lia|]. 
      assert (G : good_on [l; a] (S d) (mixin_reset P (ereset P fuel (S d)) (reset_rng P (S d)) (Some s) [l; a] ;;;
              seed_children P (Some s) [l; a] ;;; reset_children P (ereset P fuel (S d)) [l; a])).
      { assert (S0 := on_set_children [l; a] (S d) (Some s) [l; a] (incl_refl _)).
        assert (R0 := on_reset_children [l; a] (S d) d [l; a] (incl_refl _)).
        unfold mixin_reset. apply on_bind; apply on_bind; try assumption. apply on_bind; [|assumption].
        apply on_rng. intros [Q|[Q|[]]]; lia. }
      destruct (G _ F1) as [G1 _].
      cbn [ereset]. unfold at_em. rewrite (get_put_same _ _ _ _ E). unfold e1 at 1. cbn [children n_seed] in *.
      match goal with |- exists v, ?m ?x = _ => change (fst (m x) = Ok tt) in G1; destruct (m x) as [r v]; cbn [fst] in G1; subst r; eauto end. }
    destruct G as [v G]. exists v. eexists. split; [|exact G].
    unfold set_rng_seed, modify_em, at_em. rewrite E. reflexivity.
  Qed.

  (** Several values of a Choice *)
  Lemma mapS_spell {S} codes pos (x : S) :
    mapS (get_item (letters codes)) pos x = ((l <- spell codes pos ;; Ok (map (fun c => VStr [c]) l)), x).
  Proof.
    unfold spell. induction pos as [|p pos IH]; [reflexivity|]. cbn [mapS mapM].
    assert (G : get_item (letters codes) p x = match nth_error codes p with Some c => (Ok (VStr [c]), x) | None => (Raise IndexError, x) end).
    { unfold get_item, letters. rewrite nth_error_map. destruct (nth_error codes p); reflexivity. }
    unfold mbind at 1. rewrite G. destruct (nth_error codes p) as [c|]; [|reflexivity].
    unfold mbind. rewrite IH. destruct (mapM _ pos); reflexivity.
  Qed.
  Lemma fresh_seeded s b c : fresh P fuel (Some s) (EChoice P b c) -> c_replace c = true -> c_rng c = r_seeded P s.
  Proof.
    intros (c0 & ent & Es & Ei & Er) Hr. pose proof Er as Er'.
    unfold choice_reset, mbind, ChoiceModel.modify, ChoiceModel.get in Er. destruct (c_replace (set_rng P (rng_for P (c_seed c0) ent) c0)) eqn:R0.
    - injection Er as <-. cbn [c_rng set_rng]. rewrite Es. reflexivity.
    - exfalso. apply reset_any in Er' as [X _]. cbn [c_replace set_rng] in R0. destruct X as (_ & _ & _ & X & _). congruence.
  Qed.
  Lemma letters_drawn (c : @choice P val) codes aws n : c_items c = letters codes -> c_weights c = aws -> c_replace c = true -> c_roac c = false ->
    match aws with Some ws => c_cum c = Some (accumulate P ws) /\ usable P ws (length codes) | None => True end ->
    2 <= length codes ->
    fst (choice_call_n P val_setsize fuel n c) =
    (l <- spell codes (letter_indices P aws (length codes) n (c_rng c)) ;; Ok (map (fun x => VStr [x]) l)).
  Proof.
    intros Hi Hw Hr Hro Ha Hn.
    assert (Li : length (c_items c) = length codes) by (rewrite Hi; apply map_length).
    assert (W : fst (choice_with_replacement P n c) =
      (l <- spell codes (letter_indices P aws (length codes) n (c_rng c)) ;; Ok (map (fun x => VStr [x]) l))).
    { unfold choice_with_replacement, mbind, ChoiceModel.get. cbv beta iota. rewrite Hw.
      destruct (Z.eqb_spec (zlen (c_items c)) 1) as [Q|_]; [unfold zlen in Q; lia|].
      destruct aws as [ws|].
      - destruct Ha as [Hc [Lw Tw]]. unfold ChoiceModel.on_rng, choices_cum. rewrite Hc, accumulate_length', Li, Lw, Nat.eqb_refl. cbn [negb].
        assert (Nw : ws <> []) by (intros ->; cbn in Lw; lia). destruct (last_cum ws Nw) as (q & Eq). rewrite Eq, Tw. cbn [negb].
        unfold letter_indices. destruct (draws P (Z.to_nat n) (c_rng c)) as [us r]. cbn [fst snd]. rewrite Hi. rewrite mapS_spell. cbn [fst].
        unfold letter_index, position. rewrite accumulate_length', Lw. reflexivity.
      - unfold letter_indices. destruct (Z.eqb_spec n 1) as [Q|_].
        + unfold ChoiceModel.on_rng. rewrite Li. destruct (r_below P (length codes) (c_rng c)) as [i r]. cbn [fst]. rewrite Hi.
          unfold get_item, letters. rewrite nth_error_map. unfold spell. cbn [mapM]. destruct (nth_error codes i); reflexivity.
        + unfold ChoiceModel.on_rng, choices_uniform. rewrite Li. destruct (draws P (Z.to_nat n) (c_rng c)) as [us r]. cbn [fst snd]. rewrite Hi, mapS_spell. reflexivity. }
    unfold choice_call_n. destruct (Z.eqb_spec n 1) as [->|N1].
    - assert (One : exists i, letter_indices P aws (length codes) 1 (c_rng c) = [i]).
      { unfold letter_indices. change (Z.to_nat 1) with 1. cbn [draws Z.eqb Pos.eqb]. destruct (r_random P (c_rng c)). destruct aws; eexists; reflexivity. }
      destruct One as [i One]. rewrite One in *.
      unfold choice_emit, mbind, ChoiceModel.get. cbv beta iota. rewrite Hr. cbn [negb].
      destruct (choice_with_replacement P 1 c) as [r c1]. cbn [fst] in W. subst r. unfold spell. cbn [mapM].
      destruct (nth_error codes i); reflexivity.
    - unfold choice_emit_many, mbind, ChoiceModel.get. rewrite Hr, Hro. cbn [negb orb andb]. exact W.
  Qed.

  Lemma conf_choice' w v j b items ws cum rep roac : wconf w v ->
    settings_at P j w = Some (IsChoice b items ws cum rep roac) ->
    exists c, get_em j v = Some (EChoice P b c) /\ c_items c = items /\ c_weights c = ws /\ c_cum c = cum /\ c_replace c = rep /\ c_roac c = roac.
  Proof.
    intros C St. apply settings_get in St as (e & E & St). pose proof (proj1 C j) as Q. rewrite E in Q.
    destruct (get_em j v) as [e'|]; [|contradiction]. destruct e; try discriminate. injection St as <- <- Hw <- <- <-.
    destruct e'; try contradiction. destruct Q as [-> (Q1 & Q2 & Q3 & Q4 & Q5 & _)]. exists c0. repeat split; congruence.
  Qed.
  Lemma emit_choice_at d j b c (v : world) : get_em j v = Some (EChoice P b c) ->
    fst (emits P fuel str_of (S d)) j v = (fst (choice_emit P val_setsize fuel c), put_em P j (EChoice P b (snd (choice_emit P val_setsize fuel c))) v).
  Proof.
    intros E. cbn [emits fst]. unfold emit_body, at_em, run_choice, at_em. rewrite E. cbv beta iota. rewrite E.
    destruct (choice_emit P val_setsize fuel c). reflexivity.
  Qed.
  Lemma emitn_choice_at d j b c (v : world) n : get_em j v = Some (EChoice P b c) ->
    call_number (fst (emits P fuel str_of (S d)) j) (snd (emits P fuel str_of (S d)) j) n v =
    (fst (choice_call_n P val_setsize fuel n c), put_em P j (EChoice P b (snd (choice_call_n P val_setsize fuel n c))) v).
  Proof.
    intros E. unfold call_number, choice_call_n. destruct (n =? 1)%Z.
    - unfold mbind. rewrite (emit_choice_at d j b c v E). destruct (choice_emit P val_setsize fuel c) as [[x| |] c1]; reflexivity.
    - cbn [emits snd]. unfold emit_many_body, at_em, run_choice, at_em. rewrite E. cbv beta iota. rewrite E.
      destruct (choice_emit_many P val_setsize fuel n c). reflexivity.
  Qed.
  Lemma join_letters l : join_val (VList (map (fun x => VStr [x]) l)) = Ok l.
  Proof.
    cbn [join_val]. unfold join_strs.
    assert (M : mapM as_str (map (fun x => VStr [x]) l) = Ok (map (fun x => [x]) l)).
    { induction l as [|x l IH]; [reflexivity|]. cbn [map mapM as_str]. rewrite IH. reflexivity. }
    rewrite M. cbn [bind]. f_equal. induction l as [|x l IH]; [reflexivity|]. cbn. f_equal. apply IH.
    cbn [map mapM as_str bind] in M. destruct (mapM as_str (map (fun x0 => VStr [x0]) l)); cbn in M; congruence.
  Qed.

  (** One value of a Choice with weights *)
  Lemma draw_one c ws : c_replace c = true -> c_weights c = Some ws ->
    c_cum c = Some (accumulate P ws) -> length ws = length (c_items c) -> 2 <= length (c_items c) ->
    w_total_ok P (last (accumulate P ws) (w_zero P)) = true ->
    exists r, choice_emit P val_setsize fuel c = (Ok (nth (position P ws (fst (r_random P (c_rng c)))) (c_items c) VNone), set_rng P r c).
  Proof.
    intros Hr Hw Hc Hl Hn Ht.
    assert (Nw : ws <> []) by (intros ->; cbn in Hl; lia). destruct (last_cum ws Nw) as (q & Eq).
    unfold choice_emit, mbind, ChoiceModel.get. cbv beta iota. rewrite Hr. cbn [negb].
    unfold choice_with_replacement, mbind, ChoiceModel.get. cbv beta iota. rewrite Hw.
    destruct (Z.eqb_spec (zlen (c_items c)) 1) as [Q|_]; [unfold zlen in Q; lia|].
    unfold ChoiceModel.on_rng, choices_cum. rewrite Hc, accumulate_length', Hl, Nat.eqb_refl. cbn [negb]. rewrite Eq, Ht. cbn [negb].
    change (Z.to_nat 1) with 1. cbn [draws]. destruct (r_random P (c_rng c)) as [u r]. cbn [fst map mapS]. exists r.
    assert (B : position P ws u < length (c_items c)) by (rewrite <- Hl; apply position_bound, Nw).
    unfold position in B |- *. rewrite ?accumulate_length', ?Hl in B. rewrite ?accumulate_length', ?Hl.
    unfold get_item. cbn [c_items set_rng]. rewrite (nth_error_nth' _ VNone B). reflexivity.
  Qed.
  Lemma word_from d l a u nd b1 b2 cl ca lens lws codes aws (v : world) :
    get_em (S d) v = Some (EWord P l a u nd) -> l <> a ->
    get_em l v = Some (EChoice P b1 cl) -> c_items cl = map VInt lens -> c_weights cl = Some lws -> c_cum cl = Some (accumulate P lws) -> c_replace cl = true ->
    get_em a v = Some (EChoice P b2 ca) -> c_items ca = letters codes -> c_weights ca = aws -> c_replace ca = true -> c_roac ca = false ->
    match aws with Some ws => c_cum ca = Some (accumulate P ws) /\ usable P ws (length codes) | None => True end ->
    2 <= length lens -> usable P lws (length lens) -> 2 <= length codes ->
    let n := nth (position P lws (fst (r_random P (c_rng cl)))) lens 0%Z in
    fst (em_call P fuel str_of (S d) v) = (l <- spell codes (letter_indices P aws (length codes) n (c_rng ca)) ;; Ok (VStr l)).
  Proof.
    intros Ev Ne Gl Il Wl Kl Rl Ga Ia Wa Ra Oa Ua Nl [Ll Tl] Na n.
    destruct (draw_one cl lws Rl Wl Kl) as (r1 & D1); [rewrite Il, map_length; exact Ll | rewrite Il, map_length; exact Nl | exact Tl |].
    rewrite Il in D1.
    assert (En : nth (position P lws (fst (r_random P (c_rng cl)))) (map VInt lens) VNone = VInt n).
    { unfold n. rewrite (nth_indep _ VNone (VInt 0%Z)); [apply map_nth|]. rewrite map_length, <- Ll. apply position_bound. intros ->. cbn in Ll. lia. }
    rewrite En in D1.
    unfold em_call, em_emit. change (fst (emits P fuel str_of (S (S d)))) with
      (emit_body P fuel str_of (fst (emits P fuel str_of (S d))) (snd (emits P fuel str_of (S d))) (ereset P fuel (S d))).
    unfold emit_body, at_em. rewrite Ev. unfold word_emit. unfold mbind at 1. rewrite (emit_choice_at d l b1 cl v Gl), D1. cbn [fst snd].
    set (v1 := put_em P l _ v).
    assert (Ga1 : get_em a v1 = Some (EChoice P b2 ca)) by (unfold v1; rewrite get_put_other by congruence; exact Ga).
    cbn [call_val as_int]. unfold mbind at 1. unfold mbind at 1. unfold lift at 1. unfold mbind at 1. rewrite (emitn_choice_at d a b2 ca v1 n Ga1).
    rewrite (letters_drawn ca codes aws n Ia Wa Ra Oa Ua Na). cbn [fst snd].
    destruct (spell codes _) as [out| |]; cbn [bind]; try reflexivity.
    cbv [ret]. unfold mbind, lift. rewrite join_letters. reflexivity.
  Qed.
  (** Seeding and resetting a Choice *)
  Lemma seed_one j b c s (v : world) : get_em j v = Some (EChoice P b c) -> c_replace c = true ->
    exists v' c', (set_rng_seed P (Some s) j ;;; em_reset P fuel j) v = (Ok tt, v') /\ get_em j v' = Some (EChoice P b c') /\
      c_items c' = c_items c /\ c_weights c' = c_weights c /\ c_cum c' = c_cum c /\ c_replace c' = true /\ c_roac c' = c_roac c /\ c_rng c' = r_seeded P s /\
      forall k, k <> j -> get_em k v' = get_em k v.
  Proof.
    intros E Hr. unfold mbind at 1, set_rng_seed, modify_em, at_em. rewrite E.
    set (v1 := put_em P j _ v). assert (E1 : get_em j v1 = Some (EChoice P b (set_seed P (Some s) c))) by (unfold v1; eapply get_put_same; exact E).
    unfold em_reset. cbn [ereset]. unfold at_em. rewrite E1. unfold mbind.
    unfold run_choice at 1, at_em. rewrite E1. unfold choice_reset, mbind, ChoiceModel.modify, ChoiceModel.get, ret. cbn [c_replace set_rng set_seed]. rewrite Hr.
    set (c2 := set_rng P _ _). exists (use_entropy P j (put_em P j (EChoice P b c2) v1)), c2. split; [reflexivity|].
    split; [rewrite get_use; eapply get_put_same; exact E1|]. repeat (split; [reflexivity || exact Hr|]).
    intros k Hk. rewrite get_use. rewrite get_put_other by exact Hk. unfold v1. now rewrite get_put_other.
  Qed.

  (** ** Theorems *)

  (** The length comes from the first random number of the seed, and the letters start
      from the same number again. *)
  Theorem C100_same_draw w id lens lws codes aws s : spelled P w id lens lws codes aws ->
    2 <= length lens -> usable P lws (length lens) ->
    2 <= length codes -> match aws with Some ws => usable P ws (length codes) | None => True end ->
    let g := r_seeded P s in
    let n := nth (position P lws (fst (r_random P g))) lens 0%Z in
    first_word P fuel str_of id s w =
    (l <- spell codes (letter_indices P aws (length codes) n g) ;; Ok (VStr l)).
  Proof.
    intros (l & a & b1 & b2 & ro & cum & Sw & Ne & Hl & Ha & Sl & Sa & Hc) Nl Ul Na Ua g n.
    pose proof Sw as Sw'. apply settings_get in Sw' as (e & E & St). destruct e; try discriminate. injection St as -> ->.
    assert (F : fine_ems [l; a] id w).
    { split; [|eauto]. intros j [<-|[<-|[]]]; [apply settings_get in Sl as (e & E' & St) | apply settings_get in Sa as (e & E' & St)];
        exists e; (split; [exact E'|]); destruct e; try discriminate; cbn; injection St; auto. }
    destruct (word_alone w id l a u nd s E Hl Ha F) as (v & A).
    destruct (alone_fresh fuel score_quiet s id w v A) as (C & _ & Fr).
    destruct A as (w1 & A1 & A2). unfold first_word, mbind at 1. rewrite A1. unfold mbind at 1. rewrite A2.
    destruct (conf_choice' w v _ _ _ _ _ _ _ C Sl) as (cl & Gl & Il & Wl & Kl & Rl & _).
    destruct (conf_choice' w v _ _ _ _ _ _ _ C Sa) as (ca & Ga & Ia & Wa & Ka & Ra & Oa).
    assert (U : forall j, j = l \/ j = a -> fresh_at P fuel (Some s) v j).
    { intros j Hj. apply Fr. econstructor; [exact E| |apply belongs_self]. cbn. intuition. }
    pose proof (proj1 C id) as Q. rewrite E in Q. destruct (get_em id v) as [e|] eqn:Ev; [|contradiction].
    destruct e; try contradiction. cbn in Q. destruct Q as [<- <-].
    destruct id as [|d]; [lia|].
    rewrite (word_from d l a _ _ b1 b2 cl ca lens lws codes aws v Ev Ne Gl Il Wl Kl Rl Ga Ia Wa Ra Oa); auto.
    - rewrite (fresh_seeded s b2 ca (U a (or_intror eq_refl) _ Ga) Ra), (fresh_seeded s b1 cl (U l (or_introl eq_refl) _ Gl) Rl). reflexivity.
    - destruct aws as [ws|]; [|exact I]. split; [congruence | exact Ua].
  Qed.

  (** Seeded apart, lengths and letters do not share random numbers. *)
  Theorem C100_apart w id lens lws codes aws s t : spelled P w id lens lws codes aws ->
    2 <= length lens -> usable P lws (length lens) ->
    2 <= length codes -> match aws with Some ws => usable P ws (length codes) | None => True end ->
    let n := nth (position P lws (fst (r_random P (r_seeded P s)))) lens 0%Z in
    first_word_apart P fuel str_of id s t w =
    (l <- spell codes (letter_indices P aws (length codes) n (r_seeded P t)) ;; Ok (VStr l)).
  Proof.
    intros (l & a & b1 & b2 & ro & cum & Sw & Ne & Hl & Ha & Sl & Sa & Hc) Nl Ul Na Ua n.
    unfold first_word_apart. rewrite Sw.
    apply settings_get in Sw as (e & E & St). destruct e; try discriminate. injection St as -> ->.
    apply settings_get in Sl as (e & El & St). destruct e as [| | |b cl| | | | | | |]; try discriminate. injection St as -> Il Wl Kl Rl _.
    apply settings_get in Sa as (e & Ea & St). destruct e as [| | |b ca| | | | | | |]; try discriminate. injection St as -> Ia Wa Ka Ra Oa.
    destruct (seed_one l b1 cl s w El Rl) as (v1 & cl1 & R1 & G1 & I1 & W1 & K1 & P1 & O1 & N1 & X1).
    destruct (seed_one a b2 ca t v1 (eq_trans (X1 a ltac:(congruence)) Ea) Ra) as (v2 & ca2 & R2 & G2 & I2 & W2 & K2 & P2 & O2 & N2 & X2).
    unfold mbind at 1. unfold mbind at 1 in R1. destruct (set_rng_seed P (Some s) l w) as [[[]| |] w1]; try discriminate R1.
    unfold mbind at 1. rewrite R1. unfold mbind at 1. unfold mbind at 1 in R2. destruct (set_rng_seed P (Some t) a v1) as [[[]| |] w2]; try discriminate R2.
    unfold mbind at 1. rewrite R2. destruct id as [|d]; [lia|].
    rewrite (word_from d l a u nd b1 b2 cl1 ca2 lens lws codes aws v2); auto; try congruence.
    - rewrite N1, N2. reflexivity.
    - rewrite X2, X1 by lia. exact E.
    - rewrite X2 by congruence. exact G1.
    - destruct aws as [ws|]; [|exact I]. split; [congruence | exact Ua].
  Qed.

  (** When letters have weights, the first letter is at the position that the number of
      the length gives. *)
  Theorem C100_first_letter w id lens lws codes aws s : spelled P w id lens lws codes (Some aws) ->
    2 <= length lens -> usable P lws (length lens) -> 2 <= length codes -> usable P aws (length codes) ->
    let u := fst (r_random P (r_seeded P s)) in
    let n := nth (position P lws u) lens 0%Z in
    (0 < n)%Z -> exists rest, first_word P fuel str_of id s w = Ok (VStr (nth (position P aws u) codes 0%Z :: rest)) /\ zlen (0%Z :: rest) = n.
  Proof.
    intros Sp Nl Ul Na Ua u n Hn. rewrite (C100_same_draw w id lens lws codes (Some aws) s Sp Nl Ul Na Ua). fold u. fold n.
    unfold letter_indices. assert (Nw : aws <> []) by (intros ->; destruct Ua as [Q _]; cbn in Q; lia).
    destruct (Z.to_nat n) as [|m] eqn:En; [lia|]. cbn [draws]. unfold u.
    destruct (r_random P (r_seeded P s)) as [u0 r] eqn:Er. destruct (draws P m r) as [us r'] eqn:Ed. cbn [fst map letter_index].
    assert (Lu : length us = m) by (pose proof (draws_length P m r) as Q; rewrite Ed in Q; exact Q).
    assert (Sp1 : forall vs, exists l, spell codes (map (position P aws) vs) = Ok l /\ length l = length vs).
    { induction vs as [|v vs (l & E & L)]; [exists []; auto|]. unfold spell in *. cbn [map mapM].
      destruct (nth_error codes (position P aws v)) as [c|] eqn:Q.
      - cbn [bind]. rewrite E. exists (c :: l). cbn. split; [reflexivity | lia].
      - apply nth_error_None in Q. destruct Ua as [Lw _]. pose proof (position_bound aws v Nw). lia. }
    destruct (Sp1 us) as (l & E & L). unfold spell in *. cbn [mapM].
    destruct (nth_error codes (position P aws u0)) as [c|] eqn:Q.
    - cbn [bind]. change (letter_index P (Some aws) (length codes)) with (position P aws). rewrite E. cbn [bind]. exists l. split.
      + rewrite (nth_error_nth _ _ 0%Z Q). reflexivity.
      + unfold zlen. cbn [length]. lia.
    - apply nth_error_None in Q. destruct Ua as [Lw _]. pose proof (position_bound aws u0 Nw). lia.
  Qed.

  (** Same weights for lengths and letters: the first letter tells the length. *)
  Theorem C100_tied w id lens ws codes s : spelled P w id lens ws codes (Some ws) ->
    2 <= length lens -> length codes = length lens -> usable P ws (length lens) -> Forall (fun n => (0 < n)%Z) lens ->
    exists i rest, i < length lens /\ first_word P fuel str_of id s w = Ok (VStr (nth i codes 0%Z :: rest)) /\ zlen (0%Z :: rest) = nth i lens 0%Z.
  Proof.
    intros Sp Nl Lc U Fp. assert (Nw : ws <> []) by (intros ->; destruct U as [Q _]; cbn in Q; lia).
    set (i := position P ws (fst (r_random P (r_seeded P s)))).
    assert (Hi : i < length lens) by (destruct U as [<- _]; apply position_bound; exact Nw).
    destruct (C100_first_letter w id lens ws codes ws s Sp Nl U ltac:(lia) ltac:(rewrite Lc; exact U)) as (rest & E & L).
    - rewrite Forall_forall in Fp. apply Fp, nth_In, Hi.
    - exists i, rest. auto.
  Qed.
End Spell.
Print Assumptions C100_same_draw.
Print Assumptions C100_apart.
Print Assumptions C100_first_letter.
Print Assumptions C100_tied.

(** Word(Choice([1, 2], weights=[w1, w2]), Choice("ab", weights=aws)) *)
Section Made.
  Context (P : prims) (fuel : nat) (str_of : val -> res (list Z)) (w1 w2 : pW P) (aws : option (list (pW P))).
  Definition made_word : World.world P :=
    snd ((exec P fuel str_of (NewChoice P true [VInt 1; VInt 2] (Some [w1; w2]) true false None None) ;;;
          exec P fuel str_of (NewChoice P true (letters [97; 98]%Z) aws true false None None) ;;;
          exec P fuel str_of (NewWord P 0 1 None)) (mkWorld P [] [] (run_entropy 0))).
  Lemma made_word_reachable : match aws with Some l => length l = 2 | None => True end -> reachable P fuel str_of made_word.
  Proof.
    intros L. unfold made_word.
    assert (R0 := reach_start P fuel str_of 0).
    assert (R1 := reach_step P fuel str_of (NewChoice P true [VInt 1; VInt 2] (Some [w1; w2]) true false None None) _ R0
      ltac:(split; intros ? [])).
    assert (R2 := reach_step P fuel str_of (NewChoice P true (letters [97; 98]%Z) aws true false None None) _ R1
      ltac:(split; intros ? [])).
    destruct aws as [[|a [|b [|]]]|]; try discriminate L;
      refine (reach_step P fuel str_of (NewWord P 0 1 None) _ R2 _); (split; [|intros ? []]); cbn; intros i [<-|[<-|[]]]; cbn; lia.
  Qed.
  Lemma made_word_spelled : match aws with Some l => length l = 2 | None => True end ->
    spelled P made_word 2 [1; 2]%Z [w1; w2] [97; 98]%Z aws.
  Proof.
    intros L. unfold made_word. destruct aws as [[|a [|b [|]]]|]; try discriminate L.
    - exists 0, 1, true, true, false, (Some (accumulate P [a; b])). split; [reflexivity|]. split; [discriminate|]. split; [lia|]. split; [lia|]. split; [reflexivity|]. split; [reflexivity|]; exact I || reflexivity.
    - exists 0, 1, true, true, false, None. split; [reflexivity|]. split; [discriminate|]. split; [lia|]. split; [lia|]. split; [reflexivity|]. split; [reflexivity|]; exact I || reflexivity.
  Qed.
End Made.

(** ** Exact numbers *)
From Coq Require Import QArith Qcanon.
From Verif Require Import QcNum QcProofs.

(** Lengths 1 and 2 and the letters a and b, weights 1: a word of one letter is always
    "a", and a word of two letters begins with "b".  Seeded apart, other words occur. *)
Example C100_case : let P := QP Demo.demo in let so := fun _ : val => Ok ([] : list Z) in
  let w := made_word P 9 so 1%Qc 1%Qc (Some [1%Qc; 1%Qc]) in
  reachable P 9 so w /\ spelled P w 2 [1; 2]%Z [1%Qc; 1%Qc] [97; 98]%Z (Some [1%Qc; 1%Qc]) /\ usable P [1%Qc; 1%Qc] 2 /\
  map (fun s => first_word P 9 so 2 s w) [0; 1; 2; 3]%nat =
    [Ok (VStr [97%Z]); Ok (VStr [98%Z; 97%Z]); Ok (VStr [97%Z]); Ok (VStr [97%Z])] /\
  first_word_apart P 9 so 2 0%nat 1%nat w = Ok (VStr [98%Z]) /\ first_word_apart P 9 so 2 1%nat 0%nat w = Ok (VStr [97%Z; 98%Z]).
Proof.
  cbv zeta. split; [apply made_word_reachable; reflexivity|]. split; [apply made_word_spelled; reflexivity|].
  split; [split; reflexivity|]. vm_compute. repeat split.
Qed.
