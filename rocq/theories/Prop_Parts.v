(** * C86: a seeded Word or Field and its parts, each given the same seed alone. *)
From Coq Require Import String.
From Verif Require Import Base Prims Values MathModel ChoiceModel FixedModel GroupModel
  SigModel WrapModel TextModel FieldModel World Rel WorldProofs Agree WorldSpec WorldBuild BuildProofs
  ObjectSpec ObjectCalls WorldReset WorldSeed Histories Prop_Field Prop_World Prop_Objects QcNum Demo WorldDemo Prop_Construct.
Open Scope list_scope.
Open Scope Z_scope.

(** ** Vocabulary *)
Section Apart.
  Context (P : prims) (fuel : nat) (str_of : val -> res (list Z)).
  Notation world := (World.world P).

  (** [v] is the state after em.rng_seed = s and em.reset(), for emitter [i] alone. *)
  Definition alone (s : pSeed P) (i : nat) (w v : world) : Prop :=
    exists u, set_rng_seed P (Some s) i w = (Ok tt, u) /\ em_reset P fuel i u = (Ok tt, v).
  (** The same for a field, seeded with field.seed(s) or field.rng_seed = s. *)
  Definition field_alone (s : pSeed P) (f : nat) (w v : world) : Prop :=
    exists u, (fd_seed P fuel f (Some s) w = (Ok tt, u) \/ fd_set_seed P f (Some s) w = (Ok tt, u)) /\
              fd_reset P fuel f u = (Ok tt, v).
  (** em(n), where n is a value; em() if it is None. *)
  Definition ask (i : nat) (n : val) : M world val := call_val (em_call P fuel str_of i) (em_call_n P fuel str_of i) n.
  (** Two emitters have no parts in common. *)
  Definition apart (w : world) (i j : nat) : Prop := forall k, belongs P w i k -> ~ belongs P w j k.

  (** The outcomes of [k] calls of a Word, if the length emitter [l] and the
      alphabet emitter [a] lived in programs of their own, [v1] and [v2]. *)
  Fixpoint words_apart (l a : nat) (k : nat) (v1 v2 : world) : list (res answer) :=
    match k with
    | O => []
    | S k =>
        let '(n, v1) := em_call P fuel str_of l v1 in
        match n with
        | Ok n =>
            let '(chars, v2) := ask a n v2 in
            (c <- chars ;; s <- join_val c ;; Ok (Value (VStr s))) :: words_apart l a k v1 v2
        | Raise e => Raise e :: words_apart l a k v1 v2
        | Diverge => Diverge :: words_apart l a k v1 v2
        end
    end.

  (** The same for a field with gate, repeat and value emitters [g], [r], [e]. *)
  Fixpoint values_apart (g r e : nat) (k : nat) (v1 v2 v3 : world) : list (res answer) :=
    match k with
    | O => []
    | S k =>
        let '(open, v1) := em_call P fuel str_of g v1 in
        match open with
        | Ok open =>
            if truthy open then
              let '(n, v2) := em_call P fuel str_of r v2 in
              match n with
              | Ok n => let '(x, v3) := ask e n v3 in (x <- x ;; Ok (Value x)) :: values_apart g r e k v1 v2 v3
              | Raise x => Raise x :: values_apart g r e k v1 v2 v3
              | Diverge => Diverge :: values_apart g r e k v1 v2 v3
              end
            else Ok (Value VNone) :: values_apart g r e k v1 v2 v3
        | Raise x => Raise x :: values_apart g r e k v1 v2 v3
        | Diverge => Diverge :: values_apart g r e k v1 v2 v3
        end
    end.
End Apart.

Section C86.
  Context {P : prims} (fuel : nat) (str_of : val -> res (list Z)).
  Notation world := (World.world P).
  Notation get_em := (World.get_em P).
  Notation get_fd := (World.get_fd P).
  Hypothesis score_quiet : forall u w, k_score P u w <> Raise AttributeError.

  Lemma same_list {A} : forall l m : list A, (forall j, nth_error l j = nth_error m j) -> l = m.
  Proof.
    induction l as [|a l IH]; intros [|b m] H; [reflexivity | discriminate (H O) | discriminate (H O)|].
    specialize (H O) as H0. injection H0 as ->. f_equal. apply IH. intros j. exact (H (S j)).
  Qed.

  (** Fields read by the emitters of a tree *)
  Definition tree_reads (w : world) (i f : nat) : Prop := exists j e, belongs P w i j /\ get_em j w = Some e /\ In f (source_of P e).
  Notation seeds := (fun s : option (pSeed P) => s <> None).
  Notation part w i := (agree false seeds (belongs P w i) (tree_reads w i) (fun _ => False)).

  Lemma part_agree s i (w v1 v2 : world) : wconf w v1 -> wconf w v2 ->
    (forall j, belongs P w i j -> fresh_at P fuel (Some s) v1 j) ->
    (forall j, belongs P w i j -> fresh_at P fuel (Some s) v2 j) ->
    pure_parts P w i -> (forall f, tree_reads w i f -> get_fd f v1 = get_fd f v2) ->
    part w i v1 v2 v1 v2.
  Proof.
    intros C1 C2 F1 F2 Hp Hf.
    assert (C : wconf v1 v2) by (eapply wconf_trans; [apply wconf_sym; exact C1 | exact C2]).
    assert (Back : forall j e, get_em j v1 = Some e -> exists e0, get_em j w = Some e0 /\ conf e0 e).
    { intros j e E. pose proof (proj1 C1 j) as Q. rewrite E in Q. destruct (get_em j w) as [e0|]; [eauto | contradiction]. }
    constructor; auto using within_refl; try contradiction.
    - intros j B. pose proof (proj1 C j) as Q. destruct (get_em j v1) as [e1|] eqn:E1, (get_em j v2) as [e2|] eqn:E2; try contradiction; [|exact I].
      cbn in Q |- *. apply (fresh_same fuel s); [exact Q | apply (F1 j B); exact E1 | apply (F2 j B); exact E2|].
      destruct (Back j e1 E1) as (e0 & E0 & C0). specialize (Hp j e0 B E0).
      destruct e0, e1; try contradiction; auto; cbn in C0.
      + destruct C0 as [<- _]. exact Hp.
      + destruct C0 as (_ & _ & <- & <- & _). exact Hp.
      + destruct C0 as [<- _]. exact Hp.
    - intros j e k B E Hk. destruct (Back j e E) as (e0 & E0 & C0). rewrite <- (conf_children _ _ C0) in Hk.
      eapply belongs_trans; [exact B|]. econstructor; [exact E0 | exact Hk | constructor].
    - intros j e f B E Hin. destruct (Back j e E) as (e0 & E0 & C0). rewrite <- (conf_source _ _ C0) in Hin. exists j, e0. auto.
    - intros j e nd B E En. rewrite (fresh_seed fuel _ _ _ (F1 j B e E) En). discriminate.
    - intros f R. rewrite (Hf f R). apply orel_refl. intros x. split; [apply fconf_refl | auto].
    - intros f R. apply multi_wconf, C.
  Qed.

  Lemma alone_fresh s i w v : alone P fuel s i w v ->
    wconf w v /\ w_fd P v = w_fd P w /\ forall j, belongs P w i j -> fresh_at P fuel (Some s) v j.
  Proof.
    intros (u & A & B). destruct (set_rng_seed_step fuel _ _ _ _ A) as [(C & E & _) S].
    destruct (ereset_step fuel score_quiet (Some s) _ _ _ _ S B) as [(C' & E' & _) F].
    split; [eapply wconf_trans; eauto|]. split; [congruence|]. intros j Bj. apply F. eapply belongs_wconf; eauto.
  Qed.

  (** Whatever is done with a part in the program of the whole has the outcome it
      has in the program of the part alone, and leaves the other parts as they are. *)
  Lemma part_op w i (W V : world) o : wconf w W -> part w i W V W V -> about_emitter P w i o ->
    match o with SeedEm _ _ _ | SetSeedEm _ _ _ => False | _ => True end ->
    fst (run P fuel str_of o W) = fst (run P fuel str_of o V) /\
    wconf w (snd (run P fuel str_of o W)) /\
    part w i (snd (run P fuel str_of o W)) (snd (run P fuel str_of o V)) (snd (run P fuel str_of o W)) (snd (run P fuel str_of o V)) /\
    w_fd P (snd (run P fuel str_of o W)) = w_fd P W /\
    forall j V', apart P w i j -> part w j W V' W V' -> part w j (snd (run P fuel str_of o W)) V' (snd (run P fuel str_of o W)) V'.
  Proof.
    intros C A Ho Hs.
    assert (L : allowed seeds (belongs P w i) (fun _ => False) o) by (destruct o; try contradiction; exact Ho).
    destruct (rel_run fuel str_of _ _ _ _ _ _ _ o L W V A) as [E R]. split; [exact E|].
    assert (Wi : within (belongs P W i) (fun _ => False) W (snd (run P fuel str_of o W))).
    { apply (run_within fuel str_of); [apply closed_tree|]. destruct o; try contradiction; eapply belongs_wconf; eauto. }
    split; [eapply wconf_trans; [exact C | apply Wi]|]. split; [apply rebase in R; exact R|]. split.
    - destruct Wi as (_ & _ & G & _). apply same_list. intros f. symmetry. apply (G f). auto.
    - intros j V' Ap Aj. eapply agree_frame; [exact Aj| | |exact Wi].
      + intros k Bk Bj. apply (Ap k); [|exact Bj]. eapply belongs_wconf; [apply wconf_sym; exact C | exact Bk].
      + contradiction.
  Qed.

  Lemma conf_sound w W : wconf w W -> (forall i e k, get_em i w = Some e -> In k (children P e) -> (k < i)%nat) ->
    forall i e k, get_em i W = Some e -> In k (children P e) -> (k < i)%nat.
  Proof.
    intros C H i e k E Hk. pose proof (proj1 C i) as Q. rewrite E in Q. destruct (get_em i w) as [e0|] eqn:E0; [|contradiction].
    apply (H i e0 k E0). rewrite (conf_children _ _ Q). exact Hk.
  Qed.

  Lemma ask_run i n (w : world) : ask P fuel str_of i n w =
    match n with VNone => em_call P fuel str_of i w | _ => (z <~ lift (as_int n) ;; l <~ em_call_n P fuel str_of i z ;; ret (VList l)) w end.
  Proof. destruct n; reflexivity. Qed.

  Lemma part_call w i (W V : world) : wconf w W -> part w i W V W V ->
    fst (em_call P fuel str_of i W) = fst (em_call P fuel str_of i V) /\
    wconf w (snd (em_call P fuel str_of i W)) /\
    part w i (snd (em_call P fuel str_of i W)) (snd (em_call P fuel str_of i V)) (snd (em_call P fuel str_of i W)) (snd (em_call P fuel str_of i V)) /\
    w_fd P (snd (em_call P fuel str_of i W)) = w_fd P W /\
    forall j V', apart P w i j -> part w j W V' W V' -> part w j (snd (em_call P fuel str_of i W)) V' (snd (em_call P fuel str_of i W)) V'.
  Proof.
    intros C A. pose proof (part_op w i W V (Emit P i) C A (belongs_self _ _ _) I) as X. cbn [run] in X. unfold mbind, ret in X.
    destruct (em_call P fuel str_of i W) as [[]], (em_call P fuel str_of i V) as [[]]; cbn [fst snd] in *; destruct X as [E X];
      (split; [congruence | exact X]).
  Qed.
  Lemma part_call_n w i n (W V : world) : wconf w W -> part w i W V W V ->
    fst (em_call_n P fuel str_of i n W) = fst (em_call_n P fuel str_of i n V) /\
    wconf w (snd (em_call_n P fuel str_of i n W)) /\
    part w i (snd (em_call_n P fuel str_of i n W)) (snd (em_call_n P fuel str_of i n V)) (snd (em_call_n P fuel str_of i n W)) (snd (em_call_n P fuel str_of i n V)) /\
    w_fd P (snd (em_call_n P fuel str_of i n W)) = w_fd P W /\
    forall j V', apart P w i j -> part w j W V' W V' -> part w j (snd (em_call_n P fuel str_of i n W)) V' (snd (em_call_n P fuel str_of i n W)) V'.
  Proof.
    intros C A. pose proof (part_op w i W V (EmitN P i n) C A (belongs_self _ _ _) I) as X. cbn [run] in X. unfold mbind, ret in X.
    destruct (em_call_n P fuel str_of i n W) as [[]], (em_call_n P fuel str_of i n V) as [[]]; cbn [fst snd] in *; destruct X as [E X];
      (split; [congruence | exact X]).
  Qed.
  Lemma part_ask w i n (W V : world) : wconf w W -> part w i W V W V ->
    fst (ask P fuel str_of i n W) = fst (ask P fuel str_of i n V) /\
    wconf w (snd (ask P fuel str_of i n W)) /\
    part w i (snd (ask P fuel str_of i n W)) (snd (ask P fuel str_of i n V)) (snd (ask P fuel str_of i n W)) (snd (ask P fuel str_of i n V)) /\
    w_fd P (snd (ask P fuel str_of i n W)) = w_fd P W /\
    forall j V', apart P w i j -> part w j W V' W V' -> part w j (snd (ask P fuel str_of i n W)) V' (snd (ask P fuel str_of i n W)) V'.
  Proof.
    intros C A. assert (N : forall m, fst (m W) = fst (m V) /\
        wconf w (snd (m W)) /\ part w i (snd (m W)) (snd (m V)) (snd (m W)) (snd (m V)) /\ w_fd P (snd (m W)) = w_fd P W /\
        (forall j V', apart P w i j -> part w j W V' W V' -> part w j (snd (m W)) V' (snd (m W)) V') ->
      let m' := (l <~ m ;; ret (VList l)) in fst (m' W) = fst (m' V) /\
        wconf w (snd (m' W)) /\ part w i (snd (m' W)) (snd (m' V)) (snd (m' W)) (snd (m' V)) /\ w_fd P (snd (m' W)) = w_fd P W /\
        (forall j V', apart P w i j -> part w j W V' W V' -> part w j (snd (m' W)) V' (snd (m' W)) V')).
    { intros m X. cbv zeta. unfold mbind, ret. destruct (m W) as [[]], (m V) as [[]]; cbn [fst snd] in *; destruct X as [E X];
        (split; [congruence | exact X]). }
    rewrite !ask_run. destruct n; try (apply part_call; assumption);
      unfold mbind at 1 3 5 7 9 11 13 15, lift; (destruct (as_int _) as [zz| |];
        [exact (N _ (part_call_n w i zz W V C A)) | cbn [fst snd]; auto | cbn [fst snd]; auto]).
  Qed.

  (** A seeded Word gives what its parts give when each of them is given the same
      seed, alone. *)
  Theorem C86_word w id l a s v v1 v2 k :
    reachable P fuel str_of w -> settings_at P id w = Some (IsWord l a) ->
    apart P w l a -> pure_parts P w l -> pure_parts P w a ->
    alone P fuel s id w v -> alone P fuel s l w v1 -> alone P fuel s a w v2 ->
    fst (history P fuel str_of (repeat (Emit P id) k) v) = words_apart P fuel str_of l a k v1 v2.
  Proof.
    intros R St Ap Pl Pa A A1 A2. apply settings_get in St as (e & E & St). destruct e; try discriminate. injection St as -> ->.
    destruct (alone_fresh _ _ _ _ A) as (C & G & F).
    destruct (alone_fresh _ _ _ _ A1) as (C1 & G1 & F1). destruct (alone_fresh _ _ _ _ A2) as (C2 & G2 & F2).
    apply reachable_sound in R. destruct R as (Ro & Rs & Rp).
    assert (Fd : forall v v' f, w_fd P v = w_fd P w -> w_fd P v' = w_fd P w -> get_fd f v = get_fd f v').
    { intros x y f Q1 Q2. unfold World.get_fd. congruence. }
    assert (X1 : part w l v v1 v v1).
    { apply (part_agree s); auto. intros j B. apply F. econstructor; [exact E | left; reflexivity | exact B]. }
    assert (X2 : part w a v v2 v v2).
    { apply (part_agree s); auto. intros j B. apply F. econstructor; [exact E | right; left; reflexivity | exact B]. }
    assert (Ap' : apart P w a l) by (intros j B1 B2; exact (Ap j B2 B1)).
    clear A A1 A2 F F1 F2 C1 C2 G1 G2 Fd. revert v v1 v2 C G X1 X2.
    induction k as [|k IH]; intros v v1 v2 C G X1 X2; [reflexivity|].
    cbn [repeat history words_apart run].
    (* one call *)
    assert (U : em_call P fuel str_of id v = word_emit (em_call P fuel str_of l) (em_call P fuel str_of a) (em_call_n P fuel str_of a) v).
    { unfold em_call at 1. rewrite emit_unfold.
      - unfold emit_body, at_em. pose proof (proj1 C id) as Q. rewrite E in Q. destruct (get_em id v) as [e|]; [|contradiction].
        destruct e; try contradiction. destruct Q as [<- <-]. reflexivity.
      - split; [|split].
        + apply (conf_sound w v C Ro).
        + intros i e f Ee Hf. rewrite G. pose proof (proj1 C i) as Q. rewrite Ee in Q. destruct (get_em i w) as [e0|] eqn:E0; [|contradiction].
          apply (Rs i e0 f E0). rewrite (conf_source _ _ Q). exact Hf.
        + intros f x p Ex Hx. unfold World.get_fd in Ex. rewrite G in Ex. specialize (Rp f x p Ex Hx).
          apply nth_error_Some. pose proof (proj1 C p) as Q. unfold World.get_em in Q. apply nth_error_Some in Rp.
          destruct (nth_error (w_em P w) p); [|congruence]. destruct (nth_error (w_em P v) p); [discriminate | contradiction]. }
    destruct (part_call w l v v1 C X1) as (Y1 & Y2 & Y3 & Y4 & Y5). specialize (Y5 a v2 Ap X2).
    unfold mbind at 1. rewrite U. unfold word_emit, mbind at 1.
    destruct (em_call P fuel str_of l v) as [r w1], (em_call P fuel str_of l v1) as [r1 v1']. cbn [fst snd] in *. subst r1.
    destruct r as [n|e|].
    - fold (ask P fuel str_of a n). destruct (part_ask w a n w1 v2 Y2 Y5) as (Z1 & Z2 & Z3 & Z4 & Z5). specialize (Z5 l v1' Ap' Y3).
      unfold mbind at 1. destruct (ask P fuel str_of a n w1) as [r w2], (ask P fuel str_of a n v2) as [r1 v2']. cbn [fst snd] in *. subst r1.
      specialize (IH w2 v1' v2' Z2 (eq_trans Z4 (eq_trans Y4 G)) Z5 Z3).
      destruct r as [c|e|]; cbn [bind].
      + unfold mbind, lift, ret. destruct (join_val c) as [j|e|]; cbn [bind];
          destruct (history P fuel str_of (repeat (Emit P id) k) w2) as [rs x]; cbn [fst] in *; rewrite IH; reflexivity.
      + destruct (history P fuel str_of (repeat (Emit P id) k) w2) as [rs x]; cbn [fst] in *; rewrite IH; reflexivity.
      + destruct (history P fuel str_of (repeat (Emit P id) k) w2) as [rs x]; cbn [fst] in *; rewrite IH; reflexivity.
    - specialize (IH w1 v1' v2 Y2 (eq_trans Y4 G) Y3 Y5).
      destruct (history P fuel str_of (repeat (Emit P id) k) w1) as [rs x]; cbn [fst] in *; rewrite IH; reflexivity.
    - specialize (IH w1 v1' v2 Y2 (eq_trans Y4 G) Y3 Y5).
      destruct (history P fuel str_of (repeat (Emit P id) k) w1) as [rs x]; cbn [fst] in *; rewrite IH; reflexivity.
  Qed.

  Lemma field_alone_fresh s f w v : field_alone P fuel s f w v ->
    wconf w v /\ (forall g, g <> f -> get_fd g v = get_fd g w) /\ forall j, uses P w f j -> fresh_at P fuel (Some s) v j.
  Proof.
    intros (u & A & B).
    assert (Keep : forall o (W W' : world), allowed (fun _ => True) (uses P W f) (fun g => g = f) o -> snd (run P fuel str_of o W) = W' ->
      forall g, g <> f -> get_fd g W' = get_fd g W).
    { intros o W W' L <- g N. symmetry. apply (run_within fuel str_of _ _ W o (closed_field W f) L). exact N. }
    assert (A' : wconf w u /\ fseed (Some s) u f /\ forall g, g <> f -> get_fd g u = get_fd g w).
    { destruct A as [A|A].
      - destruct (fd_seed_step fuel score_quiet _ _ _ _ A) as (S & _ & Q & _). split; [apply S|]. split; [exact Q|].
        apply (Keep (Seed P f (Some s))); [cbn; auto|]. cbn [run]. unfold mbind. rewrite A. reflexivity.
      - split; [|split].
        + unfold fd_set_seed in A. pose proof (run_within fuel str_of _ _ w (SetSeed P f (Some s)) (closed_field w f) (conj eq_refl I)) as Q.
          cbn [run] in Q. unfold fd_set_seed, mbind in Q. rewrite A in Q. apply Q.
        + intros x E. unfold fd_set_seed, modify_fd, at_fd in A. destruct (get_fd f w) as [y|] eqn:Ey; [|discriminate].
          injection A as <-. unfold World.get_fd, put_fd in E, Ey. cbn in E. rewrite (nth_upd_same _ _ _ _ _ Ey) in E. injection E as <-. reflexivity.
        + apply (Keep (SetSeed P f (Some s))); [cbn; auto|]. cbn [run]. unfold mbind. rewrite A. reflexivity. }
    destruct A' as (C & S & G). destruct (fd_reset_step fuel score_quiet _ _ _ _ S B) as (S' & F & _).
    split; [eapply wconf_trans; [exact C | apply S']|]. split.
    - intros g N. rewrite <- (G g N). apply (Keep (Reset P f)); [reflexivity| |exact N]. cbn [run]. unfold mbind. rewrite B. reflexivity.
    - intros j U. apply F. eapply uses_wconf; eauto.
  Qed.

  (** Remembering a value changes no part. *)
  Lemma part_cache w i f x c (W V : world) : get_fd f W = Some x -> ~ tree_reads w i f ->
    part w i W V W V -> part w i (put_fd P f (fd_cache P c x) W) V (put_fd P f (fd_cache P c x) W) V.
  Proof.
    intros E N A. apply (agree_frame _ _ _ _ _ (fun _ => False) (fun g => g = f) W V _ A); [contradiction | intros g -> ; exact N |].
    assert (L : forall g, get_fd g (put_fd P f (fd_cache P c x) W) = if Nat.eq_dec g f then Some (fd_cache P c x) else get_fd g W).
    { intros g. unfold World.get_fd, put_fd in *. cbn. destruct (Nat.eq_dec g f) as [->|Ng].
      - eapply nth_upd_same. exact E.
      - apply nth_upd_other. auto. }
    split; [|split; [reflexivity | split; [|reflexivity]]].
    - split; intros g; [apply orel_refl, conf_refl|]. rewrite L. destruct (Nat.eq_dec g f) as [->|Ng].
      + rewrite E. repeat split.
      + apply orel_refl, fconf_refl.
    - intros g Ng. rewrite L. destruct (Nat.eq_dec g f); [contradiction | reflexivity].
  Qed.

  (** A seeded field gives what its parts give when each of them is given the same
      seed, alone. *)
  Theorem C86_field w f name hide em rep gate s v v1 v2 v3 k :
    field_settings_at P f w = Some (name, hide, em, rep, gate) ->
    apart P w gate rep -> apart P w gate em -> apart P w rep em ->
    ~ reads P w f f -> pure_factories P w f ->
    field_alone P fuel s f w v ->
    alone P fuel s gate w v1 -> alone P fuel s rep w v2 -> alone P fuel s em w v3 ->
    fst (history P fuel str_of (repeat (Call P f) k) v) = values_apart P fuel str_of gate rep em k v1 v2 v3.
  Proof.
    unfold field_settings_at. destruct (get_fd f w) as [x|] eqn:E; [|discriminate]. intros St G1 G2 G3 Nr Hp A A1 A2 A3.
    cbn [option_map] in St. injection St as <- <- <- <- <-.
    destruct (field_alone_fresh _ _ _ _ A) as (C & G & F).
    assert (Us : forall p j, In p (parts P x) -> belongs P w p j -> uses P w f j) by (intros p j Hin B; exists x, p; auto).
    assert (Nt : forall p, In p (parts P x) -> ~ tree_reads w p f).
    { intros p Hin (j & e & B & Ee & Q). apply Nr. exists j, e. split; [exact (Us p j Hin B) | auto]. }
    assert (X : forall p v', In p (parts P x) -> alone P fuel s p w v' -> part w p v v' v v').
    { intros p v' Hin A'. destruct (alone_fresh _ _ _ _ A') as (C' & G' & F'). apply (part_agree s); auto.
      - intros j B. apply F. exact (Us p j Hin B).
      - intros j e B. apply Hp. exact (Us p j Hin B).
      - intros g Rg. destruct (Nat.eq_dec g f) as [->|N]; [destruct (Nt p Hin Rg)|].
        rewrite (G g N). unfold World.get_fd. rewrite G'. reflexivity. }
    assert (X1 := X _ _ (or_intror (or_intror (or_introl eq_refl))) A1).
    assert (X2 := X _ _ (or_intror (or_introl eq_refl)) A2).
    assert (X3 := X _ _ (or_introl eq_refl) A3).
    assert (N1 := Nt _ (or_intror (or_intror (or_introl eq_refl)))).
    assert (N2 := Nt _ (or_intror (or_introl eq_refl))).
    assert (N3 := Nt _ (or_introl eq_refl)).
    assert (S1 : apart P w (f_rep P x) (f_gate P x)) by (intros j B1 B2; exact (G1 j B2 B1)).
    assert (S2 : apart P w (f_em P x) (f_gate P x)) by (intros j B1 B2; exact (G2 j B2 B1)).
    assert (S3 : apart P w (f_em P x) (f_rep P x)) by (intros j B1 B2; exact (G3 j B2 B1)).
    clear A A1 A2 A3 F G X Us Nt Nr Hp. revert v v1 v2 v3 C X1 X2 X3.
    induction k as [|k IH]; intros v v1 v2 v3 C X1 X2 X3; [reflexivity|].
    cbn [repeat history values_apart run]. unfold mbind at 1, fd_call, at_fd.
    destruct (get_fd f v) as [y|] eqn:Ey; [|pose proof (proj2 C f) as Q; rewrite E, Ey in Q; contradiction].
    assert (Q : fconf x y) by (pose proof (proj2 C f) as Q; rewrite E, Ey in Q; exact Q).
    destruct Q as (_ & _ & <- & <- & <-).
    assert (Mem : forall c (W : world), wconf w W -> w_fd P W = w_fd P v ->
      exists y', get_fd f W = Some y' /\ modify_fd P f (fd_cache P c) W = (Ok tt, put_fd P f (fd_cache P c y') W) /\
                 wconf w (put_fd P f (fd_cache P c y') W)).
    { intros c W CW Ew. exists y. assert (EW : get_fd f W = Some y) by (unfold World.get_fd in *; rewrite Ew; exact Ey).
      split; [exact EW|]. unfold modify_fd, at_fd. rewrite EW. split; [reflexivity|]. eapply wconf_trans; [exact CW|].
      split; intros g; [apply orel_refl, conf_refl|]. unfold World.get_fd, put_fd in *. cbn. destruct (Nat.eq_dec g f) as [->|Ng].
      - rewrite (nth_upd_same _ _ _ _ _ EW), EW. repeat split.
      - rewrite nth_upd_other by auto. apply orel_refl, fconf_refl. }
    destruct (part_call w _ v v1 C X1) as (Y1 & Y2 & Y3 & Y4 & Y5). pose proof (Y5 _ v2 G1 X2) as YR. pose proof (Y5 _ v3 G2 X3) as YE. clear Y5.
    unfold field_call, mbind at 1.
    destruct (em_call P fuel str_of (f_gate P x) v) as [r w1], (em_call P fuel str_of (f_gate P x) v1) as [r1 v1']. cbn [fst snd] in *. subst r1.
    destruct r as [o|e|].
    2, 3: specialize (IH w1 v1' v2 v3 Y2 Y3 YR YE);
      destruct (history P fuel str_of (repeat (Call P f) k) w1) as [rs z]; cbn [fst] in *; rewrite IH; reflexivity.
    destruct (truthy o).
    2: { destruct (Mem VNone w1 Y2 Y4) as (y' & E1 & E2 & E3). unfold mbind at 1. rewrite E2. cbn [ret].
         specialize (IH _ v1' v2 v3 E3 (part_cache _ _ _ _ _ _ _ E1 N1 Y3) (part_cache _ _ _ _ _ _ _ E1 N2 YR) (part_cache _ _ _ _ _ _ _ E1 N3 YE)).
         unfold ret. destruct (history P fuel str_of (repeat (Call P f) k) (put_fd P f (fd_cache P VNone y') w1)) as [rs z]; cbn [fst] in *; rewrite IH; reflexivity. }
    destruct (part_call w _ w1 v2 Y2 YR) as (Z1 & Z2 & Z3 & Z4 & Z5). pose proof (Z5 _ v1' S1 Y3) as ZG. pose proof (Z5 _ v3 G3 YE) as ZE. clear Z5.
    unfold mbind at 1.
    destruct (em_call P fuel str_of (f_rep P x) w1) as [r w2], (em_call P fuel str_of (f_rep P x) v2) as [r1 v2']. cbn [fst snd] in *. subst r1.
    destruct r as [n|e|].
    2, 3: specialize (IH w2 v1' v2' v3 Z2 ZG Z3 ZE);
      destruct (history P fuel str_of (repeat (Call P f) k) w2) as [rs z]; cbn [fst] in *; rewrite IH; reflexivity.
    fold (ask P fuel str_of (f_em P x) n).
    destruct (part_ask w _ n w2 v3 Z2 ZE) as (U1 & U2 & U3 & U4 & U5). pose proof (U5 _ v1' S2 ZG) as UG. pose proof (U5 _ v2' S3 Z3) as UR. clear U5.
    unfold mbind at 1.
    destruct (ask P fuel str_of (f_em P x) n w2) as [r w3], (ask P fuel str_of (f_em P x) n v3) as [r1 v3']. cbn [fst snd] in *. subst r1.
    destruct r as [c|e|]; cbn [bind].
    2, 3: specialize (IH w3 v1' v2' v3' U2 UG UR U3);
      destruct (history P fuel str_of (repeat (Call P f) k) w3) as [rs z]; cbn [fst] in *; rewrite IH; reflexivity.
    destruct (Mem c w3 U2 (eq_trans U4 (eq_trans Z4 Y4))) as (y' & E1 & E2 & E3). unfold mbind at 1. rewrite E2.
    specialize (IH _ v1' v2' v3' E3 (part_cache _ _ _ _ _ _ _ E1 N1 UG) (part_cache _ _ _ _ _ _ _ E1 N2 UR) (part_cache _ _ _ _ _ _ _ E1 N3 U3)).
    unfold ret. destruct (history P fuel str_of (repeat (Call P f) k) (put_fd P f (fd_cache P c y') w3)) as [rs z]; cbn [fst] in *; rewrite IH; reflexivity.
  Qed.
End C86.
Print Assumptions C86_word.
Print Assumptions C86_field.

(** ** Concrete cases *)

(** A word of one to three letters, in a field with a gate and one or two values. *)
Definition word_field : world DP :=
  program
    [NewChoice DP true [VInt 1; VInt 2; VInt 3] None true false None None;
     NewChoice DP true [VStr [97]; VStr [98]; VStr [99]] None true false None None;
     NewWord DP 0 1 None;
     NewChoice DP true [VBool true; VBool false] None true false None None;
     NewChoice DP true [VInt 1; VInt 2] None true false None None;
     NewField DP "w" 2 (Some 4%nat) (Some 3%nat) false None] empty.

Lemma alone_at (w : world DP) s i : fst ((set_rng_seed DP (Some s) i ;;; em_reset DP 9 i) w) = Ok tt ->
  alone DP 9 s i w (snd ((set_rng_seed DP (Some s) i ;;; em_reset DP 9 i) w)).
Proof.
  unfold mbind, alone. destruct (set_rng_seed DP (Some s) i w) as [[[]| |] u]; try discriminate. intros H. exists u.
  split; [reflexivity|]. destruct (em_reset DP 9 i u) as [r v]. cbn in *. congruence.
Qed.
Lemma field_alone_at (w : world DP) s i : fst ((fd_seed DP 9 i (Some s) ;;; fd_reset DP 9 i) w) = Ok tt ->
  field_alone DP 9 s i w (snd ((fd_seed DP 9 i (Some s) ;;; fd_reset DP 9 i) w)).
Proof.
  unfold mbind, field_alone. destruct (fd_seed DP 9 i (Some s) w) as [[[]| |] u]; try discriminate. intros H. exists u.
  split; [left; reflexivity|]. destruct (fd_reset DP 9 i u) as [r v]. cbn in *. congruence.
Qed.
Lemma apart_at (w : world DP) l m i j : closed_list w l = true -> closed_list w m = true -> In i l -> In j m ->
  forallb (fun x => negb (existsb (Nat.eqb x) m)) l = true -> apart DP w i j.
Proof.
  intros Cl Cm Hi Hj D k Bi Bj. rewrite forallb_forall in D. specialize (D k (belongs_in _ _ _ _ Cl Bi Hi)).
  pose proof (belongs_in _ _ _ _ Cm Bj Hj) as Hk. apply negb_true_iff in D.
  assert (existsb (Nat.eqb k) m = true) by (apply existsb_exists; exists k; split; [exact Hk | apply Nat.eqb_refl]). congruence.
Qed.
Lemma pure_at (w : world DP) l i : closed_list w l = true -> In i l ->
  forallb (fun j => match World.get_em DP j w with Some (EIter _ _) | Some (EUser _ _ _ _) => false | Some (ESeq _ _ q) => s_own q | _ => true end) l = true ->
  pure_parts DP w i.
Proof.
  intros Cl Hi D j e B E. rewrite forallb_forall in D. specialize (D j (belongs_in _ _ _ _ Cl B Hi)). rewrite E in D.
  destruct e; auto; discriminate.
Qed.

Definition seeded_now (w : world DP) (i : nat) : world DP := snd ((set_rng_seed DP (Some 5%nat) i ;;; em_reset DP 9 i) w).

Example C86_word_case :
  reachable DP 9 demo_str word_field /\ settings_at DP 2 word_field = Some (IsWord 0 1) /\ apart DP word_field 0 1 /\
  pure_parts DP word_field 0 /\ pure_parts DP word_field 1 /\
  alone DP 9 5%nat 2 word_field (seeded_now word_field 2) /\
  alone DP 9 5%nat 0 word_field (seeded_now word_field 0) /\ alone DP 9 5%nat 1 word_field (seeded_now word_field 1) /\
  words_apart DP 9 demo_str 0 1 4 (seeded_now word_field 0) (seeded_now word_field 1) =
  [Ok (Value (VStr [97; 99; 97])); Ok (Value (VStr [99])); Ok (Value (VStr [97; 98])); Ok (Value (VStr [99; 97; 99]))].
Proof.
  split; [apply program_reachable; [constructor | vm_compute; reflexivity]|].
  split; [vm_cast_no_check (eq_refl (settings_at DP 2 word_field))|].
  split; [apply (apart_at word_field [0%nat] [1%nat]); try (vm_compute; reflexivity); left; reflexivity|].
  split; [apply (pure_at word_field [0%nat]); try (vm_compute; reflexivity); left; reflexivity|].
  split; [apply (pure_at word_field [1%nat]); try (vm_compute; reflexivity); left; reflexivity|].
  split; [apply alone_at; vm_compute; reflexivity|]. split; [apply alone_at; vm_compute; reflexivity|].
  split; [apply alone_at; vm_compute; reflexivity|].
  vm_compute. reflexivity.
Qed.

Example C86_field_case :
  let w := word_field in
  field_settings_at DP 0 w = Some ("w"%string, false, 2%nat, 4%nat, 3%nat) /\
  apart DP w 3 4 /\ apart DP w 3 2 /\ apart DP w 4 2 /\ ~ reads DP w 0 0 /\ pure_factories DP w 0 /\
  field_alone DP 9 5%nat 0 w (snd ((fd_seed DP 9 0 (Some 5%nat) ;;; fd_reset DP 9 0) w)) /\
  alone DP 9 5%nat 3 w (seeded_now w 3) /\ alone DP 9 5%nat 4 w (seeded_now w 4) /\ alone DP 9 5%nat 2 w (seeded_now w 2) /\
  values_apart DP 9 demo_str 3 4 2 6 (seeded_now w 3) (seeded_now w 4) (seeded_now w 2) =
  [Ok (Value VNone); Ok (Value (VList [VStr [97]; VStr [99; 97; 98]])); Ok (Value VNone); Ok (Value (VList [VStr [97; 98]]));
   Ok (Value VNone); Ok (Value (VList [VStr [99; 97]; VStr [99]]))].
Proof.
  cbv zeta. split; [vm_cast_no_check (eq_refl (field_settings_at DP 0 word_field))|].
  split; [apply (apart_at word_field [3%nat] [4%nat]); try (vm_compute; reflexivity); left; reflexivity|].
  split; [apply (apart_at word_field [3%nat] [2; 0; 1]%nat); try (vm_compute; reflexivity); left; reflexivity|].
  split; [apply (apart_at word_field [4%nat] [2; 0; 1]%nat); try (vm_compute; reflexivity); left; reflexivity|].
  split; [intros R; apply (reads_in word_field (seq 0 5) [] 0 0) in R; [exact R | vm_compute; reflexivity | vm_compute; reflexivity | vm_compute; reflexivity]|].
  split; [apply (pure_by_class word_field (seq 0 5)); vm_compute; reflexivity|].
  split; [apply field_alone_at; vm_compute; reflexivity|].
  split; [apply alone_at; vm_compute; reflexivity|]. split; [apply alone_at; vm_compute; reflexivity|].
  split; [apply alone_at; vm_compute; reflexivity|].
  vm_compute. reflexivity.
Qed.
