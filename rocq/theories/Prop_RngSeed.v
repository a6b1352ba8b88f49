(** * rng_seed: property C98. *)
From Coq Require Import String.
From Verif Require Import Base Prims Values MathModel ChoiceModel ChoiceRun ChoiceProofs FixedModel GroupModel
  SigModel WrapModel TextModel FieldModel World Rel WorldProofs Agree WorldSpec WorldReset Histories
  WorldBuild BuildProofs ProgramSpec ObjectSpec ObjectProofs Demo WorldDemo Prop_World Prop_Construct Prop_Objects
  Prop_Seed Prop_Runs Prop_Parts SeedKeep.
Open Scope list_scope.
Open Scope Z_scope.

(** ** Specification *)

Section Spec.
  Context (P : prims) (fuel : nat) (str_of : val -> res (list Z)).

  (** The attribute [rng_seed] of an emitter: [None] if it has none.  (That of a
      field is Prop_Seed.field_seed.) *)
  Definition rng_seed_at (i : nat) (w : world P) : option (option (pSeed P)) :=
    match get_em P i w with Some e => option_map (n_seed P) (node_of P e) | None => None end.

  (** [j] is a part of emitter [i], at any depth. *)
  Definition part_of (w : world P) (i j : nat) : Prop :=
    exists e k, get_em P i w = Some e /\ In k (children P e) /\ belongs P w k j.

  (** The command may change the rng_seed of emitter [j]: it assigns to it; it
      seeds the emitter or something it is part of; or it resets something the
      emitter is part of.  A constructor resets the new object, and so does
      assigning a function to a wrapper. *)
  Definition reseeds (w : world P) (j : nat) (c : command P) : Prop :=
    match c with
    | Do _ (SetSeedEm _ i _) => i = j
    | Do _ (SeedEm _ i _) => belongs P w i j
    | Do _ (ResetEm _ i) | SetFunction _ i _ => part_of w i j
    | Do _ (Reset _ f) | Do _ (Seed _ f _) => uses P w f j
    | Do _ (ResetFields _ fs) | Do _ (SeedFields _ fs _) => exists f, In f (map snd fs) /\ uses P w f j
    | ResetSource _ i | SeedSource _ i _ =>
        exists e f, get_em P i w = Some e /\ In f (source_of P e) /\ uses P w f j
    | NewWord _ _ _ _ | NewText _ _ _ _ _ | NewWrapOne _ _ _ _ | NewWrapMany _ _ _ _ | NewField _ _ _ _ _ _ _ =>
        exists k, In k (emitters_of P c) /\ belongs P w k j
    | _ => False
    end.
  (** The same for a field: only assigning and seeding. *)
  Definition reseeds_field (w : world P) (f : nat) (c : command P) : Prop :=
    match c with
    | Do _ (SetSeed _ g _) | Do _ (Seed _ g _) => g = f
    | Do _ (SeedFields _ fs _) => In f (map snd fs)
    | SeedSource _ i _ => exists e, get_em P i w = Some e /\ In f (source_of P e)
    | _ => False
    end.

  (** At no point of the program is there such a command. *)
  Fixpoint left_alone (j : nat) (l : list (command P)) (w : world P) : Prop :=
    match l with
    | [] => True
    | c :: t => possible P c w /\ ~ reseeds w j c /\ left_alone j t (snd (exec P fuel str_of c w))
    end.
  Fixpoint field_left_alone (f : nat) (l : list (command P)) (w : world P) : Prop :=
    match l with
    | [] => True
    | c :: t => possible P c w /\ ~ reseeds_field w f c /\ field_left_alone f t (snd (exec P fuel str_of c w))
    end.
End Spec.

(** ** Proofs *)

Section Proofs.
  Context {P : prims} (fuel : nat) (str_of : val -> res (list Z)).
  Notation world := (World.world P).
  Notation get_em := (World.get_em P).
  Notation get_fd := (World.get_fd P).
  Notation exec := (WorldBuild.exec P fuel str_of).
  Notation rng_seed_at := (rng_seed_at P).
  Notation field_seed := (Prop_Seed.field_seed P).

  Lemma after_rel D F A (m : M world A) w : Rel.rel (since (seeds D F) w) m m -> seeds D F w (snd (m w)).
  Proof. intros H. apply (H w w). split; [reflexivity | apply seeds_refl]. Qed.
  Lemma snd_fin A (m : M world A) w : snd ((m ;;; ret tt) w) = snd (m w).
  Proof. unfold mbind, ret. destruct (m w) as [[a|e|] w']; reflexivity. Qed.
  Lemma snd_run A (m : M world A) (k : A -> answer) w : snd ((a <~ m ;; ret (k a)) w) = snd (m w).
  Proof. unfold mbind, ret. destruct (m w) as [[a|e|] w']; reflexivity. Qed.

  Lemma seeds_em D F w w' j : seeds D F w w' -> ~ D j -> rng_seed_at j w' = rng_seed_at j w.
  Proof.
    intros [H _] N. specialize (H j). unfold Prop_RngSeed.rng_seed_at.
    destruct (get_em j w), (get_em j w'); try contradiction; [|reflexivity]. symmetry. apply H, N.
  Qed.
  Lemma seeds_fd D F w w' f : seeds D F w w' -> ~ F f -> field_seed f w' = field_seed f w.
  Proof.
    intros [_ H] N. specialize (H f). unfold Prop_Seed.field_seed.
    destruct (get_fd f w), (get_fd f w'); try contradiction; [|reflexivity]. cbn. f_equal. symmetry. apply H, N.
  Qed.

  (** The old objects are still there. *)
  Definition grown (w w' : world) : Prop :=
    (forall i, (i < length (w_em P w))%nat -> get_em i w' = get_em i w) /\
    (forall f, (f < length (w_fd P w))%nat -> get_fd f w' = get_fd f w) /\
    (length (w_em P w) <= length (w_em P w'))%nat.
  Lemma grown_refl w : grown w w.
  Proof. repeat split; auto. Qed.
  Lemma grown_trans a b c : grown a b -> grown b c -> (length (w_fd P a) <= length (w_fd P b))%nat -> grown a c.
  Proof.
    intros (A1 & A2 & A3) (B1 & B2 & B3) L. repeat split; [| |lia].
    - intros i H. rewrite B1 by lia. auto.
    - intros i H. rewrite B2 by lia. auto.
  Qed.
  Lemma grown_em w e : grown w (snd (alloc_em P e w)).
  Proof.
    unfold grown, World.get_em, World.get_fd. cbn. split; [|split; [reflexivity | rewrite app_length; lia]].
    intros i H. rewrite nth_error_app1 by exact H. reflexivity.
  Qed.
  Lemma grown_fd w x : grown w (snd (alloc_fd P x w)).
  Proof.
    unfold grown, World.get_em, World.get_fd. cbn. split; [reflexivity|]. split; [|lia].
    intros i H. apply nth_error_app1, H.
  Qed.
  Lemma belongs_grown w w' k j : sound P w -> grown w w' -> (k < length (w_em P w))%nat -> belongs P w' k j -> belongs P w k j.
  Proof.
    intros S G L B. revert L. induction B as [i|i e k j E Hk B IH]; intros L; [constructor|].
    rewrite (proj1 G) in E by exact L. econstructor; [exact E | exact Hk|]. apply IH. eapply sound_bound; eauto.
  Qed.

  Lemma kept_grown D F w w' w'' j : grown w w' -> seeds D F w' w'' -> (j < length (w_em P w))%nat -> ~ D j -> rng_seed_at j w'' = rng_seed_at j w.
  Proof.
    intros G S L N. rewrite (seeds_em _ _ _ _ _ S N). unfold Prop_RngSeed.rng_seed_at. rewrite (proj1 G) by exact L. reflexivity.
  Qed.
  Lemma kept_grown_fd D F w w' w'' f : grown w w' -> seeds D F w' w'' -> (f < length (w_fd P w))%nat -> ~ F f -> field_seed f w'' = field_seed f w.
  Proof.
    intros G S L N. rewrite (seeds_fd _ _ _ _ _ S N). unfold Prop_Seed.field_seed. rewrite (proj1 (proj2 G)) by exact L. reflexivity.
  Qed.

  Definition nothing (_ : nat) : Prop := False.

  (** *** Operations *)
  Definition op_seeds (w : world) (o : op P) : (nat -> Prop) * (nat -> Prop) :=
    (fun j => reseeds P w j (Do P o), fun f => reseeds_field P w f (Do P o)).
  Lemma run_seeds o w : seeds (fst (op_seeds w o)) (snd (op_seeds w o)) w (snd (run P fuel str_of o w)).
  Proof.
    destruct o; cbn [op_seeds fst snd reseeds reseeds_field run]; rewrite snd_run; apply after_rel.
    - apply s_call.
    - apply s_call_n.
    - apply s_reset. intros e k j E Hk B. exists e, k. auto.
    - apply s_seed. intros j B. exact B.
    - apply rel_kept, k_modify. intros e. destruct (node_of P e) as [nd|] eqn:En; [|apply esame_refl].
      eapply esame_with; [exact En | intros N; destruct N; reflexivity].
    - apply s_fd_call.
    - apply s_fd_reset. intros x p j E Hp B. exists x, p. auto.
    - apply s_fd_seed; [reflexivity|]. intros x p j E Hp B. exists x, p. auto.
    - apply rel_kept, k_modify_fd. intros x. split; [reflexivity | intros N; destruct N; reflexivity].
    - apply rel_schema_loop; [intros nf _ s1 s2 [<- _]; reflexivity|]. intros nf _. apply s_fd_call.
    - apply s_fields_reset. intros f Hf x p j E Hp B. exists f. split; [exact Hf|]. exists x, p. auto.
    - apply s_fields_seed. intros f Hf. split; [exact Hf|]. intros x p j E Hp B. exists f. split; [exact Hf|]. exists x, p. auto.
  Qed.

  (** *** Constructors *)
  Lemma built e A (k : nat -> M world A) w :
    sound P w -> (forall i, In i (children P e) -> (i < length (w_em P w))%nat) ->
    (forall D wa i, covers D wa i -> Rel.rel (since (seeds D nothing) wa) (k i) (k i)) ->
    let w' := snd ((i <~ alloc_em P e ;; k i) w) in
    rng_seed_at (length (w_em P w)) w' = option_map (n_seed P) (node_of P e) /\
    (forall j, (j < length (w_em P w))%nat -> ~ (exists i, In i (children P e) /\ belongs P w i j) -> rng_seed_at j w' = rng_seed_at j w) /\
    (forall f, (f < length (w_fd P w))%nat -> field_seed f w' = field_seed f w).
  Proof.
    intros Sw Hc Hk. set (n := length (w_em P w)). set (wa := snd (alloc_em P e w)).
    assert (E : snd ((i <~ alloc_em P e ;; k i) w) = snd (k n wa)) by reflexivity.
    cbv zeta. rewrite E. pose proof (grown_em w e) as G. fold wa in G.
    assert (En : get_em n wa = Some e).
    { unfold wa, n, World.get_em. cbn. rewrite nth_error_app2, Nat.sub_diag by lia. reflexivity. }
    assert (S : seeds (part_of P wa n) nothing wa (snd (k n wa))).
    { apply after_rel, Hk. intros e' i j Ee Hi B. exists e', i. auto. }
    assert (Parts : forall j, part_of P wa n j -> exists i, In i (children P e) /\ belongs P w i j).
    { intros j (e' & i & Ee & Hi & B). rewrite En in Ee. injection Ee as <-. exists i. split; [exact Hi|].
      eapply belongs_grown; [exact Sw | exact G | apply Hc, Hi | exact B]. }
    split; [|split].
    - rewrite (seeds_em _ _ _ _ _ S); [unfold Prop_RngSeed.rng_seed_at; rewrite En; reflexivity|].
      intros Hp. destruct (Parts _ Hp) as (i & Hi & B). specialize (Hc i Hi). pose proof (belongs_le w i n Sw B). unfold n in *. lia.
    - intros j Lj Nj. eapply kept_grown; [exact G | exact S | exact Lj|]. intros Hp. apply Nj, Parts, Hp.
    - intros f Lf. eapply kept_grown_fd; [exact G | exact S | exact Lf | intros []].
  Qed.
  Lemma k_same D F w0 A (m : M world A) : (forall w, snd (m w) = w) -> Rel.rel (since (seeds D F) w0) m m.
  Proof. intros H. apply rel_kept. intros w. rewrite H. apply seeds_refl. Qed.

  Definition keep (w : world) (D F : nat -> Prop) (w' : world) : Prop :=
    (forall j, (j < length (w_em P w))%nat -> ~ D j -> rng_seed_at j w' = rng_seed_at j w) /\
    (forall f, (f < length (w_fd P w))%nat -> ~ F f -> field_seed f w' = field_seed f w).
  Lemma keep_seeds w D F w' : seeds D F w w' -> keep w D F w'.
  Proof. intros S. split; intros j _ N; [eapply seeds_em | eapply seeds_fd]; eauto. Qed.
  Lemma keep_grown w D F w' : grown w w' -> keep w D F w'.
  Proof. intros G. split; intros j L N; [eapply (kept_grown D F) | eapply (kept_grown_fd D F)]; [exact G | apply seeds_refl | exact L | exact N | exact G | apply seeds_refl | exact L | exact N]. Qed.

  Ltac tail := repeat first
    [ apply s_reset; assumption | apply s_set_function; assumption
    | apply rel_bind; [|intros ?] | apply k_same; reflexivity
    | apply rel_kept, k_modify; intros []; apply esame_refl ].

  Lemma word_tail l a D wa i : covers D wa i -> Rel.rel (since (seeds D nothing) wa)
    (em_reset P fuel i ;;;
     u <~ (fun w => (x <- nuv_at P a w ;; word_nuv x (items_list P l w), w)) ;;
     modify_em P i (fun e => match e with EWord _ l a _ nd => EWord P l a u nd | e => e end) ;;; ret i)
    (em_reset P fuel i ;;;
     u <~ (fun w => (x <- nuv_at P a w ;; word_nuv x (items_list P l w), w)) ;;
     modify_em P i (fun e => match e with EWord _ l a _ nd => EWord P l a u nd | e => e end) ;;; ret i).
  Proof. intros C. tail. apply rel_kept, k_modify. intros []; repeat split. Qed.
  Lemma text_tail n x sp D wa i : covers D wa i -> Rel.rel (since (seeds D nothing) wa)
    (em_reset P fuel i ;;;
     u <~ (fun w => (a <- nuv_at P x w ;; b <- nuv_at P sp w ;; text_nuv a b (items_list P n w), w)) ;;
     modify_em P i (fun e => match e with EText _ n x y _ nd => EText P n x y u nd | e => e end) ;;; ret i)
    (em_reset P fuel i ;;;
     u <~ (fun w => (a <- nuv_at P x w ;; b <- nuv_at P sp w ;; text_nuv a b (items_list P n w), w)) ;;
     modify_em P i (fun e => match e with EText _ n x y _ nd => EText P n x y u nd | e => e end) ;;; ret i).
  Proof. intros C. tail. apply rel_kept, k_modify. intros []; repeat split. Qed.
  Lemma fun_tail f D wa i : covers D wa i -> Rel.rel (since (seeds D nothing) wa)
    (em_reset P fuel i ;;; set_function P fuel str_of i f ;;; ret i)
    (em_reset P fuel i ;;; set_function P fuel str_of i f ;;; ret i).
  Proof. intros C. tail. Qed.

  (** A field: its parts are given the seed. *)
  Lemma built_field x w :
    sound P w -> (forall i, In i (parts P x) -> (i < length (w_em P w))%nat) ->
    let w' := snd ((i <~ alloc_fd P x ;; fd_reset P fuel i ;;; ret i) w) in
    field_seed (length (w_fd P w)) w' = Some (n_seed P (f_nd P x)) /\
    keep w (fun j => exists i, In i (parts P x) /\ belongs P w i j) nothing w'.
  Proof.
    intros Sw Hc. set (n := length (w_fd P w)). set (wa := snd (alloc_fd P x w)).
    assert (E : snd ((i <~ alloc_fd P x ;; fd_reset P fuel i ;;; ret i) w) = snd ((fd_reset P fuel n ;;; ret n) wa)) by reflexivity.
    cbv zeta. rewrite E. pose proof (grown_fd w x) as G. fold wa in G.
    assert (En : get_fd n wa = Some x).
    { unfold wa, n, World.get_fd. cbn. rewrite nth_error_app2, Nat.sub_diag by lia. reflexivity. }
    set (D := fun j => exists i, In i (parts P x) /\ belongs P w i j).
    assert (S : seeds D nothing wa (snd ((fd_reset P fuel n ;;; ret n) wa))).
    { apply after_rel, rel_bind; [|intros ?; apply rel_ret]. apply s_fd_reset. intros y p j Ey Hp B.
      rewrite En in Ey. injection Ey as <-. exists p. split; [exact Hp|].
      eapply belongs_grown; [exact Sw | exact G | apply Hc, Hp | exact B]. }
    split.
    - rewrite (seeds_fd _ _ _ _ _ S) by (intros []). unfold Prop_Seed.field_seed. rewrite En. reflexivity.
    - split; [intros j L N; eapply kept_grown | intros f L N; eapply kept_grown_fd]; [exact G | exact S | exact L | exact N | exact G | exact S | exact L | exact N].
  Qed.

  (** The constructors with optional parts *)
  Lemma opt_em (o : option nat) v w : sound P w -> (forall i, o = Some i -> (i < length (w_em P w))%nat) ->
    exists i w', (match o with Some i => ret i | None => new_static P v end) w = (Ok i, w') /\ sound P w' /\ grown w w' /\
      w_fd P w' = w_fd P w /\ (i < length (w_em P w'))%nat /\
      (forall j, (j < length (w_em P w))%nat -> belongs P w' i j -> exists k, o = Some k /\ belongs P w k j).
  Proof.
    intros Sw H. destruct o as [i|].
    - exists i, w. split; [reflexivity|]. split; [exact Sw|]. split; [apply grown_refl|]. split; [reflexivity|].
      split; [apply H; reflexivity|]. intros j _ B. exists i. auto.
    - exists (length (w_em P w)), (snd (new_static P v w)). split; [reflexivity|].
      assert (S' : sound P (snd (new_static P v w))) by (apply (sound_alloc _ w Sw); intros ? []).
      split; [exact S'|]. split; [apply grown_em|]. split; [reflexivity|].
      split; [cbn; rewrite app_length; cbn; lia|]. intros j L B. exfalso.
      inversion B as [|i e k j' E Hk B' X Y]; subst; [lia|].
      unfold World.get_em in E. cbn in E. rewrite nth_error_app2, Nat.sub_diag in E by lia. injection E as <-. destruct Hk.
  Qed.

  Lemma bind_first A B (m : M world A) (k : A -> M world B) w a w1 : m w = (Ok a, w1) -> mbind m k w = k a w1.
  Proof. unfold mbind. intros ->. reflexivity. Qed.
  Definition returns {A} (x : A) (m : M world A) : Prop := forall w i, fst (m w) = Ok i -> i = x.
  Lemma returns_ret A (x : A) : returns x (ret x).
  Proof. intros w i [= <-]. reflexivity. Qed.
  Lemma returns_bind A B (x : B) (m : M world A) k : (forall a, returns x (k a)) -> returns x (mbind m k).
  Proof. intros H w i. unfold mbind. destruct (m w) as [[a|e|] w1]; [apply H | discriminate | discriminate]. Qed.
  Lemma returns_alloc A e (k : nat -> M world A) (x : nat -> A) w i :
    (forall j, returns (x j) (k j)) -> fst ((j <~ alloc_em P e ;; k j) w) = Ok i -> i = x (length (w_em P w)).
  Proof. intros H E. eapply H. exact E. Qed.
  Lemma keep_trans w (D F D' F' : nat -> Prop) w1 w2 : grown w w1 -> w_fd P w1 = w_fd P w -> keep w1 D' F' w2 ->
    (forall j, (j < length (w_em P w))%nat -> D' j -> D j) -> (forall f, F' f -> F f) -> keep w D F w2.
  Proof.
    intros G Ef [K1 K2] HD HF. pose proof (proj2 (proj2 G)) as Le. split.
    - intros j L N. rewrite K1; [|lia|intros X; apply N, HD; auto]. unfold Prop_RngSeed.rng_seed_at. rewrite (proj1 G) by exact L. reflexivity.
    - intros f L N. rewrite K2; [|rewrite Ef; exact L|intros X; apply N, HF; auto]. unfold Prop_Seed.field_seed.
      rewrite (proj1 (proj2 G)) by exact L. reflexivity.
  Qed.

  Lemma built_text n x s sd w :
    sound P w -> (n < length (w_em P w))%nat -> (x < length (w_em P w))%nat -> (forall i, s = Some i -> (i < length (w_em P w))%nat) ->
    let w' := snd (new_text P fuel n x s sd w) in
    (forall i, fst (new_text P fuel n x s sd w) = Ok i -> rng_seed_at i w' = Some sd) /\
    keep w (fun j => exists i, In i (n :: x :: match s with Some i => [i] | None => [] end) /\ belongs P w i j) nothing w'.
  Proof.
    intros Sw Ln Lx Ls. unfold new_text.
    destruct (opt_em s (VStr [32]) w Sw Ls) as (sp & w1 & E1 & S1 & G1 & F1 & L1 & B1).
    rewrite (bind_first _ _ _ _ _ _ _ E1). cbv zeta. pose proof (proj2 (proj2 G1)) as Le.
    destruct (built (EText P n x sp Unknown (new_node P sd)) nat _ w1 S1 ltac:(intros i [<-|[<-|[<-|[]]]]; lia) (text_tail n x sp)) as (H1 & H2 & H3).
    split.
    - intros i Hi. assert (i = length (w_em P w1)) as ->; [|exact H1].
      eapply (returns_alloc _ _ _ (fun j => j)); [|exact Hi]. intros j. repeat (apply returns_bind; intros ?). apply returns_ret.
    - eapply (keep_trans w _ nothing _ nothing); [exact G1 | exact F1 | split; [exact H2 | intros f Lf _; apply H3, Lf] | | intros f X; exact X].
      intros j Lj (i & Hi & B). cbn [children In] in Hi. destruct Hi as [<-|[<-|[<-|[]]]].
      + exists n. split; [left; reflexivity | eapply belongs_grown; eauto].
      + exists x. split; [right; left; reflexivity | eapply belongs_grown; eauto].
      + destruct (B1 j Lj B) as (i & -> & Bi). exists i. split; [right; right; left; reflexivity | exact Bi].
  Qed.

  Lemma built_new_field name e r g h sd w :
    sound P w -> (e < length (w_em P w))%nat -> (forall i, r = Some i -> (i < length (w_em P w))%nat) -> (forall i, g = Some i -> (i < length (w_em P w))%nat) ->
    let w' := snd (new_field P fuel name e r g h sd w) in
    (forall f, fst (new_field P fuel name e r g h sd w) = Ok f -> field_seed f w' = Some sd) /\
    keep w (fun j => exists i, In i (e :: match r with Some i => [i] | None => [] end ++ match g with Some i => [i] | None => [] end) /\ belongs P w i j) nothing w'.
  Proof.
    intros Sw Le Lr Lg. unfold new_field.
    destruct (opt_em r VNone w Sw Lr) as (r' & w1 & E1 & S1 & G1 & F1 & L1 & B1).
    pose proof (proj2 (proj2 G1)) as Le1.
    destruct (opt_em g (VBool true) w1 S1) as (g' & w2 & E2 & S2 & G2 & F2 & L2 & B2).
    { intros i Hi. specialize (Lg i Hi). lia. }
    pose proof (proj2 (proj2 G2)) as Le2.
    assert (G : grown w w2) by (eapply grown_trans; [exact G1 | exact G2 | rewrite F1; lia]).
    cbv zeta. rewrite (bind_first _ _ _ _ _ _ _ E1), (bind_first _ _ _ _ _ _ _ E2).
    destruct (built_field (mkField P name h e r' g' (new_node P sd) VNone 0) w2 S2 ltac:(intros i [<-|[<-|[<-|[]]]]; cbn; lia)) as (H1 & H2).
    split.
    - intros f Hf. assert (f = length (w_fd P w2)) as ->; [|exact H1].
      revert Hf. clear. unfold mbind, alloc_fd, ret. cbn [fst snd].
      destruct (fd_reset _ _ _ _) as [[?|?|] ?]; try discriminate. intros [= <-]. reflexivity.
    - eapply (keep_trans w _ nothing _ nothing); [exact G | congruence | exact H2 | | intros f X; exact X].
      intros j Lj (i & Hi & B). cbn in Hi. destruct Hi as [<-|[<-|[<-|[]]]].
      + exists e. split; [left; reflexivity | eapply belongs_grown; [exact Sw | exact G | exact Le | exact B]].
      + assert (B' : belongs P w1 r' j) by (eapply belongs_grown; [exact S1 | exact G2 | exact L1 | exact B]).
        destruct (B1 j Lj B') as (i & -> & Bi). exists i. split; [right; left; reflexivity | exact Bi].
      + destruct (B2 j ltac:(lia) B) as (i & -> & Bi). exists i. split; [right; apply in_or_app; right; left; reflexivity|].
        eapply belongs_grown; [exact Sw | exact G1 | apply Lg; reflexivity | exact Bi].
  Qed.

  (** *** All commands *)
  Lemma k_set_source D F id b fs : keeps (seeds D F) (set_source P id b fs).
  Proof.
    intros w. unfold set_source, at_em. destruct (get_em id w) as [e|] eqn:E; [|apply seeds_refl].
    destruct e; try apply seeds_refl; eapply seeds_put; [exact E | repeat split | exact E | repeat split].
  Qed.
  Lemma k_set_separator D F id sep : keeps (seeds D F) (set_separator P id sep).
  Proof.
    intros w. unfold set_separator, at_em. destruct (get_em id w) as [e|] eqn:E; [|apply seeds_refl].
    destruct e; try apply seeds_refl; eapply seeds_put; [exact E | repeat split].
  Qed.
  Lemma keep_less w (D F D' F' : nat -> Prop) w' : keep w D' F' w' -> (forall j, D' j -> D j) -> (forall f, F' f -> F f) -> keep w D F w'.
  Proof. intros [A B] HD HF. split; intros j L N; [apply A | apply B]; auto. Qed.

  Lemma exec_keep c w : sound P w -> possible P c w ->
    keep w (fun j => reseeds P w j c) (fun f => reseeds_field P w f c) (snd (exec c w)).
  Proof.
    intros Sw [Pe Pf].
    assert (Made : forall (D F : nat -> Prop) A e (k : nat -> M world A),
      (forall i, In i (children P e) -> (i < length (w_em P w))%nat) ->
      (forall D wa i, covers D wa i -> Rel.rel (since (seeds D nothing) wa) (k i) (k i)) ->
      (forall j, (exists i, In i (children P e) /\ belongs P w i j) -> D j) ->
      keep w D F (snd ((i <~ alloc_em P e ;; k i) w))).
    { intros D F A e k Hc Hk HD. destruct (built e A k w Sw Hc Hk) as (_ & H2 & H3). split.
      - intros j L N. apply H2; [exact L|]. intros X. apply N, HD, X.
      - intros f L _. apply H3, L. }
    destruct c; cbn [WorldBuild.exec]; cbn [emitters_of fields_of] in Pe, Pf; rewrite ?snd_fin.
    - apply keep_grown, grown_em.
    - unfold new_iter, mbind, lift. destruct (iter_new f rac); [|apply keep_grown, grown_refl|apply keep_grown, grown_refl]. apply keep_grown, grown_em.
    - unfold new_seq, mbind, lift. destruct (seq_new items rac); [|apply keep_grown, grown_refl|apply keep_grown, grown_refl]. apply keep_grown, grown_em.
    - unfold new_choice, mbind at 1, lift. destruct (choice_new _ _ _ _ _ _ _ _ _) as [c|?|]; [|apply keep_grown, grown_refl|apply keep_grown, grown_refl].
      apply Made; [intros ? []| |intros j (i & [] & _)]. intros D wa i C. apply rel_bind; [apply rel_kept, k_use | intros; apply rel_ret].
    - apply Made; [exact Pe | apply word_tail | intros j X; exact X].
    - destruct (built_text numwords_em word_em sep_em seed w Sw) as [_ K].
      + apply Pe. left. reflexivity.
      + apply Pe. right. left. reflexivity.
      + intros i ->. apply Pe. right. right. left. reflexivity.
      + eapply keep_less; [exact K | intros j X; exact X | intros f X; exact X].
    - apply Made; [exact Pe | apply fun_tail | intros j X; exact X].
    - apply Made; [exact Pe | apply fun_tail | intros j X; exact X].
    - apply keep_grown, grown_em.
    - apply Made; [intros ? [] | apply fun_tail | intros j (i & [] & _)].
    - destruct (built_new_field name em rep gate hide seed w Sw) as [_ K].
      + apply Pe. left. reflexivity.
      + intros i ->. apply Pe. right. left. reflexivity.
      + intros i ->. apply Pe. right. apply in_or_app. right. left. reflexivity.
      + eapply keep_less; [exact K | intros j X; exact X | intros f X; exact X].
    - apply keep_seeds, k_em_set.
    - apply keep_seeds, after_rel, s_set_function. intros e k j E Hk B. exists e, k. auto.
    - split; [intros j _ _; unfold fd_set_part, modify_fd, at_fd; destruct (get_fd f w); reflexivity|].
      intros g _ _. unfold fd_set_part, modify_fd, at_fd. destruct (get_fd f w) as [x|] eqn:E; [|reflexivity].
      unfold Prop_Seed.field_seed, World.get_fd in *. cbn [snd put_fd w_fd]. destruct (Nat.eq_dec f g) as [<-|N].
      + rewrite (nth_upd_same _ _ _ _ _ E), E. destruct p; reflexivity.
      + rewrite nth_upd_other by exact N. reflexivity.
    - apply keep_seeds, k_modify_fd. intros x. split; [reflexivity | intros _; reflexivity].
    - unfold em_reset_source, at_em. destruct (get_em id w) as [e|] eqn:E; [|apply keep_seeds, seeds_refl].
      destruct e; try apply keep_seeds, seeds_refl; apply keep_seeds, after_rel, s_fields_reset;
        intros f Hf x p j Ex Hp B; eexists _, f; (split; [exact E|]; split; [exact Hf|]; exists x, p; auto).
    - unfold em_seed_source, at_em. destruct (get_em id w) as [e|] eqn:E; [|apply keep_seeds, seeds_refl].
      destruct e; try apply keep_seeds, seeds_refl; apply keep_seeds, after_rel, s_fields_seed;
        intros f Hf; (split; [eexists; split; [exact E | exact Hf]|]);
        intros x p j Ex Hp B; eexists _, f; (split; [exact E|]; split; [exact Hf|]; exists x, p; auto).
    - apply keep_seeds, k_set_source.
    - apply keep_seeds, k_set_separator.
    - apply keep_seeds, run_seeds.
    - apply Made; [intros ? [] | | intros j (i & [] & _)]. intros D wa i C.
      apply rel_bind; [destruct random; [apply s_reset; exact C | apply rel_ret] | intros; apply rel_ret].
  Qed.

  (** ** C98 *)

  (** One command *)
  Theorem C98_kept w c j e : reachable P fuel str_of w -> possible P c w -> get_em j w = Some e ->
    ~ reseeds P w j c -> rng_seed_at j (snd (exec c w)) = rng_seed_at j w.
  Proof.
    intros R Hp E N. apply (exec_keep c w); [eapply reachable_sound; exact R | exact Hp | | exact N].
    unfold World.get_em in E. apply nth_error_Some. destruct (nth_error (w_em P w) j); [discriminate | discriminate E].
  Qed.
  Theorem C98_kept_field w c f x : reachable P fuel str_of w -> possible P c w -> get_fd f w = Some x ->
    ~ reseeds_field P w f c -> field_seed f (snd (exec c w)) = field_seed f w.
  Proof.
    intros R Hp E N. apply (exec_keep c w); [eapply reachable_sound; exact R | exact Hp | | exact N].
    unfold World.get_fd in E. apply nth_error_Some. congruence.
  Qed.

  (** Programs of any length *)
  Theorem C98_program l : forall w j s, reachable P fuel str_of w -> rng_seed_at j w = Some s ->
    left_alone P fuel str_of j l w -> rng_seed_at j (snd (run_program P fuel str_of l w)) = Some s.
  Proof.
    induction l as [|c l IH]; intros w j s R E H; cbn [run_program snd]; [exact E|].
    destruct H as (Hp & Hn & Hl). pose proof (show_exec fuel str_of c w) as Q.
    destruct (show P fuel str_of c w) as [r w1] eqn:Ew. cbn [snd] in Q. subst w1.
    specialize (IH (snd (exec c w)) j s). destruct (run_program P fuel str_of l (snd (exec c w))) as [rs w2]. cbn [snd] in *.
    apply IH; [apply reach_step; assumption | | exact Hl]. rewrite <- E.
    assert (exists e, get_em j w = Some e) as [e Ee] by (unfold Prop_RngSeed.rng_seed_at in E; destruct (get_em j w); [eauto | discriminate]).
    eapply C98_kept; eauto.
  Qed.
  Theorem C98_program_field l : forall w f s, reachable P fuel str_of w -> field_seed f w = Some s ->
    field_left_alone P fuel str_of f l w -> field_seed f (snd (run_program P fuel str_of l w)) = Some s.
  Proof.
    induction l as [|c l IH]; intros w f s R E H; cbn [run_program snd]; [exact E|].
    destruct H as (Hp & Hn & Hl). pose proof (show_exec fuel str_of c w) as Q.
    destruct (show P fuel str_of c w) as [r w1] eqn:Ew. cbn [snd] in Q. subst w1.
    specialize (IH (snd (exec c w)) f s). destruct (run_program P fuel str_of l (snd (exec c w))) as [rs w2]. cbn [snd] in *.
    apply IH; [apply reach_step; assumption | | exact Hl]. rewrite <- E.
    assert (exists e, get_fd f w = Some e) as [e Ee] by (unfold Prop_Seed.field_seed in E; destruct (get_fd f w); [eauto | discriminate]).
    eapply C98_kept_field; eauto.
  Qed.

  (** Assigning: the attribute is the value given, and the assignment does nothing
      else: assigning the old value undoes it. *)
  Lemma upd_back A (l : list A) : forall n x y, nth_error l n = Some x -> upd n x (upd n y l) = l.
  Proof. induction l as [|a l IH]; intros [|n] x y E; try discriminate; cbn in *; [congruence | f_equal; auto]. Qed.
  Lemma put_back i e e' (w : world) : get_em i w = Some e -> put_em P i e (put_em P i e' w) = w.
  Proof.
    unfold World.get_em, put_em. intros E. destruct (nth_error (w_em P w) i) as [[e1 n]|] eqn:N; [|discriminate].
    injection E as <-. cbn [w_em w_fd w_run]. rewrite (nth_upd_same _ _ _ _ _ N). cbn [o_ent]. rewrite (upd_back _ _ _ _ _ N). destruct w; reflexivity.
  Qed.
  Theorem C98_assigned w i old s : rng_seed_at i w = Some old ->
    exists w', set_rng_seed P s i w = (Ok tt, w') /\ rng_seed_at i w' = Some s /\
      set_rng_seed P old i w' = (Ok tt, w).
  Proof.
    unfold Prop_RngSeed.rng_seed_at, set_rng_seed, modify_em, at_em. intros H.
    destruct (get_em i w) as [e|] eqn:E; [|discriminate]. eexists. split; [reflexivity|].
    destruct (node_of P e) as [nd|] eqn:En; [|discriminate]. injection H as <-.
    rewrite (get_put_same _ _ _ _ E).
    assert (X : node_of P (with_node P (mkNode P s (n_rng P nd)) e) = Some (mkNode P s (n_rng P nd))).
    { destruct e; try discriminate En; try reflexivity. cbn in *. rewrite En. reflexivity. }
    rewrite X. split; [reflexivity|]. cbn [n_rng].
    replace (with_node P (mkNode P (n_seed P nd) (n_rng P nd)) (with_node P (mkNode P s (n_rng P nd)) e)) with e;
      [rewrite put_back by exact E; reflexivity|].
    destruct nd as [sd rg]. destruct e; try discriminate En; cbn in En |- *; try (injection En as -> ); try reflexivity.
    - injection En as <- <-. destruct c; reflexivity.
    - rewrite En. reflexivity.
  Qed.
  Theorem C98_assigned_field w f old s : field_seed f w = Some old ->
    exists w', fd_set_seed P f s w = (Ok tt, w') /\ field_seed f w' = Some s /\ fd_set_seed P f old w' = (Ok tt, w).
  Proof.
    unfold Prop_Seed.field_seed, fd_set_seed, modify_fd, at_fd. intros H.
    destruct (get_fd f w) as [x|] eqn:E; [|discriminate]. eexists. split; [reflexivity|]. injection H as <-.
    unfold World.get_fd in *. cbn [put_fd w_fd]. rewrite (nth_upd_same _ _ _ _ _ E). split; [reflexivity|].
    unfold put_fd. cbn [w_em w_fd w_run]. destruct x as [a b c d g [sd rg] h k]. cbn. rewrite (upd_back _ _ _ _ _ E). destruct w; reflexivity.
  Qed.

  (** The constructors *)
  Theorem C98_new_choice b items ws rep roac s cum w i w' :
    new_choice P fuel b items ws rep roac s cum w = (Ok i, w') -> rng_seed_at i w' = Some s.
  Proof.
    unfold new_choice, mbind at 1, lift.
    destruct (choice_new P fuel items ws rep roac s cum _) as [c|?|] eqn:E; try discriminate.
    apply new_inv in E as (wc & _ & _ & Hr & _). intros [= <- <-].
    unfold Prop_RngSeed.rng_seed_at. rewrite get_use. unfold World.get_em. cbn [w_em].
    rewrite nth_error_app2, Nat.sub_diag by lia. cbn.
    apply reset_any in Hr as [(_ & _ & _ & _ & _ & F) _]. cbn in F. rewrite F. reflexivity.
  Qed.
  Theorem C98_new_word l a s w i w' : reachable P fuel str_of w -> possible P (NewWord P l a s) w ->
    new_word P fuel l a s w = (Ok i, w') -> rng_seed_at i w' = Some s.
  Proof.
    intros R [Pe _] E. unfold new_word in E. assert (i = length (w_em P w)) as ->.
    { eapply (returns_alloc _ _ _ (fun j => j)); [|exact (f_equal fst E)].
      intros j. repeat (apply returns_bind; intros ?). apply returns_ret. }
    destruct (built (EWord P l a Unknown (new_node P s)) nat _ w (reachable_sound fuel str_of w R) Pe (word_tail l a)) as (H & _).
    rewrite E in H. exact H.
  Qed.
  Theorem C98_new_text n x sp s w i w' : reachable P fuel str_of w -> possible P (NewText P n x sp s) w ->
    new_text P fuel n x sp s w = (Ok i, w') -> rng_seed_at i w' = Some s.
  Proof.
    intros R [Pe _] E. cbn [emitters_of] in Pe.
    destruct (built_text n x sp s w (reachable_sound fuel str_of w R)) as [H _].
    - apply Pe. left. reflexivity.
    - apply Pe. right. left. reflexivity.
    - intros j ->. apply Pe. right. right. left. reflexivity.
    - rewrite E in H. apply H. reflexivity.
  Qed.
  Lemma made_fun e f w i w' : sound P w -> (forall k, In k (children P e) -> (k < length (w_em P w))%nat) ->
    (id <~ alloc_em P e ;; em_reset P fuel id ;;; set_function P fuel str_of id f ;;; ret id) w = (Ok i, w') ->
    rng_seed_at i w' = option_map (n_seed P) (node_of P e).
  Proof.
    intros Sw Pe E. assert (i = length (w_em P w)) as ->.
    { eapply (returns_alloc _ _ _ (fun j => j)); [|exact (f_equal fst E)].
      intros j. repeat (apply returns_bind; intros ?). apply returns_ret. }
    destruct (built e nat _ w Sw Pe (fun_tail f)) as (H & _). rewrite E in H. exact H.
  Qed.
  Theorem C98_new_wrapone src f s w i w' : reachable P fuel str_of w -> possible P (NewWrapOne P src f s) w ->
    new_wrapone P fuel str_of src f s w = (Ok i, w') -> rng_seed_at i w' = Some s.
  Proof. intros R [Pe _]. apply (made_fun (EWrapOne P src f (new_node P s))); [eapply reachable_sound; exact R | exact Pe]. Qed.
  Theorem C98_new_wrapmany srcs f s w i w' : reachable P fuel str_of w -> possible P (NewWrapMany P srcs f s) w ->
    new_wrapmany P fuel str_of srcs f s w = (Ok i, w') -> rng_seed_at i w' = Some s.
  Proof. intros R [Pe _]. apply (made_fun (EWrapMany P srcs f (new_node P s))); [eapply reachable_sound; exact R | exact Pe]. Qed.
  Theorem C98_new_based b fs f s w i w' : reachable P fuel str_of w ->
    new_based P fuel str_of b fs f s w = (Ok i, w') -> rng_seed_at i w' = Some s.
  Proof. intros R. apply (made_fun (EBased P b fs f (new_node P s))); [eapply reachable_sound; exact R | intros ? []]. Qed.
  Theorem C98_new_field name e r g h s w f w' : reachable P fuel str_of w -> possible P (NewField P name e r g h s) w ->
    new_field P fuel name e r g h s w = (Ok f, w') -> field_seed f w' = Some s.
  Proof.
    intros R [Pe _] E. cbn [emitters_of] in Pe.
    destruct (built_new_field name e r g h s w (reachable_sound fuel str_of w R)) as [H _].
    - apply Pe. left. reflexivity.
    - intros j ->. apply Pe. right. left. reflexivity.
    - intros j ->. apply Pe. right. apply in_or_app. right. left. reflexivity.
    - rewrite E in H. apply H. reflexivity.
  Qed.

  Hypothesis score_quiet : forall u w, k_score P u w <> Raise AttributeError.

  (** A reset starts from the seed, and hands it on: all parts with an rng have
      the owner's rng_seed then, and are in the state a reset with it leaves. *)
  Theorem C98_reset w i s w' : rng_seed_at i w = Some s -> em_reset P fuel i w = (Ok tt, w') ->
    forall j e, belongs P w i j -> get_em j w' = Some e ->
      fresh P fuel s e /\ (rng_seed_at j w' = None \/ rng_seed_at j w' = Some s).
  Proof.
    intros E R j e B Ej. assert (Sd : seed_at s w i).
    { intros e0 nd E0 En. unfold Prop_RngSeed.rng_seed_at in E. rewrite E0, En in E. cbn in E. congruence. }
    destruct (ereset_step fuel score_quiet s _ _ _ _ Sd R) as [_ F]. specialize (F j B e Ej). split; [exact F|].
    unfold Prop_RngSeed.rng_seed_at. rewrite Ej. destruct (node_of P e) as [nd|] eqn:En; [right | left; reflexivity].
    cbn. f_equal. eapply fresh_seed; eauto.
  Qed.
  Theorem C98_reset_field w f s w' : field_seed f w = Some s -> fd_reset P fuel f w = (Ok tt, w') ->
    field_seed f w' = Some s /\
    forall j e, uses P w f j -> get_em j w' = Some e ->
      fresh P fuel s e /\ (rng_seed_at j w' = None \/ rng_seed_at j w' = Some s).
  Proof.
    intros E R. assert (Sd : fseed s w f).
    { intros x Ex. unfold Prop_Seed.field_seed in E. rewrite Ex in E. cbn in E. congruence. }
    destruct (fd_reset_step fuel score_quiet s f w w' Sd R) as [(C & _ & Fs & _) [F _]]. split.
    - specialize (Fs f Sd). unfold Prop_Seed.field_seed in *. pose proof (proj2 C f) as Q. unfold fseed in Fs.
      destruct (get_fd f w) as [x|], (get_fd f w') as [x'|] eqn:Ex; try contradiction; try discriminate. cbn. rewrite (Fs x' eq_refl). reflexivity.
    - intros j e U Ej. specialize (F j U e Ej). split; [exact F|].
      unfold Prop_RngSeed.rng_seed_at. rewrite Ej. destruct (node_of P e) as [nd|] eqn:En; [right | left; reflexivity].
      cbn. f_equal. eapply fresh_seed; eauto.
  Qed.

  (** It is the rng_seed at the reset that decides what comes after it: however
      the fields came to have it, and whatever was done before. *)
  Theorem C98_replay w fs s h1 h2 v1 v2 later :
    (forall f, In f (map snd fs) -> pure_factories P w f) -> self_contained P w fs ->
    (forall f, In f (map snd fs) -> field_seed f (after P fuel str_of h1 w) = Some (Some s)) ->
    (forall f, In f (map snd fs) -> field_seed f (after P fuel str_of h2 w) = Some (Some s)) ->
    sc_reset_fields P fuel fs (after P fuel str_of h1 w) = (Ok tt, v1) ->
    sc_reset_fields P fuel fs (after P fuel str_of h2 w) = (Ok tt, v2) ->
    Forall (about_schema P w fs) later ->
    fst (history P fuel str_of later v1) = fst (history P fuel str_of later v2).
  Proof.
    intros Hp Hc A1 A2 B1 B2 Hl.
    assert (X : forall u, (forall f, In f (map snd fs) -> field_seed f u = Some (Some s)) -> forall f, In f (map snd fs) -> fseed (Some s) u f).
    { intros u A f Hf x Ex. specialize (A f Hf). unfold Prop_Seed.field_seed in A. rewrite Ex in A. cbn in A. congruence. }
    apply (history_agree fuel str_of false (fun s => s <> None) (fun j => exists f, In f (map snd fs) /\ uses P w f j)
      (fun f => In f (map snd fs)) (fun f => In f (map snd fs)) v1 v2 later).
    - eapply Forall_impl; [|exact Hl]. intros o. destruct o; exact (fun H => H).
    - apply (stored_agree fuel score_quiet w fs s (after P fuel str_of h1 w) v1 (after P fuel str_of h2 w) v2); auto; apply Histories.history_conf.
  Qed.

  (** The same for one emitter, if no part of it reads fields. *)
  Theorem C98_replay_emitter w i s h1 h2 v1 v2 later :
    pure_parts P w i -> (forall j e, belongs P w i j -> get_em j w = Some e -> source_of P e = []) ->
    rng_seed_at i (after P fuel str_of h1 w) = Some (Some s) ->
    rng_seed_at i (after P fuel str_of h2 w) = Some (Some s) ->
    em_reset P fuel i (after P fuel str_of h1 w) = (Ok tt, v1) ->
    em_reset P fuel i (after P fuel str_of h2 w) = (Ok tt, v2) ->
    Forall (about_emitter P w i) later ->
    fst (history P fuel str_of later v1) = fst (history P fuel str_of later v2).
  Proof.
    intros Hp Hs A1 A2 R1 R2 Hl.
    assert (Sd : forall u, rng_seed_at i u = Some (Some s) -> seed_at (Some s) u i).
    { intros u A e nd E En. unfold Prop_RngSeed.rng_seed_at in A. rewrite E, En in A. cbn in A. congruence. }
    destruct (ereset_step fuel score_quiet (Some s) _ _ _ _ (Sd _ A1) R1) as [(C1 & _) Q1].
    destruct (ereset_step fuel score_quiet (Some s) _ _ _ _ (Sd _ A2) R2) as [(C2 & _) Q2].
    pose proof (Histories.history_conf fuel str_of w h1) as W1. pose proof (Histories.history_conf fuel str_of w h2) as W2.
    assert (X1 : wconf w v1) by (eapply wconf_trans; [exact W1 | exact C1]).
    assert (X2 : wconf w v2) by (eapply wconf_trans; [exact W2 | exact C2]).
    assert (C12 : wconf v1 v2) by (eapply wconf_trans; [apply wconf_sym; exact X1 | exact X2]).
    apply (fresh_tree fuel str_of s i).
    - intros j _. apply (proj1 C12).
    - intros j B. apply Q1. eapply Prop_Seed.belongs_back; [exact C1 | exact B].
    - intros j B. apply Q2. eapply belongs_wconf; [exact W2|]. eapply Prop_Seed.belongs_back; [exact X1 | exact B].
    - intros j e B E. destruct (Prop_Seed.get_back _ _ _ _ X1 E) as (e0 & E0 & C0).
      specialize (Hp j e0 (Prop_Seed.belongs_back _ _ _ _ X1 B) E0). destruct e0, e; try contradiction; auto; cbn in C0.
      + destruct C0 as [<- _]. exact Hp.
      + destruct C0 as (_ & _ & <- & <- & _). exact Hp.
      + destruct C0 as (<- & _). exact Hp.
    - intros j e f B E Hin. destruct (Prop_Seed.get_back _ _ _ _ X1 E) as (e0 & E0 & C0).
      rewrite <- (conf_source _ _ C0), (Hs j e0 (Prop_Seed.belongs_back _ _ _ _ X1 B) E0) in Hin. destruct Hin.
    - eapply Forall_impl; [|exact Hl]. intros o. destruct o; cbn; auto; try (apply belongs_wconf; exact X1).
      + intros [A B]. split; [eapply belongs_wconf; [exact X1 | exact A] | exact B].
      + intros [A B]. split; [eapply belongs_wconf; [exact X1 | exact A] | exact B].
  Qed.

  (** No emitter is part of itself: so its own reset leaves rng_seed alone. *)
  Lemma not_own_part w i : reachable P fuel str_of w -> ~ part_of P w i i.
  Proof.
    intros R (e & k & E & Hk & B). pose proof (reachable_sound fuel str_of w R) as So.
    pose proof (belongs_le w k i So B). destruct So as (So & _). specialize (So i e k E Hk). lia.
  Qed.
End Proofs.

(** ** Concrete programs *)

(** A number and a letter, a word made of them, and a field: each with a seed of
    its own. *)
Definition own_seeds : list (command DP) :=
  [NewChoice DP true [VInt 1; VInt 2; VInt 3] None true false (Some 4%nat) None;
   NewChoice DP true [VStr [97]; VStr [98]] None true false (Some 5%nat) None;
   NewWord DP 0 1 (Some 6%nat)].
Definition and_field : list (command DP) := [NewField DP "word" 2 None None false (Some 8%nat)].
Definition word_world : world DP := program own_seeds empty.
Example word_world_reachable : reachable DP 9 demo_str word_world.
Proof. apply program_reachable; [constructor | vm_compute; reflexivity]. Qed.

(** What the documentation of rng_seed says (mixins.py:21-25): it is set directly
    or by calling seed.  But it also changes without any of these: the numbers'
    is that of the word, since the word was made. *)
Definition C98_direct_statement : Prop :=
  forall (w : world DP) j s c, reachable DP 9 demo_str w -> possible DP c w ->
    rng_seed_at DP j w = Some s ->
    match c with Do _ (SetSeedEm _ _ _) | Do _ (SeedEm _ _ _) | Do _ (Seed _ _ _) | Do _ (SeedFields _ _ _) | SeedSource _ _ _ => False | _ => True end ->
    rng_seed_at DP j (snd (exec DP 9 demo_str c w)) = Some s.
Theorem C98_direct_refuted : ~ C98_direct_statement.
Proof.
  intros H. specialize (H (program (firstn 2 own_seeds) empty) 0%nat (Some 4%nat) (NewWord DP 0 1 (Some 6%nat))).
  assert (R : reachable DP 9 demo_str (program (firstn 2 own_seeds) empty)) by (apply program_reachable; [constructor | vm_compute; reflexivity]).
  specialize (H R). assert (Hp : possible DP (NewWord DP 0 1 (Some 6%nat)) (program (firstn 2 own_seeds) empty)).
  { split; [|intros f []]. intros i [<-|[<-|[]]]; vm_compute; lia. }
  specialize (H Hp ltac:(vm_compute; reflexivity) I). vm_compute in H. discriminate.
Qed.

Example C98_case_seeds :
  map (fun i => rng_seed_at DP i word_world) [0; 1; 2]%nat = [Some (Some 6); Some (Some 6); Some (Some 6)]%nat /\
  map (fun i => rng_seed_at DP i (program and_field word_world)) [0; 1; 2]%nat = [Some (Some 8); Some (Some 8); Some (Some 8)]%nat /\
  field_seed DP 0 (program and_field word_world) = Some (Some 8%nat).
Proof. vm_compute. repeat split. Qed.

(** Emitting, resetting it and seeding its parts leave the word's rng_seed alone. *)
Definition around_word : list (command DP) :=
  [Do DP (EmitN DP 2 3); Do DP (ResetEm DP 2); Do DP (SetSeedEm DP 0 (Some 1%nat)); Do DP (SeedEm DP 1 None); Do DP (Emit DP 2);
   NewStatic DP (VInt 7)].
Example C98_case_left_alone : left_alone DP 9 demo_str 2 around_word word_world.
Proof.
  assert (B : forall w, closed_list w [0; 1]%nat = true -> ~ belongs DP w 1 2).
  { intros w C X. pose proof (belongs_in w [0; 1]%nat 1 2 C X ltac:(cbn; auto)) as Q. cbn in Q. intuition discriminate. }
  pose proof word_world_reachable as R. unfold around_word. cbn [left_alone].
  repeat match goal with
  | |- possible _ _ _ /\ ~ _ /\ _ => split; [split; [intros i [<-|[]]; vm_compute; lia | intros i []]|]; split;
      [try (intros X; exact X)|]
  end.
  - apply not_own_part with (fuel := 9%nat) (str_of := demo_str).
    apply reach_step; [exact R|]. split; [intros i [<-|[]]; vm_compute; lia | intros i []].
  - cbn [reseeds]. discriminate.
  - cbn [reseeds]. apply B. vm_compute. reflexivity.
  - split; [split; intros i []|]. split; [intros X; exact X | exact I].
Qed.
Example C98_case_program :
  rng_seed_at DP 2 word_world = Some (Some 6%nat) /\
  map (fun i => rng_seed_at DP i (snd (run_program DP 9 demo_str around_word word_world))) [0; 1; 2]%nat =
    [Some (Some 1); Some None; Some (Some 6)]%nat.
Proof. vm_compute. repeat split. Qed.

(** The word is assigned the same rng_seed after two different histories, and
    reset: the same words follow. *)
Definition assign_word (h : list (op DP)) : list (op DP) := h ++ [SetSeedEm DP 2 (Some 5%nat)].
Example C98_case_replay :
  let h1 := assign_word [] in let h2 := assign_word [EmitN DP 2 3; SeedEm DP 0 None; ResetEm DP 2] in
  let words w := history DP 9 demo_str [EmitN DP 2 4; Emit DP 2] (snd (em_reset DP 9 2 w)) in
  pure_parts DP word_world 2 /\
  (forall j e, belongs DP word_world 2 j -> get_em DP j word_world = Some e -> source_of DP e = []) /\
  rng_seed_at DP 2 (after DP 9 demo_str h1 word_world) = Some (Some 5%nat) /\
  rng_seed_at DP 2 (after DP 9 demo_str h2 word_world) = Some (Some 5%nat) /\
  fst (em_reset DP 9 2 (after DP 9 demo_str h1 word_world)) = Ok tt /\
  fst (em_reset DP 9 2 (after DP 9 demo_str h2 word_world)) = Ok tt /\
  fst (words (after DP 9 demo_str h1 word_world)) = fst (words (after DP 9 demo_str h2 word_world)) /\
  fst (words (after DP 9 demo_str h1 word_world)) <> fst (words word_world).
Proof.
  assert (C : closed_list word_world [0; 1; 2]%nat = true) by (vm_compute; reflexivity).
  assert (I2 : In 2%nat [0; 1; 2]%nat) by (cbn; auto).
  cbv zeta. split; [|split].
  - apply (pure_at word_world [0; 1; 2]%nat 2%nat C I2). vm_compute. reflexivity.
  - intros j e X E.
    assert (H : forallb (fun j => match World.get_em DP j word_world with
                                  | Some e => match source_of DP e with [] => true | _ => false end
                                  | None => true end) [0; 1; 2]%nat = true) by (vm_compute; reflexivity).
    rewrite forallb_forall in H. specialize (H j (belongs_in _ _ _ _ C X I2)). rewrite E in H.
    destruct (source_of DP e); [reflexivity | discriminate].
  - do 5 (split; [vm_compute; reflexivity|]). vm_compute. discriminate.
Qed.

(** The schema of the other theorems: its fields are given a seed one by one. *)
Definition assign_all (s : nat) : list (op DP) := map (fun nf => SetSeed DP (snd nf) (Some s)) demo_fields.
Definition reset_then (later h : list (op DP)) : option (option nat) * res unit * list (res answer) :=
  let u := after DP 9 demo_str h demo_world in
  let (r, v) := sc_reset_fields DP 9 demo_fields u in
  (field_seed DP 2 u, r, fst (history DP 9 demo_str later v)).
Example C98_case_schema :
  let later := [Doc DP demo_fields] in
  reset_then later (assign_all 7) =
    (Some (Some 7%nat), Ok tt, [Ok (Document [("id", VInt 2); ("copy", VInt 2); ("word", VNone)]%string)]) /\
  reset_then later (EmitN DP 0 5 :: assign_all 7 ++ [Doc DP demo_fields]) = reset_then later (assign_all 7).
Proof. split; vm_compute; reflexivity. Qed.

Print Assumptions C98_kept.
Print Assumptions C98_kept_field.
Print Assumptions C98_program.
Print Assumptions C98_program_field.
Print Assumptions C98_assigned.
Print Assumptions C98_assigned_field.
Print Assumptions C98_new_choice.
Print Assumptions C98_new_word.
Print Assumptions C98_new_text.
Print Assumptions C98_new_wrapone.
Print Assumptions C98_new_wrapmany.
Print Assumptions C98_new_based.
Print Assumptions C98_new_field.
Print Assumptions C98_reset.
Print Assumptions C98_reset_field.
Print Assumptions C98_replay.
Print Assumptions C98_replay_emitter.
Print Assumptions C98_direct_refuted.
