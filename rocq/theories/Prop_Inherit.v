(** * C97: what a class derived from a library class inherits. *)
From Coq Require Import String.
From Verif Require Import Base Prims GroupModel MroModel MroSpec MroProofs MroInit Prop_Mro.
From Verif Require Import Values ChoiceModel FixedModel FieldModel World.
Local Open Scope string_scope.
Local Open Scope list_scope.

(** Every class a program can define: the order in which its methods are looked
    up begins with the class, names no class twice, ends with [object], and keeps
    the orders of all the classes in it. *)
Theorem C97_order : forall t c mro,
  program_classes t -> mro_of t c = Some mro ->
  hd_error mro = Some c /\ NoDup mro /\ (exists l, mro = l ++ [CObject]) /\
  forall d, In d mro -> exists md, mro_of t d = Some md /\ subseq md mro.
Proof.
  intros t c mro Ht Hc. destruct (program_sound t Ht c mro Hc) as (H1 & H2 & _ & H3).
  split; [exact H1|]. split; [exact H2|]. split; [|exact H3].
  eapply object_last; [apply program_sound; exact Ht|exact Hc].
Qed.

(** A class statement either succeeds or raises a TypeError, and fails only for a
    name that is taken, a base that is unknown or named twice, or bases whose
    orders contradict each other: then no list of classes without repetitions
    contains all of them as they are. *)
Lemma pick_none all : forall ls, pick all ls = None -> forall c t, In (c :: t) ls -> free c all = false.
Proof.
  induction ls as [|[|x l] ls IH]; simpl; intros H c t Hin; [contradiction|..].
  - destruct Hin as [|Hin]; [discriminate|eauto].
  - destruct (free x all) eqn:E; [discriminate|].
    destruct Hin as [Hin|Hin]; [injection Hin as <- _; exact E|eauto].
Qed.

(** When C3 is stuck there is no order at all. *)
Lemma stuck_no_order : forall l ls,
  NoDup l -> pick ls ls = None -> forallb is_nil ls = false -> ~ (forall s, In s ls -> subseq s l).
Proof.
  induction l as [|x l IH]; intros ls Hnd Hp Hn Hs.
  - assert (forallb is_nil ls = true); [|congruence].
    apply forallb_forall. intros s Hin. specialize (Hs s Hin). inversion Hs. reflexivity.
  - inversion Hnd as [|? ? Hx Hndl]; subst.
    (* either x heads one of the lists, and is free, or it can be left out *)
    destruct (existsb (fun s => match s with y :: _ => if cls_eq_dec y x then true else false | [] => false end) ls) eqn:Ee.
    + apply existsb_exists in Ee as ([|y t] & Hin & Ey); [discriminate|].
      destruct (cls_eq_dec y x) as [->|]; [|discriminate].
      pose proof (pick_none ls ls Hp x t Hin) as Hf.
      apply not_true_iff_false in Hf. apply Hf. apply free_spec.
      intros s Hs' Hxs. apply Hx. specialize (Hs s Hs'). destruct s as [|z s]; [contradiction|].
      simpl in Hxs. inversion Hs as [|? ? ? H1|? ? ? H1]; subst.
      * eapply sub_in; [exact H1|]. right. exact Hxs.
      * eapply sub_in; [exact H1|exact Hxs].
    + apply (IH ls Hndl Hp Hn). intros s Hin. specialize (Hs s Hin).
      inversion Hs as [|? ? ? H1|? ? ? H1]; subst; [constructor|exact H1|].
      exfalso. assert (Ht : existsb (fun s => match s with y :: _ => if cls_eq_dec y x then true else false | [] => false end) ls = true).
      { apply existsb_exists. exists (x :: a). split; [exact Hin|]. destruct cls_eq_dec; [reflexivity|congruence]. }
      congruence.
Qed.

Lemma sub_remove c : forall l s, ~ In c s -> subseq s l -> subseq s (remove cls_eq_dec c l).
Proof.
  intros l s Hc H. induction H as [l|a x l H IH|x a l H IH]; simpl.
  - constructor.
  - destruct cls_eq_dec; [auto|]. apply sub_skip. auto.
  - destruct cls_eq_dec as [->|]; [exfalso; apply Hc; left; reflexivity|].
    apply sub_keep. apply IH. intros Hin. apply Hc. right. exact Hin.
Qed.

Lemma nodup_remove c l : NoDup l -> NoDup (remove cls_eq_dec c l).
Proof.
  induction 1 as [|x l Hx Hnd IH]; simpl; [constructor|]. destruct cls_eq_dec; [exact IH|].
  constructor; [|exact IH]. intros Hin. apply in_remove in Hin as (Hin & _). contradiction.
Qed.

Lemma merge_complete : forall k ls l,
  (total ls < k)%nat -> NoDup l -> (forall s, In s ls -> subseq s l) -> exists r, merge k ls = Ok r.
Proof.
  induction k; intros ls l Hk Hnd Hs; [lia|]. simpl.
  destruct (forallb is_nil ls) eqn:En; [eauto|].
  destruct (pick ls ls) as [c|] eqn:Ep.
  - pose proof (pick_spec _ _ _ Ep) as (Hf & t & Hin). rewrite free_spec in Hf.
    destruct (IHk (map (drop c) ls) (remove cls_eq_dec c l)) as (r & ->).
    + apply total_drop in Hin. lia.
    + apply nodup_remove. exact Hnd.
    + intros s' Hs'. apply in_map_iff in Hs' as (s & <- & Hin').
      assert (Hc : ~ In c (drop c s)).
      { specialize (Hf s Hin'). destruct s as [|y s]; [intros []|]. simpl in *.
        destruct cls_eq_dec as [->|Hne]; [exact Hf|]. intros [|]; [congruence|contradiction]. }
      apply sub_remove; [exact Hc|]. eapply sub_trans; [|apply (Hs s Hin')].
      destruct s as [|y s]; [constructor|]. simpl.
      destruct cls_eq_dec; [apply sub_skip|]; apply sub_refl.
    + simpl. eauto.
  - exfalso. exact (stuck_no_order l ls Hnd Ep En Hs).
Qed.

(** A class statement with known, distinct bases fails if and only if there is no
    order at all that keeps the order of the bases and the orders of their
    ancestors. *)
Theorem C97_rejected : forall t c b bases ms,
  program_classes t -> mro_of t c = None -> NoDup (b :: bases) ->
  mapM (fun d => match mro_of t d with Some l => Ok l | None => Raise TypeError end) (b :: bases) = Ok ms ->
  (exists t', class_stmt c (b :: bases) t = Ok t') <->
  (exists l, NoDup l /\ forall s, In s (ms ++ [b :: bases]) -> subseq s l).
Proof.
  intros t c b bases ms Ht Hc Hnd Hms. split.
  - intros (t' & E). destruct (class_stmt_ok _ _ _ _ E) as (ms' & l & bs & -> & _ & _ & Hb & Hm & Hs & Hndl & _ & _).
    exists l. split; [exact Hndl|]. intros s Hin. apply in_app_or in Hin as [Hin|Hin].
    + apply Hs. apply in_or_app. left.
      apply mapM_ok in Hms as (_ & H2). destruct (H2 s Hin) as (d & Hd & Ed).
      destruct (Hb d Hd) as (m & Hmin & Em). rewrite Em in Ed. injection Ed as <-. exact Hmin.
    + apply Hs. apply in_or_app. right. exact Hin.
  - intros (l & Hndl & Hs). unfold class_stmt. rewrite Hc.
    assert (El : (length (nodup cls_eq_dec (b :: bases)) =? length (b :: bases))%nat = true).
    { apply Nat.eqb_eq. rewrite (nodup_fixed_point cls_eq_dec) by exact Hnd. reflexivity. }
    rewrite El, Hms. cbn [bind].
    destruct (merge_complete (Datatypes.S (total (ms ++ [b :: bases]))) (ms ++ [b :: bases]) l) as (r & ->); auto.
    cbn [bind]. eauto.
Qed.

(** ** Inheriting reset and seed *)

Lemma statements_sub defs l :
  exists r tr, statements defs l = (r, tr) /\ subseq tr (script (reached defs l)).
Proof.
  unfold statements, invoke. destruct (call record_act defs l) as [m|] eqn:E.
  - destruct (call_record_sub defs l m E []) as (r & tr & Em & Hs & _). simpl in Em. eauto.
  - exists (Raise AttributeError), []. split; [reflexivity|constructor].
Qed.

(** [reset] of a class derived from any class [base], library or not, does
    everything that [base]'s does, in the same order, provided that the classes
    that are not ancestors of [base] call [super().reset()] if they have a
    [reset] at all. *)
Theorem C97_reset : forall u t c mro base bmro,
  program_classes t -> mro_of t c = Some mro -> In CEmitter mro ->
  In base mro -> mro_of t base = Some bmro ->
  (forall x, In x mro -> ~ In x bmro -> passes_on (resets u) x) ->
  exists tr, statements (resets u) mro = (Ok tt, tr) /\
             subseq (snd (statements (resets u) bmro)) tr.
Proof.
  intros u t c mro base bmro Ht Hc He Hin Hb Hp.
  destruct (program_sound t Ht c mro Hc) as (_ & Hnd & _ & Hd).
  destruct (Hd base Hin) as (l & El & Hs). rewrite Hb in El. injection El as <-.
  rewrite (statements_script u mro He). eexists. split; [reflexivity|].
  destruct (statements_sub (resets u) bmro) as (r & tr & -> & Htr). simpl.
  eapply sub_trans; [exact Htr|]. apply script_sub. apply reached_sub; auto.
Qed.

Lemma statements_ok defs mro m b :
  In m mro -> defs m = Some b -> ~ dangles (reached defs mro) ->
  statements defs mro = (Ok tt, script (reached defs mro)).
Proof.
  intros Hin Hm Hd. unfold statements, invoke.
  destruct (call record_act defs mro) as [k|] eqn:E.
  - rewrite (call_record_ok _ _ _ E Hd). reflexivity.
  - apply call_none in E. exfalso. exact (reached_nonempty defs m b mro Hin Hm E).
Qed.

Definition choice_mro := [CChoice; CRandomMixin; CItemsMixin; CEmitter; CGeneric; CAbc; CObject].
Definition text_mro (c : cls) := [c; CRandomWithChildrenMixin; CRandomMixin; CChildrenMixin; CEmitter; CGeneric; CAbc; CObject].

(** [seed], likewise; the user's [seed] methods that call [super().seed]
    without looking come before RandomMixin. *)
Theorem C97_seed : forall u t c mro base bmro,
  program_classes t -> mro_of t c = Some mro -> In CRandomMixin mro ->
  In base mro -> mro_of t base = Some bmro ->
  seed_finds_next u mro ->
  (forall x, In x mro -> ~ In x bmro -> passes_on (seeds u) x) ->
  exists tr, statements (seeds u) mro = (Ok tt, tr) /\
             subseq (snd (statements (seeds u) bmro)) tr.
Proof.
  intros u t c mro base bmro Ht Hc He Hin Hb Hsn Hp.
  destruct (program_sound t Ht c mro Hc) as (_ & Hnd & _ & Hd).
  destruct (Hd base Hin) as (l & El & Hs). rewrite Hb in El. injection El as <-.
  assert (Hlib : forall k mk, mro_of library k = Some mk -> In k mro -> before k CRandomMixin mk -> before k CRandomMixin mro).
  { intros k mk Ek Hk Hbk. destruct (Hd k Hk) as (l & El & Hl).
    rewrite (library_keeps t k mk Ht Ek) in El. injection El as <-.
    rewrite sub_before in *. eapply sub_trans; eauto. }
  assert (Hdg : ~ dangles (reached (seeds u) mro)).
  { apply (plain_no_dangle (seeds u) (mkBody [SeedOwn] IfAny [])); auto.
    intros x bx Hx Ex Es.
    destruct x; simpl in Ex; try discriminate; try (injection Ex as <-; simpl in Es; discriminate).
    - apply (Hlib _ choice_mro); [vm_compute; reflexivity|exact Hx|]. exists [], [], [CItemsMixin; CEmitter; CGeneric; CAbc; CObject]. reflexivity.
    - apply (Hlib _ (text_mro CWord)); [vm_compute; reflexivity|exact Hx|]. exists [], [CRandomWithChildrenMixin], [CChildrenMixin; CEmitter; CGeneric; CAbc; CObject]. reflexivity.
    - apply (Hlib _ (text_mro CText)); [vm_compute; reflexivity|exact Hx|]. exists [], [CRandomWithChildrenMixin], [CChildrenMixin; CEmitter; CGeneric; CAbc; CObject]. reflexivity.
    - eapply Hsn; eauto. }
  rewrite (statements_ok (seeds u) mro CRandomMixin _ He eq_refl Hdg).
  eexists. split; [reflexivity|].
  destruct (statements_sub (seeds u) bmro) as (r & tr & -> & Htr). simpl.
  eapply sub_trans; [exact Htr|]. apply script_sub. apply reached_sub; auto.
Qed.

(** Without that condition it is false: Sequential's [reset] does not call
    [super().reset()], so a class that lists Sequential before Choice does not
    restart the Choice's rng. *)
Theorem C97_refuted : ~ forall u t c mro base bmro,
  program_classes t -> mro_of t c = Some mro -> In CEmitter mro ->
  In base mro -> mro_of t base = Some bmro ->
  subseq (snd (statements (resets u) bmro)) (snd (statements (resets u) mro)).
Proof.
  intros H.
  pose (t := match class_stmts [(CUser 0, [CSequential; CChoice])] library with Ok t => t | _ => [] end).
  specialize (H (mkUsers (fun _ => None) (fun _ => None) (fun _ => None)) t (CUser 0)
                [CUser 0; CSequential; CChoice; CRandomMixin; CItemsMixin; CEmitter; CGeneric; CAbc; CObject]
                CChoice choice_mro).
  assert (Hs : subseq [NewRng; Shuffle] [NewIterator]).
  { apply H.
    - exists [(CUser 0, [CSequential; CChoice])]. split; [repeat constructor; eexists; reflexivity|].
      vm_compute. reflexivity.
    - vm_compute. reflexivity.
    - simpl; tauto.
    - simpl; tauto.
    - vm_compute. reflexivity. }
  inversion Hs as [|? ? ? H1|]; subst. inversion H1.
Qed.

(** A mixin of the user's, with a [reset] that does something before and after,
    put in front of Choice and of Word. *)
Definition counting : users :=
  mkUsers (fun n => match n with 0%nat => Some (mkBody [Own 1 [] []] Plain [Own 2 [] []]) | _ => None end)
          (fun n => match n with 0%nat => Some (mkBody [] Plain [Own 3 [] []]) | _ => None end) (fun _ => None).
Example C97_case :
  let t := match class_stmts [(CUser 0, []); (CUser 1, [CUser 0; CChoice]); (CUser 2, [CUser 0; CWord])] library with Ok t => t | _ => [] end in
  exists m1 m2, mro_of t (CUser 1) = Some m1 /\ mro_of t (CUser 2) = Some m2 /\
    statements (resets counting) m1 = (Ok tt, [Own 1 [] []; NewRng; Shuffle; Own 2 [] []]) /\
    snd (statements (resets counting) choice_mro) = [NewRng; Shuffle] /\
    statements (seeds counting) m2 = (Ok tt, [KidsSeed; SeedOwn; KidsSeed; Own 3 [] []]) /\
    snd (statements (seeds counting) (text_mro CWord)) = [KidsSeed; SeedOwn; KidsSeed] /\
    (forall x, In x m1 -> ~ In x choice_mro -> passes_on (resets counting) x) /\
    (forall x, In x m2 -> ~ In x (text_mro CWord) -> passes_on (seeds counting) x) /\
    seed_finds_next counting m2.
Proof.
  eexists. eexists. split; [vm_compute; reflexivity|]. split; [vm_compute; reflexivity|].
  split; [reflexivity|]. split; [reflexivity|]. split; [reflexivity|]. split; [reflexivity|].
  split; [|split].
  - intros x Hx Hn. simpl in Hx, Hn. decompose [or] Hx; subst; try (simpl; discriminate || exact I); tauto.
  - intros x Hx Hn. simpl in Hx, Hn. decompose [or] Hx; subst; try (simpl; discriminate || exact I); tauto.
  - intros n b Hn Hb _. destruct n; [|discriminate].
    exists [CUser 2], [CWord; CRandomWithChildrenMixin], [CChildrenMixin; CEmitter; CGeneric; CAbc; CObject].
    reflexivity.
Qed.

(** ** The library's own classes *)

(** The statements of the emitters' objects in World.v. *)
Section WorldLink.
  Context (P : prims) (fuel : nat).

  (** The class of an emitter (not a user's). *)
  Definition class_of (e : emitter P) : option cls :=
    match e with
    | EStatic _ _ => Some CStatic
    | EIter _ _ => Some CIterative
    | ESeq _ _ _ => Some CSequential
    | EWord _ _ _ _ _ => Some CWord
    | EText _ _ _ _ _ _ => Some CText
    | EWrapOne _ _ _ _ => Some CWrapOne
    | EWrapMany _ _ _ _ => Some CWrapMany
    | ECopy _ _ _ _ => Some CCopyFields
    | EBased _ _ _ _ _ => Some CBasedOnFields
    | EChoice _ _ _ | EUser _ _ _ _ => None
    end.

  (** The order of that class. *)
  Definition class_mro_is (e : emitter P) (mro : list cls) : Prop :=
    match e with
    | EStatic _ _ => mro = [CStatic; CItemsMixin; CEmitter; CGeneric; CAbc; CObject]
    | EIter _ _ => mro = [CIterative; CEmitter; CGeneric; CAbc; CObject]
    | ESeq _ _ _ => mro = [CSequential; CItemsMixin; CEmitter; CGeneric; CAbc; CObject]
    | EWord _ _ _ _ _ => mro = text_mro CWord
    | EText _ _ _ _ _ _ => mro = text_mro CText
    | EWrapOne _ _ _ _ => mro = text_mro CWrapOne
    | EWrapMany _ _ _ _ => mro = text_mro CWrapMany
    | ECopy _ _ _ _ => mro = [CCopyFields; CEmitter; CGeneric; CAbc; CObject]
    | EBased _ _ _ _ _ => mro = [CBasedOnFields; CRandomMixin; CEmitter; CGeneric; CAbc; CObject]
    | EChoice _ _ _ | EUser _ _ _ _ => False
    end.
  Lemma class_mro e c mro : class_of e = Some c -> mro_of library c = Some mro -> class_mro_is e mro.
  Proof.
    intros Hc Hm. rewrite <- (f_equal (fun o => match o with Some x => mro_of library x | None => None end) Hc) in Hm.
    destruct e; cbn [class_of] in Hm;
      match type of Hm with
      | None = _ => discriminate Hm
      | _ => apply (f_equal (fun o => match o with Some x => x | None => [] end)) in Hm;
             vm_compute in Hm; symmetry; exact Hm
      end.
  Qed.

  Definition own_seed (e : emitter P) : option (pSeed P) :=
    match node_of P e with Some nd => n_seed P nd | None => None end.

  Definition perform_reset (d id : nat) (e : emitter P) (a : act) : M (world P) unit :=
    match a with
    | NewRng => reset_rng P id
    | KidsSetSeed => seed_children P (own_seed e) (children P e)
    | KidsReset => reset_children P (ereset P fuel d) (children P e)
    | NewIterator =>
        match e with
        | EIter _ _ => run_iter P id (fun i => (Ok tt, iter_reset i))
        | _ => run_seq P id (fun s => (Ok tt, seq_reset s))
        end
    | _ => ret tt
    end.

  (** The [reset] of World.v is the chain of the classes' [reset] methods along
      the order that Python computes from the class statements of /repo. *)
  Theorem C97_world_reset : forall d id e w c mro,
    get_em P id w = Some e -> class_of e = Some c -> mro_of library c = Some mro ->
    ereset P fuel (Datatypes.S d) id w = invoke (perform_reset d id e) lib_reset mro w.
  Proof.
    intros d id e w c mro He Hc Hm. simpl ereset. unfold at_em at 1. rewrite He.
    pose proof (class_mro e c mro Hc Hm) as Hl.
    clear Hc Hm. destruct e; cbn [class_mro_is] in Hl; try contradiction; subst mro;
      unfold invoke; cbn [text_mro call lib_reset b_super b_pre b_post performs perform_reset own_seed node_of];
      unfold mixin_reset, mbind, ret; try reflexivity.
    all: repeat match goal with
           | |- context [match ?m ?x with (_, _) => _ end] => destruct (m x) as [[[]|?|] ?]
           | |- context [let (_, _) := ?m in _] => destruct m as [[[]|?|] ?]
           end; try reflexivity.
  Qed.

  (** [seed(s)], likewise. *)
  Definition perform_seed (d : nat) (s : option (pSeed P)) (id : nat) (e : emitter P) (a : act) : M (world P) unit :=
    match a with
    | SeedOwn => seed_own P id s
    | KidsSeed => seed_all P (eseed P fuel d s) (children P e)
    | _ => ret tt
    end.
  Theorem C97_world_seed : forall d s id e w c mro,
    get_em P id w = Some e -> class_of e = Some c -> mro_of library c = Some mro ->
    eseed P fuel (Datatypes.S d) s id w = invoke (perform_seed d s id e) lib_seed mro w.
  Proof.
    intros d s id e w c mro He Hc Hm. simpl eseed. unfold at_em at 1. rewrite He.
    pose proof (class_mro e c mro Hc Hm) as Hl.
    clear Hc Hm. destruct e; cbn [class_mro_is] in Hl; try contradiction; subst mro;
      unfold invoke; cbn [text_mro call lib_seed b_super b_pre b_post performs perform_seed];
      unfold mixin_seed, catch_attribute_error, mbind, ret, raise; try reflexivity.
    all: repeat match goal with
           | |- context [match ?m ?x with (_, _) => _ end] => destruct (m x) as [[[]|[]|] ?]
           end; try reflexivity.
  Qed.

  (** A Choice: its own part of the world. *)
  Definition perform_choice_reset {A} (ent : nat) (a : act) : M (@choice P A) unit :=
    match a with
    | NewRng => modify P (fun c : @choice P A => set_rng P (rng_for P (c_seed c) ent) c)
    | Shuffle => fun c => (if c_replace c then ret tt else global_shuffle P fuel) c
    | _ => ret tt
    end.
  Definition perform_choice_seed {A} (s : option (pSeed P)) (ent : nat) (a : act) : M (@choice P A) unit :=
    match a with
    | SeedOwn => modify P (fun c : @choice P A => set_rng P (rng_for P s ent) (set_seed P s c))
    | Shuffle => fun c => (if c_replace c then ret tt else global_shuffle P fuel) c
    | _ => ret tt
    end.
  Theorem C97_choice : forall A s ent (c : @choice P A) mro,
    mro_of library CChoice = Some mro ->
    choice_reset P fuel ent c = invoke (perform_choice_reset ent) lib_reset mro c /\
    choice_seed P fuel s ent c = invoke (perform_choice_seed s ent) lib_seed mro c.
  Proof.
    intros A s ent c mro Hm. vm_compute in Hm. injection Hm as <-.
    unfold invoke, choice_reset, choice_seed.
    cbn [text_mro call lib_seed lib_reset b_super b_pre b_post performs perform_choice_seed perform_choice_reset].
    unfold mbind, ret, modify, get. split.
    - match goal with |- context [if ?b then _ else _] => destruct b end; [reflexivity|].
      match goal with |- context [global_shuffle P fuel ?x] => destruct (global_shuffle P fuel x) as [[[]|?|] ?] end; reflexivity.
    - match goal with |- context [if ?b then _ else _] => destruct b end; [reflexivity|].
      match goal with |- context [global_shuffle P fuel ?x] => destruct (global_shuffle P fuel x) as [[[]|?|] ?] end; reflexivity.
  Qed.

  (** A Field. *)
  Definition perform_field (f : nat) (s : option (pSeed P)) (x : field P) (a : act) : M (world P) unit :=
    match a with
    | NewRng => fd_own_rng P f
    | KidsSetSeed => seed_children P (n_seed P (f_nd P x)) (parts P x)
    | KidsReset => reset_children P (em_reset P fuel) (parts P x)
    | ClearCache => modify_fd P f (fd_cache P VNone)
    | SeedOwn => modify_fd P f (fun x => fd_node P (mkNode P s (rng_for P s (fd_entropy f (f_ent P x)))) (Datatypes.S (f_ent P x)) x)
    | KidsSeed => seed_all P (fun k => em_seed P fuel k s) (parts P x)
    | _ => ret tt
    end.
  Theorem C97_field : forall f s x w mro,
    get_fd P f w = Some x -> mro_of library CField = Some mro ->
    fd_reset P fuel f w = invoke (perform_field f s x) lib_reset mro w /\
    fd_seed P fuel f s w = invoke (perform_field f s x) lib_seed mro w.
  Proof.
    intros f s x w mro Hx Hm. vm_compute in Hm. injection Hm as <-.
    unfold fd_reset, fd_seed. unfold at_fd at 1 2. rewrite Hx.
    unfold invoke.
    cbn [text_mro call lib_seed lib_reset b_super b_pre b_post performs perform_field].
    unfold mixin_reset, mixin_seed, catch_attribute_error, mbind, ret. split.
    all: repeat match goal with
           | |- context [match ?m ?x with (_, _) => _ end] => destruct (m x) as [[[]|[]|] ?]
           end; try reflexivity.
  Qed.
End WorldLink.

(** The statements that [reset] and [seed] of the library's classes execute. *)
Example C97_library :
  (forall c, In c [CWord; CText] -> exists m, mro_of library c = Some m /\
     statements lib_reset m = (Ok tt, [KidsSetSeed; NewRng; KidsReset; KidsSetSeed; KidsReset])) /\
  (forall c, In c [CWrapOne; CWrapMany; COldWrap] -> exists m, mro_of library c = Some m /\
     statements lib_reset m = (Ok tt, [KidsSetSeed; NewRng; KidsReset])) /\
  (exists m, mro_of library CField = Some m /\
     statements lib_reset m = (Ok tt, [KidsSetSeed; NewRng; KidsReset; ClearCache])) /\
  (forall c, In c [CStatic; CCopyFields; CIterative; CSequential] -> exists m, mro_of library c = Some m /\
     fst (statements lib_seed m) = Raise AttributeError).
Proof.
  repeat split; intros; simpl in *; repeat match goal with H : _ \/ _ |- _ => destruct H as [<-|H] end;
    try contradiction; eexists; (split; [vm_compute; reflexivity|reflexivity]).
Qed.

Print Assumptions C97_order.
Print Assumptions C97_rejected.
Print Assumptions C97_reset.
Print Assumptions C97_seed.
Print Assumptions C97_refuted.
Print Assumptions C97_world_reset.
Print Assumptions C97_world_seed.
Print Assumptions C97_choice.
Print Assumptions C97_field.
