(** * World: the objects of fauxdoc on a heap.

    Emitters and fields as objects that refer to each other, with the methods of
    mixins.py, emitters/text.py, emitters/wrappers.py, emitters/fromfields.py and
    profile.py that store, reset and seed them.  What an object does with its
    parts when it is called is in FixedModel, ChoiceModel, TextModel, WrapModel
    and FieldModel; here these functions are applied to the objects on the heap.

    An object is known by its position on the heap.  Simplifications:
    - the children of an emitter are not replaced after its construction
      (the mapping [em.emitters] is not written to by its user); the three parts of
      a Field and the source fields of CopyFields and BasedOnFields may be;
    - functions given by the user (wrappers and actions) are pure but for the
      random numbers they take from the rng they are given;
    - a reference to an object that does not exist, or to one of the wrong class,
      gives the outcome [Diverge]; no operation makes such a reference. *)
From Coq Require Import Cantor.
From Verif Require Import Base Prims Values MathModel ChoiceModel FixedModel GroupModel
  SigModel WrapModel TextModel FieldModel.
Open Scope list_scope.
Open Scope Z_scope.

Section World.
  Context (P : prims).
  (** [fuel] bounds the rounds of the loops inside of weighted_shuffle and of
      make_infinite_iter. *)
  Context (fuel : nat).
  (** [str(v)] *)
  Context (str_of : val -> res (list Z)).

  (** A function given by the user: its signature, what it returns, and what it
      returns when it is given an rng in addition. *)
  Record wfun : Type := mkWfun {
    wf_sig : option signature;
    wf_plain : list val -> list (string * val) -> res val;
    wf_rng : list val -> list (string * val) -> M (pR P) val
  }.

  (** A class of emitters written by the user: a subclass of Emitter (emitter.py:9-110),
      with or without RandomMixin (mixins.py:10-60).  Its objects have attributes of
      their own, here one value; [emit] and [emit_many] may change it and, with
      RandomMixin, draw from [self.rng]; [reset] may change it.  The other methods are
      inherited.  (Simplifications: it has no children and calls no other emitters or
      fields, it has no attribute [items] or [replace_only_after_call], it does not
      override [num_unique_values].  Without RandomMixin the generator in the arguments is
      a constant.) *)
  Record uclass : Type := mkUclass {
    uc_emit : M (val * pR P) val;
    uc_emit_many : Z -> M (val * pR P) (list val);
    uc_reset : val -> val
  }.

  (** The attributes rng_seed and rng (mixins.py:29-48). *)
  Record node : Type := mkNode { n_seed : option (pSeed P); n_rng : pR P }.

  (** The emitter objects.  [islist] says whether the items are a list (they may
      be another sequence).  Children and source fields are heap positions;
      [single] is SourceFieldGroup._init_as_single_valued; [u] is
      _num_unique_values. *)
  Inductive emitter : Type :=
  | EStatic (s : static val)
  | EIter (i : iterative val)
  | ESeq (islist : bool) (s : sequential val)
  | EChoice (islist : bool) (c : @choice P val)
  | EWord (length_em alphabet_em : nat) (u : nuv) (nd : node)
  | EText (numwords_em word_em sep_em : nat) (u : nuv) (nd : node)
  | EWrapOne (source : nat) (w : wfun) (nd : node)
  | EWrapMany (sources : list (string * nat)) (w : wfun) (nd : node)
  | ECopy (single : bool) (source : list nat) (separator : option (list Z))
  | EBased (single : bool) (source : list nat) (w : wfun) (nd : node)
  | EUser (c : uclass) (own : val) (nd : option node).

  (** An emitter on the heap, with the entropy it will get from the operating
      system when it asks for some. *)
  Record obj : Type := mkObj { o_em : emitter; o_ent : nat }.

  (** A Field object: name, hide, the three parts, rng_seed and rng, _cache. *)
  Record field : Type := mkField {
    f_name : string; f_hide : bool;
    f_em : nat; f_rep : nat; f_gate : nat;
    f_nd : node; f_cache : val; f_ent : nat
  }.

  (** All objects; and the entropy with which new emitters begin, which differs from
      one run of a program to another. *)
  Record world : Type := mkWorld { w_em : list obj; w_fd : list field; w_run : nat }.

  (** Runs have numbers; the entropy of run [r] at the [k]-th request is the pair
      of them.  What an object gets is independent for any two requests of any
      two objects, and in any two runs.  (The rng of a field is never used; it does
      not depend on the run in the model.) *)
  Definition run_entropy (r : nat) : nat := to_nat (r, O).
  Definition next_ent (n : nat) : nat := let (r, k) := of_nat n in to_nat (r, S k).
  Definition em_entropy (id k : nat) : nat := to_nat (2 * id, k)%nat.
  Definition fd_entropy (id k : nat) : nat := to_nat (2 * id + 1, k)%nat.

  (** ** Looking at objects *)

  Definition get_em (id : nat) (w : world) : option emitter :=
    match nth_error (w_em w) id with Some o => Some (o_em o) | None => None end.
  Definition put_em (id : nat) (e : emitter) (w : world) : world :=
    match nth_error (w_em w) id with
    | Some o => mkWorld (upd id (mkObj e (o_ent o)) (w_em w)) (w_fd w) (w_run w)
    | None => w
    end.
  Definition use_entropy (id : nat) (w : world) : world :=
    match nth_error (w_em w) id with
    | Some o => mkWorld (upd id (mkObj (o_em o) (next_ent (o_ent o))) (w_em w)) (w_fd w) (w_run w)
    | None => w
    end.
  Definition ent_of (id : nat) (w : world) : nat :=
    match nth_error (w_em w) id with Some o => o_ent o | None => O end.

  Definition get_fd (f : nat) (w : world) : option field := nth_error (w_fd w) f.
  Definition put_fd (f : nat) (x : field) (w : world) : world := mkWorld (w_em w) (upd f x (w_fd w)) (w_run w).

  Definition fd_node (nd : node) (ent : nat) (x : field) : field :=
    mkField (f_name x) (f_hide x) (f_em x) (f_rep x) (f_gate x) nd (f_cache x) ent.
  Definition fd_cache (v : val) (x : field) : field :=
    mkField (f_name x) (f_hide x) (f_em x) (f_rep x) (f_gate x) (f_nd x) v (f_ent x).

  (** The attributes rng_seed and rng of an emitter, [None] if it has none:
      Static, Iterative, Sequential and CopyFields do not (mixins.py,
      fixed.py:11, 58, 201, choice.py:11, text.py:41, 153, wrappers.py:207, 304,
      fromfields.py:67, 160). *)
  Definition node_of (e : emitter) : option node :=
    match e with
    | EStatic _ | EIter _ | ESeq _ _ | ECopy _ _ _ => None
    | EChoice _ c => Some (mkNode (c_seed c) (c_rng c))
    | EWord _ _ _ nd | EText _ _ _ _ nd | EWrapOne _ _ nd | EWrapMany _ _ nd | EBased _ _ _ nd => Some nd
    | EUser _ _ nd => nd
    end.
  Definition with_node (nd : node) (e : emitter) : emitter :=
    match e with
    | EStatic _ | EIter _ | ESeq _ _ | ECopy _ _ _ => e
    | EChoice b c => EChoice b (set_rng P (n_rng nd) (set_seed P (n_seed nd) c))
    | EWord l a u _ => EWord l a u nd
    | EText n w s u _ => EText n w s u nd
    | EWrapOne s w _ => EWrapOne s w nd
    | EWrapMany s w _ => EWrapMany s w nd
    | EBased b s w _ => EBased b s w nd
    | EUser c own o => EUser c own (option_map (fun _ => nd) o)
    end.

  (** The children (mixins.py:122-130), in the order of the ObjectMap. *)
  Definition children (e : emitter) : list nat :=
    match e with
    | EWord l a _ _ => [l; a]
    | EText n w s _ _ => [n; w; s]
    | EWrapOne s _ _ => [s]
    | EWrapMany ss _ _ => map snd ss
    | _ => []
    end.
  Definition source_of (e : emitter) : list nat :=
    match e with ECopy _ s _ | EBased _ s _ _ => s | _ => [] end.

  (** The items attribute (mixins.py:87-90); Static's is a list (fixed.py:32, 43). *)
  Definition items_of (e : emitter) : items_attr :=
    match e with
    | EStatic s => Some (true, st_items s)
    | ESeq b s => Some (b, s_items s)
    | EChoice b c => Some (b, c_items c)
    | _ => None
    end.

  (** num_unique_values: emitter.py:39-50, mixins.py:92-95, choice.py:282-294,
      text.py:127-130, 226-229. *)
  Definition nuv_of (e : emitter) : res nuv :=
    match e with
    | EStatic s => n <- val_setsize (st_items s) ;; Ok (Exactly n)
    | ESeq _ s => n <- val_setsize (s_items s) ;; Ok (Exactly n)
    | EChoice _ c => n <- num_unique_values P val_setsize c ;; Ok (Exactly n)
    | EWord _ _ u _ | EText _ _ _ u _ => Ok u
    | _ => Ok Unknown
    end.

  Definition at_em {A} (id : nat) (k : emitter -> M world A) : M world A := fun w =>
    match get_em id w with Some e => k e w | None => (Diverge, w) end.
  Definition modify_em (id : nat) (f : emitter -> emitter) : M world unit :=
    at_em id (fun e w => (Ok tt, put_em id (f e) w)).

  (** Run a computation on (part of) one object. *)
  Definition run_iter {A} (id : nat) (m : M (iterative val) A) : M world A :=
    at_em id (fun e w => match e with
                         | EIter i => let '(r, i) := m i in (r, put_em id (EIter i) w)
                         | _ => (Diverge, w) end).
  Definition run_seq {A} (id : nat) (m : M (sequential val) A) : M world A :=
    at_em id (fun e w => match e with
                         | ESeq b s => let '(r, s) := m s in (r, put_em id (ESeq b s) w)
                         | _ => (Diverge, w) end).
  Definition run_choice {A} (id : nat) (m : M (@choice P val) A) : M world A :=
    at_em id (fun e w => match e with
                         | EChoice b c => let '(r, c) := m c in (r, put_em id (EChoice b c) w)
                         | _ => (Diverge, w) end).
  Definition run_rng {A} (id : nat) (m : M (pR P) A) : M world A :=
    at_em id (fun e w => match node_of e with
                         | Some nd => let '(r, rg) := m (n_rng nd) in
                                      (r, put_em id (with_node (mkNode (n_seed nd) rg) e) w)
                         | None => (Diverge, w) end).

  (** A method of a user's class: it sees its own attributes and its rng. *)
  Definition run_user {A} (id : nat) (m : uclass -> M (val * pR P) A) : M world A :=
    at_em id (fun e w => match e with
                         | EUser c own nd =>
                             let '(r, (own, rg)) := m c (own, match nd with Some nd => n_rng nd | None => r_fresh P 0 end) in
                             (r, put_em id (EUser c own (option_map (fun nd => mkNode (n_seed nd) rg) nd)) w)
                         | _ => (Diverge, w) end).

  (** A BoundWrapper bound to emitter [id] (wrappers.py:64-81): the rng is the
      emitter's at the time of the call (lines 121, 142). *)
  Definition bound (id : nat) (f : wfun) : ufun world :=
    mkUfun (wf_sig f)
           (fun args kw => lift (wf_plain f args kw))
           (fun args kw => run_rng id (wf_rng f args kw)).

  (** ** reset *)

  (** hasattr(obj, 'rng_seed') and the assignment obj.rng_seed = s *)
  Definition has_seed (id : nat) (w : world) : bool :=
    match get_em id w with
    | Some e => match node_of e with Some _ => true | None => false end
    | None => false
    end.
  Definition set_rng_seed (s : option (pSeed P)) (id : nat) : M world unit :=
    modify_em id (fun e => match node_of e with
                           | Some nd => with_node (mkNode s (n_rng nd)) e
                           | None => e end).

  (** mixins.py:45, [self.rng = random.Random(self.rng_seed)] *)
  Definition reset_rng (id : nat) : M world unit := fun w =>
    (modify_em id (fun e => match node_of e with
                            | Some nd => with_node (mkNode (n_seed nd)
                                           (rng_for P (n_seed nd) (em_entropy id (ent_of id w)))) e
                            | None => e end) ;;;
     (fun w => (Ok tt, use_entropy id w))) w.

  (** emitters.setattr('rng_seed', s) *)
  Definition seed_children (s : option (pSeed P)) (kids : list nat) : M world unit :=
    group_setattr has_seed (set_rng_seed s) (map Some kids).
  (** emitters.do_method('reset'): every emitter has a reset method
      (emitter.py:20) *)
  Definition reset_children (reset : nat -> M world unit) (kids : list nat) : M world unit :=
    group_do_method (fun k _ => Some (reset k)) (map Some kids).

  (** mixins.py:149-152 with 43-48 and 132-137 *)
  Definition mixin_reset (reset : nat -> M world unit) (own_rng : M world unit)
      (s : option (pSeed P)) (kids : list nat) : M world unit :=
    seed_children s kids ;;;
    own_rng ;;;
    reset_children reset kids.

  (** [reset] of emitter [id].  Static and CopyFields: emitter.py:20-27.
      Iterative and Sequential: fixed.py:164-166, 264-266.  Choice:
      choice.py:233-248.  Word and Text: text.py:116-120, 231-235, after the
      mixin's reset the children are seeded and reset once more.  WrapOne and
      WrapMany: mixins.py:149-152.  BasedOnFields: mixins.py:43-48.  [d] bounds
      the depth of nesting.  A user's class: RandomMixin's reset, if it has that, then
      what its own reset does. *)
  Fixpoint ereset (d : nat) (id : nat) : M world unit :=
    match d with
    | O => diverge
    | S d =>
        at_em id (fun e =>
          match e with
          | EStatic _ | ECopy _ _ _ => ret tt
          | EIter i => run_iter id (fun i => (Ok tt, iter_reset i))
          | ESeq b s => run_seq id (fun s => (Ok tt, seq_reset s))
          | EChoice b c => fun w =>
              (run_choice id (choice_reset P fuel (em_entropy id (ent_of id w))) ;;;
               (fun w => (Ok tt, use_entropy id w))) w
          | EWord _ _ _ nd | EText _ _ _ _ nd =>
              mixin_reset (ereset d) (reset_rng id) (n_seed nd) (children e) ;;;
              seed_children (n_seed nd) (children e) ;;;
              reset_children (ereset d) (children e)
          | EWrapOne _ _ nd | EWrapMany _ _ nd =>
              mixin_reset (ereset d) (reset_rng id) (n_seed nd) (children e)
          | EBased _ _ _ nd => reset_rng id
          | EUser c own nd =>
              match nd with Some _ => reset_rng id | None => ret tt end ;;;
              run_user id (fun c s => (Ok tt, (uc_reset c (fst s), snd s)))
          end)
    end.

  (** ** seed *)

  (** mixins.py:56-57 *)
  Definition seed_own (id : nat) (s : option (pSeed P)) : M world unit := fun w =>
    (modify_em id (fun e => match node_of e with
                            | Some nd => with_node (mkNode s (rng_for P s (em_entropy id (ent_of id w)))) e
                            | None => e end) ;;;
     (fun w => (Ok tt, use_entropy id w))) w.

  (** emitters.do_method('seed', s): only the emitters with an rng have it *)
  Definition seed_all (seed : nat -> M world unit) (kids : list nat) : M world unit :=
    group_do_method (fun k w => if has_seed k w then Some (seed k) else None) (map Some kids).

  (** mixins.py:154-160 (the second line's AttributeError cannot occur: every
      class with this method has one in RandomMixin) *)
  Definition mixin_seed (seed : nat -> M world unit) (own : M world unit) (kids : list nat) : M world unit :=
    seed_all seed kids ;;;
    catch_attribute_error own.

  (** [seed(s)] of emitter [id]; an emitter without this method: AttributeError.
      Choice: choice.py:250-259.  Word and Text: text.py:122-125, 237-240. *)
  Fixpoint eseed (d : nat) (s : option (pSeed P)) (id : nat) : M world unit :=
    match d with
    | O => diverge
    | S d =>
        at_em id (fun e =>
          match e with
          | EStatic _ | EIter _ | ESeq _ _ | ECopy _ _ _ => raise AttributeError
          | EChoice b c => fun w =>
              (run_choice id (choice_seed P fuel s (em_entropy id (ent_of id w))) ;;;
               (fun w => (Ok tt, use_entropy id w))) w
          | EWord _ _ _ _ | EText _ _ _ _ _ =>
              mixin_seed (eseed d s) (seed_own id s) (children e) ;;;
              seed_all (eseed d s) (children e)
          | EWrapOne _ _ _ | EWrapMany _ _ _ =>
              mixin_seed (eseed d s) (seed_own id s) (children e)
          | EBased _ _ _ _ | EUser _ _ (Some _) => seed_own id s
          | EUser _ _ None => raise AttributeError
          end)
    end.

  (** ** emit *)

  (** The repeat emitter's items decide whether a field is multi-valued. *)
  Definition field_multi (w : world) (f : nat) : bool :=
    match get_fd f w with
    | Some x => multi_valued (match get_em (f_rep x) w with Some e => items_of e | None => None end)
    | None => true
    end.
  Definition previous (f : nat) (w : world) : val :=
    match get_fd f w with Some x => f_cache x | None => VNone end.
  Definition name_of (f : nat) (w : world) : string :=
    match get_fd f w with Some x => f_name x | None => EmptyString end.

  Definition copy_source (fs : list nat) (w : world) : list (bool * val) :=
    map (fun f => (field_multi w f, previous f w)) fs.
  Definition based_source (fs : list nat) (w : world) : list (string * val) :=
    map (fun f => (name_of f w, previous f w)) fs.

  (** text.py:262-263: only Choice has the attribute replace_only_after_call *)
  Definition word_unique (id : nat) (w : world) : res (option Z) :=
    match get_em id w with
    | Some (EChoice _ c) =>
        if c_roac c then n <- num_unique_values P val_setsize c ;; Ok (Some n) else Ok None
    | _ => Ok None
    end.

  Section Bodies.
    Context (emit : nat -> M world val) (emit_many : nat -> Z -> M world (list val)).
    Context (reset : nat -> M world unit).
    (** emitter.py:74-102 [__call__] *)
    Let call (id : nat) : M world val := emit id.
    Let call_n (id : nat) (n : Z) : M world (list val) := call_number (emit id) (emit_many id) n.

    Definition emit_body (id : nat) : M world val :=
      at_em id (fun e =>
        match e with
        | EStatic s => lift (fst (static_emit s))
        | EIter _ => run_iter id (iter_emit fuel)
        | ESeq _ _ => run_seq id (seq_emit fuel)
        | EChoice _ _ => run_choice id (choice_emit P val_setsize fuel)
        | EWord l a _ _ => word_emit (call l) (call a) (call_n a)
        | EText n wd sp _ _ => text_emit (call_n n) (call_n wd) (reset wd) (word_unique wd) (call_n sp)
        | EWrapOne src f _ => wrapone_emit (call src) (bound id f)
        | EWrapMany srcs f _ =>
            wrapmany_emit (map (fun ks => (fst ks, (call (snd ks), call_n (snd ks)))) srcs) (bound id f)
        | ECopy single fs sep => fun w => (copy_emit str_of single sep (copy_source fs w), w)
        | EBased single fs f _ => based_emit (based_source fs) (bound id f)
        | EUser _ _ _ => run_user id uc_emit
        end).

    Definition emit_many_body (id : nat) (n : Z) : M world (list val) :=
      at_em id (fun e =>
        match e with
        | EStatic s => lift (fst (static_emit_many n s))
        | EIter _ => run_iter id (iter_emit_many fuel n)
        | ESeq _ _ => run_seq id (seq_emit_many fuel n)
        | EChoice _ _ => run_choice id (choice_emit_many P val_setsize fuel n)
        | EWord l a _ _ => word_emit_many (call_n l) (call_n a) n
        | EText m wd sp _ _ => text_emit_many (call_n m) (call_n wd) (reset wd) (word_unique wd) (call_n sp) n
        | EWrapOne src f _ => wrapone_emit_many (call_n src) (bound id f) n
        | EWrapMany srcs f _ =>
            wrapmany_emit_many (map (fun ks => (fst ks, (call (snd ks), call_n (snd ks)))) srcs) (bound id f) n
        | ECopy single fs sep =>
            repeat_emit (fun w => (copy_emit str_of single sep (copy_source fs w), w)) n
        | EBased single fs f _ => repeat_emit (based_emit (based_source fs) (bound id f)) n
        | EUser _ _ _ => run_user id (fun c => uc_emit_many c n)
        end).
  End Bodies.

  (** [emit()] and [emit_many(n)] of an emitter whose parts are nested at most
      [d] deep. *)
  Fixpoint emits (d : nat) : (nat -> M world val) * (nat -> Z -> M world (list val)) :=
    match d with
    | O => (fun _ => diverge, fun _ _ => diverge)
    | S d =>
        let below := emits d in
        (emit_body (fst below) (snd below) (ereset d),
         emit_many_body (fst below) (snd below) (ereset d))
    end.

  (** ** The methods, as called from outside.  The parts of an object are older
      than the object itself (constructors take them as arguments), so the depth
      of nesting of object [id] is at most [id]. *)

  Definition em_emit (id : nat) : M world val := fst (emits (S id)) id.
  Definition em_emit_many (id : nat) (n : Z) : M world (list val) := snd (emits (S id)) id n.
  Definition em_call (id : nat) : M world val := em_emit id.
  Definition em_call_n (id : nat) (n : Z) : M world (list val) :=
    call_number (em_emit id) (em_emit_many id) n.
  Definition em_reset (id : nat) : M world unit := ereset (S id) id.
  Definition em_seed (id : nat) (s : option (pSeed P)) : M world unit := eseed (S id) s id.

  (** ** Field *)

  Definition at_fd {A} (f : nat) (k : field -> M world A) : M world A := fun w =>
    match get_fd f w with Some x => k x w | None => (Diverge, w) end.
  Definition modify_fd (f : nat) (g : field -> field) : M world unit :=
    at_fd f (fun x w => (Ok tt, put_fd f (g x) w)).

  (** The parts, in the order of the ObjectMap (profile.py:128-132) *)
  Definition parts (x : field) : list nat := [f_em x; f_rep x; f_gate x].

  (** profile.py:183-198 *)
  Definition fd_call (f : nat) : M world val :=
    at_fd f (fun x =>
      field_call (em_call (f_gate x)) (em_call (f_rep x)) (em_call (f_em x)) (em_call_n (f_em x))
        (fun v => modify_fd f (fd_cache v))).

  Definition fd_own_rng (f : nat) : M world unit :=
    modify_fd f (fun x =>
      fd_node (mkNode (n_seed (f_nd x)) (rng_for P (n_seed (f_nd x)) (fd_entropy f (f_ent x))))
        (S (f_ent x)) x).

  (** profile.py:178-181 *)
  Definition fd_reset (f : nat) : M world unit :=
    at_fd f (fun x =>
      mixin_reset em_reset (fd_own_rng f) (n_seed (f_nd x)) (parts x) ;;;
      modify_fd f (fd_cache VNone)).

  (** mixins.py:154-160 *)
  Definition fd_seed (f : nat) (s : option (pSeed P)) : M world unit :=
    at_fd f (fun x =>
      mixin_seed (fun k => em_seed k s)
        (modify_fd f (fun x => fd_node (mkNode s (rng_for P s (fd_entropy f (f_ent x)))) (S (f_ent x)) x))
        (parts x)).

  (** ** Schema.  [fs] is the mapping [schema.fields]. *)

  Definition fd_hide (f : nat) (w : world) : bool :=
    match get_fd f w with Some x => f_hide x | None => false end.
  (** profile.py:302-318 *)
  Definition sc_call (fs : list (string * nat)) : M world (list (string * val)) :=
    schema_call fd_hide fd_call fs.
  (** profile.py:288-290 *)
  Definition sc_reset_fields (fs : list (string * nat)) : M world unit :=
    group_do_method (fun f _ => Some (fd_reset f)) (map Some (map snd fs)).
  (** profile.py:292-300 *)
  Definition sc_seed_fields (fs : list (string * nat)) (s : option (pSeed P)) : M world unit :=
    group_do_method (fun f _ => Some (fd_seed f s)) (map Some (map snd fs)).

  (** fromfields.py:123-129, 267-285: reset_source and seed_source *)
  Definition em_reset_source (id : nat) : M world unit :=
    at_em id (fun e => match e with
                       | ECopy _ fs _ | EBased _ fs _ _ =>
                           group_do_method (fun f _ => Some (fd_reset f)) (map Some fs)
                       | _ => raise AttributeError end).
  Definition em_seed_source (id : nat) (s : option (pSeed P)) : M world unit :=
    at_em id (fun e => match e with
                       | EBased _ fs _ _ =>
                           group_do_method (fun f _ => Some (fd_seed f s)) (map Some fs)
                       | _ => raise AttributeError end).

  (** ** Assignments *)

  (** [em.wrapper = BoundWrapper(f, em)] / set_wrapper_function: wrappers.py:259-289,
      365-396; [em.action = ...] / set_action_function: fromfields.py:228-265 *)
  Definition install (id : nat) (f : wfun) : M world unit :=
    modify_em id (fun e => match e with
                           | EWrapOne s _ nd => EWrapOne s f nd
                           | EWrapMany ss _ nd => EWrapMany ss f nd
                           | EBased b fs _ nd => EBased b fs f nd
                           | e => e end).
  Definition set_function (id : nat) (f : wfun) : M world unit :=
    at_em id (fun e =>
      match e with
      | EWrapOne src _ _ =>
          wrapone_set (em_call src) (fun _ => install id f) (em_reset id) (bound id f)
      | EWrapMany srcs _ _ =>
          wrapmany_set (map (fun ks => (fst ks, (em_call (snd ks), em_call_n (snd ks)))) srcs)
            (fun _ => install id f) (em_reset id) (bound id f)
      | EBased _ fs _ _ => fun w =>
          based_set (map (fun x => (name_of x w, fd_call x)) fs)
            (fun _ => install id f) (em_reset id) (bound id f) w
      | _ => raise AttributeError
      end).

  (** set_source_fields(fields) (fromfields.py:111-121, 216-226): [fs] is the list
      of the fields; [single], that one field was given and not a sequence (lines
      38-43).  The action is not checked again.  [em.separator = sep] for
      CopyFields (line 108).  An emitter that has no such method: the model says
      AttributeError. *)
  Definition set_source (id : nat) (single : bool) (fs : list nat) : M world unit :=
    at_em id (fun e => match e with
                       | ECopy _ _ sep => fun w => (Ok tt, put_em id (ECopy single fs sep) w)
                       | EBased _ _ f nd => fun w => (Ok tt, put_em id (EBased single fs f nd) w)
                       | _ => raise AttributeError end).
  Definition set_separator (id : nat) (sep : option (list Z)) : M world unit :=
    at_em id (fun e => match e with
                       | ECopy b fs _ => fun w => (Ok tt, put_em id (ECopy b fs sep) w)
                       | _ => raise AttributeError end).

  (** profile.py:146-176: the setters of emitter, repeat_emitter and gate_emitter *)
  Inductive part : Set := PEmitter | PRepeat | PGate.
  Definition fd_set_part (f : nat) (p : part) (id : nat) : M world unit :=
    modify_fd f (fun x =>
      match p with
      | PEmitter => mkField (f_name x) (f_hide x) id (f_rep x) (f_gate x) (f_nd x) (f_cache x) (f_ent x)
      | PRepeat => mkField (f_name x) (f_hide x) (f_em x) id (f_gate x) (f_nd x) (f_cache x) (f_ent x)
      | PGate => mkField (f_name x) (f_hide x) (f_em x) (f_rep x) id (f_nd x) (f_cache x) (f_ent x)
      end).
  (** [field.hide = b], [field.rng_seed = s] *)
  Definition fd_set_hide (f : nat) (b : bool) : M world unit :=
    modify_fd f (fun x => mkField (f_name x) b (f_em x) (f_rep x) (f_gate x) (f_nd x) (f_cache x) (f_ent x)).
  Definition fd_set_seed (f : nat) (s : option (pSeed P)) : M world unit :=
    modify_fd f (fun x => fd_node (mkNode s (n_rng (f_nd x))) (f_ent x) x).

  (** ** Constructors: the position of the new object.  An object whose
      constructor raises stays on the heap as garbage. *)

  Definition alloc_em (e : emitter) : M world nat := fun w =>
    (Ok (length (w_em w)), mkWorld (w_em w ++ [mkObj e (w_run w)]) (w_fd w) (w_run w)).
  Definition alloc_fd (x : field) : M world nat := fun w =>
    (Ok (length (w_fd w)), mkWorld (w_em w) (w_fd w ++ [x]) (w_run w)).

  (** rng and rng_seed during [RandomMixin.__init__], before the reset of line 41
      creates the rng; this rng is never used. *)
  Definition new_node (s : option (pSeed P)) : node := mkNode s (r_fresh P 0).

  (** fixed.py:25-32 *)
  Definition new_static (v : val) : M world nat := alloc_em (EStatic (static_new v)).
  (** fixed.py:111-121 *)
  Definition new_iter (f : factory val) (rac : bool) : M world nat :=
    i <~ lift (iter_new f rac) ;; alloc_em (EIter i).
  (** fixed.py:233-251 *)
  Definition new_seq (islist : bool) (items : list val) (rac : bool) : M world nat :=
    s <~ lift (seq_new items rac) ;; alloc_em (ESeq islist s).
  (** choice.py:87-127 *)
  Definition new_choice (islist : bool) (items : list val) (weights : option (list (pW P)))
      (replace roac : bool) (seed : option (pSeed P)) (cum_weights : option (list (pW P))) : M world nat := fun w =>
    (c <~ lift (choice_new P fuel items weights replace roac seed cum_weights
                  (em_entropy (length (w_em w)) (w_run w))) ;;
     id <~ alloc_em (EChoice islist c) ;;
     (fun w => (Ok tt, use_entropy id w)) ;;;
     ret id) w.

  (** The items of an emitter as _update_num_unique_vals sees them *)
  Definition items_list (id : nat) (w : world) : option (list val) :=
    match get_em id w with
    | Some e => match items_of e with Some (_, l) => Some l | None => None end
    | None => None
    end.
  Definition nuv_at (id : nat) (w : world) : res nuv :=
    match get_em id w with Some e => nuv_of e | None => Ok Unknown end.

  (** text.py:81-96, with _update_num_unique_vals (108-114) *)
  Definition new_word (length_em alphabet_em : nat) (seed : option (pSeed P)) : M world nat :=
    id <~ alloc_em (EWord length_em alphabet_em Unknown (new_node seed)) ;;
    em_reset id ;;;
    u <~ (fun w => (a <- nuv_at alphabet_em w ;; word_nuv a (items_list length_em w), w)) ;;
    modify_em id (fun e => match e with EWord l a _ nd => EWord l a u nd | e => e end) ;;;
    ret id.

  (** text.py:176-195, with _update_num_unique_vals (212-224).  (Simplification:
      num_unique_values of both emitters is read before the items are looked at,
      as in the code.) *)
  Definition new_text (numwords_em word_em : nat) (sep_em : option nat) (seed : option (pSeed P)) : M world nat :=
    sp <~ (match sep_em with Some i => ret i | None => new_static (VStr [32]) end) ;;
    id <~ alloc_em (EText numwords_em word_em sp Unknown (new_node seed)) ;;
    em_reset id ;;;
    u <~ (fun w => (a <- nuv_at word_em w ;; b <- nuv_at sp w ;; text_nuv a b (items_list numwords_em w), w)) ;;
    modify_em id (fun e => match e with EText n x y _ nd => EText n x y u nd | e => e end) ;;;
    ret id.

  (** wrappers.py:244-257 *)
  Definition new_wrapone (source : nat) (f : wfun) (seed : option (pSeed P)) : M world nat :=
    id <~ alloc_em (EWrapOne source f (new_node seed)) ;;
    em_reset id ;;;
    set_function id f ;;;
    ret id.
  (** wrappers.py:342-363 *)
  Definition new_wrapmany (sources : list (string * nat)) (f : wfun) (seed : option (pSeed P)) : M world nat :=
    id <~ alloc_em (EWrapMany sources f (new_node seed)) ;;
    em_reset id ;;;
    set_function id f ;;;
    ret id.
  (** fromfields.py:98-109 *)
  Definition new_copy (single : bool) (source : list nat) (separator : option (list Z)) : M world nat :=
    alloc_em (ECopy single source separator).
  (** fromfields.py:200-214 *)
  Definition new_based (single : bool) (source : list nat) (f : wfun) (seed : option (pSeed P)) : M world nat :=
    id <~ alloc_em (EBased single source f (new_node seed)) ;;
    em_reset id ;;;
    set_function id f ;;;
    ret id.

  (** A user's class: the object begins with its own attributes being [own]; with
      RandomMixin, __init__ calls reset (mixins.py:39-41). *)
  Definition new_user (c : uclass) (own : val) (random : option (option (pSeed P))) : M world nat :=
    id <~ alloc_em (EUser c own (option_map new_node random)) ;;
    match random with Some _ => em_reset id | None => ret tt end ;;;
    ret id.

  (** profile.py:99-132 *)
  Definition new_field (name : string) (em : nat) (rep gate : option nat) (hide : bool)
      (seed : option (pSeed P)) : M world nat :=
    r <~ (match rep with Some i => ret i | None => new_static VNone end) ;;
    g <~ (match gate with Some i => ret i | None => new_static (VBool true) end) ;;
    f <~ alloc_fd (mkField name hide em r g (new_node seed) VNone 0) ;;
    fd_reset f ;;;
    ret f.
End World.
