(** * MroModel: classes, their method resolution order, and the methods that
    call each other through [super()].

    Models the inheritance of the classes in /repo/src/fauxdoc/mixins.py,
    emitter.py, the files in emitters/ and profile.py, and of the classes a user derives
    from them: Python's C3 linearisation (what a class statement computes), the
    bodies of [reset] and [seed] (which statements run before and after the call
    of the next class's method, and how that call is guarded), and the
    [__init__] methods of the three mixins. *)
From Coq Require Import String.
From Verif Require Import Base Prims GroupModel.
Local Open Scope string_scope.
Local Open Scope list_scope.

(** The classes: Python's own ([object], [Generic], [ABC]), the library's, and
    the user's, numbered. *)
Inductive cls : Set :=
| CObject | CGeneric | CAbc
| CRandomMixin | CItemsMixin | CChildrenMixin | CRandomWithChildrenMixin | CEmitter
| CChoice | CStatic | CIterative | CSequential | CWord | CText
| CWrapOne | CWrapMany | COldWrap | CCopyFields | CBasedOnFields | CField
| CUser (n : nat).

Definition cls_eq_dec (a b : cls) : {a = b} + {a <> b}.
Proof. decide equality; apply PeanoNat.Nat.eq_dec. Defined.
Definition cls_mem (c : cls) (l : list cls) : bool := if in_dec cls_eq_dec c l then true else false.

(** ** C3: CPython's [pmerge] (Objects/typeobject.c), the language, not /repo *)

(** A candidate is taken when it is in the tail of none of the lists. *)
Definition free (c : cls) (ls : list (list cls)) : bool :=
  forallb (fun l => negb (cls_mem c (tl l))) ls.
(** The first list whose head is free gives the next class. *)
Fixpoint pick (all ls : list (list cls)) : option cls :=
  match ls with
  | [] => None
  | [] :: t => pick all t
  | (c :: _) :: t => if free c all then Some c else pick all t
  end.
Definition drop (c : cls) (l : list cls) : list cls :=
  match l with
  | x :: t => if cls_eq_dec x c then t else l
  | [] => []
  end.
Definition is_nil (l : list cls) : bool := match l with [] => true | _ => false end.
Definition total (ls : list (list cls)) : nat := fold_right (fun l n => (length l + n)%nat) 0%nat ls.

Fixpoint merge (fuel : nat) (ls : list (list cls)) : res (list cls) :=
  match fuel with
  | O => Diverge
  | S k =>
      if forallb is_nil ls then Ok []
      else match pick ls ls with
           | None => Raise TypeError
           | Some c => r <- merge k (map (drop c) ls) ;; Ok (c :: r)
           end
  end.

(** The classes that exist, each with its [__mro__]. *)
Definition table := list (cls * list cls).
Definition mro_of (t : table) (c : cls) : option (list cls) :=
  match find (fun p => if cls_eq_dec (fst p) c then true else false) t with
  | Some p => Some (snd p)
  | None => None
  end.

(** [class c(bases): ...].  A base named twice is a TypeError, and so is an
    order that C3 rejects.  No bases: [object].  A base that does not exist or a name that is taken:
    here also TypeError (the model's names are unique). *)
Definition class_stmt (c : cls) (named : list cls) (t : table) : res table :=
  let bases := match named with [] => [CObject] | _ => named end in
  match mro_of t c with
  | Some _ => Raise TypeError
  | None =>
      if (length (nodup cls_eq_dec bases) =? length bases)%nat then
        ms <- mapM (fun b => match mro_of t b with Some l => Ok l | None => Raise TypeError end) bases ;;
        let ls := (ms ++ [bases])%list in
        l <- merge (S (total ls)) ls ;;
        Ok ((c, c :: l) :: t)
      else Raise TypeError
  end.
Fixpoint class_stmts (l : list (cls * list cls)) (t : table) : res table :=
  match l with
  | [] => Ok t
  | (c, bases) :: r => t <- class_stmt c bases t ;; class_stmts r t
  end.

(** The class statements of /repo: mixins.py:9, 63, 98, 140; emitter.py:8;
    choice.py:11; fixed.py:11, 58, 201; text.py:41, 153; wrappers.py:157-158,
    207-208, 304-305; fromfields.py:67, 160; profile.py:10.  [Generic[T]] stands
    for Generic unless another subscripted base follows it: then
    [typing]'s [__mro_entries__] drops it (wrappers.py, fromfields.py). *)
Definition library_classes : list (cls * list cls) :=
  [ (CGeneric, [CObject]); (CAbc, [CObject]);
    (CRandomMixin, [CObject]);
    (CItemsMixin, [CGeneric]);
    (CChildrenMixin, [CObject]);
    (CRandomWithChildrenMixin, [CRandomMixin; CChildrenMixin]);
    (CEmitter, [CGeneric; CAbc]);
    (CChoice, [CRandomMixin; CItemsMixin; CEmitter]);
    (CStatic, [CItemsMixin; CEmitter]);
    (CIterative, [CEmitter]);
    (CSequential, [CItemsMixin; CEmitter]);
    (CWord, [CRandomWithChildrenMixin; CEmitter]);
    (CText, [CRandomWithChildrenMixin; CEmitter]);
    (COldWrap, [CRandomWithChildrenMixin; CEmitter]);
    (CWrapOne, [CRandomWithChildrenMixin; CEmitter]);
    (CWrapMany, [CRandomWithChildrenMixin; CEmitter]);
    (CCopyFields, [CEmitter]);
    (CBasedOnFields, [CRandomMixin; CEmitter]);
    (CField, [CRandomWithChildrenMixin; CGeneric]) ].
Definition object_only : table := [(CObject, [CObject])].
Definition library : table :=
  match class_stmts library_classes object_only with Ok t => t | _ => [] end.

(** ** Method bodies *)

(** What an instance can have as attributes. *)
Inductive attr : Set :=
| AtSeed     (* self.rng_seed *)
| AtRng      (* self.rng *)
| AtItems    (* self._items *)
| AtKids     (* self._emitters *)
| AtChoice   (* self._replace and the rest of choice.py:119-126 *)
| AtFactory  (* self._iterator_factory *)
| AtIter     (* self._iterator *)
| AtCache    (* self._cache *)
| AtOwn (n : nat). (* an attribute of a user's class *)

(** The statements that occur in the methods. *)
Inductive act : Set :=
| SetSeed       (* self.rng_seed = kwargs.pop('rng_seed', None), mixins.py:39 *)
| SetItems      (* self._items = kwargs.pop('items', []), mixins.py:84 *)
| SetKids       (* self._emitters = ObjectMap(kwargs.pop('children', {})), mixins.py:122-124 *)
| NewRng        (* self.rng = random.Random(self.rng_seed), mixins.py:45 *)
| SeedOwn       (* self.rng_seed = rng_seed; self.rng.seed(rng_seed), mixins.py:56-57 *)
| KidsSetSeed   (* self._emitters.setattr('rng_seed', self.rng_seed), mixins.py:151, text.py:119, 234 *)
| KidsReset     (* self._emitters.do_method('reset'), mixins.py:134, text.py:120, 235 *)
| KidsSeed      (* self._emitters.do_method('seed', rng_seed), mixins.py:156, text.py:125, 240 *)
| Shuffle       (* if not self._replace: self._global_shuffle(), choice.py:240-248, 258-259 *)
| NewIterator   (* self._iterator = make_infinite_iter(...), fixed.py:166, 266 *)
| ClearCache    (* self._cache = None, profile.py:181 *)
| Own (n : nat) (needs gives : list attr). (* statements of a user's class *)

(** The attributes a statement reads (AttributeError when one is missing) and
    those it sets. *)
Definition needs (a : act) : list attr :=
  match a with
  | SetSeed | SetItems | SetKids | ClearCache => []
  | NewRng => [AtSeed]
  | SeedOwn => [AtRng]
  | KidsSetSeed => [AtKids; AtSeed]
  | KidsReset | KidsSeed => [AtKids]
  | Shuffle => [AtChoice; AtItems; AtRng]
  | NewIterator => [AtFactory]
  | Own _ ns _ => ns
  end.
Definition gives (a : act) : list attr :=
  match a with
  | SetSeed | SeedOwn => [AtSeed]
  | SetItems => [AtItems]
  | SetKids => [AtKids]
  | NewRng => [AtRng]
  | NewIterator => [AtIter]
  | ClearCache => [AtCache]
  | KidsSetSeed | KidsReset | KidsSeed | Shuffle => []
  | Own _ _ gs => gs
  end.

(** How a body calls the next class's method. *)
Inductive supercall : Set :=
| NoSuper        (* not at all *)
| IfAny          (* if hasattr(super(), m): super().m() *)
| Plain          (* super().m() *)
| Guarded.       (* try: super().m() except AttributeError: pass *)

Record body := mkBody { b_pre : list act; b_super : supercall; b_post : list act }.

(** [reset] of each library class that defines one: mixins.py:43-48, 132-137,
    149-152; emitter.py:20-27; choice.py:233-248; fixed.py:164-166, 264-266;
    text.py:116-120, 231-235; profile.py:178-181. *)
Definition lib_reset (c : cls) : option body :=
  match c with
  | CRandomMixin => Some (mkBody [NewRng] IfAny [])
  | CChildrenMixin => Some (mkBody [KidsReset] IfAny [])
  | CRandomWithChildrenMixin => Some (mkBody [KidsSetSeed] Plain [])
  | CEmitter => Some (mkBody [] NoSuper [])
  | CChoice => Some (mkBody [] Plain [Shuffle])
  | CIterative | CSequential => Some (mkBody [NewIterator] NoSuper [])
  | CWord | CText => Some (mkBody [] Plain [KidsSetSeed; KidsReset])
  | CField => Some (mkBody [] Plain [ClearCache])
  | _ => None
  end.

(** [seed]: mixins.py:50-60, 154-160; choice.py:250-259; text.py:122-125,
    237-240. *)
Definition lib_seed (c : cls) : option body :=
  match c with
  | CRandomMixin => Some (mkBody [SeedOwn] IfAny [])
  | CRandomWithChildrenMixin => Some (mkBody [KidsSeed] Guarded [])
  | CChoice => Some (mkBody [] Plain [Shuffle])
  | CWord | CText => Some (mkBody [] Plain [KidsSeed])
  | _ => None
  end.

(** What the user's classes define.  An [__init__] of a user's class takes
    keywords [i_pops] for itself and passes the rest on to [super().__init__],
    with statements of its own before and after that call. *)
Record ibody := mkInit { i_pre : list act; i_pops : list string; i_post : list act }.
Record users := mkUsers {
  u_reset : nat -> option body;
  u_seed : nat -> option body;
  u_init : nat -> option ibody }.

Definition resets (u : users) (c : cls) : option body :=
  match c with CUser n => u_reset u n | _ => lib_reset c end.
Definition seeds (u : users) (c : cls) : option body :=
  match c with CUser n => u_seed u n | _ => lib_seed c end.

(** ** Calling a method *)

Section Call.
  Context {S : Type} (perform : act -> M S unit).

  Fixpoint performs (l : list act) : M S unit :=
    match l with
    | [] => ret tt
    | a :: t => perform a ;;; performs t
    end.

  (** The method along the rest [l] of the order; [None]: no class of [l] has
      it. *)
  Fixpoint call (defs : cls -> option body) (l : list cls) : option (M S unit) :=
    match l with
    | [] => None
    | c :: t =>
        match defs c with
        | None => call defs t
        | Some b =>
            let next :=
              match b_super b, call defs t with
              | NoSuper, _ => ret tt
              | IfAny, None => ret tt
              | Plain, None => raise AttributeError
              | Guarded, None => ret tt
              | (IfAny | Plain), Some m => m
              | Guarded, Some m => catch_attribute_error m
              end in
            Some (performs (b_pre b) ;;; next ;;; performs (b_post b))
        end
    end.

  (** [obj.m()]: AttributeError when no class has the method. *)
  Definition invoke (defs : cls -> option body) (mro : list cls) : M S unit :=
    match call defs mro with Some m => m | None => raise AttributeError end.
End Call.

(** ** Instances *)

(** The attributes an instance has and the statements it has run. *)
Record obj := mkObj { has : list attr; log : list act }.
Definition new_obj : obj := mkObj [] [].

Definition attr_eq_dec (a b : attr) : {a = b} + {a <> b}.
Proof. decide equality; apply PeanoNat.Nat.eq_dec. Defined.
Definition has_attr (o : obj) (a : attr) : bool := if in_dec attr_eq_dec a (has o) then true else false.

(** A statement: AttributeError when it reads a missing attribute.
    [self.rng_seed = ...] of [SeedOwn] (mixins.py:56) happens before the read
    of [self.rng]. *)
Definition perform_obj (a : act) : M obj unit := fun o =>
  if forallb (has_attr o) (needs a) then (Ok tt, mkObj (gives a ++ has o) (log o ++ [a]))
  else (Raise AttributeError,
        match a with SeedOwn => mkObj (AtSeed :: has o) (log o) | _ => o end).

Definition without (k : string) (kw : list string) : list string :=
  filter (fun x => negb (String.eqb x k)) kw.

(** [__init__] with the keywords [kw] along the rest of the order: mixins.py:29-41, 74-85,
    113-125; [self_reset] is [self.reset()] of the instance.  [object] takes no
    keywords.  Emitter, Generic, ABC and RandomWithChildrenMixin define none.
    The constructors of the concrete classes are not modelled here (they are in
    ChoiceModel.v, FixedModel.v, World.v): [Diverge]. *)
Fixpoint init (u : users) (self_reset : M obj unit) (l : list cls) (kw : list string) : M obj unit :=
  match l with
  | [] => match kw with [] => ret tt | _ => raise TypeError end
  | c :: t =>
      match c with
      | CRandomMixin =>
          perform_obj SetSeed ;;; init u self_reset t (without "rng_seed" kw) ;;; self_reset
      | CItemsMixin =>
          perform_obj SetItems ;;; init u self_reset t (without "items" kw)
      | CChildrenMixin =>
          perform_obj SetKids ;;; init u self_reset t (without "children" kw)
      | CUser n =>
          match u_init u n with
          | Some b =>
              performs perform_obj (i_pre b) ;;;
              init u self_reset t (fold_right without kw (i_pops b)) ;;;
              performs perform_obj (i_post b)
          | None => init u self_reset t kw
          end
      | CRandomWithChildrenMixin | CEmitter | CGeneric | CAbc => init u self_reset t kw
      | CObject => match kw with [] => ret tt | _ => raise TypeError end
      | _ => fun o => (Diverge, o)
      end
  end.

(** The call of a class with the given order, with the keywords [kw]. *)
Definition construct (u : users) (mro : list cls) (kw : list string) : M obj unit :=
  init u (invoke perform_obj (resets u) mro) mro kw.
