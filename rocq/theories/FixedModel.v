(** * Model of /repo/src/fauxdoc/emitters/fixed.py: Static, Iterative and
    Sequential. *)
From Verif Require Import Base Prims.

Section Fixed.
  Context {A : Type}.

  (** ** Static *)

  (** The attributes of a Static object. *)
  Record static : Type := mkStatic { st_value : A; st_items : list A }.

  (** fixed.py:25-32 [__init__] *)
  Definition static_new (v : A) : static := mkStatic v [v].

  (** fixed.py:39-43, the setter of value *)
  Definition static_set_value (v : A) (s : static) : static := mkStatic v [v].

  (** fixed.py:45-47 [emit] *)
  Definition static_emit : M static A := fun s => (Ok (st_value s), s).

  (** fixed.py:49-55 [emit_many] *)
  Definition static_emit_many (number : Z) : M static (list A) := fun s =>
    (Ok (list_rep [st_value s] number), s).

  (** ** Iterators *)

  (** What a call of an iterator factory returns: a finite iterator ([hint] says
      whether it has [__length_hint__], as iterators over sequences do and
      generators do not), or an infinite one.  Simplifications: an iterator
      raises no exception but StopIteration; an infinite one has no
      [__length_hint__]; the elements of an iterator are fixed when the factory
      returns it (so a factory that hands out one and the same iterator object
      again and again is not covered). *)
  Inductive iterator : Type :=
  | Finite (l : list A) (hint : bool)
  | Infinite (f : nat -> A).

  (** Element number [p] of an iterator; [None] is StopIteration. *)
  Definition it_at (it : iterator) (p : nat) : option A :=
    match it with
    | Finite l _ => nth_error l p
    | Infinite f => Some (f p)
    end.

  (** A factory: what its n-th call (counted from 0) returns. *)
  Definition factory : Type := nat -> iterator.

  (** A running [make_infinite_iter(factory)] (fixed.py:135-145).  [g_calls]
      counts the calls of the factory made so far by whoever owns the generator;
      [g_cur] is the iterator being consumed (its call number and the position
      of its next element), [None] before the first. *)
  Record gen : Type := mkGen { g_calls : nat; g_cur : option (nat * nat) }.

  (** [next(generator)]; [fuel] bounds the number of factory calls in one step:
      the loop at line 143 does not end when the factory returns only empty
      iterators. *)
  Fixpoint gen_next (fuel : nat) (f : factory) (g : gen) : res A * gen :=
    match
      match g_cur g with
      | Some (c, p) => match it_at (f c) p with Some a => Some (a, c, p) | None => None end
      | None => None
      end
    with
    | Some (a, c, p) => (Ok a, mkGen (g_calls g) (Some (c, S p)))
    | None =>
        match fuel with
        | O => (Diverge, g)
        | S k => gen_next k f (mkGen (S (g_calls g)) (Some (g_calls g, 0%nat)))
        end
    end.

  (** [list(itertools.islice(generator, 0, number))], number >= 0 *)
  Fixpoint gen_take (fuel : nat) (f : factory) (n : nat) : M gen (list A) :=
    match n with
    | O => ret []
    | S k => a <~ gen_next fuel f ;; l <~ gen_take fuel f k ;; ret (a :: l)
    end.

  (** ** Iterative *)

  (** The attributes of an Iterative object. *)
  Record iterative : Type := mkIter {
    i_factory : factory;
    i_gen : gen;
    i_rac : bool      (* reset_after_call *)
  }.

  (** fixed.py:164-166 [reset] *)
  Definition iter_reset (i : iterative) : iterative :=
    mkIter (i_factory i) (mkGen (g_calls (i_gen i)) None) (i_rac i).

  (** fixed.py:123-133 [check_iter_factory] on the factory's call number [c] *)
  Definition check_iter_factory (f : factory) (c : nat) : res unit :=
    match it_at (f c) 0 with Some _ => Ok tt | None => Raise ValueError end.

  (** fixed.py:152-157, the setter of iterator_factory.  [f] is a factory that
      has not been called before; if it is refused the object is unchanged. *)
  Definition iter_set_factory (f : factory) : M iterative unit := fun i =>
    match check_iter_factory f 0 with
    | Ok _ => (Ok tt, iter_reset (mkIter f (mkGen 1 None) (i_rac i)))
    | Raise e => (Raise e, i)
    | Diverge => (Diverge, i)
    end.

  (** fixed.py:111-121 [__init__] *)
  Definition iter_new (f : factory) (rac : bool) : res iterative :=
    _ <- check_iter_factory f 0 ;; Ok (iter_reset (mkIter f (mkGen 1 None) rac)).

  (** Assignment [em.reset_after_call = b] *)
  Definition iter_set_rac (b : bool) (i : iterative) : iterative := mkIter (i_factory i) (i_gen i) b.

  Section Emit.
    Context (fuel : nat).

    (** Run a step of the current generator, then lines 171-172 / 182-183. *)
    Definition iter_run {B} (m : factory -> M gen B) : M iterative B := fun i =>
      match m (i_factory i) (i_gen i) with
      | (Ok b, g) =>
          let i := mkIter (i_factory i) g (i_rac i) in
          (Ok b, if i_rac i then iter_reset i else i)
      | (Raise e, g) => (Raise e, mkIter (i_factory i) g (i_rac i))
      | (Diverge, g) => (Diverge, mkIter (i_factory i) g (i_rac i))
      end.

    (** fixed.py:168-173 [emit] *)
    Definition iter_emit : M iterative A := iter_run (fun f => gen_next fuel f).

    (** fixed.py:175-184 [emit_many]; islice refuses a negative number. *)
    Definition iter_emit_many (number : Z) : M iterative (list A) :=
      if number <? 0 then raise ValueError
      else iter_run (fun f => gen_take fuel f (Z.to_nat number)).
  End Emit.

  (** ** Sequential *)

  (** The attributes of a Sequential object.  [s_own] is true as long as
      [_iterator_factory] is the one made by [__init__] (line 250), which is a
      lambda reading [self.items] anew at each call. *)
  Record sequential : Type := mkSeq {
    s_items : list A;
    s_own : bool;
    s_factory : factory;   (* meaningful when s_own is false *)
    s_gen : gen;
    s_rac : bool
  }.

  (** What [self.iterator_factory()] returns at its call number [c]. *)
  Definition seq_factory (s : sequential) : factory :=
    if s_own s then fun _ => Finite (s_items s) true else s_factory s.

  (** fixed.py:264-266 [reset] *)
  Definition seq_reset (s : sequential) : sequential :=
    mkSeq (s_items s) (s_own s) (s_factory s) (mkGen (g_calls (s_gen s)) None) (s_rac s).

  (** fixed.py:233-251 [__init__] *)
  Definition seq_new (items : list A) (rac : bool) : res sequential :=
    match items with
    | [] => Raise ValueError
    | _ => Ok (seq_reset (mkSeq items true (fun _ => Finite items true) (mkGen 0 None) rac))
    end.

  (** fixed.py:253-262 [check_seq_iter_factory] on call number [c] *)
  Definition check_seq_iter_factory (f : factory) (c : nat) : res unit :=
    match f c with Finite _ true => Ok tt | _ => Raise ValueError end.

  (** fixed.py:278-301, the setter of iterator_factory (the DeprecationWarning is
      left out); the factory is called three times. *)
  Definition seq_set_factory (f : factory) : M sequential unit := fun s =>
    match (_ <- check_iter_factory f 0 ;; check_seq_iter_factory f 1) with
    | Ok _ =>
        match f 2%nat with
        | Finite l _ => (Ok tt, seq_reset (mkSeq l false f (mkGen 3 None) (s_rac s)))
        | Infinite _ => (Diverge, s)
        end
    | Raise e => (Raise e, s)
    | Diverge => (Diverge, s)
    end.

  (** Assignment [em.reset_after_call = b] *)
  Definition seq_set_rac (b : bool) (s : sequential) : sequential :=
    mkSeq (s_items s) (s_own s) (s_factory s) (s_gen s) b.

  Section SeqEmit.
    Context (fuel : nat).

    (** As [iter_run]; lines 306-307 / 317-318. *)
    Definition seq_run {B} (m : factory -> M gen B) : M sequential B := fun s =>
      match m (seq_factory s) (s_gen s) with
      | (Ok b, g) =>
          let s := mkSeq (s_items s) (s_own s) (s_factory s) g (s_rac s) in
          (Ok b, if s_rac s then seq_reset s else s)
      | (Raise e, g) => (Raise e, mkSeq (s_items s) (s_own s) (s_factory s) g (s_rac s))
      | (Diverge, g) => (Diverge, mkSeq (s_items s) (s_own s) (s_factory s) g (s_rac s))
      end.

    (** fixed.py:303-308 [emit] *)
    Definition seq_emit : M sequential A := seq_run (fun f => gen_next fuel f).

    (** fixed.py:310-319 [emit_many] *)
    Definition seq_emit_many (number : Z) : M sequential (list A) :=
      if number <? 0 then raise ValueError
      else seq_run (fun f => gen_take fuel f (Z.to_nat number)).
  End SeqEmit.
End Fixed.
Arguments static : clear implicits. Arguments iterator : clear implicits.
Arguments factory : clear implicits. Arguments iterative : clear implicits.
Arguments sequential : clear implicits.

(** emitter.py:74-102 [__call__]: with a number, for any object with [emit] and
    [emit_many]. ([em()] is [em.emit()].) *)
Definition call_number {S A} (emit : M S A) (emit_many : Z -> M S (list A)) (number : Z)
  : M S (list A) :=
  if number =? 1 then a <~ emit ;; ret [a] else emit_many number.
