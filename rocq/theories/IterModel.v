(** * Model of Iterative and Sequential (/repo/src/fauxdoc/emitters/fixed.py) over
    any iterators whatever.

    FixedModel.v fixes the elements of an iterator when the factory returns it.
    Here factories and iterators are Python code of the user: they share a state,
    may hand out the same iterator again, look at a list that changes, and raise
    exceptions. *)
From Verif Require Import Base Prims.

Section Iter.
  Context {S H A : Type}. (* the user's state, references to iterators, values *)

  (** A factory and its iterators: [make] is [iter(factory())], [step h] is
      [next(h)]; [Raise StopIteration] from [step] is the end of the iterator.
      Both may change the user's state. *)
  Record source : Type := mkSource { make : M S H; step : H -> M S A }.

  (** A generator object of [make_infinite_iter] (fixed.py:135-145): not started,
      inside the for statement with the iterator [h], or finished.  A generator
      function that is left by an exception is finished for good. *)
  Inductive pygen : Type := Fresh | Running (h : H) | Finished.

  (** An exception that leaves a generator function: StopIteration becomes
      RuntimeError (PEP 479). *)
  Definition leave (e : exc) : exc :=
    match e with StopIteration => RuntimeError | _ => e end.

  (** fixed.py:143-145 from the beginning of the while loop: a new iterator and
      its first element.  [fuel] bounds the number of factory calls. *)
  Fixpoint from_factory (fuel : nat) (src : source) (s : S) : res A * (S * pygen) :=
    match fuel with
    | O => (Diverge, (s, Fresh))
    | Datatypes.S k =>
        match make src s with
        | (Ok h, s) =>
            match step src h s with
            | (Ok a, s) => (Ok a, (s, Running h))
            | (Raise StopIteration, s) => from_factory k src s
            | (Raise e, s) => (Raise (leave e), (s, Finished))
            | (Diverge, s) => (Diverge, (s, Running h))
            end
        | (Raise e, s) => (Raise (leave e), (s, Finished))
        | (Diverge, s) => (Diverge, (s, Fresh))
        end
    end.

  (** [next(generator)] *)
  Definition gnext (fuel : nat) (src : source) : M (S * pygen) A := fun st =>
    match snd st with
    | Finished => (Raise StopIteration, st)
    | Fresh => from_factory fuel src (fst st)
    | Running h =>
        match step src h (fst st) with
        | (Ok a, s) => (Ok a, (s, Running h))
        | (Raise StopIteration, s) => from_factory fuel src s
        | (Raise e, s) => (Raise (leave e), (s, Finished))
        | (Diverge, s) => (Diverge, (s, Running h))
        end
    end.

  (** [list(itertools.islice(generator, 0, n))]: StopIteration ends the list. *)
  Fixpoint gtake (fuel : nat) (src : source) (n : nat) : M (S * pygen) (list A) := fun st =>
    match n with
    | O => (Ok [], st)
    | Datatypes.S k =>
        match gnext fuel src st with
        | (Ok a, st) =>
            match gtake fuel src k st with
            | (Ok l, st) => (Ok (a :: l), st)
            | (Raise e, st) => (Raise e, st)
            | (Diverge, st) => (Diverge, st)
            end
        | (Raise StopIteration, st) => (Ok [], st)
        | (Raise e, st) => (Raise e, st)
        | (Diverge, st) => (Diverge, st)
        end
    end.

  (** The attributes of an Iterative object. *)
  Record itobj : Type := mkIt { it_src : source; it_gen : pygen; it_rac : bool }.

  (** fixed.py:164-166 [reset]: makes a generator, runs nothing of it *)
  Definition it_reset (o : itobj) : itobj := mkIt (it_src o) Fresh (it_rac o).

  (** fixed.py:123-133 [check_iter_factory].  [next(factory())] is [next] of what
      the factory returns, which must be an iterator; StopIteration from either
      call is caught. *)
  Definition it_check (src : source) : M S unit := fun s =>
    match (h <~ make src ;; step src h) s with
    | (Ok _, s) => (Ok tt, s)
    | (Raise StopIteration, s) => (Raise ValueError, s)
    | (Raise e, s) => (Raise e, s)
    | (Diverge, s) => (Diverge, s)
    end.

  (** fixed.py:152-157, the setter of iterator_factory *)
  Definition it_set (src : source) : M (S * itobj) unit := fun '(s, o) =>
    match it_check src s with
    | (Ok _, s) => (Ok tt, (s, it_reset (mkIt src (it_gen o) (it_rac o))))
    | (r, s) => (r, (s, o))
    end.

  (** fixed.py:111-121 [__init__] *)
  Definition it_new (src : source) (rac : bool) : M S itobj :=
    it_check src ;;; ret (it_reset (mkIt src Fresh rac)).

  (** Run the generator, then lines 171-172 / 182-183. *)
  Definition it_run {B} (m : source -> M (S * pygen) B) : M (S * itobj) B := fun '(s, o) =>
    match m (it_src o) (s, it_gen o) with
    | (Ok b, (s, g)) =>
        let o := mkIt (it_src o) g (it_rac o) in
        (Ok b, (s, if it_rac o then it_reset o else o))
    | (r, (s, g)) => (r, (s, mkIt (it_src o) g (it_rac o)))
    end.

  (** fixed.py:168-173 [emit] *)
  Definition it_emit (fuel : nat) : M (S * itobj) A := it_run (gnext fuel).

  (** fixed.py:175-184 [emit_many]; islice refuses a negative number. *)
  Definition it_emit_many (fuel : nat) (number : Z) : M (S * itobj) (list A) :=
    if number <? 0 then raise ValueError
    else it_run (fun src => gtake fuel src (Z.to_nat number)).
End Iter.
Arguments source : clear implicits. Arguments pygen : clear implicits.
Arguments itobj : clear implicits.

(** ** Sequential over the list it was given *)

(** The user's list, which they may change at any time, and the list iterators
    made so far: the position of each, [None] once it has raised StopIteration. *)
Definition listheap (A : Type) : Type := (list A * list (option nat))%type.

(** fixed.py:250 [lambda: iter(self.items)]: [items] is the list object passed in,
    not a copy (mixins.py:84).  [iter(list)] is an object that holds a
    position; [next] looks at the list as it is then. *)
Definition list_source (A : Type) : source (listheap A) nat A := {|
  make := fun '(l, its) => (Ok (length its), (l, its ++ [Some O]));
  step := fun h '(l, its) =>
    match nth_error its h with
    | Some (Some p) =>
        match nth_error l p with
        | Some a => (Ok a, (l, upd h (Some (Datatypes.S p)) its))
        | None => (Raise StopIteration, (l, upd h None its))
        end
    | _ => (Raise StopIteration, (l, its))
    end
|}.

(** fixed.py:233-251 [__init__] of Sequential; its emit, emit_many and reset
    (264-266, 303-319) are line by line those of Iterative. *)
Definition sq_new {A} (rac : bool) : M (listheap A) (itobj (listheap A) nat A) := fun st =>
  match fst st with
  | [] => (Raise ValueError, st)
  | _ => (Ok (it_reset (mkIt (list_source A) Fresh rac)), st)
  end.
