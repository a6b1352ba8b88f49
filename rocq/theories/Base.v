(** * Base: outcomes and Python list primitives.

    Not a model of a file of /repo; these are the Python language features used
    by all of /repo/src/fauxdoc: exceptions (as values), sequence indexing,
    sequence slicing with step 1 and list repetition. *)
From Coq Require Export List ZArith Bool Lia.
Export ListNotations.
Open Scope Z_scope.

(** The exception classes that occur in the modelled code. *)
Inductive exc : Set :=
| ValueError | TypeError | IndexError | KeyError | AttributeError
| ZeroDivisionError | OverflowError | StopIteration | RuntimeError
| UserError (n : Z) (* an exception raised by a user-supplied callable *).

(** Outcome of a computation: a value, an exception, or out of fuel
    (non-termination as far as the given fuel can tell). *)
Inductive res (A : Type) : Type :=
| Ok (a : A)
| Raise (e : exc)
| Diverge.
Arguments Ok {A} a.
Arguments Raise {A} e.
Arguments Diverge {A}.

Definition bind {A B} (r : res A) (f : A -> res B) : res B :=
  match r with
  | Ok a => f a
  | Raise e => Raise e
  | Diverge => Diverge
  end.

Declare Scope res_scope.
Delimit Scope res_scope with res.
Notation "x <- r ;; k" := (bind r (fun x => k))
  (at level 61, r at next level, right associativity) : res_scope.
Open Scope res_scope.

Definition rmap {A B} (f : A -> B) (r : res A) : res B :=
  match r with Ok a => Ok (f a) | Raise e => Raise e | Diverge => Diverge end.

Fixpoint mapM {A B} (f : A -> res B) (l : list A) : res (list B) :=
  match l with
  | [] => Ok []
  | a :: t => b <- f a ;; bs <- mapM f t ;; Ok (b :: bs)
  end.

(** [len(l)] *)
Definition zlen {A} (l : list A) : Z := Z.of_nat (length l).

(** Python index normalisation: [l[i]] with negative [i] counts from the end;
    [None] stands for IndexError. *)
Definition norm_index (n i : Z) : option nat :=
  let j := if i <? 0 then i + n else i in
  if (0 <=? j) && (j <? n) then Some (Z.to_nat j) else None.

(** [l[i]] on a Python list / tuple / str. *)
Definition list_get {A} (l : list A) (i : Z) : res A :=
  match norm_index (zlen l) i with
  | Some j => match nth_error l j with Some a => Ok a | None => Raise IndexError end
  | None => Raise IndexError
  end.

(** Clipping of one bound of [l[a:b]] (step 1). *)
Definition clip_bound (n i : Z) : Z :=
  if i <? 0 then Z.max 0 (i + n) else Z.min i n.

(** [l[a:b]] with both bounds given and step 1. *)
Definition list_slice {A} (l : list A) (a b : Z) : list A :=
  let n := zlen l in
  let i := clip_bound n a in
  let j := clip_bound n b in
  firstn (Z.to_nat (j - i)) (skipn (Z.to_nat i) l).

(** [l * n] *)
Fixpoint list_rep_nat {A} (l : list A) (n : nat) : list A :=
  match n with O => [] | S k => l ++ list_rep_nat l k end.
Definition list_rep {A} (l : list A) (n : Z) : list A := list_rep_nat l (Z.to_nat n).

(** In-place update of position [n] (no effect when out of bounds). *)
Fixpoint upd {A} (n : nat) (x : A) (l : list A) : list A :=
  match l, n with
  | [], _ => []
  | _ :: t, O => x :: t
  | a :: t, S k => a :: upd k x t
  end.
