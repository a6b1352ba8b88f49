(** * Probabilities: vocabulary.  Independent of the model. *)
From Coq Require Import Reals List Arith.
From Coquelicot Require Import Coquelicot.
From Verif Require Import Base.
Import ListNotations.
Open Scope R_scope.

(** [f] is a function of random numbers; [us p] is the [p]-th.  Its average when the
    numbers named in [order] are uniformly distributed between 0 and 1 and
    independent (the others are as in [us]): the integral over the unit cube, one
    variable after the other. *)
Fixpoint average (order : list nat) (f : (nat -> R) -> R) (us : nat -> R) : R :=
  match order with
  | [] => f us
  | p :: order => RInt (fun u => average order f (fun q => if (q =? p)%nat then u else us q)) 0 1
  end.
(** The probability of an event, given by a function that tells whether it happens. *)
Definition probability (order : list nat) (event : (nat -> R) -> bool) : R :=
  average order (fun us => if event us then 1 else 0) (fun _ => 0).

(** Sum of a list *)
Definition total (l : list R) : R := fold_right Rplus 0 l.
(** [l] with 0 at position [p] *)
Fixpoint without (p : nat) (l : list R) : list R :=
  match l, p with
  | [], _ => []
  | _ :: t, O => 0 :: t
  | x :: t, S p => x :: without p t
  end.
(** Drawing one by one: the first with probability proportional to its weight, then
    the next, among the others, and so on.  The probability of drawing [ps]. *)
Fixpoint one_by_one (weights : list R) (ps : list nat) : R :=
  match ps with
  | [] => 1
  | p :: ps => nth p weights 0 / total weights * one_by_one (without p weights) ps
  end.

(** Whether a call returned [out] *)
Definition returned {A} (dec : forall a b : A, {a = b} + {a <> b}) (out : list A) (r : res (list A)) : bool :=
  match r with Ok l => if list_eq_dec dec l out then true else false | _ => false end.
(** Whether it returned a list that begins with [out] *)
Definition began {A} (dec : forall a b : A, {a = b} + {a <> b}) (out : list A) (r : res (list A)) : bool :=
  match r with Ok l => if list_eq_dec dec (firstn (length out) l) out then true else false | _ => false end.
