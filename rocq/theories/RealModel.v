(** * Model of poisson and gaussian (/repo/src/fauxdoc/mathtools.py:9-42) in exact
    real arithmetic, and of poisson's integer-to-float conversions. *)
From Verif Require Import Base Prims MathModel ChoiceModel.
From Coq Require Import Reals.
Open Scope Z_scope.

(** mathtools.py:21 [(mu ** x) * (math.exp(-1 * mu)) / math.factorial(x)], rounding
    left out. *)
Definition poisson (x : nat) (mu : R) : R :=
  (mu ^ x * exp (-1 * mu) / INR (fact x))%R.

(** mathtools.py:40-42, rounding left out.  Python raises ZeroDivisionError for
    sigma = 0. *)
Definition gaussian (x mu sigma : R) : R :=
  (let term1 := exp (-1 * ((x - mu) / sigma) ^ 2 / 2) in
   let term2 := 1 / (sqrt (2 * PI) * sigma) in
   term1 * term2)%R.

(** CPython int -> float conversion (Objects/longobject.c PyLong_AsDouble):
    OverflowError when the integer rounds to 2^1024 or more. *)
Definition int_to_float_ok (z : Z) : bool := Z.abs z <? 2 ^ 1024 - 2 ^ 970.

(** [math.factorial] *)
Fixpoint zfact (n : nat) : Z :=
  match n with O => 1 | S k => Z.of_nat n * zfact k end.

(** mathtools.py:21 for an integer mu >= 0, as far as exceptions are concerned:
    [mu ** x] is an int that is converted to float by the multiplication with
    [math.exp(-mu)], [math.factorial(x)] is converted by the division.  [value]
    stands for the float computed. *)
Definition poisson_checked {F} (value : nat -> F) (mu : Z) (x : nat) : res F :=
  if negb (int_to_float_ok (mu ^ Z.of_nat x)) then Raise OverflowError
  else if negb (int_to_float_ok (zfact x)) then Raise OverflowError
  else Ok (value x).

(** mathtools.py:21 for a float mu, as far as exceptions are concerned:
    [pow_ok x] tells whether [mu ** x] is in range (OverflowError otherwise).
    math.exp(-mu) is assumed to be in range, which holds for mu >= 0. *)
Definition poisson_checked_float {F} (value : nat -> F) (pow_ok : nat -> bool) (x : nat) : res F :=
  if negb (pow_ok x) then Raise OverflowError
  else if negb (int_to_float_ok (zfact x)) then Raise OverflowError
  else Ok (value x).

Section Dist.
  Context (P : prims) {A : Type} (fuel : nat).

  (** choice.py:384-387 (poisson_choice) and choice.py:422-425 (gaussian_choice):
      the two functions differ only in the distribution, given here as [dist]. *)
  Definition dist_choice (dist : nat -> res (pW P)) (items : list A) (weight_floor : pW P)
      (replace roac : bool) (seed : option (pSeed P)) (ent : nat) : res (@choice P A) :=
    weights <- mapM (fun x => w <- dist x ;; Ok (clamp (w_lt P) w (Some weight_floor) None))
                    (seq 1 (length items)) ;;
    choice_new P fuel items (Some weights) replace roac seed None ent.

  (** choice.py:359-387 for an integer mu *)
  Definition poisson_choice (value : nat -> pW P) (mu : Z) :=
    dist_choice (poisson_checked value mu).
  (** choice.py:359-387 for a float mu *)
  Definition poisson_choice_float (value : nat -> pW P) (pow_ok : nat -> bool) :=
    dist_choice (poisson_checked_float value pow_ok).
  (** choice.py:390-425; the float computation of gaussian raises nothing for
      sigma <> 0 and arguments for which no intermediate result overflows (the
      only case modelled). *)
  Definition gaussian_choice (value : nat -> pW P) :=
    dist_choice (fun x => Ok (value x)).
End Dist.

(** choice.py:428-437 [chance] *)
Definition chance (P : prims) (fuel : nat) (p : pW P) (seed : option (pSeed P)) (ent : nat) : res (@choice P bool) :=
  choice_new P fuel [true; false] (Some [p; w_sub P (w_one P) p]) true false seed None ent.
