(** * FloatModel: the instance of Prims with IEEE doubles, as Python computes.

    [binary_float 53 1024] and its operations are Flocq's IEEE 754 doubles (one
    NaN), rounding to nearest even as CPython does.  Nothing of /repo is modelled
    here; MathModel and ChoiceModel are used with this arithmetic.
    Simplification: all weights are floats (ints are converted first). *)
From Coq Require Import ZArith Reals Floats.SpecFloat.
From Flocq Require Import Core BinarySingleNaN.
From Verif Require Import Base Prims.
Open Scope Z_scope.

Definition double : Type := binary_float 53 1024.
#[export] Instance fprec : Prec_gt_0 53 := eq_refl.
#[export] Instance fprec_emax : Prec_lt_emax 53 1024 := eq_refl.

(** The double nearest to [m * 2^e]. *)
Definition fl (m e : Z) : double := binary_normalize 53 1024 _ _ mode_NE m e false.

Definition fadd : double -> double -> double := Bplus mode_NE.
Definition fsub : double -> double -> double := Bminus mode_NE.
Definition fmul : double -> double -> double := Bmult mode_NE.
Definition fdiv : double -> double -> double := Bdiv mode_NE.
Definition fzero : double := B754_zero false.
Definition ftrue (x : double) : bool := match x with B754_zero _ => false | _ => true end.

(** [math.floor] of a finite double *)
Definition ffloor (x : double) : Z :=
  match x with
  | B754_finite s m e _ =>
      let n := if s then Zneg m else Zpos m in
      if 0 <=? e then n * 2 ^ e else n / 2 ^ (- e)
  | _ => 0
  end.

(** A generator that returns doubles, and the logarithm of the C library. *)
Record fgen : Type := mkFgen {
  f_state : Type;
  f_seed : Type;
  f_seeded : f_seed -> f_state;
  f_fresh : nat -> f_state;
  f_random : f_state -> double * f_state;
  f_below : nat -> f_state -> nat * f_state;
  f_sample : nat -> nat -> f_state -> list nat * f_state;
  f_log : double -> double
}.

Definition FP (g : fgen) : prims := {|
  pW := double; pU := double; pK := double; pR := f_state g; pSeed := f_seed g;
  w_zero := fzero; w_one := fl 1 0; w_add := fadd; w_sub := fsub;
  w_true := ftrue;
  w_lt := Bltb;
  w_total_ok := fun t => negb (Bleb t fzero) && is_finite t;
  w_scale := fmul;
  u_floor := fun u n => Z.to_nat (ffloor (fmul u (fl (Z.of_nat n) 0)));
  k_score := fun u w => if Bleb u fzero then Raise ValueError
                        else if negb (ftrue w) then Raise ZeroDivisionError
                        else Ok (fdiv (f_log g u) w);
  k_lt := Bltb;
  r_seeded := f_seeded g; r_fresh := f_fresh g; r_random := f_random g;
  r_below := f_below g; r_sample := f_sample g
|}.

(** The contract of random(): a finite double in [0, 1 - 2^-53]. *)
Definition fgen_ok (g : fgen) : Prop := forall r,
  let u := fst (f_random g r) in
  is_finite u = true /\ (0 <= B2R u <= 1 - bpow radix2 (-53))%R.

(** Zero, or at least 2^-1021 (infinity included). *)
Definition plain_weight (w : double) : Prop :=
  match w with
  | B754_zero _ => True
  | B754_infinity s => s = false
  | B754_nan => False
  | B754_finite _ _ _ _ => (bpow radix2 (-1021) <= B2R w)%R
  end.
