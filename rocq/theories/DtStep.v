(** * dtrange with steps that need not be integers: dtrange.py:291-357.

    The annotation of [dtrange] says [step: float].  The step is handed to
    [timedelta(weeks=...)] etc.; that conversion is modelled after CPython's
    Modules/_datetimemodule.c ([accum] and [delta_new]), which is not in /repo. *)
From Coq Require Import ZArith Floats.SpecFloat.
From Flocq Require Import Core BinarySingleNaN.
From Verif Require Import Base PyRange DtModel FloatModel.
Open Scope Z_scope.

(** A step: an int (or bool), a float, an object of another type. *)
Inductive stepval : Type := StInt (z : Z) | StFloat (x : double) | StOther.

(** C's [modf] for finite doubles: the integral part (as the integer that
    PyLong_FromDouble makes of it) and the fractional part, both with the sign of
    the argument. *)
Definition modf (x : double) : Z * double :=
  match x with
  | B754_finite s m e _ =>
      let n := if s then Zneg m else Zpos m in
      if 0 <=? e then (n * 2 ^ e, fzero)
      else (Z.quot n (2 ^ (- e)), fl (Z.rem n (2 ^ (- e))) e)
  | _ => (0, fzero)
  end.

(** C's [round], to the nearest integer, halves away from zero. *)
Definition cround (x : double) : Z :=
  match x with
  | B754_finite s m e _ =>
      let n := if s then Zneg m else Zpos m in
      if 0 <=? e then n * 2 ^ e
      else Z.sgn n * ((2 * Z.abs n + 2 ^ (- e)) / (2 * 2 ^ (- e)))
  | _ => 0
  end.

(** [accum] for a float: whole microseconds and what is left over.  [factor] is
    the number of microseconds in the unit. *)
Definition accum (x : double) (factor : Z) : res (Z * double) :=
  match x with
  | B754_nan => Raise ValueError
  | B754_infinity _ => Raise OverflowError
  | _ =>
      let (ip, fp) := modf x in
      if negb (ftrue fp) then Ok (ip * factor, fzero)
      else
        let (ip2, fp2) := modf (fmul (fl factor 0) fp) in
        Ok (ip * factor + ip2, fp2)
  end.

(** The end of [delta_new]: round what is left over to whole microseconds, halves
    such that the total is even. *)
Definition round_leftover (total : Z) (leftover : double) : Z :=
  if negb (ftrue leftover) then total
  else
    let whole := cround leftover in
    if Beqb (Babs (fsub (fl whole 0) leftover)) (fl 1 (-1)) then
      let odd := Z.modulo total 2 in
      total + (2 * cround (fmul (fadd leftover (fl odd 0)) (fl 1 (-1))) - odd)
    else total + whole.

(** [timedelta(hours=step)], or another unit, in microseconds.  With one argument the leftover
    is that of this argument. *)
Definition timedelta (step : stepval) (unit : Z) : res Z :=
  match step with
  | StInt z => td_check (z * unit)
  | StFloat x =>
      tl <- accum x unit ;;
      let '(total, leftover) := tl in
      td_check (round_leftover total leftover)
  | StOther => Raise TypeError
  end.

(** dtrange.py:338-344: a TypeError becomes a ValueError. *)
Definition step_timedelta (step : stepval) (u : stepunit) : res Z :=
  match unit_us u with
  | None => Raise ValueError
  | Some us =>
      match timedelta step us with
      | Raise TypeError => Raise ValueError
      | r => r
      end
  end.

(** dtrange.py:291-357 [dtrange], for any step. *)
Definition dtrange_any {str} (iso_date iso_time iso_datetime : str -> option Z)
  (start stop : userdate str) (step : stepval) (step_unit : option stepunit) : res dtr :=
  start_obj <- parse_user_date iso_date iso_time iso_datetime start ;;
  stop_obj <- parse_user_date iso_date iso_time iso_datetime stop ;;
  if negb (dtkind_eqb (dk start_obj) (dk stop_obj)) then Raise ValueError
  else
    let u := match step_unit with
             | Some u => u
             | None => match dk start_obj with KDate => Udays | _ => Useconds end
             end in
    step_td <- step_timedelta step u ;;
    dtrange_core start_obj stop_obj step_td.
