(** * Model of /repo/src/fauxdoc/dtrange.py.

    Only timezone-naive values are modelled.  A date is its proleptic Gregorian
    ordinal ([date.toordinal()]), a time is its microsecond of the day, a
    datetime is [ordinal * DAY + microsecond of the day], a timedelta is its
    total number of microseconds. *)
From Verif Require Import Base PyRange.
From Coq Require Import Floats.SpecFloat.

(** Microseconds per day. *)
Definition DAY : Z := 86400000000.
(** [date.max.toordinal()] *)
Definition MAXORD : Z := 3652059.
(** [timedelta.max.days] *)
Definition MAXTD : Z := 999999999.
(** [date(99, 1, 1).toordinal()], the reference date of dtrange.py:17,43,351. *)
Definition REF : Z := 35795.
(** [sys.maxsize], the limit of [len()]. *)
Definition MAXSSIZE : Z := 9223372036854775807.

Inductive dtkind : Set := KDate | KTime | KDateTime.
Record dt : Set := Dt { dk : dtkind; dv : Z }.

Definition dtkind_eqb (a b : dtkind) : bool :=
  match a, b with
  | KDate, KDate | KTime, KTime | KDateTime, KDateTime => true
  | _, _ => false
  end.
(** [==] on values of the same class (cross-class comparison of naive
    date/time/datetime objects is False) *)
Definition dt_eqb (a b : dt) : bool := dtkind_eqb (dk a) (dk b) && (dv a =? dv b).

(** The values that Python's datetime module can represent. *)
Definition dt_valid (d : dt) : Prop :=
  match dk d with
  | KDate => 1 <= dv d <= MAXORD
  | KTime => 0 <= dv d < DAY
  | KDateTime => DAY <= dv d < (MAXORD + 1) * DAY
  end.
Definition td_valid (us : Z) : Prop := - MAXTD <= us / DAY <= MAXTD.

(** Result of a timedelta operation: OverflowError beyond +-999999999 days. *)
Definition td_check (us : Z) : res Z :=
  if (- MAXTD <=? us / DAY) && (us / DAY <=? MAXTD) then Ok us else Raise OverflowError.

(** Result of date/datetime arithmetic: OverflowError outside of the calendar. *)
Definition ord_check (o : Z) : res Z :=
  if (1 <=? o) && (o <=? MAXORD) then Ok o else Raise OverflowError.
Definition dtm_check (us : Z) : res Z :=
  if (DAY <=? us) && (us <? (MAXORD + 1) * DAY) then Ok us else Raise OverflowError.

(** dtrange.py:10-20 [_index_to_value].  [date + timedelta] uses the [days]
    attribute of the timedelta only, which is the floor of the quotient. *)
Definition index_to_value (index : Z) (start : dt) (step : Z) : res dt :=
  delta <- td_check (step * index) ;;
  match dk start with
  | KTime =>
      s <- dtm_check (REF * DAY + dv start + delta) ;;
      Ok (Dt KTime (s mod DAY))
  | KDate => o <- ord_check (dv start + delta / DAY) ;; Ok (Dt KDate o)
  | KDateTime => s <- dtm_check (dv start + delta) ;; Ok (Dt KDateTime s)
  end.

(** [divmod(timedelta, timedelta)] *)
Definition td_divmod (a b : Z) : res (Z * Z) :=
  if b =? 0 then Raise ZeroDivisionError else Ok (a / b, a mod b).

(** dtrange.py:23-51 [_value_to_index].  Subtracting values of different
    classes is a TypeError (this happens for a datetime [value] and a date
    [start]).  The sign tests on the float [step_secs] (lines 38-42) are modelled as sign
    tests on the number of microseconds: true division of non-zero integers is
    never rounded to zero here. *)
Definition value_to_index (value start : dt) (step : Z) : res (Z * Z) :=
  if negb (dtkind_eqb (dk value) (dk start)) then Raise TypeError
  else
    match dk start with
    | KTime =>
        let startdate := REF + 1 in
        let valdate :=
          if (dv value <? dv start) && (0 <? step) then REF + 2
          else if (dv start <? dv value) && (step <? 0) then REF
          else startdate in
        let valdt := valdate * DAY + dv value in
        let startdt := startdate * DAY + dv start in
        td_divmod (valdt - startdt) step
    | KDate => td_divmod ((dv value - dv start) * DAY) step
    | KDateTime => td_divmod (dv value - dv start) step
    end.

(** ** The float checks on the step: dtrange.py:137-150

    [timedelta.total_seconds()] is [microseconds / 10**6] by Python's true
    division of integers, i.e. the correctly rounded (nearest, ties to even)
    IEEE 754 double of the quotient.  SpecFloat's division on unbounded
    mantissas computes exactly that. *)
Definition prec : Z := 53.
Definition emax : Z := 1024.
Definition total_seconds (us : Z) : spec_float :=
  match us with
  | Z0 => S754_zero false
  | Zpos p => SFdiv prec emax (S754_finite false p 0) (S754_finite false 1000000 0)
  | Zneg p => SFdiv prec emax (S754_finite true p 0) (S754_finite false 1000000 0)
  end.

(** [bool(x % 86400)] for a float: C [fmod] is exact, so the result is false iff
    [x] is an integral multiple of 86400.  [m * 2^e] with [e < 0] is one iff
    [m mod (86400 * 2^-e) = 0]. *)
Definition float_mod_day_nonzero (x : spec_float) : bool :=
  match x with
  | S754_finite _ m e =>
      if 0 <=? e then negb (((Zpos m * 2 ^ e) mod 86400) =? 0)
      else negb ((Zpos m mod (86400 * 2 ^ (- e))) =? 0)
  | S754_zero _ => false
  | S754_infinity _ | S754_nan => true
  end.

(** [abs(x) >= 86400] for a float. *)
Definition float_abs_ge_day (x : spec_float) : bool :=
  match x with
  | S754_finite _ m e =>
      if 0 <=? e then 86400 <=? Zpos m * 2 ^ e else 86400 * 2 ^ (- e) <=? Zpos m
  | S754_zero _ => false
  | S754_infinity _ => true
  | S754_nan => false
  end.

(** dtrange.py:54-265: the state of a [DateOrTimeRange].  The caches [_stop] and
    [_str_repr], the setters and [__repr__] (195-206) are in DtObject.v, where
    they are shown to make no difference to the functions here. *)
Record dtr : Set := mkDtr { r_start : dt; r_length : Z; r_step : Z }.

(** dtrange.py:137-150: whether the step setter accepts the step. *)
Definition step_ok (start : dt) (step : Z) : bool :=
  match dk start with
  | KDate => negb (float_mod_day_nonzero (total_seconds step))
  | KTime => negb (float_abs_ge_day (total_seconds step))
  | KDateTime => true
  end.

(** dtrange.py:86-97 [__init__] with the setters 104-114, 128-151, 158-168 for
    arguments that are already of the right type (an int, a datetime-module
    object, a timedelta). *)
Definition dtr_new (start : dt) (length step : Z) : res dtr :=
  if step_ok start step then Ok (mkDtr start length step) else Raise ValueError.

(** dtrange.py:97 *)
Definition index_range (r : dtr) : pyrange := mkRange 0 (r_length r) 1.

(** dtrange.py:191-193 [__len__] as seen through [len()], which rejects negative
    numbers and numbers above sys.maxsize. *)
Definition ssize_check (n : Z) : res Z :=
  if n <? 0 then Raise ValueError
  else if MAXSSIZE <? n then Raise OverflowError else Ok n.
Definition dtr_len (r : dtr) : res Z := ssize_check (r_length r).

(** dtrange.py:178-189 [__getitem__], int and slice. *)
Definition dtr_get (r : dtr) (i : Z) : res dt :=
  n <- rg_get (index_range r) i ;;
  index_to_value n (r_start r) (r_step r).
Definition dtr_slice (r : dtr) (s : pyslice) : res dtr :=
  slc <- rg_slice (index_range r) s ;;
  start <- index_to_value (rg_start slc) (r_start r) (r_step r) ;;
  n <- ssize_check (rg_len slc) ;;
  step <- td_check (r_step r * rg_step slc) ;;
  dtr_new start n step.

(** dtrange.py:116-121 [stop] *)
Definition dtr_stop (r : dtr) : res dt :=
  n <- dtr_len r ;; index_to_value n (r_start r) (r_step r).

(** [list(r)]: [list] asks [len(r)] for a size hint, then iterates with
    [collections.abc.Sequence.__iter__], i.e. [r[0], r[1], ...] up to IndexError. *)
Definition dtr_list (r : dtr) : res (list dt) :=
  n <- dtr_len r ;;
  mapM (fun k => dtr_get r (Z.of_nat k)) (seq 0 (Z.to_nat n)).

(** dtrange.py:208-220 [__eq__] against another [DateOrTimeRange]. *)
Definition dtr_eq (a b : dtr) : res bool :=
  my_len <- dtr_len a ;;
  other_len <- dtr_len b ;;
  if negb (my_len =? other_len) then Ok false
  else if my_len =? 0 then Ok true
  else if my_len =? 1 then Ok (dt_eqb (r_start a) (r_start b))
  else Ok (dt_eqb (r_start a) (r_start b) && (r_step a =? r_step b)).

(** dtrange.py:222-227 [__hash__]: the tuple that is hashed. *)
Definition dtr_hash_key (r : dtr) : res (Z * option dt * option Z) :=
  n <- dtr_len r ;;
  Ok (n, (if 0 <? n then Some (r_start r) else None),
         (if 1 <? n then Some (r_step r) else None)).

(** A Python object offered to [index] / [in] / [count]. *)
Inductive pyobj : Set := ODt (d : dt) | OOther (n : Z).

(** [isinstance(value, type(start))]: datetime is a subclass of date. *)
Definition isinstance_of (v : pyobj) (start : dt) : bool :=
  match v with
  | ODt d =>
      match dk start, dk d with
      | KDate, KDate | KDate, KDateTime | KTime, KTime | KDateTime, KDateTime => true
      | _, _ => false
      end
  | OOther _ => false
  end.

(** dtrange.py:229-246 [index] *)
Definition dtr_index (r : dtr) (v : pyobj) (start stop : option Z) : res Z :=
  if isinstance_of v (r_start r) then
    match v with
    | ODt d =>
        ir <- value_to_index d (r_start r) (r_step r) ;;
        let '(index, rem) := ir in
        if rem =? 0 then
          sub <- rg_slice (index_range r) (mkSlice start stop None) ;;
          if rg_contains sub index then Ok index else Raise ValueError
        else Raise ValueError
    | OOther _ => Raise ValueError
    end
  else Raise ValueError.

(** dtrange.py:248-257 [__contains__] *)
Definition dtr_contains (r : dtr) (v : pyobj) : res bool :=
  if isinstance_of v (r_start r) then
    match dtr_index r v None None with
    | Ok _ => Ok true
    | Raise ValueError => Ok false
    | Raise e => Raise e
    | Diverge => Diverge
    end
  else Ok false.

(** dtrange.py:259-265 [count] *)
Definition dtr_count (r : dtr) (v : pyobj) : res Z :=
  b <- dtr_contains r v ;; Ok (if b then 1 else 0).

(** ** [dtrange] *)

(** An argument of [dtrange]: a datetime-module object, a str, anything else.
    Strings are abstract; the three [fromisoformat] parsers are parameters. *)
Inductive userdate (str : Type) : Type :=
| UDt (d : dt) | UStr (s : str) | UBad.
Arguments UDt {str} d.
Arguments UStr {str} s.
Arguments UBad {str}.

Section Parse.
  Context {str : Type}.
  (** [date.fromisoformat], [time.fromisoformat], [datetime.fromisoformat];
      [None] is ValueError.  The kinds are attached here because each parser
      returns values of its own class. *)
  Context (iso_date iso_time iso_datetime : str -> option Z).

  (** dtrange.py:268-288 [_parse_user_date] *)
  Definition parse_user_date (v : userdate str) : res dt :=
    match v with
    | UDt d => Ok d
    | UStr s =>
        match iso_date s with
        | Some o => Ok (Dt KDate o)
        | None =>
            match iso_time s with
            | Some t => Ok (Dt KTime t)
            | None =>
                match iso_datetime s with
                | Some t => Ok (Dt KDateTime t)
                | None => Raise ValueError
                end
            end
        end
    | UBad => Raise ValueError
    end.

  (** Keyword arguments of [timedelta] (dtrange.py:339); [UOther] is any other
      string, for which the constructor raises TypeError. *)
  Inductive stepunit : Set :=
  | Uweeks | Udays | Uhours | Uminutes | Useconds | Umilliseconds | Umicroseconds | UOther.

  Definition unit_us (u : stepunit) : option Z :=
    match u with
    | Uweeks => Some (7 * DAY)
    | Udays => Some DAY
    | Uhours => Some 3600000000
    | Uminutes => Some 60000000
    | Useconds => Some 1000000
    | Umilliseconds => Some 1000
    | Umicroseconds => Some 1
    | UOther => None
    end.

  (** dtrange.py:346-357, the part of [dtrange] after the arguments have been
      parsed and the step has been converted. *)
  Definition dtrange_core (start stop : dt) (step_td : Z) : res dtr :=
    lr <- (if dtkind_eqb (dk start) KTime && dt_eqb start stop then
             let start_ref := REF * DAY + dv start in
             stop_ref <- dtm_check (start_ref + DAY) ;;
             value_to_index (Dt KDateTime stop_ref) (Dt KDateTime start_ref) step_td
           else value_to_index stop start step_td) ;;
    let '(length, rem) := lr in
    dtr_new start (length + (if rem =? 0 then 0 else 1)) step_td.

  (** dtrange.py:291-357 [dtrange], for an integer [step] (for others see DtStep.v). *)
  Definition dtrange (start stop : userdate str) (step : Z) (step_unit : option stepunit)
    : res dtr :=
    start_obj <- parse_user_date start ;;
    stop_obj <- parse_user_date stop ;;
    if negb (dtkind_eqb (dk start_obj) (dk stop_obj)) then Raise ValueError
    else
      let u := match step_unit with
               | Some u => u
               | None => match dk start_obj with KDate => Udays | _ => Useconds end
               end in
      match unit_us u with
      | None => Raise ValueError
      | Some us => step_td <- td_check (step * us) ;; dtrange_core start_obj stop_obj step_td
      end.
End Parse.
