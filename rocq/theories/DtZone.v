(** * Model of /repo/src/fauxdoc/dtrange.py for values with a time zone.

    DtModel.v has the functions for naive values; here are those whose behaviour
    depends on [tzinfo].  A value is a naive one with, possibly, a tzinfo object
    (named by a number: [a.tzinfo is b.tzinfo] is equality of the numbers) and a
    [fold].  What the datetime module does with them is transcribed from its
    documentation and Modules/_datetimemodule.c.  Simplifications: offsets are
    whole seconds, [utcoffset] raises no exceptions and always gives the same
    answer for the same question. *)
From Verif Require Import Base PyRange DtModel.

(** A tzinfo object: [utcoffset(None)], which times use, and [utcoffset(dt)] for
    the datetime with the given microseconds (as in DtModel.v) and fold. *)
Record zone : Type := mkZone { off_none : option Z; off_at : Z -> bool -> option Z }.
(** A date (without zone), time or datetime *)
Record zdt : Type := mkZ { zd : dt; zz : option nat; zfold : bool }.

Section Zones.
  Context (tz : nat -> zone).

  (** [self.utcoffset()] *)
  Definition utcoffset (d : zdt) : option Z :=
    match zz d with
    | None => None
    | Some z =>
        match dk (zd d) with
        | KTime => off_none (tz z)
        | KDateTime => off_at (tz z) (dv (zd d)) (zfold d)
        | KDate => None
        end
    end.
  (** [a.tzinfo is b.tzinfo] *)
  Definition same_tzinfo (a b : zdt) : bool :=
    match zz a, zz b with
    | None, None => true
    | Some x, Some y => Nat.eqb x y
    | _, _ => false
    end.

  (** The two numbers that are compared or subtracted: the values as they stand if
      the tzinfo is the same or neither has an offset, the values in UTC if both
      have; [None] if only one has. *)
  Definition common (a b : zdt) : option (Z * Z) :=
    if same_tzinfo a b then Some (dv (zd a), dv (zd b))
    else match utcoffset a, utcoffset b with
         | None, None => Some (dv (zd a), dv (zd b))
         | Some x, Some y => Some (dv (zd a) - x, dv (zd b) - y)
         | _, _ => None
         end.

  (** [a - b] for datetimes *)
  Definition zsub (a b : zdt) : res Z :=
    match common a b with Some (x, y) => Ok (x - y) | None => Raise TypeError end.
  (** [a < b] for times *)
  Definition zlt (a b : zdt) : res bool :=
    match common a b with Some (x, y) => Ok (x <? y) | None => Raise TypeError end.

  (** PEP 495: a datetime whose offset depends on its fold is not equal to any
      datetime with another tzinfo. *)
  Definition fold_matters (d : zdt) : bool :=
    match dk (zd d), zz d with
    | KDateTime, Some z =>
        match off_at (tz z) (dv (zd d)) false, off_at (tz z) (dv (zd d)) true with
        | Some x, Some y => negb (x =? y)
        | None, None => false
        | _, _ => true
        end
    | _, _ => false
    end.
  (** [a == b] *)
  Definition zeq (a b : zdt) : bool :=
    dtkind_eqb (dk (zd a)) (dk (zd b)) &&
    match common a b with
    | Some (x, y) => (x =? y) && (same_tzinfo a b || negb (fold_matters a || fold_matters b))
    | None => false
    end.

  (** [hash(a)]: what is hashed.  The fold is taken to be 0; with an offset, the
      value in UTC. *)
  Definition zhash_key (a : zdt) : dtkind * bool * Z :=
    match utcoffset (mkZ (zd a) (zz a) false) with
    | None => (dk (zd a), false, dv (zd a))
    | Some x => (dk (zd a), true, dv (zd a) - x)
    end.

  (** [datetime.combine(d, t)]: zone and fold are those of the time *)
  Definition combine (ord : Z) (t : zdt) : zdt := mkZ (Dt KDateTime (ord * DAY + dv (zd t))) (zz t) (zfold t).
  (** [dt + timedelta] for a datetime: keeps the zone, the fold becomes 0 *)
  Definition zadd (d : zdt) (delta : Z) : res zdt :=
    s <- dtm_check (dv (zd d) + delta) ;; Ok (mkZ (Dt KDateTime s) (zz d) false).

  (** dtrange.py:10-20 [_index_to_value].  Line 19: [datetime.time()] is without
      tzinfo. *)
  Definition zindex_to_value (index : Z) (start : zdt) (step : Z) : res zdt :=
    delta <- td_check (step * index) ;;
    match dk (zd start) with
    | KTime =>
        s <- zadd (combine REF start) delta ;;
        Ok (mkZ (Dt KTime (dv (zd s) mod DAY)) None (zfold s))
    | KDate => o <- ord_check (dv (zd start) + delta / DAY) ;; Ok (mkZ (Dt KDate o) None false)
    | KDateTime => zadd start delta
    end.

  (** dtrange.py:23-51 [_value_to_index] *)
  Definition zvalue_to_index (value start : zdt) (step : Z) : res (Z * Z) :=
    if negb (dtkind_eqb (dk (zd value)) (dk (zd start))) then Raise TypeError
    else
      match dk (zd start) with
      | KTime =>
          lt <- zlt value start ;;
          gt <- zlt start value ;;
          let startdate := REF + 1 in
          let valdate :=
            if lt && (0 <? step) then REF + 2
            else if gt && (step <? 0) then REF
            else startdate in
          d <- zsub (combine valdate value) (combine startdate start) ;;
          td_divmod d step
      | KDate => td_divmod ((dv (zd value) - dv (zd start)) * DAY) step
      | KDateTime => d <- zsub value start ;; td_divmod d step
      end.

  (** dtrange.py:54-265, the state of a DateOrTimeRange *)
  Record zdtr : Type := mkZr { zr_start : zdt; zr_length : Z; zr_step : Z }.
  (** dtrange.py:86-97 *)
  Definition zdtr_new (start : zdt) (length step : Z) : res zdtr :=
    if step_ok (zd start) step then Ok (mkZr start length step) else Raise ValueError.
  Definition zindex_range (r : zdtr) : pyrange := mkRange 0 (zr_length r) 1.
  (** dtrange.py:191-193 *)
  Definition zdtr_len (r : zdtr) : res Z := ssize_check (zr_length r).
  (** dtrange.py:178-189 *)
  Definition zdtr_get (r : zdtr) (i : Z) : res zdt :=
    n <- rg_get (zindex_range r) i ;;
    zindex_to_value n (zr_start r) (zr_step r).
  Definition zdtr_slice (r : zdtr) (s : pyslice) : res zdtr :=
    slc <- rg_slice (zindex_range r) s ;;
    start <- zindex_to_value (rg_start slc) (zr_start r) (zr_step r) ;;
    n <- ssize_check (rg_len slc) ;;
    step <- td_check (zr_step r * rg_step slc) ;;
    zdtr_new start n step.
  (** dtrange.py:116-121 *)
  Definition zdtr_stop (r : zdtr) : res zdt :=
    n <- zdtr_len r ;; zindex_to_value n (zr_start r) (zr_step r).

  (** dtrange.py:208-220 *)
  Definition zdtr_eq (a b : zdtr) : res bool :=
    my_len <- zdtr_len a ;;
    other_len <- zdtr_len b ;;
    if negb (my_len =? other_len) then Ok false
    else if my_len =? 0 then Ok true
    else if my_len =? 1 then Ok (zeq (zr_start a) (zr_start b))
    else Ok (zeq (zr_start a) (zr_start b) && (zr_step a =? zr_step b)).
  (** dtrange.py:222-227: the tuple that is hashed *)
  Definition zdtr_hash_key (r : zdtr) : res (Z * option (dtkind * bool * Z) * option Z) :=
    n <- zdtr_len r ;;
    Ok (n, (if 0 <? n then Some (zhash_key (zr_start r)) else None),
           (if 1 <? n then Some (zr_step r) else None)).

  (** [isinstance(value, type(start))] *)
  Definition zisinstance (v start : zdt) : bool := isinstance_of (ODt (zd v)) (zd start).
  (** dtrange.py:229-246, for a value of the datetime module *)
  Definition zdtr_index (r : zdtr) (v : zdt) (start stop : option Z) : res Z :=
    if zisinstance v (zr_start r) then
      ir <- zvalue_to_index v (zr_start r) (zr_step r) ;;
      let '(index, rem) := ir in
      if rem =? 0 then
        sub <- rg_slice (zindex_range r) (mkSlice start stop None) ;;
        if rg_contains sub index then Ok index else Raise ValueError
      else Raise ValueError
    else Raise ValueError.
  (** dtrange.py:248-257 *)
  Definition zdtr_contains (r : zdtr) (v : zdt) : res bool :=
    if zisinstance v (zr_start r) then
      match zdtr_index r v None None with
      | Ok _ => Ok true
      | Raise ValueError => Ok false
      | Raise e => Raise e
      | Diverge => Diverge
      end
    else Ok false.
  (** dtrange.py:259-265 *)
  Definition zdtr_count (r : zdtr) (v : zdt) : res Z :=
    b <- zdtr_contains r v ;; Ok (if b then 1 else 0).

  (** dtrange.py:328-357 [dtrange] for objects of the datetime module and a step
      that has been converted; strings and units are in DtModel.v. *)
  Definition zdtrange (start stop : zdt) (step_td : Z) : res zdtr :=
    if negb (dtkind_eqb (dk (zd start)) (dk (zd stop))) then Raise ValueError
    else
      lr <- (if dtkind_eqb (dk (zd start)) KTime && zeq start stop then
               let start_ref := combine REF start in
               stop_ref <- zadd start_ref DAY ;;
               zvalue_to_index stop_ref start_ref step_td
             else zvalue_to_index stop start step_td) ;;
      let '(length, rem) := lr in
      zdtr_new start (length + (if rem =? 0 then 0 else 1)) step_td.
End Zones.
