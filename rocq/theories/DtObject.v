(** * DateOrTimeRange as a Python object with attributes that may or may not be
    set, /repo/src/fauxdoc/dtrange.py:54-265: its setters, its two lazily set
    attributes ([_stop], [_str_repr]), and histories of uses of one object. *)
From Verif Require Import Base PyRange DtModel.
Open Scope Z_scope.

(** What a program may pass or assign: an int (or bool); an object [int()]
    converts but that cannot serve as an index (['3'], [3.7]); an object for
    which [int()] raises ValueError (['x']); a date, time or datetime; a
    timedelta; anything else ([int()] raises TypeError for these three). *)
Inductive value : Set :=
| VInt (z : Z) | VCast (z : Z) | VNoCast | VDt (d : dt) | VTd (us : Z) | VOther.

(** The instance dictionary: [_length], [_start], [_step], [_index_range],
    [_stop], [_str_repr].  [None] is an attribute that is not set.  The text of
    [_str_repr] is represented by the values it is made of: start, number of
    days shown, stop, step. *)
Record repr_text : Set := ReprText { t_start : dt; t_days : option Z; t_stop : dt; t_step : Z }.
Record robj : Set := RObj {
  o_length : option Z; o_start : option dt; o_step : option Z; o_range : option Z;
  o_stop : option dt; o_repr : option repr_text }.

Definition blank_robj : robj := RObj None None None None None None.

(** Reading an attribute of the instance dictionary. *)
Definition attr {A} (x : option A) : res A :=
  match x with Some a => Ok a | None => Raise AttributeError end.

(** A method: outcome and the object afterwards. *)
Definition meth (A : Type) : Type := robj -> res A * robj.

(** dtrange.py:158-168 [length.setter] *)
Definition set_length (v : value) : meth unit := fun o =>
  match o_length o with
  | Some _ => (Raise AttributeError, o)
  | None =>
      match v with
      | VInt z | VCast z => (Ok tt, RObj (Some z) (o_start o) (o_step o) (o_range o) (o_stop o) (o_repr o))
      | VNoCast => (Raise ValueError, o)
      | VDt _ | VTd _ | VOther => (Raise TypeError, o)
      end
  end.

(** dtrange.py:104-114 [start.setter] *)
Definition set_start (v : value) : meth unit := fun o =>
  match o_start o with
  | Some _ => (Raise AttributeError, o)
  | None =>
      match v with
      | VDt d => (Ok tt, RObj (o_length o) (Some d) (o_step o) (o_range o) (o_stop o) (o_repr o))
      | _ => (Raise ValueError, o)
      end
  end.

(** dtrange.py:128-151 [step.setter] *)
Definition set_step (v : value) : meth unit := fun o =>
  match o_step o with
  | Some _ => (Raise AttributeError, o)
  | None =>
      match v with
      | VTd us =>
          match attr (o_start o) with
          | Ok s =>
              if step_ok s us
              then (Ok tt, RObj (o_length o) (o_start o) (Some us) (o_range o) (o_stop o) (o_repr o))
              else (Raise ValueError, o)
          | Raise e => (Raise e, o)
          | Diverge => (Diverge, o)
          end
      | _ => (Raise ValueError, o)
      end
  end.

(** dtrange.py:116-117: [stop] has no setter. *)
Definition set_stop (v : value) : meth unit := fun o => (Raise AttributeError, o).

Definition then_ {A B} (m : meth A) (k : meth B) : meth B := fun o =>
  match m o with
  | (Ok _, o) => k o
  | (Raise e, o) => (Raise e, o)
  | (Diverge, o) => (Diverge, o)
  end.

(** dtrange.py:97 [self._index_range = range(0, length)]: the argument itself,
    not the converted one. *)
Definition set_range (v : value) : meth unit := fun o =>
  match v with
  | VInt z => (Ok tt, RObj (o_length o) (o_start o) (o_step o) (Some z) (o_stop o) (o_repr o))
  | _ => (Raise TypeError, o)
  end.

(** dtrange.py:86-97 [__init__] and object creation: the object is only
    available to the program if no exception is raised. *)
Definition new_range (start length step : value) : res robj :=
  match then_ (set_length length) (then_ (set_start start) (then_ (set_step step) (set_range length))) blank_robj with
  | (Ok _, o) => Ok o
  | (Raise e, _) => Raise e
  | (Diverge, _) => Diverge
  end.

(** dtrange.py:191-193 as seen through [len()] *)
Definition o_len (o : robj) : res Z := n <- attr (o_length o) ;; ssize_check n.

(** dtrange.py:116-121 [stop] *)
Definition get_stop : meth dt := fun o =>
  match o_stop o with
  | Some d => (Ok d, o)
  | None =>
      match (n <- o_len o ;; s <- attr (o_start o) ;; st <- attr (o_step o) ;; index_to_value n s st) with
      | Ok d => (Ok d, RObj (o_length o) (o_start o) (o_step o) (o_range o) (Some d) (o_repr o))
      | Raise e => (Raise e, o)
      | Diverge => (Diverge, o)
      end
  end.

(** dtrange.py:195-206 [__repr__]; [timedelta.days] is the floor. *)
Definition get_repr : meth repr_text := fun o =>
  match o_repr o with
  | Some t => (Ok t, o)
  | None =>
      match get_stop o with
      | (Ok p, o) =>
          match (s <- attr (o_start o) ;;
                 st <- attr (o_step o) ;;
                 days <- (match dk s with
                          | KTime =>
                              n <- o_len o ;;
                              td <- td_check (st * n) ;;
                              Ok (if 0 <? td / DAY then Some (td / DAY) else None)
                          | _ => Ok None
                          end) ;;
                 Ok (ReprText s days p st)) with
          | Ok t => (Ok t, RObj (o_length o) (o_start o) (o_step o) (o_range o) (o_stop o) (Some t))
          | Raise e => (Raise e, o)
          | Diverge => (Diverge, o)
          end
      | (Raise e, o) => (Raise e, o)
      | (Diverge, o) => (Diverge, o)
      end
  end.

Definition o_index_range (o : robj) : res pyrange := n <- attr (o_range o) ;; Ok (mkRange 0 n 1).

(** dtrange.py:178-189 [__getitem__].  The new range of a slice is given by what it contains;
    that it is an object of its own is the subject of [new_range]. *)
Definition o_get (o : robj) (i : Z) : res dt :=
  rg <- o_index_range o ;;
  n <- rg_get rg i ;;
  s <- attr (o_start o) ;; st <- attr (o_step o) ;;
  index_to_value n s st.
Definition o_slice (o : robj) (sl : pyslice) : res robj :=
  rg <- o_index_range o ;;
  slc <- rg_slice rg sl ;;
  s <- attr (o_start o) ;; st <- attr (o_step o) ;;
  start <- index_to_value (rg_start slc) s st ;;
  n <- ssize_check (rg_len slc) ;;
  step <- td_check (st * rg_step slc) ;;
  new_range (VDt start) (VInt n) (VTd step).

(** [list(r)] and [list(reversed(r))]: [collections.abc.Sequence.__iter__]
    asks for [r[0], r[1], ...], [__reversed__] for [r[i]] with [i] in
    [reversed(range(len(r)))]. *)
Definition o_list (o : robj) : res (list dt) :=
  n <- o_len o ;; mapM (fun k => o_get o (Z.of_nat k)) (seq 0 (Z.to_nat n)).
Definition o_reversed (o : robj) : res (list dt) :=
  n <- o_len o ;; mapM (fun k => o_get o (Z.of_nat k)) (rev (seq 0 (Z.to_nat n))).

(** dtrange.py:208-220 [__eq__] against another range object *)
Definition o_eq (o p : robj) : res bool :=
  my_len <- o_len o ;;
  other_len <- o_len p ;;
  if negb (my_len =? other_len) then Ok false
  else if my_len =? 0 then Ok true
  else
    s <- attr (o_start o) ;; s' <- attr (o_start p) ;;
    if my_len =? 1 then Ok (dt_eqb s s')
    else st <- attr (o_step o) ;; st' <- attr (o_step p) ;; Ok (dt_eqb s s' && (st =? st')).

(** dtrange.py:222-227 [__hash__]: the tuple that is hashed *)
Definition o_hash_key (o : robj) : res (Z * option dt * option Z) :=
  n <- o_len o ;;
  s <- (if 0 <? n then rmap Some (attr (o_start o)) else Ok None) ;;
  st <- (if 1 <? n then rmap Some (attr (o_step o)) else Ok None) ;;
  Ok (n, s, st).

(** dtrange.py:229-246 [index] *)
Definition o_index (o : robj) (v : pyobj) (start stop : option Z) : res Z :=
  s <- attr (o_start o) ;;
  if isinstance_of v s then
    match v with
    | ODt d =>
        st <- attr (o_step o) ;;
        ir <- value_to_index d s st ;;
        let '(index, rem) := ir in
        if rem =? 0 then
          rg <- o_index_range o ;;
          sub <- rg_slice rg (mkSlice start stop None) ;;
          if rg_contains sub index then Ok index else Raise ValueError
        else Raise ValueError
    | OOther _ => Raise ValueError
    end
  else Raise ValueError.

(** dtrange.py:248-257 [__contains__] *)
Definition o_contains (o : robj) (v : pyobj) : res bool :=
  s <- attr (o_start o) ;;
  if isinstance_of v s then
    match o_index o v None None with
    | Ok _ => Ok true
    | Raise ValueError => Ok false
    | Raise e => Raise e
    | Diverge => Diverge
    end
  else Ok false.

(** dtrange.py:259-265 [count] *)
Definition o_count (o : robj) (v : pyobj) : res Z :=
  b <- o_contains o v ;; Ok (if b then 1 else 0).

(** ** Uses of a range object *)

(** What a program can do with a range through its public interface. *)
Inductive use : Set :=
| AskStart | AskStep | AskLength | AskStop | AskLen | AskRepr
| AskItem (i : Z) | AskSlice (sl : pyslice) | AskList | AskReversed
| AskEqual (other : robj) | AskHash
| AskIndex (v : pyobj) (a b : option Z) | AskIn (v : pyobj) | AskCount (v : pyobj)
| AssignStart (v : value) | AssignStep (v : value) | AssignLength (v : value) | AssignStop (v : value).

(** What a program can see. *)
Inductive seen : Set :=
| SDt (d : dt) | STd (us : Z) | SInt (z : Z) | SBool (b : bool) | SText (t : repr_text)
| SList (l : list dt) | SKey (k : Z * option dt * option Z) | SRange (o : robj) | SNothing.

Definition pure {A} (f : A -> seen) (r : robj -> res A) : meth seen := fun o => (rmap f (r o), o).
Definition run {A} (f : A -> seen) (m : meth A) : meth seen := fun o =>
  let (r, o) := m o in (rmap f r, o).

Definition do_use (u : use) : meth seen :=
  match u with
  | AskStart => pure SDt (fun o => attr (o_start o))
  | AskStep => pure STd (fun o => attr (o_step o))
  | AskLength => pure SInt (fun o => attr (o_length o))
  | AskStop => run SDt get_stop
  | AskLen => pure SInt o_len
  | AskRepr => run SText get_repr
  | AskItem i => pure SDt (fun o => o_get o i)
  | AskSlice sl => pure SRange (fun o => o_slice o sl)
  | AskList => pure SList o_list
  | AskReversed => pure SList o_reversed
  | AskEqual p => pure SBool (fun o => o_eq o p)
  | AskHash => pure SKey o_hash_key
  | AskIndex v a b => pure SInt (fun o => o_index o v a b)
  | AskIn v => pure SBool (fun o => o_contains o v)
  | AskCount v => pure SInt (fun o => o_count o v)
  | AssignStart v => run (fun _ => SNothing) (set_start v)
  | AssignStep v => run (fun _ => SNothing) (set_step v)
  | AssignLength v => run (fun _ => SNothing) (set_length v)
  | AssignStop v => run (fun _ => SNothing) (set_stop v)
  end.

(** A history of uses: what the program sees, one outcome for each use. *)
Fixpoint history (us : list use) (o : robj) : list (res seen) :=
  match us with
  | [] => []
  | u :: us => let (r, o) := do_use u o in r :: history us o
  end.
