(** * Specification vocabulary for date/time ranges, independent of the
    arithmetic used by the model. *)
From Verif Require Import Base PyRange DtModel.

(** Position of a value on the time line, in microseconds (a date stands for
    its midnight, a time for its distance from midnight). *)
Definition us_of (d : dt) : Z :=
  match dk d with KDate => dv d * DAY | _ => dv d end.

Definition on_line (d : dt) : Prop := dk d = KDate \/ dk d = KDateTime.

(** A step that makes sense for the kind of the start value. *)
Definition step_fits (start : dt) (step : Z) : Prop :=
  match dk start with
  | KDate => step mod DAY = 0
  | KTime => Z.abs step < DAY
  | KDateTime => True
  end.

(** Keep the elements of [l] whose position satisfies [p]. *)
Fixpoint select_from {A} (p : Z -> bool) (x : Z) (l : list A) : list A :=
  match l with
  | [] => []
  | a :: t => if p x then a :: select_from p (x + 1) t else select_from p (x + 1) t
  end.
Definition select {A} (p : Z -> bool) (l : list A) : list A := select_from p 0 l.

(** The Python language reference's description of [l[a:b:k]]: negative bounds
    count from the end, bounds are clipped to the sequence, omitted bounds
    mean "all the way", and the elements taken are those at positions
    i, i+k, i+2k, ... that lie before j. *)
Definition clip (lo hi x : Z) : Z := Z.max lo (Z.min hi x).
Definition from_end (n x : Z) : Z := if x <? 0 then x + n else x.

Definition sliced {A} (l : list A) (a b : option Z) (k : Z) : list A :=
  let n := zlen l in
  if 0 <? k then
    let i := match a with None => 0 | Some a => clip 0 n (from_end n a) end in
    let j := match b with None => n | Some b => clip 0 n (from_end n b) end in
    select (fun x => (i <=? x) && (x <? j) && ((x - i) mod k =? 0)) l
  else
    let i := match a with None => n - 1 | Some a => clip (-1) (n - 1) (from_end n a) end in
    let j := match b with None => -1 | Some b => clip (-1) (n - 1) (from_end n b) end in
    rev (select (fun x => (j <? x) && (x <=? i) && ((i - x) mod (- k) =? 0)) l).

(** Examples of the specification (checked against CPython by hand). *)
Example sliced_ex1 : sliced [0;1;2;3;4;5;6;7;8;9] (Some (-100)) None 3 = [0;3;6;9].
Proof. reflexivity. Qed.
Example sliced_ex2 : sliced [0;1;2;3;4;5;6;7;8;9] (Some 20) (Some 5) (-1) = [9;8;7;6].
Proof. reflexivity. Qed.
Example sliced_ex3 : sliced [0;1;2;3;4;5;6;7;8;9] (Some (-3)) (Some 1) (-2) = [7;5;3].
Proof. reflexivity. Qed.
Example sliced_ex4 : sliced [0;1;2;3] None None (-1) = [3;2;1;0].
Proof. reflexivity. Qed.

(** Distance that has to be covered on the clock to get from [start] to [stop]
    going in the direction of [step]. *)
Definition clock_distance (start stop step : Z) : Z :=
  if 0 <? step then (stop - start) mod DAY else (start - stop) mod DAY.

(** The positions of a list. *)
Definition positions {A} (l : list A) : list Z := map Z.of_nat (seq 0 (length l)).

(** The unit that applies: the one given, else days for dates and seconds
    otherwise (documentation of [dtrange]). *)
Definition chosen_unit (k : dtkind) (u : option stepunit) : stepunit :=
  match u with
  | Some u => u
  | None => match k with KDate => Udays | KTime => Useconds | KDateTime => Useconds end
  end.

(** How long one unit of a step is, in microseconds. *)
Definition unit_length (u : stepunit) : option Z :=
  let millisecond := 1000 in
  let second := 1000 * millisecond in
  let minute := 60 * second in
  let hour := 60 * minute in
  let day := 24 * hour in
  match u with
  | Uweeks => Some (7 * day)
  | Udays => Some day
  | Uhours => Some hour
  | Uminutes => Some minute
  | Useconds => Some second
  | Umilliseconds => Some millisecond
  | Umicroseconds => Some 1
  | UOther => None
  end.

(** What an argument of [dtrange] stands for: an object of the datetime module
    stands for itself, a string for the date it spells, or else for the time it
    spells, or else for the datetime it spells. *)
Inductive means {str : Type} (isod isot isodt : str -> option Z) : userdate str -> dt -> Prop :=
| means_itself d : means isod isot isodt (UDt d) d
| means_date s z : isod s = Some z -> means isod isot isodt (UStr s) (Dt KDate z)
| means_time s z : isod s = None -> isot s = Some z -> means isod isot isodt (UStr s) (Dt KTime z)
| means_datetime s z : isod s = None -> isot s = None -> isodt s = Some z ->
    means isod isot isodt (UStr s) (Dt KDateTime z).
