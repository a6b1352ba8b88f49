(** * Model of /repo/src/fauxdoc/mathtools.py (clamp, weighted_shuffle) and of
    the parts of CPython's random module that it calls. *)
From Verif Require Import Base Prims DtModel.
From Coq Require Import Floats.SpecFloat.

(** mathtools.py:45-70 [clamp], for any type with a comparison [lt] ([a > b]
    is [b < a]). *)
Definition clamp {A} (lt : A -> A -> bool) (number : A) (mn mx : option A) : A :=
  match mn with
  | Some m => if lt number m then m
              else match mx with Some x => if lt x number then x else number | None => number end
  | None => match mx with Some x => if lt x number then x else number | None => number end
  end.

(** mathtools.py:153 [number <= nitems * 0.42].  [0.42] is the double
    7566047373982433 * 2^-54; the product is rounded to a double; Python
    compares an int with a float exactly.  (Simplification: [nitems] is
    converted to a double without the OverflowError for lists longer than
    10^308.) *)
Definition sf_of_nat (n : nat) : spec_float :=
  binary_normalize prec emax (Z.of_nat n) 0 false.
Definition sf_042 : spec_float := S754_finite false 7566047373982433 (-54).
Definition Z_le_sf (z : Z) (x : spec_float) : bool :=
  match x with
  | S754_zero _ => z <=? 0
  | S754_finite s m e =>
      let m' := if s then Zneg m else Zpos m in
      if 0 <=? e then z <=? m' * 2 ^ e else z * 2 ^ (- e) <=? m'
  | S754_infinity s => negb s
  | S754_nan => false
  end.
Definition use_low_k (number : Z) (nitems : nat) : bool :=
  Z_le_sf number (SFmul prec emax (sf_of_nat nitems) sf_042).

Section Random.
  Context (P : prims).

  (** CPython Lib/bisect.py [bisect_right(a, x, lo, hi)]; [fuel] bounds the
      number of halvings and [length a] is always enough. *)
  Fixpoint bisect_right (fuel : nat) (a : list (pW P)) (x : pW P) (lo hi : nat) : nat :=
    match fuel with
    | O => lo
    | S f =>
        if (lo <? hi)%nat then
          let mid := ((lo + hi) / 2)%nat in
          if w_lt P x (nth mid a (w_zero P)) then bisect_right f a x lo mid
          else bisect_right f a x (S mid) hi
        else lo
    end.

  (** [itertools.accumulate] *)
  Fixpoint accumulate_from (acc : pW P) (l : list (pW P)) : list (pW P) :=
    match l with
    | [] => []
    | w :: t => let s := w_add P acc w in s :: accumulate_from s t
    end.
  Definition accumulate (l : list (pW P)) : list (pW P) :=
    match l with [] => [] | w :: t => w :: accumulate_from w t end.

  (** [k] calls of [rng.random()] *)
  Fixpoint draws (k : nat) (r : pR P) : list (pU P) * pR P :=
    match k with
    | O => ([], r)
    | S k => let '(u, r) := r_random P r in let '(us, r) := draws k r in (u :: us, r)
    end.

  (** CPython 3.11 Lib/random.py [Random.choices] on a population of [n]
      elements: the positions chosen.  A negative [k] gives an empty list. *)
  Definition choices_cum (n : nat) (cum : list (pW P)) (k : Z) : M (pR P) (list nat) := fun r =>
    if negb (length cum =? n)%nat then (Raise ValueError, r)
    else match rev cum with
    | [] => (Raise IndexError, r)
    | total :: _ =>
        if negb (w_total_ok P total) then (Raise ValueError, r)
        else
          let '(us, r) := draws (Z.to_nat k) r in
          (Ok (map (fun u => bisect_right (length cum) cum (w_scale P u total) 0 (n - 1)) us), r)
    end.
  Definition choices_uniform (n : nat) (k : Z) : M (pR P) (list nat) := fun r =>
    let '(us, r) := draws (Z.to_nat k) r in
    (Ok (map (fun u => u_floor P u n) us), r).

  Definition get_item {S A} (l : list A) (i : nat) : M S A :=
    match nth_error l i with Some a => ret a | None => raise IndexError end.

  Section Shuffle.
    Context {A : Type}.

    (** mathtools.py:111-118, the body of the for loop.  Positions are always in
        range here; an out-of-range one would be an IndexError. *)
    Fixpoint take_new (items : list A) (pos : list nat) (weights : list (pW P)) (sample : list A)
      : res (list (pW P) * list A) :=
      match pos with
      | [] => Ok (weights, sample)
      | i :: pos =>
          match nth_error weights i with
          | None => Raise IndexError
          | Some w =>
              if w_true P w then
                match nth_error items i with
                | None => Raise IndexError
                | Some a => take_new items pos (upd i (w_zero P) weights) (sample ++ [a])
                end
              else take_new items pos weights sample
          end
      end.

    (** mathtools.py:107-119 [_faster_for_low_k]; [fuel] is the number of rounds
        of the while loop. *)
    Fixpoint low_k_loop (fuel : nat) (items : list A) (weights : list (pW P)) (sample : list A) (k : Z)
      : M (pR P) (list A) :=
      match fuel with
      | O => diverge
      | S f =>
          let needed := k - zlen sample in
          if needed =? 0 then ret sample
          else
            pos <~ choices_cum (length items) (accumulate weights) needed ;;
            ws <~ lift (take_new items pos weights sample) ;;
            low_k_loop f items (fst ws) (snd ws) k
      end.
    Definition low_k fuel items weights k := low_k_loop fuel items weights [] k.

    (** mathtools.py:132 the scores, evaluated in order (the generator draws one
        random number per item). *)
    Fixpoint scores (weights : list (pW P)) (items : list A) : M (pR P) (list (pK P * A)) := fun r =>
      match weights, items with
      | w :: ws, a :: t =>
          let '(u, r) := r_random P r in
          (s <~ lift (k_score P u w) ;;
           rest <~ scores ws t ;;
           ret ((s, a) :: rest)) r
      | _, _ => (Ok [], r)
      end.

    (** mathtools.py:139 [sorted(scores, reverse=True, key=...)]: a stable sort by
        decreasing key (Python keeps the order of equal elements with
        reverse=True too). *)
    Fixpoint insert_desc (x : pK P * A) (l : list (pK P * A)) : list (pK P * A) :=
      match l with
      | [] => [x]
      | y :: t => if k_lt P (fst x) (fst y) then y :: insert_desc x t else x :: l
      end.
    Definition sort_desc (l : list (pK P * A)) : list (pK P * A) := fold_right insert_desc [] l.

    (** mathtools.py:121-140 [_faster_for_high_k] *)
    Definition high_k (items : list A) (weights : list (pW P)) (k : Z) : M (pR P) (list A) :=
      sc <~ scores weights items ;;
      ret (map snd (list_slice (sort_desc sc) 0 k)).

    (** mathtools.py:142-155 [weighted_shuffle] *)
    Definition weighted_shuffle (fuel : nat) (items : list A) (weights : list (pW P)) (number : option Z)
      : M (pR P) (list A) :=
      let nitems := length items in
      let number := match number with None => Z.of_nat nitems | Some k => k end in
      if negb (nitems =? length weights)%nat then raise ValueError
      else if use_low_k number nitems then low_k fuel items weights number
      else high_k items weights number.
  End Shuffle.
End Random.
