(** * The outside operations of Prims.v with real numbers.

    Weights, random numbers and scores are real numbers, without rounding.  The
    generator is the list of the random numbers that it will give (0 at its end);
    the seed of a generator is that list.
    Not a model of a file of /repo; the functions of MathModel.v
    (/repo/src/fauxdoc/mathtools.py:73-155) are used with these operations to speak
    of probabilities. *)
From Coq Require Import Reals List.
From Verif Require Import Base Prims.
Open Scope R_scope.

(** [a < b] *)
Definition Rltb (a b : R) : bool := if Rlt_dec a b then true else false.
(** [math.log(u) / w] (mathtools.py:132) *)
Definition r_score (u w : R) : res R :=
  if Rlt_dec 0 u then if Req_EM_T w 0 then Raise ZeroDivisionError else Ok (ln u / w) else Raise ValueError.
(** [rng.random()] *)
Definition next_draw (r : list R) : R * list R := match r with [] => (0, []) | u :: t => (u, t) end.

(** [floor(rng.random() * n)] *)
Definition floor_of (u : R) (n : nat) : nat := Z.to_nat (Int_part (u * INR n)).
(** Lib/random.py, [sample], the branch with a pool: [pool] holds the places not yet
    drawn; the last one moves to the place that is drawn.  (Simplifications: for
    long lists CPython draws from all places and repeats when a place was drawn
    already; its [_randbelow(n)], also used by [choice], takes bits and repeats
    when the number is not below n, where this model takes [floor(random() * n)].
    See Mersenne.v for these functions as they are.) *)
Fixpoint draw_from (k : nat) (pool : list nat) (r : list R) : list nat * list R :=
  match k with
  | O => ([], r)
  | S k =>
      let (u, r) := next_draw r in
      let j := floor_of u (length pool) in
      let (l, r) := draw_from k (removelast (upd j (last pool 0%nat) pool)) r in
      (nth j pool 0%nat :: l, r)
  end.

Definition RP : prims := {|
  pW := R; pU := R; pK := R; pR := list R; pSeed := list R;
  w_zero := 0; w_one := 1; w_add := Rplus; w_sub := Rminus;
  w_true := fun w => if Req_EM_T w 0 then false else true;
  w_lt := Rltb;
  w_total_ok := Rltb 0;
  w_scale := Rmult;
  u_floor := floor_of;
  k_score := r_score;
  k_lt := Rltb;
  r_seeded := fun us => us;
  r_fresh := fun _ => [];
  r_random := next_draw;
  r_below := fun n r => let (u, r) := next_draw r in (floor_of u n, r);
  r_sample := fun n k r => draw_from k (seq 0 n) r
|}.
