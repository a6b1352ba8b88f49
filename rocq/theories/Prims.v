(** * Prims: what fauxdoc uses from outside, as one record of operations.

    Not a model of a file of /repo: the arithmetic of Python numbers used as
    weights, and [random.Random].  The record contains no laws, so everything
    proved without further hypotheses holds whatever these operations do, IEEE
    rounding included.  Theorems that need laws state them ([rng_ok] here, [wlaws] in NumLaws.v). *)
From Verif Require Import Base.

Record prims : Type := mkPrims {
  pW : Type;     (* numbers used as weights *)
  pU : Type;     (* results of Random.random() *)
  pK : Type;     (* sort keys log(u)/w *)
  pR : Type;     (* states of a random.Random object *)
  pSeed : Type;  (* seeds other than None *)

  w_zero : pW;                     (* 0 and 0.0 *)
  w_one : pW;                      (* 1 and 1.0 *)
  w_add : pW -> pW -> pW;
  w_sub : pW -> pW -> pW;
  w_true : pW -> bool;             (* bool(w) *)
  w_lt : pW -> pW -> bool;         (* a < b *)
  w_total_ok : pW -> bool;         (* random.choices: not (total <= 0.0), and isfinite(total) *)
  w_scale : pU -> pW -> pW;        (* random.choices: random() * (total + 0.0) *)
  u_floor : pU -> nat -> nat;      (* random.choices: floor(random() * n) *)
  k_score : pU -> pW -> res pK;    (* math.log(u) / w *)
  k_lt : pK -> pK -> bool;         (* a < b on sort keys *)

  r_seeded : pSeed -> pR;          (* Random(s) and rng.seed(s), s not None *)
  r_fresh : nat -> pR;             (* Random(None): n-th use of the operating system's entropy *)
  r_random : pR -> pU * pR;
  r_below : nat -> pR -> nat * pR;             (* rng.choice(seq): the index chosen, given len(seq) *)
  r_sample : nat -> nat -> pR -> list nat * pR (* rng.sample(seq, k), 0 <= k <= len(seq): positions *)
}.

(** The documented contracts of [random.Random], and the falsehood of zero. *)
Record rng_ok (P : prims) : Prop := mkRngOk {
  below_ok : forall n r, (0 < n)%nat -> (fst (r_below P n r) < n)%nat;
  floor_ok : forall n r, (0 < n)%nat -> (u_floor P (fst (r_random P r)) n < n)%nat;
  sample_ok : forall n k r, (k <= n)%nat ->
    let l := fst (r_sample P n k r) in
    length l = k /\ NoDup l /\ (forall i, In i l -> (i < n)%nat);
  zero_false : w_true P (w_zero P) = false
}.

(** Computations that read and write a state and may raise; the state after an
    exception is kept. *)
Definition M (S A : Type) : Type := S -> res A * S.
Definition ret {S A} (a : A) : M S A := fun s => (Ok a, s).
Definition raise {S A} (e : exc) : M S A := fun s => (Raise e, s).
Definition diverge {S A} : M S A := fun s => (Diverge, s).
Definition lift {S A} (r : res A) : M S A := fun s => (r, s).
Definition mbind {S A B} (m : M S A) (f : A -> M S B) : M S B := fun s =>
  match m s with
  | (Ok a, s') => f a s'
  | (Raise e, s') => (Raise e, s')
  | (Diverge, s') => (Diverge, s')
  end.
Notation "x <~ m ;; k" := (mbind m (fun x => k))
  (at level 61, m at next level, right associativity) : res_scope.
Notation "m ;;; k" := (mbind m (fun _ => k)) (at level 61, right associativity) : res_scope.

Fixpoint mapS {S A B} (f : A -> M S B) (l : list A) : M S (list B) :=
  match l with
  | [] => ret []
  | a :: t => b <~ f a ;; bs <~ mapS f t ;; ret (b :: bs)
  end.
