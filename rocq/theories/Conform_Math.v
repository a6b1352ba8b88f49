(** * The model of mathtools.py against the values /repo/tests/test_mathtools.py
    expects.  These are checks of the model, not theorems about the code: the
    tests' arguments and seeds go through the model, on CPython's generator, and
    the result must be the value the test was written with.  Generated from the
    text of the tests.  The equations are dropped again once the computation has
    confirmed them (Abort): they need Coq's virtual machine, which the separate
    checker coqchk does not have, and nothing depends on them. *)
From Coq Require Import String.
From Verif Require Import Base Prims MathModel QcNum Mersenne.
From Coq Require Import QArith Qcanon.
Open Scope list_scope.
Open Scope Z_scope.

Definition zrange (a b : Z) : list Z := map (fun i => a + Z.of_nat i) (seq 0 (Z.to_nat (b - a))).
Definition ws (l : list Z) : list Qc := map (fun w => Q2Qc (inject_Z w)) l.

(** [[f(rng) for _ in range(n)]] on one generator *)
Fixpoint times {S A} (n : nat) (m : M S A) : M S (list A) :=
  match n with O => ret [] | S n => a <~ m ;; l <~ times n m ;; ret (a :: l) end.
Definition on_seed {A} (s : Z) (m : M mt A) : res A := fst (m (seeded s)).
Definition shuffled {A} (s : Z) (items : list A) (w : list Z) (k : option Z) (n : nat) : res (list (list A)) :=
  on_seed s (times n (weighted_shuffle MP 1000 items (ws w) k)).

(** tests/test_mathtools.py:59-70 test_clamp *)
Definition clamp_cases : list (Z * option Z * option Z * Z) :=
  [(35, Some 50, Some 100, 50);
   (35, Some 1, Some 100, 35);
   (35, Some 1, Some 20, 20);
   (35, None, Some 20, 20);
   (35, Some 20, None, 35);
   (35, Some 50, None, 50);
   (35, None, None, 35)].
Example test_clamp :
  Forall (fun '(number, mn, mx, expected) => clamp Z.ltb number mn mx = expected) clamp_cases.
Proof. repeat (apply Forall_cons; [reflexivity|]). apply Forall_nil. Qed.

(** tests/test_mathtools.py:71 test_weighted_shuffle, case 1 *)
Example test_weighted_shuffle_1 :
  shuffled 999 (zrange 0 6) [10; 5; 5; 5; 5; 1] None 10
  = Ok [[0; 2; 3; 4; 1; 5]; [5; 0; 3; 2; 1; 4]; [3; 2; 5; 0; 1; 4]; [0; 2; 1; 3; 4; 5]; [0; 3; 5; 1;
    2; 4]; [1; 4; 0; 3; 2; 5]; [0; 2; 1; 5; 3; 4]; [1; 3; 0; 5; 2; 4]; [2; 0; 3; 4; 1; 5]; [0; 2; 3;
    4; 1; 5]].
Proof. vm_compute. reflexivity. Abort.

(** tests/test_mathtools.py:76 test_weighted_shuffle, case 2 *)
Example test_weighted_shuffle_2 :
  shuffled 999 (zrange 0 100) (repeat 20 25 ++ repeat 10 25 ++ repeat 5 25 ++ repeat 1 25) (Some 6)
    10
  = Ok [[45; 3; 57; 26; 22; 5]; [46; 14; 52; 4; 94; 8]; [11; 26; 38; 58; 86; 9]; [31; 3; 1; 9; 74;
    22]; [8; 35; 7; 59; 24; 66]; [20; 37; 42; 5; 33; 44]; [10; 5; 51; 46; 12; 23]; [1; 44; 20; 4;
    64; 24]; [7; 10; 46; 9; 23; 12]; [11; 28; 54; 60; 95; 1]].
Proof. vm_compute. reflexivity. Abort.

(** tests/test_mathtools.py:81 test_weighted_shuffle, case 3 *)
Example test_weighted_shuffle_3 :
  shuffled 999 (zrange 0 2) [75; 25] (Some 1) 50
  = Ok [[0]; [0]; [0]; [0]; [0]; [1]; [0]; [0]; [1]; [0]; [0]; [0]; [0]; [1]; [1]; [1]; [0]; [0];
    [0]; [0]; [1]; [1]; [0]; [1]; [0]; [0]; [0]; [0]; [0]; [0]; [0]; [0]; [0]; [1]; [0]; [0]; [0];
    [1]; [1]; [0]; [0]; [1]; [1]; [1]; [0]; [1]; [0]; [0]; [0]; [1]].
Proof. vm_compute. reflexivity. Abort.

(** tests/test_mathtools.py:86 test_weighted_shuffle, case 4 *)
Example test_weighted_shuffle_4 :
  shuffled 999 (zrange 0 10) [71; 21; 1; 1; 1; 1; 1; 1; 1; 1] (Some 2) 50
  = Ok [[1; 0]; [1; 0]; [0; 4]; [0; 1]; [1; 0]; [9; 0]; [0; 1]; [0; 1]; [8; 0]; [0; 1]; [0; 6]; [0;
    1]; [0; 1]; [0; 2]; [0; 2]; [0; 1]; [1; 0]; [0; 1]; [0; 1]; [0; 1]; [1; 0]; [0; 1]; [0; 1]; [1;
    0]; [0; 1]; [0; 1]; [1; 9]; [0; 3]; [0; 1]; [8; 0]; [0; 3]; [0; 7]; [0; 3]; [2; 0]; [0; 4]; [0;
    1]; [1; 0]; [0; 9]; [0; 1]; [0; 9]; [1; 0]; [6; 0]; [0; 1]; [1; 0]; [0; 1]; [0; 1]; [0; 1]; [1;
    2]; [1; 0]; [1; 0]].
Proof. vm_compute. reflexivity. Abort.

(** tests/test_mathtools.py:93 test_weighted_shuffle, case 5 *)
Example test_weighted_shuffle_5 :
  shuffled 999 (["heads"%string; "tails"%string]) [25; 75] (Some 1) 10
  = Ok [["heads"%string]; ["heads"%string]; ["tails"%string]; ["heads"%string]; ["tails"%string];
    ["tails"%string]; ["tails"%string]; ["tails"%string]; ["tails"%string]; ["heads"%string]].
Proof. vm_compute. reflexivity. Abort.

(** tests/test_mathtools.py test_weighted_shuffle_raises_error_mismatched_weights *)
Example test_mismatched_1 :
  on_seed 1 (weighted_shuffle MP 1000 (zrange 0 3) (ws []) None) = Raise ValueError.
Proof. vm_compute. reflexivity. Abort.
Example test_mismatched_2 :
  on_seed 1 (weighted_shuffle MP 1000 (zrange 0 3) (ws [10; 5]) None) = Raise ValueError.
Proof. vm_compute. reflexivity. Abort.
Example test_mismatched_3 :
  on_seed 1 (weighted_shuffle MP 1000 (zrange 0 3) (ws [10; 5; 5; 5]) None) = Raise ValueError.
Proof. vm_compute. reflexivity. Abort.
