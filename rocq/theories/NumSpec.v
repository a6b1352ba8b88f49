(** * Specification vocabulary with numbers: sums, scores, order by score.
    Independent of the model. *)
From Coq Require Import List QArith Qcanon Qreals Reals.

(** A rational as a real number. *)
Definition QcR (q : Qc) : R := Q2R (this q).

(** Sum of a list. *)
Definition qsum (l : list Qc) : Qc := fold_right Qcplus 0%Qc l.

(** Position [i] comes before position [j] in decreasing order of
    [log(u)/w], equal scores in order of position. *)
Definition ranks_before (us ws : list Qc) (i j : nat) : Prop :=
  let score n := (ln (QcR (nth n us 0%Qc)) / QcR (nth n ws 0%Qc))%R in
  (score j < score i)%R \/ (score j = score i /\ (i < j)%nat).

(** Item [i] owns the part of the unit interval that starts at the sum of the
    weights before it, divided by the total, and has length [w_i / total]. *)
Definition owns (ws : list Qc) (i : nat) (u : Qc) : Prop :=
  (qsum (firstn i ws) / qsum ws <= u)%Qc /\ (u < qsum (firstn (S i) ws) / qsum ws)%Qc.
