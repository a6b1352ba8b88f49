(** * A concrete random generator for the examples beside the theorems. *)
From Verif Require Import Base Prims QcNum.
From Coq Require Import QArith Qcanon.
Open Scope Z_scope.

(** random() cycles through 1/7, 4/7, 0, 3/7, 6/7, 2/7, 5/7. *)
Definition demo : qgen := {|
  g_state := nat; g_seed := nat;
  g_seeded := fun s => s;
  g_fresh := fun n => n;
  g_random := fun n => (Q2Qc (Z.of_nat ((3 * n + 1) mod 7) # 7), S n);
  g_below := fun n r => (r mod n, S r)%nat;
  g_sample := fun n k r => (seq 0 k, S r)
|}.

Lemma demo_ok : qgen_ok demo.
Proof.
  constructor.
  - intros r. cbn [demo g_random fst].
    pose proof (Nat.mod_upper_bound (3 * r + 1) 7 ltac:(lia)) as H.
    set (m := ((3 * r + 1) mod 7)%nat) in *. clearbody m. unfold Qcle, Qclt. cbn [Q2Qc this].
    rewrite !Qred_correct. change (this 0%Qc) with 0%Q. change (this 1%Qc) with 1%Q.
    unfold Qle, Qlt. cbn [Qnum Qden]. split; lia.
  - intros n r Hn. cbn. apply Nat.mod_upper_bound. lia.
  - intros n k r Hk. cbn. rewrite seq_length. split; auto. split; [apply seq_NoDup|].
    intros i Hi. apply in_seq in Hi. lia.
Qed.

(** [len(set(xs))] for items with decidable equality, all hashable. *)
Definition count_distinct {A} (eq_dec : forall x y : A, {x = y} + {x <> y}) (l : list A) : res Z :=
  Ok (zlen (nodup eq_dec l)).
