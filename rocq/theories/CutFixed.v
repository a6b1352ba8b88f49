(** * Assignments to value of a Static and to iterator_factory of an Iterative emitter that
    are cut off.

    As in [CutModel.v], an exception from outside ends the assignment between any two
    steps, and what it has written stays written. *)
From Verif Require Import Base Prims FixedModel CutSeq.
Open Scope Z_scope.

(** fixed.py:39-43, [em.value = v], cut off after [k] of the two writes (lines 42, 43) *)
Definition static_set_cut {A} (k : nat) (v : A) (s : static A) : static A :=
  match k with
  | O => s
  | S k => let s := mkStatic v (st_items s) in
           match k with O => s | S _ => mkStatic (st_value s) [v] end
  end.

(** An Iterative object is, here, one of [CutSeq.v] without items: the factory, the factory
    that the generator was made with, what is left of the current iterator, and
    reset_after_call.  Simplified: a factory gives iterators over the same list each time.
    fixed.py:111-121 [__init__] *)
Definition it_new {A} (l : list A) (rac : bool) : res (cutseq A) :=
  match l with [] => Raise ValueError | _ => Ok (mkCS [] (Some l) (Some l) [] rac) end.
(** fixed.py:152-157, [em.iterator_factory = lambda: iter(l)], cut off after [k] of the two
    writes (lines 156, 157) *)
Definition it_set_factory {A} (k : nat) (l : list A) (s : cutseq A) : res unit * cutseq A :=
  match l with
  | [] => (Raise ValueError, s)
  | _ =>
      (Ok tt,
       match k with
       | O => s
       | S k => let s := mkCS (q_items s) (Some l) (q_maker s) (q_left s) (q_rac s) in
                match k with O => s | S _ => cs_reset s end
       end)
  end.
