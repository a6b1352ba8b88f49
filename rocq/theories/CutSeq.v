(** * Assignments to iterator_factory of a Sequential emitter that are cut off.

    As in [CutModel.v], an exception from outside ends the assignment between any two
    steps, and what it has written stays written.  [FixedModel.v] knows only one factory at
    a time; here the generator keeps the factory that it was made with (fixed.py:266, 143).
    Simplified: a factory gives iterators over the same list each time. *)
From Verif Require Import Base Prims FixedModel.
Open Scope Z_scope.

Section CutSeq.
  Context {A : Type}.

  (** A Sequential object: _items; _iterator_factory, [None] being the lambda of line 250,
      which reads self.items; the factory that the generator in _iterator was made with;
      what is left of the generator's current iterator; reset_after_call. *)
  Record cutseq : Type := mkCS {
    q_items : list A; q_factory : option (list A); q_maker : option (list A); q_left : list A; q_rac : bool
  }.
  (** fixed.py:233-251 [__init__] *)
  Definition cs_new (items : list A) (rac : bool) : res cutseq :=
    match items with [] => Raise ValueError | _ => Ok (mkCS items None None [] rac) end.
  (** fixed.py:264-266 [reset] *)
  Definition cs_reset (s : cutseq) : cutseq := mkCS (q_items s) (q_factory s) (q_factory s) [] (q_rac s).
  (** fixed.py:143-145: a call of the generator's factory *)
  Definition cs_made (s : cutseq) : list A := match q_maker s with None => q_items s | Some l => l end.
  (** fixed.py:143-145, next() on the generator *)
  Definition cs_next (s : cutseq) : res A * cutseq :=
    let put left := mkCS (q_items s) (q_factory s) (q_maker s) left (q_rac s) in
    match q_left s with
    | a :: t => (Ok a, put t)
    | [] => match cs_made s with
            | a :: t => (Ok a, put t)
            | [] => (Diverge, s)
            end
    end.
  Fixpoint cs_take (n : nat) (s : cutseq) : res (list A) * cutseq :=
    match n with
    | O => (Ok [], s)
    | S k => match cs_next s with
             | (Ok a, s) => match cs_take k s with
                            | (Ok l, s) => (Ok (a :: l), s)
                            | (r, s) => (r, s)
                            end
             | (Raise e, s) => (Raise e, s)
             | (Diverge, s) => (Diverge, s)
             end
    end.
  (** fixed.py:310-319 [emit_many] *)
  Definition cs_emit_many (n : Z) (s : cutseq) : res (list A) * cutseq :=
    if n <? 0 then (Raise ValueError, s)
    else match cs_take (Z.to_nat n) s with
         | (Ok l, s) => (Ok l, if q_rac s then cs_reset s else s)
         | (r, s) => (r, s)
         end.
  (** fixed.py:278-301, [em.iterator_factory = lambda: iter(l)], cut off after [k] of the
      three steps that write (lines 299, 300, 301; the reset writes last) *)
  Definition cs_set_factory (k : nat) (l : list A) (s : cutseq) : res unit * cutseq :=
    match l with
    | [] => (Raise ValueError, s)
    | _ =>
        (Ok tt,
         match k with
         | O => s
         | S k =>
             let s := mkCS l (q_factory s) (q_maker s) (q_left s) (q_rac s) in
             match k with
             | O => s
             | S k =>
                 let s := mkCS (q_items s) (Some l) (q_maker s) (q_left s) (q_rac s) in
                 match k with O => s | S _ => cs_reset s end
             end
         end)
    end.
End CutSeq.
Arguments cutseq : clear implicits.
