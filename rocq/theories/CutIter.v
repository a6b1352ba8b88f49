(** * Calls of Iterative and Sequential emitters that are cut off.

    As in [CutModel.v]: KeyboardInterrupt, or an exception raised by a signal handler, ends
    a call between any two steps.  A generator that an exception has left is finished for
    good: next() on it raises StopIteration. *)
From Verif Require Import Base Prims ChoiceRun FixedModel.
Open Scope Z_scope.

Section CutIter.
  Context {A : Type}.

  (** The emitter, and whether the generator in _iterator (fixed.py:166, 266) has been left
      by an exception.  A Sequential emitter is, here, an Iterative one whose factory gives
      the same items each time. *)
  Record holder : Type := mkHold { d_em : iterative A; d_over : bool }.
  Definition hold (i : iterative A) : holder := mkHold i false.
  (** fixed.py:164-166, 264-266 [reset] *)
  Definition hold_reset (h : holder) : holder := mkHold (iter_reset (d_em h)) false.

  (** Where a call is, with its local variables.  [one]: the call is of emit, not of
      emit_many. *)
  Inductive at_iter : Type :=
  | Refused                                         (* islice with a negative number *)
  | NextOf (one : bool) (k : nat) (got : list A)    (* next(generator), if values are to come *)
  | InGen (one : bool) (k : nat) (got : list A)     (* lines 143-145 *)
  | Leaving (got : list A).                         (* lines 171-173, 182-184, 306-308, 317-319 *)

  (** emitter.py:97-102 and fixed.py:168-184, 303-319 *)
  Definition cut_iter_start (q : ask) : at_iter :=
    match q with
    | Call0 | Emit => NextOf true 1 []
    | CallN n => if n =? 1 then NextOf true 1 [] else if n <? 0 then Refused else NextOf false (Z.to_nat n) []
    | EmitMany n => if n <? 0 then Refused else NextOf false (Z.to_nat n) []
    end.

  (** In the generator, a step takes an element of the current iterator and yields it, or
      calls the factory.  Simplified: the iterators are not Python code of the user, so
      that next() on them is one step (see [IterModel.v] for such code). *)
  Definition cut_iter_step (l : at_iter) (h : holder) : (at_iter + res (list A)) * holder :=
    let i := d_em h in
    match l with
    | Refused => (inr (Raise ValueError), h)
    | NextOf one O got => (inl (Leaving got), h)
    | NextOf one (S k) got =>
        if d_over h then (if one then inr (Raise StopIteration) else inl (Leaving got), h)
        else (inl (InGen one k got), h)
    | InGen one k got =>
        match match g_cur (i_gen i) with
              | Some (c, p) => match it_at (i_factory i c) p with Some a => Some (a, c, p) | None => None end
              | None => None
              end
        with
        | Some (a, c, p) =>
            (inl (NextOf one k (got ++ [a])),
             mkHold (mkIter (i_factory i) (mkGen (g_calls (i_gen i)) (Some (c, S p))) (i_rac i)) (d_over h))
        | None =>
            (inl (InGen one k got),
             mkHold (mkIter (i_factory i) (mkGen (S (g_calls (i_gen i))) (Some (g_calls (i_gen i), 0%nat))) (i_rac i)) (d_over h))
        end
    | Leaving got => (inr (Ok got), if i_rac i then hold_reset h else h)
    end.
  Fixpoint cut_iter (k : nat) (l : at_iter) (h : holder) : (at_iter + res (list A)) * holder :=
    match k with
    | O => (inl l, h)
    | S k => match cut_iter_step l h with
             | (inl l, h) => cut_iter k l h
             | (inr r, h) => (inr r, h)
             end
    end.
  (** A call that is cut off after [k] steps.  [None]: it did not come to its end.  If it
      was in the generator the exception leaves that, too. *)
  Definition cut_iter_call (k : nat) (q : ask) (h : holder) : option (res (list A)) * holder :=
    match cut_iter k (cut_iter_start q) h with
    | (inl (InGen _ _ _), h) => (None, mkHold (d_em h) true)
    | (inl _, h) => (None, h)
    | (inr r, h) => (Some r, h)
    end.
End CutIter.
Arguments holder : clear implicits. Arguments at_iter : clear implicits.
