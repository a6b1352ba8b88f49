(** * Vocabulary for the properties of Static, Iterative and Sequential: what
    "back to back" and "repeats forever" mean, and histories of operations.
    No code of /repo is modelled here. *)
From Verif Require Import Base Prims FixedModel ChoiceRun.

Section Spec.
  Context {A : Type}.

  (** [back_to_back its c p vs]: reading the iterators [its c], [its (c+1)], ...
      one after the other, starting at element [p] of [its c], gives [vs] first. *)
  Inductive back_to_back (its : nat -> iterator A) : nat -> nat -> list A -> Prop :=
  | BB_nil c p : back_to_back its c p []
  | BB_item c p v vs :
      it_at (its c) p = Some v -> back_to_back its c (S p) vs -> back_to_back its c p (v :: vs)
  | BB_next c p vs :
      it_at (its c) p = None -> back_to_back its (S c) 0 vs -> back_to_back its c p vs.

  (** The first [n] values of the infinite repetition of [l]. *)
  Definition repeated (l : list A) (n : nat) (vs : list A) : Prop :=
    length vs = n /\
    forall k, (k < n)%nat -> nth_error vs k = nth_error l (k mod length l)%nat.

  (** Asking an object with [emit] and [emit_many]; [em()] is [em.emit()]. *)
  Definition ask_with {S} (emit : M S A) (emit_many : Z -> M S (list A)) (q : ask) : M S (list A) :=
    match q with
    | Call0 | Emit => a <~ emit ;; ret [a]
    | CallN n => call_number emit emit_many n
    | EmitMany n => emit_many n
    end.

  (** Outcomes of a sequence of requests. *)
  Fixpoint asks_with {S} (emit : M S A) (emit_many : Z -> M S (list A)) (qs : list ask) (s : S)
    : list (res (list A)) * S :=
    match qs with
    | [] => ([], s)
    | q :: t =>
        let '(o, s) := ask_with emit emit_many q s in
        let '(os, s) := asks_with emit emit_many t s in
        (o :: os, s)
    end.

  (** What a user can do with an Iterative or Sequential emitter, apart from
      replacing its factory. *)
  Inductive fop : Type :=
  | FAsk (q : ask)
  | FReset
  | FResetAfterCall (b : bool).   (* em.reset_after_call = b *)

  Section Run.
    Context {S : Type} (emit : M S A) (emit_many : Z -> M S (list A)) (reset : S -> S)
      (set_rac : bool -> S -> S).
    (** All values emitted by a history (a failed request emits none), and the
        state after it. *)
    Fixpoint frun (ops : list fop) (s : S) : list A * S :=
      match ops with
      | [] => ([], s)
      | o :: t =>
          let '(vs, s) :=
            match o with
            | FAsk q => match ask_with emit emit_many q s with (Ok l, s) => (l, s) | (_, s) => ([], s) end
            | FReset => ([], reset s)
            | FResetAfterCall b => ([], set_rac b s)
            end in
          let '(ws, s) := frun t s in (vs ++ ws, s)
      end.
  End Run.

  Definition iter_asks fuel := asks_with (iter_emit (A:=A) fuel) (iter_emit_many fuel).
  Definition iter_ops fuel := frun (iter_emit (A:=A) fuel) (iter_emit_many fuel) iter_reset iter_set_rac.
  Definition seq_asks fuel := asks_with (seq_emit (A:=A) fuel) (seq_emit_many fuel).
  Definition seq_ops fuel := frun (seq_emit (A:=A) fuel) (seq_emit_many fuel) seq_reset seq_set_rac.
End Spec.
