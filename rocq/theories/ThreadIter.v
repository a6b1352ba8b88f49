(** * Iterative and Sequential emitters shared by threads.

    The generator made by make_infinite_iter is entered by one thread at a time: CPython
    raises ValueError("generator already executing") when next() is called on a generator
    that is running in another thread. *)
From Verif Require Import Base Prims ChoiceRun FixedModel ThreadModel.
Open Scope Z_scope.

Section Iter.
  Context {A : Type} (fuel : nat).

  (** What the threads share: the factory and how often it has been called, the generators
      made so far (the iterator each is consuming, and whether it is running), the one in
      _iterator (fixed.py:159-166, 264-271), and reset_after_call. *)
  Record shared : Type := mkShared {
    h_factory : factory A; h_calls : nat; h_gens : list (option (nat * nat) * bool); h_now : nat; h_rac : bool
  }.
  Definition share (i : iterative A) : shared :=
    mkShared (i_factory i) (g_calls (i_gen i)) [(g_cur (i_gen i), false)] 0 (i_rac i).
  Definition gen_at (s : shared) (g : nat) : gen :=
    mkGen (h_calls s) (match nth_error (h_gens s) g with Some (c, _) => c | None => None end).
  Definition put_gen (s : shared) (g : nat) (x : gen) (running : bool) : shared :=
    mkShared (h_factory s) (g_calls x) (upd g (g_cur x, running) (h_gens s)) (h_now s) (h_rac s).
  (** The emitter as one thread sees it *)
  Definition alone (s : shared) : iterative A := mkIter (h_factory s) (gen_at s (h_now s)) (h_rac s).

  (** Where a thread is in a call, with its local variables *)
  Inductive place : Type :=
  | Refuse                                   (* islice with a negative number *)
  | Fetch (k : nat)                          (* reads self._iterator; [k] values to come *)
  | Enter (g : nat) (k : nat) (got : list A) (* next(generator), if values are to come *)
  | Inside (g : nat) (k : nat) (got : list A)(* lines 143-145, up to the next yield *)
  | After (got : list A).                    (* lines 171-173, 182-184, 306-308, 317-319 *)

  (** emitter.py:74-102 and fixed.py:168-184, 303-319 *)
  Definition iter_start (q : ask) : place :=
    match q with
    | Call0 | Emit => Fetch 1
    | CallN n | EmitMany n => if n <? 0 then Refuse else Fetch (Z.to_nat n)
    end.

  (** Simplified: the factory, and the iterators it returns, are not interrupted. *)
  Definition iter_step (l : place) (s : shared) : (place + res (list A)) * shared :=
    match l with
    | Refuse => (inr (Raise ValueError), s)
    | Fetch k => (inl (Enter (h_now s) k []), s)
    | Enter g O got => (inl (After got), s)
    | Enter g (S k) got =>
        match nth_error (h_gens s) g with
        | Some (c, false) => (inl (Inside g k got), put_gen s g (gen_at s g) true)
        | _ => (inr (Raise ValueError), s)
        end
    | Inside g k got =>
        match gen_next fuel (h_factory s) (gen_at s g) with
        | (Ok a, x) => (inl (Enter g k (got ++ [a])), put_gen s g x false)
        | (Raise e, x) => (inr (Raise e), put_gen s g x false)
        | (Diverge, x) => (inr Diverge, put_gen s g x true)
        end
    | After got =>
        (inr (Ok got),
         if h_rac s then mkShared (h_factory s) (h_calls s) (h_gens s ++ [(None, false)]) (length (h_gens s)) (h_rac s) else s)
    end.
End Iter.
Arguments shared : clear implicits. Arguments place : clear implicits.
