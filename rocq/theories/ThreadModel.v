(** * Emitters shared by threads.

    CPython runs one thread at a time and may switch to another between any two
    bytecode instructions.  Here a call is a sequence of steps; a step is one access
    to what the threads share: reading or writing an attribute, one call of
    Random.random, one entry into a generator.  Between steps any thread may run. *)
From Verif Require Import Base Prims MathModel ChoiceModel ChoiceRun.
Open Scope Z_scope.

(** ** Threads.  No code of /repo is modelled in this section. *)
Section Machine.
  (** [S]: what is shared; [Q]: requests; [L]: where a thread is in a call; [R]: results *)
  Context {S Q L R : Type}.
  Context (start : Q -> L) (step : L -> S -> (L + res R) * S).

  (** A thread makes its calls one after the other, whatever their outcome. *)
  Record thread := mkThread { t_todo : list Q; t_now : option (Q * L) }.
  (** The log has the calls that have come to an end, in this order: who, what, outcome. *)
  Record system := mkSystem { s_threads : list thread; s_shared : S; s_log : list (nat * Q * res R) }.

  (** One step of thread [i] *)
  Definition run_one (i : nat) (y : system) : system :=
    match nth_error (s_threads y) i with
    | None => y
    | Some th =>
        match t_now th, t_todo th with
        | None, [] => y
        | None, q :: t => mkSystem (upd i (mkThread t (Some (q, start q))) (s_threads y)) (s_shared y) (s_log y)
        | Some (q, l), t =>
            match step l (s_shared y) with
            | (inl l, s) => mkSystem (upd i (mkThread t (Some (q, l))) (s_threads y)) s (s_log y)
            | (inr r, s) => mkSystem (upd i (mkThread t None) (s_threads y)) s (s_log y ++ [(i, q, r)])
            end
        end
    end.
  (** A schedule says which thread runs next. *)
  Fixpoint run (schedule : list nat) (y : system) : system :=
    match schedule with [] => y | i :: t => run t (run_one i y) end.

  Definition begin (todo : list (list Q)) (s : S) : system := mkSystem (map (fun t => mkThread t None) todo) s [].

  (** No thread is in a call. *)
  Definition idle (y : system) : Prop := forall th, In th (s_threads y) -> t_now th = None.
  (** Whoever runs, no other thread is in a call: what a lock around calls achieves. *)
  Fixpoint one_at_a_time (schedule : list nat) (y : system) : Prop :=
    match schedule with
    | [] => True
    | i :: t => (forall j th, nth_error (s_threads y) j = Some th -> j <> i -> t_now th = None) /\ one_at_a_time t (run_one i y)
    end.
End Machine.
Arguments thread : clear implicits.
Arguments system : clear implicits.

(** ** Choice *)
Section Choice.
  Context (P : prims) {A : Type}.
  Context (setsize : list A -> res Z) (fuel : nat).
  Notation C := (@choice P A).

  (** Where a thread is in a call, with its local variables.  Lines of choice.py. *)
  Inductive where_in : Type :=
  | Check (n : Z)                          (* 311: compares number with _num_unique_items *)
  | Violation                              (* 312 *)
  | Take (n : Z)                           (* 315-320: reads _shuffled_index, takes the items *)
  | ReadIndex (n : Z) (got : list A)       (* 321: _shuffled_index += number, the read *)
  | WriteIndex (n : Z) (got : list A) (i : Z)    (* and the write *)
  | ReadLeft (n : Z) (got : list A)        (* 322: _num_unique_items -= number, the read *)
  | WriteLeft (n : Z) (got : list A) (m : Z)     (* and the write *)
  | OneCall (n : Z)                        (* 324-328: replace_only_after_call *)
  | Begin (n : Z)                          (* 330-340 *)
  | Draw (k : nat) (got : list A).         (* in Random.choices: [k] values to come *)

  (** choice.py:342-356 and emitter.py:74-102: the branch taken.  Settings
      (replace, replace_only_after_call, weights, items) do not change while threads run,
      and there is no reset: so it does not matter when they are read. *)
  Definition choice_start (c : C) (q : ask) : where_in :=
    let many n := if negb (c_replace c) || (c_roac c && (1 <? n)) then Check n else Begin n in
    let one := if negb (c_replace c) then Check 1 else Begin 1 in
    match q with
    | Call0 | Emit => one
    | CallN n => if n =? 1 then one else many n
    | EmitMany n => many n
    end.

  (** Random.choices: the position for the random number [u] *)
  Definition position_of (c : C) (u : pU P) : nat :=
    match c_weights c, c_cum c with
    | Some _, Some cum =>
        match rev cum with
        | t :: _ => bisect_right P (length cum) cum (w_scale P u t) 0 (length (c_items c) - 1)
        | [] => 0%nat
        end
    | _, _ => u_floor P u (length (c_items c))
    end.

  (** choice.py:309-340.  Simplified: the message of the exception is put together in one
      step; [Random.sample], [weighted_shuffle] and [Random.choice] (which draws until a
      number is below the limit) are one step each. *)
  Definition choice_step (l : where_in) (c : C) : (where_in + res (list A)) * C :=
    match l with
    | Check n => if c_nui c <? n then (inl Violation, c)
                 else if negb (c_replace c) then (inl (Take n), c) else (inl (OneCall n), c)
    | Violation => let '(r, c) := uniqueness_violation P setsize c in (inr r, c)
    | Take n =>
        match c_sidx c with
        | None => (inr (Raise AttributeError), c)
        | Some i =>
            if n =? 1 then
              match list_get (c_shuffled c) i with
              | Ok a => (inl (ReadIndex n [a]), c)
              | Raise e => (inr (Raise e), c)
              | Diverge => (inr Diverge, c)
              end
            else (inl (ReadIndex n (list_slice (c_shuffled c) i (i + n))), c)
        end
    | ReadIndex n got =>
        match c_sidx c with
        | None => (inr (Raise AttributeError), c)
        | Some i => (inl (WriteIndex n got i), c)
        end
    | WriteIndex n got i => (inl (ReadLeft n got), set_shuf P (c_shuffled c) (Some (i + n)) c)
    | ReadLeft n got => (inl (WriteLeft n got (c_nui c)), c)
    | WriteLeft n got m => (inr (Ok got), set_nui P (m - n) c)
    | OneCall n => let '(r, c) := choice_without_replacement P setsize fuel n c in (inr r, c)
    | Begin n =>
        if zlen (c_items c) =? 1 then (inr (Ok (list_rep (c_items c) n)), c)
        else
          match c_weights c with
          | None => if n =? 1 then let '(r, c) := choice_with_replacement P 1 c in (inr r, c)
                    else (inl (Draw (Z.to_nat n) []), c)
          | Some _ =>
              match c_cum c with
              | None => (inl (Draw (Z.to_nat n) []), c)
              | Some cum =>
                  if negb (length cum =? length (c_items c))%nat then (inr (Raise ValueError), c)
                  else match rev cum with
                       | [] => (inr (Raise IndexError), c)
                       | t :: _ => if negb (w_total_ok P t) then (inr (Raise ValueError), c) else (inl (Draw (Z.to_nat n) []), c)
                       end
              end
          end
    | Draw O got => (inr (Ok got), c)
    | Draw (S k) got =>
        let '(u, r) := r_random P (c_rng c) in
        match nth_error (c_items c) (position_of c u) with
        | Some a => (inl (Draw k (got ++ [a])), set_rng P r c)
        | None => (inr (Raise IndexError), set_rng P r c)
        end
    end.
End Choice.
Arguments where_in : clear implicits.
