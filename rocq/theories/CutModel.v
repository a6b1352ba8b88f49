(** * Operations on a Choice emitter that are cut off.

    KeyboardInterrupt, or any exception raised by a signal handler, may end an operation
    between any two bytecode instructions.  What the operation has written so far stays
    written.  Nothing in /repo catches such an exception. *)
From Verif Require Import Base Prims MathModel ChoiceModel ChoiceRun ThreadModel.
Open Scope Z_scope.

Section Cut.
  Context (P : prims) {A : Type}.
  Context (setsize : list A -> res Z) (fuel : nat).
  Notation C := (@choice P A).

  (** ** Calls.  The steps are those of [ThreadModel.choice_step]. *)
  (** At most [k] steps: where the call has got to, or its outcome *)
  Fixpoint cut (k : nat) (l : where_in A) (c : C) : (where_in A + res (list A)) * C :=
    match k with
    | O => (inl l, c)
    | S k => match choice_step P setsize fuel l c with
             | (inl l, c) => cut k l c
             | (inr r, c) => (inr r, c)
             end
    end.
  (** A call that is cut off after [k] steps.  [None]: it did not come to its end, so the
      caller gets the exception and no value. *)
  Definition cut_call (k : nat) (q : ask) (c : C) : option (res (list A)) * C :=
    match cut k (choice_start P c q) c with
    | (inl _, c) => (None, c)
    | (inr r, c) => (Some r, c)
    end.
  (** Calls one after the other, each with the number of steps that it may make *)
  Fixpoint cut_calls (qs : list (nat * ask)) (c : C) : list (option (res (list A))) * C :=
    match qs with
    | [] => ([], c)
    | (k, q) :: t =>
        let '(o, c) := cut_call k q c in
        let '(os, c) := cut_calls t c in
        (o :: os, c)
    end.

  (** ** Assignments, reset and seed.  Where the operation is, with its local variables. *)
  Inductive at_setting : Type :=
  | ResetRng                                  (* mixins.py:45 *)
  | SeedAttr (s : option (pSeed P))           (* mixins.py:56 *)
  | SeedRng (s : option (pSeed P))            (* mixins.py:57 *)
  | AttrSeed (s : option (pSeed P))           (* em.rng_seed = s *)
  | Work (w : option (list (pW P))) (cumulative : bool)   (* choice.py:133-156 *)
  | PutWeights (w cw : option (list (pW P)))  (* choice.py:157 *)
  | PutCum (cw : option (list (pW P)))        (* choice.py:158 *)
  | IfShuffle                                 (* choice.py:174, 191, 240, 258 *)
  | Shuffle                                   (* choice.py:262-264, up to the assignment *)
  | PutShuffled (sh : list A)                 (* choice.py:264, the assignment *)
  | PutIndex                                  (* choice.py:265 *)
  | PutNumber                                 (* choice.py:266 *)
  | IfReplace (b : bool)                      (* choice.py:210 *)
  | PutReplace (b : bool)                     (* choice.py:211 *)
  | PutAll                                    (* choice.py:213 *)
  | PutNotAfter                               (* choice.py:215 *)
  | PutAfter (b : bool).                      (* choice.py:229 *)

  Definition setting_start (o : setting P) : at_setting :=
    match o with
    | Reset => ResetRng
    | Seed s => SeedAttr s
    | Rng_seed s => AttrSeed s
    | Weights w => Work w false
    | Cum_weights w => Work w true
    | Replace b => IfReplace b
    | Replace_only_after_call b => PutAfter b
    end.

  (** choice.py:129-266, mixins.py:43-60.  The draws of weighted_shuffle are one step here;
      see [left_by] for what is left when it is cut off on the way. *)
  Definition setting_step (ent : nat) (l : at_setting) (c : C) : (at_setting + res unit) * C :=
    match l with
    | ResetRng => (inl IfShuffle, set_rng P (rng_for P (c_seed c) ent) c)
    | SeedAttr s => (inl (SeedRng s), set_seed P s c)
    | SeedRng s => (inl IfShuffle, set_rng P (rng_for P s ent) c)
    | AttrSeed s => (inr (Ok tt), set_seed P s c)
    | Work w cumulative =>
        match all_weights P (c_items c) w cumulative with
        | Ok wc => (inl (PutWeights (fst wc) (snd wc)), c)
        | Raise e => (inr (Raise e), c)
        | Diverge => (inr Diverge, c)
        end
    | PutWeights w cw => (inl (PutCum cw), set_ws P w (c_cum c) c)
    | PutCum cw => (inl IfShuffle, set_ws P (c_weights c) cw c)
    | IfShuffle => if c_replace c then (inr (Ok tt), c) else (inl Shuffle, c)
    | Shuffle =>
        let weights := if nonempty (c_weights c)
                       then match c_weights c with Some w => w | None => [] end
                       else repeat (w_one P) (length (c_items c)) in
        match weighted_shuffle P fuel (c_items c) weights None (c_rng c) with
        | (Ok sh, r) => (inl (PutShuffled sh), set_rng P r c)
        | (Raise e, r) => (inr (Raise e), set_rng P r c)
        | (Diverge, r) => (inr Diverge, set_rng P r c)
        end
    | PutShuffled sh => (inl PutIndex, set_shuf P sh (c_sidx c) c)
    | PutIndex => (inl PutNumber, set_shuf P (c_shuffled c) (Some 0) c)
    | PutNumber => (inr (Ok tt), set_nui P (zlen (c_items c)) c)
    | IfReplace b => if Bool.eqb b (c_replace c) then (inr (Ok tt), c) else (inl (PutReplace b), c)
    | PutReplace b => (inl (if b then PutAll else PutNotAfter), set_rep P b c)
    | PutAll => (inr (Ok tt), set_nui P (zlen (c_items c)) c)
    | PutNotAfter => (inl Shuffle, set_roac P false c)
    | PutAfter b => if b then (inl (IfReplace true), set_roac P true c) else (inr (Ok tt), set_roac P false c)
    end.
  Fixpoint cut_setting (ent : nat) (k : nat) (l : at_setting) (c : C) : (at_setting + res unit) * C :=
    match k with
    | O => (inl l, c)
    | S k => match setting_step ent l c with
             | (inl l, c) => cut_setting ent k l c
             | (inr r, c) => (inr r, c)
             end
    end.
  (** What an operation that is cut off may leave behind.  Cut off in weighted_shuffle,
      it has drawn some random numbers: the generator may then be in any state [r]. *)
  Inductive left_by (o : setting P) (ent : nat) (c : C) : C -> Prop :=
  | Left_between k l c' : cut_setting ent k (setting_start o) c = (inl l, c') -> left_by o ent c c'
  | Left_shuffling k c' r : cut_setting ent k (setting_start o) c = (inl Shuffle, c') -> left_by o ent c (set_rng P r c').
End Cut.
