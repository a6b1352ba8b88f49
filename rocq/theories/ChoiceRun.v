(** * Histories of a Choice emitter: the public operations, their sequences, and
    the states they reach.  No code of /repo is modelled here; every operation is
    one function of ChoiceModel. *)
From Verif Require Import Base Prims MathModel MathSpec ChoiceModel.

Section Run.
  Context (P : prims) {A : Type}.
  Context (setsize : list A -> res Z) (fuel : nat).
  Notation C := (@choice P A).

  (** The ways of asking for values. *)
  Inductive ask : Type :=
  | Call0               (* em() *)
  | CallN (n : Z)       (* em(n) *)
  | Emit                (* em.emit() *)
  | EmitMany (n : Z).   (* em.emit_many(n) *)

  Definition ask_size (q : ask) : Z :=
    match q with Call0 | Emit => 1 | CallN n | EmitMany n => n end.

  (** The values returned; a single value is shown as a list of one. *)
  Definition do_ask (q : ask) : M C (list A) :=
    match q with
    | Call0 => a <~ choice_call P setsize fuel ;; ret [a]
    | CallN n => choice_call_n P setsize fuel n
    | Emit => a <~ choice_emit P setsize fuel ;; ret [a]
    | EmitMany n => choice_emit_many P setsize fuel n
    end.

  (** The outcomes of a sequence of requests (an exception does not stop the
      user from asking again). *)
  Fixpoint do_asks (qs : list ask) (c : C) : list (res (list A)) * C :=
    match qs with
    | [] => ([], c)
    | q :: t =>
        let '(o, c) := do_ask q c in
        let '(os, c) := do_asks t c in
        (o :: os, c)
    end.

  (** Operations that change settings or state without emitting.  [Rng_seed] is
      the assignment [em.rng_seed = s]. *)
  Inductive setting : Type :=
  | Reset | Seed (s : option (pSeed P)) | Rng_seed (s : option (pSeed P))
  | Weights (w : option (list (pW P))) | Cum_weights (w : option (list (pW P)))
  | Replace (b : bool) | Replace_only_after_call (b : bool).

  Definition do_setting (o : setting) (ent : nat) : M C unit :=
    match o with
    | Reset => choice_reset P fuel ent
    | Seed s => choice_seed P fuel s ent
    | Rng_seed s => modify P (set_seed P s)
    | Weights w => set_weights P fuel w false
    | Cum_weights w => set_weights P fuel w true
    | Replace b => set_replace P fuel b
    | Replace_only_after_call b => set_replace_only_after_call P fuel b
    end.

  (** States reached by any history, whatever the outcome of each step. *)
  Inductive reach_any (items : list A) : C -> Prop :=
  | RA_new ws rep roac sd cum ent c :
      choice_new P fuel items ws rep roac sd cum ent = Ok c -> reach_any items c
  | RA_setting o ent c r c' :
      reach_any items c -> do_setting o ent c = (r, c') -> reach_any items c'
  | RA_ask q c r c' :
      reach_any items c -> do_ask q c = (r, c') -> reach_any items c'.

  (** States reached by histories in which no setting operation raised an
      exception and only non-negative amounts were requested.  Requests may have
      failed. *)
  Inductive reach (items : list A) : C -> Prop :=
  | R_new ws rep roac sd cum ent c :
      choice_new P fuel items ws rep roac sd cum ent = Ok c -> reach items c
  | R_setting o ent c c' :
      reach items c -> do_setting o ent c = (Ok tt, c') -> reach items c'
  | R_ask q c r c' :
      reach items c -> 0 <= ask_size q -> do_ask q c = (r, c') -> reach items c'.

  (** States of a Choice with replace=False that has just been (re)shuffled:
      by construction, reset(), seed(), assigning weights or cum_weights, or
      changing replace from True to False. *)
  Inductive just_shuffled (items : list A) : C -> Prop :=
  | JS_new ws rep roac sd cum ent c :
      choice_new P fuel items ws rep roac sd cum ent = Ok c -> c_replace c = false ->
      just_shuffled items c
  | JS_setting o ent c c' :
      reach items c -> do_setting o ent c = (Ok tt, c') -> c_replace c' = false ->
      match o with
      | Reset | Seed _ | Weights _ | Cum_weights _ => True
      | Replace _ => c_replace c = true
      | Rng_seed _ | Replace_only_after_call _ => False
      end ->
      just_shuffled items c'.

  (** Outcomes promised by a deal: a refused request is a ValueError. *)
  Definition dealt (o : option (list A)) : res (list A) :=
    match o with Some l => Ok l | None => Raise ValueError end.

  (** The emitter will hand out exactly [left], in this order, and refuse
      whatever exceeds it: an observational statement about all future requests. *)
  Definition remaining (c : C) (left : list A) : Prop :=
    forall qs, Forall (fun q => 0 <= ask_size q) qs ->
      fst (do_asks qs c) = map dealt (deal left (map (fun q => Z.to_nat (ask_size q)) qs)).
End Run.
Arguments Reset {P}. Arguments Seed {P}. Arguments Rng_seed {P}. Arguments Weights {P}.
Arguments Cum_weights {P}. Arguments Replace {P}. Arguments Replace_only_after_call {P}.
