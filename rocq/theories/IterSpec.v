(** * What an Iterative over any factory should do

    The specification of C90-C93.  [cur] is the iterator in use, if any. *)
From Verif Require Import Base Prims IterModel.

Section Spec.
  Context {S H A : Type} (src : source S H A).

  (** Reading on from [cur] gives the value [a]: the next element of the iterator
      in use, or else the first element of the first non-empty iterator that the
      factory makes.  [h'] is the iterator it came from. *)
  Inductive gives : S -> option H -> A -> S -> H -> Prop :=
  | g_next s h a s' :
      step src h s = (Ok a, s') -> gives s (Some h) a s' h
  | g_over s h s1 a s' h' :
      step src h s = (Raise StopIteration, s1) -> gives s1 None a s' h' -> gives s (Some h) a s' h'
  | g_make s h s1 a s' h' :
      make src s = (Ok h, s1) -> gives s1 (Some h) a s' h' -> gives s None a s' h'.

  (** Reading on [n] times gives the list. *)
  Inductive gives_all : S -> option H -> list A -> S -> option H -> Prop :=
  | ga_nil s c : gives_all s c [] s c
  | ga_cons s c a s1 h l s' c' :
      gives s c a s1 h -> gives_all s1 (Some h) l s' c' -> gives_all s c (a :: l) s' c'.

  (** The class of an exception that leaves a generator function (PEP 479). *)
  Definition seen_outside (e : exc) : exc :=
    match e with StopIteration => RuntimeError | _ => e end.

  (** Reading on ends in an exception of the factory or of an iterator. *)
  Inductive breaks : S -> option H -> exc -> S -> Prop :=
  | b_next s h e s' :
      step src h s = (Raise e, s') -> e <> StopIteration -> breaks s (Some h) e s'
  | b_over s h s1 e s' :
      step src h s = (Raise StopIteration, s1) -> breaks s1 None e s' -> breaks s (Some h) e s'
  | b_make s e s' :
      make src s = (Raise e, s') -> breaks s None (seen_outside e) s'
  | b_into s h s1 e s' :
      make src s = (Ok h, s1) -> breaks s1 (Some h) e s' -> breaks s None e s'.

  (** The factory gives one empty iterator after the other, without end. *)
  CoInductive empty_forever : S -> Prop :=
  | ef s h s1 s2 :
      make src s = (Ok h, s1) -> step src h s1 = (Raise StopIteration, s2) ->
      empty_forever s2 -> empty_forever s.

  (** The iterator in use is at its end, and [empty_forever] from there on. *)
  Definition hangs (s : S) (c : option H) : Prop :=
    match c with
    | None => empty_forever s
    | Some h => exists s1, step src h s = (Raise StopIteration, s1) /\ empty_forever s1
    end.

  (** The user's code itself ends. *)
  Definition code_ends : Prop :=
    (forall s, fst (make src s) <> Diverge) /\ (forall h s, fst (step src h s) <> Diverge).
End Spec.

(** The iterator in use of an object that is not finished. *)
Definition in_use {S H A} (o : itobj S H A) (c : option H) : Prop :=
  match c with
  | None => it_gen o = Fresh
  | Some h => it_gen o = Running h
  end.

(** After a call: with reset_after_call the emitter is as after reset(). *)
Definition after_call {S H A} (o : itobj S H A) (c : option H) : itobj S H A :=
  mkIt (it_src o)
    (if it_rac o then Fresh else match c with None => Fresh | Some h => Running h end) (it_rac o).

(** The emitter is finished: an exception has gone through it. *)
Definition finished {S H A} (o : itobj S H A) : Prop := it_gen o = Finished.

(** What can be asked of an emitter. *)
Inductive asked_of : Type := One | Many (number : Z).
Definition ask_it {S H A} (fuel : nat) (q : asked_of) : M (S * itobj S H A) (list A) :=
  match q with
  | One => a <~ it_emit fuel ;; ret [a]
  | Many n => it_emit_many fuel n
  end.

(** The loop at fixed.py:143 has no bound: [m fuel] is the run with at most
    [fuel] calls of the factory in a step.  The program does [r]. *)
Definition does {T} (m : nat -> T) (r : T) : Prop :=
  exists k, forall fuel, (k <= fuel)%nat -> m fuel = r.

(** The program goes on for ever. *)
Definition goes_on {T B} (m : nat -> res B * T) : Prop := forall fuel, fst (m fuel) = Diverge.

(** ** Sequential over a list that changes *)

(** Where the emitter stands in the user's list [l]: position [p]. *)
Definition stands {A} (st : listheap A) (o : itobj (listheap A) nat A) (p : nat) : Prop :=
  match it_gen o with
  | Fresh => p = O
  | Running h => nth_error (snd st) h = Some (Some p)
  | Finished => False
  end.

(** What a program does: put other contents into the list, ask for values, reset. *)
Inductive event (A : Type) : Type :=
| Change (l : list A)
| Ask (number : nat)
| Reset.
Arguments Change {A} l. Arguments Ask {A} number. Arguments Reset {A}.

(** [number] values from position [p] of a list that is not empty, and the position
    after them: at the end of the list as it is now, start again. *)
Fixpoint values {A} (number : nat) (l : list A) (p : nat) : list A * nat :=
  match number with
  | O => ([], p)
  | Datatypes.S n =>
      match nth_error l p, l with
      | Some a, _ => let (v, q) := values n l (Datatypes.S p) in (a :: v, q)
      | None, a :: _ => let (v, q) := values n l 1 in (a :: v, q)
      | None, [] => ([], p)
      end
  end.

(** What should be emitted. *)
Fixpoint expected {A} (rac : bool) (evs : list (event A)) (l : list A) (p : nat) : list (list A) :=
  match evs with
  | [] => []
  | Change l' :: evs => expected rac evs l' p
  | Reset :: evs => expected rac evs l O
  | Ask n :: evs => let (v, q) := values n l p in v :: expected rac evs l (if rac then O else q)
  end.

(** The list is never empty when values are asked for. *)
Fixpoint never_empty {A} (evs : list (event A)) (l : list A) : Prop :=
  match evs with
  | [] => True
  | Change l' :: evs => never_empty evs l'
  | Reset :: evs => never_empty evs l
  | Ask _ :: evs => l <> [] /\ never_empty evs l
  end.

(** What is emitted: [em(number)] for every [Ask number]. *)
Fixpoint emitted {A} (fuel : nat) (evs : list (event A)) (st : listheap A)
    (o : itobj (listheap A) nat A) : list (res (list A)) :=
  match evs with
  | [] => []
  | Change l :: evs => emitted fuel evs (l, snd st) o
  | Reset :: evs => emitted fuel evs st (it_reset o)
  | Ask n :: evs =>
      match ask_it fuel (if Nat.eqb n 1 then One else Many (Z.of_nat n)) (st, o) with
      | (r, (st, o)) => r :: emitted fuel evs st o
      end
  end.
