(** * A Choice whose list of items is changed from outside

    The specification of C94 and C95.  [Choice(items)] keeps the list it was given
    (mixins.py:84), so changing the list in place changes the attribute [items]; the
    weights are copied (choice.py:145-156). *)
From Verif Require Import Base Prims MathModel ChoiceModel.

Section Live.
  Context (P : prims) {A : Type} (setsize : list A -> res Z) (fuel : nat).

  (** The list of items now has the contents [l]. *)
  Definition items_changed (l : list A) (c : choice P) : choice P :=
    mkChoice l (c_weights c) (c_cum c) (c_replace c) (c_roac c) (c_nui c)
      (c_shuffled c) (c_sidx c) (c_seed c) (c_rng c).

  (** What a program does: change the list, or call the emitter with a number. *)
  Inductive live_event : Type := LChange (l : list A) | LAsk (n : Z).

  (** What the calls return. *)
  Fixpoint live_answers (evs : list live_event) (c : choice P) : list (res (list A)) :=
    match evs with
    | [] => []
    | LChange l :: evs => live_answers evs (items_changed l c)
    | LAsk n :: evs =>
        match choice_call_n P setsize fuel n c with
        | (r, c) => r :: live_answers evs c
        end
    end.

  Section Args.
    (** The arguments of the constructor, but for the items. *)
    Context (w : option (list (pW P))) (replace roac : bool) (seed : option (pSeed P))
            (cw : option (list (pW P))).

    (** What the calls return if each is made to a new Choice with the same
        arguments and the present items, which goes on with the generator [r]. *)
    Fixpoint new_each_time (evs : list live_event) (l : list A) (r : pR P) : list (res (list A)) :=
      match evs with
      | [] => []
      | LChange l :: evs => new_each_time evs l r
      | LAsk n :: evs =>
          match choice_new P fuel l w replace roac seed cw 0 with
          | Ok c =>
              match choice_call_n P setsize fuel n (set_rng P r c) with
              | (a, c) => a :: new_each_time evs l (c_rng c)
              end
          | Raise e => Raise e :: new_each_time evs l r
          | Diverge => Diverge :: new_each_time evs l r
          end
      end.

    (** At every call the list is not empty, has its first length [n0] if there are
        weights, and, with replace_only_after_call, no more values are asked for
        than the list has, or had at first. *)
    Fixpoint fits (n0 : nat) (evs : list live_event) (l : list A) : Prop :=
      match evs with
      | [] => True
      | LChange l :: evs => fits n0 evs l
      | LAsk n :: evs =>
          l <> [] /\
          (nonempty w = true \/ nonempty cw = true -> length l = n0) /\
          (roac = true -> 1 < n -> n <= Z.of_nat n0 /\ n <= zlen l) /\
          fits n0 evs l
      end.
  End Args.

  (** The emitter after the program. *)
  Fixpoint live_state (evs : list live_event) (c : choice P) : choice P :=
    match evs with
    | [] => c
    | LChange l :: evs => live_state evs (items_changed l c)
    | LAsk n :: evs => live_state evs (snd (choice_call_n P setsize fuel n c))
    end.

  (** The program without the changes. *)
  Fixpoint unchanged (evs : list live_event) : list live_event :=
    match evs with
    | [] => []
    | LChange _ :: evs => unchanged evs
    | LAsk n :: evs => LAsk n :: unchanged evs
    end.
End Live.
Arguments LChange {A} l. Arguments LAsk {A} n.
