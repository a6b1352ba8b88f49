(** * Specification vocabulary for mathtools and Choice.
    Independent of the model: only lists, positions and permutations. *)
From Coq Require Import List Permutation Arith.
Import ListNotations.

(** [out] are the elements of [items] at the positions [ps], in that order. *)
Definition picks {A} (items : list A) (ps : list nat) (out : list A) : Prop :=
  Forall2 (fun p a => nth_error items p = Some a) ps out.

(** [out] was taken from [items] without replacement: from pairwise different
    positions. *)
Definition without_replacement {A} (items out : list A) : Prop :=
  exists ps, NoDup ps /\ picks items ps out.

(** Dealing hands of the given sizes from a deck: [None] stands for a request
    that is refused because too little is left. *)
Fixpoint deal {A} (deck : list A) (sizes : list nat) : list (option (list A)) :=
  match sizes with
  | [] => []
  | n :: t =>
      if length deck <? n then None :: deal deck t
      else Some (firstn n deck) :: deal (skipn n deck) t
  end.

(** What is left of the deck after the requests. *)
Fixpoint undealt {A} (deck : list A) (sizes : list nat) : list A :=
  match sizes with
  | [] => deck
  | n :: t => if length deck <? n then undealt deck t else undealt (skipn n deck) t
  end.
