(** * Specification vocabulary for Word and Text. *)
From Verif Require Import Base Prims Values TextModel.

(** The integers behind a list of values (True and False count as 1 and 0). *)
Definition int_value (v : val) (z : Z) : Prop :=
  v = VInt z \/ (v = VBool true /\ z = 1) \/ (v = VBool false /\ z = 0).

Definition zsum (l : list Z) : Z := fold_right Z.add 0 l.

(** [v] is the string made of the strings [cs], one after the other. *)
Definition spelled (cs : list val) (v : val) : Prop :=
  exists ss, cs = map VStr ss /\ v = VStr (concat ss).

(** w1 s1 w2 s2 ... wk : words with a separator between any two neighbours. *)
Fixpoint interleave (ws seps : list val) : list val :=
  match ws, seps with
  | w :: ((_ :: _) as ws'), s :: seps' => w :: s :: interleave ws' seps'
  | ws, _ => ws
  end.

(** The word emitter is asked for [u] words again and again, with a reset in
    between, until [r] words have been drawn; the last time only for those that
    are missing. *)
Inductive drawn_in_batches {S} (call_n : Z -> M S (list val)) (reset : M S unit) (u : Z) : Z -> S -> list val -> S -> Prop :=
| batch_last r s ws s' : 0 < r -> r <= u -> call_n r s = (Ok ws, s') ->
    drawn_in_batches call_n reset u r s ws s'
| batch_more r s ws s1 s2 ws' s' : u < r -> call_n u s = (Ok ws, s1) -> reset s1 = (Ok tt, s2) ->
    drawn_in_batches call_n reset u (r - u) s2 ws' s' ->
    drawn_in_batches call_n reset u r s (ws ++ ws') s'.

(** An emitter that keeps its promise about how many values it returns. *)
Definition returns_as_many {S} (call_n : Z -> M S (list val)) : Prop :=
  forall n s l s', 0 <= n -> call_n n s = (Ok l, s') -> zlen l = n.

(** The same in the states in which [J] holds, and [J] keeps holding. *)
Definition returns_within {S} (J : S -> Prop) (call_n : Z -> M S (list val)) : Prop :=
  forall n s l s', 0 <= n -> J s -> call_n n s = (Ok l, s') -> zlen l = n /\ J s'.

(** An emitter that emits nothing but elements of a list. *)
Definition emits_only {S} (call_n : Z -> M S (list val)) (items : list val) : Prop :=
  forall n s l s', call_n n s = (Ok l, s') -> incl l items.
