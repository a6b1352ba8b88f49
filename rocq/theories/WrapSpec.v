(** * Specification vocabulary for wrapper emitters. *)
From Verif Require Import Base Prims Values SigModel SigSpec.
Open Scope list_scope.

(** Running [f] on each element in turn, all successfully. *)
Inductive each {S A B} (f : A -> M S B) : list A -> S -> list B -> S -> Prop :=
| each_nil s : each f [] s [] s
| each_cons a t s b s1 bs s2 :
    f a s = (Ok b, s1) -> each f t s1 bs s2 -> each f (a :: t) s (b :: bs) s2.

(** The user's function [u] is called, and is given the emitter's rng exactly if
    it has a parameter of that name. *)
Definition user_call {S} (u : ufun S) (args : list val) (kwargs : list (string * val)) (s : S) (v : val) (s' : S) : Prop :=
  (takes_rng u /\ u_body_rng u args kwargs s = (Ok v, s')) \/
  (~ takes_rng u /\ u_body u args kwargs s = (Ok v, s')).

Inductive user_calls {S} (u : ufun S) : list (list val * list (string * val)) -> S -> list val -> S -> Prop :=
| calls_nil s : user_calls u [] s [] s
| calls_cons args kwargs t s v s1 vs s2 :
    user_call u args kwargs s v s1 -> user_calls u t s1 vs s2 ->
    user_calls u ((args, kwargs) :: t) s (v :: vs) s2.

(** Row [i] of the columns [data], under the labels. *)
Definition row (labels : list string) (data : list (list val)) (i : nat) (kwargs : list (string * val)) : Prop :=
  map fst kwargs = labels /\ Forall2 (fun column kv => nth_error column i = Some (snd kv)) data kwargs.
