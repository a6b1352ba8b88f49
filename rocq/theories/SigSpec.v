(** * Specification vocabulary for signatures. *)
From Verif Require Import Base Prims Values SigModel.
Open Scope list_scope.

(** Python's grammar of parameter lists: positional-only, positional-or-keyword,
    at most one [*args], keyword-only, at most one [**kwargs], in this order; all
    names different. *)
Definition rank (k : kind) : Z :=
  match k with PosOnly => 0 | PosOrKw => 1 | VarPos => 2 | KwOnly => 3 | VarKw => 4 end.
Definition may_precede (p q : param) : Prop :=
  rank (p_kind p) < rank (p_kind q) \/ (p_kind p = p_kind q /\ p_kind p <> VarPos /\ p_kind p <> VarKw).
Definition valid_signature (sg : signature) : Prop :=
  ForallOrdPairs may_precede sg /\ NoDup (map p_name sg).

Definition valid_function {S} (u : ufun S) : Prop :=
  match u_sig u with Some sg => valid_signature sg | None => True end.

(** The function has a parameter named rng. *)
Definition takes_rng {S} (u : ufun S) : Prop :=
  exists sg p, u_sig u = Some sg /\ In p sg /\ p_name p = "rng"%string.

(** [wrapper_call u args kwargs] gets as far as running the body of the function
    with these arguments (with the rng iff it takes one), so that a TypeError can
    only come from within the body. *)
Definition runs_body {S} (u : ufun S) (args : list val) (kwargs : list (string * val)) : Prop :=
  forall s, (takes_rng u /\ wrapper_call u args kwargs s = u_body_rng u args kwargs s) \/
            (~ takes_rng u /\ wrapper_call u args kwargs s = u_body u args kwargs s).
