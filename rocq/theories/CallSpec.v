(** * Words for stating what a call of an object does to the objects. *)
From Coq Require Import String.
From Verif Require Import Base Prims Values ChoiceModel SigModel TextModel World WorldSpec FieldSpec ObjectSpec.
Open Scope list_scope.
Open Scope Z_scope.

Section Calls.
  Context (P : prims).

  (** [em.rng] *)
  Definition rng_at (id : nat) (w : world P) : option (pR P) :=
    match get_em P id w with
    | Some e => match node_of P e with Some nd => Some (n_rng P nd) | None => None end
    | None => None
    end.

  (** The function has a parameter named rng. *)
  Definition takes_the_rng (f : wfun P) : Prop :=
    exists sg p, wf_sig P f = Some sg /\ In p sg /\ p_name p = "rng"%string.

  (** Nothing has changed but the rng of emitter [id], which is now [g]. *)
  Definition only_rng_changed (id : nat) (g : pR P) (w w' : world P) : Prop :=
    rng_at id w' = Some g /\ settings_at P id w' = settings_at P id w /\
    (forall j, j <> id -> get_em P j w' = get_em P j w) /\ (forall f, get_fd P f w' = get_fd P f w).

  (** The user's function [f] of emitter [id] is called with these arguments and
      returns [v]; it is given the emitter's rng exactly if it has a parameter of
      that name. *)
  Inductive applied (id : nat) (f : wfun P) (args : list val) (kwargs : list (string * val)) (w : world P) (v : val)
    : world P -> Prop :=
  | applied_plain : ~ takes_the_rng f -> wf_plain P f args kwargs = Ok v -> applied id f args kwargs w v w
  | applied_rng g g' w' : takes_the_rng f -> rng_at id w = Some g -> wf_rng P f args kwargs g = (Ok v, g') ->
      only_rng_changed id g' w w' -> applied id f args kwargs w v w'.
  Inductive applied_to_all (id : nat) (f : wfun P) : list (list val * list (string * val)) -> world P -> list val -> world P -> Prop :=
  | to_none w : applied_to_all id f [] w [] w
  | to_more args kwargs t w v w1 vs w2 : applied id f args kwargs w v w1 -> applied_to_all id f t w1 vs w2 ->
      applied_to_all id f ((args, kwargs) :: t) w (v :: vs) w2.

  (** The emitter is a Choice that is to give different items within a call, and
      has [u] different values. *)
  Definition limited (id : nat) (w : world P) (u : Z) : Prop :=
    (exists t l ws cs r, settings_at P id w = Some (IsChoice t l ws cs r true)) /\ nuv_at P id w = Ok (Exactly u).

  (** The repeat emitter has the list [None] for its items. *)
  Definition single_valued_field (f : nat) (w : world P) : Prop :=
    exists n h e r g, field_settings_at P f w = Some (n, h, e, r, g) /\
      ((exists v, settings_at P r w = Some (IsStatic v [VNone])) \/
       (exists o b, settings_at P r w = Some (IsSequential true [VNone] o b)) \/
       (exists ws cs b o, settings_at P r w = Some (IsChoice true [VNone] ws cs b o))).

  (** Field [f] has [v] for its last value; nothing else has changed. *)
  Definition only_previous_changed (f : nat) (v : val) (w w' : world P) : Prop :=
    previous P f w' = v /\ field_settings_at P f w' = field_settings_at P f w /\
    (forall id, get_em P id w' = get_em P id w) /\ (forall g, g <> f -> get_fd P g w' = get_fd P g w).
End Calls.
