(** * Words for stating that no command of a program goes on for ever. *)
From Coq Require Import String.
From Verif Require Import Base Prims Values ChoiceModel FixedModel SigModel World WorldSpec WorldBuild ProgramSpec.
Open Scope list_scope.
Open Scope Z_scope.

Section Spec.
  Context (P : prims) (str_of : val -> res (list Z)).
  (** [acc] says which weights are acceptable; no loop inside of fauxdoc will be
      allowed to make [bound] rounds. *)
  Context (acc : pW P -> Prop) (bound : nat).

  (** Of [bound] calls of the factory in a row, at least one gives an iterator that
      is not empty. *)
  Definition productive (f : factory val) : Prop :=
    forall c, exists k, (k < bound)%nat /\ it_at (f (c + k)%nat) 0 <> None.

  (** If the factory gives an iterator over a sequence at all, it gives no infinite
      ones. *)
  Definition one_kind (f : factory val) : Prop :=
    (exists c l, f c = Finite l true) -> forall c, exists l hint, f c = Finite l hint.

  (** The function always returns, or raises an exception. *)
  Definition returns (f : wfun P) : Prop :=
    (forall args kw, wf_plain P f args kw <> Diverge) /\
    (forall args kw g, fst (wf_rng P f args kw g) <> Diverge).

  (** The methods of the user's class always return, or raise an exception. *)
  Definition methods_return (c : uclass P) : Prop :=
    (forall s, fst (uc_emit P c s) <> Diverge) /\
    (forall n s, fst (uc_emit_many P c n s) <> Diverge).

  (** The weights that belong to cumulative weights. *)
  Fixpoint differences (prev : pW P) (l : list (pW P)) : list (pW P) :=
    match l with [] => [] | w :: t => w_sub P w prev :: differences w t end.
  Definition accepted (cumulative : bool) (ws : option (list (pW P))) : Prop :=
    forall l, ws = Some l -> Forall acc (if cumulative then differences (w_zero P) l else l).

  (** What the user gives is harmless: their functions and methods end, their iterators do not
      come empty for ever, their weights are acceptable, and they have fewer
      than [bound] items to choose from.  Nothing else is asked of commands. *)
  Definition harmless (c : command P) : Prop :=
    match c with
    | NewIterative _ f _ => productive f
    | NewChoice _ _ items ws _ _ _ cum =>
        (length items < bound)%nat /\ accepted false ws /\ accepted true cum
    | NewWrapOne _ _ f _ | NewWrapMany _ _ f _ | NewBasedOnFields _ _ _ f _ | SetFunction _ _ f => returns f
    | NewUser _ c _ _ => methods_return c
    | SetEmitter _ _ (SFactory _ f) => productive f /\ one_kind f
    | SetEmitter _ _ (SChoice _ (CWeights _ ws)) => accepted false ws
    | SetEmitter _ _ (SChoice _ (CCumWeights _ ws)) => accepted true ws
    | _ => True
    end.

  (** The objects that the commands refer to exist when they are executed. *)
  Fixpoint all_possible (fuel : nat) (l : list (command P)) (w : world P) : Prop :=
    match l with
    | [] => True
    | c :: t => possible P c w /\ all_possible fuel t (snd (show P fuel str_of c w))
    end.
End Spec.
