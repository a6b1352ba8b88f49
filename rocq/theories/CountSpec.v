(** * Words for stating how many values come back: programs that never ask for a
    negative number of anything. *)
From Coq Require Import String.
From Verif Require Import Base Prims Values ChoiceModel FixedModel SigModel World WorldSpec WorldBuild.
Open Scope list_scope.
Open Scope Z_scope.

Section Spec.
  Context (P : prims) (fuel : nat) (str_of : val -> res (list Z)).

  (** Judging by its settings, the emitter emits nothing but values with the
      property [Q]: the value of a Static, the items of a Choice, the elements of
      the iterators of Iterative and Sequential, the values returned by the
      function of a wrapper or by the methods of a user's class; words and texts are strings. *)
  Definition only (Q : val -> Prop) (e : emitter P) : Prop :=
    match e with
    | EStatic _ s => Q (st_value s)
    | EIter _ i => forall c p v, it_at (i_factory i c) p = Some v -> Q v
    | ESeq _ _ s => forall c p v, it_at (seq_factory s c) p = Some v -> Q v
    | EChoice _ _ c => forall v, In v (c_items c) -> Q v
    | EWrapOne _ _ f _ | EWrapMany _ _ f _ | EBased _ _ _ f _ =>
        (forall args kw v, wf_plain P f args kw = Ok v -> Q v) /\
        (forall args kw g v, fst (wf_rng P f args kw g) = Ok v -> Q v)
    | EWord _ _ _ _ _ | EText _ _ _ _ _ _ => forall s, Q (VStr s)
    | ECopy _ _ _ _ => forall v, Q v
    | EUser _ c _ _ =>
        (forall s v, fst (uc_emit P c s) = Ok v -> Q v) /\
        (forall s n l v, fst (uc_emit_many P c n s) = Ok l -> In v l -> Q v)
    end.
  Definition only_at (w : world P) (i : nat) (Q : val -> Prop) : Prop := forall e, get_em P i w = Some e -> only Q e.

  (** If [v] is an integer, then it is at least [k]. *)
  Definition at_least (k : Z) (v : val) : Prop := forall z, as_int v = Ok z -> k <= z.

  (** The [emit_many] of a user's class returns as many values as it is asked for. *)
  Definition counting (c : uclass P) : Prop :=
    forall n s l, 0 <= n -> fst (uc_emit_many P c n s) = Ok l -> zlen l = n.

  (** The lengths of words are not negative, the numbers of words in a text are
      positive, and a field repeats its emitter not a negative number of times; the classes users
      have written return the number of values they are asked for. *)
  Definition sized (w : world P) : Prop :=
    (forall i l a u nd, get_em P i w = Some (EWord P l a u nd) -> only_at w l (at_least 0)) /\
    (forall i n x s u nd, get_em P i w = Some (EText P n x s u nd) -> only_at w n (at_least 1)) /\
    (forall f x, get_fd P f w = Some x -> only_at w (f_rep P x) (at_least 0)) /\
    (forall i c own nd, get_em P i w = Some (EUser P c own nd) -> counting c).

  (** Commands that keep to this: nobody asks for a negative number, the emitters
      given for lengths, numbers of words and repetitions are as required and stay
      so when settings are changed; changes of the settings of a Choice are not
      refused.  (A command that leaves everything as it was, such as a refused
      assignment of a wrong number of weights, leads to no new state anyway.) *)
  Definition proper (c : command P) (w : world P) : Prop :=
    match c with
    | Do _ (EmitN _ _ n) => 0 <= n
    | NewWord _ l _ _ => only_at w l (at_least 0)
    | NewText _ n _ _ _ => only_at w n (at_least 1)
    | NewField _ _ _ (Some r) _ _ _ => only_at w r (at_least 0)
    | SetPart _ _ PRepeat r => only_at w r (at_least 0)
    | SetFunction _ i f => sized (snd (install P i f w))
    | SetEmitter _ i (SChoice _ _) => fst (exec P fuel str_of c w) = Ok tt
    | SetEmitter _ i _ => sized (snd (exec P fuel str_of c w))
    | NewUser _ c _ _ => counting c
    | _ => True
    end.

  (** The states such programs reach. *)
  Inductive orderly : world P -> Prop :=
  | orderly_start r : orderly (mkWorld P [] [] (run_entropy r))
  | orderly_step c w : orderly w -> possible P c w -> proper c w -> orderly (snd (exec P fuel str_of c w)).
End Spec.
