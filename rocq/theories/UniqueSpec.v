(** * The values that an emitter gives in the course of a program. *)
From Coq Require Import String.
From Verif Require Import Base Prims Values ChoiceModel FixedModel SigModel TextModel TextSpec World WorldSpec WorldBuild CountSpec ObjectSpec.
Open Scope list_scope.
Open Scope Z_scope.

Section Unique.
  Context (P : prims) (fuel : nat) (str_of : val -> res (list Z)).

  (** What calls of emitter [id] itself return in the course of a program. *)
  Definition gives (id : nat) (c : command P) (w : world P) : list val :=
    match c with
    | Do _ (Emit _ i) => if (i =? id)%nat then match fst (em_call P fuel str_of i w) with Ok v => [v] | _ => [] end else []
    | Do _ (EmitN _ i n) => if (i =? id)%nat then match fst (em_call_n P fuel str_of i n w) with Ok vs => vs | _ => [] end else []
    | _ => []
    end.
  Fixpoint given (id : nat) (l : list (command P)) (w : world P) : list val :=
    match l with
    | [] => []
    | c :: t => gives id c w ++ given id t (snd (exec P fuel str_of c w))
    end.
  (** The world afterwards. *)
  Fixpoint afterwards (l : list (command P)) (w : world P) : world P :=
    match l with [] => w | c :: t => afterwards t (snd (exec P fuel str_of c w)) end.

  (** The commands of the program are as CountSpec.orderly requires. *)
  Fixpoint in_order (l : list (command P)) (w : world P) : Prop :=
    match l with
    | [] => True
    | c :: t => possible P c w /\ proper P fuel str_of c w /\ in_order t (snd (exec P fuel str_of c w))
    end.

  (** No command assigns to the emitter or to what it is made of. *)
  Definition leaves_alone (w : world P) (id : nat) (l : list (command P)) : Prop :=
    forall j, belongs P w id j -> Forall (fun c => ~ assigns_to P j c) l.
End Unique.
