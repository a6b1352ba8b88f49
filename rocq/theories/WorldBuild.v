(** * Programs: creating objects and changing their settings, in any order and
    number, together with everything in WorldSpec.op. *)
From Coq Require Import String.
From Verif Require Import Base Prims Values ChoiceModel FixedModel GroupModel SigModel WrapModel
  TextModel FieldModel World WorldSpec.
Open Scope list_scope.
Open Scope Z_scope.

Section Build.
  Context (P : prims) (fuel : nat) (str_of : val -> res (list Z)).

  (** ** Settings of a single emitter *)

  Inductive choice_setting : Type :=
  | CWeights (ws : option (list (pW P))) | CCumWeights (ws : option (list (pW P)))
  | CReplace (b : bool) | CRoac (b : bool).

  Inductive setting : Type :=
  | SStatic (v : val)                 (* Static: em.value = v *)
  | SFactory (f : factory val)        (* Iterative, Sequential: em.iterator_factory = f *)
  | SRac (b : bool)                   (* Iterative, Sequential: em.reset_after_call = b *)
  | SChoice (s : choice_setting).     (* Choice *)

  (** fixed.py:39-43 (Static.value), 152-157 and 278-301 (iterator_factory),
      reset_after_call (a plain attribute); choice.py:129-231.  An attribute the
      emitter does not have: the model says [AttributeError]. *)
  Definition em_set (id : nat) (s : setting) : M (world P) unit :=
    at_em P id (fun e =>
      match e, s with
      | EStatic _ _, SStatic v =>
          modify_em P id (fun e => match e with EStatic _ x => EStatic P (static_set_value v x) | e => e end)
      | EIter _ _, SFactory f => run_iter P id (iter_set_factory f)
      | EIter _ _, SRac b => run_iter P id (fun i => (Ok tt, iter_set_rac b i))
      | ESeq _ _ _, SFactory f =>   (* the items are a tuple then, line 299 *)
          run_seq P id (seq_set_factory f) ;;;
          modify_em P id (fun e => match e with ESeq _ _ q => ESeq P false q | e => e end)
      | ESeq _ _ _, SRac b => run_seq P id (fun i => (Ok tt, seq_set_rac b i))
      | EChoice _ _ _, SChoice (CWeights ws) => run_choice P id (set_weights P fuel ws false)
      | EChoice _ _ _, SChoice (CCumWeights ws) => run_choice P id (set_weights P fuel ws true)
      | EChoice _ _ _, SChoice (CReplace b) => run_choice P id (set_replace P fuel b)
      | EChoice _ _ _, SChoice (CRoac b) => run_choice P id (set_replace_only_after_call P fuel b)
      | _, _ => raise AttributeError
      end).

  Inductive command : Type :=
  | NewStatic (v : val)
  | NewIterative (f : factory val) (rac : bool)
  | NewSequential (islist : bool) (items : list val) (rac : bool)
  | NewChoice (islist : bool) (items : list val) (weights : option (list (pW P)))
      (replace roac : bool) (seed : option (pSeed P)) (cum_weights : option (list (pW P)))
  | NewWord (length_em alphabet_em : nat) (seed : option (pSeed P))
  | NewText (numwords_em word_em : nat) (sep_em : option nat) (seed : option (pSeed P))
  | NewWrapOne (source : nat) (f : wfun P) (seed : option (pSeed P))
  | NewWrapMany (sources : list (string * nat)) (f : wfun P) (seed : option (pSeed P))
  | NewCopyFields (single : bool) (source : list nat) (separator : option (list Z))
  | NewBasedOnFields (single : bool) (source : list nat) (f : wfun P) (seed : option (pSeed P))
  | NewField (name : string) (em : nat) (rep gate : option nat) (hide : bool) (seed : option (pSeed P))
  | SetEmitter (id : nat) (s : setting)
  | SetFunction (id : nat) (f : wfun P)       (* em.wrapper = ..., em.action = ... *)
  | SetPart (f : nat) (p : part) (id : nat)   (* field.emitter = ..., etc. *)
  | SetHide (f : nat) (b : bool)
  | ResetSource (id : nat)                    (* em.reset_source() *)
  | SeedSource (id : nat) (s : option (pSeed P))
  | SetSource (id : nat) (single : bool) (fs : list nat)   (* em.set_source_fields(...) *)
  | SetSeparator (id : nat) (sep : option (list Z))        (* em.separator = sep *)
  | Do (o : op P)
  | NewUser (c : uclass P) (own : val) (random : option (option (pSeed P))).

  Definition exec (c : command) : M (world P) unit :=
    match c with
    | NewStatic v => new_static P v ;;; ret tt
    | NewIterative f rac => new_iter P f rac ;;; ret tt
    | NewSequential b items rac => new_seq P b items rac ;;; ret tt
    | NewChoice b items ws rep roac seed cum => new_choice P fuel b items ws rep roac seed cum ;;; ret tt
    | NewWord l a seed => new_word P fuel l a seed ;;; ret tt
    | NewText n x s seed => new_text P fuel n x s seed ;;; ret tt
    | NewWrapOne src f seed => new_wrapone P fuel str_of src f seed ;;; ret tt
    | NewWrapMany srcs f seed => new_wrapmany P fuel str_of srcs f seed ;;; ret tt
    | NewCopyFields b fs sep => new_copy P b fs sep ;;; ret tt
    | NewBasedOnFields b fs f seed => new_based P fuel str_of b fs f seed ;;; ret tt
    | NewField n e r g h seed => new_field P fuel n e r g h seed ;;; ret tt
    | SetEmitter id s => em_set id s
    | SetFunction id f => set_function P fuel str_of id f
    | SetPart f p id => fd_set_part P f p id
    | SetHide f b => fd_set_hide P f b
    | ResetSource id => em_reset_source P fuel id
    | SeedSource id s => em_seed_source P fuel id s
    | SetSource id b fs => set_source P id b fs
    | SetSeparator id sep => set_separator P id sep
    | Do o => run P fuel str_of o ;;; ret tt
    | NewUser c own random => new_user P fuel c own random ;;; ret tt
    end.

  (** The emitters and fields a command refers to exist. *)
  Definition emitters_of (c : command) : list nat :=
    match c with
    | NewWord l a _ => [l; a]
    | NewText n x s _ => n :: x :: match s with Some i => [i] | None => [] end
    | NewWrapOne src _ _ => [src]
    | NewWrapMany srcs _ _ => map snd srcs
    | NewField _ e r g _ _ => e :: match r with Some i => [i] | None => [] end ++ match g with Some i => [i] | None => [] end
    | SetEmitter id _ | SetFunction id _ | SetPart _ _ id | ResetSource id | SeedSource id _
    | SetSource id _ _ | SetSeparator id _ => [id]
    | Do (Emit _ id) | Do (EmitN _ id _) | Do (ResetEm _ id) | Do (SeedEm _ id _) | Do (SetSeedEm _ id _) => [id]
    | _ => []
    end.
  Definition fields_of (c : command) : list nat :=
    match c with
    | NewCopyFields _ fs _ | NewBasedOnFields _ fs _ _ | SetSource _ _ fs => fs
    | SetPart f _ _ | SetHide f _ => [f]
    | Do (Call _ f) | Do (Reset _ f) | Do (Seed _ f _) | Do (SetSeed _ f _) => [f]
    | Do (Doc _ fs) | Do (ResetFields _ fs) | Do (SeedFields _ fs _) => map snd fs
    | _ => []
    end.
  Definition possible (c : command) (w : world P) : Prop :=
    (forall i, In i (emitters_of c) -> (i < length (w_em P w))%nat) /\
    (forall f, In f (fields_of c) -> (f < length (w_fd P w))%nat).

  (** The states a program can reach, whatever exceptions are raised on the way. *)
  Inductive reachable : world P -> Prop :=
  | reach_start r : reachable (mkWorld P [] [] (run_entropy r))
  | reach_step c w : reachable w -> possible c w -> reachable (snd (exec c w)).

  (** Everything referred to exists, and what an emitter is made of is older than
      the emitter. *)
  Definition sound (w : world P) : Prop :=
    (forall i e k, get_em P i w = Some e -> In k (children P e) -> (k < i)%nat) /\
    (forall i e f, get_em P i w = Some e -> In f (source_of P e) -> (f < length (w_fd P w))%nat) /\
    (forall f x p, get_fd P f w = Some x -> In p (parts P x) -> (p < length (w_em P w))%nat).
End Build.

(** What can be done with an emitter and its parts, seeding only with seeds other
    than None; its factories give the same iterator at every call. *)
Section OneEmitter.
  Context (P : prims).
  Definition about_emitter (w : world P) (i : nat) (o : op P) : Prop :=
    match o with
    | Emit _ id | EmitN _ id _ | ResetEm _ id => belongs P w i id
    | SeedEm _ id s | SetSeedEm _ id s => belongs P w i id /\ s <> None
    | _ => False
    end.
  Definition pure_parts (w : world P) (i : nat) : Prop :=
    forall j e, belongs P w i j -> get_em P j w = Some e ->
      match e with
      | EIter _ i => pure_factory (i_factory i)
      | ESeq _ _ q => s_own q = true \/ pure_factory (s_factory q)
      | EUser _ c _ _ => restores P c
      | _ => True
      end.
End OneEmitter.
