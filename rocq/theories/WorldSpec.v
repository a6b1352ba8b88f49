(** * Words for stating properties about emitters, fields and schemas as objects. *)
From Coq Require Import String.
From Verif Require Import Base Prims Values ChoiceModel FixedModel World.
Open Scope list_scope.
Open Scope Z_scope.

Section Spec.
  Context (P : prims) (fuel : nat) (str_of : val -> res (list Z)).

  (** [j] is emitter [i] itself, one of its parts, one of their parts, ... *)
  Inductive belongs (w : world P) : nat -> nat -> Prop :=
  | belongs_self i : belongs w i i
  | belongs_part i e k j : get_em P i w = Some e -> In k (children P e) -> belongs w k j -> belongs w i j.

  (** The emitters used by a field, and the fields whose values they read. *)
  Definition uses (w : world P) (f j : nat) : Prop :=
    exists x p, get_fd P f w = Some x /\ In p (parts P x) /\ belongs w p j.
  Definition reads (w : world P) (f g : nat) : Prop :=
    exists j e, uses w f j /\ get_em P j w = Some e /\ In g (source_of P e).

  (** What can be done with the objects once they exist.  (Replacing parts of
      fields and functions of wrappers is configuration, and not among these.) *)
  Inductive op : Type :=
  | Emit (id : nat)                                       (* em() *)
  | EmitN (id : nat) (n : Z)                              (* em(n) *)
  | ResetEm (id : nat)                                    (* em.reset() *)
  | SeedEm (id : nat) (s : option (pSeed P))              (* em.seed(s) *)
  | SetSeedEm (id : nat) (s : option (pSeed P))           (* em.rng_seed = s *)
  | Call (f : nat)                                        (* field() *)
  | Reset (f : nat)                                       (* field.reset() *)
  | Seed (f : nat) (s : option (pSeed P))                 (* field.seed(s) *)
  | SetSeed (f : nat) (s : option (pSeed P))              (* field.rng_seed = s *)
  | Doc (fs : list (string * nat))                        (* schema() *)
  | ResetFields (fs : list (string * nat))                (* schema.reset_fields() *)
  | SeedFields (fs : list (string * nat)) (s : option (pSeed P)). (* schema.seed_fields(s) *)

  (** What comes back *)
  Inductive answer : Type :=
  | Done | Value (v : val) | Values (l : list val) | Document (d : list (string * val)).

  Definition run (o : op) : M (world P) answer :=
    match o with
    | Emit id => v <~ em_call P fuel str_of id ;; ret (Value v)
    | EmitN id n => l <~ em_call_n P fuel str_of id n ;; ret (Values l)
    | ResetEm id => em_reset P fuel id ;;; ret Done
    | SeedEm id s => em_seed P fuel id s ;;; ret Done
    | SetSeedEm id s => set_rng_seed P s id ;;; ret Done
    | Call f => v <~ fd_call P fuel str_of f ;; ret (Value v)
    | Reset f => fd_reset P fuel f ;;; ret Done
    | Seed f s => fd_seed P fuel f s ;;; ret Done
    | SetSeed f s => fd_set_seed P f s ;;; ret Done
    | Doc fs => d <~ sc_call P fuel str_of fs ;; ret (Document d)
    | ResetFields fs => sc_reset_fields P fuel fs ;;; ret Done
    | SeedFields fs s => sc_seed_fields P fuel fs s ;;; ret Done
    end.

  (** A history: one operation after the other, whether or not some raise
      exceptions.  The outcomes, and the state of the objects afterwards. *)
  Fixpoint history (l : list op) (w : world P) : list (res answer) * world P :=
    match l with
    | [] => ([], w)
    | o :: t =>
        let '(r, w) := run o w in
        let '(rs, w) := history t w in (r :: rs, w)
    end.
  Definition after (l : list op) (w : world P) : world P := snd (history l w).

  (** The emitter is in the state a reset leaves it in, with its seed being [s]:
      Iterative and Sequential are at the beginning, the rng is a new one made
      from the seed (from fresh entropy if there is none), Choice has set itself up
      using that rng, and an emitter of a user's class has been reset. *)
  Definition fresh (s : option (pSeed P)) (e : emitter P) : Prop :=
    match e with
    | EStatic _ _ | ECopy _ _ _ _ => True
    | EIter _ i => g_cur (i_gen i) = None
    | ESeq _ _ q => g_cur (s_gen q) = None
    | EChoice _ _ c =>
        exists c0 ent, c_seed c0 = s /\ c_items c0 = c_items c /\ choice_reset P fuel ent c0 = (Ok tt, c)
    | EWord _ _ _ _ nd | EText _ _ _ _ _ nd | EWrapOne _ _ _ nd | EWrapMany _ _ _ nd | EBased _ _ _ _ nd =>
        exists ent, nd = mkNode P s (rng_for P s ent)
    | EUser _ c own nd =>
        (exists own0, own = uc_reset P c own0) /\
        match nd with Some nd => exists ent, nd = mkNode P s (rng_for P s ent) | None => True end
    end.
  Definition fresh_at (s : option (pSeed P)) (w : world P) (id : nat) : Prop :=
    forall e, get_em P id w = Some e -> fresh s e.

  (** A factory that gives the same iterator whenever it is called. *)
  Definition pure_factory (f : factory val) : Prop := forall m n, f m = f n.
  (** A user's class whose reset restores one and the same state. *)
  Definition restores (c : uclass P) : Prop := forall a b, uc_reset P c a = uc_reset P c b.
  Definition pure_factories (w : world P) (f : nat) : Prop :=
    forall j e, uses w f j -> get_em P j w = Some e ->
      match e with
      | EIter _ i => pure_factory (i_factory i)
      | ESeq _ _ q => s_own q = true \/ pure_factory (s_factory q)
      | EUser _ c _ _ => restores c
      | _ => True
      end.
End Spec.

(** Two users working with the same objects in turns: what the second one sees. *)
Section Turns.
  Context (P : prims) (fuel : nat) (str_of : val -> res (list Z)).
  Fixpoint second_sees (h : list (op P + op P)) (w : world P) : list (res answer) :=
    match h with
    | [] => []
    | inl o :: t => second_sees t (snd (run P fuel str_of o w))
    | inr o :: t => let '(r, w) := run P fuel str_of o w in r :: second_sees t w
    end.
  Fixpoint second_does (h : list (op P + op P)) : list (op P) :=
    match h with
    | [] => []
    | inl o :: t => second_does t
    | inr o :: t => o :: second_does t
    end.

  (** Operations on the fields [fs], the emitters they use, and documents made of
      these fields. *)
  Definition about (w : world P) (fs : list nat) (o : op P) : Prop :=
    let emitter id := exists f, In f fs /\ uses P w f id in
    match o with
    | Emit _ id | EmitN _ id _ | ResetEm _ id | SeedEm _ id _ | SetSeedEm _ id _ => emitter id
    | Call _ f | Reset _ f | Seed _ f _ | SetSeed _ f _ => In f fs
    | Doc _ fs' | ResetFields _ fs' | SeedFields _ fs' _ => forall f, In f (map snd fs') -> In f fs
    end.

  (** The fields [gs] have nothing to do with the fields [fs]: they are other
      fields, use other emitters and do not read the values of [fs]. *)
  Definition independent (w : world P) (fs gs : list nat) : Prop :=
    forall f g, In f fs -> In g gs -> f <> g /\ ~ reads P w g f /\ forall j, uses P w f j -> ~ uses P w g j.
End Turns.

(** Operations on a schema: on its fields and the emitters they use, seeding only
    with seeds other than None. *)
Section Schemas.
  Context (P : prims).
  Definition about_schema (w : world P) (fs : list (string * nat)) (o : op P) : Prop :=
    let field f := In f (map snd fs) in
    let emitter id := exists f, field f /\ uses P w f id in
    match o with
    | Emit _ id | EmitN _ id _ | ResetEm _ id => emitter id
    | SeedEm _ id s | SetSeedEm _ id s => emitter id /\ s <> None
    | Call _ f | Reset _ f => field f
    | Seed _ f s | SetSeed _ f s => field f /\ s <> None
    | Doc _ fs' | ResetFields _ fs' => forall f, In f (map snd fs') -> field f
    | SeedFields _ fs' s => (forall f, In f (map snd fs') -> field f) /\ s <> None
    end.

  (** The fields of the schema read only fields of the schema. *)
  Definition self_contained (w : world P) (fs : list (string * nat)) : Prop :=
    forall f g, In f (map snd fs) -> reads P w f g -> In g (map snd fs).
End Schemas.

(** The individual steps of a history: a document is made by calling the fields
    one after the other, resetting and seeding the fields of a schema likewise;
    an exception ends it. *)
Section Steps.
  Context (P : prims) (fuel : nat) (str_of : val -> res (list Z)).
  Definition pieces (o : op P) : list (op P) :=
    match o with
    | Doc _ fs => map (fun nf => Call P (snd nf)) fs
    | ResetFields _ fs => map (fun nf => Reset P (snd nf)) fs
    | SeedFields _ fs s => map (fun nf => Seed P (snd nf) s) fs
    | o => [o]
    end.
  Fixpoint until_raise (l : list (op P)) (w : world P) : list (op P * res answer) * world P :=
    match l with
    | [] => ([], w)
    | o :: t =>
        match run P fuel str_of o w with
        | (Ok a, w) => let '(rs, w) := until_raise t w in ((o, Ok a) :: rs, w)
        | (r, w) => ([(o, r)], w)
        end
    end.
  Fixpoint steps (h : list (op P)) (w : world P) : list (op P * res answer) :=
    match h with
    | [] => []
    | o :: t => fst (until_raise (pieces o) w) ++ steps t (snd (run P fuel str_of o w))
    end.

  (** The value field [f] returned when it was last called, None if it has been
      reset since; [before] is what it was at the start. *)
  Definition last_returned (f : nat) (l : list (op P * res answer)) (before : val) : val :=
    fold_left (fun v step =>
      match step with
      | (Call _ g, Ok (Value x)) => if Nat.eqb g f then x else v
      | (Reset _ g, Ok _) => if Nat.eqb g f then VNone else v
      | _ => v
      end) l before.
End Steps.
