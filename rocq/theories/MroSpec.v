(** * MroSpec: the words in which C96 and C97 are stated. *)
From Coq Require Import String.
From Verif Require Import Base Prims GroupModel MroModel.
Local Open Scope string_scope.
Local Open Scope list_scope.

(** [a] can be got from [b] by leaving out elements. *)
Inductive subseq {A} : list A -> list A -> Prop :=
| sub_nil : forall l, subseq [] l
| sub_skip : forall a x l, subseq a l -> subseq a (x :: l)
| sub_keep : forall x a l, subseq a l -> subseq (x :: a) (x :: l).

(** In the list [l], [x] stands somewhere before [y]. *)
Definition before {A} (x y : A) (l : list A) : Prop :=
  exists p q r, l = p ++ x :: q ++ y :: r.

(** The classes there are after a program that imports the library and executes
    some class statements of its own. *)
Definition program_classes (t : table) : Prop :=
  exists stmts, Forall (fun s => exists n, fst s = CUser n) stmts /\
                class_stmts stmts library = Ok t.

(** A class that, if it has the method at all, passes the call on. *)
Definition passes_on (defs : cls -> option body) (c : cls) : Prop :=
  match defs c with Some b => b_super b <> NoSuper | None => True end.

(** The outcome of calling the method on an instance that has every attribute,
    and the statements executed, in order. *)
Definition record_act (a : act) : M (list act) unit := fun l => (Ok tt, l ++ [a]).
Definition statements (defs : cls -> option body) (mro : list cls) : res unit * list act :=
  invoke record_act defs mro [].

Definition act_eq_dec (a b : act) : {a = b} + {a <> b}.
Proof. repeat decide equality. Defined.

(** The user's methods contain the user's statements, not the library's. *)
Definition is_own (a : act) : Prop := exists n ns gs, a = Own n ns gs.
Definition own_body (o : option body) : Prop :=
  match o with Some b => Forall is_own (b_pre b ++ b_post b) | None => True end.
Definition own_init (o : option ibody) : Prop :=
  match o with Some b => Forall is_own (i_pre b ++ i_post b) | None => True end.
Definition own_only (u : users) : Prop :=
  forall n, own_body (u_reset u n) /\ own_body (u_seed u n) /\ own_init (u_init u n).

(** A class made of mixins, Emitter and the user's classes only. *)
Definition plain_class (c : cls) : Prop :=
  match c with
  | CObject | CGeneric | CAbc | CRandomMixin | CItemsMixin | CChildrenMixin
  | CRandomWithChildrenMixin | CEmitter | CUser _ => True
  | _ => False
  end.

(** The keywords a class takes for itself. *)
Definition takes (u : users) (c : cls) : list string :=
  match c with
  | CRandomMixin => ["rng_seed"]
  | CItemsMixin => ["items"]
  | CChildrenMixin => ["children"]
  | CUser n => match u_init u n with Some b => i_pops b | None => [] end
  | _ => []
  end.

(** An attribute that is set before any class of the order has returned from
    [super().__init__()]: a mixin's, or one that a user's [__init__] sets before
    it calls [super().__init__()]. *)
Definition set_early (u : users) (mro : list cls) (a : attr) : Prop :=
  (a = AtSeed /\ In CRandomMixin mro) \/
  (a = AtItems /\ In CItemsMixin mro) \/
  (a = AtKids /\ In CChildrenMixin mro) \/
  (exists n b s, In (CUser n) mro /\ u_init u n = Some b /\ In s (i_pre b) /\ In a (gives s)).

(** The user's classes in the order use only what is there: the statements
    before [super().__init__()] nothing, those after it and those of [reset] and [seed]
    what is set early, and those after the call of [super().reset()], as well as
    those of [seed], also [self.rng], when RandomMixin comes later in the order. *)
Definition uses (u : users) (mro : list cls) (extra : attr -> Prop) (l : list act) : Prop :=
  Forall (fun s => forall a, In a (needs s) -> set_early u mro a \/ extra a) l.
Definition user_fits (u : users) (mro : list cls) (n : nat) : Prop :=
  let rng_there := fun a => a = AtRng /\ before (CUser n) CRandomMixin mro in
  let nothing := fun _ : attr => False in
  match u_init u n with
  | Some b => Forall (fun s => needs s = []) (i_pre b) /\ uses u mro nothing (i_post b)
  | None => True
  end /\
  match u_reset u n with
  | Some b => uses u mro nothing (b_pre b) /\ uses u mro rng_there (b_post b)
  | None => True
  end /\
  match u_seed u n with
  | Some b => uses u mro rng_there (b_pre b) /\ uses u mro rng_there (b_post b)
  | None => True
  end.
Definition fits (u : users) (mro : list cls) : Prop :=
  forall n, In (CUser n) mro -> user_fits u mro n.

(** Nothing that comes before the class [m] in the order stops a call of
    [reset] from getting to it. *)
Definition reset_gets_to (u : users) (mro : list cls) (m : cls) : Prop :=
  In m mro /\ forall x, before x m mro -> passes_on (resets u) x.

(** A program's calls on one instance: [true] is [seed], [false] is [reset]. *)
Fixpoint make_calls (u : users) (mro : list cls) (calls : list bool) : M obj unit :=
  match calls with
  | [] => ret tt
  | is_seed :: t =>
      invoke perform_obj (if is_seed then seeds u else resets u) mro ;;; make_calls u mro t
  end.

(** The seed methods of the user's classes: one that calls [super().seed]
    without looking comes before RandomMixin. *)
Definition seed_finds_next (u : users) (mro : list cls) : Prop :=
  forall n b, In (CUser n) mro -> u_seed u n = Some b -> b_super b = Plain ->
              before (CUser n) CRandomMixin mro.

(** The attributes the mixins promise are there. *)
Definition complete (mro : list cls) (o : obj) : Prop :=
  (In CRandomMixin mro -> In AtSeed (has o) /\ In AtRng (has o)) /\
  (In CItemsMixin mro -> In AtItems (has o)) /\
  (In CChildrenMixin mro -> In AtKids (has o)).
