(** * Replacing the children of an emitter through its mapping [emitters]. *)
From Coq Require Import String.
From Verif Require Import Base Prims Values ChoiceModel FixedModel GroupModel SigModel WrapModel TextModel
  World WorldSpec.
Open Scope list_scope.
Open Scope Z_scope.

Section Children.
  Context (P : prims) (fuel : nat) (str_of : val -> res (list Z)).
  Notation world := (World.world P).
  Notation emitter := (World.emitter P).

  (** The property [emitters] (mixins.py:127-130): the ObjectMap (an OrderedDict,
      group.py:87-111) made in the constructor (mixins.py:122-124) from
      text.py:92-95, 190-194, wrappers.py:256, 362.  [None]: the class does not have
      it.  (Classes of the user's with children are not modelled.) *)
  Definition child_map (e : emitter) : option (list (string * nat)) :=
    match e with
    | EWord _ l a _ _ => Some [("length", l); ("alphabet", a)]%string
    | EText _ n w s _ _ => Some [("numwords", n); ("word", w); ("sep", s)]%string
    | EWrapOne _ s _ _ => Some [("source", s)]%string
    | EWrapMany _ ss _ _ => Some ss
    | _ => None
    end.

  (** The same object with another content of that mapping.  A Word or Text without one
      of its labels or with more labels, or a WrapOne with another number of them, is
      not modelled ([None]). *)
  Definition with_children (m : list (string * nat)) (e : emitter) : option emitter :=
    match e, m with
    | EWord _ _ _ u nd, [(_, l); (_, a)] => Some (EWord P l a u nd)
    | EText _ _ _ _ u nd, [(_, n); (_, w); (_, s)] => Some (EText P n w s u nd)
    | EWrapOne _ _ f nd, [(_, s)] => Some (EWrapOne P s f nd)
    | EWrapMany _ _ f nd, _ => Some (EWrapMany P m f nd)
    | _, _ => None
    end.

  (** [del d[k]] of a dict *)
  Fixpoint dict_del (k : string) (d : list (string * nat)) : option (list (string * nat)) :=
    match d with
    | [] => None
    | (k', v) :: t => if String.eqb k k' then Some t else option_map (cons (k', v)) (dict_del k t)
    end.

  Definition put_children (i : nat) (m : list (string * nat)) : M world unit :=
    at_em P i (fun e => match with_children m e with
                        | Some e' => fun w => (Ok tt, put_em P i e' w)
                        | None => diverge
                        end).

  (** [em.emitters[label] = k]: the mapping is a plain OrderedDict, nothing else
      happens (group.py:87-111; compare profile.py:151-154). *)
  Definition set_child (i : nat) (label : string) (k : nat) : M world unit :=
    at_em P i (fun e => match child_map e with
                        | Some m => put_children i (dict_set String.eqb label k m)
                        | None => raise AttributeError
                        end).
  (** [del em.emitters[label]], of a WrapMany *)
  Definition del_child (i : nat) (label : string) : M world unit :=
    at_em P i (fun e => match child_map e with
                        | Some m => match dict_del label m with
                                    | Some m' => put_children i m'
                                    | None => raise KeyError
                                    end
                        | None => raise AttributeError
                        end).

  (** Emitters can now be parts of older emitters, and of themselves.  So the
      depth of nesting is not bounded by their number on the heap: everything is
      done with a bound [d], which stands for Python's recursion limit;
      [Diverge] is RecursionError. *)
  Definition call_at (d i : nat) : M world val := fst (emits P fuel str_of d) i.
  Definition calln_at (d i : nat) (n : Z) : M world (list val) :=
    call_number (fst (emits P fuel str_of d) i) (snd (emits P fuel str_of d) i) n.
  Definition reset_at (d i : nat) : M world unit := ereset P fuel d i.
  Definition seed_at_depth (d i : nat) (s : option (pSeed P)) : M world unit := eseed P fuel d s i.

  (** What can be done with emitters. *)
  Inductive act : Type :=
  | ACall (i : nat)                                   (* em() *)
  | ACallN (i : nat) (n : Z)                          (* em(n) *)
  | AReset (i : nat)                                  (* em.reset() *)
  | ASeed (i : nat) (s : option (pSeed P))            (* em.seed(s) *)
  | AAssign (i : nat) (s : option (pSeed P))          (* em.rng_seed = s *)
  | AReplace (i : nat) (label : string) (k : nat)     (* em.emitters[label] = k *)
  | ARemove (i : nat) (label : string).               (* del em.emitters[label] *)

  Definition perform (d : nat) (a : act) : M world answer :=
    match a with
    | ACall i => v <~ call_at d i ;; ret (Value v)
    | ACallN i n => l <~ calln_at d i n ;; ret (Values l)
    | AReset i => reset_at d i ;;; ret Done
    | ASeed i s => seed_at_depth d i s ;;; ret Done
    | AAssign i s => set_rng_seed P s i ;;; ret Done
    | AReplace i label k => set_child i label k ;;; ret Done
    | ARemove i label => del_child i label ;;; ret Done
    end.

  (** One after the other, whether or not some raise exceptions. *)
  Fixpoint acts (d : nat) (l : list act) (w : world) : list (res answer) * world :=
    match l with
    | [] => ([], w)
    | a :: t =>
        let '(r, w) := perform d a w in
        let '(rs, w) := acts d t w in (r :: rs, w)
    end.
  Definition acted (d : nat) (l : list act) (w : world) : world := snd (acts d l w).
End Children.
