(** * Specification vocabulary for fields and schemas. *)
From Verif Require Import Base Prims Values GroupModel SigModel.
Open Scope list_scope.

(** What a Python condition takes for false. *)
Definition falsy (v : val) : Prop :=
  v = VNone \/ v = VBool false \/ v = VInt 0 \/ v = VStr [] \/ v = VList [] \/ v = VTuple [].

(** The names of [l] that are not in [seen], each at its first occurrence. *)
Fixpoint new_names (seen l : list string) : list string :=
  match l with
  | [] => []
  | x :: t => if in_dec String.string_dec x seen then new_names seen t else x :: new_names (x :: seen) t
  end.

(** The last field of the list with this name. *)
Definition last_named {F} (name : F -> string) (n : string) (l : list F) : option F :=
  find (fun f => if String.string_dec (name f) n then true else false) (rev l).

(** What a value adds to a list of copied values: nothing if it is None, its
    elements if it is a list or tuple, itself otherwise. *)
Inductive adds : val -> list val -> Prop :=
| adds_none : adds VNone []
| adds_list l : adds (VList l) l
| adds_tuple l : adds (VTuple l) l
| adds_other v : v <> VNone -> (forall l, v <> VList l) -> (forall l, v <> VTuple l) -> adds v [v].

(** The strings joined by a separator. *)
Inductive joined (sep : list Z) : list (list Z) -> list Z -> Prop :=
| joined_none : joined sep [] []
| joined_one s : joined sep [s] s
| joined_more s s2 t r : joined sep (s2 :: t) r -> joined sep (s :: s2 :: t) (s ++ sep ++ r).
