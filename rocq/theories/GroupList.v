(** * Model of ObjectGroup and SourceFieldGroup as lists.

    group.py:59-84 and fromfields.py:17-64.  ObjectGroup inherits the methods of
    collections.UserList, a wrapper around a list [self.data]; those of
    SourceFieldGroup too.  The methods of UserList are those of CPython 3.11
    (Lib/collections/__init__.py:1174-1301, Lib/_collections_abc.py:1020-1035),
    not code of /repo; comments name them. *)
From Verif Require Import Base Prims GroupModel PyRange DtSpec.
Open Scope list_scope.
Open Scope Z_scope.

Section GroupList.
  Context {T : Type}.

  (** A member of a group: an object (or None), a list, or another group. *)
  Inductive member : Type :=
  | Item (x : T)
  | AList (l : list member)
  | AGroup (data : list member).

  (** group.py:70-79: [ObjectGroup(a, b, ...)], the new group's [data]. *)
  Definition object_group (objects : list member) : list member := objects.

  (** UserList: [g[i]] is [self.data[i]] for an index; [g[a:b:k]] is
      [self.__class__(self.data[a:b:k])]; [g + h] is [self.__class__(self.data +
      h.data)], with a list in place of [h] likewise; [g * n] is
      [self.__class__(self.data * n)]; [g.copy()] is [self.__class__(self)]. *)
  Definition og_get (data : list member) (i : Z) : res member := list_get data i.
  Definition og_slice (data : list member) (a b : option Z) (k : Z) : list member :=
    object_group [AList (sliced data a b k)].
  Definition og_add (data other : list member) : list member := object_group [AList (data ++ other)].
  Definition og_mul (data : list member) (n : Z) : list member :=
    object_group [AList (concat (repeat data (Z.to_nat n)))].
  Definition og_copy (data : list member) : list member := object_group [AGroup data].

  (** UserList: append, extend / +=, insert, pop, remove and clear work on
      [self.data]. *)
  Definition og_append (x : member) (data : list member) : list member := data ++ [x].
  Definition og_extend (l : list member) (data : list member) : list member := data ++ l.
  Definition og_insert (i : Z) (x : member) (data : list member) : list member :=
    let j := Z.to_nat (clip_bound (zlen data) i) in firstn j data ++ x :: skipn j data.
  Definition og_pop (i : Z) (data : list member) : res member * list member :=
    match norm_index (zlen data) i with
    | Some j => (list_get data i, firstn j data ++ skipn (S j) data)
    | None => (Raise IndexError, data)
    end.

  (** Sequence.__iter__, which UserList inherits: [g[0]], [g[1]], ... until
      IndexError.  [fuel] bounds the rounds. *)
  Fixpoint og_iter (fuel : nat) (i : Z) (data : list member) : res (list member) :=
    match fuel with
    | O => Diverge
    | S k =>
        match og_get data i with
        | Ok v => l <- og_iter k (i + 1) data ;; Ok (v :: l)
        | Raise IndexError => Ok []
        | Raise e => Raise e
        | Diverge => Diverge
        end
    end.

  (** fromfields.py:31-43: given a sequence, or one field *)
  Inductive fields_arg : Type := OneField (f : member) | Fields (l : list member).
  (** [data] and [_init_as_single_valued] *)
  Definition source_group (a : fields_arg) : list member * bool :=
    match a with
    | Fields l => (object_group l, false)
    | OneField f => (object_group [f], true)
    end.
  (** The same methods of UserList: [self.__class__] is given a list or, by
      copy(), the group, which is a Sequence as well. *)
  Definition sg_slice (g : list member * bool) (a b : option Z) (k : Z) := source_group (Fields (sliced (fst g) a b k)).
  Definition sg_add (g : list member * bool) (other : list member) := source_group (Fields (fst g ++ other)).
  Definition sg_mul (g : list member * bool) (n : Z) := source_group (Fields (concat (repeat (fst g) (Z.to_nat n)))).
  Definition sg_copy (g : list member * bool) := source_group (Fields (fst g)).
  (** fromfields.py:45-64 single_valued; [multi] is the field's multi_valued *)
  Definition single_valued (multi : member -> bool) (g : list member * bool) : bool :=
    match g with
    | ([f], true) => negb (multi f)
    | _ => false
    end.
End GroupList.
Arguments member : clear implicits.
Arguments fields_arg : clear implicits.

(** group.py:39-56 once more, do_method of an ObjectGroup, which goes through the
    group itself while it may change: [data] says what the group holds in a state
    of the program. *)
Section Live.
  Context {S O : Type} (data : S -> list (option O)) (meth : O -> S -> option (M S unit)).
  Fixpoint live_do_method (fuel : nat) (i : nat) : M S unit := fun s =>
    match fuel with
    | Datatypes.O => (Diverge, s)
    | Datatypes.S k =>
        match nth_error (data s) i with
        | None => (Ok tt, s)
        | Some None => live_do_method k (Datatypes.S i) s
        | Some (Some o) =>
            (catch_attribute_error (fun s => match meth o s with Some m => m s | None => (Raise AttributeError, s) end) ;;;
             live_do_method k (Datatypes.S i)) s
        end
    end.
End Live.
