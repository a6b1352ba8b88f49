(** * Model of /repo/src/fauxdoc/group.py.

    A group is a list of members; a member is an object reference or None.  What
    objects are, and what getting, setting and calling their attributes does to
    the program state [S], is left open: the caller of this model says so.  For
    an ObjectMap the members are its values in the order of the dict
    (group.py:108-111), for an ObjectGroup the list itself (group.py:81-84; for
    methods that change the group they are called through, see [live_do_method] in
    GroupList.v and theorem C78_live). *)
From Verif Require Import Base Prims.

Section Group.
  Context {S O V : Type}.

  (** group.py:25-37 [setattr]; [has] is hasattr(obj, attr_name), [set] is
      setattr(obj, attr_name, attr_value). *)
  Fixpoint group_setattr (has : O -> S -> bool) (set : O -> M S unit) (objs : list (option O)) : M S unit :=
    match objs with
    | [] => ret tt
    | None :: t => group_setattr has set t
    | Some o :: t =>
        (fun s => if has o s then set o s else (Ok tt, s)) ;;;
        group_setattr has set t
    end.

  (** [try: m except AttributeError: pass] *)
  Definition catch_attribute_error (m : M S unit) : M S unit := fun s =>
    match m s with
    | (Raise AttributeError, s') => (Ok tt, s')
    | r => r
    end.

  (** group.py:39-56 [do_method]; [meth o s] is the bound method
      getattr(obj, method_name) applied to the arguments, [None] if there is no
      such attribute. *)
  Fixpoint group_do_method (meth : O -> S -> option (M S unit)) (objs : list (option O)) : M S unit :=
    match objs with
    | [] => ret tt
    | None :: t => group_do_method meth t
    | Some o :: t =>
        catch_attribute_error (fun s => match meth o s with Some m => m s | None => (Raise AttributeError, s) end) ;;;
        group_do_method meth t
    end.
End Group.

(** OrderedDict as an association list in insertion order (keys distinct). *)
Section Dict.
  Context {K V : Type} (eqb : K -> K -> bool).

  (** [d[k] = v]: replaces in place or appends. *)
  Fixpoint dict_set (k : K) (v : V) (d : list (K * V)) : list (K * V) :=
    match d with
    | [] => [(k, v)]
    | (k', v') :: t => if eqb k k' then (k', v) :: t else (k', v') :: dict_set k v t
    end.

  (** [d.update(e)] and, from the empty dict, the dict comprehension: successive
      assignments. *)
  Definition dict_update (d e : list (K * V)) : list (K * V) :=
    fold_left (fun d kv => dict_set (fst kv) (snd kv) d) e d.

  (** [d[k]]; [None] is KeyError. *)
  Fixpoint dict_get (k : K) (d : list (K * V)) : option V :=
    match d with
    | [] => None
    | (k', v) :: t => if eqb k k' then Some v else dict_get k t
    end.
End Dict.
