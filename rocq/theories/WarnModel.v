(** * Model of /repo/src/fauxdoc/warn.py and of the registries of deprecated
    names in /repo/src/fauxdoc/emitters/wrappers.py, emitters/__init__.py and
    typing.py. *)
From Verif Require Import Base Prims GroupModel.
From Coq Require Export String List.
Open Scope string_scope.
Open Scope list_scope.
Open Scope Z_scope.

(** Warnings given so far, oldest first: category and message.  (With a warning
    filter that turns warnings into exceptions, warnings.warn would raise; that
    is not modelled.) *)
Inductive category : Set := DeprecationWarning.
Definition warnings : Type := list (category * string).

Section Warn.
  Context {V : Type}.
  (** A registry maps a name to the name of the replacement, if any, and to the
      object. *)
  Definition registry : Type := list (string * (option string * V)).

  (** warn.py:6-59 [get_deprecated_attr].  The text of the AttributeError
      (57-59) is left out, and with it the parameter from_type_name. *)
  Definition get_deprecated_attr (attr_name from_obj_name : string) (deprecated : registry)
    : M warnings V := fun ws =>
    match dict_get String.eqb attr_name deprecated with
    | Some (new_name, attr_value) =>
        let replace_str :=
          match new_name with
          | Some n => if (n =? "")%string then "" else (" Please use " ++ n ++ " instead.")%string
          | None => ""
          end in
        (Ok attr_value,
         (ws ++ [(DeprecationWarning,
                  from_obj_name ++ "." ++ attr_name ++ " is deprecated and will be removed in the next major version release."
                  ++ replace_str)%string])%list)
    | None => (Raise AttributeError, ws)
    end.

  (** wrappers.py:416-418 [DEPRECATED]; [wrap] is the class _deprecated_Wrap. *)
  Definition wrappers_deprecated (wrap : V) : registry := [("Wrap", (Some "WrapOne or WrapMany", wrap))].

  (** emitters/__init__.py:38-39 [DEPRECATED] *)
  Definition emitters_deprecated (wrap : V) : registry :=
    dict_update String.eqb [] (wrappers_deprecated wrap).

  (** typing.py:118-124 [DEPRECATED]; the objects are float, the Union at line
      116 and three instances of EmitterLike. *)
  Definition typing_deprecated (float_ union str_ int_ bool_ : V) : registry :=
    [("Number", (Some "float", float_));
     ("EmitterLikeCallable", (Some "EmitterLike", union));
     ("StrEmitterLike", (Some "EmitterLike[str]", str_));
     ("IntEmitterLike", (Some "EmitterLike[int]", int_));
     ("BoolEmitterLike", (Some "EmitterLike[bool]", bool_))].

  (** The module-level [__getattr__] of wrappers.py:424-425, emitters/__init__.py:42-50
      and typing.py:127-128. *)
  Definition module_getattr (module : string) (deprecated : registry) (name : string) : M warnings V :=
    get_deprecated_attr name module deprecated.
End Warn.
Arguments registry : clear implicits.
