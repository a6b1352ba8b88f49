(** * Model of /repo/src/fauxdoc/profile.py (Field, Schema) and of
    /repo/src/fauxdoc/emitters/fromfields.py (SourceFieldGroup, CopyFields,
    BasedOnFields): what the objects do with their parts, whatever these are.
    (Storing, resetting and seeding is in World.v.) *)
From Verif Require Import Base Prims Values GroupModel SigModel WrapModel.
Open Scope list_scope.

(** ** Field *)

(** The items attribute of an emitter: [None] if it has none; otherwise its
    elements, and whether it is a list (a tuple is never equal to a list). *)
Definition items_attr : Type := option (bool * list val).

(** profile.py:134-139 [multi_valued], from the items of repeat_emitter *)
Definition multi_valued (repeat_items : items_attr) : bool :=
  match repeat_items with
  | Some (true, [VNone]) => false
  | Some _ => true
  | None => true
  end.

Section Field.
  Context {S : Type}.
  Context (gate_call repeat_call emitter_call : M S val) (emitter_call_n : Z -> M S (list val)).
  Context (set_cache : val -> M S unit).

  (** profile.py:183-198 [__call__] *)
  Definition field_call : M S val :=
    g <~ gate_call ;;
    if truthy g then
      r <~ repeat_call ;;
      v <~ call_val emitter_call emitter_call_n r ;;
      set_cache v ;;;
      ret v
    else
      set_cache VNone ;;;
      ret VNone.
End Field.

(** ** Schema *)

Section Schema.
  Context {S F : Type}.
  Context (name : F -> string) (hide : F -> S -> bool) (call : F -> M S val).

  (** profile.py:247-254 [add_fields] *)
  Definition add_fields (fields : list (string * F)) (new : list F) : list (string * F) :=
    dict_update String.eqb fields (dict_update String.eqb [] (map (fun f => (name f, f)) new)).

  (** profile.py:232-245 [set_fields] *)
  Definition set_fields (new : list F) : list (string * F) := add_fields [] new.

  (** profile.py:256-286 [hidden_fields], [public_fields] *)
  Definition hidden_fields (fields : list (string * F)) (s : S) : list (string * F) :=
    filter (fun nf => hide (snd nf) s) fields.
  Definition public_fields (fields : list (string * F)) (s : S) : list (string * F) :=
    filter (fun nf => negb (hide (snd nf) s)) fields.

  (** profile.py:302-318 [__call__]: the loop, with the document so far *)
  Fixpoint schema_loop (fields : list (string * F)) (doc : list (string * val)) : M S (list (string * val)) :=
    match fields with
    | [] => ret doc
    | (fname, f) :: t =>
        v <~ call f ;;
        (fun s => schema_loop t (if hide f s then doc else dict_set String.eqb fname v doc) s)
    end.
  Definition schema_call (fields : list (string * F)) : M S (list (string * val)) :=
    schema_loop fields [].
End Schema.

(** ** CopyFields *)

(** fromfields.py:45-64 [single_valued], from how the group was initialized and
    the multi_valued of each field *)
Definition single_valued (init_single : bool) (multi : list bool) : bool :=
  match multi with
  | [m] => if init_single then negb m else false
  | _ => false
  end.

(** fromfields.py:140-146, the values one field contributes *)
Definition flat_values (v : val) : list val :=
  match v with
  | VNone => []
  | VList l | VTuple l => l
  | v => [v]
  end.

(** fromfields.py:136-149 [emit].  [src]: for each source field, multi_valued and
    previous; [str_of] is [str(v)]. *)
Definition copy_emit (str_of : val -> res (list Z)) (init_single : bool) (separator : option (list Z))
    (src : list (bool * val)) : res val :=
  if single_valued init_single (map fst src) then
    match src with (_, v) :: _ => Ok v | [] => Raise IndexError end
  else
    let vals := flat_map flat_values (map snd src) in
    match separator with
    | None => Ok (match vals with [] => VNone | _ => VList vals end)
    | Some sep => ss <- mapM str_of vals ;; Ok (VStr (join_with sep ss))
    end.

(** fromfields.py:151-157 and 294-300 [emit_many]: [[self.emit()] * number] *)
Definition repeat_emit {S} (emit : M S val) (number : Z) : M S (list val) :=
  v <~ emit ;; ret (list_rep [v] number).

(** ** BasedOnFields *)

Section Based.
  Context {S : Type}.

  (** The arguments for the action, from the names and values of the source
      fields (fromfields.py:254-259 and 288-292) *)
  Definition action_args (src : list (string * val)) : list val * list (string * val) :=
    match src with
    | [(_, v)] => ([v], [])
    | _ => ([], dict_update String.eqb [] src)
    end.

  (** fromfields.py:287-292 [emit]; [src] gives names and previous values *)
  Definition based_emit (src : S -> list (string * val)) (u : ufun S) : M S val := fun s =>
    let '(args, kwargs) := action_args (src s) in wrapper_call u args kwargs s.

  (** fromfields.py:245-265, the setter of action: it calls the source fields *)
  Definition based_set (src_call : list (string * M S val)) (install : ufun S -> M S unit) (reset : M S unit)
      (u : ufun S) : M S unit :=
    install u ;;;
    vals <~ mapS (fun nc => v <~ snd nc ;; ret (fst nc, v)) src_call ;;
    let '(args, kwargs) := action_args vals in
    try_finally (try_mock_call u args kwargs) reset.
End Based.
