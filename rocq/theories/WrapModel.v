(** * Model of /repo/src/fauxdoc/emitters/wrappers.py: WrapOne and WrapMany.

    As in TextModel.v the sources are any EmitterLike objects, given by what
    calling them does to the program state [S]; [install] stores the wrapper in
    the emitter and [reset] is the emitter's reset method. *)
From Verif Require Import Base Prims Values GroupModel SigModel.
Open Scope list_scope.

(** [try: m finally: fin] (an exception of [fin] replaces that of [m]) *)
Definition try_finally {S A} (m : M S A) (fin : M S unit) : M S A := fun s =>
  match m s with
  | (Diverge, s1) => (Diverge, s1)
  | (r, s1) =>
      match fin s1 with
      | (Ok _, s2) => (r, s2)
      | (Raise e, s2) => (Raise e, s2)
      | (Diverge, s2) => (Diverge, s2)
      end
  end.

(** [range(number)] *)
Definition indices (number : Z) : list Z := map Z.of_nat (seq 0 (Z.to_nat number)).

Section WrapOne.
  Context {S : Type}.
  Context (source_call : M S val) (source_call_n : Z -> M S (list val)).

  (** wrappers.py:276-289, the setter of wrapper (and, through it,
      set_wrapper_function, lines 259-268) *)
  Definition wrapone_set (install : ufun S -> M S unit) (reset : M S unit) (u : ufun S) : M S unit :=
    try_finally (v <~ source_call ;; try_mock_call u [v] [])
                (install u ;;; reset).

  (** wrappers.py:291-293 [emit] *)
  Definition wrapone_emit (u : ufun S) : M S val :=
    v <~ source_call ;; wrapper_call u [v] [].

  (** wrappers.py:295-301 [emit_many] *)
  Definition wrapone_emit_many (u : ufun S) (number : Z) : M S (list val) :=
    vs <~ source_call_n number ;;
    mapS (fun v => wrapper_call u [v] []) vs.
End WrapOne.

Section WrapMany.
  Context {S : Type}.
  (** label, call and call with a number of each source, in the order of the
      ObjectMap *)
  Context (sources : list (string * (M S val * (Z -> M S (list val))))).

  Definition call_sources : M S (list (string * val)) :=
    mapS (fun kc => v <~ fst (snd kc) ;; ret (fst kc, v)) sources.

  (** wrappers.py:382-396, the setter of wrapper *)
  Definition wrapmany_set (install : ufun S -> M S unit) (reset : M S unit) (u : ufun S) : M S unit :=
    kwargs <~ call_sources ;;
    try_finally (try_mock_call u [] kwargs)
                (install u ;;; reset).

  (** wrappers.py:398-401 [emit] *)
  Definition wrapmany_emit (u : ufun S) : M S val :=
    kwargs <~ call_sources ;; wrapper_call u [] kwargs.

  (** wrappers.py:403-413 [emit_many] *)
  Definition wrapmany_emit_many (u : ufun S) (number : Z) : M S (list val) :=
    emdata <~ mapS (fun kc => vs <~ snd (snd kc) number ;; ret (fst kc, vs)) sources ;;
    mapS (fun i =>
            kwargs <~ lift (mapM (fun kv => v <- list_get (snd kv) i ;; Ok (fst kv, v)) emdata) ;;
            wrapper_call u [] kwargs)
         (indices number).
End WrapMany.
