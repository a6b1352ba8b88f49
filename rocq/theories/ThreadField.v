(** * Fields and schemas shared by threads.

    A field keeps its latest value in _cache, and __call__ returns what it finds there
    (profile.py:183-198); CopyFields reads _cache of its source through [previous]. *)
From Verif Require Import Base Prims ThreadModel.
Open Scope nat_scope.

Section Fields.
  Context {V E : Type}.

  (** A field with emitters of its own, which have the state [E] in common, or one whose
      emitter is CopyFields(f), [f] being the single-valued field number [j] of the schema
      (fromfields.py:136-139). *)
  Inductive kind : Type := Own (em : E -> res V * E) | CopyOf (j : nat).
  Record tfield : Type := mkTField { tf_name : nat; tf_hide : bool; tf_kind : kind }.
  Context (fields : list tfield).

  (** What the threads share: the state of the emitters and _cache of each field *)
  Record fshared : Type := mkFShared { f_state : E; f_cache : list V }.

  (** Where a thread is in a call of the schema (profile.py:302-318): at field number [k],
      with the document so far *)
  Inductive fplace : Type :=
  | Compute (k : nat) (doc : list (nat * V))          (* 194-195: gate, repeat and emitter *)
  | Store (k : nat) (doc : list (nat * V)) (v : V)    (* 195 or 197: writes _cache *)
  | Back (k : nat) (doc : list (nat * V)).            (* 198: reads _cache; 316-317 *)

  Definition schema_start (q : unit) : fplace := Compute 0 [].
  (** Simplified: gate, repeat emitter and emitter of a field are one step (what is wrong
      with emitters called by several threads is the subject of C101 to C103). *)
  Definition schema_step (l : fplace) (s : fshared) : (fplace + res (list (nat * V))) * fshared :=
    match l with
    | Compute k doc =>
        match nth_error fields k with
        | None => (inr (Ok doc), s)
        | Some f =>
            match tf_kind f with
            | Own em =>
                match em (f_state s) with
                | (Ok v, e) => (inl (Store k doc v), mkFShared e (f_cache s))
                | (Raise x, e) => (inr (Raise x), mkFShared e (f_cache s))
                | (Diverge, e) => (inr Diverge, mkFShared e (f_cache s))
                end
            | CopyOf j =>
                match nth_error (f_cache s) j with
                | Some v => (inl (Store k doc v), s)
                | None => (inr (Raise IndexError), s)
                end
            end
        end
    | Store k doc v => (inl (Back k doc), mkFShared (f_state s) (upd k v (f_cache s)))
    | Back k doc =>
        match nth_error fields k, nth_error (f_cache s) k with
        | Some f, Some v => (inl (Compute (S k) (if tf_hide f then doc else doc ++ [(tf_name f, v)])), s)
        | _, _ => (inr (Raise AttributeError), s)
        end
    end.
End Fields.
Arguments kind : clear implicits. Arguments tfield : clear implicits. Arguments fshared : clear implicits. Arguments fplace : clear implicits.
