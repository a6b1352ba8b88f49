(** * Model of class BoundWrapper as an object of its own:
    /repo/src/fauxdoc/emitters/wrappers.py:27-154, with the attributes wrapper of
    WrapOne and WrapMany (wrappers.py:259-289, 365-396) and action of
    BasedOnFields (/repo/src/fauxdoc/emitters/fromfields.py:228-264).

    World.v gives every emitter a wrapper of its own.  Here wrappers are objects
    that a program can pass on, assign to other emitters and change.  An emitter is
    reduced to its generator and its wrapper; the values its sources emit are
    arguments of the commands. *)
From Verif Require Import Base Prims Values GroupModel SigModel WrapModel.
Open Scope list_scope.
Open Scope Z_scope.

Section Bind.
  (** The state of a random.Random *)
  Context {R : Type}.

  (** A Python function (see SigModel.ufun); the generator is all it can change. *)
  Record pyfun : Type := mkPyfun {
    py_sig : option signature;
    py_body : list val -> list (string * val) -> res val;
    py_body_rng : list val -> list (string * val) -> M R val
  }.

  (** Callables: functions; other callable objects, with an attribute named
      function; BoundWrappers. *)
  Inductive callable : Type :=
  | Fun (f : pyfun)
  | Obj (f : pyfun) (function : callable)
  | Wrapper (i : nat).

  Record wrapper : Type := mkWrapper { w_function : callable; w_bound_to : nat }.
  (** [e_start]: the state that reset puts the generator in (mixins.py:45); for
      emitters without a seed that would be another state every time *)
  Record emitter : Type := mkEmitter { e_start : R; e_rng : R; e_wrapper : option nat }.
  Record state : Type := mkState { wrappers : list wrapper; emitters : list emitter }.

  Definition upd {A} (l : list A) (i : nat) (f : A -> A) : list A :=
    match nth_error l i with
    | Some a => firstn i l ++ f a :: skipn (S i) l
    | None => l
    end.
  Definition set_emitter (e : nat) (f : emitter -> emitter) (s : state) : state :=
    mkState (wrappers s) (upd (emitters s) e f).
  Definition set_wrapper (i : nat) (f : wrapper -> wrapper) (s : state) : state :=
    mkState (upd (wrappers s) i f) (emitters s).

  (** inspect.signature of a callable, and whether it has a parameter named rng:
      wrappers.py:98-107.  Of an instance of BoundWrapper it is the signature of its
      __call__ (wrappers.py:119). *)
  Definition sig_of (c : callable) : option signature :=
    match c with
    | Fun f | Obj f _ => py_sig f
    | Wrapper _ => Some [mkParam "args" VarPos false; mkParam "kwargs" VarKw false]%string
    end.
  Definition wants (c : callable) : bool :=
    match sig_of c with Some sg => mem "rng" (map p_name sg) | None => false end.

  (** Calling a function (see SigModel.py_call), with the generator of emitter [e]
      for rng=... if there is one *)
  Definition run_fun (f : pyfun) (args : list val) (kwargs : list (string * val)) (rng : option nat) : M state val :=
    let kw := map fst kwargs ++ (match rng with Some _ => ["rng"%string] | None => [] end) in
    if match py_sig f with Some sg => call_fits sg (length args) kw | None => true end
    then match rng with
         | None => lift (py_body f args kwargs)
         | Some e => fun s =>
             match nth_error (emitters s) e with
             | Some x => let '(r, g) := py_body_rng f args kwargs (e_rng x) in
                         (r, set_emitter e (fun x => mkEmitter (e_start x) g (e_wrapper x)) s)
             | None => (Diverge, s)
             end
         end
    else raise TypeError.

  (** wrappers.py:119-122 [__call__].  A wrapper that is the function of another is
      called without rng, because its signature has no such parameter. *)
  Fixpoint call_wrapper (fuel : nat) (i : nat) (args : list val) (kwargs : list (string * val)) : M state val := fun s =>
    match fuel, nth_error (wrappers s) i with
    | S k, Some b =>
        match w_function b with
        | Fun f | Obj f _ =>
            if wants (w_function b) then
              if mem "rng" (map fst kwargs) then (Raise TypeError, s)
              else run_fun f args kwargs (Some (w_bound_to b)) s
            else run_fun f args kwargs None s
        | Wrapper j => call_wrapper k j args kwargs s
        end
    | _, _ => (Diverge, s)
    end.

  (** wrappers.py:124-154 [try_mock_call] *)
  Definition try_mock (i : nat) (args : list val) (kwargs : list (string * val)) : M state unit := fun s =>
    match nth_error (wrappers s) i with
    | Some b =>
        let c := w_function b in
        let keys := map fst kwargs in
        let keys := if wants c then (if mem "rng" keys then keys else keys ++ ["rng"%string]) else keys in
        match sig_of c, c with
        | Some sg, _ => (sig_bind sg (length args) keys, s)
        | None, (Fun f | Obj f _) => (_ <~ run_fun f args kwargs None ;; ret tt) s
        | None, Wrapper _ => (Ok tt, s)
        end
    | None => (Diverge, s)
    end.

  (** wrappers.py:64-81 [__init__]: a callable with an attribute function is
      replaced by this attribute. *)
  Definition new_wrapper (c : callable) (e : nat) : M state nat := fun s =>
    match (match c with
           | Fun _ => Some c
           | Obj _ g => Some g
           | Wrapper j => option_map w_function (nth_error (wrappers s) j)
           end) with
    | Some c => (Ok (length (wrappers s)), mkState (wrappers s ++ [mkWrapper c e]) (emitters s))
    | None => (Diverge, s)
    end.

  (** mixins.py:38-46 [reset] *)
  Definition reset (e : nat) : M state unit := fun s =>
    (Ok tt, set_emitter e (fun x => mkEmitter (e_start x) (e_start x) (e_wrapper x)) s).

  (** wrappers.py:275-289 and 382-396, fromfields.py:245-264: the setters of wrapper
      and action, for the given values of the sources *)
  Definition assign (e i : nat) (args : list val) (kwargs : list (string * val)) : M state unit :=
    try_finally (try_mock i args kwargs)
                ((fun s => (Ok tt, set_emitter e (fun x => mkEmitter (e_start x) (e_rng x) (Some i)) s)) ;;; reset e).

  (** wrappers.py:259-268, 365-374, fromfields.py:228-238: set_wrapper_function and
      set_action_function *)
  Definition set_function (e : nat) (c : callable) (args : list val) (kwargs : list (string * val)) : M state unit :=
    i <~ new_wrapper c e ;; assign e i args kwargs.

  (** wrappers.py:291-293 and 398-401, fromfields.py:287-292 [emit] *)
  Definition emit (fuel e : nat) (args : list val) (kwargs : list (string * val)) : M state val := fun s =>
    match nth_error (emitters s) e with
    | Some x => match e_wrapper x with Some i => call_wrapper fuel i args kwargs s | None => (Diverge, s) end
    | None => (Diverge, s)
    end.

  (** What a program can do; it goes on after exceptions. *)
  Inductive command : Type :=
  | NewEmitter (start : R) (c : callable) (args : list val) (kwargs : list (string * val))
  | NewWrapper (c : callable) (e : nat)                         (* BoundWrapper(c, e) *)
  | SetFunction (e : nat) (c : callable) (args : list val) (kwargs : list (string * val))
  | AssignWrapper (e i : nat) (args : list val) (kwargs : list (string * val))   (* e.wrapper = i *)
  | AssignFunction (i : nat) (c : callable)                     (* i.function = c, wrappers.py:88-107 *)
  | AssignBound (i e : nat)                                     (* i.bound_to = e *)
  | Emit (e : nat) (args : list val) (kwargs : list (string * val))
  | Reset (e : nat).

  Definition exec (fuel : nat) (c : command) (s : state) : state :=
    match c with
    | NewEmitter r c args kwargs =>
        let s1 := mkState (wrappers s) (emitters s ++ [mkEmitter r r None]) in
        snd (set_function (length (emitters s)) c args kwargs s1)
    | NewWrapper c e => snd (new_wrapper c e s)
    | SetFunction e c args kwargs => snd (set_function e c args kwargs s)
    | AssignWrapper e i args kwargs => snd (assign e i args kwargs s)
    | AssignFunction i c => set_wrapper i (fun b => mkWrapper c (w_bound_to b)) s
    | AssignBound i e => set_wrapper i (fun b => mkWrapper (w_function b) e) s
    | Emit e args kwargs => snd (emit fuel e args kwargs s)
    | Reset e => snd (reset e s)
    end.
  Definition runs (fuel : nat) (p : list command) (s : state) : state := fold_left (fun s c => exec fuel c s) p s.
End Bind.
Arguments pyfun : clear implicits.
Arguments callable : clear implicits.
Arguments wrapper : clear implicits.
Arguments emitter : clear implicits.
Arguments state : clear implicits.
Arguments command : clear implicits.
