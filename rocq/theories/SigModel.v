(** * Call signatures: Python's own rules, inspect.Signature.bind, and the model
    of class BoundWrapper, /repo/src/fauxdoc/emitters/wrappers.py:27-154. *)
From Verif Require Import Base Prims Values GroupModel.
From Coq Require Export String List.
Open Scope string_scope.
Open Scope list_scope.
Open Scope Z_scope.

Inductive kind : Set := PosOnly | PosOrKw | VarPos | KwOnly | VarKw.
Record param : Set := mkParam { p_name : string; p_kind : kind; p_default : bool }.
Definition signature : Set := list param.

Definition mem (x : string) (l : list string) : bool := existsb (String.eqb x) l.
Definition without (x : string) (l : list string) : list string := filter (fun y => negb (String.eqb x y)) l.

(** CPython 3.11 Lib/inspect.py [Signature._bind], first phase: [n] positional
    arguments and the keywords [kw] against the parameters; the parameters left
    for the second phase. *)
Fixpoint bind_positional (ps : signature) (n : nat) (kw : list string) : res signature :=
  match n with
  | O =>
      match ps with
      | [] => Ok []
      | p :: t =>
          match p_kind p with
          | VarPos => Ok t
          | _ =>
              if mem (p_name p) kw then
                match p_kind p with PosOnly => Raise TypeError | _ => Ok (p :: t) end
              else
                match p_kind p with
                | VarKw => Ok (p :: t)
                | _ => if p_default p then Ok (p :: t) else Raise TypeError
                end
          end
      end
  | S n =>
      match ps with
      | [] => Raise TypeError
      | p :: t =>
          match p_kind p with
          | VarKw | KwOnly => Raise TypeError
          | VarPos => Ok t
          | PosOnly => bind_positional t n kw
          | PosOrKw => if mem (p_name p) kw then Raise TypeError else bind_positional t n kw
          end
      end
  end.

(** Second phase: the remaining parameters against the keywords. *)
Fixpoint bind_keywords (ps : signature) (kw : list string) (var_kw : bool) : res unit :=
  match ps with
  | [] => match kw with [] => Ok tt | _ => if var_kw then Ok tt else Raise TypeError end
  | p :: t =>
      match p_kind p with
      | VarKw => bind_keywords t kw true
      | VarPos => bind_keywords t kw var_kw
      | k =>
          if mem (p_name p) kw then
            match k with PosOnly => Raise TypeError | _ => bind_keywords t (without (p_name p) kw) var_kw end
          else if p_default p then bind_keywords t kw var_kw else Raise TypeError
      end
  end.

(** [signature.bind( *args, **kwargs )] with [n] positional arguments and keywords
    [kw] *)
Definition sig_bind (sg : signature) (n : nat) (kw : list string) : res unit :=
  ps <- bind_positional sg n kw ;; bind_keywords ps kw false.

(** The Python language reference, section 6.3.4 (Calls): does a call with [n]
    positional arguments and the (distinct) keywords [kw] fit the parameters? *)
Definition is_positional (p : param) : bool :=
  match p_kind p with PosOnly | PosOrKw => true | _ => false end.
Definition by_keyword (p : param) : bool :=
  match p_kind p with PosOrKw | KwOnly => true | _ => false end.
Definition has_kind (k : kind) (sg : signature) : bool :=
  existsb (fun p => match k, p_kind p with
                    | PosOnly, PosOnly | PosOrKw, PosOrKw | VarPos, VarPos | KwOnly, KwOnly | VarKw, VarKw => true
                    | _, _ => false end) sg.

Definition call_fits (sg : signature) (n : nat) (kw : list string) : bool :=
  let positional := filter is_positional sg in
  let filled := firstn n positional in
  let kwonly := filter (fun p => match p_kind p with KwOnly => true | _ => false end) sg in
  (* not more positional arguments than there is room for *)
  ((n <=? length positional)%nat || has_kind VarPos sg)
  (* every keyword names a parameter not filled yet, or goes to the variable keywords *)
  && forallb (fun k => if mem k (map p_name (filter by_keyword sg))
                       then negb (mem k (map p_name (filter by_keyword filled)))
                       else has_kind VarKw sg) kw
  (* every other parameter gets a value from a keyword or has a default *)
  && forallb (fun p => p_default p || (by_keyword p && mem (p_name p) kw)) (skipn n positional ++ kwonly).

Section BoundWrapper.
  Context {S : Type}.

  (** A user's callable.  [u_sig] is None for built-ins without a signature.  The
      body gets positional and keyword arguments; [u_body_rng] is its behaviour
      when it is also given the rng object. *)
  Record ufun : Type := mkUfun {
    u_sig : option signature;
    u_body : list val -> list (string * val) -> M S val;
    u_body_rng : list val -> list (string * val) -> M S val
  }.

  (** wrappers.py:98-107 [wants_rng] *)
  Definition wants_rng (u : ufun) : bool :=
    match u_sig u with
    | Some sg => mem "rng" (map p_name sg)
    | None => false
    end.

  (** Calling a Python function: arguments that do not fit are a TypeError.  A
      function without signature judges the arguments itself. *)
  Definition py_call (u : ufun) (args : list val) (kwargs : list (string * val)) (rng : bool) : M S val :=
    let kw := map fst kwargs ++ (if rng then ["rng"] else []) in
    if match u_sig u with Some sg => call_fits sg (length args) kw | None => true end
    then if rng then u_body_rng u args kwargs else u_body u args kwargs
    else raise TypeError.

  (** wrappers.py:119-122 [__call__].  [rng=..., **kwargs] with a key 'rng' in
      kwargs is a TypeError. *)
  Definition wrapper_call (u : ufun) (args : list val) (kwargs : list (string * val)) : M S val :=
    if wants_rng u then
      if mem "rng" (map fst kwargs) then raise TypeError else py_call u args kwargs true
    else py_call u args kwargs false.

  (** wrappers.py:124-154 [try_mock_call]; line 142 overwrites a key 'rng'.  (The
      assignment kwargs['rng'] keeps the position of an existing key; only the
      set of keys matters here.) *)
  Definition try_mock_call (u : ufun) (args : list val) (kwargs : list (string * val)) : M S unit :=
    let keys := map fst kwargs in
    let keys := if wants_rng u then (if mem "rng" keys then keys else keys ++ ["rng"]) else keys in
    match u_sig u with
    | None => _ <~ u_body u args kwargs ;; ret tt
    | Some sg => lift (sig_bind sg (length args) keys)
    end.
End BoundWrapper.
Arguments ufun : clear implicits.
