(** * Python values as far as the emitters look into them.

    Not a model of a file of /repo; these are the built-in types and operations
    of Python that emitters/text.py, wrappers.py, fromfields.py and profile.py
    apply to emitted values. *)
From Verif Require Import Base Prims.

(** A str is the list of its code points.  [VOpaque n] is any other object,
    compared by identity, true, hashable and not usable as a number, a string or
    a sequence. *)
Inductive val : Type :=
| VNone
| VBool (b : bool)
| VInt (z : Z)
| VStr (s : list Z)
| VList (l : list val)
| VTuple (l : list val)
| VOpaque (n : Z).

(** [bool(v)] *)
Definition truthy (v : val) : bool :=
  match v with
  | VNone => false
  | VBool b => b
  | VInt z => negb (z =? 0)
  | VStr [] | VList [] | VTuple [] => false
  | _ => true
  end.

(** [v] used as an integer (bool is a subclass of int). *)
Definition as_int (v : val) : res Z :=
  match v with
  | VInt z => Ok z
  | VBool b => Ok (if b then 1 else 0)
  | _ => Raise TypeError
  end.

(** [sum(vs)] for values used as integers *)
Fixpoint sum_vals (vs : list val) : res Z :=
  match vs with
  | [] => Ok 0
  | v :: t => z <- as_int v ;; s <- sum_vals t ;; Ok (z + s)
  end.

Definition as_str (v : val) : res (list Z) :=
  match v with VStr s => Ok s | _ => Raise TypeError end.

(** [''.join(vs)] *)
Definition join_strs (vs : list val) : res (list Z) :=
  ss <- mapM as_str vs ;; Ok (concat ss).

(** [sep.join(ss)] *)
Fixpoint join_with (sep : list Z) (ss : list (list Z)) : list Z :=
  match ss with
  | [] => []
  | [s] => s
  | s :: t => s ++ sep ++ join_with sep t
  end.

(** [''.join(v)] for a value that may itself be a str (whose characters are
    then joined), a list or a tuple *)
Definition join_val (v : val) : res (list Z) :=
  match v with
  | VStr s => Ok s
  | VList l | VTuple l => join_strs l
  | _ => Raise TypeError
  end.

(** Decidable equality of values (structural). *)
Fixpoint val_eqb (a b : val) : bool :=
  match a, b with
  | VNone, VNone => true
  | VBool x, VBool y => Bool.eqb x y
  | VInt x, VInt y => x =? y
  | VStr x, VStr y => (fix go (x y : list Z) := match x, y with
                       | [], [] => true | i :: x, j :: y => (i =? j) && go x y | _, _ => false end) x y
  | VList x, VList y | VTuple x, VTuple y =>
      (fix go (x y : list val) := match x, y with
       | [], [] => true | i :: x, j :: y => val_eqb i j && go x y | _, _ => false end) x y
  | VOpaque x, VOpaque y => x =? y
  | _, _ => false
  end.

(** The key under which Python's set holds a value: True == 1 and False == 0, also
    inside of tuples; [None] if the value is not hashable (a list, or a tuple
    containing one). *)
Fixpoint hash_key (v : val) : option val :=
  match v with
  | VBool b => Some (VInt (if b then 1 else 0))
  | VList _ => None
  | VTuple l =>
      match (fix go (l : list val) : option (list val) :=
               match l with
               | [] => Some []
               | a :: t => match hash_key a, go t with Some k, Some ks => Some (k :: ks) | _, _ => None end
               end) l with
      | Some ks => Some (VTuple ks)
      | None => None
      end
  | _ => Some v
  end.

Fixpoint count_new (seen : list val) (ks : list val) : Z :=
  match ks with
  | [] => 0
  | k :: t => if existsb (val_eqb k) seen then count_new seen t else 1 + count_new (k :: seen) t
  end.

Fixpoint hash_keys (vs : list val) : option (list val) :=
  match vs with
  | [] => Some []
  | v :: t => match hash_key v, hash_keys t with Some k, Some ks => Some (k :: ks) | _, _ => None end
  end.

(** [len(set(vs))] *)
Definition val_setsize (vs : list val) : res Z :=
  match hash_keys vs with Some ks => Ok (count_new [] ks) | None => Raise TypeError end.

(** emitter.py:74-102 [__call__] with an arbitrary argument [v], for an emitter
    given by its two ways of being called.  (Simplification: an argument that is
    neither None nor an int is refused with TypeError right away; the code
    refuses it in the subclass, in Iterative and Sequential with ValueError.) *)
Definition call_val {S} (call : M S val) (call_n : Z -> M S (list val)) (v : val) : M S val :=
  match v with
  | VNone => call
  | _ => n <~ lift (as_int v) ;; l <~ call_n n ;; ret (VList l)
  end.
