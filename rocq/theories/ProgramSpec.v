(** * Words for stating what a program shows when it is run more than once. *)
From Coq Require Import String.
From Verif Require Import Base Prims Values SigModel World WorldSpec WorldBuild.
Open Scope list_scope.
Open Scope Z_scope.

Section Programs.
  Context (P : prims) (fuel : nat) (str_of : val -> res (list Z)).

  (** The beginning of run number [r]: there are no objects yet, and what the
      operating system gives as entropy is different in every run. *)
  Definition start (r : nat) : world P := mkWorld P [] [] (run_entropy r).

  (** What is seen of a command: what it returns or raises.  (A constructor
      returns; the new object is known by its position.) *)
  Definition show (c : command P) : M (world P) answer :=
    match c with
    | Do _ o => run P fuel str_of o
    | c => exec P fuel str_of c ;;; ret Done
    end.

  (** One command after the other, whether or not some raise exceptions. *)
  Fixpoint run_program (l : list (command P)) (w : world P) : list (res answer) * world P :=
    match l with
    | [] => ([], w)
    | c :: t =>
        let '(r, w) := show c w in
        let '(rs, w) := run_program t w in (r :: rs, w)
    end.

  (** The command gives no seed None, neither explicitly nor by leaving it out. *)
  Definition seeded (c : command P) : Prop :=
    match c with
    | NewChoice _ _ _ _ _ _ s _ | NewWord _ _ _ s | NewText _ _ _ _ s | NewWrapOne _ _ _ s
    | NewWrapMany _ _ _ s | NewBasedOnFields _ _ _ _ s | NewField _ _ _ _ _ _ s | SeedSource _ _ s
    | NewUser _ _ _ (Some s) => s <> None
    | Do _ (SeedEm _ _ s) | Do _ (SetSeedEm _ _ s) | Do _ (Seed _ _ s) | Do _ (SetSeed _ _ s)
    | Do _ (SeedFields _ _ s) => s <> None
    | _ => True
    end.

  (** The commands that create objects or change their settings. *)
  Definition is_building (c : command P) : bool := match c with Do _ _ => false | _ => true end.
  Definition building (l : list (command P)) : list (command P) := filter is_building l.
  (** None of these has raised an exception. *)
  Fixpoint built (l : list (command P)) (w : world P) : Prop :=
    match l with
    | [] => True
    | c :: t => (is_building c = true -> exists a, fst (show c w) = Ok a) /\ built t (snd (show c w))
    end.

  (** The calls and resets of fields that are part of a command, with their
      results: those of a document one after the other; an action that is given to
      a BasedOnFields is tried with values from its source fields; reset_source()
      resets them.  An exception ends it. *)
  Definition field_steps (c : command P) (w : world P) : list (op P * res answer) :=
    let steps_of l w := fst (until_raise P fuel str_of l w) in
    match c with
    | Do _ o => steps_of (pieces P o) w
    | NewBasedOnFields _ b fs f s =>
        steps_of (map (Call P) fs) (snd ((id <~ alloc_em P (EBased P b fs f (new_node P s)) ;; em_reset P fuel id ;;; install P id f) w))
    | SetFunction _ id f =>
        match get_em P id w with
        | Some (EBased _ _ fs _ _) => steps_of (map (Call P) fs) (snd (install P id f w))
        | _ => []
        end
    | ResetSource _ id =>
        match get_em P id w with
        | Some (ECopy _ _ fs _) | Some (EBased _ _ fs _ _) => steps_of (map (Reset P) fs) w
        | _ => []
        end
    | _ => []
    end.
  Fixpoint program_steps (l : list (command P)) (w : world P) : list (op P * res answer) :=
    match l with
    | [] => []
    | c :: t => field_steps c w ++ program_steps t (snd (show c w))
    end.
End Programs.
