(** * Words for stating what emitters of a user's class do. *)
From Verif Require Import Base Prims Values World WorldSpec.
Open Scope list_scope.
Open Scope Z_scope.

Section User.
  Context (P : prims).

  (** obj() and obj(number) *)
  Inductive ask : Type := One | Many (number : Z).
  Definition asked (id : nat) (q : ask) : op P :=
    match q with One => Emit P id | Many n => EmitN P id n end.

  (** The class without fauxdoc: a value is what its emit returns, a list of one
      has the value emit returns, another list is what its emit_many returns.
      The state is the object's own attributes and its generator. *)
  Definition answers (c : uclass P) (q : ask) (s : val * pR P) : res answer * (val * pR P) :=
    let with_emit (k : val -> answer) :=
      match uc_emit P c s with (Ok v, s) => (Ok (k v), s) | (Raise e, s) => (Raise e, s) | (Diverge, s) => (Diverge, s) end in
    match q with
    | One => with_emit Value
    | Many n =>
        if n =? 1 then with_emit (fun v => Values [v])
        else match uc_emit_many P c n s with (Ok l, s) => (Ok (Values l), s) | (Raise e, s) => (Raise e, s) | (Diverge, s) => (Diverge, s) end
    end.
  Fixpoint on_its_own (c : uclass P) (qs : list ask) (s : val * pR P) : list (res answer) * (val * pR P) :=
    match qs with
    | [] => ([], s)
    | q :: qs => let '(r, s) := answers c q s in let '(rs, s) := on_its_own c qs s in (r :: rs, s)
    end.

  (** A class without RandomMixin: its methods use no generator. *)
  Definition no_generator (c : uclass P) : Prop :=
    forall g own,
      fst (uc_emit P c (own, g)) = fst (uc_emit P c (own, r_fresh P 0)) /\
      fst (snd (uc_emit P c (own, g))) = fst (snd (uc_emit P c (own, r_fresh P 0))) /\
      forall n, fst (uc_emit_many P c n (own, g)) = fst (uc_emit_many P c n (own, r_fresh P 0)) /\
        fst (snd (uc_emit_many P c n (own, g))) = fst (snd (uc_emit_many P c n (own, r_fresh P 0))).

  (** Object [id] is of class [c], its own attributes are [own], and its generator
      is [g] (None: the class does not use RandomMixin). *)
  Definition user_at (w : world P) (id : nat) (c : uclass P) (own : val) (g : option (pR P)) : Prop :=
    exists nd, get_em P id w = Some (EUser P c own nd) /\ option_map (n_rng P) nd = g.

  (** Nothing but object [id] is different. *)
  Definition others_same (id : nat) (w w' : world P) : Prop :=
    (forall j, j <> id -> get_em P j w' = get_em P j w) /\ forall f, get_fd P f w' = get_fd P f w.
End User.
