(** * Nothing hangs: property C72. *)
From Coq Require Import QArith Qcanon Reals Lra String.
From Flocq Require Import Core BinarySingleNaN.
From Verif Require Import Base Prims Values MathModel NumLaws QcNum QcProofs FloatModel FloatNum ChoiceModel FixedModel SigModel
  World WorldSpec WorldBuild BuildProofs Demo WorldDemo ProgramSpec EndSpec EndProofs Prop_Construct Prop_Math.
Open Scope list_scope.
Open Scope Z_scope.

(** A program, whatever it creates, sets and calls and whatever exceptions are
    raised on the way: every command of it returns or raises.  [fuel] is the
    number of rounds that the loops of fauxdoc stay below. *)
Theorem C72_ends : forall (P : prims) (acc num : pW P -> Prop) (fuel : nat) (str_of : val -> res (list Z)),
  wlaws P acc num -> acc (w_one P) -> (forall u w, k_score P u w <> Diverge) -> (forall v, str_of v <> Diverge) -> (0 < fuel)%nat ->
  forall (l : list (command P)) (r : nat),
  all_possible P str_of fuel l (start P r) -> Forall (harmless P acc fuel) l ->
  Forall (fun a => a <> Diverge) (fst (run_program P fuel str_of l (start P r))).
Proof.
  intros P acc num fuel str_of W One Sc Str F l r Po Ha. refine (program_ends acc num fuel str_of W One Sc Str F l (start P r) _ _ Po Ha).
  - split; [|split]; intros i ? ? E; exfalso; destruct i; discriminate E.
  - intros i e E. exfalso. destruct i; discriminate E.
Qed.

Lemma plain_one : plain_weight (fl 1 0).
Proof.
  assert (E : B2R (fl 1 0) = 1%R).
  { change (B2R (fl 1 0)) with (F2R (Float radix2 4503599627370496 (-52))). unfold F2R. cbn [Fnum Fexp].
    change 4503599627370496 with (radix2 ^ 52). rewrite IZR_Zpower by lia. rewrite <- bpow_plus. reflexivity. }
  assert (X : exists s m e B, fl 1 0 = B754_finite s m e B) by (eexists _, _, _, _; reflexivity).
  destruct X as (s & m & e & B & X). rewrite X in *. cbn [plain_weight]. rewrite E. change 1%R with (bpow radix2 0). apply bpow_le. lia.
Qed.

(** With the numbers Python uses: all weights zero or at least 2^-1021. *)
Theorem C72_ends_doubles : forall (g : fgen) (fuel : nat) (str_of : val -> res (list Z)),
  fgen_ok g -> (forall v, str_of v <> Diverge) -> (0 < fuel)%nat ->
  forall (l : list (command (FP g))) (r : nat),
  all_possible (FP g) str_of fuel l (start (FP g) r) -> Forall (harmless (FP g) plain_weight fuel) l ->
  Forall (fun a => a <> Diverge) (fst (run_program (FP g) fuel str_of l (start (FP g) r))).
Proof.
  intros g fuel str_of G Str F. apply (C72_ends (FP g) plain_weight _ fuel str_of (float_laws g G) plain_one); [|exact Str | exact F].
  intros u w. cbn [FP k_score]. destruct (BinarySingleNaN.Bleb u fzero); [discriminate|]. destruct (negb (ftrue w)); discriminate.
Qed.

(** The condition on iterators is needed: if a factory gives nothing but empty
    iterators after its first call, then an Iterative with it never returns. *)
Definition dries_up : factory val := fun c => match c with O => Finite [VInt 1] true | S _ => Finite [] true end.
Theorem C72_iterators_matter : forall (P : prims) (fuel : nat) (str_of : val -> res (list Z)) (r : nat),
  let l := [NewIterative P dries_up false; Do P (Emit P 0)] in
  all_possible P str_of fuel l (start P r) /\
  fst (run_program P fuel str_of l (start P r)) = [Ok Done; Diverge].
Proof.
  intros P fuel str_of r l.
  assert (D : forall n c cur, (0 < c)%nat -> match cur with Some (c', p) => it_at (dries_up c') p = None | None => True end ->
    fst (gen_next n dries_up (mkGen c cur)) = Diverge).
  { induction n as [|n IH]; intros c cur Hc H; cbn [gen_next g_cur g_calls].
    - destruct cur as [[c' p]|]; [rewrite H|]; reflexivity.
    - assert (N : fst (gen_next n dries_up (mkGen (S c) (Some (c, 0%nat)))) = Diverge) by (apply IH; [lia | destruct c; [lia | reflexivity]]).
      destruct cur as [[c' p]|]; [rewrite H|]; exact N. }
  split.
  - cbn [l all_possible]. split; [split; intros ? []|]. split; [split; [|intros ? []] | exact I]. intros i [<-|[]]. cbn. lia.
  - unfold l. cbn -[gen_next]. unfold em_call, em_emit. cbn -[gen_next]. unfold mbind, at_em. cbn -[gen_next]. unfold run_iter, at_em. cbn -[gen_next].
    unfold iter_emit, iter_run. cbn -[gen_next]. pose proof (D fuel 1%nat None ltac:(lia) I) as X. destruct (gen_next fuel dries_up (mkGen 1 None)) as [o g]. cbn in X. subst o. reflexivity.
Qed.

(** ** A case *)

(** An iterator that comes empty every other time, weights and cumulative weights,
    a Text of fewer distinct words than it needs, a function that raises, a
    Choice that runs out, a document. *)
Definition fickle : factory val := fun c => if Nat.even c then Finite [VInt 1; VInt 2] false else Finite [] false.
Definition grumpy : wfun DP :=
  mkWfun DP None (fun args _ => match args with [VInt 1] => Raise ValueError | _ => Ok (VInt 7) end)
    (fun _ _ g => (Raise TypeError, g)).
Definition all_sorts : list (command DP) :=
  [NewIterative DP fickle false;
   NewWrapOne DP 0 grumpy (Some 4%nat);
   NewChoice DP true [VStr [97]; VStr [98]; VStr [99]] (Some [q 1; q 2; q 3]) true true (Some 4%nat) None;
   NewStatic DP (VInt 5);
   NewText DP 3 2 None None;
   SetEmitter DP 2 (SChoice DP (CCumWeights DP (Some [q 1; q 3; q 4])));
   NewField DP "text" 5 (Some 0%nat) None false (Some 4%nat);
   Do DP (Doc DP [("text", 0%nat)]);
   NewChoice DP true [VInt 1; VInt 2] None false false (Some 4%nat) None;
   Do DP (EmitN DP 7 3); Do DP (EmitN DP 1 4); Do DP (EmitN DP 0 (-1)); Do DP (Emit DP 1)]%string.
Fixpoint can_show (l : list (command DP)) (w : world DP) : bool :=
  match l with [] => true | c :: t => can c w && can_show t (snd (show DP 9 demo_str c w)) end.
Lemma can_possible l : forall w, can_show l w = true -> all_possible DP demo_str 9 l w.
Proof.
  induction l as [|c t IH]; intros w H; [exact I|]. cbn [can_show] in H. apply andb_prop in H as [H1 H2]. split; [|apply IH; exact H2].
  unfold can in H1. apply andb_prop in H1 as [E F]. split; intros i Hi; [rewrite forallb_forall in E; apply E in Hi | rewrite forallb_forall in F; apply F in Hi]; apply Nat.ltb_lt; exact Hi.
Qed.
Example C72_case :
  all_possible DP demo_str 9 all_sorts (start DP 0) /\
  Forall (harmless DP (fun w => (0 <= w)%Qc) 9) all_sorts /\
  map (fun a => match a with Ok _ => 0 | Raise _ => 1 | Diverge => 2 end) (fst (run_program DP 9 demo_str all_sorts (start DP 0))) =
    [0; 1; 0; 0; 0; 0; 0; 0; 0; 1; 1; 1; 0].
Proof.
  split; [|split].
  - apply can_possible. vm_cast_no_check (eq_refl true).
  - repeat (apply Forall_cons; [cbn [harmless]; try exact I|]); [..|apply Forall_nil].
    + intros c. destruct (Nat.even c) eqn:E.
      * exists 0%nat. split; [lia|]. unfold fickle. rewrite Nat.add_0_r, E. discriminate.
      * exists 1%nat. split; [lia|]. unfold fickle. rewrite Nat.add_1_r, Nat.even_succ, <- Nat.negb_even, E. discriminate.
    + split; [intros args kw; cbn; destruct args as [|[] [|]]; try discriminate; destruct z as [|[]|]; discriminate | intros; discriminate].
    + split; [cbn; lia|]. split; [|intros ? [=]]. intros l [= <-]. repeat (apply Forall_cons; [discriminate|]). apply Forall_nil.
    + intros l [= <-]. repeat (apply Forall_cons; [discriminate|]). apply Forall_nil.
    + split; [cbn; lia|]. split; intros ? [=].
  - vm_cast_no_check (eq_refl [0; 1; 0; 0; 0; 0; 0; 0; 0; 1; 1; 1; 0]).
Qed.

Print Assumptions C72_ends.
Print Assumptions C72_ends_doubles.
Print Assumptions C72_iterators_matter.
