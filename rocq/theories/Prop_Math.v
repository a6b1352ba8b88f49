(** * Properties C14-C17, C19, C20: mathtools.py.

    Vocabulary: [MathSpec.v] ([picks], [without_replacement]), [NumSpec.v]
    ([ranks_before]).  Models: [MathModel.v], [RealModel.v].  [Prims.v] lists the
    outside operations (arithmetic of weights, random generator): theorems that
    quantify over [P : prims] hold for IEEE doubles as well as for exact
    numbers; [QP g] is exact rational arithmetic with the generator [g]. *)
From Coq Require Import QArith Qcanon Reals Lra Permutation Sorting.Sorted.
From Verif Require Import Base Prims MathModel MathSpec NumSpec MathProofs NumLaws QcNum QcProofs Threshold Demo
  RealModel RealProofs FloatModel FloatNum.
Open Scope Z_scope.

(** ** C14: clamp *)
Theorem C14_clamp :
  forall (A : Type) (lt : A -> A -> bool),
  (forall a, lt a a = false) ->
  (forall a b c, lt a b = true -> lt b c = true -> lt a c = true) ->
  (forall a b, lt a b = false -> lt b a = false -> a = b) ->
  forall mn mx : option A,
  (* a violated limit is returned, the lower one first; otherwise the number *)
  (forall x, match mn, mx with
             | Some m, _ => lt x m = true -> clamp lt x mn mx = m
             | None, _ => True
             end) /\
  (forall x, (forall m, mn = Some m -> lt x m = false) ->
     match mx with
     | Some M => (lt M x = true -> clamp lt x mn mx = M) /\ (lt M x = false -> clamp lt x mn mx = x)
     | None => clamp lt x mn mx = x
     end) /\
  (* with limits in the right order: inside, idempotent, monotone *)
  ((forall m M, mn = Some m -> mx = Some M -> lt M m = false) ->
   (forall x, (forall m, mn = Some m -> lt (clamp lt x mn mx) m = false) /\
              (forall M, mx = Some M -> lt M (clamp lt x mn mx) = false) /\
              clamp lt (clamp lt x mn mx) mn mx = clamp lt x mn mx) /\
   (forall x y, lt y x = false -> lt (clamp lt y mn mx) (clamp lt x mn mx) = false)).
Proof.
  intros A lt Hi Ht Htot mn mx.
  assert (Has : forall a b, lt a b = true -> lt b a = false).
  { intros a b H. destruct (lt b a) eqn:E; auto. pose proof (Ht _ _ _ H E). rewrite Hi in H0. discriminate. }
  assert (Hlt : forall a b c, lt a b = true -> lt c b = false -> lt a c = true).
  { intros a b c H1 H2. destruct (lt a c) eqn:E; auto. destruct (lt c a) eqn:E2.
    - rewrite (Ht _ _ _ E2 H1) in H2. discriminate.
    - rewrite (Htot _ _ E E2) in H1. congruence. }
  split; [|split].
  - intros x. destruct mn as [m|]; auto. intros H. unfold clamp. rewrite H. reflexivity.
  - intros x H. unfold clamp. destruct mn as [m|].
    + rewrite (H m eq_refl). destruct mx as [M|]; auto. split; intros ->; auto.
    + destruct mx as [M|]; auto. split; intros ->; auto.
  - intros HmM.
    assert (Hin : forall x, (forall m, mn = Some m -> lt (clamp lt x mn mx) m = false) /\
              (forall M, mx = Some M -> lt M (clamp lt x mn mx) = false)).
    { intros x. unfold clamp. destruct mn as [m|], mx as [M|].
      - specialize (HmM m M eq_refl eq_refl). destruct (lt x m) eqn:E1.
        + split; intros ? X; injection X as <-; auto.
        + destruct (lt M x) eqn:E2; split; intros ? X; injection X as <-; auto.
      - destruct (lt x m) eqn:E1; split; intros ? X; try discriminate; injection X as <-; auto.
      - destruct (lt M x) eqn:E1; split; intros ? X; try discriminate; injection X as <-; auto.
      - split; intros; discriminate. }
    assert (Hid : forall x, (forall m, mn = Some m -> lt x m = false) -> (forall M, mx = Some M -> lt M x = false) ->
              clamp lt x mn mx = x).
    { intros x H1 H2. unfold clamp. destruct mn as [m|], mx as [M|]; rewrite ?(H1 _ eq_refl), ?(H2 _ eq_refl); auto. }
    split.
    + intros x. destruct (Hin x) as [H1 H2]. split; auto.
    + intros x y Hxy. destruct (lt (clamp lt y mn mx) (clamp lt x mn mx)) eqn:E; auto. exfalso.
      unfold clamp in E. destruct mn as [m|], mx as [M|].
      * specialize (HmM m M eq_refl eq_refl).
        destruct (lt y m) eqn:E1; [destruct (lt x m) eqn:E2|destruct (lt x m) eqn:E2].
        -- congruence.
        -- rewrite (Hlt y m x E1 E2) in Hxy. discriminate.
        -- destruct (lt M y); [rewrite E in HmM; discriminate|rewrite E in E1; discriminate].
        -- destruct (lt M y) eqn:E3, (lt M x) eqn:E4; try congruence.
           rewrite (Hlt y M x) in Hxy; try discriminate; auto.
      * destruct (lt y m) eqn:E1, (lt x m) eqn:E2; try congruence.
        rewrite (Hlt y m x) in Hxy; try discriminate; auto.
      * destruct (lt M y) eqn:E1, (lt M x) eqn:E2; try congruence.
        rewrite (Hlt y M x) in Hxy; try discriminate; auto.
      * congruence.
Qed.
Print Assumptions C14_clamp.

Example C14_example :
  clamp Z.ltb 17 (Some 3) (Some 9) = 9 /\ clamp Z.ltb (-4) (Some 3) (Some 9) = 3 /\
  clamp Z.ltb 5 (Some 3) (Some 9) = 5 /\ clamp Z.ltb 5 None (Some 4) = 4 /\ clamp Z.ltb 5 None None = 5 /\
  (forall a, Z.ltb a a = false) /\
  (forall a b c, Z.ltb a b = true -> Z.ltb b c = true -> Z.ltb a c = true) /\
  (forall a b, Z.ltb a b = false -> Z.ltb b a = false -> a = b).
Proof. repeat (split; [reflexivity|]). split; [|split]; intros; lia. Qed.

(** ** C15: without replacement.  No assumption on arithmetic or generator,
    except that zero is false. *)
Theorem C15_weighted_shuffle :
  forall (P : prims) (A : Type) fuel (items : list A) weights (number : option Z) rng,
  w_true P (w_zero P) = false ->
  let k := match number with Some n => n | None => zlen items end in
  0 <= k ->
  (forall out rng', weighted_shuffle P fuel items weights number rng = (Ok out, rng') ->
     without_replacement items out /\ zlen out = Z.min k (zlen items) /\
     (number = None -> Permutation out items)) /\
  (length weights <> length items -> weighted_shuffle P fuel items weights number rng = (Raise ValueError, rng)).
Proof.
  intros P A fuel items weights number rng Hz k Hk. split.
  - intros out rng' H. pose proof H as H'. apply weighted_shuffle_spec in H' as (_ & W & L); auto.
    split; auto. split.
    + unfold k in *. destruct number; apply L; auto.
    + intros ->. eapply weighted_shuffle_full; eauto.
  - intros H. unfold weighted_shuffle. destruct (Nat.eqb_spec (length items) (length weights)); [congruence|]. reflexivity.
Qed.
Print Assumptions C15_weighted_shuffle.

Notation q x := (Q2Qc x).

(** Two of six items (the rejection branch), five of six (the sorting branch),
    all of four with duplicates. *)
Example C15_example :
  let run := weighted_shuffle (QP demo) 10 [10; 20; 30; 40; 50; 60] [q 1; q 2; q 3; q 4; q 5; q (1#2)] in
  run (Some 2) 0%nat = (Ok [20; 40], 2%nat) /\
  run (Some 5) 3%nat = (Ok [20; 40; 50; 30; 10], 9%nat) /\
  weighted_shuffle (QP demo) 10 [10; 20; 10; 40] [q 1; q 2; q 3; q 4] None 3%nat = (Ok [20; 40; 10; 10], 7%nat).
Proof. split; [vm_compute; reflexivity|]. split; [vm_compute; reflexivity|]. vm_compute. reflexivity. Qed.

(** ** C16: termination.  [fuel] bounds the rounds of the while loop, so an
    answer with fuel [number + 1] means at most that many evaluations of the
    loop condition, i.e. at most [number] rounds.  ("Always returns" is false
    in the sorting branch, where a draw of exactly 0.0 makes math.log raise.) *)
Definition C16_statement : Prop :=
  forall (g : qgen) (A : Type) (items : list A) (weights : list Qc) number rng,
  qgen_ok g -> length weights = length items -> Forall (fun w => (0 < w)%Qc) weights ->
  0 <= number <= zlen items ->
  exists out rng', weighted_shuffle (QP g) (S (Z.to_nat number)) items weights (Some number) rng = (Ok out, rng').

Theorem C16_terminates_partial :
  forall (g : qgen) (A : Type) (items : list A) (weights : list Qc) number rng,
  qgen_ok g -> length weights = length items -> Forall (fun w => (0 < w)%Qc) weights ->
  0 <= number <= zlen items ->
  (exists out rng', weighted_shuffle (QP g) (S (Z.to_nat number)) items weights (Some number) rng = (Ok out, rng')) \/
  (In 0%Qc (fst (draws (QP g) (length items) rng)) /\
   exists rng', weighted_shuffle (QP g) (S (Z.to_nat number)) items weights (Some number) rng = (Raise ValueError, rng')).
Proof.
  intros g A items weights number rng G HL HF Hn. unfold weighted_shuffle.
  change (@length (pW (QP g)) weights) with (@length Qc weights). rewrite HL, Nat.eqb_refl. cbn [negb].
  destruct (use_low_k number (length items)).
  - left. unfold low_k. destruct weights as [|w ws].
    + destruct items; [|discriminate]. cbn in Hn. assert (number = 0) as -> by lia. eexists _, _. reflexivity.
    + apply low_k_loop_returns; auto; try discriminate; try lia.
      * eapply Forall_impl; [|exact HF]. intros x Hx. apply Qclt_le_weak. exact Hx.
      * assert (E : forall l, Forall (fun w => (0 < w)%Qc) l -> zeros l = 0%nat).
        { unfold zeros. induction 1 as [|v l Hv _ IH]; cbn; auto. destruct (Qeq_bool v 0) eqn:Ev; [|auto].
          apply Qeq_bool_iff in Ev. unfold Qclt in Hv. rewrite Ev in Hv. discriminate. }
        rewrite E by auto. cbn. lia.
      * unfold zlen. cbn. lia.
      * unfold zlen. cbn [length]. lia.
  - apply high_k_total; auto.
Qed.
Print Assumptions C16_terminates_partial.

Theorem C16_terminates_refuted : ~ C16_statement.
Proof.
  intros S. destruct (S demo nat [1; 2; 3]%nat [q 1; q 2; q 3] 3 0%nat demo_ok eq_refl) as (out & r' & H).
  - repeat constructor.
  - unfold zlen. cbn. lia.
  - vm_compute in H. discriminate.
Qed.
Print Assumptions C16_terminates_refuted.

(** The loop also ends with any arithmetic that satisfies [wlaws] (which
    includes zero weights, for which a ValueError is possible). *)
Theorem C16_never_loops :
  forall (P : prims) (acc num : pW P -> Prop), wlaws P acc num ->
  forall (A : Type) (items : list A) weights number rng,
  items <> [] -> Forall acc weights -> 0 <= number ->
  forall fuel, (Z.to_nat number < fuel)%nat ->
  fst (weighted_shuffle P fuel items weights (Some number) rng) <> Diverge \/
  (exists u w, k_score P u w = Diverge).
Proof.
  intros P acc num L A items weights number rng Hne Ha Hn fuel Hf. unfold weighted_shuffle.
  destruct (Nat.eqb_spec (length items) (length weights)) as [E|E]; cbn [negb]; [|left; discriminate].
  destruct (use_low_k number (length items)).
  - left. unfold low_k. destruct (low_k_terminates P acc num L fuel items weights [] number rng) as [(o & r & ->)|(r & ->)];
      auto; try discriminate; try (unfold zlen; cbn; lia).
    intros ->. destruct items; [congruence|discriminate].
  - unfold high_k, mbind. destruct (scores P weights items rng) as [[sc| |] r] eqn:Es; [left; discriminate..|].
    right. clear - Es. revert items rng r Es. induction weights as [|w ws IH]; intros [|a items] rng r H; cbn [scores] in H; try discriminate.
    destruct (r_random P rng) as [u r1]. unfold mbind, lift in H. destruct (k_score P u w) eqn:Ek; try discriminate; eauto.
    destruct (scores P ws items r1) as [[sc| |] r2] eqn:Es; try discriminate. eauto.
Qed.
Print Assumptions C16_never_loops.

(** In particular with IEEE doubles, the numbers Python uses, for weights that
    are zero or at least 2^-1021. *)
Theorem C16_never_loops_doubles :
  forall (g : fgen) (A : Type) (items : list A) (weights : list double) number rng,
  fgen_ok g -> items <> [] -> Forall plain_weight weights -> 0 <= number ->
  fst (weighted_shuffle (FP g) (S (Z.to_nat number)) items weights (Some number) rng) <> Diverge.
Proof.
  intros g A items weights number rng G Hne HF Hn.
  destruct (C16_never_loops (FP g) plain_weight _ (float_laws g G) A items weights number rng Hne HF Hn
              (S (Z.to_nat number)) ltac:(lia)) as [H|(u & w & H)]; auto.
  cbn [FP k_score] in H. destruct (BinarySingleNaN.Bleb u fzero); [discriminate|]. destruct (negb (ftrue w)); discriminate.
Qed.
Print Assumptions C16_never_loops_doubles.

(** Beside C16: positive weights and a loop that needs more than one round
    (both positions drawn are the same in the first round). *)
Example C16_example :
  qgen_ok demo /\
  fst (weighted_shuffle (QP demo) 3 [1; 2; 3; 4; 5; 6]%nat [q 1; q 1; q 1; q 1; q 1; q 8] (Some 2) 3%nat) = Ok [6; 2]%nat /\
  fst (weighted_shuffle (QP demo) 2 [1; 2; 3; 4; 5; 6]%nat [q 1; q 1; q 1; q 1; q 1; q 8] (Some 2) 3%nat) = Diverge.
Proof. split; [exact demo_ok|]. split; [vm_compute; reflexivity|]. vm_compute. reflexivity. Qed.

(** ** C17: what weighted_shuffle returns.  "Few" means at most 42% of the items
    (mathtools.py:153). *)
Theorem C17_few :
  forall (P : prims) (A : Type) fuel (items : list A) weights number rng out rng',
  w_true P (w_zero P) = false ->
  items <> [] -> zlen items < 2 ^ 46 -> 100 * number <= 42 * zlen items ->
  weighted_shuffle P fuel items weights (Some number) rng = (Ok out, rng') ->
  exists ps, NoDup ps /\ picks items ps out /\ zlen out = number /\
    forall p, In p ps -> exists w, nth_error weights p = Some w /\ w_true P w = true.
Proof.
  intros P A fuel items weights number rng out rng' Hz Hne Hl Hk H. unfold weighted_shuffle in H.
  destruct (Nat.eqb_spec (length items) (length weights)); cbn [negb] in H; [|discriminate].
  assert (Hpos : (length items > 0)%nat) by (destruct items; cbn; [congruence|lia]).
  rewrite (proj2 (use_low_k_42_percent number (length items) Hpos Hl)) in H by exact Hk.
  apply low_k_spec in H as (ps & H1 & H2 & H3 & H4); auto. exists ps. auto.
Qed.
Print Assumptions C17_few.

Theorem C17_many :
  forall (g : qgen) (A : Type) fuel (items : list A) (weights : list Qc) number rng out rng',
  zlen items < 2 ^ 46 -> 42 * zlen items < 100 * number ->
  weighted_shuffle (QP g) fuel items weights (Some number) rng = (Ok out, rng') ->
  exists us ps, draws (QP g) (length items) rng = (us, rng') /\
    Permutation ps (seq 0 (length items)) /\
    StronglySorted (ranks_before us weights) ps /\
    picks items (firstn (Z.to_nat number) ps) out.
Proof.
  intros g A fuel items weights number rng out rng' Hl Hk H. unfold weighted_shuffle in H.
  change (@length (pW (QP g)) weights) with (@length Qc weights) in H.
  destruct (Nat.eqb_spec (length items) (length weights)) as [E|]; cbn [negb] in H; [|discriminate].
  assert (U : use_low_k number (length items) = false).
  { destruct items as [|a items].
    - change (zlen (@nil A)) with 0 in Hk. destruct (use_low_k number (length (@nil A))) eqn:E0; auto. exfalso.
      unfold use_low_k in E0. change (SpecFloat.SFmul _ _ _ _) with (SpecFloat.S754_zero false) in E0.
      cbn [Z_le_sf] in E0. apply Z.leb_le in E0. lia.
    - destruct (use_low_k number _) eqn:E0; auto. exfalso.
      apply (use_low_k_42_percent number (length (a :: items))) in E0; [unfold zlen in *; lia|cbn; lia|exact Hl]. }
  rewrite U in H. symmetry in E. apply high_k_spec in H as (us & ss & ps & D & S & L & Eps & HP & Hp); auto.
  change (@length (pW (QP g)) weights) with (@length Qc weights) in D.
  pose proof (draws_length (QP g) (@length Qc weights) rng) as Lu. rewrite D in Lu. cbn [fst] in Lu.
  pose proof (scores_keys g us weights ss Lu S) as [-> Hg].
  exists us, ps. rewrite <- E. split; [exact D|]. split; [rewrite E; exact HP|]. split.
  - rewrite Eps. apply sorted_positions; auto.
  - rewrite list_slice_0 in Hp by (unfold zlen in Hk; lia). exact Hp.
Qed.
Print Assumptions C17_many.

(** A zero weight raises ZeroDivisionError (unless an earlier draw was 0). *)
Theorem C17_zero_weight :
  forall (g : qgen) (A : Type) fuel (items : list A) (weights : list Qc) number rng,
  zlen items < 2 ^ 46 -> 42 * zlen items < 100 * number -> length weights = length items ->
  In 0%Qc weights -> Forall (fun u => (0 < u)%Qc) (fst (draws (QP g) (length items) rng)) ->
  fst (weighted_shuffle (QP g) fuel items weights (Some number) rng) = Raise ZeroDivisionError.
Proof.
  intros g A fuel items weights number rng Hl Hk HL Hin Hu. unfold weighted_shuffle.
  change (@length (pW (QP g)) weights) with (@length Qc weights). rewrite HL, Nat.eqb_refl. cbn [negb].
  assert (U : use_low_k number (length items) = false).
  { destruct items as [|a items]; [destruct weights; [destruct Hin|discriminate]|].
    destruct (use_low_k number _) eqn:E0; auto. exfalso.
    apply (use_low_k_42_percent number (length (a :: items))) in E0; [unfold zlen in *; lia|cbn; lia|exact Hl]. }
  rewrite U. unfold high_k, mbind.
  assert (S : fst (scores (QP g) weights items rng) = Raise ZeroDivisionError).
  { clear - HL Hin Hu. revert items rng HL Hu.
    induction weights as [|w ws IH]; intros [|a items] rng HL Hu; try discriminate; [destruct Hin|].
    cbn [scores]. cbn [length draws] in Hu. destruct (r_random (QP g) rng) as [u r1].
    destruct (draws (QP g) (length items) r1) as [us r2] eqn:D. cbn [fst] in Hu.
    inversion Hu as [|? ? U1 U2]; subst.
    unfold mbind, lift. cbn [QP k_score]. unfold qc_score at 1.
    destruct (Qle_bool u 0) eqn:Eu.
    { apply Qle_bool_iff in Eu. exfalso. apply (Qclt_not_le _ _ U1). exact Eu. }
    destruct (Qeq_bool w 0) eqn:Ew; [reflexivity|].
    destruct Hin as [->|Hin]; [discriminate|].
    specialize (IH Hin items r1 ltac:(cbn in HL; lia)). rewrite D in IH. specialize (IH U2).
    change (mkPrims _ _ _ _ _ _ _ _ _ _ _ _ _ _ _ _ _ _ _ _ _) with (QP g).
    destruct (scores (QP g) ws items r1) as [o r3]. cbn [fst] in *. subst. reflexivity. }
  destruct (scores (QP g) weights items rng) as [o r]. cbn [fst] in S. subst. reflexivity.
Qed.
Print Assumptions C17_zero_weight.

(** Beside C17: a zero weight is skipped when few items are requested; many
    requested, in score order; a zero weight with many requested. *)
Example C17_example :
  fst (weighted_shuffle (QP demo) 10 [1; 2; 3; 4; 5]%nat [q 0; q 1; q 0; q 1; q 0] (Some 2) 3%nat) = Ok [2; 4]%nat /\
  fst (weighted_shuffle (QP demo) 10 [1; 2; 3]%nat [q 1; q 2; q (1#9)] (Some 3) 3%nat) = Ok [2; 1; 3]%nat /\
  fst (weighted_shuffle (QP demo) 10 [1; 2; 3]%nat [q 1; q 0; q (1#9)] (Some 3) 3%nat) = Raise ZeroDivisionError /\
  Forall (fun u => (0 < u)%Qc) (fst (draws (QP demo) 3 3%nat)).
Proof.
  split; [vm_compute; reflexivity|]. split; [vm_compute; reflexivity|]. split; [vm_compute; reflexivity|].
  repeat constructor.
Qed.

(** ** C19: the Poisson probabilities, in exact real arithmetic. *)
Theorem C19_poisson :
  forall mu : R, (0 < mu)%R ->
  (forall x, (0 < poisson x mu)%R) /\
  poisson 0 mu = exp (- mu) /\
  (forall x, poisson (S x) mu = (poisson x mu * mu / INR (S x))%R) /\
  (forall x y, (x < y)%nat -> (INR y < mu)%R -> (poisson x mu < poisson y mu)%R) /\
  (forall x y, (x < y)%nat -> (mu < INR (S x))%R -> (poisson y mu < poisson x mu)%R) /\
  (forall n, (sum_f_R0 (fun x => poisson x mu) n <= 1)%R) /\
  Un_cv (fun n => sum_f_R0 (fun x => poisson x mu) n) 1.
Proof.
  intros mu H. split; [intros; apply poisson_pos; auto|]. split; [apply poisson_0|].
  split; [intros; apply poisson_S|].
  split; [|split; [|split; [intros; apply poisson_sum_le; auto|apply poisson_sum_cv]]].
  - intros x y Hxy. induction Hxy as [|y Hxy IH]; intros Hy.
    + apply poisson_step; auto.
    + apply Rlt_trans with (poisson y mu).
      * apply IH. rewrite S_INR in Hy. lra.
      * apply poisson_step; auto.
  - intros x y Hxy Hx. induction Hxy as [|y Hxy IH].
    + apply poisson_step; auto.
    + apply Rlt_trans with (poisson y mu); auto. apply poisson_step; auto.
      apply Rlt_le_trans with (INR (S x)); auto. apply le_INR. lia.
Qed.
Print Assumptions C19_poisson.

Example C19_example : poisson 2 3 = (9 / 2 * exp (-3))%R /\ (0 < 3)%R.
Proof. split; [|lra]. unfold poisson. cbn. replace (-1 * 3)%R with (-3)%R by ring. field. Qed.

(** ** C20: the normal density, in exact real arithmetic. *)
Theorem C20_gaussian :
  forall mu sigma : R, (0 < sigma)%R ->
  (forall x, (0 < gaussian x mu sigma)%R) /\
  (forall d, gaussian (mu + d) mu sigma = gaussian (mu - d) mu sigma) /\
  gaussian mu mu sigma = (1 / (sigma * sqrt (2 * PI)))%R /\
  (forall x, x <> mu -> (gaussian x mu sigma < gaussian mu mu sigma)%R) /\
  (forall x y, (Rabs (x - mu) < Rabs (y - mu))%R -> (gaussian y mu sigma < gaussian x mu sigma)%R) /\
  (forall x d, gaussian (x + d) (mu + d) sigma = gaussian x mu sigma) /\
  (forall x, gaussian x mu sigma = (/ (sigma * sqrt (2 * PI)) * exp (- ((x - mu) * (x - mu)) / (2 * (sigma * sigma))))%R).
Proof.
  intros mu sigma H. pose proof sqrt_2PI_pos as HP.
  split; [intros; apply gaussian_pos; auto|]. split; [intros; apply gaussian_sym|].
  split; [rewrite gaussian_max; f_equal; ring|].
  split; [|split; [intros; apply gaussian_decr; auto|split; [intros; apply gaussian_shift|]]].
  - intros x Hx. apply gaussian_decr; auto. replace (mu - mu)%R with 0%R by ring. rewrite Rabs_R0.
    apply Rabs_pos_lt. lra.
  - intros x. unfold gaussian. cbv zeta. rewrite Rmult_comm. f_equal.
    + field. split; lra.
    + f_equal. field. lra.
Qed.
Print Assumptions C20_gaussian.

Example C20_example : gaussian 3 1 2 = (/ (2 * sqrt (2 * PI)) * exp (- (1 / 2)))%R /\ (0 < 2)%R.
Proof.
  split; [|lra]. destruct (C20_gaussian 1 2 ltac:(lra)) as (_ & _ & _ & _ & _ & _ & H). rewrite H.
  f_equal. f_equal. field.
Qed.
