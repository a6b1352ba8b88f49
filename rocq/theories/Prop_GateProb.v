(** * C87: the probabilities of the first value of a seeded field with a gate. *)
From Coq Require Import Reals Lra List Arith Lia.
From Coquelicot Require Import Coquelicot.
From Verif Require Import Base Prims Values MathModel MathSpec MathProofs NumLaws ChoiceModel World WorldBuild ObjectSpec
  Prop_Gate RealModel RealNum ProbSpec ProbProofs.
Import ListNotations.
Open Scope list_scope.
Open Scope R_scope.

Lemma RP_quiet : forall u w, k_score RP u w <> Raise AttributeError.
Proof. intros u w. cbn [RP k_score]. unfold r_score. destruct (Rlt_dec 0 u); [destruct (Req_EM_T w 0)|]; discriminate. Qed.

Lemma last_total (ws : list R) : ws <> [] -> last (accumulate RP ws) (w_zero RP) = total ws.
Proof.
  intros N. destruct (accumulate_last ws N) as (q & E). rewrite <- (rev_involutive (accumulate RP ws)), E. cbn [rev]. apply last_last.
Qed.
Lemma position_pick (ws : list R) u : ws <> [] -> position RP ws u = pick ws u.
Proof. intros N. unfold position, pick. rewrite (last_total ws N). reflexivity. Qed.
Lemma pick_between (ws : list R) u : ws <> [] ->
  (pick ws u < length ws)%nat /\ (pick ws u = (length ws - 1)%nat \/ u * total ws < total (firstn (S (pick ws u)) ws)) /\
  (pick ws u = 0%nat \/ total (firstn (pick ws u) ws) <= u * total ws).
Proof.
  intros N. assert (Ln : (length ws <> 0)%nat) by (destruct ws; [congruence | discriminate]).
  unfold pick. pose proof (accumulate_length' RP ws) as L. change (pW RP) with R in L.
  pose proof (bisect_post RP (length (accumulate RP ws)) (accumulate RP ws) (w_scale RP u (total ws)) 0 (length ws - 1)
    ltac:(change (pW RP) with R in *; lia) ltac:(lia)) as (B & H1 & H2). change (pW RP) with R in *.
  set (j := bisect_right _ _ _ _ _ _) in *. change (w_lt RP) with Rltb in *. change (w_zero RP) with 0 in *.
  change (w_scale RP u (total ws)) with (u * total ws) in *. clearbody j.
  split; [lia|]. split.
  - destruct H1 as [H1|H1]; [left; exact H1|right]. rewrite accumulate_total in H1 by lia. apply Rltb_true in H1. exact H1.
  - destruct H2 as [H2|H2]; [left; exact H2|]. destruct (Nat.eq_dec j 0) as [Z|Z]; [left; exact Z|right].
    rewrite accumulate_total in H2 by lia. apply Rltb_false in H2. replace (S (j - 1)) with j in H2 by lia. exact H2.
Qed.

(** The gate chance(p), the emitter Choice(items, weights=ws): the probability that
    item [j] is the first value.  The item is chosen when the random number is in
    its share of the unit interval, and the gate is open when the same number is
    below [p]. *)
Definition share_start (ws : list R) (j : nat) : R := total (firstn j ws) / total ws.
Theorem C87_probability : forall fuel str_of (w : world RP) f (p : R) items (ws : list R) j a (is_a : val -> bool),
  gated RP w f [p; 1 - p] items ws -> 0 <= p <= 1 ->
  length ws = length items -> (2 <= length items)%nat -> Forall (fun x => 0 <= x) ws -> 0 < total ws ->
  NoDup items -> nth_error items j = Some a -> a <> VNone -> (forall v, is_a v = true <-> v = a) ->
  probability [0%nat] (fun us => match first_value RP fuel str_of f [us 0%nat] w with Ok v => is_a v | _ => false end)
  = Rmax 0 (Rmin p (share_start ws (S j)) - share_start ws j).
Proof.
  intros fuel str_of w f p items ws j a is_a G Hp Lw Ln Nn Tp ND Ej Na Is.
  assert (Nw : ws <> []) by (intros ->; cbn in Lw; lia).
  assert (Lj : (j < length ws)%nat) by (rewrite Lw; apply nth_error_Some; congruence).
  set (lo := share_start ws j). set (hi := share_start ws (S j)). set (m := Rmax 0 (Rmin p hi - lo)).
  assert (B : 0 <= lo <= hi /\ hi <= 1).
  { unfold lo, hi, share_start. pose proof (total_firstn_le ws 0 j Nn ltac:(lia)) as Q0. pose proof (total_firstn_le ws j (S j) Nn ltac:(lia)) as Q1.
    pose proof (total_firstn_le ws (S j) (length ws) Nn ltac:(lia)) as Q2. rewrite firstn_all in Q2. cbn [firstn] in Q0. rewrite total_nil in Q0.
    assert (I : 0 < / total ws) by (apply Rinv_0_lt_compat; exact Tp).
    repeat split; unfold Rdiv; try nra. replace 1 with (total ws * / total ws) by (apply Rinv_r; lra). nra. }
  unfold probability. cbn [average].
  assert (Val : forall u, 0 < u < 1 ->
    match first_value RP fuel str_of f [u] w with Ok v => is_a v | _ => false end =
    if Rlt_dec u p then (if Nat.eq_dec (pick ws u) j then true else false) else false).
  { intros u U. rewrite (C87_same_draw fuel str_of RP_quiet w f _ _ _ [u] G eq_refl Lw Ln).
    - change (fst (r_random RP (r_seeded RP [u]))) with u. rewrite !position_pick by (auto; discriminate).
      assert (Pg : pick [p; 1 - p] u = if Rlt_dec u p then 0%nat else 1%nat).
      { destruct (pick_between [p; 1 - p] u ltac:(discriminate)) as (P1 & P2 & P3). cbn [length] in P1, P2.
        replace (total [p; 1 - p]) with 1 in P2, P3 by (cbn; lra).
        destruct (pick [p; 1 - p] u) as [|[|k]]; [| |lia]; cbn [firstn] in P2, P3; destruct (Rlt_dec u p) as [L|L]; auto.
        - destruct P2 as [P2|P2]; [discriminate|]. cbn in P2. lra.
        - destruct P3 as [P3|P3]; [discriminate|]. cbn in P3. lra. }
      rewrite Pg. destruct (Rlt_dec u p) as [L|L]; cbn [Nat.eqb].
      + destruct (Nat.eq_dec (pick ws u) j) as [E|E].
        * rewrite E. apply Is. apply nth_error_nth. exact Ej.
        * destruct (is_a (nth (pick ws u) items VNone)) eqn:Q; [|reflexivity]. apply Is in Q. exfalso. apply E.
          destruct (pick_between ws u Nw) as (P1 & _).
          apply (proj1 (NoDup_nth_error items) ND); [rewrite <- Lw; exact P1|]. rewrite Ej. rewrite <- Q. symmetry. symmetry.
          apply nth_error_nth'. rewrite <- Lw. exact P1.
      + destruct (is_a VNone) eqn:Q; [|reflexivity]. apply Is in Q. congruence.
    - rewrite last_total by discriminate. cbn [RP w_total_ok]. apply Rltb_true. cbn. lra.
    - rewrite last_total by exact Nw. cbn [RP w_total_ok]. apply Rltb_true. exact Tp. }
  assert (Pk : forall u, 0 < u < 1 -> (u < lo -> pick ws u <> j) /\ (lo < u < hi -> pick ws u = j) /\ (hi < u -> pick ws u <> j)).
  { intros u U. assert (Sc : forall i, (share_start ws i < u -> total (firstn i ws) < u * total ws) /\ (u < share_start ws i -> u * total ws < total (firstn i ws))).
    { intros i. unfold share_start. split; intros H; apply (Rmult_lt_compat_r (total ws)) in H; auto; unfold Rdiv in H; rewrite Rmult_assoc, Rinv_l in H; lra. }
    destruct (pick_between ws u Nw) as (P1 & P2 & P3). split; [|split].
    - intros H E. apply (Sc j) in H. rewrite E in P3. destruct P3 as [P3|P3]; [|lra].
      rewrite P3 in H. cbn [firstn] in H. rewrite total_nil in H. nra.
    - intros [H1 H2]. apply (Sc j) in H1. apply (Sc (S j)) in H2. apply pick_interval; auto.
    - intros H E. rewrite E in P2. destruct P2 as [P2|P2].
      + unfold hi, share_start in H. replace (S j) with (length ws) in H by lia. rewrite firstn_all in H.
        unfold Rdiv in H. rewrite Rinv_r in H; lra.
      + apply (Sc (S j)) in H. lra. }
  assert (M0 : 0 <= m) by apply Rmax_l.
  assert (M1 : lo + m <= 1).
  { destruct B as [[B1 B2] B3]. unfold m, Rmax. pose proof (Rmin_r p hi). destruct (Rle_dec 0 (Rmin p hi - lo)); lra. }
  destruct B as [[B1 B2] B3].
  rewrite (steps_unit [lo; m; 1 - lo - m] [0; 1; 0]); [cbn; ring | | cbn; ring].
  cbn [steps]. rewrite !Rplus_0_l. repeat split; try lra.
  - intros u U. cbn [Nat.eqb]. rewrite Val by lra. destruct (Rlt_dec u p); [|reflexivity].
    destruct (Nat.eq_dec (pick ws u) j) as [E|E]; [|reflexivity]. exfalso. apply (proj1 (Pk u ltac:(lra))); [lra | exact E].
  - intros u U. assert (Mm : m = Rmin p hi - lo) by (unfold m, Rmax in *; destruct (Rle_dec 0 (Rmin p hi - lo)); lra).
    pose proof (Rmin_l p hi). pose proof (Rmin_r p hi).
    cbn [Nat.eqb]. rewrite Val by lra. destruct (Rlt_dec u p); [|lra].
    destruct (Nat.eq_dec (pick ws u) j) as [E|E]; [reflexivity|]. exfalso. apply E. apply (Pk u); lra.
  - intros u U. cbn [Nat.eqb]. rewrite Val by lra. destruct (Rlt_dec u p) as [L|L]; [|reflexivity].
    destruct (Nat.eq_dec (pick ws u) j) as [E|E]; [|reflexivity]. exfalso. apply (proj2 (proj2 (Pk u ltac:(lra)))); [|exact E].
    assert (Rmin p hi - lo <= m) by apply Rmax_r. unfold Rmin in *. destruct (Rle_dec p hi); lra.
Qed.
Print Assumptions C87_probability.

(** If the gate were opened by another random number, the probability would be a
    product. *)
Definition C87_statement : Prop :=
  forall fuel str_of (w : world RP) f (p : R) items (ws : list R) j a (is_a : val -> bool),
  reachable RP fuel str_of w -> gated RP w f [p; 1 - p] items ws -> 0 <= p <= 1 ->
  length ws = length items -> (2 <= length items)%nat -> Forall (fun x => 0 <= x) ws -> 0 < total ws ->
  NoDup items -> nth_error items j = Some a -> a <> VNone -> (forall v, is_a v = true <-> v = a) ->
  probability [0%nat] (fun us => match first_value RP fuel str_of f [us 0%nat] w with Ok v => is_a v | _ => false end)
  = p * (nth j ws 0 / total ws).

Definition is_two (v : val) : bool := match v with VInt 2 => true | _ => false end.
Lemma is_two_spec v : is_two v = true <-> v = VInt 2.
Proof.
  unfold is_two. split; [|intros ->; reflexivity]. destruct v; try discriminate. intros H. f_equal. revert H.
  destruct z as [|[[]|[]|]|]; try discriminate; reflexivity.
Qed.

(** chance(0.5) and Choice([1, 2], weights=[1, 1]): the first value is 2 with
    probability 0 instead of 1/4. *)
Theorem C87_product_refuted : ~ C87_statement.
Proof.
  intros H. set (str_of := fun _ : val => Ok ([] : list Z)). set (w := made_gated RP 9 str_of (/ 2) (1 - / 2) 1 1).
  assert (Q1 := H 9%nat str_of w 0%nat (/ 2) [VInt 1; VInt 2] [1; 1] 1%nat (VInt 2) is_two (made_reachable _ _ _ _ _ _ _) (made_is_gated _ _ _ _ _ _ _)
    ltac:(lra) eq_refl (le_n 2) ltac:(repeat constructor; lra) ltac:(cbn; lra)
    ltac:(repeat constructor; cbn; intuition discriminate) eq_refl ltac:(discriminate) is_two_spec).
  assert (Q2 := C87_probability 9%nat str_of w 0%nat (/ 2) [VInt 1; VInt 2] [1; 1] 1%nat (VInt 2) is_two (made_is_gated _ _ _ _ _ _ _)
    ltac:(lra) eq_refl (le_n 2) ltac:(repeat constructor; lra) ltac:(cbn; lra)
    ltac:(repeat constructor; cbn; intuition discriminate) eq_refl ltac:(discriminate) is_two_spec).
  rewrite Q1 in Q2. unfold share_start in Q2. cbn [firstn nth total fold_right] in Q2.
  unfold Rmax, Rmin in Q2. destruct (Rle_dec _ _); destruct (Rle_dec _ _); lra.
Qed.
Print Assumptions C87_product_refuted.
