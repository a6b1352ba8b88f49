(** * QcNum: the exact instance of Prims.  Weights and random numbers are
    rationals, scores [log(u)/w] are compared exactly.  The random generator is
    arbitrary. *)
From Verif Require Import Base Prims MathModel NumLaws.
From Coq Require Import QArith Qcanon Qround Lqa.
Open Scope Z_scope.

(** A generator whose random() returns exact rationals. *)
Record qgen : Type := mkQgen {
  g_state : Type;
  g_seed : Type;
  g_seeded : g_seed -> g_state;
  g_fresh : nat -> g_state;
  g_random : g_state -> Qc * g_state;
  g_below : nat -> g_state -> nat * g_state;
  g_sample : nat -> nat -> g_state -> list nat * g_state
}.

(** The documented contracts of [random.Random]. *)
Record qgen_ok (g : qgen) : Prop := mkQgenOk {
  g_random_ok : forall r, (0 <= fst (g_random g r))%Qc /\ (fst (g_random g r) < 1)%Qc;
  g_below_ok : forall n r, (0 < n)%nat -> (fst (g_below g n r) < n)%nat;
  g_sample_ok : forall n k r, (k <= n)%nat ->
    let l := fst (g_sample g n k r) in
    length l = k /\ NoDup l /\ (forall i, In i l -> (i < n)%nat)
}.

Definition qc_ltb (a b : Qc) : bool := negb (Qle_bool b a).

(** [log(u1)/w1 < log(u2)/w2] for 0 < u1, u2 and w1, w2 <> 0.  Multiplying by
    w1*w2 and the denominators turns this into a comparison of powers with
    integer exponents; log is increasing. *)
Definition score_ltb (a b : Qc * Qc) : bool :=
  let '(u1, w1) := a in
  let '(u2, w2) := b in
  let e1 := Qnum w2 * Zpos (Qden w1) in
  let e2 := Qnum w1 * Zpos (Qden w2) in
  let x1 := Qpower u1 e1 in
  let x2 := Qpower u2 e2 in
  if (0 <? Qnum w1) && (0 <? Qnum w2) || (Qnum w1 <? 0) && (Qnum w2 <? 0)
  then negb (Qle_bool x2 x1) else negb (Qle_bool x1 x2).

(** [math.log(u) / w]: ValueError for u = 0.0, then ZeroDivisionError for w = 0. *)
Definition qc_score (u w : Qc) : res (Qc * Qc) :=
  if Qle_bool u 0 then Raise ValueError
  else if Qeq_bool w 0 then Raise ZeroDivisionError
  else Ok (u, w).

Definition QP (g : qgen) : prims := {|
  pW := Qc; pU := Qc; pK := Qc * Qc; pR := g_state g; pSeed := g_seed g;
  w_zero := 0%Qc; w_one := 1%Qc; w_add := Qcplus; w_sub := Qcminus;
  w_true := fun w => negb (Qeq_bool w 0);
  w_lt := qc_ltb;
  w_total_ok := fun t => negb (Qle_bool t 0);
  w_scale := Qcmult;
  u_floor := fun u n => Z.to_nat (Qfloor (u * inject_Z (Z.of_nat n)));
  k_score := qc_score; k_lt := score_ltb;
  r_seeded := g_seeded g; r_fresh := g_fresh g; r_random := g_random g;
  r_below := g_below g; r_sample := g_sample g
|}.

(** ** Order *)
Lemma qc_ltb_lt a b : qc_ltb a b = true <-> (a < b)%Qc.
Proof.
  unfold qc_ltb, Qclt. rewrite negb_true_iff. rewrite <- not_true_iff_false, Qle_bool_iff.
  split; intros; lra.
Qed.
Lemma qc_ltb_ge a b : qc_ltb a b = false <-> (b <= a)%Qc.
Proof.
  unfold qc_ltb, Qcle. rewrite negb_false_iff. apply Qle_bool_iff.
Qed.
Lemma qc_true_iff w : negb (Qeq_bool (this w) 0) = true <-> w <> 0%Qc.
Proof.
  rewrite negb_true_iff. split.
  - intros H ->. discriminate.
  - intros H. destruct (Qeq_bool w 0) eqn:E; auto. apply Qeq_bool_iff in E.
    destruct H. apply Qc_is_canon. exact E.
Qed.
Lemma qc_false_iff w : negb (Qeq_bool (this w) 0) = false <-> w = 0%Qc.
Proof.
  rewrite negb_false_iff. rewrite Qeq_bool_iff. split.
  - intros H. apply Qc_is_canon. exact H.
  - intros ->. reflexivity.
Qed.
Lemma qc_total_iff t : negb (Qle_bool (this t) 0) = true <-> (0 < t)%Qc.
Proof. exact (qc_ltb_lt 0%Qc t). Qed.

(** Non-negative weights satisfy the laws. *)
Lemma qc_laws g : qgen_ok g -> wlaws (QP g) (fun w => (0 <= w)%Qc) (fun _ => True).
Proof.
  intros G. constructor; cbn [QP pW w_zero w_add w_true w_lt w_total_ok w_scale r_random].
  - apply Qcle_refl.
  - intros a b Ha Hb. replace 0%Qc with (0 + 0)%Qc by ring. apply Qcplus_le_compat; auto.
  - auto.
  - reflexivity.
  - intros x a b _ _ _ H1 H2. apply qc_ltb_lt in H1. apply qc_ltb_ge in H2. apply qc_ltb_lt.
    eapply Qclt_le_trans; eauto.
  - intros a b _ _ H. apply qc_false_iff in H as ->. apply qc_ltb_ge.
    replace (a + 0)%Qc with a by ring. apply Qcle_refl.
  - auto.
  - intros t r _ Ht. apply qc_total_iff in Ht. apply qc_ltb_lt.
    replace t with (1 * t)%Qc at 2 by ring. apply Qcmult_lt_compat_r; auto. apply (g_random_ok g G).
  - intros t r z _ Ht _ Hz. apply qc_total_iff in Ht. apply qc_false_iff in Hz as ->. apply qc_ltb_ge.
    replace 0%Qc with (0 * t)%Qc by ring. apply Qcmult_le_compat_r; [apply (g_random_ok g G)|].
    apply Qclt_le_weak; auto.
Qed.

Lemma qc_floor g u n : (0 <= u)%Qc -> (u < 1)%Qc -> (0 < n)%nat -> (u_floor (QP g) u n < n)%nat.
Proof.
  intros H0 H1 Hn. cbn [QP u_floor].
  assert (Hf : (u * inject_Z (Z.of_nat n) < inject_Z (Z.of_nat n))%Q).
  { unfold Qclt in H1. change (this 1%Qc) with 1%Q in H1.
    assert (0 < inject_Z (Z.of_nat n))%Q by (change 0%Q with (inject_Z 0); rewrite <- Zlt_Qlt; lia). nra. }
  pose proof (Qfloor_le (u * inject_Z (Z.of_nat n))) as H2.
  assert (H3 : (inject_Z (Qfloor (u * inject_Z (Z.of_nat n))) < inject_Z (Z.of_nat n))%Q) by lra.
  rewrite <- Zlt_Qlt in H3. lia.
Qed.

Lemma qc_rng_ok g : qgen_ok g -> rng_ok (QP g).
Proof.
  intros G. constructor.
  - intros n r Hn. apply (g_below_ok g G); auto.
  - intros n r Hn. apply qc_floor; auto; apply (g_random_ok g G).
  - intros n k r Hk. apply (g_sample_ok g G); auto.
  - reflexivity.
Qed.
