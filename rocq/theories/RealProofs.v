(** * Lemmas about RealModel *)
From Verif Require Import Base Prims MathModel ChoiceModel RealModel MathProofs ChoiceProofs ChoiceProofs2.
From Coq Require Import Reals Lra.
Open Scope R_scope.

Lemma poisson_pos x mu : 0 < mu -> 0 < poisson x mu.
Proof.
  intros H. unfold poisson. apply Rdiv_lt_0_compat.
  - apply Rmult_lt_0_compat; [apply pow_lt; auto|apply exp_pos].
  - apply INR_fact_lt_0.
Qed.

Lemma poisson_0 mu : poisson 0 mu = exp (- mu).
Proof. unfold poisson. cbn. replace (-1 * mu) with (- mu) by ring. field. Qed.

Lemma poisson_S x mu : poisson (S x) mu = poisson x mu * mu / INR (S x).
Proof.
  unfold poisson. rewrite fact_simpl, mult_INR. cbn [pow].
  field. split; [apply INR_fact_neq_0|apply not_0_INR; discriminate].
Qed.

Lemma poisson_step x mu : 0 < mu ->
  (INR (S x) < mu -> poisson x mu < poisson (S x) mu) /\
  (INR (S x) = mu -> poisson x mu = poisson (S x) mu) /\
  (mu < INR (S x) -> poisson (S x) mu < poisson x mu).
Proof.
  intros Hmu. rewrite poisson_S. pose proof (poisson_pos x mu Hmu) as Hp.
  assert (Hs : 0 < INR (S x)) by (apply lt_0_INR; lia).
  assert (E : poisson x mu * mu / INR (S x) - poisson x mu = poisson x mu * (mu - INR (S x)) / INR (S x)).
  { field. lra. }
  repeat split; intros H.
  - assert (0 < poisson x mu * (mu - INR (S x)) / INR (S x)); [|lra].
    apply Rdiv_lt_0_compat; auto. apply Rmult_lt_0_compat; lra.
  - rewrite H. field. lra.
  - assert (0 < poisson x mu * (INR (S x) - mu) / INR (S x)).
    { apply Rdiv_lt_0_compat; auto. apply Rmult_lt_0_compat; lra. }
    assert (poisson x mu * (INR (S x) - mu) / INR (S x) = - (poisson x mu * (mu - INR (S x)) / INR (S x))) by (field; lra).
    lra.
Qed.

Lemma poisson_sum_cv mu : Un_cv (fun n => sum_f_R0 (fun x => poisson x mu) n) 1.
Proof.
  assert (E : forall n, sum_f_R0 (fun x => poisson x mu) n
              = exp (- mu) * sum_f_R0 (fun i => / INR (fact i) * mu ^ i) n).
  { intros n. rewrite scal_sum. apply sum_eq. intros i _. unfold poisson.
    replace (-1 * mu) with (- mu) by ring. unfold Rdiv. ring. }
  assert (H : Un_cv (fun n => exp (- mu) * sum_f_R0 (fun i => / INR (fact i) * mu ^ i) n) (exp (- mu) * exp mu)).
  { apply CV_mult.
    - intros eps He. exists 0%nat. intros n _. unfold R_dist. rewrite Rminus_diag_eq, Rabs_R0; auto.
    - unfold exp at 1. destruct (exist_exp mu) as [l Hl]. cbn. unfold exp_in, infinit_sum in Hl. exact Hl. }
  rewrite <- exp_plus in H. replace (- mu + mu) with 0 in H by ring. rewrite exp_0 in H.
  intros eps He. destruct (H eps He) as [N HN]. exists N. intros n Hn. rewrite E. auto.
Qed.

Lemma poisson_sum_le mu n : 0 < mu -> sum_f_R0 (fun x => poisson x mu) n <= 1.
Proof.
  intros H. apply sum_incr. apply poisson_sum_cv. intros i. left. apply poisson_pos; auto.
Qed.

(** ** gaussian *)
Lemma sqrt_2PI_pos : 0 < sqrt (2 * PI).
Proof. apply sqrt_lt_R0. pose proof PI_RGT_0. lra. Qed.

Lemma gaussian_pos x mu sigma : 0 < sigma -> 0 < gaussian x mu sigma.
Proof.
  intros H. unfold gaussian. apply Rmult_lt_0_compat; [apply exp_pos|].
  apply Rdiv_lt_0_compat; [lra|]. apply Rmult_lt_0_compat; auto. apply sqrt_2PI_pos.
Qed.

Lemma gaussian_shift x mu sigma d : gaussian (x + d) (mu + d) sigma = gaussian x mu sigma.
Proof. unfold gaussian. replace (x + d - (mu + d)) with (x - mu) by ring. reflexivity. Qed.

Lemma gaussian_sym d mu sigma : gaussian (mu + d) mu sigma = gaussian (mu - d) mu sigma.
Proof.
  unfold gaussian. replace (((mu + d - mu) / sigma) ^ 2) with (((mu - d - mu) / sigma) ^ 2) by (unfold Rdiv; ring).
  reflexivity.
Qed.

Lemma gaussian_max mu sigma : gaussian mu mu sigma = 1 / (sqrt (2 * PI) * sigma).
Proof.
  unfold gaussian. replace (mu - mu) with 0 by ring.
  replace (-1 * (0 / sigma) ^ 2 / 2) with 0 by (unfold Rdiv; ring). rewrite exp_0. ring.
Qed.

Lemma gaussian_decr x y mu sigma : 0 < sigma -> Rabs (x - mu) < Rabs (y - mu) ->
  gaussian y mu sigma < gaussian x mu sigma.
Proof.
  intros Hs H. unfold gaussian.
  assert (0 < 1 / (sqrt (2 * PI) * sigma)).
  { apply Rdiv_lt_0_compat; [lra|]. apply Rmult_lt_0_compat; auto. apply sqrt_2PI_pos. }
  apply Rmult_lt_compat_r; auto. apply exp_increasing.
  assert (Hq : ((x - mu) / sigma) ^ 2 < ((y - mu) / sigma) ^ 2).
  { rewrite <- !Rsqr_pow2. apply Rsqr_lt_abs_1. unfold Rdiv. rewrite !Rabs_mult.
    apply Rmult_lt_compat_r; auto. apply Rabs_pos_lt. apply Rinv_neq_0_compat. lra. }
  lra.
Qed.

(** ** Overflow of poisson *)
Open Scope Z_scope.
Lemma zfact_pos n : 0 < zfact n.
Proof. induction n; cbn [zfact]; lia. Qed.

Lemma zfact_mono n m : (n <= m)%nat -> zfact n <= zfact m.
Proof.
  induction 1 as [|m Hm IH]; [lia|]. cbn [zfact]. pose proof (zfact_pos m).
  assert (1 <= Z.of_nat (S m)) by lia. nia.
Qed.

Lemma fact_171_big : int_to_float_ok (zfact 171) = false.
Proof. vm_compute. reflexivity. Qed.
Lemma fact_170_fits : int_to_float_ok (zfact 170) = true.
Proof. vm_compute. reflexivity. Qed.

Lemma fact_big n : (171 <= n)%nat -> int_to_float_ok (zfact n) = false.
Proof.
  intros H. pose proof (zfact_mono _ _ H). pose proof fact_171_big as F.
  unfold int_to_float_ok in *. pose proof (zfact_pos n). pose proof (zfact_pos 171).
  rewrite Z.abs_eq in * by lia. apply Z.ltb_ge in F. apply Z.ltb_ge. lia.
Qed.
Lemma fact_fits n : (n <= 170)%nat -> int_to_float_ok (zfact n) = true.
Proof.
  intros H. pose proof (zfact_mono _ _ H). pose proof fact_170_fits as F.
  unfold int_to_float_ok in *. pose proof (zfact_pos n). pose proof (zfact_pos 170).
  rewrite Z.abs_eq in * by lia. apply Z.ltb_lt in F. apply Z.ltb_lt. lia.
Qed.

Lemma mapM_raises {A B} (f : A -> res B) l e x :
  In x l -> (forall y, (exists b, f y = Ok b) \/ f y = Raise e) -> f x = Raise e -> mapM f l = Raise e.
Proof.
  intros Hin Hf Hx. induction l as [|y l IH]; [destruct Hin|]. cbn.
  destruct (Hf y) as [[b Hb]|Hb]; rewrite Hb; cbn; auto.
  destruct Hin as [->|Hin]; [congruence|]. rewrite IH; auto.
Qed.

Lemma mapM_all_ok {A B} (f : A -> res B) (g : A -> B) l :
  (forall x, In x l -> f x = Ok (g x)) -> mapM f l = Ok (map g l).
Proof.
  induction l as [|y l IH]; intros H; cbn; auto.
  rewrite (H y) by (left; auto). cbn. rewrite IH; auto. intros; apply H; right; auto.
Qed.

Lemma mapM_ok_inv {A B} (f : A -> res B) l out : mapM f l = Ok out -> Forall2 (fun x b => f x = Ok b) l out.
Proof.
  revert out. induction l as [|y l IH]; intros out H; cbn in H.
  - injection H as <-. constructor.
  - destruct (f y) as [b| |] eqn:E; cbn in H; [|discriminate..].
    destruct (mapM f l) as [bs| |]; cbn in H; [|discriminate..]. injection H as <-. constructor; auto.
Qed.

Lemma new_weights_given P {A} fuel (items : list A) ws rep roac sd ent c :
  choice_new P fuel items (Some ws) rep roac sd None ent = Ok c -> length ws = length items ->
  c_weights c = Some ws /\ c_items c = items.
Proof.
  intros H HL. apply new_inv in H as (wc & Hne & Ha & H & _).
  apply reset_any in H as [(F1 & F2 & _) _]. cbn in F1, F2. rewrite F2. split; auto.
  destruct ws as [|w ws]; [destruct items; [congruence|discriminate]|].
  cbn [nonempty] in Ha. apply all_weights_ok in Ha as [(X & _)|(l & X & _ & ->)]; [discriminate|].
  injection X as <-. reflexivity.
Qed.
