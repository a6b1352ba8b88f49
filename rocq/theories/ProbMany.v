(** * Lemmas on probabilities of weighted_shuffle: sorting by score *)
From Coq Require Import Reals Lra List Arith Lia Permutation Sorting.Sorted.
From Coquelicot Require Import Coquelicot.
From Verif Require Import Base Prims MathModel MathSpec MathProofs RealNum ProbSpec ProbProofs.
Import ListNotations.
Open Scope list_scope.
Open Scope R_scope.

(** ** The integral of a power *)
Section Power.
  Context (a : R) (Ha : 0 < a).
  Let g u := if Rlt_dec 0 u then exp (a * ln u) else 0.
  Let G u := if Rlt_dec 0 u then exp ((a + 1) * ln u) / (a + 1) else 0.

  Lemma exp_split u : 0 < u -> exp ((a + 1) * ln u) = u * exp (a * ln u).
  Proof. intros H. rewrite Rmult_plus_distr_r, exp_plus, Rmult_1_l, exp_ln by exact H. ring. Qed.
  Lemma small_power eps : 0 < eps -> exists d, 0 < d /\ forall h, 0 < h < d -> exp (a * ln h) < eps.
  Proof.
    intros He. exists (exp (ln eps / a)). split; [apply exp_pos|]. intros h [H1 H2].
    rewrite <- (exp_ln eps He) at 1. apply exp_increasing. apply ln_increasing in H2; [|exact H1]. rewrite ln_exp in H2.
    apply (Rmult_lt_compat_l a) in H2; [|exact Ha]. replace (a * (ln eps / a)) with (ln eps) in H2 by (field; lra). exact H2.
  Qed.
  Lemma power_cont u : 0 <= u -> continuity_pt g u.
  Proof.
    intros [Hu|<-].
    - apply continuity_pt_filterlim. apply (continuous_ext_loc (T := R_UniformSpace) (U := R_UniformSpace) g (fun u => exp (a * ln u))).
      + exists (mkposreal u Hu). intros y Y. unfold ball in Y. cbn in Y. unfold AbsRing_ball, abs, minus, plus, opp in Y. cbn in Y.
        subst g. cbn beta. destruct (Rlt_dec 0 y) as [|N]; [reflexivity|]. exfalso. apply Rabs_def2 in Y. lra.
      + apply (ex_derive_continuous (V := R_NormedModule)). auto_derive. exact Hu.
    - intros eps He. destruct (small_power eps He) as (d & D & Hd). exists d. split; [exact D|].
      intros x [_ X]. cbn in X. unfold R_dist in X |- *. cbn. unfold R_dist. subst g. cbn beta.
      destruct (Rlt_dec 0 0) as [Z|_]; [lra|]. rewrite Rminus_0_r in *. destruct (Rlt_dec 0 x) as [P|P].
      + rewrite Rabs_pos_eq by (left; apply exp_pos). apply Hd. rewrite Rabs_pos_eq in X by lra. lra.
      + rewrite Rabs_R0. exact He.
  Qed.
  Lemma power_derive u : 0 <= u -> is_derive G u (g u).
  Proof.
    intros [Hu|<-].
    - apply (is_derive_ext_loc (V := R_NormedModule) (fun u => exp ((a + 1) * ln u) / (a + 1))).
      + exists (mkposreal u Hu). intros y Y. unfold ball in Y. cbn in Y. unfold AbsRing_ball, abs, minus, plus, opp in Y. cbn in Y.
        subst G. cbn beta. destruct (Rlt_dec 0 y) as [|N]; [reflexivity|]. exfalso. apply Rabs_def2 in Y. lra.
      + subst g. cbn beta. destruct (Rlt_dec 0 u) as [_|N]; [|lra]. auto_derive; [exact Hu|].
        rewrite exp_split by exact Hu. field. split; lra.
    - apply is_derive_Reals. intros eps He. destruct (small_power eps He) as (d & D & Hd). exists (mkposreal d D).
      intros h Hh Hb. cbn in Hb. subst g G. cbn beta. destruct (Rlt_dec 0 0) as [Z|_]; [lra|].
      rewrite Rplus_0_l, !Rminus_0_r. destruct (Rlt_dec 0 h) as [P|P].
      + rewrite exp_split by exact P. replace (h * exp (a * ln h) / (a + 1) / h) with (exp (a * ln h) / (a + 1)) by (field; lra).
        rewrite Rabs_pos_eq in Hb by lra. specialize (Hd h (conj P Hb)). pose proof (exp_pos (a * ln h)) as E.
        rewrite Rabs_pos_eq by (apply Rdiv_le_0_compat; lra).
        apply Rmult_lt_reg_r with (a + 1); [lra|]. replace (exp (a * ln h) / (a + 1) * (a + 1)) with (exp (a * ln h)) by (field; lra). nra.
      + unfold Rdiv. rewrite Rmult_0_l, Rabs_R0. exact He.
  Qed.
  Lemma power_RInt_pos B : 0 < B -> is_RInt (fun u => exp (a * ln u)) 0 B (exp ((a + 1) * ln B) / (a + 1)).
  Proof.
    intros HB. apply (is_RInt_ext (V := R_NormedModule) g).
    { intros u U. rewrite Rmin_left, Rmax_right in U by lra. subst g. cbn beta. destruct (Rlt_dec 0 u); [reflexivity|lra]. }
    replace (exp ((a + 1) * ln B) / (a + 1)) with (minus (G B) (G 0)).
    - apply (is_RInt_derive (V := R_CompleteNormedModule)).
      + intros u U. rewrite Rmin_left in U by lra. apply power_derive. lra.
      + intros u U. rewrite Rmin_left in U by lra. apply continuity_pt_filterlim, power_cont. lra.
    - unfold minus, plus, opp. cbn. subst G. cbn beta. destruct (Rlt_dec 0 B); [|lra]. destruct (Rlt_dec 0 0); lra.
  Qed.
End Power.
Lemma power_RInt a B : 0 <= a -> 0 < B -> is_RInt (fun u => exp (a * ln u)) 0 B (exp ((a + 1) * ln B) / (a + 1)).
Proof.
  intros [Ha|<-] HB; [apply power_RInt_pos; auto|].
  apply (is_RInt_ext (V := R_NormedModule) (fun _ => 1)).
  { intros u _. rewrite Rmult_0_l, exp_0. reflexivity. }
  replace (exp ((0 + 1) * ln B) / (0 + 1)) with (scal (B - 0) 1); [apply @is_RInt_const|].
  unfold scal. cbn. unfold mult. cbn. replace ((0 + 1) * ln B) with (ln B) by ring. rewrite exp_ln by exact HB. field.
Qed.

(** A function that is a power up to [exp (b * w)] and then 0 *)
Lemma cut_RInt (f : R -> R) c b w W : 0 < w -> 0 <= W -> b <= 0 ->
  (forall u, 0 < u < 1 -> ln u / w < b -> f u = c * exp (ln u / w * W)) ->
  (forall u, 0 < u < 1 -> b < ln u / w -> f u = 0) ->
  RInt f 0 1 = c * (w / (w + W)) * exp (b * (w + W)).
Proof.
  intros Hw HW Hb H1 H2. apply is_RInt_unique. set (B := exp (b * w)).
  assert (BB : 0 < B <= 1).
  { split; [apply exp_pos|]. destruct (Req_dec (b * w) 0) as [E|E]; [subst B; rewrite E, exp_0; lra|].
    left. rewrite <- exp_0. apply exp_increasing. nra. }
  assert (LB : ln B = b * w) by apply ln_exp.
  replace (c * (w / (w + W)) * exp (b * (w + W))) with (plus (c * (w / (w + W)) * exp (b * (w + W))) 0) by apply Rplus_0_r.
  apply (is_RInt_Chasles (V := R_NormedModule) f 0 B).
  - apply (is_RInt_ext (V := R_NormedModule) (fun u => scal c (exp ((W / w) * ln u)))).
    + intros u U. rewrite Rmin_left, Rmax_right in U by lra. unfold scal. cbn. unfold mult. cbn.
      rewrite H1; [f_equal; f_equal; field; lra|lra|].
      apply Rmult_lt_reg_r with w; [exact Hw|]. replace (ln u / w * w) with (ln u) by (field; lra).
      rewrite <- LB. apply ln_increasing; lra.
    + replace (c * (w / (w + W)) * exp (b * (w + W))) with (scal c (exp ((W / w + 1) * ln B) / (W / w + 1))).
      * apply @is_RInt_scal. apply power_RInt; [apply Rdiv_le_0_compat; lra|lra].
      * rewrite LB. unfold scal. cbn. unfold mult. cbn. replace ((W / w + 1) * (b * w)) with (b * (w + W)) by (field; lra).
        field. split; lra.
  - apply (is_RInt_ext (V := R_NormedModule) (fun _ => 0)).
    + intros u U. rewrite Rmin_left, Rmax_right in U by lra. symmetry. apply H2; [lra|].
      apply Rmult_lt_reg_r with w; [exact Hw|]. replace (ln u / w * w) with (ln u) by (field; lra).
      rewrite <- LB. apply ln_increasing; lra.
    + pose proof (is_RInt_const (V := R_NormedModule) B 1 0) as Q.
      replace (scal (1 - B) (0 : R_NormedModule)) with (0 : R_NormedModule) in Q; [exact Q|]. unfold scal. cbn. unfold mult. cbn. ring.
Qed.

(** ** Averages over open intervals *)
Lemma average_ext_open order f g us :
  (forall vs, (forall q, ~ In q order -> vs q = us q) -> (forall q, In q order -> 0 < vs q < 1) -> f vs = g vs) ->
  average order f us = average order g us.
Proof.
  revert us. induction order as [|p order IH]; intros us H; cbn [average].
  - apply H; [reflexivity|]. intros q [].
  - apply RInt_ext. intros u U. rewrite Rmin_left, Rmax_right in U by lra. apply IH. intros vs V O. apply H.
    + intros q Q. rewrite V by (intros N; apply Q; right; exact N).
      destruct (Nat.eqb_spec q p) as [->|]; [|reflexivity]. exfalso. apply Q. left. reflexivity.
    + intros q [<-|Q]; [|apply O; exact Q]. destruct (in_dec Nat.eq_dec p order) as [I|I]; [apply O; exact I|].
      rewrite V by exact I. rewrite Nat.eqb_refl. exact U.
Qed.
Lemma average_const order c us : average order (fun _ => c) us = c.
Proof.
  revert us. induction order as [|p order IH]; intros us; cbn [average]; [reflexivity|].
  transitivity (RInt (fun _ : R => c) 0 1); [|apply RInt_unit]. apply RInt_ext. intros u _. apply IH.
Qed.

Section Scores.
  Context (w : nat -> R).
  Definition sc (us : nat -> R) (p : nat) : R := ln (us p) / w p.

  (** The scores decrease along [ps], from [b] on, and those of [os] are lower. *)
  Fixpoint falling (b : R) (ps os : list nat) (us : nat -> R) : Prop :=
    match ps with
    | [] => forall o, In o os -> sc us o < b
    | p :: ps => sc us p < b /\ falling (sc us p) ps os us
    end.
  Fixpoint rising (b : R) (ps os : list nat) (us : nat -> R) : Prop :=
    match ps with
    | [] => exists o, In o os /\ b < sc us o
    | p :: ps => b < sc us p \/ rising (sc us p) ps os us
    end.
  Definition wsum (l : list nat) : R := total (map w l).
  Fixpoint coefficient (ps os : list nat) : R :=
    match ps with [] => 1 | p :: ps => w p / (w p + wsum (ps ++ os)) * coefficient ps os end.
  Context (Hw : forall p, 0 < w p).

  Lemma wsum_cons p l : wsum (p :: l) = w p + wsum l.
  Proof. reflexivity. Qed.
  Lemma wsum_nonneg l : 0 <= wsum l.
  Proof. apply total_nonneg. apply Forall_map. apply Forall_forall. intros p _. left. apply Hw. Qed.

  Lemma average_below (f : (nat -> R) -> R) b os : b <= 0 -> NoDup os -> forall us,
    (forall vs, (forall q, ~ In q os -> vs q = us q) -> (forall q, In q os -> 0 < vs q < 1) ->
       (forall o, In o os -> sc vs o < b) -> f vs = 1) ->
    (forall vs, (forall q, ~ In q os -> vs q = us q) -> (forall q, In q os -> 0 < vs q < 1) ->
       (exists o, In o os /\ b < sc vs o) -> f vs = 0) ->
    average os f us = exp (b * wsum os).
  Proof.
    intros Hb. induction os as [|o os IH]; intros N us H1 H0; cbn [average].
    - unfold wsum. cbn. rewrite Rmult_0_r, exp_0. apply H1; try reflexivity; intros ? [].
    - inversion N as [|? ? N1 N2]; subst. rewrite wsum_cons.
      set (f' := fun u => average os f (fun q => if (q =? o)%nat then u else us q)).
      rewrite (cut_RInt f' (exp (b * wsum os)) b (w o) 0 (Hw o)); try lra.
      + rewrite Rplus_0_r. replace (w o / w o) with 1 by (field; apply Rgt_not_eq, Hw). rewrite Rmult_1_r, <- exp_plus. f_equal. ring.
      + intros u U L. subst f'. cbn beta. rewrite Rmult_0_r, exp_0, Rmult_1_r. apply IH; auto.
        * intros vs V O B. apply H1.
          -- intros q Q. rewrite V by (intros I; apply Q; right; exact I). destruct (Nat.eqb_spec q o) as [->|]; [|reflexivity]. exfalso. apply Q. left. reflexivity.
          -- intros q [<-|Q]; [|apply O, Q]. rewrite V by exact N1. rewrite Nat.eqb_refl. exact U.
          -- intros q [<-|Q]; [|apply B, Q]. unfold sc. rewrite V by exact N1. rewrite Nat.eqb_refl. exact L.
        * intros vs V O (q & Q & B). apply H0.
          -- intros x X. rewrite V by (intros I; apply X; right; exact I). destruct (Nat.eqb_spec x o) as [->|]; [|reflexivity]. exfalso. apply X. left. reflexivity.
          -- intros x [<-|X]; [|apply O, X]. rewrite V by exact N1. rewrite Nat.eqb_refl. exact U.
          -- exists q. split; [right; exact Q|exact B].
      + intros u U L. subst f'. cbn beta. transitivity (average os (fun _ => 0) (fun q => if (q =? o)%nat then u else us q)); [|apply average_const].
        apply average_ext_open. intros vs V O. apply H0.
        * intros x X. rewrite V by (intros I; apply X; right; exact I). destruct (Nat.eqb_spec x o) as [->|]; [|reflexivity]. exfalso. apply X. left. reflexivity.
        * intros x [<-|X]; [|apply O, X]. rewrite V by exact N1. rewrite Nat.eqb_refl. exact U.
        * exists o. split; [left; reflexivity|]. unfold sc. rewrite V by exact N1. rewrite Nat.eqb_refl. exact L.
  Qed.

  Lemma average_falling (f : (nat -> R) -> R) os ps : NoDup (ps ++ os) -> forall b us, b <= 0 ->
    (forall vs, (forall q, ~ In q (ps ++ os) -> vs q = us q) -> (forall q, In q (ps ++ os) -> 0 < vs q < 1) ->
       falling b ps os vs -> f vs = 1) ->
    (forall vs, (forall q, ~ In q (ps ++ os) -> vs q = us q) -> (forall q, In q (ps ++ os) -> 0 < vs q < 1) ->
       rising b ps os vs -> f vs = 0) ->
    average (ps ++ os) f us = coefficient ps os * exp (b * wsum (ps ++ os)).
  Proof.
    induction ps as [|p ps IH]; intros N b us Hb H1 H0; cbn [app coefficient].
    - rewrite Rmult_1_l. apply average_below; auto.
    - cbn [app] in *. inversion N as [|? ? N1 N2]; subst. rewrite wsum_cons. cbn [average].
      set (f' := fun u => average (ps ++ os) f (fun q => if (q =? p)%nat then u else us q)).
      rewrite (cut_RInt f' (coefficient ps os) b (w p) (wsum (ps ++ os)) (Hw p) (wsum_nonneg _) Hb); [ring| |].
      + intros u U L. subst f'. cbn beta. apply IH; auto.
        * pose proof (Hw p). assert (ln u < 0) by (rewrite <- ln_1; apply ln_increasing; lra).
          left. apply Rmult_lt_reg_r with (w p); [lra|]. replace (ln u / w p * w p) with (ln u) by (field; lra). lra.
        * intros vs V O B. apply H1.
          -- intros q Q. rewrite V by (intros I; apply Q; right; exact I). destruct (Nat.eqb_spec q p) as [->|]; [|reflexivity]. exfalso. apply Q. left. reflexivity.
          -- intros q [<-|Q]; [|apply O, Q]. rewrite V by exact N1. rewrite Nat.eqb_refl. exact U.
          -- cbn [falling]. assert (E : sc vs p = ln u / w p) by (unfold sc; rewrite V by exact N1; rewrite Nat.eqb_refl; reflexivity).
             rewrite E. split; [exact L|exact B].
        * intros vs V O B. apply H0.
          -- intros q Q. rewrite V by (intros I; apply Q; right; exact I). destruct (Nat.eqb_spec q p) as [->|]; [|reflexivity]. exfalso. apply Q. left. reflexivity.
          -- intros q [<-|Q]; [|apply O, Q]. rewrite V by exact N1. rewrite Nat.eqb_refl. exact U.
          -- cbn [rising]. assert (E : sc vs p = ln u / w p) by (unfold sc; rewrite V by exact N1; rewrite Nat.eqb_refl; reflexivity).
             rewrite E. right. exact B.
      + intros u U L. subst f'. cbn beta. transitivity (average (ps ++ os) (fun _ => 0) (fun q => if (q =? p)%nat then u else us q)); [|apply average_const].
        apply average_ext_open. intros vs V O. apply H0.
        * intros q Q. rewrite V by (intros I; apply Q; right; exact I). destruct (Nat.eqb_spec q p) as [->|]; [|reflexivity]. exfalso. apply Q. left. reflexivity.
        * intros q [<-|Q]; [|apply O, Q]. rewrite V by exact N1. rewrite Nat.eqb_refl. exact U.
        * cbn [rising]. left. unfold sc. rewrite V by exact N1. rewrite Nat.eqb_refl. exact L.
  Qed.

  (** *** Sorted lists *)
  Definition not_below us (i j : nat) : Prop := sc us j <= sc us i.
  Lemma falling_all b ps os us : falling b ps os us -> forall q, In q (ps ++ os) -> sc us q < b.
  Proof.
    revert b. induction ps as [|p ps IH]; intros b F q Q; cbn in *; [apply F, Q|]. destruct F as [F1 F2].
    destruct Q as [<-|Q]; [exact F1|]. specialize (IH _ F2 q Q). lra.
  Qed.
  Lemma falling_prefix us os ps b l : falling b ps os us -> StronglySorted (not_below us) l -> Permutation l (ps ++ os) ->
    firstn (length ps) l = ps.
  Proof.
    revert b l. induction ps as [|p ps IH]; intros b l F S Pm; [reflexivity|]. cbn in F. destruct F as [F1 F2].
    destruct l as [|x l]; [apply Permutation_nil in Pm; discriminate|]. inversion S as [|? ? S1 S2]; subst.
    assert (x = p) as ->.
    { destruct (Nat.eq_dec x p) as [|Q]; [assumption|]. exfalso.
      assert (X : In x (ps ++ os)).
      { assert (I : In x ((p :: ps) ++ os)) by (eapply Permutation_in; [exact Pm|left; reflexivity]). destruct I; [congruence|assumption]. }
      assert (P : In p l).
      { assert (I : In p (x :: l)) by (eapply Permutation_in; [symmetry; exact Pm|left; reflexivity]). destruct I; [congruence|assumption]. }
      pose proof (falling_all _ _ _ _ F2 x X). rewrite Forall_forall in S2. specialize (S2 p P). unfold not_below in S2. lra. }
    cbn [length firstn]. f_equal. eapply IH; eauto. cbn [app] in Pm. eapply Permutation_cons_inv. exact Pm.
  Qed.
  Lemma rising_prefix us os ps b l : rising b ps os us -> StronglySorted (not_below us) l -> Permutation l (ps ++ os) ->
    (forall q, In q l -> sc us q <= b) -> firstn (length ps) l <> ps.
  Proof.
    revert b l. induction ps as [|p ps IH]; intros b l F S Pm B E; cbn [rising] in F.
    - destruct F as (o & O & Q). assert (I : In o l) by (eapply Permutation_in; [symmetry; exact Pm|exact O]). specialize (B o I). lra.
    - destruct l as [|x l]; [discriminate|]. cbn [length firstn] in E. injection E as -> E. inversion S as [|? ? S1 S2]; subst.
      destruct F as [F|F].
      + specialize (B p (or_introl eq_refl)). lra.
      + revert E. apply (IH (sc us p)); auto.
        * cbn [app] in Pm. eapply Permutation_cons_inv. exact Pm.
        * intros q Q. rewrite Forall_forall in S2. apply S2, Q.
  Qed.
End Scores.

(** ** The model with real numbers *)
Lemma scores_total {A} (ws : list R) (items : list A) (us : list R) :
  Forall (fun x => 0 < x) ws -> Forall (fun x => 0 < x) us -> length ws = length items -> length us = length items ->
  exists sc r', scores RP ws items us = (Ok sc, r').
Proof.
  intros Fw. revert items us. induction Fw as [|x ws Hx Fw IH]; intros [|a items] us Fu L1 L2; cbn in L1; try discriminate.
  - exists [], us. reflexivity.
  - destruct us as [|u us]; cbn in L2; [discriminate|]. inversion Fu as [|? ? F1 F2]; subst.
    destruct (IH items us F2) as (s & r' & E); [lia|lia|]. cbn [scores].
    change (r_random RP (u :: us)) with (u, us). cbv iota. unfold mbind, lift.
    change (k_score RP u x) with (r_score u x). unfold r_score. destruct (Rlt_dec 0 u); [|lra]. destruct (Req_EM_T x 0); [lra|].
    change (pW RP) with R in E. rewrite E. eexists _, _. reflexivity.
Qed.
Lemma in_tagged (ss : list R) a y : In y (combine ss (seq a (length ss))) -> (a <= snd y)%nat /\ nth_error ss (snd y - a) = Some (fst y).
Proof.
  revert a. induction ss as [|s ss IH]; intros a H; cbn in H; [contradiction|]. destruct H as [<-|H].
  - cbn. rewrite Nat.sub_diag. auto.
  - apply IH in H as [H1 H2]. split; [lia|]. replace (snd y - a)%nat with (S (snd y - S a)) by lia. exact H2.
Qed.
Lemma sorted_snd w us (l : list (R * nat)) : StronglySorted (beats RP) l -> (forall y, In y l -> fst y = sc w us (snd y)) ->
  StronglySorted (not_below w us) (map snd l).
Proof.
  intros S H. induction S as [|x l S IH F]; cbn [map]; constructor.
  - apply IH. intros y Y. apply H. right. exact Y.
  - apply Forall_map. rewrite Forall_forall in *. intros y Y. specialize (F y Y). destruct F as [F _].
    change (k_lt RP) with Rltb in F. apply Rltb_false in F. unfold not_below. rewrite <- (H x), <- (H y); [exact F|right; exact Y|left; reflexivity].
Qed.

Lemma high_k_order {A} (items : list A) (ws : list R) k (us : nat -> R) :
  Forall (fun x => 0 < x) ws -> length ws = length items -> (forall p, (p < length items)%nat -> 0 < us p) ->
  exists out l, fst (high_k RP items ws k (map us (seq 0 (length items)))) = Ok out /\
    StronglySorted (not_below (fun p => nth p ws 1) us) l /\ Permutation l (seq 0 (length items)) /\
    picks items (list_slice l 0 k) out.
Proof.
  intros Fw Lw Hu. set (r := map us (seq 0 (length items))).
  assert (Lr : length r = length items) by (subst r; rewrite map_length, seq_length; reflexivity).
  assert (Fr : Forall (fun x => 0 < x) r).
  { subst r. apply Forall_map, Forall_forall. intros p Hp. apply in_seq in Hp. apply Hu. lia. }
  destruct (scores_total ws items r Fw Fr Lw Lr) as (s & r' & E).
  assert (HK : exists o, high_k RP items ws k r = (Ok o, r')) by (unfold high_k, mbind; change (pW RP) with R in *; rewrite E; eexists; reflexivity).
  destruct HK as [o HK]. rewrite HK. cbn [fst].
  apply high_k_spec in HK as (vs & ss & ps & D & S & L & Eps & Pm & Pk); [|exact Lw].
  change (pW RP) with R in *. change (pK RP) with R in *. change (pU RP) with R in *.
  rewrite rp_draws in D by lia. rewrite firstn_all2 in D by lia. assert (Evs : vs = r) by congruence. clear D. subst vs.
  exists o, ps. split; [reflexivity|]. split; [|split; [exact Pm|exact Pk]].
  rewrite Eps. apply sorted_snd.
  - apply (tagged_sorted RP (fun _ => True)).
    + intros a b _ _ H. change (k_lt RP) with Rltb in *. apply Rltb_true in H. apply Rltb_false. lra.
    + intros a b c _ _ _ H1 H2. change (k_lt RP) with Rltb in *. apply Rltb_false in H1, H2. apply Rltb_false. lra.
    + apply Forall_forall. intros; exact I.
  - intros y Y. apply (Permutation_in _ (sort_desc_perm RP _)) in Y. unfold tagged in Y.
    apply (in_tagged ss 0) in Y as [_ Y]. rewrite Nat.sub_0_r in Y. set (p := snd y) in *.
    assert (Hp : (p < length items)%nat) by (rewrite <- L; apply nth_error_Some; congruence).
    assert (C : nth_error (combine r ws) p = Some (us p, nth p ws 1)).
    { assert (R1 : nth_error r p = Some (us p)).
      { subst r. rewrite nth_error_map, (nth_error_nth' _ 0%nat) by (rewrite seq_length; exact Hp). rewrite seq_nth by exact Hp. reflexivity. }
      assert (R2 : nth_error ws p = Some (nth p ws 1)) by (apply nth_error_nth'; lia).
      revert R1 R2. generalize (us p), (nth p ws 1). generalize p. clear. revert ws. induction r as [|x r IH]; intros [|z ws] [|p] a b R1 R2; cbn in *; try discriminate.
      - congruence.
      - apply IH; assumption. }
    assert (K : k_score RP (us p) (nth p ws 1) = Ok (fst y)).
    { revert Y C. generalize (fst y), (us p), (nth p ws 1). generalize p. clear - S.
      induction S as [|a b l l' H S IH]; intros [|p] s u x Y C; cbn [nth_error] in *; try discriminate.
      - injection Y as ->. injection C as ->. exact H.
      - eapply IH; eauto. }
    change (k_score RP) with r_score in K. unfold r_score in K. destruct (Rlt_dec 0 (us p)); [|discriminate].
    destruct (Req_EM_T (nth p ws 1) 0); [discriminate|]. injection K as K. unfold sc. symmetry. exact K.
Qed.

Lemma picks_inj {A} (items : list A) ps qs o : NoDup items -> picks items ps o -> picks items qs o -> ps = qs.
Proof.
  intros N P. revert qs. induction P as [|p a ps o H P IH]; intros qs Q; inversion Q as [|q ? qs' ? H' Q']; subst; [reflexivity|].
  f_equal; [|apply IH; exact Q']. apply (proj1 (NoDup_nth_error items) N p q); [apply nth_error_Some|]; congruence.
Qed.

Lemma coefficient_one_by_one (w : nat -> R) os ps ws : NoDup (ps ++ os) ->
  (forall p, In p (ps ++ os) -> nth p ws 0 = w p) -> total ws = wsum w (ps ++ os) ->
  (forall p, (p < length ws)%nat -> ~ In p (ps ++ os) -> nth p ws 0 = 0) ->
  (forall p, In p ps -> (p < length ws)%nat) ->
  coefficient w ps os = one_by_one ws ps.
Proof.
  revert ws. induction ps as [|p ps IH]; intros ws N H T Z B; cbn [coefficient one_by_one app] in *; [reflexivity|].
  inversion N as [|? ? N1 N2]; subst. rewrite (H p) by (left; reflexivity). rewrite T, wsum_cons. f_equal.
  apply IH; auto.
  - intros q Q. rewrite nth_without. destruct (Nat.eqb_spec q p) as [->|]; [contradiction|]. apply H. right. exact Q.
  - assert (E : forall (l : list R) n, (n < length l)%nat -> total (without n l) = total l - nth n l 0).
    { clear. induction l as [|x l IHl]; intros [|n] L; cbn in L; try lia; cbn [without nth]; rewrite !total_cons; [lra|].
      rewrite IHl by lia. lra. }
    rewrite E by (apply B; left; reflexivity). rewrite T, wsum_cons, (H p) by (left; reflexivity). lra.
  - intros q Q1 Q2. rewrite without_length in Q1. rewrite nth_without. destruct (Nat.eqb_spec q p) as [->|D]; [reflexivity|].
    apply Z; [exact Q1|]. intros [->|I]; [congruence|contradiction].
  - intros q Q. rewrite without_length. apply B. right. exact Q.
Qed.

Lemma picks_firstn {A} (items : list A) ps o n : picks items ps o -> picks items (firstn n ps) (firstn n o).
Proof. intros P. revert n. induction P; intros [|n]; cbn; constructor; auto. apply IHP. Qed.

Section Many.
  Context {A : Type} (dec : forall a b : A, {a = b} + {a <> b}).
  Lemma high_k_began (items : list A) (ws : list R) ps os out k :
    NoDup items -> length ws = length items -> Forall (fun x => 0 < x) ws ->
    Permutation (ps ++ os) (seq 0 (length items)) -> picks items ps out -> (zlen out <= k)%Z ->
    probability (ps ++ os) (fun us => began dec out (fst (high_k RP items ws k (map us (seq 0 (length items)))))) =
    one_by_one ws ps.
  Proof.
    intros N L F Pm Pk Hk. set (w := fun p => nth p ws 1).
    assert (Hw : forall p, 0 < w p).
    { intros p. unfold w. destruct (Nat.lt_ge_cases p (length ws)) as [H|H].
      - rewrite Forall_forall in F. apply F, nth_In, H.
      - rewrite nth_overflow by exact H. lra. }
    assert (NP : NoDup (ps ++ os)) by (eapply Permutation_NoDup; [symmetry; exact Pm|apply seq_NoDup]).
    pose proof (picks_length _ _ _ Pk) as Lp.
    assert (In_ : forall q, In q (ps ++ os) <-> (q < length items)%nat).
    { intros q. split; intros H.
      - apply (Permutation_in _ Pm), in_seq in H. lia.
      - apply (Permutation_in _ (Permutation_sym Pm)), in_seq. lia. }
    unfold probability. rewrite (average_falling w Hw _ os ps NP 0).
    - rewrite Rmult_0_l, exp_0, Rmult_1_r. apply coefficient_one_by_one; auto.
      + intros p H. unfold w. apply nth_indep. apply In_ in H. lia.
      + unfold wsum. transitivity (total (map w (seq 0 (length items)))).
        * f_equal. rewrite <- L. clear. unfold w. induction ws as [|x l IH] using rev_ind; [reflexivity|].
          rewrite app_length. cbn [length]. rewrite seq_app, map_app. cbn [seq map Nat.add]. f_equal.
          -- rewrite IH at 1. apply map_ext_in. intros p Hp. apply in_seq in Hp. rewrite app_nth1 by lia. reflexivity.
          -- rewrite app_nth2, Nat.sub_diag by lia. reflexivity.
        * assert (TP : forall a b : list R, Permutation a b -> total a = total b).
          { induction 1; rewrite ?total_cons; try lra. }
          apply TP, Permutation_map. symmetry. exact Pm.
      + intros p H1 H2. exfalso. apply H2, In_. lia.
      + intros p H. rewrite L. apply In_, in_or_app. left. exact H.
    - lra.
    - intros vs V O Fa. destruct (high_k_order items ws k vs F L) as (o & l & E & S & P & K).
      { intros p H. apply O, In_, H. }
      rewrite E. rewrite list_slice_0 in K by (unfold zlen in Hk; lia).
      assert (Q : firstn (length ps) l = ps).
      { apply (falling_prefix w vs os ps 0 l); auto. rewrite P. symmetry. exact Pm. }
      pose proof (picks_firstn items _ o (length ps) K) as K2. rewrite firstn_firstn, Nat.min_l, Q in K2 by (unfold zlen in Hk; lia).
      unfold began. rewrite <- Lp, (picks_fun _ _ _ _ K2 Pk). destruct (list_eq_dec dec out out); congruence.
    - intros vs V O Ri. destruct (high_k_order items ws k vs F L) as (o & l & E & S & P & K).
      { intros p H. apply O, In_, H. }
      rewrite E. rewrite list_slice_0 in K by (unfold zlen in Hk; lia).
      pose proof (picks_firstn items _ o (length ps) K) as K2. rewrite firstn_firstn, Nat.min_l in K2 by (unfold zlen in Hk; lia).
      unfold began. rewrite <- Lp. destruct (list_eq_dec dec (firstn (length ps) o) out) as [Eo|]; [|reflexivity]. exfalso.
      rewrite Eo in K2. pose proof (picks_inj _ _ _ _ N K2 Pk) as Q. revert Q. apply (rising_prefix w vs os ps 0); auto.
      + rewrite P. symmetry. exact Pm.
      + intros q Hq. assert (Hl : (q < length items)%nat) by (apply (Permutation_in _ P), in_seq in Hq; lia).
        pose proof (O q (proj2 (In_ q) Hl)) as U. pose proof (Hw q). unfold sc.
        assert (ln (vs q) < 0) by (rewrite <- ln_1; apply ln_increasing; lra).
        apply Rmult_le_reg_r with (w q); [lra|]. replace (ln (vs q) / w q * w q) with (ln (vs q)) by (field; lra). lra.
  Qed.

  Lemma high_k_average (items : list A) (ws : list R) ps os out :
    NoDup items -> length ws = length items -> Forall (fun x => 0 < x) ws ->
    Permutation (ps ++ os) (seq 0 (length items)) -> picks items ps out ->
    probability (ps ++ os) (fun us => returned dec out (fst (high_k RP items ws (zlen out) (map us (seq 0 (length items)))))) =
    one_by_one ws ps.
  Proof.
    intros N L F Pm Pk. rewrite <- (high_k_began items ws ps os out (zlen out)) by (auto; lia).
    unfold probability. apply average_ext_open. intros vs _ O.
    destruct (high_k_order items ws (zlen out) vs F L) as (o & l & E & S & P & K).
    { intros p H. apply O. apply (Permutation_in _ (Permutation_sym Pm)), in_seq. lia. }
    rewrite E. apply picks_length in K. rewrite list_slice_0 in K by (unfold zlen; lia).
    assert (Lo : (length o <= length out)%nat) by (rewrite <- K, firstn_length; unfold zlen; lia).
    unfold returned, began. rewrite firstn_all2 by exact Lo. reflexivity.
  Qed.
End Many.
