(** * Lemmas on probabilities of weighted_shuffle: the rejection loop *)
From Coq Require Import Reals Lra List Arith Lia.
From Coquelicot Require Import Coquelicot.
From Verif Require Import Base Prims MathModel MathSpec MathProofs NumLaws RealNum ProbSpec.
Import ListNotations.
Open Scope list_scope.
Open Scope R_scope.

(** ** Averages *)

(** Average over lists of [m] random numbers *)
Fixpoint avgl (m : nat) (f : list R -> R) : R :=
  match m with
  | O => f []
  | S m => RInt (fun u => avgl m (fun l => f (u :: l))) 0 1
  end.

Lemma avgl_ext m f g : (forall l, length l = m -> f l = g l) -> avgl m f = avgl m g.
Proof.
  revert f g. induction m as [|m IH]; intros f g H; cbn [avgl]; [apply H; reflexivity|].
  apply RInt_ext. intros u _. apply IH. intros l L. apply H. cbn. lia.
Qed.
Lemma RInt_unit (c : R) : RInt (fun _ => c) 0 1 = c.
Proof. rewrite RInt_const. unfold scal. cbn. unfold mult. cbn. lra. Qed.
Lemma avgl_const m c : avgl m (fun _ => c) = c.
Proof.
  induction m as [|m IH]; [reflexivity|]. cbn [avgl]. transitivity (RInt (fun _ : R => c) 0 1); [|apply RInt_unit].
  apply RInt_ext. intros u _. exact IH.
Qed.
Lemma avgl_add a b f : avgl (a + b) f = avgl a (fun x => avgl b (fun y => f (x ++ y))).
Proof.
  revert f. induction a as [|a IH]; intros f; cbn [avgl Nat.add]; [reflexivity|].
  apply RInt_ext. intros u _. rewrite IH. reflexivity.
Qed.

Lemma average_ext order f g us :
  (forall vs, (forall q, ~ In q order -> vs q = us q) -> f vs = g vs) -> average order f us = average order g us.
Proof.
  revert us. induction order as [|p order IH]; intros us H; cbn [average].
  - apply H. reflexivity.
  - apply RInt_ext. intros u _. apply IH. intros vs V. apply H. intros q Q. rewrite V by (intros N; apply Q; right; exact N).
    destruct (Nat.eqb_spec q p) as [->|]; [|reflexivity]. exfalso. apply Q. left. reflexivity.
Qed.
Lemma average_avgl f m j us : average (seq j m) (fun us => f (map us (seq j m))) us = avgl m f.
Proof.
  revert f j us. induction m as [|m IH]; intros f j us; [reflexivity|]. cbn [seq average avgl].
  apply RInt_ext. intros u _. rewrite <- (IH (fun l => f (u :: l)) (S j) (fun q => if (q =? j)%nat then u else us q)).
  apply average_ext. intros vs V. cbn [map]. rewrite (V j).
  - rewrite Nat.eqb_refl. reflexivity.
  - rewrite in_seq. lia.
Qed.

(** ** Functions that are constant on intervals *)
Fixpoint steps (a : R) (ds vs : list R) (f : R -> R) : Prop :=
  match ds, vs with
  | d :: ds, v :: vs => 0 <= d /\ (forall u, a < u < a + d -> f u = v) /\ steps (a + d) ds vs f
  | [], [] => True
  | _, _ => False
  end.
Fixpoint dot (ds vs : list R) : R :=
  match ds, vs with d :: ds, v :: vs => d * v + dot ds vs | _, _ => 0 end.
Lemma steps_RInt ds vs f a : steps a ds vs f -> is_RInt f a (a + total ds) (dot ds vs).
Proof.
  revert vs a. induction ds as [|d ds IH]; intros [|v vs] a H; cbn [steps total fold_right dot] in *; try contradiction.
  - replace (a + 0) with a by lra. apply (is_RInt_point (V := R_NormedModule)).
  - destruct H as (D & C & S). fold (total ds). replace (a + (d + total ds)) with (a + d + total ds) by lra.
    apply (is_RInt_Chasles (V := R_NormedModule) f a (a + d)).
    + apply (is_RInt_ext (V := R_NormedModule) (fun _ => v)).
      * intros u U. rewrite Rmin_left, Rmax_right in U by lra. symmetry. apply C. exact U.
      * replace (d * v) with (scal (a + d - a) v); [apply @is_RInt_const|]. unfold scal. cbn. unfold mult. cbn. lra.
    + apply IH. exact S.
Qed.
Lemma steps_unit ds vs f : steps 0 ds vs f -> total ds = 1 -> RInt f 0 1 = dot ds vs.
Proof. intros H T. apply is_RInt_unique. rewrite <- T at 1. replace (total ds) with (0 + total ds) by lra. apply steps_RInt, H. Qed.

Lemma dot_scale c ds vs : dot (map (fun d => d * c) ds) vs = c * dot ds vs.
Proof. revert vs. induction ds as [|d ds IH]; intros [|v vs]; cbn [dot map]; try lra. rewrite IH. lra. Qed.
Lemma total_cons x l : total (x :: l) = x + total l.
Proof. reflexivity. Qed.
Lemma total_nil : total [] = 0.
Proof. reflexivity. Qed.
Lemma total_scale c ds : total (map (fun d => d * c) ds) = c * total ds.
Proof. induction ds as [|d ds IH]; cbn [map]; rewrite ?total_nil, ?total_cons, ?IH; lra. Qed.
Lemma total_app a b : total (a ++ b) = total a + total b.
Proof. induction a as [|x a IH]; cbn [app]; rewrite ?total_nil, ?total_cons, ?IH; lra. Qed.
Lemma total_nonneg l : Forall (fun w => 0 <= w) l -> 0 <= total l.
Proof. induction 1; rewrite ?total_nil, ?total_cons; lra. Qed.

Lemma steps_intro f ds vs a : length ds = length vs -> Forall (fun d => 0 <= d) ds ->
  (forall i u, (i < length ds)%nat -> a + total (firstn i ds) < u < a + total (firstn (S i) ds) -> f u = nth i vs 0) ->
  steps a ds vs f.
Proof.
  revert vs a. induction ds as [|d ds IH]; intros [|v vs] a L F H; cbn in L; try discriminate; cbn [steps]; [exact I|].
  inversion F as [|? ? F1 F2]; subst. split; [exact F1|]. split.
  - intros u U. apply (H 0%nat u); [cbn; lia|]. cbn. lra.
  - apply IH; auto. intros i u Hi U. apply (H (S i) u); [cbn; lia|]. change (firstn (S i) (d :: ds)) with (d :: firstn i ds).
    change (firstn (S (S i)) (d :: ds)) with (d :: firstn (S i) ds). rewrite !total_cons. lra.
Qed.

(** ** Weighted choice *)
Lemma Rltb_true a b : Rltb a b = true <-> a < b.
Proof. unfold Rltb. destruct (Rlt_dec a b); split; intros; try lra; try discriminate; reflexivity. Qed.
Lemma Rltb_false a b : Rltb a b = false <-> b <= a.
Proof. unfold Rltb. destruct (Rlt_dec a b); split; intros; try lra; try discriminate; reflexivity. Qed.

Lemma accumulate_total (ws : list R) i : (i < length ws)%nat -> nth i (accumulate RP ws) 0 = total (firstn (S i) ws).
Proof.
  induction i as [|i IH]; intros Hi; rewrite (accumulate_nth RP) by exact Hi.
  - destruct ws as [|w ws]; cbn in Hi; [lia|]. cbn. lra.
  - rewrite IH by lia. change (w_add RP) with Rplus.
    assert (E : forall (l : list R) n, (n < length l)%nat -> total (firstn (S n) l) = total (firstn n l) + nth n l 0).
    { clear. intros l. induction l as [|x l IHl]; intros [|n] Hn; cbn in Hn; try lia; [cbn; lra|].
      change (firstn (S (S n)) (x :: l)) with (x :: firstn (S n) l). change (firstn (S n) (x :: l)) with (x :: firstn n l).
      rewrite !total_cons, IHl by lia. cbn [nth]. lra. }
    symmetry. exact (E ws (S i) Hi).
Qed.
Lemma total_firstn_le l i j : Forall (fun w => 0 <= w) l -> (i <= j)%nat -> total (firstn i l) <= total (firstn j l).
Proof.
  revert i j. induction l as [|x l IH]; intros i j F H; [rewrite !firstn_nil; lra|]. inversion F as [|? ? F1 F2]; subst.
  destruct i as [|i].
  - change (total (firstn 0 (x :: l))) with (total []). rewrite total_nil. apply total_nonneg. clear IH H F1 F2. revert F. generalize (x :: l). clear.
    intros l F. revert j. induction F; intros [|j]; cbn; constructor; auto.
  - destruct j as [|j]; [lia|]. cbn [firstn]. rewrite !total_cons. specialize (IH i j F2 ltac:(lia)). lra.
Qed.

(** The position that [choices] picks with the random number [u] *)
Definition pick (ws : list R) (u : R) : nat :=
  bisect_right RP (length (accumulate RP ws)) (accumulate RP ws) (w_scale RP u (total ws)) 0 (length ws - 1).
Lemma pick_interval ws i u : Forall (fun w => 0 <= w) ws -> (i < length ws)%nat ->
  total (firstn i ws) < u * total ws < total (firstn (S i) ws) -> pick ws u = i.
Proof.
  intros F Hi U. unfold pick. pose proof (accumulate_length' RP ws) as L. change (pW RP) with R in L.
  pose proof (bisect_post RP (length (accumulate RP ws)) (accumulate RP ws) (w_scale RP u (total ws)) 0 (length ws - 1)
    ltac:(change (pW RP) with R in *; lia) ltac:(lia)) as (B & H1 & H2). change (pW RP) with R in *.
  set (j := bisect_right _ _ _ _ _ _) in *. change (w_lt RP) with Rltb in *. change (w_zero RP) with 0 in *.
  change (w_scale RP u (total ws)) with (u * total ws) in *.
  clearbody j.
  destruct (Nat.lt_trichotomy j i) as [C|[C|C]]; [|exact C|].
  - exfalso. destruct H1 as [H1|H1]; [lia|]. rewrite accumulate_total in H1 by lia. apply Rltb_true in H1.
    pose proof (total_firstn_le ws (S j) i F ltac:(lia)). lra.
  - exfalso. destruct H2 as [H2|H2]; [lia|]. rewrite accumulate_total in H2 by lia. apply Rltb_false in H2.
    replace (S (j - 1)) with j in H2 by lia. pose proof (total_firstn_le ws (S i) j F ltac:(lia)). lra.
Qed.

(** The average over the random number that decides a weighted choice *)
Lemma avgl_by (pk : R -> nat) ws m (H : nat -> list R -> R) : Forall (fun w => 0 <= w) ws -> 0 < total ws ->
  (forall i u, (i < length ws)%nat -> total (firstn i ws) < u * total ws < total (firstn (S i) ws) -> pk u = i) ->
  avgl (S m) (fun l => match l with u :: l => H (pk u) l | [] => 0 end)
  = dot ws (map (fun i => avgl m (H i)) (seq 0 (length ws))) / total ws.
Proof.
  intros F T PK. cbn [avgl]. set (vs := map _ _).
  rewrite (steps_unit (map (fun d => d * / total ws) ws) vs).
  - rewrite dot_scale. unfold Rdiv. lra.
  - apply steps_intro.
    + subst vs. rewrite !map_length, seq_length. reflexivity.
    + apply Forall_map. eapply Forall_impl; [|exact F]. intros d D. cbn. apply Rmult_le_pos; [exact D|].
      left. apply Rinv_0_lt_compat, T.
    + intros i u Hi U. rewrite map_length in Hi. rewrite !firstn_map, !total_scale in U.
      assert (E : pk u = i).
      { apply PK; auto. pose proof (Rinv_0_lt_compat _ T) as V.
        assert (K : / total ws * total ws = 1) by (apply Rinv_l; lra).
        destruct U as [U1 U2]. split.
        - apply (Rmult_lt_compat_r (total ws)) in U1; [|exact T]. replace ((0 + / total ws * total (firstn i ws)) * total ws) with (total (firstn i ws) * (/ total ws * total ws)) in U1 by ring.
          rewrite K in U1. lra.
        - apply (Rmult_lt_compat_r (total ws)) in U2; [|exact T]. replace ((0 + / total ws * total (firstn (S i) ws)) * total ws) with (total (firstn (S i) ws) * (/ total ws * total ws)) in U2 by ring.
          rewrite K in U2. lra. }
      rewrite E. subst vs. rewrite nth_indep with (d' := avgl m (H 0%nat)) by (rewrite map_length, seq_length; exact Hi).
      rewrite map_nth with (f := fun i => avgl m (H i)). rewrite seq_nth by exact Hi. reflexivity.
  - rewrite total_scale. apply Rinv_l. lra.
Qed.

Lemma avgl_pick ws m (H : nat -> list R -> R) : Forall (fun w => 0 <= w) ws -> 0 < total ws ->
  avgl (S m) (fun l => match l with u :: l => H (pick ws u) l | [] => 0 end)
  = dot ws (map (fun i => avgl m (H i)) (seq 0 (length ws))) / total ws.
Proof. intros F T. apply avgl_by; auto. intros i u Hi U. apply pick_interval; auto. Qed.

(** ** The rejection loop *)
Lemma without_upd p (l : list R) : upd p 0 l = without p l.
Proof. revert p. induction l as [|x l IH]; intros [|p]; cbn; try reflexivity. rewrite IH. reflexivity. Qed.
Lemma rp_draws d (l : list R) : (d <= length l)%nat -> draws RP d l = (firstn d l, skipn d l).
Proof.
  revert l. induction d as [|d IH]; intros l H; [reflexivity|]. destruct l as [|u l]; cbn in H; [lia|].
  cbn [draws]. change (r_random RP (u :: l)) with (u, l). cbv iota. rewrite IH by lia. reflexivity.
Qed.
Lemma w_true_R (w : R) : w_true RP w = false <-> w = 0.
Proof. cbn. destruct (Req_EM_T w 0); split; intros; try discriminate; auto; contradiction. Qed.

Section Few.
  Context {A : Type} (dec : forall a b : A, {a = b} + {a <> b}).
  Notation ind := (fun out r => if returned dec out r then 1 else 0).

  Lemma ind_no out (r : res (list A)) : r <> Ok out -> ind out r = 0.
  Proof. intros H. cbv beta. destruct r as [l| |]; cbn; try reflexivity. destruct (list_eq_dec dec l out); [congruence|reflexivity]. Qed.
  Lemma ind_yes out : ind out (Ok out) = 1.
  Proof. cbn. destruct (list_eq_dec dec out out); congruence. Qed.

  Lemma loop_prefix fuel (items : list A) (ws : list R) sample k r out r' :
    low_k_loop RP fuel items ws sample k r = (Ok out, r') -> exists t, out = sample ++ t.
  Proof.
    revert ws sample r. induction fuel as [|f IH]; intros ws sample r; cbn [low_k_loop]; [discriminate|].
    destruct (_ =? 0)%Z.
    - intros [= <- <-]. exists []. rewrite app_nil_r. reflexivity.
    - unfold mbind at 1. destruct (choices_cum RP _ _ _ _) as [[pos| |] r1]; try discriminate.
      unfold mbind, lift. destruct (take_new RP items pos ws sample) as [[ws' s']| |] eqn:T; try discriminate. cbn [fst snd].
      intros H. apply IH in H as [t ->].
      apply take_new_spec in T as (ps & o & -> & _); [|cbn; destruct (Req_EM_T 0 0); congruence].
      exists (o ++ t). rewrite app_assoc. reflexivity.
  Qed.

  (** The rest of a round: [d] random numbers for choices with the weights [v] *)
  Definition batch fuel (items : list A) (v : list R) d (ws : list R) sample k (l : list R) : res (list A) :=
    match take_new RP items (map (pick v) (firstn d l)) ws sample with
    | Ok (ws', sample') => fst (low_k_loop RP fuel items ws' sample' k (skipn d l))
    | Raise e => Raise e
    | Diverge => Diverge
    end.

  Lemma accumulate_last (ws : list R) : ws <> [] -> exists q, rev (accumulate RP ws) = total ws :: q.
  Proof.
    intros H. destruct (rev (accumulate RP ws)) as [|t q] eqn:E.
    - apply (f_equal (@length _)) in E. rewrite rev_length, (accumulate_length' RP) in E. destruct ws; [congruence|discriminate].
    - exists q. f_equal. apply rev_last with (d := 0) in E as [<- _].
      rewrite (accumulate_length' RP). destruct ws as [|w ws]; [congruence|]. set (l := w :: ws) in *.
      change (pW RP) with R. rewrite accumulate_total by (subst l; cbn; lia). f_equal. rewrite firstn_all2; [reflexivity|]. subst l; cbn; lia.
  Qed.
  Lemma loop_round fuel (items : list A) (ws : list R) sample m (l : list R) :
    length ws = length items -> 0 < total ws -> (0 < m <= length l)%nat ->
    fst (low_k_loop RP (S fuel) items ws sample (zlen sample + Z.of_nat m) l)
    = batch fuel items ws m ws sample (zlen sample + Z.of_nat m) l.
  Proof.
    intros L T M. assert (NE : ws <> []) by (intros ->; rewrite total_nil in T; lra).
    cbn [low_k_loop]. replace (zlen sample + Z.of_nat m - zlen sample)%Z with (Z.of_nat m) by lia.
    destruct (Z.eqb_spec (Z.of_nat m) 0) as [Q|_]; [lia|].
    unfold mbind at 1, choices_cum. pose proof (accumulate_length' RP ws) as AL. change (pW RP) with R in *.
    rewrite AL, L, Nat.eqb_refl. cbn [negb]. destruct (accumulate_last ws NE) as [q E]. change (pW RP) with R in E. rewrite E.
    change (w_total_ok RP (total ws)) with (Rltb 0 (total ws)). rewrite (proj2 (Rltb_true _ _) T). cbn [negb].
    rewrite Nat2Z.id, rp_draws by lia. unfold batch, mbind, lift, pick. change (pW RP) with R in *. rewrite AL, L.
    destruct (take_new RP items _ ws sample) as [[ws' s']| |]; reflexivity.
  Qed.

  Lemma dot_sum (v ws : list R) (g : nat -> R) a b p n : length v = length ws ->
    (forall i, (i < length v)%nat -> nth i v 0 * g (n + i)%nat = (nth i v 0 - nth i ws 0) * a + (if (n + i =? p)%nat then nth i ws 0 * b else 0)) ->
    dot v (map g (seq n (length v))) = (total v - total ws) * a + (if (n <=? p)%nat then nth (p - n) ws 0 * b else 0).
  Proof.
    revert ws n. induction v as [|x v IH]; intros [|y ws] n L H; cbn in L; try discriminate.
    - cbn [length seq map dot]. rewrite total_nil. destruct (_ <=? _)%nat; [destruct (p - n)%nat|]; cbn; lra.
    - cbn [length seq map dot]. rewrite (IH ws (S n)); [|lia|].
      + specialize (H 0%nat ltac:(cbn; lia)). cbn [nth] in H. rewrite Nat.add_0_r in H. rewrite H, !total_cons.
        destruct (Nat.eqb_spec n p) as [->|N].
        * rewrite Nat.leb_refl, Nat.sub_diag. destruct (Nat.leb_spec (S p) p); [lia|]. cbn [nth]. lra.
        * destruct (Nat.leb_spec (S n) p) as [Q|Q]; destruct (Nat.leb_spec n p); try lia.
          -- replace (p - n)%nat with (S (p - S n)) by lia. cbn [nth]. lra.
          -- lra.
      + intros i Hi. specialize (H (S i) ltac:(cbn; lia)). cbn [nth] in H. replace (n + S i)%nat with (S n + i)%nat in H by lia. exact H.
  Qed.

  Lemma nth_without p q (l : list R) : nth q (without p l) 0 = if (q =? p)%nat then 0 else nth q l 0.
  Proof.
    revert p q. induction l as [|x l IH]; intros [|p] [|q]; cbn; try reflexivity.
    - destruct (q =? p)%nat; reflexivity.
    - apply IH.
  Qed.
  Lemma without_length p (l : list R) : length (without p l) = length l.
  Proof. revert p. induction l as [|x l IH]; intros [|p]; cbn; auto. Qed.
  Lemma without_nonneg p (l : list R) : Forall (fun w => 0 <= w) l -> Forall (fun w => 0 <= w) (without p l).
  Proof. intros F. revert p. induction F; intros [|p]; cbn; constructor; auto; lra. Qed.
  Lemma nth_pos_total (l : list R) i : Forall (fun w => 0 <= w) l -> nth i l 0 <= total l.
  Proof.
    intros F. revert i. induction F as [|x l H F IH]; intros [|i]; rewrite ?total_nil, ?total_cons; cbn [nth]; try lra.
    - pose proof (total_nonneg l F). lra.
    - specialize (IH i). lra.
  Qed.

  Lemma nth_error_R (l : list R) i : (i < length l)%nat -> nth_error l i = Some (nth i l 0).
  Proof. intros H. apply nth_error_nth'. exact H. Qed.

  Section Round.
    Context (items : list A) (ND : NoDup items) (fuel m0 : nat).
    (** What is known of later rounds *)
    Context (later : forall ws sample ps tail N,
      length ws = length items -> Forall (fun w => 0 <= w) ws -> NoDup ps -> picks items ps tail ->
      (forall p, In p ps -> 0 < nth p ws 0) -> (length ps < m0)%nat -> (length ps * length ps <= N)%nat ->
      avgl N (fun l => ind (sample ++ tail) (fst (low_k_loop RP fuel items ws sample (zlen sample + zlen tail) l)))
      = one_by_one ws ps).

    Lemma batch_avg (v : list R) d : forall ws sample ps tail N,
      length v = length items -> length ws = length items ->
      Forall (fun w => 0 <= w) v -> Forall (fun w => 0 <= w) ws ->
      (forall i, nth i ws 0 = nth i v 0 \/ nth i ws 0 = 0) ->
      NoDup ps -> picks items ps tail -> (forall p, In p ps -> 0 < nth p ws 0) ->
      (d <= length ps <= m0)%nat -> ((length ps < m0)%nat \/ (ws = v /\ (0 < d)%nat)) ->
      (d + (m0 - 1) * (m0 - 1) <= N)%nat ->
      avgl N (fun l => ind (sample ++ tail) (batch fuel items v d ws sample (zlen sample + zlen tail) l)) = one_by_one ws ps.
    Proof.
      induction d as [|d IH]; intros ws sample ps tail N Lv Lw Fv Fw Rel Np Pk Pos Dm Inv Nn.
      - destruct Inv as [Inv|[_ Inv]]; [|lia]. rewrite <- (later ws sample ps tail N); auto. nia.
      - remember ((m0 - 1) * (m0 - 1))%nat as K eqn:EK. destruct N as [|N]; [lia|]. destruct ps as [|p ps]; [cbn in Dm; lia|].
        inversion Pk as [|? a ? tail' Ha Pk']; subst. inversion Np as [|? ? Np1 Np2]; subst.
        assert (Hp : (p < length items)%nat) by (apply nth_error_Some; congruence).
        assert (P0 : 0 < nth p ws 0) by (apply Pos; left; reflexivity).
        assert (T0 : 0 < total ws) by (pose proof (nth_pos_total ws p Fw); lra).
        assert (Tv : 0 < total v).
        { pose proof (nth_pos_total v p Fv). destruct (Rel p) as [Q|Q]; lra. }
        set (tail := a :: tail') in *. set (k := (zlen sample + zlen tail)%Z).
        (* after the next number *)
        set (H := fun i (l : list R) =>
          match nth_error ws i with
          | None => 0
          | Some w =>
              if w_true RP w then
                match nth_error items i with
                | None => 0
                | Some b => ind (sample ++ tail) (batch fuel items v d (without i ws) (sample ++ [b]) k l)
                end
              else ind (sample ++ tail) (batch fuel items v d ws sample k l)
          end).
        rewrite (avgl_ext _ _ (fun l => match l with u :: l => H (pick v u) l | [] => 0 end)).
        2:{ intros [|u l] Hl; [discriminate|]. unfold H, batch. cbn [firstn map take_new skipn].
            change (pW RP) with R. destruct (nth_error ws (pick v u)) as [w|]; [|reflexivity].
            destruct (w_true RP w); [|reflexivity].
            destruct (nth_error items (pick v u)) as [b|]; [|reflexivity]. change (w_zero RP) with 0. rewrite without_upd. reflexivity. }
        rewrite (avgl_pick v N H Fv Tv).
        set (sp := one_by_one ws (p :: ps)). set (sp' := one_by_one (without p ws) ps).
        rewrite (dot_sum v ws _ sp sp' p 0); [|lia|].
        2:{ intros i Hi. cbn [Nat.add]. unfold H. rewrite (nth_error_R ws i) by lia.
            destruct (w_true RP (nth i ws 0)) eqn:W.
            - (* new *)
              assert (Wi : nth i ws 0 <> 0) by (intros Q; apply w_true_R in Q; congruence).
              destruct (Rel i) as [Q|Q]; [|congruence].
              destruct (nth_error items i) as [b|] eqn:Eb; [|apply nth_error_None in Eb; lia].
              destruct (Nat.eqb_spec i p) as [->|Nip].
              + rewrite Ha in Eb. injection Eb as <-. rewrite Q.
                replace (avgl N _) with sp'; [lra|]. symmetry. unfold sp'.
                rewrite <- (IH (without p ws) (sample ++ [a]) ps tail' N); auto.
                * apply avgl_ext. intros l _. subst tail k. rewrite <- app_assoc. cbn [app].
                  replace (zlen (sample ++ [a]) + zlen tail')%Z with (zlen sample + zlen (a :: tail'))%Z; [reflexivity|].
                  unfold zlen. rewrite app_length. cbn [length]. lia.
                * rewrite without_length. exact Lw.
                * apply without_nonneg, Fw.
                * intros j. rewrite nth_without. destruct (j =? p)%nat; [right; reflexivity|apply Rel].
                * intros q Hq. rewrite nth_without. destruct (Nat.eqb_spec q p) as [->|]; [contradiction|]. apply Pos. right. exact Hq.
                * cbn [length] in Dm. lia.
                * left. cbn [length] in Dm. lia.
                * lia.
              + rewrite <- Q. replace (avgl N _) with 0; [lra|]. symmetry.
                transitivity (avgl N (fun _ => 0)); [|apply avgl_const]. apply avgl_ext. intros l _. apply ind_no. intros E.
                unfold batch in E.
                destruct (take_new RP items (map (pick v) (firstn d l)) (without i ws) (sample ++ [b])) as [[ws' s']| |] eqn:TN; try discriminate.
                destruct (low_k_loop RP fuel items ws' s' k (skipn d l)) as [o r'] eqn:LL. cbn [fst] in E. subst o.
                apply loop_prefix in LL as [t Et].
                apply take_new_spec in TN as (qs & o & -> & _); [|cbn; destruct (Req_EM_T 0 0); congruence].
                rewrite <- !app_assoc in Et. apply app_inv_head in Et. subst tail. cbn [app] in Et. injection Et as Eab _. subst b.
                apply Nip. apply (proj1 (NoDup_nth_error items) ND i p); [lia|congruence].
            - apply w_true_R in W. rewrite W. destruct (i =? p)%nat eqn:Eip.
              { apply Nat.eqb_eq in Eip. subst i. lra. }
              rewrite Rminus_0_r, Rplus_0_r. destruct (Req_dec (nth i v 0) 0) as [V0|V0]; [rewrite V0; lra|].
              f_equal. assert (NE : ws <> v) by (intros ->; congruence).
              destruct Inv as [Inv|[Inv _]]; [|contradiction]. unfold sp.
              rewrite <- (IH ws sample (p :: ps) tail N); auto; lia. }
        cbn [Nat.leb]. rewrite Nat.sub_0_r. unfold sp, sp'. cbn [one_by_one]. fold sp'. field. lra.
    Qed.
  End Round.

  Lemma loop_avg (items : list A) : NoDup items -> forall m fuel ws sample ps tail N,
    length ws = length items -> Forall (fun w => 0 <= w) ws -> NoDup ps -> picks items ps tail ->
    (forall p, In p ps -> 0 < nth p ws 0) -> length ps = m -> (m < fuel)%nat -> (m * m <= N)%nat ->
    avgl N (fun l => ind (sample ++ tail) (fst (low_k_loop RP fuel items ws sample (zlen sample + zlen tail) l)))
    = one_by_one ws ps.
  Proof.
    intros ND m. induction m as [m IHm] using lt_wf_ind. intros fuel ws sample ps tail N Lw Fw Np Pk Pos Lm Hf HN.
    destruct fuel as [|fuel]; [lia|]. pose proof (picks_length _ _ _ Pk) as Lt. destruct ps as [|p ps].
    - destruct tail; [|discriminate]. cbn [one_by_one]. transitivity (avgl N (fun _ => 1)); [|apply avgl_const]. apply avgl_ext. intros l _.
      cbn [low_k_loop]. rewrite app_nil_r. replace (zlen sample + zlen [] - zlen sample)%Z with 0%Z by (unfold zlen; cbn; lia).
      cbn [Z.eqb]. apply ind_yes.
    - assert (T0 : 0 < total ws) by (pose proof (nth_pos_total ws p Fw); specialize (Pos p (or_introl eq_refl)); lra).
      rewrite <- (batch_avg items ND fuel m) with (v := ws) (d := m) (sample := sample) (tail := tail) (N := N); auto; try lia.
      + apply avgl_ext. intros l Hl. f_equal. unfold zlen at 2. rewrite <- Lt, Lm. rewrite loop_round; auto; [|cbn in Lm; nia].
        f_equal. unfold zlen. rewrite <- Lt, Lm. reflexivity.
      + intros ws' sample' ps' tail' N' H1 H2 H3 H4 H5 H6 H7. apply (IHm (length ps') H6); auto. lia.
      + right. cbn in Lm. split; [reflexivity|lia].
      + destruct m as [|m]; [cbn in Lm; lia|]. nia.
  Qed.
End Few.
