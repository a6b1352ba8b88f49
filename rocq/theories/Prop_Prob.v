(** * Probabilities: properties C81 and C82.

    Vocabulary: [ProbSpec.v].  The functions of MathModel.v and ChoiceModel.v are
    used with real numbers ([RP], RealNum.v): a generator is the list of the random
    numbers it gives, and these are uniformly distributed and independent. *)
From Coq Require Import Reals Lra List Arith Lia Permutation.
From Coquelicot Require Import Coquelicot.
From Verif Require Import Base Prims MathModel MathSpec MathProofs Threshold NumLaws ChoiceModel ChoiceProofs RealModel RealNum ProbSpec ProbProofs ProbMany.
Import ListNotations.
Open Scope list_scope.
Open Scope R_scope.

(** ** C81 weighted_shuffle *)

(** Few items are asked for.  ([fuel] bounds the rounds of the loop.) *)
Theorem C81_few : forall (A : Type) (dec : forall a b : A, {a = b} + {a <> b}) items ws ps out fuel N,
  NoDup items -> length ws = length items -> Forall (fun w => 0 <= w) ws ->
  NoDup ps -> picks items ps out -> (forall p, In p ps -> 0 < nth p ws 0) ->
  items <> [] -> (zlen items < 2 ^ 46)%Z -> (100 * zlen out <= 42 * zlen items)%Z ->
  (length out < fuel)%nat -> (length out * length out <= N)%nat ->
  probability (seq 0 N) (fun us =>
    returned dec out (fst (weighted_shuffle RP fuel items ws (Some (zlen out)) (map us (seq 0 N))))) = one_by_one ws ps.
Proof.
  intros A dec items ws ps out fuel N ND L F Np Pk Pos NE Small Few Fu HN. unfold probability.
  rewrite (average_avgl (fun l => if returned dec out (fst (weighted_shuffle RP fuel items ws (Some (zlen out)) l)) then 1 else 0)).
  pose proof (picks_length _ _ _ Pk) as Lp.
  rewrite <- (loop_avg dec items ND (length ps) fuel ws [] ps out N); auto; try lia.
  - apply avgl_ext. intros l _. cbn [app]. unfold weighted_shuffle. change (pW RP) with R. rewrite L, Nat.eqb_refl. cbn [negb].
    rewrite (proj2 (use_low_k_42_percent (zlen out) (length items) ltac:(destruct items; [congruence|cbn; lia]) Small) Few).
    unfold low_k. replace (zlen (@nil A) + zlen out)%Z with (zlen out) by (unfold zlen; cbn; lia). reflexivity.
Qed.

Lemma many_high (A : Type) (items : list A) (ws : list R) fuel number r :
  length ws = length items -> (zlen items < 2 ^ 46)%Z -> (42 * zlen items < 100 * number)%Z ->
  weighted_shuffle RP fuel items ws (Some number) r = high_k RP items ws number r.
Proof.
  intros L Small Many. unfold weighted_shuffle. change (pW RP) with R. rewrite L, Nat.eqb_refl. cbn [negb].
  destruct (use_low_k number (length items)) eqn:U; [|reflexivity]. exfalso. destruct items as [|a items].
  - unfold use_low_k in U. change (SpecFloat.SFmul _ _ _ _) with (SpecFloat.S754_zero false) in U. cbn [Z_le_sf] in U.
    apply Z.leb_le in U. change (zlen (@nil A)) with 0%Z in Many. lia.
  - apply (use_low_k_42_percent number (length (a :: items))) in U; [unfold zlen in *; lia|cbn; lia|exact Small].
Qed.

(** Many items are asked for: one random number for each item.  [ps ++ os] is the
    order of integration: first the items returned, then the others. *)
Theorem C81_many : forall (A : Type) (dec : forall a b : A, {a = b} + {a <> b}) items ws ps os out fuel,
  NoDup items -> length ws = length items -> Forall (fun w => 0 < w) ws ->
  Permutation (ps ++ os) (seq 0 (length items)) -> picks items ps out ->
  (zlen items < 2 ^ 46)%Z -> (42 * zlen items < 100 * zlen out)%Z ->
  probability (ps ++ os) (fun us =>
    returned dec out (fst (weighted_shuffle RP fuel items ws (Some (zlen out)) (map us (seq 0 (length items)))))) = one_by_one ws ps.
Proof.
  intros A dec items ws ps os out fuel ND L F Pm Pk Small Many.
  rewrite <- (high_k_average dec items ws ps os out ND L F Pm Pk). unfold probability. apply average_ext.
  intros vs _. rewrite many_high; auto.
Qed.

(** Items need not be distinct: [weighted_shuffle] draws positions, with the
    probabilities above, and returns what is there. *)
Section Positions.
  Context (P : prims) {A B : Type} (f : A -> B).
  Lemma take_new_map items pos (ws : list (pW P)) sample :
    take_new P (map f items) pos ws (map f sample) = (x <- take_new P items pos ws sample ;; Ok (fst x, map f (snd x))).
  Proof.
    revert ws sample. induction pos as [|i pos IH]; intros ws sample; [reflexivity|]. cbn [take_new].
    destruct (nth_error ws i) as [w|]; [|reflexivity]. destruct (w_true P w); [|apply IH].
    rewrite nth_error_map. destruct (nth_error items i) as [a|]; [|reflexivity]. cbn [option_map].
    rewrite <- IH, map_app. reflexivity.
  Qed.
  Lemma low_k_map fuel : forall items (ws : list (pW P)) sample k r,
    low_k_loop P fuel (map f items) ws (map f sample) k r =
    (x <- fst (low_k_loop P fuel items ws sample k r) ;; Ok (map f x), snd (low_k_loop P fuel items ws sample k r)).
  Proof.
    induction fuel as [|fuel IH]; intros items ws sample k r; [reflexivity|]. cbn [low_k_loop].
    assert (Z : zlen (map f sample) = zlen sample) by (unfold zlen; rewrite map_length; reflexivity). rewrite Z, map_length.
    destruct (_ =? 0)%Z; [reflexivity|]. unfold mbind.
    destruct (choices_cum P (length items) (accumulate P ws) (k - zlen sample) r) as [[pos| |] r1]; try reflexivity.
    unfold lift. rewrite take_new_map. destruct (take_new P items pos ws sample) as [[ws' s']| |]; try reflexivity. cbn [bind fst snd]. apply IH.
  Qed.
  Lemma insert_map x l : map (fun y : pK P * A => (fst y, f (snd y))) (insert_desc P x l) = insert_desc P (fst x, f (snd x)) (map (fun y => (fst y, f (snd y))) l).
  Proof. induction l as [|y l IH]; [reflexivity|]. cbn [insert_desc map fst]. destruct (k_lt P (fst x) (fst y)); [|reflexivity]. cbn [map]. rewrite IH. reflexivity. Qed.
  Lemma sort_map l : map (fun y : pK P * A => (fst y, f (snd y))) (sort_desc P l) = sort_desc P (map (fun y => (fst y, f (snd y))) l).
  Proof. induction l as [|y l IH]; [reflexivity|]. cbn [sort_desc fold_right map]. fold (sort_desc P l). rewrite insert_map, IH. reflexivity. Qed.
  Lemma scores_map : forall (ws : list (pW P)) items r,
    scores P ws (map f items) r = (x <- fst (scores P ws items r) ;; Ok (map (fun y => (fst y, f (snd y))) x), snd (scores P ws items r)).
  Proof.
    induction ws as [|w ws IH]; intros [|a items] r; try reflexivity. cbn [scores map]. destruct (r_random P r) as [u r1]. unfold mbind, lift.
    destruct (k_score P u w) as [s| |]; try reflexivity. rewrite IH. destruct (scores P ws items r1) as [[x| |] r2]; reflexivity.
  Qed.
  Lemma list_slice_map {X Y} (g : X -> Y) l a b : list_slice (map g l) a b = map g (list_slice l a b).
  Proof. unfold list_slice, zlen. rewrite map_length, skipn_map, firstn_map. reflexivity. Qed.
End Positions.
Theorem C81_positions : forall P (A B : Type) (f : A -> B) fuel items (ws : list (pW P)) number r,
  weighted_shuffle P fuel (map f items) ws number r =
  (x <- fst (weighted_shuffle P fuel items ws number r) ;; Ok (map f x), snd (weighted_shuffle P fuel items ws number r)).
Proof.
  intros P A B f fuel items ws number r. unfold weighted_shuffle. rewrite map_length. destruct (negb _); [reflexivity|]. destruct (use_low_k _ _).
  - apply (low_k_map P f fuel items ws [] _ r).
  - unfold high_k, mbind. rewrite scores_map. destruct (scores P ws items r) as [[x| |] r1]; try reflexivity. cbn [bind fst snd ret].
    rewrite <- sort_map, list_slice_map, !map_map. reflexivity.
Qed.

(** ** C82 Choice *)

(** What a call [c(number)] of a new Choice returns *)
Definition first_call {A} (setsize : list A -> res Z) fuel (items : list A) (ws : option (list R)) (replace roac : bool)
    (us : list R) (number : Z) : res (list A) :=
  c <- choice_new RP fuel items ws replace roac (Some us) None 0 ;; fst (choice_call_n RP setsize fuel number c).

Definition used_weights {A} (items : list A) (ws : option (list R)) : list R :=
  match ws with Some l => l | None => repeat 1 (length items) end.

Lemma first_call_shuffled {A} dec setsize fuel (items : list A) ws us (out : list A) :
  items <> [] -> length (used_weights items ws) = length items -> (length out <= length items)%nat -> (zlen items < 2 ^ 46)%Z ->
  returned dec out (first_call setsize fuel items ws false false us (zlen out)) =
  began dec out (fst (high_k RP items (used_weights items ws) (zlen items) us)).
Proof.
  intros NE L B Small. unfold first_call, choice_new. destruct items as [|x items']; [congruence|]. set (items := x :: items') in *.
  assert (Nn : (0 < length items)%nat) by (subst items; cbn; lia).
  rewrite Bool.andb_false_r. change (nonempty None) with false.
  assert (W : exists c, all_weights RP items (if nonempty ws then ws else None) false = Ok (ws, c)).
  { destruct ws as [[|y l]|]; cbn [nonempty].
    - cbn [used_weights length] in L. lia.
    - cbn [used_weights] in L. eexists. unfold all_weights. change (pW RP) with R. rewrite L, Nat.eqb_refl. reflexivity.
    - eexists. reflexivity. }
  destruct W as [cum W]. change (pW RP) with R in *. rewrite W. cbn [bind fst snd orb].
  unfold choice_reset, mbind, modify, get, set_rng. cbn [c_items c_weights c_cum c_replace c_roac c_nui c_shuffled c_sidx c_seed c_rng rng_for].
  unfold global_shuffle, mbind, get, on_rng, modify. cbn [c_items c_weights c_cum c_replace c_roac c_nui c_shuffled c_sidx c_seed c_rng].
  change (r_seeded RP us) with us.
  assert (Wu : (if nonempty ws then match ws with Some w0 => w0 | None => [] end else repeat (w_one RP) (length items)) = used_weights items ws).
  { destruct ws as [[|y l]|]; cbn [nonempty]; try reflexivity. cbn [used_weights length] in L. lia. }
  change (pW RP) with R in *. rewrite Wu.
  assert (Sh : weighted_shuffle RP fuel items (used_weights items ws) None us = high_k RP items (used_weights items ws) (zlen items) us).
  { rewrite <- (many_high A items (used_weights items ws) fuel (zlen items) us L Small) by (unfold zlen; lia). reflexivity. }
  rewrite Sh. destruct (high_k RP items (used_weights items ws) (zlen items) us) as [[o| |] r']; [|reflexivity|reflexivity].
  cbn [fst bind]. unfold set_nui, set_shuf, set_rng. cbn [c_items c_weights c_cum c_replace c_roac c_nui c_shuffled c_sidx c_seed c_rng].
  unfold choice_call_n. destruct (Z.eqb_spec (zlen out) 1) as [K|K].
  - unfold mbind at 1, choice_emit, mbind at 1, get, mbind at 1.
    cbn [c_items c_weights c_cum c_replace c_roac c_nui c_shuffled c_sidx c_seed c_rng negb].
    unfold choice_without_replacement, mbind, get, ret, modify, lift.
    cbn [c_items c_weights c_cum c_replace c_roac c_nui c_shuffled c_sidx c_seed c_rng negb].
    destruct (Z.ltb_spec (zlen items) 1) as [Q|_]; [unfold zlen in Q; lia|]. cbn [Z.eqb].
    destruct out as [|a [|b out]]; try (unfold zlen in K; cbn in K; lia).
    destruct o as [|y o]; [reflexivity|]. reflexivity.
  - unfold choice_emit_many, mbind at 1, get. cbn [c_items c_weights c_cum c_replace c_roac c_nui c_shuffled c_sidx c_seed c_rng negb orb].
    unfold choice_without_replacement, mbind, get, ret, modify, lift.
    cbn [c_items c_weights c_cum c_replace c_roac c_nui c_shuffled c_sidx c_seed c_rng negb].
    destruct (Z.ltb_spec (zlen items) (zlen out)) as [Q|_]; [unfold zlen in Q; lia|].
    rewrite (proj2 (Z.eqb_neq _ _) K). cbn [fst]. rewrite list_slice_0 by (unfold zlen; lia).
    replace (Z.to_nat (0 + zlen out)) with (length out) by (unfold zlen; lia). reflexivity.
Qed.

(** Without replacement: the first values that a Choice emits are drawn one by one,
    each with probability proportional to its weight among those left. *)
Theorem C82_without_replacement : forall (A : Type) (dec : forall a b : A, {a = b} + {a <> b}) setsize items ws ps os out fuel,
  items <> [] -> NoDup items -> length (used_weights items ws) = length items -> Forall (fun w => 0 < w) (used_weights items ws) ->
  Permutation (ps ++ os) (seq 0 (length items)) -> picks items ps out -> (zlen items < 2 ^ 46)%Z ->
  probability (ps ++ os) (fun us =>
    returned dec out (first_call setsize fuel items ws false false (map us (seq 0 (length items))) (zlen out)))
  = one_by_one (used_weights items ws) ps.
Proof.
  intros A dec setsize items ws ps os out fuel NE ND L F Pm Pk Small.
  assert (B : (length out <= length items)%nat).
  { rewrite <- (picks_length _ _ _ Pk). apply Permutation_length in Pm. rewrite app_length, seq_length in Pm. lia. }
  rewrite <- (high_k_began dec items (used_weights items ws) ps os out (zlen items)); auto; [|unfold zlen; lia].
  unfold probability. apply average_ext. intros vs _. rewrite first_call_shuffled; auto.
Qed.

(** Without weights, all arrangements are equally probable. *)
Fixpoint falling_product (n k : nat) : R := match k with O => 1 | S k => INR n * falling_product (n - 1) k end.
Lemma one_by_one_equal n : forall ps ws, NoDup ps -> (forall p, In p ps -> nth p ws 0 = 1) -> total ws = INR n -> (length ps <= n)%nat ->
  (forall p, In p ps -> (p < length ws)%nat) ->
  one_by_one ws ps = / falling_product n (length ps).
Proof.
  induction n as [|n IH]; intros ps ws N H T L B.
  - destruct ps; [|cbn in L; lia]. cbn. lra.
  - destruct ps as [|p ps]; [cbn; lra|]. cbn [one_by_one length falling_product]. inversion N as [|? ? N1 N2]; subst.
    rewrite (H p) by (left; reflexivity). rewrite T. cbn [Nat.sub]. rewrite Nat.sub_0_r.
    assert (Pos : 0 < INR (S n)) by (apply lt_0_INR; lia).
    rewrite (IH ps (without p ws)); auto.
    + assert (FP : forall k m, (k <= m)%nat -> falling_product m k <> 0).
      { induction k as [|k IHk]; intros m Hm; cbn; [lra|]. apply Rmult_integral_contrapositive_currified; [apply not_0_INR; lia|apply IHk; lia]. }
      field. split; [apply FP; cbn in L; lia|lra].
    + intros q Q. rewrite nth_without. destruct (Nat.eqb_spec q p) as [->|]; [contradiction|]. apply H. right. exact Q.
    + assert (E : forall (l : list R) m, (m < length l)%nat -> total (without m l) = total l - nth m l 0).
      { clear. induction l as [|x l IHl]; intros [|m] Lm; cbn in Lm; try lia; cbn [without nth]; rewrite !total_cons; [lra|].
        rewrite IHl by lia. lra. }
      rewrite E by (apply B; left; reflexivity). rewrite T, (H p) by (left; reflexivity). rewrite S_INR. lra.
    + cbn in L. lia.
    + intros q Q. rewrite without_length. apply B. right. exact Q.
Qed.
Theorem C82_arrangements : forall (A : Type) (dec : forall a b : A, {a = b} + {a <> b}) setsize items ps os out fuel,
  items <> [] -> NoDup items -> Permutation (ps ++ os) (seq 0 (length items)) -> picks items ps out -> (zlen items < 2 ^ 46)%Z ->
  probability (ps ++ os) (fun us =>
    returned dec out (first_call setsize fuel items None false false (map us (seq 0 (length items))) (zlen out)))
  = / falling_product (length items) (length out).
Proof.
  intros A dec setsize items ps os out fuel NE ND Pm Pk Small.
  assert (In_ : forall q, In q ps -> (q < length items)%nat).
  { intros q H. assert (I : In q (ps ++ os)) by (apply in_or_app; left; exact H). apply (Permutation_in _ Pm), in_seq in I. lia. }
  rewrite (C82_without_replacement A dec setsize items None ps os out fuel); auto; cbn [used_weights].
  - rewrite (picks_length _ _ _ Pk) || rewrite <- (picks_length _ _ _ Pk). apply one_by_one_equal.
    + eapply nodup_app_l. eapply Permutation_NoDup; [symmetry; exact Pm|apply seq_NoDup].
    + intros p H. apply In_ in H. rewrite nth_indep with (d' := 1) by (rewrite repeat_length; exact H). apply nth_repeat.
    + clear. induction (length items) as [|n IH]; [reflexivity|]. cbn [repeat]. rewrite total_cons, IH, S_INR. lra.
    + apply Permutation_length in Pm. rewrite app_length, seq_length in Pm. lia.
    + intros p H. rewrite repeat_length. apply In_, H.
  - apply repeat_length.
  - apply Forall_forall. intros x X. apply repeat_spec in X. subst. lra.
Qed.

(** With replacement: the values are independent, each item with probability
    proportional to its weight. *)
Definition each_alone (weights : list R) (ps : list nat) : R :=
  fold_right (fun p r => nth p weights 0 / total weights * r) 1 ps.

Lemma each_cons ws p ps : each_alone ws (p :: ps) = nth p ws 0 / total ws * each_alone ws ps.
Proof. reflexivity. Qed.
Lemma avgl_each (pk : R -> nat) (ws : list R) ps : Forall (fun w => 0 <= w) ws -> 0 < total ws ->
  (forall i u, (i < length ws)%nat -> total (firstn i ws) < u * total ws < total (firstn (S i) ws) -> pk u = i) ->
  (forall p, In p ps -> (p < length ws)%nat) ->
  avgl (length ps) (fun l => if list_eq_dec Nat.eq_dec (map pk l) ps then 1 else 0) = each_alone ws ps.
Proof.
  intros F T PK. induction ps as [|p ps IH]; intros B; [reflexivity|]. cbn [length each_alone fold_right]. fold (each_alone ws ps).
  rewrite (avgl_ext _ _ (fun l => match l with
    | u :: l => (fun i l => if (i =? p)%nat then if list_eq_dec Nat.eq_dec (map pk l) ps then 1 else 0 else 0) (pk u) l | [] => 0 end)).
  - rewrite (avgl_by pk ws (length ps) (fun i l => if (i =? p)%nat then if list_eq_dec Nat.eq_dec (map pk l) ps then 1 else 0 else 0) F T PK).
    rewrite (dot_sum ws ws (fun i => avgl (length ps) (fun l => if (i =? p)%nat then if list_eq_dec Nat.eq_dec (map pk l) ps then 1 else 0 else 0)) 0 (each_alone ws ps) p 0 eq_refl).
    + cbn [Nat.leb]. rewrite Nat.sub_0_r. unfold Rdiv. ring.
    + intros i Hi. cbn [Nat.add]. destruct (Nat.eqb_spec i p) as [->|_].
      * rewrite IH; [ring|]. intros q Q. apply B. right. exact Q.
      * rewrite avgl_const. ring.
  - intros [|u l] Hl; [discriminate|]. cbn [map]. destruct (Nat.eqb_spec (pk u) p) as [->|E].
    + destruct (list_eq_dec _ (map pk l) ps) as [->|N]; destruct (list_eq_dec _ (p :: _) _) as [E'|E']; try reflexivity; exfalso; [congruence|].
      injection E' as E'. contradiction.
    + destruct (list_eq_dec _ _ _) as [E'|]; [|reflexivity]. injection E' as E' _. contradiction.
Qed.

Lemma new_replacing {A} fuel (items : list A) ws roac us :
  items <> [] -> length (used_weights items ws) = length items ->
  exists cum, choice_new RP fuel items ws true roac (Some us) None 0
    = Ok (mkChoice (P := RP) items ws cum true roac (zlen items) [] None (Some us) us)
  /\ match ws with Some w => cum = Some (accumulate RP w) | None => True end.
Proof.
  intros NE L. unfold choice_new. destruct items as [|x items']; [congruence|]. set (items := x :: items') in *.
  rewrite Bool.andb_false_r. change (nonempty None) with false.
  assert (W : exists c, all_weights RP items (if nonempty ws then ws else None) false = Ok (ws, c) /\
     match ws with Some w => c = Some (accumulate RP w) | None => True end).
  { destruct ws as [[|y l]|]; cbn [nonempty].
    - cbn [used_weights length] in L. subst items. cbn in L. lia.
    - cbn [used_weights] in L. eexists. unfold all_weights. change (pW RP) with R. rewrite L, Nat.eqb_refl. split; reflexivity.
    - eexists. split; [reflexivity|exact I]. }
  destruct W as (cum & W & Wc). exists cum. split; [|exact Wc]. change (pW RP) with R in *. rewrite W. reflexivity.
Qed.

Lemma first_call_replacing {A} setsize fuel (items : list A) ws roac us number :
  items <> [] -> length (used_weights items ws) = length items ->
  exists cum, first_call setsize fuel items ws true roac us number
    = fst (choice_call_n RP setsize fuel number (mkChoice (P := RP) items ws cum true roac (zlen items) [] None (Some us) us))
  /\ match ws with Some w => cum = Some (accumulate RP w) | None => True end.
Proof.
  intros NE L. destruct (new_replacing fuel items ws roac us NE L) as (cum & E & C). exists cum. split; [|exact C].
  exact (f_equal (fun x => bind x (fun c => fst (choice_call_n RP setsize fuel number c))) E).
Qed.

Lemma mapS_returned {A S} dec (items : list A) pos ps out (s : S) : NoDup items -> picks items ps out ->
  returned dec out (fst (mapS (get_item items) pos s)) = if list_eq_dec Nat.eq_dec pos ps then true else false.
Proof.
  intros N Pk. destruct (mapS (get_item items) pos s) as [r s1] eqn:H. cbn [fst].
  destruct (list_eq_dec Nat.eq_dec pos ps) as [->|E].
  - destruct (mapS_get_ok items ps s) as [o Ho].
    { clear - Pk. induction Pk as [|p a ps o H P IH]; intros q []; [subst; apply nth_error_Some; congruence|auto]. }
    rewrite Ho in H. injection H as <- <-. apply mapS_get_incl in Ho as [_ Ho].
    assert (E : o = out). { clear - Ho Pk. revert o Ho. induction Pk as [|p a ps o' P Pk IH]; intros o H; inversion H; subst; [reflexivity|].
      f_equal; [congruence|]. apply IH. assumption. }
    subst o. cbn. destruct (list_eq_dec dec out out); [reflexivity|contradiction].
  - destruct r as [o| |]; try reflexivity. apply mapS_get_incl in H as [_ H]. cbn.
    destruct (list_eq_dec dec o out) as [->|]; [|reflexivity]. exfalso. apply E. eapply picks_inj; eauto.
Qed.

Lemma pick_bound (w : list R) u : w <> [] -> (pick w u < length w)%nat.
Proof.
  intros N. unfold pick. pose proof (accumulate_length' RP w) as L. change (pW RP) with R in L.
  pose proof (bisect_post RP (length (accumulate RP w)) (accumulate RP w) (w_scale RP u (total w)) 0 (length w - 1)
    ltac:(change (pW RP) with R in *; lia) ltac:(lia)) as (B & _).
  destruct w; [congruence|]. cbn [length] in *. lia.
Qed.

Lemma call_one {A} setsize fuel (c : @choice RP A) (o : list A) c1 :
  c_replace c = true -> choice_with_replacement RP 1 c = (Ok o, c1) -> length o = 1%nat ->
  fst (choice_call_n RP setsize fuel 1 c) = Ok o.
Proof.
  intros Rp H L. unfold choice_call_n. cbn [Z.eqb Pos.eqb]. unfold mbind at 1, choice_emit, mbind at 1, get, mbind at 1. rewrite Rp. cbn [negb].
  rewrite H. destruct o as [|a [|b o]]; cbn in L; try lia. reflexivity.
Qed.

Lemma first_call_weighted {A} dec setsize fuel (items : list A) (w : list R) roac us out ps :
  (1 < length items)%nat -> NoDup items -> length w = length items -> 0 < total w -> length us = length out -> picks items ps out ->
  roac = false \/ length out = 1%nat ->
  returned dec out (first_call setsize fuel items (Some w) true roac us (zlen out)) =
  if list_eq_dec Nat.eq_dec (map (pick w) us) ps then true else false.
Proof.
  intros N2 ND L T Lu Pk RO.
  destruct (first_call_replacing setsize fuel items (Some w) roac us (zlen out)) as (cum & E & ->); [destruct items; cbn in N2; [lia|congruence]|exact L|].
  rewrite E. set (c := mkChoice _ _ _ _ _ _ _ _ _ _).
  assert (NE : w <> []) by (destruct w; [cbn in L; lia|congruence]).
  pose proof (accumulate_length' RP w) as LA. change (pW RP) with R in *.
  destruct (accumulate_last w NE) as [q Q]. change (pW RP) with R in *.
  assert (H : exists c1, choice_with_replacement RP (zlen out) c = mapS (get_item items) (map (pick w) us) c1).
  { unfold choice_with_replacement, mbind at 1, get. cbn [c_items c_weights c_cum c].
    destruct (Z.eqb_spec (zlen items) 1) as [E1|_]; [unfold zlen in E1; lia|].
    unfold mbind, on_rng. cbn [c_rng c]. unfold choices_cum. change (pW RP) with R in *. rewrite LA, L, Nat.eqb_refl. cbn [negb]. rewrite Q.
    change (w_total_ok RP (total w)) with (Rltb 0 (total w)). rewrite (proj2 (Rltb_true _ _) T). cbn [negb].
    replace (Z.to_nat (zlen out)) with (length us) by (unfold zlen; lia). rewrite rp_draws by lia.
    rewrite firstn_all. cbn [fst snd]. eexists. f_equal. apply map_ext. intros u. unfold pick. change (pW RP) with R in *. rewrite LA, L. reflexivity. }
  destruct H as [c1 H].
  assert (B : forall p, In p (map (pick w) us) -> (p < length items)%nat).
  { intros p I. apply in_map_iff in I as (u & <- & _). rewrite <- L. apply pick_bound, NE. }
  destruct (Nat.eq_dec (length out) 1) as [K|K].
  - destruct (mapS_get_ok items (map (pick w) us) c1 B) as [o Ho]. rewrite Ho in H.
    assert (Z1 : zlen out = 1%Z) by (unfold zlen; lia). rewrite Z1 in *.
    rewrite (call_one setsize fuel c o c1); auto.
    + rewrite <- (mapS_returned dec items (map (pick w) us) ps out c1 ND Pk), Ho. reflexivity.
    + apply mapS_get_incl in Ho as [_ Ho]. apply picks_length in Ho. rewrite map_length in Ho. lia.
  - destruct RO as [->|]; [|contradiction]. unfold choice_call_n. destruct (Z.eqb_spec (zlen out) 1) as [Z1|_]; [unfold zlen in Z1; lia|].
    unfold choice_emit_many, mbind at 1, get. cbn [c_replace c_roac c negb orb andb]. rewrite H. apply mapS_returned; auto.
Qed.

Lemma picks_bound {A} (items : list A) ps out : picks items ps out -> forall p, In p ps -> (p < length items)%nat.
Proof. induction 1 as [|p a ps o H P IH]; intros q []; [subst; apply nth_error_Some; congruence|auto]. Qed.

Theorem C82_with_replacement : forall (A : Type) (dec : forall a b : A, {a = b} + {a <> b}) setsize items ws roac ps out fuel,
  items <> [] -> NoDup items -> length ws = length items -> Forall (fun w => 0 <= w) ws -> 0 < total ws ->
  picks items ps out -> roac = false \/ length out = 1%nat ->
  probability (seq 0 (length out)) (fun us =>
    returned dec out (first_call setsize fuel items (Some ws) true roac (map us (seq 0 (length out))) (zlen out)))
  = each_alone ws ps.
Proof.
  intros A dec setsize items ws roac ps out fuel NE ND L F T Pk RO. unfold probability.
  rewrite (average_avgl (fun l => if returned dec out (first_call setsize fuel items (Some ws) true roac l (zlen out)) then 1 else 0)).
  pose proof (picks_length _ _ _ Pk) as Lp.
  destruct (Nat.eq_dec (length items) 1) as [E1|E1].
  - destruct items as [|a [|b items]]; cbn in E1; try lia. destruct ws as [|w [|w' ws]]; cbn in L; try lia.
    assert (P1 : each_alone [w] ps = 1 /\ list_rep [a] (zlen out) = out).
    { clear - Pk T. unfold total in T. cbn in T. unfold list_rep, zlen. rewrite Nat2Z.id. induction Pk as [|p x ps out H Pk [IH1 IH2]]; [split; reflexivity|].
      destruct p as [|p]; [|destruct p; discriminate]. injection H as <-. rewrite each_cons, IH1. split; [unfold total; cbn; field; lra|]. cbn [length list_rep_nat app]. f_equal. exact IH2. }
    destruct P1 as [-> P1]. transitivity (avgl (length out) (fun _ => 1)); [|apply avgl_const]. apply avgl_ext. intros l Hl.
    destruct (first_call_replacing setsize fuel [a] (Some [w]) roac l (zlen out)) as (cum & E & ->); [congruence|reflexivity|]. rewrite E.
    set (c := mkChoice _ _ _ _ _ _ _ _ _ _).
    assert (H : choice_with_replacement RP (zlen out) c = (Ok out, c)).
    { unfold choice_with_replacement, mbind, get. cbn [c_items c]. change (zlen [a] =? 1)%Z with true. cbv iota. rewrite P1. reflexivity. }
    assert (Z : fst (choice_call_n RP setsize fuel (zlen out) c) = Ok out).
    { destruct (Nat.eq_dec (length out) 1) as [K|K].
      - assert (Z1 : zlen out = 1%Z) by (unfold zlen; lia). rewrite Z1 in *. eapply call_one; eauto.
      - destruct RO as [->|]; [|contradiction]. unfold choice_call_n. destruct (Z.eqb_spec (zlen out) 1) as [Z1|_]; [unfold zlen in Z1; lia|].
        unfold choice_emit_many, mbind at 1, get. cbn [c_replace c_roac c negb orb andb]. rewrite H. reflexivity. }
    rewrite Z. cbn [returned]. destruct (list_eq_dec dec out out); [reflexivity|contradiction].
  - rewrite <- (avgl_each (pick ws) ws ps F T).
    + rewrite Lp. apply avgl_ext. intros l Hl. rewrite (first_call_weighted dec setsize fuel items ws roac l out ps); auto.
      * destruct (list_eq_dec _ _ _); reflexivity.
      * destruct items as [|? [|? ?]]; cbn in *; [congruence|lia|lia].
    + intros i u Hi U. apply pick_interval; auto.
    + rewrite L. apply (picks_bound _ _ _ Pk).
Qed.

(** Without weights: all sequences are equally probable. *)
Lemma floor_interval n i u : (i < n)%nat -> INR i < u * INR n < INR (S i) -> u_floor RP u n = i.
Proof.
  intros Hi [U1 U2]. change (u_floor RP u n) with (Z.to_nat (Int_part (u * INR n))). pose proof (base_Int_part (u * INR n)) as [B1 B2].
  rewrite S_INR in U2. rewrite (INR_IZR_INZ i) in U1, U2.
  assert (E : Int_part (u * INR n) = Z.of_nat i).
  { apply Z.le_antisymm; apply Z.lt_succ_r; apply lt_IZR; rewrite succ_IZR; lra. }
  rewrite E. apply Nat2Z.id.
Qed.
Lemma total_ones n : total (repeat 1 n) = INR n.
Proof. induction n as [|n IH]; [reflexivity|]. cbn [repeat]. rewrite total_cons, IH, S_INR. lra. Qed.
Lemma firstn_ones i n : (i <= n)%nat -> firstn i (repeat 1 n) = repeat 1 i.
Proof. revert n. induction i as [|i IH]; intros [|n] H; try reflexivity; [lia|]. cbn. f_equal. apply IH. lia. Qed.

Lemma call_returned {A} dec setsize fuel (c : @choice RP A) out :
  c_replace c = true -> c_roac c = false \/ length out = 1%nat ->
  (forall o c1, choice_with_replacement RP (zlen out) c = (Ok o, c1) -> length o = length out) ->
  returned dec out (fst (choice_call_n RP setsize fuel (zlen out) c)) = returned dec out (fst (choice_with_replacement RP (zlen out) c)).
Proof.
  intros Rp Ro H. destruct (Nat.eq_dec (length out) 1) as [K|K].
  - assert (Z1 : zlen out = 1%Z) by (unfold zlen; lia). rewrite Z1 in *.
    destruct (choice_with_replacement RP 1 c) as [[o| |] c1] eqn:E.
    + rewrite (call_one setsize fuel c o c1); auto. rewrite <- K. eapply H. reflexivity.
    + unfold choice_call_n. cbn [Z.eqb Pos.eqb]. unfold mbind at 1, choice_emit, mbind at 1, get, mbind at 1. rewrite Rp. cbn [negb]. rewrite E. reflexivity.
    + unfold choice_call_n. cbn [Z.eqb Pos.eqb]. unfold mbind at 1, choice_emit, mbind at 1, get, mbind at 1. rewrite Rp. cbn [negb]. rewrite E. reflexivity.
  - destruct Ro as [Ro|]; [|contradiction]. unfold choice_call_n. destruct (Z.eqb_spec (zlen out) 1) as [Z1|_]; [unfold zlen in Z1; lia|].
    unfold choice_emit_many, mbind at 1, get. rewrite Rp, Ro. reflexivity.
Qed.

Theorem C82_uniform : forall (A : Type) (dec : forall a b : A, {a = b} + {a <> b}) setsize items roac out fuel,
  items <> [] -> NoDup items -> incl out items -> roac = false \/ length out = 1%nat ->
  probability (seq 0 (length out)) (fun us =>
    returned dec out (first_call setsize fuel items None true roac (map us (seq 0 (length out))) (zlen out)))
  = / INR (length items) ^ length out.
Proof.
  intros A dec setsize items roac out fuel NE ND I RO. unfold probability.
  assert (Pk : exists ps, picks items ps out).
  { clear - I. induction out as [|a out IH]; [exists []; constructor|]. destruct IH as [ps Pk]; [intros x X; apply I; right; exact X|].
    destruct (In_nth_error items a (I a (or_introl eq_refl))) as [p P]. exists (p :: ps). constructor; assumption. }
  destruct Pk as [ps Pk]. pose proof (picks_length _ _ _ Pk) as Lp.
  rewrite (average_avgl (fun l => if returned dec out (first_call setsize fuel items None true roac l (zlen out)) then 1 else 0)).
  assert (Nn : (0 < length items)%nat) by (destruct items; [congruence|cbn; lia]).
  assert (Np : 0 < INR (length items)) by (apply lt_0_INR, Nn).
  destruct (Nat.eq_dec (length items) 1) as [E1|E1].
  - destruct items as [|a [|b items]]; cbn in E1; try lia.
    transitivity (avgl (length out) (fun _ => 1)).
    + apply avgl_ext. intros l Hl. destruct (first_call_replacing setsize fuel [a] None roac l (zlen out)) as (cum & E & _); [congruence|reflexivity|].
      rewrite E. set (c := mkChoice _ _ _ _ _ _ _ _ _ _).
      assert (P1 : list_rep [a] (zlen out) = out).
      { clear - Pk. unfold list_rep, zlen. rewrite Nat2Z.id. induction Pk as [|p x ps out H Pk IH]; [reflexivity|].
        destruct p as [|p]; [|destruct p; discriminate]. injection H as <-. cbn [length list_rep_nat app]. f_equal. exact IH. }
      assert (H : choice_with_replacement RP (zlen out) c = (Ok out, c)).
      { unfold choice_with_replacement, mbind, get. cbn [c_items c]. change (zlen [a] =? 1)%Z with true. cbv iota. rewrite P1. reflexivity. }
      rewrite (call_returned dec setsize fuel c out); auto.
      * rewrite H. cbn [fst returned]. destruct (list_eq_dec dec out out); [reflexivity|contradiction].
      * intros o c1 Ho. rewrite H in Ho. injection Ho as <- _. reflexivity.
    + rewrite avgl_const. cbn [length INR]. rewrite pow1. lra.
  - transitivity (each_alone (repeat 1 (length items)) ps).
    + rewrite <- (avgl_each (fun u => u_floor RP u (length items)) (repeat 1 (length items)) ps).
      * rewrite Lp. apply avgl_ext. intros l Hl.
        destruct (first_call_replacing setsize fuel items None roac l (zlen out)) as (cum & E & _); [exact NE|apply repeat_length|].
        rewrite E. set (c := mkChoice _ _ _ _ _ _ _ _ _ _).
        assert (H : exists c1 : @choice RP A, fst (choice_with_replacement RP (zlen out) c) = fst (mapS (get_item items) (map (fun u => u_floor RP u (length items)) l) c1)).
        { unfold choice_with_replacement, mbind at 1, get. cbn [c_items c_weights c_cum c].
          destruct (Z.eqb_spec (zlen items) 1) as [Q|_]; [unfold zlen in Q; lia|].
          destruct (Z.eqb_spec (zlen out) 1) as [Q|Q].
          - destruct l as [|u [|v l]]; cbn in Hl; unfold zlen in Q; try lia. exists c. unfold mbind, on_rng. cbn. unfold get_item, ret, raise. destruct (nth_error items _); reflexivity.
          - unfold mbind, on_rng. cbn [c_rng c]. unfold choices_uniform.
            replace (Z.to_nat (zlen out)) with (length l) by (unfold zlen; lia). rewrite rp_draws by lia.
            rewrite firstn_all. cbn [fst snd]. eexists. reflexivity. }
        destruct H as [c1 H]. rewrite (call_returned dec setsize fuel c out); auto.
        -- rewrite H, (mapS_returned dec items _ ps out c1 ND Pk). destruct (list_eq_dec _ _ _); reflexivity.
        -- intros o c2 Ho. rewrite Ho in H. cbn [fst] in H.
           destruct (mapS (get_item items) (map (fun u => u_floor RP u (length items)) l) c1) as [o' c3] eqn:Hm. cbn [fst] in H. subst o'.
           apply mapS_get_incl in Hm as [_ Hm]. apply picks_length in Hm. rewrite map_length in Hm. rewrite <- Hm. exact Hl.
      * apply Forall_forall. intros x X. apply repeat_spec in X. subst. lra.
      * rewrite total_ones. exact Np.
      * intros i u Hi U. rewrite repeat_length in Hi. rewrite total_ones, !firstn_ones, !total_ones in U by lia. apply floor_interval; auto.
      * rewrite repeat_length. apply (picks_bound _ _ _ Pk).
    + rewrite <- Lp. pose proof (picks_bound _ _ _ Pk) as B. clear - B Np. induction ps as [|p ps IH]; [cbn; lra|].
      rewrite each_cons, IH by (intros q Q; apply B; right; exact Q). rewrite total_ones.
      rewrite nth_indep with (d' := 1) by (rewrite repeat_length; apply B; left; reflexivity). rewrite nth_repeat. cbn [length pow].
      field. split; [|lra]. apply pow_nonzero. lra.
Qed.

(** With replacement only after a call: a call for several values draws them one by
    one without replacement, as weighted_shuffle does. *)
Lemma first_call_after {A} setsize fuel (items : list A) (ws : list R) replace us number :
  items <> [] -> length ws = length items -> (1 < number <= zlen items)%Z ->
  first_call setsize fuel items (Some ws) replace true us number = fst (weighted_shuffle RP fuel items ws (Some number) us).
Proof.
  intros NE L [N1 N2]. transitivity (first_call setsize fuel items (Some ws) true true us number); [destruct replace; reflexivity|].
  destruct (first_call_replacing setsize fuel items (Some ws) true us number NE L) as (cum & E & ->). rewrite E.
  unfold choice_call_n. destruct (Z.eqb_spec number 1) as [Q|_]; [lia|]. unfold choice_emit_many, mbind at 1, get. cbn [c_replace c_roac negb orb andb].
  rewrite (proj2 (Z.ltb_lt _ _) N1). unfold choice_without_replacement, mbind, get. cbn [c_nui c_replace c_weights c_items negb].
  destruct (Z.ltb_spec (zlen items) number) as [Q|_]; [lia|]. unfold ret, on_rng. cbn [c_rng].
  change (pR RP) with (list R). destruct (weighted_shuffle RP fuel items ws (Some number) us) as [r us']. reflexivity.
Qed.
Theorem C82_after_call_few : forall (A : Type) (dec : forall a b : A, {a = b} + {a <> b}) setsize replace items ws ps out fuel N,
  NoDup items -> length ws = length items -> Forall (fun w => 0 <= w) ws ->
  NoDup ps -> picks items ps out -> (forall p, In p ps -> 0 < nth p ws 0) ->
  (zlen items < 2 ^ 46)%Z -> (1 < length out)%nat -> (100 * zlen out <= 42 * zlen items)%Z ->
  (length out < fuel)%nat -> (length out * length out <= N)%nat ->
  probability (seq 0 N) (fun us =>
    returned dec out (first_call setsize fuel items (Some ws) replace true (map us (seq 0 N)) (zlen out))) = one_by_one ws ps.
Proof.
  intros A dec setsize replace items ws ps out fuel N ND L F Np Pk Pos Small K Few Fu HN.
  assert (NE : items <> []) by (intros ->; clear - Few K; unfold zlen in Few; cbn [length] in Few; lia).
  rewrite <- (C81_few A dec items ws ps out fuel N ND L F Np Pk Pos NE Small Few Fu HN). unfold probability.
  apply average_ext. intros vs _. rewrite first_call_after; auto. clear - Few K. unfold zlen in *. lia.
Qed.
Theorem C82_after_call_many : forall (A : Type) (dec : forall a b : A, {a = b} + {a <> b}) setsize replace items ws ps os out fuel,
  NoDup items -> length ws = length items -> Forall (fun w => 0 < w) ws ->
  Permutation (ps ++ os) (seq 0 (length items)) -> picks items ps out ->
  (zlen items < 2 ^ 46)%Z -> (1 < length out)%nat -> (42 * zlen items < 100 * zlen out)%Z ->
  probability (ps ++ os) (fun us =>
    returned dec out (first_call setsize fuel items (Some ws) replace true (map us (seq 0 (length items))) (zlen out))) = one_by_one ws ps.
Proof.
  intros A dec setsize replace items ws ps os out fuel ND L F Pm Pk Small K Many.
  assert (B : (length out <= length items)%nat).
  { rewrite <- (picks_length _ _ _ Pk). apply Permutation_length in Pm. rewrite app_length, seq_length in Pm. lia. }
  rewrite <- (C81_many A dec items ws ps os out fuel ND L F Pm Pk Small Many). unfold probability.
  apply average_ext. intros vs _. rewrite first_call_after; auto.
  - intros ->. cbn in B. lia.
  - unfold zlen. lia.
Qed.

(** The same without weights: all arrangements are equally probable. *)
Lemma pool_permutation j (pool : list nat) : (j < length pool)%nat ->
  Permutation pool (nth j pool 0%nat :: removelast (upd j (last pool 0%nat) pool)).
Proof.
  intros H. destruct (exists_last (l := pool)) as (init & z & ->); [destruct pool; [cbn in H; lia|congruence]|].
  rewrite last_last. rewrite app_length in H. cbn [length] in H. destruct (Nat.eq_dec j (length init)) as [->|N].
  - rewrite nth_middle. replace (upd (length init) z (init ++ [z])) with (init ++ [z]).
    + rewrite removelast_last. symmetry. apply Permutation_cons_append.
    + clear. induction init as [|a init IH]; [reflexivity|]. cbn. f_equal. exact IH.
  - destruct (nth_split init 0%nat (n := j) ltac:(lia)) as (a & b & E & La). rewrite app_nth1 by lia.
    replace (upd j z (init ++ [z])) with (a ++ z :: b ++ [z]).
    + change (a ++ z :: b ++ [z]) with (a ++ (z :: b) ++ [z]). rewrite app_assoc, removelast_last. rewrite E at 1.
      rewrite <- app_assoc. cbn [app]. symmetry. apply Permutation_cons_app. apply Permutation_app_head. apply Permutation_cons_append.
    + rewrite E. subst j. rewrite <- app_assoc. cbn [app]. generalize (nth (length a) init 0%nat). clear. intros x.
      induction a as [|y a IH]; [reflexivity|]. cbn. f_equal. exact IH.
Qed.
Lemma floor_bound n u : (0 < n)%nat -> 0 < u < 1 -> (floor_of u n < n)%nat.
Proof.
  intros N U. unfold floor_of. pose proof (base_Int_part (u * INR n)) as [B1 B2].
  assert (P : 0 < INR n) by (apply lt_0_INR, N).
  assert (Q : u * INR n < INR n) by nra.
  rewrite (INR_IZR_INZ n) in Q at 2. assert (L : (Int_part (u * INR n) < Z.of_nat n)%Z) by (apply lt_IZR; lra).
  destruct (Z_lt_le_dec (Int_part (u * INR n)) 0) as [V|V]; [|lia].
  destruct (Int_part (u * INR n)); cbn; lia.
Qed.
Lemma draw_from_avg : forall k pool ps, NoDup pool -> NoDup ps -> incl ps pool -> length ps = k ->
  avgl k (fun l => if list_eq_dec Nat.eq_dec (fst (draw_from k pool l)) ps then 1 else 0) = / falling_product (length pool) k.
Proof.
  induction k as [|k IH]; intros pool ps Np Ns I K.
  - destruct ps; [|discriminate]. cbn. lra.
  - destruct ps as [|p ps]; [discriminate|]. injection K as K. inversion Ns as [|? ? N1 N2]; subst.
    destruct (In_nth pool p 0%nat (I p (or_introl eq_refl))) as (i0 & Hi0 & Ei0).
    set (n := length pool) in *. assert (P : 0 < INR n) by (apply lt_0_INR; lia).
    set (H := fun (i : nat) (l : list R) => if Nat.eq_dec (nth i pool 0%nat) p
      then if list_eq_dec Nat.eq_dec (fst (draw_from (length ps) (removelast (upd i (last pool 0%nat) pool)) l)) ps then 1 else 0 else 0).
    rewrite (avgl_ext _ _ (fun l => match l with u :: l => H (floor_of u n) l | [] => 0 end)).
    + rewrite (avgl_by (fun u => floor_of u n) (repeat 1 n) (length ps) H).
      * rewrite (dot_sum (repeat 1 n) (repeat 1 n) (fun i => avgl (length ps) (H i)) 0 (/ falling_product (n - 1) (length ps)) i0 0 eq_refl).
        -- cbn [Nat.leb]. rewrite Nat.sub_0_r. rewrite (nth_indep _ 0 1) by (rewrite repeat_length; exact Hi0). rewrite nth_repeat, total_ones.
           cbn [falling_product]. rewrite Rinv_mult_distr; [unfold Rdiv; ring|lra|].
           assert (FP : forall k m, (k <= m)%nat -> falling_product m k <> 0).
           { induction k as [|k IHk]; intros m Hm; cbn; [lra|]. apply Rmult_integral_contrapositive_currified; [apply not_0_INR; lia|apply IHk; lia]. }
           apply FP. pose proof (NoDup_incl_length Ns I) as Q. cbn [length] in Q. lia.
        -- intros i Hi. rewrite repeat_length in Hi. cbn [Nat.add]. destruct (Nat.eqb_spec i i0) as [->|E].
           ++ subst H. cbv beta. rewrite (avgl_ext _ _ (fun l => if list_eq_dec Nat.eq_dec (fst (draw_from (length ps) (removelast (upd i0 (last pool 0%nat) pool)) l)) ps then 1 else 0)).
              ** pose proof (pool_permutation i0 pool Hi0) as Pm. rewrite Ei0 in Pm.
                 pose proof (Permutation_NoDup Pm Np) as Nd. inversion Nd as [|? ? Na Nb]; subst. pose proof (Permutation_length Pm) as Lm. cbn [length] in Lm.
                 rewrite IH; auto.
                 --- replace (length (removelast _)) with (n - 1)%nat by (subst n; lia). ring.
                 --- intros q Q. pose proof (I q (or_intror Q)) as Q'. apply (Permutation_in _ Pm) in Q' as [Q'|Q']; [subst; contradiction|exact Q'].
              ** intros l _. destruct (Nat.eq_dec (nth i0 pool 0%nat) p); [reflexivity|contradiction].
           ++ rewrite (avgl_ext _ _ (fun _ => 0)).
              ** rewrite avgl_const. ring.
              ** intros l _. subst H. cbv beta. destruct (Nat.eq_dec (nth i pool 0%nat) p) as [E'|]; [|reflexivity]. exfalso. apply E.
                 apply (proj1 (NoDup_nth pool 0%nat) Np); auto. congruence.
      * apply Forall_forall. intros x X. apply repeat_spec in X. subst. lra.
      * rewrite total_ones. exact P.
      * intros i u Hi U. rewrite repeat_length in Hi. rewrite total_ones, !firstn_ones, !total_ones in U by lia. apply (floor_interval n i u); auto.
    + intros [|u l] Hl; [discriminate|]. cbn [draw_from next_draw]. fold n. subst H. cbv beta.
      destruct (draw_from (length ps) _ l) as [o r]. cbn [fst].
      destruct (Nat.eq_dec (nth (floor_of u n) pool 0%nat) p) as [->|E].
      * destruct (list_eq_dec _ o ps) as [->|E]; destruct (list_eq_dec _ (p :: _) _) as [E'|E']; try reflexivity; exfalso; congruence.
      * destruct (list_eq_dec _ _ _) as [E'|]; [exfalso; congruence|reflexivity].
Qed.

Theorem C82_after_call_arrangements : forall (A : Type) (dec : forall a b : A, {a = b} + {a <> b}) setsize replace items out fuel,
  NoDup items -> NoDup out -> incl out items -> (1 < length out)%nat ->
  probability (seq 0 (length out)) (fun us =>
    returned dec out (first_call setsize fuel items None replace true (map us (seq 0 (length out))) (zlen out)))
  = / falling_product (length items) (length out).
Proof.
  intros A dec setsize replace items out fuel ND No I K. unfold probability.
  assert (Pk : exists ps, picks items ps out).
  { clear - I. induction out as [|a out IH]; [exists []; constructor|]. destruct IH as [ps Pk]; [intros x X; apply I; right; exact X|].
    destruct (In_nth_error items a (I a (or_introl eq_refl))) as [p P]. exists (p :: ps). constructor; assumption. }
  destruct Pk as [ps Pk]. pose proof (picks_length _ _ _ Pk) as Lp.
  rewrite (average_avgl (fun l => if returned dec out (first_call setsize fuel items None replace true l (zlen out)) then 1 else 0)).
  pose proof (NoDup_incl_length No I) as B.
  rewrite <- (seq_length (length items) 0) at 1. rewrite <- (draw_from_avg (length out) (seq 0 (length items)) ps); auto.
  - apply avgl_ext. intros l Hl.
    replace (first_call setsize fuel items None replace true l (zlen out)) with (first_call setsize fuel items None true true l (zlen out)) by (destruct replace; reflexivity).
    destruct (first_call_replacing setsize fuel items None true l (zlen out)) as (cum & E & _); [intros ->; cbn in B; lia|apply repeat_length|].
    rewrite E. unfold choice_call_n. destruct (Z.eqb_spec (zlen out) 1) as [Q|_]; [unfold zlen in Q; lia|].
    unfold choice_emit_many, mbind at 1, get. cbn [c_replace c_roac negb orb andb].
    destruct (Z.ltb_spec 1 (zlen out)) as [_|Q]; [|unfold zlen in Q; lia].
    unfold choice_without_replacement, mbind at 1, get. cbn [c_nui c_replace c_weights c_items negb].
    destruct (Z.ltb_spec (zlen items) (zlen out)) as [Q|_]; [unfold zlen in Q; lia|].
    destruct (Z.ltb_spec (zlen out) 0) as [Q|_]; [unfold zlen in Q; lia|]. cbn [orb].
    unfold mbind, ret, on_rng. cbn [c_rng]. change (r_sample RP) with (fun n k r => draw_from k (seq 0 n) r). cbv beta.
    replace (Z.to_nat (zlen out)) with (length out) by (unfold zlen; lia).
    change (pR RP) with (list R). destruct (draw_from (length out) (seq 0 (length items)) l) as [pos r']. cbn [fst snd].
    rewrite (mapS_returned dec items pos ps out _ ND Pk). destruct (list_eq_dec _ _ _); reflexivity.
  - apply seq_NoDup.
  - clear - No Pk. induction Pk as [|p a ps o H P IH]; [constructor|]. inversion No as [|? ? N1 N2]; subst. constructor; [|auto].
    intros Q. apply N1. clear - H P Q. induction P as [|q b ps o H' P IH]; [contradiction|]. destruct Q as [->|Q]; [left; congruence|right; auto].
  - intros p P. apply in_seq. pose proof (picks_bound _ _ _ Pk p P). lia.
Qed.

(** [chance(p)] emits True with probability [p]. *)
Theorem C82_chance : forall setsize fuel p, 0 <= p <= 1 ->
  probability [0%nat] (fun us =>
    match (c <- chance RP fuel p (Some [us 0%nat]) 0 ;; fst (choice_call RP setsize fuel c)) with Ok b => b | _ => false end) = p.
Proof.
  intros setsize fuel p Hp.
  transitivity (each_alone [p; 1 - p] [0%nat]).
  - rewrite <- (C82_with_replacement bool Bool.bool_dec setsize [true; false] [p; 1 - p] false [0%nat] [true] fuel); auto; try congruence.
    + assert (G : forall r : res (@choice RP bool),
        match (c <- r ;; fst (choice_call RP setsize fuel c)) with Ok b => b | _ => false end
        = returned Bool.bool_dec [true] (c <- r ;; fst (choice_call_n RP setsize fuel 1 c))).
      { intros [c| |]; try reflexivity. cbn [bind]. unfold choice_call, choice_call_n. cbn [Z.eqb Pos.eqb]. unfold mbind at 1.
        destruct (choice_emit RP setsize fuel c) as [[[]| |] c1]; reflexivity. }
      unfold probability. apply average_ext. intros vs _.
      exact (f_equal (fun b : bool => if b then 1 else 0) (G (chance RP fuel p (Some [vs 0%nat]) 0))).
    + constructor; [intros [E|[]]; discriminate|constructor; [intros []|constructor]].
    + constructor; [lra|]. constructor; [lra|constructor].
    + unfold total. cbn. lra.
    + repeat constructor.
  - rewrite each_cons. unfold total, each_alone. cbn. field. lra.
Qed.

(** [poisson_choice] and [gaussian_choice]: the first value is the item at position
    [p] with probability proportional to the weight that the distribution gives to
    [p + 1], or to weight_floor if that is greater. *)
Theorem C82_distribution : forall (A : Type) (dec : forall a b : A, {a = b} + {a <> b}) setsize fuel dist value items floor p a,
  NoDup items -> 0 < floor -> (forall x, (1 <= x <= length items)%nat -> dist x = Ok (value x)) -> nth_error items p = Some a ->
  probability [0%nat] (fun us =>
    returned dec [a] (c <- dist_choice RP fuel dist items floor true false (Some [us 0%nat]) 0 ;; fst (choice_call_n RP setsize fuel 1 c)))
  = Rmax floor (value (S p)) / total (map (fun x => Rmax floor (value x)) (seq 1 (length items))).
Proof.
  intros A dec setsize fuel dist value items floor p a ND Fl D Hp. set (ws := map _ _).
  assert (L : length ws = length items) by (subst ws; rewrite map_length, seq_length; reflexivity).
  assert (Hl : (p < length items)%nat) by (apply nth_error_Some; congruence).
  assert (M : mapM (fun x => w <- dist x ;; Ok (clamp (w_lt RP) w (Some floor) None)) (seq 1 (length items)) = Ok ws).
  { subst ws. assert (D' : forall x, In x (seq 1 (length items)) -> dist x = Ok (value x)) by (intros x X; apply in_seq in X; apply D; lia).
    clear - D'. induction (seq 1 (length items)) as [|x l IH]; [reflexivity|]. cbn [mapM map]. rewrite (D' x) by (left; reflexivity).
    cbn [bind]. rewrite IH by (intros y Y; apply D'; right; exact Y). cbn [bind]. do 2 f_equal. unfold clamp. change (w_lt RP) with Rltb.
    unfold Rmax. destruct (Rle_dec floor (value x)) as [Q|Q].
    - rewrite (proj2 (Rltb_false _ _) Q). reflexivity.
    - rewrite (proj2 (Rltb_true (value x) floor)) by lra. reflexivity. }
  assert (F : Forall (fun w => 0 < w) ws).
  { subst ws. apply Forall_map, Forall_forall. intros x _. eapply Rlt_le_trans; [exact Fl|apply Rmax_l]. }
  assert (T : 0 < total ws).
  { destruct ws as [|w ws']; [cbn in L; lia|]. inversion F; subst. rewrite total_cons. pose proof (total_nonneg ws') as G.
    enough (0 <= total ws') by lra. apply G. eapply Forall_impl; [|eassumption]. intros; cbn in *; lra. }
  transitivity (each_alone ws [p]).
  - rewrite <- (C82_with_replacement A dec setsize items ws false [p] [a] fuel); auto.
    + unfold probability. apply average_ext. intros vs _.
      exact (f_equal (fun r => if returned dec [a] (c <- (weights <- r ;;
        choice_new RP fuel items (Some weights) true false (Some [vs 0%nat]) None 0) ;; fst (choice_call_n RP setsize fuel 1 c)) then 1 else 0) M).
    + intros ->. cbn in Hl. lia.
    + eapply Forall_impl; [|exact F]. intros; cbn in *; lra.
    + repeat constructor. exact Hp.
  - rewrite each_cons. unfold each_alone. cbn [fold_right]. rewrite Rmult_1_r. f_equal. subst ws.
    rewrite nth_indep with (d' := (fun x => Rmax floor (value x)) 0%nat) by (rewrite map_length, seq_length; exact Hl).
    rewrite map_nth with (f := fun x => Rmax floor (value x)). rewrite seq_nth by exact Hl. reflexivity.
Qed.

(** ** Cases *)

(** The probabilities of the values of the first draw add up to 1. *)
Theorem C81_first_sum : forall ws, 0 < total ws ->
  total (map (fun p => one_by_one ws [p]) (seq 0 (length ws))) = 1.
Proof.
  intros ws T. rewrite (map_ext _ (fun p => (fun q => nth q ws 0) p * / total ws)) by (intros p; cbn [one_by_one]; unfold Rdiv; ring).
  rewrite <- (map_map (fun q => nth q ws 0) (fun x => x * / total ws)), total_scale.
  assert (E : forall (l : list R) k (pre : list R), length pre = k -> map (fun q => nth q (pre ++ l) 0) (seq k (length l)) = l).
  { induction l as [|x l IH]; intros k pre K; [reflexivity|]. cbn [length seq map]. f_equal.
    - rewrite <- K. apply nth_middle.
    - rewrite <- (IH (S k) (pre ++ [x])) at 2 by (rewrite app_length; cbn; lia). rewrite <- app_assoc. reflexivity. }
  specialize (E ws 0%nat [] eq_refl). cbn [app] in E. rewrite E. apply Rinv_l. lra.
Qed.

(** Items 10, 20, 30 with the weights 1, 2, 3: all three in the order 30, 10, 20 *)
Example C81_case :
  probability [2; 0; 1]%nat (fun us =>
    returned Nat.eq_dec [30; 10; 20]%nat (fst (weighted_shuffle RP 0 [10; 20; 30]%nat [1; 2; 3] (Some 3%Z) [us 0%nat; us 1%nat; us 2%nat]))) = / 6.
Proof.
  transitivity (one_by_one [1; 2; 3] [2; 0; 1]%nat); [|unfold one_by_one, total; cbn; field].
  apply (C81_many nat Nat.eq_dec [10; 20; 30]%nat [1; 2; 3] [2; 0; 1]%nat [] [30; 10; 20]%nat 0).
  - repeat constructor; cbn; lia.
  - reflexivity.
  - repeat (constructor; [lra|]). constructor.
  - cbn [app length seq]. apply (Permutation_trans (l' := [0; 2; 1]%nat)); [apply perm_swap|apply perm_skip, perm_swap].
  - repeat constructor.
  - reflexivity.
  - reflexivity.
Qed.
(** Two of five items, one of which has weight 0 *)
Example C81_few_case :
  probability (seq 0 4) (fun us =>
    returned Nat.eq_dec [50; 10]%nat (fst (weighted_shuffle RP 3 [10; 20; 30; 40; 50]%nat [1; 0; 2; 1; 4] (Some 2%Z) (map us (seq 0 4))))) = / 8.
Proof.
  transitivity (one_by_one [1; 0; 2; 1; 4] [4; 0]%nat); [|unfold one_by_one, total; cbn; field].
  apply (C81_few nat Nat.eq_dec [10; 20; 30; 40; 50]%nat [1; 0; 2; 1; 4] [4; 0]%nat [50; 10]%nat 3 4).
  - repeat constructor; cbn; lia.
  - reflexivity.
  - repeat (constructor; [lra|]). constructor.
  - repeat constructor; cbn; lia.
  - repeat constructor.
  - intros p [<-|[<-|[]]]; cbn; lra.
  - congruence.
  - reflexivity.
  - unfold zlen; cbn; lia.
  - cbn; lia.
  - cbn; lia.
Qed.
(** Two values without replacement, without weights *)
Example C82_case : forall setsize,
  probability [1; 2; 0]%nat (fun us =>
    returned Nat.eq_dec [20; 30]%nat (first_call setsize 0 [10; 20; 30]%nat None false false [us 0%nat; us 1%nat; us 2%nat] 2)) = / 6.
Proof.
  intros setsize. transitivity (/ falling_product 3 2); [|cbn [falling_product Nat.sub INR]; lra].
  apply (C82_arrangements nat Nat.eq_dec setsize [10; 20; 30]%nat [1; 2]%nat [0%nat] [20; 30]%nat 0).
  - congruence.
  - repeat constructor; cbn; lia.
  - cbn [app length seq]. apply (Permutation_trans (l' := [1; 0; 2]%nat)); [apply perm_skip, perm_swap|apply perm_swap].
  - repeat constructor.
  - reflexivity.
Qed.
(** Three values with replacement *)
Example C82_replacing_case : forall setsize,
  probability (seq 0 3) (fun us =>
    returned Nat.eq_dec [20; 20; 10]%nat (first_call setsize 0 [10; 20]%nat (Some [1; 3]) true false (map us (seq 0 3)) 3)) = 9 / 64.
Proof.
  intros setsize. transitivity (each_alone [1; 3] [1; 1; 0]%nat); [|unfold each_alone, total; cbn; field].
  apply (C82_with_replacement nat Nat.eq_dec setsize [10; 20]%nat [1; 3] false [1; 1; 0]%nat [20; 20; 10]%nat 0); auto.
  - congruence.
  - repeat constructor; cbn; lia.
  - repeat (constructor; [lra|]). constructor.
  - unfold total; cbn; lra.
  - repeat constructor.
Qed.
(** [chance(0.3)] *)
Example C82_chance_case : forall setsize,
  probability [0%nat] (fun us =>
    match (c <- chance RP 0 (3 / 10) (Some [us 0%nat]) 0 ;; fst (choice_call RP setsize 0 c)) with Ok b => b | _ => false end) = 3 / 10.
Proof. intros setsize. apply C82_chance. lra. Qed.

Print Assumptions C81_few.
Print Assumptions C81_many.
Print Assumptions C81_first_sum.
Print Assumptions C81_positions.
Print Assumptions C82_without_replacement.
Print Assumptions C82_arrangements.
Print Assumptions C82_with_replacement.
Print Assumptions C82_uniform.
Print Assumptions C82_after_call_few.
Print Assumptions C82_after_call_many.
Print Assumptions C82_after_call_arrangements.
Print Assumptions C82_chance.
Print Assumptions C82_distribution.
