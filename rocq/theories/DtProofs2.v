(** * Proofs about the dtrange model, part 2: index, membership, equality,
    the dtrange factory. *)
From Verif Require Import Base PyRange DtModel DtSpec DtFloat DtProofs.
Open Scope Z_scope.
Ltac Zify.zify_post_hook ::= idtac.
Ltac dlia := Z.div_mod_to_equations; lia.

Lemma dtkind_eqb_refl : forall k, dtkind_eqb k k = true.
Proof. now destruct k. Qed.
Lemma dtkind_eqb_eq : forall a b, dtkind_eqb a b = true <-> a = b.
Proof. intros [] []; simpl; split; congruence. Qed.
Lemma dt_eqb_eq : forall a b, dt_eqb a b = true <-> a = b.
Proof.
  intros [ka a] [kb b]. unfold dt_eqb; cbn [dk dv]. rewrite andb_true_iff, dtkind_eqb_eq, Z.eqb_eq.
  split; [intros [-> ->]; auto | intros H; inversion H; auto].
Qed.

(** ** index *)
Lemma rg_contains_slice : forall n a b x sub, 0 <= n ->
  rg_slice (mkRange 0 n 1) (mkSlice a b None) = Ok sub ->
  (rg_contains sub x = true <-> In x (sliced (zseq n) a b 1)).
Proof.
  intros n a b x sub Hn H. pose proof H as H'.
  unfold rg_slice, sl_indices in H. cbn [sl_stepv sl_step sl_start sl_stop] in H.
  change (1 =? 0) with false in H. change (1 <? 0) with false in H. cbv iota in H. cbn [bind] in H.
  rewrite rg_len_0, Z.max_r in H by lia.
  rewrite !sl_bound_clip in H by lia.
  cbn [rg_start rg_step] in H. oinv H.
  unfold rg_contains. cbn [rg_start rg_stop rg_step]. change (0 <? 1 * 1) with true. cbv iota.
  unfold sliced. change (0 <? 1) with true. cbv iota.
  assert (L : zlen (zseq n) = n) by (unfold zlen; rewrite zseq_length; lia). rewrite L.
  rewrite <- (map_id (zseq n)). rewrite select_map_zseq, map_id, filter_In, in_zseq.
  rewrite !andb_true_iff, !Z.leb_le, !Z.ltb_lt, !Z.eqb_eq.
  set (i := match a with None => 0 | Some x0 => clip 0 n (from_end n x0) end).
  set (j := match b with None => n | Some x0 => clip 0 n (from_end n x0) end).
  assert (0 <= i <= n) by (unfold i, clip; destruct a; lia).
  assert (0 <= j <= n) by (unfold j, clip; destruct b; lia).
  change (1 * 1) with 1. rewrite !Z.mod_1_r. lia.
Qed.

Lemma slice1_ok : forall n a b, exists sub, rg_slice (mkRange 0 n 1) (mkSlice a b None) = Ok sub.
Proof. intros. unfold rg_slice, sl_indices. cbn [sl_stepv sl_step]. simpl. eauto. Qed.

Lemma in_sliced_all : forall n x, 0 <= n -> (In x (sliced (zseq n) None None 1) <-> 0 <= x < n).
Proof.
  intros n x Hn. unfold sliced. change (0 <? 1) with true. cbv iota.
  assert (L : zlen (zseq n) = n) by (unfold zlen; rewrite zseq_length; lia). rewrite L.
  rewrite <- (map_id (zseq n)). rewrite select_map_zseq, map_id, filter_In, in_zseq.
  rewrite !andb_true_iff, !Z.leb_le, !Z.ltb_lt, !Z.eqb_eq. rewrite Z.mod_1_r. lia.
Qed.

Lemma in_sliced_bound : forall n a b x, 0 <= n -> In x (sliced (zseq n) a b 1) -> 0 <= x < n.
Proof.
  intros n a b x Hn H. unfold sliced in H. change (0 <? 1) with true in H. cbv iota in H.
  rewrite <- (map_id (zseq n)) in H. rewrite select_map_zseq, map_id, filter_In, in_zseq in H. tauto.
Qed.

(** [_value_to_index] divides the distance from start to value by the step. *)
Lemma v2i_spec : forall v s st, dt_valid v -> dt_valid s -> dk v = dk s -> st <> 0 ->
  exists d, value_to_index v s st = Ok (d / st, d mod st) /\
  match dk s with
  | KTime => d mod DAY = (dv v - dv s) mod DAY /\ (0 < st -> 0 <= d < DAY) /\ (st < 0 -> - DAY < d <= 0)
  | _ => d = us_of v - us_of s
  end.
Proof.
  intros [kv v] [ks s] st V S K Hst. cbn [dk dv] in *. subst kv.
  unfold value_to_index, td_divmod, us_of, dt_valid in *. cbn [dk dv] in *. rewrite dtkind_eqb_refl. cbn [negb].
  destruct (Z.eqb_spec st 0); [congruence|].
  destruct ks.
  - exists ((v - s) * DAY). split; auto. lia.
  - destruct (Z.ltb_spec v s); destruct (Z.ltb_spec 0 st); destruct (Z.ltb_spec s v); destruct (Z.ltb_spec st 0);
      cbn [andb]; try lia; eexists; (split; [reflexivity|]); unfold REF, DAY in *; dlia.
  - exists (v - s). auto.
Qed.

Definition one_lap (r : dtr) : Prop :=
  dk (r_start r) = KTime -> Z.abs (r_step r) * (r_length r - 1) < DAY.

Lemma isinstance_same : forall v s, dk v = dk s -> isinstance_of (ODt v) s = true.
Proof. intros [kv v] [ks s]; cbn [dk isinstance_of]. intros ->. now destruct ks. Qed.

Lemma dtr_index_unfold : forall r v a b, dk v = dk (r_start r) -> dt_valid v -> dt_valid (r_start r) ->
  r_step r <> 0 -> 0 <= r_length r ->
  exists d,
  match dk (r_start r) with
  | KTime => d mod DAY = (dv v - dv (r_start r)) mod DAY /\ (0 < r_step r -> 0 <= d < DAY) /\ (r_step r < 0 -> - DAY < d <= 0)
  | _ => d = us_of v - us_of (r_start r)
  end /\
  (forall i, dtr_index r (ODt v) a b = Ok i <->
     d = r_step r * i /\ In i (sliced (zseq (r_length r)) a b 1)) /\
  (forall e, dtr_index r (ODt v) a b = Raise e -> e = ValueError) /\
  dtr_index r (ODt v) a b <> Diverge.
Proof.
  intros r v a b K Vv Vs Hst Hl.
  destruct (v2i_spec v (r_start r) (r_step r) Vv Vs K Hst) as (d & E & D).
  exists d. split; [exact D|].
  unfold dtr_index. rewrite isinstance_same by exact K. rewrite E. cbn [bind].
  destruct (slice1_ok (r_length r) a b) as [sub S]. unfold index_range. rewrite S. cbn [bind].
  pose proof (rg_contains_slice (r_length r) a b (d / r_step r) sub Hl S) as C.
  destruct (Z.eqb_spec (d mod r_step r) 0) as [M|M].
  - assert (Dq : d = r_step r * (d / r_step r)) by (apply Z.div_exact; auto).
    destruct (rg_contains sub (d / r_step r)) eqn:RC.
    + split; [|split; [discriminate|discriminate]].
      intros i. split.
      * intros H. oinv H. split; [exact Dq|]. now apply C.
      * intros [H1 H2]. f_equal. rewrite H1. rewrite Z.mul_comm, Z.div_mul; auto.
    + split; [|split; [congruence|discriminate]].
      intros i. split; [discriminate|].
      intros [H1 H2]. exfalso. assert (i = d / r_step r) by (rewrite H1, Z.mul_comm, Z.div_mul; auto).
      subst i. apply C in H2. congruence.
  - split; [|split; [congruence|discriminate]].
    intros i. split; [discriminate|]. intros [H1 H2]. exfalso. apply M. rewrite H1, Z.mul_comm. now apply Z.mod_mul.
Qed.

(** The value at position [i] is found at position [i]. *)
Lemma distance_term : forall r v d i, r_wf r -> 0 <= i < r_length r -> r_step r <> 0 -> one_lap r ->
  v = term (r_start r) (r_step r) i ->
  match dk (r_start r) with
  | KTime => d mod DAY = (dv v - dv (r_start r)) mod DAY /\ (0 < r_step r -> 0 <= d < DAY) /\ (r_step r < 0 -> - DAY < d <= 0)
  | _ => d = us_of v - us_of (r_start r)
  end -> d = r_step r * i.
Proof.
  intros r v d i [V F] Hi Hst O Hv D.
  destruct (dk (r_start r)) eqn:K.
  - subst v. rewrite term_us in D by (unfold on_line; auto). lia.
  - specialize (O K). destruct D as (D1 & D2 & D3).
    subst v. unfold term in D1. rewrite K in D1. cbn [dv] in D1.
    assert (B : Z.abs (r_step r * i) < DAY).
    { rewrite Z.abs_mul, (Z.abs_eq i) by lia.
      apply Z.le_lt_trans with (Z.abs (r_step r) * (r_length r - 1)); auto.
      apply Z.mul_le_mono_nonneg_l; lia. }
    set (s := dv (r_start r)) in *.
    assert (E : (d - r_step r * i) mod DAY = 0).
    { rewrite Zminus_mod, D1.
      rewrite (Zminus_mod_idemp_l (s + r_step r * i) s DAY).
      replace (s + r_step r * i - s) with (r_step r * i) by lia.
      rewrite <- Zminus_mod. now rewrite Z.sub_diag. }
    apply Z.mod_divide in E; [|unfold DAY; lia]. destruct E as [q E].
    assert (SG : 0 < r_step r /\ 0 <= r_step r * i \/ r_step r < 0 /\ r_step r * i <= 0) by nia.
    set (y := r_step r * i) in *. clearbody y. unfold DAY in *. lia.
  - subst v. rewrite term_us in D by (unfold on_line; auto). lia.
Qed.

Lemma term_of_distance : forall r v d i, r_wf r -> dt_valid v -> dk v = dk (r_start r) -> d = r_step r * i ->
  match dk (r_start r) with
  | KTime => d mod DAY = (dv v - dv (r_start r)) mod DAY /\ (0 < r_step r -> 0 <= d < DAY) /\ (r_step r < 0 -> - DAY < d <= 0)
  | _ => d = us_of v - us_of (r_start r)
  end -> v = term (r_start r) (r_step r) i.
Proof.
  intros r v d i [V F] Vv Kv Hd D.
  destruct (dk (r_start r)) eqn:K.
  - apply us_of_inj; [rewrite term_kind; congruence|]. rewrite term_us by (unfold on_line; auto). lia.
  - destruct D as (D1 & _). destruct v as [kv v]. cbn [dk dv] in *. subst kv.
    unfold term. rewrite K. f_equal. unfold dt_valid in Vv. cbn [dk dv] in Vv.
    rewrite <- Hd. rewrite <- Zplus_mod_idemp_r, D1, Zplus_mod_idemp_r.
    replace (dv (r_start r) + (v - dv (r_start r))) with v by lia. symmetry. now apply Z.mod_small.
  - apply us_of_inj; [rewrite term_kind; congruence|]. rewrite term_us by (unfold on_line; auto). lia.
Qed.

Lemma positions_zseq : forall A (f : Z -> A) n, positions (map f (zseq n)) = zseq n.
Proof. intros. unfold positions. now rewrite map_length, zseq_length. Qed.

(** index: characterisation against the list of elements *)
Lemma index_iff : forall r l v a b i, r_wf r -> one_lap r -> r_step r <> 0 ->
  dtr_list r = Ok l -> dt_valid v -> dk v = dk (r_start r) ->
  (dtr_index r (ODt v) a b = Ok i <->
   (0 <= i /\ nth_error l (Z.to_nat i) = Some v /\ In i (sliced (positions l) a b 1))).
Proof.
  intros r l v a b i W O Hst L Vv K. apply dtr_list_ok in L. destruct L as (Hn & A & ->).
  destruct (dtr_index_unfold r v a b K Vv (proj1 W) Hst ltac:(lia)) as (d & D & I & _).
  rewrite I, positions_zseq, nth_zseq. split.
  - intros [H1 H2]. pose proof (in_sliced_bound (r_length r) _ _ _ ltac:(lia) H2).
    split; [lia|]. split; [|exact H2].
    rewrite Z2Nat.id by lia. destruct (Z.ltb_spec i (r_length r)); [|lia]. f_equal. symmetry.
    eapply term_of_distance; eauto.
  - intros (H0 & H1 & H2). pose proof (in_sliced_bound (r_length r) _ _ _ ltac:(lia) H2).
    rewrite Z2Nat.id in H1 by lia. destruct (Z.ltb_spec i (r_length r)); [|lia].
    split; [|exact H2]. apply (distance_term r v d i W); auto; congruence.
Qed.

Lemma index_total : forall r v a b, r_wf r -> r_step r <> 0 -> 0 <= r_length r -> dt_valid v ->
  dk v = dk (r_start r) ->
  (exists i, dtr_index r (ODt v) a b = Ok i) \/ dtr_index r (ODt v) a b = Raise ValueError.
Proof.
  intros r v a b W Hst Hl Vv K.
  destruct (dtr_index_unfold r v a b K Vv (proj1 W) Hst Hl) as (d & D & I & Er & Nd).
  destruct (dtr_index r (ODt v) a b) as [i|e|]; eauto.
  - right. now rewrite (Er e eq_refl).
  - congruence.
Qed.

Lemma contains_iff : forall r l v, r_wf r -> one_lap r -> r_step r <> 0 ->
  dtr_list r = Ok l -> dt_valid v -> dk v = dk (r_start r) ->
  (In v l -> dtr_contains r (ODt v) = Ok true) /\ (~ In v l -> dtr_contains r (ODt v) = Ok false).
Proof.
  intros r l v W O Hst L Vv K.
  pose proof (index_iff r l v None None) as I.
  assert (Hl : 0 <= r_length r <= MAXSSIZE /\ l = map (term (r_start r) (r_step r)) (zseq (r_length r)))
    by (apply dtr_list_ok in L; tauto).
  destruct Hl as [Hl El].
  unfold dtr_contains. rewrite isinstance_same by exact K.
  destruct (index_total r v None None W Hst (proj1 Hl) Vv K) as [[i E]|E].
  - rewrite E. split; auto. intros N. exfalso. apply N. apply I in E; auto.
    destruct E as (_ & E & _). now apply nth_error_In in E.
  - rewrite E. split; auto. intros Hin. exfalso.
    apply In_nth_error in Hin. destruct Hin as [k Hk].
    assert (dtr_index r (ODt v) None None = Ok (Z.of_nat k)) as C.
    { apply I; auto. rewrite Nat2Z.id. split; [lia|]. split; [exact Hk|].
      subst l. rewrite positions_zseq. rewrite nth_zseq in Hk.
      destruct (Z.ltb_spec (Z.of_nat k) (r_length r)); [|discriminate].
      apply in_sliced_all; lia. }
    congruence.
Qed.

Lemma NoDup_elements : forall r l, r_wf r -> one_lap r -> r_step r <> 0 -> dtr_list r = Ok l -> NoDup l.
Proof.
  intros r l W O Hst L. apply dtr_list_ok in L. destruct L as (Hn & A & ->).
  apply NoDup_nth_error. intros i j Hi E. rewrite map_length, zseq_length in Hi.
  rewrite !nth_zseq in E.
  destruct (Z.ltb_spec (Z.of_nat i) (r_length r)); [|lia].
  destruct (Z.ltb_spec (Z.of_nat j) (r_length r)); [|discriminate].
  inversion E as [E'].
  pose proof (v2i_spec (term (r_start r) (r_step r) (Z.of_nat i)) (r_start r) (r_step r)
     (term_valid _ _ _ (A (Z.of_nat i) ltac:(lia))) (proj1 W) (term_kind _ _ _) Hst) as (d & _ & D).
  pose proof (distance_term r _ d (Z.of_nat i) W ltac:(lia) Hst O eq_refl D).
  pose proof (distance_term r _ d (Z.of_nat j) W ltac:(lia) Hst O E' D).
  assert (r_step r * Z.of_nat i = r_step r * Z.of_nat j) by congruence.
  apply Z.mul_reg_l in H3; auto. lia.
Qed.

Lemma dt_eq_dec : forall a b : dt, {a = b} + {a <> b}.
Proof. decide equality; [apply Z.eq_dec|decide equality]. Defined.

Lemma count_iff : forall r l v, r_wf r -> one_lap r -> r_step r <> 0 ->
  dtr_list r = Ok l -> dt_valid v -> dk v = dk (r_start r) ->
  dtr_count r (ODt v) = Ok (Z.of_nat (count_occ dt_eq_dec l v)).
Proof.
  intros r l v W O Hst L Vv K. destruct (contains_iff r l v W O Hst L Vv K) as [C1 C2].
  pose proof (NoDup_elements r l W O Hst L) as N.
  unfold dtr_count. destruct (in_dec dt_eq_dec v l) as [I|I].
  - rewrite C1 by exact I. cbn [bind]. rewrite (NoDup_count_occ' dt_eq_dec l) in N. now rewrite N.
  - rewrite C2 by exact I. cbn [bind]. apply (count_occ_not_In dt_eq_dec) in I. now rewrite I.
Qed.

(** ** equality *)
Lemma eq_iff : forall a b la lb, r_wf a -> r_wf b -> on_line (r_start a) -> on_line (r_start b) ->
  dtr_list a = Ok la -> dtr_list b = Ok lb ->
  exists q, dtr_eq a b = Ok q /\ (q = true <-> la = lb).
Proof.
  intros a b la lb [Va Fa] [Vb Fb] Oa Ob La Lb.
  apply dtr_list_ok in La, Lb. destruct La as (Na & Aa & ->). destruct Lb as (Nb & Ab & ->).
  unfold dtr_eq, dtr_len. rewrite !ssize_valid by assumption. cbn [bind].
  destruct (Z.eqb_spec (r_length a) (r_length b)) as [E|E]; cbn [negb].
  - rewrite <- E.
    destruct (Z.eqb_spec (r_length a) 0) as [Z0|Z0].
    { eexists; split; eauto. rewrite Z0. simpl. tauto. }
    assert (H0 : forall q, nth_error (map q (zseq (r_length a))) 0 = Some (q 0) :> option dt).
    { intros q. rewrite nth_zseq. destruct (Z.ltb_spec (Z.of_nat 0) (r_length a)); [reflexivity|lia]. }
    assert (T0 : forall s st, on_line s -> step_fits s st -> term s st 0 = s).
    { intros s st Os Fs. apply us_of_inj. apply term_kind. rewrite term_us by auto. lia. }
    destruct (Z.eqb_spec (r_length a) 1) as [Z1|Z1].
    { eexists; split; eauto. rewrite dt_eqb_eq. rewrite Z1. change (zseq 1) with [0]. cbn [map].
      rewrite !T0 by auto. split; [intros ->; auto|]. intros H; now inversion H. }
    eexists; split; eauto. rewrite andb_true_iff, dt_eqb_eq, Z.eqb_eq. split.
    { intros [-> ->]. reflexivity. }
    intros H.
    pose proof (f_equal (fun l => nth_error l 0) H) as P0. cbv beta in P0. rewrite !H0 in P0.
    rewrite !T0 in P0 by auto. inversion P0 as [P0']. split; auto.
    pose proof (f_equal (fun l => nth_error l 1) H) as P1. cbv beta in P1. rewrite !nth_zseq in P1.
    destruct (Z.ltb_spec (Z.of_nat 1) (r_length a)); [|lia]. inversion P1 as [P1'].
    apply (f_equal us_of) in P1'. change (Z.of_nat 1) with 1 in P1'.
    rewrite (term_us (r_start a)), (term_us (r_start b)) in P1' by auto. rewrite P0' in P1'. lia.
  - eexists; split; eauto. split; [discriminate|]. intros H. exfalso. apply E.
    apply (f_equal (@length dt)) in H. rewrite !map_length, !zseq_length in H. lia.
Qed.

Lemma eq_hash : forall a b, dtr_eq a b = Ok true -> dtr_hash_key a = dtr_hash_key b.
Proof.
  intros a b H. unfold dtr_eq in H. binv H. binv H. unfold dtr_hash_key. rewrite E, E0. cbn [bind].
  destruct (Z.eqb_spec a0 a1) as [->|]; cbn [negb] in H; [|discriminate].
  destruct (Z.eqb_spec a1 0) as [->|]; [reflexivity|].
  destruct (Z.eqb_spec a1 1) as [->|].
  - oinv H. apply dt_eqb_eq in H. now rewrite H.
  - oinv H. apply andb_true_iff in H. destruct H as [H1 H2]. apply dt_eqb_eq in H1. apply Z.eqb_eq in H2.
    now rewrite H1, H2.
Qed.

(** ** The factory *)
Lemma ceil_spec : forall d st, st <> 0 ->
  let n := d / st + (if d mod st =? 0 then 0 else 1) in
  forall i, (i < n <-> (0 < st -> st * i < d) /\ (st < 0 -> d < st * i)).
Proof.
  intros d st Hst n i. unfold n.
  pose proof (Z.div_mod d st Hst) as DM.
  destruct (Z.eqb_spec (d mod st) 0) as [M|M].
  - rewrite M in DM. set (q := d / st) in *. clearbody q. subst d. split; intros; nia.
  - destruct (Z.lt_ge_cases 0 st).
    + pose proof (Z.mod_pos_bound d st H). set (q := d / st) in *. set (m := d mod st) in *. clearbody q m.
      split; [intros; split; intros; nia|intros [K _]; specialize (K H); nia].
    + assert (st < 0) as Hn by lia. pose proof (Z.mod_neg_bound d st Hn).
      set (q := d / st) in *. set (m := d mod st) in *. clearbody q m.
      split; [intros; split; intros; nia|intros [_ K]; specialize (K Hn); nia].
Qed.
