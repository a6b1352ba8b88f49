(** * Exactly when ranges do what C05, C06, C09, C10 and C12 ask for. *)
From Coq Require Import Lia.
From Verif Require Import Base PyRange DtModel DtSpec DtFloat DtProofs DtProofs2 DtProofs3 Prop_Dt.
Open Scope Z_scope.
Ltac Zify.zify_post_hook ::= idtac.

(** ** C05: which slices are refused *)

(** The position a slice [a:...:k] of a sequence of length [n] begins at; as in
    [DtSpec.sliced]. *)
Definition first_position (n : Z) (a : option Z) (k : Z) : Z :=
  if 0 <? k then match a with None => 0 | Some a => clip 0 n (from_end n a) end
  else match a with None => n - 1 | Some a => clip (-1) (n - 1) (from_end n a) end.

(** There is a date (or datetime) [us] microseconds on the time line. *)
Definition in_calendar (k : dtkind) (us : Z) : Prop := exists v, dt_valid v /\ dk v = k /\ us_of v = us.

Lemma repr_calendar start step p : dt_valid start -> on_line start -> step_fits start step ->
  (repr start step p <-> in_calendar (dk start) (us_of start + step * p)).
Proof.
  intros V O F. split.
  - intros R. exists (term start step p). split; [now apply term_valid|]. split; [apply term_kind|now apply term_us].
  - intros (v & Vv & Kv & U). unfold repr. destruct v as [kv x], start as [ks s]. unfold on_line in O.
    unfold dt_valid in V, Vv. unfold us_of in U. unfold step_fits in F. cbn [dk dv] in *. subst kv.
    assert (T : td_valid (step * p)).
    { apply td_small. destruct O as [O|O]; subst ks; unfold MAXTD, MAXORD, DAY in *; lia. }
    split; [exact T|].
    destruct O as [O|O]; subst ks; [|lia].
    apply Z.mod_divide in F; [|discriminate]. destruct F as [q ->].
    replace (q * DAY * p) with (q * p * DAY) in * by ring. rewrite Z.div_mul by discriminate. unfold DAY in U. lia.
Qed.

Lemma slice_start n s sub : 0 <= n -> sl_stepv s <> 0 -> rg_slice (mkRange 0 n 1) s = Ok sub ->
  rg_start sub = first_position n (sl_start s) (sl_stepv s).
Proof.
  intros Hn K R. unfold rg_slice, sl_indices in R. rewrite rg_len_0, Z.max_r in R by exact Hn.
  apply Z.eqb_neq in K. rewrite K in R. cbn [bind rg_start rg_step] in R. oinv R. cbn [rg_start].
  apply Z.eqb_neq in K. unfold first_position.
  destruct (Z.ltb_spec (sl_stepv s) 0), (Z.ltb_spec 0 (sl_stepv s)); try lia.
  - rewrite Z.mul_1_r. destruct (Z.eq_dec n 0) as [->|Nz].
    + unfold sl_bound, clip, from_end. destruct (sl_start s) as [x|]; [|lia]. destruct (Z.ltb_spec x 0); lia.
    + rewrite sl_bound_clip by lia. destruct (sl_start s); lia.
  - rewrite Z.mul_1_r. rewrite sl_bound_clip by lia. destruct (sl_start s); lia.
Qed.

(** A slice of a range of dates or datetimes is refused, with OverflowError,
    exactly if its step is more than a timedelta can hold or if the position it
    begins at is not in the calendar (which can only be if the slice is empty).
    In all other cases it is right (C05_slicing_partial). *)
Theorem C05_exact : forall r l s,
  dt_valid (r_start r) -> step_fits (r_start r) (r_step r) -> on_line (r_start r) ->
  dtr_list r = Ok l -> sl_stepv s <> 0 ->
  let accepted := td_valid (r_step r * sl_stepv s) /\
    in_calendar (dk (r_start r)) (us_of (r_start r) + r_step r * first_position (zlen l) (sl_start s) (sl_stepv s)) in
  (accepted -> exists r', dtr_slice r s = Ok r' /\ dtr_list r' = Ok (sliced l (sl_start s) (sl_stop s) (sl_stepv s))) /\
  (~ accepted -> dtr_slice r s = Raise OverflowError) /\
  (sliced l (sl_start s) (sl_stop s) (sl_stepv s) <> [] -> td_valid (r_step r * sl_stepv s) -> accepted).
Proof.
  intros r l s V F O L K accepted. pose proof (dtr_list_ok r l L) as (B & AR & El).
  assert (Zl : zlen l = r_length r). { rewrite El. unfold zlen. rewrite map_length, zseq_length. lia. }
  assert (exists sub, rg_slice (index_range r) s = Ok sub) as [sub R].
  { unfold rg_slice, sl_indices. apply Z.eqb_neq in K. rewrite K. cbn [bind]. eauto. }
  pose proof (slice_start (r_length r) s sub ltac:(lia) K R) as S0.
  destruct (sliced_map dt (term (r_start r) (r_step r)) (r_length r) s sub ltac:(lia) R) as (_ & Sk & Sl & Sne & Sb & Sn).
  rewrite <- El in Sl.
  assert (OK : accepted -> exists r', dtr_slice r s = Ok r').
  { intros (T & C). apply repr_calendar in C; auto. rewrite Zl, <- S0 in C.
    unfold dtr_slice. rewrite R. cbn [bind]. rewrite (i2v_repr _ _ _ C). cbn [bind].
    rewrite ssize_valid by lia. cbn [bind]. rewrite Sk, td_check_valid by exact T. cbn [bind]. unfold dtr_new.
    rewrite step_ok_fits; eauto. apply step_fits_mul with (r_start r); auto. apply term_kind. destruct O; congruence. }
  split; [|split].
  - intros A. destruct (OK A) as [r' E]. exists r'. split; [exact E|].
    apply (C05_slicing_partial r l s V F O L). exact E.
  - intros N. unfold dtr_slice. rewrite R. cbn [bind].
    destruct (i2v_total (rg_start sub) (r_start r) (r_step r)) as [[v E]|E]; rewrite E; [|reflexivity]. cbn [bind].
    rewrite ssize_valid by lia. cbn [bind]. rewrite Sk.
    assert (~ td_valid (r_step r * sl_stepv s)).
    { intros T. apply N. split; [exact T|]. apply repr_calendar; auto. rewrite Zl, <- S0. now apply i2v_ok in E. }
    unfold td_check. destruct (_ && _) eqn:X; [|reflexivity]. exfalso. apply H. unfold td_valid. lia.
  - intros Ne T. split; [exact T|]. apply repr_calendar; auto. rewrite Zl, <- S0. apply AR. apply Sne.
    destruct (Z.eq_dec (rg_len sub) 0) as [E|E]; [|lia]. exfalso. apply Ne. rewrite Sl, E. reflexivity.
Qed.
Print Assumptions C05_exact.

(** ** C06: when time ranges with the same times compare unequal *)
Theorem C06_times_exact : forall a b la lb,
  dt_valid (r_start a) -> step_fits (r_start a) (r_step a) ->
  dt_valid (r_start b) -> step_fits (r_start b) (r_step b) ->
  dk (r_start a) = KTime -> dk (r_start b) = KTime ->
  dtr_list a = Ok la -> dtr_list b = Ok lb ->
  exists q, dtr_eq a b = Ok q /\
    (q = true <-> la = lb /\ (zlen la <= 1 \/ r_step a = r_step b)) /\
    (la = lb -> q = false -> Z.abs (r_step a - r_step b) = DAY).
Proof.
  intros a b la lb Va Fa Vb Fb Ka Kb La Lb.
  apply dtr_list_ok in La, Lb. destruct La as (Ba & _ & Ea), Lb as (Bb & _ & Eb).
  unfold dtr_eq, dtr_len. rewrite !ssize_valid by assumption. cbn [bind].
  assert (Za : zlen la = r_length a). { rewrite Ea. unfold zlen. rewrite map_length, zseq_length. lia. }
  assert (Zb : zlen lb = r_length b). { rewrite Eb. unfold zlen. rewrite map_length, zseq_length. lia. }
  assert (N : forall i, 0 <= i -> la = lb -> i < r_length a -> term (r_start a) (r_step a) i = term (r_start b) (r_step b) i).
  { intros i Hi E Hl. assert (X : nth_error la (Z.to_nat i) = nth_error lb (Z.to_nat i)) by now rewrite E.
    assert (r_length a = r_length b) by congruence. rewrite Ea, Eb in X. rewrite !nth_zseq, Z2Nat.id in X by lia.
    destruct (Z.ltb_spec i (r_length a)), (Z.ltb_spec i (r_length b)); try lia. congruence. }
  destruct a as [[ka sa] na ta], b as [[kb sb] nb tb]. cbn [r_start r_length r_step dk dv] in *. subst ka kb.
  unfold step_fits, dt_valid in *. cbn [dk dv] in *. unfold term in N. cbn [dk dv] in N.
  assert (D : 0 < DAY) by reflexivity.
  destruct (Z.eqb_spec na nb) as [->|Ne]; cbn [negb].
  2:{ exists false. split; [reflexivity|]. split; [split; [discriminate | intros [E _]; congruence] | intros E; congruence]. }
  destruct (Z.eqb_spec nb 0) as [->|N0].
  { exists true. split; [reflexivity|]. split; [|discriminate]. split; [intros _|reflexivity]. split; [rewrite Ea, Eb; reflexivity | left; lia]. }
  assert (S0 : la = lb -> sa = sb).
  { intros E. specialize (N 0 ltac:(lia) E ltac:(lia)). rewrite !Z.mul_0_r, !Z.add_0_r, !Z.mod_small in N by lia. congruence. }
  destruct (Z.eqb_spec nb 1) as [->|N1].
  { eexists. split; [reflexivity|]. rewrite dt_eqb_eq. split.
    - split; [|intros [E _]; f_equal; auto]. intros E. injection E as ->. split; [|left; lia]. rewrite Ea, Eb. change (zseq 1) with [0].
      unfold term. cbn [map dk dv]. rewrite !Z.mul_0_r. reflexivity.
    - intros E. rewrite (S0 E). intros X. assert (Y : dt_eqb (Dt KTime sb) (Dt KTime sb) = true) by now apply dt_eqb_eq. congruence. }
  eexists. split; [reflexivity|]. rewrite andb_true_iff, dt_eqb_eq, Z.eqb_eq. split.
  - split.
    + intros [E ->]. injection E as ->. split; [congruence | now right].
    + intros [E [X| ->]]; [lia|]. split; [f_equal; auto | reflexivity].
  - intros E X. pose proof (S0 E) as ->. specialize (N 1 ltac:(lia) E ltac:(lia)). rewrite !Z.mul_1_r in N.
    assert (Y : dt_eqb (Dt KTime sb) (Dt KTime sb) = true) by now apply dt_eqb_eq. rewrite Y in X. cbn [andb] in X.
    apply Z.eqb_neq in X. assert (N' : (sb + ta) mod DAY = (sb + tb) mod DAY) by congruence. clear -N' X Fa Fb D.
    assert (M : (ta - tb) mod DAY = 0).
    { replace (ta - tb) with ((sb + ta) - (sb + tb)) by ring. rewrite Zminus_mod, N', Z.sub_diag. reflexivity. }
    apply Z.mod_divide in M; [|lia]. destruct M as [q Q].
    assert (q = 1 \/ q = -1); [|destruct H as [-> | ->]; lia].
    assert (-2 < q) by nia. assert (q < 2) by nia. assert (q <> 0) by (intros ->; lia). lia.
Qed.
Print Assumptions C06_times_exact.

(** ** C10: which times are members *)

(** A time is in a time range exactly if it is reached within the first 24 hours;
    index gives the position, in all other cases it raises ValueError. *)
Theorem C10_exact : forall r v,
  dt_valid (r_start r) -> dk (r_start r) = KTime -> Z.abs (r_step r) < DAY -> r_step r <> 0 -> 0 <= r_length r ->
  dt_valid v -> dk v = KTime ->
  let at_ i := 0 <= i /\ Z.abs (r_step r) * i < DAY /\ dtr_get r i = Ok v in
  (forall i, dtr_index r (ODt v) None None = Ok i <-> at_ i) /\
  ((exists i, at_ i) -> dtr_contains r (ODt v) = Ok true) /\
  (~ (exists i, at_ i) -> dtr_contains r (ODt v) = Ok false /\ dtr_index r (ODt v) None None = Raise ValueError).
Proof.
  intros r v Vs K HD Hst Hn Vv Kv at_.
  assert (W : r_wf r) by (split; [assumption|unfold step_fits; now rewrite K]).
  assert (Kv' : dk v = dk (r_start r)) by congruence.
  destruct (dtr_index_unfold r v None None Kv' Vv Vs Hst Hn) as (d & D & I & Ie & Id). rewrite K in D.
  assert (A : forall i, dtr_index r (ODt v) None None = Ok i <-> at_ i).
  { intros i. rewrite I, in_sliced_all by exact Hn. unfold at_. split.
    - intros [E B]. destruct D as (D1 & D2 & D3).
      assert (X : Z.abs (r_step r) * i < DAY).
      { destruct (Z.lt_ge_cases 0 (r_step r)) as [P|P].
        - rewrite Z.abs_eq by lia. rewrite <- E. apply D2, P.
        - rewrite Z.abs_neq by lia. assert (- DAY < d) by (apply D3; lia). nia. }
      split; [lia|]. split; [exact X|]. rewrite dtr_get_nonneg by exact B.
      assert (R : repr (r_start r) (r_step r) i).
      { unfold repr. rewrite K. assert (Y : Z.abs (r_step r * i) < DAY) by (rewrite Z.abs_mul, (Z.abs_eq i) by lia; exact X).
        unfold dt_valid in Vs. rewrite K in Vs.
        split; [apply td_small; unfold MAXTD, DAY in *; lia | unfold REF, MAXORD, DAY in *; lia]. }
      rewrite (i2v_repr _ _ _ R). f_equal. symmetry.
      apply (term_of_distance r v d i W Vv Kv' E). rewrite K. auto.
    - intros (B & X & G).
      assert (L : i < r_length r).
      { destruct (Z.lt_ge_cases i (r_length r)); auto. exfalso.
        assert (dtr_get r i = Raise IndexError) by (apply (C03_getitem r); lia). congruence. }
      split; [|lia]. rewrite dtr_get_nonneg in G by lia. apply i2v_ok in G. destruct G as [-> R].
      set (r' := mkDtr (r_start r) (i + 1) (r_step r)).
      apply (distance_term r' (term (r_start r) (r_step r) i) d i); cbn [r' r_start r_step r_length]; auto; try lia.
      + intros _. cbn [r' r_step r_length]. replace (i + 1 - 1) with i by ring. exact X.
      + rewrite K. exact D. }
  split; [exact A|]. unfold dtr_contains. rewrite isinstance_same by exact Kv'. split.
  - intros [i Hi]. apply A in Hi. now rewrite Hi.
  - intros N. destruct (dtr_index r (ODt v) None None) as [i|e|] eqn:E.
    + exfalso. apply N. exists i. now apply A.
    + rewrite (Ie e eq_refl). auto.
    + congruence.
Qed.
Print Assumptions C10_exact.

(** ** C12: membership tests raise for datetimes in ranges of dates, and only then *)
Theorem C12_exact : forall r v,
  dt_valid (r_start r) -> step_fits (r_start r) (r_step r) -> 0 <= r_length r -> r_step r <> 0 ->
  (forall d, v = ODt d -> dt_valid d) ->
  ((exists d, v = ODt d /\ dk (r_start r) = KDate /\ dk d = KDateTime) -> dtr_contains r v = Raise TypeError) /\
  (~ (exists d, v = ODt d /\ dk (r_start r) = KDate /\ dk d = KDateTime) -> exists q, dtr_contains r v = Ok q).
Proof.
  intros r v V F Hn Hs Vv. split.
  - intros (d & -> & K & Kd). unfold dtr_contains, isinstance_of. rewrite K, Kd. unfold dtr_index, isinstance_of.
    rewrite K, Kd. unfold value_to_index. rewrite K, Kd. reflexivity.
  - intros N. apply C12_membership_total_partial; auto. intros d -> [K Kd]. apply N. eauto.
Qed.
Print Assumptions C12_exact.

(** ** C09: which slices of time ranges are refused *)
Theorem C09_exact :
  forall (str : Type) (isod isot isodt : str -> option Z) a b step u start stop us r l s,
  means isod isot isodt a start -> means isod isot isodt b stop ->
  dt_valid start -> dt_valid stop -> dk start = KTime -> dk stop = KTime ->
  unit_length (chosen_unit KTime u) = Some us -> step * us <> 0 -> Z.abs (step * us) < DAY ->
  dtrange isod isot isodt a b step u = Ok r -> dtr_list r = Ok l -> sl_stepv s <> 0 ->
  let k := step * us * sl_stepv s in
  (Z.abs k < DAY -> exists r', dtr_slice r s = Ok r' /\ dtr_list r' = Ok (sliced l (sl_start s) (sl_stop s) (sl_stepv s))) /\
  (DAY <= Z.abs k -> td_valid k -> dtr_slice r s = Raise ValueError) /\
  (~ td_valid k -> dtr_slice r s = Raise OverflowError).
Proof.
  intros str isod isot isodt a b step u start stop us r l s Pa Pb Vs Vp Ks Kp U Hst HD R L K k.
  destruct (C09_time_slicing_partial str isod isot isodt a b step u start stop us r l s Pa Pb Vs Vp Ks Kp U Hst HD R L K) as [A B].
  split; [intros H; destruct (B H) as [r' E]; eauto|].
  apply parse_means in Pa, Pb. rewrite unit_length_us in U.
  assert (U' : unit_us (chosen_unit (dk start) u) = Some us) by now rewrite Ks.
  assert (TV : td_valid (step * us)) by (apply td_small; unfold MAXTD, DAY in *; lia).
  rewrite (dtrange_resolve isod isot isodt a b step u start stop us Pa Pb ltac:(congruence) U' TV) in R.
  assert (F : step_fits start (step * us)) by (unfold step_fits; now rewrite Ks).
  assert (P : dv start = dv stop -> 0 < step * us).
  { intros E. destruct (Z.lt_ge_cases 0 (step * us)); auto. exfalso.
    rewrite (core_eq start stop (step * us) Vs Vp ltac:(congruence) Hst TV F) in R.
    oinv R. apply dtr_list_ok in L. destruct L as (Bd & _). cbn [r_length] in Bd.
    unfold dist in Bd. rewrite Ks in Bd. destruct (Z.eqb_spec (dv start) (dv stop)); [|congruence].
    pose proof (ceil_len_spec DAY (step * us) Hst (-1)) as C.
    assert (~ -1 < ceil_len DAY (step * us)); [|lia]. intros X. apply C in X. lia. }
  destruct (core_time start stop (step * us) Vs Vp Ks Kp Hst HD P) as (r0 & E & W & OL & TS & Rs & Rst & _).
  rewrite R in E. apply Ok_inj in E. rewrite <- E in *. clear E r0.
  pose proof (dtr_list_ok r l L) as (Bd & AR & El).
  assert (exists sub, rg_slice (index_range r) s = Ok sub) as [sub Q].
  { unfold rg_slice, sl_indices. apply Z.eqb_neq in K. rewrite K. cbn [bind]. eauto. }
  destruct (sliced_map dt (term (r_start r) (r_step r)) (r_length r) s sub ltac:(lia) Q) as (_ & Sk & Sl & Sne & Sb & Sn).
  assert (RP : repr (r_start r) (r_step r) (rg_start sub)).
  { unfold repr. rewrite Rs, Ks. unfold time_short in TS. rewrite Rs in TS. specialize (TS Ks).
    assert (Y : Z.abs (r_step r * rg_start sub) <= 4 * DAY).
    { rewrite Z.abs_mul. rewrite Rst in *. assert (Z.abs (rg_start sub) <= r_length r + 1) by lia. nia. }
    unfold dt_valid in Vs. rewrite Ks in Vs.
    split; [apply td_small; unfold MAXTD, DAY in *; lia | unfold REF, MAXORD, DAY in *; lia]. }
  assert (G : dtr_slice r s = (st <- td_check k ;; dtr_new (term (r_start r) (r_step r) (rg_start sub)) (rg_len sub) st)).
  { unfold dtr_slice. rewrite Q. cbn [bind]. rewrite (i2v_repr _ _ _ RP). cbn [bind].
    rewrite ssize_valid by lia. cbn [bind]. rewrite Sk, Rst. reflexivity. }
  rewrite G. split.
  - intros Dk T. rewrite td_check_valid by exact T. cbn [bind].
    destruct (C11_step_validation_partial (term (r_start r) (r_step r) (rg_start sub)) (rg_len sub) k T) as (_ & _ & C & _).
    destruct (dtr_new _ _ k) as [r'|e|] eqn:X.
    + exfalso. specialize (C r' eq_refl). rewrite term_kind, Rs, Ks in C. specialize (C eq_refl). lia.
    + unfold dtr_new in X. destruct (step_ok _ _); congruence.
    + unfold dtr_new in X. destruct (step_ok _ _); congruence.
  - intros N. unfold td_check. destruct (_ && _) eqn:X; [|reflexivity]. exfalso. apply N. unfold td_valid. lia.
Qed.
Print Assumptions C09_exact.

(** Concrete cases: the last day of the calendar and slices of it; +1h and -23h;
    ten steps of seven hours. *)
Example C05_exact_case : let r := mkDtr (Dt KDate MAXORD) 1 DAY in
  dtr_list r = Ok [Dt KDate MAXORD] /\ on_line (r_start r) /\ step_fits (r_start r) (r_step r) /\
  first_position 1 (Some 1) 1 = 1 /\ dtr_slice r (mkSlice (Some 1) None None) = Raise OverflowError /\
  first_position 1 (Some 0) 1 = 0 /\ dtr_slice r (mkSlice (Some 0) None None) = Ok r /\
  in_calendar KDate (us_of (r_start r) + r_step r * 0).
Proof.
  repeat split; try reflexivity; [left; reflexivity | exists (Dt KDate MAXORD); repeat split; vm_compute; congruence].
Qed.
Example C06_times_exact_case :
  let a := mkDtr (Dt KTime 0) 3 HOUR in let b := mkDtr (Dt KTime 0) 3 (- 23 * HOUR) in
  dtr_list a = dtr_list b /\ (exists l, dtr_list a = Ok l) /\ dtr_eq a b = Ok false /\ Z.abs (r_step a - r_step b) = DAY.
Proof. split; [vm_compute; reflexivity|]. split; [eexists; vm_compute; reflexivity|]. split; vm_compute; reflexivity. Qed.
Example C10_exact_case : let r := mkDtr (Dt KTime 0) 10 (7 * HOUR) in
  dtr_get r 3 = Ok (Dt KTime (21 * HOUR)) /\ dtr_contains r (ODt (Dt KTime (21 * HOUR))) = Ok true /\
  dtr_get r 4 = Ok (Dt KTime (4 * HOUR)) /\ dtr_contains r (ODt (Dt KTime (4 * HOUR))) = Ok false /\
  Z.abs (r_step r) * 3 < DAY /\ ~ Z.abs (r_step r) * 4 < DAY.
Proof. repeat split; vm_compute; congruence. Qed.
Example C09_exact_case :
  exists r, dtrange noparse noparse noparse (UDt (Dt KTime 0)) (UDt (Dt KTime 0)) 1 (Some Uhours) = Ok r /\
  dtr_slice r (mkSlice None None (Some 24)) = Raise ValueError /\
  dtr_slice r (mkSlice None None (Some (10 ^ 12))) = Raise OverflowError /\
  dtr_slice r (mkSlice None None (Some 23)) = Ok (mkDtr (Dt KTime 0) 2 (23 * HOUR)).
Proof. eexists. split; [vm_compute; reflexivity|]. repeat split; vm_compute; reflexivity. Qed.
