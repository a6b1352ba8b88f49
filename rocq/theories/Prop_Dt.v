(** * Properties C01-C13 and C57: date/time ranges (dtrange.py).

    Vocabulary: [DtSpec.v] ([us_of], [on_line], [step_fits], [sliced],
    [clock_distance], [chosen_unit]); the model is [DtModel.v]. *)
From Verif Require Import Base PyRange DtModel DtSpec DtFloat DtProofs DtProofs2 DtProofs3.
Open Scope Z_scope.

(** Concrete parsers for the examples: no string can be parsed. *)
Notation noparse := (fun _ : unit => @None Z).
Notation D20160101 := (Dt KDate 735964).
Notation D20161231 := (Dt KDate 736329).
Notation HOUR := 3600000000.

(** Closes the concrete side conditions of the counterexamples. *)
Ltac concrete :=
  repeat match goal with
  | |- on_line _ => first [left; reflexivity | right; reflexivity]
  | |- _ /\ _ => split
  | |- means _ _ _ _ _ => constructor
  | |- _ = _ => vm_compute; reflexivity
  | |- _ <> _ => vm_compute; discriminate
  | |- _ < _ => vm_compute; reflexivity
  | |- _ <= _ => vm_compute; discriminate
  | |- dt_valid _ => vm_compute; split; first [reflexivity | discriminate]
  | |- td_valid _ => vm_compute; split; discriminate
  | |- step_fits _ _ => vm_compute; first [reflexivity | exact I]
  end.

(** ** C01: dtrange contains exactly the terms before stop. *)
Theorem C01_dtrange_elements :
  forall (str : Type) (isod isot isodt : str -> option Z) a b step u start stop us,
  means isod isot isodt a start ->
  means isod isot isodt b stop ->
  dt_valid start -> dt_valid stop -> dk start = dk stop -> on_line start ->
  unit_length (chosen_unit (dk start) u) = Some us ->
  step * us <> 0 -> td_valid (step * us) -> step_fits start (step * us) ->
  (0 < step * us -> us_of start <= us_of stop) ->
  (step * us < 0 -> us_of stop <= us_of start) ->
  exists r l, dtrange isod isot isodt a b step u = Ok r /\ dtr_list r = Ok l /\
  forall i v, nth_error l i = Some v <->
    (dk v = dk start /\ us_of v = us_of start + step * us * Z.of_nat i /\
     (0 < step * us -> us_of v < us_of stop) /\ (step * us < 0 -> us_of stop < us_of v)).
Proof.
  intros str isod isot isodt a b step u start stop us Pa Pb Vs Vp K O U Hst T F D1 D2.
  apply parse_means in Pa, Pb. rewrite unit_length_us in U.
  assert (0 <= (us_of stop - us_of start) * (step * us)) by nia.
  destruct (core_line start stop (step * us) Vs Vp K O Hst T F H) as (E & _ & l & L & N).
  eexists. exists l. rewrite (dtrange_resolve isod isot isodt a b step u start stop us) by assumption.
  split; [exact E|]. split; [exact L|exact N].
Qed.
Print Assumptions C01_dtrange_elements.

Example C01_example :
  exists r, dtrange noparse noparse noparse (UDt D20160101) (UDt D20161231) 100 None = Ok r /\
  dtr_list r = Ok [D20160101; Dt KDate 736064; Dt KDate 736164; Dt KDate 736264] /\
  on_line D20160101 /\ step_fits D20160101 (100 * DAY) /\ td_valid (100 * DAY).
Proof.
  eexists. split; [vm_compute; reflexivity|]. split; [vm_compute; reflexivity|].
  split; [now left|]. split; [reflexivity|]. split; vm_compute; discriminate.
Qed.

(** ** C02: a stop that cannot be reached gives an empty sequence. *)
Definition C02_statement : Prop :=
  forall (str : Type) (isod isot isodt : str -> option Z) a b step u start stop us,
  means isod isot isodt a start ->
  means isod isot isodt b stop ->
  dt_valid start -> dt_valid stop -> dk start = dk stop -> on_line start ->
  unit_length (chosen_unit (dk start) u) = Some us ->
  td_valid (step * us) -> step_fits start (step * us) ->
  (0 < step * us /\ us_of stop < us_of start \/ step * us < 0 /\ us_of start < us_of stop) ->
  exists r, dtrange isod isot isodt a b step u = Ok r /\ dtr_len r = Ok 0 /\ dtr_list r = Ok [].

(** It does as long as stop is less than one step away ... *)
Theorem C02_wrong_side_partial :
  forall (str : Type) (isod isot isodt : str -> option Z) a b step u start stop us,
  means isod isot isodt a start ->
  means isod isot isodt b stop ->
  dt_valid start -> dt_valid stop -> dk start = dk stop -> on_line start ->
  unit_length (chosen_unit (dk start) u) = Some us ->
  td_valid (step * us) -> step_fits start (step * us) ->
  (0 < step * us /\ us_of stop < us_of start \/ step * us < 0 /\ us_of start < us_of stop) ->
  Z.abs (us_of stop - us_of start) < Z.abs (step * us) ->
  exists r, dtrange isod isot isodt a b step u = Ok r /\ dtr_len r = Ok 0 /\ dtr_list r = Ok [].
Proof.
  intros str isod isot isodt a b step u start stop us Pa Pb Vs Vp K O U T F D N.
  apply parse_means in Pa, Pb. rewrite unit_length_us in U.
  assert (Hst : step * us <> 0) by lia.
  rewrite (dtrange_resolve isod isot isodt a b step u start stop us) by assumption.
  rewrite core_eq by assumption. eexists. split; [reflexivity|].
  assert (E : ceil_len (dist start stop (step * us)) (step * us) = 0).
  { replace (dist start stop (step * us)) with (us_of stop - us_of start)
      by (unfold dist; destruct O as [O|O]; rewrite O; reflexivity).
    set (d := us_of stop - us_of start) in *. set (st := step * us) in *.
    pose proof (ceil_len_spec d st Hst) as C.
    pose proof (proj2 (C (-1))) as C1. pose proof (proj1 (C 0)) as C2.
    assert (-1 < ceil_len d st) by (apply C1; split; intros; lia).
    assert (~ 0 < ceil_len d st) by (intros X; apply C2 in X; lia). lia. }
  rewrite E. split; reflexivity.
Qed.
Print Assumptions C02_wrong_side_partial.

(** ... and otherwise the object that dtrange returns is unusable: len() and
    list() raise ValueError. *)
Theorem C02_wrong_side_raises :
  forall (str : Type) (isod isot isodt : str -> option Z) a b step u start stop us,
  means isod isot isodt a start ->
  means isod isot isodt b stop ->
  dt_valid start -> dt_valid stop -> dk start = dk stop -> on_line start ->
  unit_length (chosen_unit (dk start) u) = Some us ->
  td_valid (step * us) -> step_fits start (step * us) ->
  (0 < step * us /\ us_of stop < us_of start \/ step * us < 0 /\ us_of start < us_of stop) ->
  Z.abs (step * us) <= Z.abs (us_of stop - us_of start) ->
  exists r, dtrange isod isot isodt a b step u = Ok r /\
    dtr_len r = Raise ValueError /\ dtr_list r = Raise ValueError /\
    forall i, dtr_get r i = Raise IndexError.
Proof.
  intros str isod isot isodt a b step u start stop us Pa Pb Vs Vp K O U T F D N.
  apply parse_means in Pa, Pb. rewrite unit_length_us in U.
  assert (Hst : step * us <> 0) by lia.
  rewrite (dtrange_resolve isod isot isodt a b step u start stop us) by assumption.
  rewrite core_eq by assumption. eexists. split; [reflexivity|].
  assert (E : ceil_len (dist start stop (step * us)) (step * us) < 0).
  { replace (dist start stop (step * us)) with (us_of stop - us_of start)
      by (unfold dist; destruct O as [O|O]; rewrite O; reflexivity).
    set (d := us_of stop - us_of start) in *. set (st := step * us) in *.
    pose proof (ceil_len_spec d st Hst) as C.
    pose proof (proj1 (C (-1))) as C1.
    assert (~ -1 < ceil_len d st); [|lia].
    intros X. apply C1 in X. lia. }
  set (n := ceil_len _ _) in *. clearbody n.
  assert (L : dtr_len (mkDtr start n (step * us)) = Raise ValueError).
  { unfold dtr_len, ssize_check; cbn [r_length]. destruct (Z.ltb_spec n 0); [reflexivity|lia]. }
  split; [exact L|]. split; [unfold dtr_list; now rewrite L|].
  intros i. unfold dtr_get, index_range. rewrite rg_get_0. cbn [r_length]. cbv zeta.
  rewrite Z.max_l by lia. 
  destruct (Z.leb_spec 0 (if i <? 0 then i + 0 else i)); destruct (Z.ltb_spec (if i <? 0 then i + 0 else i) n);
    cbn [andb]; try reflexivity; lia.
Qed.
Print Assumptions C02_wrong_side_raises.

Theorem C02_wrong_side_refuted : ~ C02_statement.
Proof.
  intros S.
  destruct (S unit noparse noparse noparse (UDt D20161231) (UDt D20160101) 1 None D20161231 D20160101 DAY)
    as (r & R & L & _); [concrete.. | left; concrete | ].
  vm_compute in R. injection R as <-. vm_compute in L. discriminate.
Qed.
Print Assumptions C02_wrong_side_refuted.

(** ** C03: indexing *)
Theorem C03_getitem : forall r,
  let n := Z.max 0 (r_length r) in
  (forall i, dtr_get r i = Raise IndexError <-> (i < - n \/ n <= i)) /\
  (forall i, - n <= i < 0 -> dtr_get r i = dtr_get r (i + n)) /\
  (forall i v, 0 <= i -> dtr_get r i = Ok v -> dt_valid v /\ dk v = dk (r_start r) /\
     (on_line (r_start r) -> step_fits (r_start r) (r_step r) ->
        us_of v = us_of (r_start r) + r_step r * i) /\
     (dk v = KTime -> dv v = (dv (r_start r) + r_step r * i) mod DAY)) /\
  (forall i, 0 <= i < n -> (exists v, dtr_get r i = Ok v) \/ dtr_get r i = Raise OverflowError).
Proof.
  intros r n.
  assert (G : forall i, 0 <= i < n -> dtr_get r i = index_to_value i (r_start r) (r_step r)).
  { intros i Hi. apply dtr_get_nonneg. lia. }
  assert (NG : forall i, - n <= i < 0 -> dtr_get r i = dtr_get r (i + n)).
  { intros i Hi. unfold dtr_get, index_range. rewrite !rg_get_0. cbv zeta. fold n.
    destruct (Z.ltb_spec i 0); [|lia]. destruct (Z.ltb_spec (i + n) 0); [lia|]. reflexivity. }
  assert (OUT : forall i, i < - n \/ n <= i -> dtr_get r i = Raise IndexError).
  { intros i Hi. unfold dtr_get, index_range. rewrite rg_get_0. cbv zeta. fold n.
    destruct (Z.ltb_spec i 0).
    - destruct (Z.leb_spec 0 (i + n)); [lia|]. reflexivity.
    - destruct (Z.leb_spec 0 i); destruct (Z.ltb_spec i (r_length r)); try lia; reflexivity. }
  split; [|split; [exact NG|split]].
  - intros i. split; [|apply OUT]. intros E.
    destruct (Z.lt_ge_cases i (-n)); [auto|]. destruct (Z.le_gt_cases n i); [auto|]. exfalso.
    assert (exists j, 0 <= j < n /\ dtr_get r i = dtr_get r j) as (j & Hj & Ej).
    { destruct (Z.lt_ge_cases i 0); [exists (i + n); split; [lia|apply NG; lia]|exists i; split; [lia|auto]]. }
    rewrite Ej, (G j Hj) in E. apply i2v_err in E. discriminate.
  - intros i v Hi E.
    destruct (Z.le_gt_cases n i) as [Hn|Hn]; [rewrite (OUT i) in E by lia; discriminate|].
    rewrite (G i) in E by lia. apply i2v_ok in E. destruct E as [-> R].
    split; [now apply term_valid|]. split; [apply term_kind|].
    split; [intros O F; now apply term_us|].
    rewrite term_kind. intros K. unfold term. now rewrite K.
  - intros i Hi. rewrite (G i Hi). apply i2v_total.
Qed.
Print Assumptions C03_getitem.

Example C03_example :
  let r := mkDtr D20160101 366 DAY in
  dtr_get r 0 = Ok D20160101 /\ dtr_get r (-1) = Ok D20161231 /\
  dtr_get r 366 = Raise IndexError /\ dtr_get r (-367) = Raise IndexError.
Proof. vm_compute. auto. Qed.

(** ** C04: index, membership and count agree with the elements
    (dates and datetimes). *)
Theorem C04_index_contains_count : forall r l v,
  dt_valid (r_start r) -> step_fits (r_start r) (r_step r) -> r_step r <> 0 ->
  on_line (r_start r) -> dtr_list r = Ok l -> dt_valid v -> dk v = dk (r_start r) ->
  (forall a b i, dtr_index r (ODt v) a b = Ok i <->
     (0 <= i /\ nth_error l (Z.to_nat i) = Some v /\ In i (sliced (positions l) a b 1))) /\
  (forall a b, (exists i, dtr_index r (ODt v) a b = Ok i) \/ dtr_index r (ODt v) a b = Raise ValueError) /\
  (forall i, 0 <= i -> dtr_get r i = Ok v -> dtr_index r (ODt v) None None = Ok i) /\
  (In v l -> dtr_contains r (ODt v) = Ok true) /\
  (~ In v l -> dtr_contains r (ODt v) = Ok false) /\
  dtr_count r (ODt v) = Ok (Z.of_nat (count_occ dt_eq_dec l v)).
Proof.
  intros r l v Vs F Hst O L Vv K.
  assert (OL : one_lap r). { intros K'. destruct O as [O|O]; congruence. }
  assert (W : r_wf r) by (split; assumption).
  split; [intros; now apply index_iff|].
  assert (Hl := L). apply dtr_list_ok in Hl. destruct Hl as (Hl & A & El).
  split; [intros; apply index_total; auto; lia|].
  split.
  { intros i Hi G. apply (index_iff r l v None None i W OL Hst L Vv K).
    split; auto.
    assert (i < r_length r).
    { destruct (Z.lt_ge_cases i (r_length r)); auto. exfalso.
      assert (dtr_get r i = Raise IndexError) by (apply (C03_getitem r); lia). congruence. }
    rewrite El, positions_zseq, nth_zseq, Z2Nat.id by lia.
    destruct (Z.ltb_spec i (r_length r)); [|lia].
    rewrite dtr_get_nonneg in G by lia. apply i2v_ok in G. destruct G as [G _].
    split; [now rewrite G|]. apply in_sliced_all; lia. }
  destruct (contains_iff r l v W OL Hst L Vv K) as [C1 C2].
  split; [exact C1|]. split; [exact C2|]. now apply count_iff.
Qed.
Print Assumptions C04_index_contains_count.

Example C04_example :
  let r := mkDtr D20160101 53 (7 * DAY) in
  dtr_index r (ODt (Dt KDate 735978)) None None = Ok 2 /\
  dtr_index r (ODt (Dt KDate 735978)) (Some 3) None = Raise ValueError /\
  dtr_contains r (ODt (Dt KDate 735979)) = Ok false /\
  step_fits (r_start r) (r_step r) /\ exists l, dtr_list r = Ok l.
Proof. vm_compute. repeat split; eauto. Qed.

(** ** C05: slicing (dates and datetimes) *)
Definition C05_statement : Prop := forall r l s,
  dt_valid (r_start r) -> step_fits (r_start r) (r_step r) -> on_line (r_start r) ->
  dtr_list r = Ok l -> sl_stepv s <> 0 ->
  exists r', dtr_slice r s = Ok r' /\
    dtr_list r' = Ok (sliced l (sl_start s) (sl_stop s) (sl_stepv s)).

(** Whatever slicing returns is right, and it does return for every non-empty
    slice whose step fits a timedelta; a zero step is a ValueError. *)
Theorem C05_slicing_partial : forall r l s,
  dt_valid (r_start r) -> step_fits (r_start r) (r_step r) -> on_line (r_start r) ->
  dtr_list r = Ok l ->
  (forall r', dtr_slice r s = Ok r' ->
     dtr_list r' = Ok (sliced l (sl_start s) (sl_stop s) (sl_stepv s)) /\
     dk (r_start r') = dk (r_start r) /\ dt_valid (r_start r') /\ step_fits (r_start r') (r_step r')) /\
  (sl_stepv s <> 0 -> td_valid (r_step r * sl_stepv s) ->
     sliced l (sl_start s) (sl_stop s) (sl_stepv s) <> [] -> exists r', dtr_slice r s = Ok r') /\
  (sl_stepv s = 0 -> dtr_slice r s = Raise ValueError).
Proof.
  intros r l s Vs F O L.
  assert (W : r_wf r) by (split; assumption).
  assert (TS : time_short r). { intros K'. destruct O as [O|O]; congruence. }
  split; [|split].
  - intros r' S. split; [now apply (slice_correct r s r' l)|].
    unfold dtr_slice in S. binv S. binv S. binv S. binv S.
    apply i2v_ok in E0. destruct E0 as [-> R0]. apply td_check_ok in E2. destruct E2 as [-> E2].
    apply dtr_new_ok in S. destruct S as [-> S]. cbn [r_start r_step].
    rewrite term_kind. split; auto. split; [now apply term_valid|].
    apply step_fits_mul with (r_start r); auto. apply term_kind. destruct O; congruence.
  - intros K T N. now apply (dtr_slice_ok r s l).
  - intros K. unfold dtr_slice, rg_slice, sl_indices. rewrite K. reflexivity.
Qed.
Print Assumptions C05_slicing_partial.

(** The day before the end of the calendar: [r[1:]] of a one-element range
    should be empty but overflows. *)
Theorem C05_slicing_refuted : ~ C05_statement.
Proof.
  intros S.
  destruct (S (mkDtr (Dt KDate MAXORD) 1 DAY) [Dt KDate MAXORD] (mkSlice (Some 1) None None)) as (r' & R & _); concrete.
  vm_compute in R. discriminate.
Qed.
Print Assumptions C05_slicing_refuted.

Example C05_example :
  let r := mkDtr D20160101 10 DAY in
  exists r', dtr_slice r (mkSlice (Some 20) (Some 5) (Some (-2))) = Ok r' /\
  dtr_list r' = Ok [Dt KDate 735973; Dt KDate 735971].
Proof. eexists. split; [vm_compute; reflexivity|]. vm_compute. reflexivity. Qed.

(** ** C06: equality and hash *)
Definition C06_statement : Prop := forall a b la lb,
  dt_valid (r_start a) -> step_fits (r_start a) (r_step a) ->
  dt_valid (r_start b) -> step_fits (r_start b) (r_step b) ->
  dtr_list a = Ok la -> dtr_list b = Ok lb ->
  exists q, dtr_eq a b = Ok q /\ (q = true <-> la = lb).

Theorem C06_equality_partial : forall a b la lb,
  dt_valid (r_start a) -> step_fits (r_start a) (r_step a) ->
  dt_valid (r_start b) -> step_fits (r_start b) (r_step b) ->
  on_line (r_start a) -> on_line (r_start b) ->
  dtr_list a = Ok la -> dtr_list b = Ok lb ->
  exists q, dtr_eq a b = Ok q /\ (q = true <-> la = lb).
Proof. intros; apply eq_iff; auto; split; assumption. Qed.
Print Assumptions C06_equality_partial.

(** Equal ranges of any kind have the same elements and the same hash. *)
Theorem C06_equal_same_elements_and_hash : forall a b,
  dtr_eq a b = Ok true -> dtr_list a = dtr_list b /\ dtr_hash_key a = dtr_hash_key b.
Proof.
  intros a b H. split; [|now apply eq_hash].
  unfold dtr_eq in H. binv H. binv H. unfold dtr_len in E, E0.
  apply ssize_ok in E, E0. destruct E as [-> E], E0 as [-> E0].
  destruct (Z.eqb_spec (r_length a) (r_length b)) as [Q|]; cbn [negb] in H; [|discriminate].
  destruct (Z.eqb_spec (r_length a) 0) as [Z0|Z0].
  - unfold dtr_list, dtr_len. rewrite <- Q, Z0. reflexivity.
  - destruct (Z.eqb_spec (r_length a) 1) as [Z1|Z1].
    + oinv H. apply dt_eqb_eq in H. unfold dtr_list, dtr_len. rewrite <- Q, Z1.
      assert (G : forall r, r_length r = 1 -> dtr_get r 0 = index_to_value 0 (r_start r) 0).
      { intros r Hr. rewrite dtr_get_nonneg by lia. unfold index_to_value. now rewrite !Z.mul_0_r. }
      change (ssize_check 1) with (Ok 1). cbn [bind].
      change (seq 0 (Z.to_nat 1)) with [0%nat]. cbn [mapM]. change (Z.of_nat 0) with 0.
      rewrite (G a), (G b) by lia. now rewrite H.
    + oinv H. apply andb_true_iff in H. destruct H as [H1 H2].
      apply dt_eqb_eq in H1. apply Z.eqb_eq in H2.
      destruct a as [sa na ta], b as [sb nb tb]; cbn [r_start r_step r_length] in *; congruence.
Qed.
Print Assumptions C06_equal_same_elements_and_hash.

(** Time ranges: one hour forwards and 23 hours backwards are the same times,
    but the ranges compare unequal. *)
Theorem C06_equality_refuted : ~ C06_statement.
Proof.
  intros S.
  destruct (S (mkDtr (Dt KTime 0) 3 HOUR) (mkDtr (Dt KTime 0) 3 (-23 * HOUR))
              [Dt KTime 0; Dt KTime HOUR; Dt KTime (2 * HOUR)] [Dt KTime 0; Dt KTime HOUR; Dt KTime (2 * HOUR)])
    as (q & Q & I); concrete.
  vm_compute in Q. injection Q as <-. destruct I as [_ I]. specialize (I eq_refl). discriminate.
Qed.
Print Assumptions C06_equality_refuted.

Example C06_example : dtr_eq (mkDtr D20160101 1 DAY) (mkDtr D20160101 1 (7 * DAY)) = Ok true /\
  dtr_eq (mkDtr D20160101 2 DAY) (mkDtr D20160101 2 (7 * DAY)) = Ok false.
Proof. vm_compute. auto. Qed.

(** ** C07: time ranges wrap around midnight *)
Theorem C07_time_range :
  forall (str : Type) (isod isot isodt : str -> option Z) a b step u start stop us,
  means isod isot isodt a start ->
  means isod isot isodt b stop ->
  dt_valid start -> dt_valid stop -> dk start = KTime -> dk stop = KTime -> start <> stop ->
  unit_length (chosen_unit KTime u) = Some us -> step * us <> 0 -> Z.abs (step * us) < DAY ->
  exists r l, dtrange isod isot isodt a b step u = Ok r /\ dtr_list r = Ok l /\
  (forall i v, nth_error l i = Some v <->
    (dk v = KTime /\ dv v = (dv start + step * us * Z.of_nat i) mod DAY /\
     Z.abs (step * us) * Z.of_nat i < clock_distance (dv start) (dv stop) (step * us))) /\
  NoDup l /\ ~ In stop l /\
  (forall v, dt_valid v -> dk v = KTime ->
     (forall i, dtr_index r (ODt v) None None = Ok i <-> (0 <= i /\ nth_error l (Z.to_nat i) = Some v)) /\
     (In v l -> dtr_contains r (ODt v) = Ok true) /\ (~ In v l -> dtr_contains r (ODt v) = Ok false)).
Proof.
  intros str isod isot isodt a b step u start stop us Pa Pb Vs Vp Ks Kp NE U Hst HD.
  apply parse_means in Pa, Pb. rewrite unit_length_us in U.
  assert (Nv : dv start <> dv stop).
  { intros C. apply NE. destruct start as [k1 x1], stop as [k2 x2]; cbn [dk dv] in *; congruence. }
  destruct (core_time start stop (step * us) Vs Vp Ks Kp Hst HD ltac:(congruence))
    as (r & E & W & OL & TS & Rs & Rst & l & L & N).
  destruct (Z.eqb_spec (dv start) (dv stop)); [congruence|].
  exists r, l.
  assert (U' : unit_us (chosen_unit (dk start) u) = Some us) by now rewrite Ks.
  assert (TV : td_valid (step * us)) by (apply td_small; unfold MAXTD, DAY in *; lia).
  rewrite (dtrange_resolve isod isot isodt a b step u start stop us Pa Pb ltac:(congruence) U' TV).
  split; [exact E|]. split; [exact L|]. split; [exact N|].
  rewrite <- Rst in Hst.
  split; [now apply (NoDup_elements r)|].
  split.
  { intros I. apply In_nth_error in I. destruct I as [i I]. apply N in I. destruct I as (_ & I1 & I2).
    set (st := step * us) in *. set (x := Z.of_nat i) in *. assert (0 <= x) by lia.
    unfold dt_valid in Vs, Vp. rewrite Ks in Vs. rewrite Kp in Vp. unfold clock_distance in I2.
    assert (X : (dv stop - dv start) mod DAY = (st * x) mod DAY).
    { rewrite I1. rewrite Zminus_mod_idemp_l. f_equal. lia. }
    destruct (Z.ltb_spec 0 st).
    - rewrite (Z.abs_eq st) in I2 by lia. rewrite X in I2.
      assert (0 <= st * x) by nia.
      pose proof (Z.mod_le (st * x) DAY ltac:(lia) ltac:(reflexivity)). lia.
    - rewrite (Z.abs_neq st) in I2 by lia.
      assert (Y : (dv start - dv stop) mod DAY = (- st * x) mod DAY).
      { replace (dv start - dv stop) with (0 - (dv stop - dv start)) by lia.
        rewrite <- Zminus_mod_idemp_r, X, Zminus_mod_idemp_r. f_equal. lia. }
      rewrite Y in I2. assert (0 <= - st * x) by nia.
      pose proof (Z.mod_le (- st * x) DAY ltac:(lia) ltac:(reflexivity)). lia. }
  intros v Vv Kv.
  assert (Kv' : dk v = dk (r_start r)) by congruence.
  split.
  - intros i. rewrite (index_iff r l v None None i W OL Hst L Vv Kv'). split; [tauto|].
    intros [H1 H2]. split; auto. split; auto.
    pose proof L as L'. apply dtr_list_ok in L'. destruct L' as (B & _ & ->).
    rewrite positions_zseq. rewrite nth_zseq, Z2Nat.id in H2 by lia.
    destruct (Z.ltb_spec i (r_length r)); [|discriminate]. apply in_sliced_all; lia.
  - now apply (contains_iff r l v).
Qed.
Print Assumptions C07_time_range.

Example C07_example : (* 23:00 to 04:00 in steps of two hours; 04:00 to 23:00 backwards *)
  exists r, dtrange noparse noparse noparse (UDt (Dt KTime (23 * HOUR))) (UDt (Dt KTime (4 * HOUR))) 2 (Some Uhours) = Ok r /\
  dtr_list r = Ok [Dt KTime (23 * HOUR); Dt KTime HOUR; Dt KTime (3 * HOUR)].
Proof. eexists. split; [vm_compute; reflexivity|]. vm_compute. reflexivity. Qed.

(** ** C08: equal times give the full clock *)
Definition C08_statement : Prop :=
  forall (str : Type) (isod isot isodt : str -> option Z) a b step u t us,
  means isod isot isodt a t -> means isod isot isodt b t ->
  dt_valid t -> dk t = KTime ->
  unit_length (chosen_unit KTime u) = Some us -> step * us <> 0 -> Z.abs (step * us) < DAY ->
  exists r l, dtrange isod isot isodt a b step u = Ok r /\ dtr_list r = Ok l /\ NoDup l /\
  forall i v, nth_error l i = Some v <->
    (dk v = KTime /\ dv v = (dv t + step * us * Z.of_nat i) mod DAY /\
     Z.abs (step * us) * Z.of_nat i < DAY).

Theorem C08_full_clock_partial :
  forall (str : Type) (isod isot isodt : str -> option Z) a b step u t us,
  means isod isot isodt a t -> means isod isot isodt b t ->
  dt_valid t -> dk t = KTime ->
  unit_length (chosen_unit KTime u) = Some us -> 0 < step * us -> Z.abs (step * us) < DAY ->
  exists r l, dtrange isod isot isodt a b step u = Ok r /\ dtr_list r = Ok l /\ NoDup l /\
  forall i v, nth_error l i = Some v <->
    (dk v = KTime /\ dv v = (dv t + step * us * Z.of_nat i) mod DAY /\
     Z.abs (step * us) * Z.of_nat i < DAY).
Proof.
  intros str isod isot isodt a b step u t us Pa Pb V K U Hp HD.
  apply parse_means in Pa, Pb. rewrite unit_length_us in U.
  assert (Hst : step * us <> 0) by lia.
  destruct (core_time t t (step * us) V V K K Hst HD ltac:(auto)) as (r & E & W & OL & TS & Rs & Rst & l & L & N).
  rewrite Z.eqb_refl in N. exists r, l.
  assert (U' : unit_us (chosen_unit (dk t) u) = Some us) by now rewrite K.
  assert (TV : td_valid (step * us)) by (apply td_small; unfold MAXTD, DAY in *; lia).
  rewrite (dtrange_resolve isod isot isodt a b step u t t us Pa Pb eq_refl U' TV).
  split; [exact E|]. split; [exact L|]. split; [|exact N].
  apply (NoDup_elements r); auto. congruence.
Qed.
Print Assumptions C08_full_clock_partial.

(** Every negative step gives an unusable range instead. *)
Theorem C08_full_clock_backwards_raises :
  forall (str : Type) (isod isot isodt : str -> option Z) a b step u t us,
  means isod isot isodt a t -> means isod isot isodt b t ->
  dt_valid t -> dk t = KTime ->
  unit_length (chosen_unit KTime u) = Some us -> step * us < 0 -> Z.abs (step * us) < DAY ->
  exists r, dtrange isod isot isodt a b step u = Ok r /\
    dtr_len r = Raise ValueError /\ dtr_list r = Raise ValueError.
Proof.
  intros str isod isot isodt a b step u t us Pa Pb V K U Hn HD.
  apply parse_means in Pa, Pb. rewrite unit_length_us in U.
  assert (TV : td_valid (step * us)) by (apply td_small; unfold MAXTD, DAY in *; lia).
  assert (U' : unit_us (chosen_unit (dk t) u) = Some us) by now rewrite K.
  rewrite (dtrange_resolve isod isot isodt a b step u t t us Pa Pb eq_refl U' TV).
  assert (F : step_fits t (step * us)) by (unfold step_fits; now rewrite K).
  rewrite (core_eq t t (step * us) V V eq_refl ltac:(lia) TV F).
  eexists. split; [reflexivity|].
  assert (E : ceil_len (dist t t (step * us)) (step * us) < 0).
  { unfold dist. rewrite K, Z.eqb_refl.
    pose proof (ceil_len_spec DAY (step * us) ltac:(lia) (-1)) as C.
    assert (~ -1 < ceil_len DAY (step * us)); [|lia].
    intros X. apply C in X. lia. }
  set (n := ceil_len _ _) in *. clearbody n.
  assert (L : dtr_len (mkDtr t n (step * us)) = Raise ValueError).
  { unfold dtr_len, ssize_check; cbn [r_length]. destruct (Z.ltb_spec n 0); [reflexivity|lia]. }
  split; [exact L|]. unfold dtr_list. now rewrite L.
Qed.
Print Assumptions C08_full_clock_backwards_raises.

Theorem C08_full_clock_refuted : ~ C08_statement.
Proof.
  intros S.
  destruct (S unit noparse noparse noparse (UDt (Dt KTime 0)) (UDt (Dt KTime 0)) (-1) (Some Uhours) (Dt KTime 0) HOUR)
    as (r & l & R & L & _); concrete.
  vm_compute in R. injection R as <-. vm_compute in L. discriminate.
Qed.
Print Assumptions C08_full_clock_refuted.

Example C08_example :
  exists r, dtrange noparse noparse noparse (UDt (Dt KTime HOUR)) (UDt (Dt KTime HOUR)) 7 (Some Uhours) = Ok r /\
  dtr_list r = Ok [Dt KTime HOUR; Dt KTime (8 * HOUR); Dt KTime (15 * HOUR); Dt KTime (22 * HOUR)].
Proof. eexists. split; [vm_compute; reflexivity|]. vm_compute. reflexivity. Qed.

(** ** C09: slicing time ranges *)
Definition C09_statement : Prop :=
  forall (str : Type) (isod isot isodt : str -> option Z) a b step u start stop us r l s,
  means isod isot isodt a start -> means isod isot isodt b stop ->
  dt_valid start -> dt_valid stop -> dk start = KTime -> dk stop = KTime ->
  unit_length (chosen_unit KTime u) = Some us -> step * us <> 0 -> Z.abs (step * us) < DAY ->
  dtrange isod isot isodt a b step u = Ok r -> dtr_list r = Ok l -> sl_stepv s <> 0 ->
  exists r', dtr_slice r s = Ok r' /\
    dtr_list r' = Ok (sliced l (sl_start s) (sl_stop s) (sl_stepv s)).

(** Any slice that is returned is right, and slices are returned as long as
    the step of the slice stays below a day. *)
Theorem C09_time_slicing_partial :
  forall (str : Type) (isod isot isodt : str -> option Z) a b step u start stop us r l s,
  means isod isot isodt a start -> means isod isot isodt b stop ->
  dt_valid start -> dt_valid stop -> dk start = KTime -> dk stop = KTime ->
  unit_length (chosen_unit KTime u) = Some us -> step * us <> 0 -> Z.abs (step * us) < DAY ->
  dtrange isod isot isodt a b step u = Ok r -> dtr_list r = Ok l -> sl_stepv s <> 0 ->
  (forall r', dtr_slice r s = Ok r' ->
    dtr_list r' = Ok (sliced l (sl_start s) (sl_stop s) (sl_stepv s))) /\
  (Z.abs (step * us * sl_stepv s) < DAY -> exists r', dtr_slice r s = Ok r').
Proof.
  intros str isod isot isodt a b step u start stop us r l s Pa Pb Vs Vp Ks Kp U Hst HD R L K.
  apply parse_means in Pa, Pb. rewrite unit_length_us in U.
  assert (U' : unit_us (chosen_unit (dk start) u) = Some us) by now rewrite Ks.
  assert (TV : td_valid (step * us)) by (apply td_small; unfold MAXTD, DAY in *; lia).
  rewrite (dtrange_resolve isod isot isodt a b step u start stop us Pa Pb ltac:(congruence) U' TV) in R.
  assert (P : dv start = dv stop -> 0 < step * us).
  { intros E. destruct (Z.lt_ge_cases 0 (step * us)); auto. exfalso.
    assert (F : step_fits start (step * us)) by (unfold step_fits; now rewrite Ks).
    rewrite (core_eq start stop (step * us) Vs Vp ltac:(congruence) Hst TV F) in R.
    oinv R. apply dtr_list_ok in L. destruct L as (B & _). cbn [r_length] in B.
    unfold dist in B. rewrite Ks in B. destruct (Z.eqb_spec (dv start) (dv stop)); [|congruence].
    pose proof (ceil_len_spec DAY (step * us) Hst (-1)) as C.
    assert (~ -1 < ceil_len DAY (step * us)); [|lia].
    intros X. apply C in X. lia. }
  destruct (core_time start stop (step * us) Vs Vp Ks Kp Hst HD P) as (r0 & E & W & OL & TS & Rs & Rst & _).
  rewrite R in E. oinv E.
  split.
  - intros r' S. now apply (slice_correct r0 s r' l).
  - intros B. rewrite <- Rst in B. now apply (dtr_slice_time_ok r0 s l).
Qed.
Print Assumptions C09_time_slicing_partial.

(** Every 24th hour of the full clock: [list(r)[::24]] has one element,
    [r[::24]] raises ValueError. *)
Theorem C09_time_slicing_refuted : ~ C09_statement.
Proof.
  intros S.
  assert (exists r, dtrange noparse noparse noparse (UDt (Dt KTime 0)) (UDt (Dt KTime 0)) 1 (Some Uhours) = Ok r) as [r R]
    by (eexists; vm_compute; reflexivity).
  assert (exists l, dtr_list r = Ok l) as [l L].
  { vm_compute in R. injection R as <-. eexists. vm_compute. reflexivity. }
  destruct (S unit noparse noparse noparse (UDt (Dt KTime 0)) (UDt (Dt KTime 0)) 1 (Some Uhours) (Dt KTime 0) (Dt KTime 0)
              HOUR r l (mkSlice None None (Some 24))) as (r' & R' & _);
    auto; concrete.
  vm_compute in R. injection R as <-. vm_compute in R'. discriminate.
Qed.
Print Assumptions C09_time_slicing_refuted.

(** ** C10: elements of time ranges are members *)
Definition C10_statement : Prop := forall r i v,
  dt_valid (r_start r) -> dk (r_start r) = KTime -> Z.abs (r_step r) < DAY -> r_step r <> 0 ->
  0 <= i -> dtr_get r i = Ok v -> dtr_contains r (ODt v) = Ok true.

Theorem C10_time_membership_partial : forall r i v,
  dt_valid (r_start r) -> dk (r_start r) = KTime -> Z.abs (r_step r) < DAY -> r_step r <> 0 ->
  Z.abs (r_step r) * (r_length r - 1) < DAY ->
  0 <= i -> dtr_get r i = Ok v ->
  dtr_contains r (ODt v) = Ok true /\ dtr_index r (ODt v) None None = Ok i.
Proof.
  intros r i v Vs K HD Hst LAP Hi G.
  assert (W : r_wf r) by (split; [assumption|unfold step_fits; now rewrite K]).
  assert (OL : one_lap r) by (intros _; exact LAP).
  assert (i < r_length r).
  { destruct (Z.lt_ge_cases i (r_length r)); auto. exfalso.
    assert (dtr_get r i = Raise IndexError) by (apply (C03_getitem r); lia). congruence. }
  rewrite dtr_get_nonneg in G by lia. apply i2v_ok in G. destruct G as [Ev R].
  assert (Vv : dt_valid v) by (subst v; now apply term_valid).
  assert (Kv : dk v = dk (r_start r)) by (subst v; apply term_kind).
  assert (X : dtr_index r (ODt v) None None = Ok i).
  { destruct (dtr_index_unfold r v None None Kv Vv Vs Hst ltac:(lia)) as (d & D & I & _).
    apply I. split; [|apply in_sliced_all; lia].
    apply (distance_term r v d i W); auto. }
  split; auto. unfold dtr_contains. rewrite isinstance_same by exact Kv. now rewrite X.
Qed.
Print Assumptions C10_time_membership_partial.

(** Ten steps of seven hours: the fifth element, 04:00 on the next day, is
    reported as not being a member. *)
Theorem C10_time_membership_refuted : ~ C10_statement.
Proof.
  intros S.
  assert (C := S (mkDtr (Dt KTime 0) 10 (7 * HOUR)) 4 (Dt KTime (4 * HOUR))).
  vm_compute in C. assert (false = true); [|discriminate].
  assert (X : Ok false = Ok true) by (apply C; auto; try split; try discriminate; reflexivity). congruence.
Qed.
Print Assumptions C10_time_membership_refuted.

Example C10_example :
  let r := mkDtr (Dt KTime (22 * HOUR)) 24 HOUR in
  dtr_get r 5 = Ok (Dt KTime (3 * HOUR)) /\ Z.abs (r_step r) * (r_length r - 1) < DAY.
Proof. vm_compute. auto. Qed.

(** ** C11: the step of a range fits its values *)
Definition C11_statement : Prop := forall start n step r,
  td_valid step -> dtr_new start n step = Ok r -> step_fits start step.

Theorem C11_step_validation_partial : forall start n step,
  td_valid step ->
  (step_fits start step -> dtr_new start n step = Ok (mkDtr start n step)) /\
  (forall r, dtr_new start n step = Ok r -> dk start = KDate -> Z.abs step <= 2 ^ 34 * 1000000 -> step mod DAY = 0) /\
  (forall r, dtr_new start n step = Ok r -> dk start = KTime -> Z.abs step < DAY) /\
  (forall e, dtr_new start n step = Raise e -> e = ValueError /\ ~ step_fits start step).
Proof.
  intros start n step T.
  assert (B : Z.abs step <= 2 ^ 80) by (unfold td_valid, MAXTD, DAY in T; Z.div_mod_to_equations; lia).
  split; [|split; [|split]].
  - intros F. unfold dtr_new. now rewrite step_ok_fits.
  - intros r R K Hb. apply dtr_new_ok in R. destruct R as [_ R]. unfold step_ok in R. rewrite K in R.
    apply negb_true_iff in R. now apply accepted_whole_day.
  - intros r R K. apply dtr_new_ok in R. destruct R as [_ R]. unfold step_ok in R. rewrite K in R.
    apply negb_true_iff in R. rewrite abs_ge_day_exact in R by exact B. apply Z.leb_gt in R. exact R.
  - intros e R. unfold dtr_new in R. destruct (step_ok start step) eqn:S; [discriminate|].
    split; [congruence|]. intros F. rewrite step_ok_fits in S by auto. discriminate.
Qed.
Print Assumptions C11_step_validation_partial.

(** 200000 days and one microsecond is accepted as a number of whole days ... *)
Theorem C11_step_validation_refuted : ~ C11_statement.
Proof.
  intros S. assert (C := S (Dt KDate 1) 3 (200000 * DAY + 1) (mkDtr (Dt KDate 1) 3 (200000 * DAY + 1))).
  assert (T : td_valid (200000 * DAY + 1)) by (split; vm_compute; discriminate).
  specialize (C T ltac:(vm_compute; reflexivity)). vm_compute in C. discriminate.
Qed.
Print Assumptions C11_step_validation_refuted.

(** ... after which the range denies containing its own elements. *)
Theorem C11_consequence_refuted : exists r v,
  dtr_new (Dt KDate 1) 3 (200000 * DAY + 1) = Ok r /\ dtr_get r 1 = Ok v /\ dtr_contains r (ODt v) = Ok false.
Proof. eexists. eexists. split; [vm_compute; reflexivity|]. split; [vm_compute; reflexivity|]. vm_compute. reflexivity. Qed.
Print Assumptions C11_consequence_refuted.

(** ** C12: membership tests never raise *)
Definition C12_statement : Prop := forall r v,
  dt_valid (r_start r) -> step_fits (r_start r) (r_step r) -> 0 <= r_length r -> r_step r <> 0 ->
  (forall d, v = ODt d -> dt_valid d) ->
  exists q, dtr_contains r v = Ok q.

Theorem C12_membership_total_partial : forall r v,
  dt_valid (r_start r) -> step_fits (r_start r) (r_step r) -> 0 <= r_length r -> r_step r <> 0 ->
  (forall d, v = ODt d -> dt_valid d) ->
  (forall d, v = ODt d -> ~ (dk (r_start r) = KDate /\ dk d = KDateTime)) ->
  exists q, dtr_contains r v = Ok q.
Proof.
  intros r v Vs F Hl Hst Vv N. unfold dtr_contains.
  destruct (isinstance_of v (r_start r)) eqn:I; [|eauto].
  destruct v as [d|]; [|discriminate].
  assert (K : dk d = dk (r_start r)).
  { specialize (N d eq_refl). unfold isinstance_of in I.
    destruct (dk (r_start r)), (dk d); try discriminate; auto. exfalso. apply N. auto. }
  assert (W : r_wf r) by (split; assumption).
  destruct (index_total r d None None W Hst Hl (Vv d eq_refl) K) as [[i E]|E]; rewrite E; eauto.
Qed.
Print Assumptions C12_membership_total_partial.

(** Asking whether a datetime is in a range of dates raises TypeError. *)
Theorem C12_membership_total_refuted : ~ C12_statement.
Proof.
  intros S. destruct (S (mkDtr D20160101 10 DAY) (ODt (Dt KDateTime (735964 * DAY)))) as [q Q]; concrete.
  - intros d E. injection E as <-. concrete.
  - vm_compute in Q. discriminate.
Qed.
Print Assumptions C12_membership_total_refuted.

Example C12_example : dtr_contains (mkDtr D20160101 10 DAY) (OOther 5) = Ok false /\
  dtr_contains (mkDtr D20160101 10 DAY) (ODt (Dt KTime 5)) = Ok false.
Proof. vm_compute. auto. Qed.

(** ** C13: argument errors of dtrange *)
Theorem C13_argument_errors :
  forall (str : Type) (isod isot isodt : str -> option Z) a b step u,
  let means := means isod isot isodt in
  (* unparseable arguments *)
  (forall s, a = UStr s -> isod s = None -> isot s = None -> isodt s = None ->
     dtrange isod isot isodt a b step u = Raise ValueError) /\
  (a = UBad -> dtrange isod isot isodt a b step u = Raise ValueError) /\
  (forall start, means a start ->
     (b = UBad -> dtrange isod isot isodt a b step u = Raise ValueError) /\
     (forall s, b = UStr s -> isod s = None -> isot s = None -> isodt s = None ->
        dtrange isod isot isodt a b step u = Raise ValueError)) /\
  (* different types, bad unit *)
  (forall start stop, means a start -> means b stop ->
     (dk start <> dk stop -> dtrange isod isot isodt a b step u = Raise ValueError) /\
     (u = Some UOther -> dtrange isod isot isodt a b step u = Raise ValueError) /\
     (dt_valid start -> dk start = dk stop -> u <> Some UOther -> step = 0 ->
        dtrange isod isot isodt a b step u = Raise ZeroDivisionError)) /\
  (* success *)
  (forall r, dtrange isod isot isodt a b step u = Ok r ->
     exists start stop, means a start /\ means b stop /\ dk start = dk stop /\
       r_start r = start /\ u <> Some UOther).
Proof.
  intros str isod isot isodt a b step u means. pose (parse := parse_user_date isod isot isodt).
  split; [intros s -> H1 H2 H3; unfold dtrange, parse_user_date; now rewrite H1, H2, H3|].
  split; [intros ->; reflexivity|].
  split.
  { intros start Pa. apply parse_means in Pa. fold parse in Pa. unfold dtrange. fold parse. rewrite Pa. cbn [bind]. split.
    - intros ->; reflexivity.
    - intros s -> H1 H2 H3. unfold parse, parse_user_date. now rewrite H1, H2, H3. }
  split.
  { intros start stop Pa Pb. apply parse_means in Pa, Pb. fold parse in Pa, Pb. unfold dtrange. fold parse. rewrite Pa, Pb. cbn [bind]. split; [|split].
    - intros N. destruct (dtkind_eqb (dk start) (dk stop)) eqn:K; [|reflexivity].
      apply dtkind_eqb_eq in K. congruence.
    - intros ->. destruct (negb _); reflexivity.
    - intros V K N ->. rewrite K, dtkind_eqb_refl. cbn [negb]. rewrite <- K.
      assert (ZE : forall us, (x <- td_check (0 * us) ;; dtrange_core start stop x) = Raise ZeroDivisionError).
      { intros us. rewrite Z.mul_0_l, td_check_valid by (split; vm_compute; discriminate). cbn [bind].
        unfold dtrange_core.
        destruct (dtkind_eqb (dk start) KTime && dt_eqb start stop) eqn:Q.
        - apply andb_true_iff in Q. destruct Q as [Q1 Q]. apply dt_eqb_eq in Q. subst stop.
          apply dtkind_eqb_eq in Q1. unfold dt_valid in V. rewrite Q1 in V.
          rewrite dtm_check_full by exact V. reflexivity.
        - unfold value_to_index. rewrite K, dtkind_eqb_refl. cbn [negb].
          destruct (dk stop); reflexivity. }
      destruct u as [[]|]; cbn [unit_us]; try apply ZE; try congruence.
      destruct (dk start); cbn [unit_us]; apply ZE. }
  intros r R. destruct (dtrange_inv _ _ _ _ _ _ _ _ R) as (start & stop & us & Pa & Pb & K & U & T & C).
  exists start, stop. apply parse_means in Pa, Pb. repeat split; auto.
  - unfold dtrange_core in C. binv C. destruct a0 as [n rem]. apply dtr_new_ok in C. destruct C as [-> _]. reflexivity.
  - intros ->. discriminate.
Qed.
Print Assumptions C13_argument_errors.

(** ** C57: the stop attribute *)
Theorem C57_stop_attribute :
  forall (str : Type) (isod isot isodt : str -> option Z) a b step u start stop us,
  means isod isot isodt a start ->
  means isod isot isodt b stop ->
  dt_valid start -> dt_valid stop -> dk start = dk stop -> on_line start ->
  unit_length (chosen_unit (dk start) u) = Some us ->
  step * us <> 0 -> td_valid (step * us) -> step_fits start (step * us) ->
  (0 < step * us -> us_of start <= us_of stop) ->
  (step * us < 0 -> us_of stop <= us_of start) ->
  exists r, dtrange isod isot isodt a b step u = Ok r /\
  ((us_of stop - us_of start) mod (step * us) = 0 -> dtr_stop r = Ok stop) /\
  (forall p, dtr_stop r = Ok p -> dk p = dk start /\
     (0 < step * us -> us_of stop <= us_of p < us_of stop + step * us) /\
     (step * us < 0 -> us_of stop + step * us < us_of p <= us_of stop)) /\
  ((exists p, dtr_stop r = Ok p) \/ dtr_stop r = Raise OverflowError).
Proof.
  intros str isod isot isodt a b step u start stop us Pa Pb Vs Vp K O U Hst T F D1 D2.
  apply parse_means in Pa, Pb. rewrite unit_length_us in U.
  assert (Hd : 0 <= (us_of stop - us_of start) * (step * us)) by nia.
  destruct (core_line start stop (step * us) Vs Vp K O Hst T F Hd) as (E & W & l & L & N).
  rewrite (dtrange_resolve isod isot isodt a b step u start stop us) by assumption.
  eexists. split; [exact E|].
  apply dtr_list_ok in L. destruct L as (B & _). cbn [r_length] in B.
  unfold dtr_stop, dtr_len. cbn [r_length r_start r_step]. rewrite ssize_valid by exact B. cbn [bind].
  set (d := us_of stop - us_of start) in *. set (st := step * us) in *.
  split; [|split; [|apply i2v_total]].
  - intros M.
    assert (NE : ceil_len d st = d / st) by (unfold ceil_len; rewrite M; simpl; lia).
    assert (Q : st * (d / st) = d) by (symmetry; apply Z.div_exact; auto).
    rewrite NE.
    assert (TE : term start st (d / st) = stop).
    { apply us_of_inj; [rewrite term_kind; auto|]. rewrite term_us by auto. rewrite Q. unfold d. lia. }
    rewrite <- TE. apply i2v_repr. rewrite <- TE in Vp.
    split.
    + rewrite Q. apply td_small. unfold d. clear - O K Vs Vp TE.
      rewrite TE in Vp. destruct start as [k s], stop as [k' p]; cbn [dk dv] in *; subst k'.
      destruct O as [O|O]; cbn [dk] in O; subst k; unfold dt_valid, us_of in *; cbn [dk dv] in *;
      unfold MAXORD, MAXTD, DAY in *; lia.
    + unfold dt_valid, term in Vp. destruct O as [O|O]; rewrite O in *; cbn [dk dv] in Vp; exact Vp.
  - intros p P. apply i2v_ok in P. destruct P as [-> R]. rewrite term_kind, term_us by auto. split; auto.
    pose proof (ceil_len_spec d st Hst) as C.
    pose proof (C (ceil_len d st - 1)) as C1. pose proof (C (ceil_len d st)) as C2.
    assert (~ (ceil_len d st < ceil_len d st)) as NC by lia. rewrite C2 in NC.
    destruct (proj1 C1 ltac:(lia)) as [C3 C4].
    set (n := ceil_len d st) in *. clearbody n. unfold d in *.
    split; intros S.
    + specialize (C3 S). destruct (Z.lt_ge_cases (st * n) (us_of stop - us_of start)).
      * exfalso. apply NC. split; intros; lia.
      * lia.
    + specialize (C4 S). destruct (Z.lt_ge_cases (us_of stop - us_of start) (st * n)).
      * exfalso. apply NC. split; intros; lia.
      * lia.
Qed.
Print Assumptions C57_stop_attribute.

Example C57_example : (* 100-day steps through 2016; up to the last day of the calendar *)
  dtr_stop (mkDtr D20160101 4 (100 * DAY)) = Ok (Dt KDate 736364) /\
  dtr_stop (mkDtr (Dt KDate (MAXORD - 1)) 1 (2 * DAY)) = Raise OverflowError.
Proof. vm_compute. auto. Qed.
