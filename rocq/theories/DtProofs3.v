(** * Proofs about the dtrange model, part 3: the dtrange factory. *)
From Verif Require Import Base PyRange DtModel DtSpec DtFloat DtProofs DtProofs2.
Open Scope Z_scope.
Ltac Zify.zify_post_hook ::= idtac.

Section Factory.
  Context {str : Type} (isod isot isodt : str -> option Z).
  Notation dtrange := (dtrange isod isot isodt).
  Notation parse := (parse_user_date isod isot isodt).

  Lemma parse_means : forall a d, means isod isot isodt a d <-> parse a = Ok d.
  Proof.
    intros a d. unfold parse_user_date. split.
    - intros H. destruct H as [d|s z H|s z H1 H|s z H1 H2 H]; rewrite ?H1, ?H2, ?H; reflexivity.
    - destruct a as [x|s|]; [intros H; injection H as <-; constructor| |discriminate].
      destruct (isod s) eqn:E1; [intros H; injection H as <-; now constructor|].
      destruct (isot s) eqn:E2; [intros H; injection H as <-; now constructor|].
      destruct (isodt s) eqn:E3; [intros H; injection H as <-; now constructor|discriminate].
  Qed.

  Lemma unit_length_us : forall u, unit_length u = unit_us u.
  Proof. intros u. destruct u; reflexivity. Qed.

  Lemma dtrange_resolve : forall a b step u start stop us,
    parse a = Ok start -> parse b = Ok stop -> dk start = dk stop ->
    unit_us (chosen_unit (dk start) u) = Some us -> td_valid (step * us) ->
    dtrange a b step u = dtrange_core start stop (step * us).
  Proof.
    intros a b step u start stop us Pa Pb K U T. unfold DtModel.dtrange. rewrite Pa, Pb. cbn [bind].
    rewrite K, dtkind_eqb_refl. cbn [negb]. rewrite <- K.
    unfold chosen_unit in U.
    destruct u as [u|].
    - rewrite U. now rewrite td_check_valid by exact T.
    - destruct (dk start); cbn [unit_us] in U; injection U as <-; cbn [unit_us];
        now rewrite td_check_valid by exact T.
  Qed.

  Lemma dtrange_inv : forall a b step u r, dtrange a b step u = Ok r ->
    exists start stop us, parse a = Ok start /\ parse b = Ok stop /\ dk start = dk stop /\
      unit_us (chosen_unit (dk start) u) = Some us /\ td_valid (step * us) /\
      dtrange_core start stop (step * us) = Ok r.
  Proof.
    intros a b step u r H. unfold DtModel.dtrange in H. binv H. binv H.
    destruct (dtkind_eqb (dk a0) (dk a1)) eqn:K; cbn [negb] in H; [|discriminate].
    apply dtkind_eqb_eq in K. exists a0, a1.
    unfold chosen_unit.
    destruct u as [u|].
    - destruct (unit_us u) as [us|] eqn:U; [|discriminate]. binv H. apply td_check_ok in E1. destruct E1 as [-> T].
      exists us. repeat split; auto; apply T.
    - cbv zeta in H.
      destruct (dk a0); destruct (unit_us _) as [us|] eqn:U in H; try discriminate; binv H;
      apply td_check_ok in E1; destruct E1 as [-> T]; exists us; repeat split; auto; apply T.
  Qed.

  Lemma step_ok_fits : forall start st, td_valid st -> step_fits start st -> step_ok start st = true.
  Proof.
    intros [k s] st T F. unfold step_ok, step_fits in *. cbn [dk] in *. destruct k; auto.
    - apply Z.mod_divide in F; [|unfold DAY; lia]. destruct F as [q ->].
      rewrite whole_day_accepted; auto. unfold td_valid in T. rewrite Z.div_mul in T by (unfold DAY; lia).
      unfold MAXTD in *; lia.
    - rewrite abs_ge_day_exact by (unfold DAY in *; lia). destruct (Z.leb_spec DAY (Z.abs st)); [lia|reflexivity].
  Qed.

  Lemma dtm_check_full : forall s, 0 <= s < DAY -> dtm_check (REF * DAY + s + DAY) = Ok (REF * DAY + s + DAY).
  Proof. intros. apply dtm_check_valid. unfold REF, MAXORD, DAY in *. lia. Qed.

  (** The distance that [dtrange] divides by the step. *)
  Definition dist (start stop : dt) (st : Z) : Z :=
    match dk start with
    | KTime =>
        if dv start =? dv stop then DAY
        else if 0 <? st then (dv stop - dv start) mod DAY else - ((dv start - dv stop) mod DAY)
    | _ => us_of stop - us_of start
    end.

  Definition ceil_len (d st : Z) : Z := d / st + (if d mod st =? 0 then 0 else 1).

  Lemma core_eq : forall start stop st, dt_valid start -> dt_valid stop -> dk start = dk stop ->
    st <> 0 -> td_valid st -> step_fits start st ->
    dtrange_core start stop st = Ok (mkDtr start (ceil_len (dist start stop st) st) st).
  Proof.
    intros start stop st Vs Vp K Hst T F. unfold dtrange_core.
    assert (SO : step_ok start st = true) by (apply step_ok_fits; auto).
    destruct (v2i_spec stop start st Vp Vs (eq_sym K) Hst) as (d & E & D).
    destruct (dk start) eqn:Kd.
    - cbn [dtkind_eqb andb]. rewrite E. cbn [bind]. unfold dtr_new. rewrite SO. unfold dist, ceil_len. rewrite Kd.
      now rewrite D.
    - cbn [dtkind_eqb andb]. unfold dist. rewrite Kd.
      destruct (dt_eqb start stop) eqn:Q.
      + apply dt_eqb_eq in Q. subst stop. rewrite Z.eqb_refl.
        unfold dt_valid in Vs. rewrite Kd in Vs. rewrite dtm_check_full by exact Vs. cbn [bind].
        unfold value_to_index. cbn [dk dv dtkind_eqb negb]. unfold td_divmod.
        destruct (Z.eqb_spec st 0); [congruence|]. cbn [bind].
        replace (REF * DAY + dv start + DAY - (REF * DAY + dv start)) with DAY by lia.
        unfold dtr_new. rewrite SO. reflexivity.
      + assert (dv start <> dv stop).
        { intros C. assert (dt_eqb start stop = true); [|congruence]. apply dt_eqb_eq.
          destruct start as [ks s], stop as [kp p]; cbn [dk dv] in *. congruence. }
        destruct (Z.eqb_spec (dv start) (dv stop)); [congruence|].
        rewrite E. cbn [bind]. unfold dtr_new. rewrite SO.
        assert (Dd : d = if 0 <? st then (dv stop - dv start) mod DAY else - ((dv start - dv stop) mod DAY)).
        { destruct D as (D1 & D2 & D3).
          destruct (Z.ltb_spec 0 st).
          - rewrite <- D1. symmetry. apply Z.mod_small. auto.
          - assert (st < 0) as Hn by lia. specialize (D3 Hn).
            assert ((- d) mod DAY = (dv start - dv stop) mod DAY).
            { replace (dv start - dv stop) with (- (dv stop - dv start)) by lia.
              rewrite <- (Z.sub_0_l d), <- (Z.sub_0_l (dv stop - dv start)).
              rewrite <- Zminus_mod_idemp_r, D1, Zminus_mod_idemp_r. reflexivity. }
            rewrite <- H1, Z.mod_small by lia. lia. }
        rewrite <- Dd. unfold ceil_len. reflexivity.
    - cbn [dtkind_eqb andb]. rewrite E. cbn [bind]. unfold dtr_new. rewrite SO. unfold dist, ceil_len. rewrite Kd.
      now rewrite D.
  Qed.

  Lemma ceil_len_spec : forall d st, st <> 0 ->
    forall i, (i < ceil_len d st <-> (0 < st -> st * i < d) /\ (st < 0 -> d < st * i)).
  Proof. intros d st Hst. exact (ceil_spec d st Hst). Qed.

  Lemma ceil_len_bounds : forall d st, st <> 0 -> 0 <= d * st ->
    0 <= ceil_len d st <= Z.abs d /\ (d = 0 -> ceil_len d st = 0).
  Proof.
    intros d st Hst Hd.
    pose proof (ceil_len_spec d st Hst) as C.
    split; [split|].
    - destruct (Z.le_gt_cases 0 (ceil_len d st)); auto.
      exfalso. assert (~ (ceil_len d st < ceil_len d st)) as N by lia. rewrite C in N. apply N.
      set (n := ceil_len d st) in *. clearbody n. split; intros; nia.
    - destruct (Z.le_gt_cases (ceil_len d st) (Z.abs d)) as [|G]; auto.
      exfalso. apply C in G. destruct G as [G1 G2].
      destruct (Z.lt_ge_cases 0 st) as [P|P].
      + specialize (G1 P). nia.
      + specialize (G2 ltac:(lia)). nia.
    - intros ->. unfold ceil_len. rewrite Z.div_0_l, Z.mod_0_l by auto. reflexivity.
  Qed.

  (** Elements of a range built by dtrange on the time line. *)
  Lemma core_line : forall start stop st, dt_valid start -> dt_valid stop -> dk start = dk stop ->
    on_line start -> st <> 0 -> td_valid st -> step_fits start st ->
    0 <= (us_of stop - us_of start) * st ->
    let r := mkDtr start (ceil_len (us_of stop - us_of start) st) st in
    dtrange_core start stop st = Ok r /\ r_wf r /\ exists l, dtr_list r = Ok l /\
    forall i v, nth_error l i = Some v <->
      (dk v = dk start /\ us_of v = us_of start + st * Z.of_nat i /\
       (0 < st -> us_of v < us_of stop) /\ (st < 0 -> us_of stop < us_of v)).
  Proof.
    intros start stop st Vs Vp K O Hst T F Hd r.
    assert (Dq : dist start stop st = us_of stop - us_of start).
    { unfold dist. destruct O as [O|O]; rewrite O; reflexivity. }
    split; [rewrite core_eq by auto; unfold r; now rewrite Dq|].
    split; [split; assumption|].
    destruct (ceil_len_bounds _ _ Hst Hd) as [[B0 B1] _].
    pose proof (ceil_len_spec (us_of stop - us_of start) st Hst) as C.
    set (n := ceil_len (us_of stop - us_of start) st) in *.
    assert (US : forall d, on_line d -> dt_valid d -> DAY <= us_of d < (MAXORD + 1) * DAY).
    { intros [kd d] [Od|Od] Vd; cbn [dk] in Od; subst kd; unfold dt_valid, us_of in *; cbn [dk dv] in *;
      unfold MAXORD, DAY in *; lia. }
    pose proof (US start O Vs) as U1.
    assert (Op : on_line stop) by (unfold on_line; rewrite <- K; exact O).
    pose proof (US stop Op Vp) as U2.
    assert (BT : forall i, 0 <= i < n -> DAY <= us_of start + st * i < (MAXORD + 1) * DAY).
    { intros i Hi. destruct (proj1 (C i) ltac:(lia)) as [C1 C2].
      destruct (Z.lt_ge_cases 0 st) as [P|P].
      - specialize (C1 P). nia.
      - specialize (C2 ltac:(lia)). nia. }
    assert (A : all_repr r).
    { intros i Hi. unfold r in *. cbn [r_start r_length r_step] in *. specialize (BT i Hi).
      pose proof (term_us start st i O F) as TU.
      split.
      - apply td_small. unfold MAXORD, MAXTD, DAY in *. lia.
      - clear C Hi r Dq. destruct start as [k s]. destruct O as [O|O]; cbn [dk] in O; subst k;
        unfold us_of, term in *; cbn [dk dv] in *.
        + unfold MAXORD, DAY in *. lia.
        + lia. }
    assert (Ls : 0 <= r_length r <= MAXSSIZE).
    { unfold r; cbn [r_length]. unfold MAXSSIZE. unfold MAXORD, DAY in *. lia. }
    eexists. split; [apply dtr_list_repr; auto|].
    unfold r; cbn [r_start r_length r_step].
    intros i v. rewrite nth_zseq. destruct (Z.ltb_spec (Z.of_nat i) n) as [L|L].
    - apply C in L. destruct L as [L1 L2]. split.
      + intros H. injection H as <-. rewrite term_kind, term_us by auto. repeat split; auto; lia.
      + intros (H1 & H2 & _). f_equal. apply us_of_inj; [rewrite term_kind; auto|]. rewrite term_us by auto. lia.
    - split; [discriminate|]. intros (H1 & H2 & H3 & H4). exfalso.
      assert (Z.of_nat i < n); [|lia]. apply C. rewrite H2 in *. split; intros; lia.
  Qed.

  (** Time ranges. *)
  Lemma core_time : forall start stop st, dt_valid start -> dt_valid stop -> dk start = KTime -> dk stop = KTime ->
    st <> 0 -> Z.abs st < DAY -> (dv start = dv stop -> 0 < st) ->
    let D := if dv start =? dv stop then DAY else clock_distance (dv start) (dv stop) st in
    exists r, dtrange_core start stop st = Ok r /\ r_wf r /\ one_lap r /\ time_short r /\
    r_start r = start /\ r_step r = st /\
    exists l, dtr_list r = Ok l /\
    forall i v, nth_error l i = Some v <->
      (dk v = KTime /\ dv v = (dv start + st * Z.of_nat i) mod DAY /\ Z.abs st * Z.of_nat i < D).
  Proof.
    intros start stop st Vs Vp Ks Kp Hst HD Hpos D.
    assert (TV : td_valid st) by (apply td_small; unfold MAXTD, DAY in *; lia).
    assert (F : step_fits start st) by (unfold step_fits; now rewrite Ks).
    rewrite core_eq by (auto; congruence).
    assert (Dd : dist start stop st = if 0 <? st then D else - D).
    { unfold dist, D, clock_distance. rewrite Ks.
      destruct (Z.eqb_spec (dv start) (dv stop)) as [Q|Q].
      - specialize (Hpos Q). destruct (Z.ltb_spec 0 st); lia.
      - destruct (0 <? st); auto. }
    assert (DB : 0 <= D <= DAY).
    { unfold D, clock_distance. destruct (Z.eqb_spec (dv start) (dv stop)) as [Q|Q]; [unfold DAY; lia|].
      pose proof (Z.mod_pos_bound (dv stop - dv start) DAY ltac:(reflexivity)).
      pose proof (Z.mod_pos_bound (dv start - dv stop) DAY ltac:(reflexivity)).
      destruct (0 <? st); lia. }
    clearbody D. clear Hpos.
    set (d := dist start stop st) in *.
    pose proof (ceil_len_spec d st Hst) as C.
    assert (Hd : 0 <= d * st) by (destruct (Z.ltb_spec 0 st); nia).
    destruct (ceil_len_bounds d st Hst Hd) as [[B0 B1] _].
    set (n := ceil_len d st) in *. clearbody n.
    assert (C' : forall i, i < n <-> Z.abs st * i < D).
    { intros i. rewrite C. destruct (Z.ltb_spec 0 st).
      - rewrite (Z.abs_eq st) by lia. rewrite Dd. split; [intros [X _]; auto|intros; split; intros; lia].
      - rewrite (Z.abs_neq st) by lia. rewrite Dd. split; [intros [_ X]; specialize (X ltac:(lia)); lia|intros; split; intros; lia]. }
    assert (LAP : Z.abs st * (n - 1) < DAY) by (pose proof (proj1 (C' (n - 1)) ltac:(lia)); lia).
    eexists. split; [reflexivity|].
    split; [split; assumption|].
    split; [intros _; exact LAP|].
    split; [intros _; cbn [r_length r_step]; lia|].
    split; [reflexivity|]. split; [reflexivity|].
    set (r := mkDtr start n st).
    assert (A : all_repr r).
    { intros i Hi. unfold r in *. cbn [r_start r_length r_step] in *.
      assert (Z.abs (st * i) < DAY).
      { apply Z.le_lt_trans with (Z.abs st * (n - 1)); auto.
        rewrite Z.abs_mul, (Z.abs_eq i) by lia. apply Z.mul_le_mono_nonneg_l; lia. }
      unfold dt_valid in Vs. rewrite Ks in Vs.
      split.
      - apply td_small. unfold MAXTD, DAY in *. lia.
      - rewrite Ks. unfold REF, MAXORD, DAY in *. lia. }
    eexists. split; [apply dtr_list_repr; auto|].
    { unfold r; cbn [r_length]. unfold MAXSSIZE. assert (Z.abs d <= DAY) by (destruct (0 <? st); lia).
      unfold DAY in *. lia. }
    unfold r; cbn [r_start r_length r_step].
    intros i v. rewrite nth_zseq. destruct (Z.ltb_spec (Z.of_nat i) n) as [L|L].
    - apply C' in L. split.
      + intros H. injection H as <-. rewrite term_kind. unfold term. rewrite Ks. auto.
      + intros (H1 & H2 & _). f_equal. unfold term. rewrite Ks. destruct v as [kv v]; cbn [dk dv] in *. congruence.
    - split; [discriminate|]. intros (H1 & H2 & H3). exfalso.
      assert (Z.of_nat i < n); [|lia]. now apply C'.
  Qed.
End Factory.
