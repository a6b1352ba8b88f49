(** * Date and time ranges with time zones: properties C74-C76. *)
From Verif Require Import Base PyRange DtModel DtSpec DtProofs DtZone.
Open Scope Z_scope.

(** ** Specification *)

(** A zone that is always the same distance [o] from UTC (datetime.timezone). *)
Definition steady (x : zone) (o : Z) : Prop := off_none x = Some o /\ forall t b, off_at x t b = Some o.
(** [x] comes before [y] in the direction of [step]. *)
Definition before (step x y : Z) : Prop := (0 < step /\ x < y) \/ (step < 0 /\ y < x).
(** A naive value *)
Definition naive (d : dt) : zdt := mkZ d None false.
(** A datetime in zone [z] showing [t] *)
Definition aware (t : Z) (z : nat) : zdt := mkZ (Dt KDateTime t) (Some z) false.
Definition aware_time (t : Z) (z : nat) : zdt := mkZ (Dt KTime t) (Some z) false.

Lemma rg_get_in n i : 0 <= i < n -> rg_get (mkRange 0 n 1) i = Ok i.
Proof.
  intros H. unfold rg_get, rg_len. cbn [rg_start rg_stop rg_step]. rewrite (proj2 (Z.ltb_lt 0 1)) by lia.
  rewrite (proj2 (Z.ltb_lt 0 n)) by lia. rewrite Z.div_1_r, (proj2 (Z.ltb_ge i 0)) by lia.
  rewrite (proj2 (Z.leb_le 0 i)), (proj2 (Z.ltb_lt i _)) by lia. cbn. f_equal. lia.
Qed.
Lemma ok_inj A (a b : A) : Ok a = Ok b -> a = b.
Proof. congruence. Qed.
Lemma rg_get_inv n i k : rg_get (mkRange 0 n 1) i = Ok k -> 0 <= k < n.
Proof.
  unfold rg_get, rg_len. cbn [rg_start rg_stop rg_step]. rewrite (proj2 (Z.ltb_lt 0 1)) by lia. rewrite Z.div_1_r.
  destruct (Z.ltb_spec 0 n).
  - destruct (Z.ltb_spec i 0); match goal with |- (if ?b then _ else _) = _ -> _ => destruct b eqn:B; [|discriminate] end;
      apply andb_prop in B; destruct B as [B1 B2]; apply Z.leb_le in B1; apply Z.ltb_lt in B2; intros Q; apply ok_inj in Q; lia.
  - destruct (Z.ltb_spec i 0); match goal with |- (if ?b then _ else _) = _ -> _ => destruct b eqn:B; [|discriminate] end;
      apply andb_prop in B; destruct B as [B1 B2]; apply Z.leb_le in B1; apply Z.ltb_lt in B2; lia.
Qed.

(** Counting steps: the quotient rounded up. *)
Lemma steps_before d step i : step <> 0 -> 0 <= i ->
  (i < d / step + (if d mod step =? 0 then 0 else 1) <-> before step (step * i) d).
Proof.
  intros Hs Hi. unfold before. pose proof (Z.div_mod d step Hs) as E.
  destruct (Z.eqb_spec (d mod step) 0) as [R|R].
  - rewrite R in E. split.
    + intros H. destruct (Z.lt_trichotomy step 0) as [S|[S|S]]; [right | lia | left]; split; auto; nia.
    + intros [[S H]|[S H]]; nia.
  - destruct (Z.lt_trichotomy step 0) as [S|[S|S]]; [|lia|].
    + pose proof (Z.mod_neg_bound d step S). split; [intros H1; right; split; [exact S|nia] | intros [[? ?]|[? ?]]; [lia|nia]].
    + pose proof (Z.mod_pos_bound d step S). split; [intros H1; left; split; [exact S|nia] | intros [[? ?]|[? ?]]; [nia|lia]].
Qed.

(** ** Naive values: this model is the one of DtModel.v *)

Section Naive.
  Context (tz : nat -> zone).
  Definition naive_r (r : dtr) : zdtr := mkZr (naive (r_start r)) (r_length r) (r_step r).
  Definition lift_r {A B} (f : A -> B) (r : res A) : res B := a <- r ;; Ok (f a).

  Lemma naive_index i s step : zindex_to_value i (naive s) step = lift_r naive (index_to_value i s step).
  Proof.
    unfold zindex_to_value, index_to_value, lift_r, naive, zadd, combine. cbn [zd zz zfold dk dv].
    destruct (td_check (step * i)) as [delta| |]; cbn [bind]; [|reflexivity|reflexivity].
    destruct (dk s) eqn:K; cbn [zd zz zfold dk dv bind].
    - destruct (ord_check _); reflexivity.
    - destruct (dtm_check _); reflexivity.
    - destruct (dtm_check _); reflexivity.
  Qed.
  Lemma naive_value v s step : zvalue_to_index tz (naive v) (naive s) step = value_to_index v s step.
  Proof.
    unfold zvalue_to_index, value_to_index, naive, zlt, zsub, common, combine, same_tzinfo. cbn [zd zz zfold dk dv].
    destruct (negb _); [reflexivity|]. destruct (dk s); cbn [bind]; reflexivity.
  Qed.
  Lemma naive_eq a b : zeq tz (naive a) (naive b) = dt_eqb a b.
  Proof.
    unfold zeq, dt_eqb, naive, common, same_tzinfo. cbn. rewrite Bool.andb_true_r. reflexivity.
  Qed.

  (** For naive values nothing depends on zones: *)
  Theorem C74_naive :
    (forall a b step, dk a = dk b -> zdtrange tz (naive a) (naive b) step = lift_r naive_r (dtrange_core a b step)) /\
    (forall r i, zdtr_get (naive_r r) i = lift_r naive (dtr_get r i)) /\
    (forall r, zdtr_len (naive_r r) = dtr_len r) /\
    (forall r v i j, zdtr_index tz (naive_r r) (naive v) i j = dtr_index r (ODt v) i j) /\
    (forall r v, zdtr_contains tz (naive_r r) (naive v) = dtr_contains r (ODt v)) /\
    (forall r s, zdtr_slice (naive_r r) s = lift_r naive_r (dtr_slice r s)) /\
    (forall a b, zdtr_eq tz (naive_r a) (naive_r b) = dtr_eq a b).
  Proof.
    assert (Idx : forall r v i j, zdtr_index tz (naive_r r) (naive v) i j = dtr_index r (ODt v) i j).
    { intros r v i j. unfold zdtr_index, dtr_index, zisinstance. cbn [zr_start zr_step naive_r].
      change (zd (naive v)) with v. change (zd (naive (r_start r))) with (r_start r).
      destruct (isinstance_of _ _); [|reflexivity]. rewrite naive_value.
      destruct (value_to_index _ _ _) as [[k m]| |]; cbn [bind lift_r]; reflexivity. }
    split; [|split; [|split; [|split; [|split; [|split]]]]].
    - intros a b step K. unfold zdtrange, dtrange_core. change (zd (naive a)) with a. change (zd (naive b)) with b.
      replace (dtkind_eqb (dk a) (dk b)) with true by (rewrite K; destruct (dk b); reflexivity).
      cbn [negb]. rewrite naive_eq. destruct (dtkind_eqb (dk a) KTime && dt_eqb a b).
      + cbv zeta. unfold zadd, combine at 1. cbn [zd zz zfold dv naive]. destruct (dtm_check _) as [s| |]; cbn [bind lift_r]; try reflexivity.
        change (combine REF (naive a)) with (naive (Dt KDateTime (REF * DAY + dv a))).
        change (zz (naive (Dt KDateTime (REF * DAY + dv a)))) with (@None nat).
        change (mkZ (Dt KDateTime s) None false) with (naive (Dt KDateTime s)). rewrite naive_value.
        destruct (value_to_index _ _ _) as [[k m]| |]; cbn [bind lift_r]; try reflexivity.
        unfold zdtr_new, dtr_new. change (zd (naive a)) with a. destruct (step_ok _ _); reflexivity.
      + rewrite naive_value. destruct (value_to_index _ _ _) as [[k m]| |]; cbn [bind lift_r]; try reflexivity.
        unfold zdtr_new, dtr_new. change (zd (naive a)) with a. destruct (step_ok _ _); reflexivity.
    - intros r i. unfold zdtr_get, dtr_get, zindex_range, index_range, naive_r. cbn [zr_start zr_length zr_step].
      destruct (rg_get _ _) as [n| |]; cbn [bind lift_r]; try reflexivity. apply (naive_index n).
    - reflexivity.
    - exact Idx.
    - intros r v. unfold zdtr_contains, dtr_contains. rewrite Idx. reflexivity.
    - intros r s. unfold zdtr_slice, dtr_slice, zindex_range, index_range, naive_r. cbn [zr_start zr_length zr_step].
      destruct (rg_slice _ _) as [n| |]; cbn [bind lift_r]; try reflexivity. rewrite naive_index. unfold lift_r.
      destruct (index_to_value _ _ _) as [x| |]; cbn [bind]; try reflexivity.
      destruct (ssize_check _) as [k| |]; cbn [bind]; try reflexivity.
      destruct (td_check _) as [k'| |]; cbn [bind]; try reflexivity.
      unfold zdtr_new, dtr_new. change (zd (naive x)) with x. destruct (step_ok _ _); reflexivity.
    - intros a b. unfold zdtr_eq, dtr_eq, zdtr_len, dtr_len, naive_r. cbn [zr_start zr_length zr_step].
      destruct (ssize_check _) as [n| |]; cbn [bind lift_r]; try reflexivity. destruct (ssize_check (r_length b)) as [m| |]; cbn [bind lift_r]; try reflexivity.
      rewrite naive_eq. reflexivity.
  Qed.
End Naive.

(** ** C74 Datetimes *)

Section Aware.
  Context (tz : nat -> zone).

  Lemma aware_step_ok t z step : step_ok (zd (aware t z)) step = true.
  Proof. reflexivity. Qed.

  Lemma zsub_same a b z : zsub tz (aware a z) (aware b z) = Ok (a - b).
  Proof. unfold zsub, common, same_tzinfo. cbn. rewrite Nat.eqb_refl. reflexivity. Qed.
  Lemma zsub_steady a b y z p q : steady (tz y) p -> steady (tz z) q ->
    zsub tz (aware a y) (aware b z) = Ok ((a - p) - (b - q)).
  Proof.
    intros [_ Hp] [_ Hq]. unfold zsub, common, same_tzinfo, utcoffset. cbn. destruct (Nat.eqb_spec y z) as [<-|N].
    - assert (p = q) as -> by (specialize (Hp 0 false); specialize (Hq 0 false); congruence). f_equal. lia.
    - rewrite Hp, Hq. reflexivity.
  Qed.

  Lemma zdtrange_datetime a b y z d step : zsub tz (aware b z) (aware a y) = Ok d -> step <> 0 ->
    zdtrange tz (aware a y) (aware b z) step = Ok (mkZr (aware a y) (d / step + (if d mod step =? 0 then 0 else 1)) step).
  Proof.
    intros E Hs. unfold zdtrange, zvalue_to_index. cbn [zd aware dk dtkind_eqb negb andb]. rewrite E. cbn [bind].
    unfold td_divmod. rewrite (proj2 (Z.eqb_neq step 0) Hs). reflexivity.
  Qed.

  (** Elements: *)
  Lemma get_aware t z n step i e : 0 <= i -> zdtr_get (mkZr (aware t z) n step) i = Ok e ->
    i < n /\ e = aware (t + step * i) z.
  Proof.
    intros Hi. unfold zdtr_get, zindex_range. cbn [zr_start zr_length zr_step].
    destruct (Z.lt_ge_cases i n) as [L|L].
    - rewrite rg_get_in by lia. cbn [bind]. unfold zindex_to_value, td_check, zadd, dtm_check. cbn [zd aware dk dv zz].
      destruct (_ && _); cbn [bind]; [|discriminate]. destruct (_ && _); cbn [bind]; [|discriminate]. intros [= <-]. auto.
    - unfold rg_get, rg_len. cbn [rg_start rg_stop rg_step]. rewrite (proj2 (Z.ltb_lt 0 1)), Z.div_1_r by lia.
      rewrite (proj2 (Z.ltb_ge i 0)) by lia. rewrite Bool.andb_comm.
      destruct (Z.ltb_spec 0 n); rewrite (proj2 (Z.ltb_ge i _)) by lia; cbn; discriminate.
  Qed.

  (** start and stop have the same tzinfo, of whatever kind: the elements have it
      too, and are the terms of the sequence (as the clock shows them) before stop. *)
  Theorem C74_same_zone a b z step : step <> 0 ->
    exists r, zdtrange tz (aware a z) (aware b z) step = Ok r /\
    (forall i, 0 <= i -> (i < zr_length r <-> before step (a + step * i) b)) /\
    (forall i e, 0 <= i -> zdtr_get r i = Ok e -> e = aware (a + step * i) z).
  Proof.
    intros Hs. eexists. split; [apply zdtrange_datetime; [apply zsub_same | exact Hs]|]. cbn [zr_length]. split.
    - intros i Hi. rewrite steps_before by assumption. unfold before. split; intros [[? ?]|[? ?]]; [left|right|left|right]; lia.
    - intros i e Hi G. eapply get_aware; eauto.
  Qed.

  (** They can be obtained: all are in the calendar, if start and stop are. *)
  Theorem C74_same_zone_obtained a b z step r i : step <> 0 -> td_valid step ->
    dt_valid (Dt KDateTime a) -> dt_valid (Dt KDateTime b) ->
    zdtrange tz (aware a z) (aware b z) step = Ok r -> 0 <= i < zr_length r ->
    zdtr_get r i = Ok (aware (a + step * i) z).
  Proof.
    intros Hs Ht Ha Hb E Hi. rewrite (zdtrange_datetime _ _ _ _ _ _ (zsub_same b a z) Hs) in E. injection E as <-.
    cbn [zr_length] in Hi. unfold zdtr_get, zindex_range. cbn [zr_start zr_length zr_step]. rewrite rg_get_in by exact Hi. cbn [bind].
    pose proof (proj1 (steps_before (b - a) step i Hs (proj1 Hi)) (proj2 Hi)) as B.
    unfold dt_valid in Ha, Hb. cbn [dk dv] in Ha, Hb.
    assert (R : DAY <= a + step * i < (MAXORD + 1) * DAY).
    { destruct B as [[S B]|[S B]]; split; try lia; nia. }
    assert (T : - MAXTD <= (step * i) / DAY <= MAXTD).
    { assert (D : Z.abs (step * i) <= (MAXORD + 1) * DAY).
      { revert R Ha. generalize (step * i). unfold MAXORD, DAY. intros k. lia. }
      revert D. generalize (step * i). intros k D. unfold MAXTD, MAXORD, DAY in *.
      split; [apply Z.div_le_lower_bound; lia | apply Z.lt_succ_r, Z.div_lt_upper_bound; lia]. }
    unfold zindex_to_value, td_check, zadd, dtm_check. cbn [zd aware dk dv zz].
    rewrite (proj2 (Z.leb_le _ _) (proj1 T)), (proj2 (Z.leb_le _ _) (proj2 T)). cbn [andb bind].
    rewrite (proj2 (Z.leb_le _ _) (proj1 R)), (proj2 (Z.ltb_lt _ _) (proj2 R)). reflexivity.
  Qed.

  (** start and stop are in different zones, with constant offsets [p] and [q]: the
      elements are in the zone of start, and are the terms before stop in time. *)
  Theorem C74_two_zones a b y z p q step : steady (tz y) p -> steady (tz z) q -> step <> 0 ->
    exists r, zdtrange tz (aware a y) (aware b z) step = Ok r /\
    (forall i, 0 <= i -> (i < zr_length r <-> before step (a + step * i - p) (b - q))) /\
    (forall i e, 0 <= i -> zdtr_get r i = Ok e -> e = aware (a + step * i) y).
  Proof.
    intros Hp Hq Hs. eexists. split; [apply zdtrange_datetime; [apply zsub_steady; eassumption | exact Hs]|]. cbn [zr_length]. split.
    - intros i Hi. rewrite steps_before by assumption. unfold before. split; intros [[? ?]|[? ?]]; [left|right|left|right]; lia.
    - intros i e Hi G. eapply get_aware; eauto.
  Qed.

  (** Membership *)
  Lemma rg_all n : rg_slice (mkRange 0 n 1) (mkSlice None None None) = Ok (mkRange 0 (Z.max 0 n) 1).
  Proof.
    unfold rg_slice, sl_indices, sl_stepv, sl_bound. cbn [sl_start sl_stop sl_step rg_start rg_stop rg_step bind].
    change (1 =? 0) with false. change (1 <? 0) with false. cbv iota. cbn [bind].
    assert (L : rg_len (mkRange 0 n 1) = Z.max 0 n).
    { unfold rg_len. cbn [rg_start rg_stop rg_step]. change (0 <? 1) with true. cbv iota. rewrite Z.div_1_r.
      destruct (Z.ltb_spec 0 n); lia. }
    rewrite L. f_equal. f_equal; lia.
  Qed.
  Lemma contains_aware t y n step v z d : step <> 0 -> zsub tz (aware v z) (aware t y) = Ok d ->
    exists b, zdtr_contains tz (mkZr (aware t y) n step) (aware v z) = Ok b /\
              (b = true <-> exists i, 0 <= i < n /\ d = step * i).
  Proof.
    intros Hs E. unfold zdtr_contains, zdtr_index, zisinstance, zvalue_to_index, zindex_range.
    cbn [zr_start zr_length zr_step isinstance_of zd aware dk dtkind_eqb negb]. rewrite E. cbn [bind].
    unfold td_divmod. rewrite (proj2 (Z.eqb_neq step 0) Hs). cbn [bind]. pose proof (Z.div_mod d step Hs) as D.
    destruct (Z.eqb_spec (d mod step) 0) as [R|R].
    - rewrite rg_all. cbn [bind]. unfold rg_contains. cbn [rg_start rg_stop rg_step]. rewrite (proj2 (Z.ltb_lt 0 1)) by lia.
      rewrite Z.mod_1_r. cbn [Z.eqb]. rewrite Bool.andb_true_r.
      destruct (Z.leb_spec 0 (d / step)) as [L|L]; cbn [andb].
      + destruct (Z.ltb_spec (d / step) (Z.max 0 n)) as [U|U].
        * exists true. split; [reflexivity|]. split; [|reflexivity]. intros _. exists (d / step). lia.
        * exists false. split; [reflexivity|]. split; [discriminate|]. intros (i & Hi & Q).
          assert (i = d / step) by (rewrite Q, Z.mul_comm, Z.div_mul; auto). lia.
      + exists false. split; [reflexivity|]. split; [discriminate|]. intros (i & Hi & Q).
        assert (i = d / step) by (rewrite Q, Z.mul_comm, Z.div_mul; auto). lia.
    - exists false. split; [reflexivity|]. split; [discriminate|]. intros (i & Hi & Q). exfalso. apply R.
      rewrite Q, Z.mul_comm. apply Z.mod_mul. exact Hs.
  Qed.

  (** A datetime of another zone with a constant offset is in a range iff the
      sequence has a term at the same instant; terms that can be obtained equal it
      (==). *)
  Theorem C74_membership t y p n step v z q : steady (tz y) p -> steady (tz z) q -> step <> 0 ->
    exists b, zdtr_contains tz (mkZr (aware t y) n step) (aware v z) = Ok b /\
    (b = true <-> exists i, 0 <= i < n /\ v - q = t + step * i - p) /\
    (forall i e, 0 <= i -> zdtr_get (mkZr (aware t y) n step) i = Ok e -> zeq tz e (aware v z) = true -> b = true).
  Proof.
    intros Hp Hq Hs. destruct (contains_aware t y n step v z _ Hs (zsub_steady v t z y q p Hq Hp)) as (b & E & B).
    exists b. split; [exact E|]. split.
    - rewrite B. split; intros (i & Hi & Q); exists i; split; auto; lia.
    - intros i e Hi G Q. apply B. destruct (get_aware _ _ _ _ _ _ Hi G) as [L ->]. exists i. split; [lia|].
      unfold zeq, common, same_tzinfo, utcoffset in Q. cbn [zd aware zz dk dv dtkind_eqb andb zfold] in Q.
      destruct Hp as [_ Hp], Hq as [_ Hq]. rewrite Hp, Hq in Q. destruct (Nat.eqb_spec y z) as [<-|N].
      + assert (p = q) as -> by (specialize (Hp 0 false); specialize (Hq 0 false); congruence).
        apply andb_prop in Q. destruct Q as [Q _]. apply Z.eqb_eq in Q. lia.
      + apply andb_prop in Q. destruct Q as [Q _]. apply Z.eqb_eq in Q. lia.
  Qed.
  (** ... and in the same zone, of whatever kind: iff it shows what a term shows. *)
  Theorem C74_membership_same t z n step v : step <> 0 ->
    exists b, zdtr_contains tz (mkZr (aware t z) n step) (aware v z) = Ok b /\
    (b = true <-> exists i, 0 <= i < n /\ v = t + step * i).
  Proof.
    intros Hs. destruct (contains_aware t z n step v z _ Hs (zsub_same v t z)) as (b & E & B).
    exists b. split; [exact E|]. rewrite B. split; intros (i & Hi & Q); exists i; split; auto; lia.
  Qed.

  (** Naive and aware values do not mix: TypeError, also from [in], [index] and
      [count]. *)
  Theorem C74_mixed a z b n step i j : off_at (tz z) a false <> None ->
    zdtrange tz (aware a z) (naive (Dt KDateTime b)) step = Raise TypeError /\
    zdtrange tz (naive (Dt KDateTime b)) (aware a z) step = Raise TypeError /\
    zdtr_contains tz (mkZr (aware a z) n step) (naive (Dt KDateTime b)) = Raise TypeError /\
    zdtr_contains tz (mkZr (naive (Dt KDateTime b)) n step) (aware a z) = Raise TypeError /\
    zdtr_index tz (mkZr (aware a z) n step) (naive (Dt KDateTime b)) i j = Raise TypeError /\
    zdtr_count tz (mkZr (aware a z) n step) (naive (Dt KDateTime b)) = Raise TypeError.
  Proof.
    intros H. unfold zdtrange, zdtr_count, zdtr_contains, zdtr_index, zvalue_to_index, zsub, common, same_tzinfo, utcoffset.
    cbn. destruct (off_at (tz z) a false) as [o|]; [|congruence]. repeat split.
  Qed.
End Aware.

(** Zones that are not steady: the clock goes back one hour (in microseconds) when
    it shows [t]. *)
Definition HOUR : Z := 3600000000.
Definition changes (t : Z) : zone := mkZone None (fun x _ => Some (if x <? t then HOUR else 0)).
Definition utc : zone := mkZone (Some 0) (fun _ _ => Some 0).
Definition plus_one : zone := mkZone (Some HOUR) (fun _ _ => Some HOUR).
(** 2016-01-01 00:00 *)
Definition T0 : Z := 735964 * DAY.
Definition some_tz (z : nat) : zone :=
  match z with 0%nat => utc | 1%nat => plus_one | _ => changes (T0 + 2 * HOUR) end.
(** The instant of a datetime, in UTC *)
Definition instant (tz : nat -> zone) (d : zdt) : Z :=
  dv (zd d) - match utcoffset tz d with Some o => o | None => 0 end.

(** With such a zone and a stop in another one, elements need not be before stop. *)
Definition C74_any_zones_statement : Prop :=
  forall tz a b y z step r i e, 0 < step ->
    zdtrange tz (aware a y) (aware b z) step = Ok r -> 0 <= i -> zdtr_get r i = Ok e ->
    instant tz e < instant tz (aware b z).
Theorem C74_any_zones_refuted : ~ C74_any_zones_statement.
Proof.
  intros H.
  specialize (H some_tz T0 (T0 + 3 * HOUR) 2%nat 0%nat HOUR (mkZr (aware T0 2) 4 HOUR) 3 (aware (T0 + 3 * HOUR) 2)).
  assert (Q : instant some_tz (aware (T0 + 3 * HOUR) 2) < instant some_tz (aware (T0 + 3 * HOUR) 0)).
  { apply H; try (vm_compute; reflexivity). vm_compute; discriminate. }
  vm_compute in Q. discriminate.
Qed.
(** Nor is what is in the range equal to an element. *)
Definition C74_any_member_statement : Prop :=
  forall tz t y n step v z, step <> 0 ->
    zdtr_contains tz (mkZr (aware t y) n step) (aware v z) = Ok true ->
    (forall i, 0 <= i < n -> exists e, zdtr_get (mkZr (aware t y) n step) i = Ok e) ->
    exists i e, zdtr_get (mkZr (aware t y) n step) i = Ok e /\ zeq tz e (aware v z) = true.
Theorem C74_any_member_refuted : ~ C74_any_member_statement.
Proof.
  intros H. set (r := mkZr (aware T0 2) 4 HOUR).
  assert (G : forall i, 0 <= i < 4 -> zdtr_get r i = Ok (aware (T0 + HOUR * i) 2)).
  { intros i Hi. assert (i = 0 \/ i = 1 \/ i = 2 \/ i = 3) as C by lia.
    destruct C as [->|[->|[->| ->]]]; vm_compute; reflexivity. }
  assert (L : forall i e, zdtr_get r i = Ok e -> exists k, 0 <= k < 4 /\ zdtr_get r k = Ok e).
  { intros i e E. unfold zdtr_get in E. destruct (rg_get (zindex_range r) i) as [k| |] eqn:K; try discriminate. cbn [bind] in E.
    pose proof (rg_get_inv 4 i k K) as B. exists k. split; [exact B|].
    unfold zdtr_get. change (zindex_range r) with (mkRange 0 4 1). rewrite rg_get_in by exact B. exact E. }
  destruct (H some_tz T0 2%nat 4 HOUR (T0 + HOUR) 0%nat) as (i & e & E & Q).
  - discriminate.
  - vm_compute. reflexivity.
  - intros i Hi. eexists. apply G. exact Hi.
  - destruct (L i e E) as (k & Hk & E'). rewrite (G k Hk) in E'. apply ok_inj in E'. subst e.
    assert (k = 0 \/ k = 1 \/ k = 2 \/ k = 3) as C by lia.
    destruct C as [->|[->|[->| ->]]]; vm_compute in Q; discriminate.
Qed.

(** Cases *)
Example steady_utc : steady (some_tz 0) 0.
Proof. split; reflexivity. Qed.
Example steady_plus : steady (some_tz 1) HOUR.
Proof. split; reflexivity. Qed.
(** 00:00+01:00 to 02:00 UTC, in hours: three elements *)
Example C74_case :
  zdtrange some_tz (aware T0 1) (aware (T0 + 2 * HOUR) 0) HOUR = Ok (mkZr (aware T0 1) 3 HOUR) /\
  zdtr_get (mkZr (aware T0 1) 3 HOUR) 2 = Ok (aware (T0 + 2 * HOUR) 1) /\
  zdtr_contains some_tz (mkZr (aware T0 1) 3 HOUR) (aware (T0 + HOUR) 0) = Ok true /\
  zdtr_contains some_tz (mkZr (aware T0 1) 3 HOUR) (aware (T0 + 2 * HOUR) 0) = Ok false /\
  zeq some_tz (aware (T0 + 2 * HOUR) 1) (aware (T0 + HOUR) 0) = true /\
  zdtrange some_tz (aware T0 2) (aware (T0 + 5 * HOUR) 2) (2 * HOUR) = Ok (mkZr (aware T0 2) 3 (2 * HOUR)).
Proof. vm_compute. repeat split. Qed.

(** ** C75 Times *)

(** All elements of a range of times are naive: the time zone is lost.  If start
    has an offset, no element equals start, nor is any element in the range. *)
Definition C75_statement : Prop :=
  forall (r : zdtr) i e, zdtr_get r i = Ok e -> zz e = zz (zr_start r).

Theorem C75_naive_elements t z n step i e :
  zdtr_get (mkZr (aware_time t z) n step) i = Ok e -> dk (zd e) = KTime /\ zz e = None.
Proof.
  unfold zdtr_get, zindex_to_value, zadd. cbn [zr_start zr_step zr_length zd aware_time dk].
  destruct (rg_get _ _) as [k| |]; cbn [bind]; try discriminate.
  destruct (td_check _) as [delta| |]; cbn [bind]; try discriminate.
  destruct (dtm_check _) as [s| |]; cbn [bind]; try discriminate.
  intros [= <-]. split; reflexivity.
Qed.

Theorem C75_no_element_inside (tz : nat -> zone) t z n step i e : off_none (tz z) <> None ->
  zdtr_get (mkZr (aware_time t z) n step) i = Ok e ->
  zeq tz e (aware_time t z) = false /\
  zdtr_contains tz (mkZr (aware_time t z) n step) e = Raise TypeError.
Proof.
  intros H G. destruct (C75_naive_elements _ _ _ _ _ _ G) as [K N].
  assert (U : utcoffset tz e = None) by (unfold utcoffset; rewrite N; reflexivity).
  assert (C : common tz e (aware_time t z) = None).
  { unfold common, same_tzinfo. rewrite N, U. cbn. destruct (off_none (tz z)); congruence. }
  split.
  - unfold zeq. rewrite C. apply Bool.andb_false_r.
  - unfold zdtr_contains, zdtr_index, zisinstance, zvalue_to_index, zlt, isinstance_of. cbn [zr_start zd aware_time dk]. rewrite K.
    cbn [dtkind_eqb negb]. rewrite C. reflexivity.
Qed.

Theorem C75_zone_refuted : ~ C75_statement.
Proof.
  intros H. specialize (H (mkZr (aware_time (10 * HOUR) 0) 2 HOUR) 0 (mkZ (Dt KTime (10 * HOUR)) None false)).
  discriminate H. vm_compute. reflexivity.
Qed.
(** dtrange(time(10, tzinfo=utc), time(12, tzinfo=utc), 1, 'hours') *)
Example C75_case :
  zdtrange some_tz (aware_time (10 * HOUR) 0) (aware_time (12 * HOUR) 0) HOUR = Ok (mkZr (aware_time (10 * HOUR) 0) 2 HOUR) /\
  zdtr_get (mkZr (aware_time (10 * HOUR) 0) 2 HOUR) 0 = Ok (naive (Dt KTime (10 * HOUR))) /\
  zdtr_contains some_tz (mkZr (aware_time (10 * HOUR) 0) 2 HOUR) (naive (Dt KTime (10 * HOUR))) = Raise TypeError /\
  zdtr_contains some_tz (mkZr (aware_time (10 * HOUR) 0) 2 HOUR) (aware_time (11 * HOUR) 0) = Ok true.
Proof. vm_compute. repeat split. Qed.

(** dtrange for times in steady zones, not necessarily the same: how far it is from start
    to stop is the difference in UTC, by way of midnight if stop is on the wrong side of
    start, and a day if they are equal. *)
Definition way (from to step : Z) : Z :=
  let diff := to - from in
  if diff =? 0 then DAY
  else if (diff <? 0) && (0 <? step) then diff + DAY
  else if (0 <? diff) && (step <? 0) then diff - DAY
  else diff.

Lemma steady_common (tz : nat -> zone) a b z1 x z2 y :
  steady (tz z1) x -> steady (tz z2) y -> zz a = Some z1 -> zz b = Some z2 -> dk (zd a) <> KDate -> dk (zd b) <> KDate ->
  exists p q, common tz a b = Some (p, q) /\ q - p = (dv (zd b) - y) - (dv (zd a) - x).
Proof.
  intros [N1 O1] [N2 O2] Za Zb Ka Kb. unfold common, same_tzinfo. rewrite Za, Zb. destruct (Nat.eqb_spec z1 z2) as [->|Ne].
  - assert (x = y) by congruence. do 2 eexists. split; [reflexivity|]. lia.
  - assert (U1 : utcoffset tz a = Some x) by (unfold utcoffset; rewrite Za; destruct (dk (zd a)); [congruence|exact N1|apply O1]).
    assert (U2 : utcoffset tz b = Some y) by (unfold utcoffset; rewrite Zb; destruct (dk (zd b)); [congruence|exact N2|apply O2]).
    rewrite U1, U2. do 2 eexists. split; [reflexivity|]. lia.
Qed.

Lemma dtm_check_same u s : dtm_check u = Ok s -> s = u.
Proof. unfold dtm_check. generalize ((DAY <=? u) && (u <? (MAXORD + 1) * DAY)). intros b H. destruct b; [|discriminate H]. congruence. Qed.
Theorem C75_length (tz : nat -> zone) t1 z1 x t2 z2 y step r :
  steady (tz z1) x -> steady (tz z2) y ->
  zdtrange tz (aware_time t1 z1) (aware_time t2 z2) step = Ok r ->
  let far := way (t1 - x) (t2 - y) step in
  zr_start r = aware_time t1 z1 /\ zr_step r = step /\
  (0 < step /\ (zr_length r - 1) * step < far <= zr_length r * step \/
   step < 0 /\ zr_length r * step <= far < (zr_length r - 1) * step).
Proof.
  intros S1 S2 E. cbv zeta.
  assert (D : exists rem, td_divmod (way (t1 - x) (t2 - y) step) step = Ok (rem, way (t1 - x) (t2 - y) step mod step) /\
              zdtr_new (aware_time t1 z1) (rem + (if way (t1 - x) (t2 - y) step mod step =? 0 then 0 else 1)) step = Ok r).
  { destruct (steady_common tz (aware_time t1 z1) (aware_time t2 z2) z1 x z2 y S1 S2 eq_refl eq_refl ltac:(discriminate) ltac:(discriminate)) as (p & q & Cm & Hpq).
    destruct (steady_common tz (aware_time t2 z2) (aware_time t1 z1) z2 y z1 x S2 S1 eq_refl eq_refl ltac:(discriminate) ltac:(discriminate)) as (p' & q' & Cm' & Hpq').
    cbn [aware_time zd dv] in Hpq, Hpq'.
    unfold zdtrange, aware_time in E. cbn [zd dk dtkind_eqb negb andb] in E.
    assert (Q : zeq tz (mkZ (Dt KTime t1) (Some z1) false) (mkZ (Dt KTime t2) (Some z2) false) = (t2 - y - (t1 - x) =? 0)).
    { unfold zeq, aware_time in *. rewrite Cm. cbn [zd dk dtkind_eqb andb fold_matters negb orb]. rewrite Bool.orb_true_r, Bool.andb_true_r.
      apply Bool.eq_iff_eq_true. rewrite !Z.eqb_eq. lia. }
    rewrite Q in E. unfold way. destruct (t2 - y - (t1 - x) =? 0) eqn:Z0.
    - apply Z.eqb_eq in Z0. unfold zadd, combine in E. cbn [zd dv zz] in E.
      destruct (dtm_check _) as [s| |] eqn:Ck in E; cbn [bind] in E; try discriminate E.
      apply dtm_check_same in Ck. rewrite Ck in E. clear Ck.
      unfold zvalue_to_index in E. cbn [zd dk dtkind_eqb negb] in E.
      unfold zsub, common, same_tzinfo in E. cbn [zz zd dv] in E. rewrite Nat.eqb_refl in E. cbn [bind] in E.
      replace (REF * DAY + t1 + DAY - (REF * DAY + t1)) with DAY in E by lia.
      unfold td_divmod in *. destruct (step =? 0); [discriminate E|]. cbn [bind] in E. eexists. split; [reflexivity|exact E].
    - apply Z.eqb_neq in Z0. unfold zvalue_to_index in E. cbn [zd dk dtkind_eqb negb] in E. unfold zlt in E. unfold aware_time in Cm, Cm'.
      rewrite Cm, Cm' in E. cbn [bind] in E.
      set (vd := if (p' <? q') && (0 <? step) then REF + 2 else if (p <? q) && (step <? 0) then REF else REF + 1) in E.
      destruct (steady_common tz (combine vd (aware_time t2 z2)) (combine (REF + 1) (aware_time t1 z1)) z2 y z1 x S2 S1 eq_refl eq_refl ltac:(discriminate) ltac:(discriminate)) as (a & b & Cc & Hab).
      unfold aware_time in Cc. unfold zsub in E. rewrite Cc in E. cbn [bind] in E. unfold combine, aware_time in Hab. cbn [zd dv] in Hab.
      assert (W : a - b = (if (t2 - y - (t1 - x) <? 0) && (0 <? step) then t2 - y - (t1 - x) + DAY
              else if (0 <? t2 - y - (t1 - x)) && (step <? 0) then t2 - y - (t1 - x) - DAY else t2 - y - (t1 - x))).
      { assert (A1 : (p' <? q') = (t2 - y - (t1 - x) <? 0)) by (apply Bool.eq_iff_eq_true; rewrite !Z.ltb_lt; lia).
        assert (A2 : (p <? q) = (0 <? t2 - y - (t1 - x))) by (apply Bool.eq_iff_eq_true; rewrite !Z.ltb_lt; lia).
        subst vd. rewrite A1, A2 in Hab. unfold REF, DAY in *.
        revert Hab. clear. destruct ((t2 - y - (t1 - x) <? 0) && (0 <? step)); [lia|].
        destruct ((0 <? t2 - y - (t1 - x)) && (step <? 0)); lia. }
      rewrite W in E. unfold td_divmod in *. destruct (step =? 0); [discriminate E|]. cbn [bind] in E. eexists. split; [reflexivity|exact E]. }
  destruct D as (k & Dv & Nw). set (far := way (t1 - x) (t2 - y) step) in *. unfold td_divmod in Dv.
  destruct (step =? 0) eqn:S0; [discriminate Dv|]. apply Z.eqb_neq in S0. injection Dv as <-.
  unfold zdtr_new in Nw. destruct (step_ok _ _); [|discriminate Nw]. injection Nw as <-. cbn [zr_start zr_step zr_length].
  split; [reflexivity|]. split; [reflexivity|].
  pose proof (Z.div_mod far step S0) as DM. set (m := far mod step) in *. set (g := far / step) in *.
  destruct (Z.lt_total 0 step) as [Pos|[Zr|Neg]]; [|congruence|].
  - left. assert (0 <= m < step) by (apply Z.mod_pos_bound; lia). split; [exact Pos|]. destruct (Z.eqb_spec m 0); nia.
  - right. assert (step < m <= 0) by (apply Z.mod_neg_bound; lia). split; [exact Neg|]. destruct (Z.eqb_spec m 0); nia.
Qed.
(** From 10 o'clock, UTC, to 10 o'clock one hour to the east is 23 hours. *)
Example C75_length_case :
  steady (some_tz 0) 0 /\ steady (some_tz 1) HOUR /\
  zdtrange some_tz (aware_time (10 * HOUR) 0) (aware_time (10 * HOUR) 1) HOUR = Ok (mkZr (aware_time (10 * HOUR) 0) 23 HOUR) /\
  zdtrange some_tz (aware_time (10 * HOUR) 0) (aware_time (11 * HOUR) 1) HOUR = Ok (mkZr (aware_time (10 * HOUR) 0) 24 HOUR).
Proof. split; [split; reflexivity|]. split; [split; reflexivity|]. vm_compute. split; reflexivity. Qed.

(** ** C76 Equality and hashing *)

Section Equality.
  Context (tz : nat -> zone).

  (** Equal values have the same hash. *)
  Lemma zeq_hash a b : zeq tz a b = true -> zhash_key tz a = zhash_key tz b.
  Proof.
    unfold zeq. intros H. apply andb_prop in H. destruct H as [K H].
    assert (KE : dk (zd a) = dk (zd b)) by (destruct (dk (zd a)), (dk (zd b)); try discriminate; reflexivity).
    unfold common in H. destruct (same_tzinfo a b) eqn:S.
    - apply andb_prop in H. destruct H as [H _]. apply Z.eqb_eq in H. unfold same_tzinfo in S.
      unfold zhash_key, utcoffset. cbn [zd zz zfold]. rewrite KE, H.
      destruct (zz a) as [x|], (zz b) as [y|]; try discriminate; [|reflexivity]. apply Nat.eqb_eq in S. subst y. reflexivity.
    - assert (Off : forall d, fold_matters tz d = false -> utcoffset tz (mkZ (zd d) (zz d) false) = utcoffset tz d).
      { intros d F. unfold fold_matters in F. unfold utcoffset. cbn [zd zz zfold]. destruct (zz d) as [x|]; [|reflexivity].
        destruct (dk (zd d)); try reflexivity. destruct (zfold d); [|reflexivity].
        destruct (off_at (tz x) (dv (zd d)) false) as [p|], (off_at (tz x) (dv (zd d)) true) as [q|]; try discriminate; [|reflexivity].
        apply Bool.negb_false_iff, Z.eqb_eq in F. congruence. }
      assert (X : exists x y, (match utcoffset tz a, utcoffset tz b with
                  | None, None => Some (dv (zd a), dv (zd b))
                  | Some x, Some y => Some (dv (zd a) - x, dv (zd b) - y)
                  | _, _ => None end) = Some (x, y) /\ x = y /\ fold_matters tz a = false /\ fold_matters tz b = false).
      { destruct (match utcoffset tz a, utcoffset tz b with
                  | None, None => Some (dv (zd a), dv (zd b))
                  | Some x, Some y => Some (dv (zd a) - x, dv (zd b) - y)
                  | _, _ => None end) as [[x y]|]; [|discriminate].
        apply andb_prop in H. destruct H as [H F]. cbn in F. apply Z.eqb_eq in H. apply Bool.negb_true_iff, Bool.orb_false_iff in F.
        exists x, y. repeat split; auto; apply F. }
      destruct X as (x & y & E & <- & Fa & Fb). unfold zhash_key. rewrite (Off a Fa), (Off b Fb), KE.
      destruct (utcoffset tz a), (utcoffset tz b); try discriminate; injection E as E1 E2; congruence.
  Qed.

  (** Equal ranges have the same hash, whatever the zones. *)
  Theorem C76_hash a b : zdtr_eq tz a b = Ok true ->
    exists k, zdtr_hash_key tz a = Ok k /\ zdtr_hash_key tz b = Ok k.
  Proof.
    unfold zdtr_eq, zdtr_hash_key. destruct (zdtr_len a) as [n| |]; cbn [bind]; try discriminate.
    destruct (zdtr_len b) as [m| |]; cbn [bind]; try discriminate.
    destruct (Z.eqb_spec n m) as [<-|N]; cbn [negb]; [|discriminate].
    destruct (Z.eqb_spec n 0) as [->|N0]; [intros _; eexists; split; reflexivity|].
    destruct (Z.eqb_spec n 1) as [->|N1].
    - intros H. apply ok_inj in H. change (0 <? 1) with true. change (1 <? 1) with false. cbv iota.
      rewrite (zeq_hash _ _ H). eexists; split; reflexivity.
    - intros H. apply ok_inj, andb_prop in H. destruct H as [H S]. apply Z.eqb_eq in S. rewrite (zeq_hash _ _ H), S.
      eexists; split; reflexivity.
  Qed.

  (** Equal ranges of datetimes in zones with constant offsets have equal elements. *)
  Theorem C76_elements s t y z p q n m step step' i e e' : steady (tz y) p -> steady (tz z) q ->
    zdtr_eq tz (mkZr (aware s y) n step) (mkZr (aware t z) m step') = Ok true ->
    0 <= i -> zdtr_get (mkZr (aware s y) n step) i = Ok e -> zdtr_get (mkZr (aware t z) m step') i = Ok e' ->
    zeq tz e e' = true.
  Proof.
    intros Hp Hq E Hi G G'. destruct (get_aware tz _ _ _ _ _ _ Hi G) as [L ->]. destruct (get_aware tz _ _ _ _ _ _ Hi G') as [L' ->].
    assert (Q : forall a b, zeq tz (aware a y) (aware b z) = true <-> a - p = b - q).
    { intros a b. unfold zeq, common, same_tzinfo, utcoffset, fold_matters. cbn [zd aware zz dk dv dtkind_eqb andb zfold].
      destruct Hp as [_ Hp], Hq as [_ Hq]. rewrite !Hp, !Hq, !Z.eqb_refl. cbn [negb orb].
      destruct (Nat.eqb_spec y z) as [<-|N].
      - assert (p = q) as -> by (specialize (Hp 0 false); specialize (Hq 0 false); congruence).
        rewrite Bool.andb_true_r, Z.eqb_eq. lia.
      - rewrite Bool.andb_true_r, Z.eqb_eq. reflexivity. }
    unfold zdtr_eq, zdtr_len, ssize_check in E. cbn [zr_start zr_length zr_step] in E.
    destruct (n <? 0); [discriminate|]. destruct (MAXSSIZE <? n); [discriminate|]. cbn [bind] in E.
    destruct (m <? 0); [discriminate|]. destruct (MAXSSIZE <? m); [discriminate|]. cbn [bind] in E.
    destruct (Z.eqb_spec n m) as [<-|N]; cbn [negb] in E; [|discriminate].
    destruct (Z.eqb_spec n 0) as [->|N0]; [lia|].
    destruct (Z.eqb_spec n 1) as [->|N1].
    - apply ok_inj, Q in E. apply Q. assert (i = 0) as -> by lia. lia.
    - apply ok_inj, andb_prop in E. destruct E as [E S]. apply Z.eqb_eq in S. subst step'. apply Q in E. apply Q. lia.
  Qed.
End Equality.

(** In other cases they need not: ranges of times, *)
Definition C76_elements_statement : Prop :=
  forall tz a b i e e', zdtr_eq tz a b = Ok true -> 0 <= i ->
    zdtr_get a i = Ok e -> zdtr_get b i = Ok e' -> zeq tz e e' = true.
Theorem C76_elements_refuted : ~ C76_elements_statement.
Proof.
  intros H. specialize (H some_tz (mkZr (aware_time (10 * HOUR) 0) 2 HOUR) (mkZr (aware_time (11 * HOUR) 1) 2 HOUR) 0
    (naive (Dt KTime (10 * HOUR))) (naive (Dt KTime (11 * HOUR)))).
  assert (Q : zeq some_tz (naive (Dt KTime (10 * HOUR))) (naive (Dt KTime (11 * HOUR))) = true).
  { apply H; try (vm_compute; reflexivity). discriminate. }
  vm_compute in Q. discriminate.
Qed.
(** and ranges of datetimes in a zone whose offset changes. *)
Theorem C76_elements_datetimes_refuted :
  ~ forall tz s t y z n step i e e', zdtr_eq tz (mkZr (aware s y) n step) (mkZr (aware t z) n step) = Ok true -> 0 <= i ->
    zdtr_get (mkZr (aware s y) n step) i = Ok e -> zdtr_get (mkZr (aware t z) n step) i = Ok e' -> zeq tz e e' = true.
Proof.
  intros H. specialize (H some_tz T0 T0 2%nat 1%nat 4 HOUR 3 (aware (T0 + 3 * HOUR) 2) (aware (T0 + 3 * HOUR) 1)).
  assert (Q : zeq some_tz (aware (T0 + 3 * HOUR) 2) (aware (T0 + 3 * HOUR) 1) = true).
  { apply H; try (vm_compute; reflexivity). discriminate. }
  vm_compute in Q. discriminate.
Qed.
Example C76_case :
  zdtr_eq some_tz (mkZr (aware T0 1) 3 HOUR) (mkZr (aware (T0 - HOUR) 0) 3 HOUR) = Ok true /\
  zdtr_hash_key some_tz (mkZr (aware T0 1) 3 HOUR) = Ok (3, Some (KDateTime, true, T0 - HOUR), Some HOUR) /\
  zdtr_get (mkZr (aware T0 1) 3 HOUR) 1 = Ok (aware (T0 + HOUR) 1) /\
  zdtr_get (mkZr (aware (T0 - HOUR) 0) 3 HOUR) 1 = Ok (aware T0 0) /\
  zdtr_eq some_tz (mkZr (aware T0 1) 3 HOUR) (mkZr (aware T0 0) 3 HOUR) = Ok false.
Proof. vm_compute. repeat split. Qed.

Print Assumptions C74_naive.
Print Assumptions C74_same_zone.
Print Assumptions C74_same_zone_obtained.
Print Assumptions C74_two_zones.
Print Assumptions C74_membership.
Print Assumptions C74_membership_same.
Print Assumptions C74_mixed.
Print Assumptions C74_any_zones_refuted.
Print Assumptions C74_any_member_refuted.
Print Assumptions C75_naive_elements.
Print Assumptions C75_no_element_inside.
Print Assumptions C75_zone_refuted.
Print Assumptions C75_length.
Print Assumptions C76_hash.
Print Assumptions C76_elements.
Print Assumptions C76_elements_refuted.
Print Assumptions C76_elements_datetimes_refuted.
