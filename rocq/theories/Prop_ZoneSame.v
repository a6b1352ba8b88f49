(** * Ranges of datetimes with one time zone: property C80. *)
From Verif Require Import Base PyRange DtModel DtSpec DtProofs DtZone Prop_Dt Prop_Zone.
Open Scope list_scope.
Open Scope Z_scope.

(** ** Specification *)

(** The naive datetime [d] with the tzinfo object [z] and the fold [f] put in:
    [d.replace(tzinfo=z, fold=f)] *)
Definition put (z : nat) (f : bool) (d : dt) : zdt := mkZ d (Some z) f.
Definition put_range (z : nat) (f : bool) (r : dtr) : zdtr := mkZr (put z f (r_start r)) (r_length r) (r_step r).
(** What a call returns, changed by [f]; the same exception if it raises one. *)
Definition then_ {A B} (f : A -> B) (r : res A) : res B :=
  match r with Ok a => Ok (f a) | Raise e => Raise e | Diverge => Diverge end.
(** [list(r)]: [r[0]], [r[1]], ... *)
Definition zdtr_list (r : zdtr) : res (list zdt) :=
  n <- zdtr_len r ;; mapM (fun k => zdtr_get r (Z.of_nat k)) (seq 0 (Z.to_nat n)).
Definition is_datetime (d : dt) : Prop := dk d = KDateTime.

(** ** Proofs *)

Lemma select_of_map A B (f : A -> B) p l : select p (map f l) = map f (select p l).
Proof.
  unfold select. generalize 0. induction l as [|a l IH]; intros x; [reflexivity|].
  cbn [map select_from]. rewrite IH. destruct (p x); reflexivity.
Qed.
Lemma sliced_of_map A B (f : A -> B) l a b k : sliced (map f l) a b k = map f (sliced l a b k).
Proof.
  unfold sliced, zlen. rewrite map_length. destruct (0 <? k); rewrite select_of_map; [reflexivity|].
  rewrite map_rev. reflexivity.
Qed.

Section Same.
  Context (tz : nat -> zone) (z : nat).

  Lemma put_index f i s step : is_datetime s ->
    zindex_to_value i (put z f s) step = then_ (put z false) (index_to_value i s step).
  Proof.
    unfold is_datetime. intros K. unfold zindex_to_value, index_to_value, put, zadd. cbn [zd zz zfold].
    destruct (td_check _) as [d| |]; cbn [bind then_]; try reflexivity. rewrite K. destruct (dtm_check _); reflexivity.
  Qed.
  Lemma put_value f g v s step : is_datetime s ->
    zvalue_to_index tz (put z g v) (put z f s) step = value_to_index v s step.
  Proof.
    unfold is_datetime. intros K. unfold zvalue_to_index, value_to_index, put, zsub, common, same_tzinfo. cbn [zd zz zfold].
    destruct (negb _); [reflexivity|]. rewrite K, Nat.eqb_refl. reflexivity.
  Qed.
  Lemma put_eq f g a b : zeq tz (put z f a) (put z g b) = dt_eqb a b.
  Proof.
    unfold zeq, dt_eqb, put, common, same_tzinfo. cbn [zd zz]. rewrite Nat.eqb_refl. cbn [orb]. rewrite Bool.andb_true_r. reflexivity.
  Qed.
  Lemma then_bind A B C (f : A -> B) (r : res A) (k : B -> res C) : bind (then_ f r) k = bind r (fun a => k (f a)).
  Proof. destruct r; reflexivity. Qed.

  Lemma put_get f r i : is_datetime (r_start r) -> zdtr_get (put_range z f r) i = then_ (put z false) (dtr_get r i).
  Proof.
    intros K. unfold zdtr_get, dtr_get, zindex_range, index_range, put_range. cbn [zr_start zr_length zr_step].
    destruct (rg_get _ _) as [n| |]; cbn [bind then_]; try reflexivity. apply put_index, K.
  Qed.
  Lemma put_at f r v a b g : is_datetime (r_start r) ->
    zdtr_index tz (put_range z f r) (put z g v) a b = dtr_index r (ODt v) a b.
  Proof.
    intros K. unfold zdtr_index, dtr_index, zisinstance. cbn [zr_start zr_step put_range].
    change (zd (put z g v)) with v. change (zd (put z f (r_start r))) with (r_start r).
    destruct (isinstance_of _ _); [|reflexivity]. rewrite put_value by exact K.
    destruct (value_to_index _ _ _) as [[k m]| |]; reflexivity.
  Qed.
  Lemma put_contains f r v g : is_datetime (r_start r) ->
    zdtr_contains tz (put_range z f r) (put z g v) = dtr_contains r (ODt v).
  Proof. intros K. unfold zdtr_contains, dtr_contains. rewrite put_at by exact K. reflexivity. Qed.
  Lemma put_list f r : is_datetime (r_start r) ->
    zdtr_list (put_range z f r) = then_ (map (put z false)) (dtr_list r).
  Proof.
    intros K. unfold zdtr_list, dtr_list. change (zdtr_len (put_range z f r)) with (dtr_len r).
    destruct (dtr_len r) as [n| |]; cbn [bind then_]; try reflexivity.
    induction (seq 0 (Z.to_nat n)) as [|k ks IH]; [reflexivity|]. cbn [mapM]. rewrite put_get by exact K. rewrite IH.
    destruct (dtr_get r (Z.of_nat k)); cbn [bind then_]; try reflexivity.
    destruct (mapM (fun k : nat => dtr_get r (Z.of_nat k)) ks); reflexivity.
  Qed.

  (** Every operation on a range of datetimes with one tzinfo object [z], whatever
      its offsets and whatever the folds, does what it does on the naive datetimes;
      elements, slices and [stop] have [z] put in, and fold 0. *)
  Theorem C80_as_naive (r r' : dtr) (f g : bool) : is_datetime (r_start r) ->
    (forall a b step, is_datetime a -> is_datetime b ->
       zdtrange tz (put z f a) (put z g b) step = then_ (put_range z f) (dtrange_core a b step)) /\
    zdtr_len (put_range z f r) = dtr_len r /\
    (forall i, zdtr_get (put_range z f r) i = then_ (put z false) (dtr_get r i)) /\
    zdtr_list (put_range z f r) = then_ (map (put z false)) (dtr_list r) /\
    (forall s, zdtr_slice (put_range z f r) s = then_ (put_range z false) (dtr_slice r s)) /\
    zdtr_stop (put_range z f r) = then_ (put z false) (dtr_stop r) /\
    (forall v a b, zdtr_index tz (put_range z f r) (put z g v) a b = dtr_index r (ODt v) a b) /\
    (forall v, zdtr_contains tz (put_range z f r) (put z g v) = dtr_contains r (ODt v)) /\
    (forall v, zdtr_count tz (put_range z f r) (put z g v) = dtr_count r (ODt v)) /\
    zdtr_eq tz (put_range z f r) (put_range z g r') = dtr_eq r r'.
  Proof.
    intros K. repeat split.
    - unfold is_datetime. intros a b step Ka Kb. unfold zdtrange, dtrange_core. change (zd (put z f a)) with a. change (zd (put z g b)) with b.
      rewrite Ka, Kb. cbn [dtkind_eqb negb andb]. rewrite put_value by exact Ka.
      destruct (value_to_index _ _ _) as [[k m]| |]; cbn [bind then_]; try reflexivity.
      unfold zdtr_new, dtr_new. change (zd (put z f a)) with a. destruct (step_ok _ _); reflexivity.
    - intros i. apply put_get, K.
    - apply put_list, K.
    - intros s. unfold zdtr_slice, dtr_slice, zindex_range, index_range, put_range. cbn [zr_start zr_length zr_step].
      destruct (rg_slice _ _) as [n| |]; cbn [bind then_]; try reflexivity. rewrite put_index by exact K. rewrite then_bind.
      destruct (index_to_value _ _ _) as [x| |]; cbn [bind then_]; try reflexivity.
      destruct (ssize_check _) as [k| |]; cbn [bind then_]; try reflexivity.
      destruct (td_check _) as [k'| |]; cbn [bind then_]; try reflexivity.
      unfold zdtr_new, dtr_new. change (zd (put z false x)) with x. destruct (step_ok _ _); reflexivity.
    - unfold zdtr_stop, dtr_stop. change (zdtr_len (put_range z f r)) with (dtr_len r).
      destruct (dtr_len r) as [n| |]; cbn [bind then_]; try reflexivity. apply put_index, K.
    - intros v a b. apply put_at, K.
    - intros v. apply put_contains, K.
    - intros v. unfold zdtr_count, dtr_count. rewrite put_contains by exact K. reflexivity.
    - unfold zdtr_eq, dtr_eq. change (zdtr_len (put_range z f r)) with (dtr_len r). change (zdtr_len (put_range z g r')) with (dtr_len r').
      destruct (dtr_len r) as [n| |]; cbn [bind]; try reflexivity. destruct (dtr_len r') as [m| |]; cbn [bind]; try reflexivity.
      cbn [zr_start zr_step put_range]. rewrite put_eq. reflexivity.
  Qed.

  (** Slicing: [list(r[a:b:c])] is [list(r)[a:b:c]]; the slice can be taken unless
      it is empty or its step is too large. *)
  Theorem C80_slicing (r : dtr) (f : bool) (l : list zdt) (s : pyslice) : is_datetime (r_start r) -> dt_valid (r_start r) ->
    zdtr_list (put_range z f r) = Ok l -> sl_stepv s <> 0 ->
    (forall r', zdtr_slice (put_range z f r) s = Ok r' ->
       zdtr_list r' = Ok (sliced l (sl_start s) (sl_stop s) (sl_stepv s))) /\
    (sliced l (sl_start s) (sl_stop s) (sl_stepv s) <> [] -> td_valid (r_step r * sl_stepv s) ->
       exists r', zdtr_slice (put_range z f r) s = Ok r').
  Proof.
    intros K V L Ks. destruct (C80_as_naive r r f f K) as (_ & _ & _ & EL & ES & _). rewrite EL in L.
    destruct (dtr_list r) as [l0| |] eqn:L0; cbn [then_] in L; try discriminate. apply ok_inj in L. subst l.
    assert (F : step_fits (r_start r) (r_step r)) by (unfold step_fits; rewrite K; exact I).
    destruct (C05_slicing_partial r l0 s V F (or_intror K) L0) as (A & B & _).
    rewrite sliced_of_map, ES. split.
    - intros r' Q. destruct (dtr_slice r s) as [r0| |] eqn:S0; cbn [then_] in Q; try discriminate. apply ok_inj in Q. subst r'.
      destruct (A r0 eq_refl) as (L1 & K1 & _). rewrite put_list by (unfold is_datetime; congruence). rewrite L1. reflexivity.
    - intros N T. destruct B as [r0 S0]; auto; [intros Q; apply N; rewrite Q; reflexivity|]. rewrite S0. eexists. reflexivity.
  Qed.

  (** The first element is [start] with fold 0, so it equals [start], but it is at
      the same instant only if the offset does not depend on the fold. *)
  Theorem C80_first (r : dtr) (f : bool) : is_datetime (r_start r) -> dt_valid (r_start r) -> 0 < r_length r ->
    zdtr_get (put_range z f r) 0 = Ok (put z false (r_start r)) /\
    zeq tz (put z false (r_start r)) (put z f (r_start r)) = true /\
    (f = false \/ off_at (tz z) (dv (r_start r)) f = off_at (tz z) (dv (r_start r)) false ->
       instant tz (put z false (r_start r)) = instant tz (put z f (r_start r))).
  Proof.
    intros K V N. split; [|split].
    - rewrite put_get by exact K. unfold dtr_get, index_range. rewrite rg_get_in by lia. cbn [bind].
      unfold index_to_value. rewrite Z.mul_0_r. change (td_check 0) with (@Ok Z 0). cbn [bind]. unfold is_datetime in K. rewrite K.
      unfold dt_valid in V. rewrite K in V. unfold dtm_check. rewrite Z.add_0_r.
      rewrite (proj2 (Z.leb_le _ _) (proj1 V)), (proj2 (Z.ltb_lt _ _) (proj2 V)). cbn [andb bind then_].
      destruct (r_start r); cbn in K; subst; reflexivity.
    - rewrite put_eq. unfold dt_eqb. rewrite Z.eqb_refl. destruct (dk (r_start r)); reflexivity.
    - unfold instant, utcoffset, put. cbn [zd zz zfold]. rewrite K. intros [->|E]; [reflexivity|]. rewrite E. reflexivity.
  Qed.

  (** In a zone with a constant offset, element [i] is [i * step] after start in
      time, not only on the clock. *)
  Theorem C80_spacing_partial (r : dtr) (f : bool) o i e : is_datetime (r_start r) -> steady (tz z) o ->
    0 <= i -> zdtr_get (put_range z f r) i = Ok e ->
    instant tz e = instant tz (put z f (r_start r)) + r_step r * i.
  Proof.
    intros K [_ S] Hi G. unfold put_range in G. destruct (r_start r) as [k t] eqn:E0. unfold is_datetime in K. cbn in K. subst k.
    unfold zdtr_get, zindex_range in G. cbn [zr_start zr_length zr_step] in G.
    destruct (rg_get _ _) as [n| |] eqn:R; try discriminate. cbn [bind] in G.
    assert (n = i) as ->.
    { pose proof (rg_get_inv _ _ _ R). destruct (Z.lt_ge_cases i (r_length r)) as [L|L].
      - rewrite rg_get_in in R by lia. apply ok_inj in R. lia.
      - exfalso. revert R. unfold rg_get, rg_len. cbn [rg_start rg_stop rg_step]. rewrite (proj2 (Z.ltb_lt 0 1)), Z.div_1_r by lia.
        rewrite (proj2 (Z.ltb_ge i 0)) by lia. rewrite Bool.andb_comm.
        destruct (Z.ltb_spec 0 (r_length r)); rewrite (proj2 (Z.ltb_ge i _)) by lia; cbn; discriminate. }
    unfold zindex_to_value, zadd, put in G. cbn [zd dk dv zz] in G.
    unfold td_check, dtm_check in G. destruct (_ && _) in G; cbn [bind] in G; [|discriminate].
    destruct (_ && _) in G; cbn [bind] in G; [|discriminate]. apply ok_inj in G. subst e.
    unfold instant, utcoffset, put. cbn [zd zz zfold dk dv]. rewrite !S. lia.
  Qed.
End Same.

(** ** Where time and the clock differ *)

(** Clocks go back an hour, from 03:00 to 02:00: times from 02:00 to 03:00 occur
    twice, the second time with fold 1. *)
Definition autumn : zone :=
  mkZone None (fun t fold => Some (if t <? T0 + 2 * HOUR then 2 * HOUR
                                   else if t <? T0 + 3 * HOUR then (if fold then HOUR else 2 * HOUR) else HOUR)).
Definition autumn_tz (z : nat) : zone := autumn.

(** A range starts at start. *)
Definition C80_first_statement : Prop :=
  forall tz a b step r e, 0 < step -> zdtrange tz a b step = Ok r -> zdtr_get r 0 = Ok e -> instant tz e = instant tz a.
Theorem C80_first_refuted : ~ C80_first_statement.
Proof.
  intros H. set (a := put 0 true (Dt KDateTime (T0 + 2 * HOUR))).
  assert (Q : instant autumn_tz (put 0 false (Dt KDateTime (T0 + 2 * HOUR))) = instant autumn_tz a).
  { apply (H autumn_tz a (put 0 false (Dt KDateTime (T0 + 5 * HOUR))) HOUR (mkZr a 3 HOUR)); vm_compute; reflexivity. }
  vm_compute in Q. discriminate.
Qed.
(** Elements are a step apart. *)
Definition C80_spacing_statement : Prop :=
  forall tz a b step r i d e, zz a = zz b -> 0 < step -> zdtrange tz a b step = Ok r -> 0 <= i ->
    zdtr_get r i = Ok d -> zdtr_get r (i + 1) = Ok e -> instant tz e = instant tz d + step.
Theorem C80_spacing_refuted : ~ C80_spacing_statement.
Proof.
  intros H. set (a := put 0 false (Dt KDateTime T0)).
  assert (Q : instant autumn_tz (put 0 false (Dt KDateTime (T0 + 3 * HOUR))) =
              instant autumn_tz (put 0 false (Dt KDateTime (T0 + 2 * HOUR))) + HOUR).
  { apply (H autumn_tz a (put 0 false (Dt KDateTime (T0 + 5 * HOUR))) HOUR (mkZr a 5 HOUR) 2); try (vm_compute; reflexivity).
    discriminate. }
  vm_compute in Q. discriminate.
Qed.

(** A case: 00:00, 02:00, 04:00, 06:00; the last two, backwards *)
Example C80_case :
  let at_ h := Dt KDateTime (T0 + h * HOUR) in
  let r := mkDtr (at_ 0) 4 (2 * HOUR) in
  zdtrange autumn_tz (put 0 true (at_ 0)) (put 0 false (at_ 7)) (2 * HOUR) = Ok (put_range 0 true r) /\
  zdtr_list (put_range 0 true r) = Ok (map (put 0 false) [at_ 0; at_ 2; at_ 4; at_ 6]) /\
  zdtr_slice (put_range 0 true r) (mkSlice None (Some 1) (Some (-1))) = Ok (put_range 0 false (mkDtr (at_ 6) 2 (- (2 * HOUR)))) /\
  zdtr_list (put_range 0 false (mkDtr (at_ 6) 2 (- (2 * HOUR)))) = Ok (map (put 0 false) [at_ 6; at_ 4]) /\
  sliced (map (put 0 false) [at_ 0; at_ 2; at_ 4; at_ 6]) None (Some 1) (-1) = map (put 0 false) [at_ 6; at_ 4] /\
  zdtr_index autumn_tz (put_range 0 true r) (put 0 true (at_ 2)) None None = Ok 1 /\
  zdtr_stop (put_range 0 true r) = Ok (put 0 false (at_ 8)).
Proof. vm_compute. repeat split. Qed.
Example C80_steady_case :
  steady utc 0 /\ zdtr_get (put_range 0 true (mkDtr (Dt KDateTime T0) 4 HOUR)) 3 = Ok (put 0 false (Dt KDateTime (T0 + 3 * HOUR))).
Proof. vm_compute. repeat split. Qed.

Print Assumptions C80_as_naive.
Print Assumptions C80_slicing.
Print Assumptions C80_first.
Print Assumptions C80_spacing_partial.
Print Assumptions C80_first_refuted.
Print Assumptions C80_spacing_refuted.
