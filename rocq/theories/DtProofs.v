(** * Proofs about the dtrange model. *)
From Coq Require Import Sorting.Sorted Permutation.
From Verif Require Import Base PyRange DtModel DtSpec DtFloat.
Open Scope Z_scope.

Ltac inv H := inversion H; subst; clear H.
Ltac Zify.zify_post_hook ::= Z.div_mod_to_equations.

Lemma DAY_pos : 0 < DAY. Proof. reflexivity. Qed.

Lemma bind_ok : forall A B (r : res A) (f : A -> res B) b,
  (x <- r ;; f x) = Ok b -> exists a, r = Ok a /\ f a = Ok b.
Proof. intros A B [a|e|] f b H; simpl in H; try discriminate. eauto. Qed.

Lemma Ok_inj : forall A (a b : A), Ok a = Ok b -> a = b.
Proof. intros A a b H. now inversion H. Qed.
Ltac oinv H := apply Ok_inj in H; try subst.

Ltac binv H :=
  let a := fresh "a" in let E := fresh "E" in
  apply bind_ok in H; destruct H as (a & E & H).

(** ** Lists of integer positions *)
Definition zseq (n : Z) : list Z := map Z.of_nat (seq 0 (Z.to_nat n)).

Lemma zseq_length : forall n, length (zseq n) = Z.to_nat n.
Proof. intros. unfold zseq. now rewrite map_length, seq_length. Qed.

Lemma in_zseq : forall n x, In x (zseq n) <-> 0 <= x < n.
Proof.
  intros. unfold zseq. rewrite in_map_iff. split.
  - intros (k & <- & H). apply in_seq in H. lia.
  - intros H. exists (Z.to_nat x). split; [lia|]. apply in_seq. lia.
Qed.

Lemma StronglySorted_seq : forall n k, StronglySorted Z.lt (map Z.of_nat (seq k n)).
Proof.
  induction n; intros k; simpl; constructor.
  - apply IHn.
  - apply Forall_forall. intros x Hx. apply in_map_iff in Hx. destruct Hx as (y & <- & Hy).
    apply in_seq in Hy. lia.
Qed.
Lemma StronglySorted_zseq : forall n, StronglySorted Z.lt (zseq n).
Proof. intros. apply StronglySorted_seq. Qed.

Lemma StronglySorted_filter : forall (R : Z -> Z -> Prop) p l, StronglySorted R l -> StronglySorted R (filter p l).
Proof.
  intros R p l H. induction H; simpl; [constructor|].
  destruct (p a); auto. constructor; auto.
  rewrite Forall_forall in *. intros x Hx. apply filter_In in Hx. apply H0. tauto.
Qed.

Lemma StronglySorted_ext : forall l1 l2, StronglySorted Z.lt l1 -> StronglySorted Z.lt l2 ->
  (forall x, In x l1 <-> In x l2) -> l1 = l2.
Proof.
  intros l1 l2 H1. revert l2. induction H1 as [|a l1 H1 IH F1]; intros l2 H2 E.
  - destruct l2; auto. exfalso. apply (E z). now left.
  - destruct H2 as [|b l2 H2 F2].
    + exfalso. apply (E a). now left.
    + rewrite Forall_forall in F1, F2.
      assert (a = b).
      { destruct (proj1 (E a) (or_introl eq_refl)) as [|Ha]; auto.
        destruct (proj2 (E b) (or_introl eq_refl)) as [|Hb]; auto.
        specialize (F1 b Hb). specialize (F2 a Ha). lia. }
      subst b. f_equal. apply IH; auto.
      intros x. split; intros Hx.
      * destruct (proj1 (E x) (or_intror Hx)) as [->|]; auto. specialize (F1 x Hx). lia.
      * destruct (proj2 (E x) (or_intror Hx)) as [->|]; auto. specialize (F2 x Hx). lia.
Qed.

Lemma filter_map_comm : forall A B (f : A -> B) p (l : list A),
  filter p (map f l) = map f (filter (fun x => p (f x)) l).
Proof. induction l; simpl; auto. destruct (p (f a)); simpl; now rewrite IHl. Qed.

Lemma select_from_map : forall A (f : Z -> A) p n k,
  select_from p (Z.of_nat k) (map f (map Z.of_nat (seq k n)))
  = map f (filter p (map Z.of_nat (seq k n))).
Proof.
  induction n; intros k; [reflexivity|].
  cbn [seq map select_from filter].
  replace (Z.of_nat k + 1) with (Z.of_nat (S k)) by lia.
  rewrite IHn. destruct (p (Z.of_nat k)); reflexivity.
Qed.

Lemma select_map_zseq : forall A (f : Z -> A) p n,
  select p (map f (zseq n)) = map f (filter p (zseq n)).
Proof. intros. unfold select, zseq. apply (select_from_map A f p (Z.to_nat n) 0). Qed.

(** ** Slicing [range(0, n)] *)
Definition slice_idx (i k m : Z) : list Z := map (fun t => i + t * k) (zseq m).

Lemma rg_len_0 : forall n, rg_len (mkRange 0 n 1) = Z.max 0 n.
Proof.
  intros. unfold rg_len. cbn [rg_step rg_start rg_stop]. change (0 <? 1) with true. cbv iota.
  destruct (Z.ltb_spec 0 n).
  - rewrite Z.div_1_r. lia.
  - lia.
Qed.

Lemma rg_get_0 : forall n i, rg_get (mkRange 0 n 1) i =
  let j := if i <? 0 then i + Z.max 0 n else i in
  if (0 <=? j) && (j <? n) then Ok j else Raise IndexError.
Proof.
  intros. unfold rg_get. rewrite rg_len_0. cbn [rg_step rg_start rg_stop]. cbv zeta.
  rewrite Z.mul_1_r, Z.add_0_l.
  destruct (Z.ltb_spec i 0); destruct (Z.leb_spec 0 (i + Z.max 0 n));
  destruct (Z.ltb_spec (i + Z.max 0 n) (Z.max 0 n)); destruct (Z.ltb_spec (i + Z.max 0 n) n);
  destruct (Z.leb_spec 0 i); destruct (Z.ltb_spec i n); destruct (Z.ltb_spec i (Z.max 0 n)); simpl; try reflexivity; try lia.
Qed.

Lemma sl_bound_clip : forall lo hi n d b, 0 <= n -> (lo <= 0 /\ n - 1 <= hi /\ lo <= hi) ->
  sl_bound lo hi n d b = match b with None => d | Some x => clip lo hi (from_end n x) end.
Proof.
  intros lo hi n d [x|] Hn Hh; simpl; auto. unfold clip, from_end.
  destruct (Z.ltb_spec x 0); lia.
Qed.

(** The arithmetic of range slicing picks exactly the positions of the
    specification. *)
Lemma slice_positions_pos : forall n i j k, 0 <= n -> 0 < k -> 0 <= i <= n -> 0 <= j <= n ->
  slice_idx i k (rg_len (mkRange i j k))
  = filter (fun x => (i <=? x) && (x <? j) && ((x - i) mod k =? 0)) (zseq n).
Proof.
  intros n i j k Hn Hk Hi Hj.
  apply StronglySorted_ext.
  - unfold slice_idx, zseq. generalize (Z.to_nat (rg_len (mkRange i j k))) as m.
    intros m. generalize 0%nat as s. revert i j Hi Hj. induction m; intros i j Hi Hj s; simpl; constructor; eauto.
    apply Forall_forall. intros x Hx. apply in_map_iff in Hx. destruct Hx as (y & <- & Hy).
    apply in_map_iff in Hy. destruct Hy as (z & <- & Hz). apply in_seq in Hz. nia.
  - apply StronglySorted_filter, StronglySorted_zseq.
  - intros x. unfold slice_idx. rewrite in_map_iff, filter_In, in_zseq, !andb_true_iff, Z.leb_le, Z.ltb_lt, Z.eqb_eq.
    unfold rg_len. cbn [rg_step rg_start rg_stop].
    destruct (Z.ltb_spec 0 k); [|lia].
    split.
    + intros (t & <- & Ht). apply in_zseq in Ht.
      destruct (Z.ltb_spec i j); [|lia].
      assert (t * k <= j - 1 - i).
      { assert (t <= (j - 1 - i) / k) by lia.
        pose proof (Z.mul_div_le (j - 1 - i) k ltac:(lia)). nia. }
      replace (i + t * k - i) with (t * k) by lia. rewrite Z.mod_mul by lia. nia.
    + intros (Hx & (H1 & H2) & H3).
      apply Z.mod_divide in H3; [|lia]. destruct H3 as [t Ht].
      exists t. split; [lia|]. apply in_zseq.
      destruct (Z.ltb_spec i j); [|lia].
      assert (0 <= t) by nia. split; auto.
      assert (t <= (j - 1 - i) / k). { apply Z.div_le_lower_bound; lia. } lia.
Qed.

Lemma slice_positions_neg : forall n i j k, 0 <= n -> k < 0 -> -1 <= i <= n - 1 -> -1 <= j <= n - 1 ->
  slice_idx i k (rg_len (mkRange i j k))
  = rev (filter (fun x => (j <? x) && (x <=? i) && ((i - x) mod (- k) =? 0)) (zseq n)).
Proof.
  intros n i j k Hn Hk Hi Hj.
  rewrite <- (rev_involutive (slice_idx _ _ _)). f_equal.
  apply StronglySorted_ext.
  - unfold slice_idx, zseq. generalize (Z.to_nat (rg_len (mkRange i j k))) as m.
    intros m. rewrite <- map_rev, <- map_rev.
    assert (G : forall s, StronglySorted (fun a b => b < a)%nat (rev (seq s m))).
    { induction m; intros s. constructor.
      rewrite seq_S, rev_app_distr. simpl. constructor; auto.
      apply Forall_forall. intros x Hx. apply in_rev in Hx. apply in_seq in Hx. lia. }
    specialize (G 0%nat). induction G as [|a l G IH F]; simpl; constructor; auto.
    rewrite Forall_forall in *. intros x Hx. apply in_map_iff in Hx. destruct Hx as (y & <- & Hy).
    apply in_map_iff in Hy. destruct Hy as (z & <- & Hz). specialize (F z Hz). nia.
  - apply StronglySorted_filter, StronglySorted_zseq.
  - intros x. rewrite <- in_rev. unfold slice_idx.
    rewrite in_map_iff, filter_In, in_zseq, !andb_true_iff, Z.leb_le, Z.ltb_lt, Z.eqb_eq.
    unfold rg_len. cbn [rg_step rg_start rg_stop].
    destruct (Z.ltb_spec 0 k); [lia|].
    split.
    + intros (t & <- & Ht). apply in_zseq in Ht.
      destruct (Z.ltb_spec j i); [|lia].
      assert (t * (-k) <= i - 1 - j).
      { assert (t <= (i - 1 - j) / (-k)) by lia.
        pose proof (Z.mul_div_le (i - 1 - j) (-k) ltac:(lia)). nia. }
      replace (i - (i + t * k)) with (t * (- k)) by lia. rewrite Z.mod_mul by lia. nia.
    + intros (Hx & (H1 & H2) & H3).
      apply Z.mod_divide in H3; [|lia]. destruct H3 as [t Ht].
      exists t. split; [lia|]. apply in_zseq.
      destruct (Z.ltb_spec j i); [|lia].
      assert (0 <= t) by nia. split; auto.
      assert (t <= (i - 1 - j) / (-k)). { apply Z.div_le_lower_bound; lia. } lia.
Qed.

Lemma filter_length_le : forall A (p : A -> bool) l, (length (filter p l) <= length l)%nat.
Proof. induction l; simpl; auto. destruct (p a); simpl; lia. Qed.

Lemma sliced_map : forall A (f : Z -> A) n s sub, 0 <= n ->
  rg_slice (mkRange 0 n 1) s = Ok sub ->
  sl_stepv s <> 0 /\ rg_step sub = sl_stepv s /\
  sliced (map f (zseq n)) (sl_start s) (sl_stop s) (sl_stepv s)
  = map f (slice_idx (rg_start sub) (rg_step sub) (rg_len sub)) /\
  (0 < rg_len sub -> 0 <= rg_start sub < n) /\ -1 <= rg_start sub <= n /\
  (0 <= rg_len sub <= n).
Proof.
  intros A f n s sub Hn H. unfold rg_slice in H. binv H.
  unfold sl_indices in E. rewrite rg_len_0, Z.max_r in E by lia.
  destruct (Z.eqb_spec (sl_stepv s) 0) as [|Hk]; [discriminate|].
  set (k := sl_stepv s) in *.
  cbn [rg_start rg_stop rg_step] in H.
  assert (L : zlen (map f (zseq n)) = n).
  { unfold zlen. rewrite map_length, zseq_length. lia. }
  assert (Sz : forall i j k, length (slice_idx i k (rg_len (mkRange i j k))) = Z.to_nat (rg_len (mkRange i j k))).
  { intros. unfold slice_idx. now rewrite map_length, zseq_length. }
  assert (Nn : forall r, rg_step r <> 0 -> 0 <= rg_len r).
  { intros r Hr. unfold rg_len. destruct (Z.ltb_spec 0 (rg_step r)).
    - destruct (Z.ltb_spec (rg_start r) (rg_stop r)); [|lia].
      assert (0 <= (rg_stop r - 1 - rg_start r) / rg_step r) by (apply Z.div_pos; lia). lia.
    - destruct (Z.ltb_spec (rg_stop r) (rg_start r)); [|lia].
      assert (0 <= (rg_start r - 1 - rg_stop r) / - rg_step r) by (apply Z.div_pos; lia). lia. }
  destruct (Z.ltb_spec k 0) as [Hneg|Hpos].
  - rewrite !sl_bound_clip in E by lia. injection E as <-.
    set (i := match sl_start s with None => n - 1 | Some x => clip (-1) (n - 1) (from_end n x) end) in *.
    set (j := match sl_stop s with None => -1 | Some x => clip (-1) (n - 1) (from_end n x) end) in *.
    assert (Bi : -1 <= i <= n - 1) by (unfold i, clip; destruct (sl_start s); lia).
    assert (Bj : -1 <= j <= n - 1) by (unfold j, clip; destruct (sl_stop s); lia).
    replace (0 + i * 1) with i in H by lia. replace (0 + j * 1) with j in H by lia.
    replace (1 * k) with k in H by lia. injection H as <-.
    cbn [rg_start rg_step].
    pose proof (slice_positions_neg n i j k Hn Hneg Bi Bj) as P.
    split; auto. split; auto. split.
    + unfold sliced. rewrite L. destruct (Z.ltb_spec 0 k); [lia|].
      fold i. fold j. rewrite select_map_zseq. rewrite P, map_rev. reflexivity.
    + pose proof (Nn (mkRange i j k) ltac:(simpl; lia)).
      split; [|split; [lia|split; [lia|]]].
      * intros Hl. unfold rg_len in Hl. cbn [rg_start rg_stop rg_step] in Hl.
        destruct (Z.ltb_spec 0 k); [lia|]. destruct (Z.ltb_spec j i); lia.
      * pose proof (Sz i j k) as Sz'. rewrite P, rev_length in Sz'.
        pose proof (filter_length_le _ (fun x => (j <? x) && (x <=? i) && ((i - x) mod (- k) =? 0)) (zseq n)) as Fl.
        rewrite zseq_length in Fl. lia.
  - rewrite !sl_bound_clip in E by lia. injection E as <-.
    set (i := match sl_start s with None => 0 | Some x => clip 0 n (from_end n x) end) in *.
    set (j := match sl_stop s with None => n | Some x => clip 0 n (from_end n x) end) in *.
    assert (Bi : 0 <= i <= n) by (unfold i, clip; destruct (sl_start s); lia).
    assert (Bj : 0 <= j <= n) by (unfold j, clip; destruct (sl_stop s); lia).
    replace (0 + i * 1) with i in H by lia. replace (0 + j * 1) with j in H by lia.
    replace (1 * k) with k in H by lia. injection H as <-.
    cbn [rg_start rg_step].
    pose proof (slice_positions_pos n i j k Hn ltac:(lia) Bi Bj) as P.
    split; auto. split; auto. split.
    + unfold sliced. rewrite L. destruct (Z.ltb_spec 0 k); [|lia].
      fold i. fold j. rewrite select_map_zseq. rewrite P. reflexivity.
    + pose proof (Nn (mkRange i j k) ltac:(simpl; lia)).
      split; [|split; [lia|split; [lia|]]].
      * intros Hl. unfold rg_len in Hl. cbn [rg_start rg_stop rg_step] in Hl.
        destruct (Z.ltb_spec 0 k); [|lia]. destruct (Z.ltb_spec i j); lia.
      * pose proof (Sz i j k) as Sz'. rewrite P in Sz'.
        pose proof (filter_length_le _ (fun x => (i <=? x) && (x <? j) && ((x - i) mod k =? 0)) (zseq n)) as Fl.
        rewrite zseq_length in Fl. lia.
Qed.

(** ** Values *)
Definition term (start : dt) (step i : Z) : dt :=
  match dk start with
  | KDate => Dt KDate (dv start + (step * i) / DAY)
  | KTime => Dt KTime ((dv start + step * i) mod DAY)
  | KDateTime => Dt KDateTime (dv start + step * i)
  end.

Lemma td_check_ok : forall us v, td_check us = Ok v -> v = us /\ td_valid us.
Proof.
  intros us v H. unfold td_check in H.
  destruct (_ && _) eqn:E; [|discriminate]; oinv H. apply andb_true_iff in E. rewrite !Z.leb_le in E. now split.
Qed.
Lemma td_check_valid : forall us, td_valid us -> td_check us = Ok us.
Proof.
  intros us [H1 H2]. unfold td_check. apply Z.leb_le in H1, H2. now rewrite H1, H2.
Qed.
Lemma td_small : forall us, Z.abs us <= MAXTD * DAY -> td_valid us.
Proof. intros us H. unfold td_valid, MAXTD, DAY in *. lia. Qed.

Lemma ord_check_ok : forall o v, ord_check o = Ok v -> v = o /\ 1 <= o <= MAXORD.
Proof.
  intros us v H. unfold ord_check in H.
  destruct (_ && _) eqn:E; [|discriminate]; oinv H. apply andb_true_iff in E. rewrite !Z.leb_le in E. now split.
Qed.
Lemma ord_check_valid : forall o, 1 <= o <= MAXORD -> ord_check o = Ok o.
Proof.
  intros us [H1 H2]. unfold ord_check. apply Z.leb_le in H1, H2. now rewrite H1, H2.
Qed.
Lemma dtm_check_ok : forall o v, dtm_check o = Ok v -> v = o /\ DAY <= o < (MAXORD + 1) * DAY.
Proof.
  intros us v H. unfold dtm_check in H.
  destruct (_ && _) eqn:E; [|discriminate]; oinv H. apply andb_true_iff in E. rewrite Z.leb_le, Z.ltb_lt in E. now split.
Qed.
Lemma dtm_check_valid : forall o, DAY <= o < (MAXORD + 1) * DAY -> dtm_check o = Ok o.
Proof.
  intros us [H1 H2]. unfold dtm_check. apply Z.leb_le in H1. apply Z.ltb_lt in H2. now rewrite H1, H2.
Qed.

(** When [_index_to_value] succeeds. *)
Definition repr (start : dt) (step i : Z) : Prop :=
  td_valid (step * i) /\
  match dk start with
  | KDate => 1 <= dv start + (step * i) / DAY <= MAXORD
  | KTime => DAY <= REF * DAY + dv start + step * i < (MAXORD + 1) * DAY
  | KDateTime => DAY <= dv start + step * i < (MAXORD + 1) * DAY
  end.

Lemma i2v_ok : forall i start step v, index_to_value i start step = Ok v ->
  v = term start step i /\ repr start step i.
Proof.
  intros i [k s] step v H. unfold index_to_value, term, repr in *. cbn [dk dv] in *.
  binv H. apply td_check_ok in E. destruct E as [-> E].
  destruct k; binv H.
  - apply ord_check_ok in E0. destruct E0 as [-> E0]. oinv H. auto.
  - apply dtm_check_ok in E0. destruct E0 as [-> E0]. oinv H. split; auto.
    f_equal. unfold DAY. lia.
  - apply dtm_check_ok in E0. destruct E0 as [-> E0]. oinv H. auto.
Qed.

Lemma i2v_repr : forall i start step, repr start step i ->
  index_to_value i start step = Ok (term start step i).
Proof.
  intros i [k s] step [H1 H2]. unfold index_to_value, term in *. cbn [dk dv] in *.
  rewrite td_check_valid by assumption. cbn [bind]. destruct k.
  - now rewrite ord_check_valid by assumption.
  - rewrite dtm_check_valid by assumption. cbn [bind]. do 2 f_equal. unfold DAY. lia.
  - now rewrite dtm_check_valid by assumption.
Qed.

Lemma i2v_err : forall i start step e, index_to_value i start step = Raise e -> e = OverflowError.
Proof.
  intros i [k s] step e H. unfold index_to_value, td_check, ord_check, dtm_check in H. cbn [dk dv] in *.
  destruct (_ && _); cbn [bind] in H; [|congruence].
  destruct k; destruct (_ && _); cbn [bind] in H; congruence.
Qed.

Lemma i2v_total : forall i start step,
  (exists v, index_to_value i start step = Ok v) \/ index_to_value i start step = Raise OverflowError.
Proof.
  intros. destruct (index_to_value i start step) eqn:E; eauto.
  - apply i2v_err in E. subst; auto.
  - exfalso. unfold index_to_value, td_check, ord_check, dtm_check in E.
    destruct (_ && _); cbn [bind] in E; [|congruence].
    destruct (dk start); destruct (_ && _); cbn [bind] in E; congruence.
Qed.

Lemma term_valid : forall start step i, repr start step i -> dt_valid (term start step i).
Proof.
  intros [k s] step i [H1 H2]. unfold dt_valid, term in *. destruct k; cbn [dk dv] in *; auto.
  apply Z.mod_pos_bound. reflexivity.
Qed.

Lemma term_kind : forall start step i, dk (term start step i) = dk start.
Proof. intros [k s] step i. unfold term. now destruct k. Qed.

(** On the time line the i-th term is start + i*step. *)
Lemma term_us : forall start step i, on_line start -> step_fits start step ->
  us_of (term start step i) = us_of start + step * i.
Proof.
  intros [k s] step i [Hk|Hk] Hf; simpl in Hk; subst k; unfold us_of, term, step_fits in *; cbn [dk dv] in *; auto.
  apply Z.mod_divide in Hf; [|unfold DAY; lia]. destruct Hf as [q ->].
  replace (q * DAY * i) with (q * i * DAY) by lia. rewrite Z.div_mul by (unfold DAY; lia). lia.
Qed.

Lemma us_of_inj : forall a b, dk a = dk b -> us_of a = us_of b -> a = b.
Proof.
  intros [ka a] [kb b]; simpl; intros <- H. f_equal.
  unfold us_of in H; cbn [dk dv] in H. destruct ka; auto. unfold DAY in H. lia.
Qed.

(** ** Elements of a range *)
Lemma dtr_get_nonneg : forall r i, 0 <= i < r_length r ->
  dtr_get r i = index_to_value i (r_start r) (r_step r).
Proof.
  intros r i H. unfold dtr_get, index_range. rewrite rg_get_0. cbv zeta.
  destruct (Z.ltb_spec i 0); [lia|]. destruct (Z.leb_spec 0 i); [|lia].
  destruct (Z.ltb_spec i (r_length r)); [|lia]. reflexivity.
Qed.

Lemma mapM_ok_nth : forall A B (f : A -> res B) l r, mapM f l = Ok r ->
  length r = length l /\
  forall i a, nth_error l i = Some a -> exists b, f a = Ok b /\ nth_error r i = Some b.
Proof.
  induction l as [|x l IH]; intros r H; simpl in H.
  - oinv H. split; auto. intros [|i] a Ha; discriminate.
  - binv H. binv H. oinv H. destruct (IH _ E0) as [L N]. split; [simpl; now rewrite L|].
    intros [|i] y Hy; simpl in *; [inv Hy; eauto|eauto].
Qed.

Lemma mapM_map : forall A B (f : A -> res B) (g : A -> B) l,
  (forall a, In a l -> f a = Ok (g a)) -> mapM f l = Ok (map g l).
Proof.
  induction l; intros H; simpl; auto. rewrite H by now left. cbn [bind].
  rewrite IHl by (intros; apply H; now right). reflexivity.
Qed.

Lemma mapM_inv : forall A B (f : A -> res B) l r, mapM f l = Ok r ->
  forall a, In a l -> exists b, f a = Ok b.
Proof.
  induction l; intros r H x Hx; simpl in *; [tauto|]. binv H. binv H. destruct Hx as [<-|Hx]; eauto.
Qed.

Definition all_repr (r : dtr) : Prop :=
  forall i, 0 <= i < r_length r -> repr (r_start r) (r_step r) i.

Lemma ssize_ok : forall n v, ssize_check n = Ok v -> v = n /\ 0 <= n <= MAXSSIZE.
Proof.
  intros n v H. unfold ssize_check in H.
  destruct (Z.ltb_spec n 0); [discriminate|]. destruct (Z.ltb_spec MAXSSIZE n); [discriminate|]; oinv H. lia.
Qed.
Lemma ssize_valid : forall n, 0 <= n <= MAXSSIZE -> ssize_check n = Ok n.
Proof.
  intros n H. unfold ssize_check. destruct (Z.ltb_spec n 0); [lia|].
  destruct (Z.ltb_spec MAXSSIZE n); [lia|]. reflexivity.
Qed.

Lemma dtr_list_ok : forall r l, dtr_list r = Ok l ->
  0 <= r_length r <= MAXSSIZE /\ all_repr r /\
  l = map (term (r_start r) (r_step r)) (zseq (r_length r)).
Proof.
  intros r l H. unfold dtr_list, dtr_len in H. binv H.
  apply ssize_ok in E. destruct E as [-> Hl]. split; auto.
  assert (A : all_repr r).
  { intros i Hi. destruct (mapM_inv _ _ _ _ _ H (Z.to_nat i)) as [b Hb].
    - apply in_seq. lia.
    - rewrite dtr_get_nonneg in Hb by lia. rewrite Z2Nat.id in Hb by lia. now apply i2v_ok in Hb. }
  split; auto.
  rewrite (mapM_map _ _ _ (fun x => term (r_start r) (r_step r) (Z.of_nat x))) in H.
  - oinv H. symmetry. unfold zseq. rewrite map_map. reflexivity.
  - intros a Ha. apply in_seq in Ha. cbv beta. rewrite dtr_get_nonneg by lia.
    apply i2v_repr. apply A. lia.
Qed.

Lemma dtr_list_repr : forall r, 0 <= r_length r <= MAXSSIZE -> all_repr r ->
  dtr_list r = Ok (map (term (r_start r) (r_step r)) (zseq (r_length r))).
Proof.
  intros r Hl A. unfold dtr_list, dtr_len. rewrite ssize_valid by assumption. cbn [bind].
  unfold zseq. rewrite map_map. apply mapM_map.
  intros a Ha. apply in_seq in Ha. rewrite dtr_get_nonneg by lia. apply i2v_repr, A. lia.
Qed.

Lemma nth_zseq : forall A (f : Z -> A) n i, nth_error (map f (zseq n)) i =
  if (Z.of_nat i <? n) then Some (f (Z.of_nat i)) else None.
Proof.
  intros A f n i. destruct (Z.ltb_spec (Z.of_nat i) n).
  - unfold zseq. rewrite map_map. rewrite nth_error_map.
    rewrite (nth_error_nth' _ 0%nat) by (rewrite seq_length; lia).
    simpl. rewrite seq_nth by lia. reflexivity.
  - apply nth_error_None. rewrite map_length, zseq_length. lia.
Qed.

(** ** Slicing *)
Lemma span_bound : forall start step i, dt_valid start -> repr start step i ->
  Z.abs (step * i) <= MAXORD * DAY + DAY.
Proof.
  intros [k s] step i V [H1 H2]. unfold dt_valid in V. destruct k; cbn [dk dv] in *;
  unfold REF, MAXORD, DAY in *; lia.
Qed.

Lemma term_term : forall start step i k t, step_fits start step ->
  term (term start step i) (step * k) t = term start step (i + t * k).
Proof.
  intros [kd s] step i k t Hf. unfold term, step_fits in *. destruct kd; cbn [dk dv] in *.
  - f_equal. apply Z.mod_divide in Hf; [|unfold DAY; lia]. destruct Hf as [q ->].
    replace (q * DAY * i) with (q * i * DAY) by lia.
    replace (q * DAY * k * t) with (q * k * t * DAY) by lia.
    replace (q * DAY * (i + t * k)) with (q * (i + t * k) * DAY) by lia.
    rewrite !Z.div_mul by (unfold DAY; lia). lia.
  - f_equal. rewrite Z.add_mod_idemp_l by (unfold DAY; lia). f_equal. lia.
  - f_equal. lia.
Qed.

Lemma abs_mul_le : forall s x n M, 0 <= x <= n -> Z.abs s * n <= M -> Z.abs (s * x) <= M.
Proof.
  intros s x n M Hx H. rewrite Z.abs_mul, (Z.abs_eq x) by lia.
  apply Z.le_trans with (Z.abs s * n); auto. apply Z.mul_le_mono_nonneg_l; lia.
Qed.

Definition time_short (r : dtr) : Prop :=
  dk (r_start r) = KTime -> Z.abs (r_step r) * r_length r <= 3 * DAY.

Definition r_wf (r : dtr) : Prop := dt_valid (r_start r) /\ step_fits (r_start r) (r_step r).

Lemma dtr_new_ok : forall s n st r, dtr_new s n st = Ok r -> r = mkDtr s n st /\ step_ok s st = true.
Proof. intros s n st r H. unfold dtr_new in H. destruct (step_ok s st); [oinv H; auto|discriminate]. Qed.

Lemma step_fits_mul : forall start start' step k, dk start' = dk start -> dk start <> KTime ->
  step_fits start step -> step_fits start' (step * k).
Proof.
  intros start start' step k Hk Ht H. unfold step_fits in *. rewrite Hk. destruct (dk start); auto; [|congruence].
  apply Z.mod_divide in H; [|unfold DAY; lia]. apply Z.mod_divide; [unfold DAY; lia|].
  destruct H as [q ->]. exists (q * k). lia.
Qed.

Lemma slice_correct : forall r s r' l, r_wf r -> time_short r ->
  dtr_list r = Ok l -> dtr_slice r s = Ok r' ->
  dtr_list r' = Ok (sliced l (sl_start s) (sl_stop s) (sl_stepv s)).
Proof.
  intros r s r' l [V F] T L S. apply dtr_list_ok in L. destruct L as (Hn & A & ->).
  unfold dtr_slice in S. binv S. binv S. binv S. binv S.
  apply i2v_ok in E0. destruct E0 as [-> R0].
  apply ssize_ok in E1. destruct E1 as [-> E1].
  apply td_check_ok in E2. destruct E2 as [-> E2].
  apply dtr_new_ok in S. destruct S as [-> S].
  unfold index_range in E.
  destruct (sliced_map _ (term (r_start r) (r_step r)) (r_length r) s a ltac:(lia) E) as (K & Ks & P & B & B2 & Ln).
  rewrite P.
  set (i0 := rg_start a) in *. set (k := rg_step a) in *. set (m := rg_len a) in *.
  assert (IDX : forall t, 0 <= t < m -> 0 <= i0 + t * k < r_length r).
  { intros t Ht.
    assert (In (i0 + t * k) (slice_idx i0 k m)).
    { unfold slice_idx. apply in_map_iff. exists t. split; auto. now apply in_zseq. }
    pose proof (sliced_map _ (fun x : Z => x) (r_length r) s a ltac:(lia) E) as (_ & _ & P' & _).
    rewrite map_id in P'. fold i0 k m in P'. rewrite map_id in P'. rewrite <- P' in H.
    clear - H. unfold sliced in H.
    destruct (0 <? sl_stepv s).
    - rewrite <- (map_id (zseq (r_length r))) in H.
      rewrite select_map_zseq in H. rewrite map_id in H. apply filter_In in H. destruct H as [H _]. now apply in_zseq in H.
    - rewrite <- in_rev in H.
      rewrite <- (map_id (zseq (r_length r))) in H.
      rewrite select_map_zseq in H. rewrite map_id in H. apply filter_In in H. destruct H as [H _]. now apply in_zseq in H. }
  rewrite dtr_list_repr; cbn [r_start r_length r_step].
  - f_equal. unfold slice_idx. rewrite map_map. apply map_ext. intros t. apply term_term. exact F.
  - exact E1.
  - intros t Ht. cbn [r_start r_length r_step] in *.
    pose proof (IDX t Ht) as It. pose proof (A _ It) as Rt.
    specialize (B ltac:(lia)). pose proof (A _ B) as Ri.
    pose proof (span_bound _ _ _ V Rt) as S1. pose proof (span_bound _ _ _ V Ri) as S2.
    assert (Eq : r_step r * k * t = r_step r * (i0 + t * k) - r_step r * i0) by lia.
    split.
    + apply td_small. rewrite Eq. unfold MAXTD, MAXORD, DAY in *. lia.
    + rewrite term_kind. destruct Rt as [_ Rt]. destruct Ri as [_ Ri].
      unfold step_fits in F. unfold time_short in T.
      destruct (dk (r_start r)) eqn:Kd; unfold term; rewrite Kd; cbn [dv].
      * apply Z.mod_divide in F; [|unfold DAY; lia]. destruct F as [q Fq]. rewrite Fq in *.
        replace (q * DAY * (i0 + t * k)) with (q * (i0 + t * k) * DAY) in Rt by lia.
        replace (q * DAY * k * t) with (q * k * t * DAY) by lia.
        replace (q * DAY * i0) with (q * i0 * DAY) by lia.
        rewrite Z.div_mul in Rt by (unfold DAY; lia). rewrite !Z.div_mul by (unfold DAY; lia).
        clear - Rt. lia.
      * specialize (T eq_refl). rewrite Eq.
        assert (Z.abs (r_step r * (i0 + t * k)) <= 3 * DAY) by (apply abs_mul_le with (r_length r); lia).
        assert (Z.abs (r_step r * i0) <= 3 * DAY) by (apply abs_mul_le with (r_length r); lia).
        pose proof (Z.mod_pos_bound (dv (r_start r) + r_step r * i0) DAY ltac:(reflexivity)).
        unfold REF, MAXORD, DAY in *. lia.
      * rewrite Eq. lia.
Qed.

(** A non-empty slice of a date or datetime range is never refused, unless the
    step of the slice exceeds what a timedelta can hold. *)
Lemma dtr_slice_ok : forall r s l, r_wf r -> on_line (r_start r) ->
  dtr_list r = Ok l -> sl_stepv s <> 0 ->
  sliced l (sl_start s) (sl_stop s) (sl_stepv s) <> [] ->
  td_valid (r_step r * sl_stepv s) ->
  exists r', dtr_slice r s = Ok r'.
Proof.
  intros r s l [V F] O L K NE TV. apply dtr_list_ok in L. destruct L as (Hn & A & ->).
  assert (exists sub, rg_slice (mkRange 0 (r_length r) 1) s = Ok sub) as [sub E].
  { unfold rg_slice, sl_indices. destruct (Z.eqb_spec (sl_stepv s) 0); [congruence|]. cbn [bind]. eauto. }
  destruct (sliced_map _ (term (r_start r) (r_step r)) (r_length r) s sub ltac:(lia) E) as (_ & Ks & P & B & B2 & Ln).
  unfold dtr_slice, index_range. rewrite E. cbn [bind].
  assert (0 < rg_len sub).
  { destruct (Z.eq_dec (rg_len sub) 0) as [Z0|]; [|lia].
    exfalso. apply NE. rewrite P, Z0. reflexivity. }
  specialize (B H). rewrite i2v_repr by (apply A; exact B). cbn [bind].
  rewrite ssize_valid by lia. cbn [bind]. rewrite Ks. rewrite td_check_valid by exact TV. cbn [bind].
  unfold dtr_new, step_ok. rewrite term_kind.
  destruct O as [O|O]; unfold step_fits in F; rewrite O in *.
  - apply Z.mod_divide in F; [|unfold DAY; lia]. destruct F as [q Fq]. rewrite Fq in *.
    replace (q * DAY * sl_stepv s) with (q * sl_stepv s * DAY) in * by lia.
    rewrite whole_day_accepted. simpl. eauto.
    unfold td_valid in TV. rewrite Z.div_mul in TV by (unfold DAY; lia). unfold MAXTD in *. lia.
  - eauto.
Qed.

(** Slices of time ranges: same, provided that the new step stays below a day. *)
Lemma dtr_slice_time_ok : forall r s l, r_wf r -> dk (r_start r) = KTime -> time_short r ->
  dtr_list r = Ok l -> sl_stepv s <> 0 ->
  Z.abs (r_step r * sl_stepv s) < DAY ->
  exists r', dtr_slice r s = Ok r'.
Proof.
  intros r s l [V F] O T L K TV. apply dtr_list_ok in L. destruct L as (Hn & A & ->).
  assert (exists sub, rg_slice (mkRange 0 (r_length r) 1) s = Ok sub) as [sub E].
  { unfold rg_slice, sl_indices. destruct (Z.eqb_spec (sl_stepv s) 0); [congruence|]. cbn [bind]. eauto. }
  destruct (sliced_map _ (term (r_start r) (r_step r)) (r_length r) s sub ltac:(lia) E) as (_ & Ks & P & B & B2 & Ln).
  unfold dtr_slice, index_range. rewrite E. cbn [bind].
  unfold time_short in T. specialize (T O). unfold step_fits in F. unfold dt_valid in V. rewrite O in *.
  assert (Z.abs (r_step r * rg_start sub) <= 3 * DAY).
  { destruct (Z.eq_dec (rg_start sub) (-1)) as [->|].
    - unfold DAY in *; lia.
    - apply abs_mul_le with (r_length r); lia. }
  rewrite i2v_repr.
  2:{ split. apply td_small. unfold MAXTD, DAY in *; lia. rewrite O. unfold REF, MAXORD, DAY in *. lia. }
  cbn [bind]. rewrite ssize_valid by lia. cbn [bind]. rewrite Ks.
  rewrite td_check_valid by (apply td_small; unfold MAXTD, DAY in *; lia). cbn [bind].
  unfold dtr_new, step_ok. rewrite term_kind, O.
  rewrite abs_ge_day_exact by (unfold DAY in *; lia).
  destruct (Z.leb_spec DAY (Z.abs (r_step r * sl_stepv s))); [lia|]. simpl. eauto.
Qed.
