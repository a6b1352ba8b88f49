(** * NumLaws: what the rejection loop of weighted_shuffle needs from the
    arithmetic, and its consequences.  The laws hold for exact rationals
    (QcNum.v) and for IEEE doubles without subnormal weights (FloatNum.v). *)
From Verif Require Import Base Prims MathModel MathSpec MathProofs.
From Coq Require Import Permutation.

Record wlaws (P : prims) (acc num : pW P -> Prop) : Prop := mkWlaws {
  acc_zero : acc (w_zero P);
  acc_add : forall a b, acc a -> acc b -> acc (w_add P a b);
  acc_num : forall a, acc a -> num a;
  zero_is_false : w_true P (w_zero P) = false;
  (* x < a <= b -> x < b *)
  lt_le : forall x a b, num x -> num a -> num b ->
    w_lt P x a = true -> w_lt P b a = false -> w_lt P x b = true;
  (* adding a zero does not increase *)
  add_false : forall a b, acc a -> acc b -> w_true P b = false -> w_lt P a (w_add P a b) = false;
  (* 0 <= random() * total < total *)
  scale_num : forall t r, acc t -> w_total_ok P t = true -> num (w_scale P (fst (r_random P r)) t);
  scale_lt : forall t r, acc t -> w_total_ok P t = true ->
    w_lt P (w_scale P (fst (r_random P r)) t) t = true;
  scale_ge : forall t r z, acc t -> w_total_ok P t = true -> acc z -> w_true P z = false ->
    w_lt P (w_scale P (fst (r_random P r)) t) z = false
}.

(** Post-condition of binary search; no order on the list is needed. *)
Lemma bisect_post P fuel a x lo hi :
  (hi - lo <= fuel)%nat -> (lo <= hi)%nat ->
  let i := bisect_right P fuel a x lo hi in
  (lo <= i <= hi)%nat /\
  (i = hi \/ w_lt P x (nth i a (w_zero P)) = true) /\
  (i = lo \/ w_lt P x (nth (i - 1) a (w_zero P)) = false).
Proof.
  revert lo hi. induction fuel; intros lo hi Hf Hl; cbn [bisect_right].
  - assert (hi = lo) by lia. subst. repeat split; auto.
  - destruct (Nat.ltb_spec lo hi) as [H|H].
    2:{ assert (hi = lo) by lia. subst. repeat split; auto. }
    pose proof (Nat.div_mod (lo + hi) 2 ltac:(lia)) as D.
    pose proof (Nat.mod_upper_bound (lo + hi) 2 ltac:(lia)) as D'.
    set (mid := ((lo + hi) / 2)%nat) in *.
    destruct (w_lt P x (nth mid a (w_zero P))) eqn:E.
    + destruct (IHfuel lo mid ltac:(lia) ltac:(lia)) as (H1 & H2 & H3).
      cbn zeta. split; [lia|]. split; auto. destruct H2 as [->|H2]; auto.
    + destruct (IHfuel (S mid) hi ltac:(lia) ltac:(lia)) as (H1 & H2 & H3).
      cbn zeta. split; [lia|]. split; auto. destruct H3 as [->|H3]; auto.
      right. replace (S mid - 1)%nat with mid by lia. auto.
Qed.

Section A.
  Context (P : prims).

  Lemma accumulate_from_nth s l i d : (i < length l)%nat ->
    nth i (accumulate_from P s l) d =
    w_add P (match i with O => s | S j => nth j (accumulate_from P s l) d end) (nth i l d).
  Proof.
    revert s i. induction l as [|w l IH]; intros s [|i] H; cbn in *; try lia; auto.
    rewrite IH by lia. destruct i; auto.
  Qed.

  Lemma accumulate_nth l i d : (i < length l)%nat ->
    nth i (accumulate P l) d =
    match i with O => nth 0 l d | S j => w_add P (nth j (accumulate P l) d) (nth i l d) end.
  Proof.
    destruct l as [|w l]; cbn; [lia|]. intros H. destruct i as [|i]; auto.
    rewrite accumulate_from_nth by lia. destruct i; auto.
  Qed.

  Lemma accumulate_from_length' s l : length (accumulate_from P s l) = length l.
  Proof. revert s. induction l; intros; cbn; auto. Qed.
  Lemma accumulate_length' l : length (accumulate P l) = length l.
  Proof. destruct l; cbn; auto. now rewrite accumulate_from_length'. Qed.

  Lemma rev_last {B} (l : list B) t q d : rev l = t :: q -> nth (length l - 1) l d = t /\ l <> [].
  Proof.
    intros H. assert (l = rev q ++ [t]) as -> by (rewrite <- (rev_involutive l), H; reflexivity).
    rewrite app_length. cbn. replace (length (rev q) + 1 - 1)%nat with (length (rev q)) by lia.
    rewrite app_nth2, Nat.sub_diag by lia. split; auto. destruct (rev q); discriminate.
  Qed.
End A.

Section L.
  Context (P : prims) (acc num : pW P -> Prop) (L : wlaws P acc num).

  Lemma accumulate_acc l : Forall acc l -> Forall acc (accumulate P l).
  Proof.
    destruct l as [|w l]; intros H; cbn; constructor; inversion H; subst; auto.
    clear H. revert w H2 H3. induction l as [|v l IH]; intros w Hw Hl; cbn; constructor; inversion Hl; subst.
    - apply (acc_add _ _ _ L); auto.
    - apply IH; auto. apply (acc_add _ _ _ L); auto.
  Qed.

  Lemma nth_acc l i : Forall acc l -> acc (nth i l (w_zero P)).
  Proof.
    intros H. destruct (Nat.lt_ge_cases i (length l)).
    - rewrite Forall_forall in H. apply H. apply nth_In. auto.
    - rewrite nth_overflow by auto. apply (acc_zero _ _ _ L).
  Qed.

  (** A weighted draw never picks an item of weight zero. *)
  Lemma choice_true ws total q r :
    Forall acc ws -> rev (accumulate P ws) = total :: q -> w_total_ok P total = true ->
    let x := w_scale P (fst (r_random P r)) total in
    let i := bisect_right P (length (accumulate P ws)) (accumulate P ws) x 0 (length ws - 1) in
    (i < length ws)%nat /\ w_true P (nth i ws (w_zero P)) = true.
  Proof.
    intros Ha Hr Ht x i. set (cum := accumulate P ws) in *.
    destruct (rev_last cum total q (w_zero P) Hr) as [Hlast Hne].
    assert (HL : length cum = length ws) by apply accumulate_length'.
    assert (Hn : (0 < length ws)%nat) by (rewrite <- HL; destruct cum; cbn; [congruence|lia]).
    destruct (bisect_post P (length cum) cum x 0 (length ws - 1) ltac:(lia) ltac:(lia)) as (B1 & B2 & B3).
    fold i in B1, B2, B3. split; [lia|].
    assert (Hcum : Forall acc cum) by (apply accumulate_acc; auto).
    assert (Htot : acc total) by (rewrite <- Hlast; apply nth_acc; auto).
    assert (Hx : w_lt P x (nth i cum (w_zero P)) = true).
    { destruct B2 as [E|B2]; auto. rewrite E, <- HL, Hlast. apply (scale_lt _ _ _ L); auto. }
    destruct (w_true P (nth i ws (w_zero P))) eqn:E; auto. exfalso.
    pose proof (nth_acc ws i Ha) as Hwi.
    unfold cum in Hx. rewrite accumulate_nth in Hx by lia. fold cum in Hx.
    destruct i as [|j] eqn:Ei.
    - pose proof (scale_ge _ _ _ L total r _ Htot Ht Hwi E). unfold x in Hx. congruence.
    - destruct B3 as [B3|B3]; [lia|]. replace (S j - 1)%nat with j in B3 by lia.
      pose proof (nth_acc cum j Hcum) as Hcj.
      assert (w_lt P x (nth j cum (w_zero P)) = true); [|congruence].
      eapply (lt_le _ _ _ L); [| | |exact Hx|].
      + apply (scale_num _ _ _ L); auto.
      + apply (acc_num _ _ _ L). apply (acc_add _ _ _ L); auto.
      + apply (acc_num _ _ _ L); auto.
      + apply (add_false _ _ _ L); auto.
  Qed.

  Lemma draws_from_state k r u : In u (fst (draws P k r)) -> exists r', u = fst (r_random P r').
  Proof.
    revert r. induction k; intros r; cbn; [tauto|].
    destruct (r_random P r) as [v r1] eqn:E. specialize (IHk r1). destruct (draws P k r1). cbn in *.
    intros [<-|H]; auto. exists r. rewrite E. reflexivity.
  Qed.

  (** One round of the rejection loop: either the total is refused, or every
      position drawn has non-zero weight. *)
  Lemma round_choices ws k r :
    Forall acc ws -> ws <> [] ->
    (exists r', choices_cum P (length ws) (accumulate P ws) k r = (Raise ValueError, r')) \/
    (exists pos r', choices_cum P (length ws) (accumulate P ws) k r = (Ok pos, r') /\
       length pos = Z.to_nat k /\
       Forall (fun i => (i < length ws)%nat /\ w_true P (nth i ws (w_zero P)) = true) pos).
  Proof.
    intros Ha Hne. unfold choices_cum. rewrite accumulate_length', Nat.eqb_refl. cbn [negb].
    destruct (rev (accumulate P ws)) as [|total q] eqn:Er.
    { apply (f_equal (@length _)) in Er. rewrite rev_length, accumulate_length' in Er.
      destruct ws; [congruence|discriminate]. }
    destruct (w_total_ok P total) eqn:Et; cbn [negb]; [|left; eauto].
    right. pose proof (draws_length P (Z.to_nat k) r) as HL.
    pose proof (draws_from_state (Z.to_nat k) r) as HD.
    destruct (draws P (Z.to_nat k) r) as [us r1]. cbn [fst] in *. eexists _, _.
    split; [reflexivity|]. rewrite map_length. split; auto.
    rewrite Forall_forall. intros i Hi. apply in_map_iff in Hi as (u & <- & Hu).
    destruct (HD u Hu) as [r' ->]. rewrite <- (accumulate_length' P ws).
    rewrite (accumulate_length' P ws) at 2 3.
    pose proof (choice_true ws total q r' Ha Er Et). rewrite accumulate_length' in *. auto.
  Qed.

  Lemma take_new_total {A} (items : list A) pos ws sample :
    length ws = length items -> Forall (fun i => (i < length ws)%nat) pos ->
    exists ws' sample', take_new P items pos ws sample = Ok (ws', sample') /\
      length ws' = length ws /\ (Forall acc ws -> Forall acc ws') /\
      (length sample <= length sample' <= length sample + length pos)%nat.
  Proof.
    revert ws sample. induction pos as [|i pos IH]; intros ws sample HL Hp; cbn [take_new].
    - exists ws, sample. cbn. repeat split; auto; lia.
    - inversion Hp as [|? ? H1 H2]; subst.
      destruct (nth_error ws i) as [w|] eqn:E; [|apply nth_error_None in E; lia].
      destruct (w_true P w).
      + destruct (nth_error items i) as [a|] eqn:Ea; [|apply nth_error_None in Ea; lia].
        destruct (IH (upd i (w_zero P) ws) (sample ++ [a])) as (ws' & s' & H3 & H4 & H5 & H6).
        { rewrite upd_length; auto. } { rewrite upd_length; auto. }
        exists ws', s'. rewrite upd_length in H4. rewrite app_length in H6. cbn in *.
        repeat split; auto; try lia. intros Hacc. apply H5.
        clear - Hacc L. revert i. induction Hacc; intros [|i]; cbn; constructor; auto. apply (acc_zero _ _ _ L).
      + destruct (IH ws sample HL H2) as (ws' & s' & H3 & H4 & H5 & H6).
        exists ws', s'. cbn. repeat split; auto; lia.
  Qed.

  Lemma low_k_terminates {A} fuel (items : list A) ws sample k r :
    length ws = length items -> Forall acc ws -> ws <> [] ->
    zlen sample <= k -> k - zlen sample < Z.of_nat fuel ->
    (exists out r', low_k_loop P fuel items ws sample k r = (Ok out, r')) \/
    (exists r', low_k_loop P fuel items ws sample k r = (Raise ValueError, r')).
  Proof.
    revert ws sample r. induction fuel as [|f IH]; intros ws sample r HL Ha Hne Hk Hf; [lia|].
    cbn [low_k_loop]. destruct (Z.eqb_spec (k - zlen sample) 0) as [E|E]; [left; eexists _, _; reflexivity|].
    unfold mbind, lift. rewrite <- HL.
    destruct (round_choices ws (k - zlen sample) r Ha Hne) as [(r1 & ->)|(pos & r1 & -> & Hlen & Hpos)]; [eauto|].
    assert (Hb : Forall (fun i => (i < length ws)%nat) pos).
    { eapply Forall_impl; [|exact Hpos]. intros i [Hi _]. exact Hi. }
    destruct pos as [|i pos]; [cbn in Hlen; lia|].
    destruct (take_new_total items (i :: pos) ws sample HL Hb) as (ws' & s' & Ht & Hl & Hacc & Hs).
    rewrite Ht. cbn [fst snd].
    assert (Hgrow : (length sample < length s')%nat).
    { cbn [take_new] in Ht. inversion Hpos as [|? ? [P1 P2] P3]; subst.
      rewrite (nth_error_nth' ws (w_zero P) P1), P2 in Ht.
      destruct (nth_error items i) as [a|] eqn:Ea; [|discriminate].
      destruct (take_new_total items pos (upd i (w_zero P) ws) (sample ++ [a])) as (ws2 & s2 & Ht2 & _ & _ & Hs2).
      { rewrite upd_length; auto. } { rewrite upd_length. inversion Hb; auto. }
      rewrite Ht2 in Ht. injection Ht as <- <-. rewrite app_length in Hs2. cbn in Hs2. lia. }
    apply IH; auto; unfold zlen in *; cbn [length] in *; try lia.
    intros ->. destruct ws; [congruence|discriminate].
  Qed.
End L.
