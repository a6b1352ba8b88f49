(** * Lemmas about MathModel *)
From Verif Require Import Base Prims MathModel MathSpec.
From Coq Require Import Permutation Sorting.Sorted FinFun.

(** ** Lists *)
Lemma picks_app {A} (items : list A) ps qs o1 o2 :
  picks items ps o1 -> picks items qs o2 -> picks items (ps ++ qs) (o1 ++ o2).
Proof. apply Forall2_app. Qed.

Lemma picks_lt {A} (items : list A) ps o : picks items ps o -> forall p, In p ps -> (p < length items)%nat.
Proof.
  induction 1 as [|p a ps o H1 H2 IH]; intros q Hq; [destruct Hq|]. destruct Hq as [->|Hq]; auto.
  apply nth_error_Some. congruence.
Qed.

Lemma picks_length {A} (items : list A) ps o : picks items ps o -> length ps = length o.
Proof. induction 1; cbn; auto. Qed.

Lemma nodup_lt_length ps n : NoDup ps -> (forall p, In p ps -> (p < n)%nat) -> (length ps <= n)%nat.
Proof.
  intros Hn Hl. rewrite <- (seq_length n 0). apply NoDup_incl_length; auto.
  intros p Hp. apply in_seq. specialize (Hl p Hp). lia.
Qed.

Lemma wr_length {A} (items out : list A) : without_replacement items out -> (length out <= length items)%nat.
Proof.
  intros (ps & Hn & Hp). rewrite <- (picks_length _ _ _ Hp). apply nodup_lt_length; auto.
  eauto using picks_lt.
Qed.

Lemma wr_in {A} (items out : list A) a : without_replacement items out -> In a out -> In a items.
Proof.
  intros (ps & _ & Hp). revert a. induction Hp as [|p b ps o H1 H2 IH]; cbn; [tauto|].
  intros a [->|Ha]; auto. eapply nth_error_In; eauto.
Qed.

Lemma picks_seq {A} (pre l : list A) : picks (pre ++ l) (seq (length pre) (length l)) l.
Proof.
  revert pre. induction l as [|a l IH]; intros pre; cbn; constructor.
  - rewrite nth_error_app2, Nat.sub_diag by lia. reflexivity.
  - specialize (IH (pre ++ [a])). rewrite <- app_assoc, app_length in IH. cbn in IH.
    rewrite Nat.add_1_r in IH. exact IH.
Qed.

Lemma picks_fun {A} (items : list A) ps o1 o2 : picks items ps o1 -> picks items ps o2 -> o1 = o2.
Proof.
  intros H. revert o2. induction H; intros o2 H2; inversion H2; subst; auto.
  f_equal; [congruence|]. auto.
Qed.

Lemma picks_perm {A} (items : list A) ps qs o1 o2 :
  picks items ps o1 -> picks items qs o2 -> Permutation ps qs -> Permutation o1 o2.
Proof.
  intros H1 H2 HP. revert o1 o2 H1 H2. induction HP; intros o1 o2 H1 H2.
  - inversion H1; inversion H2; subst. constructor.
  - inversion H1 as [|p1 a1 q1 r1 E1 F1]; inversion H2 as [|p2 a2 q2 r2 E2 F2]; subst.
    assert (a1 = a2) as -> by congruence. constructor. eauto.
  - inversion H1 as [|p1 a1 q1 r1 E1 F1]; subst. inversion F1 as [|p2 a2 q2 r2 E2 F2]; subst.
    inversion H2 as [|p3 a3 q3 r3 E3 F3]; subst. inversion F3 as [|p4 a4 q4 r4 E4 F4]; subst.
    assert (a1 = a4) as -> by congruence. assert (a2 = a3) as -> by congruence.
    rewrite (picks_fun _ _ _ _ F2 F4). constructor.
  - assert (exists o, picks items l' o) as [o Ho].
    { clear - H1 HP1. assert (HL : forall p, In p l' -> (p < length items)%nat).
      { intros p Hp. eapply picks_lt; eauto. eapply Permutation_in; [symmetry|]; eauto. }
      clear - HL. induction l' as [|p l' IH].
      - exists []. constructor.
      - destruct IH as [o Ho]. { intros; apply HL; right; auto. }
        destruct (nth_error items p) as [a|] eqn:E.
        + exists (a :: o). constructor; auto.
        + apply nth_error_None in E. specialize (HL p (or_introl eq_refl)). lia. }
    apply Permutation_trans with o; [apply (IHHP1 o1 o)|apply (IHHP2 o o2)]; auto.
Qed.

Lemma nodup_full_perm ps n : NoDup ps -> (forall p, In p ps -> (p < n)%nat) -> length ps = n ->
  Permutation ps (seq 0 n).
Proof.
  intros Hn Hl He. apply NoDup_Permutation_bis; auto.
  - rewrite seq_length. lia.
  - intros p Hp. apply in_seq. specialize (Hl p Hp). lia.
Qed.

Lemma wr_full {A} (items out : list A) :
  without_replacement items out -> length out = length items -> Permutation out items.
Proof.
  intros (ps & Hn & Hp) HL.
  eapply picks_perm; [exact Hp|apply (picks_seq [] items)|].
  apply nodup_full_perm; auto.
  - eauto using picks_lt.
  - rewrite <- HL. eauto using picks_length.
Qed.

Lemma nth_error_upd {A} n m (x : A) l : nth_error (upd n x l) m =
  if (n =? m)%nat then (if (m <? length l)%nat then Some x else None) else nth_error l m.
Proof.
  revert n m. induction l as [|a l IH]; intros [|n] [|m]; cbn; auto.
  - destruct (n =? m)%nat; auto.
  - rewrite IH. destruct (n =? m)%nat; auto.
Qed.

Lemma upd_length {A} n (x : A) l : length (upd n x l) = length l.
Proof. revert n. induction l; intros [|n]; cbn; auto. Qed.

Lemma nodup_app_r {A} (l1 l2 : list A) : NoDup (l1 ++ l2) -> NoDup l2.
Proof. induction l1; cbn; auto. inversion 1; auto. Qed.
Lemma nodup_app_l {A} (l1 l2 : list A) : NoDup (l1 ++ l2) -> NoDup l1.
Proof.
  induction l1; cbn; [constructor|]. inversion 1; subst. constructor; auto.
  intros Hin. apply H2. apply in_app_iff. auto.
Qed.

Section P.
  Context (P : prims).

  Lemma draws_length k r : length (fst (draws P k r)) = k.
  Proof.
    revert r. induction k; intros r; cbn; auto. destruct (r_random P r) as [u r1].
    specialize (IHk r1). destruct (draws P k r1). cbn in *. auto.
  Qed.

  Lemma draws_app a b r :
    draws P (a + b) r =
    let '(x, r1) := draws P a r in let '(y, r2) := draws P b r1 in (x ++ y, r2).
  Proof.
    revert r. induction a; intros r; cbn.
    - destruct (draws P b r); auto.
    - destruct (r_random P r) as [u r1]. rewrite IHa.
      destruct (draws P a r1) as [x r2]. destruct (draws P b r2). auto.
  Qed.

  Lemma bisect_bounds fuel a x lo hi :
    (lo <= hi)%nat -> (lo <= bisect_right P fuel a x lo hi <= hi)%nat.
  Proof.
    revert lo hi. induction fuel; intros lo hi H; cbn [bisect_right]; [lia|].
    destruct (Nat.ltb_spec lo hi); [|lia].
    assert (lo <= (lo + hi) / 2 < hi)%nat.
    { pose proof (Nat.div_mod (lo + hi) 2 ltac:(lia)). pose proof (Nat.mod_upper_bound (lo + hi) 2 ltac:(lia)). lia. }
    destruct (w_lt P x _).
    - specialize (IHfuel lo ((lo + hi) / 2)%nat ltac:(lia)). lia.
    - specialize (IHfuel (S ((lo + hi) / 2)) hi ltac:(lia)). lia.
  Qed.

  Lemma choices_cum_ok n cum k r l r' :
    choices_cum P n cum k r = (Ok l, r') ->
    length l = Z.to_nat k /\ (forall i, In i l -> (i < n)%nat).
  Proof.
    unfold choices_cum. destruct (Nat.eqb_spec (length cum) n); cbn [negb]; [|discriminate].
    destruct (rev cum) as [|total ?] eqn:E; [discriminate|].
    destruct (w_total_ok P total); cbn [negb]; [|discriminate].
    pose proof (draws_length (Z.to_nat k) r) as HL.
    destruct (draws P (Z.to_nat k) r) as [us r1]. intros H; injection H as <- <-.
    rewrite map_length. split; auto.
    intros i Hi. apply in_map_iff in Hi as (u & <- & _).
    assert (n <> 0)%nat.
    { intros ->. destruct cum; [|discriminate]. discriminate. }
    pose proof (bisect_bounds (length cum) cum (w_scale P u total) 0 (n - 1) ltac:(lia)). lia.
  Qed.

  Section Sh.
    Context {A : Type}.

    Lemma take_new_spec (items : list A) pos ws sample ws' sample' :
      w_true P (w_zero P) = false ->
      take_new P items pos ws sample = Ok (ws', sample') ->
      exists ps out,
        sample' = sample ++ out /\ picks items ps out /\ NoDup ps /\
        length ws' = length ws /\
        (forall p, In p ps -> exists w, nth_error ws p = Some w /\ w_true P w = true) /\
        (forall p, In p ps -> nth_error ws' p = Some (w_zero P)) /\
        (forall p, ~ In p ps -> nth_error ws' p = nth_error ws p).
    Proof.
      intros Hz. revert ws sample. induction pos as [|i pos IH]; intros ws sample H; cbn in H.
      - injection H as <- <-. exists [], []. rewrite app_nil_r.
        repeat split; auto; try constructor; cbn; tauto.
      - destruct (nth_error ws i) as [w|] eqn:Ew; [|discriminate].
        destruct (w_true P w) eqn:Et; [|apply IH in H; auto].
        destruct (nth_error items i) as [a|] eqn:Ea; [|discriminate].
        apply IH in H as (ps & out & -> & Hp & Hn & HL & Ht & Hw & Hu).
        rewrite upd_length in HL.
        assert (Hi : (i < length ws)%nat) by (apply nth_error_Some; congruence).
        assert (~ In i ps).
        { intros Hin. apply Ht in Hin as (w' & E & T). rewrite nth_error_upd in E.
          rewrite Nat.eqb_refl in E. apply Nat.ltb_lt in Hi. rewrite Hi in E.
          injection E as <-. congruence. }
        exists (i :: ps), (a :: out). rewrite <- app_assoc. repeat split; auto.
        + constructor; auto.
        + constructor; auto.
        + intros p [<-|Hp']; [eauto|]. apply Ht in Hp' as (w' & E & T).
          rewrite nth_error_upd in E. destruct (Nat.eqb_spec i p); eauto.
          subst. destruct (p <? length ws)%nat; [|discriminate]. injection E as <-. congruence.
        + intros p [<-|Hp']; auto. rewrite Hu by auto. rewrite nth_error_upd, Nat.eqb_refl.
          apply Nat.ltb_lt in Hi. rewrite Hi. reflexivity.
        + intros p Hp'. rewrite Hu by (intro; apply Hp'; right; auto). rewrite nth_error_upd.
          destruct (Nat.eqb_spec i p); auto. subst. exfalso; apply Hp'; left; auto.
    Qed.

    Lemma low_k_loop_spec fuel (items : list A) ws0 ws sample ps0 k r out r' :
      w_true P (w_zero P) = false ->
      picks items ps0 sample -> NoDup ps0 ->
      (forall p, In p ps0 -> nth_error ws p = Some (w_zero P)) ->
      (forall p, ~ In p ps0 -> nth_error ws p = nth_error ws0 p) ->
      (forall p, In p ps0 -> exists w, nth_error ws0 p = Some w /\ w_true P w = true) ->
      low_k_loop P fuel items ws sample k r = (Ok out, r') ->
      exists ps, picks items ps out /\ NoDup ps /\ zlen out = k /\
        (forall p, In p ps -> exists w, nth_error ws0 p = Some w /\ w_true P w = true).
    Proof.
      intros Hz. revert ws sample ps0 r. induction fuel as [|f IH]; intros ws sample ps0 r Hp Hn Hw Hu Ht H.
      { discriminate. }
      cbn [low_k_loop] in H. destruct (Z.eqb_spec (k - zlen sample) 0) as [E|E].
      - injection H as <- <-. exists ps0. repeat split; auto. lia.
      - unfold mbind in H.
        destruct (choices_cum P _ _ _ r) as [[pos| |] r1]; [|discriminate..].
        unfold lift in H. destruct (take_new P items pos ws sample) as [[ws' sample']| |] eqn:Et; [|discriminate..].
        cbn [fst snd] in H.
        apply take_new_spec in Et as (ps & o & -> & Hp' & Hn' & HL & Ht' & Hw' & Hu'); auto.
        assert (Hdisj : forall p, In p ps0 -> ~ In p ps).
        { intros p H0 H1. apply Ht' in H1 as (w & E1 & E2). rewrite (Hw p H0) in E1.
          injection E1 as <-. congruence. }
        apply (IH ws' (sample ++ o) (ps0 ++ ps) r1) in H; auto.
        + apply picks_app; auto.
        + clear - Hn Hn' Hdisj. induction ps0 as [|q l IHl]; cbn; auto.
          inversion Hn; subst. constructor.
          * rewrite in_app_iff. intros [?|?]; auto. eapply Hdisj; eauto. left; auto.
          * apply IHl; auto. intros p Hq. apply Hdisj. right; auto.
        + intros p Hin. apply in_app_iff in Hin as [Hin|Hin]; auto.
          rewrite Hu'; auto.
        + intros p Hin. rewrite in_app_iff in Hin. rewrite Hu' by tauto. apply Hu. tauto.
        + intros p Hin. apply in_app_iff in Hin as [Hin|Hin]; auto.
          destruct (Ht' _ Hin) as (w & E1 & E2). exists w. split; auto.
          rewrite <- (Hu p); auto. intros H0. eapply Hdisj; eauto.
    Qed.

    Lemma low_k_spec fuel (items : list A) ws k r out r' :
      w_true P (w_zero P) = false ->
      low_k P fuel items ws k r = (Ok out, r') ->
      exists ps, picks items ps out /\ NoDup ps /\ zlen out = k /\
        (forall p, In p ps -> exists w, nth_error ws p = Some w /\ w_true P w = true).
    Proof.
      intros Hz H. unfold low_k in H.
      eapply low_k_loop_spec with (ps0 := []) (ws0 := ws) in H; auto.
      - constructor.
      - constructor.
      - intros p [].
      - intros p [].
    Qed.

    (** *** The sorting branch *)
    Lemma scores_spec ws (items : list A) r sc r' :
      length ws = length items ->
      scores P ws items r = (Ok sc, r') ->
      exists us ss, draws P (length ws) r = (us, r') /\
        Forall2 (fun uw s => k_score P (fst uw) (snd uw) = Ok s) (combine us ws) ss /\
        length ss = length items /\
        sc = combine ss items.
    Proof.
      revert items r sc r'. induction ws as [|w ws IH]; intros [|a items] r sc r' HL H; try discriminate.
      - injection H as <- <-. exists [], []. repeat split; auto. constructor.
      - cbn [length draws]. cbn [scores] in H. destruct (r_random P r) as [u r1].
        unfold mbind, lift in H. destruct (k_score P u w) as [s| |] eqn:Es; [|discriminate..].
        destruct (scores P ws items r1) as [[rest| |] r2] eqn:E; [|discriminate..].
        apply IH in E as (us & ss & Hd & Hs & Hl & ->); [|cbn in HL; lia].
        injection H as <- <-. rewrite Hd. exists (u :: us), (s :: ss).
        repeat split; cbn; auto.
    Qed.

    (** Draws and scores up to the first one that raises. *)
    Lemma scores_raises ws1 w ws2 (items : list A) r us r1 u r2 ss e :
      length items = (length ws1 + S (length ws2))%nat ->
      draws P (length ws1) r = (us, r1) ->
      Forall2 (fun uw s => k_score P (fst uw) (snd uw) = Ok s) (combine us ws1) ss ->
      r_random P r1 = (u, r2) -> k_score P u w = Raise e ->
      scores P (ws1 ++ w :: ws2) items r = (Raise e, r2).
    Proof.
      revert items r us ss. induction ws1 as [|w1 ws1 IH]; intros items r us ss HL Hd Hs Hr Hk.
      - destruct items as [|a items]; [discriminate|]. cbn in Hd. injection Hd as <- <-.
        cbn [app scores]. rewrite Hr. unfold mbind, lift. rewrite Hk. reflexivity.
      - destruct items as [|a items]; [discriminate|]. cbn [length draws] in Hd.
        cbn [app scores]. destruct (r_random P r) as [u0 r0].
        destruct (draws P (length ws1) r0) as [us0 r3] eqn:E. injection Hd as <- <-.
        cbn [combine] in Hs. inversion Hs as [|? s ? ss' Hs1 Hs2]; subst. cbn [fst snd] in Hs1.
        unfold mbind, lift. rewrite Hs1.
        rewrite (IH items r0 us0 ss'); auto.
    Qed.
  End Sh.

  Lemma insert_desc_map {A B} (f : A -> B) x l :
    insert_desc P (fst x, f (snd x)) (map (fun y => (fst y, f (snd y))) l)
    = map (fun y => (fst y, f (snd y))) (insert_desc P x l).
  Proof.
    induction l as [|y l IH]; cbn; auto. destruct (k_lt P (fst x) (fst y)); cbn; auto. f_equal; auto.
  Qed.

  Lemma sort_desc_map {A B} (f : A -> B) l :
    sort_desc P (map (fun y => (fst y, f (snd y))) l)
    = map (fun y => (fst y, f (snd y))) (sort_desc P l).
  Proof.
    induction l as [|x l IH]; cbn; auto. unfold sort_desc in *. rewrite IH. apply insert_desc_map.
  Qed.

  Lemma insert_desc_perm {A} (x : pK P * A) l : Permutation (insert_desc P x l) (x :: l).
  Proof.
    induction l as [|y l IH]; cbn; auto. destruct (k_lt P (fst x) (fst y)); auto.
    rewrite IH. constructor.
  Qed.

  Lemma sort_desc_perm {A} (l : list (pK P * A)) : Permutation (sort_desc P l) l.
  Proof.
    induction l as [|x l IH]; cbn; auto. rewrite insert_desc_perm. auto.
  Qed.

  (** Better key first, ties by position. *)
  Definition beats (x y : pK P * nat) : Prop :=
    k_lt P (fst x) (fst y) = false /\ (k_lt P (fst y) (fst x) = false -> (snd x < snd y)%nat).

  Lemma insert_desc_sorted (D : pK P -> Prop) x l :
    (forall a b, D a -> D b -> k_lt P a b = true -> k_lt P b a = false) ->
    (forall a b c, D a -> D b -> D c -> k_lt P a b = false -> k_lt P b c = false -> k_lt P a c = false) ->
    (forall y, In y l -> (snd x < snd y)%nat) ->
    D (fst x) -> Forall (fun y => D (fst y)) l ->
    StronglySorted beats l -> StronglySorted beats (insert_desc P x l).
  Proof.
    intros Hasym Htr Hx HDx HD HS. induction HS as [|y l HS IH HF]; cbn.
    - repeat constructor.
    - inversion HD as [|? ? D1 D2]; subst. destruct (k_lt P (fst x) (fst y)) eqn:E.
      + constructor.
        * apply IH; auto. intros z Hz. apply Hx. right; auto.
        * rewrite Forall_forall in *. intros z Hz.
          apply (Permutation_in _ (insert_desc_perm x l)) in Hz as [<-|Hz]; auto.
          split; auto. intros C. congruence.
      + constructor; [constructor; auto|]. constructor.
        * split; auto. intros _. apply Hx. left; auto.
        * rewrite Forall_forall in *. intros z Hz. destruct (HF z Hz) as [H1 H2]. split.
          -- eapply (Htr _ (fst y)); eauto.
          -- intros _. apply Hx. right; auto.
  Qed.

  Definition tagged (ss : list (pK P)) (start : nat) : list (pK P * nat) :=
    combine ss (seq start (length ss)).

  Lemma tagged_sorted (D : pK P -> Prop) ss start :
    (forall a b, D a -> D b -> k_lt P a b = true -> k_lt P b a = false) ->
    (forall a b c, D a -> D b -> D c -> k_lt P a b = false -> k_lt P b c = false -> k_lt P a c = false) ->
    Forall D ss ->
    StronglySorted beats (sort_desc P (tagged ss start)).
  Proof.
    intros H1 H2 HD. revert start. induction ss as [|s ss IH]; intros start; cbn.
    - constructor.
    - inversion HD as [|? ? D1 D2]; subst. apply (insert_desc_sorted D); auto.
      + intros y Hy. apply (Permutation_in _ (sort_desc_perm _)) in Hy.
        destruct y as [k i]. apply in_combine_r in Hy. apply in_seq in Hy. cbn. lia.
      + rewrite Forall_forall in *. intros y Hy. apply (Permutation_in _ (sort_desc_perm _)) in Hy.
        destruct y as [k i]. apply in_combine_l in Hy. cbn. auto.
      + apply IH; auto.
  Qed.

  Lemma combine_tagged {A} (ss : list (pK P)) (items : list A) (d : A) : length ss = length items ->
    combine ss items = map (fun y => (fst y, nth (snd y) items d)) (tagged ss 0).
  Proof.
    intros HL. unfold tagged.
    assert (G : forall pre, combine ss items
      = map (fun y => (fst y, nth (snd y) (pre ++ items) d)) (combine ss (seq (length pre) (length ss)))).
    { revert items HL. induction ss as [|s ss IH]; intros [|a items] HL pre; try discriminate; cbn; auto.
      f_equal.
      - rewrite app_nth2, Nat.sub_diag by lia. reflexivity.
      - injection HL as HL. rewrite (IH items HL (pre ++ [a])).
        rewrite app_length, <- app_assoc. cbn. rewrite Nat.add_1_r. reflexivity. }
    apply (G []).
  Qed.

  Lemma map_snd_tagged ss start : map snd (tagged ss start) = seq start (length ss).
  Proof.
    unfold tagged. revert start. induction ss; intros; cbn; auto. f_equal. auto.
  Qed.

  Lemma list_slice_map {A B} (f : A -> B) l i j : map f (list_slice l i j) = list_slice (map f l) i j.
  Proof.
    unfold list_slice, zlen. rewrite map_length. rewrite skipn_map, firstn_map. reflexivity.
  Qed.

  Lemma list_slice_0 {A} (l : list A) k : 0 <= k -> list_slice l 0 k = firstn (Z.to_nat k) l.
  Proof.
    intros H. unfold list_slice, clip_bound. cbn [Z.ltb Z.compare].
    destruct (Z.ltb_spec k 0); [lia|]. replace (Z.min 0 (zlen l)) with 0 by (unfold zlen; lia). cbn [Z.to_nat skipn].
    rewrite Z.sub_0_r. unfold zlen. destruct (Z.min_spec k (Z.of_nat (length l))) as [[? ->]|[? ->]]; auto.
    rewrite Nat2Z.id, firstn_all. symmetry. apply firstn_all2. lia.
  Qed.

  Lemma in_slice {A} (l : list A) i j a : In a (list_slice l i j) -> In a l.
  Proof.
    unfold list_slice. intros H. rewrite <- (firstn_skipn (Z.to_nat (clip_bound (zlen l) i)) l).
    apply in_app_iff. right. rewrite <- (firstn_skipn (Z.to_nat (clip_bound (zlen l) j - clip_bound (zlen l) i)) (skipn _ l)).
    apply in_app_iff. left. exact H.
  Qed.

  Lemma high_k_spec {A} (items : list A) ws k r out r' :
    length ws = length items ->
    high_k P items ws k r = (Ok out, r') ->
    exists us ss ps,
      draws P (length ws) r = (us, r') /\
      Forall2 (fun uw s => k_score P (fst uw) (snd uw) = Ok s) (combine us ws) ss /\
      length ss = length items /\
      ps = map snd (sort_desc P (tagged ss 0)) /\
      Permutation ps (seq 0 (length items)) /\
      picks items (list_slice ps 0 k) out.
  Proof.
    intros HL H. unfold high_k, mbind in H.
    destruct (scores P ws items r) as [[sc| |] r1] eqn:E; [|discriminate..].
    apply scores_spec in E as (us & ss & Hd & Hs & Hl & ->); auto.
    injection H as <- <-.
    exists us, ss, (map snd (sort_desc P (tagged ss 0))). split; [exact Hd|]. split; [exact Hs|].
    split; [exact Hl|]. split; [reflexivity|].
    assert (HP : Permutation (map snd (sort_desc P (tagged ss 0))) (seq 0 (length items))).
    { rewrite <- Hl, <- (map_snd_tagged ss 0). apply Permutation_map, sort_desc_perm. }
    split; auto.
    destruct items as [|d items'].
    { destruct ss; [|discriminate]. cbn. replace (list_slice (@nil nat) 0 k) with (@nil nat) by (symmetry; unfold list_slice; rewrite skipn_nil, firstn_nil; reflexivity). replace (list_slice (@nil (pK P * A)) 0 k) with (@nil (pK P * A)) by (symmetry; unfold list_slice; rewrite skipn_nil, firstn_nil; reflexivity). constructor. }
    set (items := d :: items') in *.
    rewrite (combine_tagged ss items d Hl).
    rewrite (sort_desc_map (fun n => nth n items d)). rewrite list_slice_map, map_map. cbn [snd].
    rewrite <- (map_map snd (fun n => nth n items d)).
    set (ps := map snd (sort_desc P (tagged ss 0))) in *.
    rewrite <- (list_slice_map (fun n => nth n items d) ps).
    assert (Hin : forall p, In p (list_slice ps 0 k) -> (p < length items)%nat).
    { intros p Hp. apply in_slice in Hp. apply (Permutation_in _ HP), in_seq in Hp. lia. }
    clear - Hin. unfold picks. induction (list_slice ps 0 k) as [|p l IH]; cbn [map]; constructor.
    - apply nth_error_nth'. apply Hin. left; auto.
    - apply IH. intros; apply Hin; right; auto.
  Qed.

  Lemma nodup_slice {A} (l : list A) i j : NoDup l -> NoDup (list_slice l i j).
  Proof.
    intros H. unfold list_slice.
    set (a := Z.to_nat _). set (b := Z.to_nat _).
    assert (NoDup (skipn b l)).
    { rewrite <- (firstn_skipn b l) in H. apply nodup_app_r in H. auto. }
    rewrite <- (firstn_skipn a (skipn b l)) in H0. apply nodup_app_l in H0. auto.
  Qed.

  Lemma weighted_shuffle_spec {A} fuel (items : list A) ws number r out r' :
    w_true P (w_zero P) = false ->
    weighted_shuffle P fuel items ws number r = (Ok out, r') ->
    length ws = length items /\ without_replacement items out /\
    let k := match number with None => zlen items | Some k => k end in
    0 <= k -> zlen out = Z.min k (zlen items).
  Proof.
    intros Hz H. unfold weighted_shuffle in H.
    destruct (Nat.eqb_spec (length items) (length ws)) as [HL|]; cbn [negb] in H; [|discriminate].
    fold (zlen items) in H.
    set (k := match number with None => zlen items | Some k => k end) in *.
    split; auto. cbn zeta.
    destruct (use_low_k k (length items)).
    - apply low_k_spec in H as (ps & Hp & Hn & Hk & _); auto.
      assert (W : without_replacement items out) by (exists ps; auto).
      split; auto. intros _. apply wr_length in W. unfold zlen in *. lia.
    - apply high_k_spec in H as (us & ss & ps & _ & _ & _ & _ & HP & Hp); auto.
      split.
      + exists (list_slice ps 0 k). split; auto. apply nodup_slice.
        eapply Permutation_NoDup; [symmetry; exact HP|]. apply seq_NoDup.
      + intros Hk. apply picks_length in Hp. rewrite list_slice_0 in Hp by auto.
        rewrite firstn_length in Hp. apply Permutation_length in HP. rewrite seq_length in HP.
        unfold zlen. lia.
  Qed.

  Lemma weighted_shuffle_full {A} fuel (items : list A) ws r out r' :
    w_true P (w_zero P) = false ->
    weighted_shuffle P fuel items ws None r = (Ok out, r') -> Permutation out items.
  Proof.
    intros Hz H. apply weighted_shuffle_spec in H as (_ & W & HL); auto.
    apply wr_full; auto. specialize (HL ltac:(unfold zlen; lia)). unfold zlen in HL. lia.
  Qed.
End P.
