(** * Lemmas about TextModel *)
From Verif Require Import Base Prims Values GroupModel SigModel SigProofs MathModel TextModel TextSpec.
Close Scope string_scope.
Open Scope list_scope.
Open Scope Z_scope.

Lemma bind_ok_inv {A B} (m : res A) (f : A -> res B) b : bind m f = Ok b -> exists a, m = Ok a /\ f a = Ok b.
Proof. destruct m; intros H; try discriminate. eauto. Qed.

Lemma mapM_ok {A B} (f : A -> res B) (l : list A) : forall r,
  mapM f l = Ok r <-> Forall2 (fun a b => f a = Ok b) l r.
Proof.
  induction l as [|a t IH]; intros r; cbn [mapM].
  - split; intros H; [injection H as <-; constructor | now inversion H].
  - split; intros H.
    + apply bind_ok_inv in H. destruct H as [b [Hb H]]. apply bind_ok_inv in H. destruct H as [bs [Hbs H]].
      injection H as <-. constructor; [easy | now apply IH].
    + inversion H as [|? b ? bs Hb Hbs]; subst. rewrite Hb. apply IH in Hbs. now rewrite Hbs.
Qed.

Lemma mapM_len {A B} (f : A -> res B) (l : list A) r : mapM f l = Ok r -> length r = length l.
Proof.
  revert r. induction l as [|a t IH]; intros r H; cbn [mapM] in H.
  - injection H as <-. easy.
  - apply bind_ok_inv in H. destruct H as [b [Hb H]]. apply bind_ok_inv in H. destruct H as [bs [Hbs H]].
    injection H as <-. cbn. f_equal. auto.
Qed.

Lemma as_int_value v z : as_int v = Ok z <-> int_value v z.
Proof.
  unfold int_value. destruct v as [|b|x| | | |]; cbn; split; intros H;
    try discriminate; try (destruct H as [H|[[H _]|[H _]]]; discriminate).
  - injection H as <-. destruct b; auto.
  - destruct H as [H|[[H ->]|[H ->]]]; [discriminate| |]; injection H as ->; reflexivity.
  - injection H as <-. auto.
  - destruct H as [H|[[H _]|[H _]]]; [injection H as ->; reflexivity | discriminate | discriminate].
Qed.

Lemma ints_value vs zs : mapM as_int vs = Ok zs <-> Forall2 int_value vs zs.
Proof.
  rewrite mapM_ok. split; intros H.
  - induction H; constructor; auto. now apply as_int_value.
  - induction H; constructor; auto. now apply as_int_value.
Qed.

Lemma sum_vals_ok vs : forall z, sum_vals vs = Ok z <-> exists zs, mapM as_int vs = Ok zs /\ z = zsum zs.
Proof.
  induction vs as [|v t IH]; intros z; cbn [sum_vals mapM].
  - split.
    + intros H. injection H as <-. now exists [].
    + intros [zs [H ->]]. injection H as <-. reflexivity.
  - split.
    + intros H. apply bind_ok_inv in H. destruct H as [x [Hx H]]. apply bind_ok_inv in H. destruct H as [y [Hy H]].
      injection H as <-. apply IH in Hy. destruct Hy as [zs [Hzs ->]]. exists (x :: zs). rewrite Hx, Hzs. now split.
    + intros [zs [H ->]]. apply bind_ok_inv in H. destruct H as [x [Hx H]]. apply bind_ok_inv in H. destruct H as [ys [Hys H]].
      injection H as <-. rewrite Hx. assert (E : sum_vals t = Ok (zsum ys)) by (apply IH; eauto). now rewrite E.
Qed.

Lemma join_strs_spelled cs s : join_strs cs = Ok s <-> spelled cs (VStr s).
Proof.
  unfold join_strs, spelled. split.
  - intros H. apply bind_ok_inv in H. destruct H as [ss [Hss H]]. injection H as <-.
    exists ss. split; [|easy]. apply mapM_ok in Hss. induction Hss as [|c s0 cs ss Hc Hcs IH]; [easy|].
    cbn. f_equal; [|apply IH]. destruct c; try discriminate. cbn in Hc. now injection Hc as ->.
  - intros [ss [-> E]]. injection E as ->.
    assert (Hm : mapM as_str (map VStr ss) = Ok ss).
    { apply mapM_ok. induction ss; constructor; auto. }
    now rewrite Hm.
Qed.

(** ** Slices *)
Lemma list_slice_nat {A} (l : list A) a n : (a + n <= length l)%nat ->
  list_slice l (Z.of_nat a) (Z.of_nat a + Z.of_nat n) = firstn n (skipn a l).
Proof.
  intros H. unfold list_slice, clip_bound, zlen.
  destruct (Z.ltb_spec (Z.of_nat a) 0); [lia|].
  destruct (Z.ltb_spec (Z.of_nat a + Z.of_nat n) 0); [lia|].
  f_equal; [lia|]. f_equal. lia.
Qed.

Lemma cut_words_ok (chars : list val) : forall lens words pre rest,
  Forall (fun n => 0 <= n) lens -> chars = pre ++ rest -> zlen rest = zsum lens ->
  cut_words chars (zlen pre) lens = Ok words ->
  exists groups, concat groups = rest /\
    Forall2 (fun g n => zlen g = n) groups lens /\ Forall2 spelled groups words.
Proof.
  induction lens as [|n t IH]; intros words pre rest Hpos Hc Hlen H; cbn [cut_words] in H.
  - injection H as <-. exists []. split; [|split; constructor].
    unfold zlen in Hlen. cbn in Hlen. destruct rest; [easy|]. cbn in Hlen. lia.
  - inversion Hpos as [|? ? Hn Ht]; subst.
    apply bind_ok_inv in H. destruct H as [s [Hs H]]. apply bind_ok_inv in H. destruct H as [ws [Hws H]]. injection H as <-.
    assert (Hnn : (Z.to_nat n <= length rest)%nat).
    { assert (0 <= zsum t). { clear -Ht. induction Ht; cbn; unfold zsum in *; lia. }
      unfold zlen in Hlen. cbn [zsum fold_right] in Hlen. fold (zsum t) in Hlen. lia. }
    assert (Es : list_slice (pre ++ rest) (zlen pre) (zlen pre + n) = firstn (Z.to_nat n) rest).
    { unfold zlen. rewrite <- (Z2Nat.id n Hn) at 1. rewrite list_slice_nat.
      - rewrite skipn_app, skipn_all, Nat.sub_diag. reflexivity.
      - rewrite app_length. lia. }
    rewrite Es in Hs. apply join_strs_spelled in Hs.
    destruct (IH ws (pre ++ firstn (Z.to_nat n) rest) (skipn (Z.to_nat n) rest)) as [gs [G1 [G2 G3]]]; auto.
    + now rewrite <- app_assoc, firstn_skipn.
    + unfold zlen in *. rewrite skipn_length. cbn [zsum fold_right] in Hlen. fold (zsum t) in Hlen. lia.
    + replace (zlen (pre ++ firstn (Z.to_nat n) rest)) with (zlen pre + n); [easy|].
      unfold zlen. rewrite app_length, firstn_length. lia.
    + exists (firstn (Z.to_nat n) rest :: gs). split; [|split].
      * cbn. rewrite G1. apply firstn_skipn.
      * constructor; [|easy]. unfold zlen. rewrite firstn_length. lia.
      * constructor; easy.
Qed.

Lemma cut_words_length (chars : list val) : forall lens i words, cut_words chars i lens = Ok words -> length words = length lens.
Proof.
  induction lens as [|n t IH]; intros i words H; cbn [cut_words] in H.
  - injection H as <-. easy.
  - apply bind_ok_inv in H. destruct H as [s [Hs H]]. apply bind_ok_inv in H. destruct H as [ws [Hws H]]. injection H as <-.
    cbn. f_equal. eauto.
Qed.

(** Without assumptions on the lengths: every word is a run of the characters drawn. *)
Lemma cut_words_from (chars : list val) : forall lens i words,
  cut_words chars i lens = Ok words ->
  Forall (fun w => exists g, incl g chars /\ spelled g w) words.
Proof.
  induction lens as [|n t IH]; intros i words H; cbn [cut_words] in H.
  - injection H as <-. constructor.
  - apply bind_ok_inv in H. destruct H as [s [Hs H]]. apply bind_ok_inv in H. destruct H as [ws [Hws H]]. injection H as <-.
    constructor; [|eauto].
    eexists. split; [|apply join_strs_spelled; exact Hs].
    unfold list_slice. intros x Hx.
    assert (Hf : forall (k m : nat) (l : list val), In x (firstn k (skipn m l)) -> In x l).
    { intros k m l Hin. rewrite <- (firstn_skipn m l). apply in_app_iff. right.
      rewrite <- (firstn_skipn k (skipn m l)). apply in_app_iff. now left. }
    eapply Hf. exact Hx.
Qed.

Lemma firstn_plus {A} (k m : nat) : forall (l : list A), firstn (k + m) l = firstn k l ++ firstn m (skipn k l).
Proof.
  induction k as [|k IH]; intros l; [easy|]. destruct l as [|a l]; cbn [Nat.add firstn skipn app].
  - now rewrite firstn_nil.
  - now rewrite IH.
Qed.

(** ** Texts *)
Section Texts.
  Context {S : Type}.
  Context (word_call_n : Z -> M S (list val)) (word_reset : M S unit).
  Notation next_word := (next_word word_call_n word_reset).

  (** Drawing the words [ws] from an iterator. *)
  Inductive yields : words -> S -> list val -> words -> S -> Prop :=
  | yields_nil w s : yields w s [] w s
  | yields_cons w s a w1 s1 ws w2 s2 :
      next_word w s = (Ok (a, w1), s1) -> yields w1 s1 ws w2 s2 -> yields w s (a :: ws) w2 s2.

  Lemma yields_app w s ws1 w1 s1 ws2 w2 s2 :
    yields w s ws1 w1 s1 -> yields w1 s1 ws2 w2 s2 -> yields w s (ws1 ++ ws2) w2 s2.
  Proof. induction 1; [easy|]. intros H2. cbn. econstructor; eauto. Qed.

  (** Reading [k] separators off a list, with the default for missing ones. *)
  Definition space : val := VStr [32].
  Definition take_seps (k : nat) (seps : list val) : list val :=
    firstn k seps ++ repeat space (k - length seps).

  Lemma take_seps_S k seps :
    take_seps (Datatypes.S k) seps = fst (next_sep seps) :: take_seps k (snd (next_sep seps)).
  Proof. unfold take_seps. destruct seps; cbn; [|easy]. rewrite Nat.sub_0_r. now destruct k. Qed.

  Lemma take_seps_len k seps : length (take_seps k seps) = k.
  Proof. unfold take_seps. rewrite app_length, firstn_length, repeat_length. lia. Qed.

  Lemma more_words_ok : forall k render w seps s r w' seps' s',
    more_words word_call_n word_reset k render w seps s = (Ok (r, w', seps'), s') ->
    exists ws, length ws = k /\ yields w s ws w' s' /\ seps' = skipn k seps /\
      r = render ++ flat_map (fun p => [fst p; snd p]) (combine (take_seps k seps) ws).
  Proof.
    induction k as [|k IH]; intros render w seps s r w' seps' s' H; cbn [more_words] in H.
    - unfold ret in H. injection H as <- <- <- <-. exists []. split; [easy|]. split; [constructor|].
      split; [easy|]. cbn. now rewrite app_nil_r.
    - destruct (next_sep seps) as [sp seps1] eqn:En.
      apply mbind_ok_inv in H. destruct H as [[a w1] [s1 [Ha H]]]. cbn [fst snd] in H.
      apply IH in H. destruct H as [ws [Hl [Hy [Hs Hr]]]].
      exists (a :: ws). split; [cbn; lia|]. split; [econstructor; eauto|].
      rewrite take_seps_S, En. cbn [fst snd combine flat_map]. split.
      + destruct seps; cbn [next_sep] in En; injection En as <- <-; [now rewrite Hs, !skipn_nil | now rewrite Hs].
      + rewrite Hr, <- app_assoc. reflexivity.
  Qed.

  Lemma interleave_alt : forall ws w seps, length seps = length ws ->
    interleave (w :: ws) seps = w :: flat_map (fun p => [fst p; snd p]) (combine seps ws).
  Proof.
    induction ws as [|w' ws IH]; intros w [|s seps] H; try discriminate; [easy|].
    injection H as H. cbn [combine flat_map]. cbn [fst snd app].
    change (interleave (w :: w' :: ws) (s :: seps)) with (w :: s :: interleave (w' :: ws) seps).
    now rewrite (IH w' seps H).
  Qed.

  (** What the loop over the lengths does. *)
  Lemma make_texts_ok : forall lens w seps s out s',
    Forall (fun n => 0 <= n) lens ->
    make_texts word_call_n word_reset lens w seps s = (Ok out, s') ->
    exists groups sepgroups w',
      yields w s (concat groups) w' s' /\
      map zlen groups = filter (fun n => negb (n =? 0)) lens /\
      concat sepgroups = take_seps (length (concat sepgroups)) seps /\
      Forall2 (fun g sg => Datatypes.S (length sg) = length g) groups sepgroups /\
      Forall2 (fun gs v => spelled (interleave (fst gs) (snd gs)) v) (combine groups sepgroups) out.
  Proof.
    induction lens as [|n t IH]; intros w seps s out s' Hpos H; cbn [make_texts] in H.
    - unfold ret in H. injection H as <- <-. exists [], [], w. cbn. repeat split; constructor.
    - inversion Hpos as [|? ? Hn Ht]; subst. destruct (n =? 0) eqn:En.
      + cbn [filter]. rewrite En. cbn [negb]. now apply IH in H.
      + cbn [filter]. rewrite En. cbn [negb].
        apply mbind_ok_inv in H. destruct H as [[a w1] [s1 [Ha H]]]. cbn [fst snd] in H.
        apply mbind_ok_inv in H. destruct H as [[[r w2] seps2] [s2 [Hm H]]].
        apply mbind_ok_inv in H. destruct H as [str [s3 [Hj H]]]. unfold lift in Hj. injection Hj as Hj <-.
        apply mbind_ok_inv in H. destruct H as [texts [s4 [Ht2 H]]]. unfold ret in H. injection H as <- <-.
        apply more_words_ok in Hm. destruct Hm as [ws [Hl [Hy [Hs Hr]]]].
        apply IH in Ht2; [|easy]. destruct Ht2 as [gs [sgs [w' [G1 [G2 [G3 [G4 G5]]]]]]].
        apply join_strs_spelled in Hj.
        set (k := Z.to_nat (n - 1)) in *.
        exists ((a :: ws) :: gs), (take_seps k seps :: sgs), w'.
        split; [|split; [|split; [|split]]].
        * cbn [concat]. eapply yields_app; [econstructor; [exact Ha | exact Hy] | exact G1].
        * cbn [map]. rewrite G2. f_equal. unfold zlen. cbn. lia.
        * cbn [concat]. rewrite app_length, take_seps_len, G3. rewrite take_seps_len. rewrite Hs.
          clear. unfold take_seps. set (m := length (concat sgs)).
          rewrite skipn_length, <- app_assoc.
          destruct (Nat.le_gt_cases (length seps) k) as [Hle|Hgt].
          -- rewrite (skipn_all2 seps) by lia. rewrite firstn_nil. cbn [app].
             rewrite <- repeat_app. rewrite !firstn_all2 by lia. do 2 f_equal. lia.
          -- replace (k - length seps)%nat with 0%nat by lia. cbn [repeat app].
             rewrite (firstn_plus k m), <- app_assoc. do 3 f_equal. lia.
        * constructor; [|exact G4]. rewrite take_seps_len. cbn. lia.
        * cbn [combine]. constructor; [|exact G5]. cbn [fst snd].
          rewrite interleave_alt by (rewrite take_seps_len; lia). rewrite Hr in Hj. exact Hj.
  Qed.
End Texts.

Lemma clamp_mx (u r : Z) : clamp Z.ltb u None (Some r) = Z.min u r.
Proof. unfold clamp. destruct (r <? u) eqn:E; lia. Qed.

Section Draws.
  Context {S : Type}.
  Context (word_call_n : Z -> M S (list val)) (word_reset : M S unit).
  Notation yields := (yields word_call_n word_reset).
  Notation drawn := (drawn_in_batches word_call_n word_reset).

  Lemma yields_list (l : list val) : forall s ws w' s',
    yields (WList l) s ws w' s' -> exists rest, l = ws ++ rest /\ w' = WList rest /\ s' = s.
  Proof.
    induction l as [|a l IH]; intros s ws w' s' H; inversion H as [|? ? b w1 s1 ws1 w2 s2 Hn Hy]; subst.
    - now exists [].
    - discriminate.
    - now exists (a :: l).
    - cbn [next_word] in Hn. unfold ret in Hn. injection Hn as <- <- <-.
      apply IH in Hy. destruct Hy as [rest [-> [-> ->]]]. now exists rest.
  Qed.

  (** As long as [J] holds, as many words come back as were asked for. *)
  Context (J : S -> Prop) (Hmany : returns_within J word_call_n).
  Context (Hres : forall s s', J s -> word_reset s = (Ok tt, s') -> J s').
  Context (u : Z) (Hu : 0 < u).

  Lemma next_batch_ok f needed r s a w s' : J s ->
    next_batch word_call_n word_reset (Datatypes.S f) u needed r s = (Ok (a, w), s') ->
    let r' := match needed with Some n => r - n | None => r end in
    exists s1 t, (match needed with Some _ => word_reset s = (Ok tt, s1) | None => s1 = s end) /\ 0 < r' /\
      word_call_n (Z.min u r') s1 = (Ok (a :: t), s') /\ w = WGen u t (Some (Z.min u r')) r' /\
      zlen (a :: t) = Z.min u r' /\ J s'.
  Proof.
    intros Js H r'. cbn [next_batch] in H. apply mbind_ok_inv in H. destruct H as [[] [s1 [Hr H]]].
    cbv zeta in H. fold r' in H. destruct (Z.ltb_spec 0 r') as [Hpos|]; [|discriminate].
    rewrite clamp_mx in H. apply mbind_ok_inv in H. destruct H as [batch [s2 [Hb H]]].
    assert (J1 : J s1) by (destruct needed; [eapply Hres; eauto | injection Hr as <-; exact Js]).
    assert (Hz : 0 <= Z.min u r') by lia. destruct (Hmany _ _ _ _ Hz J1 Hb) as [Hlen J2].
    destruct batch as [|b t]; [unfold zlen in Hlen; cbn [length] in Hlen; lia|].
    unfold ret in H. injection H as <- <- <-.
    exists s1, t. split; [|auto]. destruct needed; [easy|]. unfold ret in Hr. now injection Hr.
  Qed.

  Lemma yields_gen : forall ws pend n r s w' s', J s ->
    n = Z.min u r -> 0 < r -> zlen ws = zlen pend + (r - n) ->
    yields (WGen u pend (Some n) r) s ws w' s' ->
    (r - n = 0 /\ ws = pend /\ s' = s) \/
    (0 < r - n /\ exists s1 ws', ws = pend ++ ws' /\ word_reset s = (Ok tt, s1) /\ drawn u (r - n) s1 ws' s').
  Proof.
    induction ws as [|a ws IH]; intros pend n r s w' s' Js Hn Hr Hlen H; inversion H as [|? ? b w1 s1 ws1 w2 s2 Hnw Hy]; subst.
    - left. unfold zlen in Hlen. destruct pend; cbn [length] in Hlen; [|lia]. repeat split. lia.
    - destruct pend as [|p pend]; cbn [next_word] in Hnw.
      + apply next_batch_ok in Hnw; [|exact Js]. cbv zeta in Hnw. destruct Hnw as [s3 [t [Hre [Hr' [Hb [-> [Hlb J1]]]]]]].
        set (r' := r - Z.min u r) in *.
        unfold zlen in *. cbn [length] in *.
        apply IH in Hy; [|exact J1|easy|easy|lia].
        right. split; [lia|]. destruct Hy as [[H0 [-> ->]]|[H0 [s4 [ws' [-> [Hres2 Hd]]]]]].
        * exists s3, (a :: t). split; [easy|]. split; [easy|]. replace (Z.min u r') with r' in Hb by lia.
          apply batch_last; [lia | lia | easy].
        * exists s3, (a :: t ++ ws'). split; [easy|]. split; [easy|].
          replace (Z.min u r') with u in * by lia.
          change (a :: t ++ ws') with ((a :: t) ++ ws'). eapply batch_more; eauto; lia.
      + unfold ret in Hnw. injection Hnw as <- <- <-. unfold zlen in *. cbn [length] in *.
        apply IH in Hy; [|exact Js|easy|easy|lia].
        destruct Hy as [[H0 [-> ->]]|[H0 [s4 [ws' [-> [Hres2 Hd]]]]]].
        * left. auto.
        * right. split; [easy|]. exists s4, ws'. auto.
  Qed.

  Lemma yields_gen_start ws r s w' s' : J s ->
    0 < r -> zlen ws = r -> yields (WGen u [] None r) s ws w' s' -> drawn u r s ws s'.
  Proof.
    intros Js Hr Hlen H. destruct ws as [|a ws]; [unfold zlen in Hlen; cbn [length] in Hlen; lia|].
    inversion H as [|? ? b w1 s1 ws1 w2 s2 Hnw Hy]; subst. cbn [next_word] in Hnw.
    apply next_batch_ok in Hnw; [|exact Js]. cbv zeta in Hnw. destruct Hnw as [s3 [t [-> [Hr' [Hb [-> [Hlb J1]]]]]]].
    unfold zlen in *. cbn [length] in *.
    apply yields_gen in Hy; [|exact J1|easy|lia|unfold zlen; lia].
    destruct Hy as [[H0 [-> ->]]|[H0 [s4 [ws' [-> [Hres2 Hd]]]]]].
    - apply batch_last; [lia|lia|]. rewrite <- Hb. f_equal. lia.
    - change (a :: t ++ ws') with ((a :: t) ++ ws').
      match type of H0 with 0 < ?r - _ => set (r0 := r) in *; assert (E : Z.min u r0 = u) by lia end.
      assert (Hlt : u < r0) by lia. rewrite E in Hb, Hd. eapply batch_more; eauto.
  Qed.
End Draws.
