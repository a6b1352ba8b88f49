(** * Alphabets, words and texts: properties C35 to C39. *)
From Verif Require Import Base Prims Values GroupModel SigModel SigProofs WrapSpec TextModel TextSpec TextProofs.
Close Scope string_scope.
Open Scope list_scope.
Open Scope Z_scope.

(** ** C35 make_alphabet *)

Definition valid_code (x : Z) : Prop := 0 <= x <= 1114111.
Definition in_ranges (x : Z) (ranges : list (Z * Z)) : Prop :=
  exists a b, In (a, b) ranges /\ a <= x <= b.
(** The characters from [a] to [b], both included, in order. *)
Definition is_block (r : Z * Z) (block : list (list Z)) : Prop :=
  zlen block = Z.max 0 (snd r - fst r + 1) /\
  forall i c, nth_error block i = Some c -> c = [fst r + Z.of_nat i].

Lemma in_code_range x r : In x (code_range r) <-> fst r <= x <= snd r.
Proof.
  unfold code_range. rewrite in_map_iff. split.
  - intros [k [<- Hk]]. apply in_seq in Hk. lia.
  - intros H. exists (Z.to_nat (x - fst r)). rewrite in_seq. lia.
Qed.

Lemma in_flat_ranges x ranges : In x (flat_map code_range ranges) <-> in_ranges x ranges.
Proof.
  rewrite in_flat_map. unfold in_ranges. split.
  - intros [[a b] [Hr Hx]]. apply in_code_range in Hx. now exists a, b.
  - intros [a [b [Hr Hx]]]. exists (a, b). split; [easy | now apply in_code_range].
Qed.

Lemma py_chr_ok x c : py_chr x = Ok c <-> valid_code x /\ c = [x].
Proof.
  unfold py_chr, valid_code. destruct (Z.leb_spec 0 x), (Z.ltb_spec x 1114112); cbn [andb]; split; intros E;
    try discriminate; try (injection E as <-; split; [lia | easy]); try (destruct E; lia); try (destruct E as [_ ->]; easy).
Qed.

Lemma mapM_chr l r : mapM py_chr l = Ok r -> r = map (fun x => [x]) l /\ Forall valid_code l.
Proof.
  revert r. induction l as [|x t IH]; intros r H; cbn [mapM] in H.
  - injection H as <-. now split.
  - apply bind_ok_inv in H. destruct H as [c [Hc H]]. apply bind_ok_inv in H. destruct H as [cs [Hcs H]]. injection H as <-.
    apply py_chr_ok in Hc. destruct Hc as [Hv ->]. apply IH in Hcs. destruct Hcs as [-> Hvs]. split; [easy | now constructor].
Qed.

Lemma mapM_chr_total l : (Forall valid_code l -> mapM py_chr l = Ok (map (fun x => [x]) l)) /\
  (~ Forall valid_code l -> mapM py_chr l = Raise ValueError).
Proof.
  induction l as [|x t [IH1 IH2]]; cbn [mapM map].
  - split; [easy|]. intros H. destruct H. constructor.
  - split.
    + intros H. inversion H as [|? ? Hx Ht]; subst.
      assert (E : py_chr x = Ok [x]) by (now apply py_chr_ok). rewrite E, IH1 by easy. reflexivity.
    + intros H. destruct (py_chr x) as [c|e|] eqn:Ec.
      * apply py_chr_ok in Ec. destruct Ec as [Hv ->]. rewrite IH2; [easy|]. intros Ht. apply H. now constructor.
      * unfold py_chr in Ec. destruct (_ && _); [discriminate|]. now injection Ec as <-.
      * unfold py_chr in Ec. destruct (_ && _); discriminate.
Qed.

(** The result is the concatenation, in order, of the inclusive ranges; a
    character is in it exactly if its code point lies in one of them. *)
Theorem C35_contents ranges l :
  ranges <> [] -> make_alphabet (Some ranges) = Ok l ->
  (exists blocks, l = concat blocks /\ Forall2 is_block ranges blocks) /\
  (forall c, In c l <-> exists x, c = [x] /\ in_ranges x ranges).
Proof.
  intros Hne H. destruct ranges as [|r0 rs0]; [easy|]. unfold make_alphabet in H.
  set (rs := r0 :: rs0) in *. apply mapM_chr in H. destruct H as [-> _].
  split.
  - exists (map (fun r => map (fun x => [x]) (code_range r)) rs). split.
    + clear. induction rs as [|r t IH]; [easy|]. cbn [flat_map map concat]. rewrite map_app. now f_equal.
    + clear. induction rs as [|r t IH]; cbn [map]; constructor; [|easy]. split.
      * unfold zlen, code_range. rewrite !map_length, seq_length. lia.
      * intros i c Hi. unfold code_range in Hi. rewrite map_map in Hi.
        rewrite nth_error_map in Hi. destruct (nth_error (seq 0 _) i) as [k|] eqn:Ek; [|discriminate].
        cbn in Hi. injection Hi as <-.
        assert (Hlt : (i < length (seq 0 (Z.to_nat (snd r + 1 - fst r))))%nat) by (apply nth_error_Some; congruence).
        apply (nth_error_nth _ _ 0%nat) in Ek. rewrite seq_nth in Ek by (now rewrite seq_length in Hlt). now subst.
  - intros c. rewrite in_map_iff. split.
    + intros [x [<- Hx]]. exists x. split; [easy | now apply in_flat_ranges].
    + intros [x [-> Hx]]. exists x. split; [easy | now apply in_flat_ranges].
Qed.

(** It is an error, a ValueError, exactly if a range contains something that is
    not a code point. *)
Theorem C35_errors ranges :
  ranges <> [] ->
  ((forall x, in_ranges x ranges -> valid_code x) -> exists l, make_alphabet (Some ranges) = Ok l) /\
  ((exists x, in_ranges x ranges /\ ~ valid_code x) -> make_alphabet (Some ranges) = Raise ValueError).
Proof.
  intros Hne. destruct ranges as [|r0 rs0]; [easy|]. unfold make_alphabet. set (rs := r0 :: rs0).
  destruct (mapM_chr_total (flat_map code_range rs)) as [H1 H2]. split.
  - intros H. eexists. apply H1. apply Forall_forall. intros x Hx. apply H. now apply in_flat_ranges.
  - intros [x [Hx Hn]]. apply H2. intros Hf. rewrite Forall_forall in Hf. apply Hn, Hf. now apply in_flat_ranges.
Qed.

(** Without ranges: the documented ones. *)
Theorem C35_default :
  make_alphabet None = make_alphabet (Some [(33, 33); (35, 38); (40, 126); (161, 172); (174, 255)]) /\
  make_alphabet (Some []) = make_alphabet None.
Proof. split; reflexivity. Qed.

Example C35_demo : make_alphabet (Some [(97, 99); (5, 4); (65, 65)]) = Ok [[97]; [98]; [99]; [65]].
Proof. reflexivity. Qed.
Example C35_demo_error : make_alphabet (Some [(97, 99); (1114111, 1114112)]) = Raise ValueError.
Proof. reflexivity. Qed.

(** ** C36 Word *)

(** word() draws a length, then that many characters, and puts them together. *)
Theorem C36_word S (length_call : M S val) alphabet_call alphabet_call_n s v s' :
  word_emit length_call alphabet_call alphabet_call_n s = (Ok v, s') ->
  forall n s1, length_call s = (Ok (VInt n), s1) ->
  exists chars, alphabet_call_n n s1 = (Ok chars, s') /\ spelled chars v.
Proof.
  intros H n s1 Hl. apply mbind_ok_inv in H. destruct H as [lv [s2 [Hl2 H]]].
  rewrite Hl in Hl2. injection Hl2 as <- <-.
  apply mbind_ok_inv in H. destruct H as [cv [s3 [Hc H]]].
  apply mbind_ok_inv in H. destruct H as [str [s4 [Hj H]]]. unfold lift in Hj. injection Hj as Hj <-.
  unfold ret in H. injection H as <- <-.
  cbn [call_val] in Hc. apply mbind_ok_inv in Hc. destruct Hc as [z [s5 [Hz Hc]]]. unfold lift in Hz. cbn in Hz. injection Hz as <- <-.
  apply mbind_ok_inv in Hc. destruct Hc as [chars [s6 [Hch Hc]]]. unfold ret in Hc. injection Hc as <- <-.
  exists chars. split; [easy|]. cbn in Hj. now apply join_strs_spelled.
Qed.

(** word(n) draws the lengths, then all the characters at once, and cuts them into
    words: the i-th word consists of lengths[i] consecutive characters, and all
    characters are used, in order. *)
Theorem C36_words S (length_call_n alphabet_call_n : Z -> M S (list val)) number s words s' :
  word_emit_many length_call_n alphabet_call_n number s = (Ok words, s') ->
  exists lengths s1 ns chars,
    length_call_n number s = (Ok lengths, s1) /\ Forall2 int_value lengths ns /\
    alphabet_call_n (zsum ns) s1 = (Ok chars, s') /\
    length words = length lengths /\
    (Forall (fun n => 0 <= n) ns -> zlen chars = zsum ns ->
     exists groups, concat groups = chars /\
       Forall2 (fun g n => zlen g = n) groups ns /\ Forall2 spelled groups words).
Proof.
  intros H. apply mbind_ok_inv in H. destruct H as [lengths [s1 [Hl H]]].
  apply mbind_ok_inv in H. destruct H as [total [s2 [Ht H]]]. unfold lift in Ht. injection Ht as Ht <-.
  apply sum_vals_ok in Ht. destruct Ht as [ns [Hns ->]].
  apply mbind_ok_inv in H. destruct H as [chars [s3 [Hc H]]]. unfold lift in H. injection H as H <-.
  rewrite Hns in H. cbn [bind] in H.
  exists lengths, s1, ns, chars. split; [easy|]. split; [now apply ints_value|]. split; [easy|]. split.
  - apply cut_words_length in H. apply mapM_len in Hns. congruence.
  - intros Hpos Hlen. now apply (cut_words_ok chars ns words [] chars).
Qed.

(** Child emitters that count up, as strings of one character. *)
Definition letter : M Z val := fun s => (Ok (VStr [s]), s + 1).
Fixpoint times {S A} (k : nat) (m : M S A) : M S (list A) :=
  match k with O => ret [] | Datatypes.S k => a <~ m ;; l <~ times k m ;; ret (a :: l) end.
Definition letters (n : Z) : M Z (list val) := times (Z.to_nat n) letter.
Definition const_list (l : list val) : Z -> M Z (list val) := fun n => ret (firstn (Z.to_nat n) l).
Example C36_demo :
  word_emit_many (const_list [VInt 2; VInt 0; VInt 3]) letters 3 97 = (Ok [VStr [97; 98]; VStr []; VStr [99; 100; 101]], 102) /\
  word_emit (ret (VInt 3)) letter letters 97 = (Ok (VStr [97; 98; 99]), 100).
Proof. split; reflexivity. Qed.

(** ** C37 Text *)

Section Text.
  Context {S : Type}.
  Context (numwords_call_n word_call_n : Z -> M S (list val)) (word_reset : M S unit).
  Context (word_unique : S -> res (option Z)) (sep_call_n : Z -> M S (list val)).
  Notation text_emit_many := (text_emit_many numwords_call_n word_call_n word_reset word_unique sep_call_n).
  Notation text_emit := (text_emit numwords_call_n word_call_n word_reset word_unique sep_call_n).

  (** The words [ws] and separators [seps] drawn for a batch of texts with [total]
      words: either all words at once, or, if the word emitter has
      replace_only_after_call set and not enough different values, in batches. *)
  Definition drawn_for (number total : Z) (s1 : S) (ws seps : list val) (s' : S) : Prop :=
    (exists s2, (word_unique s1 = Ok None \/ exists u, word_unique s1 = Ok (Some u) /\ (u = 0 \/ total <= u)) /\
       word_call_n total s1 = (Ok ws, s2) /\ sep_call_n (total - number) s2 = (Ok seps, s')) \/
    (exists u s2, word_unique s1 = Ok (Some u) /\ 0 < u /\ u < total /\
       sep_call_n (total - number) s1 = (Ok seps, s2) /\
       drawn_in_batches word_call_n word_reset u total s2 ws s').

  Lemma sum_nonzero : forall ns, zsum (filter (fun n => negb (n =? 0)) ns) = zsum ns.
  Proof.
    induction ns as [|n t IH]; [easy|]. cbn [filter]. destruct (Z.eqb_spec n 0); cbn [negb].
    - rewrite IH. subst. reflexivity.
    - cbn [zsum fold_right]. fold (zsum t). rewrite <- IH. reflexivity.
  Qed.

  Lemma zlen_concat {A} (l : list (list A)) : zlen (concat l) = zsum (map zlen l).
  Proof.
    induction l as [|a t IH]; [easy|]. cbn [concat map zsum fold_right]. fold (zsum (map zlen t)).
    rewrite <- IH. unfold zlen. rewrite app_length. lia.
  Qed.

  Lemma text_emit_many_ok number s out s' :
    returns_as_many word_call_n ->
    (forall s1 u, word_unique s1 = Ok (Some u) -> 0 <= u) ->
    text_emit_many number s = (Ok out, s') ->
    exists lengths s1 ns,
      numwords_call_n number s = (Ok lengths, s1) /\ Forall2 int_value lengths ns /\
      (Forall (fun n => 0 <= n) ns ->
       exists ws seps groups sepgroups,
         drawn_for number (zsum ns) s1 ws seps s' /\
         concat groups = ws /\
         map zlen groups = filter (fun n => negb (n =? 0)) ns /\
         concat sepgroups = take_seps (length (concat sepgroups)) seps /\
         Forall2 (fun g sg => Datatypes.S (length sg) = length g) groups sepgroups /\
         Forall2 (fun gs v => spelled (interleave (fst gs) (snd gs)) v) (combine groups sepgroups) out).
  Proof.
    intros Hmany Hu H. apply mbind_ok_inv in H. destruct H as [lengths [s1 [Hl H]]].
    apply mbind_ok_inv in H. destruct H as [total [s1' [Ht H]]]. unfold lift in Ht. injection Ht as Ht <-.
    apply sum_vals_ok in Ht. destruct Ht as [ns [Hns ->]].
    apply mbind_ok_inv in H. destruct H as [w [s2 [Hw H]]].
    apply mbind_ok_inv in H. destruct H as [seps [s3 [Hs H]]].
    apply mbind_ok_inv in H. destruct H as [ns' [s3' [Hns' H]]]. unfold lift in Hns'. injection Hns' as Hns' <-.
    rewrite Hns in Hns'. injection Hns' as <-.
    exists lengths, s1, ns. split; [easy|]. split; [now apply ints_value|]. intros Hpos.
    apply make_texts_ok in H; [|easy].
    destruct H as [groups [sepgroups [w' [Hy [Hg [Hsep [Hlen Hout]]]]]]].
    assert (Hcl : zlen (concat groups) = zsum ns) by (rewrite zlen_concat, Hg; apply sum_nonzero).
    exists (concat groups), seps, groups, sepgroups. split; [|auto].
    unfold get_words_iterator in Hw. destruct (word_unique s1) as [[u|]|e|] eqn:Eu; try discriminate.
    - destruct (negb (u =? 0) && (u <? zsum ns)) eqn:Eb.
      + injection Hw as <- <-. apply Bool.andb_true_iff in Eb. destruct Eb as [E1 E2].
        apply Z.ltb_lt in E2. apply Bool.negb_true_iff, Z.eqb_neq in E1. specialize (Hu _ _ Eu).
        right. exists u, s3. split; [easy|]. split; [lia|]. split; [easy|]. split; [easy|].
        apply (yields_gen_start word_call_n word_reset (fun _ => True)) with (w' := w'); try easy; try lia.
        intros n0 s0 l0 s0' Hn0 _ Hc0. split; [eapply Hmany; eauto | easy].
      + apply Bool.andb_false_iff in Eb. rewrite Bool.negb_false_iff, Z.eqb_eq, Z.ltb_ge in Eb.
        left. apply mbind_ok_inv in Hw. destruct Hw as [l [s4 [Hw1 Hw2]]]. unfold ret in Hw2. injection Hw2 as <- <-.
        apply yields_list in Hy. destruct Hy as [rest [E [_ ->]]].
        pose proof (fun h => Hmany _ _ _ _ h Hw1) as Hln.
        assert (H0 : 0 <= zsum ns) by (unfold zlen in Hcl; lia). specialize (Hln H0).
        assert (rest = []).
        { subst l. unfold zlen in *. rewrite app_length in Hln. destruct rest; [easy|]. cbn in Hln. lia. }
        subst rest. rewrite app_nil_r in E. subst l. exists s4. split; [right; exists u; auto | easy].
    - left. apply mbind_ok_inv in Hw. destruct Hw as [l [s4 [Hw1 Hw2]]]. unfold ret in Hw2. injection Hw2 as <- <-.
      apply yields_list in Hy. destruct Hy as [rest [E [_ ->]]].
      pose proof (fun h => Hmany _ _ _ _ h Hw1) as Hln.
      assert (H0 : 0 <= zsum ns) by (unfold zlen in Hcl; lia). specialize (Hln H0).
      assert (rest = []).
      { subst l. unfold zlen in *. rewrite app_length in Hln. destruct rest; [easy|]. cbn in Hln. lia. }
      subst rest. rewrite app_nil_r in E. subst l. exists s4. split; [now left | easy].
  Qed.

  Lemma text_emit_many_within (J : S -> Prop) number s out s' :
    J s -> 0 <= number ->
    returns_within J word_call_n -> returns_within J sep_call_n -> returns_within J numwords_call_n ->
    (forall s s', J s -> word_reset s = (Ok tt, s') -> J s') ->
    (forall s1 u, J s1 -> word_unique s1 = Ok (Some u) -> 0 <= u) ->
    text_emit_many number s = (Ok out, s') ->
    exists lengths s1 ns,
      numwords_call_n number s = (Ok lengths, s1) /\ Forall2 int_value lengths ns /\
      (Forall (fun n => 0 <= n) ns -> (number <= zsum ns \/ forall s, J s) ->
       exists ws seps groups sepgroups,
         drawn_for number (zsum ns) s1 ws seps s' /\
         concat groups = ws /\
         map zlen groups = filter (fun n => negb (n =? 0)) ns /\
         concat sepgroups = take_seps (length (concat sepgroups)) seps /\
         Forall2 (fun g sg => Datatypes.S (length sg) = length g) groups sepgroups /\
         Forall2 (fun gs v => spelled (interleave (fst gs) (snd gs)) v) (combine groups sepgroups) out).
  Proof.
    intros Js Hnum Hmany Hsepm Hnumm Hres Hu H. apply mbind_ok_inv in H. destruct H as [lengths [s1 [Hl H]]].
    apply mbind_ok_inv in H. destruct H as [total [s1' [Ht H]]]. unfold lift in Ht. injection Ht as Ht <-.
    apply sum_vals_ok in Ht. destruct Ht as [ns [Hns ->]].
    apply mbind_ok_inv in H. destruct H as [w [s2 [Hw H]]].
    apply mbind_ok_inv in H. destruct H as [seps [s3 [Hs H]]].
    apply mbind_ok_inv in H. destruct H as [ns' [s3' [Hns' H]]]. unfold lift in Hns'. injection Hns' as Hns' <-.
    rewrite Hns in Hns'. injection Hns' as <-.
    exists lengths, s1, ns. split; [easy|]. split; [now apply ints_value|]. intros Hpos Hle.
    destruct (Hnumm _ _ _ _ Hnum Js Hl) as [Hlnum J1].
    apply make_texts_ok in H; [|easy].
    destruct H as [groups [sepgroups [w' [Hy [Hg [Hsep [Hlen Hout]]]]]]].
    assert (Hcl : zlen (concat groups) = zsum ns) by (rewrite zlen_concat, Hg; apply sum_nonzero).
    exists (concat groups), seps, groups, sepgroups. split; [|auto].
    unfold get_words_iterator in Hw. destruct (word_unique s1) as [[u|]|e|] eqn:Eu; try discriminate.
    - destruct (negb (u =? 0) && (u <? zsum ns)) eqn:Eb.
      + injection Hw as <- <-. apply Bool.andb_true_iff in Eb. destruct Eb as [E1 E2].
        apply Z.ltb_lt in E2. apply Bool.negb_true_iff, Z.eqb_neq in E1. specialize (Hu _ _ J1 Eu).
        right. exists u, s3. split; [easy|]. split; [lia|]. split; [easy|]. split; [easy|].
        assert (J3 : J s3).
        { destruct Hle as [Hle|Hle]; [|easy]. assert (H0 : 0 <= zsum ns - number) by lia.
          now apply (Hsepm _ _ _ _ H0 J1 Hs). }
        eapply yields_gen_start; eauto; lia.
      + apply Bool.andb_false_iff in Eb. rewrite Bool.negb_false_iff, Z.eqb_eq, Z.ltb_ge in Eb.
        left. apply mbind_ok_inv in Hw. destruct Hw as [l [s4 [Hw1 Hw2]]]. unfold ret in Hw2. injection Hw2 as <- <-.
        apply yields_list in Hy. destruct Hy as [rest [E [_ ->]]].
        pose proof (fun h => proj1 (Hmany _ _ _ _ h J1 Hw1)) as Hln.
        assert (H0 : 0 <= zsum ns) by (unfold zlen in Hcl; lia). specialize (Hln H0).
        assert (rest = []).
        { subst l. unfold zlen in *. rewrite app_length in Hln. destruct rest; [easy|]. cbn in Hln. lia. }
        subst rest. rewrite app_nil_r in E. subst l. exists s4. split; [right; exists u; auto | easy].
    - left. apply mbind_ok_inv in Hw. destruct Hw as [l [s4 [Hw1 Hw2]]]. unfold ret in Hw2. injection Hw2 as <- <-.
      apply yields_list in Hy. destruct Hy as [rest [E [_ ->]]].
      pose proof (fun h => proj1 (Hmany _ _ _ _ h J1 Hw1)) as Hln.
      assert (H0 : 0 <= zsum ns) by (unfold zlen in Hcl; lia). specialize (Hln H0).
      assert (rest = []).
      { subst l. unfold zlen in *. rewrite app_length in Hln. destruct rest; [easy|]. cbn in Hln. lia. }
      subst rest. rewrite app_nil_r in E. subst l. exists s4. split; [now left | easy].
  Qed.

  (** Each text consists of its number of words (at least 1 each) in the order
      drawn, with one separator between neighbours; all words and all separators
      drawn are used, in order, exactly once. The emitters need to return as many values as asked for only in the
      states in which [J] holds. *)
  Theorem C37_within (J : S -> Prop) number s out s' :
    J s ->
    returns_within J word_call_n -> returns_within J sep_call_n -> returns_within J numwords_call_n ->
    (forall s s', J s -> word_reset s = (Ok tt, s') -> J s') ->
    (forall s1 u, J s1 -> word_unique s1 = Ok (Some u) -> 0 <= u) ->
    0 <= number ->
    text_emit_many number s = (Ok out, s') ->
    exists lengths s1 ns,
      numwords_call_n number s = (Ok lengths, s1) /\ Forall2 int_value lengths ns /\
      (Forall (fun n => 1 <= n) ns ->
       exists ws seps groups sepgroups,
         drawn_for number (zsum ns) s1 ws seps s' /\
         concat groups = ws /\ map zlen groups = ns /\
         concat sepgroups = seps /\ map (fun sg => zlen sg + 1) sepgroups = ns /\
         Forall2 (fun gs v => spelled (interleave (fst gs) (snd gs)) v) (combine groups sepgroups) out).
  Proof.
    intros Js Hmw Hms Hmn Hres Hu Hnum H.
    destruct (text_emit_many_within J _ _ _ _ Js Hnum Hmw Hms Hmn Hres Hu H) as [lengths [s1 [ns [Hl [Hns Hrest]]]]].
    exists lengths, s1, ns. split; [easy|]. split; [easy|]. intros Hpos.
    assert (Hn2 : zlen ns = number).
    { destruct (Hmn _ _ _ _ Hnum Js Hl) as [Hlen _]. unfold zlen in *.
      rewrite <- Hlen. f_equal. clear -Hns. induction Hns; cbn; auto. }
    destruct Hrest as [ws [seps [gs [sgs [Hd [Hc [Hg [Hsep [Hlen Hout]]]]]]]]].
    { eapply Forall_impl; [|exact Hpos]. cbn. lia. }
    { left. rewrite <- Hn2. clear -Hpos. unfold zsum, zlen. induction Hpos; cbn [fold_right length]; lia. }
    assert (Hf : filter (fun n => negb (n =? 0)) ns = ns).
    { clear -Hpos. induction Hpos as [|n t Hn Ht IH]; [easy|]. cbn. destruct (Z.eqb_spec n 0); [lia|]. cbn. now f_equal. }
    rewrite Hf in Hg.
    exists ws, seps, gs, sgs. split; [easy|]. split; [easy|]. split; [easy|].
    assert (Hsl : map (fun sg => zlen sg + 1) sgs = ns).
    { rewrite <- Hg. clear -Hlen. induction Hlen as [|g sg gs sgs E _ IH]; [easy|]. cbn [map]. f_equal; [|easy]. unfold zlen. lia. }
    split; [|split; [exact Hsl | exact Hout]].
    assert (Hcs : zlen (concat sgs) = zsum ns - number).
    { rewrite zlen_concat, <- Hn2, <- Hsl. clear. induction sgs as [|a t IH]; [easy|].
      unfold zsum, zlen in *. cbn [map fold_right length]. rewrite map_length in *. lia. }
    assert (Hss : zlen seps = zsum ns - number).
    { assert (Hnn : 0 <= zsum ns - number) by (rewrite <- Hcs; unfold zlen; lia).
      destruct (Hmn _ _ _ _ Hnum Js Hl) as [_ J1].
      destruct Hd as [[s2 [_ [Hw Hd]]]|[u [s2 [_ [_ [_ [Hd _]]]]]]].
      - assert (J2 : J s2).
        { assert (H0 : 0 <= zsum ns) by (unfold zlen in Hn2; lia). exact (proj2 (Hmw _ _ _ _ H0 J1 Hw)). }
        exact (proj1 (Hms _ _ _ _ Hnn J2 Hd)).
      - exact (proj1 (Hms _ _ _ _ Hnn J1 Hd)). }
    rewrite Hsep. unfold take_seps.
    assert (El : length (concat sgs) = length seps) by (unfold zlen in *; lia).
    rewrite El, firstn_all, Nat.sub_diag. apply app_nil_r.
  Qed.

  (** Each text consists of its number of words (at least 1 each) in the order
      drawn, with one separator between neighbours; all words and all separators
      drawn are used, in order, exactly once. *)
  Theorem C37_texts number s out s' :
    returns_as_many word_call_n -> returns_as_many sep_call_n -> returns_as_many numwords_call_n ->
    (forall s1 u, word_unique s1 = Ok (Some u) -> 0 <= u) ->
    0 <= number ->
    text_emit_many number s = (Ok out, s') ->
    exists lengths s1 ns,
      numwords_call_n number s = (Ok lengths, s1) /\ Forall2 int_value lengths ns /\
      (Forall (fun n => 1 <= n) ns ->
       exists ws seps groups sepgroups,
         drawn_for number (zsum ns) s1 ws seps s' /\
         concat groups = ws /\ map zlen groups = ns /\
         concat sepgroups = seps /\ map (fun sg => zlen sg + 1) sepgroups = ns /\
         Forall2 (fun gs v => spelled (interleave (fst gs) (snd gs)) v) (combine groups sepgroups) out).
  Proof.
    intros Hmw Hms Hmn Hu Hnum H. apply (C37_within (fun _ => True)) with (s' := s') (out := out); auto.
    - intros n s0 l s0' Hn _ Hc. split; [eapply Hmw; eauto | easy].
    - intros n s0 l s0' Hn _ Hc. split; [eapply Hms; eauto | easy].
    - intros n s0 l s0' Hn _ Hc. split; [eapply Hmn; eauto | easy].
    - intros s1 u _. apply Hu.
  Qed.

  (** ** C38 *)

  (** The number of texts is the number of lengths that are not 0. *)
  Theorem C38_count_partial number s out s' :
    returns_as_many word_call_n ->
    (forall s1 u, word_unique s1 = Ok (Some u) -> 0 <= u) ->
    text_emit_many number s = (Ok out, s') ->
    forall lengths s1 ns, numwords_call_n number s = (Ok lengths, s1) -> Forall2 int_value lengths ns ->
    Forall (fun n => 0 <= n) ns ->
    zlen out = zlen (filter (fun n => negb (n =? 0)) ns).
  Proof.
    intros Hmw Hu H lengths s1 ns Hl Hns Hpos.
    destruct (text_emit_many_ok _ _ _ _ Hmw Hu H) as [lengths' [s1' [ns' [Hl' [Hns' Hrest]]]]].
    rewrite Hl in Hl'. injection Hl' as <- <-.
    assert (ns' = ns). { apply ints_value in Hns, Hns'. congruence. } subst ns'.
    destruct (Hrest Hpos) as [ws [seps [gs [sgs [_ [_ [Hg [_ [Hlen Hout]]]]]]]]].
    unfold zlen. rewrite <- Hg, map_length. f_equal.
    assert (E : length out = length (combine gs sgs)) by (clear -Hout; induction Hout; cbn; auto).
    rewrite E, combine_length.
    assert (E2 : length gs = length sgs) by (clear -Hlen; induction Hlen; cbn; auto). lia.
  Qed.

  (** With lengths of at least 1: n texts for n, and text() is one text. *)
  Theorem C38_positive_partial s :
    returns_as_many word_call_n -> returns_as_many numwords_call_n ->
    (forall s1 u, word_unique s1 = Ok (Some u) -> 0 <= u) ->
    (forall n s l s', numwords_call_n n s = (Ok l, s') -> Forall (fun v => forall z, int_value v z -> 1 <= z) l) ->
    (forall number out s', 0 <= number -> text_emit_many number s = (Ok out, s') -> zlen out = number) /\
    (forall out s', text_emit_many 1 s = (Ok out, s') -> exists v, out = [v] /\ text_emit s = (Ok v, s')).
  Proof.
    intros Hmw Hmn Hu Hpos.
    assert (Hall : forall number out s', 0 <= number -> text_emit_many number s = (Ok out, s') -> zlen out = number).
    { intros number out s' Hnum H.
      destruct (text_emit_many_ok _ _ _ _ Hmw Hu H) as [lengths [s1 [ns [Hl [Hns _]]]]].
      assert (Hp : Forall (fun n => 1 <= n) ns).
      { apply Hpos in Hl. clear -Hns Hl. induction Hns; constructor; inversion Hl; subst; auto. }
      rewrite (C38_count_partial _ _ _ _ Hmw Hu H _ _ _ Hl Hns).
      - assert (Hf : filter (fun n => negb (n =? 0)) ns = ns).
        { clear -Hp. induction Hp as [|n t Hn Ht IH]; [easy|]. cbn. destruct (Z.eqb_spec n 0); [lia|]. cbn. now f_equal. }
        rewrite Hf. apply Hmn in Hl; [|easy]. rewrite <- Hl. unfold zlen. f_equal. clear -Hns. induction Hns; cbn; auto.
      - eapply Forall_impl; [|exact Hp]. cbn. lia. }
    split; [exact Hall|]. intros out s' H. pose proof (Hall 1 out s' ltac:(lia) H) as Hl.
    destruct out as [|v [|v2 out]]; unfold zlen in Hl; cbn [length] in Hl; try lia.
    exists v. split; [easy|]. unfold text_emit, mbind. now rewrite H.
  Qed.

  (** A length of 0 asked of text(): IndexError instead of a text. *)
  Theorem C38_zero_fails s out s' : text_emit_many 1 s = (Ok out, s') -> zlen out = 0 -> text_emit s = (Raise IndexError, s').
  Proof.
    intros H Hl. destruct out; [|unfold zlen in Hl; cbn [length] in Hl; lia].
    unfold text_emit, mbind. now rewrite H.
  Qed.
End Text.

(** The full claim, for any number of words from 0 on. *)
Definition C38_statement : Prop :=
  forall S (numwords_call_n word_call_n : Z -> M S (list val)) word_reset word_unique sep_call_n,
    returns_as_many numwords_call_n -> returns_as_many word_call_n -> returns_as_many sep_call_n ->
    (forall n s l s', numwords_call_n n s = (Ok l, s') -> Forall (fun v => forall z, int_value v z -> 0 <= z) l) ->
    forall number s out s', 0 <= number ->
      text_emit_many numwords_call_n word_call_n word_reset word_unique sep_call_n number s = (Ok out, s') ->
      zlen out = number.

Definition copies (v : val) : Z -> M unit (list val) := fun n => ret (list_rep [v] n).
Lemma list_rep_one {A} (a : A) n : list_rep [a] n = repeat a (Z.to_nat n).
Proof.
  unfold list_rep. induction (Z.to_nat n) as [|k IH]; [easy|]. cbn. now f_equal.
Qed.
Lemma copies_many v : returns_as_many (copies v).
Proof.
  intros n s l s' Hn H. unfold copies, ret in H. injection H as <- <-.
  rewrite list_rep_one. unfold zlen. rewrite repeat_length. lia.
Qed.

(** Text(Static(0), Static('a'))(2) is []. *)
Theorem C38_refuted : ~ C38_statement.
Proof.
  intros H.
  specialize (H unit (copies (VInt 0)) (copies (VStr [97])) (ret tt) (fun _ => Ok None) (copies (VStr [32]))
    (copies_many _) (copies_many _) (copies_many _)).
  assert (Hv : forall n s l s', copies (VInt 0) n s = (Ok l, s') -> Forall (fun v => forall z, int_value v z -> 0 <= z) l).
  { intros n s l s' E. unfold copies, ret in E. injection E as <- <-. rewrite list_rep_one.
    apply Forall_forall. intros v Hin. apply repeat_spec in Hin. subst v. intros z [Hz|[[Hz _]|[Hz _]]]; try discriminate.
    injection Hz as <-. lia. }
  specialize (H Hv 2 tt [] tt ltac:(lia) eq_refl). discriminate.
Qed.

(** Words drawn from a counter in batches of at most 2 with a reset to 97, as from
    a Choice of two words with replace_only_after_call. *)
Example C37_demo :
  text_emit_many (const_list [VInt 2; VInt 3]) letters (fun _ => (Ok tt, 97)) (fun _ => Ok (Some 2)) (const_list [VStr [45]; VStr [46]; VStr [47]]) 2 97
  = (Ok [VStr [97; 45; 98]; VStr [97; 46; 98; 47; 97]], 98).
Proof. reflexivity. Qed.
Example C37_demo_direct :
  text_emit_many (const_list [VInt 2; VInt 1]) letters (fun _ => (Ok tt, 97)) (fun _ => Ok None) (const_list [VStr [45]]) 2 97
  = (Ok [VStr [97; 45; 98]; VStr [99]], 100).
Proof. reflexivity. Qed.
Lemma letters_many : returns_as_many letters.
Proof.
  intros n s l s' Hn H. unfold letters in H.
  assert (Hk : forall k s l s', times k letter s = (Ok l, s') -> length l = k).
  { clear. induction k as [|k IH]; intros s l s' H; cbn [times] in H.
    - unfold ret in H. now injection H as <- <-.
    - apply mbind_ok_inv in H. destruct H as [a [s1 [_ H]]]. apply mbind_ok_inv in H. destruct H as [l1 [s2 [H1 H]]].
      unfold ret in H. injection H as <- <-. cbn. f_equal. eauto. }
  apply Hk in H. unfold zlen. lia.
Qed.

(** ** C39 *)

(** All lists of [k] elements of [l]. *)
Fixpoint tuples {A} (l : list A) (k : nat) : list (list A) :=
  match k with
  | O => [[]]
  | Datatypes.S k => flat_map (fun a => map (cons a) (tuples l k)) l
  end.

Lemma flat_map_len {A B} (f : A -> list B) (l : list A) k : (forall a, In a l -> length (f a) = k) -> length (flat_map f l) = (length l * k)%nat.
Proof.
  induction l as [|a t IH]; intros H; [easy|]. cbn [flat_map]. rewrite app_length, H by (now left).
  rewrite IH by (intros; apply H; now right). reflexivity.
Qed.

Lemma tuples_len {A} (l : list A) k : zlen (tuples l k) = zlen l ^ Z.of_nat k.
Proof.
  unfold zlen. induction k as [|k IH]; [easy|].
  cbn [tuples]. rewrite (flat_map_len _ _ (length (tuples l k))) by (intros; apply map_length).
  rewrite Nat2Z.inj_mul, IH, Nat2Z.inj_succ, Z.pow_succ_r by lia. reflexivity.
Qed.

Lemma tuples_all {A} (l : list A) : forall t, incl t l -> In t (tuples l (length t)).
Proof.
  induction t as [|a t IH]; intros H; cbn [length tuples]; [now left|].
  apply in_flat_map. exists a. split; [apply H; now left|]. apply in_map. apply IH. intros x Hx. apply H. now right.
Qed.

(** The value of a list of values put together as a string. *)
Definition glue (cs : list val) : val := VStr (flat_map (fun c => match c with VStr s => s | _ => [] end) cs).
Lemma spelled_glue cs v : spelled cs v -> v = glue cs.
Proof.
  intros [ss [-> ->]]. unfold glue. f_equal. induction ss as [|s t IH]; [easy|]. cbn. now f_equal.
Qed.

Lemma word_sum_exact n items N : 0 <= n -> word_sum (Exactly n) items = Ok (Exactly N) ->
  exists zs, Forall2 int_value items zs /\ Forall (fun z => 0 <= z) zs /\ N = zsum (map (fun z => n ^ z) zs).
Proof.
  intros Hn. revert N. induction items as [|i t IH]; intros N H; cbn [word_sum] in H.
  - injection H as <-. exists []. repeat constructor.
  - apply bind_ok_inv in H. destruct H as [z [Hz H]]. apply bind_ok_inv in H. destruct H as [p [Hp H]].
    apply bind_ok_inv in H. destruct H as [q [Hq H]]. injection H as H.
    cbn [nuv_pow] in Hp. unfold py_pow in Hp. destruct (Z.leb_spec 0 z).
    + injection Hp as <-. destruct q as [|q|]; try discriminate. cbn in H. injection H as <-.
      destruct (IH q Hq) as [zs [H1 [H2 H3]]]. exists (z :: zs).
      split; [constructor; [now apply as_int_value | easy]|]. split; [now constructor|].
      cbn [map zsum fold_right]. fold (zsum (map (fun z => n ^ z) zs)). now rewrite <- H3.
    + destruct (n =? 0); [discriminate|]. injection Hp as <-. discriminate.
Qed.

Section WordBound.
  Context {S : Type}.
  Context (length_call : M S val) (length_call_n : Z -> M S (list val)).
  Context (alphabet_call : M S val) (alphabet_call_n : Z -> M S (list val)).
  (** The length emitter emits its items only; the alphabet emitter emits only
      elements of [alphabet], as many as it is asked for. *)
  Context (items alphabet : list val).
  Context (Hl1 : forall s v s', length_call s = (Ok v, s') -> In v items).
  Context (Hln : emits_only length_call_n items).
  Context (Han : emits_only alphabet_call_n alphabet) (Ham : returns_as_many alphabet_call_n).

  (** The word [w] can be emitted: by word(), or among others by word(n), in some state. *)
  Definition word_emits (w : val) : Prop :=
    (exists s s', word_emit length_call alphabet_call alphabet_call_n s = (Ok w, s')) \/
    (exists n s ws s', word_emit_many length_call_n alphabet_call_n n s = (Ok ws, s') /\ In w ws).

  Definition spellable (zs : list Z) (w : val) : Prop :=
    exists cs, incl cs alphabet /\ In (zlen cs) zs /\ spelled cs w.

  Lemma word_spellable zs : Forall2 int_value items zs -> Forall (fun z => 0 <= z) zs ->
    forall w, word_emits w -> spellable zs w.
  Proof.
    intros Hzs Hpos.
    assert (Hit : forall v, In v items -> exists z, int_value v z /\ In z zs /\ 0 <= z).
    { clear -Hzs Hpos. induction Hzs as [|v z vs zs Hv _ IH]; intros x Hx; [destruct Hx|].
      inversion Hpos; subst. destruct Hx as [<-|Hx].
      - exists z. split; [easy|]. split; [now left | easy].
      - destruct (IH H2 x Hx) as [z' [A [B C]]]. exists z'. split; [easy|]. split; [now right | easy]. }
    assert (Hfun : forall v a b, int_value v a -> int_value v b -> a = b).
    { intros v a b Ha Hb. apply as_int_value in Ha, Hb. congruence. }
    intros w [[s [s' H]]|[n [s [ws [s' [H Hin]]]]]].
    - pose proof H as H0. apply mbind_ok_inv in H. destruct H as [lv [s1 [Hl H]]].
      apply Hl1 in Hl as Hli. destruct (Hit lv Hli) as [z [Hv [Hz Hz0]]].
      apply mbind_ok_inv in H. destruct H as [cv [s2 [Hc H]]].
      apply mbind_ok_inv in H. destruct H as [str [s3 [Hj H]]]. unfold lift in Hj. injection Hj as Hj <-.
      unfold ret in H. injection H as <- <-.
      assert (Hc2 : exists chars, alphabet_call_n z s1 = (Ok chars, s2) /\ cv = VList chars).
      { apply as_int_value in Hv.
        assert (Ha : (m <~ lift (as_int lv) ;; l <~ alphabet_call_n m ;; ret (VList l)) s1 = (Ok cv, s2))
          by (destruct lv; try discriminate; exact Hc).
        rewrite Hv in Ha. unfold lift, mbind in Ha. destruct (alphabet_call_n z s1) as [[l|e|] s4]; try discriminate.
        unfold ret in Ha. injection Ha as <- <-. eauto. }
      destruct Hc2 as [chars [Hch ->]]. cbn in Hj. apply join_strs_spelled in Hj.
      exists chars. split; [eapply Han; eauto|]. split; [|easy]. now rewrite (Ham _ _ _ _ Hz0 Hch).
    - destruct (C36_words _ _ _ _ _ _ _ H) as [lengths [s1 [ns [chars [Hl [Hns [Hch [Hlen Hg]]]]]]]].
      pose proof (Hln _ _ _ _ Hl) as Hincl.
      assert (Hnz : Forall (fun n => In n zs /\ 0 <= n) ns).
      { clear -Hns Hincl Hit Hfun. induction Hns as [|v z vs zs' Hv _ IH]; constructor.
        - destruct (Hit v) as [z' [A [B C]]]; [apply Hincl; now left|]. now rewrite (Hfun v z z' Hv A).
        - apply IH. intros x Hx. apply Hincl. now right. }
      assert (Hpn : Forall (fun n => 0 <= n) ns) by (eapply Forall_impl; [|exact Hnz]; cbn; tauto).
      assert (Hs0 : 0 <= zsum ns) by (clear -Hpn; induction Hpn; cbn; unfold zsum in *; lia).
      destruct (Hg Hpn (Ham _ _ _ _ Hs0 Hch)) as [groups [G1 [G2 G3]]].
      pose proof (Han _ _ _ _ Hch) as Hca. rewrite <- G1 in Hca.
      clear -Hnz G2 G3 Hca Hin. revert ws G3 Hin Hca. induction G2 as [|g n gs ns Hgn _ IH]; intros ws G3 Hin Hca.
      + inversion G3; subst. destruct Hin.
      + inversion G3 as [|? w1 ? ws1 Hw1 Hws1]; subst. inversion Hnz as [|? ? [Hn1 _] Hn2]; subst.
        cbn [concat] in Hca. destruct Hin as [<-|Hin].
        * exists g. split; [|split; [exact Hn1 | exact Hw1]].
          intros x Hx. apply Hca. apply in_app_iff. now left.
        * apply (IH Hn2 ws1 Hws1 Hin). intros x Hx. apply Hca. apply in_app_iff. now right.
  Qed.

  (** A Word emitter never emits more different words than num_unique_values says. *)
  Theorem C39_word n N ws :
    zlen alphabet <= n ->
    word_nuv (Exactly n) (Some items) = Ok (Exactly N) ->
    NoDup ws -> Forall word_emits ws ->
    zlen ws <= N.
  Proof.
    intros Hn HN Hnd Hws. cbn [word_nuv] in HN.
    assert (Hn0 : 0 <= n) by (unfold zlen in Hn; lia).
    destruct (word_sum_exact n items N Hn0 HN) as [zs [Hzs [Hpos ->]]].
    set (all := flat_map (fun z => map glue (tuples alphabet (Z.to_nat z))) zs).
    assert (Hincl : incl ws all).
    { intros w Hw. rewrite Forall_forall in Hws. apply Hws in Hw.
      destruct (word_spellable zs Hzs Hpos w Hw) as [cs [H1 [H2 H3]]].
      apply in_flat_map. exists (zlen cs). split; [easy|]. rewrite (spelled_glue cs w H3).
      apply in_map. unfold zlen. rewrite Nat2Z.id. now apply tuples_all. }
    apply NoDup_incl_length in Hincl; [|easy].
    assert (Hall : zlen all <= zsum (map (fun z => n ^ z) zs)).
    { subst all. clear -Hpos Hn. induction Hpos as [|z zs Hz _ IH]; [cbn; lia|].
      cbn [flat_map map zsum fold_right]. fold (zsum (map (fun z => n ^ z) zs)).
      unfold zlen in *. rewrite app_length, map_length.
      pose proof (tuples_len alphabet (Z.to_nat z)) as Ht. unfold zlen in Ht. rewrite Z2Nat.id in Ht by easy.
      assert (Z.of_nat (length alphabet) ^ z <= n ^ z) by (apply Z.pow_le_mono_l; lia). lia. }
    unfold zlen in *. lia.
  Qed.
End WordBound.

(** 2 letters, lengths 1 and 3: at most 2 + 8 words. *)
Definition ab_n (n : Z) : M bool (list val) := fun b =>
  (Ok (repeat (VStr [if b then 97 else 98]) (Z.to_nat n)), negb b).
Example C39_word_demo :
  word_nuv (Exactly 2) (Some [VInt 1; VInt 3]) = Ok (Exactly 10) /\
  emits_only ab_n [VStr [97]; VStr [98]] /\ returns_as_many ab_n /\
  word_emits (ret (VInt 3)) (fun n => ret (repeat (VInt 1) (Z.to_nat n))) (ret VNone) ab_n (VStr [97; 97; 97]).
Proof.
  repeat split.
  - intros n b l b' H. unfold ab_n in H. injection H as <- <-. intros x Hx. apply repeat_spec in Hx. subst. destruct b; cbn; auto.
  - intros n b l b' Hn H. unfold ab_n in H. injection H as <- <-. unfold zlen. rewrite repeat_length. lia.
  - left. exists true, false. reflexivity.
Qed.

Lemma text_sum_exact nw nsp items N : 0 <= nw -> 0 <= nsp -> text_sum (Exactly nw) (Exactly nsp) items = Ok (Exactly N) ->
  exists zs, Forall2 int_value items zs /\ Forall (fun z => 1 <= z) zs /\ N = zsum (map (fun z => nw ^ z * nsp ^ (z - 1)) zs).
Proof.
  intros Hw Hs. revert N. induction items as [|i t IH]; intros N H; cbn [text_sum] in H.
  - injection H as <-. exists []. repeat constructor.
  - apply bind_ok_inv in H. destruct H as [z [Hz H]]. apply bind_ok_inv in H. destruct H as [p [Hp H]].
    apply bind_ok_inv in H. destruct H as [r [Hr H]]. apply bind_ok_inv in H. destruct H as [q [Hq H]]. injection H as H.
    cbn [nuv_pow] in Hp, Hr. unfold py_pow in Hp, Hr.
    destruct (Z.leb_spec 0 (z - 1)).
    + destruct (Z.leb_spec 0 z); [|lia]. injection Hp as <-. injection Hr as <-.
      destruct q as [|q|]; try discriminate. cbn in H. injection H as <-.
      destruct (IH q Hq) as [zs [Hg1 [H2 H3]]]. exists (z :: zs).
      split; [constructor; [now apply as_int_value | easy]|]. split; [constructor; [lia | easy]|].
      cbn [map zsum fold_right]. fold (zsum (map (fun z => nw ^ z * nsp ^ (z - 1)) zs)). now rewrite <- H3.
    + destruct (nsp =? 0); [discriminate|]. injection Hr as <-. destruct p; discriminate.
Qed.

Section TextBound.
  Context {S : Type}.
  Context (numwords_call_n word_call_n : Z -> M S (list val)) (word_reset : M S unit).
  Context (word_unique : S -> res (option Z)) (sep_call_n : Z -> M S (list val)).
  Context (items wds seps : list val).
  Context (Hin : emits_only numwords_call_n items) (Hnn : returns_as_many numwords_call_n).
  Context (Hwn : emits_only word_call_n wds) (Hwm : returns_as_many word_call_n).
  Context (Hsn : emits_only sep_call_n seps) (Hsm : returns_as_many sep_call_n).
  Context (Hun : forall s1 u, word_unique s1 = Ok (Some u) -> 0 <= u).

  Definition text_emits (t : val) : Prop :=
    exists n s ts s', 0 <= n /\
      text_emit_many numwords_call_n word_call_n word_reset word_unique sep_call_n n s = (Ok ts, s') /\ In t ts.

  Lemma batches_incl u : forall r s ws s', drawn_in_batches word_call_n word_reset u r s ws s' -> incl ws wds.
  Proof.
    induction 1 as [r s ws s' _ _ H|r s ws s1 s2 ws' s' _ H _ _ IH].
    - eapply Hwn; eauto.
    - intros x Hx. apply in_app_iff in Hx. destruct Hx as [Hx|Hx]; [eapply Hwn; eauto | auto].
  Qed.

  Theorem C39_text nw nsp N ts :
    zlen wds <= nw -> zlen seps <= nsp ->
    text_nuv (Exactly nw) (Exactly nsp) (Some items) = Ok (Exactly N) ->
    NoDup ts -> Forall text_emits ts ->
    zlen ts <= N.
  Proof.
    intros Hw Hs HN Hnd Hts. cbn [text_nuv] in HN.
    assert (H0w : 0 <= nw) by (unfold zlen in Hw; lia). assert (H0s : 0 <= nsp) by (unfold zlen in Hs; lia).
    destruct (text_sum_exact nw nsp items N H0w H0s HN) as [zs [Hzs [Hpos ->]]].
    set (all := flat_map (fun z => map (fun p => glue (interleave (fst p) (snd p)))
                  (list_prod (tuples wds (Z.to_nat z)) (tuples seps (Z.to_nat (z - 1))))) zs).
    assert (Hincl : incl ts all).
    { intros t Ht. rewrite Forall_forall in Hts. apply Hts in Ht.
      destruct Ht as [n [s [out [s' [Hn [H Hin']]]]]].
      destruct (C37_texts _ _ _ _ _ _ _ _ _ Hwm Hsm Hnn Hun Hn H) as [lengths [s1 [ns [Hl [Hns Hrest]]]]].
      pose proof (Hin _ _ _ _ Hl) as Hli.
      assert (Hnz : Forall (fun n => In n zs /\ 1 <= n) ns).
      { assert (Hit : forall v, In v items -> exists z, int_value v z /\ In z zs /\ 1 <= z).
        { clear -Hzs Hpos. induction Hzs as [|v z vs zs Hv _ IH]; intros x Hx; [destruct Hx|].
          inversion Hpos; subst. destruct Hx as [<-|Hx].
          - exists z. split; [easy|]. split; [now left | easy].
          - destruct (IH H2 x Hx) as [z' [A [B C]]]. exists z'. split; [easy|]. split; [now right | easy]. }
        clear -Hns Hli Hit. induction Hns as [|v z vs zs' Hv _ IH]; constructor.
        - destruct (Hit v) as [z' [A [B C]]]; [apply Hli; now left|].
          apply as_int_value in Hv, A. assert (z = z') by congruence. now subst.
        - apply IH. intros x Hx. apply Hli. now right. }
      assert (Hp1 : Forall (fun n => 1 <= n) ns) by (eapply Forall_impl; [|exact Hnz]; cbn; tauto).
      destruct (Hrest Hp1) as [ws [sps [gs [sgs [Hd [Hc [Hg [Hsc [Hsl Hout]]]]]]]]].
      assert (Hwi : incl ws wds /\ incl sps seps).
      { destruct Hd as [[s2 [_ [Hd1 Hd2]]]|[u [s2 [_ [_ [_ [Hd2 Hd1]]]]]]].
        - split; [eapply Hwn; eauto | eapply Hsn; eauto].
        - split; [eapply batches_incl; eauto | eapply Hsn; eauto]. }
      destruct Hwi as [Hwi Hsi]. rewrite <- Hc in Hwi. rewrite <- Hsc in Hsi.
      clear - Hnz Hg Hsl Hout Hin' Hwi Hsi.
      revert gs sgs out Hg Hsl Hout Hin' Hwi Hsi. induction Hnz as [|n ns [Hn1 Hn2] _ IH]; intros gs sgs out Hg Hsl Hout Hin' Hwi Hsi.
      - destruct gs; [|discriminate]. destruct sgs; [|discriminate]. cbn in Hout. inversion Hout; subst. destruct Hin'.
      - destruct gs as [|g gs]; [discriminate|]. destruct sgs as [|sg sgs]; [discriminate|].
        cbn [map] in Hg, Hsl. injection Hg as Hg1 Hg2. injection Hsl as Hs1 Hs2.
        cbn [combine] in Hout. inversion Hout as [|? t1 ? ts1 Ht1 Hts1]; subst. cbn [concat fst snd] in *.
        destruct Hin' as [<-|Hin'].
        + apply in_flat_map. exists (zlen g). split; [easy|]. rewrite (spelled_glue _ _ Ht1).
          apply (in_map (fun p => glue (interleave (fst p) (snd p))) _ (g, sg)).
          apply in_prod.
          * unfold zlen. rewrite Nat2Z.id. apply tuples_all. intros x Hx. apply Hwi, in_app_iff. now left.
          * replace (Z.to_nat (zlen g - 1)) with (length sg) by (unfold zlen in *; lia).
            apply tuples_all. intros x Hx. apply Hsi, in_app_iff. now left.
        + apply (IH gs sgs ts1); auto; intros x Hx; [apply Hwi | apply Hsi]; apply in_app_iff; now right. }
    apply NoDup_incl_length in Hincl; [|easy].
    assert (Hall : zlen all <= zsum (map (fun z => nw ^ z * nsp ^ (z - 1)) zs)).
    { subst all. clear -Hpos Hw Hs. induction Hpos as [|z zs Hz _ IH]; [cbn; lia|].
      cbn [flat_map map zsum fold_right]. fold (zsum (map (fun z => nw ^ z * nsp ^ (z - 1)) zs)).
      unfold zlen in *. rewrite app_length, map_length, prod_length.
      pose proof (tuples_len wds (Z.to_nat z)) as Ht1. pose proof (tuples_len seps (Z.to_nat (z - 1))) as Ht2.
      unfold zlen in Ht1, Ht2. rewrite Z2Nat.id in Ht1, Ht2 by lia.
      assert (Z.of_nat (length wds) ^ z <= nw ^ z) by (apply Z.pow_le_mono_l; lia).
      assert (Z.of_nat (length seps) ^ (z - 1) <= nsp ^ (z - 1)) by (apply Z.pow_le_mono_l; lia).
      assert (0 <= Z.of_nat (length wds) ^ z) by (apply Z.pow_nonneg; lia).
      assert (0 <= Z.of_nat (length seps) ^ (z - 1)) by (apply Z.pow_nonneg; lia).
      rewrite Nat2Z.inj_add, Nat2Z.inj_mul, Ht1, Ht2.
      assert (Z.of_nat (length wds) ^ z * Z.of_nat (length seps) ^ (z - 1) <= nw ^ z * nsp ^ (z - 1)) by (apply Z.mul_le_mono_nonneg; lia).
      lia. }
    unfold zlen in *. lia.
  Qed.
End TextBound.

Example C39_text_demo :
  text_nuv (Exactly 2) (Exactly 3) (Some [VInt 1; VInt 2]) = Ok (Exactly (2 + 4 * 3)) /\
  text_emits (fun n => ret (repeat (VInt 2) (Z.to_nat n))) ab_n (ret tt) (fun _ => Ok None) ab_n (VStr [97; 98; 97]).
Proof.
  split; [reflexivity|]. exists 1, true, [VStr [97; 98; 97]], true. repeat split; [lia|]. now left.
Qed.

Print Assumptions C35_contents.
Print Assumptions C35_errors.
Print Assumptions C35_default.
Print Assumptions C36_word.
Print Assumptions C36_words.
Print Assumptions C37_texts.
Print Assumptions C38_count_partial.
Print Assumptions C38_positive_partial.
Print Assumptions C38_zero_fails.
Print Assumptions C38_refuted.
Print Assumptions C39_word.
Print Assumptions C39_text.
