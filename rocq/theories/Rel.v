(** * Runs that correspond: two computations that, started in related states, give
    the same outcome and end in related states.  The functions of the model that
    are built from the calls of other objects preserve this. *)
From Verif Require Import Base Prims Values MathModel FixedModel GroupModel SigModel
  WrapModel TextModel FieldModel.
Open Scope list_scope.
Open Scope Z_scope.

Section Rel.
  Context {S : Type} (R : S -> S -> Prop).

  Definition rel {A} (m1 m2 : M S A) : Prop :=
    forall s1 s2, R s1 s2 -> fst (m1 s1) = fst (m2 s2) /\ R (snd (m1 s1)) (snd (m2 s2)).

  Lemma rel_lift A (r : res A) : rel (lift r) (lift r).
  Proof. intros s1 s2 H; split; [reflexivity | exact H]. Qed.
  Lemma rel_ret A (a : A) : rel (ret a) (ret a).
  Proof. intros s1 s2 H; split; [reflexivity | exact H]. Qed.
  Lemma rel_raise A e : rel (@raise S A e) (raise e).
  Proof. intros s1 s2 H; split; [reflexivity | exact H]. Qed.
  Lemma rel_diverge A : rel (@diverge S A) diverge.
  Proof. intros s1 s2 H; split; [reflexivity | exact H]. Qed.

  Lemma rel_bind A B (m1 m2 : M S A) (k1 k2 : A -> M S B) :
    rel m1 m2 -> (forall a, rel (k1 a) (k2 a)) -> rel (mbind m1 k1) (mbind m2 k2).
  Proof.
    intros Hm Hk s1 s2 H. unfold mbind. specialize (Hm s1 s2 H).
    destruct (m1 s1) as [[a|e|] t1], (m2 s2) as [[b|e2|] t2]; cbn in *; destruct Hm as [E T];
      try discriminate; try (split; [congruence | exact T]).
    injection E as ->. apply Hk; exact T.
  Qed.

  Lemma rel_pure A (f1 f2 : S -> res A) :
    (forall s1 s2, R s1 s2 -> f1 s1 = f2 s2) -> rel (fun s => (f1 s, s)) (fun s => (f2 s, s)).
  Proof. intros E s1 s2 H; split; [apply E; exact H | exact H]. Qed.

  Lemma rel_if A (b1 b2 : S -> bool) (m1 m2 n1 n2 : M S A) :
    (forall s1 s2, R s1 s2 -> b1 s1 = b2 s2) -> rel m1 m2 -> rel n1 n2 ->
    rel (fun s => if b1 s then m1 s else n1 s) (fun s => if b2 s then m2 s else n2 s).
  Proof. intros E Hm Hn s1 s2 H. cbv beta. rewrite <- (E s1 s2 H). destruct (b1 s1); auto. Qed.

  Lemma rel_mapS A B (f1 f2 : A -> M S B) l :
    (forall a, In a l -> rel (f1 a) (f2 a)) -> rel (mapS f1 l) (mapS f2 l).
  Proof.
    induction l as [|a l IH]; intros H; cbn [mapS].
    - apply rel_ret.
    - apply rel_bind; [apply H; left; reflexivity|]. intros b.
      apply rel_bind; [apply IH; intros; apply H; right; assumption|]. intros bs. apply rel_ret.
  Qed.

  Lemma rel_mapS2 A1 A2 B (f1 : A1 -> M S B) (f2 : A2 -> M S B) l1 l2 :
    Forall2 (fun a b => rel (f1 a) (f2 b)) l1 l2 -> rel (mapS f1 l1) (mapS f2 l2).
  Proof.
    induction 1 as [|a b l1 l2 H _ IH]; cbn [mapS].
    - apply rel_ret.
    - apply rel_bind; [exact H|]. intros c. apply rel_bind; [exact IH|]. intros cs. apply rel_ret.
  Qed.

  Lemma rel_try_finally A (m1 m2 : M S A) (f1 f2 : M S unit) :
    rel m1 m2 -> rel f1 f2 -> rel (try_finally m1 f1) (try_finally m2 f2).
  Proof.
    intros Hm Hf s1 s2 H. unfold try_finally. specialize (Hm s1 s2 H).
    destruct (m1 s1) as [[a|e|] t1], (m2 s2) as [[b|e2|] t2]; cbn in *; destruct Hm as [E T];
      try discriminate; try (split; [congruence | exact T]);
      specialize (Hf t1 t2 T);
      destruct (f1 t1) as [[u|x|] v1], (f2 t2) as [[u2|x2|] v2]; cbn in *; destruct Hf as [E' T'];
      try discriminate; split; try congruence; assumption.
  Qed.

  Lemma rel_catch (m1 m2 : M S unit) : rel m1 m2 -> rel (catch_attribute_error m1) (catch_attribute_error m2).
  Proof.
    intros Hm s1 s2 H. unfold catch_attribute_error. specialize (Hm s1 s2 H).
    destruct (m1 s1) as [[a|e|] t1], (m2 s2) as [[b|e2|] t2]; cbn in *; destruct Hm as [E T];
      try discriminate; try (split; [congruence | exact T]).
    injection E as <-. destruct e; cbn; split; auto.
  Qed.

  Lemma rel_setattr O (has1 has2 : O -> S -> bool) (set1 set2 : O -> M S unit) objs :
    (forall o, In (Some o) objs -> forall s1 s2, R s1 s2 -> has1 o s1 = has2 o s2) ->
    (forall o, In (Some o) objs -> rel (set1 o) (set2 o)) ->
    rel (group_setattr has1 set1 objs) (group_setattr has2 set2 objs).
  Proof.
    induction objs as [|[o|] t IH]; intros Hh Hs; cbn [group_setattr].
    - apply rel_ret.
    - apply rel_bind.
      + intros s1 s2 H. cbv beta. rewrite <- (Hh o (or_introl eq_refl) s1 s2 H).
        destruct (has1 o s1); [apply Hs; [left; reflexivity | exact H] | split; [reflexivity | exact H]].
      + intros _. apply IH; intros; [eapply Hh | eapply Hs]; try (right; eassumption); assumption.
    - apply IH; intros; [eapply Hh | eapply Hs]; try (right; eassumption); assumption.
  Qed.

  Lemma rel_do_method O (meth1 meth2 : O -> S -> option (M S unit)) objs :
    (forall o, In (Some o) objs -> forall s1 s2, R s1 s2 ->
       match meth1 o s1, meth2 o s2 with
       | Some m1, Some m2 => rel m1 m2
       | None, None => True
       | _, _ => False
       end) ->
    rel (group_do_method meth1 objs) (group_do_method meth2 objs).
  Proof.
    induction objs as [|[o|] t IH]; intros Hm; cbn [group_do_method].
    - apply rel_ret.
    - apply rel_bind.
      + apply rel_catch. intros s1 s2 H. cbv beta.
        specialize (Hm o (or_introl eq_refl) s1 s2 H).
        destruct (meth1 o s1), (meth2 o s2); try contradiction; [apply Hm; exact H | split; [reflexivity | exact H]].
      + intros _. apply IH. intros o' Ho'. apply Hm. right; exact Ho'.
    - apply IH. intros o' Ho'. apply Hm. right; exact Ho'.
  Qed.

  Lemma rel_call_number A (e1 e2 : M S A) (n1 n2 : Z -> M S (list A)) n :
    rel e1 e2 -> rel (n1 n) (n2 n) -> rel (call_number e1 n1 n) (call_number e2 n2 n).
  Proof.
    intros He Hn. unfold call_number. destruct (n =? 1); [|exact Hn].
    apply rel_bind; [exact He|]. intros a. apply rel_ret.
  Qed.

  Lemma rel_call_val (e1 e2 : M S val) (n1 n2 : Z -> M S (list val)) v :
    rel e1 e2 -> (forall n, rel (n1 n) (n2 n)) -> rel (call_val e1 n1 v) (call_val e2 n2 v).
  Proof.
    intros He Hn. unfold call_val.
    assert (X : rel (n <~ lift (as_int v) ;; l <~ n1 n ;; ret (VList l))
                    (n <~ lift (as_int v) ;; l <~ n2 n ;; ret (VList l))).
    { apply rel_bind; [apply rel_lift|]. intros n. apply rel_bind; [apply Hn|]. intros l. apply rel_ret. }
    destruct v; try exact X. exact He.
  Qed.

  (** *** Words and texts *)

  Lemma rel_word_emit (l1 l2 a1 a2 : M S val) (n1 n2 : Z -> M S (list val)) :
    rel l1 l2 -> rel a1 a2 -> (forall n, rel (n1 n) (n2 n)) -> rel (word_emit l1 a1 n1) (word_emit l2 a2 n2).
  Proof.
    intros Hl Ha Hn. unfold word_emit. apply rel_bind; [exact Hl|]. intros v.
    apply rel_bind; [apply rel_call_val; assumption|]. intros c.
    apply rel_bind; [apply rel_lift|]. intros s. apply rel_ret.
  Qed.

  Lemma rel_word_emit_many (l1 l2 a1 a2 : Z -> M S (list val)) n :
    (forall n, rel (l1 n) (l2 n)) -> (forall n, rel (a1 n) (a2 n)) ->
    rel (word_emit_many l1 a1 n) (word_emit_many l2 a2 n).
  Proof.
    intros Hl Ha. unfold word_emit_many. apply rel_bind; [apply Hl|]. intros v.
    apply rel_bind; [apply rel_lift|]. intros t. apply rel_bind; [apply Ha|]. intros c. apply rel_lift.
  Qed.

  Section TextRel.
    Context (nw1 nw2 wc1 wc2 sc1 sc2 : Z -> M S (list val)) (wr1 wr2 : M S unit)
            (wu1 wu2 : S -> res (option Z)).
    Context (Hnw : forall n, rel (nw1 n) (nw2 n)) (Hwc : forall n, rel (wc1 n) (wc2 n))
            (Hsc : forall n, rel (sc1 n) (sc2 n)) (Hwr : rel wr1 wr2)
            (Hwu : forall s1 s2, R s1 s2 -> wu1 s1 = wu2 s2).

    Lemma rel_words_iterator t : rel (get_words_iterator wc1 wu1 t) (get_words_iterator wc2 wu2 t).
    Proof.
      intros s1 s2 H. unfold get_words_iterator. rewrite <- (Hwu s1 s2 H).
      assert (X : rel (l <~ wc1 t ;; ret (WList l)) (l <~ wc2 t ;; ret (WList l))).
      { apply rel_bind; [apply Hwc|]. intros l. apply rel_ret. }
      destruct (wu1 s1) as [[n|]|e|]; try (split; [reflexivity | exact H]).
      - destruct (_ && _); [split; [reflexivity | exact H] | apply X; exact H].
      - apply X; exact H.
    Qed.

    Lemma rel_next_batch f : forall u nd r, rel (next_batch wc1 wr1 f u nd r) (next_batch wc2 wr2 f u nd r).
    Proof.
      induction f as [|f IH]; intros u nd r; cbn [next_batch]; [apply rel_diverge|].
      apply rel_bind.
      - destruct nd; [exact Hwr | apply rel_ret].
      - intros _. destruct (_ <? _); [|apply rel_raise].
        apply rel_bind; [apply Hwc|]. intros [|a t]; [apply IH | apply rel_ret].
    Qed.

    Lemma rel_next_word w : rel (next_word wc1 wr1 w) (next_word wc2 wr2 w).
    Proof.
      destruct w as [[|a l]|u [|a p] nd r]; cbn [next_word];
        [apply rel_raise | apply rel_ret | apply rel_next_batch | apply rel_ret].
    Qed.

    Lemma rel_more_words k : forall rd w sp, rel (more_words wc1 wr1 k rd w sp) (more_words wc2 wr2 k rd w sp).
    Proof.
      induction k as [|k IH]; intros rd w sp; cbn [more_words]; [apply rel_ret|].
      destruct (next_sep sp) as [a sp']. apply rel_bind; [apply rel_next_word|]. intros aw. apply IH.
    Qed.

    Lemma rel_make_texts ns : forall w sp, rel (make_texts wc1 wr1 ns w sp) (make_texts wc2 wr2 ns w sp).
    Proof.
      induction ns as [|n ns IH]; intros w sp; cbn [make_texts]; [apply rel_ret|].
      destruct (n =? 0); [apply IH|].
      apply rel_bind; [apply rel_next_word|]. intros aw.
      apply rel_bind; [apply rel_more_words|]. intros [[rd w'] sp'].
      apply rel_bind; [apply rel_lift|]. intros s.
      apply rel_bind; [apply IH|]. intros ts. apply rel_ret.
    Qed.

    Lemma rel_text_emit_many n :
      rel (text_emit_many nw1 wc1 wr1 wu1 sc1 n) (text_emit_many nw2 wc2 wr2 wu2 sc2 n).
    Proof.
      unfold text_emit_many. apply rel_bind; [apply Hnw|]. intros ls.
      apply rel_bind; [apply rel_lift|]. intros t.
      apply rel_bind; [apply rel_words_iterator|]. intros w.
      apply rel_bind; [apply Hsc|]. intros sp.
      apply rel_bind; [apply rel_lift|]. intros ns. apply rel_make_texts.
    Qed.

    Lemma rel_text_emit : rel (text_emit nw1 wc1 wr1 wu1 sc1) (text_emit nw2 wc2 wr2 wu2 sc2).
    Proof. unfold text_emit. apply rel_bind; [apply rel_text_emit_many|]. intros l. apply rel_lift. Qed.
  End TextRel.

  (** *** Wrappers and actions *)

  Definition urel (u1 u2 : ufun S) : Prop :=
    u_sig u1 = u_sig u2 /\
    (forall args kw, rel (u_body u1 args kw) (u_body u2 args kw)) /\
    (forall args kw, rel (u_body_rng u1 args kw) (u_body_rng u2 args kw)).

  Lemma rel_py_call u1 u2 args kw b : urel u1 u2 -> rel (py_call u1 args kw b) (py_call u2 args kw b).
  Proof.
    intros (E & Hp & Hr). unfold py_call. rewrite E.
    destruct (match u_sig u2 with Some _ => _ | None => _ end); [|apply rel_raise].
    destruct b; [apply Hr | apply Hp].
  Qed.

  Lemma rel_wrapper_call u1 u2 args kw : urel u1 u2 -> rel (wrapper_call u1 args kw) (wrapper_call u2 args kw).
  Proof.
    intros H. unfold wrapper_call, wants_rng. rewrite (proj1 H).
    destruct (match u_sig u2 with Some _ => _ | None => _ end); [|apply rel_py_call; exact H].
    destruct (mem _ _); [apply rel_raise | apply rel_py_call; exact H].
  Qed.

  Lemma rel_try_mock_call u1 u2 args kw : urel u1 u2 -> rel (try_mock_call u1 args kw) (try_mock_call u2 args kw).
  Proof.
    intros H. unfold try_mock_call, wants_rng. rewrite (proj1 H). destruct (u_sig u2); [apply rel_lift|].
    apply rel_bind; [apply H|]. intros _. apply rel_ret.
  Qed.

  Lemma rel_wrapone_emit c1 c2 u1 u2 : rel c1 c2 -> urel u1 u2 -> rel (wrapone_emit c1 u1) (wrapone_emit c2 u2).
  Proof. intros Hc Hu. apply rel_bind; [exact Hc|]. intros v. apply rel_wrapper_call; exact Hu. Qed.

  Lemma rel_wrapone_emit_many c1 c2 u1 u2 n :
    (forall n, rel (c1 n) (c2 n)) -> urel u1 u2 -> rel (wrapone_emit_many c1 u1 n) (wrapone_emit_many c2 u2 n).
  Proof.
    intros Hc Hu. apply rel_bind; [apply Hc|]. intros vs. apply rel_mapS.
    intros v _. apply rel_wrapper_call; exact Hu.
  Qed.

  Definition srel (a b : string * (M S val * (Z -> M S (list val)))) : Prop :=
    fst a = fst b /\ rel (fst (snd a)) (fst (snd b)) /\ (forall n, rel (snd (snd a) n) (snd (snd b) n)).

  Lemma rel_call_sources s1 s2 : Forall2 srel s1 s2 -> rel (call_sources s1) (call_sources s2).
  Proof.
    intros H. unfold call_sources. apply rel_mapS2. induction H as [|[k1 c1] [k2 c2] t1 t2 H _ IH]; constructor; auto.
    destruct H as (E & H & _). cbn in *. subst k2. apply rel_bind; [exact H|]. intros v. apply rel_ret.
  Qed.

  Lemma rel_wrapmany_emit s1 s2 u1 u2 : Forall2 srel s1 s2 -> urel u1 u2 ->
    rel (wrapmany_emit s1 u1) (wrapmany_emit s2 u2).
  Proof.
    intros Hs Hu. apply rel_bind; [apply rel_call_sources; exact Hs|]. intros kw.
    apply rel_wrapper_call; exact Hu.
  Qed.

  Lemma rel_wrapmany_emit_many s1 s2 u1 u2 n : Forall2 srel s1 s2 -> urel u1 u2 ->
    rel (wrapmany_emit_many s1 u1 n) (wrapmany_emit_many s2 u2 n).
  Proof.
    intros Hs Hu. unfold wrapmany_emit_many. apply rel_bind.
    - apply rel_mapS2. induction Hs as [|[k1 c1] [k2 c2] t1 t2 H _ IH]; constructor; auto.
      destruct H as (E & _ & H). cbn in *. subst k2. apply rel_bind; [apply H|]. intros v. apply rel_ret.
    - intros em. apply rel_mapS. intros i _. apply rel_bind; [apply rel_lift|]. intros kw.
      apply rel_wrapper_call; exact Hu.
  Qed.

  Lemma rel_wrapone_set c1 c2 i1 i2 r1 r2 u1 u2 : rel c1 c2 -> rel (i1 u1) (i2 u2) -> rel r1 r2 -> urel u1 u2 ->
    rel (wrapone_set c1 i1 r1 u1) (wrapone_set c2 i2 r2 u2).
  Proof.
    intros Hc Hi Hr Hu. apply rel_try_finally.
    - apply rel_bind; [exact Hc|]. intros v. apply rel_try_mock_call; exact Hu.
    - apply rel_bind; [exact Hi|]. intros _. exact Hr.
  Qed.

  Lemma rel_wrapmany_set s1 s2 i1 i2 r1 r2 u1 u2 : Forall2 srel s1 s2 -> rel (i1 u1) (i2 u2) -> rel r1 r2 -> urel u1 u2 ->
    rel (wrapmany_set s1 i1 r1 u1) (wrapmany_set s2 i2 r2 u2).
  Proof.
    intros Hs Hi Hr Hu. apply rel_bind; [apply rel_call_sources; exact Hs|]. intros kw. apply rel_try_finally.
    - apply rel_try_mock_call; exact Hu.
    - apply rel_bind; [exact Hi|]. intros _. exact Hr.
  Qed.

  Lemma rel_based_emit f1 f2 u1 u2 : (forall s1 s2, R s1 s2 -> f1 s1 = f2 s2) -> urel u1 u2 ->
    rel (based_emit f1 u1) (based_emit f2 u2).
  Proof.
    intros E Hu s1 s2 H. unfold based_emit. rewrite <- (E s1 s2 H).
    destruct (action_args (f1 s1)) as [args kw]. apply rel_wrapper_call; assumption.
  Qed.

  Lemma rel_based_set c1 c2 i1 i2 r1 r2 u1 u2 :
    Forall2 (fun a b => fst a = fst b /\ rel (snd a) (snd b)) c1 c2 -> rel (i1 u1) (i2 u2) -> rel r1 r2 -> urel u1 u2 ->
    rel (based_set c1 i1 r1 u1) (based_set c2 i2 r2 u2).
  Proof.
    intros Hc Hi Hr Hu. apply rel_bind; [exact Hi|]. intros _. apply rel_bind.
    - apply rel_mapS2. induction Hc as [|[k1 a] [k2 b] t1 t2 H _ IH]; constructor; auto.
      destruct H as (E & H). cbn in *. subst k2. apply rel_bind; [exact H|]. intros v. apply rel_ret.
    - intros vals. destruct (action_args vals) as [args kw]. apply rel_try_finally; [|exact Hr].
      apply rel_try_mock_call; exact Hu.
  Qed.

  Lemma rel_repeat_emit e1 e2 n : rel e1 e2 -> rel (repeat_emit e1 n) (repeat_emit e2 n).
  Proof. intros H. apply rel_bind; [exact H|]. intros v. apply rel_ret. Qed.

  (** *** Fields and schemas *)

  Lemma rel_field_call g1 g2 r1 r2 e1 e2 n1 n2 c1 c2 :
    rel g1 g2 -> rel r1 r2 -> rel e1 e2 -> (forall n, rel (n1 n) (n2 n)) -> (forall v, rel (c1 v) (c2 v)) ->
    rel (field_call g1 r1 e1 n1 c1) (field_call g2 r2 e2 n2 c2).
  Proof.
    intros Hg Hr He Hn Hc. unfold field_call. apply rel_bind; [exact Hg|]. intros g. destruct (truthy g).
    - apply rel_bind; [exact Hr|]. intros r. apply rel_bind; [apply rel_call_val; assumption|]. intros v.
      apply rel_bind; [apply Hc|]. intros _. apply rel_ret.
    - apply rel_bind; [apply Hc|]. intros _. apply rel_ret.
  Qed.

  Lemma rel_schema_loop F (h1 h2 : F -> S -> bool) (c1 c2 : F -> M S val) fs : forall doc,
    (forall nf, In nf fs -> forall s1 s2, R s1 s2 -> h1 (snd nf) s1 = h2 (snd nf) s2) ->
    (forall nf, In nf fs -> rel (c1 (snd nf)) (c2 (snd nf))) ->
    rel (schema_loop h1 c1 fs doc) (schema_loop h2 c2 fs doc).
  Proof.
    induction fs as [|[n f] t IH]; intros doc Hh Hc; cbn [schema_loop]; [apply rel_ret|].
    apply rel_bind; [apply (Hc (n, f)); left; reflexivity|]. intros v s1 s2 H. cbv beta.
    rewrite (Hh (n, f) (or_introl eq_refl) s1 s2 H : h1 f s1 = h2 f s2). apply IH; auto.
    - intros nf Hn. apply Hh. right; exact Hn.
    - intros nf Hn. apply Hc. right; exact Hn.
  Qed.
End Rel.

(** ** What a computation does to the state *)

Section Keeps.
  Context {S : Type} (I : S -> S -> Prop).
  Hypothesis Irefl : forall s, I s s.
  Hypothesis Itrans : forall a b c, I a b -> I b c -> I a c.

  (** Every run leads to a state in relation [I] to the one it started in. *)
  Definition keeps {A} (m : M S A) : Prop := forall s, I s (snd (m s)).

  (** As a relation between runs: one and the same run, after [s0]. *)
  Definition since (s0 : S) (s1 s2 : S) : Prop := s1 = s2 /\ I s0 s1.

  Lemma keeps_rel A (m : M S A) : keeps m -> forall s0, rel (since s0) m m.
  Proof.
    intros H s0 s1 s2 [-> E]. split; [reflexivity|]. split; [reflexivity|].
    eapply Itrans; [exact E | apply H].
  Qed.
  Lemma rel_keeps A (m : M S A) : (forall s0, rel (since s0) m m) -> keeps m.
  Proof. intros H s. apply (H s s s). split; [reflexivity | apply Irefl]. Qed.

  Lemma keeps_bind A B (m : M S A) (k : A -> M S B) : keeps m -> (forall a, keeps (k a)) -> keeps (mbind m k).
  Proof.
    intros Hm Hk. apply rel_keeps. intros s0. apply rel_bind; [apply keeps_rel; exact Hm|].
    intros a. apply keeps_rel, Hk.
  Qed.
  Lemma keeps_ret A (a : A) : keeps (ret a).
  Proof. intros s. apply Irefl. Qed.
  Lemma keeps_lift A (r : res A) : keeps (lift r).
  Proof. intros s. apply Irefl. Qed.
  Lemma keeps_raise A e : keeps (@raise S A e).
  Proof. intros s. apply Irefl. Qed.
End Keeps.
