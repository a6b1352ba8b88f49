(** * Proofs about Static, Iterative and Sequential. *)
From Verif Require Import Base Prims FixedModel ChoiceRun FixedSpec.

Section Proofs.
  Context {A : Type}.
  Implicit Types (f : factory A) (g : gen) (vs : list A).

  Lemma Forall2_impl' {B C} (P Q : B -> C -> Prop) l1 l2 :
    (forall a b, P a b -> Q a b) -> Forall2 P l1 l2 -> Forall2 Q l1 l2.
  Proof. intros H F. induction F; constructor; auto. Qed.

  (** ** The generator *)

  (** Where the generator stands: its current iterator, or the next one made. *)
  Definition stand g : nat * nat := match g_cur g with Some cp => cp | None => (g_calls g, 0%nat) end.

  (** The current iterator is the last one made. *)
  Definition gen_wf g : Prop :=
    match g_cur g with Some (c, _) => g_calls g = S c | None => True end.

  Lemma gen_next_none fuel f g :
    g_cur g = None ->
    gen_next fuel f g = match fuel with
                        | O => (Diverge, g)
                        | S k => gen_next k f (mkGen (S (g_calls g)) (Some (g_calls g, 0%nat)))
                        end.
  Proof. intros H. destruct fuel; cbn; rewrite H; reflexivity. Qed.

  Lemma gen_next_no_raise fuel f : forall g e, fst (gen_next fuel f g) <> Raise e.
  Proof.
    induction fuel as [|k IH]; intros g e; cbn;
      destruct (g_cur g) as [[c p]|]; try destruct (it_at (f c) p); cbn; try discriminate; apply IH.
  Qed.

  (** One step reads the next element. *)
  Lemma gen_next_spec fuel f : forall g a g', gen_wf g -> gen_next fuel f g = (Ok a, g') ->
    gen_wf g' /\ (g_calls g <= g_calls g')%nat /\
    (exists c p, it_at (f c) p = Some a /\ (fst (stand g) <= c)%nat /\ stand g' = (c, S p) /\ g_cur g' <> None /\
     forall vs, back_to_back f c (S p) vs -> back_to_back f (fst (stand g)) (snd (stand g)) (a :: vs)).
  Proof.
    induction fuel as [|k IH]; intros g a g' W E; cbn in E;
      destruct g as [n [[c p]|]]; cbn in *; try (destruct (it_at (f c) p) as [b|] eqn:Eb); try discriminate.
    - injection E as -> <-. cbn. repeat split; auto. exists c, p. repeat split; auto; try discriminate.
      intros vs H. now apply BB_item.
    - injection E as -> <-. cbn. repeat split; auto. exists c, p. repeat split; auto; try discriminate.
      intros vs H. now apply BB_item.
    - apply IH in E; [|cbn; auto]. destruct E as (W' & Hc & c' & p' & Hat & Hle & Hst & Hn & HB). cbn in *.
      split; auto. split; [lia|]. exists c', p'. repeat split; auto; [cbn; lia|].
      intros vs H. apply BB_next; auto. cbn. subst n. apply HB, H.
    - apply IH in E; [|cbn; auto]. destruct E as (W' & Hc & c' & p' & Hat & Hle & Hst & Hn & HB). cbn in *.
      split; auto. split; [lia|]. exists c', p'. repeat split; auto.
  Qed.

  Lemma gen_take_spec fuel f : forall n g l g', gen_wf g -> gen_take fuel f n g = (Ok l, g') ->
    gen_wf g' /\ (g_calls g <= g_calls g')%nat /\ length l = n /\
    (forall a, In a l -> exists c p, (fst (stand g) <= c)%nat /\ (c < g_calls g')%nat /\ it_at (f c) p = Some a) /\
    (fst (stand g) <= fst (stand g'))%nat /\
    (forall vs, back_to_back f (fst (stand g')) (snd (stand g')) vs ->
                back_to_back f (fst (stand g)) (snd (stand g)) (l ++ vs)).
  Proof.
    induction n as [|n IH]; intros g l g' W E; cbn in E.
    - injection E as <- <-. repeat split; auto. now intros a [].
    - unfold mbind in E. destruct (gen_next fuel f g) as [[a|e|] g1] eqn:E1; try discriminate.
      destruct (gen_take fuel f n g1) as [[l1|e|] g2] eqn:E2; try discriminate.
      injection E as <- <-. apply gen_next_spec in E1; auto.
      destruct E1 as (W1 & Hc1 & c & p & Hat & Hle & Hst & Hn & HB).
      apply IH in E2; auto. destruct E2 as (W2 & Hc2 & Hlen & Hin & Hge & HB2).
      assert (Hc : (c < g_calls g1)%nat).
      { unfold gen_wf in W1. unfold stand in Hst. destruct (g_cur g1) as [[c1 p1]|]; [|congruence].
        injection Hst as -> ->. lia. }
      rewrite Hst in Hin, Hge, HB2. cbn [fst snd] in Hin, Hge, HB2. cbn [length app]. split; auto. split; [lia|]. split; [lia|]. split; [|split; [lia|]].
      + intros b [<-|Hb].
        * exists c, p. repeat split; auto. lia.
        * destruct (Hin b Hb) as (c' & p' & H1 & H2 & H3). exists c', p'. repeat split; auto. lia.
      + intros vs H. apply HB, HB2, H.
  Qed.

  Lemma gen_take_app fuel f a b : forall g,
    gen_take fuel f (a + b) g =
    (l <~ gen_take fuel f a ;; l2 <~ gen_take fuel f b ;; ret (l ++ l2)) g.
  Proof.
    induction a as [|a IH]; intros g; cbn.
    - unfold mbind, ret. destruct (gen_take fuel f b g) as [[l|e|] g']; reflexivity.
    - unfold mbind, ret in *. destruct (gen_next fuel f g) as [[x|e|] g1]; auto.
      rewrite IH. destruct (gen_take fuel f a g1) as [[l|e|] g2]; auto.
      destruct (gen_take fuel f b g2) as [[l2|e|] g3]; reflexivity.
  Qed.

  Lemma gen_take_one fuel f g :
    gen_take fuel f 1 g = (a <~ gen_next fuel f ;; ret [a]) g.
  Proof. cbn. unfold mbind, ret. destruct (gen_next fuel f g) as [[x|e|] g1]; reflexivity. Qed.

  (** No step hangs if every iterator has an element. *)
  Lemma gen_next_ok fuel f g :
    (1 <= fuel)%nat -> (forall c, it_at (f c) 0 <> None) -> exists a g', gen_next fuel f g = (Ok a, g').
  Proof.
    intros Hf Hne. destruct fuel as [|k]; [lia|].
    assert (H : forall k n c, exists a g', gen_next k f (mkGen n (Some (c, 0%nat))) = (Ok a, g')).
    { intros k' n c. specialize (Hne c). destruct k'; cbn; destruct (it_at (f c) 0); try congruence; eauto. }
    cbn. destruct (g_cur g) as [[c p]|].
    - destruct (it_at (f c) p); eauto.
    - eauto.
  Qed.
  Lemma gen_take_ok fuel f n : forall g,
    (1 <= fuel)%nat -> (forall c, it_at (f c) 0 <> None) -> exists l g', gen_take fuel f n g = (Ok l, g').
  Proof.
    induction n as [|n IH]; intros g Hf Hne; cbn; [unfold ret; eauto|].
    destruct (gen_next_ok fuel f g Hf Hne) as (a & g1 & E). unfold mbind. rewrite E.
    destruct (IH g1 Hf Hne) as (l & g2 & E2). rewrite E2. unfold ret. eauto.
  Qed.

  (** ** Iterative: every way of asking is taking from the generator *)

  Lemma iter_ask_take fuel q i :
    ask_with (iter_emit fuel) (iter_emit_many fuel) q i =
    if ask_size q <? 0 then (Raise ValueError, i)
    else iter_run (fun f => gen_take fuel f (Z.to_nat (ask_size q))) i.
  Proof.
    assert (H1 : (a <~ iter_emit fuel ;; ret [a]) i = iter_run (fun f => gen_take fuel f 1) i).
    { unfold iter_emit, iter_run, mbind, ret. rewrite gen_take_one. unfold mbind, ret.
      destruct (gen_next fuel (i_factory i) (i_gen i)) as [[x|e|] g1]; reflexivity. }
    destruct q as [|n| |n]; cbn [ask_with ask_size].
    - exact H1.
    - unfold call_number, iter_emit_many. destruct (n =? 1) eqn:E.
      + apply Z.eqb_eq in E. subst n. exact H1.
      + destruct (n <? 0); reflexivity.
    - exact H1.
    - unfold iter_emit_many. destruct (n <? 0); reflexivity.
  Qed.

  Lemma seq_ask_take fuel q (s : sequential A) :
    ask_with (seq_emit fuel) (seq_emit_many fuel) q s =
    if ask_size q <? 0 then (Raise ValueError, s)
    else seq_run (fun f => gen_take fuel f (Z.to_nat (ask_size q))) s.
  Proof.
    assert (H1 : (a <~ seq_emit fuel ;; ret [a]) s = seq_run (fun f => gen_take fuel f 1) s).
    { unfold seq_emit, seq_run, mbind, ret. rewrite gen_take_one. unfold mbind, ret.
      destruct (gen_next fuel (seq_factory s) (s_gen s)) as [[x|e|] g1]; reflexivity. }
    destruct q as [|n| |n]; cbn [ask_with ask_size].
    - exact H1.
    - unfold call_number, seq_emit_many. destruct (n =? 1) eqn:E.
      + apply Z.eqb_eq in E. subst n. exact H1.
      + destruct (n <? 0); reflexivity.
    - exact H1.
    - unfold seq_emit_many. destruct (n <? 0); reflexivity.
  Qed.

  (** Going on from where the generator stands. *)
  Lemma back_to_back_nil f c p vs : back_to_back f c p (vs ++ []) -> back_to_back f c p vs.
  Proof. now rewrite app_nil_r. Qed.

  (** A step that failed leaves a generator that is still well-formed. *)
  Lemma gen_next_wf fuel f : forall g, gen_wf g -> gen_wf (snd (gen_next fuel f g)).
  Proof.
    induction fuel as [|k IH]; intros g W; cbn;
      destruct g as [n [[c p]|]]; cbn in *; try destruct (it_at (f c) p); cbn; auto; apply IH; cbn; auto.
  Qed.
  Lemma gen_next_calls fuel f : forall g, (g_calls g <= g_calls (snd (gen_next fuel f g)))%nat.
  Proof.
    induction fuel as [|k IH]; intros g; cbn;
      destruct g as [n [[c p]|]]; cbn in *; try destruct (it_at (f c) p); cbn; auto;
      (etransitivity; [|apply IH]); cbn; lia.
  Qed.
  Lemma gen_take_wf fuel f n : forall g, gen_wf g ->
    gen_wf (snd (gen_take fuel f n g)) /\ (g_calls g <= g_calls (snd (gen_take fuel f n g)))%nat.
  Proof.
    induction n as [|n IH]; intros g W; cbn; auto.
    pose proof (gen_next_wf fuel f g W) as W1. pose proof (gen_next_calls fuel f g) as H1.
    unfold mbind. destruct (gen_next fuel f g) as [[x|e|] g1]; cbn in *; auto.
    destruct (IH g1 W1) as [W2 H2]. destruct (gen_take fuel f n g1) as [[l|e|] g2]; cbn in *; auto;
      split; auto; lia.
  Qed.

  (** ** Histories of an Iterative *)

  Lemma iter_ops_inv fuel ops : forall i vs i', gen_wf (i_gen i) -> (1 <= g_calls (i_gen i))%nat ->
    iter_ops fuel ops i = (vs, i') ->
    i_factory i' = i_factory i /\ gen_wf (i_gen i') /\ (g_calls (i_gen i) <= g_calls (i_gen i'))%nat /\
    (1 <= fst (stand (i_gen i)) ->
     forall v, In v vs -> exists c p, (1 <= c < g_calls (i_gen i'))%nat /\ it_at (i_factory i c) p = Some v)%nat /\
    (1 <= fst (stand (i_gen i)) -> 1 <= fst (stand (i_gen i')))%nat.
  Proof.
    induction ops as [|o ops IH]; intros i vs i' W H1 E; cbn in E.
    - injection E as <- <-. repeat split; auto. now intros _ v [].
    - assert (Hstep : forall vs1 i1,
                match o with
                | FAsk q => match ask_with (iter_emit fuel) (iter_emit_many fuel) q i with
                            | (Ok l, s) => (l, s) | (_, s) => ([], s) end
                | FReset => ([], iter_reset i)
                | FResetAfterCall b => ([], iter_set_rac b i)
                end = (vs1, i1) ->
                i_factory i1 = i_factory i /\ gen_wf (i_gen i1) /\ (g_calls (i_gen i) <= g_calls (i_gen i1))%nat /\
                (1 <= fst (stand (i_gen i)) ->
                 forall v, In v vs1 -> exists c p, (1 <= c < g_calls (i_gen i1))%nat /\ it_at (i_factory i c) p = Some v)%nat /\
                (1 <= fst (stand (i_gen i)) -> 1 <= fst (stand (i_gen i1)))%nat).
      { intros vs1 i1 Es. destruct o as [q| |b].
        - rewrite iter_ask_take in Es. destruct (ask_size q <? 0).
          { injection Es as <- <-. repeat split; auto. now intros _ v []. }
          unfold iter_run in Es. set (n := Z.to_nat (ask_size q)) in *.
          pose proof (gen_take_wf fuel (i_factory i) n (i_gen i) W) as [Wg Hg].
          destruct (gen_take fuel (i_factory i) n (i_gen i)) as [[l|e|] g'] eqn:Eg; cbn in Wg, Hg.
          + apply gen_take_spec in Eg; auto. destruct Eg as (W' & Hc & Hlen & Hin & Hge & HB).
            assert (Hin' : (1 <= fst (stand (i_gen i)) -> forall v, In v l -> exists c p, (1 <= c < g_calls g')%nat /\ it_at (i_factory i c) p = Some v)%nat).
            { intros Hs v Hv. destruct (Hin v Hv) as (c & p & Ha & Hb & Hd). exists c, p. split; auto. lia. }
            cbn [i_rac] in Es. destruct (i_rac i); injection Es as <- <-; cbn.
            * repeat split; auto. intros Hs; lia.
            * repeat split; auto. lia.
          + injection Es as <- <-. cbn. repeat split; auto; [now intros _ v []|].
            intros Hs. exfalso. revert Eg. clear. revert g' e.
            assert (forall k g g' e, gen_take fuel (i_factory i) k g <> (Raise e, g')).
            { induction k as [|k IHk]; intros g g' e; cbn; [discriminate|]. unfold mbind.
              pose proof (gen_next_no_raise fuel (i_factory i) g) as Hn.
              destruct (gen_next fuel (i_factory i) g) as [[x|e'|] g1]; try discriminate.
              - specialize (IHk g1). destruct (gen_take fuel (i_factory i) k g1) as [[l|e'|] g2]; try discriminate.
                intros H. injection H as -> <-. eapply IHk; reflexivity.
              - intros _. eapply Hn. reflexivity. }
            intros g' e Hx. eapply H; eauto.
          + injection Es as <- <-. cbn. repeat split; auto; [now intros _ v []|].
            intros Hs. unfold stand. unfold gen_wf in Wg.
            assert (Hcur : forall k g g2, gen_wf g -> (1 <= fst (stand g))%nat ->
                           gen_take fuel (i_factory i) k g = (Diverge, g2) -> (1 <= fst (stand g2))%nat).
            { clear - A. induction k as [|k IHk]; intros g g2 W Hs E; cbn in E; [discriminate|].
              unfold mbind in E. destruct (gen_next fuel (i_factory i) g) as [[x|e'|] g1] eqn:E1; try discriminate.
              - destruct (gen_next_spec _ _ _ _ _ W E1) as (W1 & _ & c & p & _ & Hle & Hst & _).
                destruct (gen_take fuel (i_factory i) k g1) as [[l|e'|] g3] eqn:E2; try discriminate.
                injection E as <-. eapply IHk; eauto. rewrite Hst. cbn. lia.
              - injection E as <-. clear - W Hs E1. revert g g1 W Hs E1.
                induction fuel as [|m IHm]; intros g g1 W Hs E1; cbn in E1; destruct g as [n [[c p]|]]; cbn in *;
                  try destruct (it_at (i_factory i c) p); try discriminate; try (injection E1 as <-; cbn; lia).
                + eapply IHm; [| |exact E1]; cbn; auto. lia.
                + eapply IHm; [| |exact E1]; cbn; auto. }
            eapply Hcur in Eg; eauto.
        - injection Es as <- <-. cbn. repeat split; auto. now intros _ v [].
        - injection Es as <- <-. cbn. repeat split; auto. now intros _ v []. }
      unfold iter_ops in E. cbn [frun] in E. fold (@iter_ops A fuel) in E.
      destruct (match o with
                | FAsk q => match ask_with (iter_emit fuel) (iter_emit_many fuel) q i with
                            | (Ok l, s) => (l, s) | (_, s) => ([], s) end
                | FReset => ([], iter_reset i)
                | FResetAfterCall b => ([], iter_set_rac b i)
                end) as [vs1 i1] eqn:Eo.
      destruct (Hstep _ _ eq_refl) as (Hf & W1 & Hc & Hin & Hst).
      destruct (iter_ops fuel ops i1) as [vs2 i2] eqn:E2. injection E as <- <-.
      apply IH in E2; auto; [|lia]. destruct E2 as (Hf2 & W2 & Hc2 & Hin2 & Hst2).
      repeat split; auto; try congruence; try lia.
      + intros Hs v Hv. apply in_app_iff in Hv as [Hv|Hv].
        * destruct (Hin Hs v Hv) as (c & p & Hr & Ha). exists c, p. split; auto. lia.
        * destruct (Hin2 (Hst Hs) v Hv) as (c & p & Hr & Ha). exists c, p. split; auto. congruence.
  Qed.

  (** A sequence of requests without reset_after_call continues one reading. *)
  Lemma iter_asks_go fuel qs : forall i (outs : list (list A)) i', gen_wf (i_gen i) -> i_rac i = false ->
    Forall (fun q => 0 <= ask_size q) qs ->
    iter_asks fuel qs i = (map Ok outs, i') ->
    back_to_back (i_factory i) (fst (stand (i_gen i))) (snd (stand (i_gen i))) (concat outs) /\
    Forall2 (fun q (l : list A) => zlen l = ask_size q) qs outs.
  Proof.
    induction qs as [|q qs IH]; intros i outs i' W Hr Hq E; cbn in E.
    - destruct outs; [|discriminate]. cbn. split; constructor.
    - inversion Hq; subst. unfold iter_asks in E. cbn [asks_with] in E. fold (@iter_asks A fuel) in E.
      rewrite iter_ask_take in E. replace (ask_size q <? 0) with false in E by (symmetry; apply Z.ltb_ge; auto).
      unfold iter_run in E.
      destruct (gen_take fuel (i_factory i) (Z.to_nat (ask_size q)) (i_gen i)) as [[l|e|] g] eqn:Eg;
        cbn [i_rac] in E; rewrite Hr in E.
      2, 3: destruct (iter_asks _ _ _) as [os i2]; destruct outs; discriminate.
      destruct (iter_asks fuel qs (mkIter (i_factory i) g false)) as [os i2] eqn:E2.
      destruct outs as [|l' outs]; [discriminate|]. cbn [map] in E. injection E as -> -> ->.
      apply gen_take_spec in Eg; auto. destruct Eg as (W' & Hc & Hlen & Hin & Hge & HB).
      apply IH in E2; auto. cbn in E2. destruct E2 as [HB2 HF]. split.
      + cbn. apply HB, HB2.
      + constructor; auto. unfold zlen. lia.
  Qed.

  Lemma iter_asks_ok fuel qs : (1 <= fuel)%nat -> forall i : iterative A,
    (forall c, it_at (i_factory i c) 0 <> None) -> Forall (fun q => 0 <= ask_size q) qs ->
    exists (outs : list (list A)) i', iter_asks fuel qs i = (map Ok outs, i').
  Proof.
    intros Hf. induction qs as [|q qs IH]; intros i Hne Hq.
    - exists [], i. reflexivity.
    - inversion Hq; subst. unfold iter_asks. cbn [asks_with]. fold (@iter_asks A fuel).
      rewrite iter_ask_take. replace (ask_size q <? 0) with false by (symmetry; apply Z.ltb_ge; auto).
      unfold iter_run. destruct (gen_take_ok fuel (i_factory i) (Z.to_nat (ask_size q)) (i_gen i) Hf Hne) as (l & g & Eg).
      rewrite Eg. cbn [i_rac].
      match goal with |- context [iter_asks fuel qs ?j] => destruct (IH j) as (outs & i' & E) end; auto.
      { destruct (i_rac i); cbn; auto. }
      rewrite E. exists (l :: outs), i'. reflexivity.
  Qed.

  (** With reset_after_call every request starts a new iterator. *)
  Lemma iter_asks_rac fuel qs : forall i (outs : list (list A)) i',
    i_rac i = true -> g_cur (i_gen i) = None -> Forall (fun q => 0 <= ask_size q) qs ->
    iter_asks fuel qs i = (map Ok outs, i') ->
    Forall2 (fun q (l : list A) => zlen l = ask_size q /\
               exists c, (g_calls (i_gen i) <= c)%nat /\ back_to_back (i_factory i) c 0 l) qs outs.
  Proof.
    induction qs as [|q qs IH]; intros i outs i' Hr Hg Hq E; cbn in E.
    - destruct outs; [|discriminate]. constructor.
    - inversion Hq; subst. unfold iter_asks in E. cbn [asks_with] in E. fold (@iter_asks A fuel) in E.
      rewrite iter_ask_take in E. replace (ask_size q <? 0) with false in E by (symmetry; apply Z.ltb_ge; auto).
      unfold iter_run in E.
      destruct (gen_take fuel (i_factory i) (Z.to_nat (ask_size q)) (i_gen i)) as [[l|e|] g] eqn:Eg;
        cbn [i_rac] in E; rewrite Hr in E.
      2, 3: destruct (iter_asks _ _ _) as [os i2]; destruct outs; discriminate.
      destruct (iter_asks fuel qs (iter_reset (mkIter (i_factory i) g true))) as [os i2] eqn:E2.
      destruct outs as [|l' outs]; [discriminate|]. cbn [map] in E. injection E as -> -> ->.
      apply gen_take_spec in Eg; [|unfold gen_wf; now rewrite Hg].
      destruct Eg as (W' & Hc & Hlen & Hin & Hge & HB).
      apply IH in E2; auto. cbn in E2. constructor.
      + split; [unfold zlen; lia|]. exists (g_calls (i_gen i)). split; auto.
        specialize (HB [] ltac:(constructor)). rewrite app_nil_r in HB. unfold stand in HB. now rewrite Hg in HB.
      + eapply Forall2_impl'; [|exact E2]. cbn. intros q' l0 (Hl0 & c & Hcc & Hb).
        split; auto. exists c. split; auto. lia.
  Qed.

  (** ** Repetition of one list *)

  Lemma back_to_back_cycle (l : list A) h c p vs : l <> [] -> (p <= length l)%nat ->
    back_to_back (fun _ => Finite l h) c p vs ->
    forall k, (k < length vs)%nat -> nth_error vs k = nth_error l ((p + k) mod length l)%nat.
  Proof.
    intros Hl Hp HB. remember (fun _ : nat => Finite l h) as its.
    induction HB as [c p|c p v vs Hat HB IH|c p vs Hat HB IH]; intros k Hk; subst; cbn in *.
    - lia.
    - assert (Hlt : (p < length l)%nat) by (apply nth_error_Some; congruence).
      destruct k as [|k]; cbn.
      + rewrite Nat.add_0_r, Nat.mod_small by lia. auto.
      + rewrite IH by (auto; lia). f_equal. f_equal. lia.
    - apply nth_error_None in Hat. assert (p = length l) by lia. subst p.
      rewrite IH by (auto; lia). f_equal. cbn.
      rewrite <- Nat.add_mod_idemp_l, Nat.mod_same, Nat.add_0_l by (destruct l; cbn; congruence). auto.
  Qed.

  (** States of a Sequential whose factory was not replaced. *)
  Definition seq_wf (items : list A) (s : sequential A) : Prop :=
    s_items s = items /\ s_own s = true /\ gen_wf (s_gen s).

  Lemma seq_wf_factory items s : seq_wf items s -> seq_factory s = fun _ => Finite items true.
  Proof. intros (H1 & H2 & _). unfold seq_factory. now rewrite H1, H2. Qed.

  Lemma seq_ops_inv fuel items ops : forall s, seq_wf items s -> seq_wf items (snd (seq_ops fuel ops s)).
  Proof.
    induction ops as [|o ops IH]; intros s W; cbn; auto.
    unfold seq_ops. cbn [frun]. fold (@seq_ops A fuel).
    match goal with |- context [let '(_, _) := ?m in _] => destruct m as [vs1 s1] eqn:Eo end.
    assert (W1 : seq_wf items s1).
    { destruct o as [q| |b].
      - rewrite seq_ask_take in Eo. destruct (ask_size q <? 0); [now injection Eo as <- <-|].
        unfold seq_run in Eo. destruct W as (Hi & Ho & Wg).
        pose proof (gen_take_wf fuel (seq_factory s) (Z.to_nat (ask_size q)) (s_gen s) Wg) as [W' _].
        destruct (gen_take fuel (seq_factory s) (Z.to_nat (ask_size q)) (s_gen s)) as [[l|e|] g]; cbn in W', Eo;
          injection Eo as <- <-; try (repeat split; cbn; auto; fail).
        destruct (s_rac s); repeat split; cbn; auto.
      - injection Eo as <- <-. destruct W as (Hi & Ho & Wg). repeat split; auto.
      - injection Eo as <- <-. destruct W as (Hi & Ho & Wg). repeat split; auto. }
    specialize (IH s1 W1). destruct (seq_ops fuel ops s1) as [vs2 s2]. exact IH.
  Qed.

  Lemma seq_asks_go fuel items qs : items <> [] -> (1 <= fuel)%nat -> forall s, seq_wf items s ->
    s_rac s = false -> Forall (fun q => 0 <= ask_size q) qs ->
    exists (outs : list (list A)) s', seq_asks fuel qs s = (map Ok outs, s') /\ seq_wf items s' /\ s_rac s' = false /\
      back_to_back (fun _ => Finite items true) (fst (stand (s_gen s))) (snd (stand (s_gen s))) (concat outs) /\
      Forall2 (fun q (l : list A) => zlen l = ask_size q) qs outs.
  Proof.
    intros Hne Hf. induction qs as [|q qs IH]; intros s W Hr Hq.
    - exists [], s. cbn. repeat split; try apply W; auto; constructor.
    - inversion Hq; subst. unfold seq_asks. cbn [asks_with]. fold (@seq_asks A fuel).
      rewrite seq_ask_take. replace (ask_size q <? 0) with false by (symmetry; apply Z.ltb_ge; auto).
      unfold seq_run. rewrite (seq_wf_factory items s W). pose proof W as (Hi & Ho & Wg).
      destruct (gen_take_ok fuel (fun _ => Finite items true) (Z.to_nat (ask_size q)) (s_gen s) Hf) as (l & g & Eg).
      { intros _. destruct items; cbn; congruence. }
      rewrite Eg. cbn [s_rac]. rewrite Hr.
      apply gen_take_spec in Eg; auto. destruct Eg as (W' & Hc & Hlen & Hin & Hge & HB).
      destruct (IH (mkSeq (s_items s) (s_own s) (s_factory s) g false)) as (outs & s' & E2 & Ws & Hr' & HB2 & HF).
      { repeat split; auto. } { reflexivity. } { auto. }
      rewrite E2. exists (l :: outs), s'. repeat split; try apply Ws; auto.
      + cbn. apply HB, HB2.
      + constructor; auto. unfold zlen. lia.
  Qed.

  (** With reset_after_call every request starts afresh. *)
  Lemma seq_asks_rac fuel items qs : items <> [] -> (1 <= fuel)%nat -> forall s, seq_wf items s ->
    s_rac s = true -> g_cur (s_gen s) = None -> Forall (fun q => 0 <= ask_size q) qs ->
    exists (outs : list (list A)) s', seq_asks fuel qs s = (map Ok outs, s') /\
      Forall2 (fun q (l : list A) => repeated items (Z.to_nat (ask_size q)) l) qs outs.
  Proof.
    intros Hne Hf. induction qs as [|q qs IH]; intros s W Hr Hg Hq.
    - exists [], s. cbn. split; auto.
    - inversion Hq; subst. unfold seq_asks. cbn [asks_with]. fold (@seq_asks A fuel).
      rewrite seq_ask_take. replace (ask_size q <? 0) with false by (symmetry; apply Z.ltb_ge; auto).
      unfold seq_run. rewrite (seq_wf_factory items s W). pose proof W as (Hi & Ho & Wg).
      destruct (gen_take_ok fuel (fun _ => Finite items true) (Z.to_nat (ask_size q)) (s_gen s) Hf) as (l & g & Eg).
      { intros _. destruct items; cbn; congruence. }
      rewrite Eg. cbn [s_rac]. rewrite Hr.
      apply gen_take_spec in Eg; auto. destruct Eg as (W' & Hc & Hlen & Hin & Hge & HB).
      destruct (IH (seq_reset (mkSeq (s_items s) (s_own s) (s_factory s) g true))) as (outs & s' & E2 & HF); auto.
      { repeat split; cbn; auto. }
      rewrite E2. exists (l :: outs), s'. split; auto. constructor; auto.
      split; [lia|]. intros k Hk. specialize (HB [] ltac:(constructor)). rewrite app_nil_r in HB.
      unfold stand in HB. rewrite Hg in HB. cbn in HB.
      rewrite (back_to_back_cycle items true _ 0 l Hne ltac:(lia) HB) by lia. reflexivity.
  Qed.

  (** ** Batching *)

  Lemma iter_batch fuel a b i l i2 : 0 <= a -> 0 <= b -> i_rac i = false ->
    let call n := ask_with (iter_emit (A:=A) fuel) (iter_emit_many fuel) (CallN n) in
    call (a + b) i = (Ok l, i2) <->
    exists i1 l1 l2, l = l1 ++ l2 /\ call a i = (Ok l1, i1) /\ call b i1 = (Ok l2, i2).
  Proof.
    intros Ha Hb Hr call. unfold call. rewrite (iter_ask_take fuel (CallN (a + b))), (iter_ask_take fuel (CallN a)). cbn [ask_size].
    assert (Hrun : forall n (j : iterative A), 0 <= n -> i_rac j = false ->
              ask_with (iter_emit fuel) (iter_emit_many fuel) (CallN n) j =
              (fun p => (fst p, mkIter (i_factory j) (snd p) false)) (gen_take fuel (i_factory j) (Z.to_nat n) (i_gen j))).
    { intros n j Hn Hj. rewrite iter_ask_take. cbn [ask_size].
      replace (n <? 0) with false by (symmetry; apply Z.ltb_ge; auto).
      unfold iter_run. destruct (gen_take fuel (i_factory j) (Z.to_nat n) (i_gen j)) as [[x|e|] g]; cbn [i_rac];
        now rewrite Hj. }
    replace (a + b <? 0) with false by (symmetry; apply Z.ltb_ge; lia).
    replace (a <? 0) with false by (symmetry; apply Z.ltb_ge; lia).
    unfold iter_run. rewrite Z2Nat.inj_add by auto. rewrite gen_take_app. unfold mbind, ret.
    destruct (gen_take fuel (i_factory i) (Z.to_nat a) (i_gen i)) as [[l1|e|] g1] eqn:E1; cbn [i_rac]; rewrite Hr.
    - split.
      + intros H. exists (mkIter (i_factory i) g1 false), l1.
        destruct (gen_take fuel (i_factory i) (Z.to_nat b) g1) as [[l2|e|] g2] eqn:E2; try discriminate.
        injection H as <- <-. exists l2. split; auto. split; auto.
        rewrite Hrun by auto. cbn [i_factory i_gen]. now rewrite E2.
      + intros (i1 & l1' & l2 & -> & H1 & H2). injection H1 as <- <-.
        rewrite Hrun in H2 by auto. cbn [i_factory i_gen] in H2.
        destruct (gen_take fuel (i_factory i) (Z.to_nat b) g1) as [[l2'|e|] g2] eqn:E2; cbn in H2; try discriminate.
        now injection H2 as <- <-.
    - split; [discriminate|]. intros (i1 & l1' & l2 & -> & H1 & H2). discriminate.
    - split; [discriminate|]. intros (i1 & l1' & l2 & -> & H1 & H2). discriminate.
  Qed.
  Lemma seq_batch fuel a b s l s2 : 0 <= a -> 0 <= b -> s_rac s = false ->
    let call n := ask_with (seq_emit (A:=A) fuel) (seq_emit_many fuel) (CallN n) in
    call (a + b) s = (Ok l, s2) <->
    exists s1 l1 l2, l = l1 ++ l2 /\ call a s = (Ok l1, s1) /\ call b s1 = (Ok l2, s2).
  Proof.
    intros Ha Hb Hr call. unfold call. rewrite (seq_ask_take fuel (CallN (a + b))), (seq_ask_take fuel (CallN a)). cbn [ask_size].
    assert (Hrun : forall n (j : sequential A), 0 <= n -> s_rac j = false ->
              ask_with (seq_emit fuel) (seq_emit_many fuel) (CallN n) j =
              (fun p => (fst p, mkSeq (s_items j) (s_own j) (s_factory j) (snd p) false)) (gen_take fuel (seq_factory j) (Z.to_nat n) (s_gen j))).
    { intros n j Hn Hj. rewrite seq_ask_take. cbn [ask_size].
      replace (n <? 0) with false by (symmetry; apply Z.ltb_ge; auto).
      unfold seq_run. destruct (gen_take fuel (seq_factory j) (Z.to_nat n) (s_gen j)) as [[x|e|] g]; cbn [s_rac];
        now rewrite Hj. }
    replace (a + b <? 0) with false by (symmetry; apply Z.ltb_ge; lia).
    replace (a <? 0) with false by (symmetry; apply Z.ltb_ge; lia).
    unfold seq_run. rewrite Z2Nat.inj_add by auto. rewrite gen_take_app. unfold mbind, ret.
    destruct (gen_take fuel (seq_factory s) (Z.to_nat a) (s_gen s)) as [[l1|e|] g1] eqn:E1; cbn [s_rac]; rewrite Hr.
    - split.
      + intros H. exists (mkSeq (s_items s) (s_own s) (s_factory s) g1 false), l1.
        destruct (gen_take fuel (seq_factory s) (Z.to_nat b) g1) as [[l2|e|] g2] eqn:E2; try discriminate.
        injection H as <- <-. exists l2. split; auto. split; auto.
        rewrite Hrun by auto. change (seq_factory (mkSeq (s_items s) (s_own s) (s_factory s) g1 false)) with (seq_factory s); cbn [s_items s_own s_factory s_gen]. now rewrite E2.
      + intros (s1 & l1' & l2 & -> & H1 & H2). injection H1 as <- <-.
        rewrite Hrun in H2 by auto. change (seq_factory (mkSeq (s_items s) (s_own s) (s_factory s) g1 false)) with (seq_factory s) in H2; cbn [s_items s_own s_factory s_gen] in H2.
        destruct (gen_take fuel (seq_factory s) (Z.to_nat b) g1) as [[l2'|e|] g2] eqn:E2; cbn in H2; try discriminate.
        now injection H2 as <- <-.
    - split; [discriminate|]. intros (s1 & l1' & l2 & -> & H1 & H2). discriminate.
    - split; [discriminate|]. intros (s1 & l1' & l2 & -> & H1 & H2). discriminate.
  Qed.
End Proofs.
