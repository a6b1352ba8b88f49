(** * Which objects keep their rng_seed in an operation. *)
From Coq Require Import String.
From Verif Require Import Base Prims Values MathModel ChoiceModel ChoiceRun ChoiceProofs FixedModel GroupModel
  SigModel WrapModel TextModel FieldModel World Rel WorldProofs Agree WorldSpec WorldReset Histories
  WorldBuild BuildProofs ObjectSpec ObjectProofs Prop_Runs.
Open Scope list_scope.
Open Scope Z_scope.

(** ** Texts from a list of words do not touch the word emitter *)

Section ListWords.
  Context {S : Type}.
  Lemma more_words_list k : forall rd l sp,
    (exists rd' l' sp', forall wc (wr : M S unit) s, more_words wc wr k rd (WList l) sp s = (Ok (rd', WList l', sp'), s)) \/
    (forall wc (wr : M S unit) s, more_words wc wr k rd (WList l) sp s = (Raise StopIteration, s)).
  Proof.
    induction k as [|k IH]; intros rd l sp; cbn [more_words].
    - left. exists rd, l, sp. reflexivity.
    - destruct (next_sep sp) as [a sp']. destruct l as [|b l].
      + right. reflexivity.
      + destruct (IH (rd ++ [a; b]) l sp') as [(r & l' & s' & E)|E]; [left; exists r, l', s' | right]; intros wc wr s; apply E.
  Qed.
  Lemma make_texts_list ns : forall l sp wc wr wc' wr' (s : S),
    make_texts wc wr ns (WList l) sp s = make_texts wc' wr' ns (WList l) sp s.
  Proof.
    induction ns as [|n ns IH]; intros l sp wc wr wc' wr' s; cbn [make_texts]; [reflexivity|].
    destruct (n =? 0); [apply IH|]. destruct l as [|a l]; [reflexivity|].
    cbn [next_word]. unfold mbind, ret. cbn [fst snd].
    destruct (more_words_list (Z.to_nat (n - 1)) [a] l sp) as [(r & l' & s' & E)|E]; rewrite !E; [|reflexivity].
    destruct (join_strs r) as [x|e|]; cbn [lift]; [|reflexivity|reflexivity].
    rewrite (IH l' s' wc wr wc' wr' s). reflexivity.
  Qed.

  (** A word emitter for which no batches are made is not reset. *)
  Lemma text_no_reset (Q : S -> Prop) nw wc wr wr' wu sc n :
    (forall s, Q s -> wu s = Ok None) -> (forall k s, Q s -> Q (snd (nw k s))) ->
    forall s, Q s -> text_emit_many nw wc wr wu sc n s = text_emit_many nw wc wr' wu sc n s.
  Proof.
    intros Hu Hn s Hs. unfold text_emit_many. unfold mbind at 1. unfold mbind at 5.
    pose proof (Hn n s Hs) as Hq. destruct (nw n s) as [[ls|e|] s1]; try reflexivity. cbn [snd] in Hq.
    unfold mbind, lift. destruct (sum_vals ls) as [t|e|]; try reflexivity.
    unfold get_words_iterator. rewrite (Hu s1 Hq). unfold mbind, ret.
    destruct (wc t s1) as [[l|e|] s2]; try reflexivity.
    destruct (sc (t - n) s2) as [[sp|e|] s3]; try reflexivity.
    destruct (mapM as_int ls) as [ns|e|]; try reflexivity. apply make_texts_list.
  Qed.
End ListWords.

(** ** The relation *)

Section Keep.
  Context {P : prims} (fuel : nat) (str_of : val -> res (list Z)).
  Notation world := (World.world P).
  Notation emitter := (World.emitter P).
  Notation get_em := (World.get_em P).
  Notation get_fd := (World.get_fd P).
  Notation belongs := (WorldSpec.belongs P).

  Definition seed_of (e : emitter) : option (option (pSeed P)) := option_map (n_seed P) (node_of P e).

  (** The emitters outside [D] and the fields outside [F] have the same rng_seed. *)
  Definition esame (d : Prop) (a b : emitter) : Prop :=
    children P a = children P b /\ is_choice a = is_choice b /\ (~ d -> seed_of a = seed_of b).
  Definition fsame (d : Prop) (x y : field P) : Prop :=
    parts P x = parts P y /\ (~ d -> n_seed P (f_nd P x) = n_seed P (f_nd P y)).
  Definition seeds (D F : nat -> Prop) (w w' : world) : Prop :=
    (forall j, orel (esame (D j)) (get_em j w) (get_em j w')) /\
    (forall f, orel (fsame (F f)) (get_fd f w) (get_fd f w')).

  Lemma esame_refl d a : esame d a a.
  Proof. repeat split. Qed.
  Lemma fsame_refl d a : fsame d a a.
  Proof. repeat split. Qed.
  Lemma seeds_refl D F w : seeds D F w w.
  Proof. split; intros; apply orel_refl; [apply esame_refl | apply fsame_refl]. Qed.
  Lemma seeds_trans D F a b c : seeds D F a b -> seeds D F b c -> seeds D F a c.
  Proof.
    intros [A1 A2] [B1 B2]. split; intros j; eapply orel_trans; eauto.
    - unfold esame. intros x y z (?&?&X) (?&?&Y). repeat split; try congruence. intros N. rewrite X, Y by exact N. reflexivity.
    - unfold fsame. intros x y z (?&X) (?&Y). split; try congruence. intros N. rewrite X, Y by exact N. reflexivity.
  Qed.

  Section Fix.
    Context (D F : nat -> Prop) (w0 : world).
    Notation sd := (seeds D F).
    Notation rel := (Rel.rel (since sd w0)).

    Lemma rel_since A (m : M world A) : (forall w, sd w0 w -> sd w (snd (m w))) -> rel m m.
    Proof. intros H s1 s2 [<- E]. split; [reflexivity|]. split; [reflexivity|]. eapply seeds_trans; eauto. Qed.
    Lemma rel_kept A (m : M world A) : keeps sd m -> rel m m.
    Proof. intros H. apply rel_since. intros w _. apply H. Qed.

    Lemma seeds_put id e e' (w : world) : get_em id w = Some e -> esame (D id) e e' -> sd w (put_em P id e' w).
    Proof.
      intros E S. split.
      - intros j. destruct (Nat.eq_dec j id) as [->|N].
        + rewrite (get_put_same _ _ _ _ E), E. exact S.
        + rewrite get_put_other by exact N. apply orel_refl, esame_refl.
      - intros f. unfold World.get_fd. rewrite fd_put. apply orel_refl, fsame_refl.
    Qed.
    Lemma seeds_use id (w : world) : sd w (use_entropy P id w).
    Proof.
      split; [intros j; rewrite get_use; apply orel_refl, esame_refl|].
      intros f. unfold World.get_fd. rewrite fd_use. apply orel_refl, fsame_refl.
    Qed.
    Lemma seeds_put_fd f x x' (w : world) : get_fd f w = Some x -> fsame (F f) x x' -> sd w (put_fd P f x' w).
    Proof.
      intros E S. split; [intros j; unfold World.get_em, put_fd; cbn; apply orel_refl, esame_refl|].
      intros g. unfold World.get_fd in *. unfold put_fd. cbn [w_fd]. destruct (Nat.eq_dec g f) as [->|N].
      - rewrite (nth_upd_same _ _ _ _ _ E), E. exact S.
      - rewrite nth_upd_other by congruence. apply orel_refl, fsame_refl.
    Qed.

    Lemma s_at A id (k : emitter -> M world A) :
      (forall w e, sd w0 w -> get_em id w = Some e -> rel (k e) (k e)) -> rel (at_em P id k) (at_em P id k).
    Proof.
      intros H s1 s2 [<- E]. unfold at_em. destruct (get_em id s1) as [e|] eqn:Ee; [|split; [reflexivity | split; auto]].
      apply (H s1 e E Ee). split; auto.
    Qed.
    Lemma s_at_fd A f (k : field P -> M world A) :
      (forall w x, sd w0 w -> get_fd f w = Some x -> rel (k x) (k x)) -> rel (at_fd P f k) (at_fd P f k).
    Proof.
      intros H s1 s2 [<- E]. unfold at_fd. destruct (get_fd f s1) as [x|] eqn:Ex; [|split; [reflexivity | split; auto]].
      apply (H s1 x E Ex). split; auto.
    Qed.
    Lemma k_modify id g : (forall e, esame (D id) e (g e)) -> keeps sd (modify_em P id g).
    Proof.
      intros H w. unfold modify_em, at_em. destruct (get_em id w) as [e|] eqn:Ee; [|apply seeds_refl]. eapply seeds_put; eauto.
    Qed.
    Lemma k_modify_fd f g : (forall x, fsame (F f) x (g x)) -> keeps sd (modify_fd P f g).
    Proof.
      intros H w. unfold modify_fd, at_fd. destruct (get_fd f w) as [e|] eqn:Ee; [|apply seeds_refl]. eapply seeds_put_fd; eauto.
    Qed.
    Lemma k_use id : keeps sd (fun w => (Ok tt, use_entropy P id w)).
    Proof. intros w. apply seeds_use. Qed.
    Lemma k_bind A B (m : M world A) (k : A -> M world B) : keeps sd m -> (forall a, keeps sd (k a)) -> keeps sd (mbind m k).
    Proof. apply keeps_bind; [apply seeds_refl | apply seeds_trans]. Qed.

    Lemma esame_with d e nd nd' : node_of P e = Some nd -> (~ d -> n_seed P nd = n_seed P nd') -> esame d e (with_node P nd' e).
    Proof.
      intros E H. unfold esame, seed_of. rewrite (node_with nd' e nd E), E. cbn.
      split; [destruct e; reflexivity|]. split; [destruct e; reflexivity|]. intros N. rewrite H by exact N. reflexivity.
    Qed.

    Lemma k_run_iter A id (m : M (iterative val) A) : keeps sd (run_iter P id m).
    Proof.
      intros w. unfold run_iter, at_em. destruct (get_em id w) as [e|] eqn:Ee; [|apply seeds_refl]. destruct e; try apply seeds_refl.
      destruct (m i). eapply seeds_put; [exact Ee | repeat split].
    Qed.
    Lemma k_run_seq A id (m : M (sequential val) A) : keeps sd (run_seq P id m).
    Proof.
      intros w. unfold run_seq, at_em. destruct (get_em id w) as [e|] eqn:Ee; [|apply seeds_refl]. destruct e; try apply seeds_refl.
      destruct (m s). eapply seeds_put; [exact Ee | repeat split].
    Qed.
    Lemma k_run_choice A id (m : M (@choice P val) A) : (~ D id -> forall c, c_seed c = c_seed (snd (m c))) -> keeps sd (run_choice P id m).
    Proof.
      intros H w. unfold run_choice, at_em. destruct (get_em id w) as [e|] eqn:Ee; [|apply seeds_refl]. destruct e; try apply seeds_refl.
      assert (X : ~ D id -> c_seed c = c_seed (snd (m c))) by auto.
      destruct (m c). eapply seeds_put; [exact Ee|]. repeat split. intros N. cbn in *. rewrite X by exact N. reflexivity.
    Qed.
    Lemma k_run_rng A id (m : M (pR P) A) : keeps sd (run_rng P id m).
    Proof.
      intros w. unfold run_rng, at_em. destruct (get_em id w) as [e|] eqn:Ee; [|apply seeds_refl].
      destruct (node_of P e) as [nd|] eqn:En; [|apply seeds_refl]. destruct (m (n_rng P nd)). eapply seeds_put; [exact Ee|].
      eapply esame_with; [exact En | reflexivity].
    Qed.
    Lemma k_run_user A id (m : uclass P -> M (val * pR P) A) : keeps sd (run_user P id m).
    Proof.
      intros w. unfold run_user, at_em. destruct (get_em id w) as [e|] eqn:Ee; [|apply seeds_refl]. destruct e; try apply seeds_refl.
      match goal with |- context [m c (own, ?g)] => destruct (m c (own, g)) as [r [own' rg]] end.
      eapply seeds_put; [exact Ee|]. repeat split. intros _. destruct nd; reflexivity.
    Qed.
    Lemma s_bound id f : urel (since sd w0) (bound P id f) (bound P id f).
    Proof. split; [reflexivity|]. split; intros; [apply rel_lift | apply rel_kept, k_run_rng]. Qed.
    Lemma k_reset_rng id : keeps sd (reset_rng P id).
    Proof.
      intros w. unfold reset_rng. revert w. intros w.
      match goal with |- sd w (snd (?m w)) => enough (X : keeps sd m) by apply X end.
      apply k_bind; [|intros _; apply k_use]. apply k_modify. intros e. destruct (node_of P e) as [nd|] eqn:En; [|apply esame_refl].
      eapply esame_with; [exact En | reflexivity].
    Qed.

    (** What a reset of [i] may give another seed. *)
    Definition covers (i : nat) : Prop :=
      forall e k j, get_em i w0 = Some e -> In k (children P e) -> belongs w0 k j -> D j.
    Definition covered (k : nat) : Prop := forall j, belongs w0 k j -> D j.

    Lemma kids_same w i e : sd w0 w -> get_em i w = Some e -> exists e0, get_em i w0 = Some e0 /\ children P e0 = children P e /\ is_choice e0 = is_choice e.
    Proof.
      intros [H _] E. specialize (H i). rewrite E in H. destruct (get_em i w0) as [e0|]; [|contradiction].
      destruct H as (C & I & _). eauto.
    Qed.
    Lemma covered_covers k : covered k -> covers k.
    Proof. intros H e k' j E Hk Hb. apply H. eapply belongs_part; eauto. Qed.
    Lemma covers_child i e k : covers i -> get_em i w0 = Some e -> In k (children P e) -> covered k.
    Proof. intros H E Hk j Hb. eapply H; eauto. Qed.

    Lemma s_seed_children s kids : (forall k, In k kids -> covered k) -> rel (seed_children P s kids) (seed_children P s kids).
    Proof.
      intros H. apply rel_setattr; [intros o _ s1 s2 [<- _]; reflexivity|].
      intros o Ho. apply in_map_iff in Ho as (k & [= ->] & Hk). apply rel_kept, k_modify. intros e.
      destruct (node_of P e) as [nd|] eqn:En; [|apply esame_refl]. eapply esame_with; [exact En|].
      intros N. destruct N. apply (H o Hk). apply belongs_self.
    Qed.
    Lemma s_reset_children (r : nat -> M world unit) kids : (forall k, In k kids -> rel (r k) (r k)) ->
      rel (reset_children P r kids) (reset_children P r kids).
    Proof.
      intros H. apply rel_do_method. intros o Ho s1 s2 _. apply in_map_iff in Ho as (k & [= ->] & Hk). apply H, Hk.
    Qed.
    Lemma s_mixin_reset (r : nat -> M world unit) own s kids :
      (forall k, In k kids -> covered k) -> (forall k, covered k -> rel (r k) (r k)) -> rel own own ->
      rel (mixin_reset P r own s kids) (mixin_reset P r own s kids).
    Proof.
      intros Hk Hr Ho. apply rel_bind; [apply s_seed_children, Hk|]. intros _. apply rel_bind; [exact Ho|]. intros _.
      apply s_reset_children. auto.
    Qed.

    Lemma s_reset d : forall i, covers i -> rel (ereset P fuel d i) (ereset P fuel d i).
    Proof.
      induction d as [|d IH]; intros i Hc; cbn [ereset]; [apply rel_diverge|].
      apply s_at. intros w e Hw He. destruct (kids_same w i e Hw He) as (e0 & E0 & Ck & _).
      assert (Kids : forall k, In k (children P e) -> covered k).
      { intros k Hk. rewrite <- Ck in Hk. eapply covers_child; eauto. }
      assert (Rk : forall k, covered k -> rel (ereset P fuel d k) (ereset P fuel d k)) by (intros k H; apply IH, covered_covers, H).
      destruct e; try apply rel_ret.
      - apply rel_kept, k_run_iter.
      - apply rel_kept, k_run_seq.
      - apply rel_since. intros w1 _.
        match goal with |- sd w1 (snd (?m w1)) => enough (X : keeps sd m) by apply X end.
        apply k_bind; [|intros _; apply k_use]. apply k_run_choice. intros _ c1. apply ss_reset.
      - apply rel_bind; [apply s_mixin_reset; auto; apply rel_kept, k_reset_rng|]. intros _.
        apply rel_bind; [apply s_seed_children; auto|]. intros _. apply s_reset_children; auto.
      - apply rel_bind; [apply s_mixin_reset; auto; apply rel_kept, k_reset_rng|]. intros _.
        apply rel_bind; [apply s_seed_children; auto|]. intros _. apply s_reset_children; auto.
      - apply s_mixin_reset; auto; apply rel_kept, k_reset_rng.
      - apply s_mixin_reset; auto; apply rel_kept, k_reset_rng.
      - apply rel_kept, k_reset_rng.
      - apply rel_bind; [destruct nd; [apply rel_kept, k_reset_rng | apply rel_ret]|]. intros _. apply rel_kept, k_run_user.
    Qed.

    Lemma s_seed_all (r : nat -> M world unit) kids : (forall k, In k kids -> rel (r k) (r k)) ->
      rel (seed_all P r kids) (seed_all P r kids).
    Proof.
      intros H. apply rel_do_method. intros o Ho s1 s2 [<- _]. apply in_map_iff in Ho as (k & [= ->] & Hk).
      destruct (has_seed P o s1); [apply H, Hk | exact I].
    Qed.
    Lemma k_seed_own id s : D id -> keeps sd (seed_own P id s).
    Proof.
      intros Hd w. unfold seed_own. match goal with |- sd w (snd (?m w)) => enough (X : keeps sd m) by apply X end.
      apply k_bind; [|intros _; apply k_use]. apply k_modify. intros e. destruct (node_of P e) as [nd|] eqn:En; [|apply esame_refl].
      eapply esame_with; [exact En | intros N; contradiction].
    Qed.
    Lemma s_mixin_seed (r : nat -> M world unit) own kids : (forall k, In k kids -> rel (r k) (r k)) -> rel own own ->
      rel (mixin_seed P r own kids) (mixin_seed P r own kids).
    Proof. intros H Ho. apply rel_bind; [apply s_seed_all, H|]. intros _. apply rel_catch, Ho. Qed.
    Lemma s_seed d s : forall i, covered i -> rel (eseed P fuel d s i) (eseed P fuel d s i).
    Proof.
      induction d as [|d IH]; intros i Hc; cbn [eseed]; [apply rel_diverge|].
      assert (Di : D i) by (apply Hc, belongs_self).
      apply s_at. intros w e Hw He. destruct (kids_same w i e Hw He) as (e0 & E0 & Ck & _).
      assert (Kids : forall k, In k (children P e) -> rel (eseed P fuel d s k) (eseed P fuel d s k)).
      { intros k Hk. rewrite <- Ck in Hk. apply IH. intros j Hj. apply Hc. eapply belongs_part; eauto. }
      destruct e; try apply rel_raise.
      - apply rel_since. intros w1 _.
        match goal with |- sd w1 (snd (?m w1)) => enough (X : keeps sd m) by apply X end.
        apply k_bind; [|intros _; apply k_use]. apply k_run_choice. intros N; contradiction.
      - apply rel_bind; [apply s_mixin_seed; auto; apply rel_kept, k_seed_own, Di|]. intros _. apply s_seed_all; auto.
      - apply rel_bind; [apply s_mixin_seed; auto; apply rel_kept, k_seed_own, Di|]. intros _. apply s_seed_all; auto.
      - apply s_mixin_seed; auto; apply rel_kept, k_seed_own, Di.
      - apply s_mixin_seed; auto; apply rel_kept, k_seed_own, Di.
      - apply rel_kept, k_seed_own, Di.
      - destruct nd; [apply rel_kept, k_seed_own, Di | apply rel_raise].
    Qed.

    (** Emitting changes no seeds at all. *)
    Lemma choice_emit_seed c : c_seed c = c_seed (snd (choice_emit P val_setsize fuel c)).
    Proof.
      rewrite <- (snd_ret1 _ _ (choice_emit P val_setsize fuel) c).
      destruct (do_ask P val_setsize fuel ChoiceRun.Emit c) as [o c'] eqn:E. destruct (ask_state _ _ _ _ _ _ _ E) as [F1 _].
      cbn [do_ask] in E. rewrite E. symmetry. apply F1.
    Qed.
    Lemma choice_emit_many_seed n c : c_seed c = c_seed (snd (choice_emit_many P val_setsize fuel n c)).
    Proof.
      destruct (do_ask P val_setsize fuel (EmitMany n) c) as [o c'] eqn:E. destruct (ask_state _ _ _ _ _ _ _ E) as [F1 _].
      cbn [do_ask] in E. rewrite E. symmetry. apply F1.
    Qed.

    Lemma s_text nw wc d wd sc n : (forall n, rel (nw n) (nw n)) -> (forall n, rel (wc n) (wc n)) -> (forall n, rel (sc n) (sc n)) ->
      rel (text_emit_many nw wc (ereset P fuel d wd) (word_unique P wd) sc n)
          (text_emit_many nw wc (ereset P fuel d wd) (word_unique P wd) sc n).
    Proof.
      intros Hn Hw Hs.
      assert (Wu : forall s1 s2, since sd w0 s1 s2 -> word_unique P wd s1 = word_unique P wd s2) by (intros s1 s2 [<- _]; reflexivity).
      destruct (get_em wd w0) as [e|] eqn:E.
      1: destruct (is_choice e) eqn:Ic.
      { apply rel_text_emit_many; auto. apply s_reset. intros e' k j E' Hk. rewrite E in E'. injection E' as <-.
        destruct e; discriminate Ic || destruct Hk. }
      all: assert (X : forall s, sd w0 s -> word_unique P wd s = Ok None).
      1,3: intros s [Hq _]; specialize (Hq wd); rewrite E in Hq; unfold word_unique; destruct (get_em wd s) as [e'|]; try contradiction; try reflexivity;
        destruct Hq as (_ & Ie & _); rewrite Ic in Ie; destruct e'; discriminate Ie || reflexivity.
      all: assert (Y : rel (text_emit_many nw wc (ret tt) (word_unique P wd) sc n) (text_emit_many nw wc (ret tt) (word_unique P wd) sc n))
        by (apply rel_text_emit_many; auto; apply rel_ret).
      all: intros s1 s2 H; destruct (Y s1 s2 H) as [Y1 Y2]; destruct H as [<- H].
      all: rewrite (text_no_reset (sd w0) nw wc (ereset P fuel d wd) (ret tt) (word_unique P wd) sc n X); auto.
      all: intros k s Q; destruct (Hn k s s (conj eq_refl Q)) as [_ [_ Z]]; exact Z.
    Qed.

    Lemma s_emits d :
      (forall id, rel (fst (emits P fuel str_of d) id) (fst (emits P fuel str_of d) id)) /\
      (forall id n, rel (snd (emits P fuel str_of d) id n) (snd (emits P fuel str_of d) id n)).
    Proof.
      induction d as [|d [IH1 IH2]]; [split; intros; apply rel_diverge|].
      assert (IHn : forall id n, rel (call_number (fst (emits P fuel str_of d) id) (snd (emits P fuel str_of d) id) n)
                                        (call_number (fst (emits P fuel str_of d) id) (snd (emits P fuel str_of d) id) n)).
      { intros id n. apply rel_call_number; auto. }
      assert (Srcs : forall srcs : list (string * nat), Forall2 (srel (since sd w0))
           (map (fun ks => (fst ks, (fst (emits P fuel str_of d) (snd ks),
                  call_number (fst (emits P fuel str_of d) (snd ks)) (snd (emits P fuel str_of d) (snd ks))))) srcs)
           (map (fun ks => (fst ks, (fst (emits P fuel str_of d) (snd ks),
                  call_number (fst (emits P fuel str_of d) (snd ks)) (snd (emits P fuel str_of d) (snd ks))))) srcs)).
      { induction srcs as [|[k i] t IHt]; cbn [map]; constructor; [|exact IHt]. split; [reflexivity|]. cbn. auto. }
      assert (Src1 : forall fs s1 s2, since sd w0 s1 s2 -> based_source P fs s1 = based_source P fs s2) by (intros fs s1 s2 [<- _]; reflexivity).
      split; intros id; [|intros n]; cbn [emits fst snd]; apply s_at; intros w e Hw He; destruct e.
      - apply rel_lift.
      - apply rel_kept, k_run_iter.
      - apply rel_kept, k_run_seq.
      - apply rel_kept, k_run_choice. intros _. apply choice_emit_seed.
      - apply rel_word_emit; auto.
      - apply rel_bind; [apply s_text; auto | intros l; apply rel_lift].
      - apply rel_wrapone_emit; auto using s_bound.
      - apply rel_wrapmany_emit; auto using s_bound.
      - apply rel_pure. intros s1 s2 [<- _]. reflexivity.
      - apply rel_based_emit; auto using s_bound.
      - apply rel_kept, k_run_user.
      - apply rel_lift.
      - apply rel_kept, k_run_iter.
      - apply rel_kept, k_run_seq.
      - apply rel_kept, k_run_choice. intros _. apply choice_emit_many_seed.
      - apply rel_word_emit_many; auto.
      - apply s_text; auto.
      - apply rel_wrapone_emit_many; auto using s_bound.
      - apply rel_wrapmany_emit_many; auto using s_bound.
      - apply rel_repeat_emit, rel_pure. intros s1 s2 [<- _]. reflexivity.
      - apply rel_repeat_emit, rel_based_emit; auto using s_bound.
      - apply rel_kept, k_run_user.
    Qed.
    Lemma s_call id : rel (em_call P fuel str_of id) (em_call P fuel str_of id).
    Proof. apply s_emits. Qed.
    Lemma s_call_n id n : rel (em_call_n P fuel str_of id n) (em_call_n P fuel str_of id n).
    Proof. apply rel_call_number; apply s_emits. Qed.

    (** Fields *)
    Definition fcovered (f : nat) : Prop := forall x p j, get_fd f w0 = Some x -> In p (parts P x) -> belongs w0 p j -> D j.
    Lemma parts_same w f x : sd w0 w -> get_fd f w = Some x -> exists x0, get_fd f w0 = Some x0 /\ parts P x0 = parts P x.
    Proof.
      intros [_ H] E. specialize (H f). rewrite E in H. destruct (get_fd f w0) as [e0|]; [|contradiction].
      destruct H as (C & _). eauto.
    Qed.
    Lemma s_fd_call f : rel (fd_call P fuel str_of f) (fd_call P fuel str_of f).
    Proof.
      apply s_at_fd. intros w x _ _. apply rel_field_call; try apply s_call; [intros; apply s_call_n|].
      intros v. apply rel_kept, k_modify_fd. intros y. repeat split.
    Qed.
    Lemma s_fd_reset f : fcovered f -> rel (fd_reset P fuel f) (fd_reset P fuel f).
    Proof.
      intros H. apply s_at_fd. intros w x Hw Hx. destruct (parts_same w f x Hw Hx) as (x0 & E0 & Pp).
      apply rel_bind; [apply s_mixin_reset|].
      - intros k Hk j Hj. rewrite <- Pp in Hk. eapply H; eauto.
      - intros k Hk. apply s_reset, covered_covers, Hk.
      - apply rel_kept, k_modify_fd. intros y. repeat split.
      - intros _. apply rel_kept, k_modify_fd. intros y. repeat split.
    Qed.
    Lemma s_fd_seed f s : F f -> fcovered f -> rel (fd_seed P fuel f s) (fd_seed P fuel f s).
    Proof.
      intros Hf H. apply s_at_fd. intros w x Hw Hx. destruct (parts_same w f x Hw Hx) as (x0 & E0 & Pp).
      apply s_mixin_seed.
      - intros k Hk. apply s_seed. intros j Hj. rewrite <- Pp in Hk. eapply H; eauto.
      - apply rel_kept, k_modify_fd. intros y. split; [reflexivity | intros N; contradiction].
    Qed.
    Lemma s_fields_reset fs : (forall f, In f fs -> fcovered f) ->
      rel (group_do_method (fun f _ => Some (fd_reset P fuel f)) (map Some fs)) (group_do_method (fun f _ => Some (fd_reset P fuel f)) (map Some fs)).
    Proof. intros H. apply rel_do_method. intros o Ho s1 s2 _. apply in_map_iff in Ho as (k & [= ->] & Hk). apply s_fd_reset, H, Hk. Qed.
    Lemma s_fields_seed fs s : (forall f, In f fs -> F f /\ fcovered f) ->
      rel (group_do_method (fun f _ => Some (fd_seed P fuel f s)) (map Some fs)) (group_do_method (fun f _ => Some (fd_seed P fuel f s)) (map Some fs)).
    Proof. intros H. apply rel_do_method. intros o Ho s1 s2 _. apply in_map_iff in Ho as (k & [= ->] & Hk). apply s_fd_seed; apply H, Hk. Qed.

    (** Assigning a function *)
    Lemma k_install id f : keeps sd (install P id f).
    Proof. apply k_modify. intros []; repeat split. Qed.
    Lemma s_set_function id f : covers id -> rel (set_function P fuel str_of id f) (set_function P fuel str_of id f).
    Proof.
      intros Hc. assert (R : rel (em_reset P fuel id) (em_reset P fuel id)) by (apply s_reset, Hc).
      assert (I' : rel (install P id f) (install P id f)) by apply rel_kept, k_install.
      apply s_at. intros w e _ _. destruct e; try apply rel_raise.
      - apply rel_wrapone_set; auto using s_bound, s_call.
      - apply rel_wrapmany_set; auto using s_bound.
        induction sources as [|[k j] t IH]; cbn [map]; constructor; [|exact IH].
        split; [reflexivity|]. cbn. split; [apply s_call | intros n; apply s_call_n].
      - intros s1 s2 H. destruct H as [<- H].
        assert (X : rel (based_set (map (fun x => (name_of P x s1, fd_call P fuel str_of x)) source) (fun _ => install P id f) (em_reset P fuel id) (bound P id f))
          (based_set (map (fun x => (name_of P x s1, fd_call P fuel str_of x)) source) (fun _ => install P id f) (em_reset P fuel id) (bound P id f))).
        { apply rel_based_set; auto using s_bound.
          induction source as [|j t IH]; cbn [map]; constructor; [|exact IH]. split; [reflexivity | apply s_fd_call]. }
        apply X. split; auto.
    Qed.
    Lemma k_em_set id s : keeps sd (em_set P fuel id s).
    Proof.
      intros w. unfold em_set, at_em. destruct (get_em id w) as [e|] eqn:E; [|apply seeds_refl].
      match goal with |- sd w (snd (?m w)) => enough (X : keeps sd m) by apply X end.
      destruct e, s as [v|fa|ra|st]; try (intros ?; apply seeds_refl); auto using k_run_iter, k_run_seq.
      - apply k_modify. intros []; repeat split.
      - apply k_bind; [apply k_run_seq|]. intros _. apply k_modify. intros []; repeat split.
      - destruct st; apply k_run_choice; intros _; [apply ss_weights | apply ss_weights | apply ss_replace | apply ss_roac].
    Qed.
  End Fix.
End Keep.
