(** * Emitters that are parts of themselves; depth; replaced children. *)
From Coq Require Import String ListDec.
From Verif Require Import Base Prims Values MathModel ChoiceModel ChoiceRun FixedModel GroupModel
  SigModel SigProofs WrapModel TextModel FieldModel World Rel WorldProofs Agree WorldSpec WorldReset WorldSeed Histories
  WorldBuild Prop_Construct ObjectSpec ChildModel.
Open Scope list_scope.
Open Scope Z_scope.

Section Loops.
  Context {P : prims} (fuel : nat) (str_of : val -> res (list Z)).
  Hypothesis score_quiet : forall u w, noattr (k_score P u w).
  Notation world := (World.world P).
  Notation emitter := (World.emitter P).
  Notation get_em := (World.get_em P).
  Notation children := (World.children P).
  Notation belongs := (WorldSpec.belongs P).
  Notation ereset := (World.ereset P fuel).
  Notation eseed := (World.eseed P fuel).
  Notation emits := (World.emits P fuel str_of).

  (** ** Computations that keep the configuration *)
  Definition keeps {A} (m : M world A) : Prop := forall u, wconf u (snd (m u)).
  Definition everything (u : world) := agree true (fun _ => True) (fun _ => True) (fun _ => True) (fun _ => True) u u.
  Lemma keeps_rel A (m : M world A) : (forall u, Rel.rel (everything u) m m) -> keeps m.
  Proof. intros H u. apply (H u u u). apply agree_self, closed_all. Qed.
  Lemma keeps_bind A B (m : M world A) (k : A -> M world B) : keeps m -> (forall a, keeps (k a)) -> keeps (mbind m k).
  Proof.
    intros Hm Hk u. specialize (Hm u). unfold mbind. destruct (m u) as [[a|e|] u1]; cbn [snd] in *; auto.
    eapply wconf_trans; [exact Hm | apply Hk].
  Qed.
  Lemma keeps_ret A (a : A) : keeps (ret a).
  Proof. intros u. apply wconf_refl. Qed.
  Lemma keeps_lift A (r : res A) : keeps (lift r).
  Proof. intros u. apply wconf_refl. Qed.
  Lemma keeps_mapS A B (f : A -> M world B) l : (forall a, In a l -> keeps (f a)) -> keeps (mapS f l).
  Proof.
    induction l as [|a t IH]; intros H; cbn; [apply keeps_ret|]. apply keeps_bind; [apply H; left; reflexivity|].
    intros b. apply keeps_bind; [apply IH; intros x Hx; apply H; right; exact Hx | intros; apply keeps_ret].
  Qed.
  Lemma keeps_reset d k : keeps (ereset d k).
  Proof. apply keeps_rel. intros u. apply rel_ereset; [apply deep_same | exact I]. Qed.
  Lemma keeps_seed d s k : keeps (eseed d s k).
  Proof. apply keeps_rel. intros u. apply rel_eseed; [exact I | apply deep_same | exact I]. Qed.
  Lemma keeps_emit d k : keeps (fst (emits d) k).
  Proof. apply keeps_rel. intros u. apply rel_emits; [apply deep_same | exact I]. Qed.
  Lemma keeps_many d k n : keeps (snd (emits d) k n).
  Proof. apply keeps_rel. intros u. apply rel_emits; [apply deep_same | exact I]. Qed.
  Lemma keeps_calln d k n : keeps (calln_at P fuel str_of d k n).
  Proof.
    unfold calln_at, call_number. destruct (n =? 1); [|apply keeps_many].
    apply keeps_bind; [apply keeps_emit | intros; apply keeps_ret].
  Qed.

  (** ** Computations that do not come to an end *)
  Section Base.
    Context (w0 : world).
    Definition dead {A} (m : M world A) : Prop := forall u, wconf w0 u -> match fst (m u) with Ok _ => False | _ => True end.
    Lemma dead_l A B (m : M world A) (k : A -> M world B) : dead m -> dead (mbind m k).
    Proof. intros H u C. specialize (H u C). unfold mbind. destruct (m u) as [[a|e|] u1]; cbn in *; auto. destruct H. Qed.
    Lemma dead_r A B (m : M world A) (k : A -> M world B) : keeps m -> (forall a, dead (k a)) -> dead (mbind m k).
    Proof.
      intros Hm Hk u C. specialize (Hm u). unfold mbind. destruct (m u) as [[a|e|] u1]; cbn [fst snd] in *; auto.
      apply Hk. eapply wconf_trans; eauto.
    Qed.
    Lemma dead_mapS A B (f : A -> M world B) l a : In a l -> (forall x, In x l -> keeps (f x)) -> dead (f a) -> dead (mapS f l).
    Proof.
      induction l as [|x t IH]; intros Hi Hk Hd; [destruct Hi|]. cbn. destruct Hi as [<-|Hi]; [apply dead_l, Hd|].
      apply dead_r; [apply Hk; left; reflexivity|]. intros b. apply dead_l, IH; auto. intros y Hy. apply Hk. right. exact Hy.
    Qed.
    Lemma dead_number A (m : M world A) (mn : Z -> M world (list A)) n : dead m -> dead (mn n) -> dead (call_number m mn n).
    Proof. intros H Hn. unfold call_number. destruct (n =? 1); [apply dead_l, H | exact Hn]. Qed.
    Lemma dead_call_val (m : M world val) (mn : Z -> M world (list val)) v : dead m -> (forall n, dead (mn n)) -> dead (call_val m mn v).
    Proof.
      intros H Hn. unfold call_val. destruct v; try exact H; (apply dead_r; [apply keeps_lift|]; intros num; apply dead_l, Hn).
    Qed.

    (** [i] is a part of itself, and [j] is or contains [i]. *)
    Definition inside_out (w : world) (i : nat) : Prop :=
      exists e k, get_em i w = Some e /\ In k (children e) /\ belongs w k i.
    Definition looping (j : nat) : Prop := exists i, belongs w0 j i /\ inside_out w0 i.
    Lemma loop_kid j : looping j -> exists e k, get_em j w0 = Some e /\ In k (children e) /\ looping k.
    Proof.
      intros (i & B & L). pose proof L as (e0 & k0 & E0 & H0 & B0). inversion B as [|? e k ? E Hk B']; subst.
      - exists e0, k0. split; [exact E0|]. split; [exact H0|]. exists i. auto.
      - exists e, k. split; [exact E|]. split; [exact Hk|]. exists i. auto.
    Qed.
    Lemma loop_at j u : wconf w0 u -> looping j -> exists e k, get_em j u = Some e /\ In k (children e) /\ looping k.
    Proof.
      intros [C _] L. destruct (loop_kid j L) as (e & k & E & Hk & Lk). specialize (C j). rewrite E in C.
      destruct (get_em j u) as [e'|]; [|contradiction]. exists e', k. split; [reflexivity|]. split; [|exact Lk].
      cbn in C. rewrite <- (conf_children _ _ C). exact Hk.
    Qed.

    Lemma dead_here A j (k : emitter -> M world A) :
      (forall u e kid, wconf w0 u -> get_em j u = Some e -> In kid (children e) -> looping kid ->
         match fst (k e u) with Ok _ => False | _ => True end) ->
      looping j -> dead (at_em P j k).
    Proof.
      intros H L u C. destruct (loop_at j u C L) as (e & kid & E & Hk & Lk). unfold at_em. rewrite E. eapply H; eauto.
    Qed.

    Lemma dead_words u0 d wd total : looping wd -> (forall n, dead (calln_at P fuel str_of d wd n)) -> wconf w0 u0 ->
      match fst (get_words_iterator (calln_at P fuel str_of d wd) (word_unique P wd) total u0) with Ok _ => False | _ => True end.
    Proof.
      intros L Hn C. destruct (loop_at wd u0 C L) as (e & k & E & Hk & _). unfold get_words_iterator.
      assert (Q : word_unique P wd u0 = Ok None) by (unfold word_unique; rewrite E; destruct e; auto; destruct Hk).
      rewrite Q. exact (dead_l _ _ _ _ (Hn total) u0 C).
    Qed.
    Lemma keeps_words d wd total : keeps (get_words_iterator (calln_at P fuel str_of d wd) (word_unique P wd) total).
    Proof.
      intros u. unfold get_words_iterator.
      assert (K : wconf u (snd ((l <~ calln_at P fuel str_of d wd total ;; ret (WList l)) u))).
      { apply (keeps_bind _ _ (calln_at P fuel str_of d wd total) (fun l => ret (WList l))); [apply keeps_calln | intros; apply keeps_ret]. }
      destruct (word_unique P wd u) as [[n|]|e|]; try apply wconf_refl; [|exact K].
      destruct (negb (n =? 0) && (n <? total))%bool; [apply wconf_refl | exact K].
    Qed.

    Theorem dead_emits d : forall j, looping j ->
      dead (fst (emits d) j) /\ forall n, dead (snd (emits d) j n).
    Proof.
      induction d as [|d IH]; intros j L; [split; [|intros n]; intros u _; exact I|].
      assert (IH1 : forall k, looping k -> dead (fst (emits d) k)) by (intros k Lk; apply IH, Lk).
      assert (IHn : forall k n, looping k -> dead (calln_at P fuel str_of d k n)) by (intros k n Lk; apply dead_number; apply IH, Lk).
      assert (Txt : forall n m wd sp, (looping m \/ looping wd \/ looping sp) ->
        dead (text_emit_many (calln_at P fuel str_of d m) (calln_at P fuel str_of d wd) (ereset d wd) (word_unique P wd) (calln_at P fuel str_of d sp) n)).
      { intros n m wd sp H. unfold text_emit_many. destruct H as [H|[H|H]].
        - apply dead_l, IHn, H.
        - apply dead_r; [apply keeps_calln|]. intros ls. apply dead_r; [apply keeps_lift|]. intros total. apply dead_l.
          intros u C. apply dead_words; auto.
        - apply dead_r; [apply keeps_calln|]. intros ls. apply dead_r; [apply keeps_lift|]. intros total.
          apply dead_r; [apply keeps_words|]. intros ws. apply dead_l, IHn, H. }
      split; [|intros n]; cbn [World.emits fst snd]; [unfold emit_body | unfold emit_many_body];
        apply dead_here; try exact L; intros u e kid C E Hk Lk; destruct e; cbn [World.children] in Hk; try (destruct Hk; fail).
      - assert (D : dead (word_emit (fst (emits d) length_em) (fst (emits d) alphabet_em) (calln_at P fuel str_of d alphabet_em))).
        { unfold word_emit. destruct Hk as [<-|[<-|[]]]; [apply dead_l, IH1, Lk|].
          apply dead_r; [apply keeps_emit|]. intros v. apply dead_l, dead_call_val; auto. }
        exact (D u C).
      - assert (D : dead (text_emit (calln_at P fuel str_of d numwords_em) (calln_at P fuel str_of d word_em) (ereset d word_em)
          (word_unique P word_em) (calln_at P fuel str_of d sep_em))).
        { unfold text_emit. apply dead_l, Txt. destruct Hk as [<-|[<-|[<-|[]]]]; auto. }
        exact (D u C).
      - destruct Hk as [<-|[]]. exact (dead_l _ _ _ _ (IH1 _ Lk) u C).
      - apply in_map_iff in Hk. destruct Hk as ([lb k] & Ek & Hi). cbn in Ek. subst k.
        assert (D : dead (call_sources (map (fun ks : string * nat => (fst ks, (fst (emits d) (snd ks), calln_at P fuel str_of d (snd ks)))) sources))).
        { unfold call_sources. apply (dead_mapS _ _ _ _ (lb, (fst (emits d) kid, calln_at P fuel str_of d kid))).
          - apply in_map_iff. exists (lb, kid). auto.
          - intros x Hx. apply in_map_iff in Hx. destruct Hx as (y & <- & _). cbn [fst snd].
            apply keeps_bind; [apply keeps_emit | intros; apply keeps_ret].
          - cbn [fst snd]. apply dead_l, IH1, Lk. }
        exact (dead_l _ _ _ _ D u C).
      - assert (D : dead (word_emit_many (calln_at P fuel str_of d length_em) (calln_at P fuel str_of d alphabet_em) n)).
        { unfold word_emit_many. destruct Hk as [<-|[<-|[]]]; [apply dead_l, IHn, Lk|].
          apply dead_r; [apply keeps_calln|]. intros v. apply dead_r; [apply keeps_lift|]. intros t. apply dead_l, IHn, Lk. }
        exact (D u C).
      - assert (D : dead (text_emit_many (calln_at P fuel str_of d numwords_em) (calln_at P fuel str_of d word_em) (ereset d word_em)
          (word_unique P word_em) (calln_at P fuel str_of d sep_em) n)).
        { apply Txt. destruct Hk as [<-|[<-|[<-|[]]]]; auto. }
        exact (D u C).
      - destruct Hk as [<-|[]]. exact (dead_l _ _ _ _ (IHn _ n Lk) u C).
      - apply in_map_iff in Hk. destruct Hk as ([lb k] & Ek & Hi). cbn in Ek. subst k.
        assert (D : dead (mapS (fun kc : string * (M world val * (Z -> M world (list val))) => vs <~ snd (snd kc) n ;; ret (fst kc, vs))
          (map (fun ks : string * nat => (fst ks, (fst (emits d) (snd ks), calln_at P fuel str_of d (snd ks)))) sources))).
        { apply (dead_mapS _ _ _ _ (lb, (fst (emits d) kid, calln_at P fuel str_of d kid))).
          - apply in_map_iff. exists (lb, kid). auto.
          - intros x Hx. apply in_map_iff in Hx. destruct Hx as (y & <- & _). cbn [fst snd].
            apply keeps_bind; [apply keeps_calln | intros; apply keeps_ret].
          - cbn [fst snd]. apply dead_l, IHn, Lk. }
        exact (dead_l _ _ _ _ D u C).
    Qed.

    (** *** reset and seed *)
    Lemma keeps_seed_children s kids : keeps (seed_children P s kids).
    Proof. apply keeps_rel. intros u. apply rel_seed_children; auto. Qed.
    Lemma keeps_reset_rng j : keeps (reset_rng P j).
    Proof. apply keeps_rel. intros u. apply rel_reset_rng; auto. Qed.
    Lemma dead_method (meth : nat -> world -> option (M world unit)) kids k :
      In k kids -> (forall x u m, meth x u = Some m -> wconf u (snd (m u))) ->
      (forall u, wconf w0 u -> exists m, meth k u = Some m /\ noattr (fst (m u)) /\ match fst (m u) with Ok _ => False | _ => True end) ->
      dead (group_do_method meth (map Some kids)).
    Proof.
      intros Hi Hk Hd. induction kids as [|x t IH]; [destruct Hi|]. cbn. destruct Hi as [->|Hi].
      - apply dead_l. intros u C. unfold catch_attribute_error. destruct (Hd u C) as (m & -> & N & Q).
        destruct (m u) as [[a|e|] u1]; cbn in *; auto. destruct e; auto. apply N. reflexivity.
      - apply dead_r; [|intros _; apply IH, Hi]. intros u. unfold catch_attribute_error. specialize (Hk x u).
        destruct (meth x u) as [m|]; [|apply wconf_refl]. specialize (Hk m eq_refl).
        destruct (m u) as [[a|e|] u1]; cbn in *; auto. destruct e; exact Hk.
    Qed.

    Theorem dead_reset d : forall j, looping j -> dead (ereset d j).
    Proof.
      induction d as [|d IH]; intros j L; [intros u _; exact I|]. cbn [World.ereset].
      apply dead_here; [|exact L]. intros u e kid C E Hk Lk.
      assert (Mix : forall s, dead (mixin_reset P (ereset d) (reset_rng P j) s (children e))).
      { intros s. unfold mixin_reset. apply dead_r; [apply keeps_seed_children|]. intros _.
        apply dead_r; [apply keeps_reset_rng|]. intros _. unfold reset_children.
        eapply dead_method; [exact Hk| |].
        - intros x v m [= <-]. apply keeps_reset.
        - intros v Cv. eexists. split; [reflexivity|]. split; [apply ereset_quiet; exact score_quiet | apply IH; assumption]. }
      destruct e; cbn [World.children] in Hk; try (destruct Hk; fail).
      - exact (dead_l _ _ _ _ (Mix _) u C).
      - exact (dead_l _ _ _ _ (Mix _) u C).
      - exact (Mix _ u C).
      - exact (Mix _ u C).
    Qed.

    Lemma loop_seed j u : wconf w0 u -> looping j -> has_seed P j u = true.
    Proof.
      intros C L. destruct (loop_at j u C L) as (e & k & E & Hk & _). unfold has_seed. rewrite E.
      destruct e; cbn in *; auto; destruct Hk.
    Qed.
    Theorem dead_seed d s : forall j, looping j -> dead (eseed d s j).
    Proof.
      induction d as [|d IH]; intros j L; [intros u _; exact I|]. cbn [World.eseed].
      apply dead_here; [|exact L]. intros u e kid C E Hk Lk.
      assert (Mix : dead (mixin_seed P (eseed d s) (seed_own P j s) (children e))).
      { unfold mixin_seed. apply dead_l. unfold seed_all. eapply dead_method; [exact Hk| |].
        - intros x v m. destruct (has_seed P x v); [|discriminate]. intros [= <-]. apply keeps_seed.
        - intros v Cv. rewrite (loop_seed kid v Cv Lk). eexists. split; [reflexivity|].
          split; [apply eseed_quiet; [exact score_quiet | apply loop_seed; assumption] | apply IH; assumption]. }
      destruct e; cbn [World.children] in Hk; try (destruct Hk; fail).
      - exact (dead_l _ _ _ _ Mix u C).
      - exact (dead_l _ _ _ _ Mix u C).
      - exact (Mix u C).
      - exact (Mix u C).
    Qed.
  End Base.
End Loops.

(** ** Either nested finitely deep, or containing something that is part of itself *)
Section Depth.
  Context {P : prims} (fuel : nat) (str_of : val -> res (list Z)).
  Notation world := (World.world P).
  Notation get_em := (World.get_em P).
  Notation children := (World.children P).
  Notation belongs := (WorldSpec.belongs P).

  Lemma nested_mono n : forall m w i, (n <= m)%nat -> nested n w i -> @nested P m w i.
  Proof.
    induction n as [|n IH]; intros m w i L H; destruct m as [|m]; try lia; cbn [nested] in *; auto;
      destruct (get_em i w) as [e|]; auto; intros k Hk.
    - rewrite H in Hk. destruct Hk.
    - apply IH; [lia | apply H, Hk].
  Qed.
  Lemma nested_not_looping n : forall w i, nested n w i -> ~ @looping P w i.
  Proof.
    induction n as [|n IH]; intros w i N L; destruct (loop_kid w i L) as (e & k & E & Hk & Lk); cbn [nested] in N; rewrite E in N.
    - rewrite N in Hk. destruct Hk.
    - exact (IH w k (N k Hk) Lk).
  Qed.

  (** A path: each is a child of the one before, and all exist. *)
  Fixpoint path (w : world) (l : list nat) : Prop :=
    match l with
    | [] => True
    | i :: t => exists e, get_em i w = Some e /\ path w t /\ match t with [] => True | k :: _ => In k (children e) end
    end.
  Lemma path_or_nested w n : forall i, nested n w i \/ exists t, length t = n /\ path w (i :: t).
  Proof.
    induction n as [|n IH]; intros i; cbn [nested]; destruct (get_em i w) as [e|] eqn:E; try (left; exact I).
    - right. exists []. cbn. split; [reflexivity|]. exists e. auto.
    - assert (X : forall ks, (forall k, In k ks -> nested n w k) \/ exists k t, In k ks /\ length t = n /\ path w (k :: t)).
      { induction ks as [|k ks IHk]; [left; intros k []|]. destruct (IH k) as [A|(t & Lt & Pt)].
        - destruct IHk as [B|(k' & t & Hk' & B)]; [left; intros x [<-|Hx]; auto | right; exists k', t; split; [right; exact Hk' | exact B]].
        - right. exists k, t. split; [left; reflexivity | auto]. }
      destruct (X (children e)) as [A|(k & t & Hk & Lt & Pt)]; [left; exact A|]. right. exists (k :: t).
      split; [cbn; congruence|]. exists e. auto.
  Qed.
  Lemma path_bound w l : path w l -> forall i, In i l -> (i < length (w_em P w))%nat.
  Proof.
    induction l as [|a t IH]; intros H i Hi; [destruct Hi|]. destruct H as (e & E & Pt & _). destruct Hi as [<-|Hi]; [|auto].
    unfold World.get_em in E. destruct (nth_error (w_em P w) a) eqn:Q; [|discriminate]. apply nth_error_Some. congruence.
  Qed.
  Lemma path_belongs w l : forall a t, path w (a :: l ++ t) -> match t with [] => True | b :: _ => belongs w a b end.
  Proof.
    induction l as [|k l IH]; intros a t H; destruct H as (e & E & Pt & Hk).
    - destruct t as [|b t]; [exact I|]. econstructor; [exact E | exact Hk | constructor].
    - specialize (IH k t Pt). destruct t as [|b t]; [exact I|]. econstructor; [exact E | exact Hk | exact IH].
  Qed.
  Lemma path_skip w l t : path w (l ++ t) -> path w t.
  Proof. induction l as [|a l IH]; [auto|]. intros (e & _ & Pt & _). auto. Qed.
  Lemma repeated (l : list nat) : NoDup l \/ exists a l1 l2 l3, l = l1 ++ a :: l2 ++ a :: l3.
  Proof.
    induction l as [|a t IH]; [left; constructor|]. destruct IH as [N|(b & l1 & l2 & l3 & ->)].
    - destruct (in_dec Nat.eq_dec a t) as [H|H]; [|left; constructor; assumption].
      apply in_split in H. destruct H as (l2 & l3 & ->). right. exists a, [], l2, l3. reflexivity.
    - right. exists b, (a :: l1), l2, l3. reflexivity.
  Qed.
  Theorem nested_or_looping w i : nested (length (w_em P w)) w i \/ @looping P w i.
  Proof.
    destruct (path_or_nested w (length (w_em P w)) i) as [N|(t & Lt & Pt)]; [left; exact N|]. right.
    destruct (repeated (i :: t)) as [N|(a & l1 & l2 & l3 & E)].
    - exfalso. assert (L : (length (i :: t) <= length (seq 0 (length (w_em P w))))%nat).
      { apply NoDup_incl_length; [exact N|]. intros x Hx. apply in_seq. pose proof (path_bound _ _ Pt x Hx). lia. }
      rewrite seq_length in L. cbn in L. lia.
    - exists a. rewrite E in Pt. split.
      + destruct l1 as [|b l1]; cbn in E; injection E as -> E; [constructor|].
        exact (path_belongs w l1 b (a :: l2 ++ a :: l3) Pt).
      + apply path_skip in Pt. destruct Pt as (e & Ee & Pt & Hk). destruct l2 as [|k l2].
        * exists e, a. split; [exact Ee|]. split; [exact Hk | constructor].
        * exists e, k. split; [exact Ee|]. split; [exact Hk|]. exact (path_belongs w l2 k (a :: l3) Pt).
  Qed.

  (** The recursion limit does not matter if it is not reached. *)
  Lemma deep_nested n d1 d2 (w : world) i : nested n w i -> (n < d1)%nat -> (n < d2)%nat -> deep w d1 d2 i.
  Proof. intros N H1 H2. left. right. exists n. auto. Qed.
  Theorem depth_reset n d1 d2 w i : nested n w i -> (n < d1)%nat -> (n < d2)%nat ->
    ereset P fuel d1 i w = ereset P fuel d2 i w.
  Proof. intros N H1 H2. apply same_effect. apply rel_ereset; [exact (deep_nested n d1 d2 w i N H1 H2) | exact I]. Qed.
  Theorem depth_seed n d1 d2 s w i : nested n w i -> (n < d1)%nat -> (n < d2)%nat ->
    eseed P fuel d1 s i w = eseed P fuel d2 s i w.
  Proof. intros N H1 H2. apply same_effect. apply rel_eseed; [exact I | exact (deep_nested n d1 d2 w i N H1 H2) | exact I]. Qed.
  Theorem depth_emit n d1 d2 w i : nested n w i -> (n < d1)%nat -> (n < d2)%nat ->
    fst (emits P fuel str_of d1) i w = fst (emits P fuel str_of d2) i w.
  Proof. intros N H1 H2. apply same_effect. apply rel_emits; [exact (deep_nested n d1 d2 w i N H1 H2) | exact I]. Qed.
  Theorem depth_calln n d1 d2 k w i : nested n w i -> (n < d1)%nat -> (n < d2)%nat ->
    calln_at P fuel str_of d1 i k w = calln_at P fuel str_of d2 i k w.
  Proof.
    intros N H1 H2. apply same_effect. unfold calln_at. apply rel_call_number; [|intros m];
      (apply rel_emits; [exact (deep_nested n d1 d2 w i N H1 H2) | exact I]).
  Qed.
End Depth.

(** ** Replacing children *)
Section Replacing.
  Context {P : prims} (fuel : nat) (str_of : val -> res (list Z)).
  Notation world := (World.world P).
  Notation emitter := (World.emitter P).
  Notation get_em := (World.get_em P).
  Notation belongs := (WorldSpec.belongs P).

  (** The configuration apart from the children *)
  Definition childless (e : emitter) : emitter :=
    match e with
    | EWord _ _ _ u nd => EWord P 0 0 u nd
    | EText _ _ _ _ u nd => EText P 0 0 0 u nd
    | EWrapOne _ _ f nd => EWrapOne P 0 f nd
    | EWrapMany _ _ f nd => EWrapMany P [] f nd
    | _ => e
    end.
  Definition kin (a b : emitter) : Prop := conf (childless a) (childless b).
  Lemma kin_refl a : kin a a.
  Proof. apply conf_refl. Qed.
  Lemma kin_sym a b : kin a b -> kin b a.
  Proof. apply conf_sym. Qed.
  Lemma kin_trans a b c : kin a b -> kin b c -> kin a c.
  Proof. apply conf_trans. Qed.
  Lemma conf_kin a b : conf a b -> kin a b.
  Proof. unfold kin. destruct a, b; cbn; try contradiction; intuition. Qed.
  Lemma kin_conf a b : kin a b -> child_map P a = child_map P b -> conf a b.
  Proof. unfold kin. destruct a, b; cbn; try contradiction; intros H E; auto; injection E; intuition. Qed.
  Lemma with_children_kin m e e' : with_children P m e = Some e' -> kin e e'.
  Proof.
    destruct e; cbn; try discriminate; try (intros [= <-]; unfold kin; cbn; auto; fail);
      repeat (destruct m as [|[? ?] m]; try discriminate); intros [= <-]; unfold kin; cbn; auto.
  Qed.
  Definition wkin (w w' : world) : Prop := forall j, orel kin (get_em j w) (get_em j w').
  Lemma wkin_refl w : wkin w w.
  Proof. intros j. apply orel_refl. apply kin_refl. Qed.
  Lemma wkin_trans a b c : wkin a b -> wkin b c -> wkin a c.
  Proof.
    intros H1 H2 j. specialize (H1 j). specialize (H2 j).
    destruct (get_em j a), (get_em j b), (get_em j c); cbn in *; try contradiction; auto. eapply kin_trans; eauto.
  Qed.
  Lemma wkin_sym a b : wkin a b -> wkin b a.
  Proof.
    intros H j. specialize (H j). destruct (get_em j a), (get_em j b); cbn in *; try contradiction; auto. apply kin_sym, H.
  Qed.
  Lemma wconf_kin a b : wconf a b -> wkin a b.
  Proof.
    intros [H _] j. specialize (H j). destruct (get_em j a), (get_em j b); cbn in *; try contradiction; auto. apply conf_kin, H.
  Qed.
  Lemma put_children_kin i m w : wkin w (snd (put_children P i m w)).
  Proof.
    unfold put_children, at_em. destruct (get_em i w) as [e|] eqn:E; [|apply wkin_refl].
    destruct (with_children P m e) as [e'|] eqn:W; [|apply wkin_refl]. cbn [snd]. intros j.
    destruct (Nat.eq_dec j i) as [->|N].
    - rewrite E, (get_put_same _ _ _ _ E). cbn. eapply with_children_kin; eauto.
    - rewrite (get_put_other _ _ _ _ N). apply orel_refl, kin_refl.
  Qed.
  Lemma set_child_kin i label k w : wkin w (snd (set_child P i label k w)).
  Proof.
    unfold set_child, at_em. destruct (get_em i w) as [e|]; [|apply wkin_refl].
    destruct (child_map P e); [apply put_children_kin | apply wkin_refl].
  Qed.
  Lemma del_child_kin i label w : wkin w (snd (del_child P i label w)).
  Proof.
    unfold del_child, at_em. destruct (get_em i w) as [e|]; [|apply wkin_refl].
    destruct (child_map P e) as [m|]; [|apply wkin_refl]. destruct (dict_del label m); [apply put_children_kin | apply wkin_refl].
  Qed.
  Lemma snd_done A (m : M world A) (k : A -> answer) w : snd ((a <~ m ;; ret (k a)) w) = snd (m w).
  Proof. unfold mbind, ret. destruct (m w) as [[a|e|] w']; reflexivity. Qed.
  Lemma perform_kin d a w : wkin w (snd (perform P fuel str_of d a w)).
  Proof.
    destruct a; cbn [perform]; rewrite snd_done.
    - apply wconf_kin, keeps_emit.
    - apply wconf_kin, keeps_calln.
    - apply wconf_kin, keeps_reset.
    - apply wconf_kin, keeps_seed.
    - apply wconf_kin. apply (keeps_rel _ (set_rng_seed P s i)). intros u. apply rel_set_rng_seed; exact I.
    - apply set_child_kin.
    - apply del_child_kin.
  Qed.
  Theorem acted_kin d l : forall w, wkin w (acted P fuel str_of d l w).
  Proof.
    unfold acted. induction l as [|a t IH]; intros w; cbn [acts]; [apply wkin_refl|].
    pose proof (perform_kin d a w) as H. destruct (perform P fuel str_of d a w) as [r w1]. specialize (IH w1).
    destruct (acts P fuel str_of d t w1) as [rs w2]. cbn [snd] in *. eapply wkin_trans; eauto.
  Qed.

  (** Acts on the parts of [i], without replacing anything *)
  Definition target (a : act P) : nat :=
    match a with
    | ACall _ i | ACallN _ i _ | AReset _ i | ASeed _ i _ | AAssign _ i _ | AReplace _ i _ _ | ARemove _ i _ => i
    end.
  Definition replaces (a : act P) : bool := match a with AReplace _ _ _ _ | ARemove _ _ _ => true | _ => false end.
  Definition act_seeds (sok : option (pSeed P) -> Prop) (a : act P) : Prop :=
    match a with ASeed _ _ s | AAssign _ _ s => sok s | _ => True end.

  Theorem rel_perform strict sok (D F K : nat -> Prop) (v1 v2 : world) d a : D (target a) -> replaces a = false -> act_seeds sok a ->
    rel (agree strict sok D F K v1 v2) (perform P fuel str_of d a) (perform P fuel str_of d a).
  Proof.
    intros Hd Hr Hs. destruct a; cbn in *; try discriminate; (apply rel_bind; [|intros; apply rel_ret]).
    - apply rel_emits; [apply deep_same | exact Hd].
    - apply rel_call_number; apply rel_emits; auto using deep_same.
    - apply rel_ereset; [apply deep_same | exact Hd].
    - apply rel_eseed; [exact Hs | apply deep_same | exact Hd].
    - apply rel_set_rng_seed; assumption.
  Qed.
  Theorem acts_agree strict sok (D F K : nat -> Prop) (v1 v2 : world) d l :
    Forall (fun a => D (target a) /\ replaces a = false /\ act_seeds sok a) l ->
    forall w1 w2, agree strict sok D F K v1 v2 w1 w2 ->
    fst (acts P fuel str_of d l w1) = fst (acts P fuel str_of d l w2) /\
    agree strict sok D F K v1 v2 (acted P fuel str_of d l w1) (acted P fuel str_of d l w2).
  Proof.
    unfold acted. induction 1 as [|a t (Ha & Hr & Hs) _ IH]; intros w1 w2 A; cbn [acts]; [split; [reflexivity | exact A]|].
    destruct (rel_perform strict sok D F K v1 v2 d a Ha Hr Hs w1 w2 A) as [E A'].
    destruct (perform P fuel str_of d a w1) as [r1 u1], (perform P fuel str_of d a w2) as [r2 u2]. cbn [fst snd] in *. subst r2.
    destruct (IH u1 u2 A') as [E' A'']. destruct (acts P fuel str_of d t u1) as [rs1 x1], (acts P fuel str_of d t u2) as [rs2 x2].
    cbn [fst snd] in *. split; [congruence | exact A''].
  Qed.
  Theorem acts_within d l (w : world) (D : nat -> Prop) : closed D (fun _ => False) w ->
    Forall (fun a => D (target a) /\ replaces a = false) l ->
    within D (fun _ => False) w (acted P fuel str_of d l w).
  Proof.
    intros C H. apply (acts_agree true (fun _ => True) D (fun _ => True) (fun _ => False) w w d l) with (w2 := w); [|apply agree_self, C].
    eapply Forall_impl; [|exact H]. intros a [H1 H2]. repeat split; auto. destruct a; exact I.
  Qed.
End Replacing.
