(** * num_unique_values of words and texts: property C71. *)
From Coq Require Import String Permutation.
From Verif Require Import Base Prims Values MathModel MathProofs NumLaws ChoiceModel ChoiceRun ChoiceProofs FixedModel FixedSpec GroupModel
  SigModel SigSpec SigProofs WrapModel WrapSpec TextModel TextSpec TextProofs FieldModel FieldSpec World Rel WorldProofs Agree
  WorldSpec WorldReset Histories WorldBuild BuildProofs CountSpec QcNum Demo WorldDemo Prop_World Prop_Construct ProgramSpec
  ObjectSpec ObjectProofs ObjectCalls Prop_Objects CallSpec EmitSpec Prop_Count Prop_Text Prop_Emits CacheProofs UniqueSpec.
Close Scope string_scope.
Open Scope list_scope.
Open Scope Z_scope.

(** ** Counting strings *)
Fixpoint new_keys (seen ks : list val) : list val :=
  match ks with
  | [] => []
  | k :: t => if existsb (val_eqb k) seen then new_keys seen t else k :: new_keys (k :: seen) t
  end.
Lemma new_keys_len ks : forall seen, zlen (new_keys seen ks) = count_new seen ks.
Proof.
  induction ks as [|k t IH]; intros seen; [reflexivity|]. cbn [new_keys count_new].
  destruct (existsb _ _); [apply IH|]. rewrite <- IH. unfold zlen. cbn [length]. lia.
Qed.
Lemma eqb_str s v : val_eqb (VStr s) v = true -> v = VStr s.
Proof.
  destruct v as [| | |t| | |]; try discriminate. intros H. f_equal. revert t H.
  induction s as [|a s IH]; intros [|b t] H; try reflexivity; try discriminate.
  cbn in H. apply andb_prop in H as [H1 H2]. apply Z.eqb_eq in H1. subst. f_equal. apply IH. exact H2.
Qed.
Lemma new_keys_in s ks : forall seen, In (VStr s) ks -> In (VStr s) seen \/ In (VStr s) (new_keys seen ks).
Proof.
  induction ks as [|k t IH]; intros seen H; [destruct H|]. cbn [new_keys].
  destruct (existsb (val_eqb k) seen) eqn:E.
  - destruct H as [->|H]; [|auto]. apply existsb_exists in E as (x & Hx & Ex). apply eqb_str in Ex. subst. auto.
  - destruct H as [->|H]; [right; now left|]. destruct (IH (k :: seen) H) as [[->|Q]|Q]; [right; now left | auto | right; now right].
Qed.
Lemma hash_keys_in s items : forall ks, hash_keys items = Some ks -> In (VStr s) items -> In (VStr s) ks.
Proof.
  induction items as [|v t IH]; intros ks H Hin; [destruct Hin|]. cbn in H.
  destruct (hash_key v) as [k|] eqn:Ek; [|discriminate]. destruct (hash_keys t) as [ks0|] eqn:Et; [|discriminate]. injection H as <-.
  destruct Hin as [->|Hin]; [injection Ek as <-; now left | right; auto].
Qed.
Lemma setsize_strings items n : val_setsize items = Ok n ->
  exists L, zlen L <= n /\ forall s, In (VStr s) items -> In (VStr s) L.
Proof.
  unfold val_setsize. destruct (hash_keys items) as [ks|] eqn:E; [|discriminate]. intros H. injection H as <-.
  exists (new_keys [] ks). rewrite new_keys_len. split; [lia|]. intros s Hs.
  destruct (new_keys_in s ks [] (hash_keys_in _ _ _ E Hs)) as [[]|Q]. exact Q.
Qed.

Lemma whole_slice {A} (l : list A) : list_slice l 0 (zlen l) = l.
Proof. rewrite list_slice_0 by (unfold zlen; lia). unfold zlen. rewrite Nat2Z.id. apply firstn_all. Qed.

(** ** The number of strings, by the settings *)
Section Unique.
  Context {P : prims} (fuel : nat) (str_of : val -> res (list Z)) (RO : rng_ok P).
  Context (score_quiet : forall u w, k_score P u w <> Raise AttributeError).
  Notation world := (World.world P).
  Notation emitter := (World.emitter P).
  Notation get_em := (World.get_em P).
  Notation settings_at := (ObjectSpec.settings_at P).
  Notation em_call := (World.em_call P fuel str_of).
  Notation em_call_n := (World.em_call_n P fuel str_of).
  Notation exec := (WorldBuild.exec P fuel str_of).
  Notation orderly := (CountSpec.orderly P fuel str_of).
  Notation can_emit := (EmitSpec.can_emit P str_of).
  Notation belongs := (WorldSpec.belongs P).

  (** A Static, Sequential or Choice that emits these items and nothing else. *)
  Definition has_items (w : world) (id : nat) (items : list val) : Prop :=
    (exists v, settings_at id w = Some (IsStatic v [v]) /\ items = [v]) \/
    (exists t b, settings_at id w = Some (IsSequential t items None b)) \/
    (exists t ws cs r o, settings_at id w = Some (IsChoice t items ws cs r o)).

  Inductive counts (w : world) : nat -> Z -> Prop :=
  | counts_items id items items' n : has_items w id items -> incl items items' -> val_setsize items' = Ok n -> counts w id n
  | counts_word id l a items zs n : settings_at id w = Some (IsWord l a) ->
      has_items w l items -> Forall2 int_value items zs -> Forall (fun z => 0 <= z) zs -> counts w a n ->
      counts w id (zsum (map (fun z => n ^ z) zs))
  | counts_text id m x s items zs n k : settings_at id w = Some (IsText m x s) ->
      has_items w m items -> Forall2 int_value items zs -> Forall (fun z => 1 <= z) zs ->
      counts w x n -> counts w s k ->
      counts w id (zsum (map (fun z => n ^ z * k ^ (z - 1)) zs)).

  (** The same settings for the emitter and what it is made of. *)
  Definition same_parts (w w' : world) (id : nat) : Prop := forall j, belongs w id j -> settings_at j w' = settings_at j w.
  Lemma children_settings (e e' : emitter) : settings_of P e = settings_of P e' -> children P e = children P e'.
  Proof. destruct e, e'; cbn; intros E; try discriminate; congruence. Qed.
  Lemma same_self w w' id : same_parts w w' id -> settings_at id w' = settings_at id w.
  Proof. intros H. apply H. constructor. Qed.
  Lemma same_child w w' id e k : same_parts w w' id -> get_em id w = Some e -> In k (children P e) -> same_parts w w' k.
  Proof. intros H E Hk j B. apply H. econstructor; eauto. Qed.
  Lemma same_word w w' id l a : settings_at id w = Some (IsWord l a) -> same_parts w w' id -> same_parts w w' l /\ same_parts w w' a.
  Proof.
    intros E H. apply settings_get in E as (e & E & Se). destruct e; try discriminate. injection Se as -> ->.
    split; eapply same_child; eauto; cbn; auto.
  Qed.
  Lemma same_text w w' id m x s : settings_at id w = Some (IsText m x s) -> same_parts w w' id ->
    same_parts w w' m /\ same_parts w w' x /\ same_parts w w' s.
  Proof.
    intros E H. apply settings_get in E as (e & E & Se). destruct e; try discriminate. injection Se as -> -> ->.
    repeat split; eapply same_child; eauto; cbn; auto.
  Qed.
  Lemma has_items_same w w' id items : same_parts w w' id -> has_items w id items -> has_items w' id items.
  Proof. intros S. unfold has_items. rewrite (same_self _ _ _ S). auto. Qed.

  Lemma counts_same w w' id n : counts w id n -> same_parts w w' id -> counts w' id n.
  Proof.
    induction 1 as [id items items' n Hi Hin Hn|id l a items zs n E Hi Hz Hp _ IH|id m x s items zs n k E Hi Hz Hp _ IH1 _ IH2]; intros S.
    - econstructor; eauto using has_items_same.
    - destruct (same_word _ _ _ _ _ E S) as [S1 S2]. assert (E' : settings_at id w' = Some (IsWord l a)) by (rewrite (same_self _ _ _ S); exact E).
      eapply counts_word; eauto using has_items_same.
    - destruct (same_text _ _ _ _ _ _ E S) as (S1 & S2 & S3).
      assert (E' : settings_at id w' = Some (IsText m x s)) by (rewrite (same_self _ _ _ S); exact E).
      eapply counts_text; eauto using has_items_same.
  Qed.

  Lemma emit_items w id items v : has_items w id items -> can_emit w id v -> In v items.
  Proof.
    intros [(x & E & ->)|[(t & b & E)|(t & ws & cs & r & o & E)]] H; inversion H; subst;
      match goal with G : settings_at id w = Some _ |- _ => rewrite E in G; try discriminate G; injection G; intros; subst; auto end.
    now left.
  Qed.
  Lemma spelled_str cs v : spelled cs v -> forall c, In c cs -> exists s, c = VStr s.
  Proof. intros (ss & -> & _) c Hc. apply in_map_iff in Hc as (s & <- & _). eauto. Qed.
  Lemma int_in items zs v n : Forall2 int_value items zs -> In v items -> int_value v n -> In n zs.
  Proof.
    induction 1 as [|x z xs zs Hx _ IH]; intros Hin Hv; [destruct Hin|]. destruct Hin as [->|Hin]; [left | right; auto].
    apply int_value_as in Hx, Hv. congruence.
  Qed.
  Lemma interleave_in c : forall ws seps, length ws = S (length seps) -> In c ws \/ In c seps -> In c (interleave ws seps).
  Proof.
    induction ws as [|a [|b ws] IH]; intros [|s seps] L H; try discriminate L; cbn [interleave].
    - destruct H as [H|[]]. exact H.
    - destruct H as [[->|H]|[->|H]]; [now left | | right; now left |]; right; right; apply IH; auto.
  Qed.
  Lemma not_none items zs : Forall2 int_value items zs -> In VNone items -> False.
  Proof.
    induction 1 as [|x z xs zs Hx _ IH]; intros Hin; [destruct Hin|]. destruct Hin as [->|Hin]; [|auto].
    apply int_value_as in Hx. discriminate.
  Qed.

  (** There is a list of at most that many strings such that all strings which the
      emitter can emit, whenever it has these settings, are in the list. *)
  Lemma counts_bound w id n : counts w id n ->
    exists L, zlen L <= n /\ forall w', same_parts w w' id -> forall s, can_emit w' id (VStr s) -> In (VStr s) L.
  Proof.
    induction 1 as [id items items' n Hi Hin Hn|id l a items zs n E Hi Hz Hp _ (L & HL & IH)
                   |id m x s0 items zs n k E Hi Hz Hp _ (L & HL & IH) _ (K & HK & IHK)].
    - destruct (setsize_strings _ _ Hn) as (L & HL & Q). exists L. split; [exact HL|]. intros w' S s H.
      apply Q, Hin. eapply emit_items; [eapply has_items_same; eauto | exact H].
    - exists (flat_map (fun z => map glue (tuples L (Z.to_nat z))) zs). split.
      + clear -Hp HL. induction Hp as [|z zs Hz _ IH]; [cbn; lia|].
        cbn [flat_map map zsum fold_right]. fold (zsum (map (fun z => n ^ z) zs)).
        unfold zlen in *. rewrite app_length, map_length.
        pose proof (tuples_len L (Z.to_nat z)) as Ht. unfold zlen in Ht. rewrite Z2Nat.id in Ht by easy.
        assert (Z.of_nat (length L) ^ z <= n ^ z) by (apply Z.pow_le_mono_l; lia). lia.
      + intros w' S s H. destruct (same_word _ _ _ _ _ E S) as [S1 S2].
        pose proof (same_self _ _ _ S) as E'. rewrite E in E'.
        pose proof (has_items_same _ _ _ _ S1 Hi) as Hi'.
        inversion H as [| | | | |? l0 a0 nv z chars ? G Hl Hv Hc Ha Hs|? l0 a0 ? G Hl Ha|? l0 a0 y cs ? G Hl Ha Hy Hs|? m0 x0 s1 nv z ws seps ? G| | | | | | |]; subst;
          try (match goal with Q : settings_at id w' = Some _ |- _ => rewrite E' in Q; discriminate Q end);
          rewrite E' in G; injection G as <- <-.
        * apply in_flat_map. exists (zlen chars). rewrite (spelled_glue _ _ Hs).
          split; [eapply int_in; eauto using emit_items|].
          apply in_map. unfold zlen. rewrite Nat2Z.id. apply tuples_all. intros c Hcin.
          destruct (spelled_str _ _ Hs c Hcin) as (t & ->). eapply IH; eauto.
        * destruct (not_none _ _ Hz). eapply emit_items; eauto.
        * destruct (not_none _ _ Hz). eapply emit_items; eauto.
    - exists (flat_map (fun z => map (fun p => glue (interleave (fst p) (snd p)))
                  (list_prod (tuples L (Z.to_nat z)) (tuples K (Z.to_nat (z - 1))))) zs). split.
      + clear -Hp HL HK. induction Hp as [|z zs Hz _ IH]; [cbn; lia|].
        cbn [flat_map map zsum fold_right]. fold (zsum (map (fun z => n ^ z * k ^ (z - 1)) zs)).
        unfold zlen in *. rewrite app_length, map_length, prod_length.
        pose proof (tuples_len L (Z.to_nat z)) as Ht. pose proof (tuples_len K (Z.to_nat (z - 1))) as Ht2.
        unfold zlen in Ht, Ht2. rewrite Z2Nat.id in Ht, Ht2 by lia. rewrite Nat2Z.inj_add, Nat2Z.inj_mul, Ht, Ht2.
        assert (Z.of_nat (length L) ^ z <= n ^ z) by (apply Z.pow_le_mono_l; lia).
        assert (Z.of_nat (length K) ^ (z - 1) <= k ^ (z - 1)) by (apply Z.pow_le_mono_l; lia).
        assert (Z.of_nat (length L) ^ z * Z.of_nat (length K) ^ (z - 1) <= n ^ z * k ^ (z - 1)).
        { apply Z.mul_le_mono_nonneg; auto; apply Z.pow_nonneg; lia. }
        lia.
      + intros w' S s H. destruct (same_text _ _ _ _ _ _ E S) as (S1 & S2 & S3).
        pose proof (same_self _ _ _ S) as E'. rewrite E in E'.
        pose proof (has_items_same _ _ _ _ S1 Hi) as Hi'.
        inversion H as [| | | | | | | |? m0 x0 s1 nv z ws seps ? G Hm Hv Hw Hsp Hx Hy Hs| | | | | | |]; subst;
          try (match goal with Q : settings_at id w' = Some _ |- _ => rewrite E' in Q; discriminate Q end).
        rewrite E' in G. injection G as <- <- <-.
        apply in_flat_map. exists (zlen ws). rewrite (spelled_glue _ _ Hs).
        split; [eapply int_in; eauto using emit_items|].
        apply (in_map (fun p => glue (interleave (fst p) (snd p))) _ (ws, seps)).
        assert (Hst : forall c, In c ws \/ In c seps -> exists t, c = VStr t).
        { intros c Hc. apply (spelled_str _ _ Hs). apply interleave_in; auto. unfold zlen in *. lia. }
        apply in_prod.
        * unfold zlen. rewrite Nat2Z.id. apply tuples_all. intros c Hcin. destruct (Hst c (or_introl Hcin)) as (t & ->). eapply IH; eauto.
        * replace (Z.to_nat (zlen ws - 1)) with (length seps) by (unfold zlen in *; lia).
          apply tuples_all. intros c Hcin. destruct (Hst c (or_intror Hcin)) as (t & ->). eapply IHK; eauto.
  Qed.
  Lemma counts_nonneg w id n : counts w id n -> 0 <= n.
  Proof. intros H. destruct (counts_bound _ _ _ H) as (L & HL & _). unfold zlen in HL. lia. Qed.

  (** ** What is calculated when a Word or Text is made *)
  Notation stored := (CacheProofs.stored).
  Context (D : nat -> Prop).
  Definition untouched (w : world) (j : nat) : Prop := forall k, belongs w j k -> ~ D k.
  Definition settled (w : world) : Prop :=
    (forall k e, ~ D k -> get_em k w = Some e -> plain e) /\
    (forall j n, stored j w = Some (Exactly n) -> untouched w j -> counts w j n).

  Lemma items_have w l items : (forall e, get_em l w = Some e -> plain e) -> items_list P l w = Some items -> has_items w l items /\ items <> [].
  Proof.
    unfold items_list, has_items, ObjectSpec.settings_at. destruct (get_em l w) as [e|]; [|discriminate]. intros Hp. specialize (Hp e eq_refl).
    destruct e; cbn in *; intros H; try discriminate; injection H as <-.
    - rewrite Hp. split; [|discriminate]. left. eauto.
    - destruct Hp as [-> Hne]. split; [|exact Hne]. right. left. eauto.
    - split; [|exact Hp]. right. right. eauto 6.
  Qed.

  (** Steps that leave everything alone to which nothing is assigned. *)
  Definition quietly (w w' : world) : Prop := forall k st, ~ D k -> settings_at k w = Some st -> settings_at k w' = Some st.
  Lemma belongs_back w w' j k : quietly w w' -> untouched w' j -> belongs w j k -> belongs w' j k.
  Proof.
    intros Q U B. induction B as [i|i e k j E Hk B IH]; [constructor|].
    assert (S : settings_at i w' = Some (settings_of P e)).
    { apply Q; [apply U; constructor|]. unfold ObjectSpec.settings_at. rewrite E. reflexivity. }
    apply settings_get in S as (e' & E' & Se).
    assert (Hk' : In k (children P e')) by (rewrite (children_settings _ _ Se); exact Hk).
    econstructor; [exact E' | exact Hk'|]. apply IH. intros q Bq. apply U. econstructor; eauto.
  Qed.
  Lemma same_later w w' j : quietly w w' -> untouched w' j -> (j < length (w_em P w))%nat ->
    (forall i e k, get_em i w = Some e -> In k (children P e) -> (k < length (w_em P w))%nat) ->
    same_parts w w' j /\ untouched w j.
  Proof.
    intros Q U L R.
    assert (U' : untouched w j) by (intros k B; apply U; eapply belongs_back; eauto).
    split; [|exact U']. intros k B.
    assert (Lk : (k < length (w_em P w))%nat).
    { clear -L B R. induction B; auto. apply IHB. eapply R; eauto. }
    destruct (settings_at k w) as [st|] eqn:Es; [apply Q; [apply U', B | exact Es]|].
    exfalso. unfold ObjectSpec.settings_at, World.get_em in Es. destruct (nth_error (w_em P w) k) eqn:En; [discriminate|].
    apply nth_error_None in En. lia.
  Qed.

  (** An emitter in [w'] whose number of values is known. *)
  Lemma known_counts w w' a n :
    settled w -> quietly w w' -> (forall i e k, get_em i w = Some e -> In k (children P e) -> (k < length (w_em P w))%nat) ->
    (forall k e, ~ D k -> get_em k w' = Some e -> plain e) ->
    stored a w' = None \/ stored a w' = stored a w ->
    (forall b c, get_em a w' = Some (EChoice P b c) -> c_replace c = false -> shuffled_ok P c) ->
    untouched w' a -> nuv_at P a w' = Ok (Exactly n) -> counts w' a n.
  Proof.
    intros [_ Sw] Q R Hp Hst Hch U H. unfold nuv_at in H. destruct (get_em a w') as [e|] eqn:E; [|discriminate].
    assert (Pe : plain e) by (eapply Hp; [apply U; constructor | exact E]).
    assert (St : settings_at a w' = Some (settings_of P e)) by (unfold ObjectSpec.settings_at; rewrite E; reflexivity).
    assert (Old : stored_of e = Some (Exactly n) -> counts w' a n).
    { intros Hs. assert (Hs' : stored a w' = Some (Exactly n)) by (unfold CacheProofs.stored; rewrite E; exact Hs).
      destruct Hst as [N|Eq]; [congruence|]. rewrite Hs' in Eq. symmetry in Eq.
      assert (La : (a < length (w_em P w))%nat).
      { unfold CacheProofs.stored, World.get_em in Eq. destruct (nth_error (w_em P w) a) eqn:En; [|discriminate]. apply nth_error_Some. congruence. }
      destruct (same_later w w' a Q U La R) as [S U']. eapply counts_same; [apply Sw; eauto | exact S]. }
    destruct e; cbn [nuv_of] in H; try discriminate.
    - apply bind_ok_inv in H as (m & Hm & H). injection H as <-. cbn in Pe, St. rewrite Pe in *.
      eapply counts_items; [left; exists (st_value s); split; [exact St | reflexivity] | apply incl_refl | exact Hm].
    - apply bind_ok_inv in H as (m & Hm & H). injection H as <-. cbn in Pe, St. destruct Pe as [Po _]. rewrite Po in St.
      eapply counts_items; [right; left; eauto | apply incl_refl | exact Hm].
    - apply bind_ok_inv in H as (m & Hm & H). injection H as <-. cbn in St.
      assert (Hi : has_items w' a (c_items c)) by (right; right; eauto 6).
      unfold num_unique_values in Hm. destruct (c_replace c) eqn:Er.
      + eapply counts_items; [exact Hi | apply incl_refl | exact Hm].
      + destruct (Hch _ _ eq_refl Er) as (Pm & Sx & _). rewrite Sx in Hm.
        eapply counts_items; [exact Hi | | exact Hm].
        intros v Hv. apply Permutation_sym in Pm. apply (Permutation_in _ Pm) in Hv.
        rewrite whole_slice. exact Hv.
    - injection H as H. subst. apply Old. reflexivity.
    - injection H as H. subst. apply Old. reflexivity.
  Qed.

  (** ** Making Words and Texts *)
  Lemma fresh_choice s b c : fresh P fuel s (EChoice P b c) -> c_replace c = false -> shuffled_ok P c.
  Proof.
    intros (c0 & ent & _ & _ & H) Hr. unfold choice_reset, mbind, modify, ChoiceModel.get in H. cbn [set_rng c_replace] in H.
    destruct (c_replace c0) eqn:E0.
    - injection H as H. subst c. cbn in Hr. congruence.
    - apply global_shuffle_ok in H; [|apply (zero_false _ RO)]. apply H.
  Qed.
  Lemma reset_made seed e (w w1 w2 : world) id : alloc_em P e w = (Ok id, w1) -> em_reset P fuel id w1 = (Ok tt, w2) ->
    (forall nd, node_of P e = Some nd -> n_seed P nd = seed) ->
    forall k b c, In k (children P e) -> get_em k w2 = Some (EChoice P b c) -> c_replace c = false -> shuffled_ok P c.
  Proof.
    intros H1 H2 Hs k b c Hk E. apply alloc_inv in H1 as (_ & _ & _ & G).
    assert (Sd : seed_at seed w1 id) by (intros e' nd E' Hn; rewrite G in E'; injection E' as <-; auto).
    destruct (ereset_step fuel score_quiet seed _ _ _ _ Sd H2) as [_ F].
    apply (fresh_choice seed b). apply (F k); [|exact E]. econstructor; [exact G | exact Hk | constructor].
  Qed.
  Lemma reset_stored id (w w' : world) r j : em_reset P fuel id w = (r, w') -> stored j w' = stored j w.
  Proof.
    intros H. pose proof (CacheProofs.kk_reset fuel str_of (fun _ => False) (fun _ => False) id w j (fun f => f)) as Q. rewrite H in Q. cbn [snd] in Q.
    unfold CacheProofs.stored. destruct (get_em j w), (get_em j w'); try tauto; destruct Q as [[[]|Q] _]; congruence.
  Qed.
  Lemma alloc_stored e (w w1 : world) id : alloc_em P e w = (Ok id, w1) -> stored id w1 = stored_of e.
  Proof. intros H. apply alloc_inv in H as (_ & _ & _ & G). unfold CacheProofs.stored. rewrite G. reflexivity. Qed.

  Lemma exec_state A (m : M world A) w : exists r, m w = (r, snd ((m ;;; ret tt) w)).
  Proof. unfold mbind, ret. destruct (m w) as [[]]; eauto. Qed.
  Lemma word_made l a seed (w : world) n : stored (length (w_em P w)) (snd (exec (NewWord P l a seed) w)) = Some (Exactly n) ->
    new_word P fuel l a seed w = (Ok (length (w_em P w)), snd (exec (NewWord P l a seed) w)).
  Proof.
    cbn [WorldBuild.exec]. destruct (exec_state _ (new_word P fuel l a seed) w) as (r & H). rewrite H.
    set (w' := snd _) in *. clearbody w'. intros S. f_equal. revert H. unfold new_word, mbind at 1.
    destruct (alloc_em P (EWord P l a Unknown (new_node P seed)) w) as [[id| |] w1] eqn:E1; try discriminate E1.
    pose proof (alloc_stored _ _ _ _ E1) as S1. cbn in S1. apply alloc_inv in E1 as (-> & _ & _ & G).
    unfold mbind at 1. destruct (em_reset P fuel (length (w_em P w)) w1) as [r2 w2] eqn:E2.
    pose proof (reset_stored _ _ _ _ (length (w_em P w)) E2) as S2. rewrite S1 in S2.
    destruct r2 as [[]|ex|]; try (intros H; injection H as <- <-; congruence).
    unfold mbind at 1. destruct (x <- nuv_at P a w2;; word_nuv x (items_list P l w2)) as [u|ex|]; try (intros H; injection H as <- <-; congruence).
    unfold mbind, modify_em, at_em. destruct (get_em (length (w_em P w)) w2) as [e|] eqn:Eg; intros H; injection H as <- <-; congruence.
  Qed.
  Lemma text_made m x sep seed (w : world) j n : made (NewText P m x sep seed) w j ->
    stored j (snd (exec (NewText P m x sep seed) w)) = Some (Exactly n) ->
    new_text P fuel m x sep seed w = (Ok j, snd (exec (NewText P m x sep seed) w)).
  Proof.
    cbn [WorldBuild.exec]. intros Hj. destruct (exec_state _ (new_text P fuel m x sep seed) w) as (r & H). rewrite H.
    set (w' := snd _) in *. clearbody w'. intros S. f_equal. revert H. unfold new_text, mbind at 1.
    assert (Q : forall r w0, (match sep with Some i => ret i | None => new_static P (VStr [32]) end) w = (r, w0) ->
      (exists sp, r = Ok sp) /\ j = length (w_em P w0)).
    { intros r0 w0. cbn in Hj. destruct sep; unfold new_static, alloc_em, ret; intros [= <- <-]; [eauto|]. split; [eauto|]. cbn. rewrite app_length. cbn. lia. }
    destruct ((match sep with Some i => ret i | None => new_static P (VStr [32]) end) w) as [r0 w0].
    destruct (Q _ _ eq_refl) as [(sp & ->) ->]. unfold mbind at 1.
    destruct (alloc_em P (EText P m x sp Unknown (new_node P seed)) w0) as [[id| |] w1] eqn:E1; try discriminate E1.
    pose proof (alloc_stored _ _ _ _ E1) as S1. cbn in S1. apply alloc_inv in E1 as (-> & _ & _ & G).
    unfold mbind at 1. destruct (em_reset P fuel (length (w_em P w0)) w1) as [r2 w2] eqn:E2.
    pose proof (reset_stored _ _ _ _ (length (w_em P w0)) E2) as S2. rewrite S1 in S2.
    destruct r2 as [[]|ex|]; try (intros H; injection H as <- <-; congruence).
    unfold mbind at 1. destruct (y <- nuv_at P x w2;; z <- nuv_at P sp w2;; text_nuv y z (items_list P m w2)) as [u|ex|]; try (intros H; injection H as <- <-; congruence).
    unfold mbind, modify_em, at_em. destruct (get_em (length (w_em P w0)) w2) as [e|] eqn:Eg; intros H; injection H as <- <-; congruence.
  Qed.

  (** Their parts that draw without replacement have just been shuffled. *)
  Lemma word_parts l a seed (w : world) id w' : (l < length (w_em P w))%nat -> (a < length (w_em P w))%nat ->
    new_word P fuel l a seed w = (Ok id, w') ->
    forall k b c, k = l \/ k = a -> get_em k w' = Some (EChoice P b c) -> c_replace c = false -> shuffled_ok P c.
  Proof.
    intros Ll La H k b c Hk. unfold new_word in H. apply mbind_ok_inv in H as (i & w1 & H1 & H).
    apply mbind_ok_inv in H as ([] & w2 & H2 & H). apply mbind_ok_inv in H as (u & w3 & H3 & H).
    injection H3 as Hu <-. apply mbind_ok_inv in H as ([] & w4 & H4 & H). injection H as <- <-.
    pose proof (alloc_inv _ _ _ _ H1) as (Hi & _ & _ & _).
    unfold modify_em, at_em in H4. destruct (get_em i w2) as [e|]; [|discriminate]. injection H4 as <-.
    rewrite get_put_other by (destruct Hk; lia). eapply (reset_made seed _ _ _ _ _ H1 H2).
    - intros nd [= <-]. reflexivity.
    - cbn. destruct Hk; auto.
  Qed.
  Lemma text_parts m x sep seed (w : world) id w' sp : (m < length (w_em P w))%nat -> (x < length (w_em P w))%nat ->
    (forall s, sep = Some s -> (s < length (w_em P w))%nat) -> settings_at id w' = Some (IsText m x sp) ->
    new_text P fuel m x sep seed w = (Ok id, w') ->
    forall k b c, k = m \/ k = x \/ k = sp -> get_em k w' = Some (EChoice P b c) -> c_replace c = false -> shuffled_ok P c.
  Proof.
    intros Lm Lx Ls St H k b c Hk. unfold new_text in H. apply mbind_ok_inv in H as (sp' & w0 & H0 & H). apply mbind_ok_inv in H as (i & w1 & H1 & H).
    assert (Q : (sp' < length (w_em P w0))%nat /\ (length (w_em P w) <= length (w_em P w0))%nat).
    { destruct sep; unfold new_static, alloc_em, ret in H0; injection H0 as <- <-; [split; auto|]. cbn. rewrite app_length. cbn. lia. }
    apply mbind_ok_inv in H as ([] & w2 & H2 & H). apply mbind_ok_inv in H as (u & w3 & H3 & H).
    injection H3 as Hu <-. apply mbind_ok_inv in H as ([] & w4 & H4 & H). injection H as <- <-.
    pose proof (alloc_inv _ _ _ _ H1) as (Hi & _ & _ & G).
    pose proof (Prop_Objects.kk_at _ _ _ i _ _ _ (ObjectProofs.kk_reset fuel str_of none none i) H2 (settings_some _ _ _ G)) as S2.
    unfold modify_em, at_em in H4. destruct (get_em i w2) as [e|] eqn:Ei; [|discriminate]. injection H4 as <-.
    assert (Sp : sp' = sp).
    { unfold ObjectSpec.settings_at in St, S2. rewrite Ei in S2. rewrite (get_put_same _ _ _ _ Ei) in St. cbn in S2, St.
      destruct e; try discriminate S2. injection S2 as -> -> ->. cbn in St. congruence. }
    subst sp'.
    rewrite get_put_other by (destruct Hk as [->|[->| ->]]; lia). eapply (reset_made seed _ _ _ _ _ H1 H2).
    - intros nd [= <-]. reflexivity.
    - cbn. destruct Hk as [->|[->| ->]]; auto.
  Qed.

  Lemma word_sum_inexact i t n : word_sum Inexact (i :: t) <> Ok (Exactly n).
  Proof. cbn [word_sum nuv_pow]. destruct (as_int i); cbn [bind]; try discriminate. destruct (word_sum Inexact t) as [[]| |]; discriminate. Qed.
  Lemma text_sum_inexact i t a b n : a = Inexact \/ b = Inexact -> text_sum a b (i :: t) <> Ok (Exactly n).
  Proof.
    intros H. cbn [text_sum]. destruct (as_int i) as [z| |]; cbn [bind]; try discriminate.
    destruct (nuv_pow a z) as [p| |] eqn:Ea; cbn [bind]; try discriminate. destruct (nuv_pow b (z - 1)) as [q| |] eqn:Eb; cbn [bind]; try discriminate.
    destruct (text_sum a b t) as [u| |]; cbn [bind]; try discriminate.
    destruct H as [->| ->]; [injection Ea as <- | injection Eb as <-]; [|destruct p]; destruct u; discriminate.
  Qed.

  Lemma exec_settled c w : settled w -> sound P w -> possible P c w -> (forall k, ~ D k -> ~ assigns_to P k c) ->
    settled (snd (exec c w)).
  Proof.
    intros Sw Snd Ps HD. set (w' := snd (exec c w)).
    assert (Q : quietly w w') by (intros k st Nk; apply (proj1 (exec_kept fuel str_of c w)); auto).
    pose proof (exec_safe fuel str_of c w) as Safe. change (snd (WorldBuild.exec P fuel str_of c w)) with w' in Safe.
    assert (R : forall i e k, get_em i w = Some e -> In k (children P e) -> (k < length (w_em P w))%nat).
    { intros i e k E Hk. pose proof (proj1 Snd i e k E Hk). unfold World.get_em in E.
      destruct (nth_error (w_em P w) i) eqn:En; [|discriminate]. assert (i < length (w_em P w))%nat by (apply nth_error_Some; congruence). lia. }
    assert (Pl : forall k e, ~ D k -> get_em k w' = Some e -> plain e).
    { intros k e Nk E. specialize (Safe k (HD k Nk)). rewrite E in Safe. destruct (get_em k w) as [e0|] eqn:E0; [|apply Safe].
      apply Safe. eapply (proj1 Sw); eauto. }
    assert (Keep : forall j, ~ D j -> ~ made c w j -> stored j w' = stored j w).
    { intros j Nj Nm. specialize (Safe j (HD j Nj)). unfold CacheProofs.stored.
      destruct (get_em j w), (get_em j w'); try tauto; destruct Safe as [[|Q2] _]; try contradiction; congruence. }
    split; [exact Pl|]. intros j n Hs U.
    assert (Nj : ~ D j) by (apply U; constructor).
    assert (Dec : made c w j \/ ~ made c w j).
    { destruct c; try (right; exact (fun f => f)); cbn; try destruct sep_em;
        match goal with |- ?a = ?b \/ _ => destruct (Nat.eq_dec a b); auto end. }
    destruct Dec as [Mj|Nm].
    2:{ rewrite (Keep j Nj Nm) in Hs.
        assert (Lj : (j < length (w_em P w))%nat).
        { unfold CacheProofs.stored, World.get_em in Hs. destruct (nth_error (w_em P w) j) eqn:En; [|discriminate]. apply nth_error_Some. congruence. }
        destruct (same_later w w' j Q U Lj R) as [S U']. eapply counts_same; [apply (proj2 Sw); eauto | exact S]. }
    assert (Part : forall e k, get_em j w' = Some e -> In k (children P e) -> untouched w' k).
    { intros e k E Hk q B. apply U. econstructor; eauto. }
    destruct c; try contradiction Mj.
    - (* Word *)
      cbn in Mj. subst j. pose proof (word_made _ _ _ _ _ Hs) as H.
      assert (L : (length_em < length (w_em P w))%nat /\ (alphabet_em < length (w_em P w))%nat) by (split; apply (proj1 Ps); cbn; auto).
      destruct L as [Ll La]. fold w' in H. pose proof (word_parts _ _ _ _ _ _ Ll La H) as Fr.
      destruct (C68_word _ str_of _ _ _ _ _ _ Ll La H) as (_ & St & Hn).
      pose proof St as St0. apply settings_get in St0 as (e & E & Se). destruct e; try discriminate Se. injection Se as -> ->.
      assert (Hn0 : nuv_at P (length (w_em P w)) w' = Ok (Exactly n)).
      { unfold CacheProofs.stored in Hs. unfold nuv_at. fold w' in Hs. rewrite E in *. cbn in *. congruence. }
      rewrite Hn0 in Hn. symmetry in Hn. apply bind_ok_inv in Hn as (na & Ha & Hn).
      destruct (items_list P length_em w') as [items|] eqn:Ei; [|destruct na; discriminate Hn].
      assert (Ul : untouched w' length_em) by (eapply Part; [exact E | cbn; auto]).
      assert (Ua : untouched w' alphabet_em) by (eapply Part; [exact E | cbn; auto]).
      destruct (items_have w' length_em items (fun e => Pl _ e (Ul _ (belongs_self _ _ _))) Ei) as [Hi Hne].
      destruct na as [|na|]; [discriminate Hn | |destruct items; [congruence | destruct (word_sum_inexact _ _ _ Hn)]].
      assert (Ca : counts w' alphabet_em na).
      { apply (known_counts w w' alphabet_em na Sw Q R Pl); auto.
        - right. apply Keep; [apply Ua; constructor|]. cbn. lia.
        - intros b c. apply Fr. auto. }
      destruct (word_sum_exact na items n (counts_nonneg _ _ _ Ca) Hn) as (zs & Hz & Hp & ->).
      eapply counts_word; eauto.
    - (* Text *)
      pose proof (text_made _ _ _ _ _ _ _ Mj Hs) as H. fold w' in H.
      assert (L : (numwords_em < length (w_em P w))%nat /\ (word_em < length (w_em P w))%nat /\ forall s, sep_em = Some s -> (s < length (w_em P w))%nat).
      { repeat split; [apply (proj1 Ps); cbn; auto | apply (proj1 Ps); cbn; auto | intros s ->; apply (proj1 Ps); cbn; auto]. }
      destruct L as (Lm & Lx & Ls).
      destruct (C68_text _ str_of _ _ _ _ _ _ _ Lm Lx Ls H) as (sp & _ & St & Hsp & Hn).
      pose proof (text_parts _ _ _ _ _ _ _ _ Lm Lx Ls St H) as Fr.
      pose proof St as St0. apply settings_get in St0 as (e & E & Se). destruct e; try discriminate Se. injection Se as -> -> ->.
      assert (Hn0 : nuv_at P j w' = Ok (Exactly n)).
      { unfold CacheProofs.stored in Hs. unfold nuv_at. fold w' in Hs. rewrite E in *. cbn in *. congruence. }
      rewrite Hn0 in Hn. symmetry in Hn. apply bind_ok_inv in Hn as (na & Ha & Hn). apply bind_ok_inv in Hn as (nb & Hb & Hn).
      destruct (items_list P numwords_em w') as [items|] eqn:Ei; [|destruct na, nb; discriminate Hn].
      assert (Um : untouched w' numwords_em) by (eapply Part; [exact E | cbn; auto]).
      assert (Ux : untouched w' word_em) by (eapply Part; [exact E | cbn; auto]).
      assert (Us : untouched w' sp) by (eapply Part; [exact E | cbn; auto]).
      destruct (items_have w' numwords_em items (fun e => Pl _ e (Um _ (belongs_self _ _ _))) Ei) as [Hi Hne].
      destruct na as [|na|]; [discriminate Hn | | destruct nb; [discriminate Hn | |]; (destruct items; [congruence | destruct (text_sum_inexact _ _ Inexact _ _ (or_introl eq_refl) Hn)])].
      destruct nb as [|nb|]; [discriminate Hn | | destruct items; [congruence | destruct (text_sum_inexact _ _ _ Inexact _ (or_intror eq_refl) Hn)]].
      assert (Cx : counts w' word_em na).
      { apply (known_counts w w' word_em na Sw Q R Pl); auto.
        - right. apply Keep; [apply Ux; constructor|]. cbn. destruct sep_em; lia.
        - intros b c. apply Fr. auto. }
      assert (Cs : counts w' sp nb).
      { apply (known_counts w w' sp nb Sw Q R Pl); auto.
        - destruct Hsp as [Hsp|(_ & _ & Hsp)].
          + right. apply Keep; [apply Us; constructor|]. specialize (Ls _ Hsp). cbn. destruct sep_em; lia.
          + left. apply settings_get in Hsp as (e & Es & Ss). unfold CacheProofs.stored. rewrite Es. destruct e; try discriminate Ss. reflexivity.
        - intros b c. apply Fr. auto. }
      destruct (text_sum_exact na nb items n (counts_nonneg _ _ _ Cx) (counts_nonneg _ _ _ Cs) Hn) as (zs & Hz & Hp & ->).
      eapply counts_text; eauto.
  Qed.

  Lemma exists_lt k (w : world) st : settings_at k w = Some st -> (k < length (w_em P w))%nat.
  Proof.
    unfold ObjectSpec.settings_at, World.get_em. destruct (nth_error (w_em P w) k) eqn:En; [|discriminate]. intros _. apply nth_error_Some. congruence.
  Qed.
  Lemma quietly_refl w : quietly w w.
  Proof. intros k st _ H. exact H. Qed.
  Lemma quietly_trans a b c : quietly a b -> quietly b c -> quietly a c.
  Proof. intros H1 H2 k st N H. apply H2; auto. Qed.
  Notation afterwards := (UniqueSpec.afterwards P fuel str_of).
  Notation in_order := (UniqueSpec.in_order P fuel str_of).
  Notation given := (UniqueSpec.given P fuel str_of).
  Definition respects (l : list (command P)) : Prop := forall c k, In c l -> ~ D k -> ~ assigns_to P k c.
  Lemma runs_settled l : forall w, settled w -> orderly w -> in_order l w -> respects l ->
    settled (afterwards l w) /\ orderly (afterwards l w) /\ quietly w (afterwards l w).
  Proof.
    induction l as [|c t IH]; intros w Sw Ow Io Rs; [repeat split; auto using quietly_refl; apply Sw|].
    cbn [UniqueSpec.afterwards UniqueSpec.in_order] in *. destruct Io as (Ps & Pr & Io).
    assert (Rc : forall k, ~ D k -> ~ assigns_to P k c) by (intros k; apply Rs; now left).
    pose proof (reachable_sound fuel str_of w (proj1 (orderly_good fuel str_of RO w Ow))) as Snd.
    destruct (IH (snd (exec c w))) as (S & O & Q).
    - apply exec_settled; auto.
    - apply orderly_step; auto.
    - exact Io.
    - intros c' k Hc. apply Rs. now right.
    - split; [exact S|]. split; [exact O|]. eapply quietly_trans; [|exact Q].
      intros k st Nk. apply (proj1 (exec_kept fuel str_of c w)). auto.
  Qed.

  (** What it is made of now is what it was made of when it was called. *)
  Lemma belongs_fwd w w' : sound P w -> quietly w w' -> forall j k, belongs w' j k -> untouched w' j -> (j < length (w_em P w))%nat -> belongs w j k.
  Proof.
    intros So Q j k B. induction B as [i|i e k j E Hk B IH]; intros U L; [constructor|].
    destruct (settings_at i w) as [st|] eqn:Es.
    2:{ exfalso. unfold ObjectSpec.settings_at, World.get_em in Es. destruct (nth_error (w_em P w) i) eqn:En; [discriminate|]. apply nth_error_None in En. lia. }
    pose proof (Q i st (U i (belongs_self _ _ _)) Es) as Es'. apply settings_get in Es as (e0 & E0 & S0).
    unfold ObjectSpec.settings_at in Es'. rewrite E in Es'. injection Es' as Es'.
    assert (Hk0 : In k (children P e0)) by (rewrite (children_settings e0 e); [exact Hk | congruence]).
    econstructor; [exact E0 | exact Hk0|]. apply IH.
    - intros q Bq. apply U. econstructor; eauto.
    - pose proof (proj1 So i e0 k E0 Hk0). lia.
  Qed.
  Lemma same_before w w' id : sound P w -> quietly w w' -> untouched w' id -> (id < length (w_em P w))%nat -> same_parts w' w id.
  Proof.
    intros So Q U L j B. pose proof (belongs_fwd w w' So Q _ _ B U L) as B'.
    destruct (settings_at j w) as [st|] eqn:Es; [symmetry; apply Q; [apply U, B | exact Es]|].
    exfalso. assert (Lj : (j < length (w_em P w))%nat).
    { clear - B' L So. induction B'; auto. apply IHB'. pose proof (proj1 So i e k H H0). lia. }
    unfold ObjectSpec.settings_at, World.get_em in Es. destruct (nth_error (w_em P w) j) eqn:En; [discriminate|]. apply nth_error_None in En. lia.
  Qed.

  Definition word_or_text (w : world) (id : nat) : Prop :=
    (exists l a, settings_at id w = Some (IsWord l a)) \/ (exists m x s, settings_at id w = Some (IsText m x s)).
  Lemma strings_only w id v : word_or_text w id -> can_emit w id v -> exists s, v = VStr s.
  Proof.
    intros W H. destruct H as [|? ? ? ? ? ? E _| | | |? ? ? ? ? ? ? E _ _ _ _ Sp| |? ? ? ? ? ? E _ _ _ Sp|? ? ? ? ? ? ? ? ? E _ _ _ _ _ _ Sp| | | | | | |];
      try (destruct Sp as (ss & _ & ->)); eauto;
      destruct W as [(l' & a' & W)|(m' & x' & s' & W)]; congruence.
  Qed.

  (** All that it gives is in a list that depends on the settings only. *)
  Lemma given_in id wf L : (forall w', same_parts wf w' id -> forall s, can_emit w' id (VStr s) -> In (VStr s) L) ->
    word_or_text wf id -> untouched wf id ->
    forall l w, orderly w -> in_order l w -> respects l -> afterwards l w = wf -> settled w -> forall v, In v (given id l w) -> In v L.
  Proof.
    intros HL W U. induction l as [|c t IH]; intros w Ow Io Rs Ef Sw v Hv; [destruct Hv|].
    cbn [UniqueSpec.given] in Hv. apply in_app_or in Hv. destruct Hv as [Hv|Hv].
    - assert (Now : can_emit w id v -> (id < length (w_em P w))%nat -> In v L).
      { intros Hc L0. pose proof (runs_settled (c :: t) w Sw Ow Io Rs) as (_ & _ & Q). rewrite Ef in Q.
        pose proof (reachable_sound fuel str_of w (proj1 (orderly_good fuel str_of RO w Ow))) as Snd.
        pose proof (same_before w wf id Snd Q U L0) as S.
        assert (W' : word_or_text w id) by (unfold word_or_text; rewrite (same_self _ _ _ S); exact W).
        destruct (strings_only _ _ _ W' Hc) as (s & ->). eapply HL; eauto. }
      destruct Io as (Ps & Pr & _). unfold gives in Hv. destruct c as [| | | | | | | | | | | | | | | | | | |o|]; try destruct Hv.
      destruct o as [i|i n| | | | | | | | | |]; try destruct Hv.
      + destruct (Nat.eqb_spec i id) as [->|]; [|destruct Hv]. destruct (em_call id w) as [[x| |] w'] eqn:E; cbn [fst] in Hv; [|destruct Hv|destruct Hv].
        destruct Hv as [<-|[]]. apply Now; [eapply C70_emit_partial; eauto | apply (proj1 Ps); cbn; auto].
      + destruct (Nat.eqb_spec i id) as [->|]; [|destruct Hv]. destruct (em_call_n id n w) as [[vs| |] w'] eqn:E; cbn [fst] in Hv; [|destruct Hv|destruct Hv].
        apply Now; [|apply (proj1 Ps); cbn; auto]. pose proof (C70_emit_many_partial fuel str_of RO w id n vs w' Ow Pr E) as F.
        rewrite Forall_forall in F. apply F. exact Hv.
    - cbn [UniqueSpec.afterwards UniqueSpec.in_order] in *. destruct Io as (Ps & Pr & Io).
      assert (Rc : forall k, ~ D k -> ~ assigns_to P k c) by (intros k; apply Rs; now left).
      pose proof (reachable_sound fuel str_of w (proj1 (orderly_good fuel str_of RO w Ow))) as Snd.
      apply (IH (snd (exec c w))); auto.
      + apply orderly_step; auto.
      + intros c' k Hc. apply Rs. now right.
      + apply exec_settled; auto.
  Qed.
End Unique.

Section Theorems.
  Context {P : prims} (fuel : nat) (str_of : val -> res (list Z)) (RO : rng_ok P).
  Context (score_quiet : forall u w, k_score P u w <> Raise AttributeError).
  Notation afterwards := (UniqueSpec.afterwards P fuel str_of).
  Notation in_order := (UniqueSpec.in_order P fuel str_of).
  Notation given := (UniqueSpec.given P fuel str_of).

  (** A program from its start: if nothing is assigned to a Word or Text nor to
      what it is made of, then the different values that it gives in all its calls
      are at most as many as its num_unique_values says. *)
  Theorem C71_bound_partial r l id n vs :
    let w := afterwards l (mkWorld P [] [] (run_entropy r)) in
    in_order l (mkWorld P [] [] (run_entropy r)) -> leaves_alone P w id l -> word_or_text w id ->
    nuv_at P id w = Ok (Exactly n) ->
    NoDup vs -> incl vs (given id l (mkWorld P [] [] (run_entropy r))) -> zlen vs <= n.
  Proof.
    intros w Io La W Hn Nd Hin. set (w0 := mkWorld P [] [] (run_entropy r)) in *.
    set (D := fun k => exists c, In c l /\ assigns_to P k c).
    assert (Rs : respects D l) by (intros c k Hc Nk Ha; apply Nk; exists c; auto).
    assert (S0 : settled D w0).
    { split; [intros k e _ E; destruct k; discriminate E | intros j m H; destruct j; discriminate H]. }
    pose proof (orderly_start P fuel str_of r) as O0.
    destruct (runs_settled fuel str_of RO score_quiet D l w0 S0 O0 Io Rs) as (Sw & Ow & Q).
    assert (U : untouched D w id).
    { intros k B (c & Hc & Ha). specialize (La k B). rewrite Forall_forall in La. exact (La c Hc Ha). }
    assert (Hs : stored id w = Some (Exactly n)).
    { unfold word_or_text, settings_at in W. unfold nuv_at in Hn. unfold stored. destruct (get_em P id w) as [e|]; [|discriminate Hn].
      destruct W as [(x & y & W)|(x & y & z & W)]; destruct e; try discriminate W; cbn in *; congruence. }
    destruct (counts_bound str_of w id n (proj2 Sw _ _ Hs U)) as (L & HL & HLs).
    assert (Hi : incl vs L).
    { intros v Hv. eapply (given_in fuel str_of RO score_quiet D id w L HLs W U l w0); eauto. }
    apply NoDup_incl_length in Hi; [|exact Nd]. unfold zlen in *. lia.
  Qed.

  (** It is calculated once, when the object is made, and stays the same whatever
      is done to its parts. *)
  Theorem C71_once l id : forall w, word_or_text w id -> Forall (fun c => ~ assigns_to P id c) l ->
    nuv_at P id (afterwards l w) = nuv_at P id w.
  Proof.
    induction l as [|c t IH]; intros w W F; [reflexivity|]. inversion F as [|? ? Fc Ft]; subst. cbn [UniqueSpec.afterwards].
    pose proof (exec_safe fuel str_of c w id Fc) as Sf.
    assert (K : forall st, settings_at P id w = Some st -> settings_at P id (snd (exec P fuel str_of c w)) = Some st).
    { intros st. apply (proj1 (exec_kept fuel str_of c w)). exact Fc. }
    assert (W' : word_or_text (snd (exec P fuel str_of c w)) id).
    { destruct W as [(x & y & W)|(x & y & z & W)]; [left | right]; eauto 6. }
    rewrite IH by auto.
    assert (Lid : (id < length (w_em P w))%nat) by (destruct W as [(x & y & W)|(x & y & z & W)]; eapply exists_lt; exact W).
    assert (Nm : ~ made c w id) by (destruct c; cbn; try tauto; try (destruct sep_em); lia).
    unfold word_or_text, settings_at in W, W'. unfold nuv_at.
    destruct (get_em P id w) as [e|]; [|destruct W as [(x & y & W)|(x & y & z & W)]; discriminate W].
    destruct (get_em P id (snd (exec P fuel str_of c w))) as [e'|]; [|contradiction].
    destruct Sf as [[M|Sf] _]; [contradiction|].
    destruct W as [(x & y & W)|(x & y & z & W)]; destruct e; try discriminate W; cbn in Sf |- *; destruct e'; cbn in Sf |- *; try discriminate Sf; congruence.
  Qed.
End Theorems.

(** ** Assignments to the parts *)

(** So it can be wrong when the parts have changed: *)
Definition C71_statement : Prop := forall r l id n vs,
  let w := afterwards DP 9 demo_str l (mkWorld DP [] [] (run_entropy r)) in
  in_order DP 9 demo_str l (mkWorld DP [] [] (run_entropy r)) -> word_or_text w id -> nuv_at DP id w = Ok (Exactly n) ->
  NoDup vs -> incl vs (given DP 9 demo_str id l (mkWorld DP [] [] (run_entropy r))) -> zlen vs <= n.
(** Word(Static(1), Static('a')) has one value; after length.value = 3 it gives
    another one, num_unique_values is still 1. *)
Definition outgrown : list (command DP) :=
  [NewStatic DP (VInt 1); NewStatic DP (VStr [97]); NewWord DP 0 1 None; Do DP (Emit DP 2);
   SetEmitter DP 0 (SStatic DP (VInt 3)); Do DP (Emit DP 2)].
Lemma fits_order l : forall w, can_all l w = true -> fits_all l w = true -> in_order DP 9 demo_str l w.
Proof.
  induction l as [|c t IH]; intros w H F; [exact I|]. cbn [can_all fits_all UniqueSpec.in_order] in *. apply andb_prop in H. destruct H as [H1 H2].
  apply andb_prop in F. destruct F as [F1 F2]. split; [|split; [|apply IH; assumption]].
  - apply andb_prop in H1. destruct H1 as [A B]. rewrite forallb_forall in A, B.
    split; intros i Hi; [specialize (A i Hi) | specialize (B i Hi)]; apply Nat.ltb_lt; assumption.
  - apply fits_proper. exact F1.
Qed.
Theorem C71_bound_refuted : ~ C71_statement.
Proof.
  intros H.
  assert (X : 2 <= 1); [|lia].
  apply (H 0%nat outgrown 2%nat 1 [VStr [97]; VStr [97; 97; 97]]).
  - apply fits_order; vm_compute; reflexivity.
  - left. exists 0%nat, 1%nat. vm_cast_no_check (eq_refl (Some (@IsWord DP 0 1))).
  - vm_cast_no_check (eq_refl (@Ok nuv (Exactly 1))).
  - constructor; [intros [E|[]]; discriminate E|]. constructor; [intros [] | constructor].
  - assert (G : given DP 9 demo_str 2 outgrown (mkWorld DP [] [] (run_entropy 0)) = [VStr [97]; VStr [97; 97; 97]]) by (vm_compute; reflexivity).
    rewrite G. apply incl_refl.
Qed.

(** ** Example: words of one or two letters from 'ab' (drawn without replacement
    within a call), 6 in all *)
Definition spelling : list (command DP) :=
  [NewChoice DP true [VInt 1; VInt 2] None true false (Some 1%nat) None;
   NewChoice DP true [VStr [97]; VStr [98]] None true false (Some 2%nat) None;
   NewWord DP 0 1 None; Do DP (EmitN DP 2 3); Do DP (ResetEm DP 0); Do DP (EmitN DP 2 4); Do DP (Emit DP 2)].
Example C71_case :
  let w0 := mkWorld DP [] [] (run_entropy 0) in
  let w := afterwards DP 9 demo_str spelling w0 in
  in_order DP 9 demo_str spelling w0 /\ leaves_alone DP w 2 spelling /\ word_or_text w 2 /\
  nuv_at DP 2 w = Ok (Exactly 6) /\ length (given DP 9 demo_str 2 spelling w0) = 8%nat.
Proof.
  split; [apply fits_order; vm_compute; reflexivity|].
  split; [intros j _; repeat (apply Forall_cons; [exact (fun f => f)|]); apply Forall_nil|].
  split; [left; exists 0%nat, 1%nat; vm_cast_no_check (eq_refl (Some (@IsWord DP 0 1)))|].
  split; vm_compute; reflexivity.
Qed.

Print Assumptions C71_bound_partial.
Print Assumptions C71_once.
Print Assumptions C71_bound_refuted.
