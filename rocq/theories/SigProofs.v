(** * What bind accepts, a call accepts. *)
From Verif Require Import Base Prims Values SigModel SigSpec WrapModel GroupModel FieldModel.
Open Scope list_scope.

Lemma mem_In x l : mem x l = true <-> In x l.
Proof.
  unfold mem. rewrite existsb_exists. split.
  - intros [y [Hy E]]. apply String.eqb_eq in E. now subst.
  - intros H. exists x. split; [easy | apply String.eqb_refl].
Qed.

Lemma mem_false x l : mem x l = false <-> ~ In x l.
Proof. rewrite <- mem_In. destruct (mem x l); split; congruence. Qed.

Lemma in_without x y l : In y (without x l) <-> In y l /\ y <> x.
Proof.
  unfold without. rewrite filter_In, Bool.negb_true_iff, String.eqb_neq. intuition congruence.
Qed.

Lemma bind_keywords_ok ps : forall kw vk,
  bind_keywords ps kw vk = Ok tt ->
  (forall k, In k kw -> In k (map p_name (filter by_keyword ps)) \/ has_kind VarKw ps = true \/ vk = true) /\
  (forall p, In p ps -> p_kind p <> VarPos -> p_kind p <> VarKw ->
     p_default p = true \/ (by_keyword p = true /\ In (p_name p) kw)).
Proof.
  induction ps as [|p t IH]; intros kw vk H.
  - split; [|easy]. intros k Hk. cbn in H. destruct kw; [easy|]. destruct vk; [|easy]. auto.
  - cbn [bind_keywords] in H. unfold has_kind in *. cbn [existsb filter by_keyword] in *.
    destruct (p_kind p) eqn:Ek; unfold by_keyword in *; rewrite ?Ek; cbn [orb andb map] in *.
    + (* PosOnly *)
      destruct (mem (p_name p) kw); [easy|]. destruct (p_default p) eqn:Ed; [|easy].
      destruct (IH _ _ H) as [H1 H2]. split; [exact H1|].
      intros q [<-|Hq] Hv1 Hv2; [auto | now apply H2].
    + destruct (mem (p_name p) kw) eqn:Em.
      * destruct (IH _ _ H) as [H1 H2]. split.
        -- intros k Hk. destruct (String.string_dec k (p_name p)) as [->|Hn]; [left; now left|].
           destruct (H1 k) as [?|[?|?]]; [now apply in_without | left; now right | auto | auto].
        -- intros q [<-|Hq] Hv1 Hv2.
           ++ right. rewrite Ek. split; [easy | now apply mem_In].
           ++ destruct (H2 q Hq Hv1 Hv2) as [?|[? Hin]]; [auto|]. apply in_without in Hin. tauto.
      * destruct (p_default p) eqn:Ed; [|easy]. destruct (IH _ _ H) as [H1 H2]. split.
        -- intros k Hk. destruct (H1 k Hk) as [?|[?|?]]; [left; now right | auto | auto].
        -- intros q [<-|Hq] Hv1 Hv2; [auto | now apply H2].
    + destruct (IH _ _ H) as [H1 H2]. split; [exact H1|].
      intros q [<-|Hq] Hv1 Hv2; [congruence | now apply H2].
    + destruct (mem (p_name p) kw) eqn:Em.
      * destruct (IH _ _ H) as [H1 H2]. split.
        -- intros k Hk. destruct (String.string_dec k (p_name p)) as [->|Hn]; [left; now left|].
           destruct (H1 k) as [?|[?|?]]; [now apply in_without | left; now right | auto | auto].
        -- intros q [<-|Hq] Hv1 Hv2.
           ++ right. rewrite Ek. split; [easy | now apply mem_In].
           ++ destruct (H2 q Hq Hv1 Hv2) as [?|[? Hin]]; [auto|]. apply in_without in Hin. tauto.
      * destruct (p_default p) eqn:Ed; [|easy]. destruct (IH _ _ H) as [H1 H2]. split.
        -- intros k Hk. destruct (H1 k Hk) as [?|[?|?]]; [left; now right | auto | auto].
        -- intros q [<-|Hq] Hv1 Hv2; [auto | now apply H2].
    + destruct (IH _ _ H) as [H1 H2]. split.
      * intros k Hk. destruct (H1 k Hk) as [?|[?|?]]; auto.
      * intros q [<-|Hq] Hv1 Hv2; [congruence | now apply H2].
Qed.

(** The three conditions of [call_fits], as propositions. *)
Lemma call_fits_intro sg n kw :
  (n <= length (filter is_positional sg) \/ has_kind VarPos sg = true)%nat ->
  (forall k, In k kw ->
     (In k (map p_name (filter by_keyword sg)) /\
      ~ In k (map p_name (filter by_keyword (firstn n (filter is_positional sg))))) \/
     (~ In k (map p_name (filter by_keyword sg)) /\ has_kind VarKw sg = true)) ->
  (forall p, In p (skipn n (filter is_positional sg)) \/ (In p sg /\ p_kind p = KwOnly) ->
     p_default p = true \/ (by_keyword p = true /\ In (p_name p) kw)) ->
  call_fits sg n kw = true.
Proof.
  intros H1 H2 H3. unfold call_fits. rewrite !Bool.andb_true_iff, Bool.orb_true_iff, Nat.leb_le.
  split; [split; [exact H1|]|].
  - apply forallb_forall. intros k Hk. destruct (H2 k Hk) as [[Ha Hb]|[Ha Hb]].
    + apply mem_In in Ha. rewrite Ha. apply mem_false in Hb. now rewrite Hb.
    + apply mem_false in Ha. now rewrite Ha.
  - apply forallb_forall. intros p Hp. apply in_app_iff in Hp.
    destruct (H3 p) as [Hd|[Hb Hin]].
    + destruct Hp as [Hp|Hp]; [now left|right]. apply filter_In in Hp. destruct Hp as [Hp Hk].
      split; [easy|]. now destruct (p_kind p).
    + now rewrite Hd.
    + rewrite Hb. apply mem_In in Hin. rewrite Hin. apply Bool.orb_true_r.
Qed.

Lemma call_fits_elim sg n kw :
  call_fits sg n kw = true ->
  (n <= length (filter is_positional sg) \/ has_kind VarPos sg = true)%nat /\
  (forall k, In k kw ->
     (In k (map p_name (filter by_keyword sg)) /\
      ~ In k (map p_name (filter by_keyword (firstn n (filter is_positional sg))))) \/
     (~ In k (map p_name (filter by_keyword sg)) /\ has_kind VarKw sg = true)) /\
  (forall p, In p (skipn n (filter is_positional sg)) \/ (In p sg /\ p_kind p = KwOnly) ->
     p_default p = true \/ (by_keyword p = true /\ In (p_name p) kw)).
Proof.
  unfold call_fits. rewrite !Bool.andb_true_iff, Bool.orb_true_iff, Nat.leb_le.
  intros [[H1 H2] H3]. split; [exact H1|]. split.
  - intros k Hk. rewrite forallb_forall in H2. specialize (H2 k Hk).
    destruct (mem k (map p_name (filter by_keyword sg))) eqn:Em.
    + left. split; [now apply mem_In|]. apply Bool.negb_true_iff in H2. now apply mem_false in H2.
    + right. split; [now apply mem_false | easy].
  - intros p Hp. rewrite forallb_forall in H3.
    assert (Hin : In p (skipn n (filter is_positional sg) ++
        filter (fun p => match p_kind p with KwOnly => true | _ => false end) sg)).
    { apply in_app_iff. destruct Hp as [Hp|[Hp Hk]]; [now left|right]. apply filter_In. now rewrite Hk. }
    specialize (H3 p Hin). apply Bool.orb_true_iff in H3. rewrite Bool.andb_true_iff, mem_In in H3. tauto.
Qed.

Lemma keywords_fit_0 ps kw :
  bind_keywords ps kw false = Ok tt -> call_fits ps 0 kw = true.
Proof.
  intros H. destruct (bind_keywords_ok _ _ _ H) as [H1 H2].
  apply call_fits_intro.
  - left. lia.
  - intros k Hk. cbn [firstn filter map].
    destruct (in_dec String.string_dec k (map p_name (filter by_keyword ps))) as [?|Hn]; [left; auto|].
    right. split; [easy|]. destruct (H1 k Hk) as [?|[?|?]]; easy.
  - intros p [Hp|[Hp Hk]].
    + cbn [skipn] in Hp. apply filter_In in Hp. destruct Hp as [Hp Hpos].
      apply H2; [easy| |]; intros E; unfold is_positional in Hpos; now rewrite E in Hpos.
    + apply H2; [easy| |]; congruence.
Qed.

Lemma after_varpos p t : p_kind p = VarPos -> ForallOrdPairs may_precede (p :: t) ->
  forall q, In q t -> p_kind q = KwOnly \/ p_kind q = VarKw.
Proof.
  intros Hp H q Hq. inversion H as [|? ? Hf _]. subst.
  rewrite Forall_forall in Hf. specialize (Hf q Hq). destruct Hf as [Hr|[E [Hn _]]]; [|congruence].
  rewrite Hp in Hr. destruct (p_kind q); cbn in Hr; try lia; auto.
Qed.

Lemma filter_none {A} (f : A -> bool) (l : list A) : (forall x, In x l -> f x = false) -> filter f l = [].
Proof.
  induction l as [|a t IH]; intros H; [easy|]. cbn. rewrite (H a) by (now left). apply IH. intros x Hx. apply H. now right.
Qed.

Lemma bind_fits sg : forall n kw,
  ForallOrdPairs may_precede sg ->
  sig_bind sg n kw = Ok tt -> call_fits sg n kw = true.
Proof.
  unfold sig_bind.
  induction sg as [|p t IH]; intros n kw Hv H.
  - destruct n; [|easy]. cbn in H |- *. now destruct kw.
  - destruct n as [|n].
    + cbn [bind_positional] in H. destruct (p_kind p) eqn:Ek.
      * destruct (mem (p_name p) kw); [easy|]. destruct (p_default p); [|easy].
        cbn [bind] in H. now apply keywords_fit_0.
      * destruct (mem (p_name p) kw) eqn:Em.
        -- cbn [bind] in H. now apply keywords_fit_0.
        -- destruct (p_default p); [|easy]. cbn [bind] in H. now apply keywords_fit_0.
      * cbn [bind] in H. apply keywords_fit_0. cbn [bind_keywords]. now rewrite Ek.
      * destruct (mem (p_name p) kw) eqn:Em.
        -- cbn [bind] in H. now apply keywords_fit_0.
        -- destruct (p_default p); [|easy]. cbn [bind] in H. now apply keywords_fit_0.
      * destruct (mem (p_name p) kw) eqn:Em; cbn [bind] in H; now apply keywords_fit_0.
    + cbn [bind_positional] in H.
      assert (Hvt : ForallOrdPairs may_precede t) by (now inversion Hv).
      destruct (p_kind p) eqn:Ek; try easy.
      * (* PosOnly *)
        specialize (IH n kw Hvt H). apply call_fits_elim in IH. destruct IH as [H1 [H2 H3]].
        apply call_fits_intro; unfold is_positional, by_keyword, has_kind in *; cbn [filter existsb];
          rewrite ?Ek; cbn [length firstn skipn filter map orb]; rewrite ?Ek.
        -- destruct H1; [left; lia | now right].
        -- exact H2.
        -- intros q [Hq|[[<-|Hq] Hk]]; [apply H3; now left | congruence | apply H3; now right].
      * destruct (mem (p_name p) kw) eqn:Em; [easy|]. apply mem_false in Em.
        specialize (IH n kw Hvt H). apply call_fits_elim in IH. destruct IH as [H1 [H2 H3]].
        apply call_fits_intro; unfold is_positional, by_keyword, has_kind in *; cbn [filter existsb];
          rewrite ?Ek; cbn [length firstn skipn filter map orb]; rewrite ?Ek; cbn [map].
        -- destruct H1; [left; lia | now right].
        -- intros k Hk. assert (Hne : p_name p <> k) by (intros <-; now apply Em).
           cbn [In]. destruct (H2 k Hk) as [[Ha Hb]|[Ha Hb]]; [left|right]; tauto.
        -- intros q [Hq|[[<-|Hq] Hk]]; [apply H3; now left | congruence | apply H3; now right].
      * (* VarPos *)
        cbn [bind] in H.
        pose proof (after_varpos p t Ek Hv) as Hkw.
        assert (Ht : filter is_positional t = []).
        { apply filter_none. intros q Hq. unfold is_positional. now destruct (Hkw q Hq) as [->| ->]. }
        apply keywords_fit_0 in H. apply call_fits_elim in H. destruct H as [H1 [H2 H3]].
        assert (Hp : is_positional p = false /\ by_keyword p = false)
          by (unfold is_positional, by_keyword; now rewrite Ek).
        destruct Hp as [Hp1 Hp2].
        apply call_fits_intro; cbn [filter]; rewrite ?Hp1, ?Hp2, ?Ht; cbn [firstn skipn filter map length].
        -- right. unfold has_kind. cbn [existsb]. now rewrite Ek.
        -- intros k Hk. unfold has_kind in *. cbn [existsb]. rewrite Ek.
           destruct (H2 k Hk) as [[Ha Hb]|[Ha Hb]]; [left | right]; split; auto.
        -- intros q [[]|[[<-|Hq] Hk]]; [congruence | apply H3; now right].
Qed.

Lemma wants_rng_iff {S} (u : ufun S) : wants_rng u = true <-> takes_rng u.
Proof.
  unfold wants_rng, takes_rng. destruct (u_sig u) as [sg|].
  - rewrite mem_In, in_map_iff. split.
    + intros [p [Hp Hin]]. now exists sg, p.
    + intros [sg' [p [E [Hin Hp]]]]. injection E as <-. now exists p.
  - split; [easy|]. intros [sg [p [E _]]]. discriminate.
Qed.

(** The core of C42. *)
Lemma mock_call_runs {S} (u : ufun S) args kwargs args' kwargs' s s' :
  valid_function u ->
  length args' = length args -> map fst kwargs' = map fst kwargs ->
  (takes_rng u -> ~ In "rng"%string (map fst kwargs)) ->
  try_mock_call u args kwargs s = (Ok tt, s') ->
  runs_body u args' kwargs'.
Proof.
  intros Hval Hlen Hkeys Hrng Hmock s0. unfold wrapper_call.
  destruct (wants_rng u) eqn:Ew.
  - left. assert (Ht : takes_rng u) by (now apply wants_rng_iff). split; [easy|].
    specialize (Hrng Ht). apply mem_false in Hrng. rewrite Hkeys, Hrng.
    unfold py_call. unfold try_mock_call in Hmock. rewrite Ew, Hrng in Hmock.
    unfold valid_function in Hval.
    destruct (u_sig u) as [sg|]; [|reflexivity].
    rewrite Hlen, Hkeys. rewrite bind_fits; [reflexivity | apply Hval |].
    unfold lift in Hmock. now injection Hmock.
  - right. split; [rewrite <- wants_rng_iff; congruence|].
    unfold py_call. unfold try_mock_call in Hmock. rewrite Ew in Hmock.
    unfold valid_function in Hval.
    destruct (u_sig u) as [sg|]; [|reflexivity].
    rewrite app_nil_r, Hlen, Hkeys. rewrite bind_fits; [reflexivity | apply Hval |].
    unfold lift in Hmock. now injection Hmock.
Qed.

Lemma mbind_ok_inv {S A B} (m : M S A) (f : A -> M S B) s r s' :
  mbind m f s = (Ok r, s') -> exists a s1, m s = (Ok a, s1) /\ f a s1 = (Ok r, s').
Proof.
  unfold mbind. destruct (m s) as [[a|e|] s1]; intros H; [now exists a, s1 | discriminate | discriminate].
Qed.

Lemma try_finally_ok_inv {S A} (m : M S A) fin s r s' :
  try_finally m fin s = (Ok r, s') -> exists s1, m s = (Ok r, s1) /\ fin s1 = (Ok tt, s').
Proof.
  unfold try_finally. destruct (m s) as [[a|e|] s1]; intros H.
  - destruct (fin s1) as [[[]|e'|] s2] eqn:E; inversion H; subst. now exists s1.
  - destruct (fin s1) as [[[]|e'|] s2]; discriminate.
  - discriminate.
Qed.

Lemma mapS_keys {S K A B} (f : A -> M S B) (key : A -> K) (l : list A) : forall s r s',
  mapS (fun a => v <~ f a ;; ret (key a, v)) l s = (Ok r, s') -> map fst r = map key l.
Proof.
  induction l as [|a t IH]; intros s r s' H; cbn [mapS map] in *.
  - unfold ret in H. injection H as <- <-. easy.
  - apply mbind_ok_inv in H. destruct H as [b [s1 [Hb H]]].
    apply mbind_ok_inv in H. destruct H as [bs [s2 [Hbs H]]].
    unfold ret in H. injection H as <- <-.
    apply mbind_ok_inv in Hb. destruct Hb as [v [s3 [_ Hb]]]. unfold ret in Hb. injection Hb as <- <-.
    cbn [map fst]. f_equal. now apply (IH _ _ _ Hbs).
Qed.

Lemma list_get_nat {A} (l : list A) i :
  list_get l (Z.of_nat i) = match nth_error l i with Some a => Ok a | None => Raise IndexError end.
Proof.
  unfold list_get, norm_index, zlen.
  destruct (Z.ltb_spec (Z.of_nat i) 0); [lia|]. cbv zeta.
  destruct (Z.leb_spec 0 (Z.of_nat i)); [|lia].
  destruct (Z.ltb_spec (Z.of_nat i) (Z.of_nat (length l))); cbn [andb].
  - now rewrite Nat2Z.id.
  - destruct (nth_error l i) eqn:E; [|easy]. assert (i < length l)%nat by (apply nth_error_Some; congruence). lia.
Qed.
