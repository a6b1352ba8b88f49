(** * Running a program again: properties C65, C66. *)
From Coq Require Import String.
From Verif Require Import Base Prims Values MathModel ChoiceModel ChoiceProofs FixedModel GroupModel
  SigModel SigProofs WrapModel TextModel FieldModel World Rel WorldProofs Agree
  WorldSpec WorldReset Histories WorldBuild BuildProofs ProgramSpec Demo WorldDemo Prop_World Prop_Construct.
Open Scope list_scope.
Open Scope Z_scope.

(** ** C65 *)

Section Twins.
  Context {P : prims} (fuel : nat) (str_of : val -> res (list Z)).
  Notation world := (World.world P).
  Notation emitter := (World.emitter P).
  Notation get_em := (World.get_em P).
  Notation get_fd := (World.get_fd P).

  Definition sok (s : option (pSeed P)) : Prop := s <> None.
  Notation T := (fun _ : nat => True).
  Notation ag := (agree true sok T T T).

  (** Two states, in two runs, that differ only in the entropy ahead (and in the
      rngs of the fields, which are never used). *)
  Definition twin (w1 w2 : world) : Prop := ag w1 w2 w1 w2.

  Definition seed_ok (e : emitter) : Prop := forall nd, node_of P e = Some nd -> sok (n_seed P nd).

  Lemma twin_intro w1 w2 :
    (forall i, get_em i w1 = get_em i w2) -> (forall i e, get_em i w1 = Some e -> seed_ok e) ->
    (forall f, orel fsim (get_fd f w1) (get_fd f w2)) ->
    (forall f x, get_fd f w1 = Some x -> sok (n_seed P (f_nd P x))) -> twin w1 w2.
  Proof.
    intros H1 H2 H3 H4. constructor; auto using within_refl.
    - intros i _. rewrite H1. apply orel_refl, osim_refl.
    - intros i e nd _ E. apply (H2 i e E).
    - intros N. destruct N. reflexivity.
    - intros f _. unfold World.field_multi. specialize (H3 f).
      destruct (get_fd f w1) as [x1|], (get_fd f w2) as [x2|]; try contradiction; [|reflexivity].
      destruct H3 as [(_ & _ & _ & <- & _) _]. rewrite H1. reflexivity.
    - intros f x _ E. eapply H4; exact E.
  Qed.
  Lemma twin_em w1 w2 i : twin w1 w2 -> get_em i w1 = get_em i w2.
  Proof.
    intros H. pose proof (ag_em _ _ _ _ _ _ _ _ _ H i I) as Q. unfold orel in Q.
    destruct (get_em i w1), (get_em i w2); try contradiction; [|reflexivity]. f_equal. apply osim_eq, Q.
  Qed.
  Lemma twin_ok w1 w2 i e : twin w1 w2 -> get_em i w1 = Some e -> seed_ok e.
  Proof. intros H E nd. apply (ag_sok _ _ _ _ _ _ _ _ _ H i e nd I E). Qed.
  Lemma twin_fd w1 w2 f : twin w1 w2 -> orel fsim (get_fd f w1) (get_fd f w2).
  Proof. intros H. apply (ag_fd _ _ _ _ _ _ _ _ _ H f I). Qed.
  Lemma twin_fok w1 w2 f x : twin w1 w2 -> get_fd f w1 = Some x -> sok (n_seed P (f_nd P x)).
  Proof. intros H. apply (ag_fsok _ _ _ _ _ _ _ _ _ H f x I). Qed.
  Lemma twin_len w1 w2 : twin w1 w2 -> length (w_em P w1) = length (w_em P w2) /\ length (w_fd P w1) = length (w_fd P w2).
  Proof.
    intros H. split; apply len_nth; intros n.
    - pose proof (twin_em _ _ n H) as Q. unfold World.get_em in Q.
      destruct (nth_error (w_em P w1) n), (nth_error (w_em P w2) n); try discriminate; split; congruence.
    - pose proof (twin_fd _ _ n H) as Q. unfold World.get_fd in Q.
      destruct (nth_error (w_fd P w1) n), (nth_error (w_fd P w2) n); try contradiction; split; congruence.
  Qed.

  Notation rt := (rel twin).
  Lemma lifted A (m1 m2 : M world A) : (forall v1 v2, rel (ag v1 v2) m1 m2) -> rt m1 m2.
  Proof.
    intros H w1 w2 Tw. destruct (H w1 w2 w1 w2 Tw) as [E A2]. split; [exact E|]. eapply rebase; exact A2.
  Qed.

  Lemma get_fd_put f i e (w : world) : get_fd f (put_em P i e w) = get_fd f w.
  Proof. unfold World.get_fd, World.put_em. destruct (nth_error (w_em P w) i); reflexivity. Qed.
  Lemma get_put j i e (w : world) : get_em j (put_em P i e w) =
    if Nat.eqb j i then match get_em i w with Some _ => Some e | None => None end else get_em j w.
  Proof.
    destruct (Nat.eqb_spec j i) as [->|N].
    - destruct (get_em i w) as [e0|] eqn:E; [apply (get_put_same i e w e0 E)|].
      unfold World.get_em, World.put_em in *. destruct (nth_error (w_em P w) i) eqn:E2; [discriminate | rewrite E2; reflexivity].
    - apply get_put_other, N.
  Qed.
  Lemma twin_put w1 w2 i e : twin w1 w2 -> seed_ok e -> twin (put_em P i e w1) (put_em P i e w2).
  Proof.
    intros H He. apply twin_intro.
    - intros j. rewrite !get_put, !(twin_em w1 w2) by exact H. reflexivity.
    - intros j e' E. rewrite get_put in E. destruct (Nat.eqb j i); [|eapply twin_ok; eauto].
      destruct (get_em i w1); [|discriminate]. injection E as <-. exact He.
    - intros f. rewrite !get_fd_put. apply twin_fd, H.
    - intros f x. rewrite get_fd_put. apply (twin_fok _ _ f x H).
  Qed.
  Lemma get_put_fd g f x (w : world) : get_fd g (put_fd P f x w) =
    if Nat.eqb g f then match get_fd f w with Some _ => Some x | None => None end else get_fd g w.
  Proof.
    unfold World.get_fd, World.put_fd. cbn [w_fd]. destruct (Nat.eqb_spec g f) as [->|N].
    - destruct (nth_error (w_fd P w) f) as [y|] eqn:E; [apply (nth_upd_same _ _ _ _ _ E)|].
      apply nth_error_None. rewrite upd_len. apply nth_error_None, E.
    - apply nth_upd_other. congruence.
  Qed.
  Lemma twin_put_fd w1 w2 f x1 x2 : twin w1 w2 -> fsim x1 x2 -> sok (n_seed P (f_nd P x1)) ->
    twin (put_fd P f x1 w1) (put_fd P f x2 w2).
  Proof.
    intros H Hx Hs. apply twin_intro.
    - intros j. apply (twin_em w1 w2 j H).
    - intros j e E. apply (twin_ok w1 w2 j e H E).
    - intros g. rewrite !get_put_fd. pose proof (twin_fd w1 w2 f H) as Q. pose proof (twin_fd w1 w2 g H) as Q'.
      destruct (Nat.eqb g f); [|exact Q']. destruct (get_fd f w1), (get_fd f w2); try contradiction; [exact Hx | exact I].
    - intros g y. rewrite get_put_fd. destruct (Nat.eqb g f); [|apply (twin_fok _ _ g y H)].
      destruct (get_fd f w1); [|discriminate]. intros [= <-]. exact Hs.
  Qed.

  Lemma rt_alloc e : seed_ok e -> rt (alloc_em P e) (alloc_em P e).
  Proof.
    intros He w1 w2 H. destruct (twin_len w1 w2 H) as [L _]. unfold alloc_em. cbn [fst snd]. split; [congruence|].
    apply twin_intro.
    - intros j. rewrite !get_em_app. cbn [o_em]. rewrite L, (twin_em w1 w2) by exact H. reflexivity.
    - intros j e' E. rewrite get_em_app in E. destruct (Nat.eqb j _); [injection E as <-; exact He | eapply twin_ok; eauto].
    - intros f. apply (twin_fd w1 w2 f H).
    - intros f x. apply (twin_fok w1 w2 f x H).
  Qed.
  Lemma rt_alloc_fd x : sok (n_seed P (f_nd P x)) -> rt (alloc_fd P x) (alloc_fd P x).
  Proof.
    intros Hx w1 w2 H. destruct (twin_len w1 w2 H) as [_ L]. unfold alloc_fd. cbn [fst snd]. split; [congruence|].
    assert (App : forall w f, get_fd f (mkWorld P (w_em P w) (w_fd P w ++ [x]) (w_run P w)) =
      if Nat.eqb f (length (w_fd P w)) then Some x else get_fd f w).
    { intros w f. unfold World.get_fd. cbn [w_fd]. destruct (Nat.eqb_spec f (length (w_fd P w))) as [->|N].
      - rewrite nth_error_app2, Nat.sub_diag by lia. reflexivity.
      - destruct (Nat.lt_ge_cases f (length (w_fd P w))) as [Lt|Ge]; [apply nth_error_app1, Lt|].
        rewrite (proj2 (nth_error_None _ _) Ge). apply nth_error_None. rewrite app_length. cbn. lia. }
    apply twin_intro.
    - intros j. apply (twin_em w1 w2 j H).
    - intros j e E. apply (twin_ok w1 w2 j e H E).
    - intros f. rewrite !App, L. destruct (Nat.eqb f _); [repeat split | apply twin_fd, H].
    - intros f y. rewrite App. destruct (Nat.eqb f _); [intros [= <-]; exact Hx | apply (twin_fok w1 w2 f y H)].
  Qed.

  Lemma rt_at A i (k : emitter -> M world A) : (forall e, seed_ok e -> rt (k e) (k e)) -> rt (at_em P i k) (at_em P i k).
  Proof.
    intros Hk w1 w2 H. unfold at_em. pose proof (twin_em w1 w2 i H) as E.
    destruct (get_em i w2) as [e|] eqn:E2; rewrite E; [|split; [reflexivity | exact H]].
    apply Hk; [eapply twin_ok; eauto | exact H].
  Qed.
  Lemma rt_put i e : seed_ok e -> rt (fun w => (Ok tt, put_em P i e w)) (fun w => (Ok tt, put_em P i e w)).
  Proof. intros He w1 w2 H. split; [reflexivity | apply twin_put; assumption]. Qed.
  Lemma rt_modify i g : (forall e, seed_ok e -> seed_ok (g e)) -> rt (modify_em P i g) (modify_em P i g).
  Proof. intros Hg. apply rt_at. intros e He. apply rt_put, Hg, He. Qed.

  Lemma rt_use i : rt (fun w => (Ok tt, use_entropy P i w)) (fun w => (Ok tt, use_entropy P i w)).
  Proof. apply lifted. intros v1 v2. apply rel_use. exact I. Qed.
  Lemma rt_call i : rt (em_call P fuel str_of i) (em_call P fuel str_of i).
  Proof. apply lifted. intros v1 v2. apply rel_em_call. exact I. Qed.
  Lemma rt_call_n i n : rt (em_call_n P fuel str_of i n) (em_call_n P fuel str_of i n).
  Proof. apply lifted. intros v1 v2. apply rel_em_call_n. exact I. Qed.
  Lemma rt_reset i : rt (em_reset P fuel i) (em_reset P fuel i).
  Proof. apply lifted. intros v1 v2. apply rel_em_reset. exact I. Qed.
  Lemma rt_fd_call i : rt (fd_call P fuel str_of i) (fd_call P fuel str_of i).
  Proof. apply lifted. intros v1 v2. apply rel_fd_call. exact I. Qed.
  Lemma rt_fd_reset i : rt (fd_reset P fuel i) (fd_reset P fuel i).
  Proof. apply lifted. intros v1 v2. apply rel_fd_reset. exact I. Qed.
  Lemma rt_fd_seed i s : sok s -> rt (fd_seed P fuel i s) (fd_seed P fuel i s).
  Proof. intros Hs. apply lifted. intros v1 v2. apply rel_fd_seed; [exact I | exact Hs]. Qed.
  Lemma rt_bound i f : urel twin (bound P i f) (bound P i f).
  Proof.
    split; [reflexivity|]. split; intros args kw.
    - apply rel_lift.
    - apply lifted. intros v1 v2. apply (bound_urel true sok T T T v1 v2 i f I).
  Qed.
  Lemma rt_install i f : rt (install P i f) (install P i f).
  Proof. apply rt_modify. intros [] He; exact He. Qed.

  Lemma rt_set_function i f : rt (set_function P fuel str_of i f) (set_function P fuel str_of i f).
  Proof.
    apply rt_at. intros e _. destruct e; try apply rel_raise.
    - apply rel_wrapone_set; auto using rt_call, rt_install, rt_reset, rt_bound.
    - apply rel_wrapmany_set; auto using rt_install, rt_reset, rt_bound.
      induction sources as [|[k j] t IH]; cbn [map]; constructor; [|exact IH].
      split; [reflexivity|]. cbn. split; [apply rt_call | intros n; apply rt_call_n].
    - intros w1 w2 H.
      assert (Nm : map (fun x => (name_of P x w1, fd_call P fuel str_of x)) source = map (fun x => (name_of P x w2, fd_call P fuel str_of x)) source).
      { apply map_ext. intros x. f_equal. unfold name_of. pose proof (twin_fd w1 w2 x H) as Q.
        destruct (get_fd x w1), (get_fd x w2); try contradiction; [apply Q | reflexivity]. }
      rewrite Nm. apply rel_based_set; auto using rt_install, rt_reset, rt_bound.
      induction source as [|j t IH]; cbn [map]; constructor; [|apply IH; injection Nm; auto].
      split; [reflexivity|]. apply rt_fd_call.
  Qed.

  (** Setters of Choice *)
  Definition same_seed (c1 c2 : @choice P val) : Prop := c_seed c1 = c_seed c2.
  Lemma ss_trans a b c : same_seed a b -> same_seed b c -> same_seed a c.
  Proof. unfold same_seed. congruence. Qed.
  Lemma ss_refl a : same_seed a a.
  Proof. reflexivity. Qed.
  Notation ss := (keeps same_seed).
  Lemma ss_shuffle : ss (global_shuffle P fuel).
  Proof.
    intros c. unfold global_shuffle, mbind, ChoiceModel.get, on_rng, modify.
    match goal with |- context [weighted_shuffle P fuel ?a ?b ?n ?r] => destruct (weighted_shuffle P fuel a b n r) as [[l|e|] rg] end;
      reflexivity.
  Qed.
  Lemma ss_bind A B (m : M (@choice P val) A) (k : A -> M (@choice P val) B) : ss m -> (forall a, ss (k a)) -> ss (mbind m k).
  Proof. apply keeps_bind; [exact ss_refl | exact ss_trans]. Qed.
  Lemma ss_mod g : (forall c, same_seed c (g c)) -> ss (modify P g).
  Proof. intros H c. apply H. Qed.
  Lemma ss_replace b : ss (set_replace P fuel b).
  Proof.
    apply ss_bind; [intros c; reflexivity|]. intros c. destruct (Bool.eqb _ _); [intros ?; reflexivity|].
    apply ss_bind; [apply ss_mod; reflexivity|]. intros _. destruct b; [apply ss_mod; reflexivity|].
    apply ss_bind; [apply ss_mod; reflexivity | intros _; apply ss_shuffle].
  Qed.
  Lemma ss_weights ws b : ss (set_weights P fuel ws b).
  Proof.
    apply ss_bind; [intros c; reflexivity|]. intros c. apply ss_bind; [intros ?; reflexivity|]. intros wc.
    apply ss_bind; [apply ss_mod; reflexivity|]. intros _. destruct (c_replace c); [intros ?; reflexivity | apply ss_shuffle].
  Qed.
  Lemma ss_roac b : ss (set_replace_only_after_call P fuel b).
  Proof.
    apply ss_bind; [apply ss_mod; reflexivity|]. intros _. destruct b; [apply ss_replace | intros ?; reflexivity].
  Qed.
  Lemma ss_reset ent : ss (choice_reset P fuel ent).
  Proof.
    apply ss_bind; [apply ss_mod; reflexivity|]. intros _. apply ss_bind; [intros c; reflexivity|].
    intros c. destruct (c_replace c); [intros ?; reflexivity | apply ss_shuffle].
  Qed.
  Lemma rt_run_choice A i (m : M (@choice P val) A) : ss m -> rt (run_choice P i m) (run_choice P i m).
  Proof.
    intros Hm. apply rt_at. intros e He. destruct e; try (intros w1 w2 H; split; [reflexivity | exact H]).
    intros w1 w2 H. specialize (Hm c). destruct (m c) as [r c']. split; [reflexivity|]. apply twin_put; [exact H|].
    intros nd [= <-]. cbn in *. rewrite <- Hm. exact (He _ eq_refl).
  Qed.

  Lemma rt_set i s : rt (em_set P fuel i s) (em_set P fuel i s).
  Proof.
    assert (Noseed : forall e, node_of P e = None -> seed_ok e) by (intros e H nd; congruence).
    assert (It : forall A (m : M (iterative val) A), rt (run_iter P i m) (run_iter P i m)).
    { intros A m. apply rt_at. intros e He w1 w2 H. destruct e; try (split; [reflexivity | exact H]).
      destruct (m i0) as [r i1]. split; [reflexivity | apply twin_put; auto]. }
    assert (Sq : forall A (m : M (sequential val) A), rt (run_seq P i m) (run_seq P i m)).
    { intros A m. apply rt_at. intros e He w1 w2 H. destruct e; try (split; [reflexivity | exact H]).
      destruct (m s0) as [r s1]. split; [reflexivity | apply twin_put; auto]. }
    apply rt_at. intros e He. destruct e, s as [v|fa|ra|st]; try apply rel_raise; auto.
    - apply rt_modify. intros [] ?; auto.
    - apply rel_bind; [apply Sq|]. intros _. apply rt_modify. intros [] ?; auto.
    - destruct st; apply rt_run_choice; auto using ss_weights, ss_replace, ss_roac.
  Qed.

  Lemma rt_do_method (g : nat -> M world unit) l : (forall f, rt (g f) (g f)) ->
    rt (group_do_method (fun f _ => Some (g f)) l) (group_do_method (fun f _ => Some (g f)) l).
  Proof. intros H. apply rel_do_method. intros o _ s1 s2 _. apply H. Qed.

  Lemma rt_new_static v : rt (new_static P v) (new_static P v).
  Proof. apply rt_alloc. intros nd H; discriminate H. Qed.

  Lemma twin_multi w1 w2 i : twin w1 w2 -> items_list P i w1 = items_list P i w2.
  Proof. intros H. unfold items_list. rewrite (twin_em _ _ i H). reflexivity. Qed.
  Lemma twin_nuv w1 w2 i : twin w1 w2 -> nuv_at P i w1 = nuv_at P i w2.
  Proof. intros H. unfold nuv_at. rewrite (twin_em _ _ i H). reflexivity. Qed.

  Theorem rt_exec c : seeded P c -> rt (exec P fuel str_of c) (exec P fuel str_of c).
  Proof.
    assert (Fin : forall A (m : M world A), rt m m -> rt (m ;;; ret tt) (m ;;; ret tt)).
    { intros A m H. apply rel_bind; [exact H | intros _; apply rel_ret]. }
    assert (Wrap : forall e f, seed_ok e ->
      rt (i <~ alloc_em P e ;; em_reset P fuel i ;;; set_function P fuel str_of i f ;;; ret i)
         (i <~ alloc_em P e ;; em_reset P fuel i ;;; set_function P fuel str_of i f ;;; ret i)).
    { intros e f He. apply rel_bind; [apply rt_alloc, He|]. intros i. apply rel_bind; [apply rt_reset|]. intros _.
      apply rel_bind; [apply rt_set_function|]. intros _. apply rel_ret. }
    destruct c; cbn [exec seeded]; intros Hs; try apply Fin.
    - apply rt_new_static.
    - apply rel_bind; [apply rel_lift|]. intros i. apply rt_alloc. intros nd H; discriminate H.
    - apply rel_bind; [apply rel_lift|]. intros i. apply rt_alloc. intros nd H; discriminate H.
    - destruct seed as [s|]; [|destruct Hs; reflexivity]. intros w1 w2 H.
      assert (E : choice_new P fuel items weights replace roac (Some s) cum_weights (em_entropy (length (w_em P w1)) (w_run P w1)) =
        choice_new P fuel items weights replace roac (Some s) cum_weights (em_entropy (length (w_em P w2)) (w_run P w2))) by reflexivity.
      unfold new_choice. rewrite E. clear E.
      destruct (choice_new P fuel items weights replace roac (Some s) cum_weights (em_entropy (length (w_em P w2)) (w_run P w2))) as [c|x|] eqn:Ec.
      2,3: split; [reflexivity | exact H].
      assert (X : rt (id <~ alloc_em P (EChoice P islist c) ;; (fun w => (Ok tt, use_entropy P id w)) ;;; ret id)
                     (id <~ alloc_em P (EChoice P islist c) ;; (fun w => (Ok tt, use_entropy P id w)) ;;; ret id)); [|apply X, H].
      apply rel_bind; [|intros i; apply rel_bind; [apply rt_use | intros _; apply rel_ret]]. apply rt_alloc.
      intros nd [= <-]. cbn. assert (Sc : c_seed c = Some s); [|rewrite Sc; exact Hs].
      unfold choice_new in Ec. destruct items; [discriminate|]. destruct (_ && _); [discriminate|].
      destruct (all_weights _ _ _ _) as [wc|x|]; try discriminate. cbn [bind] in Ec.
      match type of Ec with context [choice_reset P fuel ?en ?c0] =>
        assert (K : c_seed c0 = c_seed (snd (choice_reset P fuel en c0))) end.
      { apply ss_reset. }
      destruct (choice_reset _ _ _ _) as [[[]|x|] c'] in Ec, K; try discriminate. injection Ec as <-. symmetry. exact K.
    - apply rel_bind; [apply rt_alloc; intros nd [= <-]; exact Hs|]. intros i. apply rel_bind; [apply rt_reset|]. intros _.
      apply rel_bind; [apply rel_pure; intros s1 s2 H; rewrite (twin_nuv _ _ _ H), (twin_multi _ _ _ H); reflexivity|]. intros u.
      apply rel_bind; [apply rt_modify; intros [] He; exact He | intros _; apply rel_ret].
    - apply rel_bind; [destruct sep_em; [apply rel_ret | apply rt_new_static]|]. intros sp.
      apply rel_bind; [apply rt_alloc; intros nd [= <-]; exact Hs|]. intros i. apply rel_bind; [apply rt_reset|]. intros _.
      apply rel_bind; [apply rel_pure; intros s1 s2 H; rewrite !(twin_nuv _ _ _ H), (twin_multi _ _ _ H); reflexivity|]. intros u.
      apply rel_bind; [apply rt_modify; intros [] He; exact He | intros _; apply rel_ret].
    - apply Wrap. intros nd [= <-]. exact Hs.
    - apply Wrap. intros nd [= <-]. exact Hs.
    - apply rt_alloc. intros nd H; discriminate H.
    - apply Wrap. intros nd [= <-]. exact Hs.
    - apply rel_bind; [destruct rep; [apply rel_ret | apply rt_new_static]|]. intros r.
      apply rel_bind; [destruct gate; [apply rel_ret | apply rt_new_static]|]. intros g.
      apply rel_bind; [apply rt_alloc_fd; exact Hs|]. intros f. apply rel_bind; [apply rt_fd_reset | intros _; apply rel_ret].
    - apply rt_set.
    - apply rt_set_function.
    - intros w1 w2 H. unfold fd_set_part, modify_fd, at_fd. pose proof (twin_fd w1 w2 f H) as Q.
      destruct (get_fd f w1) as [x1|] eqn:E1, (get_fd f w2) as [x2|]; try contradiction; [|split; [reflexivity | exact H]].
      split; [reflexivity|]. pose proof (twin_fok w1 w2 f x1 H E1) as So. destruct Q as [(Q1 & Q2 & Q3 & Q4 & Q5) [Q6 Q7]].
      destruct p; apply twin_put_fd; auto; repeat split; cbn; congruence.
    - intros w1 w2 H. unfold fd_set_hide, modify_fd, at_fd. pose proof (twin_fd w1 w2 f H) as Q.
      destruct (get_fd f w1) as [x1|] eqn:E1, (get_fd f w2) as [x2|]; try contradiction; [|split; [reflexivity | exact H]].
      split; [reflexivity|]. pose proof (twin_fok w1 w2 f x1 H E1) as So. destruct Q as [(Q1 & Q2 & Q3 & Q4 & Q5) [Q6 Q7]].
      apply twin_put_fd; auto; repeat split; cbn; congruence.
    - apply rt_at. intros e _. destruct e; try apply rel_raise; apply rt_do_method; intros f; apply rt_fd_reset.
    - apply rt_at. intros e _. destruct e; try apply rel_raise; apply rt_do_method; intros f; apply rt_fd_seed, Hs.
    - apply rt_at. intros e He. destruct e; try apply rel_raise; apply rt_put; exact He.
    - apply rt_at. intros e He. destruct e; try apply rel_raise; apply rt_put; exact He.
    - apply lifted. intros v1 v2. apply rel_run. destruct o; cbn; auto.
    - apply rel_bind; [apply rt_alloc; intros nd Hn; destruct random as [s|]; [injection Hn as <-; exact Hs | discriminate Hn]|]. intros i.
      apply rel_bind; [destruct random; [apply rt_reset | apply rel_ret] | intros _; apply rel_ret].
  Qed.

  Lemma rt_show c : seeded P c -> rt (show P fuel str_of c) (show P fuel str_of c).
  Proof.
    intros Hs. assert (Other : rt (exec P fuel str_of c ;;; ret Done) (exec P fuel str_of c ;;; ret Done)).
    { apply rel_bind; [apply rt_exec, Hs | intros _; apply rel_ret]. }
    destruct c; try exact Other. apply lifted. intros v1 v2. apply rel_run. destruct o; cbn; auto.
  Qed.

  Lemma twin_start r1 r2 : twin (start P r1) (start P r2).
  Proof. apply twin_intro; try (intros [|]; intros; discriminate); intros [|]; reflexivity. Qed.

  (** A program in which every object is created with a seed, and nothing is
      seeded with None, shows the same in every run. *)
  Theorem C65_reproducible (p : list (command P)) r1 r2 :
    Forall (seeded P) p ->
    fst (run_program P fuel str_of p (start P r1)) = fst (run_program P fuel str_of p (start P r2)).
  Proof.
    intros Hp. generalize (twin_start r1 r2). generalize (start P r1) (start P r2).
    induction Hp as [|c t Hc _ IH]; intros w1 w2 H; [reflexivity|]. cbn [run_program].
    destruct (rt_show c Hc w1 w2 H) as [E H']. destruct (show _ _ _ c w1) as [a1 u1], (show _ _ _ c w2) as [a2 u2].
    cbn [fst snd] in *. subst a2. specialize (IH u1 u2 H').
    destruct (run_program _ _ _ t u1), (run_program _ _ _ t u2). cbn [fst] in *. congruence.
  Qed.
End Twins.

(** ** C66 *)

Section Rebuilt.
  Context {P : prims} (fuel : nat) (str_of : val -> res (list Z)).
  Notation world := (World.world P).
  Notation emitter := (World.emitter P).
  Notation get_em := (World.get_em P).
  Notation get_fd := (World.get_fd P).

  (** *** What keeps the configuration *)
  Notation kw := (keeps (@wconf P)).
  Lemma kw_bind A B (m : M world A) (k : A -> M world B) : kw m -> (forall a, kw (k a)) -> kw (mbind m k).
  Proof. apply keeps_bind; [exact wconf_refl | exact wconf_trans]. Qed.
  Lemma kw_lift A (r : res A) : kw (lift r).
  Proof. intros w. apply wconf_refl. Qed.
  Lemma kw_run A (o : op P) (m : M world A) (k : A -> answer) :
    WorldSpec.run P fuel str_of o = (fun w => (a <~ m ;; ret (k a)) w) -> kw m.
  Proof.
    intros E w. pose proof (run_conf fuel str_of w o) as C. rewrite E in C.
    unfold mbind, ret in C. destruct (m w) as [[]]; exact C.
  Qed.
  Lemma kw_call i : kw (em_call P fuel str_of i).
  Proof. apply (kw_run _ (Emit P i) _ Value). reflexivity. Qed.
  Lemma kw_call_n i n : kw (em_call_n P fuel str_of i n).
  Proof. apply (kw_run _ (EmitN P i n) _ Values). reflexivity. Qed.
  Lemma kw_reset i : kw (em_reset P fuel i).
  Proof. apply (kw_run _ (ResetEm P i) _ (fun _ => Done)). reflexivity. Qed.
  Lemma kw_fd_call i : kw (fd_call P fuel str_of i).
  Proof. apply (kw_run _ (Call P i) _ Value). reflexivity. Qed.
  Lemma kw_fd_reset i : kw (fd_reset P fuel i).
  Proof. apply (kw_run _ (Reset P i) _ (fun _ => Done)). reflexivity. Qed.
  Lemma kw_fd_seed i s : kw (fd_seed P fuel i s).
  Proof. apply (kw_run _ (Seed P i s) _ (fun _ => Done)). reflexivity. Qed.
  Lemma kw_run_rng A i (m : M (pR P) A) : kw (run_rng P i m).
  Proof.
    intros w. unfold run_rng, at_em. destruct (get_em i w) as [e|] eqn:E; try apply wconf_refl.
    destruct (node_of P e); [|apply wconf_refl]. destruct (m _). cbn [snd].
    apply (within_put (fun _ => True) (fun _ => True) w w i e _ (within_refl _ _ w) I E). apply conf_node.
  Qed.
  Lemma bound_kw (s0 : world) i f : urel (since (@wconf P) s0) (bound P i f) (bound P i f).
  Proof.
    split; [reflexivity|]. split; intros args kw; apply keeps_rel; try exact wconf_trans; [apply kw_lift | apply kw_run_rng].
  Qed.
  Lemma kw_mock i f args kwargs : kw (try_mock_call (bound P i f) args kwargs).
  Proof. apply rel_keeps; [exact wconf_refl|]. intros s0. apply rel_try_mock_call, bound_kw. Qed.
  Lemma kw_mapS A B (f : A -> M world B) l : (forall a, In a l -> kw (f a)) -> kw (mapS f l).
  Proof.
    intros H. apply rel_keeps; [exact wconf_refl|]. intros s0. apply rel_mapS. intros a Ha.
    apply keeps_rel; [exact wconf_trans | apply H; exact Ha].
  Qed.
  Lemma kw_ret A (a : A) : kw (ret a).
  Proof. intros w. apply wconf_refl. Qed.
  Lemma kw_do_method (g : nat -> M world unit) l : (forall f, kw (g f)) -> kw (group_do_method (fun f _ => Some (g f)) l).
  Proof.
    intros H. induction l as [|[o|] t IH]; cbn [group_do_method]; [intros w; apply wconf_refl | | exact IH].
    apply kw_bind; [|intros _; exact IH]. intros w. unfold catch_attribute_error.
    specialize (H o w). destruct (g o w) as [[[]|[]|] w1]; exact H.
  Qed.
  Lemma kw_use i : kw (fun w => (Ok tt, use_entropy P i w)).
  Proof. intros w. apply (within_use (fun _ => True) (fun _ => True) w w i (within_refl _ _ w) I). Qed.

  (** *** In two states with the same configuration, when no exception is raised *)
  Definition both {A} (Q : A -> A -> Prop) (m1 m2 : M world A) : Prop :=
    forall w1 w2 a1 a2 u1 u2, wconf w1 w2 -> m1 w1 = (Ok a1, u1) -> m2 w2 = (Ok a2, u2) -> Q a1 a2 /\ wconf u1 u2.
  Notation any := (fun _ _ => True).

  Lemma b_bind A B (Q : A -> A -> Prop) (R : B -> B -> Prop) m1 m2 k1 k2 :
    both Q m1 m2 -> (forall a b, Q a b -> both R (k1 a) (k2 b)) -> both R (mbind m1 k1) (mbind m2 k2).
  Proof.
    intros Hm Hk w1 w2 b1 b2 u1 u2 W H1 H2.
    apply mbind_ok_inv in H1. destruct H1 as (a1 & v1 & E1 & F1).
    apply mbind_ok_inv in H2. destruct H2 as (a2 & v2 & E2 & F2).
    destruct (Hm _ _ _ _ _ _ W E1 E2) as [Hq W']. exact (Hk _ _ Hq _ _ _ _ _ _ W' F1 F2).
  Qed.
  Lemma b_kw A (m1 m2 : M world A) : kw m1 -> kw m2 -> both any m1 m2.
  Proof.
    intros K1 K2 w1 w2 a1 a2 u1 u2 W H1 H2. split; [exact I|]. specialize (K1 w1). specialize (K2 w2).
    rewrite H1 in K1. rewrite H2 in K2. cbn [snd] in *.
    eapply wconf_trans; [apply wconf_sym; exact K1|]. eapply wconf_trans; [exact W | exact K2].
  Qed.
  Lemma b_ret A (Q : A -> A -> Prop) a b : Q a b -> both Q (ret a) (ret b).
  Proof. intros H w1 w2 a1 a2 u1 u2 W [= <- <-] [= <- <-]. split; assumption. Qed.
  Lemma b_unit (m1 m2 : M world unit) Q : both Q m1 m2 -> both any m1 m2.
  Proof. intros H w1 w2 a1 a2 u1 u2 W H1 H2. split; [exact I | eapply H; eauto]. Qed.
  Lemma b_done A (Q : A -> A -> Prop) m1 m2 : both Q m1 m2 -> both any (m1 ;;; ret tt) (m2 ;;; ret tt).
  Proof. intros H. eapply b_bind; [exact H|]. intros; apply b_ret; exact I. Qed.
  Lemma b_raise A (Q : A -> A -> Prop) e m : both Q (raise e) m.
  Proof. intros w1 w2 a1 a2 u1 u2 W H1. discriminate H1. Qed.
  Lemma b_finally (m1 m2 : M world unit) f1 f2 : both any m1 m2 -> both any f1 f2 ->
    both any (try_finally m1 f1) (try_finally m2 f2).
  Proof.
    intros Hm Hf w1 w2 a1 a2 u1 u2 W H1 H2.
    apply try_finally_ok_inv in H1. destruct H1 as (v1 & E1 & F1).
    apply try_finally_ok_inv in H2. destruct H2 as (v2 & E2 & F2).
    destruct (Hm _ _ _ _ _ _ W E1 E2) as [_ W']. destruct (Hf _ _ _ _ _ _ W' F1 F2) as [_ W'']. split; [exact I | exact W''].
  Qed.

  Lemma wconf_put w1 w2 i e1 e2 : wconf w1 w2 -> conf e1 e2 -> wconf (put_em P i e1 w1) (put_em P i e2 w2).
  Proof.
    intros [W1 W2] C. split.
    - intros j. rewrite !get_put. destruct (Nat.eqb j i); [|apply W1]. specialize (W1 i).
      destruct (get_em i w1), (get_em i w2); try contradiction; cbn; auto.
    - intros f. rewrite !get_fd_put. apply W2.
  Qed.
  Lemma wconf_put_fd w1 w2 f x1 x2 : wconf w1 w2 -> fconf x1 x2 -> wconf (put_fd P f x1 w1) (put_fd P f x2 w2).
  Proof.
    intros [W1 W2] C. split.
    - intros j. apply W1.
    - intros g. rewrite !get_put_fd. destruct (Nat.eqb g f); [|apply W2]. specialize (W2 f).
      destruct (get_fd f w1), (get_fd f w2); try contradiction; cbn; auto.
  Qed.
  Lemma b_at A Q i (k1 k2 : emitter -> M world A) :
    (forall e1 e2, conf e1 e2 -> both Q (k1 e1) (k2 e2)) -> both Q (at_em P i k1) (at_em P i k2).
  Proof.
    intros H w1 w2 a1 a2 u1 u2 W H1 H2. unfold at_em in H1, H2. pose proof (proj1 W i) as C.
    destruct (get_em i w1) as [e1|], (get_em i w2) as [e2|]; try contradiction; try discriminate.
    exact (H _ _ C _ _ _ _ _ _ W H1 H2).
  Qed.
  Lemma b_put i e1 e2 : conf e1 e2 -> both any (fun w => (Ok tt, put_em P i e1 w)) (fun w => (Ok tt, put_em P i e2 w)).
  Proof. intros C w1 w2 a1 a2 u1 u2 W [= _ <-] [= _ <-]. split; [exact I | apply wconf_put; assumption]. Qed.
  Lemma b_modify i g1 g2 : (forall e1 e2, conf e1 e2 -> conf (g1 e1) (g2 e2)) -> both any (modify_em P i g1) (modify_em P i g2).
  Proof. intros H. apply b_at. intros e1 e2 C. apply b_put, H, C. Qed.
  Lemma b_modify_fd f g1 g2 : (forall x1 x2, fconf x1 x2 -> fconf (g1 x1) (g2 x2)) -> both any (modify_fd P f g1) (modify_fd P f g2).
  Proof.
    intros H w1 w2 a1 a2 u1 u2 W H1 H2. unfold modify_fd, at_fd in H1, H2. pose proof (proj2 W f) as C.
    destruct (get_fd f w1) as [x1|], (get_fd f w2) as [x2|]; try contradiction; try discriminate.
    injection H1 as _ <-. injection H2 as _ <-. split; [exact I | apply wconf_put_fd; auto].
  Qed.
  Lemma b_run_iter A i (m : M (iterative val) A) :
    (forall x y, conf (EIter P x) (EIter P y) -> conf (EIter P (snd (m x))) (EIter P (snd (m y)))) ->
    both any (run_iter P i m) (run_iter P i m).
  Proof.
    intros H. apply b_at. intros e1 e2 C w1 w2 a1 a2 u1 u2 W H1 H2. split; [exact I|].
    destruct e1; try discriminate H1. destruct e2; try discriminate H2.
    specialize (H _ _ C). destruct (m i0), (m i1). injection H1 as _ <-. injection H2 as _ <-.
    apply wconf_put; assumption.
  Qed.
  Lemma b_run_seq A i (m : M (sequential val) A) :
    (forall b x y a1 a2, conf (ESeq P b x) (ESeq P b y) -> fst (m x) = Ok a1 -> fst (m y) = Ok a2 ->
       conf (ESeq P b (snd (m x))) (ESeq P b (snd (m y)))) ->
    both any (run_seq P i m) (run_seq P i m).
  Proof.
    intros H. apply b_at. intros e1 e2 C w1 w2 a1 a2 u1 u2 W H1 H2. split; [exact I|].
    destruct e1; try discriminate H1. destruct e2; try discriminate H2. pose proof (proj1 C) as <-.
    specialize (H _ _ _ a1 a2 C). destruct (m s), (m s0). injection H1 as -> <-. injection H2 as -> <-.
    apply wconf_put; [exact W | apply H; reflexivity].
  Qed.
  Lemma b_run_choice i (m : M (@choice P val) unit) :
    (forall x y x' y', cconf x y -> m x = (Ok tt, x') -> m y = (Ok tt, y') -> cconf x' y') ->
    both any (run_choice P i m) (run_choice P i m).
  Proof.
    intros H. apply b_at. intros e1 e2 C w1 w2 a1 a2 u1 u2 W H1 H2. split; [exact I|].
    destruct e1; try discriminate H1. destruct e2; try discriminate H2. destruct C as [<- C].
    destruct (m c) as [[[]| |] c'] eqn:E1; try discriminate H1. destruct (m c0) as [[[]| |] c0'] eqn:E2; try discriminate H2.
    injection H1 as <- <-. injection H2 as <- <-. apply wconf_put; [exact W|]. split; [reflexivity|]. exact (H _ _ _ _ C E1 E2).
  Qed.

  (** *** New objects *)
  Lemma get_fd_app f w x : get_fd f (mkWorld P (w_em P w) (w_fd P w ++ [x]) (w_run P w)) =
    if Nat.eqb f (length (w_fd P w)) then Some x else get_fd f w.
  Proof.
    unfold World.get_fd. cbn. destruct (Nat.eqb_spec f (length (w_fd P w))) as [->|N].
    - rewrite nth_error_app2 by lia. rewrite Nat.sub_diag. reflexivity.
    - destruct (Nat.lt_ge_cases f (length (w_fd P w))) as [L|L]; [rewrite nth_error_app1 by exact L; reflexivity|].
      rewrite (proj2 (nth_error_None (w_fd P w) f)) by exact L. apply nth_error_None. rewrite app_length. cbn. lia.
  Qed.
  Lemma b_alloc e1 e2 : conf e1 e2 -> both eq (alloc_em P e1) (alloc_em P e2).
  Proof.
    intros C w1 w2 a1 a2 u1 u2 W [= <- <-] [= <- <-]. destruct (wconf_shape _ _ W) as (L & _). split; [exact L|]. split.
    - intros j. rewrite !get_em_app, <- L. destruct (Nat.eqb j _); [exact C | apply W].
    - intros f. apply (proj2 W f).
  Qed.
  Lemma b_alloc_fd x1 x2 : fconf x1 x2 -> both eq (alloc_fd P x1) (alloc_fd P x2).
  Proof.
    intros C w1 w2 a1 a2 u1 u2 W [= <- <-] [= <- <-]. destruct (wconf_shape _ _ W) as (_ & L & _). split; [exact L|]. split.
    - intros j. apply (proj1 W j).
    - intros f. rewrite !get_fd_app, <- L. destruct (Nat.eqb f _); [exact C | apply W].
  Qed.

  Lemma b_install i f : both any (install P i f) (install P i f).
  Proof. apply b_modify. intros e1 e2 C. destruct e1, e2; cbn in *; try contradiction; intuition congruence. Qed.
  Lemma b_install_reset i f : both any (install P i f ;;; em_reset P fuel i) (install P i f ;;; em_reset P fuel i).
  Proof. eapply b_bind; [apply b_install|]. intros _ _ _. apply b_kw; apply kw_reset. Qed.

  Lemma b_set_function i f : both any (set_function P fuel str_of i f) (set_function P fuel str_of i f).
  Proof.
    apply b_at. intros e1 e2 C. destruct e1; try apply b_raise; destruct e2; try contradiction C.
    - apply b_finally; [|apply b_install_reset].
      apply b_kw; (apply kw_bind; [apply kw_call | intros v; apply kw_mock]).
    - unfold wrapmany_set. eapply b_bind with (Q := any).
      + apply b_kw; apply kw_mapS; intros [k [c1 c2]] Hin; apply in_map_iff in Hin;
          destruct Hin as ([k' j] & [= <- <- <-] & _); (apply kw_bind; [apply kw_call | intros v; apply kw_ret]).
      + intros kw1 kw2 _. apply b_finally; [|apply b_install_reset]. apply b_kw; apply kw_mock.
    - intros w1 w2. revert w1 w2.
      assert (X : forall s1 s2, (forall n c, In (n, c) s1 \/ In (n, c) s2 -> kw c) ->
        both any (based_set s1 (fun _ => install P i f) (em_reset P fuel i) (bound P i f))
                 (based_set s2 (fun _ => install P i f) (em_reset P fuel i) (bound P i f))).
      { intros s1 s2 Hs. eapply b_bind; [apply b_install|]. intros _ _ _. eapply b_bind with (Q := any).
        - apply b_kw; apply kw_mapS; intros [n c] Hin; (apply kw_bind; [apply (Hs n c); auto | intros v; apply kw_ret]).
        - intros v1 v2 _. destruct (action_args v1), (action_args v2). apply b_finally; apply b_kw; auto using kw_mock, kw_reset. }
      intros w1 w2 a1 a2 u1 u2 W H1 H2. eapply X; [|exact W | exact H1 | exact H2].
      intros n c Hin. rewrite !in_map_iff in Hin. destruct Hin as [(x & [= _ <-] & _)|(x & [= _ <-] & _)]; apply kw_fd_call.
  Qed.

  (** *** Settings of Choice *)
  Lemma shuffle_conf (x x' : @choice P val) : c_replace x = false -> global_shuffle P fuel x = (Ok tt, x') -> cconf x x'.
  Proof. intros R H. pose proof (kshuffle fuel x R) as K. rewrite H in K. exact (proj1 K). Qed.
  Lemma conf_via (x y x1 y1 x' y' : @choice P val) : cconf x1 y1 -> cconf x1 x' -> cconf y1 y' -> cconf x' y'.
  Proof. intros C A B. eapply cconf_trans; [apply cconf_sym; exact A|]. eapply cconf_trans; [exact C | exact B]. Qed.

  Lemma set_replace_conf b (x y x' y' : @choice P val) : cconf x y ->
    set_replace P fuel b x = (Ok tt, x') -> set_replace P fuel b y = (Ok tt, y') -> cconf x' y'.
  Proof.
    intros C H1 H2. unfold set_replace, mbind, ChoiceModel.get, modify in H1, H2.
    pose proof C as (I1 & I2 & I3 & I4 & I5 & I6). rewrite <- I4 in H2.
    destruct (Bool.eqb b (c_replace x)) eqn:Eb; [injection H1 as <-; injection H2 as <-; exact C|].
    destruct b.
    - injection H1 as <-. injection H2 as <-. unfold cconf, set_nui, set_rep. cbn. rewrite I1. repeat split; auto.
    - eapply conf_via; [exact x | exact y | | eapply shuffle_conf; [|exact H1] | eapply shuffle_conf; [|exact H2]]; try reflexivity.
      unfold cconf, set_roac, set_rep. cbn. repeat split; auto. discriminate.
  Qed.
  Lemma set_weights_conf ws b (x y x' y' : @choice P val) : cconf x y ->
    set_weights P fuel ws b x = (Ok tt, x') -> set_weights P fuel ws b y = (Ok tt, y') -> cconf x' y'.
  Proof.
    intros C H1 H2. unfold set_weights, mbind, ChoiceModel.get, modify, lift in H1, H2.
    pose proof C as (I1 & I2 & I3 & I4 & I5 & I6). rewrite <- I4, <- I1 in H2.
    destruct (all_weights P (c_items x) ws b) as [wc|e|]; try discriminate.
    assert (C' : cconf (set_ws P (fst wc) (snd wc) x) (set_ws P (fst wc) (snd wc) y)).
    { unfold cconf, set_ws. cbn. repeat split; auto. }
    destruct (c_replace x) eqn:R; [injection H1 as <-; injection H2 as <-; exact C'|].
    eapply conf_via; [exact x | exact y | exact C' | eapply shuffle_conf; [|exact H1] | eapply shuffle_conf; [|exact H2]];
      cbn; congruence.
  Qed.
  Lemma set_roac_conf b (x y x' y' : @choice P val) : cconf x y ->
    set_replace_only_after_call P fuel b x = (Ok tt, x') -> set_replace_only_after_call P fuel b y = (Ok tt, y') -> cconf x' y'.
  Proof.
    intros C H1 H2. unfold set_replace_only_after_call, mbind, modify in H1, H2.
    assert (C' : cconf (set_roac P b x) (set_roac P b y)).
    { destruct C as (I1 & I2 & I3 & I4 & I5 & I6). unfold cconf, set_roac. cbn. repeat split; auto. }
    destruct b; [|injection H1 as <-; injection H2 as <-; exact C'].
    exact (set_replace_conf true _ _ _ _ C' H1 H2).
  Qed.

  Lemma choice_new_conf items ws rep roac seed cum ent1 ent2 (c1 c2 : @choice P val) :
    choice_new P fuel items ws rep roac seed cum ent1 = Ok c1 ->
    choice_new P fuel items ws rep roac seed cum ent2 = Ok c2 -> cconf c1 c2.
  Proof.
    unfold choice_new. destruct items as [|a t]; [discriminate|]. destruct (_ && _); [discriminate|].
    destruct (all_weights P (a :: t) _ _) as [wc|e|]; cbn [bind]; try discriminate.
    match goal with |- match choice_reset P fuel ent1 ?x with _ => _ end = _ -> match choice_reset P fuel ent2 ?y with _ => _ end = _ -> _ =>
      assert (C : cconf x y) by (repeat split); pose proof (proj1 (kreset fuel ent1 x)) as K1; pose proof (proj1 (kreset fuel ent2 y)) as K2;
      destruct (choice_reset P fuel ent1 x) as [[[]| |] x'], (choice_reset P fuel ent2 y) as [[[]| |] y']; try discriminate;
      intros [= <-] [= <-]; exact (conf_via x y _ _ _ _ C K1 K2)
    end.
  Qed.

  Lemma b_set i s : both any (em_set P fuel i s) (em_set P fuel i s).
  Proof.
    apply b_at. intros e1 e2 C.
    destruct e1, s; try apply b_raise; destruct e2; try contradiction C.
    - apply b_modify. clear. intros e1 e2 C. destruct e1, e2; cbn in *; try contradiction; try assumption; congruence.
    - apply b_run_iter. clear. intros x y C. unfold iter_set_factory. destruct (check_iter_factory f 0); cbn in *; intuition.
    - apply b_run_iter. clear. intros x y C. cbn in *. intuition.
    - eapply b_bind; [apply b_run_seq|].
      + clear. intros b x y a1 a2 C H1 H2. unfold seq_set_factory in *.
        destruct (_ <- check_iter_factory f 0 ;; _) as [u|e|]; try discriminate. destruct (f 2%nat); [|discriminate].
        cbn in *. intuition.
      + intros _ _ _. apply b_modify. clear. intros e1 e2 C. destruct e1, e2; cbn in *; try contradiction; try assumption; intuition.
    - apply b_run_seq. clear. intros b0 x y a1 a2 C _ _. cbn in *. intuition.
    - destruct s as [ws|ws|b|b]; apply b_run_choice.
      + apply set_weights_conf.
      + apply set_weights_conf.
      + apply set_replace_conf.
      + apply set_roac_conf.
  Qed.

  Lemma b_new_static v : both eq (new_static P v) (new_static P v).
  Proof. apply b_alloc. reflexivity. Qed.
  Lemma b_option o v : both eq (match o with Some i => ret i | None => new_static P v end)
                              (match o with Some i => ret i | None => new_static P v end).
  Proof. destruct o; [apply b_ret; reflexivity | apply b_new_static]. Qed.
  Lemma kw_read A (f : world -> res A) : kw (fun w => (f w, w)).
  Proof. intros w. apply wconf_refl. Qed.

  (** The same command in two states with the same configuration leads to states
      with the same configuration, if no exception is raised. *)
  Theorem b_exec c : both any (exec P fuel str_of c) (exec P fuel str_of c).
  Proof.
    destruct c; cbn [exec].
    - eapply b_done, b_new_static.
    - apply (b_done _ eq). unfold new_iter. eapply b_bind with (Q := eq).
      + intros w1 w2 a1 a2 u1 u2 W [= E1 <-] [= E2 <-]. split; [congruence | exact W].
      + intros x y <-. apply b_alloc, conf_refl.
    - apply (b_done _ eq). unfold new_seq. eapply b_bind with (Q := eq).
      + intros w1 w2 a1 a2 u1 u2 W [= E1 <-] [= E2 <-]. split; [congruence | exact W].
      + intros x y <-. apply b_alloc, conf_refl.
    - apply (b_done _ any). intros w1 w2. revert w1 w2.
      assert (X : forall e1 e2,
        both any (c <~ lift (choice_new P fuel items weights replace roac seed cum_weights e1) ;;
                  id <~ alloc_em P (EChoice P islist c) ;; (fun w => (Ok tt, use_entropy P id w)) ;;; ret id)
                 (c <~ lift (choice_new P fuel items weights replace roac seed cum_weights e2) ;;
                  id <~ alloc_em P (EChoice P islist c) ;; (fun w => (Ok tt, use_entropy P id w)) ;;; ret id)).
      { intros e1 e2. eapply b_bind with (Q := cconf).
        - intros w1 w2 a1 a2 u1 u2 W [= E1 <-] [= E2 <-]. split; [eapply choice_new_conf; eassumption | exact W].
        - intros x y C. eapply b_bind; [apply b_alloc; split; [reflexivity | exact C]|]. intros i j <-.
          eapply b_bind; [apply b_kw; apply kw_use|]. intros _ _ _. apply b_ret. exact I. }
      intros w1 w2. apply X.
    - apply (b_done _ any). unfold new_word. eapply b_bind; [apply b_alloc; cbn; auto|]. intros i j <-.
      eapply b_bind; [apply b_kw; apply kw_reset|]. intros _ _ _. eapply b_bind; [apply b_kw; apply kw_read|]. intros x y _.
      eapply b_bind; [apply b_modify|].
      + clear. intros e1 e2 C. destruct e1, e2; cbn in *; try contradiction; try assumption; intuition.
      + intros _ _ _. apply b_ret. exact I.
    - apply (b_done _ any). unfold new_text. eapply b_bind; [apply b_option|]. intros sp sp' <-.
      eapply b_bind; [apply b_alloc; cbn; auto|]. intros i j <-.
      eapply b_bind; [apply b_kw; apply kw_reset|]. intros _ _ _. eapply b_bind; [apply b_kw; apply kw_read|]. intros x y _.
      eapply b_bind; [apply b_modify|].
      + clear. intros e1 e2 C. destruct e1, e2; cbn in *; try contradiction; try assumption; intuition.
      + intros _ _ _. apply b_ret. exact I.
    - apply (b_done _ any). unfold new_wrapone. eapply b_bind; [apply b_alloc; cbn; auto|]. intros i j <-.
      eapply b_bind; [apply b_kw; apply kw_reset|]. intros _ _ _. eapply b_bind; [apply b_set_function|].
      intros _ _ _. apply b_ret. exact I.
    - apply (b_done _ any). unfold new_wrapmany. eapply b_bind; [apply b_alloc; cbn; auto|]. intros i j <-.
      eapply b_bind; [apply b_kw; apply kw_reset|]. intros _ _ _. eapply b_bind; [apply b_set_function|].
      intros _ _ _. apply b_ret. exact I.
    - apply (b_done _ eq). apply b_alloc. cbn. auto.
    - apply (b_done _ any). unfold new_based. eapply b_bind; [apply b_alloc; cbn; auto|]. intros i j <-.
      eapply b_bind; [apply b_kw; apply kw_reset|]. intros _ _ _. eapply b_bind; [apply b_set_function|].
      intros _ _ _. apply b_ret. exact I.
    - apply (b_done _ any). unfold new_field. eapply b_bind; [apply b_option|]. intros r r' <-.
      eapply b_bind; [apply b_option|]. intros g g' <-.
      eapply b_bind; [apply b_alloc_fd; repeat split|]. intros i j <-.
      eapply b_bind; [apply b_kw; apply kw_fd_reset|]. intros _ _ _. apply b_ret. exact I.
    - apply b_set.
    - apply b_set_function.
    - apply b_modify_fd. intros x1 x2 (A & B & C & D & E). destruct p; repeat split; cbn; assumption.
    - apply b_modify_fd. intros x1 x2 (A & B & C & D & E). repeat split; cbn; assumption.
    - apply b_at. intros e1 e2 C. destruct e1; try apply b_raise; destruct e2; try contradiction C;
        apply b_kw; apply kw_do_method; intros f; apply kw_fd_reset.
    - apply b_at. intros e1 e2 C. destruct e1; try apply b_raise; destruct e2; try contradiction C;
        apply b_kw; apply kw_do_method; intros f; apply kw_fd_seed.
    - apply b_at. intros e1 e2 C. destruct e1; try apply b_raise; destruct e2; try contradiction C; apply b_put; cbn in *; intuition.
    - apply b_at. intros e1 e2 C. destruct e1; try apply b_raise; destruct e2; try contradiction C; apply b_put; cbn in *; intuition.
    - eapply b_done, b_kw; intros w; apply run_conf.
    - apply (b_done _ any). unfold new_user. eapply b_bind; [apply b_alloc; apply conf_refl|]. intros i j <-.
      eapply b_bind; [apply b_kw; (destruct random; [apply kw_reset | intros w; apply wconf_refl])|]. intros _ _ _. apply b_ret. exact I.
  Qed.

  Lemma wconf_start r1 r2 : wconf (start P r1) (start P r2).
  Proof. split; intros [|n]; exact I. Qed.

  (** Programs that build the same, whatever else they do. *)
  Lemma same_building p1 p2 : building P p1 = building P p2 -> forall w1 w2, wconf w1 w2 ->
    built P fuel str_of p1 w1 -> built P fuel str_of p2 w2 ->
    wconf (snd (run_program P fuel str_of p1 w1)) (snd (run_program P fuel str_of p2 w2)).
  Proof.
    assert (Step : forall c t w, snd (run_program P fuel str_of (c :: t) w) =
                                 snd (run_program P fuel str_of t (snd (show P fuel str_of c w)))).
    { intros c t w. cbn [run_program]. destruct (show _ _ _ c w) as [a u]. cbn [snd]. destruct (run_program _ _ _ t u). reflexivity. }
    assert (Keep : forall c w, is_building P c = false -> wconf w (snd (show P fuel str_of c w))).
    { intros c w Hc. destruct c; try discriminate. apply run_conf. }
    assert (Do1 : forall c t w2 w1 q, is_building P c = false -> (forall w1 w2, wconf w1 w2 -> built P fuel str_of t w1 -> built P fuel str_of q w2 -> 
        wconf (snd (run_program P fuel str_of t w1)) (snd (run_program P fuel str_of q w2))) ->
        wconf w1 w2 -> built P fuel str_of (c :: t) w1 -> built P fuel str_of q w2 ->
        wconf (snd (run_program P fuel str_of (c :: t) w1)) (snd (run_program P fuel str_of q w2))).
    { intros c t w2 w1 q Hc IH W [_ B1] B2. rewrite Step. apply IH; auto. eapply wconf_trans; [apply wconf_sym, Keep, Hc | exact W]. }
    revert p2. induction p1 as [|c t IH].
    - intros p2. induction p2 as [|c t IH2]; intros E w1 w2 W B1 B2; [exact W|]. cbn in E.
      destruct (is_building P c) eqn:Hc; [discriminate|]. destruct B2 as [_ B2]. rewrite Step. apply IH2; auto.
      eapply wconf_trans; [exact W | apply Keep, Hc].
    - intros p2 E w1 w2 W B1 B2. destruct (is_building P c) eqn:Hc.
      2:{ cbn [building filter] in E. unfold building in E. cbn [filter] in E. rewrite Hc in E.
          apply Do1; auto. }
      revert E w1 w2 W B1 B2. induction p2 as [|c2 t2 IH2]; intros E w1 w2 W B1 B2; unfold building in E; cbn [filter] in E; rewrite Hc in E; [discriminate|].
      destruct (is_building P c2) eqn:Hc2.
      + injection E as <- E. rewrite !Step. destruct B1 as [O1 B1], B2 as [O2 B2]. apply IH; auto.
        destruct (O1 Hc) as [a1 A1], (O2 Hc) as [a2 A2].
        assert (Q : forall w a, fst (show P fuel str_of c w) = Ok a ->
           exec P fuel str_of c w = (Ok tt, snd (show P fuel str_of c w))).
        { intros w a A. assert (Z : show P fuel str_of c w = (exec P fuel str_of c ;;; ret Done) w) by (destruct c; try reflexivity; discriminate Hc).
          rewrite Z in *. unfold mbind in *. destruct (exec P fuel str_of c w) as [[[]| |] u]; try discriminate A. reflexivity. }
        exact (proj2 (b_exec c _ _ _ _ _ _ W (Q _ _ A1) (Q _ _ A2))).
      + rewrite (Step c2). destruct B2 as [_ B2]. apply IH2; auto.
        * unfold building. cbn [filter]. rewrite Hc. exact E.
        * eapply wconf_trans; [exact W | apply Keep, Hc2].
  Qed.

  (** After seed_fields(s) and reset_fields(), what a schema generates depends only
      on how it was built: not on the run, nor on what has been done with its
      objects in between. *)
  (** computing scores does not raise AttributeError *)
  Context (score_quiet : forall u w, k_score P u w <> Raise AttributeError).

  Theorem C66_same_schema p1 p2 r1 r2 w1 w2 fs s u1 v1 u2 v2 later :
    building P p1 = building P p2 ->
    built P fuel str_of p1 (start P r1) -> built P fuel str_of p2 (start P r2) ->
    w1 = snd (run_program P fuel str_of p1 (start P r1)) ->
    w2 = snd (run_program P fuel str_of p2 (start P r2)) ->
    (forall f, In f (map snd fs) -> pure_factories P w1 f) -> self_contained P w1 fs ->
    sc_seed_fields P fuel fs (Some s) w1 = (Ok tt, u1) -> sc_reset_fields P fuel fs u1 = (Ok tt, v1) ->
    sc_seed_fields P fuel fs (Some s) w2 = (Ok tt, u2) -> sc_reset_fields P fuel fs u2 = (Ok tt, v2) ->
    Forall (about_schema P w1 fs) later ->
    fst (history P fuel str_of later v1) = fst (history P fuel str_of later v2).
  Proof.
    intros E B1 B2 -> -> Hp Hc A1 R1 A2 R2 Hl.
    pose proof (same_building _ _ E _ _ (wconf_start r1 r2) B1 B2) as W.
    set (w := snd (run_program P fuel str_of p1 (start P r1))) in *.
    apply (history_agree fuel str_of false (fun s => s <> None) (fun j => exists f, In f (map snd fs) /\ uses P w f j)
      (fun f => In f (map snd fs)) (fun f => In f (map snd fs)) v1 v2 later).
    - eapply Forall_impl; [|exact Hl]. intros o. destruct o; exact (fun H => H).
    - exact (seeded_agree fuel str_of score_quiet w _ _ fs s u1 v1 u2 v2 (wconf_refl w) W Hp Hc A1 R1 A2 R2).
  Qed.
End Rebuilt.

(** ** Cases *)

(** A word and a number: every emitter and field is given the seed [s]. *)
Definition program_with (s : option nat) : list (command DP) :=
  [NewStatic DP (VInt 3);
   NewChoice DP true [VStr [97]; VStr [98]; VStr [99]; VStr [100]] None true false s None;
   NewWord DP 0 1 s;
   NewField DP "word" 2 None None false s;
   NewChoice DP true [VInt 1; VInt 2; VInt 3] None false false s None;
   NewField DP "number" 5 None None false s;
   Do DP (Doc DP [("word", 0%nat); ("number", 1%nat)]);
   Do DP (EmitN DP 1 3);
   Do DP (Doc DP [("word", 0%nat); ("number", 1%nat)])]%string.
Definition shown (s : option nat) (r : nat) : list (res answer) :=
  fst (run_program DP 9 demo_str (program_with s) (start DP r)).


(** With a seed, any two runs show the same; without one they do not. *)
Example C65_case :
  Forall (seeded DP) (program_with (Some 4%nat)) /\
  (forall r, skipn 6 (shown (Some 4%nat) r) =
    [Ok (Document [("word", VStr [100; 98; 99]); ("number", VInt 1)]);
     Ok (Values [VStr [97]; VStr [99]; VStr [97]]);
     Ok (Document [("word", VStr [98; 100; 98]); ("number", VInt 3)])]%string) /\
  shown None 1 <> shown None 2.
Proof.
  assert (S : Forall (seeded DP) (program_with (Some 4%nat))).
  { unfold program_with. repeat (apply Forall_cons; [cbn; first [exact I | discriminate]|]). apply Forall_nil. }
  split; [exact S|]. split; [|vm_compute; discriminate]. intros r. unfold shown.
  rewrite (C65_reproducible 9 demo_str _ r 1 S). vm_compute. reflexivity.
Qed.

(** The same schema, used differently in two runs in which it has different
    entropy; seeded and reset, it generates the same documents in both. *)
Definition the_fields : list (string * nat) := [("word", 0%nat); ("number", 1%nat)]%string.
Definition used_program : list (command DP) := program_with None.
Definition bare_program : list (command DP) := building DP (program_with None).
Definition end_of (p : list (command DP)) (r : nat) : world DP := snd (run_program DP 9 demo_str p (start DP r)).
Definition reseed : M (world DP) unit := sc_seed_fields DP 9 the_fields (Some 4%nat) ;;; sc_reset_fields DP 9 the_fields.
Definition two_docs : list (op DP) := [Doc DP the_fields; Doc DP the_fields].
Example C66_case :
  building DP used_program = building DP bare_program /\
  built DP 9 demo_str used_program (start DP 1) /\ built DP 9 demo_str bare_program (start DP 2) /\
  (forall f, In f (map snd the_fields) -> pure_factories DP (end_of used_program 1) f) /\
  self_contained DP (end_of used_program 1) the_fields /\
  fst (reseed (end_of used_program 1)) = Ok tt /\ fst (reseed (end_of bare_program 2)) = Ok tt /\
  Forall (about_schema DP (end_of used_program 1) the_fields) two_docs /\
  fst (history DP 9 demo_str two_docs (end_of used_program 1)) <> fst (history DP 9 demo_str two_docs (end_of bare_program 2)) /\
  fst (history DP 9 demo_str two_docs (snd (reseed (end_of bare_program 2)))) =
    [Ok (Document [("word", VStr [100; 98; 99]); ("number", VInt 1)]);
     Ok (Document [("word", VStr [97; 99; 97]); ("number", VInt 3)])]%string.
Proof.
  assert (Fs : forall f, In f (map snd the_fields) -> forallb (fun k => existsb (Nat.eqb k) (seq 0 8)) (parts_of (end_of used_program 1) f) = true).
  { intros f Hf. cbn in Hf. destruct Hf as [<-|[<-|[]]]; vm_compute; reflexivity. }
  split; [reflexivity|].
  split. { repeat split; try (intros _; eexists; vm_compute; reflexivity); discriminate. }
  split. { repeat split; intros _; eexists; vm_compute; reflexivity. }
  split. { intros f Hf. apply pure_by_class with (seq 0 8); [vm_compute; reflexivity | apply Fs, Hf | vm_compute; reflexivity]. }
  split. { intros f g Hf R. apply (reads_in (end_of used_program 1) (seq 0 8) (map snd the_fields) f g); [vm_compute; reflexivity | apply Fs, Hf | vm_compute; reflexivity | exact R]. }
  split; [vm_compute; reflexivity|]. split; [vm_compute; reflexivity|].
  split. { unfold two_docs. repeat (apply Forall_cons; [intros f Hf; exact Hf|]). apply Forall_nil. }
  split; [vm_compute; discriminate | vm_compute; reflexivity].
Qed.

Print Assumptions C65_reproducible.
Print Assumptions C66_same_schema.
