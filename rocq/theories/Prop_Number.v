(** * Asking for no, or for a negative number of, values: property C59. *)
From Coq Require Import String.
From Verif Require Import Base Prims Values MathModel MathSpec MathProofs ChoiceModel ChoiceRun ChoiceProofs ChoiceProofs2 ChoiceProofs3
  FixedModel GroupModel SigModel SigSpec SigProofs WrapModel WrapSpec TextModel TextSpec TextProofs FieldModel World Rel WorldProofs Agree
  WorldSpec WorldReset Histories WorldBuild BuildProofs Demo WorldDemo Prop_World Prop_Construct.
Open Scope list_scope.
Open Scope Z_scope.

(** ** C59 *)

(** Asking for a negative number of values should not change what is emitted
    afterwards. *)
Definition C59_statement : Prop :=
  forall w id n m, reachable DP 9 demo_str w -> n < 0 -> 0 <= m ->
    fst (em_call_n DP 9 demo_str id m (snd (em_call_n DP 9 demo_str id n w))) = fst (em_call_n DP 9 demo_str id m w).
Definition without_repl : list (command DP) :=
  [NewChoice DP true [VInt 1; VInt 2; VInt 3] None false false (Some 4%nat) None; Do DP (Emit DP 0)].
Theorem C59_negative_refuted : ~ C59_statement.
Proof.
  intros H. pose (w := program without_repl empty).
  assert (R : reachable DP 9 demo_str w) by (apply program_reachable; [constructor | vm_compute; reflexivity]).
  specialize (H w 0%nat (-1) 2 R ltac:(lia) ltac:(lia)).
  assert (N : fst (em_call_n DP 9 demo_str 0 2 (snd (em_call_n DP 9 demo_str 0 (-1) w))) <> fst (em_call_n DP 9 demo_str 0 2 w))
    by (vm_compute; discriminate).
  exact (N H).
Qed.

Section Idle.
  Context {P : prims} (fuel : nat) (str_of : val -> res (list Z)).
  Notation world := (World.world P).
  Notation get_em := (World.get_em P).

  (** Emitters of these kinds ... *)
  Definition idle (e : World.emitter P) : Prop :=
    match e with
    | EStatic _ _ | EWord _ _ _ _ _ | EWrapOne _ _ _ _ | EWrapMany _ _ _ _ | ECopy _ _ _ _ => True
    | EIter _ i => i_rac i = false
    | ESeq _ _ q => s_rac q = false
    | EChoice _ _ c => c_replace c = true
    | EText _ _ _ _ _ _ | EBased _ _ _ _ _ | EUser _ _ _ _ => False
    end.
  Definition idle_parts (w : world) (i : nat) : Prop :=
    forall j e, belongs P w i j -> get_em j w = Some e -> idle e.

  Lemma put_same i e (w : world) : get_em i w = Some e -> put_em P i e w = w.
  Proof.
    unfold World.get_em, put_em. destruct (nth_error (w_em P w) i) as [o|] eqn:E; [|discriminate]. intros [= <-].
    destruct w as [em fd]. cbn in *. f_equal. revert i E. induction em as [|a t IH]; intros [|i] E; cbn in *; try discriminate.
    - injection E as ->. destruct o; reflexivity.
    - f_equal. apply IH. exact E.
  Qed.

  (** Changes nothing. *)
  Definition still {A} (Q : A -> Prop) (m : M world A) (w : world) : Prop :=
    snd (m w) = w /\ forall a, fst (m w) = Ok a -> Q a.
  Notation nothing := (still (fun l : list val => l = [])).
  Lemma still_bind A B (Q : A -> Prop) (R : B -> Prop) (m : M world A) (k : A -> M world B) w :
    still Q m w -> (forall a, Q a -> still R (k a) w) -> still R (mbind m k) w.
  Proof.
    intros [H1 H2] H. unfold still, mbind. destruct (m w) as [[a|e|] w1]; cbn [fst snd] in *; subst w1.
    - apply H. auto.
    - split; [reflexivity | discriminate].
    - split; [reflexivity | discriminate].
  Qed.
  Lemma still_lift A (Q : A -> Prop) r w : (forall a, r = Ok a -> Q a) -> still Q (lift r) w.
  Proof. intros H. split; [reflexivity | exact H]. Qed.
  Lemma still_ret A (Q : A -> Prop) a w : Q a -> still Q (ret a) w.
  Proof. intros H. split; [reflexivity | intros b [= <-]; exact H]. Qed.

  Lemma nothing_n d i n w : n <= 0 ->
    nothing (snd (emits P fuel str_of d) i n) w -> nothing (call_number (fst (emits P fuel str_of d) i) (snd (emits P fuel str_of d) i) n) w.
  Proof. intros Hn H. unfold call_number. destruct (Z.eqb_spec n 1); [lia | exact H]. Qed.

  Lemma rep_none A (l : list A) n : n <= 0 -> list_rep l n = [].
  Proof. intros H. unfold list_rep. replace (Z.to_nat n) with 0%nat by lia. reflexivity. Qed.

  Lemma with_nothing n (c : @choice P val) : n <= 0 ->
    snd (choice_with_replacement P n c) = c /\ forall l, fst (choice_with_replacement P n c) = Ok l -> l = [].
  Proof.
    intros Hn. unfold choice_with_replacement, mbind, ChoiceModel.get, ret.
    destruct (zlen (c_items c) =? 1); [cbn; split; [reflexivity | intros l [= <-]; apply rep_none; exact Hn]|].
    assert (U : forall k, choices_uniform P k n (c_rng c) = (Ok [], c_rng c)).
    { intros k. unfold choices_uniform. replace (Z.to_nat n) with 0%nat by lia. reflexivity. }
    assert (Sr : set_rng P (c_rng c) c = c) by (destruct c; reflexivity).
    destruct (c_weights c) as [ws|].
    - unfold on_rng. destruct (c_cum c) as [cum|]; [|rewrite U; cbn; rewrite Sr; split; [reflexivity | intros l [= <-]; reflexivity]].
      unfold choices_cum. destruct (negb _); [cbn; rewrite Sr; split; [reflexivity | discriminate]|].
      destruct (rev cum) as [|total t]; [cbn; rewrite Sr; split; [reflexivity | discriminate]|].
      destruct (negb _); [cbn; rewrite Sr; split; [reflexivity | discriminate]|].
      replace (Z.to_nat n) with 0%nat by lia. cbn. rewrite Sr. split; [reflexivity | intros l [= <-]; reflexivity].
    - destruct (Z.eqb_spec n 1); [lia|]. unfold on_rng. rewrite U. cbn. rewrite Sr. split; [reflexivity | intros l [= <-]; reflexivity].
  Qed.

  Lemma idle_sub w i e k : idle_parts w i -> get_em i w = Some e -> In k (children P e) -> idle_parts w k.
  Proof. intros H E Hk j e' B. apply H. econstructor; eauto. Qed.

  Lemma emits_nothing d : forall i n w, n <= 0 -> idle_parts w i -> nothing (snd (emits P fuel str_of d) i n) w.
  Proof.
    induction d as [|d IH]; intros i n w Hn Hi; [split; [reflexivity | discriminate]|].
    cbn [emits snd]. unfold nothing, emit_many_body, at_em. destruct (get_em i w) as [e|] eqn:E; [|split; [reflexivity | discriminate]].
    pose proof (Hi i e (belongs_self P w i) E) as He.
    assert (Kid : forall k n, In k (children P e) -> n <= 0 ->
      nothing (call_number (fst (emits P fuel str_of d) k) (snd (emits P fuel str_of d) k) n) w).
    { intros k m Hk Hm. apply nothing_n; [exact Hm|]. apply IH; [exact Hm|]. eapply idle_sub; eauto. }
    destruct e; cbn in He; try contradiction.
    - cbn. split; [reflexivity | intros l [= <-]; apply rep_none; exact Hn].
    - unfold run_iter, at_em. rewrite E. unfold iter_emit_many. destruct (Z.ltb_spec n 0).
      + cbn. rewrite put_same by exact E. split; [reflexivity | discriminate].
      + replace (Z.to_nat n) with 0%nat by lia. destruct i0 as [f0 g0 b0]; cbn in He; subst b0. cbn. rewrite put_same by exact E.
        split; [reflexivity | intros l [= <-]; reflexivity].
    - unfold run_seq, at_em. rewrite E. unfold seq_emit_many. destruct (Z.ltb_spec n 0).
      + cbn. rewrite put_same by exact E. split; [reflexivity | discriminate].
      + replace (Z.to_nat n) with 0%nat by lia. destruct s as [l0 o0 f0 g0 b0]; cbn in He; subst b0. cbn. rewrite put_same by exact E.
        split; [reflexivity | intros l [= <-]; reflexivity].
    - unfold run_choice, at_em. rewrite E. unfold choice_emit_many, mbind, ChoiceModel.get. rewrite He. cbn [negb orb].
      destruct (Z.ltb_spec 1 n); [lia|]. rewrite Bool.andb_false_r.
      destruct (with_nothing n c Hn) as [Q1 Q2]. destruct (choice_with_replacement P n c) as [r c']. cbn [fst snd] in *.
      subst c'. rewrite put_same by exact E. auto.
    - eapply still_bind; [apply (Kid length_em n); [left; reflexivity | exact Hn]|]. intros ? ->.
      cbn [sum_vals]. eapply still_bind; [apply (still_lift _ (fun t => t = 0)); intros a [= <-]; reflexivity|]. intros ? ->.
      eapply still_bind; [apply (Kid alphabet_em 0); [right; left; reflexivity | lia]|]. intros ? ->.
      apply still_lift. intros l [= <-]. reflexivity.
    - eapply still_bind; [apply (Kid source n); [left; reflexivity | exact Hn]|]. intros ? ->.
      apply still_ret. reflexivity.
    - eapply (still_bind _ _ (fun _ => True)).
      + cbn [children] in Kid. clear E He Hi. induction sources as [|[k j] t IHs]; [split; [reflexivity | auto]|].
        cbn [map mapS fst snd]. eapply (still_bind _ _ (fun _ => True)).
        * eapply still_bind; [apply (Kid j n); [left; reflexivity | exact Hn]|]. intros ? _. apply still_ret. exact I.
        * intros a _. eapply (still_bind _ _ (fun _ => True)).
          -- apply IHs. intros k' n' Hk. apply Kid. right. exact Hk.
          -- intros l _. apply still_ret. exact I.
      + intros em _. unfold indices. replace (Z.to_nat n) with 0%nat by lia. apply still_ret. reflexivity.
    - unfold repeat_emit. eapply (still_bind _ _ (fun _ => True)); [split; [reflexivity | auto]|]. intros v _.
      apply still_ret. apply rep_none. exact Hn.
  Qed.

  (** Static, Iterative and Sequential that do not reset after each call, Choice
      with replacement, CopyFields, and Word, WrapOne and WrapMany of these: a
      negative number, or 0, yields no values and changes nothing at all.
      Missing: Choice without replacement (refuted above); Text, which draws
      separators for a negative number; emitters that reset after each call;
      BasedOnFields, which calls the action. *)
  Theorem C59_nothing_partial i n w r w' : n <= 0 -> idle_parts w i ->
    em_call_n P fuel str_of i n w = (r, w') -> w' = w /\ forall l, r = Ok l -> l = [].
  Proof.
    intros Hn Hi H. pose proof (nothing_n (S i) i n w Hn (emits_nothing (S i) i n w Hn Hi)) as [Q1 Q2].
    change (call_number (fst (emits P fuel str_of (S i)) i) (snd (emits P fuel str_of (S i)) i) n) with (em_call_n P fuel str_of i n) in *.
    rewrite H in *. auto.
  Qed.
  (** *** No values: em(0) *)
  Definition idle0 (e : World.emitter P) : Prop :=
    match e with
    | EIter _ i => i_rac i = false
    | ESeq _ _ q => s_rac q = false
    | EBased _ _ _ _ _ | EUser _ _ _ _ => False
    | _ => True
    end.
  Definition idle0_parts (w : world) (i : nat) : Prop :=
    forall j e, belongs P w i j -> get_em j w = Some e -> idle0 e.

  Lemma slice_none A (l : list A) a : list_slice l a (a + 0) = [].
  Proof.
    rewrite Z.add_0_r. unfold list_slice. rewrite Z.sub_diag. reflexivity.
  Qed.

  Lemma without_nothing (c : @choice P val) : c_replace c = false ->
    snd (choice_without_replacement P val_setsize fuel 0 c) = c /\
    forall l, fst (choice_without_replacement P val_setsize fuel 0 c) = Ok l -> l = [].
  Proof.
    intros Hr. unfold choice_without_replacement, mbind, ChoiceModel.get, ret.
    destruct (c_nui c <? 0).
    - unfold uniqueness_violation, mbind, ChoiceModel.get, lift, raise. cbn.
      destruct (num_unique_values P val_setsize c); cbn; split; auto; discriminate.
    - rewrite Hr. cbn [negb]. destruct (c_sidx c) as [i|] eqn:Ei; [|cbn; split; [reflexivity | discriminate]].
      cbn [Z.eqb]. unfold modify. cbn. rewrite slice_none. split; [|intros l [= <-]; reflexivity].
      rewrite Z.sub_0_r, Z.add_0_r. destruct c; cbn in *. subst. reflexivity.
  Qed.

  Lemma idle0_sub w i e k : idle0_parts w i -> get_em i w = Some e -> In k (children P e) -> idle0_parts w k.
  Proof. intros H E Hk j e' B. apply H. econstructor; eauto. Qed.

  Lemma emits_none d : forall i w, idle0_parts w i -> nothing (snd (emits P fuel str_of d) i 0) w.
  Proof.
    induction d as [|d IH]; intros i w Hi; [split; [reflexivity | discriminate]|].
    cbn [emits snd]. unfold nothing, emit_many_body, at_em. destruct (get_em i w) as [e|] eqn:E; [|split; [reflexivity | discriminate]].
    pose proof (Hi i e (belongs_self P w i) E) as He.
    assert (Kid : forall k, In k (children P e) ->
      nothing (call_number (fst (emits P fuel str_of d) k) (snd (emits P fuel str_of d) k) 0) w).
    { intros k Hk. apply nothing_n; [lia|]. apply IH. eapply idle0_sub; eauto. }
    destruct e; cbn in He; try contradiction.
    - cbn. split; [reflexivity | intros l [= <-]; reflexivity].
    - unfold run_iter, at_em. rewrite E. destruct i0 as [f0 g0 b0]; cbn in He; subst b0. cbn. rewrite put_same by exact E.
      split; [reflexivity | intros l [= <-]; reflexivity].
    - unfold run_seq, at_em. rewrite E. destruct s as [l0 o0 f0 g0 b0]; cbn in He; subst b0. cbn. rewrite put_same by exact E.
      split; [reflexivity | intros l [= <-]; reflexivity].
    - unfold run_choice, at_em. rewrite E. unfold choice_emit_many, mbind, ChoiceModel.get.
      change (1 <? 0) with false. rewrite Bool.andb_false_r, Bool.orb_false_r. destruct (c_replace c) eqn:Hr; cbn [negb].
      + destruct (with_nothing 0 c ltac:(lia)) as [Q1 Q2]. destruct (choice_with_replacement P 0 c) as [r c']. cbn [fst snd] in *.
        subst c'. rewrite put_same by exact E. auto.
      + destruct (without_nothing c Hr) as [Q1 Q2]. destruct (choice_without_replacement P val_setsize fuel 0 c) as [r c']. cbn [fst snd] in *.
        subst c'. rewrite put_same by exact E. auto.
    - eapply still_bind; [apply (Kid length_em); left; reflexivity|]. intros ? ->.
      cbn [sum_vals]. eapply still_bind; [apply (still_lift _ (fun t => t = 0)); intros a [= <-]; reflexivity|]. intros ? ->.
      eapply still_bind; [apply (Kid alphabet_em); right; left; reflexivity|]. intros ? ->.
      apply still_lift. intros l [= <-]. reflexivity.
    - eapply still_bind; [apply (Kid numwords_em); left; reflexivity|]. intros ? ->.
      cbn [sum_vals]. eapply still_bind; [apply (still_lift _ (fun t => t = 0)); intros a [= <-]; reflexivity|]. intros ? ->.
      eapply (still_bind _ _ (fun _ => True)).
      + unfold get_words_iterator, still. destruct (World.word_unique P word_em w) as [[u1|]|x|]; try (split; [reflexivity | auto]).
        * destruct (negb (u1 =? 0) && (u1 <? 0)); [split; [reflexivity | auto]|].
          eapply still_bind; [apply (Kid word_em); right; left; reflexivity|]. intros ? _. apply still_ret. exact I.
        * eapply still_bind; [apply (Kid word_em); right; left; reflexivity|]. intros ? _. apply still_ret. exact I.
      + intros wd _. eapply still_bind; [apply (Kid sep_em); right; right; left; reflexivity|]. intros ? ->.
        cbn [mapM]. eapply (still_bind _ _ (fun ns => ns = [])); [apply still_lift; intros a [= <-]; reflexivity|]. intros ? ->.
        cbn. apply still_ret. reflexivity.
    - eapply still_bind; [apply (Kid source); left; reflexivity|]. intros ? ->.
      apply still_ret. reflexivity.
    - eapply (still_bind _ _ (fun _ => True)).
      + cbn [children] in Kid. clear E He Hi. induction sources as [|[k j] t IHs]; [split; [reflexivity | auto]|].
        cbn [map mapS fst snd]. eapply (still_bind _ _ (fun _ => True)).
        * eapply still_bind; [apply (Kid j); left; reflexivity|]. intros ? _. apply still_ret. exact I.
        * intros a _. eapply (still_bind _ _ (fun _ => True)).
          -- apply IHs. intros k' Hk. apply Kid. right. exact Hk.
          -- intros l _. apply still_ret. exact I.
      + intros em _. apply still_ret. reflexivity.
    - unfold repeat_emit. eapply (still_bind _ _ (fun _ => True)); [split; [reflexivity | auto]|]. intros v _.
      apply still_ret. reflexivity.
  Qed.

  (** em(0), for every emitter made of the library's classes except BasedOnFields
      and those that reset after each call, Choice without replacement and Text
      included: no values, and nothing at all changes. *)
  Theorem C59_zero i w r w' : idle0_parts w i ->
    em_call_n P fuel str_of i 0 w = (r, w') -> w' = w /\ forall l, r = Ok l -> l = [].
  Proof.
    intros Hi H. pose proof (nothing_n (S i) i 0 w ltac:(lia) (emits_none (S i) i w Hi)) as [Q1 Q2].
    change (call_number (fst (emits P fuel str_of (S i)) i) (snd (emits P fuel str_of (S i)) i) 0) with (em_call_n P fuel str_of i 0) in *.
    rewrite H in *. auto.
  Qed.
End Idle.

(** The word emitter of the concrete schema is one of these. *)
Example C59_case : idle_parts demo_world 3 /\ fst (em_call_n DP 9 demo_str 3 (-2) demo_world) = Ok [].
Proof.
  split; [|vm_compute; reflexivity]. intros j e B E.
  assert (In j [1; 2; 3]%nat).
  { eapply (belongs_in demo_world [1; 2; 3]%nat); [vm_compute; reflexivity | exact B | cbn; auto]. }
  assert (X : match get_em DP j demo_world with Some (EWord _ _ _ _ _) => true | Some (EChoice _ _ c) => c_replace c | _ => false end = true).
  { cbn in H. destruct H as [<-|[<-|[<-|[]]]]; vm_compute; reflexivity. }
  rewrite E in X. destruct e; try discriminate X; cbn; auto.
Qed.

(** A Text of words whose letters are dealt without replacement. *)
Definition dealt_text : list (command DP) :=
  [NewChoice DP true [VInt 1; VInt 2] None true false (Some 1%nat) None;
   NewChoice DP true [VStr [97]; VStr [98]; VStr [99]] None false false (Some 4%nat) None;
   NewWord DP 0 1 (Some 4%nat); NewText DP 0 2 None (Some 5%nat); Do DP (Emit DP 4)].
Example C59_zero_case :
  let w := program dealt_text empty in
  reachable DP 9 demo_str w /\ idle0_parts w 4 /\
  match get_em DP 1 w with Some (EChoice _ _ c) => c_replace c | _ => true end = false /\
  fst (em_call_n DP 9 demo_str 4 0 w) = Ok [].
Proof.
  cbn zeta. split; [apply program_reachable; [constructor | vm_compute; reflexivity]|]. split; [|split].
  - intros j e B E.
    assert (In j [0; 1; 2; 3; 4]%nat) by (eapply (belongs_in (program dealt_text empty) [0; 1; 2; 3; 4]%nat); [vm_compute; reflexivity | exact B | cbn; auto 10]).
    assert (X : match get_em DP j (program dealt_text empty) with
                | Some (EIter _ _) | Some (ESeq _ _ _) | Some (EBased _ _ _ _ _) | Some (EUser _ _ _ _) => false | _ => true end = true).
    { cbn in H. destruct H as [<-|[<-|[<-|[<-|[<-|[]]]]]]; vm_compute; reflexivity. }
    rewrite E in X. destruct e; try discriminate X; exact I.
  - vm_compute. reflexivity.
  - vm_compute. reflexivity.
Qed.

(** BasedOnFields is an exception: called for no values it calls its action all the
    same, and if that uses the generator later values change. *)
Definition draws_one : wfun DP :=
  mkWfun DP (Some [mkParam "x" PosOrKw false; mkParam "rng" PosOrKw false])
    (fun _ _ => Raise TypeError)
    (fun _ _ r => let '(i, r) := r_below DP 100 r in (Ok (VInt (Z.of_nat i)), r)).
Definition based_program : list (command DP) :=
  [NewSequential DP true [VInt 3; VInt 4] false; NewField DP "a" 0 None None false None;
   NewBasedOnFields DP true [0%nat] draws_one (Some 7%nat)].
Definition C59_zero_statement : Prop :=
  forall w id m, reachable DP 9 demo_str w -> 0 <= m ->
    fst (em_call_n DP 9 demo_str id m (snd (em_call_n DP 9 demo_str id 0 w))) = fst (em_call_n DP 9 demo_str id m w).
Theorem C59_zero_refuted : ~ C59_zero_statement.
Proof.
  intros H. pose (w := program based_program empty).
  assert (R : reachable DP 9 demo_str w) by (apply program_reachable; [constructor | vm_compute; reflexivity]).
  specialize (H w 3%nat 1 R ltac:(lia)).
  assert (N : fst (em_call_n DP 9 demo_str 3 1 (snd (em_call_n DP 9 demo_str 3 0 w))) <> fst (em_call_n DP 9 demo_str 3 1 w))
    by (vm_compute; discriminate).
  exact (N H).
Qed.

Print Assumptions C59_negative_refuted.
Print Assumptions C59_nothing_partial.
Print Assumptions C59_zero.
Print Assumptions C59_zero_refuted.
