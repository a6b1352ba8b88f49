(** * Property C109: a Sequential emitter whose iterator_factory was being assigned when an
    exception came from outside.

    Vocabulary: [CutSeq.v] (the emitter, assignments that are cut off), [FixedModel.v] (the
    emitter without interruptions). *)
From Verif Require Import Base Prims FixedModel FixedProofs CutSeq.
Open Scope Z_scope.

(** ** Specification *)
(** [n] values: those of [first], and then [l] over and over *)
Definition then_over_and_over {A} (first l : list A) (n : Z) (r : res (list A)) : Prop :=
  forall m, n <= zlen first + Z.of_nat m * zlen l -> r = Ok (firstn (Z.to_nat n) (first ++ concat (repeat l m))).

(** ** C109 *)
(** The assignment, cut off anywhere, has been made or has not: what the emitter emits from
    then on is in em.items. *)
Definition C109_statement : Prop :=
  forall (A : Type) (s s' : cutseq A) k l n r s'',
  l <> [] -> q_left s = [] -> cs_made s = q_items s -> 0 <= n ->
  cs_set_factory k l s = (Ok tt, s') -> cs_emit_many n s' = (Ok r, s'') -> incl r (q_items s').

(** A second factory is being assigned: em.items is [30], but 10 and 20 are emitted. *)
Definition assigned : cutseq nat := mkCS [10; 20]%nat (Some [10; 20]%nat) (Some [10; 20]%nat) [] false.
Theorem C109_items_refuted : ~ C109_statement.
Proof.
  intros H. specialize (H nat assigned (snd (cs_set_factory 1 [30%nat] assigned)) 1%nat [30%nat] 2 [10; 20]%nat).
  specialize (H _ ltac:(discriminate) eq_refl eq_refl ltac:(lia) eq_refl eq_refl).
  specialize (H 10%nat ltac:(cbn; auto)). cbn in H. destruct H as [H|[]]. discriminate H.
Qed.
Print Assumptions C109_items_refuted.

Section Seq.
  Context {A : Type}.
  Implicit Types (s : cutseq A) (l : list A).

  Lemma take_spec n : forall s m, (n <= length (q_left s) + m * length (cs_made s))%nat ->
    fst (cs_take n s) = Ok (firstn n (q_left s ++ concat (repeat (cs_made s) m))).
  Proof.
    induction n as [|n IH]; intros s m H; [reflexivity|]. cbn [cs_take].
    destruct s as [it fa ma le ra]. unfold cs_next. cbn [q_left q_items q_factory q_maker q_rac] in *. destruct le as [|a t].
    - unfold cs_made in H |- *. cbn [q_maker q_items] in *. set (l := match ma with None => it | Some l => l end) in *.
      destruct m as [|m]; [cbn in H; lia|]. destruct l as [|a t] eqn:L; [rewrite Nat.mul_0_r in H; cbn in H; lia|].
      specialize (IH (mkCS it fa ma t ra) m). unfold cs_made in IH. cbn [q_left q_maker q_items] in IH. fold l in IH. rewrite L in IH.
      cbn [length] in *. specialize (IH ltac:(lia)). destruct (cs_take n _) as [r s']. cbn [fst] in IH. subst r. reflexivity.
    - specialize (IH (mkCS it fa ma t ra) m). unfold cs_made in IH, H |- *. cbn [q_left q_maker q_items length] in *.
      specialize (IH ltac:(lia)). destruct (cs_take n _) as [r s']. cbn [fst] in IH. subst r. reflexivity.
  Qed.
  Lemma many_spec s n : 0 <= n -> then_over_and_over (q_left s) (cs_made s) n (fst (cs_emit_many n s)).
  Proof.
    intros Hn m H. unfold cs_emit_many. rewrite (proj2 (Z.ltb_ge _ _) Hn).
    pose proof (take_spec (Z.to_nat n) s m) as T. unfold zlen in H. specialize (T ltac:(nia)).
    destruct (cs_take _ s) as [r s']. cbn [fst] in T. subst r. reflexivity.
  Qed.
  Lemma many_at s first l n : 0 <= n -> q_left s = first -> cs_made s = l -> then_over_and_over first l n (fst (cs_emit_many n s)).
  Proof. intros Hn <- <-. apply many_spec, Hn. Qed.
End Seq.

(** An emitter made by Sequential(old): wherever the assignment is cut off (after something
    was written), the rest of the current run through [old] comes, and then the new items
    over and over.  em.items is the new list. *)
Theorem C109_first :
  forall (A : Type) (s s' : cutseq A) k l n,
  q_factory s = None -> q_maker s = None -> l <> [] -> 0 <= n -> (1 <= k)%nat ->
  cs_set_factory k l s = (Ok tt, s') ->
  q_items s' = l /\
  then_over_and_over (if (k <? 3)%nat then q_left s else []) l n (fst (cs_emit_many n s')) /\
  then_over_and_over [] l n (fst (cs_emit_many n (cs_reset s'))).
Proof.
  intros A s s' k l n F M L Hn K E. unfold cs_set_factory in E. destruct l as [|a t]; [congruence|].
  destruct s as [it fa ma le ra]. cbn [q_factory q_maker q_left] in *. subst fa ma.
  destruct k as [|[|[|k]]]; [lia| | |]; injection E as <-; cbn [Nat.ltb Nat.leb];
    (split; [reflexivity|]); (split; apply many_at; try exact Hn; reflexivity).
Qed.
Print Assumptions C109_first.

(** If a factory had been assigned before: cut off after line 299, the emitter gives the
    old values for ever, also after reset(), and em.items does not contain them.  Cut off
    after line 300, until reset(). *)
Theorem C109_later :
  forall (A : Type) (s : cutseq A) old l n,
  q_factory s = Some old -> q_maker s = Some old -> l <> [] -> 0 <= n ->
  let s1 := snd (cs_set_factory 1 l s) in let s2 := snd (cs_set_factory 2 l s) in
  q_items s1 = l /\ q_items s2 = l /\
  then_over_and_over (q_left s) old n (fst (cs_emit_many n s1)) /\
  then_over_and_over [] old n (fst (cs_emit_many n (cs_reset s1))) /\
  then_over_and_over (q_left s) old n (fst (cs_emit_many n s2)) /\
  then_over_and_over [] l n (fst (cs_emit_many n (cs_reset s2))).
Proof.
  intros A s old l n F M L Hn. destruct l as [|a t]; [congruence|].
  destruct s as [it fa ma le ra]. cbn [q_factory q_maker q_left] in *. subst fa ma. cbn [cs_set_factory snd q_items q_factory q_maker q_left q_rac].
  split; [reflexivity|]. split; [reflexivity|].
  repeat split; apply many_at; try exact Hn; reflexivity.
Qed.
Print Assumptions C109_later.

(** Assigning again, this time to the end, repairs everything, whatever was cut off before. *)
Fixpoint cut_assignments {A} (ks : list (nat * list A)) (s : cutseq A) : cutseq A :=
  match ks with [] => s | (k, l) :: t => cut_assignments t (snd (cs_set_factory k l s)) end.
Theorem C109_again :
  forall (A : Type) (s : cutseq A) ks k l, l <> [] -> (3 <= k)%nat ->
  cs_set_factory k l (cut_assignments ks s) = (Ok tt, mkCS l (Some l) (Some l) [] (q_rac s)) /\
  forall n, 0 <= n -> then_over_and_over [] l n (fst (cs_emit_many n (mkCS l (Some l) (Some l) [] (q_rac s)))).
Proof.
  intros A s ks k l L K. split.
  - assert (R : q_rac (cut_assignments ks s) = q_rac s).
    { revert s. induction ks as [|[j x] t IH]; intros s; [reflexivity|]. cbn [cut_assignments]. rewrite IH.
      unfold cs_set_factory. destruct x as [|a x]; [reflexivity|]. destruct j as [|[|[|j]]]; reflexivity. }
    unfold cs_set_factory. destruct l as [|a t]; [congruence|]. destruct k as [|[|[|k]]]; [lia|lia|lia|].
    unfold cs_reset. cbn. rewrite R. reflexivity.
  - intros n Hn. exact (many_spec (mkCS l (Some l) (Some l) [] (q_rac s)) n Hn).
Qed.
Print Assumptions C109_again.

(** *** The same emitter as that of [FixedModel.v] when nothing is cut off *)
(** [q] is the emitter [s] *)
Definition same_emitter {A} (s : sequential A) (q : cutseq A) : Prop :=
  s_items s = q_items q /\ s_rac s = q_rac q /\
  (exists hint, forall c, seq_factory s c = Finite (cs_made q) hint) /\ cs_made (cs_reset q) = cs_made q /\
  match g_cur (s_gen s) with Some (_, p) => q_left q = skipn p (cs_made q) | None => q_left q = [] end.

Lemma skipn_nth {A} (l : list A) p : match nth_error l p with Some a => skipn p l = a :: skipn (S p) l | None => skipn p l = [] end.
Proof. revert p. induction l as [|x l IH]; intros [|p]; cbn; try reflexivity. apply IH. Qed.

Lemma same_take {A} fuel (q : cutseq A) f hint : (1 <= fuel)%nat -> cs_made q <> [] -> (forall c, f c = Finite (cs_made q) hint) -> forall n g left,
  match g_cur g with Some (_, p) => left = skipn p (cs_made q) | None => left = [] end ->
  let '(r, g') := gen_take fuel f n g in
  exists left', cs_take n (mkCS (q_items q) (q_factory q) (q_maker q) left (q_rac q)) = (r, mkCS (q_items q) (q_factory q) (q_maker q) left' (q_rac q)) /\
  match g_cur g' with Some (_, p) => left' = skipn p (cs_made q) | None => left' = [] end.
Proof.
  intros Hf Ne F. induction n as [|n IH]; intros g left H.
  - cbn. eauto.
  - assert (Nx : exists a g' left', gen_next fuel f g = (Ok a, g') /\
      cs_next (mkCS (q_items q) (q_factory q) (q_maker q) left (q_rac q)) = (Ok a, mkCS (q_items q) (q_factory q) (q_maker q) left' (q_rac q)) /\
      match g_cur g' with Some (_, p) => left' = skipn p (cs_made q) | None => left' = [] end).
    { assert (New : left = [] -> exists a t, cs_made q = a :: t /\
        cs_next (mkCS (q_items q) (q_factory q) (q_maker q) left (q_rac q)) = (Ok a, mkCS (q_items q) (q_factory q) (q_maker q) t (q_rac q))).
      { intros ->. unfold cs_next. cbn [q_left]. change (cs_made (mkCS (q_items q) (q_factory q) (q_maker q) [] (q_rac q))) with (cs_made q).
        destruct (cs_made q) as [|a t]; [congruence|]. exists a, t. split; reflexivity. }
      assert (Mk : forall k c x, exists a, match cs_made q with [] => None | a :: _ => Some a end = Some a /\
        gen_next k f (mkGen x (Some (c, 0%nat))) = (Ok a, mkGen x (Some (c, 1%nat)))).
      { intros k c x. destruct (cs_made q) as [|a t] eqn:L; [congruence|]. exists a. split; [reflexivity|].
        destruct k; cbn [gen_next g_cur]; rewrite F; reflexivity. }
      destruct fuel as [|k]; [lia|]. cbn [gen_next]. destruct g as [x [[c p]|]]; cbn [g_cur g_calls] in *.
      - rewrite F. cbn [it_at]. pose proof (skipn_nth (cs_made q) p) as SN. destruct (nth_error (cs_made q) p) as [a|].
        + exists a. do 2 eexists. split; [reflexivity|]. subst left. rewrite SN. cbn. split; reflexivity.
        + rewrite SN in H. destruct (New H) as (a & t & L & Cn). destruct (Mk k x (S x)) as (a' & L' & Gn). rewrite L in L'. injection L' as <-.
          rewrite Gn, Cn. do 3 eexists. split; [reflexivity|]. split; [reflexivity|]. cbn [g_cur]. rewrite L. reflexivity.
      - destruct (New H) as (a & t & L & Cn). destruct (Mk k x (S x)) as (a' & L' & Gn). rewrite L in L'. injection L' as <-.
        rewrite Gn, Cn. do 3 eexists. split; [reflexivity|]. split; [reflexivity|]. cbn [g_cur]. rewrite L. reflexivity. }
    destruct Nx as (a & g' & left' & G & C & H'). cbn [gen_take cs_take]. unfold mbind. rewrite G, C.
    specialize (IH g' left' H'). destruct (gen_take fuel f n g') as [r g'']. destruct IH as (left'' & T & H''). rewrite T.
    destruct r; cbn; eauto.
Qed.

Theorem C109_whole :
  (forall (A : Type) (items : list A) rac s, seq_new items rac = Ok s -> exists q, cs_new items rac = Ok q /\ same_emitter s q) /\
  (forall (A : Type) fuel (s : sequential A) q n, (1 <= fuel)%nat -> cs_made q <> [] -> same_emitter s q ->
   fst (seq_emit_many fuel n s) = fst (cs_emit_many n q) /\
   same_emitter (snd (seq_emit_many fuel n s)) (snd (cs_emit_many n q))) /\
  (forall (A : Type) (s : sequential A) q l, same_emitter s q -> l <> [] ->
   exists s' q', seq_set_factory (fun _ => Finite l true) s = (Ok tt, s') /\ cs_set_factory 3 l q = (Ok tt, q') /\ same_emitter s' q').
Proof.
  split; [|split].
  - intros A [|a t] rac s E; [discriminate E|]. injection E as <-. eexists. split; [reflexivity|].
    split; [reflexivity|]. split; [reflexivity|]. split; [exists true; reflexivity|]. split; reflexivity.
  - intros A fuel s q n Hf Ne (It & Rc & (hint & F) & Mr & P). unfold seq_emit_many, cs_emit_many.
    destruct (n <? 0); [split; [reflexivity|]; repeat split; eauto|].
    unfold seq_run. pose proof (same_take fuel q (seq_factory s) hint Hf Ne F (Z.to_nat n) (s_gen s) (q_left q) P) as T.
    destruct (gen_take_ok fuel (seq_factory s) (Z.to_nat n) (s_gen s) Hf) as (l & g & G).
    { intros c. rewrite F. destruct (cs_made q); [congruence|discriminate]. }
    rewrite G in T |- *. destruct T as (left & T & H). destruct q as [qi qf qm ql qr]. cbn [q_items q_factory q_maker q_rac q_left] in *. rewrite T.
    cbn [q_rac s_rac fst snd]. rewrite Rc. split; [reflexivity|].
    destruct qr; unfold same_emitter; cbn.
    + split; [exact It|]. split; [reflexivity|]. split; [|split; reflexivity]. exists hint. intros c. etransitivity; [exact (F c)|]. f_equal. symmetry. exact Mr.
    + split; [exact It|]. split; [reflexivity|]. split; [exists hint; exact F|]. split; [exact Mr|exact H].
  - intros A s q l (It & Rc & _) L. destruct l as [|a t]; [congruence|]. do 2 eexists. split; [reflexivity|]. split; [reflexivity|].
    split; [reflexivity|]. split; [exact Rc|]. split; [exists true; reflexivity|]. split; reflexivity.
Qed.
Print Assumptions C109_whole.

(** Sequential([1, 2, 3]), em() gives 1; em.iterator_factory = lambda: iter([7, 8]) is cut
    off after line 299: 2, 3, 7, 8, 7.  Assigning [9] is then made to the end, and [5] cut
    off after line 299: em.items is (5,) and em(2) is [9, 9], also after reset(). *)
Example C109_example :
  let s := snd (cs_emit_many 1 (mkCS [1; 2; 3]%nat None None [] false)) in
  fst (cs_emit_many 5 (snd (cs_set_factory 1 [7; 8]%nat s))) = Ok [2; 3; 7; 8; 7]%nat /\
  let s := snd (cs_set_factory 1 [5]%nat (snd (cs_set_factory 3 [9]%nat s))) in
  q_items s = [5]%nat /\ fst (cs_emit_many 2 s) = Ok [9; 9]%nat /\ fst (cs_emit_many 2 (cs_reset s)) = Ok [9; 9]%nat /\
  then_over_and_over [2; 3]%nat [7; 8]%nat 5 (Ok [2; 3; 7; 8; 7]%nat).
Proof.
  cbv zeta. split; [reflexivity|]. split; [reflexivity|]. split; [reflexivity|]. split; [reflexivity|].
  intros m H. unfold zlen in H. cbn [length] in H. destruct m as [|[|m]]; [lia|lia|]. reflexivity.
Qed.
