(** * C90-C92: Iterative over any factory *)
From Verif Require Import Base Prims FixedModel IterModel IterSpec.

Section Iter.
  Context {S H A : Type}.
  Implicit Types (s : S) (o : itobj S H A) (c : option H).

  Definition gen_of (c : option H) : pygen H := match c with None => Fresh | Some h => Running h end.

  (** [gives], with a bound on the factory calls *)
  Lemma fetch_gives (src : source S H A) fuel : forall s a s' g,
    from_factory fuel src s = (Ok a, (s', g)) ->
    exists h, g = Running h /\ gives src s None a s' h.
  Proof.
    induction fuel as [|k IH]; intros s a s' g E; cbn in E; [discriminate|].
    destruct (make src s) as [[h|e|] s1] eqn:Em; try discriminate.
    destruct (step src h s1) as [[b|e|] s2] eqn:Es; try discriminate.
    - injection E as <- <- <-. exists h. split; [reflexivity|].
      eapply g_make; [exact Em|]. now apply g_next.
    - destruct e; try discriminate. destruct (IH _ _ _ _ E) as (h' & -> & G).
      exists h'. split; [reflexivity|]. eapply g_make; [exact Em|]. eapply g_over; eauto.
  Qed.

  Lemma fetch_breaks (src : source S H A) fuel : forall s e s' g,
    from_factory fuel src s = (Raise e, (s', g)) -> g = Finished /\ breaks src s None e s'.
  Proof.
    induction fuel as [|k IH]; intros s e s' g E; cbn in E; [discriminate|].
    destruct (make src s) as [[h|e1|] s1] eqn:Em; try discriminate.
    - destruct (step src h s1) as [[b|e1|] s2] eqn:Es; try discriminate.
      destruct e1; try (injection E as <- <- <-; split; [reflexivity|];
        eapply b_into; [exact Em|]; cbn; eapply b_next; [exact Es | discriminate]).
      destruct (IH _ _ _ _ E) as (-> & B). split; [reflexivity|].
      eapply b_into; [exact Em|]. eapply b_over; eauto.
    - injection E as <- <- <-. split; [reflexivity|]. now apply b_make.
  Qed.

  Lemma gnext_gives (src : source S H A) fuel s c a s' g :
    gnext fuel src (s, gen_of c) = (Ok a, (s', g)) ->
    exists h, g = Running h /\ gives src s c a s' h.
  Proof.
    destruct c as [h|]; cbn; [|apply fetch_gives].
    destruct (step src h s) as [[b|e|] s1] eqn:Es; try discriminate.
    - intros [= <- <- <-]. exists h. split; [reflexivity | now apply g_next].
    - destruct e; try discriminate. intros E. destruct (fetch_gives _ _ _ _ _ _ E) as (h' & -> & G).
      exists h'. split; [reflexivity|]. eapply g_over; eauto.
  Qed.

  Lemma gnext_breaks (src : source S H A) fuel s c e s' g :
    gnext fuel src (s, gen_of c) = (Raise e, (s', g)) -> g = Finished /\ breaks src s c e s'.
  Proof.
    destruct c as [h|]; cbn; [|apply fetch_breaks].
    destruct (step src h s) as [[b|e1|] s1] eqn:Es; try discriminate.
    destruct e1; try (intros [= <- <- <-]; split; [reflexivity|];
      cbn; eapply b_next; [exact Es | discriminate]).
    intros E. destruct (fetch_breaks _ _ _ _ _ _ E) as (-> & B).
    split; [reflexivity|]. eapply b_over; eauto.
  Qed.

  Lemma gives_gnext (src : source S H A) s c a s' h :
    gives src s c a s' h ->
    exists k, forall fuel, (k <= fuel)%nat -> gnext fuel src (s, gen_of c) = (Ok a, (s', Running h)).
  Proof.
    induction 1 as [s h a s' Es | s h s1 a s' h' Es _ (k & IH) | s h s1 a s' h' Em G (k & IH)].
    - exists O. intros fuel _. cbn. now rewrite Es.
    - exists k. intros fuel L. cbn. rewrite Es. exact (IH fuel L).
    - exists (Datatypes.S k). intros [|fuel] L; [lia|]. cbn. rewrite Em.
      specialize (IH fuel ltac:(lia)). cbn in IH. exact IH.
  Qed.

  Lemma breaks_gnext (src : source S H A) s c e s' :
    breaks src s c e s' ->
    exists k, forall fuel, (k <= fuel)%nat -> gnext fuel src (s, gen_of c) = (Raise e, (s', Finished)).
  Proof.
    induction 1 as [s h e s' Es N | s h s1 e s' Es _ (k & IH) | s e s' Em | s h s1 e s' Em B (k & IH)].
    - exists O. intros fuel _. cbn. rewrite Es. destruct e; try reflexivity. now elim N.
    - exists k. intros fuel L. cbn. rewrite Es. exact (IH fuel L).
    - exists 1%nat. intros [|fuel] L; [lia|]. cbn. now rewrite Em.
    - exists (Datatypes.S k). intros [|fuel] L; [lia|]. cbn. rewrite Em.
      specialize (IH fuel ltac:(lia)). cbn in IH. exact IH.
  Qed.

  Lemma breaks_not_stop {src : source S H A} {s c e s'} : breaks src s c e s' -> e <> StopIteration.
  Proof. induction 1 as [|s h s1 e s' Es B IH|s e s' E|s h s1 e s' Em B IH]; auto. destruct e; discriminate. Qed.

  Lemma in_use_gen o c : in_use o c -> it_gen o = gen_of c.
  Proof. destruct c; exact (fun E => E). Qed.

  (** C90.  [emit] returns [a] exactly if reading on gives [a]; afterwards the
      emitter stands behind [a] in the iterator [a] came from. *)
  Theorem C90_emit o s c a s' o' :
    in_use o c ->
    (does (fun fuel => it_emit fuel (s, o)) (Ok a, (s', o')) <->
     exists h, gives (it_src o) s c a s' h /\ o' = after_call o (Some h)).
  Proof.
    intros U. apply in_use_gen in U. unfold it_emit, it_run. rewrite U. split.
    - intros (k & E). specialize (E k (le_n k)).
      destruct (gnext k (it_src o) (s, gen_of c)) as [[b|e|] [s1 g]] eqn:G; try discriminate.
      destruct (gnext_gives _ _ _ _ _ _ _ G) as (h & -> & R). cbn in E.
      injection E as <- <- <-. exists h. split; [exact R|]. unfold after_call, it_reset. cbn.
      now destruct (it_rac o).
    - intros (h & R & ->). destruct (gives_gnext _ _ _ _ _ _ R) as (k & E).
      exists k. intros fuel L. rewrite (E fuel L). cbn. unfold after_call, it_reset. cbn.
      now destruct (it_rac o).
  Qed.

  Lemma gtake_gives (src : source S H A) fuel n : forall s c l s' g,
    gtake fuel src n (s, gen_of c) = (Ok l, (s', g)) ->
    exists c', g = gen_of c' /\ length l = n /\ gives_all src s c l s' c'.
  Proof.
    induction n as [|n IH]; intros s c l s' g E; cbn [gtake] in E.
    - injection E as <- <- <-. exists c. repeat split. constructor.
    - destruct (gnext fuel src (s, gen_of c)) as [[a|e|] [s1 g1]] eqn:G; try discriminate.
      + destruct (gnext_gives _ _ _ _ _ _ _ G) as (h & -> & R).
        destruct (gtake fuel src n (s1, Running h)) as [[l1|e|] [s2 g2]] eqn:T; try discriminate.
        injection E as <- <- <-. destruct (IH _ (Some h) _ _ _ T) as (c' & -> & <- & GA).
        exists c'. repeat split. econstructor; eauto.
      + destruct (gnext_breaks _ _ _ _ _ _ _ G) as (-> & B).
        destruct e; try discriminate. elim (breaks_not_stop B eq_refl).
  Qed.

  Lemma gives_gtake (src : source S H A) s c l s' c' :
    gives_all src s c l s' c' ->
    exists k, forall fuel, (k <= fuel)%nat ->
      gtake fuel src (length l) (s, gen_of c) = (Ok l, (s', gen_of c')).
  Proof.
    induction 1 as [|s c a s1 h l s' c' G _ (k & IH)].
    - exists O. reflexivity.
    - destruct (gives_gnext _ _ _ _ _ _ G) as (k0 & E). exists (k + k0)%nat. intros fuel L.
      cbn [gtake length]. rewrite (E fuel) by lia. cbn [gen_of] in IH. now rewrite (IH fuel) by lia.
  Qed.

  (** [emit_many(n)] returns [l] exactly if [l] has [n] elements and reading on
      gives them one after the other. *)
  Theorem C90_emit_many o s c n l s' o' :
    in_use o c -> 0 <= n ->
    (does (fun fuel => it_emit_many fuel n (s, o)) (Ok l, (s', o')) <->
     zlen l = n /\ exists c', gives_all (it_src o) s c l s' c' /\ o' = after_call o c').
  Proof.
    intros U N. apply in_use_gen in U. unfold it_emit_many, it_run.
    replace (n <? 0) with false by (symmetry; apply Z.ltb_ge; lia). rewrite U. split.
    - intros (k & E). specialize (E k (le_n k)).
      destruct (gtake k (it_src o) (Z.to_nat n) (s, gen_of c)) as [[b|e|] [s1 g]] eqn:G; try discriminate.
      destruct (gtake_gives _ _ _ _ _ _ _ _ G) as (c' & -> & L & R). cbn in E.
      injection E as <- <- <-. split; [unfold zlen; lia|]. exists c'. split; [exact R|].
      unfold after_call, it_reset, gen_of. cbn. now destruct (it_rac o).
    - intros (L & c' & R & ->). destruct (gives_gtake _ _ _ _ _ _ R) as (k & E).
      exists k. intros fuel F. replace (Z.to_nat n) with (length l) by (unfold zlen in L; lia).
      rewrite (E fuel F). cbn. unfold after_call, it_reset, gen_of. cbn. now destruct (it_rac o).
  Qed.

  (** A negative number is refused and changes nothing. *)
  Theorem C90_negative o s n fuel :
    n < 0 -> it_emit_many fuel n (s, o) = (Raise ValueError, (s, o)).
  Proof. intros N. unfold it_emit_many. now replace (n <? 0) with true by (symmetry; apply Z.ltb_lt; lia). Qed.

  Lemma gives_all_app (src : source S H A) s c l1 s1 c1 l2 s2 c2 :
    gives_all src s c l1 s1 c1 -> gives_all src s1 c1 l2 s2 c2 ->
    gives_all src s c (l1 ++ l2) s2 c2.
  Proof. induction 1; cbn; [auto | intros G; econstructor; eauto]. Qed.

  Lemma gives_all_split (src : source S H A) l1 : forall l2 s c s2 c2,
    gives_all src s c (l1 ++ l2) s2 c2 ->
    exists s1 c1, gives_all src s c l1 s1 c1 /\ gives_all src s1 c1 l2 s2 c2.
  Proof.
    induction l1 as [|a l1 IH]; cbn; intros l2 s c s2 c2 G.
    - exists s, c. split; [constructor | exact G].
    - inversion G; subst. destruct (IH _ _ _ _ _ H7) as (s3 & c3 & G1 & G2).
      exists s3, c3. split; [econstructor; eauto | exact G2].
  Qed.

  (** However the calls are batched, the values are the same. *)
  Theorem C90_batches o s c m n l1 l2 s2 o2 :
    in_use o c -> it_rac o = false -> 0 <= m -> 0 <= n -> zlen l1 = m ->
    (does (fun fuel => it_emit_many fuel (m + n) (s, o)) (Ok (l1 ++ l2), (s2, o2)) <->
     exists s1 o1,
       does (fun fuel => it_emit_many fuel m (s, o)) (Ok l1, (s1, o1)) /\
       does (fun fuel => it_emit_many fuel n (s1, o1)) (Ok l2, (s2, o2))).
  Proof.
    intros U R M N L1. split.
    - intros D. apply (C90_emit_many _ _ _ _ _ _ _ U) in D; [|lia]. destruct D as (L & c2 & G & ->).
      destruct (gives_all_split _ _ _ _ _ _ _ G) as (s1 & c1 & G1 & G2).
      exists s1, (after_call o c1). split.
      + apply (C90_emit_many _ _ _ _ _ _ _ U); [lia|]. eauto.
      + apply (C90_emit_many _ _ c1); [unfold in_use, after_call; cbn; rewrite R; now destruct c1 | lia |].
        split; [unfold zlen in *; rewrite app_length in L; lia|]. exists c2. split; [exact G2|].
        unfold after_call. cbn. now rewrite R.
    - intros (s1 & o1 & D1 & D2).
      apply (C90_emit_many _ _ _ _ _ _ _ U) in D1; [|lia]. destruct D1 as (_ & c1 & G1 & ->).
      apply (C90_emit_many _ _ c1) in D2;
        [|unfold in_use, after_call; cbn; rewrite R; now destruct c1 | lia].
      destruct D2 as (L2 & c2 & G2 & ->).
      apply (C90_emit_many _ _ _ _ _ _ _ U); [lia|].
      split; [unfold zlen in *; rewrite app_length; lia|]. exists c2. split.
      + eapply gives_all_app; eauto.
      + unfold after_call. cbn. now rewrite R.
  Qed.

  (** C91.  [emit] raises [e] exactly if the factory or an iterator does (its
      StopIteration in the factory becomes RuntimeError); then the emitter is
      finished, reset_after_call or not. *)
  Theorem C91_raises o s c e s' o' :
    in_use o c ->
    (does (fun fuel => it_emit fuel (s, o)) (Raise e, (s', o')) <->
     breaks (it_src o) s c e s' /\ o' = mkIt (it_src o) Finished (it_rac o)).
  Proof.
    intros U. apply in_use_gen in U. unfold it_emit, it_run. rewrite U. split.
    - intros (k & E). specialize (E k (le_n k)).
      destruct (gnext k (it_src o) (s, gen_of c)) as [[b|e1|] [s1 g]] eqn:G; try discriminate.
      destruct (gnext_breaks _ _ _ _ _ _ _ G) as (-> & B). injection E as <- <- <-. auto.
    - intros (B & ->). destruct (breaks_gnext _ _ _ _ _ B) as (k & E).
      exists k. intros fuel L. now rewrite (E fuel L).
  Qed.

  Lemma gtake_breaks (src : source S H A) fuel n : forall s c e s' g,
    gtake fuel src n (s, gen_of c) = (Raise e, (s', g)) ->
    g = Finished /\ exists l s1 c1,
      (length l < n)%nat /\ gives_all src s c l s1 c1 /\ breaks src s1 c1 e s'.
  Proof.
    induction n as [|n IH]; intros s c e s' g E; cbn [gtake] in E; [discriminate|].
    destruct (gnext fuel src (s, gen_of c)) as [[a|e1|] [s1 g1]] eqn:G; try discriminate.
    - destruct (gnext_gives _ _ _ _ _ _ _ G) as (h & -> & R).
      destruct (gtake fuel src n (s1, Running h)) as [[l1|e1|] [s2 g2]] eqn:T; try discriminate.
      injection E as <- <- <-. destruct (IH _ (Some h) _ _ _ T) as (-> & l & s3 & c3 & L & GA & B).
      split; [reflexivity|]. exists (a :: l), s3, c3. split; [cbn; lia|]. split; [econstructor; eauto | exact B].
    - destruct (gnext_breaks _ _ _ _ _ _ _ G) as (-> & B).
      destruct e1; try discriminate; injection E as <- <- <-; (split; [reflexivity|]);
        exists [], s, c; (split; [cbn; lia|]); (split; [constructor | exact B]).
  Qed.

  Lemma gives_breaks_gtake (src : source S H A) s c l s1 c1 :
    gives_all src s c l s1 c1 -> forall n e s', (length l < n)%nat -> breaks src s1 c1 e s' ->
    exists k, forall fuel, (k <= fuel)%nat ->
      gtake fuel src n (s, gen_of c) = (Raise e, (s', Finished)).
  Proof.
    induction 1 as [s c|s c a s1 h l s2 c' G _ IH]; intros [|n] e s' L B; cbn in L; try lia.
    - destruct (breaks_gnext _ _ _ _ _ B) as (k & E). exists k. intros fuel F.
      cbn [gtake]. rewrite (E fuel F). destruct e; try reflexivity.
      elim (breaks_not_stop B eq_refl).
    - destruct (gives_gnext _ _ _ _ _ _ G) as (k0 & E).
      destruct (IH n e s' ltac:(lia) B) as (k & IH'). exists (k + k0)%nat. intros fuel F.
      cbn [gtake]. rewrite (E fuel) by lia. cbn [gen_of] in IH'. now rewrite (IH' fuel) by lia.
  Qed.

  (** [emit_many(n)] raises [e] exactly if that happens within [n] values; the
      values before it are lost. *)
  Theorem C91_raises_many o s c n e s' o' :
    in_use o c -> 0 <= n ->
    (does (fun fuel => it_emit_many fuel n (s, o)) (Raise e, (s', o')) <->
     (exists l s1 c1, zlen l < n /\ gives_all (it_src o) s c l s1 c1 /\ breaks (it_src o) s1 c1 e s') /\
     o' = mkIt (it_src o) Finished (it_rac o)).
  Proof.
    intros U N. apply in_use_gen in U. unfold it_emit_many, it_run.
    replace (n <? 0) with false by (symmetry; apply Z.ltb_ge; lia). rewrite U. split.
    - intros (k & E). specialize (E k (le_n k)).
      destruct (gtake k (it_src o) (Z.to_nat n) (s, gen_of c)) as [[b|e1|] [s1 g]] eqn:G; try discriminate.
      destruct (gtake_breaks _ _ _ _ _ _ _ _ G) as (-> & l & s2 & c2 & L & GA & B).
      injection E as <- <- <-. split; [|reflexivity]. exists l, s2, c2. split; [unfold zlen; lia | auto].
    - intros ((l & s1 & c1 & L & GA & B) & ->).
      destruct (gives_breaks_gtake _ _ _ _ _ _ GA (Z.to_nat n) e s') as (k & E);
        [unfold zlen in L; lia | exact B |].
      exists k. intros fuel F. now rewrite (E fuel F).
  Qed.

  (** An emitter that is not finished never raises StopIteration. *)
  Theorem C91_no_stop_iteration o s c fuel :
    in_use o c -> fst (it_emit fuel (s, o)) <> Raise StopIteration.
  Proof.
    intros U. apply in_use_gen in U. unfold it_emit, it_run. rewrite U.
    destruct (gnext fuel (it_src o) (s, gen_of c)) as [[b|e1|] [s1 g]] eqn:G; cbn; try discriminate.
    destruct (gnext_breaks _ _ _ _ _ _ _ G) as (-> & B). intros [= ->].
    elim (breaks_not_stop B eq_refl).
  Qed.

  (** A finished emitter: [emit] raises StopIteration, [emit_many] returns the empty
      list whatever the number; the user's code is not run.  With
      reset_after_call, [emit_many] (but not [emit]) revives the emitter. *)
  Theorem C91_finished o s fuel :
    finished o ->
    it_emit fuel (s, o) = (Raise StopIteration, (s, o)) /\
    forall n, 0 <= n ->
      it_emit_many fuel n (s, o) = (Ok [], (s, if it_rac o then it_reset o else o)).
  Proof.
    unfold finished. destruct o as [src g rac]. cbn. intros ->. split; [reflexivity|].
    intros n N. unfold it_emit_many, it_run.
    replace (n <? 0) with false by (symmetry; apply Z.ltb_ge; lia). cbn.
    destruct (Z.to_nat n); reflexivity.
  Qed.

  (** Asking a finished emitter again and again, without reset_after_call. *)
  Fixpoint ask_all (fuel : nat) (qs : list asked_of) (st : S * itobj S H A)
    : list (res (list A)) * (S * itobj S H A) :=
    match qs with
    | [] => ([], st)
    | q :: qs =>
        let (r, st) := ask_it fuel q st in
        let (rs, st) := ask_all fuel qs st in (r :: rs, st)
    end.

  (** Asked for anything, any number of times, it gives no value and stays finished. *)
  Theorem C91_stays_finished o s fuel qs :
    finished o -> it_rac o = false ->
    ask_all fuel qs (s, o) =
      (map (fun q => match q with
                     | One => Raise StopIteration
                     | Many n => if n <? 0 then Raise ValueError else Ok []
                     end) qs, (s, o)).
  Proof.
    intros F R. induction qs as [|q qs IH]; cbn [ask_all map]; [reflexivity|].
    assert (E : ask_it fuel q (s, o) =
      (match q with One => Raise StopIteration
       | Many n => if n <? 0 then Raise ValueError else Ok [] end, (s, o))).
    { destruct q as [|n]; cbn [ask_it].
      - unfold mbind. now rewrite (proj1 (C91_finished o s fuel F)).
      - destruct (n <? 0) eqn:N.
        + unfold it_emit_many. now rewrite N.
        + apply Z.ltb_ge in N. rewrite (proj2 (C91_finished o s fuel F) n N), R. reflexivity. }
    rewrite E, IH. reflexivity.
  Qed.

  (** [reset()] revives it: it reads from a new iterator of the factory. *)
  Theorem C91_reset o s a s' o' :
    does (fun fuel => it_emit fuel (s, it_reset o)) (Ok a, (s', o')) <->
    exists h, gives (it_src o) s None a s' h /\ o' = after_call o (Some h).
  Proof. exact (C90_emit (it_reset o) s None a s' o' eq_refl). Qed.

  (** C92.  [emit] goes on for ever exactly if the iterator in use is at its end
      and the factory gives empty iterators for ever. *)
  Theorem C92_hangs o s c :
    code_ends (it_src o) -> in_use o c ->
    (goes_on (fun fuel => it_emit fuel (s, o)) <-> hangs (it_src o) s c).
  Proof.
    intros (Cm & Cs) U. apply in_use_gen in U.
    assert (Fst : forall fuel, fst (it_emit fuel (s, o)) = fst (gnext fuel (it_src o) (s, gen_of c))).
    { intros fuel. unfold it_emit, it_run. rewrite U.
      destruct (gnext fuel (it_src o) (s, gen_of c)) as [[b|e1|] [s1 g]]; reflexivity. }
    assert (Fetch : forall s, (forall fuel, fst (from_factory fuel (it_src o) s) = Diverge) <->
                              empty_forever (it_src o) s).
    { clear s U Fst. intros s. split.
      - revert s. cofix IH. intros s D. pose proof (Cm s) as Cm'.
        destruct (make (it_src o) s) as [[h|e|] s1] eqn:Em;
          [ | specialize (D 1%nat); cbn in D; rewrite Em in D; discriminate | now elim Cm' ].
        pose proof (Cs h s1) as Cs'.
        destruct (step (it_src o) h s1) as [[b|e|] s2] eqn:Es;
          [ specialize (D 1%nat); cbn in D; rewrite Em, Es in D; discriminate
          |
          | now elim Cs' ].
        assert (e = StopIteration) as ->
          by (specialize (D 1%nat); cbn in D; rewrite Em, Es in D; destruct e; try discriminate D; reflexivity).
        econstructor; [exact Em | exact Es |]. apply IH. intros fuel.
        specialize (D (Datatypes.S fuel)). cbn in D. rewrite Em, Es in D. exact D.
      - intros E fuel. revert s E. induction fuel as [|k IH]; intros s E; [reflexivity|].
        destruct E as [s h s1 s2 Em Es E]. cbn. rewrite Em, Es. now apply IH. }
    unfold goes_on. split.
    - intros D. destruct c as [h|]; cbn.
      + pose proof (Cs h s) as Cs'. destruct (step (it_src o) h s) as [[b|e|] s1] eqn:Es;
          [ specialize (D O); rewrite Fst in D; cbn in D; rewrite Es in D; discriminate
          | | now elim Cs' ].
        assert (e = StopIteration) as ->
          by (specialize (D O); rewrite Fst in D; cbn in D; rewrite Es in D; destruct e; try discriminate D; reflexivity).
        exists s1. split; [reflexivity|]. apply Fetch. intros fuel. specialize (D fuel).
        rewrite Fst in D. cbn in D. rewrite Es in D. exact D.
      + apply Fetch. intros fuel. specialize (D fuel). now rewrite Fst in D.
    - intros Hg fuel. rewrite Fst. destruct c as [h|]; cbn in *.
      + destruct Hg as (s1 & Es & E). rewrite Es. now apply Fetch.
      + now apply Fetch.
  Qed.

  (** So it never does if every iterator is not empty when the factory hands it over. *)
  Theorem C92_never o s c :
    code_ends (it_src o) -> in_use o c ->
    (forall s h s1, make (it_src o) s = (Ok h, s1) -> fst (step (it_src o) h s1) <> Raise StopIteration) ->
    ~ goes_on (fun fuel => it_emit fuel (s, o)).
  Proof.
    intros E U N G. apply (C92_hangs o s c E U) in G.
    assert (X : forall s, ~ empty_forever (it_src o) s).
    { intros s0 []. apply (N _ _ _ H0). now rewrite H1. }
    destruct c as [h|]; cbn in G; [destruct G as (s1 & _ & G)|]; exact (X _ G).
  Qed.

  (** The constructor and the setter: one iterator is made and one element taken
      from it. *)
  Theorem C92_new (src : source S H A) rac s o s' :
    it_new src rac s = (Ok o, s') <->
    o = mkIt src Fresh rac /\
    exists h s1 a, make src s = (Ok h, s1) /\ step src h s1 = (Ok a, s').
  Proof.
    unfold it_new, it_check, mbind. split.
    - destruct (make src s) as [[h|e|] s1] eqn:Em; [|destruct e; discriminate|discriminate].
      destruct (step src h s1) as [[b|e|] s2] eqn:Es; [|destruct e; discriminate|discriminate].
      cbn. intros [= <- <-]. split; [reflexivity|]. exists h, s1, b. auto.
    - intros (-> & h & s1 & a & -> & ->). reflexivity.
  Qed.

  Theorem C92_set (src : source S H A) o s o' s' :
    it_set src (s, o) = (Ok tt, (s', o')) <->
    o' = mkIt src Fresh (it_rac o) /\
    exists h s1 a, make src s = (Ok h, s1) /\ step src h s1 = (Ok a, s').
  Proof.
    unfold it_set, it_check, mbind. split.
    - destruct (make src s) as [[h|e|] s1] eqn:Em; [|destruct e; discriminate|discriminate].
      destruct (step src h s1) as [[b|e|] s2] eqn:Es; [|destruct e; discriminate|discriminate].
      cbn. intros [= <- <-]. split; [reflexivity|]. exists h, s1, b. auto.
    - intros (-> & h & s1 & a & -> & ->). reflexivity.
  Qed.

  (** Empty iterators are refused, and the object is left as it was. *)
  Theorem C92_refused (src : source S H A) o s h s1 s2 :
    make src s = (Ok h, s1) -> step src h s1 = (Raise StopIteration, s2) ->
    it_set src (s, o) = (Raise ValueError, (s2, o)) /\ forall rac, it_new src rac s = (Raise ValueError, s2).
  Proof. intros Em Es. unfold it_set, it_new, it_check, mbind. rewrite Em, Es. auto. Qed.
End Iter.

(** ** Cases and counterexamples *)

(** Generator functions of the user: [body p] is what the generator does at its
    [p]-th step.  The state lists the generators made: their position, or [None]
    if finished. *)
Definition generators {A} (body : nat -> res A) : source (list (option nat)) nat A := {|
  make := fun gs => (Ok (length gs), gs ++ [Some O]);
  step := fun h gs =>
    match nth_error gs h with
    | Some (Some p) =>
        match body p with
        | Ok a => (Ok a, upd h (Some (Datatypes.S p)) gs)
        | Raise e => (Raise e, upd h None gs)
        | Diverge => (Diverge, gs)
        end
    | _ => (Raise StopIteration, gs)
    end
|}.

(** [def f(): yield 1; yield 2; raise E] *)
Definition one_two_error (p : nat) : res Z :=
  match p with O => Ok 1 | 1%nat => Ok 2 | _ => Raise (UserError 7) end.

(** [em = Iterative(f); em()], [em(2)]: a value, then the error; then nothing. *)
Example C91_case :
  match it_new (generators one_two_error) false [] with
  | (Ok o, s) =>
      fst (ask_all 3 [One; Many 2; One; Many 2] (s, o)) =
        [Ok [1]; Raise (UserError 7); Raise StopIteration; Ok []]
  | _ => False
  end.
Proof. reflexivity. Qed.

(** It is not true that an emitter goes on after an exception of the user's
    iterator, and that [emit_many(n)], if it returns, returns [n] values. *)
Theorem C91_goes_on_refuted :
  ~ forall (src : source (list (option nat)) nat Z) s o s1 qs fuel n l st,
      it_new src false s = (Ok o, s1) -> 0 <= n ->
      does (fun fuel' => it_emit_many fuel' n (snd (ask_all fuel qs (s1, o)))) (Ok l, st) ->
      zlen l = n.
Proof.
  intros F.
  specialize (F (generators one_two_error) [] (mkIt (generators one_two_error) Fresh false)
                [Some 1%nat] [Many 3] 3%nat 2 []
                (snd (ask_all 3 [Many 3] ([Some 1%nat], mkIt (generators one_two_error) Fresh false)))
                eq_refl ltac:(lia)).
  discriminate F. exists O. reflexivity.
Qed.

(** [it = iter(l); Iterative(lambda: it)]: every call of the factory returns the
    same iterator.  The state is what is left of it. *)
Definition shared_iterator : source (list Z) unit Z := {|
  make := fun l => (Ok tt, l);
  step := fun _ l => match l with [] => (Raise StopIteration, []) | a :: t => (Ok a, t) end
|}.

Lemma shared_ends : code_ends shared_iterator.
Proof. split; [discriminate|]. intros h [|a l]; discriminate. Qed.

(** The check of the constructor swallows the first value of it. *)
Example C90_case :
  match it_new shared_iterator false [1; 2; 3] with
  | (Ok o, s) => in_use o None /\ ask_all 1 [One; Many 1] (s, o) =
      ([Ok [2]; Ok [3]], ([], mkIt shared_iterator (Running tt) false))
  | _ => False
  end.
Proof. split; reflexivity. Qed.

(** Empty iterators are refused "to prevent an infinite loop", but an accepted
    factory can still make [emit] go on for ever. *)
Theorem C92_accepted_refuted :
  ~ forall (src : source (list Z) unit Z) s o s1 qs fuel,
      code_ends src -> it_new src false s = (Ok o, s1) ->
      ~ goes_on (fun fuel' => it_emit fuel' (snd (ask_all fuel qs (s1, o)))).
Proof.
  intros F. apply (F shared_iterator [1; 2] (mkIt shared_iterator Fresh false) [2] [One] 1%nat shared_ends eq_refl).
  change (snd (ask_all 1 [One] ([2], mkIt shared_iterator Fresh false)))
    with ([] : list Z, mkIt shared_iterator (Running tt) false).
  apply (proj2 (C92_hangs (mkIt shared_iterator (Running tt) false) [] (Some tt) shared_ends eq_refl)).
  exists []. split; [reflexivity|]. cofix IH. econstructor; [reflexivity | reflexivity | exact IH].
Qed.

(** [C92_never] on a generator function. *)
Example C92_never_case s c o :
  it_src o = generators (fun p => match p with O => Ok 5 | _ => Raise StopIteration end) ->
  in_use o c -> ~ goes_on (fun fuel => it_emit fuel (s, o)).
Proof.
  intros E U. apply (C92_never o s c); [|exact U|]; rewrite E.
  - split; [discriminate|]. intros h gs. cbn. destruct (nth_error gs h) as [[[|p]|]|]; discriminate.
  - intros gs h gs1. cbn. intros [= <- <-]. rewrite nth_error_app2, Nat.sub_diag by lia. discriminate.
Qed.

(** ** C93: Sequential *)

Section Live.
  Context {A : Type}.
  Implicit Types (st : listheap A) (o : itobj (listheap A) nat A) (l : list A).

  Lemma nth_upd {B} (x : B) : forall h its, (h < length its)%nat -> nth_error (upd h x its) h = Some x.
  Proof. induction h as [|h IH]; intros [|b its] L; cbn in *; try lia; [reflexivity | apply IH; lia]. Qed.

  Lemma live_fetch k (a : A) l its :
    from_factory (Datatypes.S k) (list_source A) (a :: l, its) =
      (Ok a, ((a :: l, upd (length its) (Some 1%nat) (its ++ [Some O])), Running (length its))).
  Proof. cbn. now rewrite nth_error_app2, Nat.sub_diag by lia. Qed.

  (** One value *)
  Lemma live_next k l its g p :
    l <> [] ->
    match g with Fresh => p = O | Running h => nth_error its h = Some (Some p) | Finished => False end ->
    exists a its' h q,
      gnext (Datatypes.S k) (list_source A) (@pair (listheap A) (pygen nat) (l, its) g) = (Ok a, @pair (listheap A) (pygen nat) (l, its') (Running h)) /\
      nth_error its' h = Some (Some q) /\
      forall n, values (Datatypes.S n) l p = (let (v, r) := values n l q in (a :: v, r)).
  Proof.
    intros L P. destruct l as [|a0 l0]; [now elim L|]. clear L.
    assert (N : nth_error (upd (length its) (Some 1%nat) (its ++ [Some O])) (length its) = Some (Some 1%nat)).
    { apply nth_upd. rewrite app_length. cbn. lia. }
    destruct g as [|h|]; [| |contradiction].
    - subst p. exists a0, (upd (length its) (Some 1%nat) (its ++ [Some O])), (length its), 1%nat.
      cbn [gnext snd fst]. rewrite live_fetch. auto.
    - destruct (nth_error (a0 :: l0) p) as [a|] eqn:E.
      + exists a, (upd h (Some (Datatypes.S p)) its), h, (Datatypes.S p).
        unfold gnext. cbn [snd fst list_source step]. rewrite P, E.
        split; [reflexivity|]. split.
        * apply nth_upd. apply nth_error_Some. now rewrite P.
        * intros n. cbn [values]. now rewrite E.
      + set (its1 := upd h (@None nat) its).
        exists a0, (upd (length its1) (Some 1%nat) (its1 ++ [Some O])), (length its1), 1%nat.
        unfold gnext. cbn [snd fst list_source step]. rewrite P, E.
        fold its1. pose proof (live_fetch k a0 l0 its1) as F. cbn [list_source] in F.
        split; [exact F|]. split.
        * apply nth_upd. rewrite app_length. cbn. lia.
        * intros n. cbn [values]. now rewrite E.
  Qed.

  Definition at_pos (its : list (option nat)) (g : pygen nat) (p : nat) : Prop :=
    match g with Fresh => p = O | Running h => nth_error its h = Some (Some p) | Finished => False end.

  Lemma live_take k l (L : l <> []) : forall n its g p, at_pos its g p ->
    exists its' g', gtake (Datatypes.S k) (list_source A) n (@pair (listheap A) (pygen nat) (l, its) g) = (Ok (fst (values n l p)), @pair (listheap A) (pygen nat) (l, its') g') /\
      at_pos its' g' (snd (values n l p)).
  Proof.
    induction n as [|n IH]; intros its g p P.
    - exists its, g. split; [reflexivity | exact P].
    - destruct (live_next k l its g p L P) as (a & its1 & h & q & E & P1 & V).
      destruct (IH its1 (Running h) q P1) as (its2 & g2 & E2 & P2).
      exists its2, g2. cbn [gtake]. rewrite E, E2, V. destruct (values n l q). auto.
  Qed.

  Lemma stands_at st o p : stands st o p <-> at_pos (snd st) (it_gen o) p.
  Proof. reflexivity. Qed.

  Lemma live_ask k n st o p :
    it_src o = list_source A -> fst st <> [] -> stands st o p ->
    exists st' o', ask_it (Datatypes.S k) (if Nat.eqb n 1 then One else Many (Z.of_nat n)) (st, o) =
      (Ok (fst (values n (fst st) p)), (st', o')) /\
      fst st' = fst st /\ it_src o' = list_source A /\ it_rac o' = it_rac o /\
      stands st' o' (if it_rac o then O else snd (values n (fst st) p)).
  Proof.
    destruct st as [l its], o as [src g rac]. cbn [it_src fst]. intros -> L P.
    apply stands_at in P. cbn [snd it_gen] in P. cbn [it_rac].
    destruct (Nat.eqb n 1) eqn:N1; cbn [ask_it].
    - apply Nat.eqb_eq in N1. subst n.
      destruct (live_next k l its g p L P) as (a & its1 & h & q & E & P1 & V).
      unfold mbind, it_emit, it_run. cbn [it_src it_gen]. rewrite E. rewrite (V O). cbn.
      eexists _, _. split; [reflexivity|]. cbn. destruct rac; cbn; auto.
    - destruct (live_take k l L n its g p P) as (its' & g' & E & P').
      unfold it_emit_many, it_run. replace (Z.of_nat n <? 0) with false by (symmetry; apply Z.ltb_ge; lia).
      rewrite Nat2Z.id. cbn [it_src it_gen]. rewrite E. cbn [it_rac].
      eexists _, _. split; [reflexivity|]. destruct rac; cbn; auto.
  Qed.

  Lemma live_all k evs : forall st o p,
    it_src o = list_source A -> stands st o p -> never_empty evs (fst st) ->
    emitted (Datatypes.S k) evs st o = map Ok (expected (it_rac o) evs (fst st) p).
  Proof.
    induction evs as [|[l|n|] evs IH]; intros st o p E P N; cbn [emitted expected map].
    - reflexivity.
    - apply IH; [exact E | exact P | exact N].
    - destruct N as (L & N). destruct (live_ask k n st o p E L P) as (st' & o' & Ea & F & E' & R & P').
      rewrite Ea. destruct (values n (fst st) p) as [v q] eqn:V. cbn [map fst]. f_equal.
      rewrite (IH st' o' _ E' P'); [|now rewrite F]. now rewrite F, R.
    - rewrite (IH st (it_reset o) O); [reflexivity | exact E | reflexivity | exact N].
  Qed.

  (** C93.  A Sequential reads the list it was given, as it is at the time: every
      value is the one at its position in the present list, and at the end of the
      present list it starts again; for every history of changes, calls and resets
      in which the list is not empty when values are asked for.  The program needs
      no more than one call of the factory in a step. *)
  Theorem C93_live (l : list A) its rac o st evs :
    sq_new rac (l, its) = (Ok o, st) -> never_empty evs l ->
    forall fuel, (1 <= fuel)%nat -> emitted fuel evs st o = map Ok (expected rac evs l 0).
  Proof.
    intros E N [|k] F; [lia|]. unfold sq_new in E. cbn [fst] in E. destruct l as [|a l]; [discriminate|].
    injection E as <- <-. exact (live_all k evs (a :: l, its) (mkIt (list_source A) Fresh rac) O eq_refl eq_refl N).
  Qed.

  (** The constructor refuses the empty list and looks at nothing else. *)
  Theorem C93_new rac st :
    (fst st = [] -> sq_new rac st = (Raise ValueError, st)) /\
    (fst st <> [] -> exists o, sq_new rac st = (Ok o, st) /\ it_rac o = rac /\ stands st o 0).
  Proof.
    destruct st as [[|a l] its]; (split; [intros E | intros N]); try discriminate E; try now elim N.
    - reflexivity.
    - eexists. now repeat split.
  Qed.

  (** A list that was emptied makes the next value go on for ever, wherever the
      emitter stands. *)
  Theorem C93_emptied st o p :
    it_src o = list_source A -> fst st = [] -> stands st o p ->
    goes_on (fun fuel => it_emit fuel (st, o)) /\
    forall n, 0 < n -> goes_on (fun fuel => it_emit_many fuel n (st, o)).
  Proof.
    intros E L P.
    assert (F : forall fuel st, fst st = [] -> fst (from_factory fuel (list_source A) st) = Diverge).
    { clear. induction fuel as [|k IH]; intros [l its] L; cbn in L; subst l; [reflexivity|].
      cbn. rewrite nth_error_app2, Nat.sub_diag by lia. now apply IH. }
    assert (G : forall fuel, fst (gnext fuel (list_source A) (st, it_gen o)) = Diverge).
    { intros fuel. destruct st as [l its]. cbn in L. subst l. unfold stands in P.
      destruct (it_gen o) as [|h|]; [| |contradiction].
      - now apply F.
      - cbn in P. unfold gnext. cbn [snd fst list_source step]. rewrite P.
        replace (nth_error (@nil A) p) with (@None A) by now destruct p. now apply F. }
    split.
    - intros fuel. specialize (G fuel). cbv beta. unfold it_emit, it_run. rewrite E.
      destruct (gnext fuel (list_source A) (st, it_gen o)) as [r [s1 g1]]. cbn in G. now rewrite G.
    - intros n N fuel. specialize (G fuel). cbv beta. unfold it_emit_many, it_run.
      replace (n <? 0) with false by (symmetry; apply Z.ltb_ge; lia). rewrite E.
      destruct (Z.to_nat n) as [|m] eqn:M; [lia|]. cbn [gtake].
      destruct (gnext fuel (list_source A) (st, it_gen o)) as [r [s1 g1]]. cbn in G. now rewrite G.
  Qed.
End Live.

(** [l = [1, 2, 3]; em = Sequential(l); em(2); l[:] = [7, 8]; em(2); l.append(9); em(3)] *)
Example C93_case :
  match sq_new false ([1; 2; 3], []) with
  | (Ok o, st) =>
      never_empty [Ask 2; Change [7; 8]; Ask 2; Change [7; 8; 9]; Ask 3] [1; 2; 3] /\
      emitted 1 [Ask 2; Change [7; 8]; Ask 2; Change [7; 8; 9]; Ask 3] st o =
        [Ok [1; 2]; Ok [7; 8]; Ok [9; 7; 8]]
  | _ => False
  end.
Proof. split; [repeat split; discriminate | reflexivity]. Qed.

(** [l = [1, 2]; em = Sequential(l); em(); l.clear(); em()] *)
Example C93_emptied_case :
  match sq_new false ([1; 2], []) with
  | (Ok o, st) =>
      match ask_it 1 One (st, o) with
      | (Ok [1], ((_, its), o)) => stands (@nil Z, its) o 1 /\ fst (@nil Z, its) = [] /\ it_src o = list_source Z
      | _ => False
      end
  | _ => False
  end.
Proof. repeat split. Qed.

(** ** The iterators of FixedModel.v are a special case *)

(** A factory as in FixedModel.v: the elements of the iterator of call number [c]
    are fixed by [f c].  The state is the positions of the iterators made. *)
Definition fixed_source {A} (f : FixedModel.factory A) : source (list nat) nat A := {|
  make := fun ps => (Ok (length ps), ps ++ [O]);
  step := fun h ps =>
    match nth_error ps h with
    | Some p =>
        match it_at (f h) p with
        | Some a => (Ok a, upd h (Datatypes.S p) ps)
        | None => (Raise StopIteration, ps)
        end
    | None => (Raise StopIteration, ps)
    end
|}.

Section Same.
  Context {A : Type}.

  (** The generator of FixedModel.v and the one here stand at the same place. *)
  Definition same_gen (g : gen) (ps : list nat) (pg : pygen nat) : Prop :=
    g_calls g = length ps /\
    match pg with
    | Fresh => g_cur g = None
    | Running h => exists p, g_cur g = Some (h, p) /\ nth_error ps h = Some p
    | Finished => False
    end.

  (** The two objects are at the same point. *)
  Definition same_iter (i : iterative A) (ps : list nat) (o : itobj (list nat) nat A) : Prop :=
    it_src o = fixed_source (i_factory i) /\ it_rac o = i_rac i /\ same_gen (i_gen i) ps (it_gen o).

  (** The same outcome, and if it is not [Diverge] the same state. *)
  Definition same_gen_out {B} (x : res B * gen) (y : res B * (list nat * pygen nat)) : Prop :=
    fst x = fst y /\ (fst x <> Diverge -> same_gen (snd x) (fst (snd y)) (snd (snd y))).

  Lemma same_fetch (f : FixedModel.factory A) fuel : forall g ps,
    g_calls g = length ps ->
    match g_cur g with Some (c, p) => it_at (f c) p = None | None => True end ->
    same_gen_out (gen_next fuel f g) (from_factory fuel (fixed_source f) ps).
  Proof.
    induction fuel as [|k IH]; intros g ps C N; cbn [gen_next from_factory].
    - destruct (g_cur g) as [[c p]|]; [rewrite N|]; (split; [reflexivity | intros X; now elim X]).
    - assert (Z1 : forall (x : res A * (list nat * pygen nat)),
        same_gen_out (gen_next k f (mkGen (Datatypes.S (g_calls g)) (Some (g_calls g, O)))) x ->
        same_gen_out (gen_next (Datatypes.S k) f g) x).
      { intros x. cbn [gen_next]. destruct (g_cur g) as [[c p]|]; [rewrite N|]; auto. }
      apply Z1. clear Z1. cbn [fixed_source make step]. rewrite nth_error_app2, Nat.sub_diag by lia. cbn [nth_error].
      destruct (it_at (f (length ps)) 0) as [a|] eqn:E.
      + assert (gen_next k f (mkGen (Datatypes.S (g_calls g)) (Some (g_calls g, O))) =
                (Ok a, mkGen (Datatypes.S (g_calls g)) (Some (g_calls g, 1%nat)))) as ->.
        { rewrite C. destruct k; cbn; rewrite E; reflexivity. }
        split; [reflexivity|]. intros _. cbn. split.
        * rewrite C. clear. generalize (length ps) at 2. intros n. revert n.
          assert (X : forall n x (l : list nat), length (upd n x l) = length l)
            by (induction n; destruct l; cbn; auto).
          intros n. rewrite X, app_length. cbn. lia.
        * exists 1%nat. split; [now rewrite C|]. apply nth_upd. rewrite app_length. cbn. lia.
      + apply IH; cbn [g_calls g_cur]; [rewrite C, app_length; cbn; lia | now rewrite C].
  Qed.

  Lemma same_next (f : FixedModel.factory A) fuel g ps pg :
    same_gen g ps pg -> same_gen_out (gen_next fuel f g) (gnext fuel (fixed_source f) (ps, pg)).
  Proof.
    intros (C & P). unfold gnext. cbn [fst snd]. destruct pg as [|h|]; [| |contradiction].
    - apply same_fetch; [exact C | now rewrite P].
    - destruct P as (p & Ec & En). cbn [fixed_source step]. rewrite En.
      destruct (it_at (f h) p) as [a|] eqn:E.
      + assert (gen_next fuel f g = (Ok a, mkGen (g_calls g) (Some (h, Datatypes.S p)))) as ->
          by (destruct fuel; cbn; rewrite Ec, E; reflexivity).
        split; [reflexivity|]. intros _. cbn. split.
        * rewrite C. clear.
          assert (X : forall n x (l : list nat), length (upd n x l) = length l)
            by (induction n; destruct l; cbn; auto).
          now rewrite X.
        * exists (Datatypes.S p). split; [reflexivity|]. apply nth_upd. apply nth_error_Some. now rewrite En.
      + apply same_fetch; [exact C | now rewrite Ec].
  Qed.

  Lemma no_raise (f : FixedModel.factory A) fuel : forall g e, fst (gen_next fuel f g) <> Raise e.
  Proof.
    induction fuel as [|k IH]; intros g e; cbn;
      (destruct (g_cur g) as [[c p]|]; [destruct (it_at (f c) p)|]); cbn; try discriminate; apply IH.
  Qed.

  Lemma same_take (f : FixedModel.factory A) fuel n : forall g ps pg,
    same_gen g ps pg -> same_gen_out (gen_take fuel f n g) (gtake fuel (fixed_source f) n (ps, pg)).
  Proof.
    induction n as [|n IH]; intros g ps pg Sg; cbn [gen_take gtake].
    - split; [reflexivity | intros _; exact Sg].
    - unfold mbind at 1. pose proof (same_next f fuel g ps pg Sg) as (E1 & E2).
      pose proof (no_raise f fuel g) as NR.
      destruct (gen_next fuel f g) as [[a|e|] g1], (gnext fuel (fixed_source f) (ps, pg)) as [r1 [ps1 pg1]];
        cbn in E1, E2, NR; subst r1; [ | now elim (NR e) | split; [reflexivity | intros X; now elim X]].
      specialize (IH g1 ps1 pg1 (E2 ltac:(discriminate))). destruct IH as (F1 & F2). unfold mbind.
      destruct (gen_take fuel f n g1) as [[l|e|] g2], (gtake fuel (fixed_source f) n (ps1, pg1)) as [r2 [ps2 pg2]];
        cbn in F1, F2; subst r2; (split; [reflexivity|]); cbn; auto; intros _; apply F2; discriminate.
  Qed.

  (** FixedModel.v's [iter_new], [iter_reset], [iter_emit] and [iter_emit_many] do
      what those here do: constructing, *)
  Theorem C90_fixed_new (f : FixedModel.factory A) rac :
    match iter_new f rac, it_new (fixed_source f) rac [] with
    | Ok i, (Ok o, ps) => same_iter i ps o
    | Raise e, (Raise e', _) => e = e'
    | _, _ => False
    end.
  Proof.
    unfold iter_new, FixedModel.check_iter_factory, it_new, it_check, mbind. cbn.
    destruct (it_at (f O) 0) as [a|]; cbn; [|reflexivity].
    repeat split.
  Qed.

  (** resetting, and calling, as long as nothing goes on for ever. *)
  Theorem C90_fixed_calls (i : iterative A) ps o fuel :
    same_iter i ps o ->
    same_iter (iter_reset i) ps (it_reset o) /\
    fst (iter_emit fuel i) = fst (it_emit fuel (ps, o)) /\
    (forall n, fst (iter_emit_many fuel n i) = fst (it_emit_many fuel n (ps, o))) /\
    (fst (iter_emit fuel i) <> Diverge ->
       same_iter (snd (iter_emit fuel i)) (fst (snd (it_emit fuel (ps, o)))) (snd (snd (it_emit fuel (ps, o))))) /\
    (forall n, fst (iter_emit_many fuel n i) <> Diverge ->
       same_iter (snd (iter_emit_many fuel n i)) (fst (snd (it_emit_many fuel n (ps, o))))
         (snd (snd (it_emit_many fuel n (ps, o))))).
  Proof.
    intros (Es & Er & Sg). destruct i as [f g rac], o as [src pg rac']. cbn in Es, Er, Sg. subst src rac'.
    assert (Run : forall B (m : FixedModel.factory A -> M gen B) (m' : source (list nat) nat A -> M (list nat * pygen nat) B),
      same_gen_out (m f g) (m' (fixed_source f) (ps, pg)) ->
      let x := iter_run m (mkIter f g rac) in
      let y := it_run m' (ps, mkIt (fixed_source f) pg rac) in
      fst x = fst y /\ (fst x <> Diverge -> same_iter (snd x) (fst (snd y)) (snd (snd y)))).
    { intros B m m' (E1 & E2). unfold iter_run, it_run. cbn [i_factory i_gen it_src it_gen].
      destruct (m f g) as [r g1], (m' (fixed_source f) (ps, pg)) as [r1 [ps1 pg1]].
      cbn in E1, E2. subst r1. destruct r as [b|e|]; cbn.
      - specialize (E2 ltac:(discriminate)). split; [reflexivity|]. intros _.
        destruct rac; cbn; (split; [reflexivity|]; split; [reflexivity|]); cbn; [|exact E2].
        split; [exact (proj1 E2) | reflexivity].
      - specialize (E2 ltac:(discriminate)). split; [reflexivity|]. intros _.
        split; [reflexivity|]. split; [reflexivity | exact E2].
      - split; [reflexivity | intros X; now elim X]. }
    split. { split; [reflexivity|]. split; [reflexivity|]. split; [exact (proj1 Sg) | reflexivity]. }
    destruct (Run _ _ _ (same_next f fuel g ps pg Sg)) as (R1 & R2).
    assert (Many : forall n,
      let x := iter_emit_many fuel n (mkIter f g rac) in
      let y := it_emit_many fuel n (ps, mkIt (fixed_source f) pg rac) in
      fst x = fst y /\ (fst x <> Diverge -> same_iter (snd x) (fst (snd y)) (snd (snd y)))).
    { intros n. unfold iter_emit_many, it_emit_many. destruct (n <? 0).
      - split; [reflexivity|]. intros _.
        split; [reflexivity|]. split; [reflexivity | exact Sg].
      - exact (Run _ (fun f => gen_take fuel f (Z.to_nat n)) (fun src => gtake fuel src (Z.to_nat n))
                 (same_take f fuel (Z.to_nat n) g ps pg Sg)). }
    split; [exact R1|]. split; [intros n; apply (Many n)|]. split; [exact R2 | intros n; apply (Many n)].
  Qed.
End Same.

(** [Iterative(lambda: iter(range(2)))] *)
Example C90_fixed_case :
  match iter_new (fun _ => Finite [0; 1] true) false, it_new (fixed_source (fun _ => Finite [0; 1] true)) false [] with
  | Ok i, (Ok o, ps) => same_iter i ps o /\ fst (it_emit_many 5 3 (ps, o)) = Ok [0; 1; 0]
  | _, _ => False
  end.
Proof. repeat split. Qed.

Print Assumptions C90_emit.
Print Assumptions C90_emit_many.
Print Assumptions C90_negative.
Print Assumptions C90_batches.
Print Assumptions C90_fixed_new.
Print Assumptions C90_fixed_calls.
Print Assumptions C91_raises.
Print Assumptions C91_raises_many.
Print Assumptions C91_no_stop_iteration.
Print Assumptions C91_finished.
Print Assumptions C91_stays_finished.
Print Assumptions C91_reset.
Print Assumptions C91_goes_on_refuted.
Print Assumptions C92_hangs.
Print Assumptions C92_never.
Print Assumptions C92_new.
Print Assumptions C92_set.
Print Assumptions C92_refused.
Print Assumptions C92_accepted_refuted.
Print Assumptions C93_live.
Print Assumptions C93_new.
Print Assumptions C93_emptied.
