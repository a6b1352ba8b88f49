(** * Property C103: an Iterative or Sequential emitter that several threads call.

    Vocabulary: [ThreadModel.v] (threads, schedules), [ThreadIter.v] (steps of calls),
    [FixedModel.v] (the emitters in one thread; a Sequential emitter is, here, an Iterative
    one whose factory gives the same items each time). *)
From Coq Require Import Permutation.
From Verif Require Import Base Prims ChoiceRun FixedModel FixedProofs ThreadModel ThreadProofs ThreadIter Prop_Thread.
Open Scope Z_scope.

(** In one thread: em(), em.emit(), em(n), em.emit_many(n) *)
Definition iter_ask {A} fuel (q : ask) : M (iterative A) (list A) :=
  match q with
  | Call0 | Emit => a <~ iter_emit fuel ;; ret [a]
  | CallN n => call_number (iter_emit fuel) (iter_emit_many fuel) n
  | EmitMany n => iter_emit_many fuel n
  end.
Fixpoint iter_asks {A} fuel (qs : list ask) (i : iterative A) : list (res (list A)) * iterative A :=
  match qs with
  | [] => ([], i)
  | q :: t => let '(r, i) := iter_ask fuel q i in let '(rs, i) := iter_asks fuel t i in (r :: rs, i)
  end.
(** Threads that make the calls [todo] of the emitter [i] *)
Definition iter_threads {A} fuel (i : iterative A) (todo : list (list ask)) (schedule : list nat) :=
  run iter_start (iter_step fuel) schedule (begin todo (share i)).
Definition iter_locked {A} fuel (i : iterative A) (todo : list (list ask)) (schedule : list nat) : Prop :=
  one_at_a_time iter_start (iter_step fuel) schedule (begin todo (share i)).
(** Every iterator of the factory has an element, as the emitters demand. *)
Definition never_empty {A} (i : iterative A) : Prop := forall c, it_at (i_factory i c) 0 <> None.

(** ** C103 *)
Definition C103_statement : Prop :=
  forall (A : Type) fuel (i : iterative A) todo schedule,
  (1 <= fuel)%nat -> never_empty i -> i_rac i = false -> Forall (Forall (fun r => 0 <= ask_size r)) todo ->
  let y := iter_threads fuel i todo schedule in
  idle y ->
  (* no call fails, and all values together are the next ones of the sequence *)
  Forall (fun r => exists l, r = Ok l) (outcomes y) /\
  exists l, fst (iter_emit_many fuel (zlen (values y)) i) = Ok l /\ Permutation (values y) l.

Definition three : iterative nat := mkIter (fun _ => Finite [10; 20; 30]%nat true) (mkGen 0 None) false.
(** The second thread calls while the first is in the generator. *)
Theorem C103_fails_refuted : ~ C103_statement.
Proof.
  intros S. destruct (S nat 1%nat three [[Call0]; [Call0]] [0; 0; 0; 1; 1; 1; 0; 0; 0]%nat) as [F _]; auto.
  - intros c. discriminate.
  - repeat constructor; cbn; lia.
  - intros th H. vm_compute in H. intuition (subst; reflexivity).
  - vm_compute in F. inversion F as [|x l [v E] _]. discriminate.
Qed.
Print Assumptions C103_fails_refuted.

(** Values can be lost: em(2) has got 10 when it fails, and em() then gives 30, while the
    other thread has 20. *)
Theorem C103_lost :
  let y := iter_threads 1 three [[CallN 2]; [Call0; Call0]] ([0; 0; 0; 0] ++ [1; 1; 1] ++ [0] ++ repeat 1 20)%nat in
  idle y /\ outcomes y = [Raise ValueError; Ok [20]; Ok [30]]%nat.
Proof. split; [intros th H; vm_compute in H; intuition (subst; reflexivity) | vm_compute; reflexivity]. Qed.
Print Assumptions C103_lost.

(** With reset_after_call, em() need not give the first value: a thread that has read
    _iterator before the other thread's reset goes on with the old generator. *)
Theorem C103_reset :
  let y := iter_threads 1 (iter_set_rac true three) [[Call0]; [Call0]] ([0; 0] ++ [1; 1; 1; 1; 1; 1] ++ [0; 0; 0; 0])%nat in
  idle y /\ outcomes y = [Ok [10]; Ok [20]]%nat /\
  fst (iter_asks 1 [Call0; Call0] (iter_set_rac true three)) = [Ok [10]; Ok [10]]%nat.
Proof. split; [intros th H; vm_compute in H; intuition (subst; reflexivity) | split; vm_compute; reflexivity]. Qed.
Print Assumptions C103_reset.

Section Iter.
  Context {A : Type} (fuel : nat) (i : iterative A).
  Context (Hf : (1 <= fuel)%nat) (Hne : never_empty i).
  Notation sys := (system (shared A) ask (place A) (list A)).

  (** *** Any schedule, no reset_after_call *)
  Definition in_hand (th : thread ask (place A)) : list A :=
    match t_now th with Some (_, Enter _ _ got) | Some (_, Inside _ _ got) | Some (_, After got) => got | _ => [] end.
  Definition ok_place (q : ask) (l : place A) : Prop :=
    match l with
    | Refuse => ask_size q < 0
    | Fetch k => k = Z.to_nat (ask_size q)
    | Enter g k got => g = 0%nat /\ (k + length got = Z.to_nat (ask_size q))%nat
    | Inside g k got => g = 0%nat /\ (1 + k + length got = Z.to_nat (ask_size q))%nat
    | After got => (length got = Z.to_nat (ask_size q))%nat
    end.
  Definition ok_thread (Q : ask -> Prop) (th : thread ask (place A)) : Prop :=
    Forall Q (t_todo th) /\ (forall q l, t_now th = Some (q, l) -> Q q /\ ok_place q l).
  Definition ok_end (e : nat * ask * res (list A)) : Prop :=
    (exists l, snd e = Ok l /\ length l = Z.to_nat (ask_size (snd (fst e)))) \/ snd e = Raise ValueError.
  Definition accounted (Q : ask -> Prop) (y : sys) : Prop :=
    exists N l lost b g,
      gen_take fuel (i_factory i) N (i_gen i) = (Ok l, g) /\
      s_shared y = mkShared (i_factory i) (g_calls g) [(g_cur g, b)] 0 false /\
      Permutation (values y ++ concat (map in_hand (s_threads y)) ++ lost) l /\
      ((forall q, Q q -> ask_size q <= 1) -> lost = []) /\
      Forall (ok_thread Q) (s_threads y) /\ Forall ok_end (s_log y).

  Lemma accounted_step Q j y : accounted Q y -> accounted Q (run_one iter_start (iter_step fuel) j y).
  Proof.
    intros (N & l & lost & b & g & E & Sh & Pm & Ls & Ot & Oe). unfold run_one.
    destruct (nth_error (s_threads y) j) as [th|] eqn:Ej; [|exists N, l, lost, b, g; auto 10].
    assert (Oth : ok_thread Q th) by (rewrite Forall_forall in Ot; apply Ot; eapply nth_error_In, Ej).
    assert (Up : forall th', ok_thread Q th' -> Forall (ok_thread Q) (upd j th' (s_threads y))).
    { intros th' H. apply Forall_forall. intros x Hx. apply in_upd in Hx as [->|Hx]; [exact H|]. rewrite Forall_forall in Ot. auto. }
    assert (Hand : forall th', Permutation (in_hand th' ++ concat (map in_hand (s_threads y))) (in_hand th ++ concat (map in_hand (upd j th' (s_threads y)))))
      by (intros th'; apply concat_upd, Ej).
    destruct Oth as [O1 O2]. destruct (t_now th) as [[q p]|] eqn:Nw.
    - destruct (O2 q p eq_refl) as [Qq Pp].
      assert (Hin : in_hand th = match p with Enter _ _ got | Inside _ _ got | After got => got | _ => [] end) by (unfold in_hand; rewrite Nw; destruct p; reflexivity).
      (* the thread goes on, with the same values in hand *)
      assert (Go : forall p' b', in_hand (mkThread (t_todo th) (Some (q, p'))) = in_hand th -> ok_place q p' ->
        accounted Q (mkSystem (upd j (mkThread (t_todo th) (Some (q, p'))) (s_threads y)) (mkShared (i_factory i) (g_calls g) [(g_cur g, b')] 0 false) (s_log y))).
      { intros p' b' Hi Po. exists N, l, lost, b', g. split; [exact E|]. split; [reflexivity|]. split; [|split; [exact Ls|split; [|exact Oe]]].
        - specialize (Hand (mkThread (t_todo th) (Some (q, p')))). rewrite Hi in Hand. apply Permutation_app_inv_l in Hand. cbn [s_threads].
          unfold values, outcomes in *. cbn [s_log]. rewrite <- Hand. exact Pm.
        - apply Up. split; [exact O1|]. intros q' p'' X. injection X as <- <-. auto. }
      (* the call fails with ValueError *)
      assert (Fail : ((forall q, Q q -> ask_size q <= 1) -> in_hand th = []) ->
        accounted Q (mkSystem (upd j (mkThread (t_todo th) None) (s_threads y)) (s_shared y) (s_log y ++ [(j, q, Raise ValueError)]))).
      { intros Hi. exists N, l, (in_hand th ++ lost), b, g. split; [exact E|]. split; [exact Sh|]. split; [|split; [|split]].
        - specialize (Hand (mkThread (t_todo th) None)). change (in_hand (mkThread (t_todo th) None)) with (@nil A) in Hand. cbn [app] in Hand. cbn [s_threads].
          unfold values, outcomes in *. cbn [s_log]. rewrite !map_app, concat_app. cbn [map snd concat returned app]. rewrite app_nil_r.
          rewrite Hand in Pm. rewrite <- Pm. apply Permutation_app_head. rewrite !app_assoc. apply Permutation_app_tail, Permutation_app_comm.
        - intros X. rewrite (Hi X), (Ls X). reflexivity.
        - apply Up. split; [exact O1 | discriminate].
        - apply Forall_app. split; [exact Oe|]. constructor; [right; reflexivity | constructor]. }
      destruct p as [|k|g0 k got|g0 k got|got]; cbn [iter_step ok_place] in *.
      + apply Fail. intros _. exact Hin.
      + rewrite Sh. cbn [h_now]. apply Go; [rewrite Hin; reflexivity | cbn; subst; lia].
      + destruct Pp as [-> Pk]. destruct k as [|k].
        * rewrite Sh. apply Go; [rewrite Hin; reflexivity | cbn; lia].
        * rewrite Sh. cbn [h_gens nth_error]. destruct b.
          -- rewrite <- Sh. apply Fail. intros X. rewrite Hin. specialize (X q Qq). destruct got; [reflexivity | cbn [length] in Pk; lia].
          -- unfold put_gen, gen_at. cbn [h_factory h_calls h_gens h_now h_rac nth_error g_calls g_cur upd]. apply Go; [rewrite Hin; reflexivity | cbn; lia].
      + destruct Pp as [-> Pk]. rewrite Sh. unfold gen_at. cbn [h_factory h_calls h_gens nth_error].
        destruct (gen_next_ok fuel (i_factory i) g Hf Hne) as (a & g' & En). destruct g as [gc gk]. cbn [g_calls g_cur]. rewrite En.
        unfold put_gen. cbn [h_factory h_calls h_gens h_now h_rac upd].
        exists (N + 1)%nat, (l ++ [a]), lost, false, g'. split; [|split; [reflexivity|split; [|split; [exact Ls|split; [|exact Oe]]]]].
        * rewrite gen_take_app. unfold mbind. rewrite E. rewrite gen_take_one. unfold mbind, ret. rewrite En. reflexivity.
        * specialize (Hand (mkThread (t_todo th) (Some (q, Enter 0 k (got ++ [a]))))). rewrite Hin in Hand.
          change (in_hand (mkThread (t_todo th) (Some (q, Enter 0 k (got ++ [a]))))) with (got ++ [a]) in Hand. rewrite <- app_assoc in Hand. apply Permutation_app_inv_l in Hand.
          cbn [s_threads]. unfold values, outcomes in *. cbn [s_log]. rewrite <- Hand, <- Pm. rewrite <- !app_assoc. apply Permutation_app_head. cbn [app].
          rewrite app_assoc. apply Permutation_cons_append.
        * apply Up. split; [exact O1|]. intros q' p'' X. injection X as <- <-. split; [exact Qq|]. cbn. rewrite app_length. cbn [length]. lia.
      + rewrite Sh. cbn [h_rac]. exists N, l, lost, b, g. split; [exact E|]. split; [reflexivity|]. split; [|split; [exact Ls|split]].
        * specialize (Hand (mkThread (t_todo th) None)). change (in_hand (mkThread (t_todo th) None)) with (@nil A) in Hand. rewrite Hin in Hand. cbn [app] in Hand. cbn [s_threads].
          unfold values, outcomes in *. cbn [s_log]. rewrite !map_app, concat_app. cbn [map snd concat returned]. rewrite app_nil_r.
          rewrite Hand in Pm. rewrite <- Pm. rewrite <- !app_assoc. reflexivity.
        * apply Up. split; [exact O1 | discriminate].
        * apply Forall_app. split; [exact Oe|]. constructor; [left; exists got; auto | constructor].
    - destruct (t_todo th) as [|q t] eqn:Td; [exists N, l, lost, b, g; auto 10|]. inversion O1; subst.
      exists N, l, lost, b, g. split; [exact E|]. split; [exact Sh|]. split; [|split; [exact Ls|split; [|exact Oe]]].
      + assert (Hi : in_hand (mkThread t (Some (q, iter_start q))) = []) by (unfold in_hand, iter_start; cbn; destruct q; try destruct (n <? 0); reflexivity).
        specialize (Hand (mkThread t (Some (q, iter_start q)))). rewrite Hi in Hand. unfold in_hand at 2 in Hand. rewrite Nw in Hand. cbn [app] in Hand.
        cbn [s_threads]. unfold values, outcomes in *. cbn [s_log]. rewrite <- Hand. exact Pm.
      + apply Up. split; [assumption|]. intros q' p'' X. injection X as <- <-. split; [assumption|].
        unfold iter_start. destruct q; cbn; try reflexivity; destruct (Z.ltb_spec n 0); cbn; auto.
  Qed.
  Lemma accounted_run Q schedule todo : i_rac i = false -> Forall (Forall Q) todo -> accounted Q (iter_threads fuel i todo schedule).
  Proof.
    intros Hr H. unfold iter_threads. assert (A0 : accounted Q (begin todo (share i))).
    { exists 0%nat, [], [], false, (i_gen i). split; [reflexivity|]. split; [cbn; unfold share; rewrite Hr; reflexivity|]. split; [|split; [auto|split; [|constructor]]].
      - unfold values, outcomes. cbn [begin s_threads s_log map concat app]. rewrite map_map, app_nil_r. clear. induction todo as [|x l IH]; [constructor | exact IH].
      - cbn [begin s_threads]. apply Forall_map. eapply Forall_impl; [|exact H]. intros t Ht. split; [exact Ht | discriminate]. }
    revert A0. generalize (begin (L := place A) (R := list A) todo (share i)). induction schedule as [|j t IH]; intros y A0; [exact A0|]. cbn [run]. apply IH, accounted_step, A0.
  Qed.
End Iter.

Lemma emit_many_take {A} fuel (i : iterative A) n : fst (iter_emit_many fuel (Z.of_nat n) i) = fst (gen_take fuel (i_factory i) n (i_gen i)).
Proof.
  unfold iter_emit_many. rewrite (proj2 (Z.ltb_ge (Z.of_nat n) 0)) by lia. rewrite Nat2Z.id. unfold iter_run.
  destruct (gen_take fuel (i_factory i) n (i_gen i)) as [[l| |] g]; reflexivity.
Qed.

(** Whatever the schedule: a call gets as many values as it asked for or fails with
    ValueError, and what is returned and what is lost in failed calls is, together and but
    for the order, what one thread gets.  Nothing is repeated. *)
Theorem C103_nothing_twice :
  forall (A : Type) fuel (i : iterative A) todo schedule,
  (1 <= fuel)%nat -> never_empty i -> i_rac i = false ->
  let y := iter_threads fuel i todo schedule in
  Forall (fun e => (exists l, snd e = Ok l /\ zlen l = Z.max 0 (ask_size (snd (fst e)))) \/ snd e = Raise ValueError) (s_log y) /\
  exists rest l, fst (iter_emit_many fuel (zlen (values y ++ rest)) i) = Ok l /\ Permutation (values y ++ rest) l.
Proof.
  intros A fuel i todo schedule Hf Hne Hr y.
  destruct (accounted_run fuel i Hf Hne (fun _ => True) schedule todo Hr) as (N & l & lost & b & g & E & Sh & Pm & _ & _ & Oe).
  { apply Forall_forall. intros t _. apply Forall_forall. auto. }
  split.
  - eapply Forall_impl; [|exact Oe]. intros e [(v & X & L)|X]; [left; exists v; split; [exact X | unfold zlen; lia] | right; exact X].
  - exists (concat (map in_hand (s_threads y)) ++ lost), l. split; [|exact Pm].
    assert (Ln : length l = N).
    { clear - E. revert l g E. generalize (i_gen i). induction N as [|N IH]; intros g0 l g E; cbn [gen_take] in E; [injection E as <- _; reflexivity|].
      unfold mbind in E. destruct (gen_next fuel (i_factory i) g0) as [[a| |] g1]; try discriminate.
      specialize (IH g1). destruct (gen_take fuel (i_factory i) N g1) as [[x| |] g2] eqn:Q; try discriminate. injection E as <- <-. cbn. f_equal. eapply IH. reflexivity. }
    unfold zlen. fold y in Pm. rewrite (Permutation_length Pm), Ln, emit_many_take, E. reflexivity.
Qed.
Print Assumptions C103_nothing_twice.

(** Calls for one value (or none): nothing is lost either. *)
Theorem C103_single :
  forall (A : Type) fuel (i : iterative A) todo schedule,
  (1 <= fuel)%nat -> never_empty i -> i_rac i = false -> Forall (Forall (fun r => ask_size r <= 1)) todo ->
  let y := iter_threads fuel i todo schedule in
  idle y ->
  exists l, fst (iter_emit_many fuel (zlen (values y)) i) = Ok l /\ Permutation (values y) l.
Proof.
  intros A fuel i todo schedule Hf Hne Hr Hq y Id.
  destruct (accounted_run fuel i Hf Hne (fun q => ask_size q <= 1) schedule todo Hr Hq) as (N & l & lost & b & g & E & Sh & Pm & Ls & _ & _).
  rewrite Ls in Pm by auto. fold y in Pm.
  assert (No : concat (map (in_hand (A := A)) (s_threads y)) = []).
  { clear - Id. assert (G : forall th, In th (s_threads y) -> in_hand th = []) by (intros th H; unfold in_hand; rewrite (Id th H); reflexivity).
    revert G. generalize (s_threads y). induction l as [|a l IH]; intros G; [reflexivity|]. cbn [map concat]. rewrite (G a (or_introl eq_refl)), IH; [reflexivity|]. intros; apply G; right; auto. }
  rewrite No in Pm. cbn [app] in Pm. rewrite app_nil_r in Pm. exists l. split; [|exact Pm].
  assert (Ln : length l = N).
  { clear - E. revert l g E. generalize (i_gen i). induction N as [|N IH]; intros g0 l g E; cbn [gen_take] in E; [injection E as <- _; reflexivity|].
    unfold mbind in E. destruct (gen_next fuel (i_factory i) g0) as [[a| |] g1]; try discriminate.
    specialize (IH g1). destruct (gen_take fuel (i_factory i) N g1) as [[x| |] g2] eqn:Q; try discriminate. injection E as <- <-. cbn. f_equal. eapply IH. reflexivity. }
  unfold zlen. rewrite (Permutation_length Pm), Ln, emit_many_take, E. reflexivity.
Qed.
Print Assumptions C103_single.

(** *** One call at a time *)
Section Locked.
  Context {A : Type} (fuel : nat) (i : iterative A).
  Context (Hf : (1 <= fuel)%nat) (Hne : never_empty i).
  Definition finish (got : list A) (s : shared A) : res (list A) * shared A :=
    (Ok got, if h_rac s then mkShared (h_factory s) (h_calls s) (h_gens s ++ [(None, false)]) (length (h_gens s)) (h_rac s) else s).
  Definition take_rest (g k : nat) (got : list A) (s : shared A) : res (list A) * shared A :=
    match gen_take fuel (h_factory s) k (gen_at s g) with
    | (Ok v, x) => finish (got ++ v) (put_gen s g x false)
    | (_, x) => (Diverge, s)
    end.
  Definition iter_cont (l : place A) (s : shared A) : res (list A) * shared A :=
    match l with
    | Refuse => (Raise ValueError, s)
    | Fetch k => take_rest (h_now s) k [] s
    | Enter g k got => take_rest g k got s
    | Inside g k got => take_rest g (S k) got s
    | After got => finish got s
    end.
  Definition quiet (s : shared A) : Prop := h_factory s = i_factory i /\ exists c, nth_error (h_gens s) (h_now s) = Some (c, false).
  Definition on_the_way (l : place A) (s : shared A) : Prop :=
    h_factory s = i_factory i /\
    match l with
    | Refuse | Fetch _ | After _ => quiet s
    | Enter g _ _ => g = h_now s /\ quiet s
    | Inside g _ _ => g = h_now s /\ exists c, nth_error (h_gens s) (h_now s) = Some (c, true)
    end.
  Lemma upd_upd {X} n (x y : X) l : upd n x (upd n y l) = upd n x l.
  Proof. revert n. induction l as [|a l IH]; intros [|n]; cbn; auto. f_equal. apply IH. Qed.
  Lemma upd_self {X} n (x : X) l : nth_error l n = Some x -> upd n x l = l.
  Proof. revert n. induction l as [|a l IH]; intros [|n] H; cbn in *; try discriminate; [injection H as <-; reflexivity | f_equal; auto]. Qed.
  Lemma put_put s g x y b b' : put_gen (A := A) (put_gen s g x b) g y b' = put_gen s g y b'.
  Proof. unfold put_gen. cbn. rewrite upd_upd. reflexivity. Qed.
  Lemma at_put s g x b y : nth_error (h_gens s) g = Some y -> gen_at (A := A) (put_gen s g x b) g = x.
  Proof. intros H. unfold gen_at, put_gen. cbn. rewrite (nth_same _ _ _ _ H). destruct x; reflexivity. Qed.
  Lemma put_at s g c : nth_error (h_gens s) g = Some (c, false) -> put_gen (A := A) s g (gen_at s g) false = s.
  Proof. intros H. unfold put_gen, gen_at. cbn. rewrite H. rewrite upd_self by exact H. destruct s; reflexivity. Qed.

  Lemma iter_locked_calls schedule todo : 
    let y := iter_threads fuel i todo schedule in
    iter_locked fuel i todo schedule -> idle y ->
    calls (fun q => iter_cont (iter_start q)) (requests y) (share i) = (outcomes y, s_shared y).
  Proof.
    intros y O Id. apply (serial_calls iter_start (iter_step fuel) _ iter_cont quiet on_the_way); auto.
    - intros q s Q. split; [|reflexivity]. split; [apply Q|]. unfold iter_start. destruct q; try exact Q; destruct (n <? 0); exact Q.
    - intros l s l' s' [Fa H] E. destruct l as [|k|g k got|g k got|got]; cbn [iter_step] in E; try discriminate.
      + injection E as <- <-. split; [|reflexivity]. split; [exact Fa|]. split; [reflexivity | exact H].
      + destruct H as (-> & _ & c & Hg). destruct k as [|k].
        * injection E as <- <-. split; [split; [exact Fa|]; split; [exact Fa | eauto]|]. cbn [iter_cont]. unfold take_rest. cbn [gen_take]. unfold ret.
          rewrite app_nil_r, (put_at s (h_now s) c Hg). reflexivity.
        * rewrite Hg in E. injection E as <- <-. split.
          -- split; [exact Fa|]. cbn. split; [reflexivity|]. rewrite (nth_same _ _ _ _ Hg). eauto.
          -- cbn [iter_cont]. unfold take_rest. rewrite (at_put s _ _ _ _ Hg). cbn [h_factory put_gen].
             destruct (gen_take fuel (h_factory s) (S k) (gen_at s (h_now s))) as [r x] eqn:Et.
             destruct (gen_take_ok fuel (i_factory i) (S k) (gen_at s (h_now s)) Hf Hne) as (v & x' & Et'). rewrite <- Fa in Et'. rewrite Et' in Et. injection Et as <- <-.
             change (mkShared (h_factory s) (g_calls (gen_at s (h_now s))) (upd (h_now s) (g_cur (gen_at s (h_now s)), true) (h_gens s)) (h_now s) (h_rac s))
               with (put_gen s (h_now s) (gen_at s (h_now s)) true). rewrite put_put. reflexivity.
      + destruct H as (-> & c & Hg). destruct (gen_next_ok fuel (i_factory i) (gen_at s (h_now s)) Hf Hne) as (a & g' & En). rewrite <- Fa in En. rewrite En in E.
        injection E as <- <-. split.
        * split; [exact Fa|]. cbn. split; [reflexivity|]. split; [exact Fa|]. cbn. rewrite (nth_same _ _ _ _ Hg). eauto.
        * cbn [iter_cont]. unfold take_rest at 1. cbn [gen_take]. unfold mbind, ret. rewrite En. unfold take_rest. rewrite (at_put s _ _ _ _ Hg). cbn [h_factory put_gen].
          destruct (gen_take_ok fuel (i_factory i) k g' Hf Hne) as (v & x' & Et). rewrite <- Fa in Et. rewrite Et.
          change (mkShared (h_factory s) (g_calls g') (upd (h_now s) (g_cur g', false) (h_gens s)) (h_now s) (h_rac s)) with (put_gen s (h_now s) g' false).
          rewrite put_put, <- app_assoc. reflexivity.
    - intros l s r s' [Fa H] E. destruct l as [|k|g k got|g k got|got]; cbn [iter_step] in E; try discriminate.
      + injection E as <- <-. split; [exact H | reflexivity].
      + destruct H as (-> & _ & c & Hg). destruct k as [|k]; [discriminate|]. rewrite Hg in E. discriminate.
      + destruct H as (-> & c & Hg). destruct (gen_next_ok fuel (i_factory i) (gen_at s (h_now s)) Hf Hne) as (a & g' & En). rewrite <- Fa in En. rewrite En in E. discriminate.
      + injection E as <- <-. split; [|reflexivity]. destruct (h_rac s); [|exact H]. split; [exact Fa|]. cbn. exists None.
        rewrite nth_error_app2, Nat.sub_diag by lia. reflexivity.
    - split; [reflexivity|]. cbn. eauto.
  Qed.
  (** A call that is not interrupted does what the emitter does in one thread. *)
  Lemma cont_ask q s : quiet s ->
    quiet (snd (iter_cont (iter_start q) s)) /\ iter_ask fuel q (alone s) = (fst (iter_cont (iter_start q) s), alone (snd (iter_cont (iter_start q) s))).
  Proof.
    intros (Fa & c & Hg).
    assert (T : forall k, exists v x, gen_take fuel (h_factory s) k (gen_at s (h_now s)) = (Ok v, x) /\ length v = k /\
      (let o := take_rest (h_now s) k [] s in quiet (snd o) /\ o = (Ok v, snd o) /\
       alone (snd o) = (let i := mkIter (h_factory s) x (h_rac s) in if h_rac s then iter_reset i else i))).
    { intros k. destruct (gen_take_ok fuel (i_factory i) k (gen_at s (h_now s)) Hf Hne) as (v & x & Et). rewrite <- Fa in Et. exists v, x. split; [exact Et|]. split.
      - clear - Et. revert v x Et. generalize (gen_at s (h_now s)). induction k as [|k IH]; intros g0 v x E; cbn [gen_take] in E; [injection E as <- _; reflexivity|].
        unfold mbind in E. destruct (gen_next fuel (h_factory s) g0) as [[a| |] g1]; try discriminate.
        specialize (IH g1). destruct (gen_take fuel (h_factory s) k g1) as [[z| |] g2] eqn:Q; try discriminate. injection E as <- <-. cbn. f_equal. eapply IH. reflexivity.
      - cbv zeta. unfold take_rest. rewrite Et. cbn [app]. unfold finish. cbn [snd fst put_gen h_rac h_factory h_calls h_gens h_now]. destruct (h_rac s) eqn:Rc.
        + split; [split; [exact Fa|]; cbn; exists None; rewrite nth_error_app2, Nat.sub_diag by lia; reflexivity|]. split; [reflexivity|].
          unfold alone, iter_reset, gen_at. cbn. rewrite nth_error_app2, Nat.sub_diag by lia. reflexivity.
        + split; [split; [exact Fa|]; cbn; rewrite (nth_same _ _ _ _ Hg); eauto|]. split; [reflexivity|].
          unfold alone, gen_at. cbn. rewrite (nth_same _ _ _ _ Hg). rewrite Rc; destruct x; reflexivity. }
    assert (One : quiet (snd (take_rest (h_now s) 1 [] s)) /\
      (a <~ iter_emit fuel ;; ret [a]) (alone s) = (fst (take_rest (h_now s) 1 [] s), alone (snd (take_rest (h_now s) 1 [] s)))).
    { destruct (T 1%nat) as (v & x & Et & _ & Q & Eo & Ea). split; [exact Q|]. rewrite Ea, Eo. cbn [fst]. rewrite gen_take_one in Et. unfold mbind, ret in *.
      unfold iter_emit, iter_run. cbn [i_factory i_gen i_rac alone].
      destruct (gen_next fuel (h_factory s) (gen_at s (h_now s))) as [[a| |] g1]; try discriminate. injection Et as <- <-. reflexivity. }
    assert (Many : forall n, let l := if n <? 0 then Refuse else Fetch (Z.to_nat n) in
      quiet (snd (iter_cont l s)) /\ iter_emit_many fuel n (alone s) = (fst (iter_cont l s), alone (snd (iter_cont l s)))).
    { intros n. cbv zeta. unfold iter_emit_many. destruct (n <? 0).
      - split; [split; [exact Fa | eauto] | reflexivity].
      - cbn [iter_cont]. destruct (T (Z.to_nat n)) as (v & x & Et & _ & Q & Eo & Ea). split; [exact Q|]. rewrite Ea, Eo. cbn [fst].
        unfold iter_run. cbn [i_factory i_gen i_rac alone]. rewrite Et. reflexivity. }
    destruct q; cbn [iter_start iter_ask]; try exact One; [|apply Many].
    unfold call_number. destruct (Z.eqb_spec n 1); [subst; exact One | apply Many].
  Qed.
  Lemma calls_iter qs : forall s, quiet s ->
    iter_asks fuel qs (alone s) = (fst (calls (fun q => iter_cont (iter_start q)) qs s), alone (snd (calls (fun q => iter_cont (iter_start q)) qs s))).
  Proof.
    induction qs as [|q qs IH]; intros s Q; [reflexivity|]. cbn [iter_asks calls]. destruct (cont_ask q s Q) as [Q' E]. rewrite E.
    destruct (iter_cont (iter_start q) s) as [r s1]. cbn [fst snd] in *. rewrite (IH s1 Q'). destruct (calls _ qs s1). reflexivity.
  Qed.
End Locked.

(** One call at a time (also with reset_after_call): what one thread gets that makes the
    same calls in the order in which they ended. *)
Theorem C103_locked :
  forall (A : Type) fuel (i : iterative A) todo schedule,
  (1 <= fuel)%nat -> never_empty i ->
  let y := iter_threads fuel i todo schedule in
  iter_locked fuel i todo schedule -> idle y ->
  fst (iter_asks fuel (requests y) i) = outcomes y.
Proof.
  intros A fuel i todo schedule Hf Hne y O Id.
  pose proof (iter_locked_calls fuel i Hf Hne schedule todo O Id) as E.
  assert (Q : quiet i (share i)) by (split; [reflexivity | cbn; eauto]).
  pose proof (calls_iter fuel i Hf Hne (requests y) (share i) Q) as C. fold y in E. rewrite E in C.
  assert (Ai : alone (share i) = i) by (destruct i as [f [n k] r]; reflexivity). rewrite Ai in C. rewrite C. reflexivity.
Qed.
Print Assumptions C103_locked.

(** Three threads, single calls; the call of the third fails.  The values of
    all together are 10, 20, 30, in another order. *)
Example C103_example :
  let y := iter_threads 1 three [[Call0; Call0]; [Call0]; [CallN 1]] ([0; 0; 0; 0] ++ [1; 1; 1] ++ [2; 2; 2] ++ [1; 1; 1] ++ repeat 0 8)%nat in
  never_empty three /\ idle y /\
  map (fun e => (fst (fst e), snd e)) (s_log y) = [(2, Raise ValueError); (1, Ok [20]); (0, Ok [10]); (0, Ok [30])]%nat.
Proof. split; [intros c; discriminate|]. split; [intros th H; vm_compute in H; intuition (subst; reflexivity) | vm_compute; reflexivity]. Qed.
