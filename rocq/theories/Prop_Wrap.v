(** * Wrapper emitters: properties C40, C41, C42. *)
From Verif Require Import Base Prims Values GroupModel SigModel SigSpec SigProofs WrapModel WrapSpec FieldModel.
Open Scope list_scope.
Open Scope string_scope.
Open Scope list_scope.

(** ** Lemmas *)

Lemma user_call_inv {S} (u : ufun S) args kwargs s v s' :
  wrapper_call u args kwargs s = (Ok v, s') -> user_call u args kwargs s v s'.
Proof.
  unfold wrapper_call, user_call. destruct (wants_rng u) eqn:Ew.
  - destruct (mem "rng" (map fst kwargs)); [discriminate|]. unfold py_call.
    destruct (match u_sig u with Some _ => _ | None => _ end); [|discriminate].
    intros H. left. split; [now apply wants_rng_iff | exact H].
  - unfold py_call. destruct (match u_sig u with Some _ => _ | None => _ end); [|discriminate].
    intros H. right. split; [rewrite <- wants_rng_iff; congruence | exact H].
Qed.

Lemma runs_body_call {S} (u : ufun S) args kwargs s v s' :
  runs_body u args kwargs -> user_call u args kwargs s v s' -> wrapper_call u args kwargs s = (Ok v, s').
Proof.
  intros Hr Hu. destruct (Hr s) as [[H1 H2]|[H1 H2]]; rewrite H2; destruct Hu as [[H3 H4]|[H3 H4]]; tauto.
Qed.

Lemma mapS_each {S A B} (f : A -> M S B) (l : list A) : forall s r s',
  mapS f l s = (Ok r, s') <-> each f l s r s'.
Proof.
  induction l as [|a t IH]; intros s r s'; cbn [mapS].
  - split.
    + intros H. unfold ret in H. injection H as <- <-. constructor.
    + intros H. inversion H; subst. reflexivity.
  - split.
    + intros H. apply mbind_ok_inv in H. destruct H as [b [s1 [Hb H]]].
      apply mbind_ok_inv in H. destruct H as [bs [s2 [Hbs H]]]. unfold ret in H. injection H as <- <-.
      econstructor; [exact Hb | now apply IH].
    + intros H. inversion H as [|? ? ? b s1 bs s2 Hb Hbs]; subst.
      unfold mbind. rewrite Hb. apply IH in Hbs. now rewrite Hbs.
Qed.

Lemma each_length {S A B} (f : A -> M S B) (l : list A) : forall s r s',
  each f l s r s' -> length r = length l.
Proof. induction l; intros s r s' H; inversion H; subst; [easy|]. cbn. f_equal. eauto. Qed.

Lemma user_calls_length {S} (u : ufun S) l : forall s r s', user_calls u l s r s' -> length r = length l.
Proof. induction l; intros s r s' H; inversion H; subst; [easy|]. cbn. f_equal. eauto. Qed.

Lemma mapS_ext {S A B} (f g : A -> M S B) (l : list A) :
  (forall a s, f a s = g a s) -> forall s, mapS f l s = mapS g l s.
Proof.
  intros H. induction l as [|a t IH]; intros s; [easy|]. cbn [mapS]. unfold mbind.
  rewrite H. destruct (g a s) as [[b|e|] s1]; auto. now rewrite IH.
Qed.

Lemma mapS_tag {S K A B} (f : A -> M S B) (key : A -> K) (l : list A) : forall s r s',
  mapS (fun a => v <~ f a ;; ret (key a, v)) l s = (Ok r, s') <->
  exists vs, each f l s vs s' /\ r = combine (map key l) vs.
Proof.
  intros s r s'. rewrite mapS_each. revert s r s'.
  induction l as [|a t IH]; intros s r s'; cbn [map combine].
  - split.
    + intros H. inversion H; subst. exists []. now split; [constructor|].
    + intros [vs [H E]]. inversion H; subst. constructor.
  - split.
    + intros H. inversion H as [|? ? ? b s1 bs s2 Hb Hbs]; subst.
      apply mbind_ok_inv in Hb. destruct Hb as [v [s3 [Hv Hb]]]. unfold ret in Hb. injection Hb as <- <-.
      apply IH in Hbs. destruct Hbs as [vs [Hvs E]]. exists (v :: vs). split; [econstructor; eauto | now rewrite E].
    + intros [vs [H E]]. inversion H as [|? ? ? b s1 bs s2 Hb Hbs]; subst. cbn [combine].
      econstructor; [unfold mbind; rewrite Hb; reflexivity|]. apply IH. now exists bs.
Qed.

(** ** C40 *)

(** em() is the function applied to the value of the source; em(n) is the function
    applied to each of the values source(n), in order, and nothing else happens
    to the state. *)
Theorem C40_wrapone S (call : M S val) (call_n : Z -> M S (list val)) (u : ufun S) s :
  (forall v s', wrapone_emit call u s = (Ok v, s') ->
     exists x s1, call s = (Ok x, s1) /\ user_call u [x] [] s1 v s') /\
  (forall n vs s', wrapone_emit_many call_n u n s = (Ok vs, s') ->
     exists xs s1, call_n n s = (Ok xs, s1) /\ user_calls u (map (fun x => ([x], [])) xs) s1 vs s' /\
       length vs = length xs).
Proof.
  split.
  - intros v s' H. apply mbind_ok_inv in H. destruct H as [x [s1 [Hx H]]].
    exists x, s1. split; [easy | now apply user_call_inv].
  - intros n vs s' H. apply mbind_ok_inv in H. destruct H as [xs [s1 [Hx H]]].
    apply mapS_each in H.
    assert (Hc : user_calls u (map (fun x => ([x], [])) xs) s1 vs s').
    { clear Hx. revert s1 vs s' H. induction xs as [|x t IH]; intros s1 vs s' H; inversion H as [|? ? ? b s2 bs s3 Hb Hbs]; subst.
      - constructor.
      - cbn [map]. econstructor; [eapply user_call_inv; exact Hb | now apply IH]. }
    exists xs, s1. split; [easy|]. split; [easy|].
    apply user_calls_length in Hc. now rewrite map_length in Hc.
Qed.

(** Conversely, if the function can be called with one argument (an accepted
    function can: C42), this does happen. *)
Theorem C40_wrapone_succeeds S (call : M S val) (call_n : Z -> M S (list val)) (u : ufun S) s :
  (forall x, runs_body u [x] []) ->
  (forall x s1 v s', call s = (Ok x, s1) -> user_call u [x] [] s1 v s' -> wrapone_emit call u s = (Ok v, s')) /\
  (forall n xs s1 vs s', call_n n s = (Ok xs, s1) -> user_calls u (map (fun x => ([x], [])) xs) s1 vs s' ->
     wrapone_emit_many call_n u n s = (Ok vs, s')).
Proof.
  intros Hr. split.
  - intros x s1 v s' Hx Hu. unfold wrapone_emit, mbind. rewrite Hx. now apply runs_body_call.
  - intros n xs s1 vs s' Hx Hu. unfold wrapone_emit_many, mbind at 1. rewrite Hx. apply mapS_each.
    clear Hx. revert s1 vs s' Hu. induction xs as [|x t IH]; intros s1 vs s' Hu; cbn [map] in Hu; inversion Hu; subst.
    + constructor.
    + econstructor; [apply runs_body_call; eauto | now apply IH].
Qed.

(** An exception of the source or of the function is passed on. *)
Theorem C40_errors S (call : M S val) (call_n : Z -> M S (list val)) (u : ufun S) s n e s' :
  (call s = (Raise e, s') -> wrapone_emit call u s = (Raise e, s')) /\
  (call_n n s = (Raise e, s') -> wrapone_emit_many call_n u n s = (Raise e, s')).
Proof.
  split; intros H; [unfold wrapone_emit | unfold wrapone_emit_many]; unfold mbind at 1; now rewrite H.
Qed.

(** A counting source; a function that doubles, and one that uses the rng. *)
Definition tick : M Z val := fun s => (Ok (VInt s), s + 1).
Definition ticks (n : Z) : M Z (list val) := mapS (fun _ => tick) (indices n).
Definition double : ufun Z :=
  mkUfun (Some [mkParam "x" PosOrKw false])
    (fun args _ => match args with [VInt z] => ret (VInt (2 * z)) | _ => raise TypeError end)
    (fun _ _ => raise TypeError).
Definition with_rng : ufun Z :=
  mkUfun (Some [mkParam "x" PosOrKw false; mkParam "rng" KwOnly false])
    (fun _ _ => raise TypeError)
    (fun args _ s => match args with [VInt z] => (Ok (VInt (z + 100)), s + 1000) | _ => (Raise TypeError, s) end).
Example C40_demo : wrapone_emit_many ticks double 3 5 = (Ok [VInt 10; VInt 12; VInt 14], 8).
Proof. reflexivity. Qed.
Example C40_demo_rng : wrapone_emit_many ticks with_rng 2 5 = (Ok [VInt 105; VInt 106], 2007).
Proof. reflexivity. Qed.
Example C40_demo_runs x : runs_body double [x] [].
Proof. intros s. right. split; [|reflexivity]. rewrite <- wants_rng_iff. discriminate. Qed.

(** ** C41 *)

(** em() calls each source once, in order, and the function with their values
    under their labels. *)
Theorem C41_emit S sources (u : ufun S) s v s' :
  wrapmany_emit sources u s = (Ok v, s') ->
  exists xs s1, each (fun kc => fst (snd kc)) sources s xs s1 /\
    user_call u [] (combine (map fst sources) xs) s1 v s'.
Proof.
  intros H. apply mbind_ok_inv in H. destruct H as [kw [s1 [Hk H]]].
  unfold call_sources in Hk. apply mapS_tag in Hk. destruct Hk as [xs [Hxs ->]].
  exists xs, s1. split; [easy | now apply user_call_inv].
Qed.

Lemma row_of (labels : list string) : forall (data : list (list val)) i kwargs,
  length data = length labels ->
  mapM (fun kv => v <- list_get (snd kv) (Z.of_nat i) ;; Ok (fst kv, v)) (combine labels data) = Ok kwargs ->
  row labels data i kwargs.
Proof.
  unfold row. induction labels as [|l t IH]; intros data i kwargs Hl H; destruct data as [|d data]; try discriminate.
  - cbn in H. injection H as <-. now split.
  - cbn [combine mapM fst snd] in H.
    rewrite list_get_nat in H.
    destruct (nth_error d i) as [v|] eqn:Ed; [|discriminate]. cbn [bind] in H.
    destruct (mapM _ (combine t data)) as [kws|e|] eqn:Em; cbn [bind] in H; try discriminate.
    injection H as <-. destruct (IH data i kws) as [H1 H2]; [now injection Hl | exact Em|].
    cbn [map fst]. split; [now f_equal | now constructor].
Qed.

(** em(n) calls each source once with n, in order, then the function n times, the
    i-th time with the i-th values of all sources under their labels. *)
Theorem C41_emit_many S sources (u : ufun S) n s vs s' :
  wrapmany_emit_many sources u n s = (Ok vs, s') ->
  exists data s1 kws,
    each (fun kc => snd (snd kc) n) sources s data s1 /\
    length kws = Z.to_nat n /\
    (forall i kwargs, nth_error kws i = Some kwargs -> row (map fst sources) data i kwargs) /\
    user_calls u (map (fun kwargs => ([], kwargs)) kws) s1 vs s' /\
    length vs = Z.to_nat n.
Proof.
  intros H. apply mbind_ok_inv in H. destruct H as [emdata [s1 [Hd H]]].
  apply mapS_tag in Hd. destruct Hd as [data [Hdata ->]].
  assert (Hlen : length data = length (map fst sources)) by (rewrite map_length; now apply each_length in Hdata).
  apply mapS_each in H. unfold indices in H.
  assert (Hgen : forall k o s1 vs,
    each (fun i => kwargs <~ lift (mapM (fun kv => v <- list_get (snd kv) i ;; Ok (fst kv, v)) (combine (map fst sources) data)) ;;
                   wrapper_call u [] kwargs) (map Z.of_nat (seq o k)) s1 vs s' ->
    exists kws, length kws = k /\
      (forall i kwargs, nth_error kws i = Some kwargs -> row (map fst sources) data (o + i) kwargs) /\
      user_calls u (map (fun kwargs => ([], kwargs)) kws) s1 vs s').
  { clear s1 vs H Hdata. induction k as [|k IH]; intros o s1 vs H; cbn [seq map] in H; inversion H as [|? ? ? b s2 bs s3 Hb Hbs]; subst.
    - exists []. split; [easy|]. split; [|constructor]. intros i kwargs Hi. now destruct i.
    - apply mbind_ok_inv in Hb. destruct Hb as [kw [s4 [Hkw Hb]]]. unfold lift in Hkw. injection Hkw as Hkw <-.
      apply IH in Hbs. destruct Hbs as [kws [Hl [Hr Hu]]]. exists (kw :: kws).
      split; [cbn; now f_equal|]. split.
      + intros [|i] kwargs Hi; cbn in Hi.
        * injection Hi as <-. rewrite Nat.add_0_r. now apply row_of.
        * rewrite Nat.add_succ_r. now apply (Hr i).
      + cbn [map]. econstructor; [eapply user_call_inv; exact Hb | exact Hu]. }
  apply Hgen in H. destruct H as [kws [Hl [Hr Hu]]].
  exists data, s1, kws. split; [easy|]. split; [easy|]. split; [exact Hr|]. split; [easy|].
  apply user_calls_length in Hu. rewrite map_length in Hu. congruence.
Qed.

Definition add_ab : ufun Z :=
  mkUfun (Some [mkParam "a" PosOrKw false; mkParam "b" KwOnly true])
    (fun _ kwargs => match kwargs with [("a", VInt x); ("b", VInt y)] => ret (VInt (10 * x + y)) | _ => raise TypeError end)
    (fun _ _ => raise TypeError).
Example C41_demo :
  wrapmany_emit_many [("a", (tick, ticks)); ("b", (tick, ticks))] add_ab 2 0 = (Ok [VInt 2; VInt 13], 4) /\
  wrapmany_emit [("a", (tick, ticks)); ("b", (tick, ticks))] add_ab 7 = (Ok (VInt 78), 9).
Proof. split; reflexivity. Qed.

(** ** C42 *)

(** WrapOne: if assigning the function succeeds, every later call of it gets
    through to its body. *)
Theorem C42_wrapone S call install reset (u : ufun S) s s' :
  valid_function u ->
  wrapone_set call install reset u s = (Ok tt, s') ->
  forall x, runs_body u [x] [].
Proof.
  intros Hv H x. apply try_finally_ok_inv in H. destruct H as [s1 [H _]].
  apply mbind_ok_inv in H. destruct H as [v [s2 [_ H]]].
  now apply (mock_call_runs u [v] [] [x] [] s2 s1).
Qed.

(** The full claim for WrapMany: whatever the labels of the sources (distinct,
    being the keys of a dict). *)
Definition C42_wrapmany_statement : Prop :=
  forall S sources install reset (u : ufun S) s s',
    valid_function u -> NoDup (map fst sources) ->
    wrapmany_set sources install reset u s = (Ok tt, s') ->
    forall xs, length xs = length sources -> runs_body u [] (combine (map fst sources) xs).

Lemma combine_keys {K V} (ks : list K) (vs : list V) : length vs = length ks -> map fst (combine ks vs) = ks.
Proof.
  revert vs. induction ks as [|k t IH]; intros [|v vs] H; try discriminate; [easy|]. cbn. f_equal. apply IH. now injection H.
Qed.

(** It holds unless the function takes an rng and a source is labelled 'rng'... *)
Theorem C42_wrapmany_partial S sources install reset (u : ufun S) s s' :
  valid_function u ->
  (takes_rng u -> ~ In "rng" (map fst sources)) ->
  wrapmany_set sources install reset u s = (Ok tt, s') ->
  forall xs, length xs = length sources -> runs_body u [] (combine (map fst sources) xs).
Proof.
  intros Hv Hr H xs Hx. apply mbind_ok_inv in H. destruct H as [kw [s1 [Hk H]]].
  apply mapS_keys in Hk.
  apply try_finally_ok_inv in H. destruct H as [s2 [H _]].
  apply (mock_call_runs u [] kw [] (combine (map fst sources) xs) s1 s2); auto.
  - rewrite Hk, combine_keys by (now rewrite map_length). reflexivity.
  - now rewrite Hk.
Qed.

(** ... and in that case every emission raises TypeError. *)
Theorem C42_rng_label_fails S sources (u : ufun S) s xs s1 :
  takes_rng u -> In "rng" (map fst sources) ->
  each (fun kc => fst (snd kc)) sources s xs s1 ->
  wrapmany_emit sources u s = (Raise TypeError, s1).
Proof.
  intros Ht Hin He. unfold wrapmany_emit, mbind at 1.
  assert (Hc : call_sources sources s = (Ok (combine (map fst sources) xs), s1)).
  { apply mapS_tag. now exists xs. }
  rewrite Hc. unfold wrapper_call. apply wants_rng_iff in Ht. rewrite Ht.
  apply each_length in He. rewrite combine_keys by (now rewrite map_length).
  apply mem_In in Hin. now rewrite Hin.
Qed.

Definition rng_only : ufun Z :=
  mkUfun (Some [mkParam "rng" PosOrKw false]) (fun _ _ => ret VNone) (fun _ _ => ret VNone).
Definition rng_sources : list (string * (M Z val * (Z -> M Z (list val)))) := [("rng", (tick, ticks))].

Theorem C42_wrapmany_refuted : ~ C42_wrapmany_statement.
Proof.
  intros H.
  specialize (H Z rng_sources (fun _ => ret tt) (ret tt) rng_only 0 1).
  assert (Hv : valid_function rng_only).
  { split; [constructor; constructor | repeat constructor; easy]. }
  assert (Hn : NoDup (map fst rng_sources)) by (repeat constructor; easy).
  specialize (H Hv Hn eq_refl [VNone] eq_refl 0).
  destruct H as [[_ H]|[_ H]]; discriminate.
Qed.

(** BasedOnFields: one source field (passed by position), or several (passed by
    name). *)
Theorem C42_based_partial S (src : list (string * M S val)) install reset (u : ufun S) s s' :
  valid_function u ->
  (takes_rng u -> length src <> 1%nat -> ~ In "rng" (map fst src)) ->
  based_set src install reset u s = (Ok tt, s') ->
  forall xs, length xs = length src ->
    let '(args, kwargs) := action_args (combine (map fst src) xs) in runs_body u args kwargs.
Proof.
  intros Hv Hr H xs Hx.
  apply mbind_ok_inv in H. destruct H as [[] [s0 [_ H]]].
  apply mbind_ok_inv in H. destruct H as [kw [s1 [Hk H]]].
  apply mapS_keys in Hk.
  assert (Hs : forall (d e : list (string * val)), map fst d = map fst e ->
    length (fst (action_args d)) = length (fst (action_args e)) /\
    map fst (snd (action_args d)) = map fst (snd (action_args e))).
  { assert (Hset : forall k v w (d e : list (string * val)), map fst d = map fst e ->
      map fst (dict_set String.eqb k v d) = map fst (dict_set String.eqb k w e)).
    { intros k v w. induction d as [|[k1 v1] d IH]; intros [|[k2 v2] e] E; try discriminate; [easy|].
      cbn in E |- *. injection E as -> E. destruct (k =? k2)%string; cbn; f_equal; auto. }
    assert (Hupd : forall (l l' : list (string * val)), map fst l = map fst l' -> forall d e, map fst d = map fst e ->
      map fst (dict_update String.eqb d l) = map fst (dict_update String.eqb e l')).
    { unfold dict_update. induction l as [|[k1 v1] l IH]; intros [|[k2 v2] l'] E d e Ed; try discriminate; [easy|].
      cbn [map fst] in E. injection E as -> E. cbn [fold_left fst snd]. apply IH; [easy|]. now apply Hset. }
    intros [|[k1 v1] [|[k2 v2] d]] [|[k3 v3] [|[k4 v4] e]] E; try discriminate; split; try reflexivity.
    unfold action_args. cbn [snd]. now apply Hupd. }
  destruct (Hs kw (combine (map fst src) xs)) as [Hlen Hkeys].
  { rewrite Hk, combine_keys by (now rewrite map_length). reflexivity. }
  destruct (action_args kw) as [args kwargs] eqn:Ea.
  destruct (action_args (combine (map fst src) xs)) as [args' kwargs'] eqn:Ea'.
  cbn [fst snd] in Hlen, Hkeys.
  apply try_finally_ok_inv in H. destruct H as [s2 [H _]].
  apply (mock_call_runs u args kwargs args' kwargs' s1 s2); auto.
  intros Ht Hin.
  assert (Hin' : In "rng" (map fst kw) /\ length kw <> 1%nat).
  { unfold action_args in Ea. destruct kw as [|[k1 v1] [|kv2 kw]].
    - injection Ea as <- <-. destruct Hin.
    - injection Ea as <- <-. destruct Hin.
    - split; [|cbn; lia]. injection Ea as <- <-.
      assert (Hmem : forall (l d : list (string * val)) k,
        In k (map fst (dict_update String.eqb d l)) -> In k (map fst l) \/ In k (map fst d)).
      { clear. unfold dict_update. induction l as [|[k1 v1] l IH]; intros d k Hin; cbn [fold_left fst snd map] in *; [now right|].
        apply IH in Hin. destruct Hin as [Hin|Hin]; [left; now right|].
        assert (Hset : forall d, In k (map fst (dict_set String.eqb k1 v1 d)) -> k1 = k \/ In k (map fst d)).
        { clear. induction d as [|[k2 v2] d IH]; intros Hin; cbn [dict_set map fst In] in *.
          - tauto.
          - destruct (k1 =? k2)%string; cbn [map fst In] in *; tauto. }
        apply Hset in Hin. cbn [In]. tauto. }
      apply (Hmem ((k1, v1) :: kv2 :: kw) []) in Hin. destruct Hin as [Hin|[]]. exact Hin. }
  destruct Hin' as [Hin1 Hin2]. rewrite Hk in Hin1. apply (Hr Ht); [|exact Hin1].
  rewrite <- (map_length fst), <- Hk, map_length. exact Hin2.
Qed.

(** A valid signature, accepted by the three classes and never failing later. *)
Definition ab_rng : ufun Z :=
  mkUfun (Some [mkParam "a" PosOrKw false; mkParam "b" PosOrKw true; mkParam "rest" VarPos false;
                mkParam "rng" KwOnly false; mkParam "others" VarKw false])
    (fun _ _ => raise TypeError) (fun _ _ => ret VNone).
Example C42_demo_valid : valid_function ab_rng.
Proof.
  split.
  - repeat first [apply FOP_cons | apply FOP_nil | apply Forall_cons | apply Forall_nil];
      first [left; cbn; lia | right; repeat split; discriminate].
  - cbn. repeat first [apply NoDup_cons | apply NoDup_nil]; cbn; intuition discriminate.
Qed.
Example C42_demo :
  wrapone_set tick (fun _ => ret tt) (ret tt) ab_rng 0 = (Ok tt, 1) /\
  wrapmany_set [("b", (tick, ticks)); ("z", (tick, ticks)); ("a", (tick, ticks))] (fun _ => ret tt) (ret tt) ab_rng 0 = (Ok tt, 3) /\
  based_set [("a", tick); ("b", tick)] (fun _ => ret tt) (ret tt) ab_rng 0 = (Ok tt, 2).
Proof. repeat split; reflexivity. Qed.
(** Refused: a source without a parameter; a parameter without a source. *)
Example C42_demo_refused :
  wrapmany_set [("z", (tick, ticks))] (fun _ => ret tt) (ret tt) ab_rng 0 = (Raise TypeError, 1) /\
  wrapmany_set [("a", (tick, ticks)); ("z", (tick, ticks))] (fun _ => ret tt) (ret tt) add_ab 0 = (Raise TypeError, 2).
Proof. split; reflexivity. Qed.

Print Assumptions C40_wrapone.
Print Assumptions C40_wrapone_succeeds.
Print Assumptions C40_errors.
Print Assumptions C41_emit.
Print Assumptions C41_emit_many.
Print Assumptions C42_wrapone.
Print Assumptions C42_wrapmany_partial.
Print Assumptions C42_rng_label_fails.
Print Assumptions C42_wrapmany_refuted.
Print Assumptions C42_based_partial.
