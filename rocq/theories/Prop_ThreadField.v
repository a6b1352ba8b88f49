(** * Property C104: a schema that several threads call.

    Vocabulary: [ThreadModel.v] (threads, schedules), [ThreadField.v] (steps of calls). *)
From Verif Require Import Base Prims ThreadModel ThreadProofs ThreadField Prop_Thread.
Open Scope nat_scope.

(** Thread number [t] makes [nth t calls 0] documents. *)
Definition schema_threads {V E} (fields : list (tfield V E)) (s : fshared V E) (calls : list nat) (schedule : list nat) :=
  run schema_start (schema_step fields) schedule (begin (map (repeat tt) calls) s).
Definition schema_locked {V E} (fields : list (tfield V E)) (s : fshared V E) (calls : list nat) (schedule : list nat) : Prop :=
  one_at_a_time schema_start (schema_step fields) schedule (begin (map (repeat tt) calls) s).
(** The document in which the fields have the values [vs] *)
Fixpoint document {V E} (fields : list (tfield V E)) (vs : list V) : list (nat * V) :=
  match fields, vs with
  | f :: fs, v :: vs => (if tf_hide f then [] else [(tf_name f, v)]) ++ document fs vs
  | _, _ => []
  end.
(** Each copy has the value of its source, which comes before it. *)
Definition copies_agree {V E} (fields : list (tfield V E)) (vs : list V) : Prop :=
  forall k f j, nth_error fields k = Some f -> tf_kind f = CopyOf j -> j < k -> nth_error vs k = nth_error vs j.

(** ** C104 *)
Definition C104_statement : Prop :=
  forall (V E : Type) (fields : list (tfield V E)) s calls schedule,
  length (f_cache s) = length fields ->
  Forall (fun r => forall doc, r = Ok doc -> exists vs, length vs = length fields /\ doc = document fields vs /\ copies_agree fields vs)
         (outcomes (schema_threads fields s calls schedule)).

(** A field that counts, and a copy of it *)
Definition counting : list (tfield nat nat) :=
  [mkTField 1 false (Own (fun n => (Ok n, S n))); mkTField 2 false (CopyOf 0)].
(** The second thread's call of the first field comes between the first thread's calls of
    the two fields. *)
Theorem C104_copies_refuted : ~ C104_statement.
Proof.
  intros S. specialize (S nat nat counting (mkFShared 10 [0; 0]) [1; 1] [0; 0; 0; 0; 1; 1; 1; 0; 0; 0; 0] eq_refl).
  vm_compute in S. inversion S as [|r l H _]. destruct (H _ eq_refl) as ([|a [|b [|]]] & L & D & C); try discriminate.
  injection D as <- <-. specialize (C 1 _ 0 eq_refl eq_refl ltac:(lia)). discriminate.
Qed.
Print Assumptions C104_copies_refuted.

(** A call of a field can also return the value of another thread's call: here both
    documents have 11, and 10 is in none. *)
Theorem C104_other_thread :
  let y := schema_threads [mkTField 1 false (Own (fun n => (Ok n, S n)))] (mkFShared 10 [0]) [1; 1] [0; 0; 0; 1; 1; 1; 0; 0; 1; 1] in
  idle y /\ outcomes y = [Ok [(1, 11)]; Ok [(1, 11)]].
Proof. split; [intros th H; vm_compute in H; intuition (subst; reflexivity) | vm_compute; reflexivity]. Qed.
Print Assumptions C104_other_thread.

Lemma document_snoc {V E} (fields : list (tfield V E)) vs k f v :
  nth_error fields k = Some f -> length vs = k ->
  document fields (vs ++ [v]) = document fields vs ++ (if tf_hide f then [] else [(tf_name f, v)]).
Proof.
  revert vs k. induction fields as [|g fs IH]; intros vs k Hf L; [destruct k; discriminate|].
  destruct vs as [|w vs]; cbn in L; subst k.
  - cbn in Hf. injection Hf as <-. cbn. destruct fs; rewrite app_nil_r; reflexivity.
  - cbn [app document]. cbn in Hf. rewrite (IH vs (length vs) Hf eq_refl), app_assoc. reflexivity.
Qed.

(** Whatever the schedule: documents have the public fields in their order, and the value
    of a field is one that an emitter of this field (or of the field it copies, or the
    value it had before) has given: it has every property [P] that those have. *)
Theorem C104_values :
  forall (V E : Type) (fields : list (tfield V E)) s calls schedule (P : nat -> V -> Prop),
  length (f_cache s) = length fields ->
  (forall k v, nth_error (f_cache s) k = Some v -> P k v) ->
  (forall k f em e v e', nth_error fields k = Some f -> tf_kind f = Own em -> em e = (Ok v, e') -> P k v) ->
  (forall k f j v, nth_error fields k = Some f -> tf_kind f = CopyOf j -> P j v -> P k v) ->
  Forall (fun r => forall doc, r = Ok doc ->
            exists vs, length vs = length fields /\ doc = document fields vs /\ forall k v, nth_error vs k = Some v -> P k v)
         (outcomes (schema_threads fields s calls schedule)).
Proof.
  intros V E fields s calls schedule P Hl H0 Ho Hc.
  set (Inv (s : fshared V E) := length (f_cache s) = length fields /\ forall k v, nth_error (f_cache s) k = Some v -> P k v).
  set (upto (k : nat) (doc : list (nat * V)) := exists vs, length vs = k /\ doc = document fields vs /\ forall k v, nth_error vs k = Some v -> P k v).
  set (Here (l : fplace V) := match l with
    | Compute k doc => k <= length fields /\ upto k doc
    | Store k doc v => k < length fields /\ upto k doc /\ P k v
    | Back k doc => k < length fields /\ upto k doc end).
  set (Good (r : res (list (nat * V))) := forall doc, r = Ok doc -> upto (length fields) doc).
  destruct (always_run schema_start (schema_step fields) Inv Here Good) with (schedule := schedule) (todo := map (repeat tt) calls) (s := s) as (_ & _ & G).
  - intros q. split; [lia|]. exists []. split; [reflexivity|]. split; [destruct fields; reflexivity|]. intros [|k] v X; discriminate.
  - intros l t (Lt & Ct) H. destruct l as [k doc|k doc v|k doc]; cbn [schema_step Here] in *.
    + destruct H as [Hk Hu]. destruct (nth_error fields k) as [f|] eqn:Ef.
      * assert (k < length fields) by (apply nth_error_Some; congruence). destruct (tf_kind f) as [em|j] eqn:Kf.
        -- destruct (em (f_state t)) as [[v|x|] e] eqn:Ee; cbn; (split; [split; [exact Lt | exact Ct]|]); [|intros ? X; discriminate..].
           split; [exact H|]. split; [exact Hu|]. eapply Ho; eauto.
        -- destruct (nth_error (f_cache t) j) as [v|] eqn:Ej; cbn; (split; [split; [exact Lt | exact Ct]|]); [|intros ? X; discriminate].
           split; [exact H|]. split; [exact Hu|]. eapply Hc; eauto.
      * cbn. split; [split; [exact Lt | exact Ct]|]. intros d X. injection X as <-. apply nth_error_None in Ef. replace (length fields) with k by lia. exact Hu.
    + cbn. destruct H as (Hk & Hu & Pv). split; [|auto]. split; [cbn; rewrite upd_len; exact Lt|]. cbn. intros n w X.
      destruct (Nat.eq_dec n k) as [->|Ne]; [|rewrite nth_other in X by exact Ne; eauto].
      destruct (nth_error (f_cache t) k) as [z|] eqn:Z; [|apply nth_error_None in Z; lia]. rewrite (nth_same _ _ _ _ Z) in X. injection X as <-. exact Pv.
    + destruct H as [Hk (vs & Lv & -> & Pv)]. destruct (nth_error fields k) as [f|] eqn:Ef; [|cbn; split; [split; [exact Lt | exact Ct]|]; intros ? X; discriminate].
      destruct (nth_error (f_cache t) k) as [v|] eqn:Ev; cbn; (split; [split; [exact Lt | exact Ct]|]); [|intros ? X; discriminate].
      split; [lia|]. exists (vs ++ [v]). split; [rewrite app_length; cbn; lia|]. split.
      * rewrite (document_snoc fields vs k f v Ef Lv). destruct (tf_hide f); [rewrite app_nil_r|]; reflexivity.
      * intros n w X. destruct (Nat.lt_ge_cases n (length vs)) as [L|L]; [rewrite nth_error_app1 in X by exact L; eauto|].
        rewrite nth_error_app2 in X by exact L. destruct (n - length vs) eqn:D; [|destruct n0; discriminate]. cbn in X. injection X as <-. replace n with k by lia. eauto.
  - split; [exact Hl | exact H0].
  - unfold schema_threads, outcomes. rewrite Forall_map. exact G.
Qed.
Print Assumptions C104_values.

(** ** One call at a time *)
Section Alone.
  Context {S Q L R : Type}.
  Context (start : Q -> L) (step : L -> S -> (L + res R) * S).
  (** A call made without interruption *)
  Fixpoint alone_call (n : nat) (l : L) (s : S) : res R * S :=
    match n with
    | O => (Diverge, s)
    | Datatypes.S n => match step l s with (inl l, s) => alone_call n l s | (inr r, s) => (r, s) end
    end.
End Alone.
(** A call of the schema in one thread *)
Definition schema_call {V E} (fields : list (tfield V E)) (s : fshared V E) : res (list (nat * V)) * fshared V E :=
  alone_call (schema_step fields) (3 * length fields + 1) (schema_start tt) s.
Fixpoint schema_calls {V E} (fields : list (tfield V E)) (n : nat) (s : fshared V E) : list (res (list (nat * V))) * fshared V E :=
  match n with
  | O => ([], s)
  | Datatypes.S n => let '(r, s) := schema_call fields s in let '(rs, s) := schema_calls fields n s in (r :: rs, s)
  end.

Section Schema.
  Context {V E : Type} (fields : list (tfield V E)).
  Definition steps_left (l : fplace V) : nat :=
    match l with
    | Compute k _ => 3 * (length fields - k) + 1
    | Store k _ _ => 3 * (length fields - k)
    | Back k _ => 3 * (length fields - k) - 1
    end.
  Definition sound (s : fshared V E) : Prop := length (f_cache s) = length fields.
  Definition at_field (l : fplace V) (s : fshared V E) : Prop :=
    sound s /\ match l with Compute k _ => k <= length fields | Store k _ _ | Back k _ => k < length fields end.
  (** In a call that is not interrupted, the caches are the values of the document. *)
  Definition as_cached (k : nat) (s : fshared V E) (doc : list (nat * V)) : Prop :=
    doc = document fields (firstn k (f_cache s)) /\
    forall n f j, n < k -> nth_error fields n = Some f -> tf_kind f = CopyOf j -> j < n -> nth_error (f_cache s) n = nth_error (f_cache s) j.

  Lemma schema_serial schedule calls s : sound s ->
    let y := schema_threads fields s calls schedule in
    schema_locked fields s calls schedule -> idle y ->
    ThreadProofs.calls (fun _ => schema_call fields) (requests y) s = (outcomes y, s_shared y).
  Proof.
    intros Ss y O Id.
    apply (serial_calls schema_start (schema_step fields) (fun _ => schema_call fields) (fun l => alone_call (schema_step fields) (steps_left l) l) sound at_field); auto.
    - intros q t St. split; [split; [exact St | cbn; lia]|]. unfold schema_call. cbn [steps_left schema_start]. rewrite Nat.sub_0_r. destruct q. reflexivity.
    - intros l t l' t' [St H] Es. assert (A : at_field l' t' /\ steps_left l = Datatypes.S (steps_left l')).
      { destruct l as [k doc|k doc v|k doc]; cbn [schema_step] in Es.
        - destruct (nth_error fields k) as [f|] eqn:Ef; [|discriminate]. assert (k < length fields) by (apply nth_error_Some; congruence).
          destruct (tf_kind f) as [em|j].
          + destruct (em (f_state t)) as [[v|x|] e]; try discriminate. injection Es as <- <-. split; [split; [exact St | exact H0]|]. cbn. lia.
          + destruct (nth_error (f_cache t) j); [|discriminate]. injection Es as <- <-. split; [split; [exact St | exact H0]|]. cbn. lia.
        - injection Es as <- <-. split; [split; [unfold sound in *; cbn; rewrite upd_len; exact St | exact H]|]. cbn in *. lia.
        - destruct (nth_error fields k) as [f|] eqn:Ef; [|discriminate]. destruct (nth_error (f_cache t) k); [|discriminate]. injection Es as <- <-.
          split; [split; [exact St|]|]; cbn in *; lia. }
      destruct A as [A1 A2]. split; [exact A1|]. rewrite A2. cbn [alone_call]. rewrite Es. reflexivity.
    - intros l t r t' [St H] Es. assert (A : sound t' /\ steps_left l = Datatypes.S (steps_left l - 1)).
      { split; [|destruct l; cbn in *; lia]. destruct l as [k doc|k doc v|k doc]; cbn [schema_step] in Es.
        - destruct (nth_error fields k) as [f|]; [|injection Es as <- <-; exact St]. destruct (tf_kind f) as [em|j].
          + destruct (em (f_state t)) as [[v|x|] e]; try discriminate; injection Es as <- <-; exact St.
          + destruct (nth_error (f_cache t) j); [discriminate|]. injection Es as <- <-. exact St.
        - discriminate.
        - destruct (nth_error fields k); [destruct (nth_error (f_cache t) k); [discriminate|]|]; injection Es as <- <-; exact St. }
      destruct A as [A1 A2]. split; [exact A1|]. rewrite A2. cbn [alone_call]. rewrite Es. reflexivity.
  Qed.

  (** Documents of uninterrupted calls *)
  Lemma firstn_upd {X} k (x : X) l : firstn k (upd k x l) = firstn k l.
  Proof. revert l. induction k as [|k IH]; intros [|a l]; cbn; auto. f_equal. apply IH. Qed.
  Lemma firstn_nth {X} k (l : list X) x : nth_error l k = Some x -> firstn (S k) l = firstn k l ++ [x].
  Proof. revert l. induction k as [|k IH]; intros [|a l] H; cbn in *; try discriminate; [injection H as <-; reflexivity|]. f_equal. apply IH, H. Qed.
  Lemma nth_firstn {X} k n (l : list X) : n < k -> nth_error (firstn k l) n = nth_error l n.
  Proof. revert n l. induction k as [|k IH]; intros n l H; [lia|]. destruct l as [|a l]; [destruct n; reflexivity|]. destruct n; cbn; auto. apply IH. lia. Qed.
  Lemma alone_agree n : forall l s doc s', sound s ->
    match l with
    | Compute k d => k <= length fields /\ as_cached k s d
    | Store k d v => k < length fields /\ as_cached k s d /\
        (forall f j, nth_error fields k = Some f -> tf_kind f = CopyOf j -> j < k -> nth_error (f_cache s) j = Some v)
    | Back k d => k < length fields /\ as_cached k s d /\
        (forall f j, nth_error fields k = Some f -> tf_kind f = CopyOf j -> j < k -> nth_error (f_cache s) k = nth_error (f_cache s) j)
    end ->
    alone_call (schema_step fields) n l s = (Ok doc, s') ->
    sound s' /\ doc = document fields (f_cache s') /\ copies_agree fields (f_cache s').
  Proof.
    induction n as [|n IH]; intros l s doc s' Ss H Es; [discriminate|]. cbn [alone_call] in Es. destruct l as [k d|k d v|k d]; cbn [schema_step] in Es.
    - destruct H as [Hk Hc]. destruct (nth_error fields k) as [f|] eqn:Ef.
      + assert (Lk : k < length fields) by (apply nth_error_Some; congruence). destruct (tf_kind f) as [em|j] eqn:Kf.
        * destruct (em (f_state s)) as [[v|x|] e]; try discriminate. eapply IH; [| |exact Es]; [exact Ss|].
          split; [exact Lk|]. split; [exact Hc|]. intros f' j X Y. rewrite Ef in X. injection X as <-. congruence.
        * destruct (nth_error (f_cache s) j) as [v|] eqn:Ev; [|discriminate]. eapply IH; [exact Ss| |exact Es].
          split; [exact Lk|]. split; [exact Hc|]. intros f' j' X Y _. rewrite Ef in X. injection X as <-. congruence.
      + injection Es as <- <-. apply nth_error_None in Ef. split; [exact Ss|]. unfold as_cached in Hc. rewrite firstn_all2 in Hc by (unfold sound in Ss; lia). destruct Hc as [Hd Hc].
        split; [exact Hd|]. intros n' f' j X Y Z. apply (Hc n' f' j); auto. assert (n' < length fields) by (apply nth_error_Some; congruence). lia.
    - destruct H as (Hk & Hc & Hj). eapply IH; [| |exact Es]; [unfold sound in *; cbn; rewrite upd_len; exact Ss|].
      split; [exact Hk|]. cbn [f_cache]. split.
      { unfold as_cached in *. cbn [f_cache]. rewrite firstn_upd. destruct Hc as [Hd Hc]. split; [exact Hd|].
        intros n' f' j L X Y Z. rewrite !nth_other by lia. eauto. }
      intros f j X Y Z. rewrite (nth_other k j) by lia. rewrite (Hj f j X Y Z).
      destruct (nth_error (f_cache s) k) as [z|] eqn:Ez; [apply nth_same with z; exact Ez | apply nth_error_None in Ez; unfold sound in Ss; lia].
    - destruct H as (Hk & (Hd & Hc) & Hj). destruct (nth_error fields k) as [f|] eqn:Ef; [|discriminate]. destruct (nth_error (f_cache s) k) as [v|] eqn:Ev; [|discriminate].
      eapply IH; [exact Ss| |exact Es]. split; [lia|]. split.
      + rewrite (firstn_nth _ _ _ Ev), (document_snoc fields _ k f v Ef), <- Hd.
        * destruct (tf_hide f); [rewrite app_nil_r|]; reflexivity.
        * rewrite firstn_length. unfold sound in Ss. lia.
      + intros n' f' j L X Y Z. destruct (Nat.eq_dec n' k) as [->|Ne]; [|apply (Hc n' f' j); auto; lia].
        rewrite Ef in X. injection X as <-. rewrite Ev. apply (Hj f j eq_refl Y Z).
  Qed.

  Lemma calls_agree n : forall s, sound s ->
    Forall (fun r => forall doc, r = Ok doc -> exists vs, length vs = length fields /\ doc = document fields vs /\ copies_agree fields vs)
           (fst (schema_calls fields n s)).
  Proof.
    assert (Keep : forall m l s, sound s -> sound (snd (alone_call (schema_step fields) m l s))).
    { induction m as [|m IH]; intros l s Ss; [exact Ss|]. cbn [alone_call].
      assert (K : sound (snd (schema_step fields l s))).
      { destruct l as [k d|k d v|k d]; cbn [schema_step].
        - destruct (nth_error fields k) as [f|]; [|exact Ss]. destruct (tf_kind f) as [em|j].
          + destruct (em (f_state s)) as [[v|x|] e]; exact Ss.
          + destruct (nth_error (f_cache s) j); exact Ss.
        - unfold sound in *. cbn. rewrite upd_len. exact Ss.
        - destruct (nth_error fields k); [destruct (nth_error (f_cache s) k)|]; exact Ss. }
      destruct (schema_step fields l s) as [[l'|r] s']; [apply IH|]; exact K. }
    induction n as [|n IH]; intros s Ss; [constructor|]. cbn [schema_calls]. destruct (schema_call fields s) as [r s1] eqn:Ec.
    assert (S1 : sound s1) by (pose proof (Keep (3 * length fields + 1) (schema_start tt) s Ss) as K; unfold schema_call in Ec; rewrite Ec in K; exact K).
    specialize (IH s1 S1). destruct (schema_calls fields n s1) as [rs s2]. cbn [fst] in *. constructor; [|exact IH].
    intros doc ->. destruct (alone_agree (3 * length fields + 1) (schema_start tt) s doc s1 Ss) as (Sd & Hd & Hc); [|exact Ec|].
    { cbn [schema_start]. split; [lia|]. split; [destruct fields; reflexivity | intros; lia]. }
    exists (f_cache s1). auto.
  Qed.
End Schema.

(** One call at a time: the documents are those of one thread, and copies agree with
    their sources. *)
Theorem C104_locked :
  forall (V E : Type) (fields : list (tfield V E)) s calls schedule,
  length (f_cache s) = length fields ->
  let y := schema_threads fields s calls schedule in
  schema_locked fields s calls schedule -> idle y ->
  schema_calls fields (length (outcomes y)) s = (outcomes y, s_shared y) /\
  Forall (fun r => forall doc, r = Ok doc -> exists vs, length vs = length fields /\ doc = document fields vs /\ copies_agree fields vs) (outcomes y).
Proof.
  intros V E fields s calls schedule Ss y O Id.
  pose proof (schema_serial fields schedule calls s Ss O Id) as C. fold y in C.
  assert (G : forall (qs : list unit) t, ThreadProofs.calls (fun _ => schema_call fields) qs t = schema_calls fields (length qs) t).
  { induction qs as [|q qs IH]; intros t; [reflexivity|]. cbn [ThreadProofs.calls schema_calls length]. destruct (schema_call fields t) as [r t1]. rewrite IH. reflexivity. }
  rewrite G in C. assert (Ln : length (requests y) = length (outcomes y)) by (unfold requests, outcomes; rewrite !map_length; reflexivity).
  rewrite Ln in C. split; [exact C|]. pose proof (calls_agree fields (length (outcomes y)) s Ss) as A. rewrite C in A. exact A.
Qed.
Print Assumptions C104_locked.

(** Three fields: one that counts, a hidden copy, and a copy of that *)
Example C104_example :
  let fields := [mkTField 1 false (Own (fun n => (Ok n, S n))); mkTField 2 true (CopyOf 0); mkTField 3 false (CopyOf 1)] in
  let y := schema_threads fields (mkFShared 10 [0; 0; 0]) [1; 1] (repeat 0 11 ++ repeat 1 11) in
  idle y /\ outcomes y = [Ok [(1, 10); (3, 10)]; Ok [(1, 11); (3, 11)]] /\
  schema_locked counting (mkFShared 10 [0; 0]) [1; 1] (repeat 1 8 ++ repeat 0 8).
Proof.
  split; [intros th H; vm_compute in H; intuition (subst; reflexivity)|]. split; [vm_compute; reflexivity|].
  unfold schema_locked. cbn [repeat app one_at_a_time].
  repeat (split; [intros [|[|j]] th X N; vm_compute in X; try congruence; try (injection X as <-; reflexivity); try (destruct j; discriminate)|]). exact I.
Qed.
