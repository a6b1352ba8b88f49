(** * Property C107: calls of a schema that are cut off, by an interrupt or by a field that
    raises an exception.

    Vocabulary: [ThreadField.v] (the steps of a call), [Prop_ThreadField.v] ([document],
    [copies_agree], [schema_call]: a call that is not cut off). *)
From Verif Require Import Base Prims ThreadModel ThreadProofs ThreadField Prop_Thread Prop_ThreadField.
Open Scope nat_scope.

Section Cut.
  Context {V E : Type} (fields : list (tfield V E)).
  (** At most [k] steps of a call *)
  Fixpoint cut_schema (k : nat) (l : fplace V) (s : fshared V E) : (fplace V + res (list (nat * V))) * fshared V E :=
    match k with
    | O => (inl l, s)
    | S k => match schema_step fields l s with
             | (inl l, s) => cut_schema k l s
             | (inr r, s) => (inr r, s)
             end
    end.
  (** A call of the schema, cut off after [k] steps; [None]: it did not come to its end *)
  Definition cut_document (k : nat) (s : fshared V E) : option (res (list (nat * V))) * fshared V E :=
    match cut_schema k (schema_start tt) s with
    | (inl _, s) => (None, s)
    | (inr r, s) => (Some r, s)
    end.
  Fixpoint cut_documents (ks : list nat) (s : fshared V E) : list (option (res (list (nat * V)))) * fshared V E :=
    match ks with
    | [] => ([], s)
    | k :: t => let '(o, s) := cut_document k s in let '(os, s) := cut_documents t s in (o :: os, s)
    end.

  Lemma cut_more k : forall j l s r s', cut_schema k l s = (inr r, s') -> cut_schema (k + j) l s = (inr r, s') /\ alone_call (schema_step fields) (k + j) l s = (r, s').
  Proof.
    induction k as [|k IH]; intros j l s r s' H; [discriminate|]. cbn [cut_schema Nat.add alone_call] in *.
    destruct (schema_step fields l s) as [[l1|r1] s1]; [exact (IH j l1 s1 r s' H)|]. injection H as <- <-. auto.
  Qed.
  Lemma step_sound l s : sound fields s -> sound fields (snd (schema_step fields l s)).
  Proof.
    intros H. destruct l; cbn [schema_step].
    - destruct (nth_error fields k); [|exact H]. destruct (tf_kind t); [destruct (em (f_state s)) as [[] e]; exact H|]. destruct (nth_error (f_cache s) j); exact H.
    - unfold sound in *. cbn. rewrite upd_len. exact H.
    - destruct (nth_error fields k); [|exact H]. destruct (nth_error (f_cache s) k); exact H.
  Qed.
  Lemma cut_sound k : forall l s, sound fields s -> sound fields (snd (cut_schema k l s)).
  Proof.
    induction k as [|k IH]; intros l s H; [exact H|]. cbn [cut_schema]. pose proof (step_sound l s H) as H1.
    destruct (schema_step fields l s) as [[l1|r] s1]; auto.
  Qed.
  Lemma cut_ends m : forall l s, sound fields s -> at_field fields l s -> steps_left fields l = m -> exists r s', cut_schema m l s = (inr r, s').
  Proof.
    induction m as [m IH] using lt_wf_ind. intros l s So [_ A] <-.
    destruct l as [k d|k d v|k d]; cbn [steps_left] in *.
    - destruct (nth_error fields k) as [f|] eqn:F.
      + assert (k < length fields) by (apply nth_error_Some; congruence).
        assert (G : forall v s1, sound fields s1 -> exists r s', cut_schema (3 * (length fields - k)) (Store k d v) s1 = (inr r, s')).
        { intros v s1 So1. apply (IH (3 * (length fields - k)) ltac:(lia)); auto. split; auto. }
        rewrite Nat.add_1_r. cbn [cut_schema schema_step]. rewrite F. destruct (tf_kind f) as [em|j].
        * destruct (em (f_state s)) as [[v|x|] e]; [apply G; exact So | eauto | eauto].
        * destruct (nth_error (f_cache s) j) as [v|]; eauto.
      + rewrite Nat.add_1_r. cbn [cut_schema schema_step]. rewrite F. eauto.
    - replace (3 * (length fields - k)) with (Datatypes.S (3 * (length fields - k) - 1)) by lia. cbn [cut_schema schema_step].
      apply (IH (3 * (length fields - k) - 1) ltac:(lia)); auto; [|split; auto]; unfold sound in *; cbn; rewrite upd_len; auto.
    - replace (3 * (length fields - k) - 1) with (Datatypes.S (3 * (length fields - Datatypes.S k) + 1)) by lia. cbn [cut_schema schema_step].
      destruct (nth_error fields k) as [f|]; [|eauto]. destruct (nth_error (f_cache s) k) as [v|]; [|eauto].
      apply (IH (3 * (length fields - Datatypes.S k) + 1) ltac:(lia)); auto. split; auto.
  Qed.
  (** With enough steps it is a whole call. *)
  Lemma cut_whole j s : sound fields s -> cut_document (3 * length fields + 1 + j) s = (Some (fst (schema_call fields s)), snd (schema_call fields s)).
  Proof.
    intros So. destruct (cut_ends (3 * length fields + 1) (schema_start tt) s So) as (r & s' & E1).
    - split; [exact So|]. cbn. lia.
    - cbn. lia.
    - unfold cut_document, schema_call. rewrite (proj1 (cut_more _ j _ _ _ _ E1)).
      pose proof (proj2 (cut_more _ 0 _ _ _ _ E1)) as E2. rewrite Nat.add_0_r in E2. rewrite E2. reflexivity.
  Qed.
End Cut.

(** ** The English claim: a row is never torn.  What comes after an interrupted call are
    documents that calls without interruptions give. *)
Definition C107_statement : Prop :=
  forall (V E : Type) (fields : list (tfield V E)) s ks doc,
  length (f_cache s) = length fields ->
  In (Some (Ok doc)) (fst (cut_documents fields ks s)) ->
  exists n, In (Ok doc) (fst (schema_calls fields n s)).

(** Two fields that count, each for itself *)
Definition two_columns : list (tfield nat (nat * nat)) :=
  [mkTField 1 false (Own (fun e => (Ok (fst e), (S (fst e), snd e)))); mkTField 2 false (Own (fun e => (Ok (snd e), (fst e, S (snd e)))))].
Lemma two_whole a b c : schema_call two_columns (mkFShared (a, b) c) =
  match c with
  | _ :: _ :: r => (Ok [(1, a); (2, b)], mkFShared (S a, S b) (a :: b :: r))
  | [_] => (Raise AttributeError, mkFShared (S a, S b) [a])
  | [] => (Raise AttributeError, mkFShared (S a, b) [])
  end.
Proof. destruct c as [|x [|y c]]; reflexivity. Qed.
Lemma two_calls n : forall a x y doc, In (Ok doc) (fst (schema_calls two_columns n (mkFShared (a, a) [x; y]))) -> exists k, doc = [(1, k); (2, k)].
Proof.
  induction n as [|n IH]; intros a x y doc H; [contradiction|]. cbn [schema_calls] in H. rewrite two_whole in H.
  specialize (IH (S a) a a doc). destruct (schema_calls two_columns n (mkFShared (S a, S a) [a; a])) as [rs s]. destruct H as [H|H]; [|auto].
  injection H as <-. eauto.
Qed.
(** The first call is cut off after the first field: from then on the columns are shifted. *)
Theorem C107_torn_refuted : ~ C107_statement.
Proof.
  intros S. destruct (S nat (nat * nat)%type two_columns (mkFShared (0, 0) [0; 0]) [3; 9] [(1, 1); (2, 0)]) as [n H]; [reflexivity | cbn; auto|].
  apply two_calls in H as [k H]. injection H as H1 H2. congruence.
Qed.
Print Assumptions C107_torn_refuted.
Theorem C107_stays :
  forall n, exists os s, cut_documents two_columns (3 :: repeat 9 n) (mkFShared (0, 0) [0; 0]) = (None :: os, s) /\
    os = map (fun k => Some (Ok [(1, S k); (2, k)])) (seq 0 n).
Proof.
  intros n.
  assert (G : forall n a x y, exists s, cut_documents two_columns (repeat 9 n) (mkFShared (S a, a) [x; y]) = (map (fun k => Some (Ok [(1, S k); (2, k)])) (seq a n), s)).
  { clear. induction n as [|n IH]; intros a x y; [cbn; eauto|]. cbn [repeat cut_documents seq map].
    change 9 with (3 * length two_columns + 1 + 2) at 1. rewrite cut_whole by reflexivity. rewrite two_whole. cbn [fst snd].
    destruct (IH (S a) (S a) a) as [s ->]. eauto. }
  destruct (G n 0 0 0) as [s H]. exists (map (fun k => Some (Ok [(1, S k); (2, k)])) (seq 0 n)), s. split; [|reflexivity].
  cbn [cut_documents]. change (cut_document two_columns 3 (mkFShared (0, 0) [0; 0])) with (@None (res (list (nat * nat))), mkFShared (1, 0) [0; 0]). cbv iota. rewrite H. reflexivity.
Qed.
Print Assumptions C107_stays.

(** ** What holds, wherever calls are cut off *)
(** A document that is completed has the public fields in their order, and copies agree
    with their sources. *)
Theorem C107_copies :
  forall (V E : Type) (fields : list (tfield V E)) s ks,
  length (f_cache s) = length fields ->
  Forall (fun o => forall doc, o = Some (Ok doc) -> exists vs, length vs = length fields /\ doc = document fields vs /\ copies_agree fields vs)
         (fst (cut_documents fields ks s)).
Proof.
  intros V E fields s ks. revert s. induction ks as [|k ks IH]; intros s So; [constructor|]. cbn [cut_documents]. unfold cut_document.
  pose proof (cut_sound fields k (schema_start tt) s So) as So1.
  destruct (cut_schema fields k (schema_start tt) s) as [[l|r] s1] eqn:C; cbn [snd] in So1; specialize (IH s1 So1); destruct (cut_documents fields ks s1) as [os s2]; cbn [fst] in *;
    (constructor; [|exact IH]); intros doc D; [discriminate|]. injection D as ->.
  apply cut_more with (j := 0) in C as [_ C].
  destruct (alone_agree fields (k + 0) (schema_start tt) s doc s1 So) with (2 := C) as (So' & Ed & Ag).
  - split; [lia|]. split; [destruct fields; reflexivity|]. intros n f j L. lia.
  - eauto.
Qed.
Print Assumptions C107_copies.

(** What a call does depends on the emitters, not on what earlier calls have left in the
    fields: so resetting or seeding the emitters is all it takes to get the same documents
    again.  (Copies are of earlier fields.) *)
Theorem C107_emitters_decide :
  forall (V E : Type) (fields : list (tfield V E)) s s' n,
  length (f_cache s) = length fields -> length (f_cache s') = length fields -> f_state s = f_state s' ->
  (forall k f j, nth_error fields k = Some f -> tf_kind f = CopyOf j -> j < k) ->
  fst (schema_calls fields n s) = fst (schema_calls fields n s') /\ f_state (snd (schema_calls fields n s)) = f_state (snd (schema_calls fields n s')).
Proof.
  intros V E fields s s' n So So' St Early.
  set (alike (k : nat) (a b : fshared V E) := sound fields a /\ sound fields b /\ f_state a = f_state b /\ forall i, i < k -> nth_error (f_cache a) i = nth_error (f_cache b) i).
  assert (One : forall m l a b,
    match l with Compute k _ | Store k _ _ => alike k a b | Back k _ => alike (S k) a b end ->
    let x := alone_call (schema_step fields) m l a in let y := alone_call (schema_step fields) m l b in
    fst x = fst y /\ sound fields (snd x) /\ sound fields (snd y) /\ f_state (snd x) = f_state (snd y)).
  { clear - Early. induction m as [|m IH]; intros l a b H; cbn [alone_call].
    - cbn. destruct l; destruct H as (? & ? & ? & _); auto.
    - destruct l as [k d|k d v|k d]; cbn [schema_step]; destruct H as (Sa & Sb & St & Hc).
      + destruct (nth_error fields k) as [f|] eqn:F; [|cbn; auto]. destruct (tf_kind f) as [em|j] eqn:K.
        * rewrite St. destruct (em (f_state b)) as [[v|x|] e]; [|cbn; auto|cbn; auto]. apply IH. unfold alike. cbn. auto.
        * rewrite (Hc j (Early k f j F K)). destruct (nth_error (f_cache b) j); [|cbn; auto]. apply IH. unfold alike. auto.
      + apply IH. unfold alike, sound in *. cbn. rewrite !upd_len. split; [auto|]. split; [auto|]. split; [auto|]. intros i Hi.
        destruct (Nat.eq_dec i k) as [->|N].
        * destruct (Nat.lt_ge_cases k (length fields)) as [L|L].
          -- destruct (nth_error (f_cache a) k) eqn:Ya; [|apply nth_error_None in Ya; lia]. destruct (nth_error (f_cache b) k) eqn:Yb; [|apply nth_error_None in Yb; lia].
             rewrite (nth_same _ _ _ _ Ya), (nth_same _ _ _ _ Yb). reflexivity.
          -- rewrite !(proj2 (nth_error_None _ _)); [reflexivity| |]; rewrite upd_len; lia.
        * rewrite !nth_other by auto. apply Hc. lia.
      + destruct (nth_error fields k) as [f|]; [|cbn; auto]. rewrite (Hc k ltac:(lia)). destruct (nth_error (f_cache b) k); [|cbn; auto].
        apply IH. unfold alike. auto. }
  clear - So So' St One. revert s s' So So' St. induction n as [|n IH]; intros s s' So So' St; [cbn; auto|]. cbn [schema_calls].
  destruct (One (3 * length fields + 1) (schema_start tt) s s') as (X1 & X2 & X3 & X4).
  { unfold alike, schema_start. repeat split; auto. intros i Hi. lia. }
  unfold schema_call. destruct (alone_call (schema_step fields) (3 * length fields + 1) (schema_start tt) s) as [r s1].
  destruct (alone_call (schema_step fields) (3 * length fields + 1) (schema_start tt) s') as [r' s1']. cbn [fst snd] in *. subst r'.
  destruct (IH s1 s1' X2 X3 X4) as [Y1 Y2]. destruct (schema_calls fields n s1), (schema_calls fields n s1'). cbn [fst snd] in *. subst. auto.
Qed.
Print Assumptions C107_emitters_decide.

(** A field that counts, a field that counts for itself, and a copy of the first: two calls
    are cut off; the columns are shifted, the copies agree; with the emitters as they were
    the documents are the first ones again. *)
Example C107_example :
  let fields := two_columns ++ [mkTField 3 false (CopyOf 0)] in
  let o := cut_documents fields [20; 2; 6; 20] (mkFShared (0, 0) [7; 7; 7]) in
  fst o = [Some (Ok [(1, 0); (2, 0); (3, 0)]); None; None; Some (Ok [(1, 3); (2, 2); (3, 3)])] /\
  fst (schema_calls fields 1 (mkFShared (0, 0) (f_cache (snd o)))) = [Ok [(1, 0); (2, 0); (3, 0)]].
Proof. split; reflexivity. Qed.

(** ** How far columns are shifted.  Field number [k] gives [g k 0], [g k 1], ...: the state
    says how many values each field has given. *)
Definition columns {V} (g : nat -> nat -> V) (n : nat) : list (tfield V (nat -> nat)) :=
  map (fun k => mkTField k false (Own (fun e => (Ok (g k (e k)), fun i => if i =? k then S (e i) else e i)))) (seq 0 n).
(** The document with the value number [rows k] of each field [k] *)
Definition row {V} (g : nat -> nat -> V) (n : nat) (rows : nat -> nat) : list (nat * V) := map (fun k => (k, g k (rows k))) (seq 0 n).

Section Columns.
  Context {V : Type} (g : nat -> nat -> V) (n : nat).
  Notation F := (columns g n).
  Definition moved (j : nat) (e e' : nat -> nat) : Prop := forall i, e' i = e i + (if i <? j then 1 else 0).
  Lemma columns_nth k f : nth_error F k = Some f -> k < n /\ f = mkTField k false (Own (fun e => (Ok (g k (e k)), fun i => if i =? k then S (e i) else e i))).
  Proof.
    intros H. assert (L : k < n) by (assert (X : k < length F) by (apply nth_error_Some; congruence); unfold columns in X; rewrite map_length, seq_length in X; exact X).
    split; [exact L|]. unfold columns in H. rewrite (map_nth_error _ k (seq 0 n) (d := k)) in H; [congruence|].
    rewrite (nth_error_nth' (seq 0 n) 0) by (rewrite seq_length; exact L). rewrite seq_nth by exact L. reflexivity.
  Qed.
  Lemma columns_len : length F = n. Proof. unfold columns. rewrite map_length, seq_length. reflexivity. Qed.
  Lemma moved_next j (e e' : nat -> nat) : moved j e e' -> moved (S j) e (fun i => if i =? j then S (e' i) else e' i).
  Proof. intros M i. specialize (M i). destruct (Nat.eqb_spec i j), (Nat.ltb_spec i j), (Nat.ltb_spec i (S j)); lia. Qed.
  Lemma row_next j e : row g (S j) e = row g j e ++ [(j, g j (e j))].
  Proof. unfold row. rewrite seq_S, map_app. reflexivity. Qed.
  Lemma cut_columns e k : forall l s, sound F s ->
    match l with
    | Compute j d => j <= n /\ d = row g j e /\ moved j e (f_state s)
    | Store j d v => j < n /\ d = row g j e /\ v = g j (e j) /\ moved (S j) e (f_state s)
    | Back j d => j < n /\ d = row g j e /\ nth_error (f_cache s) j = Some (g j (e j)) /\ moved (S j) e (f_state s)
    end ->
    match cut_schema F k l s with
    | (inl _, s') => sound F s' /\ exists j, j <= n /\ moved j e (f_state s')
    | (inr r, s') => sound F s' /\ r = Ok (row g n e) /\ moved n e (f_state s')
    end.
  Proof.
    induction k as [|k IH]; intros l s So H.
    - cbn [cut_schema]. split; [exact So|]. destruct l as [j d|j d v|j d].
      + exists j. tauto.
      + exists (S j). destruct H as (? & _ & _ & ?). auto.
      + exists (S j). destruct H as (? & _ & _ & ?). auto.
    - cbn [cut_schema]. destruct l as [j d|j d v|j d]; cbn [schema_step].
      + destruct H as (Lj & -> & M). destruct (nth_error F j) as [f|] eqn:Ef.
        * apply columns_nth in Ef as [Lt ->]. cbn [tf_kind]. apply IH; [exact So|]. cbn [f_state].
          assert (Ej : f_state s j = e j) by (rewrite (M j), Nat.ltb_irrefl; lia). rewrite Ej.
          split; [exact Lt|]. split; [reflexivity|]. split; [reflexivity|]. apply moved_next, M.
        * apply nth_error_None in Ef. rewrite columns_len in Ef. assert (j = n) as -> by lia. auto.
      + destruct H as (Lt & -> & -> & M). apply IH.
        * unfold sound in *. cbn. rewrite upd_len. exact So.
        * cbn [f_state f_cache]. split; [exact Lt|]. split; [reflexivity|]. split; [|exact M].
          unfold sound in So. rewrite columns_len in So. destruct (nth_error (f_cache s) j) as [z|] eqn:Ez; [apply nth_same with z; exact Ez | apply nth_error_None in Ez; lia].
      + destruct H as (Lt & -> & Ev & M). rewrite Ev. destruct (nth_error F j) as [f|] eqn:Ef.
        * apply columns_nth in Ef as [_ ->]. cbn [tf_hide tf_name]. apply IH; [exact So|]. rewrite row_next. auto.
        * apply nth_error_None in Ef. rewrite columns_len in Ef. lia.
  Qed.
End Columns.

(** In the document number [i], with [c] calls before it cut off, each field is at a row
    between [i - c] and [i]; a later field is never ahead of an earlier one. *)
Theorem C107_shift :
  forall (V : Type) (g : nat -> nat -> V) n cache ks i o,
  length cache = n ->
  let os := fst (cut_documents (columns g n) ks (mkFShared (fun _ => 0) cache)) in
  nth_error os i = Some o ->
  let c := length (filter (fun o => match o with None => true | _ => false end) (firstn i os)) in
  o = None \/
  exists rows, o = Some (Ok (row g n rows)) /\ (forall k, k < n -> i - c <= rows k <= i) /\ (forall k, S k < n -> rows (S k) <= rows k).
Proof.
  intros V g n cache ks i o Lc.
  assert (G : forall ks i o (e : nat -> nat) s b d, sound (columns g n) s -> f_state s = e ->
    (forall k, k < n -> b <= e k <= b + d) -> (forall k, S k < n -> e (S k) <= e k) ->
    let os := fst (cut_documents (columns g n) ks s) in
    nth_error os i = Some o ->
    let c := length (filter (fun o => match o with None => true | _ => false end) (firstn i os)) in
    o = None \/
    exists rows, o = Some (Ok (row g n rows)) /\ (forall k, k < n -> b + i - c <= rows k <= b + d + i) /\ (forall k, S k < n -> rows (S k) <= rows k)).
  { clear. induction ks as [|k ks IH]; intros i o e s b d So Se Hb Hm; [destruct i; discriminate|].
    cbn [cut_documents]. unfold cut_document.
    pose proof (cut_columns g n e k (schema_start tt) s So) as C. rewrite Se in C.
    assert (M0 : moved 0 e e) by (intros x; cbn; lia). specialize (C (conj (Nat.le_0_l n) (conj eq_refl M0))).
    destruct (cut_schema (columns g n) k (schema_start tt) s) as [[l|r] s1].
    - destruct C as (So1 & j & Lj & M). specialize (IH (i - 1) o (f_state s1) s1 b (S d) So1 eq_refl).
      destruct (cut_documents (columns g n) ks s1) as [os s2]. cbn [fst] in *. destruct i as [|i]; cbn [nth_error firstn filter length]; [intros H; injection H as <-; auto|].
      rewrite Nat.sub_succ, Nat.sub_0_r in IH. intros H. destruct IH as [->|(rows & -> & R1 & R2)]; auto.
      + intros x Hx. rewrite (M x). specialize (Hb x Hx). destruct (x <? j); lia.
      + intros x Hx. rewrite (M x), (M (S x)). specialize (Hm x Hx). destruct (Nat.ltb_spec x j), (Nat.ltb_spec (S x) j); lia.
      + right. exists rows. split; [reflexivity|]. split; [|exact R2]. intros x Hx. specialize (R1 x Hx). lia.
    - destruct C as (So1 & -> & M). specialize (IH (i - 1) o (f_state s1) s1 (S b) d So1 eq_refl).
      destruct (cut_documents (columns g n) ks s1) as [os s2]. cbn [fst] in *. destruct i as [|i]; cbn [nth_error firstn filter length].
      + intros H. injection H as <-. right. exists e. split; [reflexivity|]. split; [|exact Hm]. intros x Hx. specialize (Hb x Hx). lia.
      + rewrite Nat.sub_succ, Nat.sub_0_r in IH. intros H. destruct IH as [->|(rows & -> & R1 & R2)]; auto.
        * intros x Hx. rewrite (M x). specialize (Hb x Hx). destruct (Nat.ltb_spec x n); lia.
        * intros x Hx. rewrite (M x), (M (S x)). specialize (Hm x Hx). destruct (Nat.ltb_spec x n), (Nat.ltb_spec (S x) n); lia.
        * right. exists rows. split; [reflexivity|]. split; [|exact R2]. intros x Hx. specialize (R1 x Hx). lia. }
  intros os H c. destruct (G ks i o (fun _ => 0) (mkFShared (fun _ => 0) cache) 0 0) as [->|(rows & -> & R1 & R2)]; auto.
  - unfold sound. rewrite columns_len. exact Lc.
  - right. exists rows. split; [reflexivity|]. split; [|exact R2]. intros x Hx. specialize (R1 x Hx). unfold c. unfold os. lia.
Qed.
Print Assumptions C107_shift.

Example C107_shift_example :
  fst (cut_documents (columns (fun k r => (k, r)) 3) [20; 4; 5; 20] (mkFShared (fun _ => 0) [(0, 0); (0, 0); (0, 0)])) =
  [Some (Ok [(0, (0, 0)); (1, (1, 0)); (2, (2, 0))]); None; None; Some (Ok [(0, (0, 3)); (1, (1, 3)); (2, (2, 1))])].
Proof. reflexivity. Qed.
