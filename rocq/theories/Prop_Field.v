(** * Fields, schemas and copies: properties C46 to C50 and C61, for whatever
    emitters and fields are used. *)
From Verif Require Import Base Prims Values GroupModel SigModel SigSpec SigProofs WrapModel WrapSpec Prop_Wrap TextSpec FieldModel FieldSpec.
Open Scope string_scope.
Open Scope list_scope.
Open Scope Z_scope.

(** ** C46, C47 *)
Lemma truthy_false v : truthy v = false <-> falsy v.
Proof.
  unfold falsy. destruct v as [|[|]|z|[|x s]|[|x l]|[|x l]|n]; cbn; split; intros H; try discriminate; auto 10;
    try (destruct H as [H|[H|[H|[H|[H|H]]]]]; discriminate).
  - apply Bool.negb_false_iff, Z.eqb_eq in H. subst. auto.
  - destruct H as [H|[H|[H|[H|[H|H]]]]]; try discriminate. injection H as ->. reflexivity.
Qed.

(** A closed gate: the field returns None, having done nothing but call the gate
    and remember None. *)
Theorem C46_closed S (gate rep em : M S val) em_n set_cache s g s1 s2 :
  gate s = (Ok g, s1) -> falsy g -> set_cache VNone s1 = (Ok tt, s2) ->
  field_call gate rep em em_n set_cache s = (Ok VNone, s2).
Proof.
  intros Hg Hf Hc. apply truthy_false in Hf. unfold field_call, mbind at 1. rewrite Hg, Hf.
  unfold mbind. now rewrite Hc.
Qed.

(** An open gate: the field returns what the emitter returns for the repeat
    count, and remembers it. *)
Theorem C46_open S (gate rep em : M S val) em_n set_cache s g s1 v s' :
  gate s = (Ok g, s1) -> ~ falsy g ->
  field_call gate rep em em_n set_cache s = (Ok v, s') ->
  exists r s2 s3, rep s1 = (Ok r, s2) /\ set_cache v s3 = (Ok tt, s') /\
    ((r = VNone /\ em s2 = (Ok v, s3)) \/
     (exists n l, int_value r n /\ em_n n s2 = (Ok l, s3) /\ v = VList l)).
Proof.
  intros Hg Hf H. unfold field_call, mbind at 1 in H. rewrite Hg in H.
  destruct (truthy g) eqn:Et; [|apply truthy_false in Et; easy].
  apply mbind_ok_inv in H. destruct H as [r [s2 [Hr H]]].
  apply mbind_ok_inv in H. destruct H as [x [s3 [Hx H]]].
  apply mbind_ok_inv in H. destruct H as [[] [s4 [Hc H]]]. unfold ret in H. injection H as <- <-.
  exists r, s2, s3. split; [easy|]. split; [easy|].
  assert (Hn : r = VNone \/ (r <> VNone /\ (n <~ lift (as_int r) ;; l <~ em_n n ;; ret (VList l)) s2 = (Ok x, s3))).
  { destruct r; auto; right; (split; [discriminate | exact Hx]). }
  destruct Hn as [->|[_ Hn]]; [now left|]. right.
  apply mbind_ok_inv in Hn. destruct Hn as [n [s5 [Hn1 Hn]]]. unfold lift in Hn1. injection Hn1 as Hn1 <-.
  apply mbind_ok_inv in Hn. destruct Hn as [l [s6 [Hl Hn]]]. unfold ret in Hn. injection Hn as <- <-.
  exists n, l. split; [|easy]. unfold int_value. destruct r as [|[]|z| | | |]; cbn in Hn1; try discriminate; injection Hn1 as <-; auto.
Qed.

(** The number of values: a single-valued field gives one value, a multi-valued one
    a list of exactly as many values as the repeat emitter says. *)
Theorem C47_count S (gate rep em : M S val) em_n set_cache s g s1 r s2 v s' :
  returns_as_many em_n ->
  gate s = (Ok g, s1) -> ~ falsy g -> rep s1 = (Ok r, s2) ->
  field_call gate rep em em_n set_cache s = (Ok v, s') ->
  (r = VNone -> exists s3, em s2 = (Ok v, s3)) /\
  (forall n, int_value r n -> 0 <= n -> exists l, v = VList l /\ zlen l = n).
Proof.
  intros Hm Hg Hf Hr H. destruct (C46_open _ _ _ _ _ _ _ _ _ _ _ Hg Hf H) as [r' [s2' [s3 [Hr' [_ Hcase]]]]].
  rewrite Hr in Hr'. injection Hr' as <- <-. split.
  - intros ->. destruct Hcase as [[_ He]|[n [l [Hn _]]]]; [eauto|].
    destruct Hn as [Hn|[[Hn _]|[Hn _]]]; discriminate.
  - intros n Hn Hpos. destruct Hcase as [[-> _]|[n' [l [Hn' [Hl ->]]]]].
    + destruct Hn as [Hn|[[Hn _]|[Hn _]]]; discriminate.
    + exists l. split; [easy|].
      assert (n' = n).
      { destruct Hn as [Hn|[[Hn Hz]|[Hn Hz]]], Hn' as [Hn'|[[Hn' Hz']|[Hn' Hz']]]; congruence. }
      subst n'. eapply Hm; eauto.
Qed.

(** multi_valued is False exactly if the repeat emitter has the list [None] for
    its items. *)
Theorem C47_multi_valued items : multi_valued items = false <-> items = Some (true, [VNone]).
Proof.
  unfold multi_valued. destruct items as [[[] [|[] [|]]]|]; split; intros H; try discriminate; easy.
Qed.

Example C47_demo :
  field_call (ret (VBool true)) (ret (VInt 3)) tick ticks (fun _ => ret tt) 5 = (Ok (VList [VInt 5; VInt 6; VInt 7]), 8) /\
  field_call (ret (VBool true)) (ret VNone) tick ticks (fun _ => ret tt) 5 = (Ok (VInt 5), 6) /\
  field_call (ret (VBool true)) (ret (VInt 0)) tick ticks (fun _ => ret tt) 5 = (Ok (VList []), 5) /\
  field_call (ret (VBool false)) (ret (VInt 3)) tick ticks (fun _ => ret tt) 5 = (Ok VNone, 5).
Proof. repeat split; reflexivity. Qed.

(** ** C48 *)
Section Schema.
  Context {S F : Type}.
  Context (name : F -> string) (hide : F -> S -> bool) (call : F -> M S val).

  Lemma dict_set_new {V} k (v : V) (d : list (string * V)) : ~ In k (map fst d) -> dict_set String.eqb k v d = d ++ [(k, v)].
  Proof.
    induction d as [|[k' v'] d IH]; intros H; [easy|]. cbn in H |- *.
    destruct (String.eqb_spec k k') as [->|]; [tauto|]. f_equal. apply IH. tauto.
  Qed.

  (** The document made of the values of the fields that are not hidden. *)
  Definition document (h : F -> bool) (fields : list (string * F)) (vals : list val) : list (string * val) :=
    map (fun nfv => (fst (fst nfv), snd nfv))
        (filter (fun nfv => negb (h (snd (fst nfv)))) (combine fields vals)).

  (** Calling fields does not change which fields are hidden. *)
  Definition hide_fixed : Prop := forall f g s, hide g (snd (call f s)) = hide g s.

  (** schema() calls every field once, in order, hidden ones included; the result
      has the fields that are not hidden, in order, with the values they
      returned. *)
  Theorem C48_schema fields s doc s' :
    hide_fixed -> NoDup (map fst fields) ->
    schema_call hide call fields s = (Ok doc, s') ->
    exists vals, each call (map snd fields) s vals s' /\ doc = document (fun f => hide f s) fields vals.
  Proof.
    intros Hh Hnd. unfold schema_call.
    assert (Hg : forall fields pre s h doc s', (forall f, hide f s = h f) -> NoDup (map fst pre ++ map fst fields) ->
      schema_loop hide call fields pre s = (Ok doc, s') ->
      exists vals, each call (map snd fields) s vals s' /\ doc = pre ++ document h fields vals).
    { clear -Hh. induction fields as [|[n f] t IH]; intros pre s h doc s' E Hnd H; cbn [schema_loop] in H.
      - unfold ret in H. injection H as <- <-. exists []. split; [constructor|]. cbn. now rewrite app_nil_r.
      - apply mbind_ok_inv in H. destruct H as [v [s1 [Hv H]]]. cbn [map fst snd] in *.
        assert (E1 : forall g, hide g s1 = h g).
        { intros g. rewrite <- E, <- (Hh f g s), Hv. reflexivity. }
        rewrite E1 in H. destruct (h f) eqn:Ef.
        + apply (IH _ _ h) in H; [|exact E1|].
          * destruct H as [vals [H1 H2]]. exists (v :: vals). split; [econstructor; eauto|].
            rewrite H2. unfold document. cbn [combine filter fst snd]. now rewrite Ef.
          * eapply NoDup_remove_1; exact Hnd.
        + assert (Hni : ~ In n (map fst pre)).
          { intros Hin. apply NoDup_remove_2 in Hnd. apply Hnd, in_app_iff. now left. }
          rewrite dict_set_new in H by easy. apply (IH _ _ h) in H; [|exact E1|].
          * destruct H as [vals [H1 H2]]. exists (v :: vals). split; [econstructor; eauto|].
            rewrite H2, <- app_assoc. unfold document. cbn [combine filter fst snd]. now rewrite Ef.
          * rewrite map_app, <- app_assoc. exact Hnd. }
    intros H. now apply (Hg fields [] s _ doc s').
  Qed.

  (** In particular the keys are the names of the fields that are not hidden. *)
  Theorem C48_keys fields s doc s' :
    hide_fixed -> NoDup (map fst fields) ->
    schema_call hide call fields s = (Ok doc, s') ->
    map fst doc = map fst (public_fields hide fields s).
  Proof.
    intros Hh Hnd H. destruct (C48_schema fields s doc s' Hh Hnd H) as [vals [He ->]].
    apply each_length in He. rewrite map_length in He. unfold document, public_fields.
    clear -He. revert vals He. induction fields as [|[n f] t IH]; intros [|v vals] He; try discriminate; [easy|].
    cbn [combine filter fst snd]. destruct (hide f s); cbn [negb map fst]; [|f_equal]; apply IH; now injection He.
  Qed.

  (** An exception of a field ends the call. *)
  Theorem C48_errors pre n f post doc s s1 e s2 vals :
    each call (map snd pre) s vals s1 -> call f s1 = (Raise e, s2) ->
    schema_loop hide call (pre ++ (n, f) :: post) doc s = (Raise e, s2).
  Proof.
    revert doc s vals. induction pre as [|[n0 f0] pre IH]; intros doc s vals He Hf; cbn [map snd app schema_loop] in *.
    - inversion He; subst. unfold mbind. now rewrite Hf.
    - inversion He as [|? ? ? v s3 vs s4 Hv Hvs]; subst. unfold mbind. rewrite Hv. eapply IH; eauto.
  Qed.

  (** ** C49 *)
  Lemma dict_set_get {V} k (v : V) k' d :
    dict_get String.eqb k' (dict_set String.eqb k v d) = if string_dec k k' then Some v else dict_get String.eqb k' d.
  Proof.
    induction d as [|[k1 v1] d IH]; cbn [dict_set dict_get].
    - destruct (string_dec k k') as [->|Hn]; [now rewrite String.eqb_refl|].
      destruct (String.eqb_spec k' k); [congruence | easy].
    - destruct (String.eqb_spec k k1) as [->|Hn]; cbn [dict_get].
      + destruct (String.eqb_spec k' k1) as [->|].
        * destruct (string_dec k1 k1); [easy | congruence].
        * destruct (string_dec k1 k'); [congruence | easy].
      + destruct (String.eqb_spec k' k1) as [->|]; [|exact IH].
        destruct (string_dec k k1); [congruence | easy].
  Qed.

  Lemma dict_set_keys {V} k (v : V) d :
    map fst (dict_set String.eqb k v d) = if in_dec string_dec k (map fst d) then map fst d else map fst d ++ [k].
  Proof.
    induction d as [|[k1 v1] d IH]; [easy|]. cbn [dict_set map fst].
    destruct (String.eqb_spec k k1) as [->|Hn].
    - cbn [map fst]. destruct (in_dec string_dec k1 (k1 :: map fst d)) as [_|H]; [easy|]. destruct H. now left.
    - cbn [map fst]. rewrite IH.
      destruct (in_dec string_dec k (map fst d)), (in_dec string_dec k (k1 :: map fst d)); try easy.
      + destruct n. now right.
      + destruct i as [i|i]; [congruence | easy].
  Qed.

  Fixpoint lookup_last (n : string) (l : list (string * F)) (d : option F) : option F :=
    match l with [] => d | (k, f) :: t => lookup_last n t (if string_dec k n then Some f else d) end.

  Lemma update_get (l d : list (string * F)) n :
    dict_get String.eqb n (dict_update String.eqb d l) = lookup_last n l (dict_get String.eqb n d).
  Proof.
    unfold dict_update. revert d. induction l as [|[k f] t IH]; intros d; [easy|]. cbn [fold_left fst snd lookup_last].
    rewrite IH, dict_set_get. reflexivity.
  Qed.

  Lemma update_keys (l : list (string * F)) : forall d,
    map fst (dict_update String.eqb d l) = map fst d ++ new_names (map fst d) (map fst l).
  Proof.
    unfold dict_update. induction l as [|[k f] t IH]; intros d; cbn [fold_left fst snd map new_names].
    - now rewrite app_nil_r.
    - rewrite IH, dict_set_keys. destruct (in_dec string_dec k (map fst d)) as [Hi|Hi]; [easy|].
      rewrite <- app_assoc. cbn [app]. do 2 f_equal.
      assert (Hperm : forall l a b, (forall x, In x a <-> In x b) -> new_names a l = new_names b l).
      { clear. induction l as [|x l IH]; intros a b Hab; [easy|]. cbn [new_names].
        destruct (in_dec string_dec x a) as [Ha|Ha], (in_dec string_dec x b) as [Hb|Hb].
        - now apply IH.
        - apply Hab in Ha. tauto.
        - apply Hab in Hb. tauto.
        - f_equal. apply IH. intros y. cbn [In]. now rewrite Hab. }
      apply Hperm. intros x. rewrite in_app_iff. cbn [In]. tauto.
  Qed.

  Lemma new_names_twice l seen : new_names seen (new_names [] l) = new_names seen l.
  Proof.
    assert (G : forall l seen seen1, incl seen1 seen -> new_names seen (new_names seen1 l) = new_names seen l).
    { clear. induction l as [|x l IH]; intros seen seen1 Hi; [easy|]. cbn [new_names].
      destruct (in_dec string_dec x seen1) as [H1|H1], (in_dec string_dec x seen) as [H2|H2].
      - now apply IH.
      - destruct H2. now apply Hi.
      - cbn [new_names]. destruct (in_dec string_dec x seen) as [_|H3]; [|easy]. apply IH.
        intros y [<-|Hy]; [easy | now apply Hi].
      - cbn [new_names]. destruct (in_dec string_dec x seen) as [H3|_]; [easy|]. f_equal. apply IH.
        intros y [<-|Hy]; [now left | right; now apply Hi]. }
    apply G. intros x [].
  Qed.

  Lemma lookup_last_named n (l : list F) d :
    lookup_last n (map (fun f => (name f, f)) l) d = match last_named name n l with Some f => Some f | None => d end.
  Proof.
    unfold last_named. revert d. induction l as [|f t IH]; intros d; [easy|]. cbn [map lookup_last rev].
    rewrite IH.
    assert (Hfind : forall (p : F -> bool) a b, find p (a ++ b) = match find p a with Some x => Some x | None => find p b end).
    { clear. intros p a b. induction a as [|x a IHa]; [easy|]. cbn. destruct (p x); auto. }
    rewrite Hfind. destruct (find _ (rev t)); [easy|]. cbn. now destruct (string_dec (name f) n).
  Qed.

  Lemma lookup_last_dict n (e d : list (string * F)) : NoDup (map fst e) ->
    lookup_last n e (dict_get String.eqb n d) =
    match dict_get String.eqb n e with Some f => Some f | None => dict_get String.eqb n d end.
  Proof.
    intros Hnd. generalize (dict_get String.eqb n d). clear d.
    induction e as [|[k f] t IH]; intros d; [easy|]. cbn [map fst] in Hnd. inversion Hnd as [|? ? Hk Ht]; subst.
    cbn [lookup_last dict_get]. rewrite IH by easy. destruct (String.eqb_spec n k) as [->|Hn].
    - destruct (string_dec k k); [|congruence].
      assert (E : dict_get String.eqb k t = None).
      { clear -Hk. induction t as [|[k1 v1] t IH]; [easy|]. cbn in Hk |- *. destruct (String.eqb_spec k k1); [subst; tauto | apply IH; tauto]. }
      now rewrite E.
    - destruct (string_dec k n); [congruence | easy].
  Qed.

  Lemma new_names_nodup : forall l seen, NoDup (new_names seen l) /\ forall x, In x (new_names seen l) -> ~ In x seen.
  Proof.
    induction l as [|x l IH]; intros seen; cbn [new_names]; [split; [constructor | easy]|].
    destruct (in_dec string_dec x seen) as [Hi|Hi]; [apply IH|]. destruct (IH (x :: seen)) as [H1 H2]. split.
    - constructor; [|easy]. intros H. apply H2 in H. apply H. now left.
    - intros y [<-|Hy]; [easy|]. apply H2 in Hy. intros Hs. apply Hy. now right.
  Qed.

  (** The names of the fields after add_fields: those there were, in their order,
      then the new ones, in the order given. *)
  Theorem C49_order fields new :
    map fst (add_fields name fields new) = map fst fields ++ new_names (map fst fields) (map name new).
  Proof.
    unfold add_fields. rewrite update_keys. f_equal. rewrite update_keys. cbn [map app].
    rewrite new_names_twice, map_map. reflexivity.
  Qed.

  (** The field under each name: the last one given with this name, otherwise
      the one that was there. *)
  Theorem C49_fields fields new n :
    dict_get String.eqb n (add_fields name fields new) =
    match last_named name n new with Some f => Some f | None => dict_get String.eqb n fields end.
  Proof.
    unfold add_fields. rewrite update_get, lookup_last_dict.
    - rewrite update_get, lookup_last_named. cbn [dict_get]. now destruct (last_named name n new).
    - rewrite update_keys. cbn [map app]. apply new_names_nodup.
  Qed.

  (** Names stay distinct; set_fields starts from scratch. *)
  Theorem C49_distinct fields new : NoDup (map fst fields) -> NoDup (map fst (add_fields name fields new)).
  Proof.
    intros H. rewrite C49_order. destruct (new_names_nodup (map name new) (map fst fields)) as [H1 H2].
    assert (G : forall a b : list string, NoDup a -> NoDup b -> (forall x, In x b -> ~ In x a) -> NoDup (a ++ b)).
    { clear. induction a as [|x a IH]; intros b Ha Hb Hd; [easy|]. inversion Ha; subst. cbn. constructor.
      - rewrite in_app_iff. intros [?|Hx]; [easy|]. apply (Hd x Hx). now left.
      - apply IH; auto. intros y Hy Hya. apply (Hd y Hy). now right. }
    now apply G.
  Qed.
  Theorem C49_set new :
    map fst (set_fields name new) = new_names [] (map name new) /\
    forall n, dict_get String.eqb n (set_fields name new) = last_named name n new.
  Proof.
    unfold set_fields. split; [now rewrite C49_order|]. intros n. rewrite C49_fields. now destruct (last_named name n new).
  Qed.

  (** hidden_fields and public_fields split the fields, keeping the order. *)
  Theorem C49_partition fields s :
    (forall nf, In nf fields <-> In nf (hidden_fields hide fields s) \/ In nf (public_fields hide fields s)) /\
    (forall nf, In nf (hidden_fields hide fields s) -> hide (snd nf) s = true) /\
    (forall nf, In nf (public_fields hide fields s) -> hide (snd nf) s = false) /\
    (length (hidden_fields hide fields s) + length (public_fields hide fields s) = length fields)%nat /\
    (forall a b, (exists l1 l2 l3, hidden_fields hide fields s = l1 ++ a :: l2 ++ b :: l3) \/
                 (exists l1 l2 l3, public_fields hide fields s = l1 ++ a :: l2 ++ b :: l3) ->
       exists l1 l2 l3, fields = l1 ++ a :: l2 ++ b :: l3).
  Proof.
    unfold hidden_fields, public_fields.
    assert (Hord : forall (p : string * F -> bool) l l1 a r, filter p l = l1 ++ a :: r ->
      exists m1 m2, l = m1 ++ a :: m2 /\ filter p m2 = r).
    { clear. intros p. induction l as [|x l IH]; intros l1 a r H; [destruct l1; discriminate|].
      cbn [filter] in H. destruct (p x) eqn:Ep.
      - destruct l1 as [|y l1]; cbn [app] in H; injection H as H1 H2.
        + subst. now exists [], l.
        + apply IH in H2. destruct H2 as [m1 [m2 [-> E]]]. now exists (x :: m1), m2.
      - apply IH in H. destruct H as [m1 [m2 [-> E]]]. now exists (x :: m1), m2. }
    assert (Hpair : forall (p : string * F -> bool) l a b, (exists l1 l2 l3, filter p l = l1 ++ a :: l2 ++ b :: l3) ->
      exists l1 l2 l3, l = l1 ++ a :: l2 ++ b :: l3).
    { intros p l a b [l1 [l2 [l3 E]]]. apply Hord in E. destruct E as [m1 [m2 [-> E]]].
      apply Hord in E. destruct E as [m3 [m4 [-> _]]]. now exists m1, m3, m4. }
    split; [|split; [|split; [|split]]].
    - intros nf. rewrite !filter_In. destruct (hide (snd nf) s); cbn; intuition congruence.
    - intros nf H. now apply filter_In in H.
    - intros nf H. apply filter_In in H. destruct H as [_ H]. now apply Bool.negb_true_iff.
    - clear. induction fields as [|x l IH]; [easy|]. cbn [filter length]. destruct (hide (snd x) s); cbn [negb length]; lia.
    - intros a b [H|H]; now apply Hpair in H.
  Qed.
End Schema.

(** Fields given by a name and whether they are hidden. *)
Definition fname (f : string * bool) : string := fst f.
Example C49_demo :
  map fst (add_fields fname (set_fields fname [("a", true); ("b", true)]) [("c", true); ("a", false); ("c", false)]) = ["a"; "b"; "c"] /\
  dict_get String.eqb "a" (add_fields fname (set_fields fname [("a", true); ("b", true)]) [("c", true); ("a", false)]) = Some ("a", false).
Proof. split; reflexivity. Qed.
Example C48_demo :
  schema_call (fun (f : string * bool) (_ : Z) => snd f) (fun _ => tick) [("a", ("a", false)); ("b", ("b", true)); ("c", ("c", false))] 7
  = (Ok [("a", VInt 7); ("c", VInt 9)], 10).
Proof. reflexivity. Qed.

(** ** C50 CopyFields *)

Lemma flat_values_adds v : adds v (flat_values v).
Proof. destruct v; cbn; constructor; discriminate. Qed.

Lemma all_adds vs : Forall2 adds vs (map flat_values vs).
Proof. induction vs; cbn [map]; constructor; [apply flat_values_adds | easy]. Qed.

Lemma join_with_joined sep ss : joined sep ss (join_with sep ss).
Proof.
  induction ss as [|s [|s2 t] IH]; [constructor | constructor |].
  change (join_with sep (s :: s2 :: t)) with (s ++ sep ++ join_with sep (s2 :: t)). now constructor.
Qed.

(** One single-valued field, not given as a sequence: its last value. *)
Theorem C50_single str_of sep v : copy_emit str_of true sep [(false, v)] = Ok v.
Proof. reflexivity. Qed.

(** Otherwise: the values the fields add, in the order of the fields, as a list
    (None if it would be empty)... *)
Theorem C50_flattened str_of single src :
  ~ (single = true /\ exists v, src = [(false, v)]) ->
  exists parts, Forall2 adds (map snd src) parts /\
    copy_emit str_of single None src = Ok (match concat parts with [] => VNone | _ => VList (concat parts) end).
Proof.
  intros H. exists (map flat_values (map snd src)). split.
  - apply all_adds.
  - unfold copy_emit.
    assert (E : single_valued single (map fst src) = false).
    { destruct src as [|[m v] [|x src]]; try reflexivity. cbn. destruct single; [|easy]. destruct m; [easy|].
      exfalso. apply H. split; [easy|]. now exists v. }
    now rewrite E, flat_map_concat_map.
Qed.

(** ... or, with a separator, as one string. *)
Theorem C50_joined str_of single sep src r :
  ~ (single = true /\ exists v, src = [(false, v)]) ->
  copy_emit str_of single (Some sep) src = Ok r ->
  exists parts ss out, Forall2 adds (map snd src) parts /\
    Forall2 (fun v s => str_of v = Ok s) (concat parts) ss /\ joined sep ss out /\ r = VStr out.
Proof.
  intros H. unfold copy_emit.
  assert (E : single_valued single (map fst src) = false).
  { destruct src as [|[m v] [|x src]]; try reflexivity. cbn. destruct single; [|easy]. destruct m; [easy|].
    exfalso. apply H. split; [easy|]. now exists v. }
  rewrite E. intros Hr. destruct (mapM str_of (flat_map flat_values (map snd src))) as [ss|e|] eqn:Em; try discriminate.
  injection Hr as <-. exists (map flat_values (map snd src)), ss, (join_with sep ss). split; [|split; [|split]].
  - apply all_adds.
  - rewrite <- flat_map_concat_map. clear -Em. revert ss Em. induction (flat_map flat_values (map snd src)) as [|v t IH]; intros ss Em; cbn in Em.
    + injection Em as <-. constructor.
    + destruct (str_of v) eqn:Ev; try discriminate. cbn in Em. destruct (mapM str_of t); try discriminate. cbn in Em.
      injection Em as <-. constructor; auto.
  - apply join_with_joined.
  - reflexivity.
Qed.

(** The same holds for em(n): n times the value. *)
Theorem C50_many S (emit : M S val) n s v s' :
  emit s = (Ok v, s') -> repeat_emit emit n s = (Ok (repeat v (Z.to_nat n)), s').
Proof.
  intros H. unfold repeat_emit, mbind. rewrite H. unfold ret. do 2 f_equal.
  unfold list_rep. induction (Z.to_nat n) as [|k IH]; [easy|]. cbn. now f_equal.
Qed.

Example C50_demo :
  copy_emit (fun _ => Raise TypeError) true None [(true, VList [VInt 1; VInt 2])] = Ok (VList [VInt 1; VInt 2]) /\
  copy_emit (fun _ => Raise TypeError) false None [(false, VInt 1); (false, VNone); (true, VList [VInt 2; VInt 3])] = Ok (VList [VInt 1; VInt 2; VInt 3]) /\
  copy_emit as_str false (Some [45]) [(false, VStr [97]); (true, VList [VStr [98]; VStr [99]])] = Ok (VStr [97; 45; 98; 45; 99]) /\
  copy_emit as_str true None [(true, VList [])] = Ok VNone.
Proof. repeat split; reflexivity. Qed.

(** ** C61 *)

(** "Functionally equivalent to wrapping CopyFields": for one single-valued
    source field, one value. *)
Theorem C61_one S (prev : S -> val) label str_of sep (u : ufun S) s :
  based_emit (fun s => [(label, prev s)]) u s =
  wrapone_emit (fun s => (copy_emit str_of true sep [(false, prev s)], s)) u s.
Proof. reflexivity. Qed.

(** Several values: the full claim... *)
Definition C61_statement : Prop :=
  forall S (prev : S -> val) label str_of (u : ufun S) n s, 0 <= n ->
    fst (repeat_emit (based_emit (fun s => [(label, prev s)]) u) n s) =
    fst (wrapone_emit_many (repeat_emit (fun s => (copy_emit str_of true None [(false, prev s)], s))) u n s).

(** ... fails for a function that uses the rng: BasedOnFields repeats one result. *)
Definition drawing : ufun Z :=
  mkUfun (Some [mkParam "x" PosOrKw false; mkParam "rng" PosOrKw false])
    (fun _ _ => raise TypeError) (fun _ _ s => (Ok (VInt s), s + 1)).
Theorem C61_refuted : ~ C61_statement.
Proof.
  intros H. specialize (H Z (fun _ => VNone) "f" (fun _ => Raise TypeError) drawing 2 5 ltac:(lia)). discriminate.
Qed.

(** It holds for n > 0 and functions without effect on the state. *)
Theorem C61_many_partial S (prev : S -> val) label str_of (u : ufun S) n s v :
  0 < n -> wrapper_call u [prev s] [] s = (Ok v, s) ->
  repeat_emit (based_emit (fun s => [(label, prev s)]) u) n s =
  wrapone_emit_many (repeat_emit (fun s => (copy_emit str_of true None [(false, prev s)], s))) u n s.
Proof.
  intros Hn Hw. rewrite (C50_many _ (based_emit (fun s => [(label, prev s)]) u) n s v s) by exact Hw. unfold wrapone_emit_many.
  unfold mbind at 1. rewrite (C50_many _ _ n s (prev s) s) by reflexivity.
  symmetry. apply mapS_each. clear Hn. induction (Z.to_nat n) as [|k IH]; cbn [repeat]; econstructor; eauto.
Qed.
Example C61_demo :
  repeat_emit (based_emit (fun s => [("f", VInt s)]) double) 2 5 = (Ok [VInt 10; VInt 10], 5) /\
  wrapper_call double [VInt 5] [] 5 = (Ok (VInt 10), 5).
Proof. split; reflexivity. Qed.

Print Assumptions C46_closed.
Print Assumptions C46_open.
Print Assumptions C47_count.
Print Assumptions C47_multi_valued.
Print Assumptions C48_schema.
Print Assumptions C48_keys.
Print Assumptions C48_errors.
Print Assumptions C49_order.
Print Assumptions C49_fields.
Print Assumptions C49_distinct.
Print Assumptions C49_set.
Print Assumptions C49_partition.
Print Assumptions C50_single.
Print Assumptions C50_flattened.
Print Assumptions C50_joined.
Print Assumptions C50_many.
Print Assumptions C61_one.
Print Assumptions C61_refuted.
Print Assumptions C61_many_partial.
