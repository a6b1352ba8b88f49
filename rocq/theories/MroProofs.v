(** * MroProofs: lemmas about C3 and about calls along an order. *)
From Coq Require Import String.
From Verif Require Import Base Prims GroupModel MroModel MroSpec.
Local Open Scope string_scope.
Local Open Scope list_scope.

(** ** Subsequences *)
Section Sub.
  Context {A : Type}.
  Implicit Types a b c l : list A.

  Lemma sub_refl : forall l, subseq l l.
  Proof. induction l; [constructor|apply sub_keep; auto]. Qed.

  Lemma sub_inv_cons : forall x a l, subseq (x :: a) l -> subseq a l.
  Proof.
    intros x a l H. remember (x :: a) as z eqn:E. revert x a E.
    induction H; intros; try discriminate.
    - apply sub_skip. eauto.
    - injection E as -> ->. apply sub_skip. exact H.
  Qed.

  Lemma sub_trans : forall a b c, subseq a b -> subseq b c -> subseq a c.
  Proof.
    intros a b c Hab Hbc. revert a Hab. induction Hbc; intros z Hab.
    - inversion Hab. constructor.
    - apply sub_skip. auto.
    - inversion Hab; subst.
      + constructor.
      + apply sub_skip. auto.
      + apply sub_keep. auto.
  Qed.

  Lemma sub_in : forall a l x, subseq a l -> In x a -> In x l.
  Proof. induction 1; simpl; intuition. Qed.

  Lemma sub_app : forall a b c d, subseq a b -> subseq c d -> subseq (a ++ c) (b ++ d).
  Proof.
    induction 1; intros; simpl.
    - induction l; simpl; auto. apply sub_skip; auto.
    - apply sub_skip; auto.
    - apply sub_keep; auto.
  Qed.

  Lemma sub_app_l : forall a b, subseq a (a ++ b).
  Proof. induction a; simpl; [constructor|intros; apply sub_keep; auto]. Qed.
  Lemma sub_app_r : forall a b, subseq b (a ++ b).
  Proof. induction a; simpl; intros. - apply sub_refl. - apply sub_skip; auto. Qed.

  Lemma sub_before : forall x y l, before x y l <-> subseq [x; y] l.
  Proof.
    split.
    - intros (p & q & r & ->). change [x; y] with ([] ++ [x] ++ [y]).
      apply sub_app; [constructor|]. simpl. apply sub_keep.
      change [y] with ([] ++ [y]). apply sub_app; [constructor|]. apply sub_keep. constructor.
    - induction l as [|z l IH]; intros H; inversion H; subst.
      + destruct (IH H2) as (p & q & r & ->). exists (z :: p), q, r. reflexivity.
      + assert (Hy : In y l) by (eapply sub_in; [eassumption|left; reflexivity]).
        apply in_split in Hy as (q & r & ->). exists [], q, r. reflexivity.
  Qed.
End Sub.

Lemma sub_map {A B} (f : A -> B) a b : subseq a b -> subseq (map f a) (map f b).
Proof. induction 1; simpl; [constructor|apply sub_skip; auto|apply sub_keep; auto]. Qed.

Lemma sub_concat {A B} (f : A -> list B) a b :
  subseq a b -> subseq (flat_map f a) (flat_map f b).
Proof.
  induction 1; simpl.
  - constructor.
  - change (flat_map f a) with ([] ++ flat_map f a). apply sub_app; [constructor|exact IHsubseq].
  - apply sub_app; [apply sub_refl|exact IHsubseq].
Qed.

Lemma sub_rev {A} (a b : list A) : subseq a b -> subseq (rev a) (rev b).
Proof.
  induction 1; simpl.
  - constructor.
  - rewrite <- (app_nil_r (rev a)). apply sub_app; [assumption|constructor].
  - apply sub_app; [assumption|apply sub_refl].
Qed.

(** ** C3 *)

Lemma cls_mem_spec c l : cls_mem c l = true <-> In c l.
Proof. unfold cls_mem. destruct in_dec; split; intros; auto; discriminate. Qed.

Lemma free_spec c ls : free c ls = true <-> forall l, In l ls -> ~ In c (tl l).
Proof.
  unfold free. rewrite forallb_forall. split; intros H l Hl.
  - specialize (H l Hl). intros Hin. apply cls_mem_spec in Hin. rewrite Hin in H. discriminate.
  - specialize (H l Hl). destruct (cls_mem c (tl l)) eqn:E; auto.
    apply cls_mem_spec in E. contradiction.
Qed.

Lemma pick_spec all ls c :
  pick all ls = Some c -> free c all = true /\ exists t, In (c :: t) ls.
Proof.
  induction ls as [|[|x t] ls IH]; simpl; intros H; try discriminate.
  - destruct (IH H) as (? & ? & ?). eauto.
  - destruct (free x all) eqn:E.
    + injection H as ->. eauto.
    + destruct (IH H) as (? & ? & ?). eauto.
Qed.

Lemma drop_le c l : (length (drop c l) <= length l)%nat.
Proof. destruct l; simpl; auto. destruct cls_eq_dec; simpl; lia. Qed.

Lemma total_drop_le c ls : (total (map (drop c) ls) <= total ls)%nat.
Proof. induction ls; simpl; auto. pose proof (drop_le c a). lia. Qed.

Lemma total_drop c ls t : In (c :: t) ls -> (total (map (drop c) ls) < total ls)%nat.
Proof.
  induction ls as [|l ls IH]; simpl; intros H; [contradiction|].
  destruct H as [->|H].
  - pose proof (total_drop_le c ls). simpl. destruct cls_eq_dec; [|congruence]. simpl. lia.
  - specialize (IH H). pose proof (drop_le c l). lia.
Qed.

Lemma merge_enough : forall k ls, (total ls < k)%nat -> merge k ls <> Diverge.
Proof.
  induction k; intros ls H; [lia|]. simpl.
  destruct (forallb is_nil ls); [discriminate|].
  destruct (pick ls ls) eqn:E; [|discriminate].
  apply pick_spec in E as (_ & t & Hin). apply total_drop in Hin.
  assert (Hk : (total (map (drop c) ls) < k)%nat) by lia.
  specialize (IHk _ Hk).
  destruct (merge k (map (drop c) ls)); simpl; congruence.
Qed.

Lemma merge_spec : forall k ls l,
  merge k ls = Ok l ->
  (forall s, In s ls -> subseq s l) /\ NoDup l /\ (forall x, In x l -> exists s, In s ls /\ In x s).
Proof.
  induction k; intros ls l H; simpl in H; [discriminate|].
  destruct (forallb is_nil ls) eqn:En.
  - injection H as <-. rewrite forallb_forall in En. repeat split.
    + intros s Hs. specialize (En s Hs). destruct s; [constructor|discriminate].
    + constructor.
    + intros x [].
  - destruct (pick ls ls) as [c|] eqn:E; [|discriminate].
    destruct (merge k (map (drop c) ls)) as [r| |] eqn:Em; simpl in H; try discriminate.
    injection H as <-.
    apply pick_spec in E as (Hfree & t & Hin). rewrite free_spec in Hfree.
    destruct (IHk _ _ Em) as (Hs & Hnd & Hel). repeat split.
    + intros s Hin'. specialize (Hs (drop c s) (in_map _ _ _ Hin')).
      destruct s as [|y s]; [constructor|]. simpl in Hs.
      destruct cls_eq_dec as [->|]; [apply sub_keep|apply sub_skip]; exact Hs.
    + constructor; [|exact Hnd]. intros Hc.
      apply Hel in Hc as (s' & Hs' & Hc). apply in_map_iff in Hs' as (s & <- & Hs0).
      specialize (Hfree s Hs0). destruct s as [|y s]; [contradiction|].
      simpl in Hc, Hfree. destruct cls_eq_dec as [->|Hne]; [contradiction|].
      destruct Hc as [|]; [congruence|contradiction].
    + intros x [<-|Hx].
      * exists (c :: t). split; [exact Hin|left; reflexivity].
      * apply Hel in Hx as (s' & Hs' & Hx). apply in_map_iff in Hs' as (s & <- & Hs0).
        exists s. split; [exact Hs0|]. destruct s as [|y s]; [contradiction|].
        simpl in Hx. destruct cls_eq_dec; [right; exact Hx|exact Hx].
Qed.

Lemma mapM_ok {A B} (f : A -> res B) : forall l r,
  mapM f l = Ok r ->
  (forall x, In x l -> exists y, In y r /\ f x = Ok y) /\
  (forall y, In y r -> exists x, In x l /\ f x = Ok y).
Proof.
  induction l as [|a l IH]; simpl; intros r H.
  - injection H as <-. split; intros ? [].
  - destruct (f a) as [b| |] eqn:Ea; try discriminate. simpl in H.
    destruct (mapM f l) as [bs| |]; try discriminate. simpl in H. injection H as <-.
    destruct (IH _ eq_refl) as (H1 & H2). split.
    + intros x [<-|Hx]; [exists b; simpl; auto|].
      destruct (H1 x Hx) as (y & ? & ?). exists y; simpl; auto.
    + intros y [<-|Hy]; [exists a; simpl; auto|].
      destruct (H2 y Hy) as (x & ? & ?). exists x; simpl; auto.
Qed.

(** What holds of every table of classes. *)
Definition sound_table (t : table) : Prop :=
  forall c l, mro_of t c = Some l ->
    hd_error l = Some c /\ NoDup l /\ In CObject l /\
    (forall d, In d l -> exists ld, mro_of t d = Some ld /\ subseq ld l).

Lemma mro_of_cons t c l d :
  mro_of ((c, l) :: t) d = if cls_eq_dec c d then Some l else mro_of t d.
Proof. unfold mro_of. simpl. destruct cls_eq_dec; reflexivity. Qed.

Lemma class_stmt_ok c named t t' :
  class_stmt c named t = Ok t' ->
  exists ms l bases,
    bases = (match named with [] => [CObject] | _ => named end) /\
    mro_of t c = None /\ NoDup bases /\
    (forall b, In b bases -> exists m, In m ms /\ mro_of t b = Some m) /\
    (forall m, In m ms -> exists b, In b bases /\ mro_of t b = Some m) /\
    (forall s, In s (ms ++ [bases]) -> subseq s l) /\ NoDup l /\
    (forall x, In x l -> exists s, In s (ms ++ [bases]) /\ In x s) /\
    t' = (c, c :: l) :: t.
Proof.
  unfold class_stmt. set (bases := match named with [] => [CObject] | _ => named end).
  destruct (mro_of t c) eqn:Ec; [discriminate|].
  destruct (length (nodup cls_eq_dec bases) =? length bases)%nat eqn:El; [|discriminate].
  destruct (mapM _ bases) as [ms| |] eqn:Em; try discriminate. cbn [bind].
  destruct (merge _ _) as [l| |] eqn:Eg; try discriminate. cbn [bind].
  intros H. injection H as <-.
  exists ms, l, bases.
  apply mapM_ok in Em as (Hb & Hm). apply merge_spec in Eg as (Hs & Hnd & Hel).
  repeat match goal with |- _ /\ _ => split end; auto.
  - apply Nat.eqb_eq in El.
    apply (@NoDup_incl_NoDup _ (nodup cls_eq_dec bases) bases).
    + apply NoDup_nodup.
    + lia.
    + intros x Hx. apply nodup_In in Hx. exact Hx.
  - intros b Hin. destruct (Hb b Hin) as (m & ? & E). exists m. split; auto.
    destruct (mro_of t b); congruence.
  - intros m Hin. destruct (Hm m Hin) as (b & ? & E). exists b. split; auto.
    destruct (mro_of t b); congruence.
Qed.

Lemma class_stmt_sound c named t t' :
  sound_table t -> class_stmt c named t = Ok t' -> sound_table t'.
Proof.
  intros Ht H.
  destruct (class_stmt_ok _ _ _ _ H) as (ms & l & bases & -> & Hc & Hndb & Hb & Hm & Hs & Hnd & Hel & ->).
  set (bases := match named with [] => [CObject] | _ => named end) in *.
  assert (Hknown : forall x, In x l -> exists lx, mro_of t x = Some lx /\ subseq lx l).
  { intros x Hx. apply Hel in Hx as (s & Hin & Hx). apply in_app_or in Hin as [Hin|[<-|[]]].
    - destruct (Hm s Hin) as (b & Hbin & Eb).
      destruct (Ht b s Eb) as (_ & _ & _ & Hd). destruct (Hd x Hx) as (lx & Ex & Hsub).
      exists lx. split; auto. eapply sub_trans; [exact Hsub|]. apply Hs. apply in_or_app; auto.
    - destruct (Hb x Hx) as (m & Hin & Em). exists m. split; auto. apply Hs. apply in_or_app; auto. }
  intros d ld Hd. rewrite mro_of_cons in Hd. destruct cls_eq_dec as [<-|Hne].
  - injection Hd as <-. repeat split.
    + constructor; [|exact Hnd]. intros Hin. apply Hknown in Hin as (lx & E & _). congruence.
    + right. assert (Hne : exists b, In b bases) by (unfold bases; destruct named as [|b0 ?]; [exists CObject|exists b0]; left; reflexivity).
      destruct Hne as (b & Hbin). destruct (Hb b Hbin) as (m & Hmin & Em).
      destruct (Ht b m Em) as (_ & _ & Hobj & _).
      eapply sub_in; [|exact Hobj]. apply Hs. apply in_or_app; auto.
    + intros d [<-|Hin].
      * exists (c :: l). rewrite mro_of_cons. destruct cls_eq_dec; [|congruence].
        split; auto. apply sub_refl.
      * destruct (Hknown d Hin) as (lx & E & Hsub). exists lx. rewrite mro_of_cons.
        destruct cls_eq_dec as [->|]; [congruence|]. split; auto. apply sub_skip. exact Hsub.
  - destruct (Ht d ld Hd) as (H1 & H2 & H4 & H3). repeat split; auto.
    intros e He. destruct (H3 e He) as (le & E & Hsub). exists le. rewrite mro_of_cons.
    destruct cls_eq_dec as [->|]; [congruence|]. auto.
Qed.

Lemma class_stmts_sound : forall l t t',
  sound_table t -> class_stmts l t = Ok t' -> sound_table t'.
Proof.
  induction l as [|[c bases] l IH]; simpl; intros t t' Ht H.
  - injection H as <-. exact Ht.
  - destruct (class_stmt c bases t) as [t1| |] eqn:E; try discriminate. simpl in H.
    eapply IH; [|exact H]. eapply class_stmt_sound; eauto.
Qed.

Lemma object_sound : sound_table object_only.
Proof.
  intros c l H. unfold object_only in H. rewrite mro_of_cons in H.
  destruct cls_eq_dec as [<-|]; [|discriminate]. injection H as <-. repeat split.
  - constructor; [intros []|constructor].
  - left; reflexivity.
  - intros d [<-|[]]. exists [CObject]. split; [reflexivity|apply sub_refl].
Qed.

Lemma library_built : class_stmts library_classes object_only = Ok library.
Proof. vm_compute. reflexivity. Qed.

Lemma library_sound : sound_table library.
Proof. eapply class_stmts_sound; [exact object_sound|exact library_built]. Qed.

Lemma program_sound t : program_classes t -> sound_table t.
Proof. intros (s & _ & H). eapply class_stmts_sound; [exact library_sound|exact H]. Qed.

(** A class statement does not change the classes there are. *)
Lemma class_stmts_keep : forall l t t' c m,
  class_stmts l t = Ok t' -> mro_of t c = Some m -> mro_of t' c = Some m.
Proof.
  induction l as [|[d bases] l IH]; simpl; intros t t' c m H Hc.
  - injection H as <-. exact Hc.
  - destruct (class_stmt d bases t) as [t1| |] eqn:E; try discriminate. simpl in H.
    eapply IH; [exact H|].
    destruct (class_stmt_ok _ _ _ _ E) as (ms & l0 & b & _ & Hd & _ & _ & _ & _ & _ & _ & ->).
    rewrite mro_of_cons. destruct cls_eq_dec; [congruence|exact Hc].
Qed.

Lemma library_keeps t c m : program_classes t -> mro_of library c = Some m -> mro_of t c = Some m.
Proof. intros (s & _ & H). eapply class_stmts_keep; exact H. Qed.

Lemma nodup_before {A} (x y : A) l : NoDup l -> before x y l -> before y x l -> False.
Proof.
  induction l as [|z l IH]; intros Hnd H1 H2; inversion Hnd; subst.
  - destruct H1 as ([|? ?] & ? & ? & E); discriminate.
  - rewrite sub_before in H1, H2.
    inversion H1; inversion H2; subst.
    + apply IH; auto; rewrite sub_before; auto.
    + apply H3. eapply sub_in; [exact H5|]. right. left. reflexivity.
    + apply H3. eapply sub_in; [eassumption|]. right. left. reflexivity.
    + apply H3. eapply sub_in; [eassumption|]. left. reflexivity.
Qed.

Lemma before_neq {A} (x y : A) l : NoDup l -> before x y l -> x <> y.
Proof. intros Hnd H ->. exact (nodup_before y y l Hnd H H). Qed.

(** [object] comes last. *)
Lemma object_last t c l : sound_table t -> mro_of t c = Some l -> exists l', l = l' ++ [CObject].
Proof.
  intros Ht H. destruct (Ht c l H) as (_ & Hnd & Hobj & Hd).
  apply in_split in Hobj as (p & q & ->). destruct q as [|y q]; [exists p; reflexivity|exfalso].
  assert (Hy : In y (p ++ CObject :: y :: q)) by (apply in_or_app; right; right; left; reflexivity).
  destruct (Hd y Hy) as (ly & Ey & Hsub). destruct (Ht y ly Ey) as (Hh & _ & Hoy & _).
  destruct ly as [|z ly]; [discriminate|]. injection Hh as ->.
  assert (Hb1 : before CObject y (p ++ CObject :: y :: q)) by (exists p, [], q; reflexivity).
  destruct Hoy as [->|Hoy].
  - exact (before_neq _ _ _ Hnd Hb1 eq_refl).
  - apply (nodup_before CObject y _ Hnd Hb1).
    rewrite sub_before. eapply sub_trans; [|exact Hsub].
    rewrite <- sub_before. apply in_split in Hoy as (a & b & ->). exists [], a, b. reflexivity.
Qed.

(** ** Calls along an order *)

(** The bodies a call gets to. *)
Fixpoint reached (defs : cls -> option body) (l : list cls) : list body :=
  match l with
  | [] => []
  | c :: t => match defs c with
              | None => reached defs t
              | Some b => b :: match b_super b with NoSuper => [] | _ => reached defs t end
              end
  end.
Definition script (bs : list body) : list act := flat_map b_pre bs ++ flat_map b_post (rev bs).
Fixpoint dangles (bs : list body) : Prop :=
  match bs with
  | [] => False
  | b :: t => match t with [] => b_super b = Plain | _ => dangles t end
  end.

Lemma script_cons b bs : script (b :: bs) = b_pre b ++ script bs ++ b_post b.
Proof.
  unfold script. simpl. rewrite flat_map_app. simpl. rewrite app_nil_r, <- !app_assoc. reflexivity.
Qed.

Lemma script_sub a b : subseq a b -> subseq (script a) (script b).
Proof. intros H. apply sub_app; apply sub_concat; [exact H|apply sub_rev; exact H]. Qed.

Lemma call_none {S} (perform : act -> M S unit) defs : forall l,
  call perform defs l = None <-> reached defs l = [].
Proof.
  induction l as [|c t IH]; simpl; [tauto|]. destruct (defs c); [split; discriminate|exact IH].
Qed.

Lemma performs_record : forall acts l, performs record_act acts l = (Ok tt, l ++ acts).
Proof.
  induction acts as [|a acts IH]; intros l; simpl.
  - rewrite app_nil_r. reflexivity.
  - unfold mbind, record_act. rewrite IH, <- app_assoc. reflexivity.
Qed.

Lemma call_record_sub defs : forall l m,
  call record_act defs l = Some m ->
  forall z, exists r tr, m z = (r, z ++ tr) /\ subseq tr (script (reached defs l)) /\
                         (r = Ok tt \/ r = Raise AttributeError).
Proof.
  induction l as [|c t IH]; simpl; intros m H z; [discriminate|].
  destruct (defs c) as [b|]; [|exact (IH m H z)].
  injection H as <-. unfold mbind. rewrite performs_record.
  rewrite script_cons.
  set (next := match b_super b, call record_act defs t with
               | NoSuper, _ => ret tt | IfAny, None => ret tt
               | Plain, None => raise AttributeError | Guarded, None => ret tt
               | (IfAny | Plain), Some m => m | Guarded, Some m => catch_attribute_error m end).
  assert (Hnext : forall y, exists r tr, next y = (r, y ++ tr) /\
            subseq tr (script match b_super b with NoSuper => [] | _ => reached defs t end) /\
            (r = Ok tt \/ r = Raise AttributeError)).
  { intros y. unfold next.
    destruct (b_super b); destruct (call record_act defs t) as [m|] eqn:E;
      try (exists (Ok tt), []; rewrite app_nil_r; split; [reflexivity|split; [constructor|auto]]; fail).
    - apply IH. reflexivity.
    - apply IH. reflexivity.
    - exists (Raise AttributeError), []. rewrite app_nil_r. split; [reflexivity|split; [constructor|auto]].
    - destruct (IH m eq_refl y) as (r & tr & Em & Hs & Hr). unfold catch_attribute_error. rewrite Em.
      destruct Hr as [->| ->]; exists (Ok tt), tr; auto. }
  destruct (Hnext (z ++ b_pre b)) as (r & tr & -> & Hs & Hr).
  destruct Hr as [->| ->].
  - rewrite performs_record. exists (Ok tt), (b_pre b ++ tr ++ b_post b).
    rewrite <- !app_assoc. split; [reflexivity|]. split; [|auto].
    apply sub_app; [apply sub_refl|]. apply sub_app; [exact Hs|apply sub_refl].
  - exists (Raise AttributeError), (b_pre b ++ tr). rewrite <- !app_assoc. split; [reflexivity|].
    split; [|auto]. apply sub_app; [apply sub_refl|].
    rewrite <- (app_nil_r tr). apply sub_app; [exact Hs|constructor].
Qed.

Lemma call_record_ok defs : forall l m,
  call record_act defs l = Some m -> ~ dangles (reached defs l) ->
  forall z, m z = (Ok tt, z ++ script (reached defs l)).
Proof.
  induction l as [|c t IH]; simpl; intros m H Hd z; [discriminate|].
  destruct (defs c) as [b|]; [|exact (IH m H Hd z)].
  injection H as <-. unfold mbind. rewrite performs_record. rewrite script_cons.
  pose proof (call_none record_act defs t) as Hn.
  destruct (b_super b) eqn:Eb; destruct (call record_act defs t) as [m|] eqn:E;
    try (destruct Hn as [Hn _]; rewrite (Hn eq_refl) in * );
    try (unfold ret; rewrite performs_record; simpl; rewrite <- !app_assoc; reflexivity);
    try (simpl in Hd; congruence).
  - assert (Hd' : ~ dangles (reached defs t)).
    { intros Hx. apply Hd. simpl. destruct (reached defs t); [contradiction|exact Hx]. }
    rewrite (IH m eq_refl Hd'). rewrite performs_record, <- !app_assoc. reflexivity.
  - assert (Hd' : ~ dangles (reached defs t)).
    { intros Hx. apply Hd. simpl. destruct (reached defs t); [contradiction|exact Hx]. }
    rewrite (IH m eq_refl Hd'). rewrite performs_record, <- !app_assoc. reflexivity.
  - assert (Hd' : ~ dangles (reached defs t)).
    { intros Hx. apply Hd. simpl. destruct (reached defs t); [contradiction|exact Hx]. }
    unfold catch_attribute_error. rewrite (IH m eq_refl Hd').
    rewrite performs_record, <- !app_assoc. reflexivity.
Qed.

(** The bodies reached along a longer order include those along a shorter one. *)
Lemma reached_sub defs : forall a l,
  subseq a l -> NoDup l -> (forall x, In x l -> ~ In x a -> passes_on defs x) ->
  subseq (reached defs a) (reached defs l).
Proof.
  induction 1 as [l|a x l Hs IH|x a l Hs IH]; intros Hnd Hp; simpl.
  - constructor.
  - inversion Hnd; subst.
    assert (Hx : ~ In x a) by (intros Hin; apply H1; eapply sub_in; eauto).
    assert (Hr : subseq (reached defs a) (reached defs l)).
    { apply IH; [assumption|]. intros y Hy. apply Hp. right. exact Hy. }
    specialize (Hp x (or_introl eq_refl) Hx). unfold passes_on in Hp.
    destruct (defs x) as [b|]; [|exact Hr].
    apply sub_skip. destruct (b_super b); [congruence|exact Hr..].
  - inversion Hnd; subst.
    assert (Hr : subseq (reached defs a) (reached defs l)).
    { apply IH; [assumption|]. intros y Hy Hna. apply Hp; [right; exact Hy|].
      intros [->|Hin]; contradiction. }
    destruct (defs x) as [b|]; [|exact Hr].
    apply sub_keep. destruct (b_super b); [constructor|exact Hr..].
Qed.

(** The body of a class that nothing stops the call from getting to. *)
Lemma reached_has defs m b : forall l,
  In m l -> defs m = Some b -> (forall x, before x m l -> passes_on defs x) ->
  In b (reached defs l).
Proof.
  induction l as [|c t IH]; intros Hin Hm Hp; [contradiction|]. simpl.
  destruct (cls_eq_dec c m) as [->|Hne].
  - rewrite Hm. left. reflexivity.
  - destruct Hin as [|Hin]; [contradiction|].
    assert (Ht : In b (reached defs t)).
    { apply IH; auto. intros x Hx. apply Hp. rewrite sub_before in *. apply sub_skip. exact Hx. }
    assert (Hc : passes_on defs c).
    { apply Hp. rewrite sub_before. apply sub_keep.
      apply in_split in Hin as (p & q & ->). apply (sub_app [] p [m]); [constructor|].
      apply sub_keep. constructor. }
    unfold passes_on in Hc. destruct (defs c) as [b'|]; [|exact Ht].
    right. destruct (b_super b'); [congruence|exact Ht..].
Qed.

Lemma emitter_no_dangle u : forall l, In CEmitter l -> ~ dangles (reached (resets u) l) /\ reached (resets u) l <> [].
Proof.
  induction l as [|c t IH]; intros Hin; [contradiction|]. simpl.
  destruct (cls_eq_dec c CEmitter) as [->|Hne].
  - simpl. split; [discriminate|discriminate].
  - destruct Hin as [|Hin]; [contradiction|]. destruct (IH Hin) as (Hd & Hn).
    destruct (resets u c) as [b|]; [|split; assumption]. split; [|discriminate].
    destruct (b_super b) eqn:Eb; simpl; try (rewrite Eb; discriminate);
      destruct (reached (resets u) t); congruence || exact Hd.
Qed.
