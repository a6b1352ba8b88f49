(** * C96: the mixins work in any order that puts them before Emitter. *)
From Coq Require Import String.
From Verif Require Import Base Prims GroupModel MroModel MroSpec MroProofs MroInit.
Local Open Scope string_scope.
Local Open Scope list_scope.

Definition rwc_mro : list cls := [CRandomWithChildrenMixin; CRandomMixin; CChildrenMixin; CObject].

Lemma rwc_in_library : mro_of library CRandomWithChildrenMixin = Some rwc_mro.
Proof. vm_compute. reflexivity. Qed.

Lemma rwc_sub t c mro :
  program_classes t -> mro_of t c = Some mro -> In CRandomWithChildrenMixin mro -> subseq rwc_mro mro.
Proof.
  intros Ht Hc Hin. destruct (program_sound t Ht c mro Hc) as (_ & _ & _ & Hd).
  destruct (Hd _ Hin) as (l & E & Hs).
  rewrite (library_keeps t _ _ Ht rwc_in_library) in E. injection E as <-. exact Hs.
Qed.

Lemma sub_snoc_inv {A} (m : A) : forall p a q,
  ~ In m q -> subseq (a ++ [m]) (p ++ m :: q) -> subseq a p.
Proof.
  induction p as [|y p IH]; intros a q Hq H; simpl in H.
  - destruct a as [|x a]; [constructor|exfalso].
    inversion H as [|? ? ? H1|? ? ? H1]; subst; apply Hq; (eapply sub_in; [exact H1|]).
    + right. apply in_or_app. right. left. reflexivity.
    + apply in_or_app. right. left. reflexivity.
  - destruct a as [|x a]; [constructor|].
    inversion H as [|? ? ? H1|? ? ? H1]; subst.
    + apply sub_skip. eapply IH; [exact Hq|exact H1].
    + apply sub_keep. eapply IH; [exact Hq|exact H1].
Qed.

Lemma reached_app defs : forall p l,
  (forall x, In x p -> passes_on defs x) -> reached defs (p ++ l) = reached defs p ++ reached defs l.
Proof.
  induction p as [|c p IH]; intros l Hp; simpl; [reflexivity|].
  assert (IH' := IH l (fun x Hx => Hp x (or_intror Hx))).
  specialize (Hp c (or_introl eq_refl)). unfold passes_on in Hp.
  destruct (defs c) as [b|]; [|exact IH'].
  simpl. destruct (b_super b); [congruence|rewrite IH'; reflexivity..].
Qed.

(** ** reset *)

Lemma own_no_rng l : Forall is_own l -> count_occ act_eq_dec l NewRng = 0%nat.
Proof.
  induction 1 as [|a l (n & ns & gs & ->) H IH]; [reflexivity|].
  rewrite count_occ_cons_neq; [exact IH|discriminate].
Qed.

Lemma body_no_rng u c b :
  own_only u -> c <> CRandomMixin -> resets u c = Some b ->
  (count_occ act_eq_dec (b_pre b) NewRng + count_occ act_eq_dec (b_post b) NewRng = 0)%nat.
Proof.
  intros Hu Hc Hb. destruct c; simpl in Hb; try discriminate; try congruence;
    try (injection Hb as <-; reflexivity).
  destruct (Hu n) as (Ho & _ & _). rewrite Hb in Ho. simpl in Ho.
  apply own_no_rng in Ho. rewrite count_occ_app in Ho. exact Ho.
Qed.

Lemma count_script u : own_only u -> forall l,
  NoDup l ->
  (~ In CRandomMixin l -> count_occ act_eq_dec (script (reached (resets u) l)) NewRng = 0%nat) /\
  (In CRandomMixin l -> (forall x, before x CRandomMixin l -> passes_on (resets u) x) ->
   count_occ act_eq_dec (script (reached (resets u) l)) NewRng = 1%nat).
Proof.
  intros Hu. induction l as [|c t IH]; intros Hnd; simpl.
  - split; [reflexivity|intros []].
  - inversion Hnd; subst. destruct (IH H2) as (IH0 & IH1).
    destruct (cls_eq_dec c CRandomMixin) as [->|Hne].
    + split; [intros Hx; exfalso; apply Hx; auto|]. intros _ _. cbn [resets lib_reset].
      rewrite script_cons, !count_occ_app. cbn [b_super b_pre b_post].
      rewrite (IH0 H1). reflexivity.
    + assert (Hb0 : forall b, resets u c = Some b ->
                count_occ act_eq_dec (script (b :: match b_super b with NoSuper => [] | _ => reached (resets u) t end)) NewRng =
                match b_super b with NoSuper => 0%nat | _ => count_occ act_eq_dec (script (reached (resets u) t)) NewRng end).
      { intros b Eb. pose proof (body_no_rng u c b Hu Hne Eb) as Hz.
        rewrite script_cons, !count_occ_app. destruct (b_super b); simpl; lia. }
      split.
      * intros Hx. assert (Ht : ~ In CRandomMixin t) by auto.
        destruct (resets u c) as [b|]; [|auto]. rewrite (Hb0 b eq_refl).
        destruct (b_super b); auto.
      * intros [|Hin] Hp; [contradiction|].
        assert (Ht : count_occ act_eq_dec (script (reached (resets u) t)) NewRng = 1%nat).
        { apply IH1; [exact Hin|]. intros x Hx. apply Hp. rewrite sub_before in *. apply sub_skip. exact Hx. }
        assert (Hc : passes_on (resets u) c).
        { apply Hp. apply in_split in Hin as (p & q & ->). exists [], p, q. reflexivity. }
        unfold passes_on in Hc. destruct (resets u c) as [b|]; [|exact Ht].
        rewrite (Hb0 b eq_refl). destruct (b_super b); [congruence|exact Ht..].
Qed.

Lemma statements_script u mro :
  In CEmitter mro -> statements (resets u) mro = (Ok tt, script (reached (resets u) mro)).
Proof.
  intros He. destruct (emitter_no_dangle u mro He) as (Hd & Hn).
  unfold statements, invoke. destruct (call record_act (resets u) mro) as [m|] eqn:E.
  - rewrite (call_record_ok _ _ _ E Hd). reflexivity.
  - apply call_none in E. contradiction.
Qed.

(** Whatever classes a program defines, and in whatever order it lists the
    bases: if nothing that comes before RandomMixin stops [reset], one call of
    [reset] makes the rng anew, exactly once. *)
Theorem C96_reset : forall u t c mro,
  program_classes t -> mro_of t c = Some mro -> In CEmitter mro -> own_only u ->
  reset_gets_to u mro CRandomMixin ->
  exists tr, statements (resets u) mro = (Ok tt, tr) /\ count_occ act_eq_dec tr NewRng = 1%nat.
Proof.
  intros u t c mro Ht Hc He Hu (Hin & Hp).
  rewrite (statements_script u mro He). eexists. split; [reflexivity|].
  destruct (program_sound t Ht c mro Hc) as (_ & Hnd & _).
  apply (proj2 (count_script u Hu mro Hnd)); auto.
Qed.

(** With RandomWithChildrenMixin: first the children get the parent's seed, then
    the parent's rng is made anew, then the children are reset. *)
Theorem C96_reset_children : forall u t c mro,
  program_classes t -> mro_of t c = Some mro -> In CEmitter mro ->
  In CRandomWithChildrenMixin mro -> reset_gets_to u mro CChildrenMixin ->
  exists tr, statements (resets u) mro = (Ok tt, tr) /\ subseq [KidsSetSeed; NewRng; KidsReset] tr.
Proof.
  intros u t c mro Ht Hc He Hrwc (Hin & Hp).
  rewrite (statements_script u mro He). eexists. split; [reflexivity|].
  destruct (program_sound t Ht c mro Hc) as (_ & Hnd & _).
  pose proof (rwc_sub t c mro Ht Hc Hrwc) as Hs.
  apply in_split in Hin as (p & q & ->).
  assert (Hq : ~ In CChildrenMixin q /\ ~ In CChildrenMixin p /\ NoDup p).
  { pose proof (NoDup_remove_2 _ _ _ Hnd) as Hx. rewrite in_app_iff in Hx.
    repeat split; try tauto. apply NoDup_remove_1 in Hnd.
    clear - Hnd. induction p; simpl in *; constructor; inversion Hnd; subst; auto.
    intros Hin. apply H1. apply in_or_app. auto. }
  destruct Hq as (Hq & _ & Hndp).
  assert (Hs2 : subseq [CRandomWithChildrenMixin; CRandomMixin] p).
  { apply (sub_snoc_inv CChildrenMixin) with (q := q); [exact Hq|].
    eapply sub_trans; [|exact Hs]. simpl. do 3 apply sub_keep. constructor. }
  assert (Hpp : forall x, In x p -> passes_on (resets u) x).
  { intros x Hx. apply Hp. apply in_split in Hx as (p1 & p2 & ->).
    exists p1, p2, q. rewrite <- app_assoc. reflexivity. }
  rewrite reached_app by exact Hpp. simpl reached.
  assert (Hr : subseq (reached (resets u) [CRandomWithChildrenMixin; CRandomMixin]) (reached (resets u) p)).
  { apply reached_sub; auto. }
  eapply sub_trans.
  2:{ apply script_sub. apply sub_app; [exact Hr|]. apply sub_keep. constructor. }
  simpl. do 3 apply sub_keep. constructor.
Qed.

(** ** Construction *)

Lemma reached_nonempty defs m b : forall l, In m l -> defs m = Some b -> reached defs l <> [].
Proof.
  induction l as [|c t IH]; intros Hin Hm; [contradiction|]. simpl.
  destruct (defs c) eqn:Ec; [discriminate|]. destruct Hin as [->|Hin]; [congruence|auto].
Qed.

Lemma plain_no_dangle defs b : defs CRandomMixin = Some b -> forall l,
  NoDup l ->
  (forall x bx, In x l -> defs x = Some bx -> b_super bx = Plain -> before x CRandomMixin l) ->
  ~ dangles (reached defs l).
Proof.
  intros Hm. induction l as [|c t IH]; intros Hnd Hp; simpl; [auto|].
  inversion Hnd; subst.
  assert (Ht : ~ dangles (reached defs t)).
  { apply IH; [assumption|]. intros x bx Hx Ex Es. specialize (Hp x bx (or_intror Hx) Ex Es).
    rewrite sub_before in *. inversion Hp; subst; [assumption|contradiction]. }
  destruct (defs c) as [bc|] eqn:Ec; [|exact Ht].
  destruct (b_super bc) eqn:Es; simpl.
  - congruence.
  - destruct (reached defs t); [congruence|exact Ht].
  - specialize (Hp c bc (or_introl eq_refl) Ec Es). rewrite sub_before in Hp.
    assert (Hin : In CRandomMixin t).
    { inversion Hp; subst; [|eapply sub_in; [eassumption|left; reflexivity]].
      exfalso. apply H1. eapply sub_in; [eassumption|left; reflexivity]. }
    pose proof (reached_nonempty defs _ _ t Hin Hm) as Hn.
    destruct (reached defs t); [congruence|exact Ht].
  - destruct (reached defs t); [congruence|exact Ht].
Qed.

Lemma early_complete u mro o : early_in u mro o -> (In CRandomMixin mro -> In AtRng (has o)) -> complete mro o.
Proof.
  intros He Hr. repeat split.
  - apply He. left. auto.
  - auto.
  - intros H. apply He. right. left. auto.
  - intros H. apply He. right. right. left. auto.
Qed.

Section Build.
  Variables (u : users) (t : table) (c : cls) (mro : list cls).
  Hypotheses (Ht : program_classes t) (Hc : mro_of t c = Some mro) (He : In CEmitter mro)
             (Hpl : Forall plain_class mro) (Hfit : fits u mro)
             (Hp : forall x, before x CRandomMixin mro -> passes_on (resets u) x).

  Lemma lib_reset_needs k b a x :
    In k mro -> (forall n, k <> CUser n) -> resets u k = Some b -> In a (b_pre b ++ b_post b) ->
    In x (needs a) -> set_early u mro x.
  Proof.
    intros Hk Hn Hb Ha Hx.
    assert (Hplk : plain_class k) by (rewrite Forall_forall in Hpl; auto).
    destruct k; simpl in Hplk; try contradiction; simpl in Hb; try discriminate;
      try (injection Hb as <-; simpl in Ha).
    - destruct Ha as [<-|[]]. destruct Hx as [<-|[]]. left. auto.
    - destruct Ha as [<-|[]]. destruct Hx as [<-|[]]. right. right. left. auto.
    - pose proof (rwc_sub t c mro Ht Hc Hk) as Hs.
      destruct Ha as [<-|[]]. destruct Hx as [<-|[<-|[]]].
      + right. right. left. split; [reflexivity|]. eapply sub_in; [exact Hs|]. simpl. tauto.
      + left. split; [reflexivity|]. eapply sub_in; [exact Hs|]. simpl. tauto.
    - contradiction.
    - destruct (Hn n eq_refl).
  Qed.

  Lemma cls_user_dec k : (forall n, k <> CUser n) \/ exists n, k = CUser n.
  Proof. destruct k; try (left; discriminate). right. eauto. Qed.

  Lemma reset_works o : early_in u mro o ->
    exists o', invoke perform_obj (resets u) mro o = (Ok tt, o') /\
               log o' = log o ++ script (reached (resets u) mro) /\
               incl (has o) (has o') /\ (In CRandomMixin mro -> In AtRng (has o')).
  Proof.
    intros Ho. destruct (emitter_no_dangle u mro He) as (Hd & Hn).
    destruct (program_sound t Ht c mro Hc) as (_ & Hnd & _).
    unfold invoke. destruct (call perform_obj (resets u) mro) as [m|] eqn:E.
    2:{ apply call_none in E. contradiction. }
    apply (reset_ok u mro m o Hnd E Hd Hp).
    - intros k b a x Hk Hb Ha Hx. destruct (cls_user_dec k) as [Hu|(n & ->)].
      + apply Ho. eapply lib_reset_needs; eauto. apply in_or_app; auto.
      + destruct (Hfit n Hk) as (_ & Hr & _). simpl in Hb. rewrite Hb in Hr.
        destruct Hr as (Hr & _). unfold uses in Hr. rewrite Forall_forall in Hr.
        destruct (Hr a Ha x Hx) as [|[]]. auto.
    - intros k b a x Hk Hb Ha Hx. destruct (cls_user_dec k) as [Hu|(n & ->)].
      + left. apply Ho. eapply lib_reset_needs; eauto. apply in_or_app; auto.
      + destruct (Hfit n Hk) as (_ & Hr & _). simpl in Hb. rewrite Hb in Hr.
        destruct Hr as (_ & Hr). unfold uses in Hr. rewrite Forall_forall in Hr.
        destruct (Hr a Ha x Hx) as [|]; auto.
  Qed.

  Lemma seed_works o : early_in u mro o -> In CRandomMixin mro -> In AtRng (has o) -> seed_finds_next u mro ->
    exists o', invoke perform_obj (seeds u) mro o = (Ok tt, o') /\
               log o' = log o ++ script (reached (seeds u) mro) /\ incl (has o) (has o').
  Proof.
    intros Ho Hin Hr Hs. destruct (program_sound t Ht c mro Hc) as (_ & Hnd & _).
    assert (Hd : ~ dangles (reached (seeds u) mro)).
    { apply (plain_no_dangle (seeds u) (mkBody [SeedOwn] IfAny [])); auto.
      intros x bx Hx Ex Es. destruct (cls_user_dec x) as [Hu|(n & ->)]; [|eapply Hs; eauto].
      assert (Hplx : plain_class x) by (rewrite Forall_forall in Hpl; auto).
      destruct x; simpl in Hplx; try contradiction; simpl in Ex; try discriminate;
        try (injection Ex as <-; discriminate). destruct (Hu n eq_refl). }
    unfold invoke. destruct (call perform_obj (seeds u) mro) as [m|] eqn:E.
    2:{ apply call_none in E. exfalso.
        exact (reached_nonempty (seeds u) CRandomMixin (mkBody [SeedOwn] IfAny []) mro Hin eq_refl E). }
    apply (call_ok (seeds u) mro m o E Hd).
    intros k b a x Hk Hb Ha Hx. destruct (cls_user_dec k) as [Hu|(n & ->)].
    - assert (Hplk : plain_class k) by (rewrite Forall_forall in Hpl; auto).
      destruct k; simpl in Hplk; try contradiction; simpl in Hb; try discriminate;
        try (injection Hb as <-; simpl in Ha).
      + destruct Ha as [<-|[]]. destruct Hx as [<-|[]]. exact Hr.
      + destruct Ha as [<-|[]]. destruct Hx as [<-|[]]. apply Ho. right. right. left. split; [reflexivity|].
        eapply sub_in; [exact (rwc_sub t c mro Ht Hc Hk)|]. simpl. tauto.
      + destruct (Hu n eq_refl).
    - destruct (Hfit n Hk) as (_ & _ & Hsd). simpl in Hb. rewrite Hb in Hsd.
      destruct Hsd as (H1 & H2). unfold uses in H1, H2. rewrite Forall_forall in H1, H2.
      apply in_app_or in Ha as [Ha|Ha];
        [destruct (H1 a Ha x Hx) as [|(-> & _)]|destruct (H2 a Ha x Hx) as [|(-> & _)]]; auto.
  Qed.

  Lemma init_pre n b s : In (CUser n) mro -> u_init u n = Some b -> In s (i_pre b) -> needs s = [].
  Proof.
    intros Hn Hb Hs. destruct (Hfit n Hn) as (Hi & _). rewrite Hb in Hi. destruct Hi as (Hi & _).
    rewrite Forall_forall in Hi. auto.
  Qed.
  Lemma init_post n b s a :
    In (CUser n) mro -> u_init u n = Some b -> In s (i_post b) -> In a (needs s) -> set_early u mro a.
  Proof.
    intros Hn Hb Hs Ha. destruct (Hfit n Hn) as (Hi & _). rewrite Hb in Hi. destruct Hi as (_ & Hi).
    unfold uses in Hi. rewrite Forall_forall in Hi. destruct (Hi s Hs a Ha) as [|[]]. auto.
  Qed.

  Lemma split_object : exists l, mro = l ++ [CObject] /\ Forall plain_class l /\ ~ In CObject l.
  Proof.
    destruct (object_last t c mro (program_sound t Ht) Hc) as (l & El). exists l. split; [exact El|].
    destruct (program_sound t Ht c mro Hc) as (_ & Hnd & _). rewrite El in Hnd, Hpl. split.
    - apply Forall_app in Hpl as (H & _). exact H.
    - apply NoDup_remove_2 in Hnd. rewrite app_nil_r in Hnd. exact Hnd.
  Qed.

  Lemma construct_works kw :
    (forall k, In k kw -> exists d, In d mro /\ In k (takes u d)) ->
    exists o, construct u mro kw new_obj = (Ok tt, o) /\ early_in u mro o /\
              (In CRandomMixin mro -> In AtRng (has o)).
  Proof.
    intros Hkw. destruct split_object as (l & El & Hpll & Hno).
    destruct (init_ok u mro (invoke perform_obj (resets u) mro)) with (l := l) (p := @nil cls) (o := new_obj) (kw := kw)
      as (o & E & Ho & _ & Hr); auto.
    - intros o Ho. destruct (reset_works o Ho) as (o' & ? & _ & ? & ?). eauto.
    - exact init_pre.
    - exact init_post.
    - intros a [(_ & [])|[(_ & [])|[(_ & [])|(n & b & s & [] & _)]]].
    - intros k Hk. destruct (Hkw k Hk) as (d & Hd & Hkd). exists d. split; [|exact Hkd].
      rewrite El in Hd. apply in_app_or in Hd as [|[<-|[]]]; [assumption|destruct Hkd].
    - exists o. unfold construct. rewrite <- El in E. split; [exact E|]. split; [exact Ho|].
      intros Hin. apply Hr. rewrite El in Hin. apply in_app_or in Hin as [|[|[]]]; [assumption|discriminate].
  Qed.

  Lemma construct_rejects kw k :
    In k kw -> (forall d, In d mro -> ~ In k (takes u d)) ->
    exists o, construct u mro kw new_obj = (Raise TypeError, o).
  Proof.
    intros Hk Hno'. destruct split_object as (l & El & Hpll & Hno).
    destruct (init_bad u mro (invoke perform_obj (resets u) mro)) with (l := l) (p := @nil cls) (o := new_obj) (kw := kw) (k := k)
      as (o & E); auto.
    - exact init_pre.
    - intros d Hd. apply Hno'. rewrite El. apply in_or_app. auto.
    - exists o. unfold construct. rewrite <- El in E. exact E.
  Qed.
End Build.

(** The mixins, Emitter and any classes of the user, in any order in which
    nothing stops [reset] before RandomMixin: the class can be constructed with
    every set of keywords that its classes take, the instance has all the
    attributes the mixins promise, and [reset] and [seed] then work on it, for
    as often as they are called. *)
Theorem C96_construct : forall u t c mro kw,
  program_classes t -> mro_of t c = Some mro -> Forall plain_class mro -> In CEmitter mro ->
  fits u mro -> seed_finds_next u mro ->
  (forall x, before x CRandomMixin mro -> passes_on (resets u) x) ->
  (forall k, In k kw -> exists d, In d mro /\ In k (takes u d)) ->
  exists o, construct u mro kw new_obj = (Ok tt, o) /\ complete mro o /\
    forall calls : list bool, (In CRandomMixin mro \/ ~ In true calls) ->
      exists o', make_calls u mro calls o = (Ok tt, o') /\ complete mro o'.
Proof.
  intros u t c mro kw Ht Hc Hpl He Hfit Hsn Hp Hkw.
  destruct (construct_works u t c mro Ht Hc He Hpl Hfit Hp kw Hkw) as (o & E & Ho & Hr).
  exists o. split; [exact E|]. split; [exact (early_complete u mro o Ho Hr)|].
  clear E. intros calls. revert o Ho Hr.
  induction calls as [|k calls IH]; intros o Ho Hr Hok.
  - exists o. split; [reflexivity|exact (early_complete u mro o Ho Hr)].
  - simpl. unfold mbind.
    assert (Hok' : In CRandomMixin mro \/ ~ In true calls) by (destruct Hok; [auto|right; intros H1; apply H; right; exact H1]).
    assert (Hstep : exists o1, invoke perform_obj (if k then seeds u else resets u) mro o = (Ok tt, o1) /\ incl (has o) (has o1)).
    { destruct k.
      - destruct Hok as [Hin|Hno]; [|exfalso; apply Hno; left; reflexivity].
        destruct (seed_works u t c mro Ht Hc Hpl Hfit o Ho Hin (Hr Hin) Hsn) as (o1 & ? & _ & ?). eauto.
      - destruct (reset_works u t c mro Ht Hc He Hpl Hfit Hp o Ho) as (o1 & ? & _ & ? & _). eauto. }
    destruct Hstep as (o1 & -> & Hi).
    apply IH; auto. intros a Ha. apply Hi, Ho, Ha.
Qed.

(** A keyword that none of the classes takes is refused. *)
Theorem C96_keywords : forall u t c mro kw k,
  program_classes t -> mro_of t c = Some mro -> Forall plain_class mro ->
  fits u mro -> In k kw -> (forall d, In d mro -> ~ In k (takes u d)) ->
  exists o, construct u mro kw new_obj = (Raise TypeError, o).
Proof. intros u t c mro kw k Ht Hc Hpl Hfit Hk Hno. eapply construct_rejects; eauto. Qed.

(** ** The other orders *)

Lemma perform_keeps y a o r o' :
  ~ In y (gives a) -> perform_obj a o = (r, o') -> ~ In y (has o) -> ~ In y (has o').
Proof.
  unfold perform_obj. intros Hg H Ho. destruct (forallb (has_attr o) (needs a)).
  - injection H as _ <-. simpl. rewrite in_app_iff. tauto.
  - injection H as _ <-. destruct a; try exact Ho. simpl. intros [<-|]; [|contradiction].
    apply Hg. left. reflexivity.
Qed.

Lemma performs_keep y : forall l o r o',
  (forall a, In a l -> ~ In y (gives a)) -> performs perform_obj l o = (r, o') ->
  ~ In y (has o) -> ~ In y (has o').
Proof.
  induction l as [|a l IH]; simpl; intros o r o' Hl H Ho.
  - injection H as _ <-. exact Ho.
  - unfold mbind in H. destruct (perform_obj a o) as [[[]|e|] o1] eqn:E.
    + eapply IH; [|exact H|]; [auto|]. eapply perform_keeps; eauto.
    + injection H as _ <-. eapply perform_keeps; eauto.
    + injection H as _ <-. eapply perform_keeps; eauto.
Qed.

Lemma call_keeps y defs : forall l m o r o',
  call perform_obj defs l = Some m ->
  (forall b a, In b (reached defs l) -> In a (b_pre b ++ b_post b) -> ~ In y (gives a)) ->
  m o = (r, o') -> ~ In y (has o) -> ~ In y (has o').
Proof.
  induction l as [|c t IH]; simpl; intros m o r o' H Hb Hm Ho; [discriminate|].
  destruct (defs c) as [b|]; [|eapply IH; eauto].
  injection H as <-. unfold mbind in Hm.
  assert (Hpre : forall a, In a (b_pre b) -> ~ In y (gives a)).
  { intros a Ha. apply (Hb b); [left; reflexivity|apply in_or_app; auto]. }
  assert (Hpost : forall a, In a (b_post b) -> ~ In y (gives a)).
  { intros a Ha. apply (Hb b); [left; reflexivity|apply in_or_app; auto]. }
  destruct (performs perform_obj (b_pre b) o) as [[[]|e|] o1] eqn:E1;
    [|injection Hm as _ <-; eapply performs_keep; [exact Hpre|exact E1|exact Ho]..].
  assert (Ho1 : ~ In y (has o1)) by (eapply performs_keep; [exact Hpre|exact E1|exact Ho]).
  set (next := match b_super b, call perform_obj defs t with
               | NoSuper, _ => ret tt | IfAny, None => ret tt
               | Plain, None => raise AttributeError | Guarded, None => ret tt
               | (IfAny | Plain), Some m => m | Guarded, Some m => catch_attribute_error m end) in *.
  assert (Hnext : forall r2 o2, next o1 = (r2, o2) -> ~ In y (has o2)).
  { intros r2 o2 En. unfold next in En.
    assert (Hsome : forall m r2 o2, call perform_obj defs t = Some m -> b_super b <> NoSuper ->
              m o1 = (r2, o2) -> ~ In y (has o2)).
    { intros m r3 o3 Em Hs E3. eapply IH; eauto. intros b' a Hb' Ha. apply (Hb b'); auto.
      right. destruct (b_super b); [congruence|exact Hb'..]. }
    destruct (b_super b) eqn:Es; destruct (call perform_obj defs t) as [m|] eqn:Ec;
      try (injection En as _ <-; exact Ho1).
    - eapply Hsome; eauto; discriminate.
    - eapply Hsome; eauto; discriminate.
    - unfold catch_attribute_error in En. destruct (m o1) as [r3 o3] eqn:E3.
      assert (H3 : ~ In y (has o3)) by (eapply Hsome; eauto; discriminate).
      destruct r3 as [|[]|]; injection En as _ <-; exact H3. }
  destruct (next o1) as [[[]|e|] o2] eqn:E2.
  - eapply performs_keep; [exact Hpost|exact Hm|]. eapply Hnext; reflexivity.
  - injection Hm as _ <-. eapply Hnext; reflexivity.
  - injection Hm as _ <-. eapply Hnext; reflexivity.
Qed.

(** The bodies reached when something before [m] stops the call. *)
Lemma reached_stopped defs m x bx : forall l,
  NoDup l -> before x m l -> defs x = Some bx -> b_super bx = NoSuper ->
  forall b, In b (reached defs l) -> exists c, In c l /\ c <> m /\ defs c = Some b.
Proof.
  induction l as [|c t IH]; intros Hnd Hb Hx Hs b Hin; [contradiction|].
  pose proof (before_neq x m _ Hnd Hb) as Hxm. rewrite sub_before in Hb.
  inversion Hnd as [|? ? Hct Hndt]; subst. simpl in Hin.
  inversion Hb as [|? ? ? Hb'|? ? ? Hb']; subst.
  - assert (Hcm : c <> m).
    { intros ->. apply Hct. eapply sub_in; [exact Hb'|]. right; left; reflexivity. }
    assert (IH' : forall b, In b (reached defs t) -> exists c, In c (c :: t) /\ c <> m /\ defs c = Some b).
    { intros b' Hb0. destruct (IH Hndt) with (b := b') as (d & ? & ? & ?); auto.
      - apply sub_before. exact Hb'.
      - exists d. simpl. auto. }
    destruct (defs c) as [bc|] eqn:Ec.
    + destruct Hin as [<-|Hin]; [exists c; simpl; auto|].
      destruct (b_super bc); [contradiction|..];
        destruct (IH Hndt) with (b := b) as (d & ? & ? & ?); auto;
        try (apply sub_before; exact Hb'); exists d; simpl; auto.
    + destruct (IH Hndt) with (b := b) as (d & ? & ? & ?); auto.
      * apply sub_before; exact Hb'.
      * exists d; simpl; auto.
  - rewrite Hx in Hin. rewrite Hs in Hin. destruct Hin as [<-|[]]. exists c. simpl. auto.
Qed.

(** No statement of the user's sets [self.rng]. *)
Definition leaves_rng (u : users) : Prop :=
  (forall n b a, u_reset u n = Some b -> In a (b_pre b ++ b_post b) -> ~ In AtRng (gives a)) /\
  (forall n b a, u_init u n = Some b -> In a (i_pre b ++ i_post b) -> ~ In AtRng (gives a)).

Lemma body_leaves u c b a :
  own_only u -> leaves_rng u -> c <> CRandomMixin -> resets u c = Some b ->
  In a (b_pre b ++ b_post b) -> ~ In AtRng (gives a).
Proof.
  intros Hu (Hl & _) Hc Hb Ha.
  destruct c; simpl in Hb; try discriminate; try congruence;
    try (injection Hb as <-; simpl in Ha;
         repeat (destruct Ha as [<-|Ha]; [simpl; intuition discriminate|]); contradiction).
  eapply Hl; eauto.
Qed.

Lemma init_keeps y u self_reset (ok : nat -> Prop) :
  ~ In y [AtSeed; AtItems; AtKids] ->
  (forall n b a, ok n -> u_init u n = Some b -> In a (i_pre b ++ i_post b) -> ~ In y (gives a)) ->
  (forall o r o', self_reset o = (r, o') -> ~ In y (has o) -> ~ In y (has o')) ->
  forall l, (forall n, In (CUser n) l -> ok n) -> forall kw o r o', init u self_reset l kw o = (r, o') -> ~ In y (has o) -> ~ In y (has o').
Proof.
  intros Hy Hl Hs. simpl in Hy. induction l as [|c t IH0]; intros Hok kw o r o' H Ho.
  - simpl in H. destruct kw; injection H as _ <-; exact Ho.
  - pose proof (IH0 (fun n Hn => Hok n (or_intror Hn))) as IH.
    assert (Hset : forall sa kw', ~ In y (gives sa) ->
              (perform_obj sa ;;; init u self_reset t kw') o = (r, o') -> ~ In y (has o')).
    { intros sa kw' Hg E. unfold mbind in E. destruct (perform_obj sa o) as [[[]|e|] o1] eqn:E1.
      - eapply IH; [exact E|]. eapply perform_keeps; eauto.
      - injection E as _ <-. eapply perform_keeps; eauto.
      - injection E as _ <-. eapply perform_keeps; eauto. }
    destruct c; cbn [init] in H;
      try (eapply IH; eauto; fail);
      try (injection H as _ <-; exact Ho).
    + destruct kw; injection H as _ <-; exact Ho.
    + unfold mbind in H. destruct (perform_obj SetSeed o) as [[[]|e|] o1] eqn:E1;
        [|injection H as _ <-; eapply perform_keeps; eauto; simpl; intuition..].
      assert (Ho1 : ~ In y (has o1)) by (eapply perform_keeps; eauto; simpl; intuition).
      destruct (init u self_reset t (without "rng_seed" kw) o1) as [[[]|e|] o2] eqn:E2.
      * eapply Hs; [exact H|]. eapply IH; eauto.
      * injection H as _ <-. eapply IH; eauto.
      * injection H as _ <-. eapply IH; eauto.
    + eapply Hset; [|exact H]. simpl. intuition.
    + eapply Hset; [|exact H]. simpl. intuition.
    + destruct (u_init u n) as [b|] eqn:Eb; [|eapply IH; eauto].
      assert (Hb : forall a, In a (i_pre b ++ i_post b) -> ~ In y (gives a)) by (intros; eapply Hl; [apply Hok; left; reflexivity|eassumption|eassumption]).
      unfold mbind in H. destruct (performs perform_obj (i_pre b) o) as [[[]|e|] o1] eqn:E1;
        [|injection H as _ <-; eapply performs_keep; [|exact E1|exact Ho]; intros; apply Hb, in_or_app; auto..].
      assert (Ho1 : ~ In y (has o1)) by (eapply performs_keep; [|exact E1|exact Ho]; intros; apply Hb, in_or_app; auto).
      destruct (init u self_reset t (fold_right without kw (i_pops b)) o1) as [[[]|e|] o2] eqn:E2.
      * eapply performs_keep; [|exact H|eapply IH; eauto]. intros; apply Hb, in_or_app; auto.
      * injection H as _ <-. eapply IH; eauto.
      * injection H as _ <-. eapply IH; eauto.
Qed.

(** Exactly these orders: an instance of a class with RandomMixin has an rng
    after its construction if and only if no class that comes before RandomMixin
    stops [reset]. *)
Theorem C96_exact : forall u t c mro kw,
  program_classes t -> mro_of t c = Some mro -> Forall plain_class mro -> In CEmitter mro ->
  In CRandomMixin mro -> fits u mro -> own_only u -> leaves_rng u ->
  (forall k, In k kw -> exists d, In d mro /\ In k (takes u d)) ->
  (exists o, construct u mro kw new_obj = (Ok tt, o) /\ In AtRng (has o)) <->
  (forall x, before x CRandomMixin mro -> passes_on (resets u) x).
Proof.
  intros u t c mro kw Ht Hc Hpl He Hin Hfit Hu Hl Hkw. split.
  - intros (o & E & Hr) x Hb. unfold passes_on. destruct (resets u x) as [bx|] eqn:Ex; [|exact I].
    intros Hs. destruct (program_sound t Ht c mro Hc) as (_ & Hnd & _).
    revert Hr. unfold construct in E.
    eapply (init_keeps AtRng u _ (fun _ => True)); [simpl; intuition discriminate| | |auto|exact E|intros []].
    { intros n b a _ Eb Ha. eapply (proj2 Hl); eauto. }
    intros o0 r o' Hi Ho. unfold invoke in Hi.
    destruct (call perform_obj (resets u) mro) as [m|] eqn:Em; [|injection Hi as _ <-; exact Ho].
    eapply call_keeps; [exact Em| |exact Hi|exact Ho].
    intros b a Hbin Ha.
    destruct (reached_stopped (resets u) CRandomMixin x bx mro Hnd Hb Ex Hs b Hbin) as (d & Hd & Hne & Ed).
    eapply body_leaves; eauto.
  - intros Hp. destruct (construct_works u t c mro Ht Hc He Hpl Hfit Hp kw Hkw) as (o & E & _ & Hr). eauto.
Qed.

(** ** Attributes of the user's class *)

(** The constructor calls [reset] before the statements that follow
    [super().__init__()]: a class whose [reset] begins by reading an attribute
    that only those statements set cannot be constructed. *)
Theorem C96_own_late : forall u t n mro b s more k,
  program_classes t -> mro_of t (CUser n) = Some mro -> In CRandomMixin mro ->
  u_reset u n = Some b -> b_pre b = s :: more -> In (AtOwn k) (needs s) ->
  (forall m ib a, u_init u m = Some ib -> In a (i_pre ib) -> ~ In (AtOwn k) (gives a)) ->
  (forall m ib a, m <> n -> u_init u m = Some ib -> In a (i_post ib) -> ~ In (AtOwn k) (gives a)) ->
  forall kw, fst (construct u mro kw new_obj) <> Ok tt.
Proof.
  intros u t n mro b s more k Ht Hc Hin Hb Epre Hk Hpre Hpost kw.
  destruct (program_sound t Ht _ mro Hc) as (Hh & Hnd & _).
  destruct mro as [|h rest]; [discriminate|]. injection Hh as ->.
  destruct (object_last t _ _ (program_sound t Ht) Hc) as (l & El).
  destruct l as [|h l]; [simpl in El; injection El; discriminate|].
  simpl in El. injection El as <- ->.
  inversion Hnd as [|? ? Hhd Hndl]; subst.
  assert (Hno : ~ In CObject l).
  { apply NoDup_remove_2 in Hndl. rewrite app_nil_r in Hndl. exact Hndl. }
  assert (HinR : In CRandomMixin l).
  { destruct Hin as [|Hin]; [discriminate|]. apply in_app_or in Hin as [|[|[]]]; [assumption|discriminate]. }
  unfold construct. set (self := invoke perform_obj (resets u) (CUser n :: l ++ [CObject])).
  assert (Hself : forall o, ~ In (AtOwn k) (has o) -> exists o', self o = (Raise AttributeError, o')).
  { intros o Ho. unfold self, invoke. simpl. rewrite Hb. unfold mbind at 1. rewrite Epre. simpl.
    unfold mbind at 1. unfold perform_obj at 1.
    replace (forallb (has_attr o) (needs s)) with false; [eexists; reflexivity|].
    symmetry. apply not_true_iff_false. rewrite forallb_forall. intros Hall.
    apply Ho. apply has_attr_spec. auto. }
  assert (Hkeep : forall o r o', self o = (r, o') -> ~ In (AtOwn k) (has o) -> r <> Ok tt).
  { intros o r o' E Ho. destruct (Hself o Ho) as (o2 & E2). rewrite E in E2. injection E2 as -> _. discriminate. }
  assert (Hy : ~ In (AtOwn k) [AtSeed; AtItems; AtKids]) by (simpl; intuition discriminate).
  (* until the call of reset, nobody has set the attribute *)
  assert (Hl : forall l, ~ In CObject l -> ~ In (CUser n) l -> In CRandomMixin l -> NoDup l ->
             forall kw o, ~ In (AtOwn k) (has o) -> fst (init u self (l ++ [CObject]) kw o) <> Ok tt).
  { clearbody self. clear - Hpre Hpost Hkeep Hy. induction l as [|c t IH]; intros Hno Hn HR Hnd kw o Ho; [contradiction|].
    assert (Ho1 : forall a r o1, ~ In (AtOwn k) (gives a) -> perform_obj a o = (r, o1) -> ~ In (AtOwn k) (has o1))
      by (intros; eapply perform_keeps; eauto).
    inversion Hnd; subst.
    assert (IHt : c <> CRandomMixin -> forall kw o, ~ In (AtOwn k) (has o) -> fst (init u self (t ++ [CObject]) kw o) <> Ok tt).
    { intros Hne. apply IH; auto; simpl in *; intuition. }
    destruct c; cbn [app init]; try (apply IHt; [discriminate|exact Ho]); try discriminate.
    - exfalso. apply Hno. left. reflexivity.
    - unfold mbind. destruct (perform_obj SetSeed o) as [[[]|e|] o1] eqn:E1; try discriminate.
      assert (H1' : ~ In (AtOwn k) (has o1)) by (eapply Ho1; [|exact E1]; simpl; intuition discriminate).
      (* the rest of the chain may call no reset of its own: there is one RandomMixin *)
      assert (Hrest : forall r o2, init u self (t ++ [CObject]) (without "rng_seed" kw) o1 = (r, o2) -> r = Ok tt -> ~ In (AtOwn k) (has o2)).
      { assert (Hgen : forall l, ~ In CRandomMixin l -> ~ In (CUser n) l -> forall kw o r o2,
                  init u self l kw o = (r, o2) -> ~ In (AtOwn k) (has o) -> ~ In (AtOwn k) (has o2)).
        { clear - Hpre Hpost Hy. induction l as [|c l IH]; intros HR Hn kw o r o2 H Ho.
          - simpl in H. destruct kw; injection H as _ <-; exact Ho.
          - assert (IH' := IH (fun Hx => HR (or_intror Hx)) (fun Hx => Hn (or_intror Hx))).
            assert (Hset : forall sa kw', ~ In (AtOwn k) (gives sa) ->
              (perform_obj sa ;;; init u self l kw') o = (r, o2) -> ~ In (AtOwn k) (has o2)).
            { intros sa kw' Hg E. unfold mbind in E. destruct (perform_obj sa o) as [[[]|e|] o1] eqn:E1.
              - eapply IH'; [exact E|]. eapply perform_keeps; eauto.
              - injection E as _ <-. eapply perform_keeps; eauto.
              - injection E as _ <-. eapply perform_keeps; eauto. }
            destruct c; cbn [init] in H; try (eapply IH'; eauto; fail); try (injection H as _ <-; exact Ho).
            + destruct kw; injection H as _ <-; exact Ho.
            + exfalso. apply HR. left. reflexivity.
            + eapply Hset; [|exact H]. simpl. intuition discriminate.
            + eapply Hset; [|exact H]. simpl. intuition discriminate.
            + destruct (u_init u n0) as [ib|] eqn:Eb; [|eapply IH'; eauto].
              assert (Hne : n0 <> n) by (intros ->; apply Hn; left; reflexivity).
              assert (Ha : forall a, In a (i_pre ib) -> ~ In (AtOwn k) (gives a)) by (intros; eapply Hpre; eauto).
              assert (Hz : forall a, In a (i_post ib) -> ~ In (AtOwn k) (gives a)) by (intros; eapply Hpost; eauto).
              unfold mbind in H. destruct (performs perform_obj (i_pre ib) o) as [[[]|e|] o1] eqn:E1;
                [|injection H as _ <-; eapply performs_keep; [exact Ha|exact E1|exact Ho]..].
              assert (H1 : ~ In (AtOwn k) (has o1)) by (eapply performs_keep; [exact Ha|exact E1|exact Ho]).
              destruct (init u self l (fold_right without kw (i_pops ib)) o1) as [[[]|e|] o3] eqn:E3;
                [|injection H as _ <-; eapply IH'; eauto..].
              eapply performs_keep; [exact Hz|exact H|]. eapply IH'; eauto. }
        intros r o2 E _. eapply Hgen; [| |exact E|exact H1'].
        - rewrite in_app_iff. simpl. intuition discriminate.
        - rewrite in_app_iff. simpl in *. intuition discriminate. }
      destruct (init u self (t ++ [CObject]) (without "rng_seed" kw) o1) as [[[]|e|] o2] eqn:E2; try discriminate.
      destruct (self o2) as [r o3] eqn:E3. simpl. eapply Hkeep; [exact E3|]. eapply Hrest; reflexivity.
    - unfold mbind. destruct (perform_obj SetItems o) as [[[]|e|] o1] eqn:E1; try discriminate.
      apply IHt; [discriminate|]. eapply Ho1; [|exact E1]. simpl. intuition discriminate.
    - unfold mbind. destruct (perform_obj SetKids o) as [[[]|e|] o1] eqn:E1; try discriminate.
      apply IHt; [discriminate|]. eapply Ho1; [|exact E1]. simpl. intuition discriminate.
    - destruct (u_init u n0) as [ib|] eqn:Eb; [|apply IHt; [discriminate|exact Ho]].
      unfold mbind. destruct (performs perform_obj (i_pre ib) o) as [[[]|e|] o1] eqn:E1; try discriminate.
      assert (H1' : ~ In (AtOwn k) (has o1)).
      { eapply performs_keep; [|exact E1|exact Ho]. intros; eapply Hpre; eauto. }
      assert (IHo : fst (init u self (t ++ [CObject]) (fold_right without kw (i_pops ib)) o1) <> Ok tt) by (apply IHt; [discriminate|exact H1']).
      destruct (init u self (t ++ [CObject]) (fold_right without kw (i_pops ib)) o1) as [[[]|e|] o2]; try discriminate.
      exfalso. apply IHo. reflexivity. }
  assert (Hnl : ~ In (CUser n) l) by (intros Hx; apply Hhd, in_or_app; auto).
  assert (Hndl' : NoDup l).
  { clear - Hndl. induction l; simpl in *; constructor; inversion Hndl; subst; auto.
    intros Hx. apply H1, in_or_app; auto. }
  clearbody self. cbn [init]. destruct (u_init u n) as [ib|] eqn:Eb.
  - unfold mbind. destruct (performs perform_obj (i_pre ib) new_obj) as [[[]|e|] o1] eqn:E1; try discriminate.
    assert (H1' : ~ In (AtOwn k) (has o1)).
    { eapply performs_keep; [|exact E1|intros []]. intros; eapply Hpre; eauto. }
    pose proof (Hl l Hno Hnl HinR Hndl' (fold_right without kw (i_pops ib)) o1 H1') as Hx.
    destruct (init u self (l ++ [CObject]) (fold_right without kw (i_pops ib)) o1) as [[[]|e|] o2]; try discriminate.
    exfalso. apply Hx. reflexivity.
  - apply Hl; auto.
Qed.

(** ** Cases *)

(** A user's mixin [0] with a [reset] of its own that calls [super().reset()],
    and a [__init__] that takes the keyword 'color'; and three emitter classes
    that list the bases in different orders. *)
Definition demo_users : users :=
  mkUsers (fun n => match n with
                    | 0%nat => Some (mkBody [Own 1 [AtOwn 7] []] Plain [Own 2 [AtRng] []])
                    | _ => None end)
          (fun _ => None)
          (fun n => match n with
                    | 0%nat => Some (mkInit [Own 3 [] [AtOwn 7]] ["color"] [Own 4 [AtSeed] []])
                    | _ => None end).
Definition demo_stmts : list (cls * list cls) :=
  [ (CUser 0, []);
    (CUser 1, [CUser 0; CItemsMixin; CRandomWithChildrenMixin; CEmitter]);
    (CUser 2, [CUser 0; CItemsMixin; CRandomMixin; CChildrenMixin; CEmitter]);
    (CUser 3, [CUser 1; CUser 2]);
    (CUser 4, [CEmitter; CRandomMixin]);
    (CUser 5, [CEmitter; CRandomWithChildrenMixin]) ].
Definition demo_table : table :=
  match class_stmts demo_stmts library with Ok t => t | _ => [] end.
Lemma demo_program : program_classes demo_table.
Proof.
  exists demo_stmts. split; [|vm_compute; reflexivity].
  unfold demo_stmts. repeat (apply Forall_cons; [eexists; reflexivity|]). apply Forall_nil.
Qed.
Definition mro3 : list cls :=
  [CUser 3; CUser 1; CUser 2; CUser 0; CItemsMixin; CRandomWithChildrenMixin; CRandomMixin;
   CChildrenMixin; CEmitter; CGeneric; CAbc; CObject].


Lemma before_prefix {A} (x m : A) p q : NoDup (p ++ m :: q) -> before x m (p ++ m :: q) -> In x p.
Proof.
  intros Hnd Hb. assert (Hq : ~ In m q) by (apply NoDup_remove_2 in Hnd; rewrite in_app_iff in Hnd; tauto).
  rewrite sub_before in Hb. change [x; m] with ([x] ++ [m]) in Hb.
  apply sub_snoc_inv in Hb; [|exact Hq]. eapply sub_in; [exact Hb|left; reflexivity].
Qed.

Lemma demo_mro3 : mro_of demo_table (CUser 3) = Some mro3.
Proof. vm_compute. reflexivity. Qed.

Lemma demo_passes : forall x, before x CRandomMixin mro3 -> passes_on (resets demo_users) x.
Proof.
  destruct (program_sound _ demo_program _ _ demo_mro3) as (_ & Hnd & _).
  intros x Hx.
  apply (before_prefix x CRandomMixin
           [CUser 3; CUser 1; CUser 2; CUser 0; CItemsMixin; CRandomWithChildrenMixin] _ Hnd) in Hx.
  simpl in Hx. repeat (destruct Hx as [<-|Hx]; [simpl; discriminate || exact I|]). contradiction.
Qed.

Lemma demo_passes_children : reset_gets_to demo_users mro3 CChildrenMixin.
Proof.
  destruct (program_sound _ demo_program _ _ demo_mro3) as (_ & Hnd & _).
  split; [simpl; tauto|]. intros x Hx.
  apply (before_prefix x CChildrenMixin
           [CUser 3; CUser 1; CUser 2; CUser 0; CItemsMixin; CRandomWithChildrenMixin; CRandomMixin] _ Hnd) in Hx.
  simpl in Hx. repeat (destruct Hx as [<-|Hx]; [simpl; discriminate || exact I|]). contradiction.
Qed.

Lemma demo_fits : fits demo_users mro3.
Proof.
  intros n Hn. unfold user_fits. destruct n as [|n]; [|repeat split].
  simpl. repeat split.
  - repeat constructor.
  - constructor; [|constructor]. intros a [<-|[]]. left. left. split; [reflexivity|simpl; tauto].
  - constructor; [|constructor]. intros a [<-|[]]. left. right. right. right.
    exists 0%nat, (mkInit [Own 3 [] [AtOwn 7]] ["color"] [Own 4 [AtSeed] []]), (Own 3 [] [AtOwn 7]).
    repeat split; [simpl; tauto|left; reflexivity|left; reflexivity].
  - constructor; [|constructor]. intros a [<-|[]]. right. split; [reflexivity|].
    exists [CUser 3; CUser 1; CUser 2], [CItemsMixin; CRandomWithChildrenMixin],
           [CChildrenMixin; CEmitter; CGeneric; CAbc; CObject]. reflexivity.
Qed.

Lemma demo_own : own_only demo_users /\ leaves_rng demo_users.
Proof.
  repeat split.
  - destruct n; simpl; [|exact I]. repeat constructor; repeat eexists.
  - destruct n; simpl; [|exact I]. repeat constructor; repeat eexists.
  - intros n b a E Ha. destruct n; [|discriminate]. injection E as <-. simpl in Ha.
    repeat (destruct Ha as [<-|Ha]; [simpl; tauto|]). contradiction.
  - intros n b a E Ha. destruct n; [|discriminate]. injection E as <-. simpl in Ha.
    repeat (destruct Ha as [<-|Ha]; [simpl; intuition discriminate|]). contradiction.
Qed.

(** The hypotheses of the theorems hold of class 3, which inherits from two
    emitter classes with all the mixins and the user's. *)
Example C96_case :
  (exists tr, statements (resets demo_users) mro3 = (Ok tt, tr) /\ count_occ act_eq_dec tr NewRng = 1%nat) /\
  (exists tr, statements (resets demo_users) mro3 = (Ok tt, tr) /\ subseq [KidsSetSeed; NewRng; KidsReset] tr) /\
  (exists o, construct demo_users mro3 ["rng_seed"; "color"; "items"; "children"] new_obj = (Ok tt, o) /\ complete mro3 o) /\
  (exists o, construct demo_users mro3 ["rng_seed"; "colour"] new_obj = (Raise TypeError, o)).
Proof.
  destruct demo_own as (Hown & Hleaves).
  assert (He : In CEmitter mro3) by (simpl; tauto).
  assert (Hpl : Forall plain_class mro3) by (repeat constructor).
  repeat split.
  - eapply C96_reset; [exact demo_program|exact demo_mro3|exact He|exact Hown|].
    split; [simpl; tauto|exact demo_passes].
  - eapply C96_reset_children; [exact demo_program|exact demo_mro3|exact He|simpl; tauto|exact demo_passes_children].
  - destruct (C96_construct demo_users demo_table (CUser 3) mro3 ["rng_seed"; "color"; "items"; "children"])
      as (o & E & Hcm & _); [exact demo_program|exact demo_mro3|exact Hpl|exact He|exact demo_fits| |exact demo_passes| |].
    + intros n b _ Hb. discriminate.
    + intros k [<-|[<-|[<-|[<-|[]]]]].
      * exists CRandomMixin. simpl. tauto.
      * exists (CUser 0). simpl. tauto.
      * exists CItemsMixin. simpl. tauto.
      * exists CChildrenMixin. simpl. tauto.
    + eauto.
  - apply (C96_keywords demo_users demo_table (CUser 3) mro3 _ "colour");
      [exact demo_program|exact demo_mro3|exact Hpl|exact demo_fits|simpl; tauto|].
    intros d Hd. simpl in Hd.
    repeat (destruct Hd as [<-|Hd]; [simpl; intuition discriminate|]). contradiction.
Qed.

(** With Emitter listed first, the construction succeeds, there is no rng,
    [seed] fails, and with children it does nothing about it in silence. *)
Example C96_exact_case :
  (exists o, construct demo_users [CUser 4; CEmitter; CGeneric; CAbc; CRandomMixin; CObject] ["rng_seed"] new_obj = (Ok tt, o) /\
             has o = [AtSeed] /\ log o = [SetSeed] /\
             fst (invoke perform_obj (seeds demo_users) [CUser 4; CEmitter; CGeneric; CAbc; CRandomMixin; CObject] o) = Raise AttributeError) /\
  (exists o, construct demo_users [CUser 5; CEmitter; CGeneric; CAbc; CRandomWithChildrenMixin; CRandomMixin; CChildrenMixin; CObject]
               ["rng_seed"; "children"] new_obj = (Ok tt, o) /\
             ~ In AtRng (has o) /\
             invoke perform_obj (seeds demo_users) [CUser 5; CEmitter; CGeneric; CAbc; CRandomWithChildrenMixin; CRandomMixin; CChildrenMixin; CObject] o =
             (Ok tt, mkObj (AtSeed :: has o) (log o ++ [KidsSeed]))).
Proof.
  split; eexists; (split; [vm_compute; reflexivity|]); vm_compute; intuition discriminate.
Qed.

(** The claim without its condition is false: a program can list Emitter first. *)
Theorem C96_refuted : ~ forall u t c mro,
  program_classes t -> mro_of t c = Some mro -> Forall plain_class mro -> In CEmitter mro ->
  In CRandomMixin mro -> fits u mro -> own_only u -> leaves_rng u ->
  exists o, construct u mro [] new_obj = (Ok tt, o) /\ In AtRng (has o).
Proof.
  intros H.
  destruct (H demo_users demo_table (CUser 4) [CUser 4; CEmitter; CGeneric; CAbc; CRandomMixin; CObject]) as (o & E & Hr).
  - exact demo_program.
  - vm_compute. reflexivity.
  - repeat constructor.
  - simpl; tauto.
  - simpl; tauto.
  - intros n [Hn|Hn]; [injection Hn as <-; repeat split|].
    simpl in Hn. intuition discriminate.
  - apply demo_own.
  - apply demo_own.
  - vm_compute in E. injection E as <-. vm_compute in Hr. intuition discriminate.
Qed.

Print Assumptions C96_reset.
Print Assumptions C96_reset_children.
Print Assumptions C96_construct.
Print Assumptions C96_keywords.
Print Assumptions C96_exact.
(** A class that sets its attribute after [super().__init__()], as one would at
    first write it. *)
Definition late_users : users :=
  mkUsers (fun _ => Some (mkBody [Own 1 [AtOwn 7] []] Plain []))
          (fun _ => None)
          (fun n => match n with 0%nat => Some (mkInit [] [] [Own 2 [] [AtOwn 7]]) | _ => None end).
Example C96_own_late_case :
  fst (construct late_users [CUser 0; CRandomMixin; CEmitter; CGeneric; CAbc; CObject] [] new_obj) <> Ok tt.
Proof.
  apply (C96_own_late late_users
           (match class_stmts [(CUser 0, [CRandomMixin; CEmitter])] library with Ok t => t | _ => [] end)
           0%nat _ (mkBody [Own 1 [AtOwn 7] []] Plain []) (Own 1 [AtOwn 7] []) [] 7%nat).
  - exists [(CUser 0, [CRandomMixin; CEmitter])]. split; [repeat constructor; eexists; reflexivity|].
    vm_compute. reflexivity.
  - vm_compute. reflexivity.
  - simpl; tauto.
  - reflexivity.
  - reflexivity.
  - left. reflexivity.
  - intros [|m] ib a E Ha; [|discriminate]. injection E as <-. contradiction.
  - intros [|m] ib a Hne E Ha; [congruence|discriminate].
Qed.

Print Assumptions C96_refuted.
Print Assumptions C96_own_late.
