(** * MroInit: lemmas about constructing instances and calling methods on them. *)
From Coq Require Import String.
From Verif Require Import Base Prims GroupModel MroModel MroSpec MroProofs.
Local Open Scope string_scope.
Local Open Scope list_scope.

Lemma has_attr_spec o a : has_attr o a = true <-> In a (has o).
Proof. unfold has_attr. destruct in_dec; split; intros; auto; discriminate. Qed.

Lemma perform_ok a o :
  (forall x, In x (needs a) -> In x (has o)) ->
  perform_obj a o = (Ok tt, mkObj (gives a ++ has o) (log o ++ [a])).
Proof.
  intros H. unfold perform_obj.
  replace (forallb (has_attr o) (needs a)) with true; [reflexivity|].
  symmetry. apply forallb_forall. intros x Hx. apply has_attr_spec. auto.
Qed.

Lemma performs_ok : forall l o,
  (forall a x, In a l -> In x (needs a) -> In x (has o)) ->
  exists o', performs perform_obj l o = (Ok tt, o') /\ log o' = log o ++ l /\
             incl (has o) (has o') /\ (forall a x, In a l -> In x (gives a) -> In x (has o')).
Proof.
  induction l as [|a l IH]; intros o H; simpl.
  - exists o. rewrite app_nil_r. repeat split; [apply incl_refl|]. intros ? ? [].
  - unfold mbind. rewrite perform_ok; [|intros x; apply H; left; reflexivity].
    destruct (IH (mkObj (gives a ++ has o) (log o ++ [a]))) as (o' & E & El & Hi & Hg).
    { intros b x Hb Hx. simpl. apply in_or_app. right. eapply H; [right; exact Hb|exact Hx]. }
    exists o'. simpl in El, Hi. rewrite E, El, <- app_assoc. repeat split.
    + intros x Hx. apply Hi. apply in_or_app. auto.
    + intros b x [<-|Hb] Hx; [|eapply Hg; eauto]. apply Hi. apply in_or_app. auto.
Qed.

(** A call all of whose statements find their attributes. *)
Lemma call_ok defs : forall l m o,
  call perform_obj defs l = Some m -> ~ dangles (reached defs l) ->
  (forall c b a x, In c l -> defs c = Some b -> In a (b_pre b ++ b_post b) -> In x (needs a) -> In x (has o)) ->
  exists o', m o = (Ok tt, o') /\ log o' = log o ++ script (reached defs l) /\ incl (has o) (has o').
Proof.
  induction l as [|c t IH]; simpl; intros m o H Hd Hn; [discriminate|].
  assert (Hn' : forall c b a x, In c t -> defs c = Some b -> In a (b_pre b ++ b_post b) -> In x (needs a) -> In x (has o))
    by (intros; eapply Hn; eauto).
  destruct (defs c) as [b|] eqn:Ec; [|exact (IH m o H Hd Hn')].
  injection H as <-. rewrite script_cons. unfold mbind.
  destruct (performs_ok (b_pre b) o) as (o1 & -> & El1 & Hi1 & _).
  { intros a x Ha Hx. eapply Hn; eauto. apply in_or_app; auto. }
  set (next := match b_super b, call perform_obj defs t with
               | NoSuper, _ => ret tt | IfAny, None => ret tt
               | Plain, None => raise AttributeError | Guarded, None => ret tt
               | (IfAny | Plain), Some m => m | Guarded, Some m => catch_attribute_error m end).
  assert (Hnext : exists o2, next o1 = (Ok tt, o2) /\
            log o2 = log o1 ++ script match b_super b with NoSuper => [] | _ => reached defs t end /\
            incl (has o1) (has o2)).
  { unfold next. pose proof (call_none perform_obj defs t) as Hnone.
    assert (Hno : forall s, s = o1 -> exists o2, (ret tt : M obj unit) s = (Ok tt, o2) /\ log o2 = log o1 ++ [] /\ incl (has o1) (has o2)).
    { intros s ->. exists o1. rewrite app_nil_r. repeat split. apply incl_refl. }
    assert (Hsome : forall m, call perform_obj defs t = Some m -> ~ dangles (reached defs t) ->
              exists o2, m o1 = (Ok tt, o2) /\ log o2 = log o1 ++ script (reached defs t) /\ incl (has o1) (has o2)).
    { intros m Em Hdd. apply IH; auto. intros; eapply Hi1, Hn'; eauto. }
    assert (Hdt : b_super b <> NoSuper -> ~ dangles (reached defs t)).
    { intros Hb Hx. apply Hd. destruct (b_super b); [congruence|..]; simpl; destruct (reached defs t); try contradiction; exact Hx. }
    destruct (b_super b) eqn:Eb; destruct (call perform_obj defs t) as [m|] eqn:E;
      try (destruct Hnone as [Hnone _]; rewrite (Hnone eq_refl) in * );
      try (apply Hno; reflexivity);
      try (simpl in Hd; congruence).
    - apply Hsome; [reflexivity|apply Hdt; discriminate].
    - apply Hsome; [reflexivity|apply Hdt; discriminate].
    - destruct (Hsome m eq_refl) as (o2 & Em & ? & ?); [apply Hdt; discriminate|].
      exists o2. unfold catch_attribute_error. rewrite Em. auto. }
  destruct Hnext as (o2 & -> & El2 & Hi2).
  destruct (performs_ok (b_post b) o2) as (o3 & -> & El3 & Hi3 & _).
  { intros a x Ha Hx. apply Hi2, Hi1. eapply Hn; eauto. apply in_or_app; auto. }
  exists o3. split; [reflexivity|]. split.
  - rewrite El3, El2, El1, <- !app_assoc. reflexivity.
  - eapply incl_tran; [exact Hi1|]. eapply incl_tran; [exact Hi2|exact Hi3].
Qed.

(** [reset]: a statement after the call of the next class's [reset] may also
    read [self.rng] when RandomMixin comes later. *)
Lemma reset_ok u : forall l m o,
  NoDup l ->
  call perform_obj (resets u) l = Some m -> ~ dangles (reached (resets u) l) ->
  (forall x, before x CRandomMixin l -> passes_on (resets u) x) ->
  (forall c b a x, In c l -> resets u c = Some b -> In a (b_pre b) -> In x (needs a) -> In x (has o)) ->
  (forall c b a x, In c l -> resets u c = Some b -> In a (b_post b) -> In x (needs a) ->
     In x (has o) \/ (x = AtRng /\ before c CRandomMixin l)) ->
  exists o', m o = (Ok tt, o') /\ log o' = log o ++ script (reached (resets u) l) /\
             incl (has o) (has o') /\ (In CRandomMixin l -> In AtRng (has o')).
Proof.
  induction l as [|c t IH]; simpl; intros m o Hnd H Hd Hp Hpre Hpost; [discriminate|].
  inversion Hnd as [|? ? Hc Hndt]; subst.
  assert (Hpt : forall x, before x CRandomMixin t -> passes_on (resets u) x).
  { intros x Hx. apply Hp. rewrite sub_before in *. apply sub_skip. exact Hx. }
  assert (Hpost' : forall c' b a x, In c' t -> resets u c' = Some b -> In a (b_post b) -> In x (needs a) ->
     In x (has o) \/ (x = AtRng /\ before c' CRandomMixin t)).
  { intros c' b a x Hc' Eb Ha Hx. destruct (Hpost c' b a x (or_intror Hc') Eb Ha Hx) as [|(-> & Hb)]; auto.
    right. split; auto. rewrite sub_before in *. inversion Hb; subst; [assumption|contradiction]. }
  destruct (resets u c) as [b|] eqn:Ec.
  2:{ destruct (IH m o Hndt H Hd Hpt) as (o' & ? & ? & ? & Hr); eauto.
      exists o'. repeat split; auto. intros [->|Hin]; [discriminate|auto]. }
  injection H as <-. rewrite script_cons. unfold mbind.
  destruct (performs_ok (b_pre b) o) as (o1 & -> & El1 & Hi1 & Hg1).
  { intros a x Ha Hx. eapply Hpre; eauto. }
  set (next := match b_super b, call perform_obj (resets u) t with
               | NoSuper, _ => ret tt | IfAny, None => ret tt
               | Plain, None => raise AttributeError | Guarded, None => ret tt
               | (IfAny | Plain), Some m => m | Guarded, Some m => catch_attribute_error m end).
  assert (Hnext : exists o2, next o1 = (Ok tt, o2) /\
            log o2 = log o1 ++ script match b_super b with NoSuper => [] | _ => reached (resets u) t end /\
            incl (has o1) (has o2) /\ (In CRandomMixin t -> b_super b <> NoSuper -> In AtRng (has o2))).
  { unfold next. pose proof (call_none perform_obj (resets u) t) as Hnone.
    assert (Hsome : forall m, call perform_obj (resets u) t = Some m -> ~ dangles (reached (resets u) t) ->
              exists o2, m o1 = (Ok tt, o2) /\ log o2 = log o1 ++ script (reached (resets u) t) /\
                         incl (has o1) (has o2) /\ (In CRandomMixin t -> In AtRng (has o2))).
    { intros m Em Hdd. apply IH; auto.
      - intros; eapply Hi1, Hpre; eauto.
      - intros c' b' a x Hc' Eb' Ha Hx. destruct (Hpost' c' b' a x) as [|]; auto. }
    assert (Hdt : b_super b <> NoSuper -> ~ dangles (reached (resets u) t)).
    { intros Hb Hx. apply Hd. destruct (b_super b); [congruence|..]; simpl; destruct (reached (resets u) t); try contradiction; exact Hx. }
    assert (Hnotin : call perform_obj (resets u) t = None -> ~ In CRandomMixin t).
    { intros En Hin. apply Hnone in En.
      pose proof (reached_has (resets u) CRandomMixin (mkBody [NewRng] IfAny []) t Hin eq_refl Hpt) as Hr.
      rewrite En in Hr. contradiction. }
    assert (Hno : call perform_obj (resets u) t = None -> exists o2, (ret tt : M obj unit) o1 = (Ok tt, o2) /\ log o2 = log o1 ++ script [] /\
              incl (has o1) (has o2) /\ (In CRandomMixin t -> In AtRng (has o2))).
    { intros En. exists o1. simpl. rewrite app_nil_r. repeat split; [apply incl_refl|].
      intros Hin. destruct (Hnotin En Hin). }
    destruct (b_super b) eqn:Eb; destruct (call perform_obj (resets u) t) as [m|] eqn:E;
      try (destruct Hnone as [Hnone _]; rewrite (Hnone eq_refl) in * );
      try (simpl in Hd; congruence).
    - exists o1. simpl. rewrite app_nil_r. repeat split; [apply incl_refl|congruence].
    - exists o1. simpl. rewrite app_nil_r. repeat split; [apply incl_refl|congruence].
    - destruct (Hsome m eq_refl) as (o2 & ? & ? & ? & ?); [apply Hdt; discriminate|]. exists o2. auto.
    - destruct Hno as (o2 & ? & ? & ? & ?); [reflexivity|]. exists o2. auto.
    - destruct (Hsome m eq_refl) as (o2 & ? & ? & ? & ?); [apply Hdt; discriminate|]. exists o2. auto.
    - destruct (Hsome m eq_refl) as (o2 & Em & ? & ? & ?); [apply Hdt; discriminate|].
      exists o2. unfold catch_attribute_error. rewrite Em. auto.
    - destruct Hno as (o2 & ? & ? & ? & ?); [reflexivity|]. exists o2. auto. }
  destruct Hnext as (o2 & -> & El2 & Hi2 & Hr2).
  assert (Hcp : In CRandomMixin t -> b_super b <> NoSuper).
  { intros Hin. assert (Hb : before c CRandomMixin (c :: t)).
    { apply in_split in Hin as (p & q & ->). exists [], p, q. reflexivity. }
    specialize (Hp c Hb). unfold passes_on in Hp. rewrite Ec in Hp. exact Hp. }
  destruct (performs_ok (b_post b) o2) as (o3 & -> & El3 & Hi3 & _).
  { intros a x Ha Hx. destruct (Hpost c b a x (or_introl eq_refl) Ec Ha Hx) as [Hh|(-> & Hb)]; [auto|].
    assert (Hin : In CRandomMixin t).
    { rewrite sub_before in Hb. inversion Hb; subst.
      - eapply sub_in; [eassumption|]. right; left; reflexivity.
      - eapply sub_in; [eassumption|]. left; reflexivity. }
    apply Hr2; auto. }
  exists o3. split; [reflexivity|]. split; [|split].
  - rewrite El3, El2, El1, <- !app_assoc. reflexivity.
  - eapply incl_tran; [exact Hi1|]. eapply incl_tran; [exact Hi2|exact Hi3].
  - intros [->|Hin].
    + simpl in Ec. injection Ec as <-. apply Hi3, Hi2. apply (Hg1 NewRng); left; reflexivity.
    + apply Hi3, Hr2; auto.
Qed.

(** ** Construction *)

Lemma without_in k x kw : In x (without k kw) <-> In x kw /\ x <> k.
Proof.
  unfold without. rewrite filter_In. rewrite negb_true_iff, String.eqb_neq. tauto.
Qed.
Lemma withouts_in : forall ks x kw, In x (fold_right without kw ks) <-> In x kw /\ ~ In x ks.
Proof.
  induction ks as [|k ks IH]; simpl; intros; [tauto|].
  rewrite without_in, IH. intuition.
Qed.

Definition early_in (u : users) (p : list cls) (o : obj) : Prop :=
  forall a, set_early u p a -> In a (has o).

(** What one more class of the order sets early. *)
Definition class_sets (u : users) (c : cls) (a : attr) : Prop :=
  match c with
  | CRandomMixin => a = AtSeed
  | CItemsMixin => a = AtItems
  | CChildrenMixin => a = AtKids
  | CUser n => exists b s, u_init u n = Some b /\ In s (i_pre b) /\ In a (gives s)
  | _ => False
  end.

Lemma set_early_snoc u p c a : set_early u (p ++ [c]) a -> set_early u p a \/ class_sets u c a.
Proof.
  unfold set_early. rewrite !in_app_iff.
  intros [(-> & [H|[->|[]]])|[(-> & [H|[->|[]]])|[(-> & [H|[->|[]]])|(n & b & s & Hin & Hr)]]];
    simpl; auto; try (left; tauto).
  apply in_app_or in Hin as [Hin|[->|[]]].
  - left. right. right. right. exists n, b, s. tauto.
  - right. exists b, s. tauto.
Qed.

Lemma early_snoc u p c o o' :
  early_in u p o -> incl (has o) (has o') -> (forall a, class_sets u c a -> In a (has o')) ->
  early_in u (p ++ [c]) o'.
Proof. intros H Hi Hc a Ha. apply set_early_snoc in Ha as [Ha|Ha]; auto. Qed.

Section Init.
  Variables (u : users) (mro : list cls) (self_reset : M obj unit).
  Hypothesis Hself : forall o, early_in u mro o ->
    exists o', self_reset o = (Ok tt, o') /\ incl (has o) (has o') /\ (In CRandomMixin mro -> In AtRng (has o')).
  Hypothesis Hpre : forall n b s, In (CUser n) mro -> u_init u n = Some b -> In s (i_pre b) -> needs s = [].
  Hypothesis Hpost : forall n b s a, In (CUser n) mro -> u_init u n = Some b -> In s (i_post b) ->
    In a (needs s) -> set_early u mro a.

  Lemma init_ok : forall l p o kw,
    mro = p ++ l ++ [CObject] -> Forall plain_class l -> ~ In CObject l ->
    early_in u p o -> (forall k, In k kw -> exists c, In c l /\ In k (takes u c)) ->
    exists o', init u self_reset (l ++ [CObject]) kw o = (Ok tt, o') /\ early_in u mro o' /\
               incl (has o) (has o') /\ (In CRandomMixin l -> In AtRng (has o')).
  Proof.
    induction l as [|c t IH]; intros p o kw Em Hpl Hno Hearly Hkw.
    - simpl. destruct kw as [|k kw].
      + exists o. split; [reflexivity|]. split; [|split; [apply incl_refl|intros []]].
        rewrite Em. simpl. apply early_snoc with o; [assumption|apply incl_refl|intros a []].
      + destruct (Hkw k (or_introl eq_refl)) as (c & [] & _).
    - pose proof (Forall_inv Hpl) as Hc; pose proof (Forall_inv_tail Hpl) as Hplt.
      assert (Em' : mro = (p ++ [c]) ++ t ++ [CObject]) by (rewrite Em, <- app_assoc; reflexivity).
      assert (Hno' : ~ In CObject t) by (intros H; apply Hno; right; exact H).
      assert (Hmro : forall o, early_in u (p ++ [c]) o -> forall kw,
                (forall k, In k kw -> exists c', In c' t /\ In k (takes u c')) ->
                exists o', init u self_reset (t ++ [CObject]) kw o = (Ok tt, o') /\ early_in u mro o' /\
                           incl (has o) (has o') /\ (In CRandomMixin t -> In AtRng (has o')))
        by (intros; eapply IH; eauto).
      assert (Hskip : (forall a, class_sets u c a -> False) -> takes u c = [] -> c <> CRandomMixin ->
                exists o', init u self_reset (t ++ [CObject]) kw o = (Ok tt, o') /\ early_in u mro o' /\
                           incl (has o) (has o') /\ (In CRandomMixin (c :: t) -> In AtRng (has o'))).
      { intros Hs Htk Hne. destruct (Hmro o) with (kw := kw) as (o' & E & He & Hi & Hr).
        - eapply early_snoc; [exact Hearly|apply incl_refl|]. intros a Ha. destruct (Hs a Ha).
        - intros k Hk. destruct (Hkw k Hk) as (c' & [<-|Hin] & Ht); [|eauto].
          rewrite Htk in Ht. contradiction.
        - exists o'. repeat split; auto. intros [->|]; [congruence|auto]. }
      assert (Hset : forall sa at_ name, needs sa = [] -> gives sa = [at_] ->
                (forall a, class_sets u c a -> a = at_) -> takes u c = [name] ->
                exists o1 o', perform_obj sa o = (Ok tt, o1) /\
                   init u self_reset (t ++ [CObject]) (without name kw) o1 = (Ok tt, o') /\ early_in u mro o' /\
                           incl (has o) (has o') /\ (In CRandomMixin t -> In AtRng (has o'))).
      { intros sa at_ name Hn Hg Hs Htk.
        eexists. rewrite perform_ok; [|rewrite Hn; intros ? []].
        destruct (Hmro (mkObj (gives sa ++ has o) (log o ++ [sa]))) with (kw := without name kw)
          as (o' & E & He & Hi & Hr).
        - eapply early_snoc; [exact Hearly| |].
          + simpl. apply incl_appr, incl_refl.
          + intros a Ha. apply Hs in Ha as ->. simpl. rewrite Hg. left. reflexivity.
        - intros k Hk. apply without_in in Hk as (Hk & Hne).
          destruct (Hkw k Hk) as (c' & [<-|Hin] & Ht); [|eauto].
          rewrite Htk in Ht. destruct Ht as [|[]]. congruence.
        - exists o'. split; [reflexivity|]. split; [exact E|]. split; [exact He|]. split; [|exact Hr].
          eapply incl_tran; [|exact Hi]. simpl. apply incl_appr, incl_refl. }
      destruct c; simpl in Hc; try contradiction; simpl app; cbn [init].
      + exfalso. apply Hno. left. reflexivity.
      + apply Hskip; [intros a []|reflexivity|discriminate].
      + apply Hskip; [intros a []|reflexivity|discriminate].
      + destruct (Hset SetSeed AtSeed "rng_seed") as (o1 & o2 & E1 & E2 & He & Hi & Hr); auto.
        unfold mbind. rewrite E1, E2.
        destruct (Hself o2 He) as (o3 & E3 & Hi3 & Hr3). rewrite E3.
        exists o3. split; [reflexivity|]. split; [intros a Ha; apply Hi3, He, Ha|].
        split; [eapply incl_tran; eauto|]. intros _. apply Hr3. rewrite Em. apply in_or_app. right. left. reflexivity.
      + destruct (Hset SetItems AtItems "items") as (o1 & o2 & E1 & E2 & He & Hi & Hr); auto.
        unfold mbind. rewrite E1, E2. exists o2. repeat split; auto. intros [|]; [discriminate|auto].
      + destruct (Hset SetKids AtKids "children") as (o1 & o2 & E1 & E2 & He & Hi & Hr); auto.
        unfold mbind. rewrite E1, E2. exists o2. repeat split; auto. intros [|]; [discriminate|auto].
      + apply Hskip; [intros a []|reflexivity|discriminate].
      + apply Hskip; [intros a []|reflexivity|discriminate].
      + assert (Hn : In (CUser n) mro) by (rewrite Em; apply in_or_app; right; left; reflexivity).
        destruct (u_init u n) as [b|] eqn:Eb.
        * unfold mbind.
          destruct (performs_ok (i_pre b) o) as (o1 & E1 & _ & Hi1 & Hg1).
          { intros a x Ha Hx. rewrite (Hpre n b a Hn Eb Ha) in Hx. contradiction. }
          rewrite E1.
          destruct (Hmro o1) with (kw := fold_right without kw (i_pops b)) as (o2 & E2 & He & Hi & Hr).
          { eapply early_snoc; [exact Hearly|exact Hi1|]. simpl. intros a (b' & s & Eb' & Hs & Ha).
            rewrite Eb in Eb'. injection Eb' as <-. eauto. }
          { intros k Hk. apply withouts_in in Hk as (Hk & Hne).
            destruct (Hkw k Hk) as (c' & [<-|Hin] & Ht); [|eauto].
            simpl in Ht. rewrite Eb in Ht. contradiction. }
          rewrite E2.
          destruct (performs_ok (i_post b) o2) as (o3 & E3 & _ & Hi3 & _).
          { intros a x Ha Hx. apply He. eapply Hpost; eauto. }
          rewrite E3. exists o3. split; [reflexivity|]. split; [intros a Ha; apply Hi3, He, Ha|].
          split; [eapply incl_tran; [exact Hi1|]; eapply incl_tran; [exact Hi|exact Hi3]|].
          intros [|Hin]; [discriminate|]. apply Hi3, Hr, Hin.
        * apply Hskip; [|simpl; rewrite Eb; reflexivity|discriminate].
          simpl. intros a (b & s & E & _). congruence.
  Qed.

  (** A keyword that no class takes. *)
  Lemma init_bad : forall l p o kw k,
    mro = p ++ l ++ [CObject] -> Forall plain_class l -> ~ In CObject l ->
    In k kw -> (forall c, In c l -> ~ In k (takes u c)) ->
    exists o', init u self_reset (l ++ [CObject]) kw o = (Raise TypeError, o').
  Proof.
    induction l as [|c t IH]; intros p o kw k Em Hpl Hno Hk Hkw.
    - simpl. destruct kw as [|k' kw]; [contradiction|]. exists o. reflexivity.
    - pose proof (Forall_inv Hpl) as Hc; pose proof (Forall_inv_tail Hpl) as Hplt.
      assert (Em' : mro = (p ++ [c]) ++ t ++ [CObject]) by (rewrite Em, <- app_assoc; reflexivity).
      assert (Hno' : ~ In CObject t) by (intros H; apply Hno; right; exact H).
      assert (Hmro : forall o kw, In k kw ->
                exists o', init u self_reset (t ++ [CObject]) kw o = (Raise TypeError, o')).
      { intros o0 kw0 Hk0. eapply IH; eauto. intros c' Hc'. apply Hkw. right. exact Hc'. }
      assert (Hkc : ~ In k (takes u c)) by (apply Hkw; left; reflexivity).
      assert (Hw : forall name, takes u c = [name] -> In k (without name kw)).
      { intros name E. rewrite E in Hkc. apply without_in. split; [exact Hk|].
        intros ->. apply Hkc. left. reflexivity. }
      destruct c; simpl in Hc; try contradiction; simpl app; cbn [init]; try (apply Hmro; exact Hk).
      + exfalso. apply Hno. left. reflexivity.
      + unfold mbind. rewrite perform_ok; [|intros ? []].
        destruct (Hmro (mkObj (gives SetSeed ++ has o) (log o ++ [SetSeed])) _ (Hw "rng_seed" eq_refl)) as (o' & ->).
        exists o'. reflexivity.
      + unfold mbind. rewrite perform_ok; [|intros ? []].
        destruct (Hmro (mkObj (gives SetItems ++ has o) (log o ++ [SetItems])) _ (Hw "items" eq_refl)) as (o' & ->).
        exists o'. reflexivity.
      + unfold mbind. rewrite perform_ok; [|intros ? []].
        destruct (Hmro (mkObj (gives SetKids ++ has o) (log o ++ [SetKids])) _ (Hw "children" eq_refl)) as (o' & ->).
        exists o'. reflexivity.
      + assert (Hn : In (CUser n) mro) by (rewrite Em; apply in_or_app; right; left; reflexivity).
        simpl in Hkc. destruct (u_init u n) as [b|] eqn:Eb; [|apply Hmro; exact Hk].
        unfold mbind.
        destruct (performs_ok (i_pre b) o) as (o1 & -> & _).
        { intros a x Ha Hx. rewrite (Hpre n b a Hn Eb Ha) in Hx. contradiction. }
        destruct (Hmro o1 (fold_right without kw (i_pops b))) as (o' & ->).
        { apply withouts_in. auto. }
        exists o'. reflexivity.
  Qed.
End Init.
