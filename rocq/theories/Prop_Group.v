(** * The properties of group.py and warn.py: C55, C56. *)
From Verif Require Import Base Prims GroupModel WarnModel.

(** ** C55: group operations *)

(** The members that are not None. *)
Fixpoint present {O} (objs : list (option O)) : list O :=
  match objs with [] => [] | None :: t => present t | Some o :: t => o :: present t end.

(** do_method is: call the method of each member that is not None and has it, in
    order, once per membership.  [catch_attribute_error] shows what else it does: an
    AttributeError raised inside of a method is swallowed as well. *)
Theorem C55_do_method :
  forall (S O : Type) (sup : O -> bool) (act : O -> M S unit) objs s,
  group_do_method (fun o _ => if sup o then Some (act o) else None) objs s =
  (mapS (fun o => catch_attribute_error (act o)) (filter sup (present objs)) ;;; ret tt) s.
Proof.
  intros S O sup act objs. induction objs as [|[o|] t IH]; intros s; cbn; auto.
  set (f := fun o => catch_attribute_error (act o)) in *.
  unfold mbind in *. unfold catch_attribute_error. destruct (sup o) eqn:Es; cbn; auto.
  unfold mbind, ret. change (f o s) with (catch_attribute_error (act o) s). unfold catch_attribute_error.
  destruct (act o s) as [[u|e|] s1]; auto.
  - rewrite IH. destruct (mapS f (filter sup (present t)) s1) as [[l|e|] s2]; reflexivity.
  - destruct e; auto. rewrite IH. destruct (mapS f (filter sup (present t)) s1) as [[l|e|] s2]; reflexivity.
Qed.
Print Assumptions C55_do_method.

(** When no method raises, every supporting member has been called exactly once
    per membership, in order: the calls leave their mark in a log here. *)
Corollary C55_reaches_everyone :
  forall (O : Type) (sup : O -> bool) objs (log : list O),
  group_do_method (fun o _ => if sup o then Some (fun log => (Ok tt, log ++ [o])) else None) objs log =
  (Ok tt, log ++ filter sup (present objs)).
Proof.
  intros O sup objs log.
  rewrite (C55_do_method (list O) O sup (fun o log => (Ok tt, log ++ [o]))).
  generalize (filter sup (present objs)) as l. intros l. revert log.
  induction l as [|o l IH]; intros log; unfold mbind, ret in *; cbn.
  - now rewrite app_nil_r.
  - specialize (IH (log ++ [o])). unfold catch_attribute_error, mbind, ret in *. cbn.
    destruct (mapS _ l (log ++ [o])) as [[bs|e|] s2]; try discriminate.
    injection IH as ->. now rewrite <- app_assoc.
Qed.
Print Assumptions C55_reaches_everyone.

(** Objects with attributes, in a heap. *)
Section Attrs.
  Context {V : Type}.
  Definition heap : Type := list (list (string * V)).
  Definition attr (h : heap) (o : nat) (a : string) : option V := dict_get String.eqb a (nth o h []).
  Definition heap_has (a : string) (o : nat) (h : heap) : bool :=
    match attr h o a with Some _ => true | None => false end.
  Definition heap_set (a : string) (v : V) (o : nat) : M heap unit := fun h =>
    (Ok tt, upd o (dict_set String.eqb a v (nth o h [])) h).

  Lemma nth_upd {A} (d x : A) : forall n l m, nth m (upd n x l) d = if (m =? n)%nat && (n <? length l)%nat then x else nth m l d.
  Proof.
    induction n as [|n IH]; intros [|y l] [|m]; cbn; auto.
    - now rewrite andb_false_r.
    - rewrite IH. reflexivity.
  Qed.
  Lemma dict_get_set k v k' (d : list (string * V)) :
    dict_get String.eqb k' (dict_set String.eqb k v d) = if String.eqb k' k then Some v else dict_get String.eqb k' d.
  Proof.
    induction d as [|[a b] d IH]; cbn.
    - destruct (String.eqb_spec k' k) as [->|H]; auto.
    - destruct (String.eqb_spec k a) as [->|H]; cbn.
      + destruct (String.eqb_spec k' a); auto.
      + rewrite IH. destruct (String.eqb_spec k' a) as [->|Ha]; auto.
        destruct (String.eqb_spec a k); congruence.
  Qed.
End Attrs.

(** After a group's setattr, an attribute of an object has the new value if it is
    the one named, the object is a member and had that attribute before;
    everything else is as it was. *)
Theorem C55_setattr :
  forall (V : Type) (a : string) (v : V) objs (h : heap), exists h',
  group_setattr (heap_has a) (heap_set a v) objs h = (Ok tt, h') /\
  forall o b, attr h' o b =
    if String.eqb b a && existsb (Nat.eqb o) (present objs) && heap_has a o h then Some v else attr h o b.
Proof.
  intros V a v objs. induction objs as [|[o|] t IH]; intros h; cbn.
  - exists h. split; auto. intros o b. now rewrite andb_false_r.
  - unfold mbind. destruct (heap_has a o h) eqn:Eh.
    + cbn [heap_set]. destruct (IH (upd o (dict_set String.eqb a v (nth o h [])) h)) as (h' & E & H).
      exists h'. split; auto. intros o' b. rewrite H.
      assert (Hlen : (o <? length h)%nat = true).
      { apply Nat.ltb_lt. unfold heap_has, attr in Eh. destruct (Nat.lt_ge_cases o (length h)); auto.
        rewrite nth_overflow in Eh by auto. discriminate. }
      unfold heap_has, attr. rewrite nth_upd, Hlen, andb_true_r.
      destruct (Nat.eqb_spec o' o) as [->|Ho]; cbn.
      * rewrite !dict_get_set, String.eqb_refl, andb_true_r. unfold heap_has, attr in Eh.
        destruct (dict_get String.eqb a (nth o h [])); [|discriminate]. rewrite !andb_true_r.
        destruct (String.eqb b a); cbn; auto. destruct (existsb (Nat.eqb o) (present t)); auto.
      * reflexivity.
    + cbn [heap_set]. destruct (IH h) as (h' & E & H). exists h'. split; auto. intros o' b. rewrite H.
      destruct (Nat.eqb_spec o' o) as [->|Ho]; cbn; auto. rewrite Eh. now rewrite !andb_false_r.
  - destruct (IH h) as (h' & E & H). exists h'. split; auto.
Qed.
Print Assumptions C55_setattr.

Example C55_example :
  let h := [[("rng_seed", 0%nat)]; [("value", 5%nat)]; [("rng_seed", 1%nat); ("value", 6%nat)]] in
  group_setattr (heap_has "rng_seed") (heap_set "rng_seed" 9%nat) [Some 0%nat; None; Some 1%nat; Some 2%nat] h
  = (Ok tt, [[("rng_seed", 9%nat)]; [("value", 5%nat)]; [("rng_seed", 9%nat); ("value", 6%nat)]]) /\
  group_do_method (fun o _ => if Nat.even o then Some (fun log => (Ok tt, log ++ [o])) else None)
    [Some 2%nat; None; Some 3%nat; Some 4%nat; Some 2%nat] [] = (Ok tt, [2; 4; 2]%nat).
Proof. vm_compute. auto. Qed.

(** The error-hiding side of do_method, on a concrete group: the second member's
    method fails half-way with an AttributeError, nobody is told, and the third
    member is still called. *)
Example C55_hides_errors :
  group_do_method (fun o _ => Some (fun log => if (o =? 2)%nat then (Raise AttributeError, log ++ [o]) else (Ok tt, log ++ [o])))
    [Some 1%nat; Some 2%nat; Some 3%nat] [] = (Ok tt, [1; 2; 3]%nat).
Proof. reflexivity. Qed.

(** ** C56: deprecated attributes *)

(** [substring_of a b]: the text a occurs in b. *)
Definition substring_of (a b : string) : Prop := exists x y, b = (x ++ a ++ y)%string.

Lemma sapp_assoc (a b c : string) : (a ++ (b ++ c) = (a ++ b) ++ c)%string.
Proof. induction a; cbn; congruence. Qed.

Theorem C56_deprecated :
  forall (V : Type) name module (reg : registry V) ws,
  let '(o, ws') := get_deprecated_attr name module reg ws in
  match dict_get String.eqb name reg with
  | Some (new_name, v) =>
      o = Ok v /\
      exists msg, ws' = ws ++ [(DeprecationWarning, msg)] /\
        substring_of (module ++ "." ++ name) msg /\
        (forall n, new_name = Some n -> n <> ""%string -> substring_of ("Please use " ++ n ++ " instead") msg)
  | None => o = Raise AttributeError /\ ws' = ws
  end.
Proof.
  intros V name module reg ws. unfold get_deprecated_attr.
  destruct (dict_get String.eqb name reg) as [[new_name v]|]; auto. split; auto. eexists. split; [reflexivity|].
  generalize " is deprecated and will be removed in the next major version release."%string as L. intros L.
  split.
  - match goal with |- substring_of _ (_ ++ _ ++ _ ++ L ++ ?r) => exists ""%string, (L ++ r)%string end.
    change ("" ++ ?a)%string with a. now rewrite <- !sapp_assoc.
  - intros n -> Hn. destruct (String.eqb_spec n ""); [contradiction|].
    exists (module ++ "." ++ name ++ L ++ " ")%string, "."%string.
    rewrite <- !sapp_assoc. reflexivity.
Qed.
Print Assumptions C56_deprecated.

(** Registered means: the name is a key of the registry. *)
Theorem C56_attribute_error_iff :
  forall (V : Type) name module (reg : registry V) ws,
  fst (get_deprecated_attr name module reg ws) = Raise AttributeError <-> ~ In name (map fst reg).
Proof.
  intros V name module reg ws. unfold get_deprecated_attr.
  induction reg as [|[k [n v]] reg IH]; cbn; [tauto|].
  destruct (String.eqb_spec name k) as [->|H]; cbn.
  - split; [discriminate|]. intros H. elim H. auto.
  - rewrite IH. split; intros H1; [intros [H2|H2]; [congruence|contradiction]|intros H2; apply H1; auto].
Qed.
Print Assumptions C56_attribute_error_iff.

(** The names the package itself has deprecated still resolve, with one warning
    naming the replacement; every other unknown name of these modules is an
    AttributeError. *)
Theorem C56_package_names :
  forall (V : Type) (wrap fl un st it bo : V) ws name,
  let w := "fauxdoc.emitters.wrappers" in let e := "fauxdoc.emitters" in let t := "fauxdoc.typing" in
  (forall reg m, (m, reg) = (w, wrappers_deprecated wrap) \/ (m, reg) = (e, emitters_deprecated wrap) ->
     if String.eqb name "Wrap"
     then module_getattr m reg name ws =
          (Ok wrap, ws ++ [(DeprecationWarning, m ++ ".Wrap is deprecated and will be removed in the next major version release. Please use WrapOne or WrapMany instead.")%string])
     else module_getattr m reg name ws = (Raise AttributeError, ws)) /\
  (fst (module_getattr t (typing_deprecated fl un st it bo) name ws) =
   if String.eqb name "Number" then Ok fl
   else if String.eqb name "EmitterLikeCallable" then Ok un
   else if String.eqb name "StrEmitterLike" then Ok st
   else if String.eqb name "IntEmitterLike" then Ok it
   else if String.eqb name "BoolEmitterLike" then Ok bo
   else Raise AttributeError).
Proof.
  intros V wrap fl un st it bo ws name w e t. split.
  - intros reg m H. assert (Hreg : reg = [("Wrap", (Some "WrapOne or WrapMany", wrap))]).
    { destruct H as [H|H]; now injection H. }
    rewrite Hreg. unfold module_getattr, get_deprecated_attr. cbn [dict_get].
    destruct (String.eqb_spec name "Wrap") as [->|Hn]; auto.
  - unfold module_getattr, get_deprecated_attr, typing_deprecated. cbn [dict_get].
    destruct (String.eqb name "Number"); auto.
    destruct (String.eqb name "EmitterLikeCallable"); auto.
    destruct (String.eqb name "StrEmitterLike"); auto.
    destruct (String.eqb name "IntEmitterLike"); auto.
    destruct (String.eqb name "BoolEmitterLike"); auto.
Qed.
Print Assumptions C56_package_names.

Example C56_example :
  get_deprecated_attr "Old" "mod" [("Older", (None, 1%nat)); ("Old", (Some "New", 2%nat))] [] =
  (Ok 2%nat, [(DeprecationWarning, "mod.Old is deprecated and will be removed in the next major version release. Please use New instead.")]) /\
  fst (get_deprecated_attr "Missing" "mod" [("Older", (None, 1%nat))] []) = Raise AttributeError.
Proof. vm_compute. auto. Qed.
