(** * Groups as lists: property C78. *)
From Coq Require Import Lia.
From Verif Require Import Base Prims GroupModel PyRange DtModel DtSpec GroupList Prop_Group.
Open Scope list_scope.
Open Scope Z_scope.

(** ** What works: the group is its list of members *)

Lemma get_at {A} (l : list A) i : (i < length l)%nat -> exists a, list_get l (Z.of_nat i) = Ok a /\ nth_error l i = Some a.
Proof.
  intros H. destruct (nth_error l i) as [a|] eqn:E; [|apply nth_error_None in E; lia].
  exists a. split; [|reflexivity]. unfold list_get, norm_index, zlen.
  destruct (Z.ltb_spec (Z.of_nat i) 0); [lia|]. cbn.
  destruct (Z.leb_spec 0 (Z.of_nat i)), (Z.ltb_spec (Z.of_nat i) (Z.of_nat (length l))); try lia.
  cbn. rewrite Nat2Z.id, E. reflexivity.
Qed.
Lemma get_past {A} (l : list A) i : (length l <= i)%nat -> list_get l (Z.of_nat i) = Raise IndexError.
Proof.
  intros H. unfold list_get, norm_index, zlen.
  destruct (Z.ltb_spec (Z.of_nat i) 0); [lia|]. cbn.
  destruct (Z.leb_spec 0 (Z.of_nat i)), (Z.ltb_spec (Z.of_nat i) (Z.of_nat (length l))); try lia; reflexivity.
Qed.

Lemma iter_from {T} (data : list (member T)) : forall fuel i, (length data < fuel + i)%nat -> (i <= length data)%nat ->
  og_iter fuel (Z.of_nat i) data = Ok (skipn i data).
Proof.
  induction fuel as [|k IH]; intros i Hf Hi; [lia|]. cbn [og_iter]. unfold og_get.
  destruct (Nat.eq_dec i (length data)) as [->|N].
  - rewrite get_past by apply Nat.le_refl. rewrite skipn_all. reflexivity.
  - destruct (get_at data i ltac:(lia)) as (a & E & En). rewrite E.
    replace (Z.of_nat i + 1) with (Z.of_nat (S i)) by lia. rewrite IH by lia. cbn [bind].
    f_equal. clear -En. revert i En. induction data as [|b t IHt]; intros [|i] En; try discriminate En.
    + injection En as ->. reflexivity.
    + cbn. apply IHt. exact En.
Qed.

(** Going through a group gives its members, in order. *)
Theorem C78_iterates : forall (T : Type) (data : list (member T)) fuel,
  (length data < fuel)%nat -> og_iter fuel 0 data = Ok data.
Proof. intros T data fuel H. exact (iter_from data fuel 0 ltac:(lia) ltac:(lia)). Qed.
Print Assumptions C78_iterates.

(** insert(i, x): what was before position i stays before x, the rest comes after. *)
Theorem C78_insert : forall (T : Type) i (x : member T) data, exists a b,
  data = a ++ b /\ og_insert i x data = a ++ x :: b /\ zlen a = clip 0 (zlen data) (from_end (zlen data) i).
Proof.
  intros T i x data. unfold og_insert. set (n := zlen data).
  assert (Hn : 0 <= n) by (unfold n, zlen; lia).
  exists (firstn (Z.to_nat (clip_bound n i)) data), (skipn (Z.to_nat (clip_bound n i)) data).
  split; [symmetry; apply firstn_skipn|]. split; [reflexivity|].
  assert (C : clip_bound n i = clip 0 n (from_end n i)).
  { unfold clip_bound, clip, from_end. destruct (Z.ltb_spec i 0); lia. }
  rewrite <- C. assert (B : 0 <= clip_bound n i <= n) by (rewrite C; unfold clip; lia).
  unfold zlen in *. rewrite firstn_length. lia.
Qed.
Print Assumptions C78_insert.

(** pop(i): the member at position i comes out, the others stay; a position that
    there is not: IndexError, and nothing changes. *)
Theorem C78_pop : forall (T : Type) i (data : list (member T)),
  let n := zlen data in
  (- n <= i < n -> exists a x b, data = a ++ x :: b /\ zlen a = from_end n i /\ og_pop i data = (Ok x, a ++ b)) /\
  (~ - n <= i < n -> og_pop i data = (Raise IndexError, data)).
Proof.
  intros T i data n. split; intros H.
  - assert (E : exists j, norm_index n i = Some j /\ Z.of_nat j = from_end n i /\ (j < length data)%nat).
    { unfold norm_index, from_end. exists (Z.to_nat (if i <? 0 then i + n else i)).
      destruct (Z.ltb_spec i 0); cbn zeta.
      - destruct (Z.leb_spec 0 (i + n)), (Z.ltb_spec (i + n) n); try lia. cbn. unfold n, zlen in *. repeat split; lia.
      - destruct (Z.leb_spec 0 i), (Z.ltb_spec i n); try lia. cbn. unfold n, zlen in *. repeat split; lia. }
    destruct E as (j & E & Ej & L). destruct (get_at data j L) as (x & _ & Ex).
    exists (firstn j data), x, (skipn (S j) data). unfold og_pop. fold n. rewrite E.
    assert (D : data = firstn j data ++ x :: skipn (S j) data).
    { rewrite <- (firstn_skipn j data) at 1. f_equal. clear -Ex. revert j Ex.
      induction data as [|b t IH]; intros [|j] Ex; try discriminate Ex; [injection Ex as ->; reflexivity | apply IH, Ex]. }
    split; [exact D|]. split; [rewrite <- Ej; unfold zlen; rewrite firstn_length; lia|].
    unfold list_get. fold n. rewrite E, Ex. reflexivity.
  - unfold og_pop. fold n. unfold norm_index. destruct (Z.ltb_spec i 0).
    + destruct (Z.leb_spec 0 (i + n)), (Z.ltb_spec (i + n) n); try lia; reflexivity.
    + destruct (Z.leb_spec 0 i), (Z.ltb_spec i n); try lia; reflexivity.
Qed.
Print Assumptions C78_pop.

(** do_method goes through the group as it is at each moment; as long as the
    methods leave the group alone, this is the loop over its members of C55. *)
Theorem C78_live : forall (S O : Type) (data : S -> list (option O)) (meth : O -> S -> option (M S unit)) fuel s,
  (forall o s m, meth o s = Some m -> data (snd (m s)) = data s) ->
  (length (data s) < fuel)%nat ->
  live_do_method data meth fuel 0 s = group_do_method meth (data s) s.
Proof.
  intros S O data meth fuel s K L.
  assert (G : forall fuel i s, (length (data s) < fuel + i)%nat -> (i <= length (data s))%nat ->
    live_do_method data meth fuel i s = group_do_method meth (skipn i (data s)) s).
  2:{ apply (G fuel 0%nat s); lia. }
  clear fuel s L. induction fuel as [|k IH]; intros i s Hf Hi; [lia|]. cbn [live_do_method].
  destruct (nth_error (data s) i) as [m|] eqn:E.
  - assert (L : (i < length (data s))%nat) by (apply nth_error_Some; congruence).
    assert (D : skipn i (data s) = m :: skipn (Datatypes.S i) (data s)).
    { clear -E. revert i E. induction (data s) as [|b t IHt]; intros [|i] E; try discriminate E; [injection E as ->; reflexivity | apply IHt, E]. }
    rewrite D. destruct m as [o|]; cbn [group_do_method]; [|apply IH; lia].
    unfold mbind. set (c := catch_attribute_error _ s).
    assert (Kc : data (snd c) = data s).
    { unfold c, catch_attribute_error. destruct (meth o s) as [m|] eqn:Em; [|reflexivity].
      specialize (K o s m Em). destruct (m s) as [[|[]|]]; exact K. }
    destruct c as [[[]|e|] s1]; try reflexivity. cbn [snd] in Kc. rewrite IH by (rewrite Kc; lia). rewrite Kc. reflexivity.
  - apply nth_error_None in E. replace i with (length (data s)) by lia. rewrite skipn_all. reflexivity.
Qed.
Print Assumptions C78_live.

(** The parts, sums and multiples of a group of source fields have the members a
    list would have. *)
Theorem C78_source : forall (T : Type) (g : list (member T) * bool) a b k other n,
  fst (sg_slice g a b k) = sliced (fst g) a b k /\
  fst (sg_add g other) = fst g ++ other /\
  fst (sg_mul g n) = concat (repeat (fst g) (Z.to_nat n)) /\
  fst (sg_copy g) = fst g.
Proof. repeat split. Qed.
Print Assumptions C78_source.

(** ** What does not: parts, sums, multiples and copies of an ObjectGroup *)

(** The full claim: a part of a group has the members a part of the list has, and
    so on... *)
Definition C78_statement : Prop := forall (T : Type) (data : list (member T)) a b k other n, k <> 0 ->
  og_slice data a b k = sliced data a b k /\ og_add data other = data ++ other /\
  og_mul data n = concat (repeat data (Z.to_nat n)) /\ og_copy data = data.
(** ... is not true of any of the four operations. *)
Definition two : list (member nat) := [Item 1%nat; Item 2%nat].
Theorem C78_refuted : ~ C78_statement /\
  og_slice two None None 1 <> sliced two None None 1 /\ og_add two two <> two ++ two /\
  og_mul two 2 <> concat (repeat two 2) /\ og_copy two <> two.
Proof.
  split; [|repeat split; discriminate]. intros H. destruct (H nat two None None 1 [] 1 ltac:(lia)) as (H1 & _). discriminate H1.
Qed.
Print Assumptions C78_refuted.

(** They have one member, whatever the group is: a list, or the group itself. *)
Theorem C78_one_member : forall (T : Type) (data : list (member T)) a b k other n,
  og_slice data a b k = [AList (sliced data a b k)] /\ og_add data other = [AList (data ++ other)] /\
  og_mul data n = [AList (concat (repeat data (Z.to_nat n)))] /\ og_copy data = [AGroup data].
Proof. repeat split. Qed.

(** So a method called through them reaches none of the objects, and nothing is
    said about it: lists and groups do not have the method. *)
Theorem C78_reaches_nobody : forall (S T : Type) (meth : member T -> S -> option (M S unit)) data a b k other n s,
  (forall l s, meth (AList l) s = None) -> (forall l s, meth (AGroup l) s = None) ->
  forall g, g = og_slice data a b k \/ g = og_add data other \/ g = og_mul data n \/ g = og_copy data ->
  group_do_method meth (map Some g) s = (Ok tt, s).
Proof.
  intros S T meth data a b k other n s HL HG g [->|[->|[->| ->]]]; cbn; unfold mbind, catch_attribute_error, ret;
    rewrite ?HL, ?HG; reflexivity.
Qed.
Print Assumptions C78_reaches_nobody.

(** A copy of a group of source fields made of one field no longer counts as
    single-valued. *)
Definition C78_copy_statement : Prop := forall (T : Type) (multi : member T -> bool) a,
  single_valued multi (sg_copy (source_group a)) = single_valued multi (source_group a).
Theorem C78_copy_refuted : ~ C78_copy_statement.
Proof. intros H. specialize (H nat (fun _ => false) (OneField (Item 1%nat))). discriminate H. Qed.
Print Assumptions C78_copy_refuted.

(** Concrete cases *)
Example C78_case :
  og_iter 5 0 [Item 1; Item 2; AList [Item 3]] = Ok [Item 1; Item 2; AList [Item 3]] /\
  og_pop (-1) two = (Ok (Item 2%nat), [Item 1%nat]) /\ og_pop 2 two = (Raise IndexError, two) /\
  og_insert (-1) (Item 9%nat) two = [Item 1; Item 9; Item 2]%nat /\
  sg_slice (source_group (Fields two)) (Some (-1)) None 1 = ([Item 2%nat], false).
Proof. repeat split. Qed.
(** A counter of calls: through the group both members are reached, through a
    slice of it none. *)
Example C78_reach_case :
  let meth (m : member nat) (_ : nat) := match m with Item x => Some (fun s => (Ok tt, (s + x)%nat)) | _ => None end in
  group_do_method meth (map Some two) 0%nat = (Ok tt, 3%nat) /\
  live_do_method (fun _ => map Some two) meth 3 0 0%nat = (Ok tt, 3%nat) /\
  group_do_method meth (map Some (og_slice two None None 1)) 0%nat = (Ok tt, 0%nat).
Proof. repeat split. Qed.
