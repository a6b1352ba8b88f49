(** * C100: the probabilities of the first word of a seeded Word. *)
From Coq Require Import Reals Lra List Arith Lia ZArith.
From Coquelicot Require Import Coquelicot.
From Verif Require Import Base Prims Values MathModel MathSpec MathProofs NumLaws ChoiceModel World WorldBuild ObjectSpec
  Prop_Gate Prop_Spell RealModel RealNum ProbSpec ProbProofs Prop_Prob Prop_GateProb.
Import ListNotations.
Open Scope list_scope.
Open Scope R_scope.

(** ** Specification *)

(** Whether the word is [out] *)
Definition is_word (out : list Z) (r : res val) : bool :=
  match r with Ok (VStr l) => if list_eq_dec Z.eq_dec l out then true else false | _ => false end.
(** The length of the part that two intervals, [a] to [b] and [c] to [d], have in common *)
Definition overlap (a b c d : R) : R := Rmax 0 (Rmin b d - Rmax a c).

(** ** Proofs *)

Lemma share_bounds (ws : list R) j : Forall (fun x => 0 <= x) ws -> 0 < total ws -> (j < length ws)%nat ->
  0 <= share_start ws j <= share_start ws (S j) /\ share_start ws (S j) <= 1.
Proof.
  intros Nn Tp Lj. unfold share_start. pose proof (total_firstn_le ws 0 j Nn ltac:(lia)) as Q0. pose proof (total_firstn_le ws j (S j) Nn ltac:(lia)) as Q1.
  pose proof (total_firstn_le ws (S j) (length ws) Nn ltac:(lia)) as Q2. rewrite firstn_all in Q2. cbn [firstn] in Q0. rewrite total_nil in Q0.
  assert (I : 0 < / total ws) by (apply Rinv_0_lt_compat; exact Tp).
  repeat split; unfold Rdiv; try nra. replace 1 with (total ws * / total ws) by (apply Rinv_r; lra). nra.
Qed.
Lemma pick_share (ws : list R) j u : Forall (fun x => 0 <= x) ws -> 0 < total ws -> (j < length ws)%nat -> 0 < u < 1 ->
  (u < share_start ws j -> pick ws u <> j) /\ (share_start ws j < u < share_start ws (S j) -> pick ws u = j) /\
  (share_start ws (S j) < u -> pick ws u <> j).
Proof.
  intros Nn Tp Lj U. assert (Nw : ws <> []) by (intros ->; cbn in Lj; lia).
  assert (Sc : forall i, (share_start ws i < u -> total (firstn i ws) < u * total ws) /\ (u < share_start ws i -> u * total ws < total (firstn i ws))).
  { intros i. unfold share_start. split; intros H; apply (Rmult_lt_compat_r (total ws)) in H; auto; unfold Rdiv in H; rewrite Rmult_assoc, Rinv_l in H; lra. }
  destruct (pick_between ws u Nw) as (P1 & P2 & P3). split; [|split].
  - intros H E. apply (Sc j) in H. rewrite E in P3. destruct P3 as [P3|P3]; [|lra].
    rewrite P3 in H. cbn [firstn] in H. rewrite total_nil in H. nra.
  - intros [H1 H2]. apply (Sc j) in H1. apply (Sc (S j)) in H2. apply pick_interval; auto.
  - intros H E. rewrite E in P2. destruct P2 as [P2|P2].
    + unfold share_start in H. replace (S j) with (length ws) in H by lia. rewrite firstn_all in H.
      unfold Rdiv in H. rewrite Rinv_r in H; lra.
    + apply (Sc (S j)) in H. lra.
Qed.
(** Two choices made with one random number *)
Lemma both_picks (lws aws : list R) i j c : Forall (fun x => 0 <= x) lws -> 0 < total lws -> (i < length lws)%nat ->
  Forall (fun x => 0 <= x) aws -> 0 < total aws -> (j < length aws)%nat ->
  RInt (fun u => if Nat.eq_dec (pick lws u) i then if Nat.eq_dec (pick aws u) j then c else 0 else 0) 0 1
  = overlap (share_start lws i) (share_start lws (S i)) (share_start aws j) (share_start aws (S j)) * c.
Proof.
  intros Nl Tl Li Na Ta Lj. destruct (share_bounds lws i Nl Tl Li) as [[A1 A2] A3]. destruct (share_bounds aws j Na Ta Lj) as [[B1 B2] B3].
  unfold overlap. set (a := share_start lws i) in *. set (b := share_start lws (S i)) in *. set (p := share_start aws j) in *. set (q := share_start aws (S j)) in *.
  assert (PL : forall u, 0 < u < 1 -> (u < a -> pick lws u <> i) /\ (a < u < b -> pick lws u = i) /\ (b < u -> pick lws u <> i))
    by (intros; apply pick_share; auto).
  assert (PA : forall u, 0 < u < 1 -> (u < p -> pick aws u <> j) /\ (p < u < q -> pick aws u = j) /\ (q < u -> pick aws u <> j))
    by (intros; apply pick_share; auto).
  set (lo := Rmax a p). set (hi := Rmin b q). set (m := Rmax 0 (hi - lo)).
  pose proof (Rmax_l a p) as L1. pose proof (Rmax_r a p) as L2. pose proof (Rmin_l b q) as H1. pose proof (Rmin_r b q) as H2. fold lo in L1, L2. fold hi in H1, H2.
  assert (L3 : lo = a \/ lo = p) by (unfold lo, Rmax; destruct (Rle_dec a p); auto).
  assert (H3 : hi = b \/ hi = q) by (unfold hi, Rmin; destruct (Rle_dec b q); auto).
  assert (M0 : 0 <= m) by apply Rmax_l. assert (M1 : hi - lo <= m) by apply Rmax_r.
  assert (M2 : m = 0 \/ m = hi - lo) by (unfold m, Rmax; destruct (Rle_dec 0 (hi - lo)); auto).
  assert (Lo1 : lo <= 1) by (destruct L3; lra). assert (Hi1 : lo + m <= 1) by (destruct M2; lra). assert (Lo0 : 0 <= lo) by (destruct L3; lra).
  rewrite (steps_unit [lo; m; 1 - lo - m] [0; c; 0]); [cbn; ring | | cbn; ring].
  cbn [steps]. rewrite !Rplus_0_l. repeat split; try lra.
  - intros u U. destruct (Nat.eq_dec (pick lws u) i) as [E|E]; [|reflexivity]. destruct (Nat.eq_dec (pick aws u) j) as [E'|E']; [|reflexivity].
    exfalso. destruct (PL u ltac:(lra)) as (X & _). destruct (PA u ltac:(lra)) as (Y & _).
    destruct L3; [apply X | apply Y]; auto; lra.
  - intros u U. assert (m = hi - lo) by (destruct M2; lra). destruct (PL u ltac:(lra)) as (_ & X & _). destruct (PA u ltac:(lra)) as (_ & Y & _).
    rewrite X, Y by lra. destruct (Nat.eq_dec i i); [|congruence]. destruct (Nat.eq_dec j j); congruence.
  - intros u U. destruct (Nat.eq_dec (pick lws u) i) as [E|E]; [|reflexivity]. destruct (Nat.eq_dec (pick aws u) j) as [E'|E']; [|reflexivity].
    exfalso. destruct (PL u ltac:(lra)) as (_ & _ & X). destruct (PA u ltac:(lra)) as (_ & _ & Y).
    destruct H3; [apply X | apply Y]; auto; lra.
Qed.

Lemma spell_length codes pos l : spell codes pos = Ok l -> length l = length pos.
Proof.
  unfold spell. revert l. induction pos as [|p pos IH]; intros l E; cbn [mapM] in E; [injection E as <-; reflexivity|].
  destruct (nth_error codes p); [|discriminate]. cbn [bind] in E. destruct (mapM _ pos) as [t| |]; try discriminate. injection E as <-.
  cbn. f_equal. apply IH. reflexivity.
Qed.
Lemma spell_nth codes pos : Forall (fun p => (p < length codes)%nat) pos -> spell codes pos = Ok (map (fun p => nth p codes 0%Z) pos).
Proof.
  unfold spell. induction 1 as [|p pos Hp _ IH]; [reflexivity|]. cbn [mapM map].
  rewrite (nth_error_nth' codes 0%Z Hp). cbn [bind]. rewrite IH. reflexivity.
Qed.
Lemma map_nth_inj codes a b : NoDup codes -> Forall (fun p => (p < length codes)%nat) a -> Forall (fun p => (p < length codes)%nat) b ->
  map (fun p => nth p codes 0%Z) a = map (fun p => nth p codes 0%Z) b -> a = b.
Proof.
  intros ND Fa. revert b. induction Fa as [|x a Hx _ IH]; intros [|y b] Fb E; try discriminate; [reflexivity|].
  apply Forall_cons_iff in Fb as [Hy Fb]. injection E as E1 E2. f_equal; [|apply IH; auto].
  apply (proj1 (NoDup_nth codes 0%Z) ND); auto.
Qed.

(** ** Theorems *)

(** Word(Choice(lens, weights=lws), Choice(codes, weights=aws)): the probability that
    the first word has the length [lens[i]], begins with the letter [codes[j]] and goes
    on with the letters at [ks].  Length and first letter are decided by one random
    number: it has to be in the share of both. *)
Theorem C100_probability : forall fuel str_of (w : world RP) id lens (lws : list R) codes (aws : list R) i j ks,
  spelled RP w id lens lws codes (Some aws) ->
  (2 <= length lens)%nat -> length lws = length lens -> Forall (fun x => 0 <= x) lws -> 0 < total lws ->
  (2 <= length codes)%nat -> length aws = length codes -> Forall (fun x => 0 <= x) aws -> 0 < total aws ->
  NoDup lens -> NoDup codes -> nth_error lens i = Some (zlen (j :: ks)) -> Forall (fun k => (k < length codes)%nat) (j :: ks) ->
  probability (seq 0 (length (j :: ks)))
    (fun us => is_word (map (fun k => nth k codes 0%Z) (j :: ks)) (first_word RP fuel str_of id (map us (seq 0 (length (j :: ks)))) w))
  = overlap (share_start lws i) (share_start lws (S i)) (share_start aws j) (share_start aws (S j)) * each_alone aws ks.
Proof.
  intros fuel str_of w id lens lws codes aws i j ks Sp Nl Ll Fl Tl Na La Fa Ta NDl NDc Ei Fk.
  assert (Nlw : lws <> []) by (intros ->; cbn in Ll; lia). assert (Naw : aws <> []) by (intros ->; cbn in La; lia).
  assert (Ul : usable RP lws (length lens)) by (split; [exact Ll | rewrite last_total by exact Nlw; apply Rltb_true; exact Tl]).
  assert (Ua : usable RP aws (length codes)) by (split; [exact La | rewrite last_total by exact Naw; apply Rltb_true; exact Ta]).
  assert (Li : (i < length lws)%nat) by (rewrite Ll; apply nth_error_Some; congruence).
  pose proof (Forall_inv Fk) as Lj. pose proof (Forall_inv_tail Fk) as Fks.
  unfold probability. set (out := map (fun k => nth k codes 0%Z) (j :: ks)).
  rewrite (average_avgl (fun l => if is_word out (first_word RP fuel str_of id l w) then 1 else 0)).
  cbn [length avgl]. rewrite <- (both_picks lws aws i j (each_alone aws ks) Fl Tl Li Fa Ta ltac:(rewrite La; exact Lj)).
  apply RInt_ext. rewrite Rmin_left, Rmax_right by lra. intros u U.
  assert (Val : forall l, length l = length ks -> is_word out (first_word RP fuel str_of id (u :: l) w) =
    if Nat.eq_dec (pick lws u) i then if Nat.eq_dec (pick aws u) j then if list_eq_dec Nat.eq_dec (map (pick aws) l) ks then true else false else false else false).
  { intros l Hl. rewrite (C100_same_draw fuel str_of RP_quiet w id lens lws codes (Some aws) (u :: l) Sp Nl Ul Na Ua).
    change (r_seeded RP (u :: l)) with (u :: l). change (fst (r_random RP (u :: l))) with u. rewrite (position_pick lws u Nlw).
    unfold letter_indices.
    assert (Bd : forall vs, Forall (fun p => (p < length codes)%nat) (map (letter_index RP (Some aws) (length codes)) vs)).
    { intros vs. apply Forall_forall. intros p Hp. apply in_map_iff in Hp as (v & <- & _). cbn [letter_index]. rewrite (position_pick aws v Naw).
      destruct (pick_between aws v Naw) as (Q & _). rewrite La in Q. exact Q. }
    rewrite (spell_nth codes _ (Bd _)). cbn [bind is_word].
    destruct (Nat.eq_dec (pick lws u) i) as [E|E].
    - rewrite E. rewrite (nth_error_nth _ _ 0%Z Ei). unfold zlen. rewrite Nat2Z.id. cbn [length].
      rewrite (rp_draws (S (length ks)) (u :: l)) by (cbn; lia). cbn [fst]. rewrite firstn_all2 by (cbn; lia).
      assert (PP : map (letter_index RP (Some aws) (length codes)) (u :: l) = pick aws u :: map (pick aws) l).
      { cbn [map letter_index]. f_equal; [apply position_pick; exact Naw|]. apply map_ext. intros v. apply position_pick; exact Naw. }
      specialize (Bd (u :: l)). rewrite PP in Bd |- *.
      destruct (list_eq_dec Z.eq_dec _ out) as [Q|Q].
      + apply (map_nth_inj codes _ _ NDc Bd Fk) in Q. injection Q as -> ->. destruct (Nat.eq_dec j j); [|congruence].
        destruct (list_eq_dec Nat.eq_dec ks ks); congruence.
      + destruct (Nat.eq_dec (pick aws u) j) as [E1|]; [|reflexivity]. destruct (list_eq_dec Nat.eq_dec _ ks) as [E2|]; [|reflexivity].
        exfalso. apply Q. rewrite E1, E2. reflexivity.
    - destruct (list_eq_dec Z.eq_dec _ out) as [Q|Q]; [|reflexivity]. exfalso. apply (f_equal (@length Z)) in Q. unfold out in Q.
      rewrite !map_length, draws_length in Q. cbn [length] in Q.
      assert (Lp : (pick lws u < length lens)%nat) by (rewrite <- Ll; apply (pick_between lws u Nlw)).
      apply E. apply (proj1 (NoDup_nth_error lens) NDl); [exact Lp|]. rewrite Ei, (nth_error_nth' lens 0%Z Lp). f_equal. unfold zlen. cbn [length]. lia. }
  destruct (Nat.eq_dec (pick lws u) i) as [E|E]; [destruct (Nat.eq_dec (pick aws u) j) as [E'|E']|].
  - rewrite <- (avgl_each (pick aws) aws ks Fa Ta).
    + apply avgl_ext. intros l Hl. rewrite (Val l Hl). destruct (list_eq_dec _ _ _); reflexivity.
    + intros k v Hk Hv. apply pick_interval; auto.
    + intros k Hk. rewrite La. exact (proj1 (Forall_forall _ _) Fks k Hk).
  - transitivity (avgl (length ks) (fun _ => 0)); [apply avgl_ext; intros l Hl; rewrite (Val l Hl); reflexivity | apply avgl_const].
  - transitivity (avgl (length ks) (fun _ => 0)); [apply avgl_ext; intros l Hl; rewrite (Val l Hl); reflexivity | apply avgl_const].
Qed.
Print Assumptions C100_probability.

(** Seeded apart, they are independent: the probability of a word is the share of its
    length times the shares of its letters. *)
Theorem C100_apart_probability : forall fuel str_of (w : world RP) id lens (lws : list R) codes (aws : list R) i j ks,
  spelled RP w id lens lws codes (Some aws) ->
  (2 <= length lens)%nat -> length lws = length lens -> Forall (fun x => 0 <= x) lws -> 0 < total lws ->
  (2 <= length codes)%nat -> length aws = length codes -> Forall (fun x => 0 <= x) aws -> 0 < total aws ->
  NoDup lens -> NoDup codes -> nth_error lens i = Some (zlen (j :: ks)) -> Forall (fun k => (k < length codes)%nat) (j :: ks) ->
  probability (seq 0 (S (length (j :: ks))))
    (fun us => is_word (map (fun k => nth k codes 0%Z) (j :: ks))
                 (first_word_apart RP fuel str_of id [us 0%nat] (map us (seq 1 (length (j :: ks)))) w))
  = nth i lws 0 / total lws * each_alone aws (j :: ks).
Proof.
  intros fuel str_of w id lens lws codes aws i j ks Sp Nl Ll Fl Tl Na La Fa Ta NDl NDc Ei Fk.
  assert (Nlw : lws <> []) by (intros ->; cbn in Ll; lia). assert (Naw : aws <> []) by (intros ->; cbn in La; lia).
  assert (Ul : usable RP lws (length lens)) by (split; [exact Ll | rewrite last_total by exact Nlw; apply Rltb_true; exact Tl]).
  assert (Ua : usable RP aws (length codes)) by (split; [exact La | rewrite last_total by exact Naw; apply Rltb_true; exact Ta]).
  assert (Li : (i < length lws)%nat) by (rewrite Ll; apply nth_error_Some; congruence).
  unfold probability. set (out := map (fun k => nth k codes 0%Z) (j :: ks)). set (m := length (j :: ks)) in *.
  set (one := fun l => if list_eq_dec Nat.eq_dec (map (pick aws) l) (j :: ks) then 1 else 0).
  set (f := fun l : list R => match l with u :: l => if is_word out (first_word_apart RP fuel str_of id [u] l w) then 1 else 0 | [] => 0 end).
  transitivity (average (seq 0 (S m)) (fun us => f (map us (seq 0 (S m)))) (fun _ => 0)); [reflexivity|].
  rewrite (average_avgl f).
  transitivity (avgl (S m) (fun l => match l with u :: l => (fun p l => if Nat.eq_dec p i then one l else 0) (pick lws u) l | [] => 0 end)).
  - apply avgl_ext. intros [|u l] Hl; [discriminate|]. injection Hl as Hl. unfold f.
    rewrite (C100_apart fuel str_of w id lens lws codes (Some aws) [u] l Sp Nl Ul Na Ua).
    change (r_seeded RP l) with l. change (fst (r_random RP (r_seeded RP [u]))) with u. rewrite (position_pick lws u Nlw).
    unfold letter_indices.
    assert (Bd : forall vs, Forall (fun p => (p < length codes)%nat) (map (letter_index RP (Some aws) (length codes)) vs)).
    { intros vs. apply Forall_forall. intros p Hp. apply in_map_iff in Hp as (v & <- & _). cbn [letter_index]. rewrite (position_pick aws v Naw).
      destruct (pick_between aws v Naw) as (Q & _). rewrite La in Q. exact Q. }
    rewrite (spell_nth codes _ (Bd _)). cbn [bind is_word].
    destruct (Nat.eq_dec (pick lws u) i) as [E|E].
    + rewrite E. rewrite (nth_error_nth _ _ 0%Z Ei). unfold zlen. rewrite Nat2Z.id. fold m.
      rewrite (rp_draws m l) by lia. cbn [fst]. rewrite firstn_all2 by lia.
      assert (PP : map (letter_index RP (Some aws) (length codes)) l = map (pick aws) l).
      { apply map_ext. intros v. apply position_pick; exact Naw. }
      specialize (Bd l). rewrite PP in Bd |- *. unfold one.
      destruct (list_eq_dec Z.eq_dec _ out) as [Q|Q]; destruct (list_eq_dec Nat.eq_dec _ (j :: ks)) as [Q'|Q']; try reflexivity.
      * apply (map_nth_inj codes _ _ NDc Bd Fk) in Q. contradiction.
      * exfalso. apply Q. rewrite Q'. reflexivity.
    + destruct (list_eq_dec Z.eq_dec _ out) as [Q|Q]; [|reflexivity]. exfalso. apply (f_equal (@length Z)) in Q. unfold out in Q.
      rewrite !map_length, draws_length in Q. fold m in Q.
      assert (Lp : (pick lws u < length lens)%nat) by (rewrite <- Ll; apply (pick_between lws u Nlw)).
      apply E. apply (proj1 (NoDup_nth_error lens) NDl); [exact Lp|]. rewrite Ei, (nth_error_nth' lens 0%Z Lp). f_equal. unfold zlen.
      fold m. assert (0 < m)%nat by (unfold m; cbn; lia). lia.
  - rewrite (avgl_pick lws m (fun p l => if Nat.eq_dec p i then one l else 0) Fl Tl).
    rewrite (dot_sum lws lws (fun p => avgl m (fun l => if Nat.eq_dec p i then one l else 0)) 0 (each_alone aws (j :: ks)) i 0 eq_refl).
    + cbn [Nat.leb]. rewrite Nat.sub_0_r. unfold Rdiv. ring.
    + intros p Hp. cbn [Nat.add]. destruct (Nat.eqb_spec p i) as [->|Np].
      * destruct (Nat.eq_dec i i); [|congruence]. unfold one, m.
        rewrite (avgl_each (pick aws) aws (j :: ks) Fa Ta); [ring | intros k v Hk Hv; apply pick_interval; auto |].
        intros k Hk. rewrite La. exact (proj1 (Forall_forall _ _) Fk k Hk).
      * destruct (Nat.eq_dec p i); [congruence|]. rewrite avgl_const. ring.
Qed.
Print Assumptions C100_apart_probability.

(** The property: in a seeded Word, the length of the first word and its letters are
    decided independently. *)
Definition C100_statement : Prop := forall fuel str_of (w : world RP) id lens (lws : list R) codes (aws : list R) i j ks,
  reachable RP fuel str_of w -> spelled RP w id lens lws codes (Some aws) ->
  (2 <= length lens)%nat -> length lws = length lens -> Forall (fun x => 0 <= x) lws -> 0 < total lws ->
  (2 <= length codes)%nat -> length aws = length codes -> Forall (fun x => 0 <= x) aws -> 0 < total aws ->
  NoDup lens -> NoDup codes -> nth_error lens i = Some (zlen (j :: ks)) -> Forall (fun k => (k < length codes)%nat) (j :: ks) ->
  probability (seq 0 (length (j :: ks)))
    (fun us => is_word (map (fun k => nth k codes 0%Z) (j :: ks)) (first_word RP fuel str_of id (map us (seq 0 (length (j :: ks)))) w))
  = nth i lws 0 / total lws * each_alone aws (j :: ks).

(** Lengths 1 and 2, letters a and b, all with weight 1: the first word is "b" with
    probability 0 instead of 1/4. *)
Theorem C100_statement_refuted : ~ C100_statement.
Proof.
  intros H. set (str_of := fun _ : val => Ok ([] : list Z)). set (w := made_word RP 9 str_of 1 1 (Some [1; 1])).
  assert (Sp : spelled RP w 2 [1; 2]%Z [1; 1] [97; 98]%Z (Some [1; 1])) by (apply made_word_spelled; reflexivity).
  assert (N12 : NoDup [1; 2]%Z) by (repeat constructor; cbn; intuition discriminate).
  assert (Nab : NoDup [97; 98]%Z) by (repeat constructor; cbn; intuition discriminate).
  assert (F1 : Forall (fun x => 0 <= x) [1; 1]) by (repeat constructor; lra).
  assert (T1 : 0 < total [1; 1]) by (cbn; lra).
  assert (Fj : Forall (fun k => (k < length [97; 98]%Z)%nat) [1%nat]) by (repeat constructor).
  assert (Q1 := H 9%nat str_of w 2%nat [1; 2]%Z [1; 1] [97; 98]%Z [1; 1] 0%nat 1%nat [] (made_word_reachable RP 9 str_of 1 1 (Some [1; 1]) eq_refl) Sp
    (le_n 2) eq_refl F1 T1 (le_n 2) eq_refl F1 T1 N12 Nab eq_refl Fj).
  assert (Q2 := C100_probability 9%nat str_of w 2%nat [1; 2]%Z [1; 1] [97; 98]%Z [1; 1] 0%nat 1%nat [] Sp
    (le_n 2) eq_refl F1 T1 (le_n 2) eq_refl F1 T1 N12 Nab eq_refl Fj).
  rewrite Q1 in Q2. unfold share_start, overlap in Q2. cbn [firstn nth total fold_right each_alone] in Q2.
  unfold Rmax, Rmin in Q2. repeat (destruct (Rle_dec _ _)); lra.
Qed.
Print Assumptions C100_statement_refuted.
