(** * The generator behind [random.Random]: CPython's Mersenne Twister, as an
    instance of the exact primitives.

    /repo does not contain this code.  It is written down from CPython's
    Modules/_randommodule.c and Lib/random.py so that the model of /repo can be
    run on the very numbers the program sees, and compared with the values that
    /repo/tests expects (Conform_*.v).  No theorem about /repo depends on it. *)
From Verif Require Import Base Prims QcNum.
From Coq Require Import NArith QArith Qcanon Permutation.
Open Scope list_scope.
Open Scope N_scope.

Definition w32 (x : N) : N := N.land x 0xffffffff.

(** A generator: the current block of 624 words and what is left of it. *)
Record mt : Type := mkMt { mt_block : list N; mt_left : list N }.

(** _randommodule.c, genrand_uint32: one new word of the block *)
Definition twist1 (a b c : N) : N :=
  let y := N.lor (N.land a 0x80000000) (N.land b 0x7fffffff) in
  N.lxor (N.lxor c (N.shiftr y 1)) (if N.odd y then 0x9908b0df else 0).
Fixpoint map3 (a b c : list N) : list N :=
  match a, b, c with
  | x :: a, y :: b, z :: c => twist1 x y z :: map3 a b c
  | _, _, _ => []
  end.
(** _randommodule.c, genrand_uint32: the next block of 624 words *)
Definition twist (m : list N) : list N :=
  let next := tl m in
  let p1 := map3 (firstn 227 m) next (skipn 397 m) in
  let p2 := map3 (firstn 227 (skipn 227 m)) (skipn 227 next) p1 in
  let p3 := map3 (firstn 169 (skipn 454 m)) (skipn 454 next) p2 in
  p1 ++ p2 ++ p3 ++ map3 (skipn 623 m) (firstn 1 p1) (skipn 169 p2).
(** _randommodule.c, genrand_uint32: tempering *)
Definition temper (y : N) : N :=
  let y := N.lxor y (N.shiftr y 11) in
  let y := N.lxor y (N.land (N.shiftl y 7) 0x9d2c5680) in
  let y := N.lxor y (N.land (N.shiftl y 15) 0xefc60000) in
  N.lxor y (N.shiftr y 18) mod 2 ^ 32.
Definition word (s : mt) : N * mt :=
  match mt_left s with
  | y :: l => (temper y, mkMt (mt_block s) l)
  | [] => let b := twist (mt_block s) in (temper (hd 0 b), mkMt b (tl b))
  end.

(** _randommodule.c, init_genrand *)
Fixpoint init_from (n : nat) (i : N) (prev : N) : list N :=
  match n with
  | O => []
  | S n => let x := w32 (1812433253 * N.lxor prev (N.shiftr prev 30) + i) in
           x :: init_from n (i + 1) x
  end.
Definition init_genrand (s : N) : list N := w32 s :: init_from 623 1 (w32 s).

(** _randommodule.c, init_by_array: [n] steps through the words after the first,
    starting again when the end is reached.  [done] holds the words before the
    current one, the last first. *)
Fixpoint pass (f : N -> N -> N -> nat -> N) (n j : nat) (i : N) (done todo : list N) : list N :=
  match n with
  | O => rev_append done todo
  | S n' =>
      match done, todo with
      | prev :: _, x :: todo => pass f n' (S j) (i + 1) (f prev x i j :: done) todo
      | _, _ => rev_append done todo
      end
  end.
(** From word [i] on to the end, back to the start (word 0 becomes the last word)
    and one more step at word 1; for keys of at most 624 words. *)
Definition wrap (m : list N) : list N := last m 0 :: tl m.
Definition round1 (key : list N) (m : list N) : list N :=
  let f prev x (_ : N) (j : nat) :=
    w32 (N.lxor x (N.lxor prev (N.shiftr prev 30) * 1664525)
         + nth (j mod length key) key 0 + N.of_nat (j mod length key)) in
  let m := wrap (pass f 623 0 1 (firstn 1 m) (skipn 1 m)) in
  pass f 1 623 1 (firstn 1 m) (skipn 1 m).
Definition round2 (m : list N) : list N :=
  let f prev x (i : N) (_ : nat) :=
    w32 (N.lxor x (N.lxor prev (N.shiftr prev 30) * 1566083941) + 2 ^ 32 - i) in
  let m := wrap (pass f 622 0 2 (rev (firstn 2 m)) (skipn 2 m)) in
  pass f 1 0 1 (firstn 1 m) (skipn 1 m).
Definition init_by_array (key : list N) : mt :=
  let m := round2 (round1 key (init_genrand 19650218)) in
  mkMt (0x80000000 :: tl m) [].

(** _randommodule.c, random_seed for an int: the absolute value, 32 bits a word *)
Fixpoint words (fuel : nat) (x : N) : list N :=
  match fuel with
  | O => []
  | S fuel => if x <? 2 ^ 32 then [x] else w32 x :: words fuel (N.shiftr x 32)
  end.
Definition seeded (s : Z) : mt := init_by_array (words 624 (Z.abs_N s)).

(** _randommodule.c, random_random *)
Definition random (s : mt) : Qc * mt :=
  let (a, s) := word s in
  let (b, s) := word s in
  (Q2Qc (Z.of_N (N.shiftr a 5 * 2 ^ 26 + N.shiftr b 6) # 2 ^ 53), s).

(** _randommodule.c, getrandbits, for any number of bits *)
Fixpoint getrandbits (fuel : nat) (k : N) (s : mt) : N * mt :=
  match fuel with
  | O => (0, s)
  | S fuel =>
      let (r, s) := word s in
      if k <=? 32 then (N.shiftr r (32 - k), s)
      else let (h, s) := getrandbits fuel (k - 32) s in (r + N.shiftl h 32, s)
  end.

(** Lib/random.py, _randbelow_with_getrandbits.  The loop ends with probability
    one; after [tries] rounds the model gives up and answers 0. *)
Fixpoint below_loop (tries : nat) (n : N) (s : mt) : N * mt :=
  match tries with
  | O => (0, s)
  | S tries =>
      let k := N.size n in
      let (r, s) := getrandbits (S (N.to_nat (N.shiftr k 5))) k s in
      if r <? n then (r, s) else below_loop tries n s
  end.
Definition below (n : nat) (s : mt) : nat * mt :=
  let (r, s) := below_loop 1000 (N.of_nat n) s in (N.to_nat r, s).

Definition replace_nth (j : nat) (x : nat) (l : list nat) : list nat :=
  firstn j l ++ x :: skipn (S j) l.
(** Lib/random.py, sample: the branch with a pool.  [pool] holds the first n - i
    places of the pool; the rest is never read again. *)
Fixpoint sample_pool (k : nat) (pool : list nat) (s : mt) : list nat * mt :=
  match k with
  | O => ([], s)
  | S k =>
      let (j, s) := below (length pool) s in
      let pool' := removelast (replace_nth j (last pool 0%nat) pool) in
      let (l, s) := sample_pool k pool' s in
      (nth j pool 0%nat :: l, s)
  end.
(** Lib/random.py, sample: the branch with a set of selected places.  When the
    rejection loop of the model gives up it takes the first free place. *)
Fixpoint pick (tries : nat) (n : nat) (sel : list nat) (s : mt) : nat * mt :=
  match tries with
  | O => (hd 0%nat (filter (fun i => negb (existsb (Nat.eqb i) sel)) (seq 0 n)), s)
  | S tries =>
      let (j, s) := below n s in
      if existsb (Nat.eqb j) sel then pick tries n sel s else (j, s)
  end.
Fixpoint sample_set (k n : nat) (sel : list nat) (s : mt) : list nat * mt :=
  match k with
  | O => ([], s)
  | S k =>
      let (j, s) := pick 1000 n sel s in
      let (l, s) := sample_set k n (j :: sel) s in
      (j :: l, s)
  end.
(** Lib/random.py, sample: 4 ** ceil(log(k * 3, 4)) *)
Fixpoint pow4_from (fuel : nat) (p m : N) : N :=
  match fuel with
  | O => p
  | S fuel => if m <=? p then p else pow4_from fuel (4 * p) m
  end.
Definition setsize (k : nat) : N :=
  if (k <=? 5)%nat then 21 else 21 + pow4_from (N.size_nat (N.of_nat (3 * k))) 1 (N.of_nat (3 * k)).
Definition sample (n k : nat) (s : mt) : list nat * mt :=
  if N.of_nat n <=? setsize k then sample_pool k (seq 0 n) s else sample_set k n [] s.

(** Seeds are integers.  The entropy of the operating system, which no program
    can foresee, is replaced by the keys (n, 1, 2, 3). *)
Definition mersenne : qgen := {|
  g_state := mt; g_seed := Z;
  g_seeded := seeded;
  g_fresh := fun n => init_by_array [N.of_nat n; 1; 2; 3];
  g_random := random;
  g_below := below;
  g_sample := sample
|}.

(** ** The generator keeps the contracts the theorems about /repo ask for *)
Lemma temper_bound y : temper y < 2 ^ 32.
Proof. unfold temper. apply N.mod_lt. discriminate. Qed.
Lemma word_bound s : fst (word s) < 2 ^ 32.
Proof. unfold word. destruct (mt_left s); cbn [fst]; apply temper_bound. Qed.

Lemma shiftr_bound x k n : x < 2 ^ (k + n) -> N.shiftr x k < 2 ^ n.
Proof.
  intros H. rewrite N.shiftr_div_pow2. apply N.div_lt_upper_bound.
  - apply N.pow_nonzero. discriminate.
  - rewrite <- N.pow_add_r. exact H.
Qed.

Lemma random_bounds s : (0 <= fst (random s))%Qc /\ (fst (random s) < 1)%Qc.
Proof.
  unfold random. destruct (word s) as [a s1] eqn:E1. destruct (word s1) as [b s2] eqn:E2. cbn [fst].
  pose proof (word_bound s) as H1. rewrite E1 in H1. cbn [fst] in H1.
  pose proof (word_bound s1) as H2. rewrite E2 in H2. cbn [fst] in H2.
  apply (shiftr_bound a 5 27) in H1. apply (shiftr_bound b 6 26) in H2.
  assert (H : N.shiftr a 5 * 2 ^ 26 + N.shiftr b 6 < 2 ^ 53).
  { change (2 ^ 53) with (2 ^ 27 * 2 ^ 26). nia. }
  set (m := N.shiftr a 5 * 2 ^ 26 + N.shiftr b 6) in *. clearbody m.
  unfold Qcle, Qclt. cbn [Q2Qc this]. rewrite !Qred_correct.
  change (this 0%Qc) with 0%Q. change (this 1%Qc) with 1%Q.
  unfold Qle, Qlt. cbn [Qnum Qden].
  assert (Z.of_N m < 9007199254740992)%Z by (change 9007199254740992%Z with (Z.of_N (2 ^ 53)); lia).
  change (Z.pos (2 ^ 53)) with 9007199254740992%Z. split; lia.
Qed.

Lemma below_loop_bound tries n s : 0 < n -> fst (below_loop tries n s) < n.
Proof.
  intros Hn. revert s. induction tries as [|tries IH]; intros s; cbn [below_loop fst]; auto.
  destruct (getrandbits _ _ s) as [r s1]. destruct (N.ltb_spec r n); auto.
Qed.
Lemma below_bound n s : (0 < n)%nat -> (fst (below n s) < n)%nat.
Proof.
  intros Hn. unfold below. pose proof (below_loop_bound 1000 (N.of_nat n) s ltac:(lia)) as H.
  destruct (below_loop _ _ s) as [r s1]. cbn [fst] in *. lia.
Qed.

Lemma swap_out j (pool : list nat) : (j < length pool)%nat ->
  Permutation pool (nth j pool 0%nat :: removelast (replace_nth j (last pool 0%nat) pool)).
Proof.
  intros Hj. destruct (exists_last (l := pool)) as (l & x & ->); [intros ->; cbn in Hj; lia|].
  rewrite last_last. rewrite app_length in Hj. cbn in Hj. unfold replace_nth.
  destruct (Nat.eq_dec j (length l)) as [->|Hne].
  - rewrite app_nth2, Nat.sub_diag by lia. cbn [nth].
    rewrite firstn_app, firstn_all, Nat.sub_diag. cbn [firstn]. rewrite app_nil_r.
    rewrite skipn_all2 by (rewrite app_length; cbn; lia).
    rewrite removelast_last. apply Permutation_sym, Permutation_cons_append.
  - rewrite app_nth1 by lia. rewrite firstn_app.
    replace (j - length l)%nat with 0%nat by lia. cbn [firstn]. rewrite app_nil_r.
    rewrite skipn_app. replace (S j - length l)%nat with 0%nat by lia. cbn [skipn].
    rewrite app_comm_cons, app_assoc, removelast_last.
    rewrite <- Permutation_cons_append.
    transitivity (x :: firstn j l ++ nth j l 0%nat :: skipn (S j) l).
    + apply perm_skip. apply Permutation_refl'.
      assert (H : (j < length l)%nat) by lia. clear Hj Hne. revert l H.
      induction j as [|j IH]; intros [|y l] H; cbn in *; try lia; auto. f_equal. apply IH. lia.
    + rewrite <- Permutation_middle. rewrite perm_swap. apply perm_skip. apply Permutation_middle.
Qed.

Lemma sample_pool_ok k : forall pool s, (k <= length pool)%nat -> NoDup pool ->
  let l := fst (sample_pool k pool s) in
  length l = k /\ NoDup l /\ (forall i, In i l -> In i pool).
Proof.
  induction k as [|k IH]; intros pool s Hk Hn; cbn [sample_pool fst].
  - split; auto. split; [constructor|]. intros i [].
  - destruct (below (length pool) s) as [j s1] eqn:Ej.
    pose proof (below_bound (length pool) s ltac:(lia)) as Hj. rewrite Ej in Hj. cbn [fst] in Hj.
    pose proof (swap_out j pool Hj) as Hp. set (pool' := removelast _) in *.
    pose proof (Permutation_length Hp) as Hl. cbn [length] in Hl.
    pose proof (Permutation_NoDup Hp Hn) as Hn'. inversion Hn' as [|? ? Hni Hn2]; subst.
    specialize (IH pool' s1 ltac:(lia) Hn2). destruct (sample_pool k pool' s1) as [l s2]. cbn [fst] in *.
    destruct IH as (H1 & H2 & H3). split; [cbn; lia|]. split.
    + constructor; auto.
    + intros i [<-|Hi]; [apply nth_In; auto|]. eapply Permutation_in; [symmetry; exact Hp|]. right. auto.
Qed.

Lemma existsb_in j sel : existsb (Nat.eqb j) sel = true <-> In j sel.
Proof.
  rewrite existsb_exists. split.
  - intros (x & Hx & He). apply Nat.eqb_eq in He. subst. auto.
  - intros H. exists j. split; auto. apply Nat.eqb_refl.
Qed.
Lemma pick_ok n sel : (length sel < n)%nat -> NoDup sel -> forall tries s,
  let j := fst (pick tries n sel s) in (j < n)%nat /\ ~ In j sel.
Proof.
  intros Hlt Hn. induction tries as [|tries IH]; intros s; cbn [pick fst].
  - set (free := filter _ _).
    assert (Hin : forall i, In i free <-> (i < n)%nat /\ ~ In i sel).
    { intros i. unfold free. rewrite filter_In, in_seq, negb_true_iff, <- not_true_iff_false, existsb_in. split; intros; lia || (destruct H; split; auto; lia). }
    destruct free as [|i free']; [exfalso|apply Hin; left; auto].
    assert (Hi : incl (seq 0 n) sel).
    { intros i Hi. apply in_seq in Hi. destruct (in_dec Nat.eq_dec i sel) as [|Hno]; auto.
      destruct (proj2 (Hin i)); split; auto; lia. }
    apply NoDup_incl_length in Hi; [|apply seq_NoDup]. rewrite seq_length in Hi. lia.
  - destruct (below n s) as [j s1] eqn:Ej.
    pose proof (below_bound n s ltac:(lia)) as Hj. rewrite Ej in Hj. cbn [fst] in Hj.
    destruct (existsb (Nat.eqb j) sel) eqn:E; [apply IH|]. cbn [fst]. split; auto.
    rewrite <- existsb_in. congruence.
Qed.
Lemma sample_set_ok n k : forall sel s, (k + length sel <= n)%nat -> NoDup sel ->
  let l := fst (sample_set k n sel s) in
  length l = k /\ NoDup l /\ (forall i, In i l -> (i < n)%nat /\ ~ In i sel).
Proof.
  induction k as [|k IH]; intros sel s Hk Hn; cbn [sample_set fst].
  - split; auto. split; [constructor|]. intros i [].
  - destruct (pick 1000 n sel s) as [j s1] eqn:Ej.
    pose proof (pick_ok n sel ltac:(lia) Hn 1000 s) as Hj. rewrite Ej in Hj. cbn [fst] in Hj. destruct Hj as [Hj Hjn].
    specialize (IH (j :: sel) s1 ltac:(cbn; lia) ltac:(constructor; auto)).
    destruct (sample_set k n (j :: sel) s1) as [l s2]. cbn [fst] in *.
    destruct IH as (H1 & H2 & H3). split; [cbn; lia|]. split.
    + constructor; auto. intros Hi. apply H3 in Hi as [_ Hi]. apply Hi. left; auto.
    + intros i [<-|Hi]; auto. apply H3 in Hi as [Hi Hs]. split; auto. intros Hx. apply Hs. right; auto.
Qed.

Theorem mersenne_ok : qgen_ok mersenne.
Proof.
  constructor.
  - intros r. apply random_bounds.
  - intros n r Hn. apply below_bound; auto.
  - intros n k r Hk. cbn [mersenne g_sample]. unfold sample. destruct (N.of_nat n <=? setsize k).
    + pose proof (sample_pool_ok k (seq 0 n) r) as H. rewrite seq_length in H.
      specialize (H Hk (seq_NoDup n 0)). cbn zeta in *. destruct H as (H1 & H2 & H3). split; auto. split; auto.
      intros i Hi. apply H3, in_seq in Hi. lia.
    + pose proof (sample_set_ok n k [] r ltac:(cbn; lia) ltac:(constructor)) as H. cbn zeta in *.
      destruct H as (H1 & H2 & H3). split; auto. split; auto. intros i Hi. apply H3 in Hi. tauto.
Qed.

(** The primitives of the model on this generator. *)
Definition MP : prims := QP mersenne.
Theorem mersenne_rng_ok : rng_ok MP.
Proof. apply qc_rng_ok. apply mersenne_ok. Qed.
