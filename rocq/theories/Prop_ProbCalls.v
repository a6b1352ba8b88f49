(** * Probabilities of successive calls: property C83.  Vocabulary: [ProbSpec.v]. *)
From Coq Require Import Reals Lra List Arith Lia Permutation.
From Coquelicot Require Import Coquelicot.
From Verif Require Import Base Prims MathModel MathSpec MathProofs Threshold NumLaws ChoiceModel ChoiceProofs ChoiceProofs2 RealNum ProbSpec ProbProofs ProbMany Prop_Prob.
Import ListNotations.
Open Scope list_scope.
Open Scope R_scope.

(** The calls [c(n)] for each [n] of [numbers], one after the other *)
Fixpoint calls {A} (setsize : list A -> res Z) fuel (numbers : list Z) (c : @choice RP A) : res (list (list A)) :=
  match numbers with
  | [] => Ok []
  | n :: numbers =>
      match choice_call_n RP setsize fuel n c with
      | (Ok l, c) => ls <- calls setsize fuel numbers c ;; Ok (l :: ls)
      | (Raise e, _) => Raise e
      | (Diverge, _) => Diverge
      end
  end.
(** The calls of a new Choice *)
Definition first_calls {A} (setsize : list A -> res Z) fuel (items : list A) (ws : option (list R)) (replace roac : bool)
    (us : list R) (numbers : list Z) : res (list (list A)) :=
  c <- choice_new RP fuel items ws replace roac (Some us) None 0 ;; calls setsize fuel numbers c.

Definition state {A} (items : list A) (ws : option (list R)) cum seed (l : list R) : @choice RP A :=
  mkChoice (P := RP) items ws cum true false (zlen items) [] None seed l.

Lemma app_eq_app_length {A} (a b c d : list A) : a ++ b = c ++ d -> length a = length c -> a = c /\ b = d.
Proof.
  revert c. induction a as [|x a IH]; intros [|y c] E L; cbn in *; try discriminate; [auto|].
  injection E as -> E. apply IH in E as [-> ->]; [auto|lia].
Qed.

(** One call with replacement *)
Lemma call_state {A} setsize fuel (items : list A) ws cum seed pk (l1 l2 : list R) :
  choice_with_replacement RP (zlen l1) (state items ws cum seed (l1 ++ l2)) = mapS (get_item items) (map pk l1) (state items ws cum seed l2) ->
  choice_call_n RP setsize fuel (zlen l1) (state items ws cum seed (l1 ++ l2)) = mapS (get_item items) (map pk l1) (state items ws cum seed l2).
Proof.
  intros H. unfold choice_call_n. destruct (Z.eqb_spec (zlen l1) 1) as [Z1|Z1].
  - rewrite Z1 in H. unfold mbind at 1, choice_emit, mbind at 1, get, mbind at 1. cbn [c_replace state negb]. fold (state items ws cum seed (l1 ++ l2)).
    rewrite H. destruct l1 as [|u [|v l1]]; try (unfold zlen in Z1; cbn [length] in Z1; lia). cbn [map mapS]. unfold mbind, get_item.
    destruct (nth_error items (pk u)); reflexivity.
  - unfold choice_emit_many, mbind, get. cbn [c_replace c_roac state negb orb andb]. exact H.
Qed.

Lemma calls_state {A} dec setsize fuel (items : list A) ws cum seed pk : NoDup items ->
  (forall l1 l2 : list R, choice_with_replacement RP (zlen l1) (state items ws cum seed (l1 ++ l2)) = mapS (get_item items) (map pk l1) (state items ws cum seed l2)) ->
  forall outs pss l, Forall2 (picks items) pss outs -> length l = length (concat outs) ->
  returned (list_eq_dec dec) outs (calls setsize fuel (map zlen outs) (state items ws cum seed l)) =
  if list_eq_dec Nat.eq_dec (map pk l) (concat pss) then true else false.
Proof.
  intros ND H. induction outs as [|out outs IH]; intros pss l F L.
  - inversion F; subst. destruct l; [reflexivity|discriminate].
  - inversion F as [|ps ? pss' ? Pk F']; subst. cbn [concat] in *. rewrite app_length in L.
    set (l1 := firstn (length out) l). set (l2 := skipn (length out) l).
    assert (El : l = l1 ++ l2) by (symmetry; apply firstn_skipn).
    assert (L1 : length l1 = length out) by (subst l1; rewrite firstn_length; lia).
    assert (L2 : length l2 = length (concat outs)) by (subst l2; rewrite skipn_length; lia).
    clearbody l1 l2. subst l. cbn [map calls].
    assert (Zl : zlen out = zlen l1) by (unfold zlen; lia). rewrite Zl, (call_state _ _ _ _ _ _ pk _ _ (H l1 l2)).
    pose proof (mapS_returned dec items (map pk l1) ps out (state items ws cum seed l2) ND Pk) as M.
    rewrite map_app.
    pose proof (picks_length _ _ _ Pk) as Lp.
    destruct (mapS (get_item items) (map pk l1) (state items ws cum seed l2)) as [r c] eqn:E. pose proof (mapS_get_state _ _ _ _ _ E) as ->.
    cbn [fst] in M. specialize (IH pss' l2 F' L2).
    assert (Sp : map pk l1 ++ map pk l2 = ps ++ concat pss' <-> map pk l1 = ps /\ map pk l2 = concat pss').
    { split; [|intros [-> ->]; reflexivity]. intros Q. apply app_eq_app_length in Q; [exact Q|]. rewrite map_length. lia. }
    destruct r as [o| |].
    + cbn [returned] in M. destruct (list_eq_dec dec o out) as [->|No].
      * destruct (list_eq_dec Nat.eq_dec (map pk l1) ps) as [E1|]; [|discriminate].
        destruct (calls setsize fuel (map zlen outs) (state items ws cum seed l2)) as [ls| |]; cbn [bind returned] in *.
        -- destruct (list_eq_dec (list_eq_dec dec) ls outs) as [->|Nl]; destruct (list_eq_dec _ (map pk l2) _) as [E2|E2]; try discriminate;
           destruct (list_eq_dec _ (out :: _) _) as [E3|E3]; destruct (list_eq_dec _ (_ ++ _) _) as [E4|E4]; try reflexivity; exfalso;
           try congruence; try (apply E4, Sp; split; assumption); try (apply Sp in E4 as [_ E4]; contradiction).
        -- destruct (list_eq_dec _ (map pk l2) _); [discriminate|]. destruct (list_eq_dec _ (_ ++ _) _) as [E4|]; [|reflexivity]. apply Sp in E4 as [_ E4]. contradiction.
        -- destruct (list_eq_dec _ (map pk l2) _); [discriminate|]. destruct (list_eq_dec _ (_ ++ _) _) as [E4|]; [|reflexivity]. apply Sp in E4 as [_ E4]. contradiction.
      * destruct (list_eq_dec Nat.eq_dec (map pk l1) ps) as [|N1]; [discriminate|].
        destruct (list_eq_dec _ (_ ++ _) _) as [E4|_]; [apply Sp in E4 as [E4 _]; contradiction|].
        destruct (calls setsize fuel (map zlen outs) (state items ws cum seed l2)) as [ls| |]; cbn [bind returned]; try reflexivity.
        destruct (list_eq_dec _ (o :: ls) _) as [E5|]; [|reflexivity]. congruence.
    + cbn [returned] in M. destruct (list_eq_dec Nat.eq_dec (map pk l1) ps); [discriminate|].
      destruct (list_eq_dec _ (_ ++ _) _) as [E4|_]; [apply Sp in E4 as [E4 _]; contradiction|reflexivity].
    + cbn [returned] in M. destruct (list_eq_dec Nat.eq_dec (map pk l1) ps); [discriminate|].
      destruct (list_eq_dec _ (_ ++ _) _) as [E4|_]; [apply Sp in E4 as [E4 _]; contradiction|reflexivity].
Qed.

Lemma first_calls_replacing {A} setsize fuel (items : list A) ws us numbers :
  items <> [] -> length (used_weights items ws) = length items ->
  exists cum, first_calls setsize fuel items ws true false us numbers = calls setsize fuel numbers (state items ws cum (Some us) us)
  /\ match ws with Some w => cum = Some (accumulate RP w) | None => True end.
Proof.
  intros NE L. destruct (new_replacing fuel items ws false us NE L) as (cum & E & C). exists cum. split; [|exact C].
  exact (f_equal (fun x => bind x (fun c => calls setsize fuel numbers c)) E).
Qed.

Lemma calls_one {A} setsize fuel (a : A) ws cum seed l : forall outs pss, Forall2 (picks [a]) pss outs ->
  calls setsize fuel (map zlen outs) (state [a] ws cum seed l) = Ok outs.
Proof.
  induction outs as [|out outs IH]; intros pss F; [reflexivity|]. inversion F as [|ps ? pss' ? Pk F']; subst. cbn [map calls].
  assert (P1 : list_rep [a] (zlen out) = out).
  { clear - Pk. unfold list_rep, zlen. rewrite Nat2Z.id. induction Pk as [|p x ps out H Pk IH]; [reflexivity|].
    destruct p as [|p]; [|destruct p; discriminate]. injection H as <-. cbn [length list_rep_nat app]. f_equal. exact IH. }
  assert (H : choice_with_replacement RP (zlen out) (state [a] ws cum seed l) = (Ok out, state [a] ws cum seed l)).
  { unfold choice_with_replacement, mbind, get. cbn [c_items state]. change (zlen [a] =? 1)%Z with true. cbv iota. rewrite P1. reflexivity. }
  assert (E : choice_call_n RP setsize fuel (zlen out) (state [a] ws cum seed l) = (Ok out, state [a] ws cum seed l)).
  { unfold choice_call_n. destruct (Z.eqb_spec (zlen out) 1) as [Z1|Z1].
    - rewrite Z1 in H. unfold mbind at 1, choice_emit, mbind at 1, get, mbind at 1. cbn [c_replace state negb]. fold (state [a] ws cum seed l).
      rewrite H. destruct out as [|x [|y out]]; try (unfold zlen in Z1; cbn [length] in Z1; lia). reflexivity.
    - unfold choice_emit_many, mbind, get. cbn [c_replace c_roac state negb orb andb]. exact H. }
  rewrite E, (IH pss' F'). reflexivity.
Qed.

Lemma Forall2_concat {A} (items : list A) pss outs : Forall2 (picks items) pss outs -> picks items (concat pss) (concat outs).
Proof. induction 1 as [|ps out pss outs H F IH]; [constructor|]. cbn. clear F. induction H; [exact IH|]. cbn. constructor; assumption. Qed.

(** With replacement, the values of all calls are independent of each other. *)
Theorem C83_with_replacement : forall (A : Type) (dec : forall a b : A, {a = b} + {a <> b}) setsize items ws pss outs fuel,
  items <> [] -> NoDup items -> length ws = length items -> Forall (fun w => 0 <= w) ws -> 0 < total ws ->
  Forall2 (picks items) pss outs ->
  probability (seq 0 (length (concat outs))) (fun us =>
    returned (list_eq_dec dec) outs
      (first_calls setsize fuel items (Some ws) true false (map us (seq 0 (length (concat outs)))) (map zlen outs)))
  = each_alone ws (concat pss).
Proof.
  intros A dec setsize items ws pss outs fuel NE ND L F T Pk. unfold probability. set (N := length (concat outs)).
  rewrite (average_avgl (fun l => if returned (list_eq_dec dec) outs (first_calls setsize fuel items (Some ws) true false l (map zlen outs)) then 1 else 0)).
  pose proof (Forall2_concat _ _ _ Pk) as Pc. pose proof (picks_length _ _ _ Pc) as Lp. fold N in Lp.
  destruct (Nat.eq_dec (length items) 1) as [E1|E1].
  - destruct items as [|a [|b items]]; cbn in E1; try lia. destruct ws as [|w [|w' ws]]; cbn in L; try lia.
    assert (P1 : each_alone [w] (concat pss) = 1).
    { clear - Pc T. induction Pc as [|p x ps out H Pk IH]; [reflexivity|]. destruct p as [|p]; [|destruct p; discriminate].
      rewrite each_cons, IH. unfold total in *. cbn in *. field. lra. }
    rewrite P1. transitivity (avgl N (fun _ => 1)); [|apply avgl_const]. apply avgl_ext. intros l Hl.
    destruct (first_calls_replacing setsize fuel [a] (Some [w]) l (map zlen outs)) as (cum & E & _); [congruence|reflexivity|]. rewrite E.
    rewrite (calls_one setsize fuel a _ _ _ _ outs pss Pk). cbn [returned]. destruct (list_eq_dec _ outs outs); [reflexivity|contradiction].
  - rewrite <- (avgl_each (pick ws) ws (concat pss) F T).
    + rewrite Lp. apply avgl_ext. intros l Hl.
      destruct (first_calls_replacing setsize fuel items (Some ws) l (map zlen outs)) as (cum & E & ->); [exact NE|exact L|]. rewrite E.
      rewrite (calls_state dec setsize fuel items (Some ws) _ _ (pick ws) ND) with (pss := pss); auto.
      * destruct (list_eq_dec _ _ _); reflexivity.
      * intros l1 l2. assert (NW : ws <> []) by (destruct ws; [destruct items; [congruence|discriminate]|congruence]).
        pose proof (accumulate_length' RP ws) as LA. destruct (accumulate_last ws NW) as [q Q]. change (pW RP) with R in *.
        unfold choice_with_replacement, mbind at 1, get. cbn [c_items c_weights c_cum state].
        destruct (Z.eqb_spec (zlen items) 1) as [E2|_]; [unfold zlen in E2; lia|].
        unfold mbind, on_rng. cbn [c_rng state]. unfold choices_cum. change (pW RP) with R in *. rewrite LA, L, Nat.eqb_refl. cbn [negb]. rewrite Q.
        change (w_total_ok RP (total ws)) with (Rltb 0 (total ws)). rewrite (proj2 (Rltb_true _ _) T). cbn [negb].
        replace (Z.to_nat (zlen l1)) with (length l1) by (unfold zlen; lia). rewrite rp_draws by (rewrite app_length; lia).
        rewrite firstn_app, firstn_all, Nat.sub_diag, app_nil_r, skipn_app, skipn_all, Nat.sub_diag. cbn [fst snd skipn app].
        change (set_rng RP l2 (state items (Some ws) (Some (accumulate RP ws)) (Some l) (l1 ++ l2))) with (state items (Some ws) (Some (accumulate RP ws)) (Some l) l2).
        f_equal. apply map_ext. intros u. unfold pick. change (pW RP) with R in *. rewrite LA, L. reflexivity.
    + intros i u Hi U. apply pick_interval; auto.
    + rewrite L. apply (picks_bound _ _ _ Pc).
Qed.

(** Without weights *)
Theorem C83_uniform : forall (A : Type) (dec : forall a b : A, {a = b} + {a <> b}) setsize items outs fuel,
  items <> [] -> NoDup items -> incl (concat outs) items ->
  probability (seq 0 (length (concat outs))) (fun us =>
    returned (list_eq_dec dec) outs
      (first_calls setsize fuel items None true false (map us (seq 0 (length (concat outs)))) (map zlen outs)))
  = / INR (length items) ^ length (concat outs).
Proof.
  intros A dec setsize items outs fuel NE ND I. unfold probability. set (N := length (concat outs)).
  rewrite (average_avgl (fun l => if returned (list_eq_dec dec) outs (first_calls setsize fuel items None true false l (map zlen outs)) then 1 else 0)).
  assert (Pk : exists pss, Forall2 (picks items) pss outs).
  { clear - I. induction outs as [|out outs IH]; [exists []; constructor|]. cbn [concat] in I.
    destruct IH as [pss F]; [intros x X; apply I, in_or_app; right; exact X|].
    assert (H : exists ps, picks items ps out).
    { assert (J : incl out items) by (intros x X; apply I, in_or_app; left; exact X). clear - J.
      induction out as [|a out IH]; [exists []; constructor|]. destruct IH as [ps Pk]; [intros x X; apply J; right; exact X|].
      destruct (In_nth_error items a (J a (or_introl eq_refl))) as [p P]. exists (p :: ps). constructor; assumption. }
    destruct H as [ps H]. exists (ps :: pss). constructor; assumption. }
  destruct Pk as [pss Pk].
  pose proof (Forall2_concat _ _ _ Pk) as Pc. pose proof (picks_length _ _ _ Pc) as Lp. fold N in Lp.
  assert (Nn : (0 < length items)%nat) by (destruct items; [congruence|cbn; lia]).
  assert (Np : 0 < INR (length items)) by (apply lt_0_INR, Nn).
  destruct (Nat.eq_dec (length items) 1) as [E1|E1].
  - destruct items as [|a [|b items]]; cbn in E1; try lia.
    transitivity (avgl N (fun _ => 1)); [|rewrite avgl_const; cbn [length INR]; rewrite pow1; lra]. apply avgl_ext. intros l Hl.
    destruct (first_calls_replacing setsize fuel [a] None l (map zlen outs)) as (cum & E & _); [congruence|reflexivity|]. rewrite E.
    rewrite (calls_one setsize fuel a _ _ _ _ outs pss Pk). cbn [returned]. destruct (list_eq_dec _ outs outs); [reflexivity|contradiction].
  - transitivity (each_alone (repeat 1 (length items)) (concat pss)).
    + rewrite <- (avgl_each (fun u => u_floor RP u (length items)) (repeat 1 (length items)) (concat pss)).
      * rewrite Lp. apply avgl_ext. intros l Hl.
        destruct (first_calls_replacing setsize fuel items None l (map zlen outs)) as (cum & E & _); [exact NE|apply repeat_length|]. rewrite E.
        rewrite (calls_state dec setsize fuel items None _ _ (fun u => u_floor RP u (length items)) ND) with (pss := pss); auto.
        -- destruct (list_eq_dec _ _ _); reflexivity.
        -- intros l1 l2. unfold choice_with_replacement, mbind at 1, get. cbn [c_items c_weights c_cum state].
           destruct (Z.eqb_spec (zlen items) 1) as [E2|_]; [unfold zlen in E2; lia|].
           destruct (Z.eqb_spec (zlen l1) 1) as [Q|Q].
           ++ destruct l1 as [|u [|v l1]]; unfold zlen in Q; cbn [length] in Q; try lia. unfold mbind, on_rng. cbn. unfold get_item, ret, raise.
              destruct (nth_error items _); reflexivity.
           ++ unfold mbind, on_rng. cbn [c_rng state]. unfold choices_uniform.
              replace (Z.to_nat (zlen l1)) with (length l1) by (unfold zlen; lia). rewrite rp_draws by (rewrite app_length; lia).
              rewrite firstn_app, firstn_all, Nat.sub_diag, app_nil_r, skipn_app, skipn_all, Nat.sub_diag. cbn [fst snd skipn app].
              change (set_rng RP l2 (state items None cum (Some l) (l1 ++ l2))) with (state items None cum (Some l) l2). reflexivity.
      * apply Forall_forall. intros x X. apply repeat_spec in X. subst. lra.
      * rewrite total_ones. exact Np.
      * intros i u Hi U. rewrite repeat_length in Hi. rewrite total_ones, !firstn_ones, !total_ones in U by lia. apply floor_interval; auto.
      * rewrite repeat_length. apply (picks_bound _ _ _ Pc).
    + rewrite <- Lp. pose proof (picks_bound _ _ _ Pc) as B. clear - B Np. induction (concat pss) as [|p ps IH]; [cbn; lra|].
      rewrite each_cons, IH by (intros q Q; apply B; right; exact Q). rewrite total_ones.
      rewrite nth_indep with (d' := 1) by (rewrite repeat_length; apply B; left; reflexivity). rewrite nth_repeat. cbn [length pow].
      field. split; [|lra]. apply pow_nonzero. lra.
Qed.

(** Without replacement, successive calls go on drawing from what is left. *)
Definition rest {A} (items : list A) (ws : option (list R)) cum seed l (o : list A) (i : nat) : @choice RP A :=
  mkChoice (P := RP) items ws cum false false (zlen items - Z.of_nat i) o (Some (Z.of_nat i)) seed l.
Lemma calls_rest {A} dec setsize fuel (items : list A) ws cum seed l o : length o = length items ->
  forall outs i, (i + length (concat outs) <= length items)%nat ->
  returned (list_eq_dec dec) outs (calls setsize fuel (map zlen outs) (rest items ws cum seed l o i)) =
  if list_eq_dec dec (firstn (length (concat outs)) (skipn i o)) (concat outs) then true else false.
Proof.
  intros Lo. induction outs as [|out outs IH]; intros i H; [reflexivity|]. cbn [concat map calls] in *. rewrite app_length in *.
  assert (E : choice_call_n RP setsize fuel (zlen out) (rest items ws cum seed l o i) =
    (Ok (firstn (length out) (skipn i o)), rest items ws cum seed l o (i + length out))).
  { assert (S : set_nui RP (zlen items - Z.of_nat i - zlen out) (set_shuf RP o (Some (Z.of_nat i + zlen out)%Z) (rest items ws cum seed l o i))
      = rest items ws cum seed l o (i + length out)).
    { unfold rest, set_nui, set_shuf. cbn [c_items c_weights c_cum c_replace c_roac c_nui c_shuffled c_sidx c_seed c_rng]. unfold zlen. f_equal; [lia|f_equal; lia]. }
    unfold choice_call_n. destruct (Z.eqb_spec (zlen out) 1) as [K|K].
    - assert (K1 : length out = 1%nat) by (unfold zlen in K; lia). rewrite K in S.
      unfold mbind at 1, choice_emit, mbind at 1, get, mbind at 1. cbn [c_replace rest negb].
      unfold choice_without_replacement, mbind at 1, get, mbind at 1. cbn [c_nui c_replace rest negb c_sidx c_shuffled].
      destruct (Z.ltb_spec (zlen items - Z.of_nat i) 1) as [Q|_]; [unfold zlen in Q; lia|]. unfold ret at 1, mbind, lift, ret, modify.
      cbn [Z.eqb Pos.eqb].
      destruct (list_get_ge0 o (Z.of_nat i)) as (a & G & Sk); [lia|unfold zlen; lia|]. rewrite G. rewrite Nat2Z.id in Sk.
      rewrite K1, Sk. change (list_get [a] 0) with (Ok a). cbv iota beta. rewrite <- K1. f_equal. exact S.
    - unfold choice_emit_many, mbind at 1, get. cbn [c_replace rest negb orb].
      unfold choice_without_replacement, mbind at 1, get, mbind at 1. cbn [c_nui c_replace rest negb c_sidx c_shuffled].
      destruct (Z.ltb_spec (zlen items - Z.of_nat i) (zlen out)) as [Q|_]; [unfold zlen in Q; lia|]. unfold ret at 1, mbind, lift, ret, modify.
      rewrite (proj2 (Z.eqb_neq _ _) K). rewrite list_slice_ge0 by (unfold zlen; lia).
      replace (Z.to_nat (zlen out)) with (length out) by (unfold zlen; lia). rewrite Nat2Z.id. f_equal. exact S. }
  rewrite E. specialize (IH (i + length out)%nat ltac:(lia)).
  assert (Fa : forall a b (L : list A), firstn (a + b) L = firstn a L ++ firstn b (skipn a L)).
  { clear. induction a as [|a IHa]; intros b [|x L]; cbn; try reflexivity; [destruct b; reflexivity|f_equal; apply IHa]. }
  rewrite Fa, skipn_skipn. clear Fa.
  set (o1 := firstn (length out) (skipn i o)) in *. set (o2 := firstn (length (concat outs)) (skipn (i + length out) o)) in *.
  assert (L1 : length o1 = length out) by (subst o1; rewrite firstn_length, skipn_length; lia). clearbody o1 o2.
  assert (Sp : o1 ++ o2 = out ++ concat outs <-> o1 = out /\ o2 = concat outs).
  { split; [|intros [-> ->]; reflexivity]. intros Q. apply app_eq_app_length in Q; auto. }
  destruct (calls setsize fuel (map zlen outs) (rest items ws cum seed l o (i + length out))) as [ls| |]; cbn [bind returned] in *.
  - destruct (list_eq_dec (list_eq_dec dec) ls outs) as [El|El]; destruct (list_eq_dec dec o2 (concat outs)) as [E2|E2]; try discriminate;
    destruct (list_eq_dec _ (o1 :: ls) _) as [E3|E3]; destruct (list_eq_dec dec (o1 ++ o2) _) as [E4|E4]; try reflexivity; exfalso;
    try (apply Sp in E4 as [E4 E5]; congruence); try (injection E3 as E3 E5; contradiction || (apply E4, Sp; split; assumption)).
  - destruct (list_eq_dec dec o2 (concat outs)) as [|E2]; [discriminate|]. destruct (list_eq_dec dec (o1 ++ o2) _) as [E4|]; [|reflexivity].
    apply Sp in E4 as [_ E4]. contradiction.
  - destruct (list_eq_dec dec o2 (concat outs)) as [|E2]; [discriminate|]. destruct (list_eq_dec dec (o1 ++ o2) _) as [E4|]; [|reflexivity].
    apply Sp in E4 as [_ E4]. contradiction.
Qed.

Lemma first_calls_shuffled {A} dec setsize fuel (items : list A) ws us (outs : list (list A)) :
  items <> [] -> length (used_weights items ws) = length items -> (length (concat outs) <= length items)%nat -> (zlen items < 2 ^ 46)%Z ->
  returned (list_eq_dec dec) outs (first_calls setsize fuel items ws false false us (map zlen outs)) =
  began dec (concat outs) (fst (high_k RP items (used_weights items ws) (zlen items) us)).
Proof.
  intros NE L B Small. unfold first_calls, choice_new. destruct items as [|x items']; [congruence|]. set (items := x :: items') in *.
  assert (Nn : (0 < length items)%nat) by (subst items; cbn; lia).
  rewrite Bool.andb_false_r. change (nonempty None) with false.
  assert (W : exists c, all_weights RP items (if nonempty ws then ws else None) false = Ok (ws, c)).
  { destruct ws as [[|y l]|]; cbn [nonempty].
    - cbn [used_weights length] in L. lia.
    - cbn [used_weights] in L. eexists. unfold all_weights. change (pW RP) with R. rewrite L, Nat.eqb_refl. reflexivity.
    - eexists. reflexivity. }
  destruct W as [cum W]. change (pW RP) with R in *. rewrite W. cbn [bind fst snd orb].
  unfold choice_reset, mbind, modify, get, set_rng. cbn [c_items c_weights c_cum c_replace c_roac c_nui c_shuffled c_sidx c_seed c_rng rng_for].
  unfold global_shuffle, mbind, get, on_rng, modify. cbn [c_items c_weights c_cum c_replace c_roac c_nui c_shuffled c_sidx c_seed c_rng].
  change (r_seeded RP us) with us.
  assert (Wu : (if nonempty ws then match ws with Some w0 => w0 | None => [] end else repeat (w_one RP) (length items)) = used_weights items ws).
  { destruct ws as [[|y l]|]; cbn [nonempty]; try reflexivity. cbn [used_weights length] in L. lia. }
  change (pW RP) with R in *. rewrite Wu.
  assert (Sh : weighted_shuffle RP fuel items (used_weights items ws) None us = high_k RP items (used_weights items ws) (zlen items) us).
  { rewrite <- (many_high A items (used_weights items ws) fuel (zlen items) us L Small) by (unfold zlen; lia). reflexivity. }
  rewrite Sh. destruct (high_k RP items (used_weights items ws) (zlen items) us) as [[o| |] r'] eqn:Eh; [|reflexivity|reflexivity].
  cbn [fst bind].
  assert (Lo : length o = length items).
  { apply high_k_spec in Eh as (vs & ss & ps & _ & _ & _ & _ & Pm & Pk); [|exact L].
    apply picks_length in Pk. rewrite <- Pk, list_slice_0 by (unfold zlen; lia). apply Permutation_length in Pm. rewrite seq_length in Pm.
    rewrite firstn_length. unfold zlen. lia. }
  unfold set_nui, set_shuf, set_rng. cbn [c_items c_weights c_cum c_replace c_roac c_nui c_shuffled c_sidx c_seed c_rng].
  transitivity (returned (list_eq_dec dec) outs (calls setsize fuel (map zlen outs) (rest items ws cum (Some us) r' o 0))).
  - unfold rest. cbn [Z.of_nat]. rewrite Z.sub_0_r. reflexivity.
  - rewrite (calls_rest dec setsize fuel items ws cum (Some us) r' o Lo outs 0 B). reflexivity.
Qed.

(** Without replacement, successive calls go on drawing from what is left: the
    values of all calls together are drawn one by one. *)
Theorem C83_without_replacement : forall (A : Type) (dec : forall a b : A, {a = b} + {a <> b}) setsize items ws ps os outs fuel,
  items <> [] -> NoDup items -> length (used_weights items ws) = length items -> Forall (fun w => 0 < w) (used_weights items ws) ->
  Permutation (ps ++ os) (seq 0 (length items)) -> picks items ps (concat outs) -> (zlen items < 2 ^ 46)%Z ->
  probability (ps ++ os) (fun us =>
    returned (list_eq_dec dec) outs (first_calls setsize fuel items ws false false (map us (seq 0 (length items))) (map zlen outs)))
  = one_by_one (used_weights items ws) ps.
Proof.
  intros A dec setsize items ws ps os outs fuel NE ND L F Pm Pk Small.
  assert (B : (length (concat outs) <= length items)%nat).
  { rewrite <- (picks_length _ _ _ Pk). apply Permutation_length in Pm. rewrite app_length, seq_length in Pm. lia. }
  rewrite <- (high_k_began dec items (used_weights items ws) ps os (concat outs) (zlen items)); auto; [|unfold zlen; lia].
  unfold probability. apply average_ext. intros vs _. rewrite first_calls_shuffled; auto.
Qed.

(** ** Cases *)
(** [c()] gives 20, then [c(2)] gives [10, 20] *)
Example C83_replacing_case : forall setsize,
  probability (seq 0 3) (fun us =>
    returned (list_eq_dec Nat.eq_dec) [[20]; [10; 20]]%nat
      (first_calls setsize 0 [10; 20]%nat (Some [1; 3]) true false (map us (seq 0 3)) [1; 2]%Z)) = 9 / 64.
Proof.
  intros setsize. transitivity (each_alone [1; 3] (concat [[1]; [0; 1]]%nat)); [|unfold each_alone, total; cbn; field].
  apply (C83_with_replacement nat Nat.eq_dec setsize [10; 20]%nat [1; 3] [[1]; [0; 1]]%nat [[20]; [10; 20]]%nat 0).
  - congruence.
  - repeat constructor; cbn; lia.
  - reflexivity.
  - repeat (constructor; [lra|]). constructor.
  - unfold total; cbn; lra.
  - repeat constructor.
Qed.
Example C83_uniform_case : forall setsize,
  probability (seq 0 3) (fun us =>
    returned (list_eq_dec Nat.eq_dec) [[20]; [10; 20]]%nat
      (first_calls setsize 0 [10; 20]%nat None true false (map us (seq 0 3)) [1; 2]%Z)) = / 8.
Proof.
  intros setsize. transitivity (/ INR 2 ^ 3); [|cbn; lra].
  apply (C83_uniform nat Nat.eq_dec setsize [10; 20]%nat [[20]; [10; 20]]%nat 0).
  - congruence.
  - repeat constructor; cbn; lia.
  - intros x X. cbn in *. destruct X as [<-|[<-|[<-|[]]]]; auto.
Qed.
(** [c(2)] gives [30, 10], then [c()] gives 20 *)
Example C83_case : forall setsize,
  probability [2; 0; 1]%nat (fun us =>
    returned (list_eq_dec Nat.eq_dec) [[30; 10]; [20]]%nat
      (first_calls setsize 0 [10; 20; 30]%nat (Some [1; 2; 3]) false false [us 0%nat; us 1%nat; us 2%nat] [2; 1]%Z)) = / 6.
Proof.
  intros setsize. transitivity (one_by_one [1; 2; 3] [2; 0; 1]%nat); [|unfold one_by_one, total; cbn; field].
  apply (C83_without_replacement nat Nat.eq_dec setsize [10; 20; 30]%nat (Some [1; 2; 3]) [2; 0; 1]%nat [] [[30; 10]; [20]]%nat 0).
  - congruence.
  - repeat constructor; cbn; lia.
  - reflexivity.
  - repeat (constructor; [lra|]). constructor.
  - cbn [app length seq]. apply (Permutation_trans (l' := [0; 2; 1]%nat)); [apply perm_swap|apply perm_skip, perm_swap].
  - repeat constructor.
  - reflexivity.
Qed.

Print Assumptions C83_with_replacement.
Print Assumptions C83_uniform.
Print Assumptions C83_without_replacement.
