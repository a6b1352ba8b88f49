(** * Property C108: an Iterative or Sequential emitter after a call that was cut off.

    Vocabulary: [CutIter.v] (calls that are cut off), [FixedModel.v] (the emitters). *)
From Verif Require Import Base Prims ChoiceRun FixedModel FixedProofs ThreadModel ThreadIter Prop_ThreadIter CutIter.
Open Scope Z_scope.

(** ** C108 *)
(** A call of [q], cut off anywhere, costs values but nothing else: the next call goes on
    further down the sequence, by no more than [q] asked for. *)
Definition C108_statement : Prop :=
  forall (A : Type) fuel (i : iterative A) k q h,
  (1 <= fuel)%nat -> never_empty i -> i_rac i = false ->
  cut_iter_call k q (hold i) = (None, h) ->
  exists skipped, 0 <= skipped <= Z.max 0 (ask_size q) /\
  forall n k' r h', 0 <= n -> cut_iter_call k' (EmitMany n) h = (Some r, h') ->
  exists l l', fst (iter_emit_many fuel (skipped + n) i) = Ok (l ++ l') /\ zlen l = skipped /\ r = Ok l'.

(** One thread calls em(2) and is interrupted in the generator; em(2) is then []. *)
Theorem C108_goes_on_refuted : ~ C108_statement.
Proof.
  intros H. destruct (H nat 1%nat three 1%nat (CallN 2) (mkHold three true)) as (s & Hs & G); [lia| |reflexivity|reflexivity|].
  { intros c. discriminate. }
  destruct (G 2 2%nat (Ok []) (mkHold three true) ltac:(lia) eq_refl) as (l & l' & E & L & R).
  injection R as <-. rewrite app_nil_r in E. cbn [ask_size] in Hs.
  assert (C : s = 0 \/ s = 1 \/ s = 2) by lia. unfold zlen in L.
  destruct C as [->|[->| ->]]; vm_compute in E; injection E as <-; discriminate L.
Qed.
Print Assumptions C108_goes_on_refuted.

Section Cut.
  Context {A : Type} (fuel : nat).
  Context (Hf : (1 <= fuel)%nat).

  (** What holds while the call [q] of the emitter [i] runs *)
  Definition under_way (i : iterative A) (q : ask) (l : at_iter A) (h : holder A) : Prop :=
    d_over h = false /\ i_factory (d_em h) = i_factory i /\ i_rac (d_em h) = i_rac i /\
    (g_calls (i_gen i) <= g_calls (i_gen (d_em h)))%nat /\
    match l with
    | Refused => ask_size q < 0 /\ h = hold i
    | NextOf one k got =>
        (k + length got = Z.to_nat (ask_size q))%nat /\ 0 <= ask_size q /\ (one = true -> ask_size q = 1) /\
        gen_take fuel (i_factory i) (length got) (i_gen i) = (Ok got, i_gen (d_em h))
    | InGen one k got =>
        (S k + length got = Z.to_nat (ask_size q))%nat /\ 0 <= ask_size q /\ (one = true -> ask_size q = 1) /\
        exists g, gen_take fuel (i_factory i) (length got) (i_gen i) = (Ok got, g) /\
                  gen_next fuel (i_factory i) g = gen_next fuel (i_factory i) (i_gen (d_em h))
    | Leaving got =>
        0 <= ask_size q /\ gen_take fuel (i_factory i) (Z.to_nat (ask_size q)) (i_gen i) = (Ok got, i_gen (d_em h))
    end.
  Definition ready (f : factory A) (g : gen) : bool :=
    match g_cur g with Some (c, p) => match it_at (f c) p with Some _ => true | None => false end | None => false end.
  Definition steps_left (l : at_iter A) (h : holder A) : nat :=
    match l with
    | Refused | Leaving _ => 1
    | NextOf _ k _ => 3 * k + 2
    | InGen _ k _ => 3 * k + (if ready (i_factory (d_em h)) (i_gen (d_em h)) then 3 else 4)
    end.

  Lemma ask_take q (i : iterative A) : iter_ask fuel q i =
    if ask_size q <? 0 then (Raise ValueError, i)
    else iter_run (fun f => gen_take fuel f (Z.to_nat (ask_size q))) i.
  Proof. rewrite <- (iter_ask_take fuel q i). destruct q; reflexivity. Qed.

  Lemma next_ready (f : factory A) g a c p : g_cur g = Some (c, p) -> it_at (f c) p = Some a ->
    gen_next fuel f g = (Ok a, mkGen (g_calls g) (Some (c, S p))).
  Proof. intros G E. destruct fuel; cbn; rewrite G, E; reflexivity. Qed.
  Lemma next_make (f : factory A) g : (forall c, it_at (f c) 0 <> None) -> ready f g = false ->
    gen_next fuel f g = gen_next fuel f (mkGen (S (g_calls g)) (Some (g_calls g, 0%nat))).
  Proof.
    intros Ne R. destruct (it_at (f (g_calls g)) 0) as [a|] eqn:E; [|destruct (Ne _ E)].
    rewrite (next_ready f (mkGen (S (g_calls g)) (Some (g_calls g, 0%nat))) a (g_calls g) 0 eq_refl E).
    unfold ready in R. destruct fuel as [|n]; [lia|]. cbn [gen_next].
    destruct (g_cur g) as [[c p]|]; [destruct (it_at (f c) p); [discriminate R|]|]; destruct n; cbn [gen_next g_cur g_calls]; rewrite E; reflexivity.
  Qed.

  Lemma start_under i q : under_way i q (cut_iter_start q) (hold i).
  Proof.
    unfold under_way, cut_iter_start, hold. destruct q; cbn [ask_size d_over d_em];
    repeat match goal with |- context [if ?b then _ else _] => destruct b eqn:? end; repeat rewrite ?Z.eqb_eq, ?Z.ltb_lt, ?Z.ltb_ge in *;
    cbn [length gen_take ret]; repeat split; try lia; try discriminate.
  Qed.

  Lemma step_under i q l h : never_empty i -> under_way i q l h ->
    match cut_iter_step l h with
    | (inl l', h') => under_way i q l' h' /\ (steps_left l' h' < steps_left l h)%nat
    | (inr r, h') => iter_ask fuel q i = (r, d_em h') /\ d_over h' = false
    end.
  Proof.
    intros Ne (Ov & Fa & Rc & Ca & U). rewrite ask_take. destruct l as [|one k got|one k got|got]; cbn [cut_iter_step].
    - destruct U as [U ->]. rewrite (proj2 (Z.ltb_lt _ _) U). split; reflexivity.
    - destruct U as (K & Sz & On & G). destruct k as [|k].
      + split; [|cbn; lia]. repeat (split; [assumption|]). replace (Z.to_nat (ask_size q)) with (length got) by lia. exact G.
      + rewrite Ov. split.
        * do 4 (split; [assumption|]). split; [lia|]. split; [exact Sz|]. split; [exact On|]. eexists. split; [exact G|reflexivity].
        * cbn. destruct (ready _ _); lia.
    - destruct U as (K & Sz & On & g & G & Nx).
      destruct (ready (i_factory (d_em h)) (i_gen (d_em h))) eqn:Rd.
      + assert (X : exists a c p, g_cur (i_gen (d_em h)) = Some (c, p) /\ it_at (i_factory (d_em h) c) p = Some a).
        { unfold ready in Rd. destruct (g_cur _) as [[c p]|]; [|discriminate]. destruct (it_at _ _) as [a|] eqn:E; [|discriminate]. exists a, c, p. auto. }
        destruct X as (a & c & p & Gc & It). rewrite Gc, It. cbn [steps_left]. rewrite Rd. split; [|lia].
        cbn [under_way d_over d_em i_factory i_rac i_gen g_calls]. split; [exact Ov|]. split; [exact Fa|]. split; [exact Rc|]. split; [exact Ca|].
        rewrite app_length. cbn [length]. split; [lia|]. split; [exact Sz|]. split; [exact On|].
        rewrite gen_take_app. unfold mbind. rewrite G. rewrite gen_take_one. unfold mbind. rewrite Nx.
        rewrite Fa in It. rewrite (next_ready _ _ a c p Gc It). reflexivity.
      + assert (X : match g_cur (i_gen (d_em h)) with
                    | Some (c, p) => match it_at (i_factory (d_em h) c) p with Some a => Some (a, c, p) | None => None end
                    | None => None end = None).
        { unfold ready in Rd. destruct (g_cur _) as [[c p]|]; [|reflexivity]. destruct (it_at _ _); [discriminate|reflexivity]. }
        rewrite X. split.
        * cbn [under_way d_over d_em i_factory i_rac i_gen g_calls]. split; [exact Ov|]. split; [exact Fa|]. split; [exact Rc|]. split; [apply (Nat.le_trans _ _ _ Ca); apply Nat.le_succ_diag_r|].
          split; [exact K|]. split; [exact Sz|]. split; [exact On|]. exists g. split; [exact G|]. rewrite Nx. apply next_make; [exact Ne|]. rewrite <- Fa. exact Rd.
        * cbn [steps_left]. rewrite Rd. unfold ready. cbn [d_em i_factory i_gen g_cur]. rewrite Fa.
          destruct (it_at (i_factory i (g_calls (i_gen (d_em h)))) 0) eqn:E; [lia|]. destruct (Ne _ E).
    - destruct U as (Sz & G). rewrite (proj2 (Z.ltb_ge _ _) Sz). unfold iter_run. rewrite G. cbn [i_rac].
      destruct h as [[f g rac] ov]. cbn in *. subst. destruct (i_rac i); split; reflexivity.
  Qed.

  (** The call comes to its end, or stops somewhere under way *)
  Lemma cut_under i q : never_empty i -> forall k l h, under_way i q l h ->
    match cut_iter k l h with
    | (inl l', h') => under_way i q l' h' /\ (k + steps_left l' h' <= steps_left l h)%nat
    | (inr r, h') => iter_ask fuel q i = (r, d_em h') /\ d_over h' = false
    end.
  Proof.
    intros Ne. induction k as [|k IH]; intros l h U; cbn [cut_iter]; [split; [exact U|lia]|].
    pose proof (step_under i q l h Ne U) as St. destruct (cut_iter_step l h) as [[l1|r] h1]; [|exact St].
    destruct St as [U1 L1]. specialize (IH l1 h1 U1). destruct (cut_iter k l1 h1) as [[l2|r] h2]; [|exact IH].
    destruct IH as [U2 L2]. split; [exact U2|lia].
  Qed.
End Cut.

(** A call that comes to its end is a call without interruptions, and given enough steps
    it does come to its end. *)
Theorem C108_whole :
  forall (A : Type) fuel (i : iterative A) q,
  (1 <= fuel)%nat -> never_empty i ->
  (forall k r h, cut_iter_call k q (hold i) = (Some r, h) -> h = hold (d_em h) /\ iter_ask fuel q i = (r, d_em h)) /\
  (forall k, (3 * Z.to_nat (ask_size q) + 2 <= k)%nat -> exists r h, cut_iter_call k q (hold i) = (Some r, h)).
Proof.
  intros A fuel i q Hf Ne. pose proof (fun k => cut_under fuel Hf i q Ne k _ _ (start_under fuel Hf i q)) as H.
  unfold cut_iter_call. split; intros k.
  - intros r h E. specialize (H k). destruct (cut_iter k _ _) as [[l|r'] h']; [destruct l; discriminate E|].
    injection E as <- <-. destruct H as [H Ov]. split; [|exact H]. destruct h'. cbn in *. subst. reflexivity.
  - intros K. specialize (H k). destruct (cut_iter k _ _) as [[l|r] h]; [|eauto]. exfalso. destruct H as [_ H].
    assert (S1 : (1 <= steps_left l h)%nat) by (destruct l; cbn; try lia; destruct (ready _ _); lia).
    assert (S2 : (steps_left (@cut_iter_start A q) (hold i) <= 3 * Z.to_nat (ask_size q) + 2)%nat).
    { unfold cut_iter_start. destruct q; cbn [ask_size];
      repeat match goal with |- context [if ?b then _ else _] => destruct b eqn:? end; repeat rewrite ?Z.eqb_eq, ?Z.ltb_lt, ?Z.ltb_ge in *; subst; cbn; lia. }
    lia.
Qed.
Print Assumptions C108_whole.

(** Wherever the call is cut off: values are gone, no more than it asked for; then either
    the emitter goes on with the rest of the sequence, or its generator is finished.  It is
    finished if, and only if, the call was in the generator. *)
Definition in_generator {A} (k : nat) (q : ask) (i : iterative A) : Prop :=
  exists one j got, fst (cut_iter k (cut_iter_start q) (hold i)) = inl (InGen one j got).
Theorem C108_points :
  forall (A : Type) fuel (i : iterative A) k q h,
  (1 <= fuel)%nat -> never_empty i -> cut_iter_call k q (hold i) = (None, h) ->
  i_factory (d_em h) = i_factory i /\ i_rac (d_em h) = i_rac i /\
  (in_generator k q i /\ d_over h = true \/
   ~ in_generator k q i /\ d_over h = false /\
   exists skipped, 0 <= skipped <= Z.max 0 (ask_size q) /\
   forall n, 0 <= n -> exists l l', fst (iter_emit_many fuel (skipped + n) i) = Ok (l ++ l') /\ zlen l = skipped /\
                                    fst (iter_emit_many fuel n (d_em h)) = Ok l').
Proof.
  intros A fuel i k q h Hf Ne E. pose proof (cut_under fuel Hf i q Ne k _ _ (start_under fuel Hf i q)) as H.
  unfold in_generator. unfold cut_iter_call in E. destruct (cut_iter k _ _) as [[l|r] h']; [|discriminate E]. cbn [fst]. destruct H as [(Ov & Fa & Rc & Ca & U) _].
  assert (Go : forall m got, (m <= Z.to_nat (ask_size q))%nat -> gen_take fuel (i_factory i) m (i_gen i) = (Ok got, i_gen (d_em h')) ->
    exists skipped, 0 <= skipped <= Z.max 0 (ask_size q) /\
    forall n, 0 <= n -> exists l l', fst (iter_emit_many fuel (skipped + n) i) = Ok (l ++ l') /\ zlen l = skipped /\
                                     fst (iter_emit_many fuel n (d_em h')) = Ok l').
  { intros m got M G. exists (Z.of_nat m). split; [lia|]. intros n Hn.
    destruct (Z_of_nat_complete n Hn) as [n' ->]. rewrite <- Nat2Z.inj_add.
    rewrite !emit_many_take, gen_take_app. unfold mbind. rewrite G, Fa.
    destruct (gen_take_ok fuel (i_factory i) n' (i_gen (d_em h')) Hf Ne) as (l' & g' & T). rewrite T.
    exists got, l'. split; [reflexivity|]. split; [|reflexivity].
    pose proof (f_equal fst G) as G1. cbn in G1. revert G. clear. revert got. generalize (i_gen (d_em h')) (i_gen i). revert m.
    induction m as [|m IH]; intros g1 g0 got; cbn; unfold ret; [intros [= <- _]; reflexivity|]. unfold mbind.
    destruct (gen_next _ _ _) as [[a| |] g2]; try discriminate. destruct (gen_take fuel _ m g2) as [[l| |] g3] eqn:T; try discriminate.
    intros [= <- <-]. specialize (IH _ _ _ T). unfold zlen in *. cbn [length]. lia. }
  destruct l as [|one j got|one j got|got]; injection E as <-; cbn [d_em d_over]; split; try exact Fa; split; try exact Rc;
    try (left; split; [eauto|reflexivity]); (right; split; [intros (o' & j' & g' & X); discriminate X|]; split; [exact Ov|]).
  - destruct U as [U ->]. apply (Go 0%nat []); [lia|reflexivity].
  - destruct U as (K & Sz & On & G). apply (Go (length got) got); [lia|exact G].
  - destruct U as (Sz & G). apply (Go (Z.to_nat (ask_size q)) got); [lia|exact G].
Qed.
Print Assumptions C108_points.

(** A finished generator: em(), em.emit() and em(1) raise StopIteration, and em(n) and
    em.emit_many(n) give an empty list.  Without reset_after_call nothing changes that;
    with it, em(n) and em.emit_many(n) do. *)
Definition of_one (q : ask) : Prop := match q with Call0 | Emit => True | CallN n => n = 1 | EmitMany _ => False end.
Theorem C108_finished :
  forall (A : Type) (h : holder A) k q r h',
  d_over h = true -> cut_iter_call k q h = (Some r, h') ->
  (of_one q -> r = Raise StopIteration /\ h' = h) /\
  (~ of_one q -> 0 <= ask_size q -> r = Ok [] /\ h' = if i_rac (d_em h) then hold_reset h else h) /\
  (ask_size q < 0 -> r = Raise ValueError /\ h' = h).
Proof.
  intros A h k q r h' Ov E.
  assert (Many : forall n, 0 <= n -> forall k', match cut_iter k' (NextOf false (Z.to_nat n) []) h with
    | (inl (InGen _ _ _), h0) => (None, mkHold (d_em h0) true) | (inl _, h0) => (None, h0) | (inr r, h0) => (Some r, h0) end = (Some r, h') ->
    r = Ok [] /\ h' = if i_rac (d_em h) then hold_reset h else h).
  { intros n Hn k' E'. destruct k' as [|[|k']]; [discriminate E'| |].
    - cbn in E'. destruct (Z.to_nat n); [discriminate E'|]. rewrite Ov in E'. discriminate E'.
    - cbn in E'. destruct (Z.to_nat n); [|rewrite Ov in E']; injection E' as <- <-; split; reflexivity. }
  assert (One : forall k', match cut_iter k' (NextOf true 1 []) h with
    | (inl (InGen _ _ _), h0) => (None, mkHold (d_em h0) true) | (inl _, h0) => (None, h0) | (inr r, h0) => (Some r, h0) end = (Some r, h') ->
    r = Raise StopIteration /\ h' = h).
  { intros k' E'. destruct k' as [|k']; [discriminate E'|]. cbn in E'. rewrite Ov in E'. injection E' as <- <-. split; reflexivity. }
  assert (Ref : forall k', match cut_iter k' (@Refused A) h with
    | (inl (InGen _ _ _), h0) => (None, mkHold (d_em h0) true) | (inl _, h0) => (None, h0) | (inr r, h0) => (Some r, h0) end = (Some r, h') ->
    r = Raise ValueError /\ h' = h).
  { intros k' E'. destruct k' as [|k']; [discriminate E'|]. cbn in E'. injection E' as <- <-. split; reflexivity. }
  unfold cut_iter_call, cut_iter_start in E. destruct q as [|n| |n]; cbn [of_one ask_size].
  - split; [intros _; exact (One _ E)|]. split; intros; [tauto|lia].
  - destruct (Z.eqb_spec n 1) as [->|N1]; [split; [intros _; exact (One _ E)|]; split; intros; [tauto|lia]|].
    destruct (Z.ltb_spec n 0) as [Neg|Nn].
    + split; [tauto|]. split; [lia|]. intros _. exact (Ref _ E).
    + split; [tauto|]. split; [|lia]. intros _ _. exact (Many n Nn _ E).
  - split; [intros _; exact (One _ E)|]. split; intros; [tauto|lia].
  - destruct (Z.ltb_spec n 0) as [Neg|Nn].
    + split; [tauto|]. split; [lia|]. intros _. exact (Ref _ E).
    + split; [tauto|]. split; [|lia]. intros _ _. exact (Many n Nn _ E).
Qed.
Print Assumptions C108_finished.

(** reset() repairs all of it: whatever was cut off before, the emitter is as after reset(),
    and if the factory gives the same each time, as when it was new. *)
Fixpoint cut_iter_calls {A} (qs : list (nat * ask)) (h : holder A) : holder A :=
  match qs with [] => h | (k, q) :: t => cut_iter_calls t (snd (cut_iter_call k q h)) end.
Lemma cut_iter_kept {A} k : forall l (h : holder A),
  let h' := snd (cut_iter k l h) in i_factory (d_em h') = i_factory (d_em h) /\ i_rac (d_em h') = i_rac (d_em h).
Proof.
  induction k as [|k IH]; intros l h; cbn [cut_iter]; [split; reflexivity|].
  assert (St : i_factory (d_em (snd (cut_iter_step l h))) = i_factory (d_em h) /\ i_rac (d_em (snd (cut_iter_step l h))) = i_rac (d_em h)).
  { destruct l as [|one [|j] got|one j got|got]; cbn [cut_iter_step]; try (split; reflexivity).
    - destruct (d_over h); split; reflexivity.
    - destruct (match g_cur _ with Some _ => _ | None => _ end) as [[[a c] p]|]; split; reflexivity.
    - cbn [snd]. destruct (i_rac (d_em h)) eqn:R; split; cbn; auto. }
  destruct (cut_iter_step l h) as [[l1|r] h1]; cbn [snd] in *; [|exact St].
  destruct (IH l1 h1) as [F R]. split; [rewrite F|rewrite R]; apply St.
Qed.
Lemma cut_iter_calls_kept {A} qs : forall h : holder A,
  let h' := cut_iter_calls qs h in i_factory (d_em h') = i_factory (d_em h) /\ i_rac (d_em h') = i_rac (d_em h).
Proof.
  induction qs as [|[k q] t IH]; intros h; cbn [cut_iter_calls]; [split; reflexivity|].
  destruct (IH (snd (cut_iter_call k q h))) as [F R]. rewrite F, R.
  pose proof (cut_iter_kept k (cut_iter_start q) h) as K. unfold cut_iter_call.
  destruct (cut_iter k _ h) as [[[]|] h1]; exact K.
Qed.
Lemma gen_next_const {A} fuel (it : iterator A) : forall g1 g2,
  match g_cur g1, g_cur g2 with None, None => True | Some (_, p), Some (_, p') => p = p' | _, _ => False end ->
  fst (gen_next fuel (fun _ => it) g1) = fst (gen_next fuel (fun _ => it) g2) /\
  match g_cur (snd (gen_next fuel (fun _ => it) g1)), g_cur (snd (gen_next fuel (fun _ => it) g2)) with
  | None, None => True | Some (_, p), Some (_, p') => p = p' | _, _ => False end.
Proof.
  induction fuel as [|n IH]; intros [c1 [[x1 p1]|]] [c2 [[x2 p2]|]] H; cbn in H; try contradiction; subst; cbn [gen_next g_cur g_calls];
    try (destruct (it_at it p2) eqn:E); cbn [fst snd g_cur]; try (split; reflexivity); try (split; [reflexivity|exact I]); apply IH; reflexivity.
Qed.
Lemma gen_take_const {A} fuel (it : iterator A) n : forall g1 g2,
  match g_cur g1, g_cur g2 with None, None => True | Some (_, p), Some (_, p') => p = p' | _, _ => False end ->
  fst (gen_take fuel (fun _ => it) n g1) = fst (gen_take fuel (fun _ => it) n g2).
Proof.
  induction n as [|n IH]; intros g1 g2 H; [reflexivity|]. cbn [gen_take]. unfold mbind.
  destruct (gen_next_const fuel it g1 g2 H) as [E1 E2].
  destruct (gen_next fuel _ g1) as [r1 g1'], (gen_next fuel _ g2) as [r2 g2']. cbn [fst snd] in *. subst r2.
  destruct r1; try reflexivity. specialize (IH _ _ E2). unfold mbind.
  destruct (gen_take fuel _ n g1') as [s1 ?], (gen_take fuel _ n g2') as [s2 ?]. cbn [fst] in IH. subst s2. destruct s1; reflexivity.
Qed.

Theorem C108_reset :
  forall (A : Type) fuel (it : iterator A) calls rac qs n k r h',
  (1 <= fuel)%nat -> it_at it 0 <> None -> 0 <= n ->
  let new := mkIter (fun _ => it) (mkGen calls None) rac in
  cut_iter_call k (EmitMany n) (hold_reset (cut_iter_calls qs (hold new))) = (Some r, h') ->
  r = fst (iter_emit_many fuel n new).
Proof.
  intros A fuel it calls rac qs n k r h' Hf Ne Hn new E.
  destruct (cut_iter_calls_kept qs (hold new)) as [F R]. cbv zeta in F, R. set (h := cut_iter_calls qs (hold new)) in *.
  assert (HR : hold_reset h = hold (mkIter (fun _ => it) (mkGen (g_calls (i_gen (d_em h))) None) rac)).
  { unfold hold_reset, hold, iter_reset. rewrite F, R. reflexivity. }
  rewrite HR in E.
  destruct (C108_whole A fuel (mkIter (fun _ => it) (mkGen (g_calls (i_gen (d_em h))) None) rac) (EmitMany n) Hf) as [W _].
  { intros c. exact Ne. }
  destruct (W _ _ _ E) as [_ W1]. apply (f_equal fst) in W1. cbn [fst iter_ask] in W1. rewrite <- W1.
  rewrite <- (Z2Nat.id n Hn), !emit_many_take. unfold new. cbn [i_factory i_gen]. apply gen_take_const. exact I.
Qed.
Print Assumptions C108_reset.

(** Sequential([10, 20, 30]): em(2) is interrupted in the generator, after one value.  em(2)
    is [], em() raises StopIteration, and after reset() em(2) is [10, 20]. *)
Example C108_example :
  let h := snd (cut_iter_call 4 (CallN 2) (hold three)) in
  fst (cut_iter_call 4 (CallN 2) (hold three)) = None /\ d_over h = true /\
  fst (cut_iter_call 9 (CallN 2) h) = Some (Ok []) /\ fst (cut_iter_call 9 Call0 h) = Some (Raise StopIteration) /\
  fst (cut_iter_call 9 (CallN 2) (hold_reset h)) = Some (Ok [10; 20]%nat) /\
  (* with reset_after_call, em(2) repairs it and em() does not *)
  let h := snd (cut_iter_call 4 (CallN 2) (hold (iter_set_rac true three))) in
  fst (cut_iter_call 9 Call0 (snd (cut_iter_call 9 (CallN 2) h))) = Some (Ok [10]%nat) /\
  fst (cut_iter_call 9 Call0 (snd (cut_iter_call 9 Call0 h))) = Some (Raise StopIteration) /\
  (* cut off between two values: one is lost *)
  fst (cut_iter_call 9 Call0 (snd (cut_iter_call 3 (CallN 2) (hold three)))) = Some (Ok [20]%nat).
Proof. vm_compute. repeat split. Qed.
