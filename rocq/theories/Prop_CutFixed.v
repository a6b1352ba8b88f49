(** * Property C110: Static and Iterative emitters after assignments that were cut off.

    Vocabulary: [CutFixed.v] (the assignments), [CutSeq.v], [FixedModel.v] (the emitters),
    [then_over_and_over] of [Prop_CutSeq.v]. *)
From Verif Require Import Base Prims FixedModel CutSeq CutFixed Prop_CutSeq.
Open Scope Z_scope.

(** ** Specification *)
(** The last of the things assigned for which [enough] steps were made; [x] if none *)
Fixpoint last_with {X} (enough : nat) (ks : list (nat * X)) (x : X) : X :=
  match ks with
  | [] => x
  | (k, y) :: t => last_with enough t (if (enough <=? k)%nat then y else x)
  end.
Fixpoint static_history {A} (ks : list (nat * A)) (s : static A) : static A :=
  match ks with [] => s | (k, v) :: t => static_history t (static_set_cut k v s) end.

(** ** C110 *)
(** An assignment that is cut off has been made, or it has not. *)
Definition C110_statement : Prop :=
  (forall (A : Type) (s : static A) k v, st_items s = [st_value s] ->
   st_items (static_set_cut k v s) = [st_value (static_set_cut k v s)]) /\
  (forall (A : Type) (s : cutseq A) k l n, l <> [] -> q_maker s = q_factory s -> 0 <= n ->
   let s' := snd (it_set_factory k l s) in
   (fst (cs_emit_many n s') = fst (cs_emit_many n s) /\ fst (cs_emit_many n (cs_reset s')) = fst (cs_emit_many n (cs_reset s))) \/
   (fst (cs_emit_many n s') = fst (cs_emit_many n (mkCS [] (Some l) (Some l) [] (q_rac s))) /\
    fst (cs_emit_many n (cs_reset s')) = fst (cs_emit_many n (mkCS [] (Some l) (Some l) [] (q_rac s))))).

Theorem C110_static_refuted :
  exists (s : static nat) k v, st_items s = [st_value s] /\ st_items (static_set_cut k v s) <> [st_value (static_set_cut k v s)].
Proof. exists (static_new 1%nat), 1%nat, 2%nat. split; [reflexivity|discriminate]. Qed.
Print Assumptions C110_static_refuted.
(** The old sequence goes on, and reset() then starts the new one. *)
Theorem C110_iterative_refuted :
  exists (s : cutseq nat) k l, it_new [1; 2]%nat false = Ok s /\ l <> [] /\
  let s' := snd (it_set_factory k l s) in
  fst (cs_emit_many 3 s') = Ok [1; 2; 1]%nat /\ fst (cs_emit_many 3 (cs_reset s')) = Ok [5; 5; 5]%nat.
Proof. exists (mkCS [] (Some [1; 2]%nat) (Some [1; 2]%nat) [] false), 1%nat, [5%nat]. repeat split. discriminate. Qed.
Print Assumptions C110_iterative_refuted.
Theorem C110_made_or_not_refuted : ~ C110_statement.
Proof. intros [H _]. specialize (H nat (static_new 1%nat) 1%nat 2%nat eq_refl). discriminate H. Qed.
Print Assumptions C110_made_or_not_refuted.

(** Static: value, which is what is emitted, is the last one that was written, and items has
    the last one whose assignment came to its end. *)
Theorem C110_static :
  forall (A : Type) (v : A) ks n,
  let s := static_history ks (static_new v) in
  st_value s = last_with 1 ks v /\ st_items s = [last_with 2 ks v] /\
  fst (static_emit s) = Ok (last_with 1 ks v) /\
  (0 <= n -> fst (static_emit_many n s) = Ok (repeat (last_with 1 ks v) (Z.to_nat n))).
Proof.
  intros A v ks n. cbv zeta.
  assert (H : forall x y, static_history ks (mkStatic x [y]) = mkStatic (last_with 1 ks x) [last_with 2 ks y]).
  { induction ks as [|[k w] t IH]; intros x y; [reflexivity|]. cbn [static_history last_with].
    destruct k as [|[|k]]; cbn [static_set_cut st_items st_value Nat.leb]; apply IH. }
  unfold static_new. rewrite H. cbn [st_value st_items static_emit fst]. repeat (split; [reflexivity|]).
  intros Hn. unfold static_emit_many. cbn [st_value fst]. f_equal. unfold list_rep.
  generalize (last_with 1 ks v). intros a. induction (Z.to_nat n) as [|m IH]; [reflexivity|]. cbn. f_equal. exact IH.
Qed.
Print Assumptions C110_static.

(** Iterative, with calls in between *)
Inductive it_op (A : Type) : Type := Assign (k : nat) (l : list A) | Ask (n : Z).
Arguments Assign {A}. Arguments Ask {A}.
Definition it_do {A} (o : it_op A) (s : cutseq A) : cutseq A :=
  match o with Assign k l => snd (it_set_factory k l s) | Ask n => snd (cs_emit_many n s) end.
Definition assignments {A} (os : list (it_op A)) : list (nat * list A) :=
  flat_map (fun o => match o with Assign k (a :: t) => [(k, a :: t)] | _ => [] end) os.

Lemma take_kept {A} n : forall s : cutseq A,
  let s' := snd (cs_take n s) in
  q_items s' = q_items s /\ q_factory s' = q_factory s /\ q_maker s' = q_maker s /\ q_rac s' = q_rac s /\
  ((exists pre, cs_made s = pre ++ q_left s) -> exists pre, cs_made s = pre ++ q_left s').
Proof.
  induction n as [|n IH]; intros s; cbn [cs_take snd]; [auto|].
  destruct s as [it fa ma le ra]. unfold cs_next. cbn [q_left q_items q_factory q_maker q_rac].
  destruct le as [|a t].
  - destruct (cs_made _) as [|a t] eqn:M; [cbn [snd q_left]; auto 6|].
    specialize (IH (mkCS it fa ma t ra)). cbv zeta in IH.
    change (cs_made (mkCS it fa ma t ra)) with (cs_made (mkCS it fa ma [] ra)) in IH. rewrite M in IH. cbn [q_left q_items q_factory q_maker q_rac] in IH.
    destruct (cs_take n _) as [[l| |] s']; cbn [snd] in *; destruct IH as (I1 & I2 & I3 & I4 & I5); repeat (split; [assumption|]);
      intros _; apply I5; exists [a]; reflexivity.
  - specialize (IH (mkCS it fa ma t ra)). cbv zeta in IH.
    change (cs_made (mkCS it fa ma t ra)) with (cs_made (mkCS it fa ma (a :: t) ra)) in IH. cbn [q_left q_items q_factory q_maker q_rac] in IH.
    destruct (cs_take n _) as [[l| |] s']; cbn [snd] in *; destruct IH as (I1 & I2 & I3 & I4 & I5); repeat (split; [assumption|]);
      intros [pre P]; apply I5; exists (pre ++ [a]); rewrite <- app_assoc; exact P.
Qed.

(** Without reset_after_call: the rest of a run and then, over and over, the last sequence
    whose assignment came to its end; after reset(), the last one that was written. *)
Theorem C110_iterative :
  forall (A : Type) (l0 : list A) s os n, it_new l0 false = Ok s -> 0 <= n ->
  let s' := fold_left (fun s o => it_do o s) os s in
  let runs := last_with 2 (assignments os) l0 in
  (exists before first, runs = before ++ first /\ then_over_and_over first runs n (fst (cs_emit_many n s'))) /\
  then_over_and_over [] (last_with 1 (assignments os) l0) n (fst (cs_emit_many n (cs_reset s'))).
Proof.
  intros A l0 s os n E Hn. cbv zeta.
  assert (I : forall (os : list (it_op A)) (s : cutseq A) f m, q_factory s = Some f -> q_maker s = Some m -> q_rac s = false -> (exists pre, m = pre ++ q_left s) ->
    let s' := fold_left (fun s o => it_do o s) os s in
    q_factory s' = Some (last_with 1 (assignments os) f) /\ q_maker s' = Some (last_with 2 (assignments os) m) /\
    exists pre, last_with 2 (assignments os) m = pre ++ q_left s').
  { clear. induction os as [|o t IH]; intros s f m F M R P; cbv zeta; cbn [fold_left assignments flat_map last_with]; [auto|].
    destruct o as [k l|n]; cbn [it_do].
    - destruct l as [|a l]; [exact (IH s f m F M R P)|]. cbn [it_set_factory snd app last_with].
      destruct k as [|[|k]]; cbn [Nat.leb].
      + exact (IH s f m F M R P).
      + apply IH; cbn; auto.
      + apply IH; cbn; auto. exists (a :: l). symmetry. apply app_nil_r.
    - cbn [app]. unfold cs_emit_many. destruct (n <? 0); [exact (IH s f m F M R P)|].
      pose proof (take_kept (Z.to_nat n) s) as K. destruct (cs_take _ s) as [r s1]. cbv zeta in K. cbn [snd] in K.
      destruct K as (_ & KF & KM & KR & KP). assert (Md : cs_made s = m) by (unfold cs_made; rewrite M; reflexivity). rewrite Md in KP.
      destruct r; cbn [snd]; [rewrite KR, R|..]; apply IH; try congruence; auto. }
  destruct l0 as [|a l0]; [discriminate E|]. injection E as <-.
  destruct (I os (mkCS [] (Some (a :: l0)) (Some (a :: l0)) [] false) (a :: l0) (a :: l0) eq_refl eq_refl eq_refl) as (F & M & pre & P).
  { exists (a :: l0). symmetry. apply app_nil_r. }
  set (s' := fold_left _ os _) in *. split.
  - exists pre, (q_left s'). split; [exact P|]. apply many_at; [exact Hn|reflexivity|]. unfold cs_made. rewrite M. reflexivity.
  - apply many_at; [exact Hn|reflexivity|]. unfold cs_made. cbn [cs_reset q_maker]. rewrite F. reflexivity.
Qed.
Print Assumptions C110_iterative.

Example C110_example :
  let s := static_history [(2, 5); (1, 7); (0, 9)]%nat (static_new 3%nat) in
  st_value s = 7%nat /\ st_items s = [5%nat] /\
  let os := [Ask 1; Assign 2 [4; 5; 6]%nat; Ask 2; Assign 1 [8]%nat; Ask 1; Assign 0 [9]%nat] in
  let s := fold_left (fun s o => it_do o s) os (mkCS [] (Some [1; 2]%nat) (Some [1; 2]%nat) [] false) in
  last_with 2 (assignments os) [1; 2]%nat = [4; 5; 6]%nat /\ last_with 1 (assignments os) [1; 2]%nat = [8]%nat /\
  fst (cs_emit_many 4 s) = Ok [4; 5; 6; 4]%nat /\ fst (cs_emit_many 2 (cs_reset s)) = Ok [8; 8]%nat.
Proof. vm_compute. repeat split. Qed.
