(** * C79: a wrapper that is handed on is bound anew.

    em2.set_wrapper_function(em1.wrapper) gives em2 the function of em1, with the
    generator of em2. *)
From Coq Require Import String.
From Verif Require Import Base Prims Values GroupModel SigModel SigSpec WrapModel BindModel.
From Coq Require Import Lia.
Open Scope list_scope.
Open Scope Z_scope.

(** ** Specification *)
Section Spec.
  Context {R : Type}.
  Notation state := (BindModel.state R).
  Notation pyfun := (BindModel.pyfun R).
  Notation callable := (BindModel.callable R).

  (** A function by itself, called on a generator that belongs to it alone (this is
      what C42 and C61 speak about) *)
  Definition alone (f : pyfun) : ufun R := mkUfun (py_sig f) (fun args kw => lift (py_body f args kw)) (py_body_rng f).

  (** Emitter [e] has function [f], and passes its own generator *)
  Definition has_function (s : state) (e : nat) (f : pyfun) : Prop :=
    exists x i b, nth_error (emitters s) e = Some x /\ e_wrapper x = Some i /\
      nth_error (wrappers s) i = Some b /\ w_bound_to b = e /\
      (w_function b = Fun f \/ exists g, w_function b = Obj f g).
  Definition wrapper_of (s : state) (e i : nat) : Prop :=
    exists x, nth_error (emitters s) e = Some x /\ e_wrapper x = Some i.
  Definition rng_of (s : state) (e : nat) : option R := option_map e_rng (nth_error (emitters s) e).

  (** Not itself a wrapper *)
  Definition plain (c : callable) : Prop := forall i, c <> Wrapper i.

  (** What may be given as a function: functions, other callables, and wrappers
      that there are.  (An object whose attribute function is a wrapper counts as
      none of them.) *)
  Definition may_be_given (s : state) (c : callable) : Prop :=
    match c with
    | Fun _ => True
    | Obj _ g => plain g
    | Wrapper i => nth_error (wrappers s) i <> None
    end.

  (** Programs may do everything, except: assign as wrapper of an emitter a
      wrapper that is bound to another one; assign a wrapper as the function of a
      wrapper; bind the wrapper of an emitter to another one. *)
  Definition ordinary (s : state) (c : command R) : Prop :=
    match c with
    | NewEmitter _ c _ _ => may_be_given s c
    | NewWrapper c _ => may_be_given s c
    | SetFunction e c _ _ => (e < length (emitters s))%nat /\ may_be_given s c
    | AssignWrapper e i _ _ => exists b, nth_error (wrappers s) i = Some b /\ w_bound_to b = e
    | AssignFunction _ c => plain c
    | AssignBound i e => forall e', wrapper_of s e' i -> e' = e
    | Emit _ _ _ | Reset _ => True
    end.
  Inductive program (fuel : nat) : state -> list (command R) -> state -> Prop :=
  | p_nil s : program fuel s [] s
  | p_cons s c p s' : ordinary s c -> program fuel (exec fuel c s) p s' -> program fuel s (c :: p) s'.

  (** The commands that are about emitter [e] or its wrapper *)
  Definition about (s : state) (e : nat) (c : command R) : Prop :=
    match c with
    | NewEmitter _ _ _ _ | NewWrapper _ _ => False
    | SetFunction e' _ _ _ | AssignWrapper e' _ _ _ | Emit e' _ _ | Reset e' => e' = e
    | AssignFunction i _ | AssignBound i _ => wrapper_of s e i
    end.
End Spec.

(** ** Proofs *)
Section Proofs.
  Context {R : Type} (fuel : nat).
  Notation state := (BindModel.state R).
  Notation pyfun := (BindModel.pyfun R).
  Notation callable := (BindModel.callable R).

  Lemma upd_nth {A} (l : list A) i f j :
    nth_error (upd l i f) j = if Nat.eqb j i then option_map f (nth_error l i) else nth_error l j.
  Proof.
    unfold upd. destruct (nth_error l i) as [a|] eqn:E.
    - assert (L : (i < length l)%nat) by (apply nth_error_Some; congruence).
      assert (F : length (firstn i l) = i) by (rewrite firstn_length; lia).
      destruct (Nat.eqb_spec j i) as [->|N].
      + rewrite nth_error_app2 by lia. rewrite F, Nat.sub_diag. reflexivity.
      + destruct (Nat.lt_ge_cases j i) as [C|C].
        * rewrite nth_error_app1 by lia. rewrite <- (firstn_skipn i l) at 2. rewrite nth_error_app1 by lia. reflexivity.
        * rewrite nth_error_app2 by lia. rewrite F. destruct (j - i)%nat as [|k] eqn:D; [lia|]. cbn [nth_error].
          rewrite <- (firstn_skipn (S i) l) at 2. rewrite nth_error_app2 by (rewrite firstn_length; lia).
          f_equal. rewrite firstn_length. lia.
    - destruct (Nat.eqb_spec j i) as [->|N]; [exact E | reflexivity].
  Qed.
  Lemma upd_length {A} (l : list A) i f : length (upd l i f) = length l.
  Proof.
    unfold upd. destruct (nth_error l i) as [a|] eqn:E; [|reflexivity].
    assert (L : (i < length l)%nat) by (apply nth_error_Some; congruence).
    rewrite app_length. cbn [length]. rewrite firstn_length, skipn_length. lia.
  Qed.

  Lemma nth_ext_error {A} : forall l m : list A, (forall j, nth_error l j = nth_error m j) -> l = m.
  Proof.
    induction l as [|a l IH]; intros [|b m] H; try reflexivity; try (specialize (H 0%nat); discriminate).
    pose proof (H 0%nat) as H0. cbn in H0. injection H0 as ->. f_equal. apply IH. intros j. exact (H (S j)).
  Qed.

  Definition inv (s : state) : Prop :=
    (forall i b, nth_error (wrappers s) i = Some b -> plain (w_function b)) /\
    (forall e i, wrapper_of s e i -> exists b, nth_error (wrappers s) i = Some b /\ w_bound_to b = e).

  Lemma inv_has (s : state) e i : inv s -> wrapper_of s e i -> exists f, has_function s e f.
  Proof.
    intros [I1 I2] W. destruct (I2 e i W) as (b & Eb & Bt). specialize (I1 i b Eb). destruct W as (x & Ex & Ei).
    destruct (w_function b) as [f|f g|j] eqn:Ef; [| |exfalso; eapply I1; reflexivity];
      exists f, x, i, b; repeat split; eauto.
  Qed.

  (** The call of a function, in terms of the generator of one emitter *)
  Lemma run_fun_spec (s : state) e (x : emitter R) (f : pyfun) args kw (rng : bool) : nth_error (emitters s) e = Some x ->
    exists s', run_fun f args kw (if rng then Some e else None) s = (fst (py_call (alone f) args kw rng (e_rng x)), s') /\
      wrappers s' = wrappers s /\ length (emitters s') = length (emitters s) /\
      (forall e', e' <> e -> nth_error (emitters s') e' = nth_error (emitters s) e') /\
      nth_error (emitters s') e = Some (mkEmitter (e_start x) (snd (py_call (alone f) args kw rng (e_rng x))) (e_wrapper x)).
  Proof.
    intros E. destruct x as [x1 x2 x3]. unfold run_fun, py_call. cbn [alone u_sig u_body u_body_rng].
    destruct rng; cbn [e_rng e_start e_wrapper].
    - destruct (match py_sig f with Some _ => _ | None => _ end).
      + rewrite E. cbn [e_rng]. destruct (py_body_rng f args kw x2) as [r g]. cbn [fst snd]. eexists. split; [reflexivity|].
        cbn [set_emitter wrappers emitters]. split; [reflexivity|]. split; [apply upd_length|]. split.
        * intros e' N. rewrite upd_nth. destruct (Nat.eqb_spec e' e); congruence.
        * rewrite upd_nth, Nat.eqb_refl, E. reflexivity.
      + exists s. unfold raise. cbn [fst snd]. auto.
    - destruct (match py_sig f with Some _ => _ | None => _ end); exists s; unfold raise, lift; cbn [fst snd]; auto.
  Qed.

  Lemma wants_alone (c : callable) (f : pyfun) : c = Fun f \/ (exists g, c = Obj f g) -> wants c = wants_rng (alone f).
  Proof. intros [->|[g ->]]; reflexivity. Qed.

  Lemma emit_spec k (s : state) e (x : emitter R) (f : pyfun) args kw : has_function s e f -> nth_error (emitters s) e = Some x ->
    exists s', emit (S k) e args kw s = (fst (wrapper_call (alone f) args kw (e_rng x)), s') /\
      wrappers s' = wrappers s /\ length (emitters s') = length (emitters s) /\
      (forall e', e' <> e -> nth_error (emitters s') e' = nth_error (emitters s) e') /\
      nth_error (emitters s') e = Some (mkEmitter (e_start x) (snd (wrapper_call (alone f) args kw (e_rng x))) (e_wrapper x)).
  Proof.
    intros (x0 & i & b & Ex & Ei & Eb & Bt & Ef) E. rewrite Ex in E. injection E as ->.
    unfold emit. rewrite Ex, Ei. cbn [call_wrapper]. rewrite Eb.
    assert (W := wants_alone _ _ Ef). rewrite W.
    assert (Q : forall rng : bool, exists s', run_fun f args kw (if rng then Some e else None) s = (fst (py_call (alone f) args kw rng (e_rng x)), s') /\
      wrappers s' = wrappers s /\ length (emitters s') = length (emitters s) /\
      (forall e', e' <> e -> nth_error (emitters s') e' = nth_error (emitters s) e') /\
      nth_error (emitters s') e = Some (mkEmitter (e_start x) (snd (py_call (alone f) args kw rng (e_rng x))) (e_wrapper x)))
      by (intros rng; apply run_fun_spec; exact Ex).
    rewrite Bt. unfold wrapper_call.
    assert (T : exists s', (Raise TypeError, s) = (fst (@raise R val TypeError (e_rng x)), s') /\
      wrappers s' = wrappers s /\ length (emitters s') = length (emitters s) /\
      (forall e', e' <> e -> nth_error (emitters s') e' = nth_error (emitters s) e') /\
      nth_error (emitters s') e = Some (mkEmitter (e_start x) (snd (@raise R val TypeError (e_rng x))) (e_wrapper x))).
    { exists s. cbn. destruct x. auto. }
    rewrite Ei in Q, T. destruct Ef as [Ef|[g Ef]]; rewrite Ef; destruct (wants_rng (alone f)).
    1,3: destruct (mem "rng" (map fst kw)); [exact T | exact (Q true)].
    1,2: exact (Q false).
  Qed.

  (** What assigning a wrapper does *)
  Lemma try_mock_same (s : state) i args kw : snd (try_mock i args kw s) = s.
  Proof.
    unfold try_mock. destruct (nth_error (wrappers s) i) as [b|]; [|reflexivity].
    destruct (sig_of (w_function b)); [reflexivity|]. destruct (w_function b) as [f|f g|]; try reflexivity;
      unfold mbind, run_fun; destruct (match py_sig f with Some _ => _ | None => _ end); try reflexivity;
      unfold lift; destruct (py_body f args kw); reflexivity.
  Qed.
  Definition assigned (s : state) (e i : nat) : state :=
    set_emitter e (fun x => mkEmitter (e_start x) (e_start x) (Some i)) s.
  Lemma upd_upd {A} (l : list A) i f g : upd (upd l i f) i g = upd l i (fun a => g (f a)).
  Proof.
    apply nth_ext_error. intros j. rewrite !upd_nth, Nat.eqb_refl. destruct (Nat.eqb j i); [|reflexivity].
    destruct (nth_error l i); reflexivity.
  Qed.
  Lemma assign_spec (s : state) e i args kw : fst (try_mock i args kw s) <> Diverge ->
    assign e i args kw s = (fst (try_mock i args kw s), assigned s e i).
  Proof.
    intros D. pose proof (try_mock_same s i args kw) as Q. unfold assign, try_finally.
    destruct (try_mock i args kw s) as [r s1]. cbn [fst snd] in *. subst s1.
    assert (E : ((fun s => (Ok tt, set_emitter e (fun x => mkEmitter (e_start x) (e_rng x) (Some i)) s)) ;;; reset e) s
                = (Ok tt, assigned s e i)).
    { unfold mbind, reset, assigned, set_emitter. cbn [wrappers emitters]. rewrite upd_upd. reflexivity. }
    rewrite E. destruct r; [reflexivity | reflexivity | congruence].
  Qed.
  Lemma assign_state (s : state) e i args kw : snd (assign e i args kw s) = assigned s e i \/ snd (assign e i args kw s) = s.
  Proof.
    destruct (fst (try_mock i args kw s)) eqn:D; [left | left | right].
    1,2: rewrite assign_spec by congruence; reflexivity.
    pose proof (try_mock_same s i args kw) as Q. unfold assign, try_finally.
    destruct (try_mock i args kw s) as [r s1]. cbn [fst snd] in *. subst. reflexivity.
  Qed.

  Lemma nth_app_old {A} (l : list A) a i x : nth_error l i = Some x -> nth_error (l ++ [a]) i = Some x.
  Proof. intros H. rewrite nth_error_app1; [exact H|]. apply nth_error_Some. congruence. Qed.
  Lemma nth_app_new {A} (l : list A) a i x : nth_error (l ++ [a]) i = Some x ->
    nth_error l i = Some x \/ (i = length l /\ x = a).
  Proof.
    intros H. destruct (Nat.lt_ge_cases i (length l)) as [C|C]; [left; rewrite nth_error_app1 in H by lia; exact H|].
    rewrite nth_error_app2 in H by lia. destruct (i - length l)%nat as [|n] eqn:D; cbn in H; [injection H as <-; right; split; [lia|reflexivity]|].
    destruct n; discriminate.
  Qed.

  Lemma new_wrapper_spec (s : state) c e : inv s -> may_be_given s c ->
    exists c', plain c' /\ new_wrapper c e s = (Ok (length (wrappers s)), mkState (wrappers s ++ [mkWrapper c' e]) (emitters s)) /\
      match c with
      | Fun f => c' = Fun f
      | Obj _ g => c' = g
      | Wrapper i => exists b, nth_error (wrappers s) i = Some b /\ c' = w_function b
      end.
  Proof.
    intros [I1 _] G. unfold new_wrapper. destruct c as [f|f g|i]; cbn [may_be_given] in G.
    - exists (Fun f). split; [discriminate|]. split; reflexivity.
    - exists g. auto.
    - destruct (nth_error (wrappers s) i) as [b|] eqn:E; [|congruence]. cbn [option_map]. exists (w_function b).
      split; [eapply I1; exact E|]. split; [reflexivity|]. exists b. auto.
  Qed.
  Lemma inv_wrapper (s : state) c e : inv s -> plain c -> inv (mkState (wrappers s ++ [mkWrapper c e]) (emitters s)).
  Proof.
    intros [I1 I2] Hc. split; cbn [wrappers].
    - intros i b H. apply nth_app_new in H as [H|[-> ->]]; [eapply I1; exact H | exact Hc].
    - intros e' i (x & Ex & Ei). destruct (I2 e' i) as (b & Eb & Bt); [exists x; auto|]. exists b. split; [apply nth_app_old; exact Eb | exact Bt].
  Qed.
  Lemma wrapper_of_assigned (s : state) e i e' j : wrapper_of (assigned s e i) e' j ->
    (e' = e /\ j = i) \/ (e' <> e /\ wrapper_of s e' j).
  Proof.
    intros (x & Ex & Ej). unfold assigned, set_emitter in Ex. cbn [emitters] in Ex. rewrite upd_nth in Ex.
    destruct (Nat.eqb_spec e' e) as [->|N].
    - left. split; [reflexivity|]. destruct (nth_error (emitters s) e); [|discriminate]. injection Ex as <-. cbn in Ej. congruence.
    - right. split; [exact N|]. exists x. auto.
  Qed.
  Lemma inv_assigned (s : state) e i b : inv s -> nth_error (wrappers s) i = Some b -> w_bound_to b = e -> inv (assigned s e i).
  Proof.
    intros [I1 I2] Eb Bt. split; [exact I1|]. intros e' j W. apply wrapper_of_assigned in W as [[-> ->]|[_ W]]; [exists b; auto | apply I2; exact W].
  Qed.
  Lemma inv_function (s : state) e c args kw : inv s -> may_be_given s c -> inv (snd (set_function e c args kw s)).
  Proof.
    intros I G. destruct (new_wrapper_spec s c e I G) as (c' & Hp & E & _). unfold set_function, mbind. rewrite E.
    pose proof (inv_wrapper s c' e I Hp) as I'. destruct (assign_state (mkState (wrappers s ++ [mkWrapper c' e]) (emitters s)) e (length (wrappers s)) args kw) as [-> | ->]; [|exact I'].
    eapply inv_assigned; [exact I' | cbn [wrappers]; rewrite nth_error_app2, Nat.sub_diag by lia; reflexivity | reflexivity].
  Qed.
  Lemma inv_exec (s : state) c : inv s -> ordinary s c -> inv (exec fuel c s).
  Proof.
    intros I O. destruct c as [r c args kw|c e|e c args kw|e i args kw|i c|i e|e args kw|e]; cbn [exec ordinary] in *.
    - apply inv_function; [|destruct c; exact O]. destruct I as [I1 I2]. split; [exact I1|]. cbn [emitters].
      intros e i (x & Ex & Ei). cbn [emitters] in Ex. apply nth_app_new in Ex as [Ex|[_ ->]]; [|discriminate]. apply I2. exists x. auto.
    - destruct (new_wrapper_spec s c e I O) as (c' & Hp & -> & _). apply inv_wrapper; assumption.
    - apply inv_function; [exact I | apply O].
    - destruct O as (b & Eb & Bt). destruct (assign_state s e i args kw) as [-> | ->]; [|exact I]. eapply inv_assigned; eauto.
    - destruct I as [I1 I2]. split; cbn [set_wrapper wrappers].
      + intros j b H. rewrite upd_nth in H. destruct (Nat.eqb_spec j i) as [->|N]; [|eapply I1; exact H].
        destruct (nth_error (wrappers s) i); [|discriminate]. injection H as <-. exact O.
      + intros e j W. destruct (I2 e j W) as (b & Eb & Bt). rewrite upd_nth. destruct (Nat.eqb_spec j i) as [->|N]; [|eauto].
        rewrite Eb. cbn [option_map]. eexists. split; [reflexivity|]. exact Bt.
    - destruct I as [I1 I2]. split; cbn [set_wrapper wrappers].
      + intros j b H. rewrite upd_nth in H. destruct (Nat.eqb_spec j i) as [->|N]; [|eapply I1; exact H].
        destruct (nth_error (wrappers s) i) as [b'|] eqn:E; [|discriminate]. injection H as <-. exact (I1 i b' E).
      + intros e' j W. destruct (I2 e' j W) as (b & Eb & Bt). rewrite upd_nth. destruct (Nat.eqb_spec j i) as [->|N]; [|eauto].
        rewrite Eb. cbn [option_map]. eexists. split; [reflexivity|]. cbn [w_bound_to]. symmetry. apply O. exact W.
    - unfold emit. destruct (nth_error (emitters s) e) as [x|] eqn:Ex; [|exact I]. destruct (e_wrapper x) as [i|] eqn:Ei; [|exact I].
      destruct fuel as [|k]; [exact I|].
      destruct (inv_has s e i I) as (f & Hf); [exists x; auto|].
      destruct (emit_spec k s e x f args kw Hf Ex) as (s' & E & Ew & _ & Eo & Es).
      unfold emit in E. rewrite Ex, Ei in E. rewrite E. cbn [snd]. destruct I as [I1 I2]. split; [rewrite Ew; exact I1|].
      rewrite Ew. intros e' j (y & Ey & Ej). apply I2. destruct (Nat.eq_dec e' e) as [->|N].
      + rewrite Es in Ey. injection Ey as <-. exists x. auto.
      + rewrite Eo in Ey by exact N. exists y. auto.
    - unfold reset. cbn [snd]. destruct I as [I1 I2]. split; [exact I1|]. intros e' j (y & Ey & Ej). apply I2.
      unfold set_emitter in Ey. cbn [emitters] in Ey. rewrite upd_nth in Ey. destruct (Nat.eqb_spec e' e) as [->|N]; [|exists y; auto].
      destruct (nth_error (emitters s) e) as [x|] eqn:Ex; [|discriminate]. injection Ey as <-. exists x. auto.
  Qed.
  Lemma inv_program (s : state) p s' : program fuel s p s' -> inv s -> inv s'.
  Proof. induction 1 as [|s c p s' O _ IH]; [auto|]. intros I. apply IH, inv_exec; assumption. Qed.
  Lemma inv_start : inv (@mkState R [] []).
  Proof. split; [intros [] b H; discriminate | intros e i (x & H & _); destruct e; discriminate]. Qed.
End Proofs.

(** ** The claim *)
Section Claim.
  Context {R : Type} (fuel : nat).
  Notation state := (BindModel.state R).
  Notation start := (@mkState R [] []).

  (** After any ordinary program every emitter that has a wrapper has a function
      which it calls with its own generator; emitting with it is calling this
      function by itself on this generator, and leaves everything else as it was. *)
  Theorem C79_own_generator_partial p (s : state) e i k args kw : program fuel start p s -> wrapper_of s e i ->
    exists f g s', has_function s e f /\ rng_of s e = Some g /\
      emit (S k) e args kw s = (fst (wrapper_call (alone f) args kw g), s') /\
      rng_of s' e = Some (snd (wrapper_call (alone f) args kw g)) /\
      has_function s' e f /\
      wrappers s' = wrappers s /\ forall e', e' <> e -> nth_error (emitters s') e' = nth_error (emitters s) e'.
  Proof.
    intros H W. pose proof (inv_program fuel _ _ _ H inv_start) as I. destruct (inv_has s e i I W) as (f & Hf).
    destruct W as (x & Ex & Ei). destruct (emit_spec k s e x f args kw Hf Ex) as (s' & E & Ew & _ & Eo & Es).
    exists f, (e_rng x), s'. split; [exact Hf|]. split; [unfold rng_of; rewrite Ex; reflexivity|]. split; [exact E|].
    split; [unfold rng_of; rewrite Es; reflexivity|]. split; [|auto].
    destruct Hf as (x0 & j & b & Ex0 & Ej & Eb & Bt & Ef). rewrite Ex in Ex0. injection Ex0 as <-.
    eexists _, j, b. split; [exact Es|]. split; [exact Ej|]. rewrite Ew. auto.
  Qed.

  (** Giving an emitter a function, or the wrapper of another emitter, gives it this
      function or that of the other emitter.  The other emitter keeps its own. *)
  Theorem C79_given p (s : state) e f args kw r s' : program fuel start p s -> (e < length (emitters s))%nat ->
    set_function e (Fun f) args kw s = (r, s') -> r <> Diverge -> has_function s' e f.
  Proof.
    intros H L E D. pose proof (inv_program fuel _ _ _ H inv_start) as I. unfold set_function, mbind, new_wrapper in E.
    destruct (nth_error (emitters s) e) as [x|] eqn:Ex; [|apply nth_error_None in Ex; lia].
    rewrite assign_spec in E.
    - injection E as _ <-. eexists _, (length (wrappers s)), _. unfold assigned, set_emitter. cbn [emitters wrappers].
      rewrite upd_nth, Nat.eqb_refl, Ex, nth_error_app2, Nat.sub_diag by lia. cbn [option_map nth_error].
      repeat split; auto.
    - intros Q. apply D. unfold assign, try_finally in E. destruct (try_mock _ _ _ _) as [q s1]. cbn [fst] in Q. subst q. congruence.
  Qed.

  Theorem C79_handed_on p (s : state) e1 i e2 f args kw r s' : program fuel start p s -> (e2 < length (emitters s))%nat ->
    has_function s e1 f -> wrapper_of s e1 i ->
    set_function e2 (Wrapper i) args kw s = (r, s') -> r <> Diverge ->
    has_function s' e2 f /\ has_function s' e1 f /\
    (forall e', e' <> e2 -> nth_error (emitters s') e' = nth_error (emitters s) e') /\
    (forall j, wrapper_of s' e2 j -> nth_error (wrappers s) j = None).
  Proof.
    intros H L Hf (x1 & Ex1 & Ei1) E D.
    destruct Hf as (x & j & b & Ex & Ej & Eb & Bt & Ef). rewrite Ex in Ex1. injection Ex1 as <-. rewrite Ej in Ei1. injection Ei1 as <-.
    unfold set_function, mbind, new_wrapper in E. rewrite Eb in E. cbn [option_map] in E.
    destruct (nth_error (emitters s) e2) as [x2|] eqn:Ex2; [|apply nth_error_None in Ex2; lia].
    rewrite assign_spec in E.
    - injection E as _ <-.
      assert (H2 : has_function (assigned (mkState (wrappers s ++ [mkWrapper (w_function b) e2]) (emitters s)) e2 (length (wrappers s))) e2 f).
      { eexists _, (length (wrappers s)), _. unfold assigned, set_emitter. cbn [emitters wrappers].
        rewrite upd_nth, Nat.eqb_refl, Ex2, nth_error_app2, Nat.sub_diag by lia. cbn [option_map nth_error w_function w_bound_to e_wrapper].
        repeat split; auto. }
      split; [exact H2|]. split.
      + destruct (Nat.eq_dec e1 e2) as [->|N]; [exact H2|].
        exists x, j, b. unfold assigned, set_emitter. cbn [emitters wrappers]. rewrite upd_nth.
        destruct (Nat.eqb_spec e1 e2); [congruence|]. repeat split; auto. apply nth_app_old. exact Eb.
      + unfold assigned, set_emitter. cbn [emitters wrappers]. split.
        * intros e' N. rewrite upd_nth. destruct (Nat.eqb_spec e' e2); congruence.
        * intros k (y & Ey & Ek). cbn [emitters] in Ey. rewrite upd_nth, Nat.eqb_refl, Ex2 in Ey. injection Ey as <-. cbn in Ek. injection Ek as <-.
          apply nth_error_None. lia.
    - intros Q. apply D. unfold assign, try_finally in E. destruct (try_mock _ _ _ _) as [q s1]. cbn [fst] in Q. subst q. congruence.
  Qed.

  (** Nothing that is done with other emitters and their wrappers changes the
      function or the generator of an emitter. *)
  Theorem C79_apart p (s : state) e f c : program fuel start p s -> has_function s e f ->
    ordinary s c -> ~ about s e c ->
    has_function (exec fuel c s) e f /\ nth_error (emitters (exec fuel c s)) e = nth_error (emitters s) e.
  Proof.
    intros H (x & j & b & Ex & Ej & Eb & Bt & Ef) O A. pose proof (inv_program fuel _ _ _ H inv_start) as I.
    assert (Le : (e < length (emitters s))%nat) by (apply nth_error_Some; congruence).
    assert (K : forall s', nth_error (emitters s') e = nth_error (emitters s) e -> nth_error (wrappers s') j = nth_error (wrappers s) j ->
      has_function s' e f /\ nth_error (emitters s') e = nth_error (emitters s) e).
    { intros s' E1 E2. split; [|exact E1]. exists x, j, b. rewrite E1, E2. auto. }
    assert (F : forall s0 e' c args kw, inv s0 -> may_be_given s0 c -> e' <> e -> nth_error (emitters s0) e = nth_error (emitters s) e ->
      wrappers s0 = wrappers s ->
      has_function (snd (set_function e' c args kw s0)) e f /\ nth_error (emitters (snd (set_function e' c args kw s0))) e = nth_error (emitters s) e).
    { intros s0 e' c0 args kw I0 G N E1 E2. destruct (new_wrapper_spec s0 c0 e' I0 G) as (c' & Hp & E & _). unfold set_function, mbind. rewrite E.
      apply K.
      - destruct (assign_state (mkState (wrappers s0 ++ [mkWrapper c' e']) (emitters s0)) e' (length (wrappers s0)) args kw) as [-> | ->]; [|exact E1].
        unfold assigned, set_emitter. cbn [emitters]. rewrite upd_nth. destruct (Nat.eqb_spec e e'); congruence.
      - assert (Q : nth_error (wrappers s0 ++ [mkWrapper c' e']) j = nth_error (wrappers s) j) by (rewrite E2, Eb; apply nth_app_old; exact Eb).
        destruct (assign_state (mkState (wrappers s0 ++ [mkWrapper c' e']) (emitters s0)) e' (length (wrappers s0)) args kw) as [-> | ->]; exact Q. }
    destruct c as [r c args kw|c e'|e' c args kw|e' i' args kw|i' c|i' e'|e' args kw|e']; cbn [exec ordinary about] in *.
    - apply F; [|destruct c; exact O | cbn [emitters]; lia | cbn [emitters]; rewrite nth_error_app1 by lia; reflexivity | reflexivity].
      destruct I as [I1 I2]. split; [exact I1|]. intros e'' k (y & Ey & Ek). cbn [emitters] in Ey.
      apply nth_app_new in Ey as [Ey|[_ ->]]; [|discriminate]. apply I2. exists y. auto.
    - destruct (new_wrapper_spec s c e' I O) as (c' & Hp & -> & _). apply K; [reflexivity|]. cbn [snd wrappers]. rewrite Eb. apply nth_app_old. exact Eb.
    - apply F; auto. apply O.
    - destruct (assign_state s e' i' args kw) as [-> | ->]; [|apply K; reflexivity]. apply K; [|reflexivity].
      unfold assigned, set_emitter. cbn [emitters]. rewrite upd_nth. destruct (Nat.eqb_spec e e'); congruence.
    - apply K; [reflexivity|]. cbn [set_wrapper wrappers]. rewrite upd_nth. destruct (Nat.eqb_spec j i') as [->|]; [|reflexivity].
      exfalso. apply A. exists x. auto.
    - apply K; [reflexivity|]. cbn [set_wrapper wrappers]. rewrite upd_nth. destruct (Nat.eqb_spec j i') as [->|]; [|reflexivity].
      exfalso. apply A. exists x. auto.
    - unfold emit. destruct (nth_error (emitters s) e') as [y|] eqn:Ey; [|apply K; reflexivity].
      destruct (e_wrapper y) as [i'|] eqn:Ei'; [|apply K; reflexivity]. destruct fuel as [|k]; [apply K; reflexivity|].
      destruct (inv_has s e' i' I) as (f' & Hf'); [exists y; auto|].
      destruct (emit_spec k s e' y f' args kw Hf' Ey) as (s' & E & Ew & _ & Eo & _).
      unfold emit in E. rewrite Ey, Ei' in E. rewrite E. cbn [snd]. apply K; [apply Eo; congruence | rewrite Ew; reflexivity].
    - unfold reset. cbn [snd]. apply K; [|reflexivity]. unfold set_emitter. cbn [emitters]. rewrite upd_nth.
      destruct (Nat.eqb_spec e e'); congruence.
  Qed.
End Claim.

(** Programs that do the three things that ordinary programs do not do are another
    matter: their emitters draw from the generators of others. *)
Definition C79_statement : Prop := forall (fuel : nat) p e k args kw,
  let s := runs (R := Z) fuel p (mkState [] []) in
  forall e', e' <> e -> rng_of (snd (emit (S k) e args kw s)) e' = rng_of s e'.
Definition draw : pyfun Z := mkPyfun (Some [mkParam "x" PosOrKw false; mkParam "rng" PosOrKw false]%string)
  (fun _ _ => Raise TypeError) (fun _ _ g => (Ok (VInt g), g + 1)).
Definition two : list (command Z) := [NewEmitter 10 (Fun draw) [VNone] []; NewEmitter 20 (Fun draw) [VNone] []].
(** em0.wrapper = em1.wrapper *)
Theorem C79_assigned_refuted : ~ C79_statement.
Proof.
  intros H. specialize (H 9%nat (two ++ [AssignWrapper 0 1 [VNone] []]) 0%nat 8%nat [VNone] [] 1%nat ltac:(discriminate)).
  vm_compute in H. discriminate.
Qed.
(** em0.wrapper.function = em1.wrapper *)
Theorem C79_nested_refuted : ~ C79_statement.
Proof.
  intros H. specialize (H 9%nat (two ++ [AssignFunction 0 (Wrapper 1)]) 0%nat 8%nat [VNone] [] 1%nat ltac:(discriminate)).
  vm_compute in H. discriminate.
Qed.

(** Concrete case: em0 draws twice, em1 is given its wrapper, both draw. *)
Definition hand_on : list (command Z) :=
  two ++ [Emit 0 [VNone] []; Emit 0 [VNone] []; SetFunction 1 (Wrapper 0) [VNone] []; Emit 1 [VNone] []].
Example C79_case :
  program 9 (mkState [] []) hand_on (runs 9 hand_on (mkState [] [])) /\
  has_function (runs 9 hand_on (mkState [] [])) 1 draw /\
  wrapper_of (runs 9 hand_on (mkState [] [])) 1 2 /\
  rng_of (runs 9 hand_on (mkState [] [])) 0 = Some 12 /\ rng_of (runs 9 hand_on (mkState [] [])) 1 = Some 21 /\
  ~ about (runs 9 hand_on (mkState [] [])) 1 (Emit 0 [VNone] []).
Proof.
  split; [|split; [|split; [|split; [reflexivity | split; [reflexivity | discriminate]]]]].
  - repeat (econstructor; [vm_compute; repeat split; try discriminate; repeat constructor|]). constructor.
  - eexists _, _, _. repeat split; try reflexivity. left. reflexivity.
  - eexists. split; reflexivity.
Qed.

Print Assumptions C79_own_generator_partial.
Print Assumptions C79_given.
Print Assumptions C79_handed_on.
Print Assumptions C79_apart.
Print Assumptions C79_assigned_refuted.
Print Assumptions C79_nested_refuted.
