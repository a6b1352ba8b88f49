(** * Threads that call one at a time. *)
From Verif Require Import Base Prims MathModel MathProofs ChoiceModel ChoiceRun ThreadModel.
Open Scope Z_scope.

Lemma nth_same {X} i (x y : X) l : nth_error l i = Some y -> nth_error (upd i x l) i = Some x.
Proof. revert i. induction l as [|a l IH]; intros [|i] H; cbn in *; try discriminate; [reflexivity | apply IH, H]. Qed.
Lemma nth_other {X} i j (x : X) l : j <> i -> nth_error (upd i x l) j = nth_error l j.
Proof. revert i j. induction l as [|a l IH]; intros [|i] [|j] H; cbn; try reflexivity; [congruence|]. apply IH. congruence. Qed.

Section Serial.
  Context {S Q L R : Type}.
  Context (start : Q -> L) (step : L -> S -> (L + res R) * S).
  (** [f]: a call made without interruption; [cont]: the rest of a call *)
  Context (f : Q -> S -> res R * S) (cont : L -> S -> res R * S) (Inv : S -> Prop).
  (** [Inv]: between calls; [Here]: in a call *)
  Context (Here : L -> S -> Prop).
  Context (cont_start : forall q s, Inv s -> Here (start q) s /\ cont (start q) s = f q s).
  Context (cont_go : forall l s l' s', Here l s -> step l s = (inl l', s') -> Here l' s' /\ cont l s = cont l' s').
  Context (cont_end : forall l s r s', Here l s -> step l s = (inr r, s') -> Inv s' /\ cont l s = (r, s')).

  Fixpoint calls (qs : list Q) (s : S) : list (res R) * S :=
    match qs with
    | [] => ([], s)
    | q :: t => let '(r, s) := f q s in let '(rs, s) := calls t s in (r :: rs, s)
    end.
  Lemma calls_app qs q s : calls (qs ++ [q]) s =
    (fst (calls qs s) ++ [fst (f q (snd (calls qs s)))], snd (f q (snd (calls qs s)))).
  Proof.
    revert s. induction qs as [|x qs IH]; intros s; cbn [calls app].
    - cbn [fst snd app]. destruct (f q s); reflexivity.
    - destruct (f x s) as [r s1]. rewrite IH. destruct (calls qs s1). reflexivity.
  Qed.
  Definition requests (y : system S Q L R) : list Q := map (fun e => snd (fst e)) (s_log y).
  Definition outcomes (y : system S Q L R) : list (res R) := map snd (s_log y).

  (** At most one thread is in a call, and the call will end as [f] does. *)
  Definition fine (s0 : S) (y : system S Q L R) : Prop :=
    exists s1, calls (requests y) s0 = (outcomes y, s1) /\
      ((idle y /\ s1 = s_shared y /\ Inv s1) \/
       exists i th q l, nth_error (s_threads y) i = Some th /\ t_now th = Some (q, l) /\ Here l (s_shared y) /\ cont l (s_shared y) = f q s1 /\
         (forall j th', nth_error (s_threads y) j = Some th' -> j <> i -> t_now th' = None)).

  Lemma fine_step s0 y i : fine s0 y -> (forall j th, nth_error (s_threads y) j = Some th -> j <> i -> t_now th = None) ->
    fine s0 (run_one start step i y).
  Proof.
    intros (s1 & E & H) Alone. unfold run_one. destruct (nth_error (s_threads y) i) as [th|] eqn:Ei; [|exists s1; auto].
    destruct (t_now th) as [[q l]|] eqn:Nw.
    - destruct H as [[Id _]|(j & th' & q' & l' & Ej & Nj & Hj & Cj & Oj)].
      + rewrite (Id th (nth_error_In _ _ Ei)) in Nw. discriminate.
      + assert (j = i) as -> by (destruct (Nat.eq_dec j i) as [e|e]; [exact e | rewrite (Alone j th' Ej e) in Nj; discriminate]).
        rewrite Ei in Ej. injection Ej as <-. rewrite Nw in Nj. injection Nj as <- <-.
        destruct (step l (s_shared y)) as [[l'|r] s'] eqn:Es.
        * exists s1. split; [exact E|]. right. exists i, (mkThread (t_todo th) (Some (q, l'))), q, l'.
          destruct (cont_go _ _ _ _ Hj Es) as [Hj' Cj'].
          cbn [s_threads s_shared]. split; [|split; [reflexivity|split; [exact Hj'|split]]].
          -- apply nth_same with th. exact Ei.
          -- rewrite <- Cj. symmetry. exact Cj'.
          -- intros j th' Hk Nj. rewrite nth_other in Hk by exact Nj. eapply Alone; eauto.
        * destruct (cont_end _ _ _ _ Hj Es) as [I' Ce]. rewrite Ce in Cj.
          exists s'. unfold requests, outcomes in *. cbn [s_log]. rewrite !map_app. cbn [map fst snd]. rewrite calls_app, E. cbn [fst snd]. rewrite <- Cj. cbn [fst snd].
          split; [reflexivity|]. left. split; [|split; [reflexivity | exact I']]. intros t Ht. cbn [s_threads] in Ht. apply In_nth_error in Ht as [j Hk].
          destruct (Nat.eq_dec j i) as [->|Ne].
          -- rewrite (nth_same _ _ _ _ Ei) in Hk. injection Hk as <-. reflexivity.
          -- rewrite nth_other in Hk by exact Ne. eapply Alone; eauto.
    - assert (Id : idle y).
      { intros t Ht. apply In_nth_error in Ht as [j Hj]. destruct (Nat.eq_dec j i) as [->|Ne]; [congruence | eapply Alone; eauto]. }
      assert (Es1 : s1 = s_shared y /\ Inv s1).
      { destruct H as [[_ X]|(j & th' & q' & l' & Ej & Nj & _)]; [exact X|]. rewrite (Id th' (nth_error_In _ _ Ej)) in Nj. discriminate. }
      destruct Es1 as [Es1 I1]. destruct (t_todo th) as [|q t].
      + exists s1. auto.
      + exists s1. split; [exact E|]. right. exists i, (mkThread t (Some (q, start q))), q, (start q).
        rewrite Es1 in I1. destruct (cont_start q _ I1) as [Hs Cs].
        cbn [s_threads s_shared]. split; [|split; [reflexivity|split; [exact Hs|split]]].
        * apply nth_same with th. exact Ei.
        * rewrite Es1. exact Cs.
        * intros j th' Hj Nj. rewrite nth_other in Hj by exact Nj. eapply Alone; eauto.
  Qed.
  Lemma serial schedule : forall s0 y, fine s0 y -> one_at_a_time start step schedule y -> fine s0 (run start step schedule y).
  Proof.
    induction schedule as [|i t IH]; intros s0 y F O; [exact F|]. cbn [run one_at_a_time] in *. destruct O as [O1 O2].
    apply IH; [apply fine_step; auto | exact O2].
  Qed.
  (** The calls had the outcomes they would have had in one thread, in the order in
      which they ended. *)
  Theorem serial_calls schedule todo s : Inv s ->
    let y := run start step schedule (begin todo s) in
    one_at_a_time start step schedule (begin todo s) -> idle y -> calls (requests y) s = (outcomes y, s_shared y).
  Proof.
    intros I y O Id. assert (F : fine s (begin todo s)).
    { exists s. split; [reflexivity|]. left. split; [|split; [reflexivity | exact I]].
      intros th Ht. cbn in Ht. apply in_map_iff in Ht as (q & <- & _). reflexivity. }
    pose proof (serial schedule s _ F O) as Q0. fold y in Q0. destruct Q0 as (s1 & E & [(_ & X & _)|(i & th & q & l & Ei & Nw & _)]).
    - rewrite E, X. reflexivity.
    - rewrite (Id th (nth_error_In _ _ Ei)) in Nw. discriminate.
  Qed.
End Serial.

(** A property of the shared state and of the places in calls that is kept by every step
    is kept by every schedule. *)
Section Always.
  Context {S Q L R : Type}.
  Context (start : Q -> L) (step : L -> S -> (L + res R) * S).
  Context (Inv : S -> Prop) (Here : L -> Prop) (Good : res R -> Prop).
  Context (here_start : forall q, Here (start q)).
  Context (keeps : forall l s, Inv s -> Here l ->
    Inv (snd (step l s)) /\ match fst (step l s) with inl l' => Here l' | inr r => Good r end).
  Definition always (y : system S Q L R) : Prop :=
    Inv (s_shared y) /\ (forall th q l, In th (s_threads y) -> t_now th = Some (q, l) -> Here l) /\ Forall (fun e => Good (snd e)) (s_log y).
  Lemma in_upd {X} i (x z : X) l : In z (upd i x l) -> z = x \/ In z l.
  Proof.
    revert i. induction l as [|a l IH]; intros i H; [right; destruct i; exact H|]. destruct i as [|i]; cbn [upd In] in H.
    - destruct H as [<-|H]; [left | right; right]; auto.
    - destruct H as [<-|H]; [right; left; reflexivity|]. destruct (IH i H); [left | right; right]; auto.
  Qed.
  Lemma always_step i y : always y -> always (run_one start step i y).
  Proof.
    intros (I & H & G). unfold run_one. destruct (nth_error (s_threads y) i) as [th|] eqn:Ei; [|split; auto].
    destruct (t_now th) as [[q l]|] eqn:Nw.
    - destruct (keeps l (s_shared y) I (H th q l (nth_error_In _ _ Ei) Nw)) as [I' K].
      destruct (step l (s_shared y)) as [[l'|r] s']; cbn [fst snd] in *; (split; [exact I'|]); (split; [|]); cbn [s_threads s_log].
      + intros t q' l0 Ht Nt. apply in_upd in Ht as [->|Ht]; [injection Nt as <- <-; exact K | eauto].
      + exact G.
      + intros t q' l0 Ht Nt. apply in_upd in Ht as [->|Ht]; [discriminate Nt | eauto].
      + apply Forall_app. split; [exact G|]. repeat constructor. exact K.
    - destruct (t_todo th) as [|q t]; [split; auto|]. split; [exact I|]. split; [|exact G].
      intros t' q' l0 Ht Nt. apply in_upd in Ht as [->|Ht]; [injection Nt as <- <-; apply here_start | eauto].
  Qed.
  Theorem always_run schedule todo s : Inv s -> always (run start step schedule (begin todo s)).
  Proof.
    intros I. assert (A : always (begin todo s)).
    { split; [exact I|]. split; [|constructor]. intros th q l Ht. apply in_map_iff in Ht as (t & <- & _). discriminate. }
    revert A. generalize (begin (L := L) (R := R) todo s). induction schedule as [|i t IH]; intros y A; [exact A|]. cbn [run]. apply IH, always_step, A.
  Qed.
End Always.

(** ** Choice *)
Section Choice.
  Context (P : prims) {A : Type}.
  Context (setsize : list A -> res Z) (fuel : nat).
  Notation C := (@choice P A).

  (** What does not change while threads run *)
  Definition same_settings (c d : C) : Prop :=
    c_items d = c_items c /\ c_weights d = c_weights c /\ c_cum d = c_cum c /\ c_replace d = c_replace c /\ c_roac d = c_roac c /\
    c_shuffled d = c_shuffled c.
  Definition drawn (c : C) (u : pU P) : list A :=
    match nth_error (c_items c) (position_of P c u) with Some a => [a] | None => [] end.
  Definition in_range (c : C) : Prop := c_replace c = true -> forall r, (position_of P c (fst (r_random P r)) < length (c_items c))%nat.

  Definition choice_cont (l : where_in A) (c : C) : res (list A) * C :=
    match l with
    | Check n => choice_without_replacement P setsize fuel n c
    | Violation => uniqueness_violation P setsize c
    | Take n => (i <~ (match c_sidx c with None => raise AttributeError | Some i => ret i end) ;;
                   items <~ (if n =? 1 then a <~ lift (list_get (c_shuffled c) i) ;; ret [a]
                             else ret (list_slice (c_shuffled c) i (i + n))) ;;
                   modify P (fun c => set_nui P (c_nui c - n) (set_shuf P (c_shuffled c) (Some (i + n)) c)) ;;;
                   ret items) c
    | ReadIndex n got => match c_sidx c with
                           | None => (Raise AttributeError, c)
                           | Some i => (Ok got, set_nui P (c_nui c - n) (set_shuf P (c_shuffled c) (Some (i + n)) c))
                           end
    | WriteIndex n got i => (Ok got, set_nui P (c_nui c - n) (set_shuf P (c_shuffled c) (Some (i + n)) c))
    | ReadLeft n got => (Ok got, set_nui P (c_nui c - n) c)
    | WriteLeft n got m => (Ok got, set_nui P (m - n) c)
    | OneCall n => choice_without_replacement P setsize fuel n c
    | Begin n => choice_with_replacement P n c
    | Draw k got => let '(us, r) := draws P k (c_rng c) in (Ok (got ++ flat_map (drawn c) us), set_rng P r c)
    end.

  Lemma mapS_drawn (c : C) k r x : (forall r, position_of P c (fst (r_random P r)) < length (c_items c))%nat ->
    mapS (get_item (c_items c)) (map (position_of P c) (fst (draws P k r))) x = (Ok (flat_map (drawn c) (fst (draws P k r))), x : C).
  Proof.
    intros B. revert r. induction k as [|k IH]; intros r; [reflexivity|]. cbn [draws]. specialize (B r) as Br. destruct (r_random P r) as [u r1]. cbn [fst] in Br.
    specialize (IH r1). destruct (draws P k r1) as [us r2]. cbn [fst] in *.
    cbn [map mapS flat_map]. unfold mbind, get_item at 1, drawn at 1.
    destruct (nth_error (c_items c) (position_of P c u)) as [a|] eqn:E.
    - cbv [ret]. rewrite IH. reflexivity.
    - apply nth_error_None in E. lia.
  Qed.
  Lemma drawn_rng (c : C) r u : drawn (set_rng P r c) u = drawn c u. Proof. reflexivity. Qed.

  Context (c0 : C).
  Let Inv (c : C) : Prop := same_settings c0 c /\ in_range c.

  Lemma inv_choice l c : Inv c -> Inv (snd (choice_step P setsize fuel l c)).
  Proof.
    intros [S B]. enough (T : same_settings c (snd (choice_step P setsize fuel l c))).
    { split.
      - unfold same_settings in *. intuition congruence.
      - unfold in_range, position_of in *. destruct T as (T1 & T2 & T3 & T4 & _). intros R u. rewrite T1, T2, T3. apply B; congruence. }
    assert (Same : same_settings c c) by (unfold same_settings; auto 10).
    assert (Rng : forall r, same_settings c (set_rng P r c)) by (unfold same_settings; cbn; auto 10).
    destruct l; cbn [choice_step].
    - destruct (c_nui c <? n); [exact Same|]. destruct (negb (c_replace c)); exact Same.
    - unfold uniqueness_violation, mbind, ChoiceModel.get, lift. destruct (num_unique_values P setsize c); exact Same.
    - destruct (c_sidx c); [|exact Same]. destruct (n =? 1); [|exact Same]. destruct (list_get (c_shuffled c) z); exact Same.
    - destruct (c_sidx c); exact Same.
    - unfold same_settings; cbn; auto 10.
    - exact Same.
    - unfold same_settings; cbn; auto 10.
    - unfold choice_without_replacement, uniqueness_violation, mbind, ChoiceModel.get, lift, raise, ret, modify, on_rng, ChoiceModel.modify.
      destruct (c_nui c <? n); [destruct (num_unique_values P setsize c); exact Same|].
      destruct (negb (c_replace c)).
      + destruct (c_sidx c); [|exact Same]. destruct (n =? 1); [destruct (list_get (c_shuffled c) z)|]; unfold same_settings; cbn; auto 10.
      + destruct (c_weights c) as [ws|].
        * destruct (weighted_shuffle P fuel (c_items c) ws (Some n) (c_rng c)); apply Rng.
        * destruct ((n <? 0) || (zlen (c_items c) <? n)); [exact Same|].
          destruct (r_sample P (length (c_items c)) (Z.to_nat n) (c_rng c)) as [pos r]. unfold mbind.
          assert (X : forall ps x, snd (mapS (get_item (c_items c)) ps x) = (x : C)).
          { induction ps as [|p ps IH]; intros x; [reflexivity|]. cbn [mapS]. unfold mbind, get_item, raise, ret.
            destruct (nth_error (c_items c) p); [|reflexivity]. specialize (IH x). unfold get_item in IH. destruct (mapS _ ps x) as [[] ?]; exact IH. }
          specialize (X pos (set_rng P r c)). destruct (mapS (get_item (c_items c)) pos (set_rng P r c)) as [o c1]. cbn [snd] in *. subst c1. apply Rng.
    - destruct (zlen (c_items c) =? 1); [exact Same|]. destruct (c_weights c) eqn:W.
      + destruct (c_cum c) as [cum|]; [|exact Same]. destruct (negb _); [exact Same|]. destruct (rev cum); [exact Same|]. destruct (negb _); exact Same.
      + destruct (n =? 1); [|exact Same]. unfold choice_with_replacement, mbind, ChoiceModel.get, ret, on_rng, get_item, raise. rewrite W. cbn [Z.eqb Pos.eqb].
        destruct (zlen (c_items c) =? 1); [exact Same|]. destruct (r_below P (length (c_items c)) (c_rng c)) as [i r]. destruct (nth_error (c_items c) i); apply Rng.
    - destruct k; [exact Same|]. destruct (r_random P (c_rng c)). destruct (nth_error _ _); apply Rng.
  Qed.
  Let Here (l : where_in A) : Prop := match l with Begin _ | Draw _ _ => c_replace c0 = true | _ => True end.

  Lemma cont_go_choice l c l' c' : Inv c -> Here l -> choice_step P setsize fuel l c = (inl l', c') -> Here l' /\ choice_cont l c = choice_cont l' c'.
  Proof.
    intros [S B] H E. destruct l; cbn [choice_step] in E.
    - destruct (c_nui c <? n) eqn:L; [|destruct (negb (c_replace c)) eqn:R]; injection E as <- <-; (split; [exact I|]); cbn [choice_cont]; try reflexivity;
        unfold choice_without_replacement, mbind, ChoiceModel.get, ret; rewrite L; try rewrite R; try reflexivity.
      unfold uniqueness_violation, mbind, ChoiceModel.get, lift, raise. destruct (num_unique_values P setsize c); reflexivity.
    - destruct (uniqueness_violation P setsize c); discriminate.
    - cbn [choice_cont]. unfold mbind, lift, raise, ret, modify, ChoiceModel.modify. destruct (c_sidx c) as [i|] eqn:Si; [|discriminate].
      destruct (n =? 1); [destruct (list_get (c_shuffled c) i); try discriminate|]; injection E as <- <-; (split; [exact I|]); cbn [choice_cont]; rewrite Si; reflexivity.
    - cbn [choice_cont]. destruct (c_sidx c); [|discriminate]. injection E as <- <-. split; [exact I | reflexivity].
    - injection E as <- <-. split; [exact I | reflexivity].
    - injection E as <- <-. split; [exact I | reflexivity].
    - discriminate.
    - destruct (choice_without_replacement P setsize fuel n c); discriminate.
    - cbn [choice_cont]. assert (Rt : c_replace c = true) by (destruct S as (_ & _ & _ & -> & _); exact H). specialize (B Rt).
      unfold choice_with_replacement, mbind, ChoiceModel.get. cbv beta iota.
      destruct (zlen (c_items c) =? 1) eqn:Z1; [discriminate|]. destruct (c_weights c) as [ws|] eqn:Ws.
      + destruct (c_cum c) as [cum|] eqn:Cu.
        * unfold on_rng, choices_cum. destruct (negb _); [discriminate|]. destruct (rev cum) as [|t q] eqn:Rv; [discriminate|].
          destruct (negb (w_total_ok P t)); [discriminate|]. injection E as <- <-. split; [exact H|]. cbn [choice_cont].
          pose proof (fun x => mapS_drawn c (Z.to_nat n) (c_rng c) x B) as Md.
          destruct (draws P (Z.to_nat n) (c_rng c)) as [us r]. cbn [app fst] in *.
          rewrite <- (Md (set_rng P r c)). unfold position_of. rewrite Ws, Cu, Rv. reflexivity.
        * unfold on_rng, choices_uniform. injection E as <- <-. split; [exact H|]. cbn [choice_cont].
          pose proof (fun x => mapS_drawn c (Z.to_nat n) (c_rng c) x B) as Md.
          destruct (draws P (Z.to_nat n) (c_rng c)) as [us r]. cbn [app fst] in *.
          rewrite <- (Md (set_rng P r c)). unfold position_of. rewrite Ws, Cu. reflexivity.
      + destruct (n =? 1) eqn:N1.
        * destruct (choice_with_replacement P 1 c); discriminate.
        * injection E as <- <-. split; [exact H|]. unfold on_rng, choices_uniform. cbn [choice_cont].
          pose proof (fun x => mapS_drawn c (Z.to_nat n) (c_rng c) x B) as Md.
          destruct (draws P (Z.to_nat n) (c_rng c)) as [us r]. cbn [app fst] in *.
          rewrite <- (Md (set_rng P r c)). unfold position_of. rewrite Ws. reflexivity.
    - destruct k as [|k]; [discriminate|]. cbn [choice_cont draws]. destruct (r_random P (c_rng c)) as [u r] eqn:Er.
      destruct (nth_error (c_items c) (position_of P c u)) as [a|] eqn:En; [|discriminate]. injection E as <- <-. split; [exact H|]. cbn [choice_cont c_rng set_rng].
      destruct (draws P k r) as [us r']. cbn [flat_map]. unfold drawn at 1. rewrite En. rewrite <- app_assoc. reflexivity.
  Qed.
  Lemma cont_end_choice l c r c' : Inv c -> Here l -> choice_step P setsize fuel l c = (inr r, c') -> choice_cont l c = (r, c').
  Proof.
    intros [S B] H E. destruct l; cbn [choice_step] in E.
    - destruct (c_nui c <? n); [discriminate|]. destruct (negb (c_replace c)); discriminate.
    - cbn [choice_cont]. destruct (uniqueness_violation P setsize c). injection E as <- <-. reflexivity.
    - cbn [choice_cont]. unfold mbind, lift, raise, ret. destruct (c_sidx c) as [i|]; [|injection E as <- <-; reflexivity].
      destruct (n =? 1); [|discriminate]. destruct (list_get (c_shuffled c) i); try discriminate; injection E as <- <-; reflexivity.
    - cbn [choice_cont]. destruct (c_sidx c); [discriminate|]. injection E as <- <-. reflexivity.
    - discriminate.
    - discriminate.
    - injection E as <- <-. reflexivity.
    - cbn [choice_cont]. destruct (choice_without_replacement P setsize fuel n c). injection E as <- <-. reflexivity.
    - cbn [choice_cont]. assert (Rt : c_replace c = true) by (destruct S as (_ & _ & _ & -> & _); exact H). specialize (B Rt).
      unfold choice_with_replacement, mbind, ChoiceModel.get in E |- *. cbv beta iota in E |- *.
      destruct (zlen (c_items c) =? 1) eqn:Z1; [injection E as <- <-; reflexivity|]. destruct (c_weights c) as [ws|] eqn:Ws.
      + destruct (c_cum c) as [cum|] eqn:Cu; [|discriminate].
        unfold on_rng, choices_cum. destruct (negb _) eqn:Ln; [injection E as <- <-; destruct c; reflexivity|].
        destruct (rev cum) as [|t q] eqn:Rv; [injection E as <- <-; destruct c; reflexivity|].
        destruct (negb (w_total_ok P t)); [injection E as <- <-; destruct c; reflexivity | discriminate].
      + destruct (n =? 1) eqn:N1; [|discriminate]. cbn [Z.eqb Pos.eqb] in E.
        destruct (on_rng P _ c) as [[i| |] c1]; try (injection E as <- <-; reflexivity).
        destruct (get_item (c_items c) i c1) as [[a| |] c2]; injection E as <- <-; reflexivity.
    - destruct k as [|k].
      + injection E as <- <-. cbn [choice_cont draws flat_map]. rewrite app_nil_r. destruct c; reflexivity.
      + assert (Rt : c_replace c = true) by (destruct S as (_ & _ & _ & -> & _); exact H). specialize (B Rt (c_rng c)).
        destruct (r_random P (c_rng c)) as [u r1]. cbn [fst] in B. destruct (nth_error (c_items c) (position_of P c u)) as [a|] eqn:En; [discriminate|].
        apply nth_error_None in En. lia.
  Qed.

  Lemma wrap_one (m : M C (list A)) c : (forall l, fst (m c) = Ok l -> exists a, l = [a]) ->
    (a <~ (l <~ m ;; lift (list_get l 0)) ;; ret [a]) c = m c.
  Proof.
    intros H. unfold mbind. destruct (m c) as [[l| |] c1]; try reflexivity. destruct (H l eq_refl) as [a ->]. reflexivity.
  Qed.
  Lemma one_without (c : C) l : c_replace c = false -> fst (choice_without_replacement P setsize fuel 1 c) = Ok l -> exists a, l = [a].
  Proof.
    intros R. unfold choice_without_replacement, uniqueness_violation, mbind, ChoiceModel.get, lift, raise, ret, modify, ChoiceModel.modify. cbn [Z.eqb Pos.eqb].
    destruct (c_nui c <? 1).
    - destruct (num_unique_values P setsize c); discriminate.
    - rewrite R. cbn [negb]. destruct (c_sidx c) as [i|]; [|discriminate].
      destruct (list_get (c_shuffled c) i) as [a| |]; try discriminate. intros E. injection E as <-. eauto.
  Qed.
  Lemma one_with (c : C) l : fst (choice_with_replacement P 1 c) = Ok l -> exists a, l = [a].
  Proof.
    unfold choice_with_replacement, mbind, ChoiceModel.get, on_rng, ret. cbn [Z.eqb Pos.eqb].
    assert (One : forall i (c1 : C), fst (mapS (get_item (c_items c)) [i] c1) = Ok l -> exists a, l = [a]).
    { intros i c1. cbn [mapS]. unfold mbind, get_item, raise, ret. destruct (nth_error (c_items c) i) as [a|]; [|discriminate]. intros E. injection E as <-. eauto. }
    destruct (zlen (c_items c) =? 1) eqn:Z1.
    - apply Z.eqb_eq in Z1. unfold zlen in Z1. destruct (c_items c) as [|a [|b t]]; cbn [length] in Z1; try lia.
      intros E. injection E as <-. exists a. reflexivity.
    - destruct (c_weights c).
      + unfold choices_cum, choices_uniform. change (Z.to_nat 1) with 1%nat. cbn [draws].
        destruct (c_cum c) as [cum|].
        * destruct (negb _); [discriminate|]. destruct (rev cum); [discriminate|]. destruct (negb _); [discriminate|].
          destruct (r_random P (c_rng c)) as [u r]. apply One.
        * destruct (r_random P (c_rng c)) as [u r]. apply One.
      + destruct (r_below P (length (c_items c)) (c_rng c)) as [i r]. unfold get_item, raise, ret. destruct (nth_error (c_items c) i) as [a|]; [|discriminate].
        intros E. injection E as <-. eauto.
  Qed.
  Lemma cont_start_choice q c : Inv c -> Here (choice_start P c0 q) /\ choice_cont (choice_start P c0 q) c = do_ask P setsize fuel q c.
  Proof.
    intros [S _]. assert (R : c_replace c = c_replace c0) by apply S. assert (O : c_roac c = c_roac c0) by apply S.
    set (one := (if negb (c_replace c0) then Check 1 else Begin 1) : where_in A).
    assert (H1 : Here one /\ choice_cont one c = (a <~ choice_emit P setsize fuel ;; ret [a]) c).
    { unfold one. unfold choice_emit. destruct (c_replace c0) eqn:R0; cbn [negb].
      - split; [reflexivity|]. cbn [choice_cont]. rewrite <- (wrap_one (choice_with_replacement P 1) c (one_with c)).
        unfold mbind, ChoiceModel.get. cbv beta iota. rewrite R. cbn [negb]. reflexivity.
      - split; [exact I|]. cbn [choice_cont]. rewrite <- (wrap_one (choice_without_replacement P setsize fuel 1) c (fun l => one_without c l R)).
        unfold mbind, ChoiceModel.get. cbv beta iota. rewrite R. cbn [negb]. reflexivity. }
    assert (Hn : forall n, let m := (if negb (c_replace c0) || (c_roac c0 && (1 <? n)) then Check n else Begin n) : where_in A in
      Here m /\ choice_cont m c = choice_emit_many P setsize fuel n c).
    { intros n. cbv zeta. unfold choice_emit_many, mbind, ChoiceModel.get. rewrite R, O. destruct (c_replace c0) eqn:R0; cbn [negb orb].
      - destruct (c_roac c0 && (1 <? n)); (split; [exact I || reflexivity|reflexivity]).
      - split; [exact I | reflexivity]. }
    destruct q; cbn [choice_start do_ask]; try exact H1; try apply Hn.
    unfold choice_call_n. destruct (n =? 1); [exact H1 | apply Hn].
  Qed.

  (** Calls made one at a time *)
  Lemma calls_asks qs : forall c, calls (fun q c => do_ask P setsize fuel q c) qs c = do_asks P setsize fuel qs c.
  Proof. induction qs as [|q qs IH]; intros c; [reflexivity|]. cbn [calls do_asks]. destruct (do_ask P setsize fuel q c) as [r c1]. rewrite IH. reflexivity. Qed.
  Theorem choice_serial schedule todo : in_range c0 ->
    let y := run (choice_start P c0) (choice_step P setsize fuel) schedule (begin todo c0) in
    one_at_a_time (choice_start P c0) (choice_step P setsize fuel) schedule (begin todo c0) -> idle y ->
    do_asks P setsize fuel (requests y) c0 = (outcomes y, s_shared y).
  Proof.
    intros B y O Id. rewrite <- calls_asks.
    apply (serial_calls (choice_start P c0) (choice_step P setsize fuel) (fun q c => do_ask P setsize fuel q c) choice_cont Inv (fun l c => Inv c /\ Here l)); auto.
    - intros q c H. destruct (cont_start_choice q c H). auto.
    - intros l c l' c' [I H] E. destruct (cont_go_choice _ _ _ _ I H E). pose proof (inv_choice l c I) as I'. rewrite E in I'. auto.
    - intros l c r c' [I H] E. pose proof (inv_choice l c I) as I'. rewrite E in I'. split; [exact I' | apply cont_end_choice; auto].
    - split; [unfold same_settings; auto 10 | exact B].
  Qed.
End Choice.
