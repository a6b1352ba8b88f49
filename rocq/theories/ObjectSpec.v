(** * Words for stating what the settings of an object are, which commands change
    them, and by which steps objects change otherwise. *)
From Coq Require Import String Relations.
From Verif Require Import Base Prims Values ChoiceModel ChoiceRun FixedModel GroupModel SigModel World
  WorldSpec WorldBuild FixedSpec.
Open Scope list_scope.
Open Scope Z_scope.

Section Settings.
  Context (P : prims) (fuel : nat).

  (** What was given to the constructor or assigned since.  The seed, the rng and
      the position of an iteration are not settings; [own] is the factory assigned
      to a Sequential, if any. *)
  Inductive settings : Type :=
  | IsStatic (value : val) (items : list val)
  | IsIterative (f : factory val) (reset_after_call : bool)
  | IsSequential (islist : bool) (items : list val) (own : option (factory val)) (reset_after_call : bool)
  | IsChoice (islist : bool) (items : list val) (weights cum_weights : option (list (pW P)))
      (replace replace_only_after_call : bool)
  | IsWord (length_em alphabet_em : nat)
  | IsText (numwords_em word_em sep_em : nat)
  | IsWrapOne (source : nat) (f : wfun P)
  | IsWrapMany (sources : list (string * nat)) (f : wfun P)
  | IsCopyFields (single : bool) (source : list nat) (separator : option (list Z))
  | IsBasedOnFields (single : bool) (source : list nat) (f : wfun P)
  | IsUser (c : uclass P) (random : bool).

  Definition settings_of (e : emitter P) : settings :=
    match e with
    | EStatic _ s => IsStatic (st_value s) (st_items s)
    | EIter _ i => IsIterative (i_factory i) (i_rac i)
    | ESeq _ b s => IsSequential b (s_items s) (if s_own s then None else Some (s_factory s)) (s_rac s)
    | EChoice _ b c => IsChoice b (c_items c) (c_weights c) (c_cum c) (c_replace c) (c_roac c)
    | EWord _ l a _ _ => IsWord l a
    | EText _ n x s _ _ => IsText n x s
    | EWrapOne _ s f _ => IsWrapOne s f
    | EWrapMany _ ss f _ => IsWrapMany ss f
    | ECopy _ b fs sep => IsCopyFields b fs sep
    | EBased _ b fs f _ => IsBasedOnFields b fs f
    | EUser _ c _ nd => IsUser c (match nd with Some _ => true | None => false end)
    end.
  Definition settings_at (id : nat) (w : world P) : option settings := option_map settings_of (get_em P id w).

  (** name, hide, emitter, repeat_emitter, gate_emitter *)
  Definition field_settings_at (f : nat) (w : world P) : option (string * bool * nat * nat * nat) :=
    option_map (fun x => (f_name P x, f_hide P x, f_em P x, f_rep P x, f_gate P x)) (get_fd P f w).

  (** The command is an assignment to a setting of emitter [id], of field [f]. *)
  Definition assigns_to (id : nat) (c : command P) : Prop :=
    match c with
    | SetEmitter _ i _ | SetFunction _ i _ | SetSource _ i _ _ | SetSeparator _ i _ => i = id
    | _ => False
    end.
  Definition assigns_to_field (f : nat) (c : command P) : Prop :=
    match c with
    | SetPart _ g _ _ | SetHide _ g _ => g = f
    | _ => False
    end.

  (** [cs] are the running sums of [ws]; [ws] are the differences of [cs]. *)
  Definition running_sums (ws cs : list (pW P)) : Prop :=
    length cs = length ws /\
    (forall w, nth_error ws 0 = Some w -> nth_error cs 0 = Some w) /\
    (forall i c w, nth_error cs i = Some c -> nth_error ws (S i) = Some w -> nth_error cs (S i) = Some (w_add P c w)).
  Definition differences (ws cs : list (pW P)) : Prop :=
    length ws = length cs /\
    (forall c, nth_error cs 0 = Some c -> nth_error ws 0 = Some (w_sub P c (w_zero P))) /\
    (forall i c c', nth_error cs i = Some c -> nth_error cs (S i) = Some c' -> nth_error ws (S i) = Some (w_sub P c' c)).

  (** What an assignment makes of the settings. *)
  Inductive assigned : settings -> command P -> settings -> Prop :=
  | as_value v0 l0 id v :                                   (* em.value = v *)
      assigned (IsStatic v0 l0) (SetEmitter P id (SStatic P v)) (IsStatic v [v])
  | as_factory f0 b id f :                                  (* em.iterator_factory = f *)
      assigned (IsIterative f0 b) (SetEmitter P id (SFactory P f)) (IsIterative f b)
  | as_rac f b0 id b :                                      (* em.reset_after_call = b *)
      assigned (IsIterative f b0) (SetEmitter P id (SRac P b)) (IsIterative f b)
  | as_seq_factory t l0 o b id f l h : f 2%nat = Finite l h ->
      assigned (IsSequential t l0 o b) (SetEmitter P id (SFactory P f)) (IsSequential false l (Some f) b)
  | as_seq_rac t l o b0 id b :
      assigned (IsSequential t l o b0) (SetEmitter P id (SRac P b)) (IsSequential t l o b)
  | as_no_weights t l ws cs r o id s : s = CWeights P None \/ s = CCumWeights P None ->
      assigned (IsChoice t l ws cs r o) (SetEmitter P id (SChoice P s)) (IsChoice t l None None r o)
  | as_weights t l ws0 cs0 r o id ws cs : length ws = length l -> running_sums ws cs ->
      assigned (IsChoice t l ws0 cs0 r o) (SetEmitter P id (SChoice P (CWeights P (Some ws))))
        (IsChoice t l (Some ws) (Some cs) r o)
  | as_cum_weights t l ws0 cs0 r o id ws cs : length cs = length l -> differences ws cs ->
      assigned (IsChoice t l ws0 cs0 r o) (SetEmitter P id (SChoice P (CCumWeights P (Some cs))))
        (IsChoice t l (Some ws) (Some cs) r o)
  | as_replace t l ws cs r o id b :
      assigned (IsChoice t l ws cs r o) (SetEmitter P id (SChoice P (CReplace P b))) (IsChoice t l ws cs b (b && o))
  | as_roac t l ws cs r o id b :
      assigned (IsChoice t l ws cs r o) (SetEmitter P id (SChoice P (CRoac P b))) (IsChoice t l ws cs (b || r) b)
  | as_wrapone s f0 id f :                                  (* em.wrapper = f *)
      assigned (IsWrapOne s f0) (SetFunction P id f) (IsWrapOne s f)
  | as_wrapmany ss f0 id f :
      assigned (IsWrapMany ss f0) (SetFunction P id f) (IsWrapMany ss f)
  | as_action b fs f0 id f :                                (* em.action = f *)
      assigned (IsBasedOnFields b fs f0) (SetFunction P id f) (IsBasedOnFields b fs f)
  | as_copy_source b0 fs0 sep id b fs :                     (* em.set_source_fields(...) *)
      assigned (IsCopyFields b0 fs0 sep) (SetSource P id b fs) (IsCopyFields b fs sep)
  | as_based_source b0 fs0 f id b fs :
      assigned (IsBasedOnFields b0 fs0 f) (SetSource P id b fs) (IsBasedOnFields b fs f)
  | as_separator b fs sep0 id sep :                         (* em.separator = sep *)
      assigned (IsCopyFields b fs sep0) (SetSeparator P id sep) (IsCopyFields b fs sep).

  (** Using an emitter, on its own or as a part of something else, changes it only
      by the emitter's own operations: those of Iterative, Sequential, Choice
      and of users' classes are listed; the others change nothing but the seed and the rng. *)
  Inductive own_step : emitter P -> emitter P -> Prop :=
  | own_iter_emit i : own_step (EIter P i) (EIter P (snd (iter_emit fuel i)))
  | own_iter_many n i : own_step (EIter P i) (EIter P (snd (iter_emit_many fuel n i)))
  | own_iter_reset i : own_step (EIter P i) (EIter P (iter_reset i))
  | own_seq_emit b s : own_step (ESeq P b s) (ESeq P b (snd (seq_emit fuel s)))
  | own_seq_many b n s : own_step (ESeq P b s) (ESeq P b (snd (seq_emit_many fuel n s)))
  | own_seq_reset b s : own_step (ESeq P b s) (ESeq P b (seq_reset s))
  | own_choice_ask b q c : own_step (EChoice P b c) (EChoice P b (snd (do_ask P val_setsize fuel q c)))
  | own_choice_seed b o ent c : o = ChoiceRun.Reset \/ (exists s, o = ChoiceRun.Seed s \/ o = Rng_seed s) ->
      own_step (EChoice P b c) (EChoice P b (snd (do_setting P fuel o ent c)))
  | own_word l a u nd nd' : own_step (EWord P l a u nd) (EWord P l a u nd')
  | own_text n x s u nd nd' : own_step (EText P n x s u nd) (EText P n x s u nd')
  | own_wrapone s f nd nd' : own_step (EWrapOne P s f nd) (EWrapOne P s f nd')
  | own_wrapmany ss f nd nd' : own_step (EWrapMany P ss f nd) (EWrapMany P ss f nd')
  | own_based b fs f nd nd' : own_step (EBased P b fs f nd) (EBased P b fs f nd')
  | own_user_emit c own g nd nd' : (nd = None <-> nd' = None) ->
      own_step (EUser P c own nd) (EUser P c (fst (snd (uc_emit P c (own, g)))) nd')
  | own_user_many c own n g nd nd' : (nd = None <-> nd' = None) ->
      own_step (EUser P c own nd) (EUser P c (fst (snd (uc_emit_many P c n (own, g)))) nd')
  | own_user_reset c own nd : own_step (EUser P c own nd) (EUser P c (uc_reset P c own) nd)
  | own_user_rng c own nd nd' : (nd = None <-> nd' = None) -> own_step (EUser P c own nd) (EUser P c own nd').
  Definition own_steps : emitter P -> emitter P -> Prop := clos_refl_trans _ own_step.

  (** The object is as it would be if it had been used on its own only: it was
      constructed, and then its own methods were called and its own attributes
      assigned.  (FixedSpec.iter_ops and seq_ops: a sequence of requests, resets
      and assignments of reset_after_call; ChoiceRun.reach_any: any history of a
      Choice.)  Assigning a factory to an Iterative makes it a new one; a
      Sequential that was given a factory starts anew with it. *)
  Definition as_if_alone (e : emitter P) : Prop :=
    match e with
    | EIter _ i => exists its rac i0 ops, iter_new its rac = Ok i0 /\ i = snd (iter_ops fuel ops i0)
    | ESeq _ _ s =>
        (exists items rac s0 ops, seq_new items rac = Ok s0 /\ s = snd (seq_ops fuel ops s0)) \/
        (exists its q s0 ops, seq_set_factory its q = (Ok tt, s0) /\ s = snd (seq_ops fuel ops s0))
    | EChoice _ _ c => exists items, reach_any P val_setsize fuel items c
    | _ => True
    end.
End Settings.
Arguments IsStatic {P}. Arguments IsIterative {P}. Arguments IsSequential {P}. Arguments IsChoice {P}.
Arguments IsWord {P}. Arguments IsText {P}. Arguments IsWrapOne {P}. Arguments IsWrapMany {P}.
Arguments IsCopyFields {P}. Arguments IsBasedOnFields {P}. Arguments IsUser {P}.
