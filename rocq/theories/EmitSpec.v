(** * The values an emitter can emit, by its settings. *)
From Coq Require Import String.
From Verif Require Import Base Prims Values ChoiceModel FixedModel SigModel TextModel TextSpec FieldSpec World WorldSpec
  ObjectSpec CallSpec.
Open Scope list_scope.
Open Scope Z_scope.

Section Emits.
  Context (P : prims) (str_of : val -> res (list Z)).

  (** The function of a wrapper returns [v], for some state of the rng if it takes
      one. *)
  Definition returns (f : wfun P) (args : list val) (kwargs : list (string * val)) (v : val) : Prop :=
    (~ takes_the_rng P f /\ wf_plain P f args kwargs = Ok v) \/
    (takes_the_rng P f /\ exists g, fst (wf_rng P f args kwargs g) = Ok v).

  (** What CopyFields makes of the last values of its source fields. *)
  Definition copied (single : bool) (fs : list nat) (sep : option (list Z)) (w : world P) (v : val) : Prop :=
    (exists f, single = true /\ fs = [f] /\ single_valued_field P f w /\ v = previous P f w) \/
    (~ (single = true /\ exists f, fs = [f] /\ single_valued_field P f w)) /\
    exists parts, Forall2 adds (map (fun f => previous P f w) fs) parts /\
      match sep with
      | None => v = match concat parts with [] => VNone | _ => VList (concat parts) end
      | Some sp => exists ss out, Forall2 (fun x s => str_of x = Ok s) (concat parts) ss /\ joined sp ss out /\ v = VStr out
      end.

  (** The names of the fields, each once, with the last value of the field of that
      name (of the last one, if there are several). *)
  Definition last_values (fs : list nat) (w : world P) (kwargs : list (string * val)) : Prop :=
    map fst kwargs = new_names [] (map (fun f => name_of P f w) fs) /\
    forall n v, In (n, v) kwargs -> exists f, last_named (fun f => name_of P f w) n fs = Some f /\ v = previous P f w.

  Inductive can_emit (w : world P) : nat -> val -> Prop :=
  | ce_static id v l : settings_at P id w = Some (IsStatic v l) -> can_emit w id v
  | ce_iterative id f b c p v : settings_at P id w = Some (IsIterative f b) -> it_at (f c) p = Some v -> can_emit w id v
  | ce_sequential id t items b v : settings_at P id w = Some (IsSequential t items None b) -> In v items -> can_emit w id v
  | ce_seq_factory id t items f b c p v : settings_at P id w = Some (IsSequential t items (Some f) b) ->
      it_at (f c) p = Some v -> can_emit w id v
  | ce_choice id t items ws cs r o v : settings_at P id w = Some (IsChoice t items ws cs r o) -> In v items -> can_emit w id v
  | ce_word id l a nv n chars v : settings_at P id w = Some (IsWord l a) ->
      can_emit w l nv -> int_value nv n -> zlen chars = n -> (forall c, In c chars -> can_emit w a c) ->
      spelled chars v -> can_emit w id v
  | ce_word_none id l a s : settings_at P id w = Some (IsWord l a) ->   (* a single letter if the length is None *)
      can_emit w l VNone -> can_emit w a (VStr s) -> can_emit w id (VStr s)
  | ce_word_list id l a x cs v : settings_at P id w = Some (IsWord l a) ->
      can_emit w l VNone -> can_emit w a x -> x = VList cs \/ x = VTuple cs -> spelled cs v -> can_emit w id v
  | ce_text id m x s nv n ws seps v : settings_at P id w = Some (IsText m x s) ->
      can_emit w m nv -> int_value nv n -> zlen ws = n -> zlen seps + 1 = n ->
      (forall c, In c ws -> can_emit w x c) -> (forall c, In c seps -> can_emit w s c) ->
      spelled (interleave ws seps) v -> can_emit w id v
  | ce_wrapone id src f x v : settings_at P id w = Some (IsWrapOne src f) ->
      can_emit w src x -> returns f [x] [] v -> can_emit w id v
  | ce_wrapmany id srcs f xs v : settings_at P id w = Some (IsWrapMany srcs f) ->
      length xs = length srcs ->
      (forall i l k x, nth_error srcs i = Some (l, k) -> nth_error xs i = Some x -> can_emit w k x) ->
      returns f [] (combine (map fst srcs) xs) v -> can_emit w id v
  | ce_copyfields id b fs sep v : settings_at P id w = Some (IsCopyFields b fs sep) -> copied b fs sep w v -> can_emit w id v
  | ce_based_one id b g f v : settings_at P id w = Some (IsBasedOnFields b [g] f) ->
      returns f [previous P g w] [] v -> can_emit w id v
  | ce_based_many id b fs f kwargs v : settings_at P id w = Some (IsBasedOnFields b fs f) ->
      length fs <> 1%nat -> last_values fs w kwargs -> returns f [] kwargs v -> can_emit w id v
  | ce_user id c b s v : settings_at P id w = Some (IsUser c b) ->   (* what the methods of the class return, from some state *)
      fst (uc_emit P c s) = Ok v -> can_emit w id v
  | ce_user_many id c b s n l v : settings_at P id w = Some (IsUser c b) ->
      fst (uc_emit_many P c n s) = Ok l -> In v l -> can_emit w id v.
End Emits.
