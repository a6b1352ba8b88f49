(** * Words for comparing objects with other objects that were set up alike.

    [rho] says which emitter takes the place of which, [sigma] the same for
    fields. *)
From Coq Require Import String.
From Verif Require Import Base Prims Values ChoiceModel FixedModel TextModel FieldModel World WorldSpec.
Open Scope list_scope.

Section Twins.
  Context (P : prims) (rho sigma : nat -> nat).

  (** An emitter of the same class with the parts and source fields replaced. *)
  Definition renamed (e : emitter P) : emitter P :=
    match e with
    | EWord _ l a u nd => EWord P (rho l) (rho a) u nd
    | EText _ n x s u nd => EText P (rho n) (rho x) (rho s) u nd
    | EWrapOne _ s f nd => EWrapOne P (rho s) f nd
    | EWrapMany _ ss f nd => EWrapMany P (map (fun ks => (fst ks, rho (snd ks))) ss) f nd
    | ECopy _ b fs sep => ECopy P b (map sigma fs) sep
    | EBased _ b fs f nd => EBased P b (map sigma fs) f nd
    | e => e
    end.

  (** The same class and settings, whatever the state and the seed. *)
  Definition same_settings (e1 e2 : emitter P) : Prop :=
    match e1, e2 with
    | EStatic _ s1, EStatic _ s2 => s1 = s2
    | EIter _ i1, EIter _ i2 => i_factory i1 = i_factory i2 /\ i_rac i1 = i_rac i2
    | ESeq _ b1 q1, ESeq _ b2 q2 =>
        b1 = b2 /\ s_items q1 = s_items q2 /\ s_own q1 = s_own q2 /\ s_factory q1 = s_factory q2 /\ s_rac q1 = s_rac q2
    | EChoice _ b1 c1, EChoice _ b2 c2 =>
        b1 = b2 /\ c_items c1 = c_items c2 /\ c_weights c1 = c_weights c2 /\ c_cum c1 = c_cum c2 /\
        c_replace c1 = c_replace c2 /\ c_roac c1 = c_roac c2
    | EWord _ l1 a1 _ _, EWord _ l2 a2 _ _ => l1 = l2 /\ a1 = a2
    | EText _ n1 x1 s1 _ _, EText _ n2 x2 s2 _ _ => n1 = n2 /\ x1 = x2 /\ s1 = s2
    | EWrapOne _ s1 f1 _, EWrapOne _ s2 f2 _ => s1 = s2 /\ f1 = f2
    | EWrapMany _ ss1 f1 _, EWrapMany _ ss2 f2 _ => ss1 = ss2 /\ f1 = f2
    | ECopy _ b1 fs1 sep1, ECopy _ b2 fs2 sep2 => b1 = b2 /\ fs1 = fs2 /\ sep1 = sep2
    | EBased _ b1 fs1 f1 _, EBased _ b2 fs2 f2 _ => b1 = b2 /\ fs1 = fs2 /\ f1 = f2
    | EUser _ c1 _ n1, EUser _ c2 _ n2 => c1 = c2 /\ (n1 = None <-> n2 = None)
    | _, _ => False
    end.

  (** Emitter [i] of the first program has a counterpart in the second. *)
  Definition alike (w1 w2 : world P) (i : nat) : Prop :=
    exists e1 e2, get_em P i w1 = Some e1 /\ get_em P (rho i) w2 = Some e2 /\ same_settings (renamed e1) e2.
  (** The same for field [f]; its name may be another. *)
  Definition field_alike (w1 w2 : world P) (f : nat) : Prop :=
    exists x1 x2, get_fd P f w1 = Some x1 /\ get_fd P (sigma f) w2 = Some x2 /\
      f_hide P x2 = f_hide P x1 /\
      f_em P x2 = rho (f_em P x1) /\ f_rep P x2 = rho (f_rep P x1) /\ f_gate P x2 = rho (f_gate P x1).

  (** The fields [fs] with all they use: each has a counterpart, no two the same;
      all fields whose values are read are among [fs], and their counterparts have
      the same names. *)
  Record fields_alike (w1 w2 : world P) (fs : list nat) : Prop := {
    fa_fields : forall f, In f fs -> field_alike w1 w2 f;
    fa_emitters : forall f i, In f fs -> uses P w1 f i -> alike w1 w2 i;
    fa_reads : forall f g, In f fs -> reads P w1 f g -> In g fs /\ name_of P g w1 = name_of P (sigma g) w2;
    fa_distinct : forall f g i j, In f fs -> In g fs -> uses P w1 f i -> uses P w1 g j -> rho i = rho j -> i = j;
    fa_distinct_fields : forall f g, In f fs -> In g fs -> sigma f = sigma g -> f = g
  }.

  (** Emitter [i] and its parts, none of which reads fields: each has a
      counterpart, no two the same. *)
  Record emitters_alike (w1 w2 : world P) (i : nat) : Prop := {
    ea_emitters : forall j, belongs P w1 i j -> alike w1 w2 j;
    ea_reads : forall j e, belongs P w1 i j -> get_em P j w1 = Some e -> source_of P e = [];
    ea_distinct : forall j k, belongs P w1 i j -> belongs P w1 i k -> rho j = rho k -> j = k
  }.

  (** The same operation on the counterparts. *)
  Definition fields_renamed (fs : list (string * nat)) : list (string * nat) :=
    map (fun nf => (fst nf, sigma (snd nf))) fs.
  Definition op_renamed (o : op P) : op P :=
    match o with
    | Emit _ id => Emit P (rho id) | EmitN _ id n => EmitN P (rho id) n
    | ResetEm _ id => ResetEm P (rho id)
    | SeedEm _ id s => SeedEm P (rho id) s | SetSeedEm _ id s => SetSeedEm P (rho id) s
    | Call _ f => Call P (sigma f) | Reset _ f => Reset P (sigma f)
    | Seed _ f s => Seed P (sigma f) s | SetSeed _ f s => SetSeed P (sigma f) s
    | Doc _ fs => Doc P (fields_renamed fs)
    | ResetFields _ fs => ResetFields P (fields_renamed fs)
    | SeedFields _ fs s => SeedFields P (fields_renamed fs) s
    end.
End Twins.
