(** * Model of class Choice, /repo/src/fauxdoc/emitters/choice.py, together with
    the methods it inherits from RandomMixin and ItemsMixin (mixins.py). *)
From Verif Require Import Base Prims MathModel.

Section Choice.
  Context (P : prims) {A : Type}.
  (** [len(set(xs))]; an exception if an element is not hashable. *)
  Context (setsize : list A -> res Z).
  (** Bound on the rounds of the rejection loop in weighted_shuffle. *)
  Context (fuel : nat).

  (** The attributes of a Choice object.  [c_sidx] is [None] as long as the
      attribute [_shuffled_index] has not been created.  [noun] is left out (it
      only occurs in error messages). *)
  Record choice : Type := mkChoice {
    c_items : list A;
    c_weights : option (list (pW P));
    c_cum : option (list (pW P));
    c_replace : bool;
    c_roac : bool;             (* replace_only_after_call *)
    c_nui : Z;                 (* _num_unique_items *)
    c_shuffled : list A;
    c_sidx : option Z;
    c_seed : option (pSeed P);
    c_rng : pR P
  }.
  Notation C := choice.

  Definition set_rng (r : pR P) (c : C) : C :=
    mkChoice (c_items c) (c_weights c) (c_cum c) (c_replace c) (c_roac c) (c_nui c) (c_shuffled c) (c_sidx c) (c_seed c) r.
  Definition set_seed (s : option (pSeed P)) (c : C) : C :=
    mkChoice (c_items c) (c_weights c) (c_cum c) (c_replace c) (c_roac c) (c_nui c) (c_shuffled c) (c_sidx c) s (c_rng c).
  Definition set_ws (w cum : option (list (pW P))) (c : C) : C :=
    mkChoice (c_items c) w cum (c_replace c) (c_roac c) (c_nui c) (c_shuffled c) (c_sidx c) (c_seed c) (c_rng c).
  Definition set_rep (b : bool) (c : C) : C :=
    mkChoice (c_items c) (c_weights c) (c_cum c) b (c_roac c) (c_nui c) (c_shuffled c) (c_sidx c) (c_seed c) (c_rng c).
  Definition set_roac (b : bool) (c : C) : C :=
    mkChoice (c_items c) (c_weights c) (c_cum c) (c_replace c) b (c_nui c) (c_shuffled c) (c_sidx c) (c_seed c) (c_rng c).
  Definition set_nui (n : Z) (c : C) : C :=
    mkChoice (c_items c) (c_weights c) (c_cum c) (c_replace c) (c_roac c) n (c_shuffled c) (c_sidx c) (c_seed c) (c_rng c).
  Definition set_shuf (l : list A) (i : option Z) (c : C) : C :=
    mkChoice (c_items c) (c_weights c) (c_cum c) (c_replace c) (c_roac c) (c_nui c) l i (c_seed c) (c_rng c).

  (** Run a computation on the object's own RNG. *)
  Definition on_rng {B} (m : M (pR P) B) : M C B := fun c =>
    let '(o, r) := m (c_rng c) in (o, set_rng r c).
  Definition get : M C C := fun c => (Ok c, c).
  Definition modify (f : C -> C) : M C unit := fun c => (Ok tt, f c).

  (** [random.Random(s)] / [rng.seed(s)]; [ent] numbers the uses of entropy. *)
  Definition rng_for (s : option (pSeed P)) (ent : nat) : pR P :=
    match s with Some s => r_seeded P s | None => r_fresh P ent end.

  (** Python truth of an optional sequence. *)
  Definition nonempty {B} (o : option (list B)) : bool :=
    match o with Some (_ :: _) => true | _ => false end.

  (** choice.py:148-153: differences of cumulative weights *)
  Fixpoint de_cum (prev : pW P) (l : list (pW P)) : list (pW P) :=
    match l with [] => [] | w :: t => w_sub P w prev :: de_cum w t end.

  (** choice.py:129-158 [_set_all_weights]: the new (weights, cum_weights).
      [items] is always non-empty, so [items or self._items] is the list of items. *)
  Definition all_weights (items : list A) (ws : option (list (pW P))) (cumulative : bool)
    : res (option (list (pW P)) * option (list (pW P))) :=
    match ws with
    | None => Ok (None, None)
    | Some ws =>
        if negb (length items =? length ws)%nat then Raise ValueError
        else if cumulative then Ok (Some (de_cum (w_zero P) ws), Some ws)
        else Ok (Some ws, Some (accumulate P ws))
    end.

  (** choice.py:261-266 [_global_shuffle] *)
  Definition global_shuffle : M C unit :=
    c <~ get ;;
    let weights := if nonempty (c_weights c)
                   then match c_weights c with Some w => w | None => [] end
                   else repeat (w_one P) (length (c_items c)) in
    sh <~ on_rng (weighted_shuffle P fuel (c_items c) weights None) ;;
    modify (fun c => set_nui (zlen (c_items c)) (set_shuf sh (Some 0) c)).

  (** choice.py:233-248 [reset], including mixins.py:43-48 *)
  Definition choice_reset (ent : nat) : M C unit :=
    modify (fun c => set_rng (rng_for (c_seed c) ent) c) ;;;
    c <~ get ;;
    if c_replace c then ret tt else global_shuffle.

  (** choice.py:250-259 [seed], including mixins.py:50-60 *)
  Definition choice_seed (s : option (pSeed P)) (ent : nat) : M C unit :=
    modify (fun c => set_rng (rng_for s ent) (set_seed s c)) ;;;
    c <~ get ;;
    if c_replace c then ret tt else global_shuffle.

  (** choice.py:87-127 [__init__].  [items] is a list, so only emptiness is
      checked (109).  RandomMixin.__init__ calls reset (mixins.py:41). *)
  Definition choice_new (items : list A) (weights : option (list (pW P))) (replace roac : bool)
      (seed : option (pSeed P)) (cum_weights : option (list (pW P))) (ent : nat) : res C :=
    match items with
    | [] => Raise ValueError
    | _ =>
        if nonempty weights && nonempty cum_weights then Raise TypeError
        else
          let to_set := if nonempty weights then weights else cum_weights in
          wc <- all_weights items to_set (nonempty cum_weights) ;;
          let c := mkChoice items (fst wc) (snd wc) (replace || roac) roac (zlen items) [] None
                     seed (rng_for seed ent) in
          match choice_reset ent c with
          | (Ok _, c) => Ok c
          | (Raise e, _) => Raise e
          | (Diverge, _) => Diverge
          end
    end.

  (** choice.py:165-175 and 182-192: the setters of weights and cum_weights *)
  Definition set_weights (ws : option (list (pW P))) (cumulative : bool) : M C unit :=
    c <~ get ;;
    wc <~ lift (all_weights (c_items c) ws cumulative) ;;
    modify (set_ws (fst wc) (snd wc)) ;;;
    if c_replace c then ret tt else global_shuffle.

  (** choice.py:199-216: the setter of replace *)
  Definition set_replace (b : bool) : M C unit :=
    c <~ get ;;
    if Bool.eqb b (c_replace c) then ret tt
    else
      modify (set_rep b) ;;;
      if b then modify (set_nui (zlen (c_items c)))
      else modify (set_roac false) ;;; global_shuffle.

  (** choice.py:223-231: the setter of replace_only_after_call *)
  Definition set_replace_only_after_call (b : bool) : M C unit :=
    modify (set_roac b) ;;;
    if b then set_replace true else ret tt.

  (** choice.py:282-294 [num_unique_values], mixins.py:92-95 *)
  Definition num_unique_values (c : C) : res Z :=
    if c_replace c then setsize (c_items c)
    else match c_sidx c with
         | None => Raise AttributeError
         | Some i => setsize (list_slice (c_shuffled c) i (zlen (c_shuffled c)))
         end.

  (** choice.py:296-307 [num_unique_items] *)
  Definition num_unique_items (c : C) : Z := c_nui c.

  (** choice.py:268-280 [emits_unique_values] *)
  Definition emits_unique_values (c : C) : res bool :=
    if c_replace c then Ok false
    else n <- num_unique_values c ;; Ok (c_nui c =? n).

  (** emitter.py:52-64 [raise_uniqueness_violation]; the message reads
      num_unique_values first. *)
  Definition uniqueness_violation {B} : M C B :=
    c <~ get ;;
    _ <~ lift (num_unique_values c) ;;
    raise ValueError.

  (** choice.py:309-328 [_choice_without_replacement] *)
  Definition choice_without_replacement (number : Z) : M C (list A) :=
    c <~ get ;;
    (if c_nui c <? number then uniqueness_violation else ret tt) ;;;
    if negb (c_replace c) then
      i <~ (match c_sidx c with None => raise AttributeError | Some i => ret i end) ;;
      items <~ (if number =? 1 then a <~ lift (list_get (c_shuffled c) i) ;; ret [a]
                else ret (list_slice (c_shuffled c) i (i + number))) ;;
      modify (fun c => set_nui (c_nui c - number) (set_shuf (c_shuffled c) (Some (i + number)) c)) ;;;
      ret items
    else
      match c_weights c with
      | None =>
          if (number <? 0) || (zlen (c_items c) <? number) then raise ValueError
          else
            pos <~ on_rng (fun r => let '(l, r) := r_sample P (length (c_items c)) (Z.to_nat number) r in (Ok l, r)) ;;
            mapS (get_item (c_items c)) pos
      | Some ws => on_rng (weighted_shuffle P fuel (c_items c) ws (Some number))
      end.

  (** choice.py:330-340 [_choice_with_replacement] *)
  Definition choice_with_replacement (number : Z) : M C (list A) :=
    c <~ get ;;
    if zlen (c_items c) =? 1 then ret (list_rep (c_items c) number)
    else
      match c_weights c with
      | None =>
          if number =? 1 then
            i <~ on_rng (fun r => let '(i, r) := r_below P (length (c_items c)) r in (Ok i, r)) ;;
            a <~ get_item (c_items c) i ;; ret [a]
          else
            pos <~ on_rng (choices_uniform P (length (c_items c)) number) ;;
            mapS (get_item (c_items c)) pos
      | Some _ =>
          pos <~ on_rng (match c_cum c with
                         | Some cum => choices_cum P (length (c_items c)) cum number
                         | None => choices_uniform P (length (c_items c)) number
                         end) ;;
          mapS (get_item (c_items c)) pos
      end.

  (** choice.py:342-346 [emit] *)
  Definition choice_emit : M C A :=
    c <~ get ;;
    l <~ (if negb (c_replace c) then choice_without_replacement 1 else choice_with_replacement 1) ;;
    lift (list_get l 0).

  (** choice.py:348-356 [emit_many] *)
  Definition choice_emit_many (number : Z) : M C (list A) :=
    c <~ get ;;
    if negb (c_replace c) || (c_roac c && (1 <? number)) then choice_without_replacement number
    else choice_with_replacement number.

  (** emitter.py:74-102 [__call__] with a number, and without. *)
  Definition choice_call_n (number : Z) : M C (list A) :=
    if number =? 1 then a <~ choice_emit ;; ret [a] else choice_emit_many number.
  Definition choice_call : M C A := choice_emit.
End Choice.
Arguments mkChoice {P A}.
Arguments c_items {P A}. Arguments c_weights {P A}. Arguments c_cum {P A}. Arguments c_replace {P A}.
Arguments c_roac {P A}. Arguments c_nui {P A}. Arguments c_shuffled {P A}. Arguments c_sidx {P A}.
Arguments c_seed {P A}. Arguments c_rng {P A}.
