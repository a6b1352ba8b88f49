(** * Model of /repo/src/fauxdoc/emitters/text.py: make_alphabet and the emitting
    methods of Word and Text.

    The child emitters are any EmitterLike objects: each is given by what calling
    it without a number, and with a number, does to the program state [S].  (How
    the children are stored, reset and seeded is in World.v.) *)
From Verif Require Import Base Prims Values MathModel.

(** [chr(code)]: ValueError outside of range(0x110000) *)
Definition py_chr (code : Z) : res (list Z) :=
  if (0 <=? code) && (code <? 1114112) then Ok [code] else Raise ValueError.

(** [range(start, end + 1)] *)
Definition code_range (r : Z * Z) : list Z :=
  map (fun k => fst r + Z.of_nat k) (seq 0 (Z.to_nat (snd r + 1 - fst r))).

(** text.py:11-38 [make_alphabet]; [None] and an empty sequence give the default
    ranges. *)
Definition default_ranges : list (Z * Z) :=
  [(33, 33); (35, 38); (40, 126); (161, 172); (174, 255)].
Definition make_alphabet (uchar_ranges : option (list (Z * Z))) : res (list (list Z)) :=
  let ranges := match uchar_ranges with
                | Some (r :: t) => r :: t
                | _ => default_ranges
                end in
  mapM py_chr (flat_map code_range ranges).

Section Word.
  Context {S : Type}.
  Context (length_call : M S val) (length_call_n : Z -> M S (list val)).
  Context (alphabet_call : M S val) (alphabet_call_n : Z -> M S (list val)).

  (** text.py:132-134 [Word.emit] *)
  Definition word_emit : M S val :=
    n <~ length_call ;;
    chars <~ call_val alphabet_call alphabet_call_n n ;;
    s <~ lift (join_val chars) ;;
    ret (VStr s).

  (** text.py:145-149, the loop of [Word.emit_many] *)
  Fixpoint cut_words (chars : list val) (char_index : Z) (lengths : list Z) : res (list val) :=
    match lengths with
    | [] => Ok []
    | n :: t =>
        s <- join_strs (list_slice chars char_index (char_index + n)) ;;
        ws <- cut_words chars (char_index + n) t ;;
        Ok (VStr s :: ws)
    end.

  (** text.py:136-150 [Word.emit_many] *)
  Definition word_emit_many (number : Z) : M S (list val) :=
    lengths <~ length_call_n number ;;
    total <~ lift (sum_vals lengths) ;;
    chars <~ alphabet_call_n total ;;
    lift (ns <- mapM as_int lengths ;; cut_words chars 0 ns).
End Word.

Section Text.
  Context {S : Type}.
  Context (numwords_call_n : Z -> M S (list val)).
  Context (word_call_n : Z -> M S (list val)) (word_reset : M S unit).
  (** [Some n] if the word emitter has replace_only_after_call set, with n its
      num_unique_values (lines 262-263). *)
  Context (word_unique : S -> res (option Z)).
  Context (sep_call_n : Z -> M S (list val)).

  (** An iterator over words: a list iterator, or the generator of lines 265-272.
      For the generator: what is left of the current batch, the size of the
      batch ([None] before the first) and the number of words remaining. *)
  Inductive words : Type :=
  | WList (l : list val)
  | WGen (unique : Z) (pending : list val) (needed : option Z) (remainder : Z).

  (** text.py:242-274 [_get_words_iterator] *)
  Definition get_words_iterator (total : Z) : M S words := fun s =>
    match word_unique s with
    | Ok (Some n) =>
        if negb (n =? 0) && (n <? total) then (Ok (WGen n [] None total), s)
        else (l <~ word_call_n total ;; ret (WList l)) s
    | Ok None => (l <~ word_call_n total ;; ret (WList l)) s
    | Raise e => (Raise e, s)
    | Diverge => (Diverge, s)
    end.

  (** Resuming the generator when its batch is used up: lines 271-272, then the
      while condition, lines 268-269.  A batch that turns out to be empty is
      followed by the next one; [fuel] bounds these. *)
  Fixpoint next_batch (fuel : nat) (unique : Z) (needed : option Z) (remainder : Z) : M S (val * words) :=
    match fuel with
    | O => diverge
    | Datatypes.S f =>
        (match needed with Some _ => word_reset | None => ret tt end) ;;;
        let remainder := match needed with Some n => remainder - n | None => remainder end in
        if 0 <? remainder then
          let n := clamp Z.ltb unique None (Some remainder) in
          batch <~ word_call_n n ;;
          match batch with
          | a :: t => ret (a, WGen unique t (Some n) remainder)
          | [] => next_batch f unique (Some n) remainder
          end
        else raise StopIteration
    end.

  (** [next(words)] *)
  Definition next_word (w : words) : M S (val * words) :=
    match w with
    | WList [] => raise StopIteration
    | WList (a :: t) => ret (a, WList t)
    | WGen u (a :: t) needed r => ret (a, WGen u t needed r)
    | WGen u [] needed r => next_batch (Datatypes.S (Datatypes.S (Z.to_nat r))) u needed r
    end.

  (** [next(seps, ' ')] *)
  Definition next_sep (seps : list val) : val * list val :=
    match seps with [] => (VStr [32], []) | a :: t => (a, t) end.

  (** text.py:294-295, [k] more words with their separators *)
  Fixpoint more_words (k : nat) (render : list val) (w : words) (seps : list val)
    : M S (list val * words * list val) :=
    match k with
    | O => ret (render, w, seps)
    | Datatypes.S k =>
        let '(sp, seps) := next_sep seps in
        aw <~ next_word w ;;
        more_words k (render ++ [sp; fst aw]) (snd aw) seps
    end.

  (** text.py:291-296, the loop over the lengths *)
  Fixpoint make_texts (lengths : list Z) (w : words) (seps : list val) : M S (list val) :=
    match lengths with
    | [] => ret []
    | n :: t =>
        if n =? 0 then make_texts t w seps
        else
          aw <~ next_word w ;;
          rws <~ more_words (Z.to_nat (n - 1)) [fst aw] (snd aw) seps ;;
          let '(render, w, seps) := rws in
          s <~ lift (join_strs render) ;;
          texts <~ make_texts t w seps ;;
          ret (VStr s :: texts)
    end.

  (** text.py:280-297 [Text.emit_many] *)
  Definition text_emit_many (number : Z) : M S (list val) :=
    lengths <~ numwords_call_n number ;;
    total <~ lift (sum_vals lengths) ;;
    w <~ get_words_iterator total ;;
    seps <~ sep_call_n (total - number) ;;
    ns <~ lift (mapM as_int lengths) ;;
    make_texts ns w seps.

  (** text.py:276-278 [Text.emit] *)
  Definition text_emit : M S val :=
    l <~ text_emit_many 1 ;;
    lift (list_get l 0).
End Text.

(** num_unique_values of an emitter: unknown, an integer, or a number that is
    not an integer (a float, whose value is not modelled). *)
Inductive nuv : Set := Unknown | Exactly (z : Z) | Inexact.

(** [base ** e] on integers; a negative exponent gives a float, or
    ZeroDivisionError. *)
Definition py_pow (base e : Z) : res nuv :=
  if 0 <=? e then Ok (Exactly (base ^ e))
  else if base =? 0 then Raise ZeroDivisionError else Ok Inexact.

(** Arithmetic with a float gives a float. *)
Definition nuv_op (f : Z -> Z -> Z) (a b : nuv) : nuv :=
  match a, b with
  | Exactly x, Exactly y => Exactly (f x y)
  | _, _ => Inexact
  end.
Definition nuv_pow (base : nuv) (e : Z) : res nuv :=
  match base with
  | Exactly b => py_pow b e
  | _ => Ok Inexact
  end.

(** text.py:108-114 [Word._update_num_unique_vals]: [nchars] is the alphabet
    emitter's num_unique_values, [items] the length emitter's items, if it has
    that attribute. *)
Fixpoint word_sum (nchars : nuv) (items : list val) : res nuv :=
  match items with
  | [] => Ok (Exactly 0)
  | i :: t => z <- as_int i ;; p <- nuv_pow nchars z ;; s <- word_sum nchars t ;; Ok (nuv_op Z.add p s)
  end.
Definition word_nuv (nchars : nuv) (items : option (list val)) : res nuv :=
  match nchars, items with
  | Unknown, _ | _, None => Ok Unknown
  | _, Some items => word_sum nchars items
  end.

(** text.py:212-224 [Text._update_num_unique_vals] *)
Fixpoint text_sum (nwords nseps : nuv) (items : list val) : res nuv :=
  match items with
  | [] => Ok (Exactly 0)
  | i :: t =>
      z <- as_int i ;;
      a <- nuv_pow nwords z ;;
      b <- nuv_pow nseps (z - 1) ;;
      s <- text_sum nwords nseps t ;;
      Ok (nuv_op Z.add (nuv_op Z.mul a b) s)
  end.
Definition text_nuv (nwords nseps : nuv) (items : option (list val)) : res nuv :=
  match nwords, nseps, items with
  | Unknown, _, _ | _, Unknown, _ | _, _, None => Ok Unknown
  | _, _, Some items => text_sum nwords nseps items
  end.
