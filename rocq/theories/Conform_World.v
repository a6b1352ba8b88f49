(** * The objects of World.v against the values that test_emitters_text.py,
    test_emitters_fixed.py, test_emitters_wrappers.py, test_emitters_fromfields.py and
    test_profile.py of /repo/tests expect.  As in Conform_Math.v these are checks of
    the model, not theorems about the code, and the equations that need CPython's
    generator are dropped again once confirmed (Abort).  Generated from the text of
    the tests; the functions given to wrappers are translated by hand.  The weights
    poisson_choice computes are given as the doubles its formula yields.  Left out:
    tests of messages and of read-only attributes, sources that are not fauxdoc's own
    emitters (NumberEmitter is replaced by a Sequential), values that are dates
    given to str. *)
From Coq Require Import String Ascii.
From Verif Require Import Base Prims Values MathModel ChoiceModel RealModel FixedModel SigModel TextModel FieldModel
  QcNum Mersenne Demo World WorldSpec WorldBuild ProgramSpec Conform_Math.
From Coq Require Import QArith Qcanon.
Open Scope string_scope.
Open Scope list_scope.
Open Scope Z_scope.

Fixpoint chars (s : string) : list Z :=
  match s with EmptyString => [] | String c t => Z.of_nat (nat_of_ascii c) :: chars t end.
Definition str (s : string) : val := VStr (chars s).
Definition letters (s : string) : list val := map (fun c => VStr [c]) (chars s).
Definition q (n : Z) (d : positive) : Qc := Q2Qc (n # d).
Definition seed (s : Z) : option (pSeed MP) := Some s.

(** [str(v)] *)
Fixpoint digits (fuel : nat) (z : Z) : list Z :=
  match fuel with
  | O => []
  | S k => (if z <? 10 then [] else digits k (z / 10)) ++ [48 + z mod 10]
  end.
Definition decimal (z : Z) : list Z :=
  if z <? 0 then 45 :: digits 100 (- z) else digits 100 z.
Definition py_str (v : val) : res (list Z) :=
  match v with
  | VStr s => Ok s
  | VInt z => Ok (decimal z)
  | VBool b => Ok (chars (if b then "True" else "False"))
  | VNone => Ok (chars "None")
  | _ => Raise TypeError
  end.
Definition number (s : list Z) : Z := fold_left (fun n c => 10 * n + (c - 48)) s 0.
Definition upper (s : list Z) : list Z := map (fun c => if (97 <=? c) && (c <=? 122) then c - 32 else c) s.

(** What the functions in the tests do. *)
Definition strs (l : list val) : res (list val) := mapM (fun v => s <- py_str v ;; Ok (VStr s)) l.
Definition text (l : list val) : res val := s <- mapM py_str l ;; Ok (VStr (List.concat s)).
Definition spaced (l : list val) : res val := s <- mapM py_str l ;; Ok (VStr (join_with [32] s)).
Definition with_str (f : list Z -> val) (args : list val) (_ : list (string * val)) : res val :=
  match args with [v] => s <- py_str v ;; Ok (f s) | _ => Raise TypeError end.
Definition present (kw : list (string * val)) : list val :=
  filter (fun v => match v with VNone => false | _ => true end) (map snd kw).
(** rng.choice([True, False]) *)
Definition true_or_false : M (pR MP) bool := fun r => let '(k, r) := r_below MP 2%nat r in (Ok (Nat.eqb k 0), r).
(** em = chance(0.5); em.rng = rng; em() *)
Definition coin : M (pR MP) bool := fun r =>
  match chance MP 1000 (q 1 2) None 0 with
  | Ok c => let '(x, c) := choice_call MP (count_distinct Bool.bool_dec) 1000 (set_rng MP r c) in (x, c_rng c)
  | Raise e => (Raise e, r)
  | Diverge => (Diverge, r)
  end.
Definition fn (sg : option signature) (plain : list val -> list (string * val) -> res val)
    (with_rng : list val -> list (string * val) -> M (pR MP) val) : wfun MP := mkWfun MP sg plain with_rng.

(** The test's preparations, which must not fail, and what it then sees. *)
Definition succeeded {A} (r : res A) : bool := match r with Ok _ => true | _ => false end.
Definition goes (setup asks : list (command MP)) : option (list (res answer)) :=
  let '(rs, w) := run_program MP 1000 py_str setup (start MP 0) in
  if forallb succeeded rs then Some (fst (run_program MP 1000 py_str asks w)) else None.
Definition after (setup : list (command MP)) : world MP :=
  let '(rs, w) := run_program MP 1000 py_str setup (start MP 0) in
  if forallb succeeded rs then w else start MP 0.
Definition seed_at (id : nat) (w : world MP) : option Z :=
  match get_em MP id w with
  | Some e => match node_of MP e with Some nd => n_seed MP nd | None => None end
  | None => None
  end.
(** field.previous before and after each of [n] calls *)
Fixpoint previouses (f n : nat) (w : world MP) : list val :=
  previous MP f w ::
  match n with O => [] | S n => previouses f n (snd (fd_call MP 1000 py_str f w)) end.

Definition WORDS : list val := [(str "bicycle"); (str "warm"); (str "snowstorm"); (str "zebra");
  (str "sympathy"); (str "flautist"); (str "yellow"); (str "happy"); (str "sluggish"); (str "eat");
  (str "crazy"); (str "chairs")].
Definition NAMES : list val := [(str "Susan"); (str "Leslie"); (str "Boyle"); (str "Johnny"); (str
  "Anne"); (str "Krane"); (str "Rebecca"); (str "Ashley"); (str "William"); (str "Henry"); (str
  "Chuck"); (str "Betty")].

(** tests/test_emitters_text.py:33 *)
Example test_makealphabet_1 :
  make_alphabet (Some [(65, 69); (71, 71)]) = Ok [chars "A"; chars "B"; chars "C"; chars "D"; chars "E"; chars "G"].
Proof. vm_compute. reflexivity. Qed.

(** tests/test_emitters_text.py:34 *)
Example test_makealphabet_2 :
  make_alphabet (Some [(97, 103); (65, 67)]) = Ok [chars "a"; chars "b"; chars "c"; chars "d"; chars "e"; chars "f"; chars "g"; chars "A"; chars "B"; chars "C"].
Proof. vm_compute. reflexivity. Qed.

(** tests/test_emitters_text.py:43 *)
Example test_word_emit_1 :
  goes [NewChoice MP false (map VInt (zrange 0 1)) None true false None None; NewChoice MP false
    (letters "abcde") None true false None None; NewWord MP 0 1 (seed 999)]
    [Do MP (EmitN MP 2 10)]
  = Some [Ok (Values [(str ""); (str ""); (str ""); (str ""); (str ""); (str ""); (str ""); (str
    ""); (str ""); (str "")])].
Proof. vm_compute. reflexivity. Abort.

(** tests/test_emitters_text.py:45 *)
Example test_word_emit_2 :
  goes [NewChoice MP false (map VInt (zrange 1 2)) None true false None None; NewChoice MP false
    (letters "abcde") None true false None None; NewWord MP 0 1 (seed 999)]
    [Do MP (EmitN MP 2 10)]
  = Some [Ok (Values [(str "d"); (str "a"); (str "e"); (str "c"); (str "c"); (str "a"); (str "d");
    (str "b"); (str "d"); (str "e")])].
Proof. vm_compute. reflexivity. Abort.

(** tests/test_emitters_text.py:47 *)
Example test_word_emit_3 :
  goes [NewChoice MP false (map VInt (zrange 5 6)) None true false None None; NewChoice MP false
    (letters "abcde") None true false None None; NewWord MP 0 1 (seed 999)]
    [Do MP (EmitN MP 2 10)]
  = Some [Ok (Values [(str "daecc"); (str "adbde"); (str "aeabc"); (str "dbeeb"); (str "daabe");
    (str "cadae"); (str "cecdd"); (str "adcdb"); (str "aebdb"); (str "cadca")])].
Proof. vm_compute. reflexivity. Abort.

(** tests/test_emitters_text.py:50 *)
Example test_word_emit_4 :
  goes [NewChoice MP false (map VInt (zrange 5 6)) None true false None None; NewChoice MP false
    (letters "abcde") None true false None None; NewWord MP 0 1 (seed 999)]
    [Do MP (Emit MP 2); Do MP (Emit MP 2); Do MP (Emit MP 2); Do MP (Emit MP 2); Do MP (Emit MP 2);
      Do MP (Emit MP 2); Do MP (Emit MP 2); Do MP (Emit MP 2); Do MP (Emit MP 2); Do MP (Emit MP 2)]
  = Some [Ok (Value ((str "daecc"))); Ok (Value ((str "adbde"))); Ok (Value ((str "aeabc"))); Ok
    (Value ((str "dbeeb"))); Ok (Value ((str "daabe"))); Ok (Value ((str "cadae"))); Ok (Value ((str
    "cecdd"))); Ok (Value ((str "adcdb"))); Ok (Value ((str "aebdb"))); Ok (Value ((str "cadca")))].
Proof. vm_compute. reflexivity. Abort.

(** tests/test_emitters_text.py:53 *)
Example test_word_emit_5 :
  goes [NewChoice MP false (map VInt (zrange 5 6)) None true false None None; NewChoice MP false
    (letters "a") None true false None None; NewWord MP 0 1 (seed 999)]
    [Do MP (EmitN MP 2 10)]
  = Some [Ok (Values [(str "aaaaa"); (str "aaaaa"); (str "aaaaa"); (str "aaaaa"); (str "aaaaa");
    (str "aaaaa"); (str "aaaaa"); (str "aaaaa"); (str "aaaaa"); (str "aaaaa")])].
Proof. vm_compute. reflexivity. Abort.

(** tests/test_emitters_text.py:56 *)
Example test_word_emit_6 :
  goes [NewChoice MP false (map VInt (zrange 1 6)) None true false None None; NewChoice MP false
    (letters "abcde") None true false None None; NewWord MP 0 1 (seed 999)]
    [Do MP (EmitN MP 2 10)]
  = Some [Ok (Values [(str "daec"); (str "c"); (str "adbde"); (str "aea"); (str "bcd"); (str "b");
    (str "eebd"); (str "aa"); (str "beca"); (str "daece")])].
Proof. vm_compute. reflexivity. Abort.

(** tests/test_emitters_text.py:59 *)
Example test_word_emit_7 :
  goes [NewChoice MP false (map VInt (zrange 1 6)) (Some (ws [15; 70; 5; 5; 5])) true false None
    None; NewChoice MP false (letters "abcde") None true false None None; NewWord MP 0 1 (seed 999)]
    [Do MP (EmitN MP 2 10)]
  = Some [Ok (Values [(str "da"); (str "e"); (str "cca"); (str "db"); (str "de"); (str "a"); (str
    "ea"); (str "bc"); (str "db"); (str "ee")])].
Proof. vm_compute. reflexivity. Abort.

(** tests/test_emitters_text.py:61 *)
Example test_word_emit_8 :
  goes [NewChoice MP false (map VInt (zrange 1 6)) (Some (ws [15; 70; 5; 5; 5])) true false None
    None; NewChoice MP false (letters "abcde") None true false None None; NewWord MP 0 1 (seed 999)]
    [Do MP (Emit MP 2); Do MP (Emit MP 2); Do MP (Emit MP 2); Do MP (Emit MP 2); Do MP (Emit MP 2);
      Do MP (Emit MP 2); Do MP (Emit MP 2); Do MP (Emit MP 2); Do MP (Emit MP 2); Do MP (Emit MP 2)]
  = Some [Ok (Value ((str "da"))); Ok (Value ((str "e"))); Ok (Value ((str "cca"))); Ok (Value ((str
    "db"))); Ok (Value ((str "de"))); Ok (Value ((str "a"))); Ok (Value ((str "de"))); Ok (Value
    ((str "ae"))); Ok (Value ((str "ad"))); Ok (Value ((str "bd")))].
Proof. vm_compute. reflexivity. Abort.

(** tests/test_emitters_text.py:63 *)
Example test_word_emit_9 :
  goes [NewChoice MP false (map VInt (zrange 1 6)) (Some (ws [15; 70; 5; 5; 5])) true false None
    None; NewChoice MP false (letters "abcde") (Some (ws [20; 5; 15; 40; 20])) true false None None;
    NewWord MP 0 1 (seed 999)]
    [Do MP (EmitN MP 2 10)]
  = Some [Ok (Values [(str "da"); (str "e"); (str "dda"); (str "dc"); (str "de"); (str "a"); (str
    "ea"); (str "cd"); (str "dc"); (str "ee")])].
Proof. vm_compute. reflexivity. Abort.

(** tests/test_emitters_text.py:65 *)
Example test_word_emit_10 :
  goes [NewChoice MP false (map VInt (zrange 1 6)) None true false None None; NewChoice MP false
    (letters "abcde") (Some (ws [20; 5; 15; 40; 20])) true false None None; NewWord MP 0 1 (seed
    999)]
    [Do MP (EmitN MP 2 10)]
  = Some [Ok (Values [(str "daed"); (str "d"); (str "adcde"); (str "aea"); (str "cdd"); (str "c");
    (str "eebd"); (str "aa"); (str "beda"); (str "daede")])].
Proof. vm_compute. reflexivity. Abort.

(** tests/test_emitters_text.py:80 *)
Example test_word_unique_properties_1 :
  let w := after [NewChoice MP true ([VInt 1]) None true false None None; NewChoice MP false
    (letters "abcde") None true false None None; NewWord MP 0 1 None] in
  nuv_at MP 2 w = Ok (Exactly 5).
Proof. vm_compute. now repeat split. Abort.

(** tests/test_emitters_text.py:81 *)
Example test_word_unique_properties_2 :
  let w := after [NewChoice MP true ([VInt 2]) None true false None None; NewChoice MP false
    (letters "abcde") None true false None None; NewWord MP 0 1 None] in
  nuv_at MP 2 w = Ok (Exactly 25).
Proof. vm_compute. now repeat split. Abort.

(** tests/test_emitters_text.py:82 *)
Example test_word_unique_properties_3 :
  let w := after [NewChoice MP true ([VInt 3]) None true false None None; NewChoice MP false
    (letters "abcde") None true false None None; NewWord MP 0 1 None] in
  nuv_at MP 2 w = Ok (Exactly 125).
Proof. vm_compute. now repeat split. Abort.

(** tests/test_emitters_text.py:83 *)
Example test_word_unique_properties_4 :
  let w := after [NewChoice MP true ([VInt 4]) None true false None None; NewChoice MP false
    (letters "abcde") None true false None None; NewWord MP 0 1 None] in
  nuv_at MP 2 w = Ok (Exactly 625).
Proof. vm_compute. now repeat split. Abort.

(** tests/test_emitters_text.py:84 *)
Example test_word_unique_properties_5 :
  let w := after [NewChoice MP true ([VInt 1; VInt 2; VInt 3; VInt 4]) None true false None None;
    NewChoice MP false (letters "abcde") None true false None None; NewWord MP 0 1 None] in
  nuv_at MP 2 w = Ok (Exactly 780).
Proof. vm_compute. now repeat split. Abort.

(** tests/test_emitters_text.py:85 *)
Example test_word_unique_properties_6 :
  let w := after [NewChoice MP true ([VInt 3; VInt 1]) None true false None None; NewChoice MP false
    (letters "abcde") None true false None None; NewWord MP 0 1 None] in
  nuv_at MP 2 w = Ok (Exactly 130).
Proof. vm_compute. now repeat split. Abort.

(** tests/test_emitters_text.py:98 *)
Example test_text_emit_generated_words_1 :
  goes [NewChoice MP false (map VInt (zrange 1 4)) None true false None None; NewChoice MP false
    (map VInt (zrange 2 9)) None true false None None; NewChoice MP false (letters "abcde") None
    true false None None; NewWord MP 1 2 None; NewText MP 0 3 None (seed 999)]
    [Do MP (EmitN MP 5 6)]
  = Some [Ok (Values [(str "daeccad bd eaeabcdb"); (str "eebdaa"); (str "becad ae cecddad"); (str
    "cdba ebdbcad"); (str "caecabd bc"); (str "bbceeeac")])].
Proof. vm_compute. reflexivity. Abort.

(** tests/test_emitters_text.py:101 *)
Example test_text_emit_generated_words_2 :
  goes [NewChoice MP false (map VInt (zrange 1 4)) None true false None None; NewChoice MP false
    (map VInt (zrange 2 9)) None true false None None; NewChoice MP false (letters "abcde") None
    true false None None; NewWord MP 1 2 None; NewText MP 0 3 None (seed 999)]
    [Do MP (Emit MP 5); Do MP (Emit MP 5); Do MP (Emit MP 5); Do MP (Emit MP 5); Do MP (Emit MP 5);
      Do MP (Emit MP 5)]
  = Some [Ok (Value ((str "daeccad bd eaeabcdb"))); Ok (Value ((str "eebdaa"))); Ok (Value ((str
    "becad aecec ddadcdba"))); Ok (Value ((str "ebdbca dcaeca bdbcbb"))); Ok (Value ((str
    "ceeeacd ceeabb dadeacd"))); Ok (Value ((str "edb aeacaecc")))].
Proof. vm_compute. reflexivity. Abort.

(** tests/test_emitters_text.py:104 *)
Example test_text_emit_generated_words_3 :
  goes [NewChoice MP false (map VInt (zrange 3 7)) None true false None None; NewChoice MP false
    (map VInt (zrange 2 9)) None true false None None; NewChoice MP false (letters "abcde") None
    true false None None; NewWord MP 1 2 None; NewText MP 0 3 None (seed 999)]
    [Do MP (EmitN MP 5 6)]
  = Some [Ok (Values [(str "daeccad bd eaeabcdb eebdaa becad ae"); (str "cecddad cdba ebdbcad");
    (str "caecabd bc bbceeeac dce eab bdade"); (str "acdedb aea caeccaed abceeced bac"); (str
    "ebcbdb dc ba ded"); (str "cdbbdbab bdbed dad")])].
Proof. vm_compute. reflexivity. Abort.

(** tests/test_emitters_text.py:109 *)
Example test_text_emit_generated_words_4 :
  goes [NewChoice MP false (map VInt (zrange 3 7)) None true false None None; NewChoice MP false
    (map VInt (zrange 2 9)) None true false None None; NewChoice MP false (letters "abcde") None
    true false None None; NewWord MP 1 2 None; NewChoice MP true ([(str " "); (str "-"); (str ", ");
    (str "; ")]) (Some (ws [40; 30; 20; 10])) true false None None; NewText MP 0 3 (Some 4%nat)
    (seed 999)]
    [Do MP (EmitN MP 5 6)]
  = Some [Ok (Values [(str "daeccad, bd eaeabcdb, eebdaa-becad-ae"); (str "cecddad cdba, ebdbcad");
    (str "caecabd bc, bbceeeac, dce eab; bdade"); (str "acdedb aea caeccaed-abceeced, bac"); (str
    "ebcbdb dc, ba; ded"); (str "cdbbdbab bdbed-dad")])].
Proof. vm_compute. reflexivity. Abort.

(** tests/test_emitters_text.py:114 *)
Example test_text_emit_generated_words_5 :
  goes [NewChoice MP false (map VInt (zrange 3 7)) None true false None None; NewChoice MP false
    (map VInt (zrange 2 9)) None true false None None; NewChoice MP false (letters "abcde") None
    true false None None; NewWord MP 1 2 None; NewChoice MP true ([(str " "); (str "-"); (str ", ");
    (str "; ")]) (Some (ws [40; 30; 20; 10])) true false None None; NewText MP 0 3 (Some 4%nat)
    (seed 999)]
    [Do MP (Emit MP 5); Do MP (Emit MP 5); Do MP (Emit MP 5); Do MP (Emit MP 5); Do MP (Emit MP 5);
      Do MP (Emit MP 5)]
  = Some [Ok (Value ((str "daeccad, bd eaeabcdb"))); Ok (Value ((str
    "eebdaa, becad-ae-cecddad cdba, ebdbcad"))); Ok (Value ((str
    "caecabd bc, bbceeeac, dce eab; bdade"))); Ok (Value ((str "acdedb aea caeccaed-abceeced"))); Ok
    (Value ((str "bac, ebcbdb dc, ba; ded"))); Ok (Value ((str "cdbbdbab bdbed-dad")))].
Proof. vm_compute. reflexivity. Abort.

(** tests/test_emitters_text.py:119 *)
Example test_text_emit_generated_words_6 :
  goes [NewChoice MP false (map VInt (zrange 1 4)) (Some (ws [60; 25; 15])) true false None None;
    NewChoice MP false (map VInt (zrange 2 9)) None true false None None; NewChoice MP false
    (letters "abcde") None true false None None; NewWord MP 1 2 None; NewText MP 0 3 None (seed
    999)]
    [Do MP (EmitN MP 5 6)]
  = Some [Ok (Values [(str "daeccad bd"); (str "eaeabcdb"); (str "eebdaa becad ae"); (str
    "cecddad"); (str "cdba"); (str "ebdbcad")])].
Proof. vm_compute. reflexivity. Abort.

(** tests/test_emitters_text.py:142 *)
Example test_text_emit_words_list_1 :
  goes [NewChoice MP false (map VInt (zrange 1 4)) None true false None None; NewChoice MP false
    ([(str "red"); (str "cat"); (str "sappy"); (str "blooming"); (str "flower"); (str "isolated");
    (str "runway"); (str "refrigerator"); (str "truck"); (str "of"); (str "the"); (str "a"); (str
    "baseless"); (str "bird"); (str "on"); (str "clapping")]) (Some (ws (repeat 5 9 ++ repeat 10 3
    ++ repeat 5 2 ++ repeat 10 1 ++ repeat 5 1))) true false None None; NewChoice MP false ([(str
    " "); (str "-"); (str ", "); (str "; "); (str ": ")]) (Some (ws [80; 5; 10; 3; 2])) true false
    None None; NewText MP 0 1 (Some 2%nat) (seed 999)]
    [Do MP (EmitN MP 3 10)]
  = Some [Ok (Values [(str "baseless cat on"); (str "the"); (str "of, sappy baseless"); (str
    "runway baseless"); (str "bird cat"); (str "clapping"); (str "blooming isolated the"); (str
    "a"); (str "isolated on-clapping"); (str "flower the: cat")])].
Proof. vm_compute. reflexivity. Abort.

(** tests/test_emitters_text.py:146 *)
Example test_text_emit_words_list_2 :
  goes [NewChoice MP false (map VInt (zrange 1 4)) None true false None None; NewChoice MP false
    ([(str "red"); (str "cat"); (str "sappy"); (str "blooming"); (str "flower"); (str "isolated");
    (str "runway"); (str "refrigerator"); (str "truck"); (str "of"); (str "the"); (str "a"); (str
    "baseless"); (str "bird"); (str "on"); (str "clapping")]) (Some (ws (repeat 5 9 ++ repeat 10 3
    ++ repeat 5 2 ++ repeat 10 1 ++ repeat 5 1))) true false None None; NewChoice MP false ([(str
    " "); (str "-"); (str ", "); (str "; "); (str ": ")]) (Some (ws [80; 5; 10; 3; 2])) true false
    None None; NewText MP 0 1 (Some 2%nat) (seed 999)]
    [Do MP (Emit MP 3); Do MP (Emit MP 3); Do MP (Emit MP 3); Do MP (Emit MP 3); Do MP (Emit MP 3);
      Do MP (Emit MP 3); Do MP (Emit MP 3); Do MP (Emit MP 3); Do MP (Emit MP 3); Do MP (Emit MP 3)]
  = Some [Ok (Value ((str "baseless cat on"))); Ok (Value ((str "the"))); Ok (Value ((str
    "of, sappy baseless"))); Ok (Value ((str "runway baseless bird"))); Ok (Value ((str
    "cat clapping blooming"))); Ok (Value ((str "isolated the"))); Ok (Value ((str "a-isolated")));
    Ok (Value ((str "on"))); Ok (Value ((str "clapping flower: the"))); Ok (Value ((str
    "cat red")))].
Proof. vm_compute. reflexivity. Abort.

(** tests/test_emitters_text.py:150 *)
Example test_text_emit_words_list_3 :
  goes [NewChoice MP false (map VInt (zrange 3 7)) None true false None None; NewChoice MP false
    ([(str "red"); (str "cat"); (str "sappy"); (str "blooming"); (str "flower"); (str "isolated");
    (str "runway"); (str "refrigerator"); (str "truck"); (str "of"); (str "the"); (str "a"); (str
    "baseless"); (str "bird"); (str "on"); (str "clapping")]) (Some (ws (repeat 5 9 ++ repeat 10 3
    ++ repeat 5 2 ++ repeat 10 1 ++ repeat 5 1))) true false None None; NewChoice MP false ([(str
    " "); (str "-"); (str ", "); (str "; "); (str ": ")]) (Some (ws [80; 5; 10; 3; 2])) true false
    None None; NewText MP 0 1 (Some 2%nat) (seed 999)]
    [Do MP (EmitN MP 3 10)]
  = Some [Ok (Values [(str "baseless cat on, the of sappy"); (str "baseless runway baseless"); (str
    "bird cat clapping-blooming isolated: the"); (str "a isolated on clapping flower"); (str
    "the cat, red: flower"); (str "clapping of blooming"); (str "a blooming on the; on of"); (str
    "a a sappy a"); (str "of, a flower, sappy bird flower"); (str
    "baseless isolated of red baseless of")])].
Proof. vm_compute. reflexivity. Abort.

(** tests/test_emitters_text.py:157 *)
Example test_text_emit_words_list_4 :
  goes [NewChoice MP false (map VInt (zrange 3 11)) None true false None None; NewChoice MP false
    ([(str "red"); (str "cat"); (str "sappy"); (str "blooming"); (str "flower"); (str "isolated");
    (str "runway"); (str "refrigerator"); (str "truck"); (str "of"); (str "the"); (str "a"); (str
    "baseless"); (str "bird"); (str "on"); (str "clapping")]) (Some (ws (repeat 5 9 ++ repeat 10 3
    ++ repeat 5 2 ++ repeat 10 1 ++ repeat 5 1))) true true None None; NewChoice MP false ([(str
    " "); (str "-"); (str ", "); (str "; "); (str ": ")]) (Some (ws [80; 5; 10; 3; 2])) true false
    None None; NewText MP 0 1 (Some 2%nat) (seed 999)]
    [Do MP (EmitN MP 3 10)]
  = Some [Ok (Values [(str "a of sappy, runway truck red on clapping blooming"); (str
    "flower refrigerator-the"); (str "bird baseless: isolated cat a of sappy runway, truck"); (str
    "red: on clapping blooming flower refrigerator the"); (str "bird; baseless isolated cat a of");
    (str "sappy, runway truck, red"); (str
    "on clapping blooming flower refrigerator the bird baseless isolated"); (str
    "cat a-of sappy runway"); (str "truck red on clapping blooming flower refrigerator, the bird");
    (str "baseless isolated cat baseless cat on the of sappy")])].
Proof. vm_compute. reflexivity. Abort.

(** tests/test_emitters_text.py:186 *)
Example test_text_unique_properties_1 :
  let w := after [NewChoice MP true ([VInt 1]) None true false None None; NewStatic MP (VInt 1);
    NewChoice MP false (letters "abcde") None true false None None; NewWord MP 1 2 None; NewText MP
    0 3 None None] in
  nuv_at MP 5 w = Ok (Exactly 5).
Proof. vm_compute. now repeat split. Abort.

(** tests/test_emitters_text.py:187 *)
Example test_text_unique_properties_2 :
  let w := after [NewChoice MP true ([VInt 1]) None true false None None; NewStatic MP (VInt 1);
    NewChoice MP false (letters "abcde") None true false None None; NewWord MP 1 2 None; NewChoice
    MP true ([(str " ")]) None true false None None; NewText MP 0 3 (Some 4%nat) None] in
  nuv_at MP 5 w = Ok (Exactly 5).
Proof. vm_compute. now repeat split. Abort.

(** tests/test_emitters_text.py:188 *)
Example test_text_unique_properties_3 :
  let w := after [NewChoice MP true ([VInt 1]) None true false None None; NewStatic MP (VInt 2);
    NewChoice MP false (letters "abcde") None true false None None; NewWord MP 1 2 None; NewText MP
    0 3 None None] in
  nuv_at MP 5 w = Ok (Exactly 25).
Proof. vm_compute. now repeat split. Abort.

(** tests/test_emitters_text.py:189 *)
Example test_text_unique_properties_4 :
  let w := after [NewChoice MP true ([VInt 1]) None true false None None; NewStatic MP (VInt 2);
    NewChoice MP false (letters "abcde") None true false None None; NewWord MP 1 2 None; NewChoice
    MP true ([(str " ")]) None true false None None; NewText MP 0 3 (Some 4%nat) None] in
  nuv_at MP 5 w = Ok (Exactly 25).
Proof. vm_compute. now repeat split. Abort.

(** tests/test_emitters_text.py:190 *)
Example test_text_unique_properties_5 :
  let w := after [NewChoice MP true ([VInt 1]) None true false None None; NewChoice MP true ([VInt
    1; VInt 2; VInt 3]) None true false None None; NewChoice MP false (letters "abcde") None true
    false None None; NewWord MP 1 2 None; NewChoice MP true ([(str " ")]) None true false None None;
    NewText MP 0 3 (Some 4%nat) None] in
  nuv_at MP 5 w = Ok (Exactly 155).
Proof. vm_compute. now repeat split. Abort.

(** tests/test_emitters_text.py:191 *)
Example test_text_unique_properties_6 :
  let w := after [NewChoice MP true ([VInt 1]) None true false None None; NewChoice MP true ([VInt
    1; VInt 3]) None true false None None; NewChoice MP false (letters "abcde") None true false None
    None; NewWord MP 1 2 None; NewChoice MP true ([(str " ")]) None true false None None; NewText MP
    0 3 (Some 4%nat) None] in
  nuv_at MP 5 w = Ok (Exactly 130).
Proof. vm_compute. now repeat split. Abort.

(** tests/test_emitters_text.py:192 *)
Example test_text_unique_properties_7 :
  let w := after [NewChoice MP true ([VInt 1]) None true false None None; NewStatic MP (VInt 2);
    NewChoice MP false (letters "abcde") None true false None None; NewWord MP 1 2 None; NewChoice
    MP true ([(str " "); (str "-"); (str "; ")]) None true false None None; NewText MP 0 3 (Some
    4%nat) None] in
  nuv_at MP 5 w = Ok (Exactly 25).
Proof. vm_compute. now repeat split. Abort.

(** tests/test_emitters_text.py:193 *)
Example test_text_unique_properties_8 :
  let w := after [NewChoice MP true ([VInt 2]) None true false None None; NewStatic MP (VInt 1);
    NewChoice MP false (letters "abcde") None true false None None; NewWord MP 1 2 None; NewChoice
    MP true ([(str " "); (str "-")]) None true false None None; NewText MP 0 3 (Some 4%nat) None] in
  nuv_at MP 5 w = Ok (Exactly 50).
Proof. vm_compute. now repeat split. Abort.

(** tests/test_emitters_text.py:194 *)
Example test_text_unique_properties_9 :
  let w := after [NewChoice MP true ([VInt 2]) None true false None None; NewStatic MP (VInt 1);
    NewChoice MP false (letters "abcde") None true false None None; NewWord MP 1 2 None; NewChoice
    MP true ([(str " "); (str "-"); (str "; ")]) None true false None None; NewText MP 0 3 (Some
    4%nat) None] in
  nuv_at MP 5 w = Ok (Exactly 75).
Proof. vm_compute. now repeat split. Abort.

(** tests/test_emitters_text.py:195 *)
Example test_text_unique_properties_10 :
  let w := after [NewChoice MP true ([VInt 3]) None true false None None; NewStatic MP (VInt 1);
    NewChoice MP false (letters "abcde") None true false None None; NewWord MP 1 2 None; NewChoice
    MP true ([(str " "); (str "-"); (str "; ")]) None true false None None; NewText MP 0 3 (Some
    4%nat) None] in
  nuv_at MP 5 w = Ok (Exactly 1125).
Proof. vm_compute. now repeat split. Abort.

(** tests/test_emitters_text.py:196 *)
Example test_text_unique_properties_11 :
  let w := after [NewChoice MP true ([VInt 2; VInt 3]) None true false None None; NewStatic MP (VInt
    1); NewChoice MP false (letters "abcde") None true false None None; NewWord MP 1 2 None;
    NewChoice MP true ([(str " "); (str "-"); (str "; ")]) None true false None None; NewText MP 0 3
    (Some 4%nat) None] in
  nuv_at MP 5 w = Ok (Exactly 1200).
Proof. vm_compute. now repeat split. Abort.

(** tests/test_emitters_text.py:198 *)
Example test_text_unique_properties_12 :
  let w := after [NewChoice MP true ([VInt 1; VInt 2; VInt 3]) None true false None None; NewStatic
    MP (VInt 1); NewChoice MP false (letters "abcde") None true false None None; NewWord MP 1 2
    None; NewChoice MP true ([(str " "); (str "-"); (str "; ")]) None true false None None; NewText
    MP 0 3 (Some 4%nat) None] in
  nuv_at MP 5 w = Ok (Exactly 1205).
Proof. vm_compute. now repeat split. Abort.

(** tests/test_emitters_text.py:200 *)
Example test_text_unique_properties_13 :
  let w := after [NewChoice MP true ([VInt 1; VInt 2; VInt 3]) None true false None None; NewChoice
    MP true ([VInt 1; VInt 2]) None true false None None; NewChoice MP false (letters "abcde") None
    true false None None; NewWord MP 1 2 None; NewChoice MP true ([(str " "); (str "-"); (str
    "; ")]) None true false None None; NewText MP 0 3 (Some 4%nat) None] in
  nuv_at MP 5 w = Ok (Exactly 245730).
Proof. vm_compute. now repeat split. Abort.

(** tests/test_emitters_text.py:202 *)
Example test_text_unique_properties_14 :
  let w := after [NewChoice MP true ([VInt 1]) None true false None None; NewChoice MP true ([(str
    "0"); (str "1"); (str "2"); (str "3"); (str "4"); (str "5"); (str "6"); (str "7"); (str "8");
    (str "9"); (str "10"); (str "11"); (str "12"); (str "13"); (str "14"); (str "15"); (str "16");
    (str "17"); (str "18"); (str "19"); (str "20"); (str "21"); (str "22"); (str "23"); (str "24");
    (str "25"); (str "26"); (str "27"); (str "28"); (str "29"); (str "30"); (str "31"); (str "32");
    (str "33"); (str "34"); (str "35"); (str "36"); (str "37"); (str "38"); (str "39"); (str "40");
    (str "41"); (str "42"); (str "43"); (str "44"); (str "45"); (str "46"); (str "47"); (str "48");
    (str "49"); (str "50"); (str "51"); (str "52"); (str "53"); (str "54"); (str "55"); (str "56");
    (str "57"); (str "58"); (str "59"); (str "60"); (str "61"); (str "62"); (str "63"); (str "64");
    (str "65"); (str "66"); (str "67"); (str "68"); (str "69"); (str "70"); (str "71"); (str "72");
    (str "73"); (str "74"); (str "75"); (str "76"); (str "77"); (str "78"); (str "79"); (str "80");
    (str "81"); (str "82"); (str "83"); (str "84"); (str "85"); (str "86"); (str "87"); (str "88");
    (str "89"); (str "90"); (str "91"); (str "92"); (str "93"); (str "94"); (str "95"); (str "96");
    (str "97"); (str "98"); (str "99")]) None true false None None; NewChoice MP true ([(str " ")])
    None true false None None; NewText MP 0 1 (Some 2%nat) None] in
  nuv_at MP 3 w = Ok (Exactly 100).
Proof. vm_compute. now repeat split. Abort.

(** tests/test_emitters_text.py:203 *)
Example test_text_unique_properties_15 :
  let w := after [NewChoice MP true ([VInt 2]) None true false None None; NewChoice MP true ([(str
    "0"); (str "1"); (str "2"); (str "3"); (str "4"); (str "5"); (str "6"); (str "7"); (str "8");
    (str "9"); (str "10"); (str "11"); (str "12"); (str "13"); (str "14"); (str "15"); (str "16");
    (str "17"); (str "18"); (str "19"); (str "20"); (str "21"); (str "22"); (str "23"); (str "24");
    (str "25"); (str "26"); (str "27"); (str "28"); (str "29"); (str "30"); (str "31"); (str "32");
    (str "33"); (str "34"); (str "35"); (str "36"); (str "37"); (str "38"); (str "39"); (str "40");
    (str "41"); (str "42"); (str "43"); (str "44"); (str "45"); (str "46"); (str "47"); (str "48");
    (str "49"); (str "50"); (str "51"); (str "52"); (str "53"); (str "54"); (str "55"); (str "56");
    (str "57"); (str "58"); (str "59"); (str "60"); (str "61"); (str "62"); (str "63"); (str "64");
    (str "65"); (str "66"); (str "67"); (str "68"); (str "69"); (str "70"); (str "71"); (str "72");
    (str "73"); (str "74"); (str "75"); (str "76"); (str "77"); (str "78"); (str "79"); (str "80");
    (str "81"); (str "82"); (str "83"); (str "84"); (str "85"); (str "86"); (str "87"); (str "88");
    (str "89"); (str "90"); (str "91"); (str "92"); (str "93"); (str "94"); (str "95"); (str "96");
    (str "97"); (str "98"); (str "99")]) None true false None None; NewChoice MP true ([(str " ")])
    None true false None None; NewText MP 0 1 (Some 2%nat) None] in
  nuv_at MP 3 w = Ok (Exactly 10000).
Proof. vm_compute. now repeat split. Abort.

(** tests/test_emitters_text.py:204 *)
Example test_text_unique_properties_16 :
  let w := after [NewChoice MP true ([VInt 3]) None true false None None; NewChoice MP true ([(str
    "0"); (str "1"); (str "2"); (str "3"); (str "4"); (str "5"); (str "6"); (str "7"); (str "8");
    (str "9"); (str "10"); (str "11"); (str "12"); (str "13"); (str "14"); (str "15"); (str "16");
    (str "17"); (str "18"); (str "19"); (str "20"); (str "21"); (str "22"); (str "23"); (str "24");
    (str "25"); (str "26"); (str "27"); (str "28"); (str "29"); (str "30"); (str "31"); (str "32");
    (str "33"); (str "34"); (str "35"); (str "36"); (str "37"); (str "38"); (str "39"); (str "40");
    (str "41"); (str "42"); (str "43"); (str "44"); (str "45"); (str "46"); (str "47"); (str "48");
    (str "49"); (str "50"); (str "51"); (str "52"); (str "53"); (str "54"); (str "55"); (str "56");
    (str "57"); (str "58"); (str "59"); (str "60"); (str "61"); (str "62"); (str "63"); (str "64");
    (str "65"); (str "66"); (str "67"); (str "68"); (str "69"); (str "70"); (str "71"); (str "72");
    (str "73"); (str "74"); (str "75"); (str "76"); (str "77"); (str "78"); (str "79"); (str "80");
    (str "81"); (str "82"); (str "83"); (str "84"); (str "85"); (str "86"); (str "87"); (str "88");
    (str "89"); (str "90"); (str "91"); (str "92"); (str "93"); (str "94"); (str "95"); (str "96");
    (str "97"); (str "98"); (str "99")]) None true false None None; NewChoice MP true ([(str " ")])
    None true false None None; NewText MP 0 1 (Some 2%nat) None] in
  nuv_at MP 3 w = Ok (Exactly 1000000).
Proof. vm_compute. now repeat split. Abort.

(** tests/test_emitters_text.py:205 *)
Example test_text_unique_properties_17 :
  let w := after [NewChoice MP true ([VInt 3]) None true false None None; NewChoice MP true ([(str
    "0"); (str "1"); (str "2"); (str "3"); (str "4"); (str "5"); (str "6"); (str "7"); (str "8");
    (str "9"); (str "10"); (str "11"); (str "12"); (str "13"); (str "14"); (str "15"); (str "16");
    (str "17"); (str "18"); (str "19"); (str "20"); (str "21"); (str "22"); (str "23"); (str "24");
    (str "25"); (str "26"); (str "27"); (str "28"); (str "29"); (str "30"); (str "31"); (str "32");
    (str "33"); (str "34"); (str "35"); (str "36"); (str "37"); (str "38"); (str "39"); (str "40");
    (str "41"); (str "42"); (str "43"); (str "44"); (str "45"); (str "46"); (str "47"); (str "48");
    (str "49"); (str "50"); (str "51"); (str "52"); (str "53"); (str "54"); (str "55"); (str "56");
    (str "57"); (str "58"); (str "59"); (str "60"); (str "61"); (str "62"); (str "63"); (str "64");
    (str "65"); (str "66"); (str "67"); (str "68"); (str "69"); (str "70"); (str "71"); (str "72");
    (str "73"); (str "74"); (str "75"); (str "76"); (str "77"); (str "78"); (str "79"); (str "80");
    (str "81"); (str "82"); (str "83"); (str "84"); (str "85"); (str "86"); (str "87"); (str "88");
    (str "89"); (str "90"); (str "91"); (str "92"); (str "93"); (str "94"); (str "95"); (str "96");
    (str "97"); (str "98"); (str "99")]) None true false None None; NewChoice MP true ([(str " ");
    (str "-"); (str "; ")]) None true false None None; NewText MP 0 1 (Some 2%nat) None] in
  nuv_at MP 3 w = Ok (Exactly 9000000).
Proof. vm_compute. now repeat split. Abort.

(** tests/test_emitters_text.py:207 *)
Example test_text_unique_properties_18 :
  let w := after [NewChoice MP true ([VInt 1; VInt 2; VInt 3]) None true false None None; NewChoice
    MP true ([(str "0"); (str "1"); (str "2"); (str "3"); (str "4"); (str "5"); (str "6"); (str
    "7"); (str "8"); (str "9"); (str "10"); (str "11"); (str "12"); (str "13"); (str "14"); (str
    "15"); (str "16"); (str "17"); (str "18"); (str "19"); (str "20"); (str "21"); (str "22"); (str
    "23"); (str "24"); (str "25"); (str "26"); (str "27"); (str "28"); (str "29"); (str "30"); (str
    "31"); (str "32"); (str "33"); (str "34"); (str "35"); (str "36"); (str "37"); (str "38"); (str
    "39"); (str "40"); (str "41"); (str "42"); (str "43"); (str "44"); (str "45"); (str "46"); (str
    "47"); (str "48"); (str "49"); (str "50"); (str "51"); (str "52"); (str "53"); (str "54"); (str
    "55"); (str "56"); (str "57"); (str "58"); (str "59"); (str "60"); (str "61"); (str "62"); (str
    "63"); (str "64"); (str "65"); (str "66"); (str "67"); (str "68"); (str "69"); (str "70"); (str
    "71"); (str "72"); (str "73"); (str "74"); (str "75"); (str "76"); (str "77"); (str "78"); (str
    "79"); (str "80"); (str "81"); (str "82"); (str "83"); (str "84"); (str "85"); (str "86"); (str
    "87"); (str "88"); (str "89"); (str "90"); (str "91"); (str "92"); (str "93"); (str "94"); (str
    "95"); (str "96"); (str "97"); (str "98"); (str "99")]) None true false None None; NewChoice MP
    true ([(str " "); (str "-"); (str "; ")]) None true false None None; NewText MP 0 1 (Some 2%nat)
    None] in
  nuv_at MP 3 w = Ok (Exactly 9030100).
Proof. vm_compute. now repeat split. Abort.

(** tests/test_emitters_fixed.py:10 *)
Example test_static_emit_1 :
  goes [NewStatic MP (VNone)]
    [Do MP (Emit MP 0); Do MP (EmitN MP 0 5)]
  = Some [Ok (Value (VNone)); Ok (Values [VNone; VNone; VNone; VNone; VNone])].
Proof. vm_compute. reflexivity. Abort.

(** tests/test_emitters_fixed.py:11 *)
Example test_static_emit_2 :
  goes [NewStatic MP (VInt 10)]
    [Do MP (Emit MP 0); Do MP (EmitN MP 0 5)]
  = Some [Ok (Value (VInt 10)); Ok (Values [VInt 10; VInt 10; VInt 10; VInt 10; VInt 10])].
Proof. vm_compute. reflexivity. Abort.

(** tests/test_emitters_fixed.py:12 *)
Example test_static_emit_3 :
  goes [NewStatic MP ((str "my value"))]
    [Do MP (Emit MP 0); Do MP (EmitN MP 0 5)]
  = Some [Ok (Value ((str "my value"))); Ok (Values [(str "my value"); (str "my value"); (str
    "my value"); (str "my value"); (str "my value")])].
Proof. vm_compute. reflexivity. Abort.

(** tests/test_emitters_fixed.py:13 *)
Example test_static_emit_4 :
  goes [NewStatic MP (VBool true)]
    [Do MP (Emit MP 0); Do MP (EmitN MP 0 5)]
  = Some [Ok (Value (VBool true)); Ok (Values [VBool true; VBool true; VBool true; VBool true; VBool
    true])].
Proof. vm_compute. reflexivity. Abort.

(** tests/test_emitters_fixed.py:14 *)
Example test_static_emit_5 :
  goes [NewStatic MP (VList [(str "one"); (str "two")])]
    [Do MP (Emit MP 0); Do MP (EmitN MP 0 5)]
  = Some [Ok (Value (VList [(str "one"); (str "two")])); Ok (Values [VList [(str "one"); (str
    "two")]; VList [(str "one"); (str "two")]; VList [(str "one"); (str "two")]; VList [(str "one");
    (str "two")]; VList [(str "one"); (str "two")]])].
Proof. vm_compute. reflexivity. Abort.

(** tests/test_emitters_fixed.py:28 *)
Example test_static_set_value_1 :
  goes [NewStatic MP ((str "three"))]
    [SetEmitter MP 0 (SStatic MP (VInt 1)); Do MP (Emit MP 0)]
  = Some [Ok Done; Ok (Value (VInt 1))].
Proof. vm_compute. reflexivity. Abort.

(** tests/test_emitters_fixed.py:55 *)
Example test_iterative_emit_1 :
  goes [NewIterative MP (fun _ => Finite [VInt 1] true) false]
    [Do MP (EmitN MP 0 6); Do MP (ResetEm MP 0); Do MP (Emit MP 0); Do MP (Emit MP 0); Do MP (Emit
      MP 0); Do MP (Emit MP 0); Do MP (Emit MP 0); Do MP (Emit MP 0)]
  = Some [Ok (Values [VInt 1; VInt 1; VInt 1; VInt 1; VInt 1; VInt 1]); Ok Done; Ok (Value (VInt
    1)); Ok (Value (VInt 1)); Ok (Value (VInt 1)); Ok (Value (VInt 1)); Ok (Value (VInt 1)); Ok
    (Value (VInt 1))].
Proof. vm_compute. reflexivity. Abort.

(** tests/test_emitters_fixed.py:56 *)
Example test_iterative_emit_2 :
  goes [NewIterative MP (fun _ => Infinite (fun n => VInt (Z.of_nat n))) false]
    [Do MP (EmitN MP 0 10); Do MP (ResetEm MP 0); Do MP (Emit MP 0); Do MP (Emit MP 0); Do MP (Emit
      MP 0); Do MP (Emit MP 0); Do MP (Emit MP 0); Do MP (Emit MP 0); Do MP (Emit MP 0); Do MP (Emit
      MP 0); Do MP (Emit MP 0); Do MP (Emit MP 0)]
  = Some [Ok (Values [VInt 0; VInt 1; VInt 2; VInt 3; VInt 4; VInt 5; VInt 6; VInt 7; VInt 8; VInt
    9]); Ok Done; Ok (Value (VInt 0)); Ok (Value (VInt 1)); Ok (Value (VInt 2)); Ok (Value (VInt
    3)); Ok (Value (VInt 4)); Ok (Value (VInt 5)); Ok (Value (VInt 6)); Ok (Value (VInt 7)); Ok
    (Value (VInt 8)); Ok (Value (VInt 9))].
Proof. vm_compute. reflexivity. Abort.

(** tests/test_emitters_fixed.py:57 *)
Example test_iterative_emit_3 :
  goes [NewIterative MP (fun _ => Infinite (fun n => VInt (1001 + Z.of_nat n))) false]
    [Do MP (EmitN MP 0 6); Do MP (ResetEm MP 0); Do MP (Emit MP 0); Do MP (Emit MP 0); Do MP (Emit
      MP 0); Do MP (Emit MP 0); Do MP (Emit MP 0); Do MP (Emit MP 0)]
  = Some [Ok (Values [VInt 1001; VInt 1002; VInt 1003; VInt 1004; VInt 1005; VInt 1006]); Ok Done;
    Ok (Value (VInt 1001)); Ok (Value (VInt 1002)); Ok (Value (VInt 1003)); Ok (Value (VInt 1004));
    Ok (Value (VInt 1005)); Ok (Value (VInt 1006))].
Proof. vm_compute. reflexivity. Abort.

(** tests/test_emitters_fixed.py:58 *)
Example test_iterative_emit_4 :
  goes [NewIterative MP (fun _ => Finite (map VInt (zrange 0 100)) true) false]
    [Do MP (EmitN MP 0 10); Do MP (ResetEm MP 0); Do MP (Emit MP 0); Do MP (Emit MP 0); Do MP (Emit
      MP 0); Do MP (Emit MP 0); Do MP (Emit MP 0); Do MP (Emit MP 0); Do MP (Emit MP 0); Do MP (Emit
      MP 0); Do MP (Emit MP 0); Do MP (Emit MP 0)]
  = Some [Ok (Values [VInt 0; VInt 1; VInt 2; VInt 3; VInt 4; VInt 5; VInt 6; VInt 7; VInt 8; VInt
    9]); Ok Done; Ok (Value (VInt 0)); Ok (Value (VInt 1)); Ok (Value (VInt 2)); Ok (Value (VInt
    3)); Ok (Value (VInt 4)); Ok (Value (VInt 5)); Ok (Value (VInt 6)); Ok (Value (VInt 7)); Ok
    (Value (VInt 8)); Ok (Value (VInt 9))].
Proof. vm_compute. reflexivity. Abort.

(** tests/test_emitters_fixed.py:59 *)
Example test_iterative_emit_5 :
  goes [NewIterative MP (fun _ => Finite (map VInt (zrange 0 5)) true) false]
    [Do MP (EmitN MP 0 16); Do MP (ResetEm MP 0); Do MP (Emit MP 0); Do MP (Emit MP 0); Do MP (Emit
      MP 0); Do MP (Emit MP 0); Do MP (Emit MP 0); Do MP (Emit MP 0); Do MP (Emit MP 0); Do MP (Emit
      MP 0); Do MP (Emit MP 0); Do MP (Emit MP 0); Do MP (Emit MP 0); Do MP (Emit MP 0); Do MP (Emit
      MP 0); Do MP (Emit MP 0); Do MP (Emit MP 0); Do MP (Emit MP 0)]
  = Some [Ok (Values [VInt 0; VInt 1; VInt 2; VInt 3; VInt 4; VInt 0; VInt 1; VInt 2; VInt 3; VInt
    4; VInt 0; VInt 1; VInt 2; VInt 3; VInt 4; VInt 0]); Ok Done; Ok (Value (VInt 0)); Ok (Value
    (VInt 1)); Ok (Value (VInt 2)); Ok (Value (VInt 3)); Ok (Value (VInt 4)); Ok (Value (VInt 0));
    Ok (Value (VInt 1)); Ok (Value (VInt 2)); Ok (Value (VInt 3)); Ok (Value (VInt 4)); Ok (Value
    (VInt 0)); Ok (Value (VInt 1)); Ok (Value (VInt 2)); Ok (Value (VInt 3)); Ok (Value (VInt 4));
    Ok (Value (VInt 0))].
Proof. vm_compute. reflexivity. Abort.

(** tests/test_emitters_fixed.py:60 *)
Example test_iterative_emit_6 :
  goes [NewIterative MP (fun _ => Infinite (fun n => VStr (chars "b" ++ decimal (1 + Z.of_nat n))))
    false]
    [Do MP (EmitN MP 0 4); Do MP (ResetEm MP 0); Do MP (Emit MP 0); Do MP (Emit MP 0); Do MP (Emit
      MP 0); Do MP (Emit MP 0)]
  = Some [Ok (Values [(str "b1"); (str "b2"); (str "b3"); (str "b4")]); Ok Done; Ok (Value ((str
    "b1"))); Ok (Value ((str "b2"))); Ok (Value ((str "b3"))); Ok (Value ((str "b4")))].
Proof. vm_compute. reflexivity. Abort.

(** tests/test_emitters_fixed.py:61 *)
Example test_iterative_emit_7 :
  goes [NewIterative MP (fun _ => Finite (map (fun n => VStr (decimal n)) (zrange 0 3)) false)
    false]
    [Do MP (EmitN MP 0 7); Do MP (ResetEm MP 0); Do MP (Emit MP 0); Do MP (Emit MP 0); Do MP (Emit
      MP 0); Do MP (Emit MP 0); Do MP (Emit MP 0); Do MP (Emit MP 0); Do MP (Emit MP 0)]
  = Some [Ok (Values [(str "0"); (str "1"); (str "2"); (str "0"); (str "1"); (str "2"); (str "0")]);
    Ok Done; Ok (Value ((str "0"))); Ok (Value ((str "1"))); Ok (Value ((str "2"))); Ok (Value ((str
    "0"))); Ok (Value ((str "1"))); Ok (Value ((str "2"))); Ok (Value ((str "0")))].
Proof. vm_compute. reflexivity. Abort.

(** tests/test_emitters_fixed.py:62 *)
Example test_iterative_emit_8 :
  goes [NewIterative MP (fun _ => Finite ([(str "red"); (str "cat"); (str "sun")]) true) false]
    [Do MP (EmitN MP 0 5); Do MP (ResetEm MP 0); Do MP (Emit MP 0); Do MP (Emit MP 0); Do MP (Emit
      MP 0); Do MP (Emit MP 0); Do MP (Emit MP 0)]
  = Some [Ok (Values [(str "red"); (str "cat"); (str "sun"); (str "red"); (str "cat")]); Ok Done; Ok
    (Value ((str "red"))); Ok (Value ((str "cat"))); Ok (Value ((str "sun"))); Ok (Value ((str
    "red"))); Ok (Value ((str "cat")))].
Proof. vm_compute. reflexivity. Abort.

(** tests/test_emitters_fixed.py:82 *)
Example test_iterative_set_iterator_factory_1 :
  goes [NewIterative MP (fun _ => Finite [VInt 1; VInt 2; VInt 3] true) false]
    [Do MP (Emit MP 0); Do MP (EmitN MP 0 3); SetEmitter MP 0 (SFactory MP (fun _ => Finite [VInt 4;
      VInt 5; VInt 6] true)); Do MP (Emit MP 0); Do MP (EmitN MP 0 5)]
  = Some [Ok (Value (VInt 1)); Ok (Values [VInt 2; VInt 3; VInt 1]); Ok Done; Ok (Value (VInt 4));
    Ok (Values [VInt 5; VInt 6; VInt 4; VInt 5; VInt 6])].
Proof. vm_compute. reflexivity. Abort.

(** tests/test_emitters_fixed.py:91 *)
Example test_iterative_empty_on_init_1 :
  goes []
    [NewIterative MP (fun _ => Finite [] true) false]
  = Some [Raise ValueError].
Proof. vm_compute. reflexivity. Abort.

(** tests/test_emitters_fixed.py:97 *)
Example test_iterative_empty_when_set_1 :
  goes [NewIterative MP (fun _ => Finite [VInt 1] true) false]
    [SetEmitter MP 0 (SFactory MP (fun _ => Finite [] true))]
  = Some [Raise ValueError].
Proof. vm_compute. reflexivity. Abort.

(** tests/test_emitters_fixed.py:104 *)
Example test_iterative_no_rac_1 :
  goes [NewIterative MP (fun _ => Finite [VInt 1; VInt 2; VInt 3] true) false]
    [Do MP (EmitN MP 0 7); Do MP (EmitN MP 0 7); Do MP (Emit MP 0); Do MP (Emit MP 0); Do MP (Emit
      MP 0)]
  = Some [Ok (Values [VInt 1; VInt 2; VInt 3; VInt 1; VInt 2; VInt 3; VInt 1]); Ok (Values [VInt 2;
    VInt 3; VInt 1; VInt 2; VInt 3; VInt 1; VInt 2]); Ok (Value (VInt 3)); Ok (Value (VInt 1)); Ok
    (Value (VInt 2))].
Proof. vm_compute. reflexivity. Abort.

(** tests/test_emitters_fixed.py:114 *)
Example test_iterative_rac_1 :
  goes [NewIterative MP (fun _ => Finite [VInt 1; VInt 2; VInt 3] true) true]
    [Do MP (EmitN MP 0 7); Do MP (EmitN MP 0 7); Do MP (Emit MP 0); Do MP (Emit MP 0); Do MP (Emit
      MP 0)]
  = Some [Ok (Values [VInt 1; VInt 2; VInt 3; VInt 1; VInt 2; VInt 3; VInt 1]); Ok (Values [VInt 1;
    VInt 2; VInt 3; VInt 1; VInt 2; VInt 3; VInt 1]); Ok (Value (VInt 1)); Ok (Value (VInt 1)); Ok
    (Value (VInt 1))].
Proof. vm_compute. reflexivity. Abort.

(** tests/test_emitters_fixed.py:124 *)
Example test_iterative_change_rac_1 :
  goes [NewIterative MP (fun _ => Finite [VInt 1; VInt 2; VInt 3] true) false]
    [SetEmitter MP 0 (SRac MP true); Do MP (EmitN MP 0 4); Do MP (EmitN MP 0 2); Do MP (Emit MP 0);
      SetEmitter MP 0 (SRac MP false); Do MP (EmitN MP 0 4); Do MP (EmitN MP 0 3); Do MP (Emit MP
      0)]
  = Some [Ok Done; Ok (Values [VInt 1; VInt 2; VInt 3; VInt 1]); Ok (Values [VInt 1; VInt 2]); Ok
    (Value (VInt 1)); Ok Done; Ok (Values [VInt 1; VInt 2; VInt 3; VInt 1]); Ok (Values [VInt 2;
    VInt 3; VInt 1]); Ok (Value (VInt 2))].
Proof. vm_compute. reflexivity. Abort.

(** tests/test_emitters_fixed.py:144 *)
Example test_iterative_reset_1 :
  goes [NewIterative MP (fun _ => Finite [VInt 1; VInt 2; VInt 3] true) false]
    [Do MP (Emit MP 0); Do MP (Emit MP 0); Do MP (ResetEm MP 0); Do MP (Emit MP 0)]
  = Some [Ok (Value (VInt 1)); Ok (Value (VInt 2)); Ok Done; Ok (Value (VInt 1))].
Proof. vm_compute. reflexivity. Abort.

(** tests/test_emitters_fixed.py:152 *)
Example test_iterative_unique_1 :
  let w := after [NewIterative MP (fun _ => Finite [VInt 1; VInt 2; VInt 3] true) false] in
  nuv_at MP 0 w = Ok Unknown.
Proof. vm_compute. now repeat split. Abort.

(** tests/test_emitters_fixed.py:160 *)
Example test_sequential_emit_1 :
  goes [NewSequential MP false (map VInt (zrange 1 2)) false]
    [Do MP (EmitN MP 0 9); Do MP (ResetEm MP 0); Do MP (Emit MP 0); Do MP (Emit MP 0); Do MP (Emit
      MP 0); Do MP (Emit MP 0); Do MP (Emit MP 0); Do MP (Emit MP 0); Do MP (Emit MP 0); Do MP (Emit
      MP 0); Do MP (Emit MP 0)]
  = Some [Ok (Values [VInt 1; VInt 1; VInt 1; VInt 1; VInt 1; VInt 1; VInt 1; VInt 1; VInt 1]); Ok
    Done; Ok (Value (VInt 1)); Ok (Value (VInt 1)); Ok (Value (VInt 1)); Ok (Value (VInt 1)); Ok
    (Value (VInt 1)); Ok (Value (VInt 1)); Ok (Value (VInt 1)); Ok (Value (VInt 1)); Ok (Value (VInt
    1))].
Proof. vm_compute. reflexivity. Abort.

(** tests/test_emitters_fixed.py:161 *)
Example test_sequential_emit_2 :
  goes [NewSequential MP false (map VInt (zrange 1 101)) false]
    [Do MP (EmitN MP 0 10); Do MP (ResetEm MP 0); Do MP (Emit MP 0); Do MP (Emit MP 0); Do MP (Emit
      MP 0); Do MP (Emit MP 0); Do MP (Emit MP 0); Do MP (Emit MP 0); Do MP (Emit MP 0); Do MP (Emit
      MP 0); Do MP (Emit MP 0); Do MP (Emit MP 0)]
  = Some [Ok (Values [VInt 1; VInt 2; VInt 3; VInt 4; VInt 5; VInt 6; VInt 7; VInt 8; VInt 9; VInt
    10]); Ok Done; Ok (Value (VInt 1)); Ok (Value (VInt 2)); Ok (Value (VInt 3)); Ok (Value (VInt
    4)); Ok (Value (VInt 5)); Ok (Value (VInt 6)); Ok (Value (VInt 7)); Ok (Value (VInt 8)); Ok
    (Value (VInt 9)); Ok (Value (VInt 10))].
Proof. vm_compute. reflexivity. Abort.

(** tests/test_emitters_fixed.py:162 *)
Example test_sequential_emit_3 :
  goes [NewSequential MP false (map VInt (zrange 1 3)) false]
    [Do MP (EmitN MP 0 11); Do MP (ResetEm MP 0); Do MP (Emit MP 0); Do MP (Emit MP 0); Do MP (Emit
      MP 0); Do MP (Emit MP 0); Do MP (Emit MP 0); Do MP (Emit MP 0); Do MP (Emit MP 0); Do MP (Emit
      MP 0); Do MP (Emit MP 0); Do MP (Emit MP 0); Do MP (Emit MP 0)]
  = Some [Ok (Values [VInt 1; VInt 2; VInt 1; VInt 2; VInt 1; VInt 2; VInt 1; VInt 2; VInt 1; VInt
    2; VInt 1]); Ok Done; Ok (Value (VInt 1)); Ok (Value (VInt 2)); Ok (Value (VInt 1)); Ok (Value
    (VInt 2)); Ok (Value (VInt 1)); Ok (Value (VInt 2)); Ok (Value (VInt 1)); Ok (Value (VInt 2));
    Ok (Value (VInt 1)); Ok (Value (VInt 2)); Ok (Value (VInt 1))].
Proof. vm_compute. reflexivity. Abort.

(** tests/test_emitters_fixed.py:163 *)
Example test_sequential_emit_4 :
  goes [NewSequential MP true ([(str "red"); (str "cat"); (str "sun")]) false]
    [Do MP (EmitN MP 0 5); Do MP (ResetEm MP 0); Do MP (Emit MP 0); Do MP (Emit MP 0); Do MP (Emit
      MP 0); Do MP (Emit MP 0); Do MP (Emit MP 0)]
  = Some [Ok (Values [(str "red"); (str "cat"); (str "sun"); (str "red"); (str "cat")]); Ok Done; Ok
    (Value ((str "red"))); Ok (Value ((str "cat"))); Ok (Value ((str "sun"))); Ok (Value ((str
    "red"))); Ok (Value ((str "cat")))].
Proof. vm_compute. reflexivity. Abort.

(** tests/test_emitters_fixed.py:190 *)
Example test_sequential_set_iterator_factory_1 :
  goes [NewSequential MP true ([VInt 1; VInt 2]) false]
    [Do MP (Emit MP 0); Do MP (EmitN MP 0 2); SetEmitter MP 0 (SFactory MP (fun _ => Finite [VInt 4;
      VInt 5; VInt 6] true)); Do MP (Emit MP 0); Do MP (EmitN MP 0 5)]
  = Some [Ok (Value (VInt 1)); Ok (Values [VInt 2; VInt 1]); Ok Done; Ok (Value (VInt 4)); Ok
    (Values [VInt 5; VInt 6; VInt 4; VInt 5; VInt 6])].
Proof. vm_compute. reflexivity. Abort.

(** tests/test_emitters_fixed.py:190 *)
Example test_sequential_set_iterator_factory_2 :
  let w := after [NewSequential MP true ([VInt 1; VInt 2]) false; SetEmitter MP 0 (SFactory MP (fun
    _ => Finite [VInt 4; VInt 5; VInt 6] true))] in
  items_list MP 0 w = Some [VInt 4; VInt 5; VInt 6] /\ nuv_at MP 0 w = Ok (Exactly 3).
Proof. vm_compute. now repeat split. Abort.

(** tests/test_emitters_fixed.py:203 *)
Example test_sequential_set_nonseq_1 :
  goes [NewSequential MP true ([VInt 1; VInt 2; VInt 3]) false]
    [SetEmitter MP 0 (SFactory MP (fun _ => Infinite (fun n => VInt (Z.of_nat n))))]
  = Some [Raise ValueError].
Proof. vm_compute. reflexivity. Abort.

(** tests/test_emitters_fixed.py:198 *)
Example test_sequential_unique_1 :
  let w := after [NewSequential MP false (letters "abcde") false] in
  nuv_at MP 0 w = Ok (Exactly 5).
Proof. vm_compute. now repeat split. Abort.

(** tests/test_emitters_fixed.py:199 *)
Example test_sequential_unique_2 :
  let w := after [NewSequential MP true ([VInt 1; VInt 2; VInt 1; VInt 2; VInt 1; VInt 2]) false] in
  nuv_at MP 0 w = Ok (Exactly 2).
Proof. vm_compute. now repeat split. Abort.

(** tests/test_emitters_fixed.py:200 *)
Example test_sequential_unique_3 :
  let w := after [NewSequential MP false (letters "aaaaaa") false] in
  nuv_at MP 0 w = Ok (Exactly 1).
Proof. vm_compute. now repeat split. Abort.

(** tests/test_emitters_fixed.py:224 *)
Example test_sequential_empty_1 :
  goes []
    [NewSequential MP true [] false]
  = Some [Raise ValueError].
Proof. vm_compute. reflexivity. Abort.

(** tests/test_emitters_fixed.py:230 *)
Example test_sequential_no_rac_1 :
  goes [NewSequential MP true ([VInt 1; VInt 2; VInt 3]) false]
    [Do MP (EmitN MP 0 7); Do MP (EmitN MP 0 7); Do MP (Emit MP 0); Do MP (Emit MP 0); Do MP (Emit
      MP 0)]
  = Some [Ok (Values [VInt 1; VInt 2; VInt 3; VInt 1; VInt 2; VInt 3; VInt 1]); Ok (Values [VInt 2;
    VInt 3; VInt 1; VInt 2; VInt 3; VInt 1; VInt 2]); Ok (Value (VInt 3)); Ok (Value (VInt 1)); Ok
    (Value (VInt 2))].
Proof. vm_compute. reflexivity. Abort.

(** tests/test_emitters_fixed.py:239 *)
Example test_sequential_rac_1 :
  goes [NewSequential MP true ([VInt 1; VInt 2; VInt 3]) true]
    [Do MP (EmitN MP 0 7); Do MP (EmitN MP 0 7); Do MP (Emit MP 0); Do MP (Emit MP 0); Do MP (Emit
      MP 0)]
  = Some [Ok (Values [VInt 1; VInt 2; VInt 3; VInt 1; VInt 2; VInt 3; VInt 1]); Ok (Values [VInt 1;
    VInt 2; VInt 3; VInt 1; VInt 2; VInt 3; VInt 1]); Ok (Value (VInt 1)); Ok (Value (VInt 1)); Ok
    (Value (VInt 1))].
Proof. vm_compute. reflexivity. Abort.

(** tests/test_profile.py:76 *)
Example test_field_output_1 :
  goes [NewChoice MP false (WORDS) None true false None None; NewField MP "subjects" 0 None None
    false (seed 999)]
    [Do MP (Call MP 0); Do MP (Call MP 0); Do MP (Call MP 0); Do MP (Call MP 0); Do MP (Call MP 0);
      Do MP (Call MP 0); Do MP (Call MP 0); Do MP (Call MP 0); Do MP (Call MP 0); Do MP (Call MP 0)]
  = Some [Ok (Value ((str "crazy"))); Ok (Value ((str "warm"))); Ok (Value ((str "eat"))); Ok (Value
    ((str "eat"))); Ok (Value ((str "sluggish"))); Ok (Value ((str "happy"))); Ok (Value ((str
    "happy"))); Ok (Value ((str "snowstorm"))); Ok (Value ((str "crazy"))); Ok (Value ((str
    "flautist")))].
Proof. vm_compute. reflexivity. Abort.

(** tests/test_profile.py:81 *)
Example test_field_output_2 :
  goes [NewChoice MP false (WORDS) None true false None None; NewStatic MP (VInt 0); NewField MP
    "subjects" 0 (Some 1%nat) None false (seed 999)]
    [Do MP (Call MP 0); Do MP (Call MP 0); Do MP (Call MP 0); Do MP (Call MP 0); Do MP (Call MP 0);
      Do MP (Call MP 0); Do MP (Call MP 0); Do MP (Call MP 0); Do MP (Call MP 0); Do MP (Call MP 0)]
  = Some [Ok (Value (VList [])); Ok (Value (VList [])); Ok (Value (VList [])); Ok (Value (VList
    [])); Ok (Value (VList [])); Ok (Value (VList [])); Ok (Value (VList [])); Ok (Value (VList
    [])); Ok (Value (VList [])); Ok (Value (VList []))].
Proof. vm_compute. reflexivity. Abort.

(** tests/test_profile.py:82 *)
Example test_field_output_3 :
  goes [NewChoice MP false (WORDS) None true false None None; NewStatic MP (VInt 1); NewField MP
    "subjects" 0 (Some 1%nat) None false (seed 999)]
    [Do MP (Call MP 0); Do MP (Call MP 0); Do MP (Call MP 0); Do MP (Call MP 0); Do MP (Call MP 0);
      Do MP (Call MP 0); Do MP (Call MP 0); Do MP (Call MP 0); Do MP (Call MP 0); Do MP (Call MP 0)]
  = Some [Ok (Value (VList [(str "crazy")])); Ok (Value (VList [(str "warm")])); Ok (Value (VList
    [(str "eat")])); Ok (Value (VList [(str "eat")])); Ok (Value (VList [(str "sluggish")])); Ok
    (Value (VList [(str "happy")])); Ok (Value (VList [(str "happy")])); Ok (Value (VList [(str
    "snowstorm")])); Ok (Value (VList [(str "crazy")])); Ok (Value (VList [(str "flautist")]))].
Proof. vm_compute. reflexivity. Abort.

(** tests/test_profile.py:85 *)
Example test_field_output_4 :
  goes [NewChoice MP false (WORDS) None true false None None; NewStatic MP (VInt 2); NewField MP
    "subjects" 0 (Some 1%nat) None false (seed 999)]
    [Do MP (Call MP 0); Do MP (Call MP 0); Do MP (Call MP 0); Do MP (Call MP 0); Do MP (Call MP 0);
      Do MP (Call MP 0); Do MP (Call MP 0); Do MP (Call MP 0); Do MP (Call MP 0); Do MP (Call MP 0)]
  = Some [Ok (Value (VList [(str "eat"); (str "bicycle")])); Ok (Value (VList [(str "crazy"); (str
    "yellow")])); Ok (Value (VList [(str "flautist"); (str "warm")])); Ok (Value (VList [(str
    "eat"); (str "zebra")])); Ok (Value (VList [(str "eat"); (str "crazy")])); Ok (Value (VList
    [(str "warm"); (str "chairs")])); Ok (Value (VList [(str "snowstorm"); (str "zebra")])); Ok
    (Value (VList [(str "yellow"); (str "sluggish")])); Ok (Value (VList [(str "zebra"); (str
    "crazy")])); Ok (Value (VList [(str "chairs"); (str "snowstorm")]))].
Proof. vm_compute. reflexivity. Abort.

(** tests/test_profile.py:90 *)
Example test_field_output_5 :
  goes [NewChoice MP false (WORDS) None true false None None; NewChoice MP false (map VInt (zrange 1
    6)) (Some [q 1218991862308979 4503599627370496; q 1218991862308979 4503599627370496; q
    6501289932314555 36028797018963968; q 6501289932314555 72057594037927936; q 1300257986462911
    36028797018963968]) true false None None; NewField MP "subjects" 0 (Some 1%nat) None false (seed
    999)]
    [Do MP (Call MP 0); Do MP (Call MP 0); Do MP (Call MP 0); Do MP (Call MP 0); Do MP (Call MP 0);
      Do MP (Call MP 0); Do MP (Call MP 0); Do MP (Call MP 0); Do MP (Call MP 0); Do MP (Call MP 0)]
  = Some [Ok (Value (VList [(str "eat"); (str "bicycle"); (str "crazy")])); Ok (Value (VList [(str
    "eat")])); Ok (Value (VList [(str "yellow"); (str "flautist"); (str "crazy"); (str "happy")]));
    Ok (Value (VList [(str "happy"); (str "happy")])); Ok (Value (VList [(str "eat"); (str
    "happy")])); Ok (Value (VList [(str "zebra")])); Ok (Value (VList [(str "warm"); (str "chairs");
    (str "bicycle")])); Ok (Value (VList [(str "sympathy")])); Ok (Value (VList [(str "sympathy");
    (str "eat"); (str "chairs")])); Ok (Value (VList [(str "crazy"); (str "sympathy"); (str
    "zebra")]))].
Proof. vm_compute. reflexivity. Abort.

(** tests/test_profile.py:99 *)
Example test_field_output_6 :
  goes [NewChoice MP false (WORDS) None true false None None; NewChoice MP false (map VInt (zrange 0
    10)) (Some [q 828390857088487 2251799813685248; q 828390857088487 4503599627370496; q
    8836169142277195 144115188075855872; q 8836169142277195 576460752303423488; q 1767233828455439
    576460752303423488; q 4712623542547837 9223372036854775808; q 673231934649691
    9223372036854775808; q 673231934649691 73786976294838206464; q 4787427090842247
    4722366482869645213696; q 1914970836336899 18889465931478580854784]) true false None None;
    NewField MP "subjects" 0 (Some 1%nat) None false (seed 999)]
    [Do MP (Call MP 0); Do MP (Call MP 0); Do MP (Call MP 0); Do MP (Call MP 0); Do MP (Call MP 0);
      Do MP (Call MP 0); Do MP (Call MP 0); Do MP (Call MP 0); Do MP (Call MP 0); Do MP (Call MP 0)]
  = Some [Ok (Value (VList [(str "crazy")])); Ok (Value (VList [])); Ok (Value (VList [(str
    "warm")])); Ok (Value (VList [])); Ok (Value (VList [])); Ok (Value (VList [])); Ok (Value
    (VList [(str "eat")])); Ok (Value (VList [])); Ok (Value (VList [(str "eat")])); Ok (Value
    (VList [(str "sluggish")]))].
Proof. vm_compute. reflexivity. Abort.

(** tests/test_profile.py:102 *)
Example test_field_output_7 :
  goes [NewChoice MP false (WORDS) None true false None None; NewChoice MP false (map VInt (zrange 1
    6)) (Some [q 828390857088487 2251799813685248; q 828390857088487 4503599627370496; q
    8836169142277195 144115188075855872; q 8836169142277195 576460752303423488; q 1767233828455439
    576460752303423488]) true false None None; NewField MP "subjects" 0 (Some 1%nat) None false
    (seed 999)]
    [Do MP (Call MP 0); Do MP (Call MP 0); Do MP (Call MP 0); Do MP (Call MP 0); Do MP (Call MP 0);
      Do MP (Call MP 0); Do MP (Call MP 0); Do MP (Call MP 0); Do MP (Call MP 0); Do MP (Call MP 0)]
  = Some [Ok (Value (VList [(str "eat"); (str "bicycle")])); Ok (Value (VList [(str "eat")])); Ok
    (Value (VList [(str "yellow"); (str "flautist")])); Ok (Value (VList [(str "snowstorm")])); Ok
    (Value (VList [(str "crazy")])); Ok (Value (VList [(str "flautist")])); Ok (Value (VList [(str
    "happy"); (str "happy")])); Ok (Value (VList [(str "warm")])); Ok (Value (VList [(str "happy");
    (str "crazy")])); Ok (Value (VList [(str "warm"); (str "chairs")]))].
Proof. vm_compute. reflexivity. Abort.

(** tests/test_profile.py:108 *)
Example test_field_output_8 :
  goes [NewChoice MP false (WORDS) None true false None None; NewChoice MP true ([VBool true; VBool
    false]) (Some [q 0 1; q 1 1]) true false None None; NewField MP "subjects" 0 None (Some 1%nat)
    false (seed 999)]
    [Do MP (Call MP 0); Do MP (Call MP 0); Do MP (Call MP 0); Do MP (Call MP 0); Do MP (Call MP 0);
      Do MP (Call MP 0); Do MP (Call MP 0); Do MP (Call MP 0); Do MP (Call MP 0); Do MP (Call MP 0)]
  = Some [Ok (Value (VNone)); Ok (Value (VNone)); Ok (Value (VNone)); Ok (Value (VNone)); Ok (Value
    (VNone)); Ok (Value (VNone)); Ok (Value (VNone)); Ok (Value (VNone)); Ok (Value (VNone)); Ok
    (Value (VNone))].
Proof. vm_compute. reflexivity. Abort.

(** tests/test_profile.py:110 *)
Example test_field_output_9 :
  goes [NewChoice MP false (WORDS) None true false None None; NewChoice MP true ([VBool true; VBool
    false]) (Some [q 3602879701896397 36028797018963968; q 8106479329266893 9007199254740992]) true
    false None None; NewField MP "subjects" 0 None (Some 1%nat) false (seed 999)]
    [Do MP (Call MP 0); Do MP (Call MP 0); Do MP (Call MP 0); Do MP (Call MP 0); Do MP (Call MP 0);
      Do MP (Call MP 0); Do MP (Call MP 0); Do MP (Call MP 0); Do MP (Call MP 0); Do MP (Call MP 0)]
  = Some [Ok (Value (VNone)); Ok (Value ((str "crazy"))); Ok (Value (VNone)); Ok (Value (VNone)); Ok
    (Value (VNone)); Ok (Value (VNone)); Ok (Value (VNone)); Ok (Value (VNone)); Ok (Value (VNone));
    Ok (Value (VNone))].
Proof. vm_compute. reflexivity. Abort.

(** tests/test_profile.py:112 *)
Example test_field_output_10 :
  goes [NewChoice MP false (WORDS) None true false None None; NewChoice MP true ([VBool true; VBool
    false]) (Some [q 1 2; q 1 2]) true false None None; NewField MP "subjects" 0 None (Some 1%nat)
    false (seed 999)]
    [Do MP (Call MP 0); Do MP (Call MP 0); Do MP (Call MP 0); Do MP (Call MP 0); Do MP (Call MP 0);
      Do MP (Call MP 0); Do MP (Call MP 0); Do MP (Call MP 0); Do MP (Call MP 0); Do MP (Call MP 0)]
  = Some [Ok (Value (VNone)); Ok (Value ((str "crazy"))); Ok (Value (VNone)); Ok (Value (VNone)); Ok
    (Value ((str "warm"))); Ok (Value ((str "eat"))); Ok (Value (VNone)); Ok (Value ((str "eat")));
    Ok (Value (VNone)); Ok (Value (VNone))].
Proof. vm_compute. reflexivity. Abort.

(** tests/test_profile.py:114 *)
Example test_field_output_11 :
  goes [NewChoice MP false (WORDS) None true false None None; NewChoice MP true ([VBool true; VBool
    false]) (Some [q 7656119366529843 9007199254740992; q 1351079888211149 9007199254740992]) true
    false None None; NewField MP "subjects" 0 None (Some 1%nat) false (seed 999)]
    [Do MP (Call MP 0); Do MP (Call MP 0); Do MP (Call MP 0); Do MP (Call MP 0); Do MP (Call MP 0);
      Do MP (Call MP 0); Do MP (Call MP 0); Do MP (Call MP 0); Do MP (Call MP 0); Do MP (Call MP 0)]
  = Some [Ok (Value ((str "crazy"))); Ok (Value ((str "warm"))); Ok (Value (VNone)); Ok (Value ((str
    "eat"))); Ok (Value ((str "eat"))); Ok (Value ((str "sluggish"))); Ok (Value ((str "happy")));
    Ok (Value ((str "happy"))); Ok (Value ((str "snowstorm"))); Ok (Value ((str "crazy")))].
Proof. vm_compute. reflexivity. Abort.

(** tests/test_profile.py:117 *)
Example test_field_output_12 :
  goes [NewChoice MP false (WORDS) None true false None None; NewChoice MP true ([VBool true; VBool
    false]) (Some [q 1 1; q 0 1]) true false None None; NewField MP "subjects" 0 None (Some 1%nat)
    false (seed 999)]
    [Do MP (Call MP 0); Do MP (Call MP 0); Do MP (Call MP 0); Do MP (Call MP 0); Do MP (Call MP 0);
      Do MP (Call MP 0); Do MP (Call MP 0); Do MP (Call MP 0); Do MP (Call MP 0); Do MP (Call MP 0)]
  = Some [Ok (Value ((str "crazy"))); Ok (Value ((str "warm"))); Ok (Value ((str "eat"))); Ok (Value
    ((str "eat"))); Ok (Value ((str "sluggish"))); Ok (Value ((str "happy"))); Ok (Value ((str
    "happy"))); Ok (Value ((str "snowstorm"))); Ok (Value ((str "crazy"))); Ok (Value ((str
    "flautist")))].
Proof. vm_compute. reflexivity. Abort.

(** tests/test_profile.py:122 *)
Example test_field_output_13 :
  goes [NewChoice MP false (WORDS) None true false None None; NewChoice MP false (map VInt (zrange 1
    6)) (Some [q 1218991862308979 4503599627370496; q 1218991862308979 4503599627370496; q
    6501289932314555 36028797018963968; q 6501289932314555 72057594037927936; q 1300257986462911
    36028797018963968]) true false None None; NewChoice MP true ([VBool true; VBool false]) (Some [q
    0 1; q 1 1]) true false None None; NewField MP "subjects" 0 (Some 1%nat) (Some 2%nat) false
    (seed 999)]
    [Do MP (Call MP 0); Do MP (Call MP 0); Do MP (Call MP 0); Do MP (Call MP 0); Do MP (Call MP 0);
      Do MP (Call MP 0); Do MP (Call MP 0); Do MP (Call MP 0); Do MP (Call MP 0); Do MP (Call MP 0)]
  = Some [Ok (Value (VNone)); Ok (Value (VNone)); Ok (Value (VNone)); Ok (Value (VNone)); Ok (Value
    (VNone)); Ok (Value (VNone)); Ok (Value (VNone)); Ok (Value (VNone)); Ok (Value (VNone)); Ok
    (Value (VNone))].
Proof. vm_compute. reflexivity. Abort.

(** tests/test_profile.py:124 *)
Example test_field_output_14 :
  goes [NewChoice MP false (WORDS) None true false None None; NewChoice MP false ([VInt 0; VInt 1])
    (Some (ws [25; 75])) true false None None; NewChoice MP true ([VBool true; VBool false]) (Some
    [q 1 2; q 1 2]) true false None None; NewField MP "subjects" 0 (Some 1%nat) (Some 2%nat) false
    (seed 999)]
    [Do MP (Call MP 0); Do MP (Call MP 0); Do MP (Call MP 0); Do MP (Call MP 0); Do MP (Call MP 0);
      Do MP (Call MP 0); Do MP (Call MP 0); Do MP (Call MP 0); Do MP (Call MP 0); Do MP (Call MP 0)]
  = Some [Ok (Value (VNone)); Ok (Value (VList [(str "crazy")])); Ok (Value (VNone)); Ok (Value
    (VNone)); Ok (Value (VList [])); Ok (Value (VList [(str "warm")])); Ok (Value (VNone)); Ok
    (Value (VList [(str "eat")])); Ok (Value (VNone)); Ok (Value (VNone))].
Proof. vm_compute. reflexivity. Abort.

(** tests/test_profile.py:126 *)
Example test_field_output_15 :
  goes [NewChoice MP false (WORDS) None true false None None; NewChoice MP false (map VInt (zrange 1
    4)) (Some [q 828390857088487 2251799813685248; q 828390857088487 4503599627370496; q
    8836169142277195 144115188075855872]) true false None None; NewChoice MP true ([VBool true;
    VBool false]) (Some [q 3 4; q 1 4]) true false None None; NewField MP "subjects" 0 (Some 1%nat)
    (Some 2%nat) false (seed 999)]
    [Do MP (Call MP 0); Do MP (Call MP 0); Do MP (Call MP 0); Do MP (Call MP 0); Do MP (Call MP 0);
      Do MP (Call MP 0); Do MP (Call MP 0); Do MP (Call MP 0); Do MP (Call MP 0); Do MP (Call MP 0)]
  = Some [Ok (Value (VNone)); Ok (Value (VList [(str "eat"); (str "bicycle")])); Ok (Value (VNone));
    Ok (Value (VList [(str "eat")])); Ok (Value (VList [(str "yellow"); (str "flautist")])); Ok
    (Value (VList [(str "snowstorm")])); Ok (Value (VNone)); Ok (Value (VList [(str "crazy")])); Ok
    (Value (VNone)); Ok (Value (VNone))].
Proof. vm_compute. reflexivity. Abort.

(** tests/test_profile.py:134 *)
Example test_field_change_part_1 :
  goes [NewStatic MP ((str "test")); NewField MP "test" 0 None None false None; NewStatic MP ((str
    "changed"))]
    [SetPart MP 0 PEmitter 3; Do MP (Call MP 0)]
  = Some [Ok Done; Ok (Value ((str "changed")))].
Proof. vm_compute. reflexivity. Abort.

(** tests/test_profile.py:140 *)
Example test_field_change_part_2 :
  goes [NewStatic MP ((str "test")); NewStatic MP (VInt 1); NewField MP "test" 0 (Some 1%nat) None
    false None; NewStatic MP (VInt 2)]
    [SetPart MP 0 PRepeat 3; Do MP (Call MP 0)]
  = Some [Ok Done; Ok (Value (VList [(str "test"); (str "test")]))].
Proof. vm_compute. reflexivity. Abort.

(** tests/test_profile.py:146 *)
Example test_field_change_part_3 :
  goes [NewStatic MP ((str "test")); NewStatic MP (VBool false); NewField MP "test" 0 None (Some
    1%nat) false None; NewStatic MP (VBool true)]
    [SetPart MP 0 PGate 3; Do MP (Call MP 0)]
  = Some [Ok Done; Ok (Value ((str "test")))].
Proof. vm_compute. reflexivity. Abort.

(** tests/test_profile.py:166 *)
Example test_field_unique_violation_1 :
  goes [NewChoice MP false (WORDS) None false false None None; NewField MP "subject" 0 None None
    false (seed 999)]
    [Do MP (Call MP 0); Do MP (Call MP 0); Do MP (Call MP 0); Do MP (Call MP 0); Do MP (Call MP 0);
      Do MP (Call MP 0); Do MP (Call MP 0); Do MP (Call MP 0); Do MP (Call MP 0); Do MP (Call MP 0);
      Do MP (Call MP 0); Do MP (Call MP 0); Do MP (Call MP 0)]
  = Some [Ok (Value ((str "chairs"))); Ok (Value ((str "snowstorm"))); Ok (Value ((str "eat"))); Ok
    (Value ((str "yellow"))); Ok (Value ((str "sluggish"))); Ok (Value ((str "bicycle"))); Ok (Value
    ((str "zebra"))); Ok (Value ((str "sympathy"))); Ok (Value ((str "happy"))); Ok (Value ((str
    "flautist"))); Ok (Value ((str "crazy"))); Ok (Value ((str "warm"))); Raise ValueError].
Proof. vm_compute. reflexivity. Abort.

(** tests/test_profile.py:176 *)
Example test_field_unique_violation_2 :
  goes [NewChoice MP false (WORDS) None false false None None; NewStatic MP (VInt 5); NewField MP
    "unique_subjects" 0 (Some 1%nat) None false (seed 999)]
    [Do MP (Call MP 0); Do MP (Call MP 0); Do MP (Call MP 0)]
  = Some [Ok (Value (VList [(str "chairs"); (str "snowstorm"); (str "eat"); (str "yellow"); (str
    "sluggish")])); Ok (Value (VList [(str "bicycle"); (str "zebra"); (str "sympathy"); (str
    "happy"); (str "flautist")])); Raise ValueError].
Proof. vm_compute. reflexivity. Abort.

(** tests/test_profile.py:187 *)
Example test_field_each_unique_violation_1 :
  goes [NewChoice MP false (WORDS) None true true None None; NewStatic MP (VInt 12); NewField MP
    "unique_subjects_12" 0 (Some 1%nat) None false (seed 999); NewChoice MP false (WORDS) None true
    true None None; NewStatic MP (VInt 13); NewField MP "unique_subjects_13" 3 (Some 4%nat) None
    false (seed 999)]
    [Do MP (Call MP 0); Do MP (Call MP 0); Do MP (Call MP 1)]
  = Some [Ok (Value (VList [(str "crazy"); (str "warm"); (str "eat"); (str "sluggish"); (str
    "happy"); (str "zebra"); (str "chairs"); (str "snowstorm"); (str "bicycle"); (str "sympathy");
    (str "yellow"); (str "flautist")])); Ok (Value (VList [(str "sympathy"); (str "eat"); (str
    "bicycle"); (str "chairs"); (str "yellow"); (str "happy"); (str "warm"); (str "zebra"); (str
    "crazy"); (str "flautist"); (str "sluggish"); (str "snowstorm")])); Raise ValueError].
Proof. vm_compute. reflexivity. Abort.

(** tests/test_profile.py:205 *)
Example test_field_multivalued_1 :
  let w := after [NewStatic MP ((str "test")); NewField MP "test" 0 None None false None] in
  field_multi MP w 0 = false.
Proof. vm_compute. now repeat split. Abort.

(** tests/test_profile.py:206 *)
Example test_field_multivalued_2 :
  let w := after [NewStatic MP (VList [(str "test")]); NewField MP "test" 0 None None false None] in
  field_multi MP w 0 = false.
Proof. vm_compute. now repeat split. Abort.

(** tests/test_profile.py:207 *)
Example test_field_multivalued_3 :
  let w := after [NewStatic MP (VList [(str "test1"); (str "test2")]); NewField MP "test" 0 None
    None false None] in
  field_multi MP w 0 = false.
Proof. vm_compute. now repeat split. Abort.

(** tests/test_profile.py:208 *)
Example test_field_multivalued_4 :
  let w := after [NewStatic MP ((str "test")); NewField MP "test" 0 None None false None] in
  field_multi MP w 0 = false.
Proof. vm_compute. now repeat split. Abort.

(** tests/test_profile.py:209 *)
Example test_field_multivalued_5 :
  let w := after [NewStatic MP ((str "test")); NewStatic MP (VNone); NewField MP "test" 0 (Some
    1%nat) None false None] in
  field_multi MP w 0 = false.
Proof. vm_compute. now repeat split. Abort.

(** tests/test_profile.py:210 *)
Example test_field_multivalued_6 :
  let w := after [NewStatic MP ((str "test")); NewStatic MP (VInt 1); NewField MP "test" 0 (Some
    1%nat) None false None] in
  field_multi MP w 0 = true.
Proof. vm_compute. now repeat split. Abort.

(** tests/test_profile.py:211 *)
Example test_field_multivalued_7 :
  let w := after [NewStatic MP ((str "test")); NewChoice MP false (map VInt (zrange 0 1)) None true
    false None None; NewField MP "test" 0 (Some 1%nat) None false None] in
  field_multi MP w 0 = true.
Proof. vm_compute. now repeat split. Abort.

(** tests/test_profile.py:212 *)
Example test_field_multivalued_8 :
  let w := after [NewStatic MP ((str "test")); NewChoice MP false (map VInt (zrange 1 5)) None true
    false None None; NewField MP "test" 0 (Some 1%nat) None false None] in
  field_multi MP w 0 = true.
Proof. vm_compute. now repeat split. Abort.

(** tests/test_profile.py:229 *)
Example test_field_reset_before_1 :
  let w := after [NewChoice MP false (WORDS) None false false None None; NewChoice MP true ([VInt 1;
    VInt 1; VInt 1; VInt 1; VInt 1; VInt 1; VInt 1; VInt 1; VInt 1; VInt 1; VInt 1; VInt 1]) None
    false false None None; NewChoice MP true ([VBool true; VBool false]) (Some [q 1 1; q 0 1]) true
    false None None; NewField MP "test" 0 (Some 1%nat) (Some 2%nat) false (seed 999); Do MP (SeedEm
    MP 0 (seed 101010)); Do MP (SeedEm MP 1 (seed 12345)); Do MP (SeedEm MP 2 (seed 54321)); Do MP
    (Call MP 0); Do MP (Call MP 0); Do MP (Call MP 0); Do MP (Call MP 0); Do MP (Call MP 0); Do MP
    (Call MP 0); Do MP (Call MP 0); Do MP (Call MP 0); Do MP (Call MP 0); Do MP (Call MP 0); Do MP
    (Call MP 0); Do MP (Call MP 0)] in
  nuv_at MP 0 w = Ok (Exactly 0) /\ nuv_at MP 1 w = Ok (Exactly 0).
Proof. vm_compute. now repeat split. Abort.

(** tests/test_profile.py:229 *)
Example test_field_reset_after_1 :
  let w := after [NewChoice MP false (WORDS) None false false None None; NewChoice MP true ([VInt 1;
    VInt 1; VInt 1; VInt 1; VInt 1; VInt 1; VInt 1; VInt 1; VInt 1; VInt 1; VInt 1; VInt 1]) None
    false false None None; NewChoice MP true ([VBool true; VBool false]) (Some [q 1 1; q 0 1]) true
    false None None; NewField MP "test" 0 (Some 1%nat) (Some 2%nat) false (seed 999); Do MP (SeedEm
    MP 0 (seed 101010)); Do MP (SeedEm MP 1 (seed 12345)); Do MP (SeedEm MP 2 (seed 54321)); Do MP
    (Call MP 0); Do MP (Call MP 0); Do MP (Call MP 0); Do MP (Call MP 0); Do MP (Call MP 0); Do MP
    (Call MP 0); Do MP (Call MP 0); Do MP (Call MP 0); Do MP (Call MP 0); Do MP (Call MP 0); Do MP
    (Call MP 0); Do MP (Call MP 0); Do MP (Reset MP 0)] in
  nuv_at MP 0 w = Ok (Exactly 12) /\ seed_at 0 w = Some 999 /\ nuv_at MP 1 w = Ok (Exactly 1) /\
    seed_at 1 w = Some 999 /\ seed_at 2 w = Some 999.
Proof. vm_compute. now repeat split. Abort.

(** tests/test_profile.py:249 *)
Example test_field_reset_before_2 :
  let w := after [NewStatic MP ((str "invalid")); NewField MP "test" 0 None None false (seed 999);
    NewChoice MP false (WORDS) None false false None None; NewChoice MP true ([VInt 1; VInt 1; VInt
    1; VInt 1; VInt 1; VInt 1; VInt 1; VInt 1; VInt 1; VInt 1; VInt 1; VInt 1]) None false false
    None None; NewChoice MP true ([VBool true; VBool false]) (Some [q 1 1; q 0 1]) true false None
    None; SetPart MP 0 PEmitter 3; SetPart MP 0 PRepeat 4; SetPart MP 0 PGate 5; Do MP (SeedEm MP 3
    (seed 101010)); Do MP (SeedEm MP 4 (seed 12345)); Do MP (SeedEm MP 5 (seed 54321)); Do MP (Call
    MP 0); Do MP (Call MP 0); Do MP (Call MP 0); Do MP (Call MP 0); Do MP (Call MP 0); Do MP (Call
    MP 0); Do MP (Call MP 0); Do MP (Call MP 0); Do MP (Call MP 0); Do MP (Call MP 0); Do MP (Call
    MP 0); Do MP (Call MP 0)] in
  nuv_at MP 3 w = Ok (Exactly 0) /\ nuv_at MP 4 w = Ok (Exactly 0).
Proof. vm_compute. now repeat split. Abort.

(** tests/test_profile.py:249 *)
Example test_field_reset_after_2 :
  let w := after [NewStatic MP ((str "invalid")); NewField MP "test" 0 None None false (seed 999);
    NewChoice MP false (WORDS) None false false None None; NewChoice MP true ([VInt 1; VInt 1; VInt
    1; VInt 1; VInt 1; VInt 1; VInt 1; VInt 1; VInt 1; VInt 1; VInt 1; VInt 1]) None false false
    None None; NewChoice MP true ([VBool true; VBool false]) (Some [q 1 1; q 0 1]) true false None
    None; SetPart MP 0 PEmitter 3; SetPart MP 0 PRepeat 4; SetPart MP 0 PGate 5; Do MP (SeedEm MP 3
    (seed 101010)); Do MP (SeedEm MP 4 (seed 12345)); Do MP (SeedEm MP 5 (seed 54321)); Do MP (Call
    MP 0); Do MP (Call MP 0); Do MP (Call MP 0); Do MP (Call MP 0); Do MP (Call MP 0); Do MP (Call
    MP 0); Do MP (Call MP 0); Do MP (Call MP 0); Do MP (Call MP 0); Do MP (Call MP 0); Do MP (Call
    MP 0); Do MP (Call MP 0); Do MP (Reset MP 0)] in
  nuv_at MP 3 w = Ok (Exactly 12) /\ seed_at 3 w = Some 999 /\ nuv_at MP 4 w = Ok (Exactly 1) /\
    seed_at 4 w = Some 999 /\ seed_at 5 w = Some 999.
Proof. vm_compute. now repeat split. Abort.

(** tests/test_profile.py:271 *)
Example test_field_seed_1 :
  let w := after [NewChoice MP false (WORDS) None true false None None; NewChoice MP false (map VInt
    (zrange 1 13)) None true false None None; NewChoice MP true ([VBool true; VBool false]) (Some [q
    3 4; q 1 4]) true false None None; NewField MP "test" 0 (Some 1%nat) (Some 2%nat) false None; Do
    MP (SeedEm MP 0 (seed 101010)); Do MP (SeedEm MP 1 (seed 12345)); Do MP (SeedEm MP 2 (seed
    54321)); Do MP (Seed MP 0 (seed 999))] in
  seed_at 0 w = Some 999 /\ seed_at 1 w = Some 999 /\ seed_at 2 w = Some 999.
Proof. vm_compute. now repeat split. Abort.

(** tests/test_profile.py:283 *)
Example test_field_seed_2 :
  let w := after [NewStatic MP ((str "invalid")); NewField MP "test" 0 None None false None;
    NewChoice MP false (WORDS) None true false None None; NewChoice MP false (map VInt (zrange 1
    13)) None true false None None; NewChoice MP true ([VBool true; VBool false]) (Some [q 3 4; q 1
    4]) true false None None; SetPart MP 0 PEmitter 3; SetPart MP 0 PRepeat 4; SetPart MP 0 PGate 5;
    Do MP (SeedEm MP 3 (seed 101010)); Do MP (SeedEm MP 4 (seed 12345)); Do MP (SeedEm MP 5 (seed
    54321)); Do MP (Seed MP 0 (seed 999))] in
  seed_at 3 w = Some 999 /\ seed_at 4 w = Some 999 /\ seed_at 5 w = Some 999.
Proof. vm_compute. now repeat split. Abort.

(** tests/test_profile.py:296 *)
Example test_field_previous_1 :
  previouses 0 10 (after [NewChoice MP false (WORDS) None true false None None; NewField MP "test" 0
    None None false (seed 999)])
  = [VNone; (str "crazy"); (str "warm"); (str "eat"); (str "eat"); (str "sluggish"); (str "happy");
    (str "happy"); (str "snowstorm"); (str "crazy"); (str "flautist")].
Proof. vm_compute. reflexivity. Abort.

(** tests/test_profile.py:299 *)
Example test_field_previous_2 :
  previouses 0 10 (after [NewChoice MP false (WORDS) None true false None None; NewField MP "test" 0
    None None true (seed 999)])
  = [VNone; (str "crazy"); (str "warm"); (str "eat"); (str "eat"); (str "sluggish"); (str "happy");
    (str "happy"); (str "snowstorm"); (str "crazy"); (str "flautist")].
Proof. vm_compute. reflexivity. Abort.

(** tests/test_profile.py:302 *)
Example test_field_previous_3 :
  previouses 0 10 (after [NewChoice MP false (WORDS) None true false None None; NewChoice MP false
    (map VInt (zrange 1 6)) (Some [q 1218991862308979 4503599627370496; q 1218991862308979
    4503599627370496; q 6501289932314555 36028797018963968; q 6501289932314555 72057594037927936; q
    1300257986462911 36028797018963968]) true false None None; NewField MP "test" 0 (Some 1%nat)
    None false (seed 999)])
  = [VNone; VList [(str "eat"); (str "bicycle"); (str "crazy")]; VList [(str "eat")]; VList [(str
    "yellow"); (str "flautist"); (str "crazy"); (str "happy")]; VList [(str "happy"); (str
    "happy")]; VList [(str "eat"); (str "happy")]; VList [(str "zebra")]; VList [(str "warm"); (str
    "chairs"); (str "bicycle")]; VList [(str "sympathy")]; VList [(str "sympathy"); (str "eat");
    (str "chairs")]; VList [(str "crazy"); (str "sympathy"); (str "zebra")]].
Proof. vm_compute. reflexivity. Abort.

(** tests/test_profile.py:307 *)
Example test_field_previous_4 :
  previouses 0 10 (after [NewChoice MP false (WORDS) None true false None None; NewChoice MP false
    (map VInt (zrange 1 6)) (Some [q 1218991862308979 4503599627370496; q 1218991862308979
    4503599627370496; q 6501289932314555 36028797018963968; q 6501289932314555 72057594037927936; q
    1300257986462911 36028797018963968]) true false None None; NewField MP "test" 0 (Some 1%nat)
    None true (seed 999)])
  = [VNone; VList [(str "eat"); (str "bicycle"); (str "crazy")]; VList [(str "eat")]; VList [(str
    "yellow"); (str "flautist"); (str "crazy"); (str "happy")]; VList [(str "happy"); (str
    "happy")]; VList [(str "eat"); (str "happy")]; VList [(str "zebra")]; VList [(str "warm"); (str
    "chairs"); (str "bicycle")]; VList [(str "sympathy")]; VList [(str "sympathy"); (str "eat");
    (str "chairs")]; VList [(str "crazy"); (str "sympathy"); (str "zebra")]].
Proof. vm_compute. reflexivity. Abort.

(** tests/test_profile.py:312 *)
Example test_field_previous_5 :
  previouses 0 10 (after [NewChoice MP false (WORDS) None true false None None; NewChoice MP true
    ([VBool true; VBool false]) (Some [q 1 2; q 1 2]) true false None None; NewField MP "test" 0
    None (Some 1%nat) false (seed 999)])
  = [VNone; VNone; (str "crazy"); VNone; VNone; (str "warm"); (str "eat"); VNone; (str "eat");
    VNone; VNone].
Proof. vm_compute. reflexivity. Abort.

(** tests/test_profile.py:314 *)
Example test_field_previous_6 :
  previouses 0 10 (after [NewChoice MP false (WORDS) None true false None None; NewChoice MP true
    ([VBool true; VBool false]) (Some [q 1 2; q 1 2]) true false None None; NewField MP "test" 0
    None (Some 1%nat) true (seed 999)])
  = [VNone; VNone; (str "crazy"); VNone; VNone; (str "warm"); (str "eat"); VNone; (str "eat");
    VNone; VNone].
Proof. vm_compute. reflexivity. Abort.

(** tests/test_profile.py:316 *)
Example test_field_previous_7 :
  previouses 0 10 (after [NewChoice MP false (WORDS) None true false None None; NewChoice MP false
    (map VInt (zrange 1 4)) (Some [q 828390857088487 2251799813685248; q 828390857088487
    4503599627370496; q 8836169142277195 144115188075855872]) true false None None; NewChoice MP
    true ([VBool true; VBool false]) (Some [q 3 4; q 1 4]) true false None None; NewField MP "test"
    0 (Some 1%nat) (Some 2%nat) false (seed 999)])
  = [VNone; VNone; VList [(str "eat"); (str "bicycle")]; VNone; VList [(str "eat")]; VList [(str
    "yellow"); (str "flautist")]; VList [(str "snowstorm")]; VNone; VList [(str "crazy")]; VNone;
    VNone].
Proof. vm_compute. reflexivity. Abort.

(** tests/test_profile.py:319 *)
Example test_field_previous_8 :
  previouses 0 10 (after [NewChoice MP false (WORDS) None true false None None; NewChoice MP false
    (map VInt (zrange 1 4)) (Some [q 828390857088487 2251799813685248; q 828390857088487
    4503599627370496; q 8836169142277195 144115188075855872]) true false None None; NewChoice MP
    true ([VBool true; VBool false]) (Some [q 3 4; q 1 4]) true false None None; NewField MP "test"
    0 (Some 1%nat) (Some 2%nat) true (seed 999)])
  = [VNone; VNone; VList [(str "eat"); (str "bicycle")]; VNone; VList [(str "eat")]; VList [(str
    "yellow"); (str "flautist")]; VList [(str "snowstorm")]; VNone; VList [(str "crazy")]; VNone;
    VNone].
Proof. vm_compute. reflexivity. Abort.

(** The field id, a shuffle of 9999 numbers, is left out (slow); each field has its own
    generators. *)
(** tests/test_profile.py:341 *)
Example test_schema_generates_record_dict_1 :
  goes [NewStatic MP ((str "TEST")); NewField MP "hidden1" 0 None None true None; NewChoice MP false
    (map VInt (zrange 2 8)) None true false None None; NewChoice MP false (WORDS) None true false
    None None; NewChoice MP false ([(str " "); (str "-"); (str ", "); (str "; "); (str ": ")]) (Some
    (ws [80; 5; 10; 3; 2])) true false None None; NewText MP 3 4 (Some 5%nat) None; NewField MP
    "title" 6 None None false None; NewChoice MP false (map VInt (zrange 2 4)) None true false None
    None; NewChoice MP false (NAMES) None true true None None; NewChoice MP false ([(str " "); (str
    "-")]) (Some (ws [90; 10])) true false None None; NewText MP 9 10 (Some 11%nat) None; NewField
    MP "author" 12 None None false None; NewChoice MP false (map VInt (zrange 2 4)) None true false
    None None; NewChoice MP false (NAMES) None true true None None; NewChoice MP false ([(str " ");
    (str "-")]) (Some (ws [90; 10])) true false None None; NewText MP 15 16 (Some 17%nat) None;
    NewChoice MP false (map VInt (zrange 1 6)) (Some [q 1218991862308979 4503599627370496; q
    1218991862308979 4503599627370496; q 6501289932314555 36028797018963968; q 6501289932314555
    72057594037927936; q 1300257986462911 36028797018963968]) true false None None; NewChoice MP
    true ([VBool true; VBool false]) (Some [q 5944751508129055 9007199254740992; q 3062447746611937
    9007199254740992]) true false None None; NewField MP "contributors" 18 (Some 19%nat) (Some
    20%nat) false None; NewChoice MP false (map VInt (zrange 2 8)) None true false None None;
    NewChoice MP false (WORDS) None true false None None; NewChoice MP false ([(str " "); (str "-");
    (str ", "); (str "; "); (str ": ")]) (Some (ws [80; 5; 10; 3; 2])) true false None None; NewText
    MP 21 22 (Some 23%nat) None; NewChoice MP false (map VInt (zrange 1 6)) (Some [q 828390857088487
    2251799813685248; q 828390857088487 4503599627370496; q 8836169142277195 144115188075855872; q
    8836169142277195 576460752303423488; q 1767233828455439 576460752303423488]) true false None
    None; NewChoice MP true ([VBool true; VBool false]) (Some [q 8106479329266893 9007199254740992;
    q 900719925474099 9007199254740992]) true false None None; NewField MP "subjects" 24 (Some
    25%nat) (Some 26%nat) false None; NewStatic MP ((str "TEST")); NewField MP "hidden2" 27 None
    None true None; NewChoice MP false (map VOpaque (zrange 735964 738155)) None true false None
    None; NewField MP "creation_date" 30 None None false None; NewStatic MP ((str "TEST")); NewField
    MP "hidden3" 33 None None true None; Do MP (SeedFields MP [("hidden1", 0%nat); ("title", 1%nat);
    ("author", 2%nat); ("contributors", 3%nat); ("subjects", 4%nat); ("hidden2", 5%nat);
    ("creation_date", 6%nat); ("hidden3", 7%nat)] (seed 999))]
    [Do MP (Doc MP [("hidden1", 0%nat); ("title", 1%nat); ("author", 2%nat); ("contributors",
      3%nat); ("subjects", 4%nat); ("hidden2", 5%nat); ("creation_date", 6%nat); ("hidden3",
      7%nat)]); Do MP (Doc MP [("hidden1", 0%nat); ("title", 1%nat); ("author", 2%nat);
      ("contributors", 3%nat); ("subjects", 4%nat); ("hidden2", 5%nat); ("creation_date", 6%nat);
      ("hidden3", 7%nat)]); Do MP (Doc MP [("hidden1", 0%nat); ("title", 1%nat); ("author", 2%nat);
      ("contributors", 3%nat); ("subjects", 4%nat); ("hidden2", 5%nat); ("creation_date", 6%nat);
      ("hidden3", 7%nat)]); Do MP (Doc MP [("hidden1", 0%nat); ("title", 1%nat); ("author", 2%nat);
      ("contributors", 3%nat); ("subjects", 4%nat); ("hidden2", 5%nat); ("creation_date", 6%nat);
      ("hidden3", 7%nat)]); Do MP (Doc MP [("hidden1", 0%nat); ("title", 1%nat); ("author", 2%nat);
      ("contributors", 3%nat); ("subjects", 4%nat); ("hidden2", 5%nat); ("creation_date", 6%nat);
      ("hidden3", 7%nat)]); Do MP (Doc MP [("hidden1", 0%nat); ("title", 1%nat); ("author", 2%nat);
      ("contributors", 3%nat); ("subjects", 4%nat); ("hidden2", 5%nat); ("creation_date", 6%nat);
      ("hidden3", 7%nat)]); Do MP (Doc MP [("hidden1", 0%nat); ("title", 1%nat); ("author", 2%nat);
      ("contributors", 3%nat); ("subjects", 4%nat); ("hidden2", 5%nat); ("creation_date", 6%nat);
      ("hidden3", 7%nat)]); Do MP (Doc MP [("hidden1", 0%nat); ("title", 1%nat); ("author", 2%nat);
      ("contributors", 3%nat); ("subjects", 4%nat); ("hidden2", 5%nat); ("creation_date", 6%nat);
      ("hidden3", 7%nat)]); Do MP (Doc MP [("hidden1", 0%nat); ("title", 1%nat); ("author", 2%nat);
      ("contributors", 3%nat); ("subjects", 4%nat); ("hidden2", 5%nat); ("creation_date", 6%nat);
      ("hidden3", 7%nat)]); Do MP (Doc MP [("hidden1", 0%nat); ("title", 1%nat); ("author", 2%nat);
      ("contributors", 3%nat); ("subjects", 4%nat); ("hidden2", 5%nat); ("creation_date", 6%nat);
      ("hidden3", 7%nat)])]
  = Some [Ok (Document [("title", (str "eat bicycle crazy, yellow flautist warm eat")); ("author",
    (str "Chuck Leslie")); ("contributors", VNone); ("subjects", VList [(str
    "eat bicycle crazy, yellow flautist warm"); (str "eat zebra")]); ("creation_date", VOpaque
    736291)]); Ok (Document [("title", (str "zebra eat")); ("author", (str "Henry Betty William"));
    ("contributors", VList [(str "Chuck Leslie Henry"); (str "William Ashley"); (str
    "Johnny Betty Boyle")]); ("subjects", VList [(str "eat crazy warm chairs-snowstorm zebra")]);
    ("creation_date", VOpaque 738150)]); Ok (Document [("title", (str
    "crazy warm chairs-snowstorm zebra: yellow")); ("author", (str "Ashley Betty Boyle"));
    ("contributors", VNone); ("subjects", VList [(str "yellow: sluggish zebra crazy chairs"); (str
    "snowstorm happy bicycle, bicycle")]); ("creation_date", VOpaque 737973)]); Ok (Document
    [("title", (str "sluggish zebra crazy chairs snowstorm happy")); ("author", (str
    "Chuck Krane")); ("contributors", VList [(str "Chuck Betty Leslie")]); ("subjects", VList [(str
    "snowstorm: chairs yellow")]); ("creation_date", VOpaque 737943)]); Ok (Document [("title", (str
    "bicycle, bicycle: snowstorm chairs yellow snowstorm")); ("author", (str "Chuck Betty Leslie"));
    ("contributors", VList [(str "Chuck Johnny"); (str "Boyle Anne Susan"); (str
    "Krane Henry-Betty"); (str "Leslie Rebecca William")]); ("subjects", VList [(str
    "snowstorm sluggish warm crazy yellow; chairs flautist")]); ("creation_date", VOpaque 736504)]);
    Ok (Document [("title", (str "sluggish warm crazy; yellow chairs")); ("author", (str
    "Chuck Johnny")); ("contributors", VList [(str "Leslie Anne Susan"); (str
    "Johnny William Betty")]); ("subjects", VList [(str "sluggish sluggish warm happy")]);
    ("creation_date", VOpaque 737267)]); Ok (Document [("title", (str
    "flautist sluggish sluggish warm, happy")); ("author", (str "Boyle Anne")); ("contributors",
    VNone); ("subjects", VList [(str "flautist, sluggish snowstorm, warm crazy"); (str
    "snowstorm eat zebra yellow bicycle")]); ("creation_date", VOpaque 736363)]); Ok (Document
    [("title", (str "flautist sluggish, snowstorm")); ("author", (str "Henry Susan"));
    ("contributors", VList [(str "Chuck-Krane Boyle"); (str "Leslie Ashley Betty")]); ("subjects",
    VList [(str "eat flautist")]); ("creation_date", VOpaque 736734)]); Ok (Document [("title", (str
    "warm crazy snowstorm eat zebra yellow bicycle")); ("author", (str "Betty-Anne Rebecca"));
    ("contributors", VNone); ("subjects", VList [(str "warm crazy yellow snowstorm-snowstorm"); (str
    "eat snowstorm yellow zebra snowstorm happy crazy")]); ("creation_date", VOpaque 736574)]); Ok
    (Document [("title", (str "eat flautist warm crazy")); ("author", (str "Johnny Chuck"));
    ("contributors", VNone); ("subjects", VList [(str "crazy chairs"); (str
    "bicycle yellow, eat yellow crazy chairs bicycle")]); ("creation_date", VOpaque 737047)])].
Proof. vm_compute. reflexivity. Abort.

(** tests/test_profile.py:609 *)
Example test_schema_hide_dynamically_1 :
  goes [NewSequential MP false (map VInt (zrange 1 100)) false; NewField MP "id" 0 None None false
    None; NewStatic MP ((str "field one")); NewField MP "one" 3 None None false None; NewStatic MP
    ((str "field two")); NewField MP "two" 6 None None false None; NewStatic MP ((str
    "field three")); NewField MP "three" 9 None None true None; NewStatic MP ((str "field four"));
    NewField MP "four" 12 None None false None]
    [Do MP (Doc MP [("id", 0%nat); ("one", 1%nat); ("two", 2%nat); ("three", 3%nat); ("four",
      4%nat)]); SetHide MP 1 true; SetHide MP 2 true; SetHide MP 3 false; Do MP (Doc MP [("id",
      0%nat); ("one", 1%nat); ("two", 2%nat); ("three", 3%nat); ("four", 4%nat)])]
  = Some [Ok (Document [("id", VInt 1); ("one", (str "field one")); ("two", (str "field two"));
    ("four", (str "field four"))]); Ok Done; Ok Done; Ok Done; Ok (Document [("id", VInt 2);
    ("three", (str "field three")); ("four", (str "field four"))])].
Proof. vm_compute. reflexivity. Abort.

(** tests/test_profile.py:645 *)
Example test_schema_hidden_evaluated_1 :
  let w := after [NewSequential MP false (map VInt (zrange 1 100)) false; NewField MP "id" 0 None
    None false None; NewStatic MP ((str "field one")); NewField MP "one" 3 None None true None;
    NewStatic MP ((str "field two")); NewField MP "two" 6 None None false None; NewStatic MP ((str
    "field three")); NewField MP "three" 9 None None true None; NewStatic MP ((str "field four"));
    NewField MP "four" 12 None None false None] in
  previous MP 0 w = VNone /\ previous MP 1 w = VNone /\ previous MP 2 w = VNone /\ previous MP 3 w =
    VNone /\ previous MP 4 w = VNone.
Proof. vm_compute. now repeat split. Abort.

(** tests/test_profile.py:645 *)
Example test_schema_hidden_evaluated_2 :
  let w := after [NewSequential MP false (map VInt (zrange 1 100)) false; NewField MP "id" 0 None
    None false None; NewStatic MP ((str "field one")); NewField MP "one" 3 None None true None;
    NewStatic MP ((str "field two")); NewField MP "two" 6 None None false None; NewStatic MP ((str
    "field three")); NewField MP "three" 9 None None true None; NewStatic MP ((str "field four"));
    NewField MP "four" 12 None None false None; Do MP (Doc MP [("id", 0%nat); ("one", 1%nat);
    ("two", 2%nat); ("three", 3%nat); ("four", 4%nat)])] in
  previous MP 0 w = VInt 1 /\ previous MP 1 w = (str "field one") /\ previous MP 2 w = (str
    "field two") /\ previous MP 3 w = (str "field three") /\ previous MP 4 w = (str "field four").
Proof. vm_compute. now repeat split. Abort.

(** tests/test_profile.py:583 *)
Example test_schema_key_name_mismatch_1 :
  goes [NewSequential MP false (map VInt (zrange 1 100)) false; NewField MP "the" 0 None None false
    None; NewStatic MP ((str "A Title")); NewField MP "field" 3 None None false None; NewStatic MP
    ((str "TEST")); NewField MP "name" 6 None None true None; NewStatic MP ((str "An Author"));
    NewField MP "does not" 9 None None false None; NewStatic MP ((str "TEST")); NewField MP "matter"
    12 None None true None]
    [Do MP (Doc MP [("id", 0%nat); ("title", 1%nat); ("hidden1", 2%nat); ("author", 3%nat);
      ("hidden2", 4%nat)])]
  = Some [Ok (Document [("id", VInt 1); ("title", (str "A Title")); ("author", (str
    "An Author"))])].
Proof. vm_compute. reflexivity. Abort.

(** tests/test_profile.py:669 *)
Example test_schema_resetfields_1 :
  let w := after [NewChoice MP false (WORDS) None false false None None; NewChoice MP true ([VInt 1;
    VInt 1; VInt 1; VInt 1; VInt 1; VInt 1; VInt 1; VInt 1; VInt 1; VInt 1; VInt 1; VInt 1]) None
    false false None None; NewChoice MP true ([VBool true; VBool false]) (Some [q 1 1; q 0 1]) true
    false None None; NewField MP "test" 0 (Some 1%nat) (Some 2%nat) false None; NewChoice MP false
    (WORDS) None false false None None; NewChoice MP true ([VInt 1; VInt 1; VInt 1; VInt 1; VInt 1;
    VInt 1; VInt 1; VInt 1; VInt 1; VInt 1; VInt 1; VInt 1]) None false false None None; NewChoice
    MP true ([VBool true; VBool false]) (Some [q 1 1; q 0 1]) true false None None; NewField MP
    "test2" 3 (Some 4%nat) (Some 5%nat) false None; NewChoice MP false (WORDS) None false false None
    None; NewChoice MP true ([VInt 1; VInt 1; VInt 1; VInt 1; VInt 1; VInt 1; VInt 1; VInt 1; VInt
    1; VInt 1; VInt 1; VInt 1]) None false false None None; NewChoice MP true ([VBool true; VBool
    false]) (Some [q 1 1; q 0 1]) true false None None; NewField MP "test3" 6 (Some 7%nat) (Some
    8%nat) true None; Do MP (Doc MP [("test", 0%nat); ("test2", 1%nat); ("test3", 2%nat)]); Do MP
    (Doc MP [("test", 0%nat); ("test2", 1%nat); ("test3", 2%nat)]); Do MP (Doc MP [("test", 0%nat);
    ("test2", 1%nat); ("test3", 2%nat)]); Do MP (Doc MP [("test", 0%nat); ("test2", 1%nat);
    ("test3", 2%nat)]); Do MP (Doc MP [("test", 0%nat); ("test2", 1%nat); ("test3", 2%nat)]); Do MP
    (Doc MP [("test", 0%nat); ("test2", 1%nat); ("test3", 2%nat)]); Do MP (Doc MP [("test", 0%nat);
    ("test2", 1%nat); ("test3", 2%nat)]); Do MP (Doc MP [("test", 0%nat); ("test2", 1%nat);
    ("test3", 2%nat)]); Do MP (Doc MP [("test", 0%nat); ("test2", 1%nat); ("test3", 2%nat)]); Do MP
    (Doc MP [("test", 0%nat); ("test2", 1%nat); ("test3", 2%nat)]); Do MP (Doc MP [("test", 0%nat);
    ("test2", 1%nat); ("test3", 2%nat)]); Do MP (Doc MP [("test", 0%nat); ("test2", 1%nat);
    ("test3", 2%nat)])] in
  nuv_at MP 0 w = Ok (Exactly 0) /\ nuv_at MP 1 w = Ok (Exactly 0) /\ nuv_at MP 3 w = Ok (Exactly 0)
    /\ nuv_at MP 4 w = Ok (Exactly 0) /\ nuv_at MP 6 w = Ok (Exactly 0) /\ nuv_at MP 7 w = Ok
    (Exactly 0).
Proof. vm_compute. now repeat split. Abort.

(** tests/test_profile.py:669 *)
Example test_schema_resetfields_2 :
  let w := after [NewChoice MP false (WORDS) None false false None None; NewChoice MP true ([VInt 1;
    VInt 1; VInt 1; VInt 1; VInt 1; VInt 1; VInt 1; VInt 1; VInt 1; VInt 1; VInt 1; VInt 1]) None
    false false None None; NewChoice MP true ([VBool true; VBool false]) (Some [q 1 1; q 0 1]) true
    false None None; NewField MP "test" 0 (Some 1%nat) (Some 2%nat) false None; NewChoice MP false
    (WORDS) None false false None None; NewChoice MP true ([VInt 1; VInt 1; VInt 1; VInt 1; VInt 1;
    VInt 1; VInt 1; VInt 1; VInt 1; VInt 1; VInt 1; VInt 1]) None false false None None; NewChoice
    MP true ([VBool true; VBool false]) (Some [q 1 1; q 0 1]) true false None None; NewField MP
    "test2" 3 (Some 4%nat) (Some 5%nat) false None; NewChoice MP false (WORDS) None false false None
    None; NewChoice MP true ([VInt 1; VInt 1; VInt 1; VInt 1; VInt 1; VInt 1; VInt 1; VInt 1; VInt
    1; VInt 1; VInt 1; VInt 1]) None false false None None; NewChoice MP true ([VBool true; VBool
    false]) (Some [q 1 1; q 0 1]) true false None None; NewField MP "test3" 6 (Some 7%nat) (Some
    8%nat) true None; Do MP (Doc MP [("test", 0%nat); ("test2", 1%nat); ("test3", 2%nat)]); Do MP
    (Doc MP [("test", 0%nat); ("test2", 1%nat); ("test3", 2%nat)]); Do MP (Doc MP [("test", 0%nat);
    ("test2", 1%nat); ("test3", 2%nat)]); Do MP (Doc MP [("test", 0%nat); ("test2", 1%nat);
    ("test3", 2%nat)]); Do MP (Doc MP [("test", 0%nat); ("test2", 1%nat); ("test3", 2%nat)]); Do MP
    (Doc MP [("test", 0%nat); ("test2", 1%nat); ("test3", 2%nat)]); Do MP (Doc MP [("test", 0%nat);
    ("test2", 1%nat); ("test3", 2%nat)]); Do MP (Doc MP [("test", 0%nat); ("test2", 1%nat);
    ("test3", 2%nat)]); Do MP (Doc MP [("test", 0%nat); ("test2", 1%nat); ("test3", 2%nat)]); Do MP
    (Doc MP [("test", 0%nat); ("test2", 1%nat); ("test3", 2%nat)]); Do MP (Doc MP [("test", 0%nat);
    ("test2", 1%nat); ("test3", 2%nat)]); Do MP (Doc MP [("test", 0%nat); ("test2", 1%nat);
    ("test3", 2%nat)]); Do MP (ResetFields MP [("test", 0%nat); ("test2", 1%nat); ("test3",
    2%nat)])] in
  nuv_at MP 0 w = Ok (Exactly 12) /\ nuv_at MP 1 w = Ok (Exactly 1) /\ nuv_at MP 3 w = Ok (Exactly
    12) /\ nuv_at MP 4 w = Ok (Exactly 1) /\ nuv_at MP 6 w = Ok (Exactly 12) /\ nuv_at MP 7 w = Ok
    (Exactly 1).
Proof. vm_compute. now repeat split. Abort.

(** tests/test_profile.py:706 *)
Example test_schema_seedfields_1 :
  let w := after [NewChoice MP false (WORDS) None true false None None; NewChoice MP false (map VInt
    (zrange 1 13)) None true false None None; NewChoice MP true ([VBool true; VBool false]) (Some [q
    3 4; q 1 4]) true false None None; NewField MP "test" 0 (Some 1%nat) (Some 2%nat) false (seed
    12345); NewChoice MP false (WORDS) None true false None None; NewChoice MP false (map VInt
    (zrange 1 13)) None true false None None; NewChoice MP true ([VBool true; VBool false]) (Some [q
    3 4; q 1 4]) true false None None; NewField MP "test2" 3 (Some 4%nat) (Some 5%nat) false (seed
    54321); NewChoice MP false (WORDS) None true false None None; NewChoice MP false (map VInt
    (zrange 1 13)) None true false None None; NewChoice MP true ([VBool true; VBool false]) (Some [q
    3 4; q 1 4]) true false None None; NewField MP "test4" 6 (Some 7%nat) (Some 8%nat) true (seed
    212121); Do MP (SeedFields MP [("test", 0%nat); ("test2", 1%nat); ("test4", 2%nat)] (seed 999))]
    in
  option_map (fun x => n_seed MP (f_nd MP x)) (get_fd MP 0 w) = Some (seed 999) /\ option_map (fun x
    => n_seed MP (f_nd MP x)) (get_fd MP 1 w) = Some (seed 999) /\ option_map (fun x => n_seed MP
    (f_nd MP x)) (get_fd MP 2 w) = Some (seed 999) /\ seed_at 0 w = Some 999 /\ seed_at 1 w = Some
    999 /\ seed_at 2 w = Some 999 /\ seed_at 3 w = Some 999 /\ seed_at 4 w = Some 999 /\ seed_at 5 w
    = Some 999 /\ seed_at 6 w = Some 999 /\ seed_at 7 w = Some 999 /\ seed_at 8 w = Some 999.
Proof. vm_compute. now repeat split. Abort.

(** tests/test_emitters_wrappers.py:117 *)
Example test_wrapone_emit_1 :
  goes [NewStatic MP (VInt 1000); NewWrapOne MP 0 (fn None (with_str (fun x => VStr x)) (fun _ _ =>
    ret VNone)) None]
    [Do MP (Emit MP 1); Do MP (ResetEm MP 1); Do MP (EmitN MP 1 1)]
  = Some [Ok (Value ((str "1000"))); Ok Done; Ok (Values [(str "1000")])].
Proof. vm_compute. reflexivity. Abort.

(** tests/test_emitters_wrappers.py:118 *)
Example test_wrapone_emit_2 :
  goes [NewSequential MP false (map VInt (zrange 0 50)) false; NewWrapOne MP 0 (fn None (with_str
    (fun x => VStr x)) (fun _ _ => ret VNone)) None]
    [Do MP (Emit MP 1); Do MP (Emit MP 1); Do MP (Emit MP 1); Do MP (Emit MP 1); Do MP (Emit MP 1);
      Do MP (Emit MP 1); Do MP (Emit MP 1); Do MP (Emit MP 1); Do MP (ResetEm MP 1); Do MP (EmitN MP
      1 8)]
  = Some [Ok (Value ((str "0"))); Ok (Value ((str "1"))); Ok (Value ((str "2"))); Ok (Value ((str
    "3"))); Ok (Value ((str "4"))); Ok (Value ((str "5"))); Ok (Value ((str "6"))); Ok (Value ((str
    "7"))); Ok Done; Ok (Values [(str "0"); (str "1"); (str "2"); (str "3"); (str "4"); (str "5");
    (str "6"); (str "7")])].
Proof. vm_compute. reflexivity. Abort.

(** tests/test_emitters_wrappers.py:119 *)
Example test_wrapone_emit_3 :
  goes [NewStatic MP ((str "1000")); NewWrapOne MP 0 (fn None (fun args _ => match args with [VStr
    x] => Ok (VInt (number x)) | _ => Raise TypeError end) (fun _ _ => ret VNone)) None]
    [Do MP (Emit MP 1); Do MP (ResetEm MP 1); Do MP (EmitN MP 1 1)]
  = Some [Ok (Value (VInt 1000)); Ok Done; Ok (Values [VInt 1000])].
Proof. vm_compute. reflexivity. Abort.

(** tests/test_emitters_wrappers.py:125 *)
Example test_wrapone_emit_4 :
  goes [NewStatic MP ((str "Susan")); NewWrapOne MP 0 (fn (Some [mkParam "n" PosOrKw false])
    (with_str (fun n => VStr (n ++ chars " says, ""Hello!"""))) (fun _ _ => ret VNone)) None]
    [Do MP (Emit MP 1); Do MP (ResetEm MP 1); Do MP (EmitN MP 1 1)]
  = Some [Ok (Value ((str "Susan says, ""Hello!"""))); Ok Done; Ok (Values [(str
    "Susan says, ""Hello!""")])].
Proof. vm_compute. reflexivity. Abort.

(** tests/test_emitters_wrappers.py:138 *)
Example test_wrapone_rng_1 :
  goes [NewChoice MP false (letters "abcdefg") None true false None None; NewWrapOne MP 0 (fn (Some
    [mkParam "v" PosOrKw false; mkParam "rng" PosOrKw false]) (fun _ _ => Ok VNone) (fun args _ => b
    <~ true_or_false ;; ret (match args with [VStr x] => VStr (if b then upper x else x) | _ =>
    VNone end))) (seed 999)]
    [Do MP (Emit MP 1); Do MP (Emit MP 1); Do MP (Emit MP 1); Do MP (Emit MP 1); Do MP (Emit MP 1);
      Do MP (ResetEm MP 1); Do MP (EmitN MP 1 5)]
  = Some [Ok (Value ((str "G"))); Ok (Value ((str "f"))); Ok (Value ((str "a"))); Ok (Value ((str
    "G"))); Ok (Value ((str "e"))); Ok Done; Ok (Values [(str "F"); (str "a"); (str "g"); (str "E");
    (str "d")])].
Proof. vm_compute. reflexivity. Abort.

(** tests/test_emitters_wrappers.py:141 *)
Example test_wrapone_rng_2 :
  goes [NewStatic MP ((str "a")); NewWrapOne MP 0 (fn (Some [mkParam "v" PosOrKw false; mkParam
    "rng" PosOrKw false]) (fun _ _ => Ok VNone) (fun args _ => b <~ true_or_false ;; ret (match args
    with [VStr x] => VStr (if b then upper x else x) | _ => VNone end))) (seed 999)]
    [Do MP (Emit MP 1); Do MP (Emit MP 1); Do MP (Emit MP 1); Do MP (Emit MP 1); Do MP (Emit MP 1);
      Do MP (ResetEm MP 1); Do MP (EmitN MP 1 5)]
  = Some [Ok (Value ((str "A"))); Ok (Value ((str "a"))); Ok (Value ((str "a"))); Ok (Value ((str
    "A"))); Ok (Value ((str "a"))); Ok Done; Ok (Values [(str "A"); (str "a"); (str "a"); (str "A");
    (str "a")])].
Proof. vm_compute. reflexivity. Abort.

(** tests/test_emitters_wrappers.py:156 *)
Example test_wrapone_bad_1 :
  goes [NewStatic MP ((str "test"))]
    [NewWrapOne MP 0 (fn (Some []) (fun _ _ => Ok VNone) (fun _ _ => ret VNone)) None]
  = Some [Raise TypeError].
Proof. vm_compute. reflexivity. Abort.

(** tests/test_emitters_wrappers.py:157 *)
Example test_wrapone_bad_2 :
  goes [NewStatic MP ((str "test"))]
    [NewWrapOne MP 0 (fn (Some [mkParam "rng" PosOrKw false]) (fun _ _ => Ok VNone) (fun _ _ => ret
      VNone)) None]
  = Some [Raise TypeError].
Proof. vm_compute. reflexivity. Abort.

(** tests/test_emitters_wrappers.py:158 *)
Example test_wrapone_bad_3 :
  goes [NewStatic MP ((str "test"))]
    [NewWrapOne MP 0 (fn (Some [mkParam "rng" PosOrKw false; mkParam "val" PosOrKw false]) (fun _ _
      => Ok VNone) (fun _ _ => ret VNone)) None]
  = Some [Raise TypeError].
Proof. vm_compute. reflexivity. Abort.

(** tests/test_emitters_wrappers.py:159 *)
Example test_wrapone_bad_4 :
  goes [NewStatic MP ((str "test"))]
    [NewWrapOne MP 0 (fn (Some [mkParam "val1" PosOrKw false; mkParam "val2" PosOrKw false]) (fun _
      _ => Ok VNone) (fun _ _ => ret VNone)) None]
  = Some [Raise TypeError].
Proof. vm_compute. reflexivity. Abort.

(** tests/test_emitters_wrappers.py:161 *)
Example test_wrapone_bad_5 :
  goes [NewStatic MP ((str "test"))]
    [NewWrapOne MP 0 (fn (Some [mkParam "val1" PosOrKw false; mkParam "val2" PosOrKw false; mkParam
      "rng" PosOrKw false]) (fun _ _ => Ok VNone) (fun _ _ => ret VNone)) None]
  = Some [Raise TypeError].
Proof. vm_compute. reflexivity. Abort.

(** tests/test_emitters_wrappers.py:163 *)
Example test_wrapone_bad_6 :
  goes [NewStatic MP ((str "test"))]
    [NewWrapOne MP 0 (fn (Some [mkParam "val1" PosOrKw false; mkParam "rng" PosOrKw false; mkParam
      "val2" PosOrKw false]) (fun _ _ => Ok VNone) (fun _ _ => ret VNone)) None]
  = Some [Raise TypeError].
Proof. vm_compute. reflexivity. Abort.

(** tests/test_emitters_wrappers.py:181 *)
Example test_wrapone_settable_1 :
  goes [NewStatic MP (VInt 1); NewWrapOne MP 0 (fn (Some [mkParam "val" PosOrKw false]) (fun _ _ =>
    Ok VNone) (fun _ _ => ret VNone)) None]
    [Do MP (Emit MP 1); SetFunction MP 1 (fn (Some [mkParam "val" PosOrKw false]) (with_str (fun x
      => VStr x)) (fun _ _ => ret VNone)); Do MP (Emit MP 1); SetFunction MP 1 (fn (Some [mkParam
      "val1" PosOrKw false; mkParam "val2" PosOrKw false]) (fun _ _ => Ok VNone) (fun _ _ => ret
      VNone))]
  = Some [Ok (Value (VNone)); Ok Done; Ok (Value ((str "1"))); Raise TypeError].
Proof. vm_compute. reflexivity. Abort.

(** tests/test_emitters_wrappers.py:218 *)
Example test_wrapmany_emit_1 :
  goes [NewStatic MP (VInt 1000); NewWrapMany MP [("a", 0%nat)] (fn (Some [mkParam "a" PosOrKw
    false]) (fun _ kw => match kw with [("a", a)] => text [a] | _ => Raise TypeError end) (fun _ _
    => ret VNone)) None]
    [Do MP (Emit MP 1); Do MP (Emit MP 1); Do MP (ResetEm MP 1); Do MP (EmitN MP 1 2)]
  = Some [Ok (Value ((str "1000"))); Ok (Value ((str "1000"))); Ok Done; Ok (Values [(str "1000");
    (str "1000")])].
Proof. vm_compute. reflexivity. Abort.

(** tests/test_emitters_wrappers.py:219 *)
Example test_wrapmany_emit_2 :
  goes [NewStatic MP ((str "A")); NewSequential MP false (map VInt (zrange 0 50)) false; NewWrapMany
    MP [("a", 0%nat); ("b", 1%nat)] (fn (Some [mkParam "a" PosOrKw false; mkParam "b" PosOrKw
    false]) (fun _ kw => match kw with [("a", a); ("b", b)] => text [a; str " -- "; b] | _ => Raise
    TypeError end) (fun _ _ => ret VNone)) None]
    [Do MP (Emit MP 2); Do MP (Emit MP 2); Do MP (Emit MP 2); Do MP (Emit MP 2); Do MP (Emit MP 2);
      Do MP (Emit MP 2); Do MP (ResetEm MP 2); Do MP (EmitN MP 2 6)]
  = Some [Ok (Value ((str "A -- 0"))); Ok (Value ((str "A -- 1"))); Ok (Value ((str "A -- 2"))); Ok
    (Value ((str "A -- 3"))); Ok (Value ((str "A -- 4"))); Ok (Value ((str "A -- 5"))); Ok Done; Ok
    (Values [(str "A -- 0"); (str "A -- 1"); (str "A -- 2"); (str "A -- 3"); (str "A -- 4"); (str
    "A -- 5")])].
Proof. vm_compute. reflexivity. Abort.

(** tests/test_emitters_wrappers.py:221 *)
Example test_wrapmany_emit_3 :
  goes [NewStatic MP ((str "Susan")); NewStatic MP ((str "says")); NewStatic MP ((str "Hello"));
    NewWrapMany MP [("subj", 0%nat); ("verb", 1%nat); ("obj", 2%nat)] (fn (Some [mkParam "subj"
    PosOrKw false; mkParam "verb" PosOrKw false; mkParam "obj" PosOrKw false]) (fun _ kw => match kw
    with [("subj", x); ("verb", y); ("obj", z)] => text [x; str " "; y; str ", """; z; str "!"""] |
    _ => Raise TypeError end) (fun _ _ => ret VNone)) None]
    [Do MP (Emit MP 3); Do MP (Emit MP 3); Do MP (ResetEm MP 3); Do MP (EmitN MP 3 2)]
  = Some [Ok (Value ((str "Susan says, ""Hello!"""))); Ok (Value ((str "Susan says, ""Hello!""")));
    Ok Done; Ok (Values [(str "Susan says, ""Hello!"""); (str "Susan says, ""Hello!""")])].
Proof. vm_compute. reflexivity. Abort.

(** tests/test_emitters_wrappers.py:233 *)
Example test_wrapmany_rng_1 :
  goes [NewChoice MP false (letters "abcdefg") None true false None None; NewChoice MP true ([VInt
    1; VInt 2; VInt 3; VInt 4; VInt 5]) None true false None None; NewWrapMany MP [("a", 0%nat);
    ("b", 1%nat)] (fn (Some [mkParam "a" PosOrKw false; mkParam "b" PosOrKw false; mkParam "rng"
    PosOrKw false]) (fun _ _ => Ok VNone) (fun _ kw => t <~ true_or_false ;; match kw with [("a",
    a); ("b", b)] => if t then ret a else lift (text [b]) | _ => raise TypeError end)) (seed 999)]
    [Do MP (Emit MP 2); Do MP (Emit MP 2); Do MP (Emit MP 2); Do MP (Emit MP 2); Do MP (Emit MP 2);
      Do MP (ResetEm MP 2); Do MP (EmitN MP 2 5)]
  = Some [Ok (Value ((str "g"))); Ok (Value ((str "5"))); Ok (Value ((str "5"))); Ok (Value ((str
    "g"))); Ok (Value ((str "4"))); Ok Done; Ok (Values [(str "f"); (str "1"); (str "5"); (str "e");
    (str "3")])].
Proof. vm_compute. reflexivity. Abort.

(** tests/test_emitters_wrappers.py:236 *)
Example test_wrapmany_rng_2 :
  goes [NewStatic MP ((str "a")); NewStatic MP ((str "b")); NewWrapMany MP [("a", 0%nat); ("b",
    1%nat)] (fn (Some [mkParam "rng" PosOrKw false; mkParam "a" PosOrKw false; mkParam "b" PosOrKw
    false]) (fun _ _ => Ok VNone) (fun _ kw => t <~ true_or_false ;; match kw with [("a", VStr a);
    ("b", b)] => ret (if t then VStr (upper a) else b) | _ => raise TypeError end)) (seed 999)]
    [Do MP (Emit MP 2); Do MP (Emit MP 2); Do MP (Emit MP 2); Do MP (Emit MP 2); Do MP (Emit MP 2);
      Do MP (ResetEm MP 2); Do MP (EmitN MP 2 5)]
  = Some [Ok (Value ((str "A"))); Ok (Value ((str "b"))); Ok (Value ((str "b"))); Ok (Value ((str
    "A"))); Ok (Value ((str "b"))); Ok Done; Ok (Values [(str "A"); (str "b"); (str "b"); (str "A");
    (str "b")])].
Proof. vm_compute. reflexivity. Abort.

(** tests/test_emitters_wrappers.py:251 *)
Example test_wrapmany_bad_1 :
  goes [NewStatic MP ((str "test_a")); NewStatic MP ((str "test_b"))]
    [NewWrapMany MP [("a", 0%nat); ("b", 1%nat)] (fn (Some []) (fun _ _ => Ok VNone) (fun _ _ => ret
      VNone)) None]
  = Some [Raise TypeError].
Proof. vm_compute. reflexivity. Abort.

(** tests/test_emitters_wrappers.py:252 *)
Example test_wrapmany_bad_2 :
  goes [NewStatic MP ((str "test_a")); NewStatic MP ((str "test_b"))]
    [NewWrapMany MP [("a", 0%nat); ("b", 1%nat)] (fn (Some [mkParam "rng" PosOrKw false]) (fun _ _
      => Ok VNone) (fun _ _ => ret VNone)) None]
  = Some [Raise TypeError].
Proof. vm_compute. reflexivity. Abort.

(** tests/test_emitters_wrappers.py:253 *)
Example test_wrapmany_bad_3 :
  goes [NewStatic MP ((str "test_a")); NewStatic MP ((str "test_b"))]
    [NewWrapMany MP [("a", 0%nat); ("b", 1%nat)] (fn (Some [mkParam "val1" PosOrKw false; mkParam
      "val2" PosOrKw false]) (fun _ _ => Ok VNone) (fun _ _ => ret VNone)) None]
  = Some [Raise TypeError].
Proof. vm_compute. reflexivity. Abort.

(** tests/test_emitters_wrappers.py:254 *)
Example test_wrapmany_bad_4 :
  goes [NewStatic MP ((str "test_a")); NewStatic MP ((str "test_b"))]
    [NewWrapMany MP [("a", 0%nat); ("b", 1%nat)] (fn (Some [mkParam "val1" PosOrKw false; mkParam
      "val2" PosOrKw false; mkParam "rng" PosOrKw false]) (fun _ _ => Ok VNone) (fun _ _ => ret
      VNone)) None]
  = Some [Raise TypeError].
Proof. vm_compute. reflexivity. Abort.

(** tests/test_emitters_wrappers.py:256 *)
Example test_wrapmany_bad_5 :
  goes [NewStatic MP ((str "test_a")); NewStatic MP ((str "test_b"))]
    [NewWrapMany MP [("a", 0%nat); ("b", 1%nat)] (fn (Some [mkParam "a" PosOrKw false]) (fun _ _ =>
      Ok VNone) (fun _ _ => ret VNone)) None]
  = Some [Raise TypeError].
Proof. vm_compute. reflexivity. Abort.

(** tests/test_emitters_wrappers.py:257 *)
Example test_wrapmany_bad_6 :
  goes [NewStatic MP ((str "test_a")); NewStatic MP ((str "test_b"))]
    [NewWrapMany MP [("a", 0%nat); ("b", 1%nat)] (fn (Some [mkParam "a" PosOrKw false; mkParam "c"
      PosOrKw false]) (fun _ _ => Ok VNone) (fun _ _ => ret VNone)) None]
  = Some [Raise TypeError].
Proof. vm_compute. reflexivity. Abort.

(** tests/test_emitters_wrappers.py:258 *)
Example test_wrapmany_bad_7 :
  goes [NewStatic MP ((str "test_a")); NewStatic MP ((str "test_b"))]
    [NewWrapMany MP [("a", 0%nat); ("b", 1%nat)] (fn (Some [mkParam "a" PosOrKw false; mkParam "rng"
      PosOrKw false]) (fun _ _ => Ok VNone) (fun _ _ => ret VNone)) None]
  = Some [Raise TypeError].
Proof. vm_compute. reflexivity. Abort.

(** tests/test_emitters_wrappers.py:259 *)
Example test_wrapmany_bad_8 :
  goes [NewStatic MP ((str "test_a")); NewStatic MP ((str "test_b"))]
    [NewWrapMany MP [("a", 0%nat); ("b", 1%nat)] (fn (Some [mkParam "a" PosOrKw false; mkParam "b"
      PosOrKw false; mkParam "c" PosOrKw false]) (fun _ _ => Ok VNone) (fun _ _ => ret VNone)) None]
  = Some [Raise TypeError].
Proof. vm_compute. reflexivity. Abort.

(** tests/test_emitters_wrappers.py:260 *)
Example test_wrapmany_bad_9 :
  goes [NewStatic MP ((str "test_a")); NewStatic MP ((str "test_b"))]
    [NewWrapMany MP [("a", 0%nat); ("b", 1%nat)] (fn (Some [mkParam "a" PosOrKw false; mkParam "b"
      PosOrKw false; mkParam "c" PosOrKw false; mkParam "rng" PosOrKw false]) (fun _ _ => Ok VNone)
      (fun _ _ => ret VNone)) None]
  = Some [Raise TypeError].
Proof. vm_compute. reflexivity. Abort.

(** tests/test_emitters_wrappers.py:261 *)
Example test_wrapmany_bad_10 :
  goes [NewStatic MP ((str "test_a")); NewStatic MP ((str "test_b"))]
    [NewWrapMany MP [("a", 0%nat); ("b", 1%nat)] (fn (Some [mkParam "a" PosOrKw false; mkParam "c"
      PosOrKw false; mkParam "b" PosOrKw false; mkParam "rng" PosOrKw false]) (fun _ _ => Ok VNone)
      (fun _ _ => ret VNone)) None]
  = Some [Raise TypeError].
Proof. vm_compute. reflexivity. Abort.

(** tests/test_emitters_wrappers.py:285 *)
Example test_wrapmany_settable_1 :
  goes [NewStatic MP (VInt 1); NewStatic MP (VInt 2); NewWrapMany MP [("one", 0%nat); ("two",
    1%nat)] (fn (Some [mkParam "one" PosOrKw false; mkParam "two" PosOrKw false]) (fun _ _ => Ok
    VNone) (fun _ _ => ret VNone)) None]
    [Do MP (Emit MP 2); SetFunction MP 2 (fn (Some [mkParam "one" PosOrKw false; mkParam "two"
      PosOrKw false]) (fun _ kw => match kw with [("one", x); ("two", y)] => text [x; str " "; y] |
      _ => Raise TypeError end) (fun _ _ => ret VNone)); Do MP (Emit MP 2); SetFunction MP 2 (fn
      (Some [mkParam "val1" PosOrKw false; mkParam "val2" PosOrKw false; mkParam "val3" PosOrKw
      false]) (fun _ _ => Ok VNone) (fun _ _ => ret VNone))]
  = Some [Ok (Value (VNone)); Ok Done; Ok (Value ((str "1 2"))); Raise TypeError].
Proof. vm_compute. reflexivity. Abort.

(** tests/test_emitters_fromfields.py:69 *)
Example test_sourcefieldgroup_singlevalued_1 :
  let w := after [NewStatic MP ((str "Test Val")); NewField MP "test" 0 None None false None] in
  single_valued true (map (field_multi MP w) [0%nat]) = true.
Proof. vm_compute. now repeat split. Abort.

(** tests/test_emitters_fromfields.py:70 *)
Example test_sourcefieldgroup_singlevalued_2 :
  let w := after [NewStatic MP ((str "Test Val")); NewStatic MP (VInt 0); NewField MP "test" 0 (Some
    1%nat) None false None] in
  single_valued true (map (field_multi MP w) [0%nat]) = false.
Proof. vm_compute. now repeat split. Abort.

(** tests/test_emitters_fromfields.py:71 *)
Example test_sourcefieldgroup_singlevalued_3 :
  let w := after [NewStatic MP ((str "Test Val")); NewStatic MP (VInt 1); NewField MP "test" 0 (Some
    1%nat) None false None] in
  single_valued true (map (field_multi MP w) [0%nat]) = false.
Proof. vm_compute. now repeat split. Abort.

(** tests/test_emitters_fromfields.py:72 *)
Example test_sourcefieldgroup_singlevalued_4 :
  let w := after [NewStatic MP ((str "Test Val")); NewStatic MP (VInt 2); NewField MP "test" 0 (Some
    1%nat) None false None] in
  single_valued true (map (field_multi MP w) [0%nat]) = false.
Proof. vm_compute. now repeat split. Abort.

(** tests/test_emitters_fromfields.py:73 *)
Example test_sourcefieldgroup_singlevalued_5 :
  let w := after [NewStatic MP ((str "Test Val")); NewField MP "test" 0 None None false None] in
  single_valued false (map (field_multi MP w) [0%nat]) = false.
Proof. vm_compute. now repeat split. Abort.

(** tests/test_emitters_fromfields.py:74 *)
Example test_sourcefieldgroup_singlevalued_6 :
  let w := after [NewStatic MP ((str "Test Val")); NewStatic MP (VInt 0); NewField MP "test" 0 (Some
    1%nat) None false None] in
  single_valued false (map (field_multi MP w) [0%nat]) = false.
Proof. vm_compute. now repeat split. Abort.

(** tests/test_emitters_fromfields.py:75 *)
Example test_sourcefieldgroup_singlevalued_7 :
  let w := after [NewStatic MP ((str "Test Val")); NewStatic MP (VInt 1); NewField MP "test" 0 (Some
    1%nat) None false None] in
  single_valued false (map (field_multi MP w) [0%nat]) = false.
Proof. vm_compute. now repeat split. Abort.

(** tests/test_emitters_fromfields.py:76 *)
Example test_sourcefieldgroup_singlevalued_8 :
  let w := after [NewStatic MP ((str "Test Val")); NewStatic MP (VInt 2); NewField MP "test" 0 (Some
    1%nat) None false None] in
  single_valued false (map (field_multi MP w) [0%nat]) = false.
Proof. vm_compute. now repeat split. Abort.

(** tests/test_emitters_fromfields.py:77 *)
Example test_sourcefieldgroup_singlevalued_9 :
  let w := after [NewStatic MP ((str "one")); NewField MP "test1" 0 None None false None; NewStatic
    MP ((str "two")); NewField MP "test2" 3 None None false None] in
  single_valued false (map (field_multi MP w) [0%nat; 1%nat]) = false.
Proof. vm_compute. now repeat split. Abort.

(** tests/test_emitters_fromfields.py:79 *)
Example test_sourcefieldgroup_singlevalued_10 :
  let w := after [NewStatic MP ((str "one")); NewStatic MP (VInt 0); NewField MP "test1" 0 (Some
    1%nat) None false None; NewStatic MP ((str "two")); NewStatic MP (VInt 0); NewField MP "test2" 3
    (Some 4%nat) None false None] in
  single_valued false (map (field_multi MP w) [0%nat; 1%nat]) = false.
Proof. vm_compute. now repeat split. Abort.

(** tests/test_emitters_fromfields.py:81 *)
Example test_sourcefieldgroup_singlevalued_11 :
  let w := after [NewStatic MP ((str "one")); NewStatic MP (VInt 1); NewField MP "test1" 0 (Some
    1%nat) None false None; NewStatic MP ((str "two")); NewStatic MP (VInt 1); NewField MP "test2" 3
    (Some 4%nat) None false None] in
  single_valued false (map (field_multi MP w) [0%nat; 1%nat]) = false.
Proof. vm_compute. now repeat split. Abort.

(** tests/test_emitters_fromfields.py:83 *)
Example test_sourcefieldgroup_singlevalued_12 :
  let w := after [NewStatic MP ((str "one")); NewStatic MP (VInt 2); NewField MP "test1" 0 (Some
    1%nat) None false None; NewStatic MP ((str "two")); NewStatic MP (VInt 2); NewField MP "test2" 3
    (Some 4%nat) None false None] in
  single_valued false (map (field_multi MP w) [0%nat; 1%nat]) = false.
Proof. vm_compute. now repeat split. Abort.

(** tests/test_emitters_fromfields.py:174 *)
Example test_copyfields_singlevalued_1 :
  let w := after [NewStatic MP ((str "Test Val")); NewField MP "test" 0 None None false None] in
  single_valued true (map (field_multi MP w) [0%nat]) = true.
Proof. vm_compute. now repeat split. Abort.

(** tests/test_emitters_fromfields.py:175 *)
Example test_copyfields_singlevalued_2 :
  let w := after [NewStatic MP ((str "Test Val")); NewStatic MP (VInt 0); NewField MP "test" 0 (Some
    1%nat) None false None] in
  single_valued true (map (field_multi MP w) [0%nat]) = false.
Proof. vm_compute. now repeat split. Abort.

(** tests/test_emitters_fromfields.py:176 *)
Example test_copyfields_singlevalued_3 :
  let w := after [NewStatic MP ((str "Test Val")); NewStatic MP (VInt 1); NewField MP "test" 0 (Some
    1%nat) None false None] in
  single_valued true (map (field_multi MP w) [0%nat]) = false.
Proof. vm_compute. now repeat split. Abort.

(** tests/test_emitters_fromfields.py:177 *)
Example test_copyfields_singlevalued_4 :
  let w := after [NewStatic MP ((str "Test Val")); NewStatic MP (VInt 2); NewField MP "test" 0 (Some
    1%nat) None false None] in
  single_valued true (map (field_multi MP w) [0%nat]) = false.
Proof. vm_compute. now repeat split. Abort.

(** tests/test_emitters_fromfields.py:178 *)
Example test_copyfields_singlevalued_5 :
  let w := after [NewStatic MP ((str "Test Val")); NewField MP "test" 0 None None false None] in
  single_valued false (map (field_multi MP w) [0%nat]) = false.
Proof. vm_compute. now repeat split. Abort.

(** tests/test_emitters_fromfields.py:179 *)
Example test_copyfields_singlevalued_6 :
  let w := after [NewStatic MP ((str "Test Val")); NewStatic MP (VInt 0); NewField MP "test" 0 (Some
    1%nat) None false None] in
  single_valued false (map (field_multi MP w) [0%nat]) = false.
Proof. vm_compute. now repeat split. Abort.

(** tests/test_emitters_fromfields.py:180 *)
Example test_copyfields_singlevalued_7 :
  let w := after [NewStatic MP ((str "Test Val")); NewStatic MP (VInt 1); NewField MP "test" 0 (Some
    1%nat) None false None] in
  single_valued false (map (field_multi MP w) [0%nat]) = false.
Proof. vm_compute. now repeat split. Abort.

(** tests/test_emitters_fromfields.py:181 *)
Example test_copyfields_singlevalued_8 :
  let w := after [NewStatic MP ((str "Test Val")); NewStatic MP (VInt 2); NewField MP "test" 0 (Some
    1%nat) None false None] in
  single_valued false (map (field_multi MP w) [0%nat]) = false.
Proof. vm_compute. now repeat split. Abort.

(** tests/test_emitters_fromfields.py:182 *)
Example test_copyfields_singlevalued_9 :
  let w := after [NewStatic MP ((str "one")); NewField MP "test1" 0 None None false None; NewStatic
    MP ((str "two")); NewField MP "test2" 3 None None false None] in
  single_valued false (map (field_multi MP w) [0%nat; 1%nat]) = false.
Proof. vm_compute. now repeat split. Abort.

(** tests/test_emitters_fromfields.py:184 *)
Example test_copyfields_singlevalued_10 :
  let w := after [NewStatic MP ((str "one")); NewStatic MP (VInt 0); NewField MP "test1" 0 (Some
    1%nat) None false None; NewStatic MP ((str "two")); NewStatic MP (VInt 0); NewField MP "test2" 3
    (Some 4%nat) None false None] in
  single_valued false (map (field_multi MP w) [0%nat; 1%nat]) = false.
Proof. vm_compute. now repeat split. Abort.

(** tests/test_emitters_fromfields.py:186 *)
Example test_copyfields_singlevalued_11 :
  let w := after [NewStatic MP ((str "one")); NewStatic MP (VInt 1); NewField MP "test1" 0 (Some
    1%nat) None false None; NewStatic MP ((str "two")); NewStatic MP (VInt 1); NewField MP "test2" 3
    (Some 4%nat) None false None] in
  single_valued false (map (field_multi MP w) [0%nat; 1%nat]) = false.
Proof. vm_compute. now repeat split. Abort.

(** tests/test_emitters_fromfields.py:188 *)
Example test_copyfields_singlevalued_12 :
  let w := after [NewStatic MP ((str "one")); NewStatic MP (VInt 2); NewField MP "test1" 0 (Some
    1%nat) None false None; NewStatic MP ((str "two")); NewStatic MP (VInt 2); NewField MP "test2" 3
    (Some 4%nat) None false None] in
  single_valued false (map (field_multi MP w) [0%nat; 1%nat]) = false.
Proof. vm_compute. now repeat split. Abort.

(** tests/test_emitters_fromfields.py:238 *)
Example test_copyfields_emit_1 :
  goes [NewStatic MP ((str "Test Val")); NewField MP "test" 0 None None false None; NewCopyFields MP
    true [0%nat] None; Do MP (Call MP 0)]
    [Do MP (Emit MP 3); Do MP (EmitN MP 3 2)]
  = Some [Ok (Value ((str "Test Val"))); Ok (Values [(str "Test Val"); (str "Test Val")])].
Proof. vm_compute. reflexivity. Abort.

(** tests/test_emitters_fromfields.py:239 *)
Example test_copyfields_emit_2 :
  goes [NewStatic MP ((str "Test Val")); NewField MP "test" 0 None None false None; NewCopyFields MP
    true [0%nat] (Some (chars " ")); Do MP (Call MP 0)]
    [Do MP (Emit MP 3); Do MP (EmitN MP 3 2)]
  = Some [Ok (Value ((str "Test Val"))); Ok (Values [(str "Test Val"); (str "Test Val")])].
Proof. vm_compute. reflexivity. Abort.

(** tests/test_emitters_fromfields.py:240 *)
Example test_copyfields_emit_3 :
  goes [NewStatic MP ((str "one")); NewStatic MP (VInt 3); NewField MP "test" 0 (Some 1%nat) None
    false None; NewCopyFields MP true [0%nat] None; Do MP (Call MP 0)]
    [Do MP (Emit MP 3); Do MP (EmitN MP 3 2)]
  = Some [Ok (Value (VList [(str "one"); (str "one"); (str "one")])); Ok (Values [VList [(str
    "one"); (str "one"); (str "one")]; VList [(str "one"); (str "one"); (str "one")]])].
Proof. vm_compute. reflexivity. Abort.

(** tests/test_emitters_fromfields.py:242 *)
Example test_copyfields_emit_4 :
  goes [NewStatic MP ((str "one")); NewStatic MP (VInt 3); NewField MP "test" 0 (Some 1%nat) None
    false None; NewCopyFields MP true [0%nat] (Some (chars "; ")); Do MP (Call MP 0)]
    [Do MP (Emit MP 3); Do MP (EmitN MP 3 2)]
  = Some [Ok (Value ((str "one; one; one"))); Ok (Values [(str "one; one; one"); (str
    "one; one; one")])].
Proof. vm_compute. reflexivity. Abort.

(** tests/test_emitters_fromfields.py:244 *)
Example test_copyfields_emit_5 :
  goes [NewStatic MP ((str "one")); NewStatic MP (VInt 3); NewChoice MP true ([VBool true; VBool
    false]) (Some [q 0 1; q 1 1]) true false None None; NewField MP "test" 0 (Some 1%nat) (Some
    2%nat) false None; NewCopyFields MP true [0%nat] None; Do MP (Call MP 0)]
    [Do MP (Emit MP 3); Do MP (EmitN MP 3 2)]
  = Some [Ok (Value (VNone)); Ok (Values [VNone; VNone])].
Proof. vm_compute. reflexivity. Abort.

(** tests/test_emitters_fromfields.py:246 *)
Example test_copyfields_emit_6 :
  goes [NewStatic MP ((str "one")); NewStatic MP (VInt 0); NewField MP "test" 0 (Some 1%nat) None
    false None; NewCopyFields MP true [0%nat] None; Do MP (Call MP 0)]
    [Do MP (Emit MP 3); Do MP (EmitN MP 3 2)]
  = Some [Ok (Value (VNone)); Ok (Values [VNone; VNone])].
Proof. vm_compute. reflexivity. Abort.

(** tests/test_emitters_fromfields.py:249 *)
Example test_copyfields_emit_7 :
  goes [NewStatic MP ((str "Test Val")); NewField MP "test" 0 None None false None; NewCopyFields MP
    false [0%nat] None; Do MP (Call MP 0)]
    [Do MP (Emit MP 3); Do MP (EmitN MP 3 2)]
  = Some [Ok (Value (VList [(str "Test Val")])); Ok (Values [VList [(str "Test Val")]; VList [(str
    "Test Val")]])].
Proof. vm_compute. reflexivity. Abort.

(** tests/test_emitters_fromfields.py:250 *)
Example test_copyfields_emit_8 :
  goes [NewStatic MP ((str "one")); NewField MP "test1" 0 None None false None; NewStatic MP ((str
    "two")); NewField MP "test2" 3 None None false None; NewStatic MP ((str "three")); NewField MP
    "test3" 6 None None false None; NewCopyFields MP false [0%nat; 1%nat; 2%nat] None; Do MP (Call
    MP 0); Do MP (Call MP 1); Do MP (Call MP 2)]
    [Do MP (Emit MP 9); Do MP (EmitN MP 9 2)]
  = Some [Ok (Value (VList [(str "one"); (str "two"); (str "three")])); Ok (Values [VList [(str
    "one"); (str "two"); (str "three")]; VList [(str "one"); (str "two"); (str "three")]])].
Proof. vm_compute. reflexivity. Abort.

(** tests/test_emitters_fromfields.py:253 *)
Example test_copyfields_emit_9 :
  goes [NewStatic MP ((str "one")); NewField MP "test1" 0 None None false None; NewStatic MP ((str
    "two")); NewField MP "test2" 3 None None false None; NewStatic MP ((str "three")); NewField MP
    "test3" 6 None None false None; NewCopyFields MP false [0%nat; 1%nat; 2%nat] (Some (chars " "));
    Do MP (Call MP 0); Do MP (Call MP 1); Do MP (Call MP 2)]
    [Do MP (Emit MP 9); Do MP (EmitN MP 9 2)]
  = Some [Ok (Value ((str "one two three"))); Ok (Values [(str "one two three"); (str
    "one two three")])].
Proof. vm_compute. reflexivity. Abort.

(** tests/test_emitters_fromfields.py:256 *)
Example test_copyfields_emit_10 :
  goes [NewStatic MP ((str "one")); NewStatic MP (VInt 3); NewField MP "test1" 0 (Some 1%nat) None
    false None; NewStatic MP ((str "two")); NewField MP "test2" 3 None None false None; NewStatic MP
    ((str "three")); NewStatic MP (VInt 1); NewField MP "test3" 6 (Some 7%nat) None false None;
    NewCopyFields MP false [0%nat; 1%nat; 2%nat] None; Do MP (Call MP 0); Do MP (Call MP 1); Do MP
    (Call MP 2)]
    [Do MP (Emit MP 9); Do MP (EmitN MP 9 2)]
  = Some [Ok (Value (VList [(str "one"); (str "one"); (str "one"); (str "two"); (str "three")])); Ok
    (Values [VList [(str "one"); (str "one"); (str "one"); (str "two"); (str "three")]; VList [(str
    "one"); (str "one"); (str "one"); (str "two"); (str "three")]])].
Proof. vm_compute. reflexivity. Abort.

(** tests/test_emitters_fromfields.py:260 *)
Example test_copyfields_emit_11 :
  goes [NewStatic MP ((str "one")); NewStatic MP (VInt 3); NewField MP "test1" 0 (Some 1%nat) None
    false None; NewStatic MP ((str "two")); NewField MP "test2" 3 None None false None; NewStatic MP
    ((str "three")); NewStatic MP (VInt 1); NewField MP "test3" 6 (Some 7%nat) None false None;
    NewCopyFields MP false [0%nat; 1%nat; 2%nat] (Some (chars "-")); Do MP (Call MP 0); Do MP (Call
    MP 1); Do MP (Call MP 2)]
    [Do MP (Emit MP 9); Do MP (EmitN MP 9 2)]
  = Some [Ok (Value ((str "one-one-one-two-three"))); Ok (Values [(str "one-one-one-two-three");
    (str "one-one-one-two-three")])].
Proof. vm_compute. reflexivity. Abort.

(** tests/test_emitters_fromfields.py:264 *)
Example test_copyfields_emit_12 :
  goes [NewStatic MP ((str "one")); NewStatic MP (VInt 3); NewField MP "test1" 0 (Some 1%nat) None
    false None; NewStatic MP ((str "two")); NewChoice MP true ([VBool true; VBool false]) (Some [q 0
    1; q 1 1]) true false None None; NewField MP "test2" 3 None (Some 4%nat) false None; NewStatic
    MP ((str "three")); NewField MP "test3" 6 None None false None; NewCopyFields MP false [0%nat;
    1%nat; 2%nat] None; Do MP (Call MP 0); Do MP (Call MP 1); Do MP (Call MP 2)]
    [Do MP (Emit MP 9); Do MP (EmitN MP 9 2)]
  = Some [Ok (Value (VList [(str "one"); (str "one"); (str "one"); (str "three")])); Ok (Values
    [VList [(str "one"); (str "one"); (str "one"); (str "three")]; VList [(str "one"); (str "one");
    (str "one"); (str "three")]])].
Proof. vm_compute. reflexivity. Abort.

(** tests/test_emitters_fromfields.py:268 *)
Example test_copyfields_emit_13 :
  goes [NewStatic MP ((str "one")); NewStatic MP (VInt 3); NewChoice MP true ([VBool true; VBool
    false]) (Some [q 0 1; q 1 1]) true false None None; NewField MP "test1" 0 (Some 1%nat) (Some
    2%nat) false None; NewStatic MP ((str "two")); NewChoice MP true ([VBool true; VBool false])
    (Some [q 0 1; q 1 1]) true false None None; NewField MP "test2" 3 None (Some 4%nat) false None;
    NewStatic MP ((str "three")); NewField MP "test3" 6 None None false None; NewCopyFields MP false
    [0%nat; 1%nat; 2%nat] None; Do MP (Call MP 0); Do MP (Call MP 1); Do MP (Call MP 2)]
    [Do MP (Emit MP 9); Do MP (EmitN MP 9 2)]
  = Some [Ok (Value (VList [(str "three")])); Ok (Values [VList [(str "three")]; VList [(str
    "three")]])].
Proof. vm_compute. reflexivity. Abort.

(** tests/test_emitters_fromfields.py:272 *)
Example test_copyfields_emit_14 :
  goes [NewStatic MP ((str "one")); NewStatic MP (VInt 3); NewChoice MP true ([VBool true; VBool
    false]) (Some [q 0 1; q 1 1]) true false None None; NewField MP "test1" 0 (Some 1%nat) (Some
    2%nat) false None; NewStatic MP ((str "two")); NewChoice MP true ([VBool true; VBool false])
    (Some [q 0 1; q 1 1]) true false None None; NewField MP "test2" 3 None (Some 4%nat) false None;
    NewStatic MP ((str "three")); NewStatic MP (VInt 2); NewField MP "test3" 6 (Some 7%nat) None
    false None; NewCopyFields MP false [0%nat; 1%nat; 2%nat] None; Do MP (Call MP 0); Do MP (Call MP
    1); Do MP (Call MP 2)]
    [Do MP (Emit MP 9); Do MP (EmitN MP 9 2)]
  = Some [Ok (Value (VList [(str "three"); (str "three")])); Ok (Values [VList [(str "three"); (str
    "three")]; VList [(str "three"); (str "three")]])].
Proof. vm_compute. reflexivity. Abort.

(** tests/test_emitters_fromfields.py:277 *)
Example test_copyfields_emit_15 :
  goes [NewStatic MP ((str "one")); NewStatic MP (VInt 3); NewChoice MP true ([VBool true; VBool
    false]) (Some [q 0 1; q 1 1]) true false None None; NewField MP "test1" 0 (Some 1%nat) (Some
    2%nat) false None; NewStatic MP ((str "two")); NewChoice MP true ([VBool true; VBool false])
    (Some [q 0 1; q 1 1]) true false None None; NewField MP "test2" 3 None (Some 4%nat) false None;
    NewStatic MP ((str "three")); NewStatic MP (VInt 2); NewChoice MP true ([VBool true; VBool
    false]) (Some [q 0 1; q 1 1]) true false None None; NewField MP "test3" 6 (Some 7%nat) (Some
    8%nat) false None; NewCopyFields MP false [0%nat; 1%nat; 2%nat] None; Do MP (Call MP 0); Do MP
    (Call MP 1); Do MP (Call MP 2)]
    [Do MP (Emit MP 9); Do MP (EmitN MP 9 2)]
  = Some [Ok (Value (VNone)); Ok (Values [VNone; VNone])].
Proof. vm_compute. reflexivity. Abort.

(** tests/test_emitters_fromfields.py:282 *)
Example test_copyfields_emit_16 :
  goes [NewStatic MP ((str "one")); NewStatic MP (VInt 0); NewField MP "test1" 0 (Some 1%nat) None
    false None; NewStatic MP ((str "two")); NewChoice MP true ([VBool true; VBool false]) (Some [q 0
    1; q 1 1]) true false None None; NewField MP "test2" 3 None (Some 4%nat) false None; NewStatic
    MP ((str "three")); NewStatic MP (VInt 2); NewChoice MP true ([VBool true; VBool false]) (Some
    [q 0 1; q 1 1]) true false None None; NewField MP "test3" 6 (Some 7%nat) (Some 8%nat) false
    None; NewCopyFields MP false [0%nat; 1%nat; 2%nat] None; Do MP (Call MP 0); Do MP (Call MP 1);
    Do MP (Call MP 2)]
    [Do MP (Emit MP 9); Do MP (EmitN MP 9 2)]
  = Some [Ok (Value (VNone)); Ok (Values [VNone; VNone])].
Proof. vm_compute. reflexivity. Abort.

(** tests/test_emitters_fromfields.py:200 *)
Example test_copyfields_source_settable_1 :
  goes [NewStatic MP ((str "one")); NewField MP "test" 0 None None false None; NewCopyFields MP true
    [0%nat] None; NewStatic MP ((str "one")); NewField MP "test1" 4 None None false None; NewStatic
    MP ((str "two")); NewField MP "test2" 7 None None false None]
    [SetSource MP 3 false [1%nat; 2%nat]; Do MP (Call MP 1); Do MP (Call MP 2); Do MP (Emit MP 3)]
  = Some [Ok Done; Ok (Value ((str "one"))); Ok (Value ((str "two"))); Ok (Value (VList [(str
    "one"); (str "two")]))].
Proof. vm_compute. reflexivity. Abort.

(** tests/test_emitters_fromfields.py:298 *)
Example test_basedonfields_emit_1 :
  goes [NewStatic MP (VInt 0); NewField MP "test1" 0 None None false None; NewBasedOnFields MP true
    [0%nat] (fn None (with_str (fun x => VStr x)) (fun _ _ => ret VNone)) None; SeedSource MP 3
    None; Do MP (Call MP 0)]
    [Do MP (Emit MP 3)]
  = Some [Ok (Value ((str "0")))].
Proof. vm_compute. reflexivity. Abort.

(** tests/test_emitters_fromfields.py:298 *)
Example test_basedonfields_emit_2 :
  goes [NewStatic MP (VInt 0); NewField MP "test1" 0 None None false None; NewBasedOnFields MP true
    [0%nat] (fn None (with_str (fun x => VStr x)) (fun _ _ => ret VNone)) None; SeedSource MP 3
    None; Do MP (Call MP 0); Do MP (Emit MP 3); ResetSource MP 3; Do MP (ResetEm MP 3); Do MP (Call
    MP 0)]
    [Do MP (EmitN MP 3 2)]
  = Some [Ok (Values [(str "0"); (str "0")])].
Proof. vm_compute. reflexivity. Abort.

(** tests/test_emitters_fromfields.py:299 *)
Example test_basedonfields_emit_3 :
  goes [NewStatic MP (VInt 0); NewStatic MP (VInt 1); NewField MP "test1" 0 (Some 1%nat) None false
    None; NewBasedOnFields MP true [0%nat] (fn (Some [mkParam "values" PosOrKw false]) (fun args _
    => match args with [VList l] => l <- strs l ;; Ok (VList l) | _ => Ok VNone end) (fun _ _ => ret
    VNone)) None; SeedSource MP 3 None; Do MP (Call MP 0)]
    [Do MP (Emit MP 3)]
  = Some [Ok (Value (VList [(str "0")]))].
Proof. vm_compute. reflexivity. Abort.

(** tests/test_emitters_fromfields.py:299 *)
Example test_basedonfields_emit_4 :
  goes [NewStatic MP (VInt 0); NewStatic MP (VInt 1); NewField MP "test1" 0 (Some 1%nat) None false
    None; NewBasedOnFields MP true [0%nat] (fn (Some [mkParam "values" PosOrKw false]) (fun args _
    => match args with [VList l] => l <- strs l ;; Ok (VList l) | _ => Ok VNone end) (fun _ _ => ret
    VNone)) None; SeedSource MP 3 None; Do MP (Call MP 0); Do MP (Emit MP 3); ResetSource MP 3; Do
    MP (ResetEm MP 3); Do MP (Call MP 0)]
    [Do MP (EmitN MP 3 2)]
  = Some [Ok (Values [VList [(str "0")]; VList [(str "0")]])].
Proof. vm_compute. reflexivity. Abort.

(** tests/test_emitters_fromfields.py:301 *)
Example test_basedonfields_emit_5 :
  goes [NewStatic MP (VInt 0); NewStatic MP (VInt 1); NewField MP "test1" 0 (Some 1%nat) None false
    None; NewBasedOnFields MP true [0%nat] (fn (Some [mkParam "values" PosOrKw false]) (fun args _
    => match args with [VList l] => l <- strs l ;; spaced l | _ => Ok VNone end) (fun _ _ => ret
    VNone)) None; SeedSource MP 3 None; Do MP (Call MP 0)]
    [Do MP (Emit MP 3)]
  = Some [Ok (Value ((str "0")))].
Proof. vm_compute. reflexivity. Abort.

(** tests/test_emitters_fromfields.py:301 *)
Example test_basedonfields_emit_6 :
  goes [NewStatic MP (VInt 0); NewStatic MP (VInt 1); NewField MP "test1" 0 (Some 1%nat) None false
    None; NewBasedOnFields MP true [0%nat] (fn (Some [mkParam "values" PosOrKw false]) (fun args _
    => match args with [VList l] => l <- strs l ;; spaced l | _ => Ok VNone end) (fun _ _ => ret
    VNone)) None; SeedSource MP 3 None; Do MP (Call MP 0); Do MP (Emit MP 3); ResetSource MP 3; Do
    MP (ResetEm MP 3); Do MP (Call MP 0)]
    [Do MP (EmitN MP 3 2)]
  = Some [Ok (Values [(str "0"); (str "0")])].
Proof. vm_compute. reflexivity. Abort.

(** tests/test_emitters_fromfields.py:303 *)
Example test_basedonfields_emit_7 :
  goes [NewStatic MP (VInt 0); NewStatic MP (VInt 3); NewField MP "test1" 0 (Some 1%nat) None false
    None; NewBasedOnFields MP true [0%nat] (fn (Some [mkParam "values" PosOrKw false]) (fun args _
    => match args with [VList l] => l <- strs l ;; Ok (VList l) | _ => Ok VNone end) (fun _ _ => ret
    VNone)) None; SeedSource MP 3 None; Do MP (Call MP 0)]
    [Do MP (Emit MP 3)]
  = Some [Ok (Value (VList [(str "0"); (str "0"); (str "0")]))].
Proof. vm_compute. reflexivity. Abort.

(** tests/test_emitters_fromfields.py:303 *)
Example test_basedonfields_emit_8 :
  goes [NewStatic MP (VInt 0); NewStatic MP (VInt 3); NewField MP "test1" 0 (Some 1%nat) None false
    None; NewBasedOnFields MP true [0%nat] (fn (Some [mkParam "values" PosOrKw false]) (fun args _
    => match args with [VList l] => l <- strs l ;; Ok (VList l) | _ => Ok VNone end) (fun _ _ => ret
    VNone)) None; SeedSource MP 3 None; Do MP (Call MP 0); Do MP (Emit MP 3); ResetSource MP 3; Do
    MP (ResetEm MP 3); Do MP (Call MP 0)]
    [Do MP (EmitN MP 3 2)]
  = Some [Ok (Values [VList [(str "0"); (str "0"); (str "0")]; VList [(str "0"); (str "0"); (str
    "0")]])].
Proof. vm_compute. reflexivity. Abort.

(** tests/test_emitters_fromfields.py:305 *)
Example test_basedonfields_emit_9 :
  goes [NewStatic MP (VInt 0); NewStatic MP (VInt 3); NewField MP "test1" 0 (Some 1%nat) None false
    None; NewBasedOnFields MP true [0%nat] (fn (Some [mkParam "values" PosOrKw false]) (fun args _
    => match args with [VList l] => l <- strs l ;; spaced l | _ => Ok VNone end) (fun _ _ => ret
    VNone)) None; SeedSource MP 3 None; Do MP (Call MP 0)]
    [Do MP (Emit MP 3)]
  = Some [Ok (Value ((str "0 0 0")))].
Proof. vm_compute. reflexivity. Abort.

(** tests/test_emitters_fromfields.py:305 *)
Example test_basedonfields_emit_10 :
  goes [NewStatic MP (VInt 0); NewStatic MP (VInt 3); NewField MP "test1" 0 (Some 1%nat) None false
    None; NewBasedOnFields MP true [0%nat] (fn (Some [mkParam "values" PosOrKw false]) (fun args _
    => match args with [VList l] => l <- strs l ;; spaced l | _ => Ok VNone end) (fun _ _ => ret
    VNone)) None; SeedSource MP 3 None; Do MP (Call MP 0); Do MP (Emit MP 3); ResetSource MP 3; Do
    MP (ResetEm MP 3); Do MP (Call MP 0)]
    [Do MP (EmitN MP 3 2)]
  = Some [Ok (Values [(str "0 0 0"); (str "0 0 0")])].
Proof. vm_compute. reflexivity. Abort.

(** tests/test_emitters_fromfields.py:307 *)
Example test_basedonfields_emit_11 :
  goes [NewStatic MP (VInt 0); NewStatic MP (VInt 3); NewChoice MP true ([VBool true; VBool false])
    (Some [q 0 1; q 1 1]) true false None None; NewField MP "test1" 0 (Some 1%nat) (Some 2%nat)
    false None; NewBasedOnFields MP true [0%nat] (fn (Some [mkParam "values" PosOrKw false]) (fun
    args _ => match args with [VList l] => l <- strs l ;; spaced l | _ => Ok VNone end) (fun _ _ =>
    ret VNone)) None; SeedSource MP 3 None; Do MP (Call MP 0)]
    [Do MP (Emit MP 3)]
  = Some [Ok (Value (VNone))].
Proof. vm_compute. reflexivity. Abort.

(** tests/test_emitters_fromfields.py:307 *)
Example test_basedonfields_emit_12 :
  goes [NewStatic MP (VInt 0); NewStatic MP (VInt 3); NewChoice MP true ([VBool true; VBool false])
    (Some [q 0 1; q 1 1]) true false None None; NewField MP "test1" 0 (Some 1%nat) (Some 2%nat)
    false None; NewBasedOnFields MP true [0%nat] (fn (Some [mkParam "values" PosOrKw false]) (fun
    args _ => match args with [VList l] => l <- strs l ;; spaced l | _ => Ok VNone end) (fun _ _ =>
    ret VNone)) None; SeedSource MP 3 None; Do MP (Call MP 0); Do MP (Emit MP 3); ResetSource MP 3;
    Do MP (ResetEm MP 3); Do MP (Call MP 0)]
    [Do MP (EmitN MP 3 2)]
  = Some [Ok (Values [VNone; VNone])].
Proof. vm_compute. reflexivity. Abort.

(** tests/test_emitters_fromfields.py:309 *)
Example test_basedonfields_emit_13 :
  goes [NewChoice MP false (map VInt (zrange 1 6)) None true false None None; NewField MP "test1" 0
    None None false None; NewBasedOnFields MP true [0%nat] (fn (Some [mkParam "value" PosOrKw false;
    mkParam "rng" PosOrKw false]) (fun _ _ => Ok VNone) (fun args _ => b <~ coin ;; match args with
    [v] => if b then lift (text [v]) else ret v | _ => raise TypeError end)) (seed 999); SeedSource
    MP 3 (seed 999); Do MP (Call MP 0)]
    [Do MP (Emit MP 3)]
  = Some [Ok (Value (VInt 1))].
Proof. vm_compute. reflexivity. Abort.

(** tests/test_emitters_fromfields.py:309 *)
Example test_basedonfields_emit_14 :
  goes [NewChoice MP false (map VInt (zrange 1 6)) None true false None None; NewField MP "test1" 0
    None None false None; NewBasedOnFields MP true [0%nat] (fn (Some [mkParam "value" PosOrKw false;
    mkParam "rng" PosOrKw false]) (fun _ _ => Ok VNone) (fun args _ => b <~ coin ;; match args with
    [v] => if b then lift (text [v]) else ret v | _ => raise TypeError end)) (seed 999); SeedSource
    MP 3 (seed 999); Do MP (Call MP 0); Do MP (Emit MP 3); ResetSource MP 3; Do MP (ResetEm MP 3);
    Do MP (Call MP 0)]
    [Do MP (EmitN MP 3 2)]
  = Some [Ok (Values [VInt 1; VInt 1])].
Proof. vm_compute. reflexivity. Abort.

(** tests/test_emitters_fromfields.py:312 *)
Example test_basedonfields_emit_15 :
  goes [NewStatic MP (VInt 1); NewField MP "test1" 0 None None false None; NewStatic MP (VInt 2);
    NewField MP "test2" 3 None None false None; NewStatic MP (VInt 3); NewField MP "test3" 6 None
    None false None; NewBasedOnFields MP false [0%nat; 1%nat; 2%nat] (fn (Some [mkParam "kwargs"
    VarKw false]) (fun _ kw => l <- strs (present kw) ;; Ok (match l with [] => VNone | _ => VList l
    end)) (fun _ _ => ret VNone)) None; SeedSource MP 9 None; Do MP (Call MP 0); Do MP (Call MP 1);
    Do MP (Call MP 2)]
    [Do MP (Emit MP 9)]
  = Some [Ok (Value (VList [(str "1"); (str "2"); (str "3")]))].
Proof. vm_compute. reflexivity. Abort.

(** tests/test_emitters_fromfields.py:312 *)
Example test_basedonfields_emit_16 :
  goes [NewStatic MP (VInt 1); NewField MP "test1" 0 None None false None; NewStatic MP (VInt 2);
    NewField MP "test2" 3 None None false None; NewStatic MP (VInt 3); NewField MP "test3" 6 None
    None false None; NewBasedOnFields MP false [0%nat; 1%nat; 2%nat] (fn (Some [mkParam "kwargs"
    VarKw false]) (fun _ kw => l <- strs (present kw) ;; Ok (match l with [] => VNone | _ => VList l
    end)) (fun _ _ => ret VNone)) None; SeedSource MP 9 None; Do MP (Call MP 0); Do MP (Call MP 1);
    Do MP (Call MP 2); Do MP (Emit MP 9); ResetSource MP 9; Do MP (ResetEm MP 9); Do MP (Call MP 0);
    Do MP (Call MP 1); Do MP (Call MP 2)]
    [Do MP (EmitN MP 9 2)]
  = Some [Ok (Values [VList [(str "1"); (str "2"); (str "3")]; VList [(str "1"); (str "2"); (str
    "3")]])].
Proof. vm_compute. reflexivity. Abort.

(** tests/test_emitters_fromfields.py:316 *)
Example test_basedonfields_emit_17 :
  goes [NewStatic MP (VInt 1); NewField MP "test1" 0 None None false None; NewStatic MP (VInt 2);
    NewField MP "test2" 3 None None false None; NewStatic MP (VInt 3); NewField MP "test3" 6 None
    None false None; NewBasedOnFields MP false [0%nat; 1%nat; 2%nat] (fn (Some [mkParam "kwargs"
    VarKw false]) (fun _ kw => l <- strs (present kw) ;; match l with [] => Ok VNone | _ => spaced l
    end) (fun _ _ => ret VNone)) None; SeedSource MP 9 None; Do MP (Call MP 0); Do MP (Call MP 1);
    Do MP (Call MP 2)]
    [Do MP (Emit MP 9)]
  = Some [Ok (Value ((str "1 2 3")))].
Proof. vm_compute. reflexivity. Abort.

(** tests/test_emitters_fromfields.py:316 *)
Example test_basedonfields_emit_18 :
  goes [NewStatic MP (VInt 1); NewField MP "test1" 0 None None false None; NewStatic MP (VInt 2);
    NewField MP "test2" 3 None None false None; NewStatic MP (VInt 3); NewField MP "test3" 6 None
    None false None; NewBasedOnFields MP false [0%nat; 1%nat; 2%nat] (fn (Some [mkParam "kwargs"
    VarKw false]) (fun _ kw => l <- strs (present kw) ;; match l with [] => Ok VNone | _ => spaced l
    end) (fun _ _ => ret VNone)) None; SeedSource MP 9 None; Do MP (Call MP 0); Do MP (Call MP 1);
    Do MP (Call MP 2); Do MP (Emit MP 9); ResetSource MP 9; Do MP (ResetEm MP 9); Do MP (Call MP 0);
    Do MP (Call MP 1); Do MP (Call MP 2)]
    [Do MP (EmitN MP 9 2)]
  = Some [Ok (Values [(str "1 2 3"); (str "1 2 3")])].
Proof. vm_compute. reflexivity. Abort.

(** tests/test_emitters_fromfields.py:320 *)
Example test_basedonfields_emit_19 :
  goes [NewStatic MP (VInt 1); NewStatic MP (VInt 1); NewField MP "test1" 0 (Some 1%nat) None false
    None; NewStatic MP (VInt 2); NewStatic MP (VInt 2); NewField MP "test2" 3 (Some 4%nat) None
    false None; NewStatic MP (VInt 3); NewStatic MP (VInt 2); NewField MP "test3" 6 (Some 7%nat)
    None false None; NewBasedOnFields MP false [0%nat; 1%nat; 2%nat] (fn (Some [mkParam "kwargs"
    VarKw false]) (fun _ kw => l <- strs (flat_map flat_values (present kw)) ;; Ok (match l with []
    => VNone | _ => VList l end)) (fun _ _ => ret VNone)) None; SeedSource MP 9 None; Do MP (Call MP
    0); Do MP (Call MP 1); Do MP (Call MP 2)]
    [Do MP (Emit MP 9)]
  = Some [Ok (Value (VList [(str "1"); (str "2"); (str "2"); (str "3"); (str "3")]))].
Proof. vm_compute. reflexivity. Abort.

(** tests/test_emitters_fromfields.py:320 *)
Example test_basedonfields_emit_20 :
  goes [NewStatic MP (VInt 1); NewStatic MP (VInt 1); NewField MP "test1" 0 (Some 1%nat) None false
    None; NewStatic MP (VInt 2); NewStatic MP (VInt 2); NewField MP "test2" 3 (Some 4%nat) None
    false None; NewStatic MP (VInt 3); NewStatic MP (VInt 2); NewField MP "test3" 6 (Some 7%nat)
    None false None; NewBasedOnFields MP false [0%nat; 1%nat; 2%nat] (fn (Some [mkParam "kwargs"
    VarKw false]) (fun _ kw => l <- strs (flat_map flat_values (present kw)) ;; Ok (match l with []
    => VNone | _ => VList l end)) (fun _ _ => ret VNone)) None; SeedSource MP 9 None; Do MP (Call MP
    0); Do MP (Call MP 1); Do MP (Call MP 2); Do MP (Emit MP 9); ResetSource MP 9; Do MP (ResetEm MP
    9); Do MP (Call MP 0); Do MP (Call MP 1); Do MP (Call MP 2)]
    [Do MP (EmitN MP 9 2)]
  = Some [Ok (Values [VList [(str "1"); (str "2"); (str "2"); (str "3"); (str "3")]; VList [(str
    "1"); (str "2"); (str "2"); (str "3"); (str "3")]])].
Proof. vm_compute. reflexivity. Abort.

(** tests/test_emitters_fromfields.py:324 *)
Example test_basedonfields_emit_21 :
  goes [NewStatic MP (VInt 1); NewStatic MP (VInt 1); NewField MP "test1" 0 (Some 1%nat) None false
    None; NewStatic MP (VInt 2); NewStatic MP (VInt 2); NewField MP "test2" 3 (Some 4%nat) None
    false None; NewStatic MP (VInt 3); NewStatic MP (VInt 2); NewField MP "test3" 6 (Some 7%nat)
    None false None; NewBasedOnFields MP false [0%nat; 1%nat; 2%nat] (fn (Some [mkParam "kwargs"
    VarKw false]) (fun _ kw => l <- strs (flat_map flat_values (present kw)) ;; match l with [] =>
    Ok VNone | _ => spaced l end) (fun _ _ => ret VNone)) None; SeedSource MP 9 None; Do MP (Call MP
    0); Do MP (Call MP 1); Do MP (Call MP 2)]
    [Do MP (Emit MP 9)]
  = Some [Ok (Value ((str "1 2 2 3 3")))].
Proof. vm_compute. reflexivity. Abort.

(** tests/test_emitters_fromfields.py:324 *)
Example test_basedonfields_emit_22 :
  goes [NewStatic MP (VInt 1); NewStatic MP (VInt 1); NewField MP "test1" 0 (Some 1%nat) None false
    None; NewStatic MP (VInt 2); NewStatic MP (VInt 2); NewField MP "test2" 3 (Some 4%nat) None
    false None; NewStatic MP (VInt 3); NewStatic MP (VInt 2); NewField MP "test3" 6 (Some 7%nat)
    None false None; NewBasedOnFields MP false [0%nat; 1%nat; 2%nat] (fn (Some [mkParam "kwargs"
    VarKw false]) (fun _ kw => l <- strs (flat_map flat_values (present kw)) ;; match l with [] =>
    Ok VNone | _ => spaced l end) (fun _ _ => ret VNone)) None; SeedSource MP 9 None; Do MP (Call MP
    0); Do MP (Call MP 1); Do MP (Call MP 2); Do MP (Emit MP 9); ResetSource MP 9; Do MP (ResetEm MP
    9); Do MP (Call MP 0); Do MP (Call MP 1); Do MP (Call MP 2)]
    [Do MP (EmitN MP 9 2)]
  = Some [Ok (Values [(str "1 2 2 3 3"); (str "1 2 2 3 3")])].
Proof. vm_compute. reflexivity. Abort.

(** tests/test_emitters_fromfields.py:328 *)
Example test_basedonfields_emit_23 :
  goes [NewStatic MP (VInt 1); NewStatic MP (VInt 1); NewChoice MP true ([VBool true; VBool false])
    (Some [q 0 1; q 1 1]) true false None None; NewField MP "test1" 0 (Some 1%nat) (Some 2%nat)
    false None; NewStatic MP (VInt 2); NewStatic MP (VInt 2); NewChoice MP true ([VBool true; VBool
    false]) (Some [q 0 1; q 1 1]) true false None None; NewField MP "test2" 3 (Some 4%nat) (Some
    5%nat) false None; NewStatic MP (VInt 3); NewStatic MP (VInt 2); NewField MP "test3" 6 (Some
    7%nat) None false None; NewBasedOnFields MP false [0%nat; 1%nat; 2%nat] (fn (Some [mkParam
    "kwargs" VarKw false]) (fun _ kw => l <- strs (flat_map flat_values (present kw)) ;; Ok (match l
    with [] => VNone | _ => VList l end)) (fun _ _ => ret VNone)) None; SeedSource MP 9 None; Do MP
    (Call MP 0); Do MP (Call MP 1); Do MP (Call MP 2)]
    [Do MP (Emit MP 9)]
  = Some [Ok (Value (VList [(str "3"); (str "3")]))].
Proof. vm_compute. reflexivity. Abort.

(** tests/test_emitters_fromfields.py:328 *)
Example test_basedonfields_emit_24 :
  goes [NewStatic MP (VInt 1); NewStatic MP (VInt 1); NewChoice MP true ([VBool true; VBool false])
    (Some [q 0 1; q 1 1]) true false None None; NewField MP "test1" 0 (Some 1%nat) (Some 2%nat)
    false None; NewStatic MP (VInt 2); NewStatic MP (VInt 2); NewChoice MP true ([VBool true; VBool
    false]) (Some [q 0 1; q 1 1]) true false None None; NewField MP "test2" 3 (Some 4%nat) (Some
    5%nat) false None; NewStatic MP (VInt 3); NewStatic MP (VInt 2); NewField MP "test3" 6 (Some
    7%nat) None false None; NewBasedOnFields MP false [0%nat; 1%nat; 2%nat] (fn (Some [mkParam
    "kwargs" VarKw false]) (fun _ kw => l <- strs (flat_map flat_values (present kw)) ;; Ok (match l
    with [] => VNone | _ => VList l end)) (fun _ _ => ret VNone)) None; SeedSource MP 9 None; Do MP
    (Call MP 0); Do MP (Call MP 1); Do MP (Call MP 2); Do MP (Emit MP 9); ResetSource MP 9; Do MP
    (ResetEm MP 9); Do MP (Call MP 0); Do MP (Call MP 1); Do MP (Call MP 2)]
    [Do MP (EmitN MP 9 2)]
  = Some [Ok (Values [VList [(str "3"); (str "3")]; VList [(str "3"); (str "3")]])].
Proof. vm_compute. reflexivity. Abort.

(** tests/test_emitters_fromfields.py:332 *)
Example test_basedonfields_emit_25 :
  goes [NewStatic MP (VInt 1); NewStatic MP (VInt 1); NewChoice MP true ([VBool true; VBool false])
    (Some [q 0 1; q 1 1]) true false None None; NewField MP "test1" 0 (Some 1%nat) (Some 2%nat)
    false None; NewStatic MP (VInt 2); NewStatic MP (VInt 2); NewChoice MP true ([VBool true; VBool
    false]) (Some [q 0 1; q 1 1]) true false None None; NewField MP "test2" 3 (Some 4%nat) (Some
    5%nat) false None; NewStatic MP (VInt 3); NewStatic MP (VInt 2); NewChoice MP true ([VBool true;
    VBool false]) (Some [q 0 1; q 1 1]) true false None None; NewField MP "test3" 6 (Some 7%nat)
    (Some 8%nat) false None; NewBasedOnFields MP false [0%nat; 1%nat; 2%nat] (fn (Some [mkParam
    "kwargs" VarKw false]) (fun _ kw => l <- strs (flat_map flat_values (present kw)) ;; Ok (match l
    with [] => VNone | _ => VList l end)) (fun _ _ => ret VNone)) None; SeedSource MP 9 None; Do MP
    (Call MP 0); Do MP (Call MP 1); Do MP (Call MP 2)]
    [Do MP (Emit MP 9)]
  = Some [Ok (Value (VNone))].
Proof. vm_compute. reflexivity. Abort.

(** tests/test_emitters_fromfields.py:332 *)
Example test_basedonfields_emit_26 :
  goes [NewStatic MP (VInt 1); NewStatic MP (VInt 1); NewChoice MP true ([VBool true; VBool false])
    (Some [q 0 1; q 1 1]) true false None None; NewField MP "test1" 0 (Some 1%nat) (Some 2%nat)
    false None; NewStatic MP (VInt 2); NewStatic MP (VInt 2); NewChoice MP true ([VBool true; VBool
    false]) (Some [q 0 1; q 1 1]) true false None None; NewField MP "test2" 3 (Some 4%nat) (Some
    5%nat) false None; NewStatic MP (VInt 3); NewStatic MP (VInt 2); NewChoice MP true ([VBool true;
    VBool false]) (Some [q 0 1; q 1 1]) true false None None; NewField MP "test3" 6 (Some 7%nat)
    (Some 8%nat) false None; NewBasedOnFields MP false [0%nat; 1%nat; 2%nat] (fn (Some [mkParam
    "kwargs" VarKw false]) (fun _ kw => l <- strs (flat_map flat_values (present kw)) ;; Ok (match l
    with [] => VNone | _ => VList l end)) (fun _ _ => ret VNone)) None; SeedSource MP 9 None; Do MP
    (Call MP 0); Do MP (Call MP 1); Do MP (Call MP 2); Do MP (Emit MP 9); ResetSource MP 9; Do MP
    (ResetEm MP 9); Do MP (Call MP 0); Do MP (Call MP 1); Do MP (Call MP 2)]
    [Do MP (EmitN MP 9 2)]
  = Some [Ok (Values [VNone; VNone])].
Proof. vm_compute. reflexivity. Abort.

(** tests/test_emitters_fromfields.py:336 *)
Example test_basedonfields_emit_27 :
  goes [NewChoice MP false (map VInt (zrange 1 6)) None true false None None; NewChoice MP false
    (map VInt (zrange 1 4)) None true false None None; NewField MP "test1" 0 (Some 1%nat) None false
    None; NewStatic MP ((str "-")); NewChoice MP false (map VInt (zrange 1 4)) None true false None
    None; NewField MP "test2" 3 (Some 4%nat) None false None; NewChoice MP false (letters "ABCDEFG")
    None true false None None; NewStatic MP (VInt 2); NewField MP "test3" 6 (Some 7%nat) None false
    None; NewBasedOnFields MP false [0%nat; 1%nat; 2%nat] (fn (Some [mkParam "rng" PosOrKw false;
    mkParam "kwargs" VarKw false]) (fun _ _ => Ok VNone) (fun _ kw => l <~ mapS (fun x => b <~ coin
    ;; lift (text (if b then [x; str "!"] else [x]))) (flat_map flat_values (present kw)) ;; lift
    (spaced l))) (seed 999); SeedSource MP 9 (seed 999); Do MP (Call MP 0); Do MP (Call MP 1); Do MP
    (Call MP 2)]
    [Do MP (Emit MP 9)]
  = Some [Ok (Value ((str "4 1! 5 - -! -! F A!")))].
Proof. vm_compute. reflexivity. Abort.

(** tests/test_emitters_fromfields.py:336 *)
Example test_basedonfields_emit_28 :
  goes [NewChoice MP false (map VInt (zrange 1 6)) None true false None None; NewChoice MP false
    (map VInt (zrange 1 4)) None true false None None; NewField MP "test1" 0 (Some 1%nat) None false
    None; NewStatic MP ((str "-")); NewChoice MP false (map VInt (zrange 1 4)) None true false None
    None; NewField MP "test2" 3 (Some 4%nat) None false None; NewChoice MP false (letters "ABCDEFG")
    None true false None None; NewStatic MP (VInt 2); NewField MP "test3" 6 (Some 7%nat) None false
    None; NewBasedOnFields MP false [0%nat; 1%nat; 2%nat] (fn (Some [mkParam "rng" PosOrKw false;
    mkParam "kwargs" VarKw false]) (fun _ _ => Ok VNone) (fun _ kw => l <~ mapS (fun x => b <~ coin
    ;; lift (text (if b then [x; str "!"] else [x]))) (flat_map flat_values (present kw)) ;; lift
    (spaced l))) (seed 999); SeedSource MP 9 (seed 999); Do MP (Call MP 0); Do MP (Call MP 1); Do MP
    (Call MP 2); Do MP (Emit MP 9); ResetSource MP 9; Do MP (ResetEm MP 9); Do MP (Call MP 0); Do MP
    (Call MP 1); Do MP (Call MP 2)]
    [Do MP (EmitN MP 9 2)]
  = Some [Ok (Values [(str "4 1! 5 - -! -! F A!"); (str "4 1! 5 - -! -! F A!")])].
Proof. vm_compute. reflexivity. Abort.

(** tests/test_emitters_fromfields.py:340 *)
Example test_basedonfields_emit_29 :
  goes [NewStatic MP ((str "1")); NewStatic MP (VInt 2); NewField MP "t1" 0 (Some 1%nat) None false
    None; NewStatic MP ((str "2")); NewField MP "t2" 3 None None false None; NewStatic MP ((str
    "3")); NewField MP "t3" 6 None None false None; NewBasedOnFields MP false [0%nat; 1%nat; 2%nat]
    (fn (Some [mkParam "t1" PosOrKw false; mkParam "t2" PosOrKw false; mkParam "t3" PosOrKw false])
    (fun _ kw => match kw with [("t1", VList l); ("t2", x); ("t3", y)] => a <- spaced l ;; text [a;
    str ":"; x; str ":"; y] | _ => Raise TypeError end) (fun _ _ => ret VNone)) None; SeedSource MP
    9 None; Do MP (Call MP 0); Do MP (Call MP 1); Do MP (Call MP 2)]
    [Do MP (Emit MP 9)]
  = Some [Ok (Value ((str "1 1:2:3")))].
Proof. vm_compute. reflexivity. Abort.

(** tests/test_emitters_fromfields.py:340 *)
Example test_basedonfields_emit_30 :
  goes [NewStatic MP ((str "1")); NewStatic MP (VInt 2); NewField MP "t1" 0 (Some 1%nat) None false
    None; NewStatic MP ((str "2")); NewField MP "t2" 3 None None false None; NewStatic MP ((str
    "3")); NewField MP "t3" 6 None None false None; NewBasedOnFields MP false [0%nat; 1%nat; 2%nat]
    (fn (Some [mkParam "t1" PosOrKw false; mkParam "t2" PosOrKw false; mkParam "t3" PosOrKw false])
    (fun _ kw => match kw with [("t1", VList l); ("t2", x); ("t3", y)] => a <- spaced l ;; text [a;
    str ":"; x; str ":"; y] | _ => Raise TypeError end) (fun _ _ => ret VNone)) None; SeedSource MP
    9 None; Do MP (Call MP 0); Do MP (Call MP 1); Do MP (Call MP 2); Do MP (Emit MP 9); ResetSource
    MP 9; Do MP (ResetEm MP 9); Do MP (Call MP 0); Do MP (Call MP 1); Do MP (Call MP 2)]
    [Do MP (EmitN MP 9 2)]
  = Some [Ok (Values [(str "1 1:2:3"); (str "1 1:2:3")])].
Proof. vm_compute. reflexivity. Abort.

(** tests/test_emitters_fromfields.py:363 *)
Example test_basedonfields_bad_1 :
  goes [NewStatic MP ((str "test")); NewField MP "test1" 0 None None false None]
    [NewBasedOnFields MP false [0%nat] (fn (Some []) (fun _ _ => Ok VNone) (fun _ _ => ret VNone))
      None]
  = Some [Raise TypeError].
Proof. vm_compute. reflexivity. Abort.

(** tests/test_emitters_fromfields.py:365 *)
Example test_basedonfields_bad_2 :
  goes [NewStatic MP ((str "test")); NewField MP "test1" 0 None None false None]
    [NewBasedOnFields MP false [0%nat] (fn (Some [mkParam "rng" PosOrKw false]) (fun _ _ => Ok
      VNone) (fun _ _ => ret VNone)) None]
  = Some [Raise TypeError].
Proof. vm_compute. reflexivity. Abort.

(** tests/test_emitters_fromfields.py:367 *)
Example test_basedonfields_bad_3 :
  goes [NewStatic MP ((str "test")); NewField MP "test1" 0 None None false None]
    [NewBasedOnFields MP false [0%nat] (fn (Some [mkParam "rng" PosOrKw false; mkParam "test1"
      PosOrKw false]) (fun _ _ => Ok VNone) (fun _ _ => ret VNone)) None]
  = Some [Raise TypeError].
Proof. vm_compute. reflexivity. Abort.

(** tests/test_emitters_fromfields.py:369 *)
Example test_basedonfields_bad_4 :
  goes [NewStatic MP ((str "test")); NewField MP "test1" 0 None None false None]
    [NewBasedOnFields MP false [0%nat] (fn (Some [mkParam "v1" PosOrKw false; mkParam "v2" PosOrKw
      false]) (fun _ _ => Ok VNone) (fun _ _ => ret VNone)) None]
  = Some [Raise TypeError].
Proof. vm_compute. reflexivity. Abort.

(** tests/test_emitters_fromfields.py:371 *)
Example test_basedonfields_bad_5 :
  goes [NewStatic MP ((str "test")); NewField MP "test1" 0 None None false None; NewStatic MP ((str
    "test")); NewField MP "test2" 3 None None false None]
    [NewBasedOnFields MP false [0%nat; 1%nat] (fn (Some []) (fun _ _ => Ok VNone) (fun _ _ => ret
      VNone)) None]
  = Some [Raise TypeError].
Proof. vm_compute. reflexivity. Abort.

(** tests/test_emitters_fromfields.py:374 *)
Example test_basedonfields_bad_6 :
  goes [NewStatic MP ((str "test")); NewField MP "test1" 0 None None false None; NewStatic MP ((str
    "test")); NewField MP "test2" 3 None None false None]
    [NewBasedOnFields MP false [0%nat; 1%nat] (fn (Some [mkParam "rng" PosOrKw false]) (fun _ _ =>
      Ok VNone) (fun _ _ => ret VNone)) None]
  = Some [Raise TypeError].
Proof. vm_compute. reflexivity. Abort.

(** tests/test_emitters_fromfields.py:377 *)
Example test_basedonfields_bad_7 :
  goes [NewStatic MP ((str "test")); NewField MP "test1" 0 None None false None; NewStatic MP ((str
    "test")); NewField MP "test2" 3 None None false None]
    [NewBasedOnFields MP false [0%nat; 1%nat] (fn (Some [mkParam "v1" PosOrKw false; mkParam "v2"
      PosOrKw false]) (fun _ _ => Ok VNone) (fun _ _ => ret VNone)) None]
  = Some [Raise TypeError].
Proof. vm_compute. reflexivity. Abort.

(** tests/test_emitters_fromfields.py:380 *)
Example test_basedonfields_bad_8 :
  goes [NewStatic MP ((str "test")); NewField MP "test1" 0 None None false None; NewStatic MP ((str
    "test")); NewField MP "test2" 3 None None false None]
    [NewBasedOnFields MP false [0%nat; 1%nat] (fn (Some [mkParam "test1" PosOrKw false; mkParam
      "rng" PosOrKw false]) (fun _ _ => Ok VNone) (fun _ _ => ret VNone)) None]
  = Some [Raise TypeError].
Proof. vm_compute. reflexivity. Abort.

(** tests/test_emitters_fromfields.py:384 *)
Example test_basedonfields_bad_9 :
  goes [NewStatic MP ((str "test")); NewField MP "test1" 0 None None false None; NewStatic MP ((str
    "test")); NewField MP "test2" 3 None None false None]
    [NewBasedOnFields MP false [0%nat; 1%nat] (fn (Some [mkParam "test1" PosOrKw false; mkParam
      "test2" PosOrKw false; mkParam "test3" PosOrKw false]) (fun _ _ => Ok VNone) (fun _ _ => ret
      VNone)) None]
  = Some [Raise TypeError].
Proof. vm_compute. reflexivity. Abort.

(** tests/test_emitters_fromfields.py:388 *)
Example test_basedonfields_source_settable_1 :
  goes [NewStatic MP ((str "one")); NewField MP "test" 0 None None false None; NewBasedOnFields MP
    true [0%nat] (fn (Some [mkParam "val" PosOrKw false]) (fun args _ => match args with [x] => Ok x
    | _ => Raise TypeError end) (fun _ _ => ret VNone)) None; NewStatic MP ((str "one")); NewField
    MP "test1" 4 None None false None; NewStatic MP ((str "two")); NewField MP "test2" 7 None None
    false None]
    [SetSource MP 3 false [1%nat; 2%nat]; Do MP (Call MP 1); Do MP (Call MP 2); Do MP (Emit MP 3);
      SetFunction MP 3 (fn (Some [mkParam "test1" PosOrKw false; mkParam "test2" PosOrKw false])
      (fun _ kw => match kw with [("test1", x); ("test2", y)] => text [x; str " "; y] | _ => Raise
      TypeError end) (fun _ _ => ret VNone)); Do MP (Emit MP 3)]
  = Some [Ok Done; Ok (Value ((str "one"))); Ok (Value ((str "two"))); Raise TypeError; Ok Done; Ok
    (Value ((str "one two")))].
Proof. vm_compute. reflexivity. Abort.

(** tests/test_emitters_fromfields.py:428 *)
Example test_basedonfields_action_settable_1 :
  goes [NewStatic MP (VInt 1); NewField MP "test" 0 None None false None; NewBasedOnFields MP true
    [0%nat] (fn (Some [mkParam "val" PosOrKw false]) (fun _ _ => Ok VNone) (fun _ _ => ret VNone))
    None]
    [Do MP (Call MP 0); SetFunction MP 3 (fn (Some [mkParam "val" PosOrKw false]) (with_str (fun x
      => VStr x)) (fun _ _ => ret VNone)); Do MP (Emit MP 3); SetFunction MP 3 (fn (Some [mkParam
      "val1" PosOrKw false; mkParam "val2" PosOrKw false]) (fun _ _ => Ok VNone) (fun _ _ => ret
      VNone))]
  = Some [Ok (Value (VInt 1)); Ok Done; Ok (Value ((str "1"))); Raise TypeError].
Proof. vm_compute. reflexivity. Abort.
