(** * The model of Choice against the values /repo/tests/test_emitters_choice.py
    expects.  These are checks of the model, not theorems about the code: the
    tests' arguments and seeds go through the model, on CPython's generator, and
    every value the test asserts must come out.  Generated from the text of the
    tests.  Left out: the tests of poisson_choice and gaussian_choice (the model
    has no computable exp), of error messages, of nouns, and of the immutability
    of properties, and the range of all 86400 seconds of a day (slow).
    The equations are dropped again once the computation has confirmed them
    (Abort), as in Conform_Math.v. *)
From Coq Require Import String.
From Verif Require Import Base Prims MathModel ChoiceModel RealModel DtModel QcNum Mersenne Demo Conform_Math Conform_Dt.
From Coq Require Import QArith Qcanon.
Open Scope list_scope.
Open Scope Z_scope.

Section Acts.
  Context {A : Type} (eq_dec : forall x y : A, {x = y} + {x <> y}).
  Notation size := (count_distinct eq_dec).
  Notation C := (@choice MP A).
  Notation fuel := 1000%nat.

  (** What the tests do with an emitter, and what they see. *)
  Inductive act : Type :=
  | Call | CallN (n : Z)
  | Reset | Seed (s : Z) | Rng_seed (s : Z) | Rng (s : Z)
  | Weights (w : option (list Z)) | Cum_weights (w : option (list Z))
  | Replace (b : bool) | Replace_only_after_call (b : bool)
  | Num_unique_values | Num_unique_items | Emits_unique_values
  | Ask_weights | Ask_cum_weights | Ask_replace | Ask_replace_only_after_call | Ask_rng_seed.
  Inductive saw : Type :=
  | One (a : A) | Many (l : list A) | Num (z : Z) | Is (b : bool)
  | Ws (w : option (list Qc)) | Done | Error (e : exc) | Forever.

  Definition shown {B} (f : B -> saw) (r : res B * C) : saw * C :=
    (match fst r with Ok b => f b | Raise e => Error e | Diverge => Forever end, snd r).
  Definition seen {B} (f : B -> saw) (r : C -> res B) (c : C) : saw * C := shown f (r c, c).
  Definition do_act (a : act) (c : C) : saw * C :=
    match a with
    | Call => shown One (choice_call MP size fuel c)
    | CallN n => shown Many (choice_call_n MP size fuel n c)
    | Reset => shown (fun _ => Done) (choice_reset MP fuel 0 c)
    | Seed s => shown (fun _ => Done) (choice_seed MP fuel (Some s : option (pSeed MP)) 0 c)
    | Rng_seed s => (Done, set_seed MP (Some s : option (pSeed MP)) c)
    | Rng s => (Done, set_rng MP (seeded s : pR MP) c)
    | Weights w => shown (fun _ => Done) (set_weights MP fuel (option_map ws w) false c)
    | Cum_weights w => shown (fun _ => Done) (set_weights MP fuel (option_map ws w) true c)
    | Replace b => shown (fun _ => Done) (set_replace MP fuel b c)
    | Replace_only_after_call b => shown (fun _ => Done) (set_replace_only_after_call MP fuel b c)
    | Num_unique_values => seen Num (num_unique_values MP size) c
    | Num_unique_items => (Num (num_unique_items MP c), c)
    | Emits_unique_values => seen Is (emits_unique_values MP size) c
    | Ask_weights => (Ws (c_weights c), c)
    | Ask_cum_weights => (Ws (c_cum c), c)
    | Ask_replace => (Is (c_replace c), c)
    | Ask_replace_only_after_call => (Is (c_roac c), c)
    | Ask_rng_seed => (match c_seed c with Some s => Num s | None => Done end, c)
    end.
  Fixpoint do_acts (l : list act) (c : C) : list saw :=
    match l with [] => [] | a :: l => let (o, c) := do_act a c in o :: do_acts l c end.

  (** The emitter of a test, then what the test does with it. *)
  Definition script (items : list A) (w cum : option (list Z)) (replace roac : bool) (seed : option Z) (l : list act)
    : res (list saw) :=
    c <- choice_new MP fuel items (option_map ws w) replace roac (seed : option (pSeed MP)) (option_map ws cum) 0 ;;
    Ok (do_acts l c).
End Acts.
Arguments One {A}. Arguments Many {A}. Arguments Num {A}. Arguments Is {A}. Arguments Ws {A}.
Arguments Done {A}. Arguments Error {A}. Arguments Forever {A}.

(** tests/test_emitters_choice.py:13 test_choice *)
Example test_choice_1 :
  script Z.eq_dec (zrange 0 2) None None true false (Some 999) [CallN 10]
  = Ok [Many [1; 0; 1; 1; 0; 0; 1; 0; 1; 1]].
Proof. vm_compute. reflexivity. Abort.

(** tests/test_emitters_choice.py:14 test_choice *)
Example test_choice_2 :
  script Z.eq_dec (zrange 0 2) None None true false (Some 999) (repeat (Call) 10)
  = Ok [One 0; One 1; One 1; One 0; One 1; One 0; One 0; One 0; One 1; One 0].
Proof. vm_compute. reflexivity. Abort.

(** tests/test_emitters_choice.py:16 test_choice *)
Example test_choice_3 :
  script Z.eq_dec (zrange 1 2) None None true false (Some 999) [CallN 10]
  = Ok [Many [1; 1; 1; 1; 1; 1; 1; 1; 1; 1]].
Proof. vm_compute. reflexivity. Abort.

(** tests/test_emitters_choice.py:18 test_choice *)
Example test_choice_4 :
  script Z.eq_dec (zrange 1 2) None None true false (Some 999) (repeat (Call) 10)
  = Ok [One 1; One 1; One 1; One 1; One 1; One 1; One 1; One 1; One 1; One 1].
Proof. vm_compute. reflexivity. Abort.

(** tests/test_emitters_choice.py:20 test_choice *)
Example test_choice_5 :
  script Z.eq_dec (zrange 5 6) None None true false (Some 999) [CallN 10]
  = Ok [Many [5; 5; 5; 5; 5; 5; 5; 5; 5; 5]].
Proof. vm_compute. reflexivity. Abort.

(** tests/test_emitters_choice.py:22 test_choice *)
Example test_choice_6 :
  script Z.eq_dec (zrange 1 11) None None true false (Some 999) [CallN 10]
  = Ok [Many [8; 1; 9; 6; 5; 2; 8; 4; 8; 9]].
Proof. vm_compute. reflexivity. Abort.

(** tests/test_emitters_choice.py:24 test_choice *)
Example test_choice_7 :
  script string_dec (["a"%string; "b"%string; "c"%string; "d"%string; "e"%string]) None None true
    false (Some 999) [CallN 10]
  = Ok [Many ["d"%string; "a"%string; "e"%string; "c"%string; "c"%string; "a"%string; "d"%string;
    "b"%string; "d"%string; "e"%string]].
Proof. vm_compute. reflexivity. Abort.

(** tests/test_emitters_choice.py:26 test_choice *)
Example test_choice_8 :
  script string_dec (["H"%string; "T"%string]) (Some [80; 20]) None true false (Some 999) [CallN 10]
  = Ok [Many ["H"%string; "H"%string; "T"%string; "H"%string; "H"%string; "H"%string; "H"%string;
    "H"%string; "H"%string; "T"%string]].
Proof. vm_compute. reflexivity. Abort.

(** tests/test_emitters_choice.py:28 test_choice *)
Example test_choice_9 :
  script string_dec (["H"%string; "T"%string]) None (Some [80; 100]) true false (Some 999) [CallN
    10]
  = Ok [Many ["H"%string; "H"%string; "T"%string; "H"%string; "H"%string; "H"%string; "H"%string;
    "H"%string; "H"%string; "T"%string]].
Proof. vm_compute. reflexivity. Abort.

(** tests/test_emitters_choice.py:30 test_choice *)
Example test_choice_10 :
  script string_dec (["H"%string; "T"%string]) (Some [80; 20]) None true false (Some 999) (repeat
    (Call) 10)
  = Ok [One "H"%string; One "H"%string; One "T"%string; One "H"%string; One "H"%string; One
    "H"%string; One "H"%string; One "H"%string; One "H"%string; One "T"%string].
Proof. vm_compute. reflexivity. Abort.

(** tests/test_emitters_choice.py:32 test_choice *)
Example test_choice_11 :
  script string_dec (["H"%string; "T"%string]) (Some [20; 80]) None true false (Some 999) [CallN 10]
  = Ok [Many ["T"%string; "H"%string; "T"%string; "T"%string; "T"%string; "H"%string; "T"%string;
    "T"%string; "T"%string; "T"%string]].
Proof. vm_compute. reflexivity. Abort.

(** tests/test_emitters_choice.py:34 test_choice *)
Example test_choice_12 :
  script string_dec (["H"%string; "T"%string]) None (Some [20; 100]) true false (Some 999) [CallN
    10]
  = Ok [Many ["T"%string; "H"%string; "T"%string; "T"%string; "T"%string; "H"%string; "T"%string;
    "T"%string; "T"%string; "T"%string]].
Proof. vm_compute. reflexivity. Abort.

(** tests/test_emitters_choice.py:36 test_choice *)
Example test_choice_13 :
  script string_dec (["T"%string; "T"%string; "H"%string; "H"%string; "H"%string; "H"%string;
    "H"%string; "H"%string; "H"%string; "H"%string]) None None true true (Some 999) [CallN 10]
  = Ok [Many ["T"%string; "H"%string; "H"%string; "H"%string; "H"%string; "H"%string; "T"%string;
    "H"%string; "H"%string; "H"%string]].
Proof. vm_compute. reflexivity. Abort.

(** tests/test_emitters_choice.py:38 test_choice *)
Example test_choice_14 :
  script string_dec (["H"%string; "H"%string; "H"%string; "H"%string; "T"%string]) None None true
    true (Some 999) (repeat (Call) 10)
  = Ok [One "H"%string; One "T"%string; One "T"%string; One "T"%string; One "H"%string; One
    "H"%string; One "H"%string; One "H"%string; One "H"%string; One "H"%string].
Proof. vm_compute. reflexivity. Abort.

(** tests/test_emitters_choice.py:40 test_choice *)
Example test_choice_15 :
  script string_dec (["H"%string; "T"%string]) (Some [80; 20]) None true true (Some 999) (repeat
    (Call) 10)
  = Ok [One "H"%string; One "H"%string; One "T"%string; One "H"%string; One "H"%string; One
    "H"%string; One "H"%string; One "H"%string; One "H"%string; One "T"%string].
Proof. vm_compute. reflexivity. Abort.

(** tests/test_emitters_choice.py:42 test_choice *)
Example test_choice_16 :
  script string_dec (["H"%string; "T"%string]) (Some [20; 80]) None true true (Some 999) (repeat
    (Call) 10)
  = Ok [One "T"%string; One "H"%string; One "T"%string; One "T"%string; One "T"%string; One
    "H"%string; One "T"%string; One "T"%string; One "T"%string; One "T"%string].
Proof. vm_compute. reflexivity. Abort.

(** tests/test_emitters_choice.py:44 test_choice *)
Example test_choice_17 :
  script Z.eq_dec (zrange 0 5) (Some [70; 20; 7; 2; 1]) None true true (Some 999) (repeat (CallN 3)
    10)
  = Ok [Many [0; 2; 1]; Many [1; 0; 3]; Many [1; 0; 2]; Many [0; 3; 2]; Many [0; 4; 1]; Many [0; 2;
    1]; Many [1; 0; 2]; Many [1; 0; 2]; Many [1; 0; 3]; Many [0; 2; 1]].
Proof. vm_compute. reflexivity. Abort.

(** tests/test_emitters_choice.py:47 test_choice *)
Example test_choice_18 :
  script Z.eq_dec (zrange 0 5) (Some [70; 20; 7; 2; 1]) None true false (Some 999) (repeat (CallN 3)
    10)
  = Ok [Many [1; 0; 1]; Many [0; 0; 0]; Many [1; 0; 1]; Many [1; 0; 4]; Many [0; 0; 0]; Many [1; 0;
    1]; Many [3; 0; 0]; Many [0; 0; 0]; Many [2; 0; 0]; Many [0; 0; 1]].
Proof. vm_compute. reflexivity. Abort.

(** tests/test_emitters_choice.py:50 test_choice *)
Example test_choice_19 :
  script Z.eq_dec (zrange 0 25) None None false false (Some 999) (repeat (CallN 5) 5)
  = Ok [Many [11; 18; 24; 17; 2]; Many [9; 6; 8; 0; 15]; Many [20; 3; 14; 4; 7]; Many [13; 16; 19;
    23; 12]; Many [5; 10; 1; 21; 22]].
Proof. vm_compute. reflexivity. Abort.

(** tests/test_emitters_choice.py:53 test_choice *)
Example test_choice_20 :
  script Z.eq_dec (zrange 0 25) None None false false (Some 999) (repeat (Call) 25)
  = Ok [One 11; One 18; One 24; One 17; One 2; One 9; One 6; One 8; One 0; One 15; One 20; One 3;
    One 14; One 4; One 7; One 13; One 16; One 19; One 23; One 12; One 5; One 10; One 1; One 21; One
    22].
Proof. vm_compute. reflexivity. Abort.

(** tests/test_emitters_choice.py:56 test_choice *)
Example test_choice_21 :
  script Z.eq_dec (zrange 0 25) (Some (repeat 50 5 ++ repeat 10 5 ++ repeat 1 15)) None false false
    (Some 9999) (repeat (CallN 5) 5)
  = Ok [Many [0; 3; 7; 12; 4]; Many [6; 1; 2; 9; 8]; Many [22; 14; 5; 18; 11]; Many [20; 24; 13; 23;
    16]; Many [21; 17; 19; 15; 10]].
Proof. vm_compute. reflexivity. Abort.

(** tests/test_emitters_choice.py:59 test_choice *)
Example test_choice_22 :
  script Z.eq_dec (zrange 0 25) (Some (repeat 50 5 ++ repeat 10 5 ++ repeat 1 15)) None false false
    (Some 9999) (repeat (Call) 25)
  = Ok [One 0; One 3; One 7; One 12; One 4; One 6; One 1; One 2; One 9; One 8; One 22; One 14; One
    5; One 18; One 11; One 20; One 24; One 13; One 23; One 16; One 21; One 17; One 19; One 15; One
    10].
Proof. vm_compute. reflexivity. Abort.

(** tests/test_emitters_choice.py:74-101 test_choice_uniqueness_properties, case 1; the values drawn are not part of the test *)
Example test_uniqueness_1 :
  rmap (fun l => firstn 3 l ++ skipn 4 l) (script Z.eq_dec (zrange 0 5) None None true false None
    ([Num_unique_values; Num_unique_items; Emits_unique_values] ++ [CallN 10] ++ [Num_unique_values;
    Num_unique_items; Emits_unique_values] ++ [Reset] ++ [Num_unique_values; Num_unique_items;
    Emits_unique_values]))
  = Ok [Num 5; Num 5; Is false; Num 5; Num 5; Is false; Done; Num 5; Num 5; Is false].
Proof. vm_compute. reflexivity. Abort.

(** tests/test_emitters_choice.py:74-101 test_choice_uniqueness_properties, case 2; the values drawn are not part of the test *)
Example test_uniqueness_2 :
  rmap (fun l => firstn 3 l ++ skipn 4 l) (script Z.eq_dec (zrange 0 5) None None true true None
    ([Num_unique_values; Num_unique_items; Emits_unique_values] ++ [CallN 5] ++ [Num_unique_values;
    Num_unique_items; Emits_unique_values] ++ [Reset] ++ [Num_unique_values; Num_unique_items;
    Emits_unique_values]))
  = Ok [Num 5; Num 5; Is false; Num 5; Num 5; Is false; Done; Num 5; Num 5; Is false].
Proof. vm_compute. reflexivity. Abort.

(** tests/test_emitters_choice.py:74-101 test_choice_uniqueness_properties, case 3; the values drawn are not part of the test *)
Example test_uniqueness_3 :
  rmap (fun l => firstn 3 l ++ skipn 4 l) (script Z.eq_dec (zrange 0 5) None None false false None
    ([Num_unique_values; Num_unique_items; Emits_unique_values] ++ [CallN 3] ++ [Num_unique_values;
    Num_unique_items; Emits_unique_values] ++ [Reset] ++ [Num_unique_values; Num_unique_items;
    Emits_unique_values]))
  = Ok [Num 5; Num 5; Is true; Num 2; Num 2; Is true; Done; Num 5; Num 5; Is true].
Proof. vm_compute. reflexivity. Abort.

(** tests/test_emitters_choice.py:74-101 test_choice_uniqueness_properties, case 4; the values drawn are not part of the test *)
Example test_uniqueness_4 :
  rmap (fun l => firstn 3 l ++ skipn 4 l) (script Z.eq_dec (zrange 0 5) None None false false None
    ([Num_unique_values; Num_unique_items; Emits_unique_values] ++ [CallN 5] ++ [Num_unique_values;
    Num_unique_items; Emits_unique_values] ++ [Reset] ++ [Num_unique_values; Num_unique_items;
    Emits_unique_values]))
  = Ok [Num 5; Num 5; Is true; Num 0; Num 0; Is true; Done; Num 5; Num 5; Is true].
Proof. vm_compute. reflexivity. Abort.

(** tests/test_emitters_choice.py:74-101 test_choice_uniqueness_properties, case 5; the values drawn are not part of the test *)
Example test_uniqueness_5 :
  rmap (fun l => firstn 3 l ++ skipn 4 l) (script Z.eq_dec ([0; 1; 0; 2; 2]) None None false false
    (Some 999) ([Num_unique_values; Num_unique_items; Emits_unique_values] ++ [CallN 3] ++
    [Num_unique_values; Num_unique_items; Emits_unique_values] ++ [Reset] ++ [Num_unique_values;
    Num_unique_items; Emits_unique_values]))
  = Ok [Num 3; Num 5; Is false; Num 2; Num 2; Is true; Done; Num 3; Num 5; Is false].
Proof. vm_compute. reflexivity. Abort.

(** tests/test_emitters_choice.py:74-101 test_choice_uniqueness_properties, case 6; the values drawn are not part of the test *)
Example test_uniqueness_6 :
  rmap (fun l => firstn 3 l ++ skipn 4 l) (script Z.eq_dec ([0; 1; 0; 2; 2]) None None true false
    (Some 999) ([Num_unique_values; Num_unique_items; Emits_unique_values] ++ [CallN 10] ++
    [Num_unique_values; Num_unique_items; Emits_unique_values] ++ [Reset] ++ [Num_unique_values;
    Num_unique_items; Emits_unique_values]))
  = Ok [Num 3; Num 5; Is false; Num 3; Num 5; Is false; Done; Num 3; Num 5; Is false].
Proof. vm_compute. reflexivity. Abort.

(** tests/test_emitters_choice.py:106 test_choice_not_enough_unique_values: the last call raises *)
Example test_not_enough_1 :
  rmap (fun l => last l Done) (script Z.eq_dec (zrange 0 9) None None true true None (repeat (CallN
    10) 1)) = Ok (Error ValueError).
Proof. vm_compute. reflexivity. Abort.

(** tests/test_emitters_choice.py:108 test_choice_not_enough_unique_values: the last call raises *)
Example test_not_enough_2 :
  rmap (fun l => last l Done) (script Z.eq_dec (zrange 0 9) None None false false None (repeat
    (CallN 10) 1)) = Ok (Error ValueError).
Proof. vm_compute. reflexivity. Abort.

(** tests/test_emitters_choice.py:110 test_choice_not_enough_unique_values: the last call raises *)
Example test_not_enough_3 :
  rmap (fun l => last l Done) (script Z.eq_dec (zrange 0 9) None None false false None (repeat
    (Call) 10)) = Ok (Error ValueError).
Proof. vm_compute. reflexivity. Abort.

(** tests/test_emitters_choice.py:112 test_choice_not_enough_unique_values: the last call raises *)
Example test_not_enough_4 :
  rmap (fun l => last l Done) (script Z.eq_dec (zrange 0 9) None None false false None (repeat
    (CallN 3) 4)) = Ok (Error ValueError).
Proof. vm_compute. reflexivity. Abort.

(** tests/test_emitters_choice.py:114 test_choice_not_enough_unique_values: the last call raises *)
Example test_not_enough_5 :
  rmap (fun l => last l Done) (script Z.eq_dec (zrange 0 10) None None false false None (repeat
    (CallN 3) 4)) = Ok (Error ValueError).
Proof. vm_compute. reflexivity. Abort.

(** tests/test_emitters_choice.py:126-132 test_choice_reset_reshuffles_when_no_replacement *)
Example test_choice_reset_reshuffles_when_no_replacement :
  script Z.eq_dec (zrange 0 4) (Some [97; 1; 1; 1]) None false false (Some 999) [CallN 4; Reset;
    Num_unique_values; Num_unique_items; CallN 4]
  = Ok [Many [0; 2; 3; 1]; Done; Num 4; Num 4; Many [0; 2; 3; 1]].
Proof. vm_compute. reflexivity. Abort.

(** tests/test_emitters_choice.py:135-143 test_choice_seed_reseeds_and_reshuffles_when_no_replacement *)
Example test_choice_seed_reseeds_and_reshuffles_when_no_replacement :
  script Z.eq_dec (zrange 0 4) (Some [97; 1; 1; 1]) None false false (Some 999) [Ask_rng_seed; CallN
    4; Seed 9999; Ask_rng_seed; Num_unique_values; Num_unique_items; CallN 4]
  = Ok [Num 999; Many [0; 2; 3; 1]; Done; Num 9999; Num 4; Num 4; Many [0; 3; 1; 2]].
Proof. vm_compute. reflexivity. Abort.

(** tests/test_emitters_choice.py:146-152 test_choice_setting_rngseed_does_not_reshuffle_when_no_replacement *)
Example test_choice_setting_rngseed_does_not_reshuffle_when_no_replacement :
  script Z.eq_dec (zrange 0 4) (Some [97; 1; 1; 1]) None false false (Some 999) [CallN 2; Rng_seed
    9999; Num_unique_values; Num_unique_items; CallN 2]
  = Ok [Many [0; 2]; Done; Num 2; Num 2; Many [3; 1]].
Proof. vm_compute. reflexivity. Abort.

(** tests/test_emitters_choice.py:155-161 test_choice_setting_rng_does_not_reshuffle_when_no_replacement *)
Example test_choice_setting_rng_does_not_reshuffle_when_no_replacement :
  script Z.eq_dec (zrange 0 4) (Some [97; 1; 1; 1]) None false false (Some 999) [CallN 2; Rng 9999;
    Num_unique_values; Num_unique_items; CallN 2]
  = Ok [Many [0; 2]; Done; Num 2; Num 2; Many [3; 1]].
Proof. vm_compute. reflexivity. Abort.

(** tests/test_emitters_choice.py:164-171 test_choice_setting_rngseed_does_not_change_output_until_reset *)
Example test_choice_setting_rngseed_does_not_change_output_until_reset :
  script Z.eq_dec (zrange 0 4) None None true false (Some 999) [CallN 10; Reset; Rng_seed 9999;
    CallN 10; Reset; CallN 10]
  = Ok [Many [3; 0; 3; 2; 1; 0; 3; 1; 3; 3]; Done; Done; Many [3; 0; 3; 2; 1; 0; 3; 1; 3; 3]; Done;
    Many [3; 0; 0; 3; 1; 0; 3; 3; 1; 2]].
Proof. vm_compute. reflexivity. Abort.

(** tests/test_emitters_choice.py:174-179 test_choice_setting_rng_immediately_changes_output *)
Example test_choice_setting_rng_immediately_changes_output :
  script Z.eq_dec (zrange 0 4) None None true false (Some 999) [CallN 10; Reset; Rng 9999; CallN 10]
  = Ok [Many [3; 0; 3; 2; 1; 0; 3; 1; 3; 3]; Done; Done; Many [3; 0; 0; 3; 1; 0; 3; 3; 1; 2]].
Proof. vm_compute. reflexivity. Abort.

(** tests/test_emitters_choice.py:224-227 test_choice_setting_weights_sets_cumweights *)
Example test_choice_setting_weights_sets_cumweights :
  script Z.eq_dec (zrange 0 4) None None true false None [Weights (Some [97; 1; 1; 1]);
    Ask_cum_weights]
  = Ok [Done; Ws (Some (ws [97; 98; 99; 100]))].
Proof. vm_compute. reflexivity. Abort.

(** tests/test_emitters_choice.py:230-233 test_choice_setting_cumweights_sets_weights *)
Example test_choice_setting_cumweights_sets_weights :
  script Z.eq_dec (zrange 0 4) None None true false None [Cum_weights (Some [97; 98; 99; 100]);
    Ask_weights]
  = Ok [Done; Ws (Some (ws [97; 1; 1; 1]))].
Proof. vm_compute. reflexivity. Abort.

(** tests/test_emitters_choice.py:236-239 test_choice_removing_weights_removes_cumweights *)
Example test_choice_removing_weights_removes_cumweights :
  script Z.eq_dec (zrange 0 4) (Some [97; 1; 1; 1]) None true false None [Weights None;
    Ask_cum_weights]
  = Ok [Done; Ws None].
Proof. vm_compute. reflexivity. Abort.

(** tests/test_emitters_choice.py:242-245 test_choice_removing_cumweights_removes_weights *)
Example test_choice_removing_cumweights_removes_weights :
  script Z.eq_dec (zrange 0 4) (Some [97; 1; 1; 1]) None true false None [Cum_weights None;
    Ask_weights]
  = Ok [Done; Ws None].
Proof. vm_compute. reflexivity. Abort.

(** tests/test_emitters_choice.py:248-257 test_choice_remove_weights_with_replacement; the values of the bare call are not part of the test *)
Example test_choice_remove_weights_with_replacement :
  rmap (fun l => firstn 0 l ++ skipn 1 l) (script Z.eq_dec (zrange 0 4) (Some [97; 1; 1; 1]) None
    true false (Some 999) [CallN 2; Weights None; Num_unique_values; Num_unique_items;
    Emits_unique_values; CallN 10; Num_unique_values; Num_unique_items])
  = Ok [Done; Num 4; Num 4; Is false; Many [3; 2; 1; 0; 3; 1; 3; 3; 0; 3]; Num 4; Num 4].
Proof. vm_compute. reflexivity. Abort.

(** tests/test_emitters_choice.py:260-269 test_choice_remove_weights_no_replacement; the values of the bare call are not part of the test *)
Example test_choice_remove_weights_no_replacement :
  rmap (fun l => firstn 0 l ++ skipn 1 l) (script Z.eq_dec (zrange 0 4) (Some [97; 1; 1; 1]) None
    false false (Some 999) [CallN 2; Weights None; Num_unique_values; Num_unique_items;
    Emits_unique_values; CallN 4; Num_unique_values; Num_unique_items])
  = Ok [Done; Num 4; Num 4; Is true; Many [2; 0; 3; 1]; Num 0; Num 0].
Proof. vm_compute. reflexivity. Abort.

(** tests/test_emitters_choice.py:272-286 test_choice_remove_weights_only_replace_after_call; the values of the bare call are not part of the test *)
Example test_choice_remove_weights_only_replace_after_call :
  rmap (fun l => firstn 0 l ++ skipn 1 l) (script Z.eq_dec (zrange 0 4) (Some [97; 1; 1; 1]) None
    true true (Some 999) [CallN 2; Weights None; Num_unique_values; Num_unique_items;
    Emits_unique_values; CallN 4; CallN 4; CallN 4; CallN 4; CallN 4; Num_unique_values;
    Num_unique_items])
  = Ok [Done; Num 4; Num 4; Is false; Many [3; 1; 0; 2]; Many [0; 2; 3; 1]; Many [2; 3; 0; 1]; Many
    [3; 0; 1; 2]; Many [2; 0; 3; 1]; Num 4; Num 4].
Proof. vm_compute. reflexivity. Abort.

(** tests/test_emitters_choice.py:289-298 test_choice_add_weights_with_replacement; the values of the bare call are not part of the test *)
Example test_choice_add_weights_with_replacement :
  rmap (fun l => firstn 0 l ++ skipn 1 l) (script Z.eq_dec (zrange 0 4) None None true false (Some
    999) [CallN 2; Weights (Some [97; 1; 1; 1]); Num_unique_values; Num_unique_items;
    Emits_unique_values; CallN 10; Num_unique_values; Num_unique_items])
  = Ok [Done; Num 4; Num 4; Is false; Many [0; 0; 0; 0; 0; 0; 0; 0; 0; 3]; Num 4; Num 4].
Proof. vm_compute. reflexivity. Abort.

(** tests/test_emitters_choice.py:301-310 test_choice_add_weights_no_replacement; the values of the bare call are not part of the test *)
Example test_choice_add_weights_no_replacement :
  rmap (fun l => firstn 0 l ++ skipn 1 l) (script Z.eq_dec (zrange 0 4) None None false false (Some
    999) [CallN 2; Weights (Some [97; 1; 1; 1]); Num_unique_values; Num_unique_items;
    Emits_unique_values; CallN 4; Num_unique_values; Num_unique_items])
  = Ok [Done; Num 4; Num 4; Is true; Many [0; 2; 3; 1]; Num 0; Num 0].
Proof. vm_compute. reflexivity. Abort.

(** tests/test_emitters_choice.py:313-326 test_choice_add_weights_only_replace_after_call; the values of the bare call are not part of the test *)
Example test_choice_add_weights_only_replace_after_call :
  rmap (fun l => firstn 0 l ++ skipn 1 l) (script Z.eq_dec (zrange 0 4) None None true true (Some
    999) [CallN 2; Weights (Some [97; 1; 1; 1]); Num_unique_values; Num_unique_items;
    Emits_unique_values; CallN 4; CallN 4; CallN 4; CallN 4; CallN 4; Num_unique_values;
    Num_unique_items])
  = Ok [Done; Num 4; Num 4; Is false; Many [0; 3; 1; 2]; Many [0; 2; 1; 3]; Many [0; 3; 2; 1]; Many
    [0; 3; 2; 1]; Many [0; 1; 2; 3]; Num 4; Num 4].
Proof. vm_compute. reflexivity. Abort.

(** tests/test_emitters_choice.py:329-338 test_choice_change_weights_with_replacement; the values of the bare call are not part of the test *)
Example test_choice_change_weights_with_replacement :
  rmap (fun l => firstn 0 l ++ skipn 1 l) (script Z.eq_dec (zrange 0 4) (Some [97; 1; 1; 1]) None
    true false (Some 999) [CallN 2; Weights (Some [1; 1; 1; 97]); Num_unique_values;
    Num_unique_items; Emits_unique_values; CallN 10; Num_unique_values; Num_unique_items])
  = Ok [Done; Num 4; Num 4; Is false; Many [3; 3; 3; 3; 3; 3; 3; 3; 3; 3]; Num 4; Num 4].
Proof. vm_compute. reflexivity. Abort.

(** tests/test_emitters_choice.py:341-350 test_choice_change_weights_no_replacement; the values of the bare call are not part of the test *)
Example test_choice_change_weights_no_replacement :
  rmap (fun l => firstn 0 l ++ skipn 1 l) (script Z.eq_dec (zrange 0 4) (Some [97; 1; 1; 1]) None
    false false (Some 999) [CallN 2; Weights (Some [1; 1; 1; 97]); Num_unique_values;
    Num_unique_items; Emits_unique_values; CallN 4; Num_unique_values; Num_unique_items])
  = Ok [Done; Num 4; Num 4; Is true; Many [3; 2; 0; 1]; Num 0; Num 0].
Proof. vm_compute. reflexivity. Abort.

(** tests/test_emitters_choice.py:353-367 test_choice_change_weights_only_replace_after_call; the values of the bare call are not part of the test *)
Example test_choice_change_weights_only_replace_after_call :
  rmap (fun l => firstn 0 l ++ skipn 1 l) (script Z.eq_dec (zrange 0 4) (Some [97; 1; 1; 1]) None
    true true (Some 999) [CallN 2; Weights (Some [1; 1; 1; 97]); Num_unique_values;
    Num_unique_items; Emits_unique_values; CallN 4; CallN 4; CallN 4; CallN 4; CallN 4;
    Num_unique_values; Num_unique_items])
  = Ok [Done; Num 4; Num 4; Is false; Many [3; 2; 0; 1]; Many [3; 1; 0; 2]; Many [3; 2; 1; 0]; Many
    [2; 3; 1; 0]; Many [3; 0; 1; 2]; Num 4; Num 4].
Proof. vm_compute. reflexivity. Abort.

(** tests/test_emitters_choice.py:370-385 test_choice_change_replacement__replace_to_replace_only_after_call; the values of the bare call are not part of the test *)
Example test_choice_change_replacement__replace_to_replace_only_after_call :
  rmap (fun l => firstn 0 l ++ skipn 1 l) (script Z.eq_dec (zrange 0 4) (Some [97; 1; 1; 1]) None
    true false (Some 999) [CallN 10; Replace_only_after_call true; Num_unique_values;
    Num_unique_items; Emits_unique_values; CallN 4; CallN 4; CallN 4; CallN 4; CallN 4;
    Num_unique_values; Num_unique_items; CallN 5])
  = Ok [Done; Num 4; Num 4; Is false; Many [1; 0; 3; 2]; Many [0; 3; 1; 2]; Many [0; 2; 1; 3]; Many
    [2; 0; 3; 1]; Many [0; 3; 1; 2]; Num 4; Num 4; Error ValueError].
Proof. vm_compute. reflexivity. Abort.

(** tests/test_emitters_choice.py:388-399 test_choice_change_replacement__replace_to_none; the values of the bare call are not part of the test *)
Example test_choice_change_replacement__replace_to_none :
  rmap (fun l => firstn 0 l ++ skipn 1 l) (script Z.eq_dec (zrange 0 4) (Some [97; 1; 1; 1]) None
    true false (Some 999) [CallN 10; Replace false; Num_unique_values; Num_unique_items;
    Emits_unique_values; CallN 4; Num_unique_values; Num_unique_items; Call])
  = Ok [Done; Num 4; Num 4; Is true; Many [1; 0; 3; 2]; Num 0; Num 0; Error ValueError].
Proof. vm_compute. reflexivity. Abort.

(** tests/test_emitters_choice.py:402-410 test_choice_change_replacement__replace_only_after_call_to_replace; the values of the bare call are not part of the test *)
Example test_choice_change_replacement__replace_only_after_call_to_replace :
  rmap (fun l => firstn 0 l ++ skipn 1 l) (script Z.eq_dec (zrange 0 4) (Some [97; 1; 1; 1]) None
    true true (Some 999) [CallN 4; Replace_only_after_call false; Num_unique_values;
    Num_unique_items; Emits_unique_values; CallN 10])
  = Ok [Done; Num 4; Num 4; Is false; Many [0; 0; 0; 0; 0; 0; 0; 3; 0; 0]].
Proof. vm_compute. reflexivity. Abort.

(** tests/test_emitters_choice.py:413-426 test_choice_change_replacement__replace_only_after_call_to_none; the values of the bare call are not part of the test *)
Example test_choice_change_replacement__replace_only_after_call_to_none :
  rmap (fun l => firstn 0 l ++ skipn 1 l) (script Z.eq_dec (zrange 0 4) (Some [97; 1; 1; 1]) None
    true true (Some 999) [CallN 4; Replace false; Ask_replace_only_after_call; Num_unique_values;
    Num_unique_items; Emits_unique_values; CallN 4; Num_unique_values; Num_unique_items; Call])
  = Ok [Done; Is false; Num 4; Num 4; Is true; Many [0; 2; 3; 1]; Num 0; Num 0; Error ValueError].
Proof. vm_compute. reflexivity. Abort.

(** tests/test_emitters_choice.py:429-438 test_choice_change_replacement__none_to_replace; the values of the bare call are not part of the test *)
Example test_choice_change_replacement__none_to_replace :
  rmap (fun l => firstn 0 l ++ skipn 1 l) (script Z.eq_dec (zrange 0 4) (Some [97; 1; 1; 1]) None
    false false (Some 999) [CallN 2; Replace true; Num_unique_values; Num_unique_items;
    Emits_unique_values; CallN 10; Num_unique_values; Num_unique_items])
  = Ok [Done; Num 4; Num 4; Is false; Many [0; 0; 0; 0; 0; 0; 0; 3; 0; 0]; Num 4; Num 4].
Proof. vm_compute. reflexivity. Abort.

(** tests/test_emitters_choice.py:441-458 test_choice_change_replacement__none_to_replace_only_after_call; the values of the bare call are not part of the test *)
Example test_choice_change_replacement__none_to_replace_only_after_call :
  rmap (fun l => firstn 0 l ++ skipn 1 l) (script Z.eq_dec (zrange 0 4) (Some [97; 1; 1; 1]) None
    false false (Some 999) [CallN 2; Replace_only_after_call true; Ask_replace; Num_unique_values;
    Num_unique_items; Emits_unique_values; CallN 4; CallN 4; CallN 4; CallN 4; CallN 4;
    Num_unique_values; Num_unique_items; CallN 5])
  = Ok [Done; Is true; Num 4; Num 4; Is false; Many [0; 2; 3; 1]; Many [0; 3; 1; 2]; Many [0; 3; 2;
    1]; Many [0; 2; 1; 3]; Many [0; 3; 1; 2]; Num 4; Num 4; Error ValueError].
Proof. vm_compute. reflexivity. Abort.

(** tests/test_emitters_choice.py test_choice_cannot_init_empty_items *)
Example test_choice_cannot_init_empty_items :
  script Z.eq_dec ([]) None None true false None []
  = Raise ValueError.
Proof. vm_compute. reflexivity. Abort.

(** tests/test_emitters_choice.py test_choice_cannot_init_weights_and_cumweights *)
Example test_choice_cannot_init_weights_and_cumweights :
  script string_dec (["abc"%string]) (Some [10; 50; 40]) (Some [10; 60; 100]) true false None []
  = Raise TypeError.
Proof. vm_compute. reflexivity. Abort.

(** tests/test_emitters_choice.py:473 test_choice_incorrect_weights, without the message *)
Example test_incorrect_weights_1 :
  script Z.eq_dec ([0; 1; 2; 3]) (Some [40; 50]) None true false None []
  = Raise ValueError.
Proof. vm_compute. reflexivity. Abort.

(** tests/test_emitters_choice.py:474 test_choice_incorrect_weights, without the message *)
Example test_incorrect_weights_2 :
  script Z.eq_dec ([0; 1; 2; 3]) None (Some [40; 50]) true false None []
  = Raise ValueError.
Proof. vm_compute. reflexivity. Abort.

(** tests/test_emitters_choice.py:475 test_choice_incorrect_weights, without the message *)
Example test_incorrect_weights_3 :
  script Z.eq_dec ([0; 1]) (Some [50; 10; 2]) None true false None []
  = Raise ValueError.
Proof. vm_compute. reflexivity. Abort.

(** tests/test_emitters_choice.py:476 test_choice_incorrect_weights, without the message *)
Example test_incorrect_weights_4 :
  script Z.eq_dec ([0; 1]) None (Some [50; 10; 2]) true false None []
  = Raise ValueError.
Proof. vm_compute. reflexivity. Abort.

(** tests/test_emitters_choice.py:497 test_choice_change_weights_to_incorrect_weights, without the message *)
Example test_change_to_incorrect_weights_1 :
  script Z.eq_dec ([0; 1; 2; 3]) (Some [10; 10; 10; 10]) None true false None [Weights (Some [40;
    50])]
  = Ok [Error ValueError].
Proof. vm_compute. reflexivity. Abort.

(** tests/test_emitters_choice.py:498 test_choice_change_weights_to_incorrect_weights, without the message *)
Example test_change_to_incorrect_weights_2 :
  script Z.eq_dec ([0; 1; 2; 3]) None (Some [10; 10; 10; 10]) true false None [Cum_weights (Some
    [40; 50])]
  = Ok [Error ValueError].
Proof. vm_compute. reflexivity. Abort.

(** tests/test_emitters_choice.py:499 test_choice_change_weights_to_incorrect_weights, without the message *)
Example test_change_to_incorrect_weights_3 :
  script Z.eq_dec ([0; 1]) (Some [10; 10]) None true false None [Weights (Some [50; 10; 2])]
  = Ok [Error ValueError].
Proof. vm_compute. reflexivity. Abort.

(** tests/test_emitters_choice.py:500 test_choice_change_weights_to_incorrect_weights, without the message *)
Example test_change_to_incorrect_weights_4 :
  script Z.eq_dec ([0; 1]) None (Some [10; 10]) true false None [Cum_weights (Some [50; 10; 2])]
  = Ok [Error ValueError].
Proof. vm_compute. reflexivity. Abort.

(** [Choice(dtrange(start, stop, step, step_unit), weights=weights, rng_seed=seed)(n)];
    the model of Choice takes the sequence as a list. *)
Definition on_range (r : res dtr) (w : option (list Z)) (seed n : Z) : res (list (saw (A := dt))) :=
  r <- r ;; l <- dtr_list r ;; script dt_dec l w None true false (Some seed) [CallN n].

(** tests/test_emitters_choice.py:527 test_choice_dates *)
Example test_dates_1 :
  on_range (range_of (date 2015 1 1) (date 2015 1 2) 1 (None)) None 999 10
  = Ok [Many [date 2015 1 1; date 2015 1 1; date 2015 1 1; date 2015 1 1; date 2015 1 1; date 2015 1
    1; date 2015 1 1; date 2015 1 1; date 2015 1 1; date 2015 1 1]].
Proof. vm_compute. reflexivity. Abort.

(** tests/test_emitters_choice.py:530 test_choice_dates *)
Example test_dates_2 :
  on_range (range_of (date 2015 1 1) (date 2015 1 6) 1 (None)) None 999 10
  = Ok [Many [date 2015 1 4; date 2015 1 1; date 2015 1 5; date 2015 1 3; date 2015 1 3; date 2015 1
    1; date 2015 1 4; date 2015 1 2; date 2015 1 4; date 2015 1 5]].
Proof. vm_compute. reflexivity. Abort.

(** tests/test_emitters_choice.py:533 test_choice_dates *)
Example test_dates_3 :
  on_range (range_of (date 2015 1 1) (date 2015 1 6) 1 (None)) (Some [60; 20; 10; 5; 5]) 999 10
  = Ok [Many [date 2015 1 2; date 2015 1 1; date 2015 1 3; date 2015 1 1; date 2015 1 1; date 2015 1
    1; date 2015 1 2; date 2015 1 1; date 2015 1 2; date 2015 1 3]].
Proof. vm_compute. reflexivity. Abort.

(** tests/test_emitters_choice.py:547 test_choice_times *)
Example test_times_2 :
  on_range (range_of (time 0 0 0) (time 0 0 0) 60 (Some Useconds)) None 999 10
  = Ok [Many [time 18 45 0; time 1 55 0; time 20 56 0; time 13 46 0; time 11 46 0; time 3 10 0; time
    19 10 0; time 7 38 0; time 19 4 0; time 20 17 0]].
Proof. vm_compute. reflexivity. Abort.

(** tests/test_emitters_choice.py:550 test_choice_times *)
Example test_times_3 :
  on_range (range_of (time 5 0 0) (time 5 30 0) 1 (Some Useconds)) None 999 10
  = Ok [Many [time 5 23 26; time 5 2 24; time 5 26 10; time 5 17 12; time 5 14 43; time 5 3 57; time
    5 23 57; time 5 9 32; time 5 23 50; time 5 25 21]].
Proof. vm_compute. reflexivity. Abort.

(** tests/test_emitters_choice.py:556 test_choice_times *)
Example test_times_4 :
  on_range (range_of (time 5 0 0) (time 12 0 0) 1 (Some Uminutes)) (Some (repeat 1 120 ++ repeat 5
    60 ++ repeat 10 60 ++ repeat 5 60 ++ repeat 3 60 ++ repeat 2 60)) 999 10
  = Ok [Many [time 9 49 0; time 7 1 0; time 10 31 0; time 8 50 0; time 8 37 0; time 7 18 0; time 9
    54 0; time 8 9 0; time 9 53 0; time 10 16 0]].
Proof. vm_compute. reflexivity. Abort.

(** tests/test_emitters_choice.py:561 test_choice_times *)
Example test_times_5 :
  on_range (range_of (time 6 0 0) (time 9 0 0) 10 (Some Uminutes)) (Some (repeat 10 6 ++ repeat 5 6
    ++ repeat 2 6)) 999 10
  = Ok [Many [time 7 30 0; time 6 0 0; time 7 50 0; time 6 50 0; time 6 50 0; time 6 10 0; time 7 40
    0; time 6 30 0; time 7 40 0; time 7 50 0]].
Proof. vm_compute. reflexivity. Abort.

(** tests/test_emitters_choice.py:564 test_choice_times *)
Example test_times_6 :
  on_range (range_of (time 20 0 1) (time 20 1 0) 20 (Some Useconds)) (Some [50; 30; 20]) 999 10
  = Ok [Many [time 20 0 21; time 20 0 1; time 20 0 41; time 20 0 21; time 20 0 1; time 20 0 1; time
    20 0 21; time 20 0 1; time 20 0 21; time 20 0 41]].
Proof. vm_compute. reflexivity. Abort.

(** tests/test_emitters_choice.py:575 test_choice_datetimes *)
Example test_datetimes_1 :
  on_range (range_of (datetime 2016 1 1 20 0 0) (datetime 2016 1 2 7 0 0) 1 (Some Uminutes)) None
    999 10
  = Ok [Many [datetime 2016 1 2 4 35 0; datetime 2016 1 1 20 52 0; datetime 2016 1 2 5 35 0;
    datetime 2016 1 2 2 18 0; datetime 2016 1 2 1 23 0; datetime 2016 1 1 21 27 0; datetime 2016 1 2
    4 47 0; datetime 2016 1 1 23 29 0; datetime 2016 1 2 4 44 0; datetime 2016 1 2 5 17 0]].
Proof. vm_compute. reflexivity. Abort.

(** tests/test_emitters_choice.py:580 test_choice_datetimes *)
Example test_datetimes_2 :
  on_range (range_of (datetime 2016 1 1 0 0 0) (datetime 2017 1 1 0 0 0) 12 (Some Uhours)) None 999
    10
  = Ok [Many [datetime 2016 10 12 12 0 0; datetime 2016 1 30 0 0 0; datetime 2016 11 15 0 0 0;
    datetime 2016 7 28 12 0 0; datetime 2016 6 28 12 0 0; datetime 2016 2 18 0 0 0; datetime 2016 10
    19 0 0 0; datetime 2016 4 26 0 0 0; datetime 2016 10 17 12 0 0; datetime 2016 11 5 0 0 0]].
Proof. vm_compute. reflexivity. Abort.

(** tests/test_emitters_choice.py:587 test_choice_datetimes *)
Example test_datetimes_3 :
  on_range (range_of (datetime 2016 1 1 0 0 0) (datetime 2017 1 1 0 0 0) 1 (Some Uhours)) (Some
    (repeat 5 744 ++ repeat 10 696 ++ repeat 15 1464 ++ repeat 5 744 ++ repeat 2 1464 ++ repeat 5
    744 ++ repeat 10 720 ++ repeat 15 1464 ++ repeat 5 744)) 999 10
  = Ok [Many [datetime 2016 10 26 5 0 0; datetime 2016 2 10 19 0 0; datetime 2016 11 14 10 0 0;
    datetime 2016 9 3 5 0 0; datetime 2016 6 19 1 0 0; datetime 2016 2 27 6 0 0; datetime 2016 10 29
    21 0 0; datetime 2016 4 7 9 0 0; datetime 2016 10 29 0 0 0; datetime 2016 11 8 16 0 0]].
Proof. vm_compute. reflexivity. Abort.

(** tests/test_emitters_choice.py:661 test_chance; -10 is the double -10/1 *)
Example test_chance_1 :
  (c <- chance MP 1000 (Q2Qc (-10 # 1)) (Some 999 : option (pSeed MP)) 0 ;; fst (choice_call_n MP
    (count_distinct Bool.bool_dec) 1000 10 c))
  = Ok [false; false; false; false; false; false; false; false; false; false].
Proof. vm_compute. reflexivity. Abort.

(** tests/test_emitters_choice.py:663 test_chance; 0 is the double 0/1 *)
Example test_chance_2 :
  (c <- chance MP 1000 (Q2Qc (0 # 1)) (Some 999 : option (pSeed MP)) 0 ;; fst (choice_call_n MP
    (count_distinct Bool.bool_dec) 1000 10 c))
  = Ok [false; false; false; false; false; false; false; false; false; false].
Proof. vm_compute. reflexivity. Abort.

(** tests/test_emitters_choice.py:665 test_chance; 0.25 is the double 1/4 *)
Example test_chance_3 :
  (c <- chance MP 1000 (Q2Qc (1 # 4)) (Some 999 : option (pSeed MP)) 0 ;; fst (choice_call_n MP
    (count_distinct Bool.bool_dec) 1000 10 c))
  = Ok [false; true; false; false; false; true; false; false; false; false].
Proof. vm_compute. reflexivity. Abort.

(** tests/test_emitters_choice.py:667 test_chance; 0.455 is the double 8196551321814303/18014398509481984 *)
Example test_chance_4 :
  (c <- chance MP 1000 (Q2Qc (8196551321814303 # 18014398509481984)) (Some 999 : option (pSeed MP))
    0 ;; fst (choice_call_n MP (count_distinct Bool.bool_dec) 1000 10 c))
  = Ok [false; true; false; false; false; true; false; true; false; false].
Proof. vm_compute. reflexivity. Abort.

(** tests/test_emitters_choice.py:669 test_chance; 0.8 is the double 3602879701896397/4503599627370496 *)
Example test_chance_5 :
  (c <- chance MP 1000 (Q2Qc (3602879701896397 # 4503599627370496)) (Some 999 : option (pSeed MP)) 0
    ;; fst (choice_call_n MP (count_distinct Bool.bool_dec) 1000 10 c))
  = Ok [true; true; false; true; true; true; true; true; true; false].
Proof. vm_compute. reflexivity. Abort.

(** tests/test_emitters_choice.py:671 test_chance; 1.0 is the double 1/1 *)
Example test_chance_6 :
  (c <- chance MP 1000 (Q2Qc (1 # 1)) (Some 999 : option (pSeed MP)) 0 ;; fst (choice_call_n MP
    (count_distinct Bool.bool_dec) 1000 10 c))
  = Ok [true; true; true; true; true; true; true; true; true; true].
Proof. vm_compute. reflexivity. Abort.

(** tests/test_emitters_choice.py:673 test_chance; 10000 is the double 10000/1 *)
Example test_chance_7 :
  (c <- chance MP 1000 (Q2Qc (10000 # 1)) (Some 999 : option (pSeed MP)) 0 ;; fst (choice_call_n MP
    (count_distinct Bool.bool_dec) 1000 10 c))
  = Ok [true; true; true; true; true; true; true; true; true; true].
Proof. vm_compute. reflexivity. Abort.

