(** * The model of dtrange.py against the values /repo/tests/test_dtrange.py
    expects.  These are checks of the model, not theorems about the code.
    Generated from the text of the tests.  Left out: the error messages. *)
From Coq Require Import String.
From Verif Require Import Base PyRange DtModel DtObject.
Open Scope list_scope.
Open Scope Z_scope.

(** CPython's Lib/_pydatetime.py, _ymd2ord *)
Definition is_leap (y : Z) : bool := (y mod 4 =? 0) && (negb (y mod 100 =? 0) || (y mod 400 =? 0)).
Definition days_before_month (y m : Z) : Z :=
  nth (Z.to_nat (m - 1)) [0; 31; 59; 90; 120; 151; 181; 212; 243; 273; 304; 334] 0
  + (if (2 <? m) && is_leap y then 1 else 0).
Definition ymd (y m d : Z) : Z :=
  let y1 := y - 1 in y1 * 365 + y1 / 4 - y1 / 100 + y1 / 400 + days_before_month y m + d.
Definition hms (h m s : Z) : Z := ((h * 60 + m) * 60 + s) * 1000000.
Definition date (y m d : Z) : dt := Dt KDate (ymd y m d).
Definition time (h m s : Z) : dt := Dt KTime (hms h m s).
Definition datetime (y mo d h m s : Z) : dt := Dt KDateTime (ymd y mo d * DAY + hms h m s).
Example ymd_ref : ymd 99 1 1 = REF /\ ymd 9999 12 31 = MAXORD.
Proof. split; reflexivity. Qed.

Definition dt_dec (a b : dt) : {a = b} + {a <> b}.
Proof. repeat decide equality. Defined.

(** The strings of the tests, already parsed by fromisoformat. *)
Definition range_of (start stop : dt) (step : Z) (unit : option stepunit) : res dtr :=
  @dtrange Datatypes.unit (fun _ => None) (fun _ => None) (fun _ => None) (UDt start) (UDt stop) step unit.

Definition obj {A} (start length step : value) (m : meth A) : res A :=
  o <- new_range start length step ;; fst (m o).

(** tests/test_dtrange.py:9-14 test_dateortimerange_attributes_are_readonly *)
Example test_readonly :
  rmap (history [AssignStart (VInt 1); AssignStop (VInt 1); AssignStep (VInt 1); AssignLength (VInt
    1)]) (new_range (VDt (date 2016 1 1)) (VInt 7) (VTd 86400000000))
  = Ok (repeat (Raise AttributeError) 4).
Proof. vm_compute. reflexivity. Qed.

(** tests/test_dtrange.py:19 test_dateortimerange_validation *)
Example test_validation_1 :
  new_range VNoCast (VInt 7) (VTd 86400000000)
  = Raise ValueError.
Proof. vm_compute. reflexivity. Qed.

(** tests/test_dtrange.py:21 test_dateortimerange_validation *)
Example test_validation_2 :
  new_range VOther (VInt 7) (VTd 86400000000)
  = Raise ValueError.
Proof. vm_compute. reflexivity. Qed.

(** tests/test_dtrange.py:23 test_dateortimerange_validation *)
Example test_validation_3 :
  rmap (history [AskStart; AskLength; AskLen; AskStep]) (new_range (VDt (date 2016 1 1)) (VInt 7)
    (VTd 86400000000))
  = Ok [Ok (SDt (date 2016 1 1)); Ok (SInt 7); Ok (SInt 7); Ok (STd 86400000000)].
Proof. vm_compute. reflexivity. Qed.

(** tests/test_dtrange.py:24 test_dateortimerange_validation *)
Example test_validation_4 :
  rmap (history [AskStart; AskLength; AskLen; AskStep]) (new_range (VDt (datetime 2016 1 1 10 0 0))
    (VInt 7) (VTd 86400000000))
  = Ok [Ok (SDt (datetime 2016 1 1 10 0 0)); Ok (SInt 7); Ok (SInt 7); Ok (STd 86400000000)].
Proof. vm_compute. reflexivity. Qed.

(** tests/test_dtrange.py:25 test_dateortimerange_validation *)
Example test_validation_5 :
  rmap (history [AskStart; AskLength; AskLen; AskStep]) (new_range (VDt (time 10 0 0)) (VInt 10)
    (VTd 1000000))
  = Ok [Ok (SDt (time 10 0 0)); Ok (SInt 10); Ok (SInt 10); Ok (STd 1000000)].
Proof. vm_compute. reflexivity. Qed.

(** tests/test_dtrange.py:28 test_dateortimerange_validation *)
Example test_validation_6 :
  new_range (VDt (date 2016 1 1)) VNoCast (VTd 86400000000)
  = Raise ValueError.
Proof. vm_compute. reflexivity. Qed.

(** tests/test_dtrange.py:32 test_dateortimerange_validation *)
Example test_validation_7 :
  new_range (VDt (date 2016 1 1)) (VInt 7) (VInt 1)
  = Raise ValueError.
Proof. vm_compute. reflexivity. Qed.

(** tests/test_dtrange.py:34 test_dateortimerange_validation *)
Example test_validation_8 :
  new_range (VDt (date 2016 1 1)) (VInt 7) VOther
  = Raise ValueError.
Proof. vm_compute. reflexivity. Qed.

(** tests/test_dtrange.py:36 test_dateortimerange_validation *)
Example test_validation_9 :
  new_range (VDt (date 2016 1 1)) (VInt 7) (VTd 7200000000)
  = Raise ValueError.
Proof. vm_compute. reflexivity. Qed.

(** tests/test_dtrange.py:38 test_dateortimerange_validation *)
Example test_validation_10 :
  new_range (VDt (date 2016 1 1)) (VInt 7) (VTd 20000000)
  = Raise ValueError.
Proof. vm_compute. reflexivity. Qed.

(** tests/test_dtrange.py:40 test_dateortimerange_validation *)
Example test_validation_11 :
  new_range (VDt (date 2016 1 1)) (VInt 7) (VTd (-72000000000))
  = Raise ValueError.
Proof. vm_compute. reflexivity. Qed.

(** tests/test_dtrange.py:42 test_dateortimerange_validation *)
Example test_validation_12 :
  new_range (VDt (date 2016 1 1)) (VInt 7) (VTd 216000000000)
  = Raise ValueError.
Proof. vm_compute. reflexivity. Qed.

(** tests/test_dtrange.py:44 test_dateortimerange_validation *)
Example test_validation_13 :
  rmap (history [AskStart; AskLength; AskLen; AskStep]) (new_range (VDt (date 2016 1 1)) (VInt 7)
    (VTd 86400000000))
  = Ok [Ok (SDt (date 2016 1 1)); Ok (SInt 7); Ok (SInt 7); Ok (STd 86400000000)].
Proof. vm_compute. reflexivity. Qed.

(** tests/test_dtrange.py:45 test_dateortimerange_validation *)
Example test_validation_14 :
  rmap (history [AskStart; AskLength; AskLen; AskStep]) (new_range (VDt (date 2016 1 1)) (VInt 7)
    (VTd (-86400000000)))
  = Ok [Ok (SDt (date 2016 1 1)); Ok (SInt 7); Ok (SInt 7); Ok (STd (-86400000000))].
Proof. vm_compute. reflexivity. Qed.

(** tests/test_dtrange.py:46 test_dateortimerange_validation *)
Example test_validation_15 :
  rmap (history [AskStart; AskLength; AskLen; AskStep]) (new_range (VDt (date 2016 1 1)) (VInt 7)
    (VTd 86400000000))
  = Ok [Ok (SDt (date 2016 1 1)); Ok (SInt 7); Ok (SInt 7); Ok (STd 86400000000)].
Proof. vm_compute. reflexivity. Qed.

(** tests/test_dtrange.py:47 test_dateortimerange_validation *)
Example test_validation_16 :
  rmap (history [AskStart; AskLength; AskLen; AskStep]) (new_range (VDt (date 2016 1 1)) (VInt 7)
    (VTd (-86400000000)))
  = Ok [Ok (SDt (date 2016 1 1)); Ok (SInt 7); Ok (SInt 7); Ok (STd (-86400000000))].
Proof. vm_compute. reflexivity. Qed.

(** tests/test_dtrange.py:48 test_dateortimerange_validation *)
Example test_validation_17 :
  new_range (VDt (time 10 0 0)) (VInt 12) (VTd 86400000000)
  = Raise ValueError.
Proof. vm_compute. reflexivity. Qed.

(** tests/test_dtrange.py:50 test_dateortimerange_validation *)
Example test_validation_18 :
  new_range (VDt (time 10 0 0)) (VInt 12) (VTd 216000000000)
  = Raise ValueError.
Proof. vm_compute. reflexivity. Qed.

(** tests/test_dtrange.py:52 test_dateortimerange_validation *)
Example test_validation_19 :
  new_range (VDt (time 10 0 0)) (VInt 12) (VTd 86400000000)
  = Raise ValueError.
Proof. vm_compute. reflexivity. Qed.

(** tests/test_dtrange.py:54 test_dateortimerange_validation *)
Example test_validation_20 :
  rmap (history [AskStart; AskLength; AskLen; AskStep]) (new_range (VDt (time 10 0 0)) (VInt 12)
    (VTd 86399000000))
  = Ok [Ok (SDt (time 10 0 0)); Ok (SInt 12); Ok (SInt 12); Ok (STd 86399000000)].
Proof. vm_compute. reflexivity. Qed.

(** tests/test_dtrange.py:55 test_dateortimerange_validation *)
Example test_validation_21 :
  rmap (history [AskStart; AskLength; AskLen; AskStep]) (new_range (VDt (time 10 0 0)) (VInt 12)
    (VTd (-300000000)))
  = Ok [Ok (SDt (time 10 0 0)); Ok (SInt 12); Ok (SInt 12); Ok (STd (-300000000))].
Proof. vm_compute. reflexivity. Qed.

(** tests/test_dtrange.py:56 test_dateortimerange_validation *)
Example test_validation_22 :
  rmap (history [AskStart; AskLength; AskLen; AskStep]) (new_range (VDt (time 10 0 0)) (VInt 12)
    (VTd (-86399000000)))
  = Ok [Ok (SDt (time 10 0 0)); Ok (SInt 12); Ok (SInt 12); Ok (STd (-86399000000))].
Proof. vm_compute. reflexivity. Qed.

(** tests/test_dtrange.py:57 test_dateortimerange_validation *)
Example test_validation_23 :
  rmap (history [AskStart; AskLength; AskLen; AskStep]) (new_range (VDt (datetime 2016 1 1 10 0 0))
    (VInt 10) (VTd 43200000000))
  = Ok [Ok (SDt (datetime 2016 1 1 10 0 0)); Ok (SInt 10); Ok (SInt 10); Ok (STd 43200000000)].
Proof. vm_compute. reflexivity. Qed.

(** tests/test_dtrange.py:58 test_dateortimerange_validation *)
Example test_validation_24 :
  rmap (history [AskStart; AskLength; AskLen; AskStep]) (new_range (VDt (datetime 2016 1 1 10 0 0))
    (VInt 10) (VTd 172800000000))
  = Ok [Ok (SDt (datetime 2016 1 1 10 0 0)); Ok (SInt 10); Ok (SInt 10); Ok (STd 172800000000)].
Proof. vm_compute. reflexivity. Qed.

(** tests/test_dtrange.py:59 test_dateortimerange_validation *)
Example test_validation_25 :
  rmap (history [AskStart; AskLength; AskLen; AskStep]) (new_range (VDt (datetime 2016 1 1 10 0 0))
    (VInt 10) (VTd 216000000000))
  = Ok [Ok (SDt (datetime 2016 1 1 10 0 0)); Ok (SInt 10); Ok (SInt 10); Ok (STd 216000000000)].
Proof. vm_compute. reflexivity. Qed.

(** tests/test_dtrange.py:74 test_dateortimerange_stop_value_is_correct *)
Example test_stop_1 :
  obj (VDt (date 2016 1 1)) (VInt 5) (VTd 86400000000) get_stop
  = Ok (date 2016 1 6).
Proof. vm_compute. reflexivity. Qed.

(** tests/test_dtrange.py:75 test_dateortimerange_stop_value_is_correct *)
Example test_stop_2 :
  obj (VDt (date 2016 1 1)) (VInt 5) (VTd (-86400000000)) get_stop
  = Ok (date 2015 12 27).
Proof. vm_compute. reflexivity. Qed.

(** tests/test_dtrange.py:76 test_dateortimerange_stop_value_is_correct *)
Example test_stop_3 :
  obj (VDt (time 23 50 0)) (VInt 5) (VTd 600000000) get_stop
  = Ok (time 0 40 0).
Proof. vm_compute. reflexivity. Qed.

(** tests/test_dtrange.py:77 test_dateortimerange_stop_value_is_correct *)
Example test_stop_4 :
  obj (VDt (time 23 55 0)) (VInt 5) (VTd 60000000) get_stop
  = Ok (time 0 0 0).
Proof. vm_compute. reflexivity. Qed.

(** tests/test_dtrange.py:78 test_dateortimerange_stop_value_is_correct *)
Example test_stop_5 :
  obj (VDt (time 0 5 0)) (VInt 5) (VTd (-60000000)) get_stop
  = Ok (time 0 0 0).
Proof. vm_compute. reflexivity. Qed.

(** tests/test_dtrange.py:79 test_dateortimerange_stop_value_is_correct *)
Example test_stop_6 :
  obj (VDt (time 0 5 0)) (VInt 6) (VTd (-60000000)) get_stop
  = Ok (time 23 59 0).
Proof. vm_compute. reflexivity. Qed.

(** tests/test_dtrange.py:80 test_dateortimerange_stop_value_is_correct *)
Example test_stop_7 :
  obj (VDt (datetime 2016 1 1 22 0 0)) (VInt 5) (VTd 3600000000) get_stop
  = Ok (datetime 2016 1 2 3 0 0).
Proof. vm_compute. reflexivity. Qed.

(** tests/test_dtrange.py:88 test_dateortimerange_items_as_list *)
Example test_items_1 :
  (o <- new_range (VDt (date 2016 1 1)) (VInt 6) (VTd 86400000000) ;; o_list o)
  = Ok [date 2016 1 1; date 2016 1 2; date 2016 1 3; date 2016 1 4; date 2016 1 5; date 2016 1 6].
Proof. vm_compute. reflexivity. Qed.

(** tests/test_dtrange.py:91 test_dateortimerange_items_as_list *)
Example test_items_2 :
  (o <- new_range (VDt (date 2016 1 1)) (VInt 3) (VTd 172800000000) ;; o_list o)
  = Ok [date 2016 1 1; date 2016 1 3; date 2016 1 5].
Proof. vm_compute. reflexivity. Qed.

(** tests/test_dtrange.py:93 test_dateortimerange_items_as_list *)
Example test_items_3 :
  (o <- new_range (VDt (date 2016 1 1)) (VInt 3) (VTd (-86400000000)) ;; o_list o)
  = Ok [date 2016 1 1; date 2015 12 31; date 2015 12 30].
Proof. vm_compute. reflexivity. Qed.

(** tests/test_dtrange.py:95 test_dateortimerange_items_as_list *)
Example test_items_4 :
  (o <- new_range (VDt (time 10 0 0)) (VInt 5) (VTd 1000000) ;; o_list o)
  = Ok [time 10 0 0; time 10 0 1; time 10 0 2; time 10 0 3; time 10 0 4].
Proof. vm_compute. reflexivity. Qed.

(** tests/test_dtrange.py:98 test_dateortimerange_items_as_list *)
Example test_items_5 :
  (o <- new_range (VDt (time 10 0 0)) (VInt 5) (VTd 60000000) ;; o_list o)
  = Ok [time 10 0 0; time 10 1 0; time 10 2 0; time 10 3 0; time 10 4 0].
Proof. vm_compute. reflexivity. Qed.

(** tests/test_dtrange.py:100 test_dateortimerange_items_as_list *)
Example test_items_6 :
  (o <- new_range (VDt (time 23 40 0)) (VInt 5) (VTd 600000000) ;; o_list o)
  = Ok [time 23 40 0; time 23 50 0; time 0 0 0; time 0 10 0; time 0 20 0].
Proof. vm_compute. reflexivity. Qed.

(** tests/test_dtrange.py:102 test_dateortimerange_items_as_list *)
Example test_items_7 :
  (o <- new_range (VDt (time 0 15 0)) (VInt 5) (VTd (-300000000)) ;; o_list o)
  = Ok [time 0 15 0; time 0 10 0; time 0 5 0; time 0 0 0; time 23 55 0].
Proof. vm_compute. reflexivity. Qed.

(** tests/test_dtrange.py:104 test_dateortimerange_items_as_list *)
Example test_items_8 :
  (o <- new_range (VDt (datetime 2016 1 1 10 0 0)) (VInt 6) (VTd 86400000000) ;; o_list o)
  = Ok [datetime 2016 1 1 10 0 0; datetime 2016 1 2 10 0 0; datetime 2016 1 3 10 0 0; datetime 2016
    1 4 10 0 0; datetime 2016 1 5 10 0 0; datetime 2016 1 6 10 0 0].
Proof. vm_compute. reflexivity. Qed.

(** tests/test_dtrange.py:108 test_dateortimerange_items_as_list *)
Example test_items_9 :
  (o <- new_range (VDt (datetime 2016 1 1 0 0 0)) (VInt 3) (VTd 43200000000) ;; o_list o)
  = Ok [datetime 2016 1 1 0 0 0; datetime 2016 1 1 12 0 0; datetime 2016 1 2 0 0 0].
Proof. vm_compute. reflexivity. Qed.

(** tests/test_dtrange.py:111 test_dateortimerange_items_as_list *)
Example test_items_10 :
  (o <- new_range (VDt (datetime 2016 1 1 0 0 0)) (VInt 4) (VTd (-5000000)) ;; o_list o)
  = Ok [datetime 2016 1 1 0 0 0; datetime 2015 12 31 23 59 55; datetime 2015 12 31 23 59 50;
    datetime 2015 12 31 23 59 45].
Proof. vm_compute. reflexivity. Qed.

(** tests/test_dtrange.py:114 test_dateortimerange_items_as_list *)
Example test_items_11 :
  (o <- new_range (VDt (datetime 2016 1 1 12 0 0)) (VInt 4) (VTd 129600000000) ;; o_list o)
  = Ok [datetime 2016 1 1 12 0 0; datetime 2016 1 3 0 0 0; datetime 2016 1 4 12 0 0; datetime 2016 1
    6 0 0 0].
Proof. vm_compute. reflexivity. Qed.

(** tests/test_dtrange.py:123 test_dateortimerange_getitem_by_index *)
Example test_getitem_1 :
  (o <- new_range (VDt (date 2016 1 1)) (VInt 6) (VTd 86400000000) ;; o_get o 0)
  = Ok (date 2016 1 1).
Proof. vm_compute. reflexivity. Qed.

(** tests/test_dtrange.py:124 test_dateortimerange_getitem_by_index *)
Example test_getitem_2 :
  (o <- new_range (VDt (date 2016 1 1)) (VInt 6) (VTd 86400000000) ;; o_get o (-1))
  = Ok (date 2016 1 6).
Proof. vm_compute. reflexivity. Qed.

(** tests/test_dtrange.py:125 test_dateortimerange_getitem_by_index *)
Example test_getitem_3 :
  (o <- new_range (VDt (date 2016 1 1)) (VInt 6) (VTd 86400000000) ;; o_get o 2)
  = Ok (date 2016 1 3).
Proof. vm_compute. reflexivity. Qed.

(** tests/test_dtrange.py:126 test_dateortimerange_getitem_by_index *)
Example test_getitem_4 :
  (o <- new_range (VDt (date 2016 1 1)) (VInt 6) (VTd 172800000000) ;; o_get o (-1))
  = Ok (date 2016 1 11).
Proof. vm_compute. reflexivity. Qed.

(** tests/test_dtrange.py:127 test_dateortimerange_getitem_by_index *)
Example test_getitem_5 :
  (o <- new_range (VDt (date 2016 1 1)) (VInt 6) (VTd (-86400000000)) ;; o_get o 0)
  = Ok (date 2016 1 1).
Proof. vm_compute. reflexivity. Qed.

(** tests/test_dtrange.py:128 test_dateortimerange_getitem_by_index *)
Example test_getitem_6 :
  (o <- new_range (VDt (date 2016 1 1)) (VInt 6) (VTd (-86400000000)) ;; o_get o (-1))
  = Ok (date 2015 12 27).
Proof. vm_compute. reflexivity. Qed.

(** tests/test_dtrange.py:129 test_dateortimerange_getitem_by_index *)
Example test_getitem_7 :
  (o <- new_range (VDt (date 2016 1 1)) (VInt 6) (VTd (-86400000000)) ;; o_get o 5)
  = Ok (date 2015 12 27).
Proof. vm_compute. reflexivity. Qed.

(** tests/test_dtrange.py:130 test_dateortimerange_getitem_by_index *)
Example test_getitem_8 :
  (o <- new_range (VDt (date 2016 1 1)) (VInt 6) (VTd (-86400000000)) ;; o_get o 6)
  = Raise IndexError.
Proof. vm_compute. reflexivity. Qed.

(** tests/test_dtrange.py:131 test_dateortimerange_getitem_by_index *)
Example test_getitem_9 :
  (o <- new_range (VDt (date 2016 1 1)) (VInt 6) (VTd 86400000000) ;; p <- o_slice o (mkSlice (Some
    0) (Some 3) None) ;; o_list p)
  = Ok [date 2016 1 1; date 2016 1 2; date 2016 1 3].
Proof. vm_compute. reflexivity. Qed.

(** tests/test_dtrange.py:133 test_dateortimerange_getitem_by_index *)
Example test_getitem_10 :
  (o <- new_range (VDt (date 2016 1 1)) (VInt 6) (VTd 86400000000) ;; p <- o_slice o (mkSlice (Some
    1) (Some 4) None) ;; o_list p)
  = Ok [date 2016 1 2; date 2016 1 3; date 2016 1 4].
Proof. vm_compute. reflexivity. Qed.

(** tests/test_dtrange.py:135 test_dateortimerange_getitem_by_index *)
Example test_getitem_11 :
  (o <- new_range (VDt (date 2016 1 1)) (VInt 6) (VTd 86400000000) ;; p <- o_slice o (mkSlice (Some
    1) (Some 1) None) ;; o_list p)
  = Ok [].
Proof. vm_compute. reflexivity. Qed.

(** tests/test_dtrange.py:136 test_dateortimerange_getitem_by_index *)
Example test_getitem_12 :
  (o <- new_range (VDt (date 2016 1 1)) (VInt 6) (VTd 86400000000) ;; p <- o_slice o (mkSlice (Some
    7) (Some 7) None) ;; o_list p)
  = Ok [].
Proof. vm_compute. reflexivity. Qed.

(** tests/test_dtrange.py:137 test_dateortimerange_getitem_by_index *)
Example test_getitem_13 :
  (o <- new_range (VDt (date 2016 1 1)) (VInt 6) (VTd 86400000000) ;; p <- o_slice o (mkSlice (Some
    3) (Some 1) None) ;; o_list p)
  = Ok [].
Proof. vm_compute. reflexivity. Qed.

(** tests/test_dtrange.py:138 test_dateortimerange_getitem_by_index *)
Example test_getitem_14 :
  (o <- new_range (VDt (date 2016 1 1)) (VInt 6) (VTd 86400000000) ;; p <- o_slice o (mkSlice None
    None (Some (-1))) ;; o_list p)
  = Ok [date 2016 1 6; date 2016 1 5; date 2016 1 4; date 2016 1 3; date 2016 1 2; date 2016 1 1].
Proof. vm_compute. reflexivity. Qed.

(** tests/test_dtrange.py:141 test_dateortimerange_getitem_by_index *)
Example test_getitem_15 :
  (o <- new_range (VDt (date 2016 1 1)) (VInt 6) (VTd 86400000000) ;; p <- o_slice o (mkSlice (Some
    3) None (Some (-1))) ;; o_list p)
  = Ok [date 2016 1 4; date 2016 1 3; date 2016 1 2; date 2016 1 1].
Proof. vm_compute. reflexivity. Qed.

(** tests/test_dtrange.py:143 test_dateortimerange_getitem_by_index *)
Example test_getitem_16 :
  (o <- new_range (VDt (date 2016 1 1)) (VInt 6) (VTd 86400000000) ;; p <- o_slice o (mkSlice None
    (Some 2) (Some (-1))) ;; o_list p)
  = Ok [date 2016 1 6; date 2016 1 5; date 2016 1 4].
Proof. vm_compute. reflexivity. Qed.

(** tests/test_dtrange.py:145 test_dateortimerange_getitem_by_index *)
Example test_getitem_17 :
  (o <- new_range (VDt (date 2016 1 1)) (VInt 6) (VTd 86400000000) ;; p <- o_slice o (mkSlice None
    None (Some (-2))) ;; o_list p)
  = Ok [date 2016 1 6; date 2016 1 4; date 2016 1 2].
Proof. vm_compute. reflexivity. Qed.

(** tests/test_dtrange.py:147 test_dateortimerange_getitem_by_index *)
Example test_getitem_18 :
  (o <- new_range (VDt (date 2016 1 1)) (VInt 6) (VTd 172800000000) ;; p <- o_slice o (mkSlice None
    None (Some 4)) ;; o_list p)
  = Ok [date 2016 1 1; date 2016 1 9].
Proof. vm_compute. reflexivity. Qed.

(** tests/test_dtrange.py:163 test_dateortimerange_string_representation, by the parts of the text *)
Example test_repr_1 :
  obj (VDt (date 2016 1 1)) (VInt 6) (VTd 86400000000) get_repr
  = Ok (ReprText (date 2016 1 1) None (date 2016 1 7) 86400000000).
Proof. vm_compute. reflexivity. Qed.

(** tests/test_dtrange.py:165 test_dateortimerange_string_representation, by the parts of the text *)
Example test_repr_2 :
  obj (VDt (time 0 0 0)) (VInt 86399) (VTd 1000000) get_repr
  = Ok (ReprText (time 0 0 0) None (time 23 59 59) 1000000).
Proof. vm_compute. reflexivity. Qed.

(** tests/test_dtrange.py:167 test_dateortimerange_string_representation, by the parts of the text *)
Example test_repr_3 :
  obj (VDt (time 0 0 0)) (VInt 86400) (VTd 1000000) get_repr
  = Ok (ReprText (time 0 0 0) (Some 1) (time 0 0 0) 1000000).
Proof. vm_compute. reflexivity. Qed.

(** tests/test_dtrange.py:169 test_dateortimerange_string_representation, by the parts of the text *)
Example test_repr_4 :
  obj (VDt (time 0 0 0)) (VInt 172800) (VTd 1000000) get_repr
  = Ok (ReprText (time 0 0 0) (Some 2) (time 0 0 0) 1000000).
Proof. vm_compute. reflexivity. Qed.

(** tests/test_dtrange.py:171 test_dateortimerange_string_representation, by the parts of the text *)
Example test_repr_5 :
  obj (VDt (time 0 0 0)) (VInt 1441) (VTd 60000000) get_repr
  = Ok (ReprText (time 0 0 0) (Some 1) (time 0 1 0) 60000000).
Proof. vm_compute. reflexivity. Qed.

Definition hash_key_dec (a b : Z * option dt * option Z) : {a = b} + {a <> b}.
Proof. repeat decide equality. Defined.

(** tests/test_dtrange.py:179 test_dateortimerange_equality_and_hash; two different tuples are taken to have different hashes *)
Example test_equality_1 :
  (a <- new_range (VDt (date 2016 1 1)) (VInt 6) (VTd 86400000000) ;; b <- new_range (VDt (date 2016
    1 1)) (VInt 6) (VTd 86400000000) ;; e <- o_eq a b ;; la <- o_list a ;; lb <- o_list b ;; ha <-
    o_hash_key a ;; hb <- o_hash_key b ;; Ok (e, if list_eq_dec dt_dec la lb then true else false,
    if hash_key_dec ha hb then true else false))
  = Ok (true, true, true).
Proof. vm_compute. reflexivity. Qed.

(** tests/test_dtrange.py:181 test_dateortimerange_equality_and_hash; two different tuples are taken to have different hashes *)
Example test_equality_2 :
  (a <- new_range (VDt (date 2016 1 1)) (VInt 6) (VTd 86400000000) ;; b <- new_range (VDt (date 2016
    1 1)) (VInt 5) (VTd 86400000000) ;; e <- o_eq a b ;; la <- o_list a ;; lb <- o_list b ;; ha <-
    o_hash_key a ;; hb <- o_hash_key b ;; Ok (e, if list_eq_dec dt_dec la lb then true else false,
    if hash_key_dec ha hb then true else false))
  = Ok (false, false, false).
Proof. vm_compute. reflexivity. Qed.

(** tests/test_dtrange.py:183 test_dateortimerange_equality_and_hash; two different tuples are taken to have different hashes *)
Example test_equality_3 :
  (a <- new_range (VDt (date 2016 1 1)) (VInt 6) (VTd 86400000000) ;; b <- new_range (VDt (date 2016
    1 1)) (VInt 6) (VTd (-86400000000)) ;; e <- o_eq a b ;; la <- o_list a ;; lb <- o_list b ;; ha
    <- o_hash_key a ;; hb <- o_hash_key b ;; Ok (e, if list_eq_dec dt_dec la lb then true else
    false, if hash_key_dec ha hb then true else false))
  = Ok (false, false, false).
Proof. vm_compute. reflexivity. Qed.

(** tests/test_dtrange.py:185 test_dateortimerange_equality_and_hash; two different tuples are taken to have different hashes *)
Example test_equality_4 :
  (a <- new_range (VDt (date 2016 1 2)) (VInt 6) (VTd 86400000000) ;; b <- new_range (VDt (date 2016
    1 1)) (VInt 6) (VTd (-86400000000)) ;; e <- o_eq a b ;; la <- o_list a ;; lb <- o_list b ;; ha
    <- o_hash_key a ;; hb <- o_hash_key b ;; Ok (e, if list_eq_dec dt_dec la lb then true else
    false, if hash_key_dec ha hb then true else false))
  = Ok (false, false, false).
Proof. vm_compute. reflexivity. Qed.

(** tests/test_dtrange.py:187 test_dateortimerange_equality_and_hash; two different tuples are taken to have different hashes *)
Example test_equality_5 :
  (a <- new_range (VDt (datetime 2016 1 1 0 0 0)) (VInt 6) (VTd 86400000000) ;; b <- new_range (VDt
    (date 2016 1 1)) (VInt 6) (VTd 86400000000) ;; e <- o_eq a b ;; la <- o_list a ;; lb <- o_list b
    ;; ha <- o_hash_key a ;; hb <- o_hash_key b ;; Ok (e, if list_eq_dec dt_dec la lb then true else
    false, if hash_key_dec ha hb then true else false))
  = Ok (false, false, false).
Proof. vm_compute. reflexivity. Qed.

(** tests/test_dtrange.py:189 test_dateortimerange_equality_and_hash; two different tuples are taken to have different hashes *)
Example test_equality_6 :
  (a <- new_range (VDt (date 2016 1 1)) (VInt 6) (VTd 172800000000) ;; b <- new_range (VDt (date
    2016 1 1)) (VInt 6) (VTd 172800000000) ;; e <- o_eq a b ;; la <- o_list a ;; lb <- o_list b ;;
    ha <- o_hash_key a ;; hb <- o_hash_key b ;; Ok (e, if list_eq_dec dt_dec la lb then true else
    false, if hash_key_dec ha hb then true else false))
  = Ok (true, true, true).
Proof. vm_compute. reflexivity. Qed.

(** tests/test_dtrange.py:191 test_dateortimerange_equality_and_hash; two different tuples are taken to have different hashes *)
Example test_equality_7 :
  (a <- new_range (VDt (date 2016 1 1)) (VInt 6) (VTd 172800000000) ;; b <- new_range (VDt (time 0 0
    0)) (VInt 6) (VTd 60000000) ;; e <- o_eq a b ;; la <- o_list a ;; lb <- o_list b ;; ha <-
    o_hash_key a ;; hb <- o_hash_key b ;; Ok (e, if list_eq_dec dt_dec la lb then true else false,
    if hash_key_dec ha hb then true else false))
  = Ok (false, false, false).
Proof. vm_compute. reflexivity. Qed.

(** tests/test_dtrange.py:193 test_dateortimerange_equality_and_hash; two different tuples are taken to have different hashes *)
Example test_equality_8 :
  (a <- new_range (VDt (datetime 2016 1 1 8 0 0)) (VInt 6) (VTd 86400000000) ;; b <- new_range (VDt
    (date 2016 1 1)) (VInt 6) (VTd 86400000000) ;; e <- o_eq a b ;; la <- o_list a ;; lb <- o_list b
    ;; ha <- o_hash_key a ;; hb <- o_hash_key b ;; Ok (e, if list_eq_dec dt_dec la lb then true else
    false, if hash_key_dec ha hb then true else false))
  = Ok (false, false, false).
Proof. vm_compute. reflexivity. Qed.

(** tests/test_dtrange.py:203 test_dateortimerange_find_index_by_item *)
Example test_find_1 :
  rmap (history [AskIndex (ODt (date 2016 1 1)) None None; AskIn (ODt (date 2016 1 1)); AskCount
    (ODt (date 2016 1 1))]) (new_range (VDt (date 2016 1 1)) (VInt 6) (VTd 86400000000))
  = Ok [Ok (SInt 0); Ok (SBool true); Ok (SInt 1)].
Proof. vm_compute. reflexivity. Qed.

(** tests/test_dtrange.py:204 test_dateortimerange_find_index_by_item *)
Example test_find_2 :
  rmap (history [AskIndex (ODt (date 2016 1 6)) None None; AskIn (ODt (date 2016 1 6)); AskCount
    (ODt (date 2016 1 6))]) (new_range (VDt (date 2016 1 1)) (VInt 6) (VTd 86400000000))
  = Ok [Ok (SInt 5); Ok (SBool true); Ok (SInt 1)].
Proof. vm_compute. reflexivity. Qed.

(** tests/test_dtrange.py:205 test_dateortimerange_find_index_by_item *)
Example test_find_3 :
  rmap (history [AskIndex (ODt (date 2016 1 7)) None None; AskIn (ODt (date 2016 1 7)); AskCount
    (ODt (date 2016 1 7))]) (new_range (VDt (date 2016 1 1)) (VInt 6) (VTd 86400000000))
  = Ok [Raise ValueError; Ok (SBool false); Ok (SInt 0)].
Proof. vm_compute. reflexivity. Qed.

(** tests/test_dtrange.py:206 test_dateortimerange_find_index_by_item *)
Example test_find_4 :
  rmap (history [AskIndex (ODt (date 2015 12 31)) None None; AskIn (ODt (date 2015 12 31)); AskCount
    (ODt (date 2015 12 31))]) (new_range (VDt (date 2016 1 1)) (VInt 6) (VTd 86400000000))
  = Ok [Raise ValueError; Ok (SBool false); Ok (SInt 0)].
Proof. vm_compute. reflexivity. Qed.

(** tests/test_dtrange.py:207 test_dateortimerange_find_index_by_item *)
Example test_find_5 :
  rmap (history [AskIndex (ODt (date 2016 1 3)) None None; AskIn (ODt (date 2016 1 3)); AskCount
    (ODt (date 2016 1 3))]) (new_range (VDt (date 2016 1 1)) (VInt 6) (VTd 172800000000))
  = Ok [Ok (SInt 1); Ok (SBool true); Ok (SInt 1)].
Proof. vm_compute. reflexivity. Qed.

(** tests/test_dtrange.py:208 test_dateortimerange_find_index_by_item *)
Example test_find_6 :
  rmap (history [AskIndex (ODt (date 2016 1 2)) None None; AskIn (ODt (date 2016 1 2)); AskCount
    (ODt (date 2016 1 2))]) (new_range (VDt (date 2016 1 1)) (VInt 6) (VTd 172800000000))
  = Ok [Raise ValueError; Ok (SBool false); Ok (SInt 0)].
Proof. vm_compute. reflexivity. Qed.

(** tests/test_dtrange.py:209 test_dateortimerange_find_index_by_item *)
Example test_find_7 :
  rmap (history [AskIndex (ODt (time 10 0 0)) None None; AskIn (ODt (time 10 0 0)); AskCount (ODt
    (time 10 0 0))]) (new_range (VDt (time 8 0 0)) (VInt 5) (VTd 3600000000))
  = Ok [Ok (SInt 2); Ok (SBool true); Ok (SInt 1)].
Proof. vm_compute. reflexivity. Qed.

(** tests/test_dtrange.py:210 test_dateortimerange_find_index_by_item *)
Example test_find_8 :
  rmap (history [AskIndex (ODt (time 8 30 0)) None None; AskIn (ODt (time 8 30 0)); AskCount (ODt
    (time 8 30 0))]) (new_range (VDt (time 8 0 0)) (VInt 5) (VTd 3600000000))
  = Ok [Raise ValueError; Ok (SBool false); Ok (SInt 0)].
Proof. vm_compute. reflexivity. Qed.

(** tests/test_dtrange.py:211 test_dateortimerange_find_index_by_item *)
Example test_find_9 :
  rmap (history [AskIndex (ODt (time 8 30 0)) None None; AskIn (ODt (time 8 30 0)); AskCount (ODt
    (time 8 30 0))]) (new_range (VDt (datetime 2016 1 1 8 0 0)) (VInt 5) (VTd 3600000000))
  = Ok [Raise ValueError; Ok (SBool false); Ok (SInt 0)].
Proof. vm_compute. reflexivity. Qed.

(** tests/test_dtrange.py:212 test_dateortimerange_find_index_by_item *)
Example test_find_10 :
  rmap (history [AskIndex (ODt (date 2016 1 1)) None None; AskIn (ODt (date 2016 1 1)); AskCount
    (ODt (date 2016 1 1))]) (new_range (VDt (datetime 2016 1 1 8 0 0)) (VInt 5) (VTd 3600000000))
  = Ok [Raise ValueError; Ok (SBool false); Ok (SInt 0)].
Proof. vm_compute. reflexivity. Qed.

(** tests/test_dtrange.py:214 test_dateortimerange_find_index_by_item *)
Example test_find_11 :
  rmap (history [AskIndex (ODt (datetime 2016 1 1 9 0 0)) None None; AskIn (ODt (datetime 2016 1 1 9
    0 0)); AskCount (ODt (datetime 2016 1 1 9 0 0))]) (new_range (VDt (datetime 2016 1 1 8 0 0))
    (VInt 5) (VTd 3600000000))
  = Ok [Ok (SInt 1); Ok (SBool true); Ok (SInt 1)].
Proof. vm_compute. reflexivity. Qed.

(** date.fromisoformat, time.fromisoformat and datetime.fromisoformat on the
    strings that occur in the tests. *)
Definition iso_date (s : string) : option Z :=
  if String.eqb s "2016-01-01" then Some (dv (date 2016 1 1)) else
  if String.eqb s "2016-01-06" then Some (dv (date 2016 1 6)) else
  if String.eqb s "2016-01-05" then Some (dv (date 2016 1 5)) else
  if String.eqb s "2015-12-31" then Some (dv (date 2015 12 31)) else
  None.
Definition iso_time (s : string) : option Z :=
  if String.eqb s "04:00:00" then Some (dv (time 4 0 0)) else
  if String.eqb s "03:00" then Some (dv (time 3 0 0)) else
  if String.eqb s "22:00" then Some (dv (time 22 0 0)) else
  None.
Definition iso_datetime (s : string) : option Z :=
  if String.eqb s "2015-12-31T23:59:58" then Some (dv (datetime 2015 12 31 23 59 58)) else
  if String.eqb s "2016-01-01T00:00:02" then Some (dv (datetime 2016 1 1 0 0 2)) else
  None.
Notation dtr_of := (dtrange iso_date iso_time iso_datetime).

(** tests/test_dtrange.py:232 test_dtrange_validation *)
Example test_dtrange_validation_1 :
  dtr_of (UStr "2016/1/1"%string) (UStr "2016/1/5"%string) 1 (Some Udays)
  = Raise ValueError.
Proof. vm_compute. reflexivity. Qed.

(** tests/test_dtrange.py:233 test_dtrange_validation *)
Example test_dtrange_validation_2 :
  dtr_of (UStr "2016-01-01"%string) (UStr "2016/1/5"%string) 1 (Some Udays)
  = Raise ValueError.
Proof. vm_compute. reflexivity. Qed.

(** tests/test_dtrange.py:234 test_dtrange_validation *)
Example test_dtrange_validation_3 :
  dtr_of UBad (UStr "2016/1/5"%string) 1 (Some Udays)
  = Raise ValueError.
Proof. vm_compute. reflexivity. Qed.

(** tests/test_dtrange.py:235 test_dtrange_validation *)
Example test_dtrange_validation_4 :
  dtr_of (UDt (date 2016 1 1)) (UDt (datetime 2016 1 3 0 0 0)) 1 (Some Udays)
  = Raise ValueError.
Proof. vm_compute. reflexivity. Qed.

(** tests/test_dtrange.py:237 test_dtrange_validation *)
Example test_dtrange_validation_5 :
  dtr_of (UStr "2016-01-01"%string) (UStr "04:00:00"%string) 1 (Some Udays)
  = Raise ValueError.
Proof. vm_compute. reflexivity. Qed.

(** tests/test_dtrange.py:239 test_dtrange_validation *)
Example test_dtrange_validation_6 :
  dtr_of (UDt (date 2016 1 1)) (UDt (date 2016 1 3)) 1 (Some UOther)
  = Raise ValueError.
Proof. vm_compute. reflexivity. Qed.

(** tests/test_dtrange.py:240 test_dtrange_validation *)
Example test_dtrange_validation_7 :
  dtr_of (UDt (date 2016 1 1)) (UDt (date 2016 1 3)) 1 (Some UOther)
  = Raise ValueError.
Proof. vm_compute. reflexivity. Qed.

(** tests/test_dtrange.py:249 test_dtrange_return_value *)
Example test_dtrange_return_1 :
  (r <- dtr_of (UStr "2016-01-01"%string) (UStr "2016-01-06"%string) 1 None ;; dtr_list r)
  = Ok [date 2016 1 1; date 2016 1 2; date 2016 1 3; date 2016 1 4; date 2016 1 5].
Proof. vm_compute. reflexivity. Qed.

(** tests/test_dtrange.py:252 test_dtrange_return_value *)
Example test_dtrange_return_2 :
  (r <- dtr_of (UStr "2016-01-05"%string) (UStr "2015-12-31"%string) (-1) None ;; dtr_list r)
  = Ok [date 2016 1 5; date 2016 1 4; date 2016 1 3; date 2016 1 2; date 2016 1 1].
Proof. vm_compute. reflexivity. Qed.

(** tests/test_dtrange.py:255 test_dtrange_return_value *)
Example test_dtrange_return_3 :
  (r <- dtr_of (UDt (date 2016 1 1)) (UDt (date 2016 1 6)) 2 (Some Udays) ;; dtr_list r)
  = Ok [date 2016 1 1; date 2016 1 3; date 2016 1 5].
Proof. vm_compute. reflexivity. Qed.

(** tests/test_dtrange.py:257 test_dtrange_return_value *)
Example test_dtrange_return_4 :
  (r <- dtr_of (UDt (date 2016 1 1)) (UDt (date 2016 1 5)) 2 (Some Udays) ;; dtr_list r)
  = Ok [date 2016 1 1; date 2016 1 3].
Proof. vm_compute. reflexivity. Qed.

(** tests/test_dtrange.py:259 test_dtrange_return_value *)
Example test_dtrange_return_5 :
  (r <- dtr_of (UDt (time 10 30 0)) (UDt (time 10 30 6)) 1 None ;; dtr_list r)
  = Ok [time 10 30 0; time 10 30 1; time 10 30 2; time 10 30 3; time 10 30 4; time 10 30 5].
Proof. vm_compute. reflexivity. Qed.

(** tests/test_dtrange.py:262 test_dtrange_return_value *)
Example test_dtrange_return_6 :
  (r <- dtr_of (UDt (time 23 0 0)) (UDt (time 3 0 0)) 1 (Some Uhours) ;; dtr_list r)
  = Ok [time 23 0 0; time 0 0 0; time 1 0 0; time 2 0 0].
Proof. vm_compute. reflexivity. Qed.

(** tests/test_dtrange.py:264 test_dtrange_return_value *)
Example test_dtrange_return_7 :
  (r <- dtr_of (UStr "03:00"%string) (UStr "22:00"%string) (-1) (Some Uhours) ;; dtr_list r)
  = Ok [time 3 0 0; time 2 0 0; time 1 0 0; time 0 0 0; time 23 0 0].
Proof. vm_compute. reflexivity. Qed.

(** tests/test_dtrange.py:266 test_dtrange_return_value *)
Example test_dtrange_return_8 :
  (r <- dtr_of (UDt (datetime 2016 1 1 0 0 0)) (UDt (datetime 2016 1 3 0 0 0)) 12 (Some Uhours) ;;
    dtr_list r)
  = Ok [datetime 2016 1 1 0 0 0; datetime 2016 1 1 12 0 0; datetime 2016 1 2 0 0 0; datetime 2016 1
    2 12 0 0].
Proof. vm_compute. reflexivity. Qed.

(** tests/test_dtrange.py:269 test_dtrange_return_value *)
Example test_dtrange_return_9 :
  (r <- dtr_of (UStr "2015-12-31T23:59:58"%string) (UStr "2016-01-01T00:00:02"%string) 1 None ;;
    dtr_list r)
  = Ok [datetime 2015 12 31 23 59 58; datetime 2015 12 31 23 59 59; datetime 2016 1 1 0 0 0;
    datetime 2016 1 1 0 0 1].
Proof. vm_compute. reflexivity. Qed.

(** tests/test_dtrange.py:279 test_dtrange_start_equals_stop *)
Example test_dtrange_same_1 :
  (r <- dtr_of (UDt (time 0 0 0)) (UDt (time 0 0 0)) 1 None ;; dtr_len r)
  = Ok 86400.
Proof. vm_compute. reflexivity. Qed.

(** tests/test_dtrange.py:280 test_dtrange_start_equals_stop *)
Example test_dtrange_same_2 :
  (r <- dtr_of (UDt (time 1 0 0)) (UDt (time 1 0 0)) 1 None ;; dtr_len r)
  = Ok 86400.
Proof. vm_compute. reflexivity. Qed.

(** tests/test_dtrange.py:281 test_dtrange_start_equals_stop *)
Example test_dtrange_same_3 :
  (r <- dtr_of (UDt (time 0 0 0)) (UDt (time 0 0 0)) 1 (Some Uhours) ;; dtr_len r)
  = Ok 24.
Proof. vm_compute. reflexivity. Qed.

(** tests/test_dtrange.py:282 test_dtrange_start_equals_stop *)
Example test_dtrange_same_4 :
  (r <- dtr_of (UDt (time 0 0 0)) (UDt (time 0 1 0)) 1 (Some Uminutes) ;; dtr_len r)
  = Ok 1.
Proof. vm_compute. reflexivity. Qed.

(** tests/test_dtrange.py:283 test_dtrange_start_equals_stop *)
Example test_dtrange_same_5 :
  (r <- dtr_of (UDt (date 2016 1 1)) (UDt (date 2016 1 1)) 1 None ;; dtr_len r)
  = Ok 0.
Proof. vm_compute. reflexivity. Qed.

(** tests/test_dtrange.py:284 test_dtrange_start_equals_stop *)
Example test_dtrange_same_6 :
  (r <- dtr_of (UDt (datetime 2016 1 1 0 0 0)) (UDt (datetime 2016 1 1 0 0 0)) 1 None ;; dtr_len r)
  = Ok 0.
Proof. vm_compute. reflexivity. Qed.

