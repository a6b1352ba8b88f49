(** * CPython [range] objects: the external code that
    /repo/src/fauxdoc/dtrange.py:97 ([self._index_range = range(0, length)]),
    dtrange.py:181,185,244 rely on.  This is a transcription of the documented
    behaviour of [range] and [slice.indices] (Objects/rangeobject.c,
    Objects/sliceobject.c), not code of /repo. *)
From Verif Require Import Base.

Record pyrange := mkRange { rg_start : Z; rg_stop : Z; rg_step : Z }.

(** [range.__len__] without the Py_ssize_t limit *)
Definition rg_len (r : pyrange) : Z :=
  if 0 <? rg_step r then
    if rg_start r <? rg_stop r then 1 + (rg_stop r - 1 - rg_start r) / rg_step r else 0
  else
    if rg_stop r <? rg_start r then 1 + (rg_start r - 1 - rg_stop r) / (- rg_step r) else 0.

(** [range.__getitem__(int)] *)
Definition rg_get (r : pyrange) (i : Z) : res Z :=
  let n := rg_len r in
  let j := if i <? 0 then i + n else i in
  if (0 <=? j) && (j <? n) then Ok (rg_start r + j * rg_step r) else Raise IndexError.

(** A slice [a:b:c]; [None] is an omitted part. *)
Record pyslice := mkSlice { sl_start : option Z; sl_stop : option Z; sl_step : option Z }.

(** [slice.indices(n)] for a non-zero step: one bound. *)
Definition sl_bound (lower upper n : Z) (dflt : Z) (b : option Z) : Z :=
  match b with
  | None => dflt
  | Some i => if i <? 0 then Z.max lower (i + n) else Z.min upper i
  end.

Definition sl_stepv (s : pyslice) : Z := match sl_step s with None => 1 | Some k => k end.

(** [slice.indices(n)]; ValueError for a zero step. *)
Definition sl_indices (s : pyslice) (n : Z) : res (Z * Z * Z) :=
  let k := sl_stepv s in
  if k =? 0 then Raise ValueError
  else
    let lower := if k <? 0 then -1 else 0 in
    let upper := if k <? 0 then n - 1 else n in
    let i := sl_bound lower upper n (if k <? 0 then upper else lower) (sl_start s) in
    let j := sl_bound lower upper n (if k <? 0 then lower else upper) (sl_stop s) in
    Ok (i, j, k).

(** [range.__getitem__(slice)] *)
Definition rg_slice (r : pyrange) (s : pyslice) : res pyrange :=
  ijk <- sl_indices s (rg_len r) ;;
  let '(i, j, k) := ijk in
  Ok (mkRange (rg_start r + i * rg_step r) (rg_start r + j * rg_step r) (rg_step r * k)).

(** [x in range] for an int *)
Definition rg_contains (r : pyrange) (x : Z) : bool :=
  if 0 <? rg_step r then
    (rg_start r <=? x) && (x <? rg_stop r) && ((x - rg_start r) mod rg_step r =? 0)
  else
    (x <=? rg_start r) && (rg_stop r <? x) && ((rg_start r - x) mod (- rg_step r) =? 0).
