(** Python's slice objects: CPython's PySlice_AdjustIndices, used by every array view
    in fvhoe (e.g. /repo/fvhoe/hydro.py:131-135, /repo/fvhoe/solver.py:578-634). *)
From Coq Require Import ZArith Bool.
Open Scope Z_scope.

Record pyslice := mkslice { sl_start : option Z; sl_stop : option Z; sl_step : option Z }.

Definition slice_all : pyslice := mkslice None None None.

Record extent := mkext { ex_start : Z; ex_len : Z; ex_step : Z }.

(** [slice(start, stop, step).indices(n)] followed by the length computation.
    The step is never 0 in fvhoe (0 would raise ValueError in Python). *)
Definition slice_adjust (n : Z) (s : pyslice) : extent :=
  let step := match sl_step s with None => 1 | Some k => k end in
  let lower := if step <? 0 then -1 else 0 in
  let upper := if step <? 0 then n - 1 else n in
  let clamp x := if x <? 0 then Z.max lower (x + n) else Z.min upper x in
  let start := match sl_start s with
               | None => if step <? 0 then upper else lower
               | Some x => clamp x end in
  let stop := match sl_stop s with
              | None => if step <? 0 then lower else upper
              | Some x => clamp x end in
  let len := if step <? 0
             then (if stop <? start then (start - stop - 1) / (- step) + 1 else 0)
             else (if start <? stop then (stop - start - 1) / step + 1 else 0) in
  mkext start len step.

(** Python's [x or None] on an integer: 0 becomes None. *)
Definition or_none (x : Z) : option Z := if x =? 0 then None else Some x.

(** [slice(a or None, b or None)] as built by HydroState (hydro.py:131-135) and by
    hydrofluxes (solver.py:634). *)
Definition cut (a b : Z) : pyslice := mkslice (or_none a) (or_none b) None.
(** the reversing slice [slice(None, None, -1)] *)
Definition cut_step (a b k : Z) : pyslice := mkslice (or_none a) (or_none b) (Some k).
