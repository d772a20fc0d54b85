(** Theorems on whole runs that hold bit for bit, in every arithmetic (C41, C42). *)
From Coq Require Import ZArith List Bool Lia.
From Verif Require Import Err Num NdArray FvM BcM LimitM OdeM SolverM SpecBc SpecSolver RunP.
Import ListNotations.
Open Scope Z_scope.

(** C41. Two runs whose initial states and boundary values agree on density, momentum and
    energy, but which differ in the number and the values of the passive scalars (and in the
    contents of uninitialised memory), show the same times, the same gas, the same trouble
    logs and the same gas in every snapshot, or raise the same exception. With or without
    slope limiting, for every integrator and every way of calling integrate. *)
Theorem C41_scalars_do_not_act_on_gas : forall (N : Num) (xc : axis -> Z -> car N) (c : config N) (b' : bcond N)
    heap heap' i as_averages T n exact downbeats log fuel u0 u0',
  sane c -> shp u0 = c_n c -> 5 <= rows u0 -> 5 <= rows u0' ->
  agree gas_row (c_n c) u0 u0' ->
  same_sides gas_row xc (c_bc c) b' (rows u0) (rows u0') ->
  (forall a, axis_ok xc (c_bc c) (rows u0) (c_n c) (ghost_zones3 c) a) ->
  (forall a, axis_ok xc b' (rows u0') (c_n c) (ghost_zones3 c) a) ->
  same_outcome gas_row (c_n c)
    (simulate c heap i as_averages T n exact downbeats log fuel u0)
    (simulate (replace_bc c b') heap' i as_averages T n exact downbeats log fuel u0').
Proof. exact scalars_passive. Qed.
Print Assumptions C41_scalars_do_not_act_on_gas.
Example C41_hypotheses : forall N xc,
  let c := demo (N := N) (mkix 12 11 1) (mkix 3 2 0) (uniform_bc B_periodic) true in
  let u0 := mkarr 5 (mkix 12 11 1) (demo_cell (N := N) 1) in
  let u0' := mkarr 8 (mkix 12 11 1) (fun v i => if v <? 5 then demo_cell (N := N) 1 v i else nofZ (cx i)) in
  sane c /\ shp u0 = c_n c /\ 5 <= rows u0 /\ 5 <= rows u0' /\ agree gas_row (c_n c) u0 u0' /\
  same_sides gas_row xc (c_bc c) (c_bc c) (rows u0) (rows u0') /\
  (forall a, axis_ok xc (c_bc c) (rows u0) (c_n c) (ghost_zones3 c) a) /\
  (forall a, axis_ok xc (c_bc c) (rows u0') (c_n c) (ghost_zones3 c) a).
Proof. exact example_2d. Qed.

(** C42. With as many cells as ghost zones along each periodic or symmetric axis, and slab
    arrays wide enough for prescribed values, a run does not depend on the contents of any
    freshly allocated array. *)
Theorem C42_memory_independent : forall (N : Num) (xc : axis -> Z -> car N) (c : config N)
    heap heap' i as_averages T n exact downbeats log fuel u0,
  sane c -> shp u0 = c_n c -> 5 <= rows u0 ->
  (forall a, axis_ok xc (c_bc c) (rows u0) (c_n c) (ghost_zones3 c) a) ->
  same_outcome (fun _ => True) (c_n c)
    (simulate c heap i as_averages T n exact downbeats log fuel u0)
    (simulate c heap' i as_averages T n exact downbeats log fuel u0).
Proof. exact memory_independent. Qed.
Print Assumptions C42_memory_independent.
(** On a smaller grid it does, in binary64, and nothing rejects the grid. *)
Theorem C42_small_grid_refuted : exists (c : config FNum) (u0 : arr f64) heap heap' o o',
  sane c /\ shp u0 = c_n c /\ 5 <= rows u0 /\
  simulate c heap I_euler true None (Some 1) true [] false 0 u0 = Ok o /\
  simulate c heap' I_euler true None (Some 1) true [] false 0 u0 = Ok o' /\
  at_ (o_u o) 0 (mkix 0 0 0) <> at_ (o_u o') 0 (mkix 0 0 0).
Proof. exact small_grid. Qed.
Print Assumptions C42_small_grid_refuted.
