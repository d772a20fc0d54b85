(** Property C70: gas seen from a frame that moves along an ignorable axis. *)
From Coq Require Import ZArith List Reals Lra Lia.
From Verif Require Import Err Num NdArray HydroM RiemannM StencilsM FvM BcM SedM LimitM OdeM SolverM
  Spec SpecBc SpecSolver SpecCons SpecScheme SpecSym SpecBoost FvP MirrorP BoostP BoostQ.
Import ListNotations.
Open Scope Z_scope.

(** C70: in exact arithmetic, with a fixed time step, boundaries that copy cells and no slope
    limiting, adding a speed W along an ignorable axis to the initial gas adds it to the gas of
    the whole run: same times and steps, density, pressure, passive scalars and the other
    velocities unchanged. All Riemann solvers, all degrees, all integrators. The proviso is
    that the right-hand side is evaluated only for states (those passing the test [ok]) without
    vacuum at the centres of the cells that matter. *)
Theorem C70_transverse_boost : forall wi wt, tables wi wt ->
  forall ok (c : config RNum) W a heap heap' i as_averages T n exact downbeats log fuel u u' o dt,
  tabulated c -> closed c -> c_limit c = false -> inactive c a -> c_fixed_dt c = Some dt -> test_of_cells ok ->
  (forall w, shp w = c_n c -> ok w = true -> dense_centres wi c (filled c w)) ->
  shp u = c_n c -> 1 <= rows u -> boosted (N := RNum) W a u u' ->
  simulate_checked (N := RNum) ok c heap i as_averages T n exact downbeats log fuel u = Ok o ->
  simulate c heap i as_averages T n exact downbeats log fuel u = Ok o /\
  exists o', simulate c heap' i as_averages T n exact downbeats log fuel u' = Ok o' /\ run_boosted as_averages W a o o'.
Proof. exact boost_run. Qed.
Print Assumptions C70_transverse_boost.
(** a wind through a tube, with seven units of speed added across it *)
Example C70_tube : forall heap, let c := tube in let u := mkarr 5 (c_n c) (fun v _ => wind v) in
  tabulated c /\ closed c /\ inactive c AY /\ test_of_cells physical_b /\
  (forall w, shp w = c_n c -> physical_b w = true -> dense_centres (wts_i RNum) c (filled c w)) /\
  (exists u', boosted (N := RNum) 7%R AY u u' /\ at_ u' 2 (mkix 0 0 0) = 5%R) /\
  exists o, simulate_checked (N := RNum) physical_b c heap I_ssprk3 false None (Some 7) true [] false 0 u = Ok o.
Proof. exact tube_case. Qed.

(** With time steps from the CFL condition it is not so, because the velocity along ignorable
    axes counts in the condition: gas at rest, in binary64 arithmetic with the default CFL
    number, takes steps more than twice as long as the same gas sliding along y. *)
Theorem C70_cfl_refuted : exists (c : config FNum) heap a W u u' o o',
  tabulated c /\ closed c /\ c_limit c = false /\ inactive c a /\ c_fixed_dt c = None /\ shp u = c_n c /\ rows u = 5 /\
  (forall i, at_ u 0 i = nofZ (n := FNum) 1) /\ boosted W a u u' /\
  simulate c heap I_euler true None (Some 1) true [] false 0 u = Ok o /\
  simulate c heap I_euler true None (Some 1) true [] false 0 u' = Ok o' /\
  nltb (n := FNum) (nmul (n := FNum) (nofZ (n := FNum) 2) (o_t o')) (o_t o) = true.
Proof. exact slower_clock. Qed.
Print Assumptions C70_cfl_refuted.
