(** Theorems on the whole solver in exact arithmetic (C36-C41, C43, C44). *)
From Coq Require Import ZArith List Bool Lia Reals.
From Verif Require Import Err Num NdArray FvM RiemannM BcM LimitM OdeM SolverM SpecBc SpecSolver SpecOde SpecCons
  ConsP ExistP UniformP WallP WatchP ScalarP.
Import ListNotations.
Open Scope Z_scope.

(** C36. The flux computation of the main scheme and of the fallback scheme succeeds and
    returns arrays with one more entry than cells along their own direction. In every
    arithmetic, for every boundary that defines the ghost cells. *)
Theorem C36_flux_arrays_have_interface_shape :
  forall (N : Num) (xc : axis -> Z -> car N) (c : config N) junk t stale u p l,
  tabulated c -> fillable xc c (rows u) -> shp u = c_n c -> interface_arrays (c_n c) (rows u) stale ->
  (p = c_p c /\ l = L_none \/ p = fallback_p N c /\ l <> L_unknown) ->
  exists dt F, hydrofluxes N c junk t stale u p l = Ok (dt, F) /\ interface_arrays (c_n c) (rows u) F.
Proof. exact fluxes_shaped. Qed.
Print Assumptions C36_flux_arrays_have_interface_shape.
Example C36_hypotheses : forall xc,
  tabulated (flow3d B_free true) /\ fillable xc (flow3d B_free true) 6.
Proof. intro xc. split; [apply flow3d_tabulated|apply flow3d_fillable; exact I]. Qed.

(** C37. A run that starts from the same state in every cell keeps that state in every cell:
    any degree, Riemann solver, integrator, boundary that copies cells, with or without slope
    limiting, over the real numbers. The flow may slide along reflecting walls but not run
    into them. *)
Theorem C37_uniform_flow_is_preserved : forall (c : config RNum) heap i as_averages T n exact downbeats log fuel u0 s o,
  tabulated c -> closed c -> along_walls c s -> (c_limit c = true -> c_limiter c <> L_unknown) ->
  shp u0 = c_n c -> 2 <= rows u0 -> uniform u0 s ->
  simulate c heap i as_averages T n exact downbeats log fuel u0 = Ok o ->
  rows (o_u o) = rows u0 /\ shp (o_u o) = c_n c /\ uniform (o_u o) s.
Proof. exact uniform_run. Qed.
Print Assumptions C37_uniform_flow_is_preserved.
Example C37_hypotheses : tabulated (flow3d B_outflow true) /\ closed (flow3d B_outflow true) /\ forall s, along_walls (flow3d B_outflow true) s.
Proof. split; [apply flow3d_tabulated|]. split; [apply flow3d_closed; exact I|intros s a pos _ H; discriminate]. Qed.
(** gas at rest in a closed box *)
Example C37_hypotheses_box : tabulated (flow3d B_reflective true) /\ closed (flow3d B_reflective true) /\
  along_walls (flow3d B_reflective true) (fun v => if ((v =? 0) || (v =? 4))%bool then 1%R else 0%R).
Proof. split; [apply flow3d_tabulated|]. split; [apply flow3d_closed; exact I|intros [] pos _ _; reflexivity]. Qed.

(** C38. A periodic run without slope limiting keeps the sum over all cells of every row. *)
Theorem C38_periodic_runs_conserve : forall (c : config RNum) heap i as_averages T n exact downbeats log fuel u0 o,
  tabulated c -> all_ends B_periodic c -> c_limit c = false -> shp u0 = c_n c -> 2 <= rows u0 ->
  simulate c heap i as_averages T n exact downbeats log fuel u0 = Ok o ->
  rows (o_u o) = rows u0 /\ shp (o_u o) = c_n c /\
  forall v, total (c_n c) (at_ (o_u o) v) = total (c_n c) (at_ u0 v).
Proof. exact periodic_conserves. Qed.
Print Assumptions C38_periodic_runs_conserve.
(** and such runs exist: without slope limiting a run of any number of steps ends *)
Theorem C38_runs_end : forall (N : Num) (xc : axis -> Z -> car N) (c : config N) heap i as_averages k exact downbeats log fuel u0,
  tabulated c -> fillable xc c (rows u0) -> c_limit c = false -> shp u0 = c_n c -> 2 <= rows u0 -> 0 <= k ->
  exists o, simulate c heap i as_averages None (Some k) exact downbeats log fuel u0 = Ok o /\
    shp (o_u o) = c_n c /\ rows (o_u o) = rows u0 /\ o_steps o = k.
Proof. exact runs_end. Qed.
Print Assumptions C38_runs_end.
Example C38_hypotheses : forall xc, tabulated (flow3d B_periodic false) /\ all_ends B_periodic (flow3d B_periodic false) /\
  fillable xc (flow3d B_periodic false) 5.
Proof. intro xc. split; [apply flow3d_tabulated|]. split; [apply flow3d_ends|apply flow3d_fillable; exact I]. Qed.

(** C40. With reflecting walls at both ends of every axis (or periodic ends, without slope
    limiting) no mass, energy or scalar passes the walls: the sums over all cells of every row
    but the three momenta are those of the initial state. With the LLF or the HLLC solver, with
    or without slope limiting. *)
Theorem C40_walls_conserve : forall (c : config RNum) heap i as_averages T n exact downbeats log fuel u0 o,
  tabulated c -> c_rs c <> RS_upwind ->
  (forall a, ~ inactive c a -> both_ends B_reflective c a \/ (c_limit c = false /\ both_ends B_periodic c a)) ->
  (c_limit c = true -> c_limiter c <> L_unknown) -> shp u0 = c_n c -> 2 <= rows u0 ->
  simulate c heap i as_averages T n exact downbeats log fuel u0 = Ok o ->
  rows (o_u o) = rows u0 /\ shp (o_u o) = c_n c /\
  forall v, ~ (1 <= v <= 3) -> total (c_n c) (at_ (o_u o) v) = total (c_n c) (at_ u0 v).
Proof. exact walls_conserve. Qed.
Print Assumptions C40_walls_conserve.
Example C40_hypotheses : forall xc, tabulated (flow3d B_reflective true) /\ c_rs (flow3d B_reflective true) <> RS_upwind /\
  all_ends B_reflective (flow3d B_reflective true) /\ fillable xc (flow3d B_reflective true) 5.
Proof.
  intro xc. split; [apply flow3d_tabulated|]. split; [discriminate|]. split; [apply flow3d_ends|apply flow3d_fillable; exact I].
Qed.

(** C41. A passive scalar with the same concentration phi in every cell keeps it, as long as
    the scheme's cell-centre densities do not vanish. The proviso is expressed by a run that
    stops at a state failing the test [ok]. *)
Theorem C41_uniform_concentration_stays : forall phi v (c : config RNum) heap ok i as_averages T n exact downbeats log fuel u0 o,
  ~ (0 <= v <= 4) -> tabulated c -> closed c -> (c_limit c = true -> c_limiter c <> L_unknown) ->
  shp u0 = c_n c -> 2 <= rows u0 ->
  (forall u, ok u = true -> no_vacuum c (c_p c) u /\ (c_limit c = true -> no_vacuum c (fallback_p RNum c) u)) ->
  proportional phi v u0 ->
  simulate_checked ok c heap i as_averages T n exact downbeats log fuel u0 = Ok o ->
  simulate c heap i as_averages T n exact downbeats log fuel u0 = Ok o /\
  rows (o_u o) = rows u0 /\ shp (o_u o) = c_n c /\ proportional phi v (o_u o).
Proof. intros phi v c heap ok i av T n ex db log fuel u0 o Hv. exact (scalar_run phi v Hv c heap ok i av T n ex db log fuel u0 o). Qed.
Print Assumptions C41_uniform_concentration_stays.
Example C41_uniform_hypotheses : forall heap, exists o,
  let c := flow3d B_outflow false in let u0 := mkarr 6 (c_n c) (fun v _ => flow_state v) in
  tabulated c /\ closed c /\ proportional (1/3) 5 u0 /\
  (forall u, unit_density (c_n c) u = true -> no_vacuum c (c_p c) u) /\
  simulate_checked (N := RNum) (unit_density (c_n c)) c heap I_ssprk3 true None (Some 7) true [] false 0 u0 = Ok o.
Proof. exact scalar_example. Qed.

(** C30. run() picks the integrator whose order is one more than the highest degree, up to
    four: the scheme has the same order in time as in space. *)
Theorem C30_run_matches_orders : forall N (c : config N), sane c ->
  Z.of_nat (order (run_integrator N c)) = Z.min (top_degree (c_p c) + 1) 4.
Proof. exact run_order. Qed.
Print Assumptions C30_run_matches_orders.
Example C30_run_case : sane (flow3d B_periodic false) /\ order (run_integrator RNum (flow3d B_periodic false)) = 4%nat.
Proof. split; [apply flow3d_tabulated|reflexivity]. Qed.
