(** Property C73: data that do not vary along an axis. *)
From Coq Require Import ZArith List Reals.
From Verif Require Import Err Num NdArray RiemannM StencilsM FvM BcM LimitM OdeM SolverM
  Spec SpecBc SpecSolver SpecCons SpecScheme SpecLim SpecSym SpecMirLim SpecThin ThinP ThinQ ThinLimP MirLimQ ThinLimQ.
Import ListNotations.
Open Scope Z_scope.

(** C73: in exact arithmetic, with a fixed time step, boundaries that copy cells and no slope
    limiting, a run whose initial state repeats one layer of cells along an axis without walls
    is, layer by layer, the run with that single layer and degree 0 along the axis: same times,
    same steps, same states and same snapshots, or the same exception. All numbers of cells and
    degrees along the axis, all Riemann solvers and integrators. *)
Theorem C73_extruded_runs : forall (c : config RNum) e dt heap heap' i as_averages T n exact downbeats log fuel u u',
  tabulated c -> closed c -> c_limit c = false -> (exists a, a <> e /\ ~ inactive c a) ->
  (forall pos, bc_type (c_bc c) e pos <> B_reflective) -> c_fixed_dt c = Some dt ->
  shp u' = c_n c -> 1 <= rows u -> extruded e u u' ->
  moved_outcome (N := RNum) (extruded e)
    (simulate (thin e c) heap i as_averages T n exact downbeats log fuel u)
    (simulate c heap' i as_averages T n exact downbeats log fuel u').
Proof.
  intros c e dt heap heap' i av T n ex db log fuel u u' HT HC HL HA HW FD. exact (thin_runs c HT HC HL e HA HW dt FD heap heap' i av T n ex db log fuel u u').
Qed.
Print Assumptions C73_extruded_runs.
(** a wave along x on a periodic sheet *)
Example C73_sheet : forall heap,
  tabulated sheet /\ closed sheet /\ (exists a, a <> AY /\ ~ inactive sheet a) /\ (forall pos, bc_type (c_bc sheet) AY pos <> B_reflective) /\
  extruded AY (mkarr 5 (mkix 12 1 1) swell) (mkarr 5 (c_n sheet) swell) /\
  exists o, simulate sheet heap I_ssprk3 true None (Some 5) true [] false 0 (mkarr 5 (c_n sheet) swell) = Ok o.
Proof. exact sheet_case. Qed.

(** C73 with slope limiting, with the usual blending, and with the convex blending on boxes on which it does not
    fail (flat_box): the run is, layer by layer, the run with the single layer and with the smooth-extrema
    detector off. That detector, where it is on, looks along every axis and takes no extremum
    of such data for a smooth one. *)
Theorem C73_extruded_runs_with_limiting : forall (c : config RNum) e dt heap heap' i as_averages T n exact downbeats log fuel u u',
  tabulated c -> closed c -> c_limit c = true -> known_options c -> c_convex c = false \/ flat_box c ->
  (exists a, a <> e /\ ~ inactive c a) -> (forall pos, bc_type (c_bc c) e pos <> B_reflective) -> c_fixed_dt c = Some dt ->
  sed_on (c_nad c) = false \/ ((0 < sed_eps (c_nad c))%R /\ ~ inactive c e) ->
  shp u' = c_n c -> 2 <= rows u -> extruded e u u' ->
  moved_outcome (N := RNum) (extruded e)
    (simulate (thin e (without_sed c)) heap i as_averages T n exact downbeats log fuel u)
    (simulate c heap' i as_averages T n exact downbeats log fuel u').
Proof.
  intros c e dt heap heap' i av T n ex db log fuel u u' HT HC HL HK HB HA HW FD SD.
  exact (thin_limited c HT HC HL HK e HB HA HW dt FD SD heap heap' i av T n ex db log fuel u u').
Qed.
Print Assumptions C73_extruded_runs_with_limiting.

(** C73: on data that do not vary along an active axis without walls the smooth-extrema
    detector has no effect at all, and the data keep that property. *)
Theorem C73_smooth_extrema_never_seen : forall (c : config RNum) e dt heap heap' i as_averages T n exact downbeats log fuel u,
  tabulated c -> closed c -> c_limit c = true -> known_options c -> c_convex c = false \/ flat_box c ->
  (exists a, a <> e /\ ~ inactive c a) -> (forall pos, bc_type (c_bc c) e pos <> B_reflective) -> c_fixed_dt c = Some dt ->
  ~ inactive c e -> (0 < sed_eps (c_nad c))%R -> shp u = c_n c -> 2 <= rows u ->
  (forall v i, in_shape (c_n c) i -> at_ u v i = at_ u v (setc e 0 i)) ->
  moved_outcome (N := RNum)
    (fun w w' => rows w = rows w' /\ agree (fun _ => True) (c_n c) w w' /\
                 (forall v i, in_shape (c_n c) i -> at_ w v i = at_ w v (setc e 0 i)))
    (simulate (without_sed c) heap i as_averages T n exact downbeats log fuel u)
    (simulate c heap' i as_averages T n exact downbeats log fuel u).
Proof. exact detector_idle. Qed.
Print Assumptions C73_smooth_extrema_never_seen.
(** a ridge along y on a plate with limiting and the smooth-extrema detector on *)
Example C73_plank : forall cv ty heap i k, copies ty -> ty <> B_reflective -> 1 <= k -> let c := plank true cv ty in
  tabulated c /\ closed c /\ c_limit c = true /\ known_options c /\ flat_box c /\ (exists a, a <> AY /\ ~ inactive c a) /\ ~ inactive c AY /\
  (forall pos, bc_type (c_bc c) AY pos <> B_reflective) /\ sed_on (c_nad c) = true /\ (0 < sed_eps (c_nad c))%R /\
  extruded AY (mkarr 5 (mkix 12 1 1) ridge) (mkarr 5 (c_n c) ridge) /\
  exists o, simulate c heap i true None (Some k) true [] false 0 (mkarr 5 (c_n c) ridge) = Ok o.
Proof. exact plank_example. Qed.

(** With time steps from the CFL condition it is not so, because the speed of sound counts once
    for every active axis: gas at rest takes steps of half the length on three by three cells
    (binary64, default CFL number). *)
Theorem C73_cfl_refuted : exists (c : config FNum) heap e u u' o o',
  tabulated c /\ closed c /\ c_limit c = false /\ (exists a, a <> e /\ ~ inactive c a) /\ (forall pos, bc_type (c_bc c) e pos = B_periodic) /\
  c_fixed_dt c = None /\ shp u' = c_n c /\ rows u = 5 /\ extruded e u u' /\
  simulate (thin e c) heap I_euler true None (Some 1) true [] false 0 u = Ok o /\
  simulate c heap I_euler true None (Some 1) true [] false 0 u' = Ok o' /\
  o_t o = nmul (n := FNum) (nofZ (n := FNum) 2) (o_t o').
Proof. exact half_step. Qed.
Print Assumptions C73_cfl_refuted.
