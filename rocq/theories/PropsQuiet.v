(** Property C78: slope limiting that acts nowhere or everywhere. *)
From Coq Require Import ZArith List Reals.
From Verif Require Import Err Num NdArray StencilsM FvM RiemannM BcM LimitM OdeM SolverM
  Spec SpecBc SpecLim SpecSolver SpecCons SpecScheme SpecSym SpecLimRhs SpecQuiet QuietP QuietQ QuietS QuietT.
Import ListNotations.
Open Scope Z_scope.

(** C78: in exact arithmetic, a run with slope limiting in which no state that is evaluated has
    a troubled cell is the run without slope limiting: same times, steps, states and
    snapshots. (ok is a test of states that excludes troubled cells; the run is one that
    would stop if the test failed.) All boundary conditions that define the ghost cells, all
    Riemann solvers, integrators, degrees, and ways of choosing the time step. *)
Theorem C78_untroubled_runs : forall wi wt, tables wi wt -> forall (c : config RNum), tabulated c -> c_limit c = true -> known_options c ->
  c_convex c = false \/ flat_box c -> (sed_on (c_nad c) = true -> (0 < sed_eps (c_nad c))%R) ->
  forall xc r, 2 <= r -> fillable (N := RNum) xc c r -> forall slope, fallback_slope c slope ->
  forall ok, test_of_cells ok -> no_trouble wi wt xc c r ok ->
  forall heap heap' i as_averages T n exact downbeats log fuel u o, shp u = c_n c -> rows u = r ->
  simulate_checked (N := RNum) ok c heap i as_averages T n exact downbeats log fuel u = Ok o ->
  simulate c heap i as_averages T n exact downbeats log fuel u = Ok o /\
  exists o', simulate (unlimited c) heap' i as_averages T n exact downbeats log fuel u = Ok o' /\ moved_run (N := RNum) (same_cells (c_n c)) o o'.
Proof. exact quiet_runs. Qed.
Print Assumptions C78_untroubled_runs.

(** C78: in particular, with a detector that looks at no variable (NAD_vars = [], no physical
    bounds) slope limiting has no effect on any run. *)
Theorem C78_nothing_watched : forall (c : config RNum) xc slope heap heap' i as_averages T n exact downbeats log fuel u,
  tabulated c -> c_limit c = true -> known_options c -> c_convex c = false \/ flat_box c -> fallback_slope c slope ->
  c_force c = false -> nad_vars (c_nad c) = Some [] -> pad_bounds (c_nad c) = None ->
  (sed_on (c_nad c) = true -> (0 < sed_eps (c_nad c))%R) -> fillable (N := RNum) xc c (rows u) -> shp u = c_n c -> 2 <= rows u ->
  moved_outcome (N := RNum) (same_cells (c_n c)) (simulate c heap i as_averages T n exact downbeats log fuel u)
    (simulate (unlimited c) heap' i as_averages T n exact downbeats log fuel u).
Proof. exact nothing_watched. Qed.
Print Assumptions C78_nothing_watched.
Example C78_idle : forall cv ty heap i k u, copies ty -> shp u = c_n (idle cv ty) -> rows u = 5 -> 1 <= k -> let c := idle cv ty in
  tabulated c /\ c_limit c = true /\ known_options c /\ flat_box c /\ (exists slope, fallback_slope c slope) /\ c_force c = false /\
  nad_vars (c_nad c) = Some [] /\ pad_bounds (c_nad c) = None /\ sed_on (c_nad c) = true /\ (0 < sed_eps (c_nad c))%R /\
  fillable (N := RNum) (fun _ _ => 0%R) c (rows u) /\
  exists o, simulate c heap i true None (Some k) true [] false 0 u = Ok o.
Proof. exact idle_example. Qed.

(** C78: whatever cells are flagged, slope limiting has no effect on a run when the fall-back
    scheme is the scheme itself: degrees of at most one without a slope limiter, or degrees
    zero with any. (The trouble log may differ.) *)
Theorem C78_same_fallback : forall (c : config RNum) xc slope heap heap' i as_averages T n exact downbeats log fuel u,
  tabulated c -> c_limit c = true -> known_options c -> c_convex c = false \/ flat_box c -> fallback_slope c slope ->
  (forall a, getc a (c_p c) <= 1) -> c_limiter c = L_none \/ (forall a, getc a (c_p c) = 0) ->
  (sed_on (c_nad c) = true -> (0 < sed_eps (c_nad c))%R) -> fillable (N := RNum) xc c (rows u) -> shp u = c_n c -> 2 <= rows u ->
  moved_outcome (N := RNum) (same_cells (c_n c)) (simulate c heap i as_averages T n exact downbeats log fuel u)
    (simulate (unlimited c) heap' i as_averages T n exact downbeats log fuel u).
Proof. exact same_fallback. Qed.
Print Assumptions C78_same_fallback.
Example C78_plain : forall cv ty heap i k u, copies ty -> shp u = c_n (plain cv ty) -> rows u = 5 -> 1 <= k -> let c := plain cv ty in
  tabulated c /\ c_limit c = true /\ known_options c /\ flat_box c /\ (exists slope, fallback_slope c slope) /\
  (forall a, getc a (c_p c) <= 1) /\ c_limiter c = L_none /\ (0 < sed_eps (c_nad c))%R /\
  fillable (N := RNum) (fun _ _ => 0%R) c (rows u) /\
  exists o, simulate c heap i true None (Some k) true [] false 0 u = Ok o.
Proof. exact plain_example. Qed.

(** C78: at the other extreme, with forced trouble and a fixed time step the states do not
    depend on the degrees beyond 1: the run has the times, steps and cells of the run of
    degree one, or the same exception. (The primitive variables in the snapshots are computed
    with the given degrees and can differ.) *)
Theorem C78_forced_runs : forall wi wt, tables wi wt -> forall (c : config RNum), tabulated c -> c_limit c = true -> known_options c ->
  c_convex c = false \/ flat_box c -> c_force c = true ->
  forall xc r, 2 <= r -> fillable (N := RNum) xc c r -> forall slope, fallback_slope c slope -> forall dt, c_fixed_dt c = Some dt ->
  forall heap heap' i as_averages T n exact downbeats log fuel u, shp u = c_n c -> rows u = r ->
  match simulate c heap i as_averages T n exact downbeats log fuel u, simulate (linear c) heap' i as_averages T n exact downbeats log fuel u with
  | Ok o, Ok o' => same_states (N := RNum) (c_n c) o o'
  | Err e, Err e' => e = e'
  | _, _ => False
  end.
Proof. exact forced_runs. Qed.
Print Assumptions C78_forced_runs.
Example C78_driven : forall cv ty heap i k u, copies ty -> shp u = c_n (driven cv ty) -> rows u = 5 -> 1 <= k -> let c := driven cv ty in
  tabulated c /\ c_limit c = true /\ known_options c /\ flat_box c /\ (exists slope, fallback_slope c slope) /\ c_force c = true /\
  c_fixed_dt c = Some (1/1000)%R /\ fillable (N := RNum) (fun _ _ => 0%R) c (rows u) /\ c_p c = mkix 3 2 0 /\ c_p (linear c) = mkix 1 1 0 /\
  exists o, simulate c heap i true None (Some k) true [] false 0 u = Ok o.
Proof. exact driven_example. Qed.
