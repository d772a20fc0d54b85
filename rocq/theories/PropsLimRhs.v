(** Property C76: the slope-limited right-hand side in full. *)
From Coq Require Import ZArith List Reals.
From Verif Require Import Err Num NdArray StencilsM FvM RiemannM BcM SedM LimitM OdeM SolverM
  Spec SpecBc SpecLim SpecSolver SpecCons SpecScheme SpecSym SpecLimRhs FvP SchemeP MirLimQ LimRhsP.
Import ListNotations.
Open Scope Z_scope.

(** C76: with slope limiting the right-hand side can be evaluated for every state, and it is
    the balance of mixtures of the fluxes of the given degrees and the fluxes of the limited
    scheme of degree one. A cell is troubled when trouble is forced, when the explicit Euler
    step with the unlimited fluxes violates the last of the physical bounds, or when that
    step takes a selected variable out of the range of the cell and its neighbours where the
    result is not smooth. Each face of a troubled cell takes the limited flux; with convex
    blending the faces nearby take the share of the nearest troubled cell. *)
Theorem C76_limited_balance : forall wi wt, tables wi wt -> forall c : config RNum, tabulated c ->
  c_limit c = true -> known_options c -> c_convex c = false \/ flat_box c ->
  (sed_on (c_nad c) = true -> (0 < sed_eps (c_nad c))%R) ->
  forall xc heap x self_t t u slope,
  fillable xc c (rows u) -> fallback_slope c slope -> shp u = c_n c -> 2 <= rows u -> aux_shapes c (rows u) x ->
  let E := extended RNum xc (c_bc c) (c_n c) self_t u in
  let hi d := face_flux wi wt c (c_p c) None d E in
  let lo d := face_flux wi wt c (low (c_p c)) slope d E in
  exists x' dt dudt theta, solver_f RNum c heap x self_t t u = Ok (x', (dt, dudt)) /\ aux_shapes c (rows u) x' /\
    let E' := extended RNum xc (c_bc c) (c_n c) self_t (euler_candidate c u dt (balance c hi)) in
    let W := primitives wi wt (c_p c) (c_gamma c) in
    time_step c (W E) dt /\ rows dudt = rows u /\ shp dudt = c_n c /\
    (forall d i, ~ inactive c d -> in_shape (interface_shape d (c_n c)) i -> limited_share c (troubled c (W E) (W E')) d i (theta d i)) /\
    forall v i, in_shape (c_n c) i -> at_ dudt v i = balance c (blended (Some theta) hi lo) v i.
Proof. exact limited_rhs_closed. Qed.
Print Assumptions C76_limited_balance.
(** the shares are determined by the troubled cells *)
Theorem C76_one_share : forall (c : config RNum) tr a i w w', limited_share c tr a i w -> limited_share c tr a i w' -> w = w'.
Proof. exact share_unique. Qed.
Print Assumptions C76_one_share.

(** C76: a troubled cell follows the limited scheme of degree one alone; without convex
    blending a cell that is not troubled and has no troubled neighbour follows the scheme of
    the given degrees alone. In particular with forced trouble the right-hand side is that of
    the limited scheme everywhere. *)
Theorem C76_troubled_cells : forall wi wt, tables wi wt -> forall c : config RNum, tabulated c ->
  c_limit c = true -> known_options c -> c_convex c = false \/ flat_box c ->
  (sed_on (c_nad c) = true -> (0 < sed_eps (c_nad c))%R) ->
  forall xc heap x self_t t u slope x' dt dudt,
  fillable xc c (rows u) -> fallback_slope c slope -> shp u = c_n c -> 2 <= rows u -> aux_shapes c (rows u) x ->
  solver_f RNum c heap x self_t t u = Ok (x', (dt, dudt)) ->
  let E := extended RNum xc (c_bc c) (c_n c) self_t u in
  let hi d := face_flux wi wt c (c_p c) None d E in
  let lo d := face_flux wi wt c (low (c_p c)) slope d E in
  let W := primitives wi wt (c_p c) (c_gamma c) in
  let tr := troubled c (W E) (W (extended RNum xc (c_bc c) (c_n c) self_t (euler_candidate c u dt (balance c hi)))) in
  (forall i, in_shape (c_n c) i -> tr i -> forall v, at_ dudt v i = balance c lo v i) /\
  (c_convex c = false -> forall i, in_shape (c_n c) i -> ~ tr i ->
    (forall a k, ~ inactive c a -> k = 1 \/ k = -1 -> in_shape (c_n c) (up a k i) -> ~ tr (up a k i)) ->
    forall v, at_ dudt v i = balance c hi v i).
Proof. exact troubled_rhs. Qed.
Print Assumptions C76_troubled_cells.
(** the default options, smooth-extrema detection included, on a plate of 12 x 13 cells *)
Example C76_plate : forall cv ty heap (u : arr R), copies ty -> rows u = 5 -> let c := plate_sed true cv ty in
  tables (wts_i RNum) (wts_t RNum) /\ tabulated c /\ c_limit c = true /\ known_options c /\ flat_box c /\
  (sed_on (c_nad c) = true /\ (0 < sed_eps (c_nad c))%R) /\ fillable (N := RNum) (fun _ _ => 0%R) c (rows u) /\
  (exists slope, fallback_slope c slope) /\ aux_shapes c (rows u) (aux_init RNum c heap (rows u)).
Proof. exact plate_rhs. Qed.
