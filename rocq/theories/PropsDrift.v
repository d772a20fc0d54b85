(** Property C77: transport by a uniform velocity keeps the density within its bounds. *)
From Coq Require Import ZArith QArith List Reals.
From Verif Require Import Err Num NdArray StencilsM FvM RiemannM BcM SedM LimitM OdeM SolverM
  Spec SpecBc SpecLim SpecOde SpecSolver SpecCons SpecScheme SpecSym SpecDrift DriftP DriftQ.
Import ListNotations.
Open Scope Z_scope.

(** C77: take slope limiting with trouble forced everywhere, the upwind solver, boundaries that
    copy cells and a gas that moves with one velocity V, parallel to the walls. If a step
    crosses at most 2/3 of a cell with minmod slopes, or half a cell with monotonised central
    slopes (counted over the active axes together), then after any run with euler, ssprk2 or
    ssprk3, truncated steps included, every cell still moves with velocity V and its density
    still lies within the initial bounds; and so it is in the snapshots, when no degree exceeds
    one. In one, two and three dimensions, whatever the degrees, the energy and the passive
    scalars. *)
Theorem C77_drift_bounds : forall (c : config RNum) heap i as_averages T m exact downbeats log fuel u0 o V lo hi,
  tabulated c -> closed c -> c_limit c = true -> c_force c = true -> known_options c -> (c_convex c = false \/ flat_box c) ->
  c_rs c = RS_upwind -> (forall a, 0 < width c a)%R -> passes_walls c V -> unhurried c V ->
  i = I_euler \/ i = I_ssprk2 \/ i = I_ssprk3 ->
  shp u0 = c_n c -> 5 <= rows u0 -> (0 < lo)%R -> drifting V lo hi u0 -> List.Forall (fun x => (0 <= x)%R) downbeats ->
  simulate c heap i as_averages T m exact downbeats log fuel u0 = Ok o ->
  drifting V lo hi (o_u o) /\
  ((forall a, getc a (c_p c) <= 1) -> List.Forall (fun s => drifts V lo hi (fst (snd s))) (o_snaps o)).
Proof. exact drift_kept. Qed.
Print Assumptions C77_drift_bounds.
(** a dense square carried along a channel, with a fixed step and with the CFL rule *)
Example C77_canal : forall (c : config RNum) heap i k, c = canal \/ c = canal_cfl -> 1 <= k ->
  let u := mkarr 5 (c_n c) blob in
  tabulated c /\ closed c /\ c_limit c = true /\ c_force c = true /\ known_options c /\ (c_convex c = false \/ flat_box c) /\
  c_rs c = RS_upwind /\ (forall a, 0 < width c a)%R /\ passes_walls c stream /\ unhurried c stream /\ drifting stream 1 2 u /\
  exists o, simulate c heap i true None (Some k) true [] false 0 u = Ok o.
Proof. exact canal_case. Qed.

(** With longer steps it is not so: with minmod slopes a step that crosses four fifths of a
    cell (the default CFL number) takes the density below its minimum. *)
Theorem C77_long_step_refuted : exists (c : config QNum) heap u o,
  tabulated c /\ closed c /\ c_limit c = true /\ c_force c = true /\ c_limiter c = L_minmod /\ c_rs c = RS_upwind /\
  c_bounds c AX = (Qmake 0 1, Qmake 8 1) /\ getc AX (c_n c) = 8 /\ inactive c AY /\ inactive c AZ /\ c_fixed_dt c = Some (Qmake 4 5) /\
  shp u = c_n c /\ rows u = 5 /\ (forall i, in_shape (c_n c) i -> Qle (Qmake 1 1) (at_ u 0 i) /\ at_ u 1 i = at_ u 0 i /\ at_ u 2 i = Qmake 0 1 /\ at_ u 3 i = Qmake 0 1) /\
  simulate c heap I_euler true None (Some 1) true [] false 0 u = Ok o /\
  Qlt (at_ (o_u o) 0 (mkix 2 0 0)) (Qmake 1 1).
Proof. exact too_fast. Qed.
Print Assumptions C77_long_step_refuted.
