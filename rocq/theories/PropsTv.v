(** Theorems on the total variation (C80). *)
From Coq Require Import ZArith QArith List Bool Reals.
From Verif Require Import Err Num NdArray FvM RiemannM StencilsM BcM SpecBc LimitM OdeM SolverM Spec SpecSolver SpecCons SpecScheme SpecSym SpecDrift SpecTv TvP TvQ.
Import ListNotations.
Open Scope Z_scope.

(** C80. Let there be one active axis and a gas that moves with one velocity V everywhere.
    With forced slope limiting, the upwind solver and steps that cross at most 2/3 of a cell with
    minmod slopes or half a cell with monotonised central slopes, no run with euler, ssprk2 or
    ssprk3 increases the total variation of the density: the sum of the jumps between neighbouring
    cells, around the ring if the axis is periodic. The same for the density in the snapshots when
    no degree exceeds one. *)
Theorem C80_total_variation : forall (c : config RNum) heap i as_averages T m exact downbeats log fuel u0 o V lo hi d,
  tabulated c -> closed c -> c_limit c = true -> c_force c = true -> known_options c -> (c_convex c = false \/ flat_box c) ->
  c_rs c = RS_upwind -> (forall a, 0 < width c a)%R -> passes_walls c V -> unhurried c V -> only_axis c d -> ends_alike c d ->
  i = I_euler \/ i = I_ssprk2 \/ i = I_ssprk3 ->
  shp u0 = c_n c -> 5 <= rows u0 -> (0 < lo)%R -> drifting V lo hi u0 -> List.Forall (fun x => (0 <= x)%R) downbeats ->
  simulate c heap i as_averages T m exact downbeats log fuel u0 = Ok o ->
  (variation c d (o_u o) <= variation c d u0)%R /\
  ((forall a, getc a (c_p c) <= 1) -> List.Forall (fun s => (variation c d (fst (snd s)) <= variation c d u0)%R) (o_snaps o)).
Proof. exact tv_kept. Qed.
Print Assumptions C80_total_variation.
(** a dense slug in a ring or in an open tube, moving either way *)
Example C80_tube : forall ty s heap i k, ty = B_periodic \/ ty = B_free -> s = 1%R \/ s = (-1)%R -> 1 <= k ->
  let c := tube ty in let u := mkarr 5 (mkix 12 1 1) (slug s) in
  tabulated c /\ closed c /\ known_options c /\ (forall a, 0 < width c a)%R /\ passes_walls c (flow_by s) /\ unhurried c (flow_by s) /\ only_axis c AX /\ ends_alike c AX /\
  drifting (flow_by s) 1 2 u /\ variation c AX u = 2%R /\ exists o, simulate c heap i true None (Some k) true [] false 0 u = Ok o.
Proof. exact tube_case. Qed.

(** Without slope limiting the total variation of a block grows in one step, half a cell long,
    from 2 to more than 2.8 with quadratic reconstruction. *)
Theorem C80_unlimited_refuted : exists (c : config QNum) heap u o,
  tabulated c /\ closed c /\ c_limit c = false /\ c_rs c = RS_upwind /\ c_p c = mkix 2 0 0 /\ only_axis c AX /\ ends_alike c AX /\
  c_bounds c AX = (Qmake 0 1, Qmake 8 1) /\ getc AX (c_n c) = 8 /\ c_fixed_dt c = Some (Qmake 1 2) /\
  shp u = c_n c /\ rows u = 5 /\ (forall i, in_shape (c_n c) i -> (at_ u 0 i = Qmake 1 1 \/ at_ u 0 i = Qmake 2 1) /\ at_ u 1 i = at_ u 0 i /\ at_ u 2 i = Qmake 0 1 /\ at_ u 3 i = Qmake 0 1) /\
  simulate c heap I_euler true None (Some 1) true [] false 0 u = Ok o /\
  Qeq (variation_Q c AX u) (Qmake 2 1) /\ Qlt (Qmake 28 10) (variation_Q c AX (o_u o)).
Proof. exact unlimited_grows. Qed.
Print Assumptions C80_unlimited_refuted.
(** With limiting it grows for steps that cross four fifths of a cell (the default CFL number). *)
Theorem C80_long_step_refuted : exists (c : config QNum) heap u o,
  tabulated c /\ closed c /\ c_limit c = true /\ c_force c = true /\ c_limiter c = L_minmod /\ c_rs c = RS_upwind /\ only_axis c AX /\ ends_alike c AX /\
  c_bounds c AX = (Qmake 0 1, Qmake 8 1) /\ getc AX (c_n c) = 8 /\ c_fixed_dt c = Some (Qmake 4 5) /\
  shp u = c_n c /\ rows u = 5 /\ (forall i, in_shape (c_n c) i -> Qle (Qmake 1 1) (at_ u 0 i) /\ at_ u 1 i = at_ u 0 i /\ at_ u 2 i = Qmake 0 1 /\ at_ u 3 i = Qmake 0 1) /\
  simulate c heap I_euler true None (Some 1) true [] false 0 u = Ok o /\
  Qlt (variation_Q c AX u) (variation_Q c AX (o_u o)).
Proof. exact long_grows. Qed.
Print Assumptions C80_long_step_refuted.
