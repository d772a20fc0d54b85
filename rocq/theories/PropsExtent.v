(** Theorems on the place and the extent of the domain (C83). *)
From Coq Require Import ZArith List Bool Reals.
From Verif Require Import Err Num NdArray FvM StencilsM BcM LimitM RiemannM OdeM SolverM Spec SpecSolver SpecSym SpecPos SpecExtent ExtentP ExtentQ.
Import ListNotations.
Open Scope Z_scope.

(** C83. Where the domain lies does not matter: only its extents enter the evolution, for any
    arithmetic, any options and any state. *)
Theorem C83_place_has_no_effect : forall N (c : config N) b, (forall a, extent b a = extent (c_bounds c) a) ->
  forall heap i as_averages T n exact downbeats log fuel u,
  simulate (replace_bounds c b) heap i as_averages T n exact downbeats log fuel u = simulate c heap i as_averages T n exact downbeats log fuel u.
Proof. exact place. Qed.
Print Assumptions C83_place_has_no_effect.
(** C83. With a fixed step the extents along axes of one cell and degree zero do not matter
    either; *)
Theorem C83_idle_extent_fixed_step : forall N (c : config N) b, c_fixed_dt c <> None -> (forall a, ~ inactive c a -> extent b a = extent (c_bounds c) a) ->
  forall heap i as_averages T n exact downbeats log fuel u,
  simulate (replace_bounds c b) heap i as_averages T n exact downbeats log fuel u = simulate c heap i as_averages T n exact downbeats log fuel u.
Proof. exact idle_fixed. Qed.
Print Assumptions C83_idle_extent_fixed_step.
(** with steps from the CFL condition they do not as long as they are not shorter than the
    smallest cell, *)
Theorem C83_long_idle_extent : forall (c : config RNum) b, (forall a, ~ inactive c a -> extent (N := RNum) b a = extent (N := RNum) (c_bounds c) a) ->
  idle_long c b -> idle_long c (c_bounds c) ->
  forall heap i as_averages T n exact downbeats log fuel u,
  simulate (replace_bounds c b) heap i as_averages T n exact downbeats log fuel u = simulate c heap i as_averages T n exact downbeats log fuel u.
Proof. exact idle_long_same. Qed.
Print Assumptions C83_long_idle_extent.
(** a pipe of 64 cells with slope limiting, moved and with another cross section *)
Example C83_case : (forall a, ~ inactive pipe a -> extent (N := RNum) pipe_away a = extent (N := RNum) (c_bounds pipe) a) /\
  idle_long pipe pipe_away /\ idle_long pipe (c_bounds pipe).
Proof. exact pipe_case. Qed.
(** and otherwise they do: the extent of an axis along which nothing can vary shortens the steps
    and changes the result. *)
Theorem C83_short_idle_extent_refuted : exists (c : config FNum) b heap u T o o',
  (forall a, ~ inactive c a -> b a = c_bounds c a) /\ gas_test (N := FNum) u = true /\ shp u = c_n c /\
  simulate c heap I_euler true (Some T) None true [] false 3 u = Ok o /\
  simulate (replace_bounds c b) heap I_euler true (Some T) None true [] false 3 u = Ok o' /\
  o_t o = T /\ o_t o' = T /\ o_steps o = 1 /\ o_steps o' = 2 /\ at_ (o_u o) 0 (mkix 0 0 0) <> at_ (o_u o') 0 (mkix 0 0 0).
Proof. exact thin_idle. Qed.
Print Assumptions C83_short_idle_extent_refuted.
