(** Vocabulary for runs in which slope limiting acts nowhere or everywhere. *)
From Coq Require Import ZArith List Bool Reals.
From Verif Require Import Err Num NdArray StencilsM FvM BcM LimitM OdeM SolverM Spec SpecBc SpecSolver SpecCons SpecScheme SpecSym SpecLimRhs.
Import ListNotations.
Open Scope Z_scope.

(** the same configuration without slope limiting *)
Definition unlimited {N} (c : config N) : config N :=
  mkcfg (c_n c) (c_p c) (c_bounds c) (c_CFL c) (c_fixed_dt c) (c_gamma c) (c_csq_floor c) (c_rs c) (c_bc c) false
    (c_limiter c) (c_force c) (c_nad c) (c_convex c).
(** the same configuration with degree 1 wherever the degree is positive *)
Definition linear {N} (c : config N) : config N :=
  mkcfg (c_n c) (low (c_p c)) (c_bounds c) (c_CFL c) (c_fixed_dt c) (c_gamma c) (c_csq_floor c) (c_rs c) (c_bc c) (c_limit c)
    (c_limiter c) (c_force c) (c_nad c) (c_convex c).
(** equal arrays of n cells *)
Definition same_cells {A} (n : ix) (w w' : arr A) : Prop :=
  rows w = rows w' /\ agree (fun _ => True) n w w'.
(** states with r rows that pass the test ok have no troubled cell, whatever the time *)
Definition no_trouble wi wt (xc : axis -> Z -> R) (c : config RNum) (r : Z) (ok : arr R -> bool) : Prop :=
  forall w t dt, rows w = r -> shp w = c_n c -> ok w = true ->
  let E := extended RNum xc (c_bc c) (c_n c) t w in
  let W := primitives wi wt (c_p c) (c_gamma c) in
  let hi d := face_flux wi wt c (c_p c) None d E in
  SpecScheme.time_step c (W E) dt ->
  forall i, in_shape (c_n c) i ->
    ~ troubled c (W E) (W (extended RNum xc (c_bc c) (c_n c) t (euler_candidate c w dt (balance c hi)))) i.
(** Two runs show the same clock, history, snapshot times and final cells. (The primitive
    variables in the snapshots may differ.) *)
Record same_states {N} (n : ix) (o o' : run N) : Prop := {
  ss_t : o_t o = o_t o';
  ss_stamps : o_stamps o = o_stamps o';
  ss_steps : o_steps o = o_steps o';
  ss_u : same_cells n (o_u o) (o_u o');
  ss_snaps : map fst (o_snaps o) = map fst (o_snaps o')
}.
