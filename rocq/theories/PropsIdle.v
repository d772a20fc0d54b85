(** Theorems on boundary conditions of axes without ghost cells (C81). *)
From Coq Require Import ZArith List Bool Lia Reals String.
From Verif Require Import Err Num NdArray FvM StencilsM BcM LimitM RiemannM OdeM SolverM Spec SpecSolver SpecSym SpecIdle IdleP IdleQ.
Import ListNotations.
Open Scope Z_scope.

(** C81. What is said about the ends of an axis with one cell and degree zero has no effect on
    a run, for any arithmetic (so bit for bit), any options and any initial state: not on the
    final state, not on the snapshots, not on the number of steps and not on the exceptions. *)
Theorem C81_idle_ends_do_nothing : forall N (c : config N) b', same_where_active c b' ->
  forall heap i as_averages T n exact downbeats log fuel u,
  simulate (replace_bc c b') heap i as_averages T n exact downbeats log fuel u = simulate c heap i as_averages T n exact downbeats log fuel u.
Proof. exact idle_ends. Qed.
Print Assumptions C81_idle_ends_do_nothing.
(** a box of 8 x 8 cells with slope limiting and blended fluxes, and z conditions that would raise an exception if used *)
Example C81_case : forall N, same_where_active (flat N) (odd_bc N) /\
  bc_type (c_bc (flat N)) AZ SL = B_periodic /\ bc_type (odd_bc N) AZ SL = B_unknown /\ bc_type (odd_bc N) AZ SR = B_dmr /\
  c_limit (flat N) = true /\ c_convex (flat N) = true.
Proof. exact flat_case. Qed.
(** C81. On an axis with one cell but a positive degree, or with two cells, the conditions do matter. *)
Theorem C81_active_ends_refuted : exists (c : config QNum) b' heap i u,
  (forall a, a <> AZ -> same_ends (c_bc c) b' a) /\ getc AZ (c_n c) = 2 /\
  simulate (N := QNum) (replace_bc c b') heap i true None (Some 1) true [] false 0 u <>
  simulate (N := QNum) c heap i true None (Some 1) true [] false 0 u.
Proof. exact active_ends. Qed.
Print Assumptions C81_active_ends_refuted.
