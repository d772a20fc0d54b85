(** Theorems on positivity (C45). *)
From Coq Require Import ZArith List Bool Lia Reals Lra.
From Verif Require Import Err Num NdArray FvM RiemannM StencilsM BcM SpecBc LimitM OdeM SolverM Spec SpecSolver SpecCons SpecScheme SpecSym SpecPos
  FvP OpP SolverP ExistP SchemeP MirrorP PosP.
Import ListNotations.
Open Scope R_scope.

(** C45. A first-order run with the LLF flux and forward Euler steps keeps density and internal
    energy positive, and all snapshots have positive density and pressure, if the CFL number
    times the number of active axes is at most 1. In one dimension: any CFL number up to 1. *)
Theorem C45_first_order_runs_stay_positive : forall (c : config RNum) heap as_averages T n exact downbeats log fuel u0 o,
  tabulated c -> closed c -> c_limit c = false -> first_order c -> c_rs c = RS_llf -> c_fixed_dt c = None ->
  1 < c_gamma c -> (forall a, 0 < width c a) -> 0 < c_CFL c -> c_CFL c * active_axes c <= 1 ->
  shp u0 = c_n c -> (1 <= rows u0)%Z -> gas_everywhere u0 -> Forall (fun x => 0 <= x) downbeats ->
  simulate c heap I_euler as_averages T n exact downbeats log fuel u0 = Ok o ->
  gas_everywhere (o_u o) /\ Forall (fun s => positive_everywhere (fst (snd s))) (o_snaps o).
Proof. exact euler_positive. Qed.
Print Assumptions C45_first_order_runs_stay_positive.
(** two cold streams leaving each other between walls, with the default CFL number 0.8 *)
Example C45_case : forall heap, tabulated tube /\ closed tube /\ first_order tube /\ (forall a, 0 < width tube a) /\
  c_CFL tube * active_axes tube <= 1 /\ gas_everywhere (mkarr 5 (mkix 12 1 1) streams) /\
  exists o, simulate tube heap I_euler true None (Some 20%Z) true [] false 0 (mkarr 5 (mkix 12 1 1) streams) = Ok o.
Proof.
  intro heap. destruct tube_ok as (T & C & _). split; [exact T|]. split; [exact C|]. split; [intros []; reflexivity|].
  split; [intros []; unfold width; cbn; lra|]. split; [unfold active_axes; cbn; lra|]. split; [exact streams_gas|apply tube_runs; lia].
Qed.
(** With the default CFL number 0.8 this fails in two dimensions: four jets leaving a cell empty
    it below zero in one step (binary64). *)
Theorem C45_default_step_in_the_plane_refuted : exists (c : config FNum) heap u0 o,
  first_order c /\ c_rs c = RS_llf /\ c_fixed_dt c = None /\ c_CFL c = ndiv (nofZ 4) (nofZ 5) /\
  shp u0 = c_n c /\ gas_test (N := FNum) u0 = true /\
  simulate c heap I_euler true None (Some 1%Z) true [] false 0 u0 = Ok o /\
  nltb (at_ (o_u o) 0%Z (mkix 1 1 0)) (nofZ 0) = true.
Proof. exact plane_drained. Qed.
Print Assumptions C45_default_step_in_the_plane_refuted.
