(** Theorems on positive densities in limited runs (C82). *)
From Coq Require Import ZArith List Bool Lia Reals Lra.
From Verif Require Import Err Num NdArray FvM RiemannM StencilsM BcM SpecBc LimitM OdeM SolverM Spec SpecSolver SpecCons SpecScheme SpecSym SpecPos SpecDrift SpecDense
  DenseP DenseQ.
Import ListNotations.
Open Scope R_scope.

(** C82. With the LLF solver and forced slope limiting, a run with euler, ssprk2 or ssprk3 and
    a fixed time step in which signals of the reconstruction cross less than half a cell per
    step, added over the active axes, keeps the density positive. Nothing is assumed about
    the pressure. *)
Theorem C82_limited_density_positive : forall ok (c : config RNum) heap i as_averages T n exact downbeats log fuel u0 o S dt,
  tabulated c -> closed c -> c_limit c = true -> c_force c = true -> known_options c -> (c_convex c = false \/ flat_box c) ->
  c_limiter c = L_minmod \/ c_limiter c = L_moncen -> c_rs c = RS_llf -> (forall a, 0 < width c a) ->
  c_fixed_dt c = Some dt -> 0 < dt -> 2 * (dt * crossings c S) < 1 -> (forall u, ok u = true <-> slow c S u) ->
  i = I_euler \/ i = I_ssprk2 \/ i = I_ssprk3 ->
  shp u0 = c_n c -> (2 <= rows u0)%Z -> dense u0 -> List.Forall (fun x => 0 <= x) downbeats ->
  simulate_checked (N := RNum) ok c heap i as_averages T n exact downbeats log fuel u0 = Ok o ->
  simulate c heap i as_averages T n exact downbeats log fuel u0 = Ok o /\
  dense (o_u o) /\ ((forall a, (getc a (c_p c) <= 1)%Z) -> List.Forall (fun s => dense (fst (snd s))) (o_snaps o)).
Proof. exact density_kept. Qed.
Print Assumptions C82_limited_density_positive.
(** a gas of density 1 and sound speed 1 with any velocities up to 1 *)
Example C82_case : forall l f heap, l = L_minmod \/ l = L_moncen -> (forall j, -1 <= f j <= 1) ->
  let c := tunnel l in let u0 := mkarr 5 (mkix 12 1 1) (gusts f) in
  tabulated c /\ closed c /\ c_limit c = true /\ c_force c = true /\ known_options c /\ c_rs c = RS_llf /\ (forall a, 0 < width c a) /\
  2 * (1/50 * crossings c (fun _ => 2)) < 1 /\ (forall u, slow_test c (fun _ => 2) u = true <-> slow c (fun _ => 2) u) /\ dense u0 /\
  exists o, simulate_checked (N := RNum) (slow_test c (fun _ => 2)) c heap I_euler true None (Some 1%Z) true [] false 0 u0 = Ok o.
Proof.
  intros l f heap L B. cbv zeta. destruct (tunnel_ok l L) as (A1 & A2 & A3 & A4 & A5 & A6 & A7 & A8). repeat (split; [assumption|]).
  split; [intro u; apply slow_test_is|]. split; [intros i _; cbn; lra|apply gusts_run; assumption].
Qed.
(** At the default CFL number 0.8 a single limited step empties a cell between two parting
    streams below zero, already in one dimension (binary64). Without limiting, at degree
    zero, such steps are safe ([C45_first_order_runs_stay_positive]). *)
Theorem C82_default_step_refuted : exists (c : config FNum) heap u0 o,
  c_limit c = true /\ c_force c = true /\ c_limiter c = L_minmod /\ c_rs c = RS_llf /\ c_fixed_dt c = None /\ c_CFL c = ndiv (nofZ 4) (nofZ 5) /\
  inactive c AY /\ inactive c AZ /\ shp u0 = c_n c /\ gas_test (N := FNum) u0 = true /\
  simulate c heap I_euler true None (Some 1%Z) true [] false 0 u0 = Ok o /\
  nltb (at_ (o_u o) 0%Z (mkix 3 0 0)) (nofZ 0) = true.
Proof. exact rift_drained. Qed.
Print Assumptions C82_default_step_refuted.
(** The pressure has no such bound: a step as short as the first theorem asks, from a gas of density
    1 and speeds up to 100, keeps all densities positive and leaves a negative total energy, hence a
    negative pressure, in the cell between the parting streams (binary64). *)
Theorem C82_pressure_refuted : exists (c : config FNum) heap u0 o,
  c_limit c = true /\ c_force c = true /\ c_limiter c = L_minmod /\ c_rs c = RS_llf /\ c_fixed_dt c = Some (ndiv (nofZ 1) (nofZ 4000)) /\
  c_n c = mkix 7 1 1 /\ c_bounds c AX = (nofZ 0, nofZ 1) /\ inactive c AY /\ inactive c AZ /\ shp u0 = c_n c /\ gas_test (N := FNum) u0 = true /\
  (forall i, at_ u0 0%Z i = nofZ 1 /\ nleb (nabs (at_ u0 1%Z i)) (nofZ 100) = true) /\
  simulate c heap I_euler true None (Some 1%Z) true [] false 0 u0 = Ok o /\
  (forall i, in_shape (c_n c) i -> nltb (nofZ 0) (at_ (o_u o) 0%Z i) = true) /\
  nltb (at_ (o_u o) 4%Z (mkix 3 0 0)) (nofZ 0) = true.
Proof. exact energy_lost. Qed.
Print Assumptions C82_pressure_refuted.
