(** Theorems on what the trouble log says about the last step of a run (C84). *)
From Coq Require Import ZArith List Bool Reals.
From Verif Require Import Err Num NdArray FvM StencilsM BcM LimitM RiemannM OdeM SolverM Spec SpecBc SpecSolver SpecScheme SpecSym SpecPos SpecLim SpecLimRhs SpecMirLim
  SpecCons SchemeP ExistP SpecQuiet CleanP CleanQ TruncQ ThinLimQ QuietQ.
Import ListNotations.
Open Scope Z_scope.

(** C84. After a limited run of Euler steps the log of troubled cells is positive exactly at the
    cells where the unlimited candidate of the last step, filled into the ghost zones and converted
    to primitive variables, fails the criteria of the detector against the state before it. *)
Theorem C84_log_of_last_step : forall wi wt, tables wi wt -> forall (c : config RNum) heap k exact downbeats log fuel u0 o,
  tabulated c -> closed c -> c_limit c = true -> known_options c -> (sed_on (c_nad c) = true -> (0 < sed_eps (c_nad c))%R) ->
  shp u0 = c_n c -> 2 <= rows u0 -> 1 <= k ->
  simulate c heap I_euler true None (Some k) exact downbeats log fuel u0 = Ok o ->
  let W u := primitives wi wt (c_p c) (c_gamma c) (filled c u) in
  exists o1 dt, simulate c heap I_euler true None (Some (k - 1)) exact downbeats log fuel u0 = Ok o1 /\
    SpecScheme.time_step c (W (o_u o1)) dt /\ o_t o = (o_t o1 + dt)%R /\
    let u' := euler_candidate c (o_u o1) dt (balance c (fun d => face_flux wi wt c (c_p c) None d (filled c (o_u o1)))) in
    forall i, in_shape (c_n c) i -> (troubled c (W (o_u o1)) (W u') i /\ 0 < at_ (x_trouble (o_aux o)) 0 i)%R \/
       ~ troubled c (W (o_u o1)) (W u') i /\ at_ (x_trouble (o_aux o)) 0 i = 0%R.
Proof. exact logged. Qed.
Print Assumptions C84_log_of_last_step.
(** with forced trouble the log is positive everywhere, for any data *)
Example C84_forced_case : forall cv ty heap k u wi wt, copies ty -> tables wi wt -> shp u = c_n (driven cv ty) -> rows u = 5 -> 1 <= k -> let c := driven cv ty in
  tabulated c /\ closed c /\ c_limit c = true /\ known_options c /\ (sed_on (c_nad c) = true -> (0 < sed_eps (c_nad c))%R) /\
  exists o, simulate c heap I_euler true None (Some k) true [] false 0 u = Ok o /\ forall i, in_shape (c_n c) i -> (0 < at_ (x_trouble (o_aux o)) 0 i)%R.
Proof. exact driven_logs. Qed.
(** C84. If it is zero everywhere the last step was the unlimited step, the state it left, and the
    primitive variables the last snapshot shows, meet all criteria of the detector. *)
Theorem C84_untroubled_step : forall wi wt, tables wi wt -> forall (c : config RNum) heap k exact downbeats log fuel u0 o,
  tabulated c -> closed c -> c_limit c = true -> known_options c -> (sed_on (c_nad c) = true -> (0 < sed_eps (c_nad c))%R) ->
  shp u0 = c_n c -> 2 <= rows u0 -> 1 <= k ->
  simulate c heap I_euler true None (Some k) exact downbeats log fuel u0 = Ok o ->
  (forall i, in_shape (c_n c) i -> at_ (x_trouble (o_aux o)) 0 i = 0%R) ->
  let W u := primitives wi wt (c_p c) (c_gamma c) (filled c u) in
  exists o1 dt, simulate c heap I_euler true None (Some (k - 1)) exact downbeats log fuel u0 = Ok o1 /\
    SpecScheme.time_step c (W (o_u o1)) dt /\ o_t o = (o_t o1 + dt)%R /\
    (forall v i, in_shape (c_n c) i -> at_ (o_u o) v i =
      (at_ (o_u o1) v i + dt * balance c (fun d => face_flux wi wt c (c_p c) None d (filled c (o_u o1))) v i)%R) /\
    (forall i, in_shape (c_n c) i -> ~ troubled c (W (o_u o1)) (W (o_u o)) i) /\
    exists l w, o_snaps o = l ++ [(o_t o, (w, (x_trouble (o_aux o), x_nad (o_aux o), x_pad (o_aux o))))] /\
      forall v i, in_shape (c_n c) i -> at_ w v i = W (o_u o) v i.
Proof. exact untroubled. Qed.
Print Assumptions C84_untroubled_step.
(** a detector that looks at no variable keeps a clean log, for any data *)
Example C84_clean_case : forall cv ty heap k u wi wt, copies ty -> tables wi wt -> shp u = c_n (idle cv ty) -> rows u = 5 -> 1 <= k -> let c := idle cv ty in
  tabulated c /\ closed c /\ c_limit c = true /\ known_options c /\ (sed_on (c_nad c) = true -> (0 < sed_eps (c_nad c))%R) /\
  exists o, simulate c heap I_euler true None (Some k) true [] false 0 u = Ok o /\ forall i, in_shape (c_n c) i -> at_ (x_trouble (o_aux o)) 0 i = 0%R.
Proof. exact idle_clean. Qed.
(** A step with trouble guarantees nothing: the fallback is not checked. One step of the default
    CFL number finds the density of the middle cell below the bound 0 and marks the cell, and the
    limited step leaves it negative all the same. *)
Theorem C84_troubled_step_refuted : exists (c : config FNum) heap u0 o,
  c_limit c = true /\ c_force c = false /\ c_limiter c = L_minmod /\ c_rs c = RS_llf /\ c_CFL c = ndiv (nofZ 4) (nofZ 5) /\
  pad_bounds (c_nad c) = Some [(0, (Some (nofZ 0), None))] /\ inactive c AY /\ inactive c AZ /\ shp u0 = c_n c /\ gas_test (N := FNum) u0 = true /\
  simulate c heap I_euler true None (Some 1) true [] false 0 u0 = Ok o /\
  nltb (nofZ 0) (at_ (x_trouble (o_aux o)) 0 (mkix 3 0 0)) = true /\
  nltb (at_ (o_u o) 0 (mkix 3 0 0)) (nofZ 0) = true.
Proof. exact still_broken. Qed.
Print Assumptions C84_troubled_step_refuted.
(** When the last step is cut short at the end time, the detector still judges the uncut step: a run
    whose only step, unlimited, would keep every density above the bound 0 has a cell marked for
    a density below it, and the limiter acts on the result (binary64). *)
Theorem C84_cut_step_refuted : exists (c : config FNum) heap u0 T o o',
  c_limit c = true /\ c_force c = false /\ nad_vars (c_nad c) = Some [] /\ pad_bounds (c_nad c) = Some [(0, (Some (nofZ 0), None))] /\
  c_limiter c = L_minmod /\ c_rs c = RS_llf /\ c_CFL c = ndiv (nofZ 4) (nofZ 5) /\ inactive c AY /\ inactive c AZ /\ shp u0 = c_n c /\ gas_test (N := FNum) u0 = true /\
  simulate c heap I_euler true (Some T) None true [] false 2 u0 = Ok o /\ o_t o = T /\ o_steps o = 1 /\
  simulate (unlimited c) heap I_euler true (Some T) None true [] false 2 u0 = Ok o' /\ o_t o' = T /\ o_steps o' = 1 /\
  (forall i, in_shape (c_n c) i -> nltb (nofZ 0) (at_ (o_u o') 0 i) = true) /\
  nltb (nofZ 0) (at_ (x_trouble (o_aux o)) 0 (mkix 2 0 0)) = true /\
  at_ (o_u o) 0 (mkix 2 0 0) <> at_ (o_u o') 0 (mkix 2 0 0).
Proof. exact too_careful. Qed.
Print Assumptions C84_cut_step_refuted.
