(** Property C75: mirror images of runs with slope limiting. *)
From Coq Require Import ZArith QArith List Reals Lra Lia.
From Verif Require Import Err Num NdArray HydroM RiemannM StencilsM FvM BcM SedM LimitM OdeM SolverM
  Spec SpecBc SpecLim SpecSolver SpecCons SpecScheme SpecSym SpecMirLim FvP MirrorP MirLimP MirLimQ MirHllcQ.
Import ListNotations.
Open Scope Z_scope.

(** C75: with the LLF solver and slope limiting (every limiter, MUSCL slopes, convex or
    not), in exact arithmetic and with boundaries that copy cells, the run on the mirror image of
    the initial state, with the boundaries at the two ends exchanged, is the mirror image of
    the run, or raises the same exception. The trouble detection must not distinguish the two
    directions ([mirror_fair]; the default options do not once the smooth-extrema detector is switched off)
    unless trouble is forced. *)
Theorem C75_mirror_images_with_limiting : forall (c : config RNum) b' d,
  tabulated c -> closed c -> closed (replace_bc c b') -> ends_exchanged d (c_bc c) b' -> c_limit c = true -> known_options c ->
  (c_convex c = false \/ (flat_box c /\ flat_box (replace_bc c b'))) -> c_rs c = RS_llf ->
  (c_force c = true \/ mirror_fair d (c_nad c)) ->
  forall heap heap' i as_averages T n exact downbeats log fuel u u', shp u = c_n c -> 2 <= rows u -> mirrored d u u' ->
  moved_outcome (N := RNum) (mirrored d) (simulate c heap i as_averages T n exact downbeats log fuel u)
                  (simulate (replace_bc c b') heap' i as_averages T n exact downbeats log fuel u').
Proof. exact mirror_limited. Qed.
Print Assumptions C75_mirror_images_with_limiting.

(** C75: symmetric data stay symmetric, in the final state and in every snapshot. *)
Theorem C75_symmetric_data_with_limiting : forall (c : config RNum) d heap i as_averages T n exact downbeats log fuel u o,
  tabulated c -> closed c -> bc_type (c_bc c) d SL = bc_type (c_bc c) d SR -> c_limit c = true -> known_options c ->
  c_convex c = false \/ flat_box c -> c_rs c = RS_llf -> c_force c = true \/ mirror_fair d (c_nad c) ->
  shp u = c_n c -> 2 <= rows u -> mirrored d u u ->
  simulate c heap i as_averages T n exact downbeats log fuel u = Ok o ->
  mirrored d (o_u o) (o_u o) /\ List.Forall (fun s => mirrored d (fst (snd s)) (fst (snd s))) (o_snaps o).
Proof. exact symmetric_limited. Qed.
Print Assumptions C75_symmetric_data_with_limiting.
(** the default options without smooth-extrema detection, on a plate of 12 x 13 cells with each kind of copying boundary *)
Example C75_plate : forall cv ty, copies ty -> let c := plate cv ty in
  tabulated c /\ closed c /\ known_options c /\ flat_box c /\ c_rs c = RS_llf /\ c_limit c = true /\
  (forall d, mirror_fair d (c_nad c)) /\ ends_exchanged AX (c_bc c) (c_bc c) /\ (exists k, pad_bounds (c_nad c) = Some k) /\
  (forall u : arr R, exists u', mirrored AX u u') /\
  forall heap i k u, shp u = c_n c -> 2 <= rows u -> 1 <= k ->
    exists o, simulate c heap i true None (Some k) true [] false 0 u = Ok o.
Proof.
  intros cv ty H c. destruct (plate_ok false cv ty H) as (T & C & O & F). do 4 (split; [assumption|]). do 2 (split; [reflexivity|]).
  split; [exact usual_fair|]. split; [intros a pos; destruct a, pos; reflexivity|]. split; [eexists; reflexivity|].
  split; [intro u; eexists; apply mirrored_exists|]. intros. apply plate_runs; assumption.
Qed.

(** C75 for the HLLC solver, the default of EulerSolver: the same is true of the runs in which every state that is
    evaluated passes a test ok of its cells that guarantees positive density and
    non-negative pressure in the traces of the scheme and of its fallback (of the fallback alone, if trouble
    is forced). *)
Theorem C75_hllc_with_limiting : forall xi xt, tables xi xt -> forall ok slope (c : config RNum) b' d,
  tabulated c -> closed c -> closed (replace_bc c b') -> ends_exchanged d (c_bc c) b' -> c_limit c = true -> known_options c ->
  (c_convex c = false \/ (flat_box c /\ flat_box (replace_bc c b'))) ->
  c_rs c = RS_hllc -> (0 < c_csq_floor c)%R -> (1 <= c_gamma c)%R -> (c_force c = true \/ mirror_fair d (c_nad c)) ->
  fallback_slope c slope -> test_of_cells ok ->
  (forall w, shp w = c_n c -> ok w = true -> (c_force c = true \/ physical_traces xi xt c (filled c w)) /\ physical_low_traces xi xt c slope (filled c w)) ->
  forall heap heap' i as_averages T n exact downbeats log fuel u u' o, shp u = c_n c -> 2 <= rows u -> mirrored d u u' ->
  simulate_checked (N := RNum) ok c heap i as_averages T n exact downbeats log fuel u = Ok o ->
  simulate c heap i as_averages T n exact downbeats log fuel u = Ok o /\
  exists o', simulate (replace_bc c b') heap' i as_averages T n exact downbeats log fuel u' = Ok o' /\ moved_run (N := RNum) (mirrored d) o o'.
Proof. exact mirror_limited_hllc. Qed.
Print Assumptions C75_hllc_with_limiting.

(** C75: and symmetric data stay symmetric. *)
Theorem C75_symmetric_hllc_with_limiting : forall xi xt, tables xi xt -> forall ok slope (c : config RNum) d heap i as_averages T n exact downbeats log fuel u o,
  tabulated c -> closed c -> bc_type (c_bc c) d SL = bc_type (c_bc c) d SR -> c_limit c = true -> known_options c ->
  c_convex c = false \/ flat_box c -> c_rs c = RS_hllc -> (0 < c_csq_floor c)%R -> (1 <= c_gamma c)%R ->
  c_force c = true \/ mirror_fair d (c_nad c) -> fallback_slope c slope -> test_of_cells ok ->
  (forall w, shp w = c_n c -> ok w = true -> (c_force c = true \/ physical_traces xi xt c (filled c w)) /\ physical_low_traces xi xt c slope (filled c w)) ->
  shp u = c_n c -> 2 <= rows u -> mirrored d u u ->
  simulate_checked (N := RNum) ok c heap i as_averages T n exact downbeats log fuel u = Ok o ->
  mirrored d (o_u o) (o_u o) /\ List.Forall (fun s => mirrored d (fst (snd s)) (fst (snd s))) (o_snaps o).
Proof. exact symmetric_limited_hllc. Qed.
Print Assumptions C75_symmetric_hllc_with_limiting.
(** a plate of degree one with minmod slopes: densities and pressures between 2 and 3 pass a suitable test *)
Example C75_disc : forall ty, copies ty -> let c := disc ty in
  tabulated c /\ closed c /\ known_options c /\ test_of_cells calm_b /\ fallback_slope c (Some (LimitM.minmod RNum)) /\
  (forall w, shp w = c_n c -> calm_b w = true -> physical_traces (wts_i RNum) (wts_t RNum) c (filled c w) /\
    physical_low_traces (wts_i RNum) (wts_t RNum) c (Some (LimitM.minmod RNum)) (filled c w)) /\
  forall heap u, shp u = c_n c -> 2 <= rows u -> calm (7/5) u ->
    exists o, simulate_checked (N := RNum) calm_b c heap I_euler true None (Some 1) true [] false 0 u = Ok o.
Proof. exact disc_example. Qed.

(** With the absolute range (tolerance proportional to the size of the neighbouring values,
    solver.py option NAD_range = "absolute") it is false: the bounds of a negative velocity
    are moved the wrong way, so a wave that travels down the axis is not limited like
    the same wave travelling up. In exact rational arithmetic with the upwind solver the
    two runs differ, while with the relative range they are mirror images. *)
Theorem C75_absolute_range_refuted : exists (c : config QNum) q heap u u' o o' p p',
  tabulated c /\ closed c /\ bc_type (c_bc c) AX SL = bc_type (c_bc c) AX SR /\ c_limit c = true /\ c_convex c = false /\
  nad_range_ (c_nad c) = R_absolute /\ sed_on (c_nad c) = false /\ nad_range_ q = R_relative /\
  shp u = c_n c /\ mirrored_rational AX u u' /\
  simulate c heap I_euler true None (Some 1) true [] false 0 u = Ok o /\
  simulate c heap I_euler true None (Some 1) true [] false 0 u' = Ok o' /\
  ~ Qeq (at_ (o_u o') 0 (mkix 0 0 0)) (at_ (o_u o) 0 (mkix 4 0 0)) /\
  simulate (with_nad q c) heap I_euler true None (Some 1) true [] false 0 u = Ok p /\
  simulate (with_nad q c) heap I_euler true None (Some 1) true [] false 0 u' = Ok p' /\
  forall x, 0 <= x < 5 -> Qeq (at_ (o_u p') 0 (mkix x 0 0)) (at_ (o_u p) 0 (mkix (4 - x) 0 0)).
Proof. exact absolute_is_unfair. Qed.
Print Assumptions C75_absolute_range_refuted.
