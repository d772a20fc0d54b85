(** Theorems on reflecting walls as planes of symmetry (C74). *)
From Coq Require Import ZArith List Bool Lia Reals Lra.
From Verif Require Import Err Num NdArray FvM RiemannM StencilsM BcM SpecBc LimitM OdeM SolverM Spec SpecLim SpecSolver SpecCons SpecScheme SpecSym SpecMirLim SpecFold SpecFoldUp
  FvP OpP SolverP ExistP SchemeP MirrorP FoldP FoldQ MirHllcQ FoldLimP FoldLimQ FoldUpP FoldUpQ FoldUpR.
Import ListNotations.
Open Scope Z_scope.

(** C74. A run next to a reflecting wall at the lower end of an axis is the upper half of the
    run in the doubled domain whose initial state is continued symmetrically behind the wall,
    the wall being removed: the same times, symmetric states and snapshots, or the same
    exception. With the LLF solver, without slope limiting, for any state whatever. *)
Theorem C74_wall_is_symmetry_plane_llf : forall (c : config RNum) b' d heap heap' i as_averages T n exact downbeats log fuel u u',
  tabulated c -> closed c -> upper_at_both_ends d (c_bc c) b' -> bc_type (c_bc c) d SL = B_reflective -> ~ inactive c d ->
  c_limit c = false -> c_rs c = RS_llf -> shp u = c_n c -> 1 <= rows u -> unfolded (N := RNum) d u u' ->
  moved_outcome (N := RNum) (unfolded (N := RNum) d) (simulate c heap i as_averages T n exact downbeats log fuel u)
    (simulate (doubled d b' c) heap' i as_averages T n exact downbeats log fuel u').
Proof. exact fold_llf. Qed.
Print Assumptions C74_wall_is_symmetry_plane_llf.
Example C74_case_llf : forall f d heap, let c := box RS_llf (mkix 3 2 1) B_reflective in let u := mkarr 6 (c_n c) f in
  tabulated c /\ closed c /\ upper_at_both_ends d (c_bc c) (c_bc c) /\ bc_type (c_bc c) d SL = B_reflective /\ ~ inactive c d /\
  (exists u', unfolded (N := RNum) d u u') /\
  exists o, simulate c heap I_rk4 true None (Some 5) true [] false 0 u = Ok o.
Proof.
  intros f d heap. cbv zeta. destruct (box_ok RS_llf (mkix 3 2 1) B_reflective) as (T & C & _); [left; reflexivity|exact I|].
  split; [exact T|]. split; [exact C|]. split; [intros a pos; reflexivity|]. split; [reflexivity|]. split; [destruct d; intros [H _]; discriminate|].
  split; [eexists; apply unfolded_exists|]. apply box_runs; [left; reflexivity|exact I|reflexivity|cbn; lia|lia].
Qed.
(** With the HLLC solver, as long as the traces have positive density and non-negative
    pressure in all states the right-hand side is evaluated for. *)
Theorem C74_wall_is_symmetry_plane_hllc : forall wi wt ok (c : config RNum) b' d heap heap' i as_averages T n exact downbeats log fuel u u' o,
  tables wi wt -> tabulated c -> closed c -> upper_at_both_ends d (c_bc c) b' -> bc_type (c_bc c) d SL = B_reflective -> ~ inactive c d ->
  c_limit c = false -> c_rs c = RS_hllc -> (0 < c_csq_floor c)%R -> (1 <= c_gamma c)%R -> test_of_cells ok ->
  (forall w, shp w = c_n c -> ok w = true -> physical_traces wi wt c (filled c w)) ->
  shp u = c_n c -> 1 <= rows u -> unfolded (N := RNum) d u u' ->
  simulate_checked (N := RNum) ok c heap i as_averages T n exact downbeats log fuel u = Ok o ->
  simulate c heap i as_averages T n exact downbeats log fuel u = Ok o /\
  exists o', simulate (doubled d b' c) heap' i as_averages T n exact downbeats log fuel u' = Ok o' /\
    moved_run (N := RNum) (unfolded (N := RNum) d) o o'.
Proof. exact fold_hllc. Qed.
Print Assumptions C74_wall_is_symmetry_plane_hllc.
Example C74_case_hllc : forall heap, let c := box RS_hllc (mkix 0 0 0) B_reflective in let u := mkarr 5 (c_n c) (fun v _ => rest v) in
  tabulated c /\ closed c /\ test_of_cells physical_b /\
  (forall w, shp w = c_n c -> physical_b w = true -> physical_traces (wts_i RNum) (wts_t RNum) c (filled c w)) /\
  exists o, simulate_checked (N := RNum) physical_b c heap I_ssprk3 true None (Some 7) true [] false 0 u = Ok o.
Proof. exact rest_example. Qed.
(** The same with slope limiting, for every limiter and MUSCL slopes, convex blending or not,
    if the trouble detection sees the same in both domains ([wall_fair]: with the default
    global range the spread of the normal velocity is larger in the doubled domain, so that velocity must
    not be looked at, or the range be local) or trouble is forced. *)
Theorem C74_wall_with_limiting_llf : forall (c : config RNum) b' d, tabulated c -> closed c -> upper_at_both_ends d (c_bc c) b' ->
  bc_type (c_bc c) d SL = B_reflective -> ~ inactive c d -> c_limit c = true -> known_options c ->
  (c_convex c = false \/ (flat_box c /\ flat_box (doubled d b' c))) -> c_rs c = RS_llf -> (c_force c = true \/ wall_fair d (c_nad c)) ->
  forall heap heap' i as_averages T n exact downbeats log fuel u u', shp u = c_n c -> 2 <= rows u -> unfolded (N := RNum) d u u' ->
  moved_outcome (N := RNum) (unfolded (N := RNum) d) (simulate c heap i as_averages T n exact downbeats log fuel u)
    (simulate (doubled d b' c) heap' i as_averages T n exact downbeats log fuel u').
Proof. exact fold_limited_llf. Qed.
Print Assumptions C74_wall_with_limiting_llf.
(** With the HLLC solver the traces must be physical, those of the full degree only if trouble
    is not forced. *)
Theorem C74_wall_with_limiting_hllc : forall xi xt ok slope (c : config RNum) b' d, tables xi xt -> tabulated c -> closed c -> upper_at_both_ends d (c_bc c) b' ->
  bc_type (c_bc c) d SL = B_reflective -> ~ inactive c d -> c_limit c = true -> known_options c ->
  (c_convex c = false \/ (flat_box c /\ flat_box (doubled d b' c))) ->
  c_rs c = RS_hllc -> (0 < c_csq_floor c)%R -> (1 <= c_gamma c)%R -> (c_force c = true \/ wall_fair d (c_nad c)) ->
  fallback_slope c slope -> test_of_cells ok ->
  (forall w, shp w = c_n c -> ok w = true -> (c_force c = true \/ physical_traces xi xt c (filled c w)) /\ physical_low_traces xi xt c slope (filled c w)) ->
  forall heap heap' i as_averages T n exact downbeats log fuel u u' o, shp u = c_n c -> 2 <= rows u -> unfolded (N := RNum) d u u' ->
  simulate_checked (N := RNum) ok c heap i as_averages T n exact downbeats log fuel u = Ok o ->
  simulate c heap i as_averages T n exact downbeats log fuel u = Ok o /\
  exists o', simulate (doubled d b' c) heap' i as_averages T n exact downbeats log fuel u' = Ok o' /\
    moved_run (N := RNum) (unfolded (N := RNum) d) o o'.
Proof. exact fold_limited_hllc. Qed.
Print Assumptions C74_wall_with_limiting_hllc.
(** a basin of 12 x 13 cells, local ranges or global ones of density and pressure *)
Example C74_basin : forall rs b cv d, d <> AZ -> let c := basin rs b cv in
  tabulated c /\ closed c /\ upper_at_both_ends d (c_bc c) (c_bc c) /\ bc_type (c_bc c) d SL = B_reflective /\ ~ inactive c d /\
  c_limit c = true /\ known_options c /\ flat_box c /\ flat_box (doubled d (c_bc c) c) /\ wall_fair d (c_nad c) /\
  (forall u : arr R, exists u', unfolded (N := RNum) d u u') /\
  forall heap i k u, shp u = c_n c -> rows u = 5 -> 1 <= k -> exists o, simulate c heap i true None (Some k) true [] false 0 u = Ok o.
Proof.
  intros rs b cv d NE. cbv zeta. destruct (basin_ok rs b cv) as (T & C & O & F & _). split; [exact T|]. split; [exact C|]. split; [intros a pos; reflexivity|].
  split; [reflexivity|]. split; [destruct d; intros [H _]; [discriminate|discriminate|contradiction]|]. split; [reflexivity|]. split; [exact O|]. split; [exact F|].
  split; [apply basin_doubled, NE|]. split; [apply basin_fair|]. split; [intro u; eexists; apply unfolded_exists|]. intros. apply basin_runs; assumption.
Qed.
Example C74_basin_hllc : forall b, let c := basin RS_hllc b false in test_of_cells calm_b /\ fallback_slope c (Some (LimitM.minmod RNum)) /\
  (forall w, shp w = c_n c -> calm_b w = true -> physical_traces (wts_i RNum) (wts_t RNum) c (filled c w) /\
    physical_low_traces (wts_i RNum) (wts_t RNum) c (Some (LimitM.minmod RNum)) (filled c w)) /\
  forall heap u, shp u = c_n c -> rows u = 5 -> calm (7/5) u ->
    exists o, simulate_checked (N := RNum) calm_b c heap I_euler true None (Some 1) true [] false 0 u = Ok o.
Proof. exact basin_calm. Qed.
(** The same for a wall at the upper end of an axis (whose lower end is not periodic): the run is
    the lower half of the run in the domain continued beyond the wall. *)
Theorem C74_upper_wall_llf : forall (c : config RNum) b' d, tabulated c -> closed c -> lower_at_both_ends d (c_bc c) b' ->
  bc_type (c_bc c) d SR = B_reflective -> bc_type (c_bc c) d SL <> B_periodic -> ~ inactive c d ->
  forall heap heap' i as_averages T n exact downbeats log fuel u u', c_limit c = false -> c_rs c = RS_llf ->
  shp u = c_n c -> 1 <= rows u -> unfolded_up (N := RNum) d u u' ->
  moved_outcome (N := RNum) (unfolded_up (N := RNum) d) (simulate c heap i as_averages T n exact downbeats log fuel u)
    (simulate (doubled_up d b' c) heap' i as_averages T n exact downbeats log fuel u').
Proof. exact up_llf. Qed.
Print Assumptions C74_upper_wall_llf.
Theorem C74_upper_wall_hllc : forall (c : config RNum) b' d, tabulated c -> closed c -> lower_at_both_ends d (c_bc c) b' ->
  bc_type (c_bc c) d SR = B_reflective -> bc_type (c_bc c) d SL <> B_periodic -> ~ inactive c d ->
  forall wi wt ok heap heap' i as_averages T n exact downbeats log fuel u u' o, tables wi wt -> c_limit c = false -> c_rs c = RS_hllc ->
  (0 < c_csq_floor c)%R -> (1 <= c_gamma c)%R -> test_of_cells ok ->
  (forall w, shp w = c_n c -> ok w = true -> physical_traces wi wt c (filled c w)) ->
  shp u = c_n c -> 1 <= rows u -> unfolded_up (N := RNum) d u u' ->
  simulate_checked (N := RNum) ok c heap i as_averages T n exact downbeats log fuel u = Ok o ->
  simulate c heap i as_averages T n exact downbeats log fuel u = Ok o /\
  exists o', simulate (doubled_up d b' c) heap' i as_averages T n exact downbeats log fuel u' = Ok o' /\
    moved_run (N := RNum) (unfolded_up (N := RNum) d) o o'.
Proof. exact up_hllc. Qed.
Print Assumptions C74_upper_wall_hllc.
Example C74_upper_case_hllc : forall heap d, let c := box RS_hllc (mkix 0 0 0) B_reflective in let u := mkarr 5 (c_n c) (fun v _ => rest v) in
  tabulated c /\ closed c /\ test_of_cells physical_b /\ lower_at_both_ends d (c_bc c) (c_bc c) /\ bc_type (c_bc c) d SR = B_reflective /\
  bc_type (c_bc c) d SL <> B_periodic /\ ~ inactive c d /\
  (forall w, shp w = c_n c -> physical_b w = true -> physical_traces (wts_i RNum) (wts_t RNum) c (filled c w)) /\
  exists o, simulate_checked (N := RNum) physical_b c heap I_ssprk3 true None (Some 7) true [] false 0 u = Ok o.
Proof.
  intros heap d. cbv zeta. destruct (rest_example heap) as (T & C & K & P & O). split; [exact T|]. split; [exact C|]. split; [exact K|].
  split; [intros a pos; reflexivity|]. split; [reflexivity|]. split; [discriminate|]. split; [destruct d; intros [H _]; discriminate|]. split; [exact P|exact O].
Qed.
Theorem C74_upper_wall_with_limiting_llf : forall (c : config RNum) b' d, tabulated c -> closed c -> lower_at_both_ends d (c_bc c) b' ->
  bc_type (c_bc c) d SR = B_reflective -> bc_type (c_bc c) d SL <> B_periodic -> ~ inactive c d ->
  forall heap heap' i as_averages T n exact downbeats log fuel u u', c_limit c = true -> known_options c ->
  (c_convex c = false \/ (flat_box c /\ flat_box (doubled_up d b' c))) -> c_rs c = RS_llf -> (c_force c = true \/ wall_fair d (c_nad c)) ->
  shp u = c_n c -> 2 <= rows u -> unfolded_up (N := RNum) d u u' ->
  moved_outcome (N := RNum) (unfolded_up (N := RNum) d) (simulate c heap i as_averages T n exact downbeats log fuel u)
    (simulate (doubled_up d b' c) heap' i as_averages T n exact downbeats log fuel u').
Proof. exact up_limited. Qed.
Print Assumptions C74_upper_wall_with_limiting_llf.
Theorem C74_upper_wall_with_limiting_hllc : forall (c : config RNum) b' d, tabulated c -> closed c -> lower_at_both_ends d (c_bc c) b' ->
  bc_type (c_bc c) d SR = B_reflective -> bc_type (c_bc c) d SL <> B_periodic -> ~ inactive c d ->
  forall wi wt ok slope heap heap' i as_averages T n exact downbeats log fuel u u' o, tables wi wt -> c_limit c = true -> known_options c ->
  (c_convex c = false \/ (flat_box c /\ flat_box (doubled_up d b' c))) -> c_rs c = RS_hllc ->
  (0 < c_csq_floor c)%R -> (1 <= c_gamma c)%R -> (c_force c = true \/ wall_fair d (c_nad c)) -> fallback_slope c slope -> test_of_cells ok ->
  (forall w, shp w = c_n c -> ok w = true -> (c_force c = true \/ physical_traces wi wt c (filled c w)) /\ physical_low_traces wi wt c slope (filled c w)) ->
  shp u = c_n c -> 2 <= rows u -> unfolded_up (N := RNum) d u u' ->
  simulate_checked (N := RNum) ok c heap i as_averages T n exact downbeats log fuel u = Ok o ->
  simulate c heap i as_averages T n exact downbeats log fuel u = Ok o /\
  exists o', simulate (doubled_up d b' c) heap' i as_averages T n exact downbeats log fuel u' = Ok o' /\
    moved_run (N := RNum) (unfolded_up (N := RNum) d) o o'.
Proof. exact up_limited_hllc. Qed.
Print Assumptions C74_upper_wall_with_limiting_hllc.
Example C74_upper_case : forall f d heap, let c := box RS_llf (mkix 3 2 1) B_reflective in let u := mkarr 6 (c_n c) f in
  tabulated c /\ closed c /\ lower_at_both_ends d (c_bc c) (c_bc c) /\ bc_type (c_bc c) d SR = B_reflective /\ bc_type (c_bc c) d SL <> B_periodic /\
  ~ inactive c d /\ (exists u', unfolded_up (N := RNum) d u u') /\
  exists o, simulate c heap I_rk4 true None (Some 5) true [] false 0 u = Ok o.
Proof.
  intros f d heap. cbv zeta. destruct (box_ok RS_llf (mkix 3 2 1) B_reflective) as (T & C & _); [left; reflexivity|exact I|].
  split; [exact T|]. split; [exact C|]. split; [intros a pos; reflexivity|]. split; [reflexivity|]. split; [discriminate|].
  split; [destruct d; intros [H _]; discriminate|].
  split; [apply unfolded_up_exists|]. apply box_runs; [left; reflexivity|exact I|reflexivity|cbn; lia|lia].
Qed.
(** together with [C74_basin_hllc] above for the HLLC solver *)
Example C74_upper_basin : forall rs b cv d, d <> AZ -> let c := basin rs b cv in
  tabulated c /\ closed c /\ lower_at_both_ends d (c_bc c) (c_bc c) /\ bc_type (c_bc c) d SR = B_reflective /\ bc_type (c_bc c) d SL <> B_periodic /\
  ~ inactive c d /\ c_limit c = true /\ known_options c /\ flat_box c /\ flat_box (doubled_up d (c_bc c) c) /\ wall_fair d (c_nad c) /\
  forall heap i k u, shp u = c_n c -> rows u = 5 -> 1 <= k -> exists o, simulate c heap i true None (Some k) true [] false 0 u = Ok o.
Proof.
  intros rs b cv d NE. cbv zeta. destruct (basin_ok rs b cv) as (T & C & O & F & _). split; [exact T|]. split; [exact C|]. split; [intros a pos; reflexivity|].
  split; [reflexivity|]. split; [discriminate|]. split; [destruct d; intros [H _]; [discriminate|discriminate|contradiction]|]. split; [reflexivity|]. split; [exact O|]. split; [exact F|].
  split; [exact (basin_doubled rs b cv d NE)|]. split; [apply basin_fair|]. intros. apply basin_runs; assumption.
Qed.
(** With the upwind solver the wall is not a plane of symmetry: where gas leaves the wall,
    the two runs differ after one step. *)
Theorem C74_upwind_refuted : exists (c : config QNum) b' heap u u' o o',
  tabulated c /\ closed c /\ upper_at_both_ends AX (c_bc c) b' /\ bc_type (c_bc c) AX SL = B_reflective /\ ~ inactive c AX /\
  c_limit c = false /\ c_rs c = RS_upwind /\ shp u = c_n c /\ rows u = 5 /\ unfolded AX u u' /\
  simulate c heap I_euler true None (Some 1) true [] false 0 u = Ok o /\
  simulate (doubled AX b' c) heap I_euler true None (Some 1) true [] false 0 u' = Ok o' /\
  ~ unfolded AX (o_u o) (o_u o').
Proof. exact upwind_torn. Qed.
Print Assumptions C74_upwind_refuted.
