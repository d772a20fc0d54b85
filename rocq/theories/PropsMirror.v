(** Theorems on mirror images of runs (C40, C61). *)
From Coq Require Import ZArith List Bool Lia Reals Lra.
From Verif Require Import Err Num NdArray FvM RiemannM StencilsM BcM SpecBc LimitM OdeM SolverM Spec SpecSolver SpecCons SpecScheme SpecSym
  FvP OpP SolverP ExistP SchemeP MirrorP.
Import ListNotations.
Open Scope Z_scope.

(** C61. Reflecting the initial state in a plane normal to an axis, and exchanging the boundary
    types at the two ends of that axis, reflects the whole run: the same times, reflected
    states and snapshots, or the same exception. With the LLF solver, without slope limiting,
    for any state whatever. *)
Theorem C61_mirror_images_llf : forall (c : config RNum) b' d heap heap' i as_averages T n exact downbeats log fuel u u',
  tabulated c -> closed c -> closed (replace_bc c b') -> ends_exchanged d (c_bc c) b' -> c_limit c = false ->
  c_rs c = RS_llf -> shp u = c_n c -> 1 <= rows u -> mirrored d u u' ->
  moved_outcome (N := RNum) (mirrored d) (simulate c heap i as_averages T n exact downbeats log fuel u)
    (simulate (replace_bc c b') heap' i as_averages T n exact downbeats log fuel u').
Proof. exact mirror_llf. Qed.
Print Assumptions C61_mirror_images_llf.
(** With the HLLC solver, as long as the traces have positive density and non-negative
    pressure in all states the right-hand side is evaluated for. The proviso is expressed by a
    run that stops at a state failing the test [ok]. *)
Theorem C61_mirror_images_hllc : forall wi wt, tables wi wt ->
  forall ok (c : config RNum) b' d heap heap' i as_averages T n exact downbeats log fuel u u' o,
  tabulated c -> closed c -> closed (replace_bc c b') -> ends_exchanged d (c_bc c) b' -> c_limit c = false ->
  c_rs c = RS_hllc -> (0 < c_csq_floor c)%R -> (1 <= c_gamma c)%R -> test_of_cells ok ->
  (forall w, shp w = c_n c -> ok w = true -> physical_traces wi wt c (filled c w)) ->
  shp u = c_n c -> 1 <= rows u -> mirrored d u u' ->
  simulate_checked (N := RNum) ok c heap i as_averages T n exact downbeats log fuel u = Ok o ->
  simulate c heap i as_averages T n exact downbeats log fuel u = Ok o /\
  exists o', simulate (replace_bc c b') heap' i as_averages T n exact downbeats log fuel u' = Ok o' /\
    moved_run (N := RNum) (mirrored d) o o'.
Proof. exact mirror_hllc. Qed.
Print Assumptions C61_mirror_images_hllc.
Example C61_case_llf : forall f d heap, let c := box RS_llf (mkix 3 2 1) B_reflective in let u := mkarr 6 (c_n c) f in
  tabulated c /\ closed c /\ closed (replace_bc c (c_bc c)) /\ ends_exchanged d (c_bc c) (c_bc c) /\
  (exists u', mirrored d u u') /\
  exists o, simulate c heap I_rk4 true None (Some 5) true [] false 0 u = Ok o.
Proof.
  intros f d heap. cbv zeta. destruct (box_ok RS_llf (mkix 3 2 1) B_reflective) as (T & C & _); [left; reflexivity|exact I|].
  split; [exact T|]. split; [exact C|]. split; [exact C|]. split; [apply box_self_exchange|].
  split; [eexists; apply mirrored_exists|]. apply box_runs; [left; reflexivity|exact I|reflexivity|cbn; lia|lia].
Qed.
(** a wind passes the test of positive density and pressure in seven Runge-Kutta steps *)
Example C61_case_hllc : forall heap, let c := box RS_hllc (mkix 0 0 0) B_outflow in let u := mkarr 5 (c_n c) (fun v _ => wind v) in
  tabulated c /\ closed c /\ test_of_cells physical_b /\
  (forall w, shp w = c_n c -> physical_b w = true -> physical_traces (wts_i RNum) (wts_t RNum) c (filled c w)) /\
  exists o, simulate_checked (N := RNum) physical_b c heap I_ssprk3 true None (Some 7) true [] false 0 u = Ok o.
Proof. exact wind_example. Qed.

(** C40. Data symmetric about the middle plane of the box, with the same boundary type at both
    ends of the axis, stay symmetric, and so do all snapshots. *)
Theorem C40_symmetric_data_stay_symmetric : forall (c : config RNum) d heap i as_averages T n exact downbeats log fuel u o,
  tabulated c -> closed c -> bc_type (c_bc c) d SL = bc_type (c_bc c) d SR -> c_limit c = false -> c_rs c = RS_llf ->
  shp u = c_n c -> 1 <= rows u -> mirrored d u u ->
  simulate c heap i as_averages T n exact downbeats log fuel u = Ok o ->
  mirrored d (o_u o) (o_u o) /\ Forall (fun s => mirrored d (fst (snd s)) (fst (snd s))) (o_snaps o).
Proof. exact symmetric_llf. Qed.
Print Assumptions C40_symmetric_data_stay_symmetric.
Theorem C40_symmetric_data_stay_symmetric_hllc : forall wi wt ok (c : config RNum) d heap i as_averages T n exact downbeats log fuel u o,
  tables wi wt -> tabulated c -> closed c -> bc_type (c_bc c) d SL = bc_type (c_bc c) d SR -> c_limit c = false ->
  c_rs c = RS_hllc -> (0 < c_csq_floor c)%R -> (1 <= c_gamma c)%R -> test_of_cells ok ->
  (forall w, shp w = c_n c -> ok w = true -> physical_traces wi wt c (filled c w)) ->
  shp u = c_n c -> 1 <= rows u -> mirrored d u u ->
  simulate_checked (N := RNum) ok c heap i as_averages T n exact downbeats log fuel u = Ok o ->
  mirrored d (o_u o) (o_u o) /\ Forall (fun s => mirrored d (fst (snd s)) (fst (snd s))) (o_snaps o).
Proof. exact symmetric_hllc. Qed.
Print Assumptions C40_symmetric_data_stay_symmetric_hllc.
(** gas thrown from the middle of the box against both walls *)
Example C40_symmetric_case : forall heap, let c := box RS_llf (mkix 3 2 1) B_reflective in
  let u := mkarr 5 (c_n c) (fun v i => if v =? 1 then IZR (2 * cx i - 11) else if v =? 4 then 100%R else IZR (1 + cy i + cx i * (11 - cx i))) in
  tabulated c /\ closed c /\ bc_type (c_bc c) AX SL = bc_type (c_bc c) AX SR /\ mirrored AX u u /\
  exists o, simulate c heap I_ssprk3 true None (Some 5) true [] false 0 u = Ok o.
Proof.
  intros heap. cbv zeta. destruct (box_ok RS_llf (mkix 3 2 1) B_reflective) as (T & C & _); [left; reflexivity|exact I|].
  split; [exact T|]. split; [exact C|]. split; [reflexivity|]. split.
  - split; [reflexivity|]. split; [reflexivity|]. intros v i _. cbn [at_ shp rows box c_n getc setc cx cy cz comp].
    destruct (v =? 1); [rewrite <- opp_IZR; f_equal; lia|]. destruct (v =? 4); [reflexivity|]. f_equal. ring.
  - apply box_runs; [left; reflexivity|exact I|reflexivity|cbn; lia|lia].
Qed.
