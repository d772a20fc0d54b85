(** Theorems on several reflecting walls and on blasts in a corner (C79). *)
From Coq Require Import ZArith List Bool Lia Reals Lra String.
From Verif Require Import Err Num NdArray FvM RiemannM StencilsM BcM SpecBc LimitM OdeM SolverM ICM Spec SpecLim SpecSolver SpecCons SpecScheme SpecSym SpecMirLim SpecFold SpecIC SpecCorner
  MirrorP CornerP CornerQ.
Import ListNotations.
Open Scope Z_scope.

(** C79. A run in a domain with reflecting walls at the lower ends of any of the axes is the
    upper quarter (eighth) of the run in the domain continued symmetrically behind all these
    walls. With the LLF solver, with or without slope limiting, for any state whatever. *)
Theorem C79_walls_are_symmetry_planes_llf : forall l (c : config RNum) b', tabulated c -> closed c -> l <> [] -> NoDup l -> upper_at_all_ends l c b' ->
  (forall a, In a l -> bc_type (c_bc c) a SL = B_reflective /\ ~ inactive c a) -> c_rs c = RS_llf ->
  (c_limit c = true -> limiting_fair l c) ->
  forall heap heap' i as_averages T n exact downbeats log fuel u u', shp u = c_n c -> 2 <= rows u -> opened (N := RNum) l u u' ->
  moved_outcome (N := RNum) (opened (N := RNum) l) (simulate c heap i as_averages T n exact downbeats log fuel u)
    (simulate (continued l b' c) heap' i as_averages T n exact downbeats log fuel u').
Proof. exact walls_llf. Qed.
Print Assumptions C79_walls_are_symmetry_planes_llf.
(** With the HLLC solver and degree zero or forced limited slopes, as long as density and internal energy of the cells
    stay physical. *)
Theorem C79_walls_are_symmetry_planes_hllc : forall ok l (c : config RNum) b', tabulated c -> closed c -> l <> [] -> NoDup l -> upper_at_all_ends l c b' ->
  (forall a, In a l -> bc_type (c_bc c) a SL = B_reflective /\ ~ inactive c a) -> c_rs c = RS_hllc -> low_order c ->
  (0 < c_csq_floor c)%R -> (1 < c_gamma c)%R -> (forall w, ok w = true <-> all_physical w) ->
  forall heap heap' i as_averages T n exact downbeats log fuel u u' o, shp u = c_n c -> 2 <= rows u -> opened (N := RNum) l u u' ->
  simulate_checked (N := RNum) ok c heap i as_averages T n exact downbeats log fuel u = Ok o ->
  simulate c heap i as_averages T n exact downbeats log fuel u = Ok o /\
  exists o', simulate (continued l b' c) heap' i as_averages T n exact downbeats log fuel u' = Ok o' /\ moved_run (N := RNum) (opened (N := RNum) l) o o'.
Proof. intros ok l c b' H1 H2 H3 H4 H5 H6 H7 H8 H9 H10 H. rewrite (test_is_physical ok H). apply walls_hllc; assumption. Qed.
Print Assumptions C79_walls_are_symmetry_planes_hllc.
(** C79. What tests/test_sedov_reflection_symmetry.py checks for two-dimensional and
    three-dimensional blasts of 16 cells: the blast in the corner of the domain with walls is the upper quarter of the
    blast in the middle of the full domain, for any number of cells, duration, integrator,
    degree and energy. *)
Theorem C79_corner_blast_llf : forall dims leggauss rho0 E0 E1 conservative_ic fv_ic (c : config RNum) b', tabulated c -> closed c -> blast_corner dims c ->
  (forall a, in_dims a dims = true -> (0 < spacing RNum c a)%R) -> upper_at_all_ends (named_axes dims) c b' -> unit_rules leggauss ->
  fv_ic = false \/ conservative_ic = true ->
  c_rs c = RS_llf -> (c_limit c = true -> limiting_fair (named_axes dims) c) ->
  exists u0 u1, initial_state RNum leggauss c (sedov_blast RNum "corner" dims rho0 E0 E1) None conservative_ic fv_ic = Ok u0 /\
    initial_state RNum leggauss (continued (named_axes dims) b' c) (sedov_blast RNum "center" dims rho0 E0 E1) None conservative_ic fv_ic = Ok u1 /\
    forall heap heap' i as_averages T n exact downbeats log fuel,
    moved_outcome (N := RNum) (opened (N := RNum) (named_axes dims)) (simulate c heap i as_averages T n exact downbeats log fuel u0)
      (simulate (continued (named_axes dims) b' c) heap' i as_averages T n exact downbeats log fuel u1).
Proof. exact blast_llf. Qed.
Print Assumptions C79_corner_blast_llf.
Theorem C79_corner_blast_hllc : forall ok dims leggauss rho0 E0 E1 conservative_ic fv_ic (c : config RNum) b', tabulated c -> closed c -> blast_corner dims c ->
  (forall a, in_dims a dims = true -> (0 < spacing RNum c a)%R) -> upper_at_all_ends (named_axes dims) c b' -> unit_rules leggauss ->
  fv_ic = false \/ conservative_ic = true ->
  c_rs c = RS_hllc -> low_order c -> (0 < c_csq_floor c)%R -> (1 < c_gamma c)%R -> (forall w, ok w = true <-> all_physical w) ->
  exists u0 u1, initial_state RNum leggauss c (sedov_blast RNum "corner" dims rho0 E0 E1) None conservative_ic fv_ic = Ok u0 /\
    initial_state RNum leggauss (continued (named_axes dims) b' c) (sedov_blast RNum "center" dims rho0 E0 E1) None conservative_ic fv_ic = Ok u1 /\
    forall heap heap' i as_averages T n exact downbeats log fuel o,
    simulate_checked (N := RNum) ok c heap i as_averages T n exact downbeats log fuel u0 = Ok o ->
    simulate c heap i as_averages T n exact downbeats log fuel u0 = Ok o /\
    exists o', simulate (continued (named_axes dims) b' c) heap' i as_averages T n exact downbeats log fuel u1 = Ok o' /\
      moved_run (N := RNum) (opened (N := RNum) (named_axes dims)) o o'.
Proof.
  intros ok dims lg rho0 E0 E1 cons fv c b' H1 H2 H3 H4 H5 H6 H7 H8 H9 H10 H11 H. rewrite (test_is_physical ok H). apply blast_hllc; assumption.
Qed.
Print Assumptions C79_corner_blast_hllc.
(** the configuration of that test in the x-y plane: 16 x 16 cells, walls and outflow, degree
    one with forced minmod slopes or degree zero *)
Example C79_sedov_test : forall rs p, p = 0 \/ p = 1 -> let c := sedov_box rs p in tabulated c /\ closed c /\ blast_corner "xy" c /\
  (forall a, in_dims a "xy" = true -> (0 < spacing RNum c a)%R) /\ upper_at_all_ends (named_axes "xy") c (uniform_bc B_outflow) /\
  limiting_fair (named_axes "xy") (sedov_box rs 1) /\ low_order c /\ (forall w, physical_b w = true <-> all_physical w) /\
  (forall heap i k u, shp u = mkix 16 16 1 -> 2 <= rows u -> 1 <= k -> exists o, simulate (sedov_box rs 1) heap i true None (Some k) true [] false 0 u = Ok o) /\
  forall heap i k, 1 <= k -> exists o, simulate_checked (N := RNum) physical_b (sedov_box RS_hllc 0) heap i true None (Some k) true [] false 0
    (mkarr 5 (mkix 16 16 1) (fun v _ => if (v =? 0) || (v =? 4) then 1%R else 0%R)) = Ok o.
Proof.
  intros rs p P. cbv zeta. destruct (sedov_ok rs p P) as (A & B & C & D & E & F). repeat (split; [assumption|]). split; [exact (sedov_low rs p P)|]. split; [exact physical_b_spec|].
  split; [exact (sedov_runs rs)|exact sedov_checked].
Qed.
(** C79. Data that do not distinguish some axes never come to distinguish them: a state equal
    to itself with the axes exchanged stays so, for all three Riemann solvers. *)
Theorem C79_symmetric_data_stay_symmetric : forall s (c : config RNum), (forall a b, s a = s b -> a = b) -> axes_exchanged s c c -> tabulated c -> closed c ->
  (c_limit c = true -> known_options c /\ (c_convex c = false \/ flat_box c) /\ (c_force c = true \/ axes_fair s (c_nad c))) ->
  forall heap i as_averages T n exact downbeats log fuel u o, shp u = c_n c -> 2 <= rows u -> permuted s u u ->
  simulate c heap i as_averages T n exact downbeats log fuel u = Ok o ->
  permuted s (o_u o) (o_u o) /\ List.Forall (fun x => permuted s (fst (snd x)) (fst (snd x))) (o_snaps o).
Proof. exact symmetric_stays. Qed.
Print Assumptions C79_symmetric_data_stay_symmetric.
(** the blast in the corner is such a state *)
Theorem C79_corner_blast_symmetric : forall dims leggauss rho0 E0 E1 conservative_ic fv_ic s (c : config RNum), tabulated c -> closed c -> blast_corner dims c ->
  (forall a, in_dims a dims = true -> (0 < spacing RNum c a)%R) -> unit_rules leggauss -> fv_ic = false \/ conservative_ic = true ->
  (forall a b, s a = s b -> a = b) -> axes_exchanged s c c ->
  (c_limit c = true -> known_options c /\ (c_convex c = false \/ flat_box c) /\ (c_force c = true \/ axes_fair s (c_nad c))) ->
  exists u0, initial_state RNum leggauss c (sedov_blast RNum "corner" dims rho0 E0 E1) None conservative_ic fv_ic = Ok u0 /\
  forall heap i as_averages T n exact downbeats log fuel o, simulate c heap i as_averages T n exact downbeats log fuel u0 = Ok o ->
  permuted s (o_u o) (o_u o) /\ List.Forall (fun x => permuted s (fst (snd x)) (fst (snd x))) (o_snaps o).
Proof. exact blast_symmetric. Qed.
Print Assumptions C79_corner_blast_symmetric.
Example C79_symmetric_case : forall rs p, (forall a b, swap a = swap b -> a = b) /\ axes_exchanged swap (sedov_box rs p) (sedov_box rs p) /\
  permuted swap (mkarr 5 (mkix 16 16 1) (fun v i => if v =? 0 then IZR (cx i * cy i) else if v =? 1 then IZR (cx i) else if v =? 2 then IZR (cy i) else 1%R))
    (mkarr 5 (mkix 16 16 1) (fun v i => if v =? 0 then IZR (cx i * cy i) else if v =? 1 then IZR (cx i) else if v =? 2 then IZR (cy i) else 1%R)).
Proof. intros rs p. destruct (sedov_swaps rs p) as [A B]. split; [exact A|]. split; [exact B|]. exact twisted_case. Qed.
