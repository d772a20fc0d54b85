(** Property C69: runs do not depend on the units of length, speed and density. *)
From Coq Require Import ZArith List Reals Lra Lia.
From Verif Require Import Err Num NdArray HydroM RiemannM StencilsM FvM BcM SedM LimitM OdeM SolverM
  Spec SpecBc SpecSolver SpecCons SpecScheme SpecExact SpecStage SpecLim SpecSym SpecUnits SpecFloor UnitsP UnitsLimP StageT FloorQ.
Import ListNotations.
Open Scope R_scope.

(** C69: in exact arithmetic, a run without slope limiting in other units of length, speed and
    density is the same run in other units, exceptions included. Every dimensional constant
    has to be converted: bounds, fixed time step, floor of the squared sound speed and the
    prescribed boundary values. The arithmetic sets x / 0 = 0; no positivity is needed. *)
Theorem C69_units : forall (L V D : R) (c c' : config RNum) heap heap' i as_averages T n exact downbeats log fuel u u',
  0 < L -> 0 < V -> 0 < D -> units_changed L V D (rows u) c c' ->
  tabulated c -> tabulated c' -> fillable (N := RNum) (middle_of c) c (rows u) -> fillable (N := RNum) (middle_of c') c' (rows u) ->
  c_limit c = false -> shp u = c_n c -> (1 <= rows u)%Z -> rescaled (row_unit V D) u u' ->
  outcome_rescaled L V D
    (simulate c heap i as_averages T n exact downbeats log fuel u)
    (simulate c' heap' i as_averages (option_map (fun t => L / V * t) T) n exact (map (fun t => L / V * t) downbeats) log fuel u').
Proof. intros. eapply units_run; eauto. Qed.
Print Assumptions C69_units.
(** Every configuration can be converted. *)
Theorem C69_convert : forall (L V D : R) q (c : config RNum), 0 < L -> 0 < V ->
  units_changed L V D q c (convert L V D q c) /\ limiting_changed V D c (convert L V D q c) /\
  (tabulated c -> tabulated (convert L V D q c)) /\
  (fillable (N := RNum) (middle_of c) c q -> fillable (N := RNum) (middle_of (convert L V D q c)) (convert L V D q c) q).
Proof. intros. split; [apply convert_units|split; [apply convert_limiting|split; [apply convert_tab|apply convert_fillable]]]; assumption. Qed.
Print Assumptions C69_convert.
(** a channel with moving boundary values, in units of a tenth of the length, a third of the
    speed and half the density *)
Example C69_channel : forall heap, let c := channel in let u := channel_gas in
  let u' := mkarr 5 (c_n c) (fun v i => row_unit 3 2 v * at_ u v i) in
  units_changed 10 3 2 (rows u) c (convert 10 3 2 5 c) /\ tabulated c /\ tabulated (convert 10 3 2 5 c) /\
  fillable (N := RNum) (middle_of c) c (rows u) /\ fillable (N := RNum) (middle_of (convert 10 3 2 5 c)) (convert 10 3 2 5 c) (rows u) /\
  c_limit c = false /\ shp u = c_n c /\ rescaled (row_unit 3 2) u u' /\
  (exists o, simulate c heap I_euler false None (Some (Z.of_nat 2)) true [] false 0 u = Ok o) /\
  c_fixed_dt (convert 10 3 2 5 c) = Some (10 / 3 * (1 / 100)).
Proof.
  intros heap c u u'. destruct (channel_case heap) as (HT & HF & HL & _ & _ & _ & _ & _ & _ & _ & _ & _ & HO & _).
  split; [apply convert_units; lra|]. split; [exact HT|]. split; [apply convert_tab; exact HT|]. split; [exact HF|].
  split; [apply convert_fillable; [lra|lra|exact HF]|]. split; [exact HL|]. split; [reflexivity|].
  split; [|split; [exact HO|reflexivity]]. split; [reflexivity|]. split; [reflexivity|]. intros v i _. reflexivity.
Qed.

(** The same with slope limiting, for the moncen limiter or fall-back without slopes, convex
    blending or not, provided the bounds of the physical admissibility test are converted too
    and the smooth-extrema detector is off (or trouble is forced). *)
Theorem C69_units_with_limiting : forall (L V D : R) (c c' : config RNum) heap heap' i as_averages T n exact downbeats log fuel u u',
  0 < L -> 0 < V -> 0 < D -> units_changed L V D (rows u) c c' -> limiting_changed V D c c' ->
  tabulated c -> tabulated c' -> fillable (N := RNum) (middle_of c) c (rows u) -> fillable (N := RNum) (middle_of c') c' (rows u) ->
  c_limit c = true -> known_options c -> (c_convex c = false \/ flat_box c) -> c_limiter c <> L_minmod ->
  (c_force c = true \/ sed_on (c_nad c) = false) ->
  shp u = c_n c -> (2 <= rows u)%Z -> rescaled (row_unit V D) u u' ->
  outcome_rescaled L V D
    (simulate c heap i as_averages T n exact downbeats log fuel u)
    (simulate c' heap' i as_averages (option_map (fun t => L / V * t) T) n exact (map (fun t => L / V * t) downbeats) log fuel u').
Proof. intros. eapply units_run_limited; eauto. Qed.
Print Assumptions C69_units_with_limiting.
(** the channel with bounds on density and pressure *)
Example C69_guarded_channel : forall heap, let c := guarded channel in let c' := convert 10 3 2 5 c in let u := channel_gas in
  let u' := mkarr 5 (c_n c) (fun v i => row_unit 3 2 v * at_ u v i) in
  units_changed 10 3 2 (rows u) c c' /\ limiting_changed 3 2 c c' /\ tabulated c /\ tabulated c' /\
  fillable (N := RNum) (middle_of c) c (rows u) /\ fillable (N := RNum) (middle_of c') c' (rows u) /\
  c_limit c = true /\ known_options c /\ c_convex c = false /\ c_limiter c = L_moncen /\ sed_on (c_nad c) = false /\ c_force c = false /\
  shp u = c_n c /\ rescaled (row_unit 3 2) u u' /\
  pad_bounds (c_nad c') = Some [(0%Z, (Some (2 * (1 / 2)), None)); (4%Z, (Some (2 * (3 * 3) * 0), Some (2 * (3 * 3) * 10)))] /\
  exists o, simulate c heap I_ssprk3 false None (Some 2%Z) true [] false 0 u = Ok o.
Proof.
  intros heap c c' u u'. destruct (guarded_channel heap) as (HT & HF & HL & HK & HC & HO).
  split; [apply convert_units; lra|]. split; [apply convert_limiting|]. split; [exact HT|]. split; [apply convert_tab; exact HT|]. split; [exact HF|].
  split; [apply convert_fillable; [lra|lra|exact HF]|]. split; [exact HL|]. split; [exact HK|]. split; [exact HC|].
  do 4 (split; [reflexivity|]). split; [|split; [reflexivity|exact HO]]. split; [reflexivity|]. split; [reflexivity|]. intros v i _. reflexivity.
Qed.
(** For minmod it is not so: its denominator is kept away from zero by an absolute 1e-16. *)
Theorem C69_minmod_refuted : exists u u' l r l' r' D, 0 < D /\ rescaled (fun _ => D) u u' /\
  MUSCL_interpolations RNum AX L_minmod u = Ok (l, r) /\ MUSCL_interpolations RNum AX L_minmod u' = Ok (l', r') /\
  in_shape (shp r) (mkix 0 0 0) /\ at_ r' 0 (mkix 0 0 0) <> D * at_ r 0 (mkix 0 0 0).
Proof. exact minmod_units. Qed.
Print Assumptions C69_minmod_refuted.

(** Nor is it with the smooth-extrema detector, which compares with an absolute
    tolerance, so that whether a parabola counts as smooth (value 1) depends on the units. *)
Theorem C69_smoothness_refuted : forall eps, 0 < eps -> exists u u' o o' D, 0 < D /\ rescaled (fun _ => D) u u' /\
  sed_1d RNum AX eps u = Ok o /\ sed_1d RNum AX eps u' = Ok o' /\ in_shape (shp o) (mkix 0 0 0) /\
  at_ o 0 (mkix 0 0 0) = 1 /\ at_ o' 0 (mkix 0 0 0) = 1/2.
Proof. exact smoothness_units. Qed.
Print Assumptions C69_smoothness_refuted.

(** The floor of the squared sound speed has to be converted too. Cold gas at rest is the same
    in every unit of speed V, but with any floor x that is kept, such as the default 1e-10,
    its first time step does not become 1 / V of what it was. *)
Theorem C69_floor_refuted : forall x V, 0 < x -> 0 < V -> V <> 1 -> exists (c : config RNum) u,
  tabulated c /\ fillable (N := RNum) (middle_of c) c (rows u) /\ c_limit c = false /\ c_csq_floor c = x /\ shp u = c_n c /\ rows u = 5%Z /\
  rescaled (row_unit V 1) u u /\ forall heap i,
  ~ outcome_rescaled 1 V 1 (simulate c heap i true None (Some 1%Z) true [] false 0 u)
      (simulate (with_floor x (convert 1 V 1 5 c)) heap i true None (Some 1%Z) true [] false 0 u).
Proof. intros x V A B C. exists (cold_box x), cold. exact (floor_units x V A B C). Qed.
Print Assumptions C69_floor_refuted.
Example C69_floor_case : 0 < 1 / 10 ^ 10 /\ 0 < 2 /\ 2 <> 1.
Proof. lra. Qed.
