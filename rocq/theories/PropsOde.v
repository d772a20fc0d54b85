(** Theorems on time integration (C30-C35). *)
From Coq Require Import ZArith QArith List Bool Lia Reals Lra Sorted Floats.SpecFloat.
From Coquelicot Require Import Coquelicot.
From Verif Require Import Err Num NdArray BcM OdeM SolverM SpecPoly SpecSolver SpecCons ExistP SpecOde RkP LoopP OdeT FloatP.
Import ListNotations.
Local Open Scope R_scope.

(** C30. On a linear system one step multiplies the state by the Taylor polynomial of the
    exponential, of degree 1 (euler), 2 (ssprk2), 3 (ssprk3), 4 (rk4). *)
Theorem C30_linear_systems : forall q n S (f : S -> R -> R -> arr R -> res (S * (R * arr R))) L i s t u target,
  linear_map q n L -> computes q n (fun _ => L) f -> shaped q n u ->
  exists s1 h k s' dt un, f s t t u = Ok (s1, (h, k)) /\ dt = hit_target RNum t h target /\
    stepper_of RNum (arr_ops RNum) f i s t u target = Ok (s', (dt, un)) /\ shaped q n un /\
    forall v j, inside q n v j -> at_ un v j = taylor (order i) L dt (at_ u) v j.
Proof. intros. apply linear_step; auto. Qed.
Print Assumptions C30_linear_systems.
(** With a slope that depends on time only, euler and ssprk2 integrate constants exactly,
    ssprk3 and rk4 cubic polynomials. *)
Theorem C30_quadrature : forall q n S (f : S -> R -> R -> arr R -> res (S * (R * arr R))) g i s t u target,
  (forall v j, is_poly (time_degree i) (fun t => g t v j)) ->
  computes q n (fun t _ => g t) f -> shaped q n u ->
  exists s1 h k s' dt un, f s t t u = Ok (s1, (h, k)) /\ dt = hit_target RNum t h target /\
    stepper_of RNum (arr_ops RNum) f i s t u target = Ok (s', (dt, un)) /\ shaped q n un /\
    forall v j, inside q n v j -> at_ un v j = at_ u v j + RInt (fun t => g t v j) t (t + dt).
Proof. intros. apply time_step; auto. Qed.
Print Assumptions C30_quadrature.
Example C30_hypotheses : linear_map 2 (mkix 3 2 1) swap /\ computes 2 (mkix 3 2 1) (fun _ => swap) swap_f /\
  computes 1 (mkix 1 1 1) (fun t _ _ _ => t) slope_t /\ is_poly (time_degree I_rk4) (fun t => t).
Proof.
  split; [apply swap_linear|]. split; [apply swap_computes|]. split; [apply slope_t_computes|].
  exists [0; 1]. split; [cbn; lia|]. intros. cbn. ring.
Qed.
(** ssprk2 is not second order for time-dependent slopes: its second stage is evaluated at
    t, so du/dt = t from 0 to 1 gives 0 instead of 1/2. *)
Theorem C30_ssprk2_time_refuted : computes 1 (mkix 1 1 1) (fun t _ _ _ => t) slope_t /\ exists s' un,
  stepper_of RNum (arr_ops RNum) slope_t I_ssprk2 tt 0 (mkarr 1 (mkix 1 1 1) (fun _ _ => 0)) None = Ok (s', (1, un)) /\
  at_ un 0%Z (mkix 0 0 0) = 0 /\ 0 + RInt (fun t => t) 0 (0 + 1) = 1 / 2.
Proof. exact (conj slope_t_computes ssprk2_misses). Qed.
Print Assumptions C30_ssprk2_time_refuted.

(** C31. A convex set that every forward Euler step of length dt maps into itself is mapped
    into itself by the steps of length dt of euler, ssprk2 and ssprk3. *)
Theorem C31_convex_sets : forall q n S (f : S -> R -> R -> arr R -> res (S * (R * arr R))) C dt i s t u target s' un,
  convex_set q n C -> euler_stays q n C dt f -> i = I_euler \/ i = I_ssprk2 \/ i = I_ssprk3 ->
  C u -> stepper_of RNum (arr_ops RNum) f i s t u target = Ok (s', (dt, un)) -> C un.
Proof. intros until 4. eapply step_convex; eauto. Qed.
Print Assumptions C31_convex_sets.
Example C31_hypotheses : convex_set 5 (mkix 4 4 4) (unit_box 5 (mkix 4 4 4)) /\
  euler_stays 5 (mkix 4 4 4) (unit_box 5 (mkix 4 4 4)) (1 / 2) decay.
Proof. split; [apply unit_box_convex|apply decay_stays]. Qed.

(** C32. A fresh object integrated to T > 0 with exact=True ends at T; the snapshot times are
    0, T and the downbeats in between, increasing; the times of the steps increase; the number
    of steps is at most T / dmin + #downbeats + 1 if the proposed steps are at least dmin. *)
Theorem C32_stops_at_T : forall U S D (V : vops RNum U) f i helper (payload : S -> R -> U -> res D) dmin u0 s0 o T n downbeats fuel,
  0 <= dmin -> proposes (N := RNum) f (fun dt => 0 < dt /\ dmin <= dt) ->
  List.Forall (fun x => 0 <= x) downbeats -> 0 < T ->
  integrate RNum V (stepper_of RNum V f i) helper payload (Some T) n true downbeats false fuel (ode_init RNum u0 s0) = Ok o ->
  o_t o = T /\ increasing (times o) /\ (forall x, In x (times o) <-> wanted T downbeats x) /\
  increasing (o_stamps o) /\ last (o_stamps o) 0 = T /\
  o_steps o = (Z.of_nat (length (o_stamps o)) - 1)%Z /\
  dmin * IZR (o_steps o) <= T + dmin * (IZR (Z.of_nat (length downbeats)) + 1).
Proof. intros. eapply fresh_run; eauto. Qed.
Print Assumptions C32_stops_at_T.
(** With log_every_step every step is followed by a snapshot. *)
Theorem C32_log_every_step : forall U S D (V : vops RNum U) f i helper (payload : S -> R -> U -> res D) u0 s0 o T n downbeats fuel,
  proposes (N := RNum) f (fun dt => 0 < dt) ->
  List.Forall (fun x => 0 <= x) downbeats -> 0 < T ->
  integrate RNum V (stepper_of RNum V f i) helper payload (Some T) n true downbeats true fuel (ode_init RNum u0 s0) = Ok o ->
  o_t o = T /\ times o = o_stamps o /\ increasing (o_stamps o).
Proof. intros. eapply fresh_every; eauto. Qed.
Print Assumptions C32_log_every_step.
(** The loop ends after at most T / dmin + #downbeats + 1 iterations. *)
Theorem C32_terminates : forall U S D (V : vops RNum U) f i helper (payload : S -> R -> U -> res D) dmin u0 s0 T n downbeats log fuel,
  0 < dmin -> proposes (N := RNum) f (fun dt => 0 < dt /\ dmin <= dt) -> never_raises V f payload ->
  List.Forall (fun x => 0 <= x) downbeats -> 0 < T ->
  T / dmin + IZR (Z.of_nat (length downbeats)) + 1 <= IZR (Z.of_nat fuel) ->
  exists o, integrate RNum V (stepper_of RNum V f i) helper payload (Some T) n true downbeats log fuel (ode_init RNum u0 s0) = Ok o.
Proof. intros. eapply run_terminates; eauto. lra. Qed.
Print Assumptions C32_terminates.
Example C32_hypotheses : proposes (N := RNum) (clock (N := RNum) (1/2)) (fun dt => 0 < dt /\ 1/2 <= dt) /\
  never_raises (N := RNum) (D := unit) num_ops (clock (N := RNum) (1/2)) (fun _ _ _ => Ok tt) /\ List.Forall (fun x => 0 <= x) [1; 7/10; 0; 1] /\
  2 / (1/2) + IZR (Z.of_nat (length [1; 7/10; 0; 1])) + 1 <= IZR (Z.of_nat 9).
Proof.
  split; [intros s t t' u s' dt k [= <- <- <-]; lra|]. split.
  { split; [intros; eexists; reflexivity|]. split; [intros; eexists; reflexivity|]. split; intros; eexists; reflexivity. }
  split; [repeat constructor; lra|]. cbn. lra.
Qed.
(** The solver: a positive fixed time step or a positive CFL number, sound speed floor and
    cell sizes make all steps positive. *)
Theorem C32_solver_stops_at_T : forall c heap i as_averages T n downbeats fuel u0 (o : run RNum),
  steps_forward c -> List.Forall (fun x => 0 <= x) downbeats -> 0 < T ->
  simulate c heap i as_averages (Some T) n true downbeats false fuel u0 = Ok o ->
  o_t o = T /\ increasing (times o) /\ (forall x, In x (times o) <-> wanted T downbeats x) /\
  increasing (o_stamps o) /\ last (o_stamps o) 0 = T.
Proof. exact solver_run. Qed.
Print Assumptions C32_solver_stops_at_T.
Theorem C32_solver_terminates : forall xc (c : config RNum) heap i as_averages T n downbeats log fuel u0 h,
  tabulated c -> fillable xc c (rows u0) -> c_limit c = false -> shp u0 = c_n c -> (2 <= rows u0)%Z ->
  c_fixed_dt c = Some h -> 0 < h -> List.Forall (fun x => 0 <= x) downbeats -> 0 < T ->
  T / h + IZR (Z.of_nat (length downbeats)) + 1 <= IZR (Z.of_nat fuel) ->
  exists o, simulate c heap i as_averages (Some T) n true downbeats log fuel u0 = Ok o.
Proof. exact solver_terminates. Qed.
Print Assumptions C32_solver_terminates.
Example C32_solver_hypotheses : let c := flow3d B_periodic false in
  steps_forward c /\ tabulated c /\ c_limit c = false /\ exists h, c_fixed_dt c = Some h /\ 0 < h.
Proof.
  split; [unfold steps_forward; cbn; unfold nhalf; cbn; lra|]. split; [apply flow3d_tabulated|]. split; [reflexivity|].
  eexists. split; [reflexivity|]. unfold nhalf. cbn. lra.
Qed.
(** integrate(0) raises IndexError instead of returning at once. *)
Theorem C32_zero_time_refuted : forall U S D V step helper payload n log fuel (o : @ode RNum U S D),
  integrate RNum V step helper payload (Some 0) n true [] log fuel o = Err IndexError.
Proof. intros. apply zero_time. Qed.
Print Assumptions C32_zero_time_refuted.

(** C33. In binary64 a truncated step from t >= T/2 lands on T. *)
Theorem C33_sterbenz : forall t T : f64, finite64 t -> finite64 T -> 0 < fval T -> fval T / 2 <= fval t <= fval T ->
  nadd (n := FNum) t (nsub (n := FNum) T t) = T.
Proof. exact sterbenz_step. Qed.
Print Assumptions C33_sterbenz.
Example C33_sterbenz_hypotheses : finite64 (fl 7 10) /\ finite64 (fl 9 10).
Proof. split; split; try exact I; vm_compute; reflexivity. Qed.
(** The solver with a fixed time step h ends exactly at T and records exactly the downbeats,
    if T and the positive downbeats are at least h. *)
Theorem C33_fixed_step_runs : forall (c : config FNum) heap i as_averages T n downbeats fuel u0 (o : run FNum) h,
  c_fixed_dt c = Some h -> finite64 h -> 0 < fval h ->
  List.Forall (fun x => finite64 x /\ (fval x = 0 \/ fval h <= fval x)) downbeats -> finite64 T -> fval h <= fval T ->
  simulate c heap i as_averages (Some T) n true downbeats false fuel u0 = Ok o ->
  o_t o = T /\ exists tt, times o = nofZ (n := FNum) 0 :: tt /\ increasing (map fval tt) /\
    (forall x, In x tt <-> (In x downbeats /\ 0 < fval x < fval T) \/ x = T) /\
    nondecreasing (map fval (o_stamps o)).
Proof. exact solver_fixed_run. Qed.
Print Assumptions C33_fixed_step_runs.
Theorem C33_fixed_step_odes : forall U S D (V : vops FNum U) f i helper (payload : S -> f64 -> U -> res D) h u0 s0 o T n downbeats fuel,
  finite64 h -> 0 < fval h -> proposes (N := FNum) f (fun dt => dt = h) ->
  List.Forall (fun x => finite64 x /\ (fval x = 0 \/ fval h <= fval x)) downbeats -> finite64 T -> fval h <= fval T ->
  integrate FNum V (stepper_of FNum V f i) helper payload (Some T) n true downbeats false fuel (ode_init FNum u0 s0) = Ok o ->
  o_t o = T /\ exists tt, times o = nofZ (n := FNum) 0 :: tt /\ increasing (map fval tt) /\
    (forall x, In x tt <-> (In x downbeats /\ 0 < fval x < fval T) \/ x = T) /\
    nondecreasing (map fval (o_stamps o)).
Proof. intros. eapply fixed_run with (h := h); eauto. Qed.
Print Assumptions C33_fixed_step_odes.
Example C33_hypotheses : exists o : @ode FNum f64 unit unit,
  clock_run (N := FNum) (fl 3 10) I_euler (Some (fl 1 1)) None true [fl 9 10; fl 1 2] false 9 (ode_init FNum (fl 0 1) tt) = Ok o /\
  (o_t o, times o) = (fl 1 1, [fl 0 1; fl 1 2; fl 9 10; fl 1 1]).
Proof. apply (looked_ok (fun o : @ode FNum f64 unit unit => (o_t o, times o))). vm_compute. reflexivity. Qed.
(** Otherwise a run with exact=True can end past T: dt = 1, T = 0.9, downbeats = [0.3]. *)
Theorem C33_ends_past_T_refuted : exists o : @ode FNum f64 unit unit,
  clock_run (N := FNum) (fl 1 1) I_euler (Some (fl 9 10)) None true [fl 3 10] false 9 (ode_init FNum (fl 0 1) tt) = Ok o /\
  (SFltb (fl 9 10) (o_t o), length (times o)) = (true, 3%nat).
Proof. exact overshoot. Qed.
Print Assumptions C33_ends_past_T_refuted.

(** C34. Starting from any time, all steps are positive if the end time and the downbeats lie
    in the future (downbeats equal to 0 are dropped). *)
Theorem C34_forward_from_any_time : forall U S D (V : vops RNum U) f i helper (payload : S -> R -> U -> res D) (o0 o : @ode RNum U S D) T n downbeats log fuel,
  proposes (N := RNum) f (fun dt => 0 < dt) ->
  0 <= o_t o0 -> List.Forall (fun x => x = 0 \/ o_t o0 < x) downbeats -> o_t o0 < T ->
  integrate RNum V (stepper_of RNum V f i) helper payload (Some T) n true downbeats log fuel o0 = Ok o ->
  o_t o = T /\ exists ss tt,
    o_stamps o = o_stamps o0 ++ ss /\ increasing (o_t o0 :: ss) /\ last ss (o_t o0) = T /\
    o_steps o = (o_steps o0 + Z.of_nat (length ss))%Z /\
    times o = times o0 ++ o_t o0 :: (if log then ss else tt) /\
    increasing tt /\ (forall x, In x tt <-> (In x downbeats /\ o_t o0 < x < T) \/ x = T).
Proof. intros. eapply run_forward; eauto. Qed.
Print Assumptions C34_forward_from_any_time.
(** A second call with a downbeat before the current time goes back in time. *)
Theorem C34_second_call_refuted : exists o1 o2 : @ode QNum (car QNum) unit unit,
  clock_run (N := QNum) (q 1) I_euler (Some (q 2)) None true [] false 9 (ode_init QNum (q 0) tt) = Ok o1 /\
  clock_run (N := QNum) (q 1) I_euler (Some (q 4)) None true [q 1] false 9 o1 = Ok o2 /\
  o_stamps o1 = [q 0; q 1; q 2] /\ o_stamps o2 = [q 0; q 1; q 2; q 1; q 2; q 3; q 4].
Proof. exact second_call_backwards. Qed.
Print Assumptions C34_second_call_refuted.
(** So do two negative downbeats on a fresh object. *)
Theorem C34_negative_downbeats_refuted : exists o : @ode QNum (car QNum) unit unit,
  clock_run (N := QNum) (q 1) I_euler (Some (q 2)) None true [q (-1); q (-2)] false 9 (ode_init QNum (q 0) tt) = Ok o /\
  o_stamps o = [q 0; q (-1); q 0; q 1; q 2].
Proof. exact negative_downbeats_backwards. Qed.
Print Assumptions C34_negative_downbeats_refuted.
(** In binary64 even positive downbeats can: 0.3 + (0.9 - 0.3) > 0.9, and the solver steps
    back to 0.9 (the third of the five steps is negative). *)
Theorem C34_float_refuted : exists (o : @ode FNum f64 unit unit),
  clock_run (N := FNum) (fl 1 1) I_euler (Some (fl 2 1)) None true [fl 3 10; fl 9 10] false 9 (ode_init FNum (fl 0 1) tt) = Ok o /\
  map (fun p => SFltb (snd p) (fst p)) (combine (o_stamps o) (tl (o_stamps o))) = [false; false; true; false; false].
Proof. exact steps_back. Qed.
Print Assumptions C34_float_refuted.

(** C35. integrate(n) takes exactly n steps (none if n is negative), with one snapshot before
    and one after. *)
Theorem C35_n_steps : forall N U S D V step helper payload exact downbeats log fuel n (o o1 : @ode N U S D),
  integrate N V step helper payload None (Some n) exact downbeats log fuel o = Ok o1 ->
  o_steps o1 = (o_steps o + Z.max 0 n)%Z /\ times o1 = times o ++ [o_t o; o_t o1] /\
  exists ss, o_stamps o1 = o_stamps o ++ ss /\ Z.of_nat (length ss) = Z.max 0 n.
Proof. exact integrate_n_spec. Qed.
Print Assumptions C35_n_steps.
(** timestamps always has step_count + 1 entries, the last one being the current time: true
    for fresh objects and kept by every call of integrate. *)
Theorem C35_timestamps : forall N U S D V step helper payload,
  (forall u0 s0, logged (ode_init N u0 s0 : @ode N U S D)) /\
  forall T n exact downbeats log fuel (o o1 : @ode N U S D),
    integrate N V step helper payload T n exact downbeats log fuel o = Ok o1 -> logged o -> logged o1.
Proof. exact (fun N U S D V step helper payload => conj (init_logged N) (integrate_logged N V step helper payload)). Qed.
Print Assumptions C35_timestamps.
Theorem C35_n_ignored : forall N U S D V step helper payload T n n' exact downbeats log fuel (o : @ode N U S D),
  integrate N V step helper payload (Some T) n exact downbeats log fuel o =
  integrate N V step helper payload (Some T) n' exact downbeats log fuel o.
Proof. exact n_ignored. Qed.
Print Assumptions C35_n_ignored.
Example C35_hypotheses : exists o : @ode QNum (car QNum) unit unit,
  clock_run (N := QNum) (q 1) I_rk4 None (Some 3%Z) true [] false 0 (ode_init QNum (q 0) tt) = Ok o /\
  o_stamps o = [q 0; q 1; q 2; q 3].
Proof. apply looked_ok. vm_compute. reflexivity. Qed.
