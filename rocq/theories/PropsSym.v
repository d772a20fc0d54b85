(** Theorems on runs with slope limiting and on symmetries of runs (C39, C43, C58). *)
From Coq Require Import ZArith QArith.QArith_base List Bool Lia Reals Lra.
From Verif Require Import Err Num NdArray BcM LimitM OdeM SolverM SpecLim SpecSolver SpecCons SpecSym ConsP BroadP ExistP LimExistP SeamP ShiftP ShiftLimP.
Import ListNotations.
Open Scope Z_scope.

(** C39. A periodic box with slope limiting need not conserve mass: a mass of 30 becomes
    233/8 in one step of exact rational arithmetic. *)
Theorem C39_limited_boxes_conserve_refuted : exists (c : config QNum) heap u0 o,
  tabulated c /\ all_ends B_periodic c /\ c_limit c = true /\ shp u0 = c_n c /\
  simulate c heap I_euler true None (Some 1) true [] false 0 u0 = Ok o /\
  Qeq (rational_total (c_n c) (at_ u0 0)) 30 /\ Qeq (rational_total (c_n c) (at_ (o_u o) 0)) (Qmake 233 8).
Proof. exact limited_box_leaks. Qed.
Print Assumptions C39_limited_boxes_conserve_refuted.
(** Every conserved variable keeps its total as long as the detection treats both ends of
    every line of cells alike in all states the right-hand side is evaluated for. *)
Theorem C39_agreeing_ends_conserve : forall ok (c : config RNum) heap i as_averages T n exact downbeats log fuel u0 o,
  tabulated c -> all_ends B_periodic c -> c_convex c = false -> (c_limit c = true -> c_limiter c <> L_unknown) ->
  shp u0 = c_n c -> 2 <= rows u0 ->
  (forall u, ok u = true -> seams_agree c u) ->
  simulate_checked ok c heap i as_averages T n exact downbeats log fuel u0 = Ok o ->
  simulate c heap i as_averages T n exact downbeats log fuel u0 = Ok o /\ rows (o_u o) = rows u0 /\ shp (o_u o) = c_n c /\
  forall v, total (c_n c) (at_ (o_u o) v) = total (c_n c) (at_ u0 v).
Proof. exact seams_conserve. Qed.
Print Assumptions C39_agreeing_ends_conserve.
(** In particular when every cell is treated as troubled. *)
Theorem C39_forced_trouble_conserves : forall (c : config RNum) heap i as_averages T n exact downbeats log fuel u0 o,
  tabulated c -> all_ends B_periodic c -> c_convex c = false -> c_limiter c <> L_unknown -> c_force c = true ->
  shp u0 = c_n c -> 2 <= rows u0 ->
  simulate c heap i as_averages T n exact downbeats log fuel u0 = Ok o ->
  forall v, total (c_n c) (at_ (o_u o) v) = total (c_n c) (at_ u0 v).
Proof. exact forced_conserve. Qed.
Print Assumptions C39_forced_trouble_conserves.
Example C39_hypotheses : let c := with_limiting false true (flow3d B_periodic true) in
  tabulated c /\ all_ends B_periodic c /\ c_limiter c <> L_unknown /\ c_force c = true /\ (forall u, seams_agree c u) /\
  exists o, simulate_checked (fun _ => true) c (fun _ _ _ => 0%R) I_rk4 true None (Some 3) true [] false 0
    (mkarr 6 (mkix 12 13 14) (fun v i => IZR (v + cx i * cy i))) = Ok o.
Proof.
  cbv zeta. split; [apply with_tabulated, flow3d_tabulated|]. split; [exact (flow3d_ends B_periodic true)|].
  split; [discriminate|]. split; [reflexivity|]. split; [intro u; apply forced_agree; reflexivity|].
  destruct (limited_runs_end RNum (fun _ _ => 0%R) (with_limiting false true (flow3d B_periodic true)) (fun _ _ _ => 0%R) I_rk4 true 3 true [] false 0
    (mkarr 6 (mkix 12 13 14) (fun v i => IZR (v + cx i * cy i)))) as (o & E & _).
  - apply with_tabulated, flow3d_tabulated.
  - apply with_fillable; [reflexivity|]. apply flow3d_fillable. exact I.
  - reflexivity.
  - repeat split; discriminate.
  - reflexivity.
  - exact flags_R.
  - reflexivity.
  - cbn. lia.
  - lia.
  - exists o. exact (eq_trans (unchecked _ _ _ _ _ _ _ _ _ _ _) E).
Qed.

(** C43. Without limiting, moving the data cyclically along a periodic axis moves the whole
    run likewise: the same times, moved states and snapshots, or the same exception. In any
    arithmetic, hence bit for bit, when the time step is fixed. *)
Theorem C43_translations : forall N (c : config N) d k heap heap' i as_averages T n exact downbeats log fuel u u',
  tabulated c -> closed c -> both_ends B_periodic c d -> c_limit c = false -> c_fixed_dt c <> None ->
  shp u = c_n c -> 1 <= rows u -> translated d k u u' ->
  moved_outcome (translated d k) (simulate c heap i as_averages T n exact downbeats log fuel u)
    (simulate c heap' i as_averages T n exact downbeats log fuel u').
Proof. exact translation_fixed. Qed.
Print Assumptions C43_translations.
(** Over the reals also with the time step from the CFL condition. *)
Theorem C43_translations_with_adaptive_steps : forall (c : config RNum) d k heap heap' i as_averages T n exact downbeats log fuel u u',
  tabulated c -> closed c -> both_ends B_periodic c d -> c_limit c = false ->
  shp u = c_n c -> 1 <= rows u -> translated d k u u' ->
  moved_outcome (translated d k) (simulate c heap i as_averages T n exact downbeats log fuel u)
    (simulate c heap' i as_averages T n exact downbeats log fuel u').
Proof. exact translation_real. Qed.
Print Assumptions C43_translations_with_adaptive_steps.
Example C43_hypotheses : let c := flow3d B_periodic false in let f v i := IZR (v + 3 * cx i + cy i * cz i) in
  tabulated c /\ closed c /\ both_ends B_periodic c AY /\ c_fixed_dt c <> None /\
  (exists o, simulate c (fun _ _ _ => 0%R) I_ssprk3 true None (Some 7) true [] false 0 (mkarr 5 (c_n c) f) = Ok o) /\
  translated AY 4 (mkarr 5 (c_n c) f) (mkarr 5 (c_n c) (fun v i => f v (setc AY ((cy i + 4) mod 13) i))).
Proof.
  cbv zeta. split; [apply flow3d_tabulated|]. split; [apply flow3d_closed; exact I|].
  split; [apply flow3d_ends; intros [H _]; discriminate|]. split; [discriminate|]. split.
  - edestruct (runs_end RNum (fun _ _ => 0%R) (flow3d B_periodic false)) as (o & E & _); [apply flow3d_tabulated| | | | | |exists o; exact E].
    + apply flow3d_fillable. exact I.
    + reflexivity.
    + reflexivity.
    + cbn. lia.
    + lia.
  - split; [reflexivity|]. split; [reflexivity|]. intros v i Hi. reflexivity.
Qed.
(** Also with slope limiting if every cell is treated as troubled. *)
Theorem C43_translations_with_forced_limiting : forall (c : config RNum) d k,
  tabulated c -> closed c -> both_ends B_periodic c d -> c_limit c = true -> known_options c -> c_convex c = false \/ flat_box c ->
  c_force c = true ->
  forall heap heap' i as_averages T n exact downbeats log fuel u u', shp u = c_n c -> 2 <= rows u -> translated d k u u' ->
  moved_outcome (N := RNum) (translated d k) (simulate c heap i as_averages T n exact downbeats log fuel u)
    (simulate c heap' i as_averages T n exact downbeats log fuel u').
Proof. exact translated_forced. Qed.
Print Assumptions C43_translations_with_forced_limiting.
Example C43_forced_case : let c := with_limiting false true (flow3d B_periodic true) in let f v i := IZR (v + 3 * cx i + cy i * cz i) in
  tabulated c /\ closed c /\ both_ends B_periodic c AY /\ known_options c /\ c_force c = true /\
  (exists o, simulate c (fun _ _ _ => 0%R) I_ssprk3 true None (Some 7) true [] false 0 (mkarr 5 (c_n c) f) = Ok o) /\
  translated AY 4 (mkarr 5 (c_n c) f) (mkarr 5 (c_n c) (fun v i => f v (setc AY ((cy i + 4) mod 13) i))).
Proof.
  cbv zeta. split; [apply with_tabulated, flow3d_tabulated|]. split; [exact (flow3d_closed B_periodic true I)|].
  split; [apply (flow3d_ends B_periodic true); intros [H _]; discriminate|]. split; [repeat split; discriminate|]. split; [reflexivity|]. split.
  - edestruct (limited_runs_end RNum (fun _ _ => 0%R) (with_limiting false true (flow3d B_periodic true))) as (o & E & _);
      [| | | | |apply flags_R| | | |exists o; exact E]; try reflexivity.
    + apply with_tabulated, flow3d_tabulated.
    + apply with_fillable; [reflexivity|]. apply flow3d_fillable. exact I.
    + repeat split; discriminate.
    + cbn. lia.
    + lia.
  - split; [reflexivity|]. split; [reflexivity|]. intros v i Hi. reflexivity.
Qed.
(** When trouble is detected they do not: moved by half of the box, the data evolves differently. *)
Theorem C43_limited_translations_refuted : exists (c : config QNum) heap u u' o o',
  tabulated c /\ all_ends B_periodic c /\ c_limit c = true /\ shp u = c_n c /\ translated AX 3 u u' /\
  simulate c heap I_euler true None (Some 1) true [] false 0 u = Ok o /\
  simulate c heap I_euler true None (Some 1) true [] false 0 u' = Ok o' /\
  ~ Qeq (at_ (o_u o') 0 (mkix 3 0 0)) (at_ (o_u o) 0 (mkix 0 0 0)).
Proof. exact limited_box_not_translated. Qed.
Print Assumptions C43_limited_translations_refuted.

(** C58. Runs with slope limiting complete, whatever the data: without convex blending ... *)
Theorem C58_limited_runs_complete : forall (N : Num) (xc : axis -> Z -> car N) (c : config N) heap i as_averages k exact downbeats log fuel u0,
  tabulated c -> fillable xc c (rows u0) -> c_limit c = true -> known_options c -> c_convex c = false -> max_of_flags N ->
  shp u0 = c_n c -> 2 <= rows u0 -> 0 <= k ->
  exists o, simulate c heap i as_averages None (Some k) exact downbeats log fuel u0 = Ok o /\
    shp (o_u o) = c_n c /\ rows (o_u o) = rows u0 /\ o_steps o = k.
Proof. exact limited_runs_end. Qed.
Print Assumptions C58_limited_runs_complete.
(** ... and with it in one dimension, or in two unless z is a periodic one of them. *)
Theorem C58_convex_runs_complete : forall xc (c : config RNum) heap i as_averages k exact downbeats log fuel u0,
  tabulated c -> fillable xc c (rows u0) -> c_limit c = true -> known_options c -> c_convex c = true -> flat_box c ->
  shp u0 = c_n c -> 2 <= rows u0 -> 0 <= k ->
  exists o, simulate c heap i as_averages None (Some k) exact downbeats log fuel u0 = Ok o /\
    shp (o_u o) = c_n c /\ rows (o_u o) = rows u0 /\ o_steps o = k.
Proof. exact convex_runs_end. Qed.
Print Assumptions C58_convex_runs_complete.
Example C58_hypotheses : tabulated sheet /\ fillable (N := RNum) (fun _ _ => 0%R) sheet 5 /\ known_options sheet /\ max_of_flags RNum /\ max_of_flags FNum /\
  tabulated (with_limiting true false sheet) /\ flat_box (with_limiting true false sheet) /\
  fillable (N := RNum) (fun _ _ => 0%R) (with_limiting true false sheet) 5.
Proof.
  split; [exact sheet_tabulated|]. split; [apply sheet_fillable|]. split; [repeat split; discriminate|].
  split; [exact flags_R|]. split; [exact flags_F|]. split; [apply with_tabulated, sheet_tabulated|].
  split; [apply sheet_flat|]. apply with_fillable; [reflexivity|apply sheet_fillable].
Qed.
(** In three dimensions convex blending raises: a run that meets trouble never completes. *)
Theorem C58_convex_runs_in_space_refuted : forall (N : Num) (c : config N) heap i as_averages k exact downbeats log fuel u0 o,
  tabulated c -> shp u0 = c_n c -> 2 <= rows u0 -> 1 <= k ->
  c_limit c = true -> c_convex c = true -> c_force c = true -> (forall a, ~ inactive c a) ->
  simulate c heap i as_averages None (Some k) exact downbeats log fuel u0 <> Ok o.
Proof. exact space_raises. Qed.
Print Assumptions C58_convex_runs_in_space_refuted.
Example C58_refuted_hypotheses : let c := with_limiting true true (flow3d B_periodic true) in tabulated c /\ forall a, ~ inactive c a.
Proof. cbv zeta. split; [apply with_tabulated, flow3d_tabulated|]. intros [] [H _]; discriminate. Qed.
