(** Theorems on runs with the axes exchanged (C44). *)
From Coq Require Import ZArith List Bool Lia Reals Lra.
From Verif Require Import Err Num NdArray FvM RiemannM StencilsM BcM SpecBc LimitM OdeM SolverM Spec SpecLim SpecSolver SpecCons SpecScheme SpecSym SpecMirLim
  FvP OpP SolverP ExistP SchemeP MirrorP PermP PermLimP MirLimQ.
Import ListNotations.
Open Scope Z_scope.

(** C44. Exchanging the axes of the problem (cells, degrees, bounds, boundary types, and the
    components of the momentum) exchanges the axes of the whole run: the same times, and
    states and snapshots with the axes exchanged, or the same exception. For all three Riemann
    solvers, without slope limiting, for any state whatever. *)
Theorem C44_axes_are_equivalent : forall s (c c' : config RNum) heap heap' i as_averages T n exact downbeats log fuel u u',
  (forall a b, s a = s b -> a = b) -> axes_exchanged s c c' -> tabulated c -> closed c -> c_limit c = false ->
  shp u = c_n c -> 1 <= rows u -> permuted s u u' ->
  moved_outcome (N := RNum) (permuted s) (simulate c heap i as_averages T n exact downbeats log fuel u)
    (simulate c' heap' i as_averages T n exact downbeats log fuel u').
Proof. exact axes_equivalent. Qed.
Print Assumptions C44_axes_are_equivalent.
Example C44_case : forall rs f heap, let c := box rs (mkix 3 2 1) B_reflective in let u := mkarr 6 (c_n c) f in
  axes_exchanged cycle c (turned_config cycle c) /\ tabulated c /\ closed c /\ (exists u', permuted cycle u u') /\
  exists o, simulate c heap I_rk4 true None (Some 5) true [] false 0 u = Ok o.
Proof.
  intros rs f heap. cbv zeta. destruct (box_ok rs (mkix 3 2 1) B_reflective) as (T & C & _); [left; reflexivity|exact I|].
  split; [apply turned_config_ok|]. split; [exact T|]. split; [exact C|].
  split; [apply permuted_exists; intros [] []; cbn; congruence|]. apply box_runs; [left; reflexivity|exact I|reflexivity|cbn; lia|lia].
Qed.
(** C44. The same with slope limiting, if trouble is forced or the detection does not distinguish
    the axes ([axes_fair]; the default options do not, see the example). With convex blending both problems must
    be of the kind for which the code can blend ([flat_box]). *)
Theorem C44_axes_are_equivalent_with_limiting : forall s (c c' : config RNum), (forall a b, s a = s b -> a = b) -> axes_exchanged s c c' ->
  tabulated c -> closed c -> c_limit c = true -> known_options c -> c_convex c = false \/ (flat_box c /\ flat_box c') ->
  c_force c = true \/ axes_fair s (c_nad c) ->
  forall heap heap' i as_averages T n exact downbeats log fuel u u', shp u = c_n c -> 2 <= rows u -> permuted s u u' ->
  moved_outcome (N := RNum) (permuted s) (simulate c heap i as_averages T n exact downbeats log fuel u)
    (simulate c' heap' i as_averages T n exact downbeats log fuel u').
Proof. exact axes_equivalent_limited. Qed.
Print Assumptions C44_axes_are_equivalent_with_limiting.
Example C44_limited_case : forall ty, copies ty -> let c := plate_sed true false ty in
  tabulated c /\ closed c /\ known_options c /\ c_limit c = true /\ axes_exchanged cycle c (turned_config cycle c) /\
  axes_fair cycle (c_nad c) /\ (forall u, exists u', permuted cycle u u') /\
  forall heap i k u, shp u = c_n c -> 2 <= rows u -> 1 <= k ->
    exists o, simulate c heap i true None (Some k) true [] false 0 u = Ok o.
Proof.
  intros ty H c. destruct (plate_ok true false ty H) as (T & C & O & F). do 3 (split; [assumption|]). split; [reflexivity|]. split; [apply turned_config_ok|].
  split; [apply usual_fair_axes|]. split; [intro u; apply permuted_exists; intros [] []; cbn; congruence|]. intros. apply plate_runs; assumption.
Qed.
(** With slope limiting and convex blending the directions are not equivalent: a periodic
    problem in the x-y plane completes, and the same problem in the x-z plane raises. *)
Theorem C44_blended_directions_refuted : exists (s : axis -> axis) (c c' : config RNum),
  (forall a b, s a = s b -> a = b) /\ axes_exchanged s c c' /\ tabulated c /\ closed c /\ c_limit c = true /\ c_convex c = true /\
  forall heap i as_averages k exact downbeats log fuel u u', shp u = c_n c -> 2 <= rows u -> 1 <= k -> permuted s u u' ->
  (exists o, simulate c heap i as_averages None (Some k) exact downbeats log fuel u = Ok o) /\
  (forall o, simulate c' heap i as_averages None (Some k) exact downbeats log fuel u' <> Ok o).
Proof. exact blended_directions. Qed.
Print Assumptions C44_blended_directions_refuted.
