(** Runs in which slope limiting acts nowhere or everywhere: examples. *)
From Coq Require Import ZArith List Bool Lia Reals Lra.
From Verif Require Import Err Num NdArray FvM RiemannM StencilsM BcM LimitM OdeM SolverM Spec SpecBc SpecLim SpecSolver SpecCons SpecScheme SpecSym SpecMirLim
  SpecQuiet SchemeP ExistP BroadP ConvexP LimExistP SymLimP MirLimQ ThinLimQ.
Import ListNotations.
Local Open Scope Z_scope.

(** the plank with a detector that looks at no variable *)
Definition nothing : nad_params RNum := mknad (N := RNum) (1/100000)%R M_local R_relative (Some []) None true (1/100)%R.
Definition idle (cv : bool) (ty : bct) : config RNum := with_nad nothing (plank true cv ty).
(** the plank with forced trouble *)
Definition driven (cv : bool) (ty : bct) : config RNum := with_limiting cv true (plank true cv ty).
Lemma runs_of (q : config RNum) heap i k u : tabulated q -> closed q -> c_limit q = true -> known_options q -> flat_box q -> shp u = c_n q -> 2 <= rows u -> 1 <= k ->
  exists o, simulate q heap i true None (Some k) true [] false 0 u = Ok o.
Proof.
  intros T' C' L' O' F' S' R' K. assert (FI' : fillable (N := RNum) (fun _ _ => 0%R) q (rows u)) by (apply SymLimP.closed_fillable, C'). destruct (c_convex q) eqn:CV.
  - destruct (convex_runs_end (fun _ _ => 0%R) q heap i true k true [] false 0%nat u) as (o & E & _); auto; [lia|]. exists o. exact E.
  - destruct (limited_runs_end RNum (fun _ _ => 0%R) q heap i true k true [] false 0%nat u) as (o & E & _); auto; [apply flags_R|lia|]. exists o. exact E.
Qed.
Lemma idle_example cv ty heap i k u : copies ty -> shp u = c_n (idle cv ty) -> rows u = 5 -> 1 <= k -> let c := idle cv ty in
  tabulated c /\ c_limit c = true /\ known_options c /\ flat_box c /\ (exists slope, fallback_slope c slope) /\ c_force c = false /\
  nad_vars (c_nad c) = Some [] /\ pad_bounds (c_nad c) = None /\ sed_on (c_nad c) = true /\ (0 < sed_eps (c_nad c))%R /\
  fillable (N := RNum) (fun _ _ => 0%R) c (rows u) /\
  exists o, simulate c heap i true None (Some k) true [] false 0 u = Ok o.
Proof.
  intros H Su Ru K c. destruct (plank_ok true cv ty H) as ([[A B D E] P] & C & O & F).
  assert (T : tabulated c). { split; [split|]; try assumption. exact I. }
  assert (O' : known_options c) by (split; [discriminate|split; discriminate]).
  split; [exact T|]. split; [reflexivity|]. split; [exact O'|]. split; [exact F|]. split; [eexists; eexists; split; reflexivity|].
  split; [reflexivity|]. split; [reflexivity|]. split; [reflexivity|]. split; [reflexivity|]. split; [unfold c, idle; cbn; lra|].
  split; [apply SymLimP.closed_fillable, C|]. apply runs_of; auto. setoid_rewrite Ru. lia.
Qed.
Lemma driven_example cv ty heap i k u : copies ty -> shp u = c_n (driven cv ty) -> rows u = 5 -> 1 <= k -> let c := driven cv ty in
  tabulated c /\ c_limit c = true /\ known_options c /\ flat_box c /\ (exists slope, fallback_slope c slope) /\ c_force c = true /\
  c_fixed_dt c = Some (1/1000)%R /\ fillable (N := RNum) (fun _ _ => 0%R) c (rows u) /\ c_p c = mkix 3 2 0 /\ c_p (linear c) = mkix 1 1 0 /\
  exists o, simulate c heap i true None (Some k) true [] false 0 u = Ok o.
Proof.
  intros H Su Ru K c. destruct (plank_ok true cv ty H) as ([[A B D E] P] & C & O & F).
  assert (T : tabulated c). { split; [split|]; assumption. }
  assert (O' : known_options c) by (split; [discriminate|split; discriminate]).
  split; [exact T|]. split; [reflexivity|]. split; [exact O'|]. split; [exact F|]. split; [eexists; eexists; split; reflexivity|].
  split; [reflexivity|]. split; [reflexivity|]. split; [apply SymLimP.closed_fillable, C|]. split; [reflexivity|]. split; [reflexivity|].
  apply runs_of; auto. setoid_rewrite Ru. lia.
Qed.
