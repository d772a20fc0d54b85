(** Vocabulary for mirror images of runs with slope limiting. *)
From Coq Require Import ZArith QArith List Bool Reals.
From Verif Require Import Err Num NdArray FvM RiemannM StencilsM BcM LimitM OdeM SolverM Spec SpecLim SpecSolver SpecScheme SpecSym.
Import ListNotations.
Open Scope Z_scope.

(** The trouble detection does not distinguish the two directions along axis d: the
    smooth-extrema detector is off, the admissible range of the velocity along d is one with
    a tolerance relative to the local or global spread (or that velocity is not looked at),
    and the bounds in force are not bounds of that velocity. *)
Definition mirror_fair (d : axis) (q : nad_params RNum) : Prop :=
  sed_on q = false /\ (nad_range_ q = R_relative \/ ~ selected q 5 (comp d)) /\
  (forall l e, pad_bounds q = Some (l ++ [e]) -> fst e <> comp d).
(** the same for arrays of rational numbers *)
Definition mirrored_rational (d : axis) (u u' : arr Q) : Prop :=
  rows u' = rows u /\ shp u' = shp u /\
  forall v i, in_shape (shp u) i ->
    at_ u' v i = let x := at_ u v (setc d (getc d (shp u) - 1 - getc d i) i) in
                 if v =? comp d then Qopp x else x.
(** the configuration with other options of the trouble detection *)
Definition with_nad {N} (q : nad_params N) (c : config N) : config N :=
  mkcfg (c_n c) (c_p c) (c_bounds c) (c_CFL c) (c_fixed_dt c) (c_gamma c) (c_csq_floor c) (c_rs c) (c_bc c) (c_limit c)
    (c_limiter c) (c_force c) q (c_convex c).
(** The trouble detection does not distinguish axes that s exchanges: the velocities are all
    looked at or all not, and the bounds in force are not bounds of a velocity. *)
Definition axes_fair (s : axis -> axis) (q : nad_params RNum) : Prop :=
  (forall a, selected q 5 (comp a) <-> selected q 5 (comp (s a))) /\
  (forall l e, pad_bounds q = Some (l ++ [e]) -> forall a, fst e <> comp a).
(** The traces of the fallback scheme (degree at most one, with the slopes of the limiter) on
    the grid E have positive density and non-negative pressure. *)
Definition physical_low_traces wi wt (c : config RNum) (slope : option (R -> R -> R)) (E : grid) : Prop :=
  forall d i pos, ~ inactive c d -> face_zone c d i -> pos = P_l \/ pos = P_r ->
    physical (fun r => trace wi (low (c_p c)) slope d pos (primitives wi wt (low (c_p c)) (c_gamma c) E) r i).
