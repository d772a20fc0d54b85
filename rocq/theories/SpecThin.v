(** Vocabulary for data that do not vary along an axis. *)
From Coq Require Import ZArith.
From Verif Require Import Err Num NdArray StencilsM FvM RiemannM BcM LimitM OdeM SolverM Spec SpecBc SpecMirLim.
Open Scope Z_scope.

(** the same configuration with a single cell of degree 0 along axis e *)
Definition thin {N} (e : axis) (c : config N) : config N :=
  mkcfg (setc e 1 (c_n c)) (setc e 0 (c_p c)) (c_bounds c) (c_CFL c) (c_fixed_dt c) (c_gamma c) (c_csq_floor c)
    (c_rs c) (c_bc c) (c_limit c) (c_limiter c) (c_force c) (c_nad c) (c_convex c).
(** u' repeats the single layer of cells u along axis e *)
Definition extruded {A} (e : axis) (u u' : arr A) : Prop :=
  rows u' = rows u /\ setc e 1 (shp u') = shp u /\
  forall v i, in_shape (shp u') i -> at_ u' v i = at_ u v (setc e 0 i).
(** the same configuration with the smooth-extrema detector switched off *)
Definition without_sed {N} (c : config N) : config N :=
  let q := c_nad c in with_nad (mknad (nad_eps q) (nad_mode_ q) (nad_range_ q) (nad_vars q) (pad_bounds q) false (sed_eps q)) c.
