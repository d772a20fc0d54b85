(** Vocabulary for the place and the extent of the domain. *)
From Coq Require Import ZArith Bool Reals.
From Verif Require Import Num NdArray FvM BcM SolverM SpecSolver SpecSym.
Open Scope Z_scope.

(** the same settings on a domain with other bounds *)
Definition replace_bounds {N} (c : config N) (b : axis -> car N * car N) : config N :=
  mkcfg (c_n c) (c_p c) b (c_CFL c) (c_fixed_dt c) (c_gamma c) (c_csq_floor c) (c_rs c) (c_bc c) (c_limit c) (c_limiter c) (c_force c) (c_nad c) (c_convex c).
Definition extent {N} (b : axis -> car N * car N) (a : axis) : car N := nsub (snd (b a)) (fst (b a)).
(** no cell of an axis without ghost cells is shorter than the cells of every other axis *)
Definition idle_long (c : config RNum) (b : axis -> R * R) : Prop :=
  forall a, inactive c a -> exists a', ~ inactive c a' /\ (extent (N := RNum) b a' / IZR (getc a' (c_n c)) <= extent (N := RNum) b a)%R.
