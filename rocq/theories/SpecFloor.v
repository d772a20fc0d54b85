(** A configuration with another floor of the squared sound speed. *)
From Coq Require Import Reals.
From Verif Require Import Num SolverM.

Definition with_floor (x : R) (c : config RNum) : config RNum :=
  mkcfg (N := RNum) (c_n c) (c_p c) (c_bounds c) (c_CFL c) (c_fixed_dt c) (c_gamma c) x (c_rs c) (c_bc c)
    (c_limit c) (c_limiter c) (c_force c) (c_nad c) (c_convex c).
