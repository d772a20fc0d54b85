(** Vocabulary for boundary values that depend on time. *)
From Coq Require Import ZArith QArith.QArith_base List Reals.
From Verif Require Import Err Num NdArray FvM HydroM BcM SolverM Spec SpecPoly SpecBc SpecSolver SpecScheme SpecExact.
Open Scope R_scope.

(** the same boundary condition with its prescribed values frozen at a time *)
Definition frozen_value {N} (t : car N) (v : bcval N) : bcval N :=
  let start (o : option (car N)) := match o with Some _ => Some t | None => None end in
  match v with
  | V_func f => V_func (fun o => f (start o))
  | V_mesh f => V_mesh (fun o => f (start o))
  | _ => v
  end.
Definition frozen {N} (t : car N) (c : config N) : config N :=
  let b := c_bc c in
  mkcfg (c_n c) (c_p c) (c_bounds c) (c_CFL c) (c_fixed_dt c) (c_gamma c) (c_csq_floor c) (c_rs c)
    (mkbc (bc_type b) (fun a pos => frozen_value t (bc_val b a pos)) (bc_slabs b) (bc_cupy b))
    (c_limit c) (c_limiter c) (c_force c) (c_nad c) (c_convex c).

(** every side of an active axis prescribes the exact mean values, at any time, of a gas of
    uniform velocity and pressure carrying the density f *)
Definition exact_sides (c : config RNum) (V : axis -> R) (P : R) (s : Z -> R) (f : R -> R -> R -> R) : Prop :=
  forall a pos, inactive_b c a = false -> bc_type (c_bc c) a pos = B_dirichlet /\
    exists q, bc_val (c_bc c) a pos = V_func q /\
      forall t x y z r, q (Some t) x y z r =
        average3 (fun x y z => conserved (c_gamma c) (drifting V P s (carried V t f x y z)) r) x y z (width c AX) (width c AY) (width c AZ).
(** the cells hold the exact means of that gas at time t *)
Definition exact_means (c : config RNum) (V : axis -> R) (P : R) (s : Z -> R) (f : R -> R -> R -> R) (t : R) (u : arr R) : Prop :=
  forall i r, in_shape (c_n c) i -> (0 <= r < rows u)%Z ->
    at_ u r i = cell_mean c (fun x y z => conserved (c_gamma c) (drifting V P s (carried V t f x y z)) r) i.
(** the domain with as many cells around it as the right-hand side looks at *)
Definition neighbourhood (c : config RNum) (j : ix) : Prop :=
  forall a, (- reach c a <= getc a j < getc a (c_n c) + reach c a)%Z.

(** a gas of velocity 1 along x and pressure 1 whose density falls linearly along x: its
    conserved variables at a time and place, for an adiabatic index of 2 *)
Definition falling_ramp (t x : QArith_base.Q) (v : Z) : QArith_base.Q :=
  let r := (10 + t - x)%Q in
  match v with 0%Z | 1%Z => r | 4%Z => (1 + r / 2)%Q | _ => 0%Q end.
