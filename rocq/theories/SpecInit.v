(** Vocabulary for the theorems about the constructor of EulerSolver. *)
From Coq Require Import ZArith List Bool String Reals.
From Verif Require Import Err Num NdArray HydroM HydroStateM RiemannM FvM BcM LimitM OdeM SolverM ICM InitM SpecIC.
Import ListNotations.
Open Scope Z_scope.

(** the names of the Riemann solvers the constructor knows *)
Definition known_solvers : list (string * rsolver) :=
  [("advection_upwind", RS_upwind); ("llf", RS_llf); ("hllc", RS_hllc)]%string.
(** the names listed in the documentation of the constructor, solver.py:123-126 *)
Definition documented_solvers : list string := ["advection_upwinding"; "llf"; "hllc"]%string.

(** at least one axis has more than one cell or a positive degree *)
Definition some_axis (n p : ix) : Prop := exists d, ~ (getc d n = 1 /\ getc d p = 0).

(** a configuration with the mesh, the degrees and the gamma of the arguments *)
Definition on_mesh {N} (a : args N) (c : config N) : Prop :=
  c_n c = a_n N a /\ c_p c = a_p N a /\ c_bounds c = a_bounds N a /\ c_gamma c = a_gamma N a.

(** every setting but the boundary conditions is the argument of the same name; without limits
    in PAD, density and pressure are bounded below by 0 *)
Definition settings_kept {N} (a : args N) (c : config N) : Prop :=
  on_mesh a c /\ c_CFL c = a_CFL N a /\ c_fixed_dt c = a_fixed_dt N a /\ c_csq_floor c = a_csq_floor N a /\
  In (a_riemann N a, c_rs c) known_solvers /\
  c_limit c = a_limit N a /\ c_limiter c = a_limiter N a /\ c_force c = a_force N a /\ c_convex c = a_convex N a /\
  nad_eps (c_nad c) = a_NAD N a /\ nad_mode_ (c_nad c) = a_mode N a /\ nad_range_ (c_nad c) = a_range N a /\
  nad_vars (c_nad c) = a_vars N a /\ sed_on (c_nad c) = a_SED N a /\ sed_eps (c_nad c) = a_SED_tol N a /\
  pad_bounds (c_nad c) = Some (match a_PAD N a with
                               | Some l => l
                               | None => [(0, (Some (nofZ 0), None)); (4, (Some (nofZ 0), None))]
                               end).

(** thickness of the slabs whose coordinates are stored *)
Definition slab_width {N} (a : args N) : ix :=
  let w d := if (getc d (a_n N a) =? 1) && (getc d (a_p N a) =? 0) then 0 else a_slab_buffer N a in
  mkix (w AX) (w AY) (w AZ).

(** the boundary conditions: periodic without a bc argument; otherwise those of the argument,
    with the coordinates of the slabs around the domain *)
Definition sides_kept {N} (a : args N) (b : bcond N) : Prop :=
  match a_bc N a with
  | None => (forall d s, bc_type b d s = B_periodic) /\ bc_slabs b = None
  | Some u =>
      (forall d s, bc_type b d s = bc_type u d s) /\
      (forall d s, bc_type u d s <> B_ic -> bc_val b d s = bc_val u d s) /\
      bc_slabs b = Some (slab_mesh N (a_n N a) (a_bounds N a AX) (a_bounds N a AY) (a_bounds N a AZ) (slab_width a))
  end.

(** the same arguments with other floors and other fixed variables *)
Definition other_floors {N} (a : args N) (dens pres : option (car N)) (fixed : option (list string)) : args N :=
  mkargs N (a_w0 N a) (a_passives N a) (a_n N a) (a_p N a) (a_bounds N a) (a_CFL N a) (a_fixed_dt N a) (a_gamma N a)
    (a_bc N a) (a_riemann N a) (a_conservative N a) (a_fv N a) fixed (a_limit N a) (a_limiter N a) (a_force N a)
    (a_NAD N a) (a_mode N a) (a_range N a) (a_vars N a) (a_PAD N a) (a_SED N a) (a_SED_tol N a) (a_convex N a)
    dens pres (a_csq_floor N a) (a_averages N a) (a_slab_buffer N a).
(** two constructions that give solvers with the same evolution, or the same exception *)
Definition same_solver {N} (x y : res (solver N)) : Prop :=
  match x, y with
  | Ok s, Ok s' => s_cfg N s = s_cfg N s' /\ s_hs N s = s_hs N s' /\ s_u0 N s = s_u0 N s' /\ s_averages N s = s_averages N s'
  | Err e, Err e' => e = e'
  | _, _ => False
  end.

(** the conserved variables of the initial condition at a point *)
Definition ic_point (a : args RNum) (f : R -> R -> R -> Z -> R) (x y z : R) (v : Z) : R :=
  let w := point_value f (listed (a_passives RNum a)) x y z in
  if a_conservative RNum a then w v else compute_conservatives RNum (a_gamma RNum a) w v.

(** Concrete arguments for the examples: averages of conserved variables given by u0, a unit
    box with the given cells and degrees along x, gamma = 7/5, steps of 1/8. *)
Definition demo_args {N} (u0 : Z -> ix -> car N) (nx px : Z) (bc : option (bcond N)) (rs : string) (fixed : option (list string))
  (dens pres : option (car N)) (buffer : Z) : args N :=
  mkargs N (fun m => Ok (mkarr 5 (shp (fst (fst m))) u0)) None (mkix nx 1 1) (mkix px 0 0) (fun _ => (nofZ 0, nofZ 1)) nhalf
    (Some (ndiv (nofZ 1) (nofZ 8))) (ndiv (nofZ 7) (nofZ 5)) bc rs true true fixed false L_minmod false
    (nofZ 1) M_global R_absolute None None false (nofZ 1) false dens pres (nofZ 0) true buffer.
(** a bar moving at speed 1: density, momentum and energy *)
Definition bar {N} (v : Z) (i : ix) : car N :=
  let rho := if cx i =? 1 then 2 else 1 in
  if v =? 0 then nofZ rho else if v =? 1 then nofZ rho else if v =? 4 then nofZ 5 else nofZ 0.
(** the arguments a with n cells of degree p along x *)
Definition along_x {N} (n p : Z) (a : args N) : args N :=
  mkargs N (a_w0 N a) (a_passives N a) (mkix n 1 1) (mkix p 0 0) (a_bounds N a) (a_CFL N a) (a_fixed_dt N a) (a_gamma N a) (a_bc N a) (a_riemann N a)
    (a_conservative N a) (a_fv N a) (a_fixed N a) (a_limit N a) (a_limiter N a) (a_force N a) (a_NAD N a) (a_mode N a) (a_range N a) (a_vars N a) (a_PAD N a)
    (a_SED N a) (a_SED_tol N a) (a_convex N a) (a_density_floor N a) (a_pressure_floor N a) (a_csq_floor N a) (a_averages N a) (a_slab_buffer N a).
