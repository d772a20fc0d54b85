(** Model of the constructor of EulerSolver, /repo/fvhoe/solver.py:41-420, and of
    BoundaryCondition.__post_init__, /repo/fvhoe/boundary_conditions.py:192-228.

    Not modelled: progress_bar, snapshot_helper_function, cupy, the git details, the plotting
    shortcuts, the timer categories (TimerM). The arguments slope_limiter, NAD_mode, NAD_range
    and NAD_vars are taken in the form the slope limiting uses (LimitM). *)
From Coq Require Import ZArith List Bool String.
From Verif Require Import Err Num PySlice NdArray HydroM HydroStateM RiemannM FvM BcM LimitM OdeM SolverM ICM.
Import ListNotations.
Open Scope Z_scope.

Section Init.
Context (N : Num).
Local Notation K := (car N).
Local Open Scope num_scope.

(** BoundaryCondition.__post_init__, boundary_conditions.py:192-228: the six fields become
    pairs. Putting arrays into the array manager is modelled in BcObjM. *)
Definition pick {A} (s : side) (p : A * A) : A := match s with SL => fst p | SR => snd p end.
Definition boundary_condition (types : axis -> bc_arg bct) (vals : axis -> bc_arg (bcval N))
  (slabs : option (axis -> side -> arr K * arr K * arr K)) (cupy : bool) : res (bcond N) :=
  do x <- normalize_arg (types AX); do xv <- normalize_arg (vals AX);
  do y <- normalize_arg (types AY); do yv <- normalize_arg (vals AY);
  do z <- normalize_arg (types AZ); do zv <- normalize_arg (vals AZ);
  Ok (mkbc (fun a s => pick s (match a with AX => x | AY => y | AZ => z end))
           (fun a s => pick s (match a with AX => xv | AY => yv | AZ => zv end)) slabs cupy).

(** The arguments of EulerSolver.__init__, solver.py:42-84. [a_bc] is a constructed
    BoundaryCondition or None. *)
Record args := mkargs {
  a_w0 : ic N;                                  (* w0 *)
  a_passives : option (passives N);             (* w0_passives *)
  a_n : ix; a_p : ix;                           (* nx, ny, nz, px, py, pz *)
  a_bounds : axis -> K * K;                     (* x, y, z *)
  a_CFL : K; a_fixed_dt : option K; a_gamma : K;
  a_bc : option (bcond N);
  a_riemann : string;                           (* riemann_solver *)
  a_conservative : bool; a_fv : bool;           (* conservative_ic, fv_ic *)
  a_fixed : option (list string);               (* fixed_primitive_variables *)
  a_limit : bool; a_limiter : limiter; a_force : bool;
  a_NAD : K; a_mode : nad_mode; a_range : nad_range; a_vars : option (list Z);
  a_PAD : option (list (Z * (option K * option K)));
  a_SED : bool; a_SED_tol : K; a_convex : bool;
  a_density_floor : option K; a_pressure_floor : option K; a_csq_floor : K;
  a_averages : bool;                            (* snapshots_as_fv_averages *)
  a_slab_buffer : Z                             (* slab_buffer_size *)
}.

(** what the constructor leaves in self *)
Record solver := mksolver {
  s_cfg : config N;
  s_hs : hstate;
  s_u0 : arr K;                                 (* am("u") *)
  s_averages : bool;
  s_density_floor : option K; s_pressure_floor : option K
}.

(** _init_mesh, solver.py:220-254: the spacings are quotients of Python numbers; np.linspace
    refuses a negative number of points; [self.X[:, 0, 0]] and its like need a cell along the
    other two axes. *)
Definition init_mesh (n : ix) : res unit :=
  let any f := f (cx n) || f (cy n) || f (cz n) in
  if any (fun k => k =? 0)%Z then Err ZeroDivisionError
  else if any (fun k => k <? -1)%Z then Err ValueError
  else if any (fun k => k <? 0)%Z then Err IndexError
  else Ok tt.

(** default_PAD, solver.py:388-392. The upper bounds are np.inf. *)
Definition default_PAD : list (Z * (option K * option K)) := [(0%Z, (Some #0, None)); (4%Z, (Some #0, None))].

(** the configuration, given the boundary conditions and the Riemann solver *)
Definition config_of (a : args) (b : bcond N) (rs : rsolver) : config N :=
  mkcfg (a_n a) (a_p a) (a_bounds a) (a_CFL a) (a_fixed_dt a) (a_gamma a) (a_csq_floor a) rs b
    (a_limit a) (a_limiter a) (a_force a)
    (mknad (a_NAD a) (a_mode a) (a_range a) (a_vars a)
       (Some (match a_PAD a with None => default_PAD | Some l => l end)) (a_SED a) (a_SED_tol a))
    (a_convex a).

(** BoundaryCondition(x=("periodic", "periodic"), ...), solver.py:334-341 *)
Definition periodic_bc (cupy : bool) : res (bcond N) :=
  boundary_condition (fun _ => Arg_tuple [B_periodic; B_periodic]) (fun _ => Arg_one V_other) None cupy.

(** self.u0 as a boundary value, solver.py:286-303: NotImplemented when the initial condition
    returns averages *)
Definition u0_value (a : args) (w0 : ic N) : bcval N :=
  if a_conservative a && a_fv a then V_other
  else if a_conservative a then V_mesh (fun _ m => w0 m)
  else V_mesh (fun _ m => do w <- w0 m; Ok (conservatives N (a_gamma a) w)).

(** leggauss refuses degrees below 1, fv.py:237 *)
Definition quadratures_exist (p : ix) : bool := (0 <=? cx p)%Z && (0 <=? cy p)%Z && (0 <=? cz p)%Z.

(** _init_initial_conditions, solver.py:256-310 *)
Definition init_ic (lg : Z -> list (K * K)) (a : args) (c : config N) : res (hstate * ic N * arr K) :=
  do h <- hydro_state (match a_passives a with None => [] | Some fs => map fst fs end) 4;
  do w0 <- build_ic N (a_w0 a) h (a_passives a);
  do _ <- (if a_fv a then Ok tt else if quadratures_exist (a_p a) then Ok tt else Err ValueError);
  do u <- initial_state N lg c (a_w0 a) (a_passives a) (a_conservative a) (a_fv a);
  Ok (h, w0, u).

(** _init_boundary_conditions, solver.py:312-362. When no slabs are asked for,
    fv_uniform_meshgen returns three arrays and unpacking them into two names fails. A slab
    thickness below -1 makes np.linspace fail; -1 gives empty slabs, here slabs of thickness
    -1. *)
Definition init_bc (cupy : bool) (a : args) (c : config N) (w0 : ic N) : res (bcond N) :=
  let b := a_slab_buffer a in
  let w := active_width N c b in
  do slabs <- match fv_uniform_meshgen N (a_n a) (a_bounds a AX) (a_bounds a AY) (a_bounds a AZ) w with
              | Mesh3 _ _ => Err ValueError
              | MeshWithSlabs _ _ s => if (b <? -1)%Z then Err ValueError else Ok s
              end;
  do bc <- match a_bc a with
           | None => periodic_bc cupy
           | Some u => boundary_condition (fun d => Arg_tuple [bc_type u d SL; bc_type u d SR])
                         (fun d => Arg_tuple [bc_val u d SL; bc_val u d SR]) (Some slabs) cupy
           end;
  Ok (mkbc (bc_type bc)
           (fun d s => match bc_type bc d s with B_ic => u0_value a w0 | _ => bc_val bc d s end)
           (bc_slabs bc) (bc_cupy bc)).

(** the match statement, solver.py:180-189 *)
Definition riemann_of (s : string) : res rsolver :=
  if String.eqb s "advection_upwind" then Ok RS_upwind
  else if String.eqb s "llf" then Ok RS_llf
  else if String.eqb s "hllc" then Ok RS_hllc
  else Err TypeError.

(** __init__, solver.py:153-218. The configuration handed to the first two steps is incomplete;
    they read the mesh, the degrees and gamma only. [cupy] tells whether cupy is installed. *)
Definition construct (lg : Z -> list (K * K)) (cupy : bool) (a : args) : res solver :=
  let c0 := config_of a (mkbc (fun _ _ => B_none) (fun _ _ => V_other) None cupy) RS_hllc in
  do _ <- init_mesh (a_n a);
  do i <- init_ic lg a c0;
  let '(h, w0, u) := i in
  do b <- init_bc cupy a c0 w0;
  do rs <- riemann_of (a_riemann a);
  Ok (mksolver (config_of a b rs) h u (a_averages a) (a_density_floor a) (a_pressure_floor a)).

(** The default values of the arguments, solver.py:44-83. Decimals are quotients of
    integers. *)
Definition default_args : args :=
  mkargs (square_ic N "x" #1 #2 #1 #1 #0 #0) None (mkix 1 1 1) (mkix 0 0 0) (fun _ => (#0, #1))
    (#4 / #5) None (#5 / #3) None "hllc" false false None false L_minmod false
    (#1 / #100) M_global R_relative None None true (#1 / #10000000000) false None None
    (#1 / #10000000000) true 30.
End Init.
