(** Theorems on the constructor of EulerSolver (C55). *)
From Coq Require Import ZArith List Bool String Reals.
From Coq Require Import QArith.QArith_base.
From Verif Require Import Err Num NdArray HydroM HydroStateM RiemannM FvM BcM LimitM OdeM SolverM ICM InitM
  SpecMesh SpecBc SpecSolver SpecCons SpecHs SpecIC SpecPos SpecInit InitP InitQ.
Import ListNotations.
Open Scope Z_scope.

(** C55. The constructor accepts exactly: at least one cell along each axis, degrees that are
    not negative (unless the initial condition returns averages), an initial condition that can
    be evaluated, an axis with more than one cell or a positive degree, a slab buffer that is
    not empty, and one of three names of Riemann solvers. *)
Theorem C55_accepts : forall (N : Num) lg cupy a c, on_mesh a c ->
  ((exists s, construct N lg cupy a = Ok s) <->
   (forall d, 1 <= getc d (a_n N a)) /\
   (a_fv N a = false -> forall d, 0 <= getc d (a_p N a)) /\
   (exists u, initial_state N lg c (a_w0 N a) (a_passives N a) (a_conservative N a) (a_fv N a) = Ok u) /\
   some_axis (a_n N a) (a_p N a) /\ a_slab_buffer N a <> 0 /\ -1 <= a_slab_buffer N a /\
   exists rs, In (a_riemann N a, rs) known_solvers).
Proof. exact accepts. Qed.
Print Assumptions C55_accepts.
(** The solver runs with the settings it was given, from the initial state of C52. *)
Theorem C55_constructed : forall (N : Num) lg cupy a s, construct N lg cupy a = Ok s ->
  settings_kept a (s_cfg N s) /\ sides_kept a (c_bc (s_cfg N s)) /\
  initial_state N lg (s_cfg N s) (a_w0 N a) (a_passives N a) (a_conservative N a) (a_fv N a) = Ok (s_u0 N s) /\
  s_averages N s = a_averages N a.
Proof. exact constructed. Qed.
Print Assumptions C55_constructed.
Example C55_constructed_case : exists s, construct QNum (fun _ => []) false (demo_args (N := QNum) bar 4 0 (Some ic_bc) "hllc" None None None 30) = Ok s.
Proof. exact averaged_case. Qed.

(** Ghost cells behind an "ic" side hold the initial condition at their centres, as conserved
    variables, for all times. *)
Theorem C55_ic_sides : forall lg cupy a s ub f e pos junk u g t,
  construct RNum lg cupy a = Ok s -> a_bc RNum a = Some ub -> a_w0 RNum a = pointwise RNum f -> a_fv RNum a = false ->
  good_names (map fst (listed (a_passives RNum a))) ->
  shp u = a_n RNum a -> rows u = 5 + Z.of_nat (List.length (listed (a_passives RNum a))) ->
  (forall d, 0 <= getc d g <= getc d (slab_width a)) ->
  (forall d p, getc d g <> 0 ->
     (copies (bc_type ub d p) /\ enough (bc_type ub d p) (getc d (a_n RNum a)) (getc d g)) \/ bc_type ub d p = B_ic \/
     (bc_type ub d p = B_dirichlet /\ match bc_val ub d p with V_array len _ => len = rows u \/ len = 1 | V_func _ => True | _ => False end)) ->
  (forall d, getc d g <> 0 -> bc_type ub d SR = B_periodic -> bc_type ub d SL = B_periodic) ->
  bc_type ub e pos = B_ic ->
  exists out, apply RNum (c_bc (s_cfg RNum s)) junk u g t = Ok out /\ shp out = padded (a_n RNum a) g /\
    forall v i, in_padded (a_n RNum a) g i ->
      (match pos with SL => getc e i < 0 | SR => getc e (a_n RNum a) <= getc e i end) ->
      (forall d, (match e, d with AX, (AY | AZ) => True | AY, AZ => True | _, _ => False end) -> 0 <= getc d i < getc d (a_n RNum a)) ->
      at_ out v (shift g i) = ic_point a f (cell_centre (s_cfg RNum s) AX i) (cell_centre (s_cfg RNum s) AY i) (cell_centre (s_cfg RNum s) AZ i) v.
Proof. exact ic_sides. Qed.
Print Assumptions C55_ic_sides.
Example C55_ic_sides_case : exists a s ub, construct RNum (fun _ => [(0, 2)])%R false a = Ok s /\ a_bc RNum a = Some ub /\
  a_w0 RNum a = pointwise RNum (fun x _ _ => vec5 RNum (1 + x * x) x 0 0 1)%R /\ a_fv RNum a = false /\ a_n RNum a = mkix 3 1 1 /\
  slab_width a = mkix 30 0 0 /\ bc_type ub AX SL = B_ic /\ bc_type ub AX SR = B_ic.
Proof. exact ic_case. Qed.
(** The default buffer is wide enough for all degrees the schemes exist for. *)
Theorem C55_default_slabs : forall (N : Num) (c : config N), tabulated c -> forall d, 0 <= ghost_zones c d <= if inactive_b c d then 0 else 30.
Proof. exact default_slabs. Qed.
Print Assumptions C55_default_slabs.

(** Narrower buffers are accepted and every evaluation of the right-hand side then fails. *)
Theorem C55_narrow_slabs_refuted : forall (N : Num) lg cupy a s ub d e pos, construct N lg cupy a = Ok s -> a_bc N a = Some ub ->
  (forall k, 0 <= getc k (a_p N a)) ->
  ~ (getc d (a_n N a) = 1 /\ getc d (a_p N a) = 0) -> prescribes (bc_type ub d pos) ->
  ~ (getc e (a_n N a) = 1 /\ getc e (a_p N a) = 0) ->
  (let q := half_up (top_degree (a_p N a)) in a_slab_buffer N a < Z.max (q + 1) (2 * q) + 2 * half_up (getc e (a_p N a))) ->
  forall heap x t u r, hydrodynamics N (s_cfg N s) heap x t u <> Ok r.
Proof. exact narrow_slabs. Qed.
Print Assumptions C55_narrow_slabs_refuted.
Example C55_narrow_case : exists s, construct QNum (fun _ => []) false (demo_args (N := QNum) bar 4 2 (Some ic_bc) "hllc" None None None 3) = Ok s.
Proof. exact narrow_case. Qed.
(** So is an "ic" side together with an initial condition that returns averages. *)
Theorem C55_averaged_ic_sides_refuted : forall (N : Num) lg cupy a s ub d pos, construct N lg cupy a = Ok s -> a_bc N a = Some ub ->
  a_fv N a = true -> (forall e, 0 <= getc e (a_p N a)) ->
  ~ (getc d (a_n N a) = 1 /\ getc d (a_p N a) = 0) -> bc_type ub d pos = B_ic ->
  forall heap x t u r, hydrodynamics N (s_cfg N s) heap x t u <> Ok r.
Proof. exact averaged_ic_sides. Qed.
Print Assumptions C55_averaged_ic_sides_refuted.

(** The constructor refuses its own default arguments. *)
Theorem C55_defaults_refuted : forall (N : Num) lg cupy s, construct N lg cupy (default_args N) <> Ok s.
Proof. exact no_default. Qed.
Print Assumptions C55_defaults_refuted.
(** With cells along x and everything else left at its default: a square wave of density 2 on
    1 in the unit interval, moving at speed 1, periodic ends, HLLC, gamma 5/3, CFL number 0.8, and
    no slope limiting; were it switched on: minmod, the global relative criterion with
    tolerance 0.01 for all variables, smooth extrema exempt, positive density and pressure. *)
Theorem C55_default_settings : forall lg cupy n p, positive_rules lg -> 2 <= n -> 0 <= p ->
  exists s, construct RNum lg cupy (along_x n p (default_args RNum)) = Ok s /\ s_averages RNum s = true /\ gas_everywhere (s_u0 RNum s) /\
  let c := s_cfg RNum s in c_n c = mkix n 1 1 /\ c_p c = mkix p 0 0 /\ (forall a, c_bounds c a = (0, 1)%R) /\
  initial_state RNum lg c (square_ic RNum "x" 1%R 2%R 1%R 1%R 0%R 0%R) None false false = Ok (s_u0 RNum s) /\
  c_CFL c = (4/5)%R /\ c_fixed_dt c = None /\ c_gamma c = (5/3)%R /\ c_csq_floor c = (1/10^10)%R /\ c_rs c = RS_hllc /\
  (forall a pos, bc_type (c_bc c) a pos = B_periodic) /\ c_limit c = false /\ c_limiter c = L_minmod /\ c_force c = false /\ c_convex c = false /\
  nad_eps (c_nad c) = (1/100)%R /\ nad_mode_ (c_nad c) = M_global /\ nad_range_ (c_nad c) = R_relative /\ nad_vars (c_nad c) = None /\
  sed_on (c_nad c) = true /\ sed_eps (c_nad c) = (1/10^10)%R /\ pad_bounds (c_nad c) = Some [(0, (Some 0%R, None)); (4, (Some 0%R, None))].
Proof. exact default_settings. Qed.
Print Assumptions C55_default_settings.
Example C55_default_case : exists s, construct RNum (fun _ => [(0, 2)%R]) false (along_x 64 3 (default_args RNum)) = Ok s.
Proof.
  destruct (default_settings (fun _ => [(0, 2)%R]) false 64 3) as (s & E & _); [|discriminate|discriminate|exists s; exact E].
  intros k _. split; [discriminate|]. intros q [<-|[]]. exact Rlt_0_2.
Qed.
(** It refuses a Riemann solver its documentation lists. *)
Theorem C55_documented_solver_refuted : In "advection_upwinding"%string documented_solvers /\
  forall (N : Num) lg cupy a s, a_riemann N a = "advection_upwinding"%string -> construct N lg cupy a <> Ok s.
Proof. exact undocumented. Qed.
Print Assumptions C55_documented_solver_refuted.

(** density_floor, pressure_floor and fixed_primitive_variables change nothing at all ... *)
Theorem C55_floors_unread : forall (N : Num) lg cupy a dens pres fixed,
  same_solver (construct N lg cupy a) (construct N lg cupy (other_floors a dens pres fixed)).
Proof. exact floors_unread. Qed.
Print Assumptions C55_floors_unread.
(** ... so interpolated densities and pressures lie below their floors ... *)
Theorem C55_floors_refuted : exists (a : args QNum) s w i,
  a_density_floor QNum a = Some 3%Q /\ a_pressure_floor QNum a = Some 3%Q /\ construct QNum (fun _ => []) false a = Ok s /\
  interpolate_primitives QNum (s_cfg QNum s) (fun _ _ => 0%Q) 0%Q (s_u0 QNum s) (a_p QNum a) (mkix 1 0 0) true = Ok w /\
  in_shape (shp w) i /\ (at_ w 0 i < 3)%Q /\ (at_ w 4 i < 3)%Q.
Proof. exact floors_ignored. Qed.
Print Assumptions C55_floors_refuted.
(** ... and a density that was to be kept fixed changes. *)
Theorem C55_fixed_refuted : exists (a : args QNum) s o,
  a_fixed QNum a = Some ["rho"; "vx"; "P"]%string /\ construct QNum (fun _ => []) false a = Ok s /\
  simulate (s_cfg QNum s) (fun _ _ _ => 0%Q) (run_integrator QNum (s_cfg QNum s)) (s_averages QNum s) None (Some 1) true [] false 0 (s_u0 QNum s) = Ok o /\
  ~ (at_ (o_u o) 0 (mkix 1 0 0) == at_ (s_u0 QNum s) 0 (mkix 1 0 0))%Q.
Proof. exact fixed_changes. Qed.
Print Assumptions C55_fixed_refuted.
