(** Model of /repo/fvhoe/solver.py: the right-hand side of EulerSolver, its slope-limiting
    fallback, its trouble log and its integrators. Timer calls are modelled in TimerM. *)
From Coq Require Import ZArith List Bool.
From Verif Require Import Err Num PySlice NdArray HydroM RiemannM StencilsM FvM BcM SedM
  LimitM OdeM.
Import ListNotations.
Open Scope Z_scope.

Section Solver.
Context (N : Num).
Local Notation K := (car N).
Local Open Scope num_scope.

(** Parameters of EulerSolver.__init__ (solver.py:42-84) that influence the evolution.
    density_floor, pressure_floor and fixed_primitive_variables are accepted by the
    constructor but read nowhere. *)
Record config := mkcfg {
  c_n : ix;                        (* nx, ny, nz *)
  c_p : ix;                        (* px, py, pz *)
  c_bounds : axis -> K * K;        (* x, y, z *)
  c_CFL : K;
  c_fixed_dt : option K;
  c_gamma : K;
  c_csq_floor : K;
  c_rs : rsolver;
  c_bc : bcond N;
  c_limit : bool;                  (* a_posteriori_slope_limiting *)
  c_limiter : limiter;             (* slope_limiter *)
  c_force : bool;                  (* force_trouble *)
  c_nad : nad_params N;            (* NAD, NAD_mode, NAD_range, NAD_vars, PAD, SED.. *)
  c_convex : bool
}.

Definition axes : list axis := [AX; AY; AZ].

(** _init_mesh, solver.py:220-254 *)
Definition spacing (c : config) (a : axis) : K :=
  (snd (c_bounds c a) - fst (c_bounds c a)) / nofZ (getc a (c_n c)).
Definition active (c : config) (a : axis) : bool :=
  negb ((getc a (c_n c) =? 1)%Z && (getc a (c_p c) =? 0)%Z).
Definition dims (c : config) : list axis := filter (active c) axes.
Definition ndim (c : config) : Z := Z.of_nat (length (dims c)).

(** interpolate_primitives_from_conservatives, solver.py:753-792. [t] is self.t. *)
Definition interp_cost (fv_average : bool) (p : Z) : Z :=
  if fv_average then (2 * stencil_right p)%Z else stencil_right p.
Definition interpolate_primitives (c : config) (junk : Z -> ix -> K) (t : K) (u : arr K)
  (p gw : ix) (fv_average : bool) : res (arr K) :=
  let gw' := mkix (cx gw + interp_cost fv_average (cx p))
                  (cy gw + interp_cost fv_average (cy p))
                  (cz gw + interp_cost fv_average (cz p)) in
  do u_bc <- apply N (c_bc c) junk u gw' t;
  do u_cc <- interpolate_cell_centers N p u_bc;
  let w_cc := cmap (compute_primitives N (c_gamma c)) u_cc in
  if fv_average then interpolate_fv_averages N p w_cc else Ok w_cc.

(** pmax and gw, solver.py:492-493; int(np.ceil(x / 2)) is [stencil_right x] *)
Definition pmax (p : ix) : Z := Z.max (Z.max (cx p) (cy p)) (cz p).
Definition ghost_width (p : ix) : Z :=
  Z.max (stencil_right (pmax p) + 1) (2 * stencil_right (pmax p)).
Definition active_width (c : config) (g : Z) : ix :=
  mkix (if active c AX then g else 0%Z) (if active c AY then g else 0%Z)
       (if active c AZ then g else 0%Z).

(** order of the two transverse interpolations, solver.py:523-541, 555-557 *)
Definition interp_axes (d : axis) : axis * axis :=
  match d with AX => (AZ, AY) | AY => (AX, AZ) | AZ => (AY, AX) end.
(** order of the two transverse flux integrations, solver.py:631-646 *)
Definition recon_axes (d : axis) : axis * axis :=
  match d with AX => (AY, AZ) | AY => (AX, AZ) | AZ => (AX, AY) end.

(** x_excess, y_excess, z_excess, solver.py:610-627 *)
Definition excess (c : config) (p : ix) (gw : Z) (d a : axis) : Z :=
  if active c a then
    if axis_eqb a d then (gw - stencil_right (getc a p) - 1)%Z
    else (gw - 2 * stencil_right (getc a p))%Z
  else 0%Z.

(** the numerical flux through the faces normal to d, solver.py:522-646. The code runs the
    three stages for all directions in turn; here they are grouped by direction, which can
    only change which of two exceptions is raised first. *)
Definition face_states (c : config) (p : ix) (limit : bool) (l : limiter) (d : axis)
  (w_bc : arr K) : res (arr K * arr K) :=
  let '(a1, a2) := interp_axes d in
  do w1 <- conservative_interpolation N (getc a1 p) a1 P_c w_bc;
  do w2 <- conservative_interpolation N (getc a2 p) a2 P_c w1;
  if limit && (getc d p =? 1)%Z then MUSCL_interpolations N d l w2
  else
    do wl <- conservative_interpolation N (getc d p) d P_l w2;
    do wr <- conservative_interpolation N (getc d p) d P_r w2;
    Ok (wl, wr).

Definition dir_flux (c : config) (p : ix) (gw : Z) (limit : bool) (l : limiter) (d : axis)
  (w_bc : arr K) : res (arr K) :=
  do lr <- face_states c p limit l d w_bc;
  let '(face_l, face_r) := lr in
  do f <- cmap2 (riemann N (c_rs c) (c_gamma c) (c_csq_floor c) d)
                (view d s_init face_r) (view d s_tail face_l);
  let '(a1, a2) := recon_axes d in
  do f1 <- transverse_reconstruction N (getc a1 p) a1 f;
  do f2 <- transverse_reconstruction N (getc a2 p) a2 f1;
  Ok (view3 (fun a => cut (excess c p gw d a) (- excess c p gw d a)) f2).

Definition fluxes := axis -> arr K.

(** min(self.h), solver.py:510. All three spacings take part, also those of inactive
    axes. Python's min keeps the first of equal elements. *)
Definition min_h (c : config) : K :=
  let m := if spacing c AY <? spacing c AX then spacing c AY else spacing c AX in
  if spacing c AZ <? m then spacing c AZ else m.

(** is slope limiting required, solver.py:482-489 *)
Definition limit_slopes (l : limiter) (p : ix) : res bool :=
  match l with
  | L_none => Ok false
  | _ => if (pmax p <=? 1)%Z then Ok true else Err ValueError
  end.

(** hydrofluxes, solver.py:456-651. [stale] holds self.am("F"), ("G"), ("H"). *)
Definition hydrofluxes (c : config) (junk : Z -> ix -> K) (t : K) (stale : fluxes)
  (u : arr K) (p : ix) (l : limiter) : res (K * fluxes) :=
  do limit <- limit_slopes l p;
  let gw := ghost_width p in
  do w_bc <- interpolate_primitives c junk t u p (active_width c gw) true;
  do dt <- match c_fixed_dt c with
           | None => hydro_dt N w_bc (min_h c) (ndim c) (c_CFL c) (c_gamma c) (c_csq_floor c)
           | Some dt => Ok dt
           end;
  let flux d := if active c d then dir_flux c p gw limit l d w_bc else Ok (stale d) in
  do F <- flux AX; do G <- flux AY; do H <- flux AZ;
  Ok (dt, fun d => match d with AX => F | AY => G | AZ => H end).

(** euler_equation, solver.py:734-751. dudt starts as the scalar 0.0. *)
Definition euler_equation (c : config) (F : fluxes) : res (arr K) :=
  let term d := amap2 (fun x y => nopp (#1 / spacing c d) * (x - y))
                      (view d s_tail (F d)) (view d s_init (F d)) in
  fold_left (fun acc d => do dudt <- acc; do x <- term d; amap2 nadd dudt x)
            (dims c) (Ok (mkarr 1 (mkix 1 1 1) (fun _ _ => #0))).

(** the arrays and counters the right-hand side mutates *)
Record aux := mkaux_s {
  x_flux : fluxes;       (* am("F"), am("G"), am("H") *)
  x_evals : Z;           (* f_evaluation_count *)
  x_counter : Z;         (* trouble_counter *)
  x_trouble : arr K; x_nad : arr K; x_pad : arr K  (* the mean arrays, 5 rows *)
}.

(** log_troubles with reset=False, solver.py:821-833 *)
Definition log_troubles (x : aux) (tr nad pad : arr K) : res aux :=
  let put dst src :=
    if (x_counter x =? 0)%Z then assign_all dst src
    else do s <- amap2 nadd dst src; assign_all dst s in
  do a <- put (x_trouble x) tr;
  do b <- put (x_nad x) nad;
  do d <- put (x_pad x) pad;
  Ok (mkaux_s (x_flux x) (x_evals x) (x_counter x + 1) a b d).

(** log_troubles with reset=True, solver.py:809-820. With the counter at 0 the code falls
    through to the assignment of None (a TypeError); that needs a step without any
    evaluation and is not reachable from the integrators. *)
Definition reset_troubles (x : aux) : aux :=
  if (0 <? x_counter x)%Z then
    let dv a := amap (fun v => v / nofZ (x_counter x)) a in
    mkaux_s (x_flux x) (x_evals x) 0 (dv (x_trouble x)) (dv (x_nad x)) (dv (x_pad x))
  else x.

(** step_helper_function, solver.py:835-838 *)
Definition step_helper (c : config) (x : aux) : aux :=
  if c_limit c then reset_troubles x else x.

Definition any_trouble (tr : arr bool) : bool :=
  existsb (fun i => at_ tr 0%Z i) (ix_list (shp tr)).

Definition is_periodic (c : config) (a : axis) : bool :=
  match bc_type (c_bc c) a SL, bc_type (c_bc c) a SR with
  | B_periodic, B_periodic => true
  | _, _ => false
  end.

(** the first five rows, w[hs("active_scalars")] *)
Definition active_rows (w : arr K) : arr K := mkarr 5 (shp w) (at_ w).

(** blending of one flux array, solver.py:729-731: am(F)[...] = (1 - th) * F + th * Fl *)
Definition blend (th F Fl : arr K) : res (arr K) :=
  do a <- amap2 (fun t x => (#1 - t) * x) th F;
  do b <- amap2 (fun t x => t * x) th Fl;
  do s <- amap2 nadd a b;
  assign_all F s.

(** revise_fluxes, solver.py:653-732. [junk k] is the memory of the k-th padded array. *)
Definition fallback_p (c : config) : ix :=
  let q p := if (0 <? p)%Z then 1%Z else 0%Z in
  mkix (q (cx (c_p c))) (q (cy (c_p c))) (q (cz (c_p c))).
Definition candidate_primitives (c : config) (junk : Z -> Z -> ix -> K) (t : K) (u : arr K)
  (F : fluxes) (dt : K) : res (arr K * arr K) :=
  do d <- euler_equation c F;
  do ustar <- amap2 (fun x y => x + dt * y) u d;
  let gw := active_width c 3 in
  do w <- interpolate_primitives c (junk 1%Z) t u (c_p c) gw true;
  do w_star <- interpolate_primitives c (junk 2%Z) t ustar (c_p c) gw true;
  Ok (w, w_star).
Definition detect (c : config) (junk : Z -> Z -> ix -> K) (t : K) (u : arr K)
  (F : fluxes) (dt : K) : res (detection N) :=
  do ww <- candidate_primitives c junk t u F dt;
  do det <- detect_troubled_cells N (c_nad c) (dims c) (active_rows (fst ww))
              (active_rows (snd ww));
  Ok (if c_force c
      then mkdet (amap (fun _ => true) (d_trouble det)) (d_nad det) (d_pad det) else det).
Definition revise_fluxes (c : config) (junk : Z -> Z -> ix -> K) (t : K) (x : aux)
  (u : arr K) (dt : K) : res aux :=
  let F := x_flux x in
  do det <- detect c junk t u F dt;
  do x1 <- log_troubles x (amap (b2k N) (d_trouble det)) (d_nad det) (d_pad det);
  if any_trouble (d_trouble det) then
    do lf <- hydrofluxes c (junk 3%Z) t F u (fallback_p c) (c_limiter c);
    let Fl := snd lf in
    do th <- broadcast_to_troubled_interfaces N (d_trouble det) (dims c) (c_convex c)
               (is_periodic c);
    do nF <- blend (th AX) (F AX) (Fl AX);
    do nG <- blend (th AY) (F AY) (Fl AY);
    do nH <- blend (th AZ) (F AZ) (Fl AZ);
    Ok (mkaux_s (fun d => match d with AX => nF | AY => nG | AZ => nH end)
          (x_evals x1) (x_counter x1) (x_trouble x1) (x_nad x1) (x_pad x1))
  else Ok x1.

(** f and hydrodynamics, solver.py:422-454. [heap k] is the contents of the k-th block of
    uninitialised memory the process gets. *)
Definition set_flux (x : aux) (F : fluxes) (evals : Z) : aux :=
  mkaux_s F evals (x_counter x) (x_trouble x) (x_nad x) (x_pad x).
Definition hydrodynamics (c : config) (heap : Z -> Z -> ix -> K) (x : aux) (self_t : K)
  (u : arr K) : res (aux * (K * arr K)) :=
  let k := (x_evals x + 1)%Z in
  let junk j := heap (4 * k + j)%Z in
  do hf <- hydrofluxes c (junk 0%Z) self_t (x_flux x) u (c_p c) L_none;
  let '(dt, F) := hf in
  do nF <- assign_all (x_flux x AX) (F AX);
  do nG <- assign_all (x_flux x AY) (F AY);
  do nH <- assign_all (x_flux x AZ) (F AZ);
  let x1 := set_flux x (fun d => match d with AX => nF | AY => nG | AZ => nH end) k in
  do x2 <- (if c_limit c then revise_fluxes c junk self_t x1 u dt else Ok x1);
  do dudt <- euler_equation c (x_flux x2);
  Ok (x2, (dt, dudt)).
Definition solver_f (c : config) (heap : Z -> Z -> ix -> K)
  : aux -> K -> K -> arr K -> res (aux * (K * arr K)) :=
  fun x self_t _ u => hydrodynamics c heap x self_t u.

(** array operations used by the integrators *)
Definition arr_ops : vops N (arr K) :=
  mkvops (amap2 nadd) (fun k u => amap (fun x => k * x) u) assign_all.

(** payload of a snapshot, solver.py:840-874: primitive variables and trouble log *)
Definition snap_payload (c : config) (heap : Z -> Z -> ix -> K) (as_averages : bool)
  (x : aux) (t : K) (u : arr K) : res (arr K * (arr K * arr K * arr K)) :=
  do w <- interpolate_primitives c (heap 0%Z) t u (c_p c) (mkix 0 0 0) as_averages;
  do w' <- assign_all (mkarr (rows u) (c_n c) (fun _ _ => #0)) w;
  Ok (w', (x_trouble x, x_nad x, x_pad x)).

(** _init_array_allocation, solver.py:402-420: the flux arrays come from np.empty *)
Definition aux_init (c : config) (heap : Z -> Z -> ix -> K) (nvars : Z) : aux :=
  let z := mkarr 5 (c_n c) (fun _ _ => #0) in
  mkaux_s (fun d => mkarr nvars (face_shape d (c_n c))
                      (match d with AX => heap 1%Z | AY => heap 2%Z | AZ => heap 3%Z end))
          0 1 z z z.

(** run, solver.py:955-974: the integrator chosen from the polynomial degree *)
Definition run_integrator (c : config) : integrator :=
  match Z.min (pmax (c_p c)) 3 with
  | 0%Z => I_euler | 1%Z => I_ssprk2 | 2%Z => I_ssprk3 | _ => I_rk4
  end.

Definition solver_step (c : config) (heap : Z -> Z -> ix -> K) (i : integrator)
  : stepper N (U := arr K) (S := aux) :=
  stepper_of N arr_ops (solver_f c heap) i.

(** one whole call of a solver method euler/ssprk2/ssprk3/rk4 *)
Definition solver_take_step (c : config) (heap : Z -> Z -> ix -> K) (i : integrator) :=
  take_step N (D := arr K * (arr K * arr K * arr K)) arr_ops (solver_step c heap i)
    (step_helper c).
Definition solver_integrate (c : config) (heap : Z -> Z -> ix -> K) (i : integrator)
  (as_averages : bool) :=
  integrate N (D := arr K * (arr K * arr K * arr K)) arr_ops (solver_step c heap i)
    (step_helper c) (snap_payload c heap as_averages).
End Solver.
Arguments mkcfg {N}.
Arguments c_n {N}. Arguments c_p {N}. Arguments c_bounds {N}. Arguments c_CFL {N}.
Arguments c_fixed_dt {N}. Arguments c_gamma {N}. Arguments c_csq_floor {N}. Arguments c_rs {N}.
Arguments c_bc {N}. Arguments c_limit {N}. Arguments c_limiter {N}. Arguments c_force {N}.
Arguments c_nad {N}. Arguments c_convex {N}.
Arguments mkaux_s {N}. Arguments x_flux {N}. Arguments x_evals {N}. Arguments x_counter {N}.
Arguments x_trouble {N}. Arguments x_nad {N}. Arguments x_pad {N}.
