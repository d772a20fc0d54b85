(** Properties C59 and C60: the solver is the text-book scheme. *)
From Coq Require Import ZArith List Reals Lra.
From Verif Require Import Err Num NdArray StencilsM FvM RiemannM BcM LimitM OdeM SolverM
  Spec SpecBc SpecSolver SpecCons SpecScheme FvP OpP SolverP RelP ExistP SchemeP.
Import ListNotations.
Open Scope Z_scope.

(** C59: the three Riemann solvers are the fluxes of the literature, for any two states and
    any row. Donor-cell transport looks at the velocity on the left only. *)
Theorem C59_textbook_fluxes : forall rs gamma floor d wl wr r,
  riemann RNum rs gamma floor d wl wr r = numerical_flux rs gamma floor d wl wr r.
Proof. exact riemann_is. Qed.
Print Assumptions C59_textbook_fluxes.
(** Sod's left and right states: the Rusanov mass flux is not the average *)
Example C59_case : let wl := fun r : Z => if r =? 0 then 1%R else if r =? 4 then 1%R else 0%R in
  let wr := fun r : Z => if r =? 0 then (1/8)%R else if r =? 4 then (1/10)%R else 0%R in
  numerical_flux RS_llf (7/5) (1/1000000) AX wl wr 0 = (7/16 * Rmax (sound (7/5) (1/1000000) wl) (sound (7/5) (1/1000000) wr))%R.
Proof.
  cbv zeta. cbn [numerical_flux]. unfold rusanov, vel, conserved, euler_flux, rho. cbn. rewrite Rabs_R0, !Rplus_0_l. Lra.lra.
Qed.

(** C60: the right-hand side returned by the solver is the balance of the face fluxes of the
    text-book scheme, evaluated on the unbounded grid the boundary conditions define at the
    time the solver carries, and the time step obeys the CFL rule. With limiting, the fluxes
    are mixtures of the fluxes of the given degrees and the limited ones of degree one. *)
Theorem C60_flux_balance : forall wi wt (c : config RNum) xc heap x self_t t u x' dt dudt slope,
  tables wi wt -> tabulated c -> fillable xc c (rows u) -> (c_limit c = true -> fallback_slope c slope) ->
  shp u = c_n c -> 2 <= rows u -> interface_arrays (c_n c) (rows u) (x_flux x) ->
  solver_f RNum c heap x self_t t u = Ok (x', (dt, dudt)) ->
  let E := extended RNum xc (c_bc c) (c_n c) self_t u in
  let hi d := face_flux wi wt c (c_p c) None d E in
  let lo d := face_flux wi wt c (low (c_p c)) slope d E in
  time_step c (primitives wi wt (c_p c) (c_gamma c) E) dt /\
  rows dudt = rows u /\ shp dudt = c_n c /\
  exists F theta, interface_arrays (c_n c) (rows u) F /\
    (forall d, ~ inactive c d -> forall v i, in_shape (interface_shape d (c_n c)) i -> at_ (F d) v i = hi d v i) /\
    weights_from c (fun j => heap (4 * (x_evals x + 1) + j)) self_t u F dt theta /\
    forall v i, in_shape (c_n c) i -> at_ dudt v i = balance c (blended theta hi lo) v i.
Proof.
  intros wi wt c xc heap x s t u x' dt dudt slope HW HT HA HL Su Ru FO H.
  exact (scheme wi wt HW c HT xc heap x s u x' dt dudt slope HA HL Su Ru FO H).
Qed.
Print Assumptions C60_flux_balance.
(** the tables exist, and the right-hand side of a three-dimensional flow can be evaluated *)
Example C60_tables : tables (wts_i RNum) (wts_t RNum).
Proof. exact tables_are. Qed.
Example C60_hypotheses : forall xc heap t u, let c := flow3d B_periodic false in
  rows u = 5 -> shp u = c_n c ->
  tabulated c /\ fillable xc c 5 /\ exists y, solver_f RNum c heap (aux_init RNum c heap 5) t t u = Ok y.
Proof. exact flow3d_rhs. Qed.
