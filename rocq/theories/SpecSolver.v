(** Vocabulary for the theorems about the whole solver. *)
From Coq Require Import ZArith List Bool.
From Verif Require Import Err Num NdArray FvM BcM LimitM OdeM SolverM SpecBc.
Import ListNotations.
Open Scope Z_scope.

(** An axis is inactive iff it has one cell and degree 0. *)
Definition inactive {N} (c : config N) (a : axis) : Prop :=
  getc a (c_n c) = 1 /\ getc a (c_p c) = 0.
Definition inactive_b {N} (c : config N) (a : axis) : bool :=
  ((getc a (c_n c) =? 1) && (getc a (c_p c) =? 0))%bool.
(** half the degree, rounded up: how far a stencil of degree p reaches on either side *)
Definition half_up (p : Z) : Z := (p + 1) / 2.
Definition top_degree (p : ix) : Z := Z.max (cx p) (Z.max (cy p) (cz p)).
(** Number of ghost cells on either side of an axis: the flux stencils of the widest
    direction (or the 3 cells the trouble detection needs), and two interpolations. *)
Definition ghost_zones {N} (c : config N) (a : axis) : Z :=
  if inactive_b c a then 0
  else
    let q := half_up (top_degree (c_p c)) in
    let w := Z.max (q + 1) (2 * q) in
    (if c_limit c then Z.max w 3 else w) + 2 * half_up (getc a (c_p c)).
Definition ghost_zones3 {N} (c : config N) : ix :=
  mkix (ghost_zones c AX) (ghost_zones c AY) (ghost_zones c AZ).

(** a well-formed configuration: at least one cell along each axis, degrees not negative,
    at least one active axis, and the primitive variables named by PAD are rows 0..4 *)
Record sane {N} (c : config N) : Prop := {
  sane_n : forall a, 1 <= getc a (c_n c);
  sane_p : forall a, 0 <= getc a (c_p c);
  sane_dim : exists a, ~ inactive c a;
  sane_pad : match pad_bounds (c_nad c) with None => True | Some l => forall e, In e l -> 0 <= fst e <= 4 end
}.

(** the same configuration with other boundary conditions *)
Definition replace_bc {N} (c : config N) (b : bcond N) : config N :=
  mkcfg (c_n c) (c_p c) (c_bounds c) (c_CFL c) (c_fixed_dt c) (c_gamma c) (c_csq_floor c)
        (c_rs c) b (c_limit c) (c_limiter c) (c_force c) (c_nad c) (c_convex c).

(** Two sets of boundary conditions, for states with q and q' rows, that treat every side in
    the same way and prescribe the same values on the rows Q. *)
Definition same_sides {N} (Q : Z -> Prop) (xc : axis -> Z -> car N) (b b' : bcond N) (q q' : Z) : Prop :=
  forall a pos, bc_type b a pos = bc_type b' a pos /\
   (prescribes (bc_type b a pos) -> forall t v i, Q v ->
      prescribed N xc q (bc_val b a pos) t v i = prescribed N xc q' (bc_val b' a pos) t v i).
(** the rows of density, momentum and energy *)
Definition gas_row (v : Z) : Prop := 0 <= v <= 4.

(** two arrays of the given shape agree on the rows Q *)
Definition agree {A} (Q : Z -> Prop) (n : ix) (u u' : arr A) : Prop :=
  shp u = n /\ shp u' = n /\ forall v i, Q v -> in_shape n i -> at_ u v i = at_ u' v i.

(** a snapshot: primitive variables and the three trouble logs *)
Definition payload N := (arr (car N) * (arr (car N) * arr (car N) * arr (car N)))%type.
Definition run N := ode N (U := arr (car N)) (S := aux N) (D := payload N).

(** two runs show the same clock, history, state, trouble log and snapshots, as far as the
    rows Q are concerned *)
Record same_run {N} (Q : Z -> Prop) (n : ix) (o o' : run N) : Prop := {
  sr_t : o_t o = o_t o';
  sr_stamps : o_stamps o = o_stamps o';
  sr_steps : o_steps o = o_steps o';
  sr_u : agree Q n (o_u o) (o_u o');
  sr_evals : x_evals (o_aux o) = x_evals (o_aux o');
  sr_log : forall f, In f [x_trouble; x_nad; x_pad] -> agree Q n (f (o_aux o)) (f (o_aux o'));
  sr_snaps : Forall2 (fun s s' => fst s = fst s' /\ agree Q n (fst (snd s)) (fst (snd s')) /\
     forall f, In f [fun x => fst (fst (snd (snd x))); fun x => snd (fst (snd (snd x))); fun x => snd (snd (snd x))] ->
       agree Q n (f s) (f s')) (o_snaps o) (o_snaps o')
}.
(** the same result or the same exception *)
Definition same_outcome {N} (Q : Z -> Prop) (n : ix) (x x' : res (run N)) : Prop :=
  match x, x' with
  | Ok o, Ok o' => same_run Q n o o'
  | Err e, Err e' => e = e'
  | _, _ => False
  end.
(** a solver that was just constructed with initial data u0 and then integrated *)
Definition simulate {N} (c : config N) (heap : Z -> Z -> ix -> car N) (i : integrator) (as_averages : bool)
  (T : option (car N)) (n : option Z) (exact : bool) (downbeats : list (car N)) (log_every_step : bool)
  (fuel : nat) (u0 : arr (car N)) : res (run N) :=
  solver_integrate N c heap i as_averages T n exact downbeats log_every_step fuel
    (ode_init N u0 (aux_init N c heap (rows u0))).

(** Concrete configurations for the examples: the unit cube, gamma = 7/5, a fixed time step
    of 1/2, HLLC. *)
Definition demo {N} (n p : ix) (b : bcond N) (limit : bool) : config N :=
  mkcfg n p (fun _ => (nofZ 0, nofZ 1)) nhalf (Some nhalf) (ndiv (nofZ 7) (nofZ 5)) (nofZ 0) RiemannM.RS_hllc b
    limit L_minmod false (mknad (nofZ 1) M_global R_absolute None None false (nofZ 1)) false.
(** the same boundary condition on all sides *)
Definition uniform_bc {N} (ty : bct) : bcond N := mkbc (fun _ _ => ty) (fun _ _ => V_other) None false.
(** q for the density, 10 q for the energy, 1 for everything else *)
Definition demo_cell {N} (q : Z) (v : Z) (i : ix) : car N :=
  if v =? 0 then nofZ q else if v =? 4 then nofZ (10 * q) else nofZ 1.
