(** Property C62: the scheme is exact for polynomial densities carried by a uniform flow. *)
From Coq Require Import ZArith List Reals Lra.
From Coquelicot Require Import Coquelicot.
From Verif Require Import Err Num NdArray HydroM RiemannM StencilsM FvM BcM LimitM OdeM SolverM
  Spec SpecBc SpecSolver SpecCons SpecPoly SpecScheme SpecOde SpecExact ExactP ExactQ.
Import ListNotations.
Open Scope R_scope.

(** C62: in a gas of uniform velocity and pressure whose density is a polynomial of at most the
    degrees of the scheme, the right-hand side of a cell is minus the exact mean of the
    divergence of the Euler flux, when the cells it looks at hold the exact means. *)
Theorem C62_transport_exact : forall (c : config RNum) xc heap x self_t t u x' dt dudt l V P s i,
  tabulated c -> fillable xc c (rows u) -> c_limit c = false ->
  0 < c_csq_floor c -> 1 < c_gamma c -> (forall a, fst (c_bounds c a) < snd (c_bounds c a)) ->
  shp u = c_n c -> (5 <= rows u)%Z -> interface_arrays (c_n c) (rows u) (x_flux x) ->
  degree3 (Z.to_nat (cx (c_p c))) (Z.to_nat (cy (c_p c))) (Z.to_nat (cz (c_p c))) l -> 0 <= P ->
  (forall j, seen_from c i j -> in_shape (c_n c) j /\
    (forall x y z, in_cell c j x y z -> 0 < peval3 l x y z) /\
    forall r, (0 <= r < rows u)%Z ->
      at_ u r j = cell_mean c (fun x y z => conserved (c_gamma c) (drifting V P s (peval3 l x y z)) r) j) ->
  solver_f RNum c heap x self_t t u = Ok (x', (dt, dudt)) ->
  forall r, (0 <= r < rows u)%Z ->
    at_ dudt r i = - cell_mean c (divergence (fun a x y z => euler_flux (c_gamma c) a (drifting V P s (peval3 l x y z)) r)) i.
Proof. exact transport_exact_inside. Qed.
Print Assumptions C62_transport_exact.
Example C62_flow : forall xc heap t, let c := flow18 in
  let V := fun a => match a with AX => 1 | AY => -2 | AZ => 3 end in
  let u := mkarr 5 (c_n c) (fun r j => cell_mean c (fun x y z => conserved (c_gamma c) (drifting V 1 (fun _ => 0) (peval3 ramp32 x y z)) r) j) in
  let i := mkix 8 4 0 in
  tabulated c /\ fillable xc c 5 /\ c_limit c = false /\ 0 < c_csq_floor c /\ 1 < c_gamma c /\
  (forall a, fst (c_bounds c a) < snd (c_bounds c a)) /\
  degree3 (Z.to_nat (cx (c_p c))) (Z.to_nat (cy (c_p c))) (Z.to_nat (cz (c_p c))) ramp32 /\
  (forall j, seen_from c i j -> in_shape (c_n c) j /\
    (forall x y z, in_cell c j x y z -> 0 < peval3 ramp32 x y z)) /\
  exists y, solver_f RNum c heap (aux_init RNum c heap 5) t t u = Ok y.
Proof. exact flow18_case. Qed.

(** A whole time step of any of the four integrators carries such a density exactly, if its
    total degree is at most the order of the integrator. *)
Theorem C62_step_exact : forall (c : config RNum) xc heap ig x t u target x' dt un l V P s i,
  tabulated c -> fillable xc c (rows u) -> c_limit c = false ->
  0 < c_csq_floor c -> 1 < c_gamma c -> (forall a, fst (c_bounds c a) < snd (c_bounds c a)) ->
  shp u = c_n c -> (5 <= rows u)%Z -> interface_arrays (c_n c) (rows u) (x_flux x) ->
  degree3 (Z.to_nat (cx (c_p c))) (Z.to_nat (cy (c_p c))) (Z.to_nat (cz (c_p c))) l ->
  total_degree (order ig) l -> 0 <= P ->
  solver_step RNum c heap ig x t u target = Ok (x', (dt, un)) ->
  (forall j, seen_in (Z.of_nat (order ig)) c i j -> in_shape (c_n c) j /\
    (forall x y z, in_cell c j x y z -> changes_little V dt (peval3 l) x y z) /\
    forall r, (0 <= r < rows u)%Z ->
      at_ u r j = cell_mean c (fun x y z => conserved (c_gamma c) (drifting V P s (peval3 l x y z)) r) j) ->
  rows un = rows u /\ shp un = c_n c /\
  forall r, (0 <= r < rows u)%Z ->
    at_ un r i = cell_mean c (fun x y z => conserved (c_gamma c) (drifting V P s (carried V dt (peval3 l) x y z)) r) i.
Proof. exact step_exact. Qed.
Print Assumptions C62_step_exact.

(** So does a whole run of n steps of fixed size. *)
Theorem C62_run_exact : forall (c : config RNum) xc heap ig as_averages exact downbeats log fuel u0 o n h l V P s i,
  tabulated c -> fillable xc c (rows u0) -> c_limit c = false -> c_fixed_dt c = Some h ->
  0 < c_csq_floor c -> 1 < c_gamma c -> (forall a, fst (c_bounds c a) < snd (c_bounds c a)) ->
  shp u0 = c_n c -> (5 <= rows u0)%Z ->
  degree3 (Z.to_nat (cx (c_p c))) (Z.to_nat (cy (c_p c))) (Z.to_nat (cz (c_p c))) l ->
  total_degree (order ig) l -> 0 <= P ->
  (forall j, seen_in (Z.of_nat n * Z.of_nat (order ig)) c i j -> in_shape (c_n c) j /\
    (forall k, (k < n)%nat -> forall x y z, in_cell c j x y z -> changes_little V h (carried V (INR k * h) (peval3 l)) x y z) /\
    forall r, (0 <= r < rows u0)%Z ->
      at_ u0 r j = cell_mean c (fun x y z => conserved (c_gamma c) (drifting V P s (peval3 l x y z)) r) j) ->
  simulate c heap ig as_averages None (Some (Z.of_nat n)) exact downbeats log fuel u0 = Ok o ->
  o_t o = INR n * h /\
  forall r, (0 <= r < rows u0)%Z ->
    at_ (o_u o) r i = cell_mean c (fun x y z => conserved (c_gamma c) (drifting V P s (carried V (o_t o) (peval3 l) x y z)) r) i.
Proof. exact run_exact. Qed.
Print Assumptions C62_run_exact.
Example C62_tube : forall xc heap, let c := tube140 in let i := mkix 70 0 0 in
  tabulated c /\ fillable xc c 5 /\ c_limit c = false /\ c_fixed_dt c = Some (1/1000) /\ 0 < c_csq_floor c /\ 1 < c_gamma c /\
  (forall a, fst (c_bounds c a) < snd (c_bounds c a)) /\
  degree3 (Z.to_nat (cx (c_p c))) (Z.to_nat (cy (c_p c))) (Z.to_nat (cz (c_p c))) cubic /\ total_degree (order I_rk4) cubic /\
  (forall j, seen_in (Z.of_nat 2 * Z.of_nat (order I_rk4)) c i j -> in_shape (c_n c) j /\
    forall k, (k < 2)%nat -> forall x y z, in_cell c j x y z -> changes_little rightward (1/1000) (carried rightward (INR k * (1/1000)) (peval3 cubic)) x y z) /\
  (exists o, simulate c heap I_rk4 false None (Some (Z.of_nat 2)) true [] false 0 cubic_gas = Ok o) /\
  exists x' un, solver_step RNum c heap I_rk4 (aux_init RNum c heap 5) 0 cubic_gas None = Ok (x', (1/1000, un)).
Proof. exact tube140_case. Qed.
