(** Property C68: boundary values that depend on time, and the stages of a time step. *)
From Coq Require Import ZArith QArith.QArith_base List Reals.
From Verif Require Import Err Num NdArray HydroM RiemannM StencilsM FvM BcM LimitM OdeM SolverM
  Spec SpecBc SpecSolver SpecCons SpecPoly SpecScheme SpecOde SpecExact SpecStage StageP StageQ StageT.
Import ListNotations.
Open Scope R_scope.

(** C68: every stage of a time step sees the boundary values of the time at which the step
    starts. *)
Theorem C68_stages_see_the_start : forall (N : Num) (c : config N) heap t ig x u target,
  solver_step N c heap ig x t u target = solver_step N (frozen t c) heap ig x t u target.
Proof. intros. apply frozen_step. Qed.
Print Assumptions C68_stages_see_the_start.
(** the frozen configuration is another one *)
Example C68_thawed : forall pos, exists q q',
  bc_val (c_bc ramp_duct) AX pos = V_func q /\ bc_val (c_bc (frozen (N := QNum) 0%Q ramp_duct)) AX pos = V_func q' /\
  q (Some 1%Q) 0%Q 0%Q 0%Q 0%Z <> q' (Some 1%Q) 0%Q 0%Q 0%Q 0%Z.
Proof. intro pos. do 2 eexists. split; [reflexivity|]. split; [reflexivity|]. discriminate. Qed.

(** If the sides prescribe the exact means of a gas of uniform velocity and pressure carrying a
    polynomial density, and the cells hold the exact means at the time of the evaluation, the
    right-hand side is exact in every cell, those at the boundary included. *)
Theorem C68_moving_boundary_rhs : forall (c : config RNum) heap x t t' u x' dt dudt l V P s i,
  tabulated c -> fillable (N := RNum) (middle_of c) c (rows u) -> c_limit c = false ->
  0 < c_csq_floor c -> 1 < c_gamma c -> (forall a, fst (c_bounds c a) < snd (c_bounds c a)) ->
  shp u = c_n c -> (5 <= rows u)%Z -> interface_arrays (c_n c) (rows u) (x_flux x) ->
  degree3 (Z.to_nat (cx (c_p c))) (Z.to_nat (cy (c_p c))) (Z.to_nat (cz (c_p c))) l -> 0 <= P ->
  exact_sides c V P s (peval3 l) -> exact_means c V P s (peval3 l) t u ->
  (forall j x y z, neighbourhood c j -> in_cell c j x y z -> 0 < carried V t (peval3 l) x y z) ->
  solver_f RNum c heap x t t' u = Ok (x', (dt, dudt)) ->
  in_shape (c_n c) i -> forall r, (0 <= r < rows u)%Z ->
    at_ dudt r i = - cell_mean c (divergence (fun a x y z => euler_flux (c_gamma c) a (drifting V P s (carried V t (peval3 l) x y z)) r)) i.
Proof. exact boundary_rhs. Qed.
Print Assumptions C68_moving_boundary_rhs.

(** With forward Euler and a density of total degree at most 1 a whole run is then exact in
    every cell, whatever ends it. *)
Theorem C68_moving_boundary_run : forall (c : config RNum) heap as_averages T n exact downbeats log fuel u0 o l V P s,
  tabulated c -> fillable (N := RNum) (middle_of c) c (rows u0) -> c_limit c = false -> steps_forward c ->
  0 < c_csq_floor c -> 1 < c_gamma c -> (forall a, fst (c_bounds c a) < snd (c_bounds c a)) ->
  shp u0 = c_n c -> (5 <= rows u0)%Z -> List.Forall (fun x => 0 <= x) downbeats ->
  degree3 (Z.to_nat (cx (c_p c))) (Z.to_nat (cy (c_p c))) (Z.to_nat (cz (c_p c))) l -> total_degree 1 l -> 0 <= P ->
  exact_sides c V P s (peval3 l) -> exact_means c V P s (peval3 l) 0 u0 ->
  simulate c heap I_euler as_averages T n exact downbeats log fuel u0 = Ok o ->
  (forall t j x y z, 0 <= t <= o_t o -> neighbourhood c j -> in_cell c j x y z -> 0 < carried V t (peval3 l) x y z) ->
  exact_means c V P s (peval3 l) (o_t o) (o_u o).
Proof. exact boundary_run. Qed.
Print Assumptions C68_moving_boundary_run.
Example C68_channel : forall heap, let c := channel in let s := fun _ : Z => 0 in
  tabulated c /\ fillable (N := RNum) (middle_of c) c 5 /\ c_limit c = false /\ steps_forward c /\ 0 < c_csq_floor c /\ 1 < c_gamma c /\
  (forall a, fst (c_bounds c a) < snd (c_bounds c a)) /\
  degree3 (Z.to_nat (cx (c_p c))) (Z.to_nat (cy (c_p c))) (Z.to_nat (cz (c_p c))) fall /\ total_degree 1 fall /\
  exact_sides c drift 1 s (peval3 fall) /\ exact_means c drift 1 s (peval3 fall) 0 channel_gas /\
  (forall t j x y z, 0 <= t -> neighbourhood c j -> in_cell c j x y z -> 0 < carried drift t (peval3 fall) x y z) /\
  (exists o, simulate c heap I_euler false None (Some (Z.of_nat 2)) true [] false 0 channel_gas = Ok o) /\
  exists y, solver_f RNum c heap (aux_init RNum c heap 5) 0 0 channel_gas = Ok y.
Proof. exact channel_case. Qed.

(** With the two-stage method it is not: the second stage should see the boundary a step later. *)
Theorem C68_two_stages_refuted : exists (c : config QNum) heap u0 o o', tabulated c /\ c_limit c = false /\ shp u0 = c_n c /\
  (forall a, inactive_b c a = negb (axis_eqb a AX)) /\
  (forall a, c_bounds c a = (0%Q, 2%Q)) /\ c_fixed_dt c = Some (Qmake 1 4) /\
  (forall pos, bc_type (c_bc c) AX pos = B_dirichlet /\ exists q, bc_val (c_bc c) AX pos = V_func q /\
    forall t x y z v, q (Some t) x y z v = falling_ramp t x v) /\
  (forall v i, at_ u0 v i = falling_ramp 0%Q (inject_Z (cx i) + Qmake 1 2)%Q v) /\
  simulate c heap I_euler true None (Some 1%Z) true [] false 0 u0 = Ok o /\
  simulate c heap I_ssprk2 true None (Some 1%Z) true [] false 0 u0 = Ok o' /\
  forall k, (0 <= k < 2)%Z ->
    Qeq (at_ (o_u o) 0 (mkix k 0 0)) (falling_ramp (Qmake 1 4) (inject_Z k + Qmake 1 2)%Q 0) /\
    ~ Qeq (at_ (o_u o') 0 (mkix k 0 0)) (falling_ramp (Qmake 1 4) (inject_Z k + Qmake 1 2)%Q 0).
Proof. exact stages_miss_boundary. Qed.
Print Assumptions C68_two_stages_refuted.
