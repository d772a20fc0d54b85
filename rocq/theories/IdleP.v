(** Boundary conditions of axes without ghost cells. *)
From Coq Require Import ZArith List Bool Lia FunctionalExtensionality.
From Verif Require Import Err Num NdArray HydroM StencilsM FvM RiemannM BcM LimitM OdeM SolverM Spec SpecSolver SpecSym SpecIdle.
Import ListNotations.
Local Open Scope Z_scope.

Section Idle.
Variable N : Num.
Notation K := (car N).
Variable c : config N.
Variable b' : bcond N.
Hypothesis Same : same_where_active c b'.
Notation c' := (replace_bc c b').

Lemma idle_b a : active N c a = false <-> inactive c a.
Proof. unfold active, inactive. rewrite negb_false_iff, andb_true_iff, !Z.eqb_eq. tauto. Qed.
Lemma slab_same gw t a pos out : (inactive c a -> getc a gw = 0) -> apply_slab N b' gw t a pos out = apply_slab N (c_bc c) gw t a pos out.
Proof.
  intros Z0. unfold apply_slab. destruct (active N c a) eqn:E.
  - assert (A : ~ inactive c a) by (rewrite <- idle_b; congruence).
    destruct (Same a A pos) as [T V]. rewrite T. destruct (getc a gw =? 0); [reflexivity|].
    unfold prescribed in V. unfold trim_slabs.
    destruct (bc_type (c_bc c) a pos); try reflexivity; (destruct V as (V1 & V2 & V3); [tauto|]); rewrite ?V1, ?V2, ?V3; reflexivity.
  - apply idle_b in E. rewrite (Z0 E). reflexivity.
Qed.
Lemma apply_same junk u gw t : (forall a, inactive c a -> getc a gw = 0) -> apply N b' junk u gw t = apply N (c_bc c) junk u gw t.
Proof.
  intros Z0. unfold apply. destruct (pad_empty junk gw u) as [out|e]; [|reflexivity]. cbn [bind].
  unfold slab_order. cbn [fold_left fst snd].
  assert (F : forall a pos (r : res (arr K)), bind r (fun o => apply_slab N b' gw t a pos o) = bind r (fun o => apply_slab N (c_bc c) gw t a pos o)).
  { intros a pos [o|e]; [|reflexivity]. cbn [bind]. apply slab_same, Z0. }
  rewrite !F. reflexivity.
Qed.
Lemma prims_same junk t u p gw fv : (forall a, inactive c a -> getc a gw = 0 /\ getc a p = 0) ->
  interpolate_primitives N c' junk t u p gw fv = interpolate_primitives N c junk t u p gw fv.
Proof.
  intros Z0. unfold interpolate_primitives.
  change (c_bc c') with b'. rewrite apply_same; [reflexivity|].
  intros a Ha. destruct (Z0 a Ha) as [A B]. destruct a; cbn in *; rewrite A, B; unfold interp_cost; destruct fv; reflexivity.
Qed.
Lemma width_idle g a : inactive c a -> getc a (active_width N c g) = 0.
Proof. intros H. apply idle_b in H. destruct a; cbn; rewrite H; reflexivity. Qed.
Lemma fluxes_same junk t stale u p l : (forall a, inactive c a -> getc a p = 0) ->
  hydrofluxes N c' junk t stale u p l = hydrofluxes N c junk t stale u p l.
Proof.
  intros Z0. unfold hydrofluxes. change (active_width N c' (ghost_width p)) with (active_width N c (ghost_width p)).
  rewrite prims_same; [reflexivity|]. intros a Ha. split; [apply width_idle, Ha|apply Z0, Ha].
Qed.
Lemma degrees_idle a : inactive c a -> getc a (c_p c) = 0. Proof. intros H. apply H. Qed.
Lemma fallback_idle a : inactive c a -> getc a (fallback_p N c) = 0.
Proof. intros H. apply degrees_idle in H. destruct a; cbn in *; rewrite H; reflexivity. Qed.
Lemma candidates_same junk t u F dt : candidate_primitives N c' junk t u F dt = candidate_primitives N c junk t u F dt.
Proof.
  unfold candidate_primitives. change (euler_equation N c' F) with (euler_equation N c F).
  change (active_width N c' 3) with (active_width N c 3). change (c_p c') with (c_p c).
  destruct (euler_equation N c F) as [d|e]; [|reflexivity]. cbn [bind].
  destruct (amap2 _ u d) as [us|e]; [|reflexivity]. cbn [bind].
  rewrite !prims_same by (intros a Ha; split; [apply width_idle, Ha|apply degrees_idle, Ha]). reflexivity.
Qed.
Lemma periodic_same a : active N c a = true -> is_periodic N c' a = is_periodic N c a.
Proof.
  intros E. assert (A : ~ inactive c a) by (rewrite <- idle_b; congruence).
  unfold is_periodic. change (c_bc c') with b'. rewrite (proj1 (Same a A SL)), (proj1 (Same a A SR)). reflexivity.
Qed.
Lemma periodic_and a : is_periodic N c' a && mem_axis a (dims N c) = is_periodic N c a && mem_axis a (dims N c).
Proof.
  destruct (active N c a) eqn:E; [rewrite periodic_same by exact E; reflexivity|].
  assert (M : mem_axis a (dims N c) = false).
  { unfold dims, mem_axis, axes. apply not_true_is_false. intros M. apply existsb_exists in M. destruct M as (y & I & Q).
    apply filter_In in I. destruct I as [_ I]. destruct a, y; try discriminate; congruence. }
  rewrite M, !andb_false_r. reflexivity.
Qed.
Lemma broadcast_same tr cx :
  broadcast_to_troubled_interfaces N tr (dims N c) cx (is_periodic N c') = broadcast_to_troubled_interfaces N tr (dims N c) cx (is_periodic N c).
Proof.
  unfold broadcast_to_troubled_interfaces. destruct cx; [|reflexivity]. unfold alloc_trouble. rewrite !periodic_and. reflexivity.
Qed.
Lemma revise_same junk t x u dt : revise_fluxes N c' junk t x u dt = revise_fluxes N c junk t x u dt.
Proof.
  unfold revise_fluxes, detect. rewrite candidates_same.
  change (dims N c') with (dims N c). change (c_nad c') with (c_nad c). change (c_force c') with (c_force c). change (c_convex c') with (c_convex c).
  change (fallback_p N c') with (fallback_p N c). change (c_limiter c') with (c_limiter c).
  destruct (candidate_primitives N c junk t u (x_flux x) dt) as [ww|e]; [|reflexivity]. cbn [bind].
  destruct (detect_troubled_cells N (c_nad c) (dims N c) _ _) as [det|e]; [|reflexivity]. cbn [bind].
  rewrite fluxes_same by apply fallback_idle. rewrite broadcast_same. reflexivity.
Qed.
Lemma rhs_same heap : solver_f N c' heap = solver_f N c heap.
Proof.
  extensionality x. extensionality t. extensionality t2. extensionality u. unfold solver_f, hydrodynamics.
  change (c_p c') with (c_p c). rewrite fluxes_same by apply degrees_idle.
  destruct (hydrofluxes N c _ t _ u (c_p c) L_none) as [[dt F]|e]; [|reflexivity]. cbn [bind].
  destruct (assign_all (x_flux x AX) (F AX)) as [nF|e]; [|reflexivity]. cbn [bind].
  destruct (assign_all (x_flux x AY) (F AY)) as [nG|e]; [|reflexivity]. cbn [bind].
  destruct (assign_all (x_flux x AZ) (F AZ)) as [nH|e]; [|reflexivity]. cbn [bind].
  rewrite revise_same. reflexivity.
Qed.
Lemma payload_same heap av : snap_payload N c' heap av = snap_payload N c heap av.
Proof.
  extensionality x. extensionality t. extensionality u. unfold snap_payload. change (c_p c') with (c_p c).
  rewrite prims_same; [reflexivity|]. intros a Ha. split; [destruct a; reflexivity|apply degrees_idle, Ha].
Qed.
Theorem idle_ends heap i as_averages T n exact downbeats log fuel u :
  simulate c' heap i as_averages T n exact downbeats log fuel u = simulate c heap i as_averages T n exact downbeats log fuel u.
Proof. unfold simulate, solver_integrate, solver_step. rewrite rhs_same, payload_same. reflexivity. Qed.
End Idle.
