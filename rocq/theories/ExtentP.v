(** The place and the extent of the domain. *)
From Coq Require Import ZArith List Bool Lia Reals Lra FunctionalExtensionality.
From Verif Require Import Err Num NdArray HydroM StencilsM FvM RiemannM BcM LimitM OdeM SolverM Spec SpecSolver SpecSym SpecExtent SpecScheme.
From Verif Require SchemeP.
Import ListNotations.
Local Open Scope Z_scope.

Section Extent.
Variable N : Num.
Notation K := (car N).
Variable c : config N.
Variable b' : axis -> K * K.
Notation c' := (replace_bounds c b').
Hypothesis Same : forall a, ~ inactive c a -> spacing N c' a = spacing N c a.
Hypothesis Dt : c_fixed_dt c = None -> min_h N c' = min_h N c.

Lemma idle_b a : active N c a = false <-> inactive c a.
Proof. unfold active, inactive. rewrite negb_false_iff, andb_true_iff, !Z.eqb_eq. tauto. Qed.
Lemma fluxes_same junk t stale u p l : hydrofluxes N c' junk t stale u p l = hydrofluxes N c junk t stale u p l.
Proof.
  unfold hydrofluxes. change (c_fixed_dt c') with (c_fixed_dt c).
  destruct (limit_slopes l p) as [lim|e]; [|reflexivity]. cbn [bind].
  change (interpolate_primitives N c') with (interpolate_primitives N c). change (active_width N c') with (active_width N c).
  destruct (interpolate_primitives N c _ _ _ _ _ _) as [w|e]; [|reflexivity]. cbn [bind].
  destruct (c_fixed_dt c) eqn:E; [reflexivity|]. rewrite Dt by reflexivity. reflexivity.
Qed.
Lemma balance_same F : euler_equation N c' F = euler_equation N c F.
Proof.
  unfold euler_equation. change (dims N c') with (dims N c).
  assert (A : forall l acc, (forall d, In d l -> active N c d = true) ->
    fold_left (fun acc d => do dudt <- acc; do x <- amap2 (fun x y => nmul (nopp (ndiv (nofZ 1) (spacing N c' d))) (nsub x y)) (view d s_tail (F d)) (view d s_init (F d)); amap2 nadd dudt x) l acc =
    fold_left (fun acc d => do dudt <- acc; do x <- amap2 (fun x y => nmul (nopp (ndiv (nofZ 1) (spacing N c d))) (nsub x y)) (view d s_tail (F d)) (view d s_init (F d)); amap2 nadd dudt x) l acc).
  { induction l as [|d l IH]; intros acc H; [reflexivity|]. cbn [fold_left].
    rewrite (Same d) by (rewrite <- idle_b, (H d (or_introl eq_refl)); discriminate). apply IH. intros x Hx. apply H. right. exact Hx. }
  apply A. intros d H. apply filter_In in H. apply H.
Qed.
Lemma revise_same junk t x u dt : revise_fluxes N c' junk t x u dt = revise_fluxes N c junk t x u dt.
Proof.
  unfold revise_fluxes, detect, candidate_primitives. rewrite balance_same.
  change (interpolate_primitives N c') with (interpolate_primitives N c). change (active_width N c') with (active_width N c).
  change (c_p c') with (c_p c). change (dims N c') with (dims N c). change (c_nad c') with (c_nad c). change (c_force c') with (c_force c).
  change (c_convex c') with (c_convex c). change (fallback_p N c') with (fallback_p N c). change (c_limiter c') with (c_limiter c).
  change (is_periodic N c') with (is_periodic N c).
  assert (E : hydrofluxes N c' = hydrofluxes N c).
  { extensionality a1. extensionality a2. extensionality a3. extensionality a4. extensionality a5. extensionality a6. apply fluxes_same. }
  rewrite E. reflexivity.
Qed.
Lemma rhs_same heap : solver_f N c' heap = solver_f N c heap.
Proof.
  extensionality x. extensionality t. extensionality t2. extensionality u. unfold solver_f, hydrodynamics.
  change (c_p c') with (c_p c). change (c_limit c') with (c_limit c). rewrite fluxes_same.
  destruct (hydrofluxes N c _ t _ u (c_p c) L_none) as [[dt F]|e]; [|reflexivity]. cbn [bind].
  destruct (assign_all (x_flux x AX) (F AX)) as [nF|e]; [|reflexivity]. cbn [bind].
  destruct (assign_all (x_flux x AY) (F AY)) as [nG|e]; [|reflexivity]. cbn [bind].
  destruct (assign_all (x_flux x AZ) (F AZ)) as [nH|e]; [|reflexivity]. cbn [bind].
  rewrite revise_same. destruct (if c_limit c then _ else _) as [x2|e]; [|reflexivity]. cbn [bind]. rewrite balance_same. reflexivity.
Qed.
Theorem same_spacing heap i as_averages T n exact downbeats log fuel u :
  simulate c' heap i as_averages T n exact downbeats log fuel u = simulate c heap i as_averages T n exact downbeats log fuel u.
Proof. unfold simulate, solver_integrate, solver_step. rewrite rhs_same. reflexivity. Qed.
End Extent.

Lemma extent_spacing N (c : config N) b a : extent b a = extent (c_bounds c) a -> spacing N (replace_bounds c b) a = spacing N c a.
Proof. unfold extent, spacing. cbn [c_bounds c_n replace_bounds]. intros ->. reflexivity. Qed.
Theorem place N (c : config N) b : (forall a, extent b a = extent (c_bounds c) a) ->
  forall heap i as_averages T n exact downbeats log fuel u,
  simulate (replace_bounds c b) heap i as_averages T n exact downbeats log fuel u = simulate c heap i as_averages T n exact downbeats log fuel u.
Proof.
  intros H. apply same_spacing; [intros a _; apply extent_spacing, H|]. intros _. unfold min_h. rewrite !(extent_spacing N c b) by apply H. reflexivity.
Qed.
Theorem idle_fixed N (c : config N) b : c_fixed_dt c <> None -> (forall a, ~ inactive c a -> extent b a = extent (c_bounds c) a) ->
  forall heap i as_averages T n exact downbeats log fuel u,
  simulate (replace_bounds c b) heap i as_averages T n exact downbeats log fuel u = simulate c heap i as_averages T n exact downbeats log fuel u.
Proof. intros F H. apply same_spacing; [intros a Ha; apply extent_spacing, H, Ha|]. intros E. congruence. Qed.

(** the smallest spacing *)
Local Open Scope R_scope.
Lemma min_h_is (c : config RNum) : (forall a, min_h RNum c <= spacing RNum c a) /\ exists a, min_h RNum c = spacing RNum c a.
Proof.
  rewrite SchemeP.min_h_is. change (spacing RNum c) with (width c).
  unfold Rmin; repeat destruct (Rle_dec _ _); (split; [intros []; lra|eexists; reflexivity]).
Qed.
Theorem idle_long_same (c : config RNum) b : (forall a, ~ inactive c a -> extent (N := RNum) b a = extent (N := RNum) (c_bounds c) a) ->
  idle_long c b -> idle_long c (c_bounds c) ->
  forall heap i as_averages T n exact downbeats log fuel u,
  simulate (replace_bounds c b) heap i as_averages T n exact downbeats log fuel u = simulate c heap i as_averages T n exact downbeats log fuel u.
Proof.
  intros H L L'. assert (S : forall a, ~ inactive c a -> spacing RNum (replace_bounds c b) a = spacing RNum c a) by (intros a Ha; apply (extent_spacing RNum c b a), H, Ha).
  apply (same_spacing RNum c b S). intros _.
  assert (M : forall b1, idle_long c b1 -> exists a, ~ inactive c a /\ min_h RNum (replace_bounds c b1) = spacing RNum (replace_bounds c b1) a).
  { intros b1 I. destruct (min_h_is (replace_bounds c b1)) as (Le & a & E).
    destruct (active RNum c a) eqn:A. { exists a. split; [rewrite <- (idle_b RNum c a), A; discriminate|exact E]. }
    apply idle_b in A. destruct (I a A) as (a' & A' & W). exists a'. split; [exact A'|]. apply Rle_antisym; [apply Le|].
    rewrite E. destruct A as [A _]. change (spacing RNum (replace_bounds c b1) a) with (extent (N := RNum) b1 a / IZR (getc a (c_n c)))%R. rewrite A.
    change (spacing RNum (replace_bounds c b1) a') with (extent (N := RNum) b1 a' / IZR (getc a' (c_n c)))%R. lra. }
  destruct (M b L) as (a & A & E). assert (E0 : replace_bounds c (c_bounds c) = c) by (destruct c; reflexivity).
  destruct (M _ L') as (a' & A' & E'). rewrite E0 in E'.
  destruct (min_h_is c) as (Le & _). destruct (min_h_is (replace_bounds c b)) as (Le' & _).
  pose proof (Le a) as Q1. pose proof (Le' a') as Q2. rewrite (S a A) in E. rewrite (S a' A') in Q2. change (car RNum) with R in *. lra.
Qed.
