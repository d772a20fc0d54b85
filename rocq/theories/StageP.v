(** Boundary values that depend on time. *)
From Coq Require Import ZArith List Bool Lia Reals Lra.
From Coquelicot Require Import Coquelicot.
From Verif Require Import Err Num PySlice NdArray NdArrayP HydroM HydroP StencilsM FvM FvP RiemannM RiemannP
  BcM LimitM OdeM SolverM Spec SpecBc SpecSolver SpecCons SpecPoly PolyP StencilP SpecScheme SchemeP ExistP RunP RkP SpecOde OdeP OdeT ConsP SpecExact ExactP ExactQ SpecStage.
From Verif Require PosP.
Import ListNotations.
Local Open Scope R_scope.

Lemma stepper_same {N : Num} {U S} (V : vops N U) (f f' : S -> car N -> car N -> U -> res (S * (car N * U))) ig s t u target :
  (forall s t' u, f s t t' u = f' s t t' u) -> stepper_of N V f ig s t u target = stepper_of N V f' ig s t u target.
Proof.
  intro F. destruct ig; cbn [stepper_of]; [unfold euler|unfold ssprk2|unfold ssprk3|unfold rk4];
  repeat first
    [ reflexivity
    | rewrite F; match goal with |- context [bind (f' ?a ?b ?c ?d) _] => destruct (f' a b c d) as [[? [? ?]]|] end; cbn [bind]
    | match goal with |- bind (vadd V ?a ?b) _ = _ => destruct (vadd V a b) end; cbn [bind] ].
Qed.
(** ** all stages see the boundary of the start of the step *)
Section Frozen.
Context {N : Num} (c : config N) (heap : Z -> Z -> ix -> car N) (t : car N).
Local Notation fc := (frozen t c).
Lemma frozen_slab gw a pos out : apply_slab N (c_bc fc) gw t a pos out = apply_slab N (c_bc c) gw t a pos out.
Proof.
  unfold apply_slab. cbn [c_bc frozen bc_type bc_val bc_cupy]. destruct (getc a gw =? 0)%Z; [reflexivity|].
  destruct (bc_type (c_bc c) a pos); try reflexivity;
  (change (trim_slabs N (c_bc fc) gw a pos) with (trim_slabs N (c_bc c) gw a pos) || idtac);
  match goal with |- bind ?x _ = bind ?y _ => change x with y; destruct y as [[[X Y] Z]|]; [|reflexivity] end;
  cbn [bind]; unfold frozen_value; destruct (bc_val (c_bc c) a pos); reflexivity.
Qed.
Lemma frozen_apply junk u gw : apply N (c_bc fc) junk u gw t = apply N (c_bc c) junk u gw t.
Proof.
  unfold apply. destruct (pad_empty junk gw u) as [o|]; [|reflexivity]. cbn [bind].
  generalize (Ok o). generalize slab_order. induction l as [|[a p] l IH]; intro r; [reflexivity|].
  cbn [fold_left]. rewrite IH. f_equal. destruct r as [x|]; [|reflexivity]. cbn [bind fst snd]. apply frozen_slab.
Qed.
Lemma frozen_prims junk u p gw av : interpolate_primitives N fc junk t u p gw av = interpolate_primitives N c junk t u p gw av.
Proof. unfold interpolate_primitives. rewrite frozen_apply. reflexivity. Qed.
Lemma frozen_fluxes junk stale u p l : hydrofluxes N fc junk t stale u p l = hydrofluxes N c junk t stale u p l.
Proof. unfold hydrofluxes. rewrite frozen_prims. reflexivity. Qed.
Lemma frozen_detect junk u F dt : detect N fc junk t u F dt = detect N c junk t u F dt.
Proof.
  unfold detect, candidate_primitives. change (euler_equation N fc F) with (euler_equation N c F).
  destruct (euler_equation N c F) as [d|]; [|reflexivity]. cbn [bind]. destruct (amap2 _ u d) as [us|]; [|reflexivity]. cbn [bind].
  rewrite frozen_prims. destruct (interpolate_primitives N c _ t u _ _ _); [|reflexivity]. cbn [bind].
  change (c_p fc) with (c_p c). rewrite frozen_prims. reflexivity.
Qed.
Lemma frozen_revise junk x u dt : revise_fluxes N fc junk t x u dt = revise_fluxes N c junk t x u dt.
Proof.
  unfold revise_fluxes. rewrite frozen_detect. destruct (detect N c junk t u (x_flux x) dt) as [det|]; [|reflexivity]. cbn [bind].
  destruct (log_troubles N x _ _ _) as [x1|]; [|reflexivity]. cbn [bind]. destruct (any_trouble (d_trouble det)); [|reflexivity].
  change (fallback_p N fc) with (fallback_p N c). change (c_limiter fc) with (c_limiter c). rewrite frozen_fluxes. reflexivity.
Qed.
Lemma frozen_f x t' u : solver_f N fc heap x t t' u = solver_f N c heap x t t' u.
Proof.
  unfold solver_f, hydrodynamics. change (c_p fc) with (c_p c). rewrite frozen_fluxes.
  match goal with |- bind ?x _ = bind ?x _ => destruct x as [[dt F]|]; cbn [bind]; [|reflexivity] end.
  do 3 match goal with |- bind ?x _ = bind ?x _ => destruct x; cbn [bind]; [|reflexivity] end.
  change (c_limit fc) with (c_limit c). destruct (c_limit c); [|reflexivity]. rewrite frozen_revise. reflexivity.
Qed.
Theorem frozen_step ig x u target : solver_step N c heap ig x t u target = solver_step N fc heap ig x t u target.
Proof. apply stepper_same. intros. symmetry. apply frozen_f. Qed.
End Frozen.
