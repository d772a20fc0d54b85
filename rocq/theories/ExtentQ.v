(** Cases for the extent of the domain. *)
From Coq Require Import ZArith List Bool Lia Reals Lra.
From Verif Require Import Err Num NdArray FvM StencilsM BcM LimitM RiemannM OdeM SolverM Spec SpecSolver SpecSym SpecPos SpecExtent ExtentP.
From Verif Require OdeT.
Import ListNotations.
Local Open Scope Z_scope.

(** ** a pipe along x, and the same pipe elsewhere and with another cross section *)
Definition pipe : config RNum :=
  mkcfg (N := RNum) (mkix 64 1 1) (mkix 3 0 0) (fun _ => (0, 1)%R) (4/5)%R None (7/5)%R 0%R RS_hllc (uniform_bc B_periodic) true
    L_minmod false (mknad (N := RNum) (1/100)%R M_global R_relative None None true 0%R) false.
Definition pipe_away (a : axis) : R * R := match a with AX => (5, 6)%R | AY => (-1, 2)%R | AZ => (0, 1/64)%R end.
Lemma pipe_case : (forall a, ~ inactive pipe a -> extent (N := RNum) pipe_away a = extent (N := RNum) (c_bounds pipe) a) /\
  idle_long pipe pipe_away /\ idle_long pipe (c_bounds pipe).
Proof.
  split; [|split].
  - intros a A. destruct a; [cbn; ring| |]; exfalso; apply A; split; reflexivity.
  - intros a A. exists AX. split; [intros [X _]; discriminate X|]. destruct a; [destruct A as [X _]; discriminate X|cbn; lra|cbn; lra].
  - intros a A. exists AX. split; [intros [X _]; discriminate X|]. destruct a; [destruct A as [X _]; discriminate X|cbn; lra|cbn; lra].
Qed.

(** ** a flat pipe in binary64 *)
Definition fq (n d : Z) : car FNum := ndiv (nofZ n) (nofZ d).
Definition duct : config FNum :=
  mkcfg (N := FNum) (mkix 4 1 1) (mkix 0 0 0) (fun _ => (fq 0 1, fq 1 1)) (fq 1 2) None (fq 7 5) (fq 0 1) RS_llf (uniform_bc B_periodic) false
    L_minmod false (mknad (N := FNum) (fq 1 1) M_global R_relative None None true (fq 1 1)) false.
Definition flat_duct (a : axis) : car FNum * car FNum := match a with AY => (fq 0 1, fq 1 8) | _ => (fq 0 1, fq 1 1) end.
Definition step_ic (r : Z) (i : ix) : car FNum :=
  match r with 0 => if cx i <? 2 then fq 2 1 else fq 1 1 | 1 => if cx i <? 2 then fq 2 1 else fq 1 1 | 4 => fq 4 1 | _ => fq 0 1 end.
Notation duct_run := (simulate duct (fun _ _ _ => fq 0 1) I_euler true (Some (fq 1 32)) None true [] false 3 (mkarr 5 (mkix 4 1 1) step_ic)).
Notation flat_run := (simulate (replace_bounds duct flat_duct) (fun _ _ _ => fq 0 1) I_euler true (Some (fq 1 32)) None true [] false 3 (mkarr 5 (mkix 4 1 1) step_ic)).
Definition seen (o : run FNum) := (o_steps o, (o_t o, at_ (o_u o) 0 (mkix 0 0 0))).
Lemma duct_end : OdeT.looked seen duct_run = Some (1, (fq 1 32, SpecFloat.S754_finite false 8050184333924762 (-52))).
Proof. vm_compute. reflexivity. Qed.
Lemma flat_end : OdeT.looked seen flat_run = Some (2, (fq 1 32, SpecFloat.S754_finite false 8097435522378313 (-52))).
Proof. vm_compute. reflexivity. Qed.
Lemma thin_idle : exists (c : config FNum) b heap u T o o',
  (forall a, ~ inactive c a -> b a = c_bounds c a) /\ gas_test (N := FNum) u = true /\ shp u = c_n c /\
  simulate c heap I_euler true (Some T) None true [] false 3 u = Ok o /\
  simulate (replace_bounds c b) heap I_euler true (Some T) None true [] false 3 u = Ok o' /\
  o_t o = T /\ o_t o' = T /\ o_steps o = 1 /\ o_steps o' = 2 /\ at_ (o_u o) 0 (mkix 0 0 0) <> at_ (o_u o') 0 (mkix 0 0 0).
Proof.
  destruct (OdeT.looked_ok _ _ _ duct_end) as (o & E & V). destruct (OdeT.looked_ok _ _ _ flat_end) as (o' & E' & V').
  injection V as V1 V2 V3. injection V' as V1' V2' V3'.
  exists duct, flat_duct, (fun _ _ _ => fq 0 1), (mkarr 5 (mkix 4 1 1) step_ic), (fq 1 32), o, o'.
  split. { intros a A. destruct a; [reflexivity| |]; exfalso; apply A; split; reflexivity. }
  split; [vm_compute; reflexivity|]. split; [reflexivity|]. split; [exact E|]. split; [exact E'|].
  split; [exact V2|]. split; [exact V2'|]. split; [exact V1|]. split; [exact V1'|]. intros X. assert (Y := eq_trans (eq_sym V3) (eq_trans X V3')). discriminate Y.
Qed.
