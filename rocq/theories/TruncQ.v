(** A run cut short at its end time: the detector looks at a longer step. *)
From Coq Require Import ZArith List Bool.
From Verif Require Import Err Num NdArray HydroM FvM RiemannM StencilsM BcM LimitM OdeM SolverM Spec SpecBc SpecLim SpecSolver SpecPos SpecQuiet NdArrayP.
From Verif Require OdeT.
Import ListNotations.
Local Open Scope Z_scope.

(** five cells and a detector that asks for a positive density only *)
Definition strict : config FNum :=
  mkcfg (N := FNum) (mkix 5 1 1) (mkix 1 0 0) (fun _ => (fof 0, fof 1)) (ndiv (nofZ 4) (nofZ 5)) None (ndiv (nofZ 7) (nofZ 5)) (fof 0) RS_llf
    (uniform_bc B_outflow) true L_minmod false (mknad (N := FNum) (fof 1) M_local R_relative (Some []) (Some [(0, (Some (fof 0), None))]) false (fof 1)) false.
Definition spread (v : Z) (i : ix) : f64 :=
  if v =? 0 then fof 1 else if v =? 1 then nth (Z.to_nat (cx i)) (map fof [-50; -100; 0; 100; 50]) (fof 0)
  else if v =? 4 then nth (Z.to_nat (cx i)) (map fof [1252; 5002; 2; 5002; 1252]) (fof 0) else fof 0.
Definition early : f64 := ndiv (n := FNum) (nofZ 1) (nofZ 2048).
Definition dense_b (u : arr f64) : bool := forallb (fun i => nltb (n := FNum) (fof 0) (at_ u 0 i)) (ix_list (shp u)).
Definition seen_limited (o : run FNum) := (o_steps o, nltb (n := FNum) (fof 0) (at_ (x_trouble (o_aux o)) 0 (mkix 2 0 0)), at_ (o_u o) 0 (mkix 2 0 0), o_t o).
Definition seen_unlimited (o : run FNum) := (dense_b (o_u o), shp (o_u o), o_steps o, at_ (o_u o) 0 (mkix 2 0 0), o_t o).
Notation cut_run c := (simulate c (fun _ _ _ => fof 0) I_euler true (Some early) None true [] false 2 (mkarr 5 (mkix 5 1 1) spread)).
Lemma cut_limited : OdeT.looked seen_limited (cut_run strict) = Some (1, true, SpecFloat.S754_finite false 5708664371412992 (-53), early).
Proof. vm_compute. reflexivity. Qed.
Lemma cut_unlimited : OdeT.looked seen_unlimited (cut_run (unlimited strict)) = Some (true, mkix 5 1 1, 1, SpecFloat.S754_finite false 5983542278356992 (-53), early).
Proof. vm_compute. reflexivity. Qed.
Lemma spread_gas : gas_test (N := FNum) (mkarr 5 (mkix 5 1 1) spread) = true.
Proof. vm_compute. reflexivity. Qed.
Lemma too_careful : exists (c : config FNum) heap u0 T o o',
  c_limit c = true /\ c_force c = false /\ nad_vars (c_nad c) = Some [] /\ pad_bounds (c_nad c) = Some [(0, (Some (nofZ 0), None))] /\
  c_limiter c = L_minmod /\ c_rs c = RS_llf /\ c_CFL c = ndiv (nofZ 4) (nofZ 5) /\ inactive c AY /\ inactive c AZ /\ shp u0 = c_n c /\ gas_test (N := FNum) u0 = true /\
  simulate c heap I_euler true (Some T) None true [] false 2 u0 = Ok o /\ o_t o = T /\ o_steps o = 1 /\
  simulate (unlimited c) heap I_euler true (Some T) None true [] false 2 u0 = Ok o' /\ o_t o' = T /\ o_steps o' = 1 /\
  (forall i, in_shape (c_n c) i -> nltb (nofZ 0) (at_ (o_u o') 0 i) = true) /\
  nltb (nofZ 0) (at_ (x_trouble (o_aux o)) 0 (mkix 2 0 0)) = true /\
  at_ (o_u o) 0 (mkix 2 0 0) <> at_ (o_u o') 0 (mkix 2 0 0).
Proof.
  destruct (OdeT.looked_ok _ _ _ cut_limited) as (o & E & V). unfold seen_limited in V. injection V as V1 V2 V3 V4.
  destruct (OdeT.looked_ok _ _ _ cut_unlimited) as (o' & E' & V'). unfold seen_unlimited in V'. injection V' as W1 W2 W3 W4 W5.
  exists strict, (fun _ _ _ => fof 0), (mkarr 5 (mkix 5 1 1) spread), early, o, o'.
  do 7 (split; [reflexivity|]). split; [split; reflexivity|]. split; [split; reflexivity|]. split; [reflexivity|]. split; [exact spread_gas|].
  split; [exact E|]. split; [exact V4|]. split; [exact V1|]. split; [exact E'|]. split; [exact W5|]. split; [exact W3|].
  split. { intros i Hi. unfold dense_b in W1. rewrite forallb_forall in W1. apply (W1 i). apply in_ix_list. exact (eq_ind_r (fun s => in_shape s i) Hi W2). }
  split; [exact V2|]. intro Q. assert (X : SpecFloat.S754_finite false 5708664371412992 (-53) = SpecFloat.S754_finite false 5983542278356992 (-53)).
  { exact (eq_trans (eq_sym V3) (eq_trans Q W4)). } discriminate X.
Qed.
