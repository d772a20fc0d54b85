(** Cases for positive densities in limited runs. *)
From Coq Require Import ZArith List Bool Lia Reals Lra FunctionalExtensionality.
From Verif Require Import Err Num NdArray HydroM RiemannM StencilsM FvM BcM LimitM OdeM SolverM Spec SpecBc SpecSolver SpecCons SpecScheme SpecSym SpecPos SpecDrift SpecDense
  NdArrayP SchemeP SymLimP LimExistP DriftP DenseP UniformP.
From Verif Require OdeT BroadP.
Import ListNotations.
Local Open Scope Z_scope.

(** ** a test for slow signals *)
Definition slow_test (c : config RNum) (S : axis -> R) (u : arr R) : bool :=
  forallb (fun d => inactive_b c d || forallb (fun j => forallb (fun m => forallb (fun e =>
    let w := face_prim c u d e (up d (- m) j) in
    if Rle_dec (Rabs (vel d w) + sound (c_gamma c) (c_csq_floor c) w) (S d) then true else false) [1%R; (-1)%R]) [-1; 0; 1]) (ix_list (c_n c))) [AX; AY; AZ].
Lemma slow_test_is c S u : slow_test c S u = true <-> slow c S u.
Proof.
  unfold slow_test, slow. rewrite forallb_forall. split.
  - intros H d i m e A M I E. cbv zeta. specialize (H d ltac:(destruct d; cbn; tauto)). apply orb_prop in H. destruct H as [H|H].
    + exfalso. apply A. unfold inactive_b in H. apply andb_prop in H. rewrite !Z.eqb_eq in H. exact H.
    + rewrite forallb_forall in H. specialize (H _ (proj2 (in_ix_list _ _) I)). rewrite forallb_forall in H.
      assert (MI : In m [-1; 0; 1]) by (cbn; lia). specialize (H m MI). rewrite forallb_forall in H.
      assert (EI : In e [1%R; (-1)%R]) by (cbn; destruct E; [left|right; left]; auto). specialize (H e EI). cbv zeta in H.
      assert (U : up d (- m) (up d m i) = i).
      { rewrite PosP.up_up. replace (m + - m) with 0 by lia. apply up_0. }
      rewrite U in H. destruct (Rle_dec _ _) as [L|L]; [exact L|discriminate].
  - intros H d _. destruct (inactive_b c d) eqn:A; [reflexivity|]. cbn [orb]. apply forallb_forall. intros j J. apply in_ix_list in J.
    apply forallb_forall. intros m M. apply forallb_forall. intros e E. cbv zeta. destruct (Rle_dec _ _) as [L|L]; [reflexivity|]. exfalso. apply L.
    assert (AA : ~ inactive c d) by (intros [X Y]; unfold inactive_b in A; rewrite X, Y in A; discriminate).
    refine (H d (up d (- m) j) m e AA _ _ _).
    + cbn in M. lia.
    + rewrite PosP.up_up. replace (- m + m) with 0 by lia. rewrite up_0. exact J.
    + cbn in E. destruct E as [E|[E|[]]]; auto.
Qed.
(** a run of one Euler step is checked at the initial state only *)
Lemma one_checked ok (c : config RNum) heap av u : ok u = true ->
  simulate_checked (N := RNum) ok c heap I_euler av None (Some 1) true [] false 0 u = simulate c heap I_euler av None (Some 1) true [] false 0 u.
Proof.
  intro O. unfold simulate_checked, simulate, solver_integrate, integrate, integrate_n. change (Z.to_nat 1) with 1%nat. cbn [take_n].
  destruct (snapshot RNum (snap_payload RNum c heap av) (ode_init RNum u (aux_init RNum c heap (rows u)))) as [o|e] eqn:ES; [|reflexivity]. cbn [bind].
  assert (U : o_u o = u).
  { unfold snapshot in ES. destruct (snap_payload RNum c heap av _ _ _) as [d|e]; [|discriminate]. cbn [bind] in ES. injection ES as <-. reflexivity. }
  unfold take_step at 1, solver_step. cbn [stepper_of]. unfold euler at 1, checked at 1. rewrite U, O. unfold take_step. cbn [stepper_of]. unfold euler. rewrite U. reflexivity.
Qed.
(** ** a gas of density 1 and sound speed 1 with any velocities up to 1 *)
Definition gusts (f : Z -> R) (v : Z) (i : ix) : R :=
  (if v =? 0 then 1 else if v =? 1 then f (cx i) else if v =? 4 then 25/14 + 1/2 * (f (cx i) * f (cx i)) else 0)%R.
Definition tunnel (l : limiter) : config RNum :=
  mkcfg (N := RNum) (mkix 12 1 1) (mkix 1 0 0) (fun _ => (0, 1)%R) (4/5)%R (Some (1/50)%R) (7/5)%R (1/10^6)%R RS_llf (uniform_bc B_periodic)
    true l true (mknad (N := RNum) (1/2)%R M_local R_relative None None false 0%R) false.
Lemma tunnel_ok l : l = L_minmod \/ l = L_moncen -> let c := tunnel l in
  tabulated c /\ closed c /\ c_limit c = true /\ c_force c = true /\ known_options c /\ c_rs c = RS_llf /\ (forall a, (0 < width c a)%R) /\
  (2 * (1/50 * crossings c (fun _ => 2%R)) < 1)%R.
Proof.
  intros L c. split; [|split; [|split; [reflexivity|split; [reflexivity|split; [|split; [reflexivity|split]]]]]].
  - split; [split|].
    + intros []; cbn; lia.
    + intros []; cbn; lia.
    + exists AX. intros [H _]. discriminate.
    + exact I.
    + intros []; cbn; lia.
  - intros []; [|left; reflexivity|left; reflexivity]. right. split; [|auto]. intro pos. split; [exact I|]. vm_compute. discriminate.
  - split; [destruct L as [E|E]; unfold c; cbn; rewrite E; discriminate|split; discriminate].
  - intros []; unfold width; cbn; lra.
  - unfold crossings, width. cbn. rewrite Rabs_right by lra. lra.
Qed.
Lemma gusts_filled l f v i : filled (tunnel l) (mkarr 5 (mkix 12 1 1) (gusts f)) v i = gusts f v (folded3 (uniform_bc (N := RNum) B_periodic) (mkix 12 1 1) i).
Proof.
  unfold filled. cbv zeta. cbn [at_]. assert (NG : negated3 (c_bc (tunnel l)) (c_n (tunnel l)) i v = false).
  { unfold negated3, negated. cbn [tunnel c_bc c_n uniform_bc bc_type].
    assert (A : forall x y : bool, (if x then false else if y then false else false) = false) by (intros [] []; reflexivity).
    rewrite !A, !andb_false_r. reflexivity. }
  rewrite NG. reflexivity.
Qed.
Lemma gusts_prim l f i : (forall j, -1 <= f j <= 1)%R -> let w := cell_prim (tunnel l) (mkarr 5 (mkix 12 1 1) (gusts f)) i in
  w 0 = 1%R /\ (-1 <= w 1%Z <= 1)%R /\ w 4 = (5/7)%R.
Proof.
  intros B w. unfold w, cell_prim, primitive. rewrite !gusts_filled. unfold gusts. cbn [Z.eqb Pos.eqb tunnel c_gamma].
  set (x := f _). assert (X : (-1 <= x <= 1)%R) by apply B. clearbody x. split; [reflexivity|]. split; [lra|]. field.
Qed.
Lemma turned s k (Hk : (0 <= k <= 2)%R) (Hs : forall a b, SpecLim.limited_by k (s a b) a b) (e a q b : R) : e = 1%R \/ e = (-1)%R ->
  (-1 <= a <= 1 -> -1 <= q <= 1 -> -1 <= b <= 1 -> Rabs (a + e * (1/2 * s (a - q) (b - a))) <= 1)%R.
Proof.
  intros E G1 L1 U1. destruct (share_l s k Hk Hs (a - q)%R (b - a)%R) as (x & X & EX). destruct (share_r s k Hk Hs (a - q)%R (b - a)%R) as (y & Y & EY).
  apply Rabs_le. destruct E as [-> | ->].
  - rewrite EY. replace (a + 1 * (1/2 * (y * (b - a))))%R with ((1 - y / 2) * a + (y / 2) * b)%R by field. nra.
  - rewrite EX. replace (a + -1 * (1/2 * (x * (a - q))))%R with ((1 - x / 2) * a + (x / 2) * q)%R by field. nra.
Qed.
Lemma gusts_slow l f : l = L_minmod \/ l = L_moncen -> (forall j, -1 <= f j <= 1)%R -> slow (tunnel l) (fun _ => 2%R) (mkarr 5 (mkix 12 1 1) (gusts f)).
Proof.
  intros L B d i m e A M I E. cbv zeta. destruct d; [|exfalso; apply A; split; reflexivity|exfalso; apply A; split; reflexivity].
  set (u := mkarr 5 (mkix 12 1 1) (gusts f)) in *.
  pose proof (fun j => gusts_prim l f j B) as G. cbv zeta in G. fold u in G.
  assert (SB : exists s k, (match l with L_minmod => minmod RNum | _ => moncen RNum end) = s /\ (0 <= k <= 2)%R /\ forall a b, SpecLim.limited_by k (s a b) a b).
  { destruct (limiter_bound l L) as (s & k & X1 & X2 & X3 & _). exists s, k. split; [|split; assumption]. destruct L as [-> | ->]; injection X1 as <-; reflexivity. }
  destruct SB as (s & k & Es & Hk & Hs).
  assert (Z0 : s 0%R 0%R = 0%R) by (apply (s_zero s k Hs)).
  assert (F : forall v, face_prim (tunnel l) u AX e i v = (cell_prim (tunnel l) u i v + e * (1/2 * s (cell_prim (tunnel l) u i v - cell_prim (tunnel l) u (up AX (-1) i) v) (cell_prim (tunnel l) u (up AX 1 i) v - cell_prim (tunnel l) u i v)))%R).
  { intro v. unfold face_prim. cbv zeta. cbn [tunnel c_limiter c_p getc cx]. rewrite Es. reflexivity. }
  destruct (G i) as (G0 & G1 & G4). destruct (G (up AX (-1) i)) as (L0 & L1 & L4). destruct (G (up AX 1 i)) as (U0 & U1 & U4).
  assert (W0 : face_prim (tunnel l) u AX e i 0 = 1%R).
  { rewrite F, G0, L0, U0. rewrite (Rminus_eq_0 1). rewrite Z0. ring. }
  assert (W4 : face_prim (tunnel l) u AX e i 4 = (5/7)%R).
  { rewrite F, G4, L4, U4. rewrite (Rminus_eq_0 (5/7)). rewrite Z0. ring. }
  assert (W1 : (Rabs (face_prim (tunnel l) u AX e i 1%Z) <= 1)%R).
  { rewrite F. exact (turned s k Hk Hs e _ _ _ E G1 L1 U1). }
  unfold vel, sound, press, rho. cbn [comp]. rewrite W0, W4. cbn [tunnel c_gamma c_csq_floor].
  assert (Q : Rmax (7 / 5 * (5 / 7) / 1) (1 / 10 ^ 6) = 1%R).
  { replace (7 / 5 * (5 / 7) / 1)%R with 1%R by field. apply Rmax_left. lra. }
  rewrite Q, sqrt_1. lra.
Qed.
Lemma gusts_run l f heap : l = L_minmod \/ l = L_moncen -> (forall j, -1 <= f j <= 1)%R ->
  exists o, simulate_checked (N := RNum) (slow_test (tunnel l) (fun _ => 2%R)) (tunnel l) heap I_euler true None (Some 1) true [] false 0 (mkarr 5 (mkix 12 1 1) (gusts f)) = Ok o.
Proof.
  intros L B. rewrite one_checked by (apply slow_test_is, gusts_slow; assumption).
  destruct (tunnel_ok l L) as (T & C & _ & _ & K & _).
  assert (FI : fillable (N := RNum) (fun _ _ => 0%R) (tunnel l) 5) by (apply SymLimP.closed_fillable, C).
  assert (EX : forall (c : config RNum) u, tabulated c -> fillable (N := RNum) (fun _ _ => 0%R) c (rows u) -> c_limit c = true -> known_options c -> c_convex c = false -> shp u = c_n c -> 2 <= rows u ->
    exists o, simulate c heap I_euler true None (Some 1) true [] false 0 u = Ok o).
  { intros c u T' FI' L' O' F' S' R'. destruct (limited_runs_end RNum (fun _ _ => 0%R) c heap I_euler true 1 true [] false 0%nat u) as (o & E & _); auto; try exact BroadP.flags_R; try lia. exists o. exact E. }
  apply EX; auto. cbn. lia.
Qed.
(** ** the default CFL number *)
Definition rift : config FNum :=
  mkcfg (N := FNum) (mkix 7 1 1) (mkix 1 0 0) (fun _ => (fof 0, fof 1)) (ndiv (nofZ 4) (nofZ 5)) None (ndiv (nofZ 7) (nofZ 5)) (fof 0) RS_llf
    (uniform_bc B_outflow) true L_minmod true (mknad (N := FNum) (fof 1) M_local R_relative (Some [0]) None false (fof 1)) false.
(** two streams leaving the middle cell, all of density 1 and internal energy 2 *)
Definition parting (v : Z) (i : ix) : f64 :=
  if v =? 0 then fof 1 else if v =? 1 then fof (100 * Z.sgn (cx i - 3)) else if v =? 4 then if cx i =? 3 then fof 2 else fof 5002 else fof 0.
Definition gap (o : run FNum) : bool := nltb (at_ (o_u o) 0 (mkix 3 0 0)) (fof 0).
Notation rift_run := (simulate rift (fun _ _ _ => fof 0) I_euler true None (Some 1) true [] false 0 (mkarr 5 (mkix 7 1 1) parting)).
Lemma rift_value : OdeT.looked gap rift_run = Some true.
Proof. vm_compute. reflexivity. Qed.
Lemma parting_gas : gas_test (N := FNum) (mkarr 5 (mkix 7 1 1) parting) = true.
Proof. vm_compute. reflexivity. Qed.
Lemma rift_drained : exists (c : config FNum) heap u0 o,
  c_limit c = true /\ c_force c = true /\ c_limiter c = L_minmod /\ c_rs c = RS_llf /\ c_fixed_dt c = None /\ c_CFL c = ndiv (nofZ 4) (nofZ 5) /\
  inactive c AY /\ inactive c AZ /\ shp u0 = c_n c /\ gas_test (N := FNum) u0 = true /\
  simulate c heap I_euler true None (Some 1) true [] false 0 u0 = Ok o /\
  nltb (at_ (o_u o) 0 (mkix 3 0 0)) (nofZ 0) = true.
Proof.
  destruct (OdeT.looked_ok _ _ _ rift_value) as (o & E & V).
  exists rift, (fun _ _ _ => fof 0), (mkarr 5 (mkix 7 1 1) parting), o.
  do 6 (split; [reflexivity|]). do 2 (split; [split; reflexivity|]). split; [reflexivity|]. split; [exact parting_gas|]. split; [exact E|exact V].
Qed.
(** ** the pressure *)
(** the same with a step of 1/4000, in which the fastest signals, below 110, cross less than a fifth of a cell *)
Definition rift_slow : config FNum :=
  mkcfg (N := FNum) (mkix 7 1 1) (mkix 1 0 0) (fun _ => (fof 0, fof 1)) (ndiv (nofZ 4) (nofZ 5)) (Some (ndiv (nofZ 1) (nofZ 4000))) (ndiv (nofZ 7) (nofZ 5)) (fof 0) RS_llf
    (uniform_bc B_outflow) true L_minmod true (mknad (N := FNum) (fof 1) M_local R_relative (Some []) None false (fof 1)) false.
Definition drained (o : run FNum) : bool * bool * ix :=
  (forallb (fun i => nltb (n := FNum) (fof 0) (at_ (o_u o) 0 i)) (ix_list (shp (o_u o))), nltb (at_ (o_u o) 4 (mkix 3 0 0)) (fof 0), shp (o_u o)).
Notation slow_run := (simulate rift_slow (fun _ _ _ => fof 0) I_euler true None (Some 1) true [] false 0 (mkarr 5 (mkix 7 1 1) parting)).
Lemma slow_value : OdeT.looked drained slow_run = Some (true, true, mkix 7 1 1).
Proof. vm_compute. reflexivity. Qed.
Lemma energy_lost : exists (c : config FNum) heap u0 o,
  c_limit c = true /\ c_force c = true /\ c_limiter c = L_minmod /\ c_rs c = RS_llf /\ c_fixed_dt c = Some (ndiv (nofZ 1) (nofZ 4000)) /\
  c_n c = mkix 7 1 1 /\ c_bounds c AX = (nofZ 0, nofZ 1) /\ inactive c AY /\ inactive c AZ /\ shp u0 = c_n c /\ gas_test (N := FNum) u0 = true /\
  (forall i, at_ u0 0 i = nofZ 1 /\ nleb (nabs (at_ u0 1 i)) (nofZ 100) = true) /\
  simulate c heap I_euler true None (Some 1) true [] false 0 u0 = Ok o /\
  (forall i, in_shape (c_n c) i -> nltb (nofZ 0) (at_ (o_u o) 0 i) = true) /\
  nltb (at_ (o_u o) 4 (mkix 3 0 0)) (nofZ 0) = true.
Proof.
  destruct (OdeT.looked_ok _ _ _ slow_value) as (o & E & V). unfold drained in V. injection V as V1 V2 V3.
  exists rift_slow, (fun _ _ _ => fof 0), (mkarr 5 (mkix 7 1 1) parting), o.
  do 7 (split; [reflexivity|]). do 2 (split; [split; reflexivity|]). split; [reflexivity|]. split; [exact parting_gas|].
  split. { intro i. split; [reflexivity|]. cbn [at_ parting Z.eqb Pos.eqb]. destruct (Z.sgn_spec (cx i - 3)) as [[_ ->]|[[_ ->]|[_ ->]]]; reflexivity. }
  split; [exact E|]. split; [|exact V2].
  intros i Hi. rewrite forallb_forall in V1. apply (V1 i). apply in_ix_list. exact (eq_ind_r (fun s => in_shape s i) Hi V3).
Qed.
