(** Cold gas at rest: the time step is set by the floor of the sound speed. *)
From Coq Require Import ZArith List Reals Lra Lia FunctionalExtensionality.
From Verif Require Import Err Num PySlice NdArray HydroM RiemannM StencilsM FvM BcM SedM LimitM OdeM SolverM
  Spec SpecBc SpecOde SpecSolver SpecCons SpecScheme SpecExact SpecStage SpecSym SpecUnits SpecFloor OdeP OdeT RelP ExistP SymLimP MirLimQ.
Import ListNotations.
Open Scope R_scope.

Definition cold_box (floor : R) : config RNum :=
  mkcfg (N := RNum) (mkix 12 13 1) (mkix 3 2 0) (fun _ => (0, 1)) (4/5) None (7/5) floor RS_hllc (uniform_bc B_periodic)
    false L_moncen false (usual_sed true) false.
(** density one, no momentum, no energy *)
Definition cold : arr R := mkarr 5 (mkix 12 13 1) (fun v _ => match v with 0%Z => 1 | _ => 0 end).

Lemma cold_box_ok x : tabulated (cold_box x) /\ closed (cold_box x).
Proof.
  assert (E : forall a, enough B_periodic (getc a (c_n (cold_box x))) (getc a (ghost_zones3 (cold_box x)))).
  { intros []; vm_compute; try discriminate; try exact I; reflexivity. }
  split.
  - split; [split|].
    + intros []; cbn; lia.
    + intros []; cbn; lia.
    + exists AX. intros [H _]. discriminate.
    + exact I || (intros e [<-|[<-|[]]]; cbn; lia).
    + intros []; cbn; lia.
  - intro a. right. split; [|auto]. intro pos. split; [exact I|apply E].
Qed.
Lemma cold_rescaled V : rescaled (row_unit V 1) cold cold.
Proof.
  split; [reflexivity|]. split; [reflexivity|]. intros v i _. unfold cold. cbn [at_].
  destruct v as [|[[]|[|[]|]|]|[]]; cbn [row_unit]; ring.
Qed.
Lemma first_step (c : config RNum) heap i u : tabulated c -> closed c -> c_limit c = false -> steps_forward c -> shp u = c_n c -> (2 <= rows u)%Z ->
  exists o, simulate c heap i true None (Some 1%Z) true [] false 0 u = Ok o /\ 0 < o_t o.
Proof.
  intros T C L F S Ru.
  destruct (runs_end RNum (fun _ _ => 0) c heap i true 1%Z true [] false 0%nat u T (closed_fillable c _ (rows u) C) L S Ru ltac:(lia)) as (o & E & _).
  exists o. split; [exact E|]. unfold simulate, solver_integrate, integrate, integrate_n in E.
  change (Z.to_nat 1) with 1%nat in E. set (s0 := aux_init RNum c heap (rows u)) in *. cbn [take_n] in E. unfold snapshot in E.
  destruct (snap_payload RNum c heap true _ _ _) as [d|]; cbn [bind] in E; [|discriminate].
  match type of E with (do _ <- (do _ <- ?X; _); _) = _ => destruct X as [o1|] eqn:E1; cbn [bind] in E; [|discriminate] end.
  destruct (snap_payload RNum c heap true _ _ _) as [d'|]; cbn [bind] in E; [|discriminate]. injection E as <-. cbn [o_t].
  destruct (take_step_t _ _ _ _ _ _ _ E1) as (s & h & k & Ef & Et). pose proof (solver_dt c heap F _ _ _ _ _ _ _ Ef) as Ph.
  cbn [o_t ode_init hit_target] in Et. refine (eq_ind_r (fun y : R => 0 < y) _ Et). cbn in Ph. cbn. lra.
Qed.
Lemma cold_forward x : 0 < x -> steps_forward (cold_box x).
Proof.
  intro H. unfold steps_forward. cbn [cold_box c_fixed_dt c_CFL c_csq_floor]. split; [lra|]. split; [exact H|].
  split; [vm_compute; discriminate|]. intros []; cbn; (split; [lia|lra]).
Qed.
Lemma cold_units x V heap i : 0 < x -> 0 < V -> V <> 1 ->
  ~ outcome_rescaled 1 V 1 (simulate (cold_box x) heap i true None (Some 1%Z) true [] false 0 cold)
      (simulate (cold_box x) heap i true None (Some 1%Z) true [] false 0 cold).
Proof.
  intros P HV N1 H. destruct (cold_box_ok x) as (T & C).
  destruct (first_step (cold_box x) heap i cold T C eq_refl (cold_forward x P) eq_refl ltac:(cbn; lia)) as (o & E & G).
  rewrite E in H. cbn [outcome_rescaled] in H. destruct H as [Ht _ _ _ _].
  assert (Q : forall t : R, 0 < t -> t = 1 / V * t -> False).
  { intros t Pt Et. apply N1. apply (Rmult_eq_reg_r t); [|lra]. rewrite Et at 1. field. lra. }
  exact (Q _ G Ht).
Qed.
Lemma cold_converted x V : with_floor x (convert 1 V 1 5 (cold_box x)) = cold_box x.
Proof.
  unfold with_floor, convert, cold_box. cbn [c_n c_p c_bounds c_CFL c_fixed_dt c_gamma c_rs c_bc c_limit c_limiter c_force c_nad c_convex
    option_map uniform_bc bc_type bc_val bc_slabs bc_cupy convert_value usual_sed nad_eps nad_mode_ nad_range_ nad_vars pad_bounds sed_on sed_eps
    convert_bounds map fst snd prim_unit].
  rewrite !Rmult_0_r, Rmult_1_l. reflexivity.
Qed.
Theorem floor_units : forall x V, 0 < x -> 0 < V -> V <> 1 -> let c := cold_box x in
  tabulated c /\ fillable (N := RNum) (middle_of c) c 5 /\ c_limit c = false /\ c_csq_floor c = x /\ shp cold = c_n c /\ rows cold = 5%Z /\
  rescaled (row_unit V 1) cold cold /\ forall heap i,
  ~ outcome_rescaled 1 V 1 (simulate c heap i true None (Some 1%Z) true [] false 0 cold)
      (simulate (with_floor x (convert 1 V 1 5 c)) heap i true None (Some 1%Z) true [] false 0 cold).
Proof.
  intros x V P HV N1 c. destruct (cold_box_ok x) as (T & C). split; [exact T|]. split; [apply closed_fillable, C|].
  do 4 (split; [reflexivity|]). split; [apply cold_rescaled|]. intros heap i. unfold c. rewrite cold_converted. apply cold_units; assumption.
Qed.
