(** Theorems on positivity with the HLLC flux (C67). *)
From Coq Require Import ZArith List Bool Lia Reals Lra.
From Verif Require Import Err Num NdArray FvM RiemannM StencilsM BcM SpecBc LimitM OdeM SolverM Spec SpecSolver SpecCons SpecScheme SpecSym SpecPos
  FvP OpP SolverP ExistP SchemeP MirrorP PosP HllcPosP HllcPosQ.
Import ListNotations.
Open Scope R_scope.

(** C67. Between any two gases the two middle states that the HLLC solver computes have positive
    density and positive internal energy. *)
Theorem C67_middle_states : forall gamma floor d wl wr, 1 < gamma -> 0 < floor ->
  0 < rho wl -> 0 < press wl -> 0 < rho wr -> 0 < press wr ->
  let q := hllc_compute RNum gamma floor d wl wr in
  let state density energy (w : state) r :=
    if (r =? 0)%Z then density else if (r =? 4)%Z then energy
    else if (r =? comp d)%Z then density * q_vstar q else density * w r in
  gas (state (q_rL q) (q_EL q) wl) /\ gas (state (q_rR q) (q_ER q) wr).
Proof. intros gamma fl d wl wr. exact (middle_gas gamma fl d wl wr). Qed.
Print Assumptions C67_middle_states.
Example C67_states : let w p v r := if (r =? 0)%Z then 1 else if (r =? 1)%Z then v else if (r =? 4)%Z then p else 0 in
  0 < rho (w 1 (-100)) /\ 0 < press (w 1 (-100)) /\ 0 < rho (w 1 100) /\ 0 < press (w 1 100).
Proof. cbn. unfold rho, press. cbn. lra. Qed.

(** A first-order run with the default HLLC flux and forward Euler steps keeps density and internal
    energy positive, and all snapshots have positive density and pressure, if the CFL number times
    the number of active axes is at most 1/4. *)
Theorem C67_first_order_runs_stay_positive : forall (c : config RNum) heap as_averages T n exact downbeats log fuel u0 o,
  tabulated c -> closed c -> c_limit c = false -> first_order c -> c_rs c = RS_hllc -> c_fixed_dt c = None ->
  1 < c_gamma c -> 0 < c_csq_floor c -> (forall a, 0 < width c a) -> 0 < c_CFL c -> c_CFL c * active_axes c <= 1/4 ->
  shp u0 = c_n c -> (1 <= rows u0)%Z -> gas_everywhere u0 -> Forall (fun x => 0 <= x) downbeats ->
  simulate c heap I_euler as_averages T n exact downbeats log fuel u0 = Ok o ->
  gas_everywhere (o_u o) /\ Forall (fun s => positive_everywhere (fst (snd s))) (o_snaps o).
Proof. exact hllc_positive. Qed.
Print Assumptions C67_first_order_runs_stay_positive.
(** two cold streams leaving each other between walls *)
Example C67_case : forall heap, tabulated pipe /\ closed pipe /\ first_order pipe /\ (forall a, 0 < width pipe a) /\
  0 < c_csq_floor pipe /\ c_CFL pipe * active_axes pipe <= 1/4 /\ gas_everywhere (mkarr 5 (mkix 12 1 1) streams) /\
  exists o, simulate pipe heap I_euler true None (Some 20%Z) true [] false 0 (mkarr 5 (mkix 12 1 1) streams) = Ok o.
Proof.
  intro heap. destruct pipe_ok as (T & C & _). split; [exact T|]. split; [exact C|]. split; [intros []; reflexivity|].
  split; [intros []; unfold width; cbn; lra|]. split; [cbn; lra|]. split; [unfold active_axes; cbn; lra|]. split; [exact streams_gas|apply pipe_runs; lia].
Qed.
(** With the default CFL number 0.8 this fails already in one dimension, all other arguments being
    the defaults: three cells of gas, and after one step a snapshot with a negative pressure
    (binary64). The LLF flux stays positive there (C45). *)
Theorem C67_default_step_refuted : exists (c : config FNum) heap u0 o s,
  first_order c /\ c_rs c = RS_hllc /\ c_fixed_dt c = None /\ c_CFL c = ndiv (nofZ 4) (nofZ 5) /\ c_gamma c = ndiv (nofZ 5) (nofZ 3) /\
  c_n c = mkix 3 1 1 /\ shp u0 = c_n c /\ gas_test (N := FNum) u0 = true /\
  simulate c heap I_euler true None (Some 1%Z) true [] false 0 u0 = Ok o /\
  In s (o_snaps o) /\ nltb (at_ (fst (snd s)) 4%Z (mkix 1 0 0)) (nofZ 0) = true.
Proof. exact slug_drained. Qed.
Print Assumptions C67_default_step_refuted.
