(** C56: the one-dimensional reference solver, fvhoe/romain_solver.py. *)
From Coq Require Import ZArith List Bool Lia Reals Lra String Floats.SpecFloat.
From Verif Require Import Err Num NdArray StencilsM RiemannM SpecScheme RomainM SpecRomain RomainP RomainQ RomainR.
Import ListNotations.
Open Scope R_scope.

(** Where the three markers around a cell say smooth, and always for space = 1, the traces use
    the weights the 3D solver uses for p = space - 1; elsewhere they stay between the smallest
    and the largest of the three cells around. *)
Theorem C56_traces : forall space (u alpha : mat RNum), (1 <= space <= 5)%Z ->
  exists l r, trace RNum u alpha space = Ok (l, r) /\
  forall v i, let k := (i + 3)%Z in let f := u v in
    (space = 1%Z \/ 1 <= alpha v (k - 1)%Z /\ 1 <= alpha v k /\ 1 <= alpha v (k + 1)%Z ->
       at_pos space P_r f k (l v i) /\ at_pos space P_l f k (r v i)) /\
    (space <> 1%Z -> alpha v (k - 1)%Z < 1 \/ alpha v k < 1 \/ alpha v (k + 1)%Z < 1 ->
       lo3 (f (k - 1)%Z) (f k) (f (k + 1)%Z) <= l v i <= hi3 (f (k - 1)%Z) (f k) (f (k + 1)%Z) /\
       lo3 (f (k - 1)%Z) (f k) (f (k + 1)%Z) <= r v i <= hi3 (f (k - 1)%Z) (f k) (f (k + 1)%Z)).
Proof. exact traces_any. Qed.
Print Assumptions C56_traces.

(** The marker of a cell away from the ghost cells is below one exactly where the slope does
    not grow at comparable rates on both sides. *)
Theorem C56_smooth_cells : forall L bc (u : mat RNum) v j, (5 <= j <= L - 6)%Z ->
  (smooth_extrema RNum L bc u v j < 1 <-> ~ smooth_at (u v) j).
Proof. exact marker_at. Qed.
Print Assumptions C56_smooth_cells.
(** a parabola is smooth everywhere, a step is not *)
Example C56_smooth_case : (forall j, smooth_at (fun k => IZR k * IZR k) j) /\ ~ smooth_at (fun k => if (k <? 1)%Z then 0 else 1) 0.
Proof.
  split.
  - intro j. unfold smooth_at, slope. right. left. rewrite !minus_IZR, !plus_IZR, !minus_IZR. lra.
  - unfold smooth_at, slope, steady. cbn. lra.
Qed.

(** The fluxes are those of the 3D solver for gamma = 7/5, on states without transverse
    velocity, as long as the floor on the squared sound speed is not reached; and the
    conversions are inverse to each other. *)
Theorem C56_fluxes : forall floor (wl wr : Z -> R) v, (0 <= v <= 2)%Z ->
  floor <= 7/5 * wl 2%Z / wl 0%Z -> floor <= 7/5 * wr 2%Z / wr 0%Z ->
  r_llf RNum wl wr v = riemann RNum RS_llf (7/5) floor AX (as_cell wl) (as_cell wr) (row_of v) /\
  r_hllc RNum wl wr v = riemann RNum RS_hllc (7/5) floor AX (as_cell wl) (as_cell wr) (row_of v).
Proof.
  exact (fun floor wl wr v H A B => conj (eq_sym (llf3 floor wl wr v H (or_introl A) (or_introl B)))
                                         (eq_sym (hllc3 floor wl wr v H (or_introl A) (or_introl B)))).
Qed.
Print Assumptions C56_fluxes.
Theorem C56_conversions : forall (w u : Z -> R) v, (0 <= v <= 2)%Z ->
  (w 0%Z <> 0 -> cons_to_prim RNum (prim_to_cons RNum w) v = w v) /\
  (u 0%Z <> 0 -> prim_to_cons RNum (cons_to_prim RNum u) v = u v).
Proof. exact conversions. Qed.
Print Assumptions C56_conversions.

(** A periodic run on at least four cells: every step is a Runge-Kutta step, with the stated
    tableau, of the limited scheme on the endless line of repeated cells; the time step follows
    the CFL rule; the contents of all three variables never change; the run goes on until the
    end time is passed or 100000 steps are done. *)
Theorem C56_periodic_run : forall tend n cfl ic rs r time space,
  (4 <= n)%Z -> (1 <= space <= 5)%Z -> (1 <= time <= 4)%Z -> solver_named rs = Some r ->
  exists us t dts, weno RNum sin tend n cfl ic "periodic" rs time space = Ok (us, t) /\
    chain (fun u u' dt => exists s, top_speed n u s /\ dt = cfl * (1 / IZR n) / s /\
             runge_kutta r space n dt (tableau time) u u') us dts /\
    (forall u u', In u us -> In u' us -> forall v, content n u' v = content n u v) /\
    t = ssum dts /\ (forall k, (k < List.length dts)%nat -> ssum (firstn k dts) < tend) /\
    (tend <= t \/ Z.of_nat (List.length dts) = 100000%Z).
Proof. exact periodic_run. Qed.
Print Assumptions C56_periodic_run.
(** the tableaux are of the order they are named after *)
Theorem C56_orders : forall time, (1 <= time <= 4)%Z -> order_conditions (tableau time) time.
Proof. exact orders. Qed.
Print Assumptions C56_orders.

(** The initial data: the stated state in every cell, with positive density and pressure. *)
Theorem C56_start : forall ic n (u0 : mat RNum), (1 <= n)%Z -> In ic known_ics -> set_ic RNum sin n (cells RNum n) ic = Ok u0 ->
  forall i, (0 <= i < n)%Z -> let '(d, v, p) := start ic n i in
  0 < d /\ 0 < p /\ gas (fun r => u0 r i) 0 = d /\ gas (fun r => u0 r i) 1 = v /\ gas (fun r => u0 r i) 2 = p.
Proof. exact start_is. Qed.
Print Assumptions C56_start.

(** Which arguments are accepted, for a positive end time. Boundary types are never checked. *)
Theorem C56_accepts : forall tend n cfl ic bc rs time space, 0 < tend ->
  ((exists us t, weno RNum sin tend n cfl ic bc rs time space = Ok (us, t)) <->
   (1 <= n)%Z /\ (ic = "sedov"%string -> (3 <= n)%Z) /\ (1 <= space <= 5)%Z /\ (1 <= time <= 4)%Z /\ exists r, solver_named rs = Some r).
Proof. exact accepts. Qed.
Print Assumptions C56_accepts.
Example C56_case : exists us t, weno RNum sin 1 100 (8/10) "sod test" "free" "hllc" 3 5 = Ok (us, t).
Proof. apply C56_accepts; [lra|]. split; [lia|]. split; [discriminate|]. split; [lia|]. split; [lia|]. exists RS_hllc. reflexivity. Qed.

(** The run does not end at the requested time: one cell at rest, end time 1, ends beyond 3/2. *)
Theorem C56_end_time_refuted : exists us t,
  weno RNum sin 1 1 (8/10) "sod test" "free" "llf" 1 1 = Ok (us, t) /\ 3/2 < t /\ List.length us = 3%nat.
Proof. exact overshoots. Qed.
Print Assumptions C56_end_time_refuted.
(** Nor does it always get there: asked for a million, it stops before 80001 without complaint. *)
Theorem C56_end_reached_refuted : exists us t,
  weno RNum sin 1000000 1 (8/10) "sod test" "free" "llf" 1 1 = Ok (us, t) /\ t < 80001.
Proof. exact stops_early. Qed.
Print Assumptions C56_end_reached_refuted.
(** An unknown name of initial data is accepted and gives a vacuum. *)
Theorem C56_unknown_start_refuted : forall n x ic, ~ In ic known_ics ->
  exists u0, set_ic RNum sin n x ic = Ok u0 /\ forall v i, u0 v i = 0.
Proof. exact vacuum. Qed.
Print Assumptions C56_unknown_start_refuted.
(** In binary64, an unknown boundary type, or a periodic run on three cells, leaves zeros in
    ghost cells: the first time step is NaN and the run ends after it without complaint. *)
Theorem C56_nan_run_refuted : forall nsin,
  runs_to (weno FNum nsin (fof 1) 8 (SFdiv 53 1024 (fof 8) (fof 10)) "sod test" "reflective" "llf" 1 1) 2 S754_nan /\
  runs_to (weno FNum nsin (fof 1) 3 (SFdiv 53 1024 (fof 8) (fof 10)) "sod test" "periodic" "llf" 1 1) 2 S754_nan.
Proof. exact nan_runs. Qed.
Print Assumptions C56_nan_run_refuted.
