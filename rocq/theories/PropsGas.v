(** Theorems on variable conversion, time step and Riemann solvers (C01, C04-C11).
    Arithmetic is exact (reals). Proofs are in HydroP.v and RiemannP.v. *)
From Coq Require Import ZArith Reals Lra Lia.
From Verif Require Import Err Num NdArray HydroM HydroP RiemannM RiemannP Spec.
Local Open Scope R_scope.

(** C01. Converting every cell of an array to conservative variables and back, or to
    primitive variables and back, returns the array, in every row including any number of
    passive scalars. *)
Theorem C01_primitives_of_conservatives : forall gamma (w : arr R) (r : Z) (i : ix),
  gamma <> 1 -> at_ w 0%Z i <> 0 ->
  at_ (cmap (compute_primitives RNum gamma) (cmap (compute_conservatives RNum gamma) w)) r i
  = at_ w r i.
Proof. intros. exact (prim_of_cons gamma (fun k => at_ w k i) r H H0). Qed.
Print Assumptions C01_primitives_of_conservatives.
Theorem C01_conservatives_of_primitives : forall gamma (u : arr R) (r : Z) (i : ix),
  gamma <> 1 -> at_ u 0%Z i <> 0 ->
  at_ (cmap (compute_conservatives RNum gamma) (cmap (compute_primitives RNum gamma) u)) r i
  = at_ u r i.
Proof. intros. exact (cons_of_prim gamma (fun k => at_ u k i) r H H0). Qed.
Print Assumptions C01_conservatives_of_primitives.
(** and the conversion itself is the textbook one *)
Theorem C01_conservatives_formula : forall gamma (w : arr R) r i,
  at_ (cmap (compute_conservatives RNum gamma) w) r i
  = conserved gamma (fun k => at_ w k i) r.
Proof. intros. exact (cons_is gamma _ r). Qed.
Print Assumptions C01_conservatives_formula.
Example C01_hypotheses : (7/5 <> 1)%R /\
  at_ (mkarr 6 (mkix 2 1 1) (fun r i => IZR (1 + r + cx i))) 0%Z (mkix 1 0 0) <> 0.
Proof. split; cbn; lra. Qed.

(** C04. *)
Theorem C04_cfl : forall (w : arr R) (h CFL gamma floor : R) (ndim : Z),
  (forall a, (1 <= getc a (shp w))%Z) -> (1 <= ndim)%Z ->
  0 < floor -> 0 < h -> 0 < CFL ->
  let wc i := fun r => at_ w r i in
  let speed i := Rabs (at_ w 1 i) + Rabs (at_ w 2 i) + Rabs (at_ w 3 i)
                 + IZR ndim * sound gamma floor (wc i) in
  exists dt, hydro_dt RNum w h ndim CFL gamma floor = Ok dt /\ 0 < dt /\
    (forall i, in_shape (shp w) i -> dt * speed i / h <= CFL) /\
    (forall i d, in_shape (shp w) i ->
       dt * (Rabs (vel d (wc i)) + sound gamma floor (wc i)) / h <= CFL) /\
    (exists i, in_shape (shp w) i /\ dt * speed i / h = CFL).
Proof. exact hydro_dt_full. Qed.
Print Assumptions C04_cfl.
Example C04_hypotheses :
  let w := mkarr 5 (mkix 3 1 1) (fun r i => IZR (1 + r + cx i)) in
  (forall a, (1 <= getc a (shp w))%Z) /\ (1 <= 1)%Z /\ 0 < 1/1000000 /\ 0 < 1/64 /\ 0 < 4/5.
Proof. split; [intros []; cbn; lia|]. split; [lia|]. repeat split; lra. Qed.

(** The step of an advection problem, for velocities that are not negative and not all zero: the
    velocities together use up the CFL number, and none alone exceeds it. *)
Theorem C04_advection : forall h vx vy vz CFL, 0 < h -> 0 < CFL -> 0 <= vx -> 0 <= vy -> 0 <= vz -> 0 < vx + vy + vz ->
  exists dt, advection_dt RNum h vx vy vz CFL = Ok dt /\ 0 < dt /\ dt * (vx + vy + vz) / h = CFL /\
    dt * vx / h <= CFL /\ dt * vy / h <= CFL /\ dt * vz / h <= CFL.
Proof. exact advection_dt_full. Qed.
Print Assumptions C04_advection.
Example C04_advection_case : 0 < 1/64 /\ 0 < 4/5 /\ 0 <= 2 /\ 0 <= 1 /\ 0 <= 0 /\ 0 < 2 + 1 + 0.
Proof. repeat split; lra. Qed.
(** It does not take the size of the velocities: a flow of velocity (2, -1) gets a step of twice the
    CFL number along x. And with the default velocities, all zero, it raises. *)
Theorem C04_advection_refuted :
  (forall h CFL, 0 < h -> 0 < CFL -> exists dt, advection_dt RNum h 2 (-1) 0 CFL = Ok dt /\ dt * Rabs 2 / h = 2 * CFL) /\
  (forall h CFL, advection_dt RNum h 0 0 0 CFL = Err ZeroDivisionError).
Proof. exact (conj advection_signed advection_default). Qed.
Print Assumptions C04_advection_refuted.

(** C05. *)
Theorem C05_llf : forall gamma floor d w r,
  llf RNum gamma floor d w w r = euler_flux gamma d w r.
Proof. exact llf_consistent. Qed.
Print Assumptions C05_llf.
Theorem C05_hllc : forall gamma floor d w r,
  0 < floor -> 1 <= gamma -> physical w ->
  hllc RNum gamma floor d w w r = euler_flux gamma d w r.
Proof. exact hllc_consistent. Qed.
Print Assumptions C05_hllc.
Theorem C05_upwind : forall gamma floor d w r,
  advection_upwind RNum gamma floor d w w r = transport_flux gamma d w r.
Proof. exact upwind_consistent. Qed.
Print Assumptions C05_upwind.
Example C05_hypotheses : physical (fun r => IZR (1 + r)).
Proof. split; unfold rho, press; cbn; lra. Qed.

(** C06 and C08. For every pair of physical states hllc's answer is the flux at x = 0 of a
    solution made of two acoustic waves of speeds Sl < Sr and a contact of speed s strictly
    between them, separating star states of positive density moving at speed s under a
    common pressure P. The jump conditions hold across each of the three waves. *)
Theorem C06_C08_hllc_structure : forall gamma floor d wl wr,
  0 < floor -> 1 <= gamma -> physical wl -> physical wr ->
  exists Sl s Sr P UL UR,
    let c := Rmax (sound gamma floor wl) (sound gamma floor wr) in
    Sl = Rmin (vel d wl) (vel d wr) - c /\ Sr = Rmax (vel d wl) (vel d wr) + c /\
    Sl < s < Sr /\
    0 < UL 0%Z /\ 0 < UR 0%Z /\ UL (comp d) = UL 0%Z * s /\ UR (comp d) = UR 0%Z * s /\
    (forall r, star_flux d s P UL r - euler_flux gamma d wl r
               = Sl * (UL r - conserved gamma wl r)) /\
    (forall r, star_flux d s P UR r - euler_flux gamma d wr r
               = Sr * (UR r - conserved gamma wr r)) /\
    (forall r, star_flux d s P UL r - star_flux d s P UR r = s * (UL r - UR r)) /\
    (forall r,
      (0 <= Sl -> hllc RNum gamma floor d wl wr r = euler_flux gamma d wl r) /\
      (Sl <= 0 <= s -> hllc RNum gamma floor d wl wr r = star_flux d s P UL r) /\
      (s <= 0 <= Sr -> hllc RNum gamma floor d wl wr r = star_flux d s P UR r) /\
      (Sr <= 0 -> hllc RNum gamma floor d wl wr r = euler_flux gamma d wr r)).
Proof. exact hllc_structure. Qed.
Print Assumptions C06_C08_hllc_structure.

(** C06: none of the quantities hllc divides by is zero. They are the densities, the sum
    of the two impedances, Sl - v* and Sr - v*. *)
Theorem C06_denominators : forall gamma floor d wl wr,
  0 < floor -> 1 <= gamma -> physical wl -> physical wr ->
  let q := hllc_compute RNum gamma floor d wl wr in
  rho wl <> 0 /\ rho wr <> 0 /\
  rho wl * (vel d wl - q_Sl q) + rho wr * (q_Sr q - vel d wr) <> 0 /\
  q_Sl q - q_vstar q <> 0 /\ q_Sr q - q_vstar q <> 0.
Proof. exact hllc_denominators. Qed.
Print Assumptions C06_denominators.
Example C06_hypotheses : physical (fun r => if (r =? 0)%Z then 1 else if (r =? 4)%Z then 1 else 0)
  /\ physical (fun r => if (r =? 0)%Z then 1/8 else if (r =? 4)%Z then 1/10 else 0).
Proof. repeat split; unfold rho, press; cbn; lra. Qed.

(** C07. *)
Theorem C07_hllc_contact : forall gamma floor d wl wr r,
  0 < floor -> 1 <= gamma -> physical wl -> physical wr ->
  vel d wl = vel d wr -> press wl = press wr ->
  hllc RNum gamma floor d wl wr r =
    if Rlt_dec 0 (vel d wl) then euler_flux gamma d wl r
    else if Rlt_dec (vel d wl) 0 then euler_flux gamma d wr r
    else pressure_flux d (press wl) r.
Proof. intros. apply hllc_contact; assumption. Qed.
Print Assumptions C07_hllc_contact.
Example C07_hypotheses :
  let wl := fun r : Z => if (r =? 0)%Z then 1 else if (r =? 2)%Z then 3 else 2 in
  let wr := fun r : Z => if (r =? 0)%Z then 5 else if (r =? 2)%Z then 0 else 2 in
  physical wl /\ physical wr /\ vel AX wl = vel AX wr /\ press wl = press wr /\ wl 0%Z <> wr 0%Z.
Proof. repeat split; unfold rho, press; cbn; lra. Qed.

(** C09. *)
Theorem C09_llf_mirror : forall gamma floor d wl wr r,
  llf RNum gamma floor d (mirror d wr) (mirror d wl) r
  = mirror_sign d r * llf RNum gamma floor d wl wr r.
Proof. exact llf_mirror. Qed.
Print Assumptions C09_llf_mirror.
Theorem C09_hllc_mirror : forall gamma floor d wl wr r,
  0 < floor -> 1 <= gamma -> physical wl -> physical wr ->
  hllc RNum gamma floor d (mirror d wr) (mirror d wl) r
  = mirror_sign d r * hllc RNum gamma floor d wl wr r.
Proof. intros. apply hllc_mirror; assumption. Qed.
Print Assumptions C09_hllc_mirror.
(** The upwind advection solver looks at the left velocity only; it is mirror symmetric
    when both sides move at the same speed, and not otherwise. *)
Theorem C09_upwind_mirror : forall gamma floor d wl wr r,
  vel d wl = vel d wr ->
  advection_upwind RNum gamma floor d (mirror d wr) (mirror d wl) r
  = - advection_upwind RNum gamma floor d wl wr r * (if (r =? comp d)%Z then -1 else 1).
Proof. exact upwind_mirror. Qed.
Print Assumptions C09_upwind_mirror.
Theorem C09_upwind_mirror_refuted : exists gamma floor d wl wr r,
  physical wl /\ physical wr /\
  advection_upwind RNum gamma floor d (mirror d wr) (mirror d wl) r
  <> - advection_upwind RNum gamma floor d wl wr r * (if (r =? comp d)%Z then -1 else 1).
Proof. exact upwind_not_mirror. Qed.
Print Assumptions C09_upwind_mirror_refuted.

(** C10. *)
Theorem C10_llf_wall : forall gamma floor d w r,
  r <> comp d -> llf RNum gamma floor d w (mirror d w) r = 0.
Proof. exact llf_wall0. Qed.
Print Assumptions C10_llf_wall.
Theorem C10_hllc_wall : forall gamma floor d w r,
  0 < floor -> 1 <= gamma -> physical w ->
  r <> comp d -> hllc RNum gamma floor d w (mirror d w) r = 0.
Proof. exact hllc_wall0. Qed.
Print Assumptions C10_hllc_wall.
Example C10_hypotheses : physical (fun r => IZR (1 + r)) /\ (5 <> comp AX)%Z.
Proof. repeat split; unfold rho, press; cbn; try lra; lia. Qed.

(** C11. [s] is any injective relabelling of the axes. *)
Theorem C11_axes : forall gamma floor (s : axis -> axis) rs a wl wr r,
  (forall a b, s a = s b -> a = b) ->
  riemann RNum rs gamma floor a (permute s wl) (permute s wr) r
  = permute s (riemann RNum rs gamma floor (s a) wl wr) r.
Proof. intros. apply riemann_permute; assumption. Qed.
Print Assumptions C11_axes.
Example C11_hypotheses :
  let s a := match a with AX => AY | AY => AZ | AZ => AX end in
  forall a b, s a = s b -> a = b.
Proof. intros s [] []; cbn; congruence. Qed.
