(** Positivity of density and pressure in first-order runs with the HLLC flux. *)
From Coq Require Import ZArith List Bool Lia Reals Lra Psatz FunctionalExtensionality.
From Verif Require Import Err Num PySlice NdArray HydroM RiemannM StencilsM FvM BcM SedM
  LimitM OdeM SolverM Spec SpecBc SpecSolver SpecCons SpecScheme SpecSym SpecPos NdArrayP FvP BcP BcQ OpP SolverP OdeP RelP RelS LimP RunP ConsP
  RiemannP HydroP LoopP SlopeP WallP ExistP SchemeP SymP SeamP ShiftP WatchP UniformP MirrorP PosP.
Import ListNotations.
Open Scope R_scope.

Local Notation wi := (wts_i RNum).
Local Notation wt := (wts_t RNum).

(** ** the states between the waves *)
(** behind a wave that is at least as fast as sound, internal energy stays positive *)
Lemma star_gas (gamma : R) (d : axis) (w : state) (S s P rs Es : R) :
  1 < gamma -> 0 < rho w -> 0 < press w -> 0 < rs -> S - vel d w <> 0 ->
  rs * (S - s) = rho w * (S - vel d w) ->
  Es * (S - s) = (S - vel d w) * total_energy gamma w - press w * vel d w + P * s ->
  P = press w + rho w * (S - vel d w) * (s - vel d w) ->
  gamma * press w / rho w <= (S - vel d w) * (S - vel d w) ->
  gas (starU d rs Es s w).
Proof.
  intros HG HR HP Hrs HS E1 E2 E3 HC.
  set (a := S - vel d w) in *. set (r := rho w) in *. set (p := press w) in *. set (v := vel d w) in *.
  assert (NS : S - s <> 0). { intro Q. rewrite Q in E1. assert (r * a = 0) by lra. apply Rmult_integral in H as [H|H]; lra. }
  assert (X : Es = rs * (total_energy gamma w / r + (P * s - p * v) / (r * a))).
  { apply Rmult_eq_reg_r with (S - s); [|exact NS]. rewrite E2.
    replace (rs * (total_energy gamma w / r + (P * s - p * v) / (r * a)) * (S - s))
      with ((rs * (S - s)) * (total_energy gamma w / r + (P * s - p * v) / (r * a))) by ring.
    rewrite E1. field. split; lra. }
  unfold gas. split; [exact Hrs|].
  pose (k := p / (r * a)). pose (y := s - v).
  assert (K : k * k <= p / (gamma * r)).
  { unfold k. replace (p / (r * a) * (p / (r * a))) with (p * p / (r * r) / (a * a)) by (field; split; lra).
    assert (0 < gamma * p / r) by (apply Rdiv_lt_0_compat; [apply Rmult_lt_0_compat; lra|lra]).
    apply Rmult_le_reg_r with (a * a); [lra|]. replace (p * p / (r * r) / (a * a) * (a * a)) with (p * p / (r * r)) by (field; split; lra).
    apply Rle_trans with (p / (gamma * r) * (gamma * p / r)); [right; field; split; lra|].
    apply Rmult_le_compat_l; [apply Rlt_le, Rdiv_lt_0_compat; [lra|apply Rmult_lt_0_compat; lra]|exact HC]. }
  assert (Q : starU d rs Es s w 4%Z - 1/2 * (starU d rs Es s w 1%Z * starU d rs Es s w 1%Z + starU d rs Es s w 2%Z * starU d rs Es s w 2%Z
     + starU d rs Es s w 3%Z * starU d rs Es s w 3%Z) / starU d rs Es s w 0%Z
   = rs * (p / ((gamma - 1) * r) + 1/2 * (y * y) + k * y)).
  { rewrite X, E3. unfold starU, total_energy, y, k. unfold v, vel, a. fold r p.
    assert (A1 : S - w (comp d) <> 0) by exact HS. unfold vel in A1.
    destruct d; cbn [comp Z.eqb Pos.eqb] in *; unfold vel; cbn [comp] in *; field; repeat split; first [exact HS|lra]. }
  rewrite Q. apply Rmult_lt_0_compat; [exact Hrs|].
  assert (B : p / (gamma * r) < 2 * (p / ((gamma - 1) * r))).
  { apply Rminus_gt_0_lt. replace (2 * (p / ((gamma - 1) * r)) - p / (gamma * r)) with (p * (gamma + 1) / (gamma * (gamma - 1) * r)) by (field; lra).
    apply Rlt_gt, Rdiv_lt_0_compat; [apply Rmult_lt_0_compat; lra|]. apply Rmult_lt_0_compat; [apply Rmult_lt_0_compat; lra|lra]. }
  pose proof (Rle_0_sqr (y + k)) as SQ. unfold Rsqr in SQ. nra.
Qed.

(** both states between the waves *)
Lemma middle_gas (gamma fl : R) (d : axis) (wl wr : state) : 1 < gamma -> 0 < fl ->
  0 < rho wl -> 0 < press wl -> 0 < rho wr -> 0 < press wr ->
  gas (UL gamma fl d wl wr) /\ gas (UR gamma fl d wl wr).
Proof.
  intros HG HF RL PL RR PR.
  assert (Yl : physical wl) by (split; [exact RL|lra]). assert (Yr : physical wr) by (split; [exact RR|lra]).
  assert (Hg : 1 <= gamma) by lra.
  assert (SP : forall w, 0 < sound gamma fl w) by (intro w; apply sqrt_lt_R0; eapply Rlt_le_trans; [exact HF|apply Rmax_r]).
  assert (SQ : forall w, 0 < rho w -> 0 < press w -> gamma * press w / rho w <= sound gamma fl w * sound gamma fl w).
  { intros w A B. unfold sound. rewrite sqrt_sqrt; [apply Rmax_l|]. eapply Rle_trans; [|apply Rmax_r]. lra. }
  pose proof (SP wl) as CL. pose proof (SP wr) as CR. pose proof (SQ wl RL PL) as QL. pose proof (SQ wr RR PR) as QR.
  set (q := hllc_compute RNum gamma fl d wl wr).
  pose proof (order gamma fl d HF Hg wl wr Yl Yr) as O. fold q in O.
  destruct (stars_pos gamma fl d HF Hg wl wr Yl Yr) as [S1 S2]. fold q in S1, S2.
  destruct (hllc_gaps gamma fl d wl wr) as (G1 & G2 & G3 & G4). fold q in G1, G2, G3, G4.
  pose proof (Rmax_l (sound gamma fl wl) (sound gamma fl wr)) as M1. pose proof (Rmax_r (sound gamma fl wl) (sound gamma fl wr)) as M2.
  split.
  - unfold UL. fold q. apply (star_gas gamma d wl (q_Sl q) (q_vstar q) (q_Pstar q)); auto.
    + lra.
    + apply (hllc_rL gamma fl d wl wr). fold q. lra.
    + apply (hllc_EL gamma fl d wl wr). fold q. lra.
    + pose proof (hllc_Pl gamma fl d wl wr HF RL RR) as X. fold q in X. lra.
    + eapply Rle_trans; [exact QL|]. nra.
  - unfold UR. fold q. apply (star_gas gamma d wr (q_Sr q) (q_vstar q) (q_Pstar q)); auto.
    + lra.
    + apply (hllc_rR gamma fl d wl wr). fold q. lra.
    + apply (hllc_ER gamma fl d wl wr). fold q. lra.
    + pose proof (hllc_Pr gamma fl d wl wr HF RL RR) as X. fold q in X. lra.
    + eapply Rle_trans; [exact QR|]. nra.
Qed.

Section Sides.
Context (gamma fl : R) (HG : 1 < gamma) (HF : 0 < fl) (d : axis) (ul ur : state) (GL : gas ul) (GR : gas ur).
Local Notation wl := (primitive gamma ul).
Local Notation wr := (primitive gamma ur).
Definition wave_bound (S : R) : Prop :=
  Rabs (vel d wl) + sound gamma fl wl <= S /\ Rabs (vel d wr) + sound gamma fl wr <= S.
(** the parts of the flux seen from the left and from the right *)
Lemma sides m : wave_bound m ->
  gas (fun r => 2 * m * ul r - (toro gamma fl d wl wr r - euler_flux gamma d wl r)) /\
  gas (fun r => 2 * m * ur r + (toro gamma fl d wl wr r - euler_flux gamma d wr r)).
Proof.
  intros [BL BR].
  pose proof (w_press gamma HG ul GL) as PL. pose proof (w_press gamma HG ur GR) as PR.
  assert (RL : 0 < rho wl) by apply GL. assert (RR : 0 < rho wr) by apply GR.
  assert (Yl : physical wl) by (split; [exact RL|lra]). assert (Yr : physical wr) by (split; [exact RR|lra]).
  assert (Hg : 1 <= gamma) by lra.
  pose proof (sound_pos gamma fl HG ul GL) as CL. pose proof (sound_pos gamma fl HG ur GR) as CR.
  pose proof (sound_sq gamma fl HG ul GL) as QL. pose proof (sound_sq gamma fl HG ur GR) as QR.
  set (q := hllc_compute RNum gamma fl d wl wr).
  pose proof (order gamma fl d HF Hg wl wr Yl Yr) as O. fold q in O.
  destruct (stars_pos gamma fl d HF Hg wl wr Yl Yr) as [S1 S2]. fold q in S1, S2.
  destruct (hllc_gaps gamma fl d wl wr) as (G1 & G2 & G3 & G4). fold q in G1, G2, G3, G4.
  pose proof (Rmax_l (sound gamma fl wl) (sound gamma fl wr)) as M1. pose proof (Rmax_r (sound gamma fl wl) (sound gamma fl wr)) as M2.
  destruct (middle_gas gamma fl d wl wr HG HF RL PL RR PR) as [GUL GUR].
  assert (CC : Rmax (sound gamma fl wl) (sound gamma fl wr) <= m).
  { pose proof (Rabs_pos (vel d wl)). pose proof (Rabs_pos (vel d wr)). apply Rmax_lub; lra. }
  assert (VL : - m < vel d wl < m).
  { pose proof (Rle_abs (vel d wl)). pose proof (Rle_abs (- vel d wl)) as Q. rewrite Rabs_Ropp in Q. lra. }
  assert (VR : - m < vel d wr < m).
  { pose proof (Rle_abs (vel d wr)). pose proof (Rle_abs (- vel d wr)) as Q. rewrite Rabs_Ropp in Q. lra. }
  assert (SL : - (2 * m) < q_Sl q).
  { unfold q. rewrite hllc_Sl. assert (- m < Rmin (vel d wl) (vel d wr)) by (apply Rmin_glb_lt; lra). lra. }
  assert (SR : q_Sr q < 2 * m).
  { unfold q. rewrite hllc_Sr. assert (Rmax (vel d wl) (vel d wr) < m) by (apply Rmax_lub_lt; lra). lra. }
  pose proof (fun r => rh_left gamma fl d HF Hg wl wr Yl Yr r) as JL. fold q in JL.
  pose proof (fun r => rh_right gamma fl d HF Hg wl wr Yl Yr r) as JR. fold q in JR.
  pose proof (fun r => rh_contact gamma fl d wl wr r) as JC. fold q in JC.
  pose proof (fun r => hllc_cases gamma fl d HF Hg wl wr Yl Yr r) as CS. fold q in CS.
  assert (TS : forall r, toro gamma fl d wl wr r = hllc RNum gamma fl d wl wr r) by (intro; symmetry; apply toro_is; auto).
  assert (HM : 0 < 2 * m) by lra.
  set (A := UL gamma fl d wl wr) in *. set (B := UR gamma fl d wl wr) in *.
  set (F := Fstar gamma fl d wl wr) in *.
  assert (WL : forall k, 0 <= k -> wgas (fun r => k * A r)) by (intros; apply wgas_scale; assumption).
  assert (WR : forall k, 0 <= k -> wgas (fun r => k * B r)) by (intros; apply wgas_scale; assumption).
  assert (Wl : forall k, 0 <= k -> wgas (fun r => k * ul r)) by (intros; apply wgas_scale; assumption).
  assert (Wr : forall k, 0 <= k -> wgas (fun r => k * ur r)) by (intros; apply wgas_scale; assumption).
  assert (XL : forall r, (0 <= r <= 4)%Z -> conserved gamma wl r = ul r) by (intros; apply w_cons; assumption).
  assert (XR : forall r, (0 <= r <= 4)%Z -> conserved gamma wr r = ur r) by (intros; apply w_cons; assumption).
  assert (FZ : q_vstar q = 0 -> forall r, hllc RNum gamma fl d wl wr r = F A r /\ hllc RNum gamma fl d wl wr r = F B r).
  { intros Z r. destruct (CS r) as (_ & _ & C3 & _). rewrite (C3 Z). unfold F, Fstar, star_flux, pressure_flux. fold q. rewrite Z.
    destruct (r =? comp d)%Z, (r =? 4)%Z; cbn [car RNum]; lra. }
  destruct (Rle_dec 0 (q_Sl q)) as [K1|K1].
  { assert (Y : forall r, hllc RNum gamma fl d wl wr r = euler_flux gamma d wl r) by (intro r; apply (CS r), K1).
    split.
    - eapply gas_ext; [apply (gas_scale (2 * m) ul HM GL)|]. intros r Hr. cbn beta. rewrite TS, Y. lra.
    - eapply gas_ext; [apply (wgas_add (fun r => (2 * m - q_Sr q) * ur r) (fun r => (q_Sr q - q_vstar q) * B r + ((q_vstar q - q_Sl q) * A r + q_Sl q * ul r)))|].
      + apply gas_scale; [lra|exact GR].
      + apply wgas_sum; [apply WR; lra|]. apply wgas_sum; [apply WL; lra|apply Wl; lra].
      + intros r Hr. cbn beta. rewrite TS, Y. specialize (JL r). specialize (JR r). specialize (JC r). rewrite XL in JL by exact Hr. rewrite XR in JR by exact Hr. lra. }
  destruct (Rle_dec 0 (q_vstar q)) as [K2|K2].
  { assert (Y : forall r, hllc RNum gamma fl d wl wr r = F A r).
    { intro r. destruct K2 as [K2|K2]; [apply (CS r); lra|]. apply FZ. auto. }
    split.
    - eapply gas_ext; [apply (wgas_add (fun r => (2 * m + q_Sl q) * ul r) (fun r => - q_Sl q * A r))|].
      + apply gas_scale; [lra|exact GL].
      + apply WL. lra.
      + intros r Hr. cbn beta. rewrite TS, Y. specialize (JL r). rewrite XL in JL by exact Hr. lra.
    - eapply gas_ext; [apply (wgas_add (fun r => (2 * m - q_Sr q) * ur r) (fun r => (q_Sr q - q_vstar q) * B r + q_vstar q * A r))|].
      + apply gas_scale; [lra|exact GR].
      + apply wgas_sum; [apply WR; lra|apply WL; lra].
      + intros r Hr. cbn beta. rewrite TS, Y. specialize (JR r). specialize (JC r). rewrite XR in JR by exact Hr. lra. }
  destruct (Rle_dec 0 (q_Sr q)) as [K3|K3].
  { assert (Y : forall r, hllc RNum gamma fl d wl wr r = F B r) by (intro r; apply (CS r); lra).
    split.
    - eapply gas_ext; [apply (wgas_add (fun r => (2 * m + q_Sl q) * ul r) (fun r => (q_vstar q - q_Sl q) * A r + - q_vstar q * B r))|].
      + apply gas_scale; [lra|exact GL].
      + apply wgas_sum; [apply WL; lra|apply WR; lra].
      + intros r Hr. cbn beta. rewrite TS, Y. specialize (JL r). specialize (JC r). rewrite XL in JL by exact Hr. lra.
    - eapply gas_ext; [apply (wgas_add (fun r => (2 * m - q_Sr q) * ur r) (fun r => q_Sr q * B r))|].
      + apply gas_scale; [lra|exact GR].
      + apply WR. lra.
      + intros r Hr. cbn beta. rewrite TS, Y. specialize (JR r). rewrite XR in JR by exact Hr. lra. }
  assert (Y : forall r, hllc RNum gamma fl d wl wr r = euler_flux gamma d wr r) by (intro r; apply (CS r); lra).
  split.
  - eapply gas_ext; [apply (wgas_add (fun r => (2 * m + q_Sl q) * ul r) (fun r => (q_vstar q - q_Sl q) * A r + ((q_Sr q - q_vstar q) * B r + - q_Sr q * ur r)))|].
    + apply gas_scale; [lra|exact GL].
    + apply wgas_sum; [apply WL; lra|]. apply wgas_sum; [apply WR; lra|apply Wr; lra].
    + intros r Hr. cbn beta. rewrite TS, Y. specialize (JL r). specialize (JR r). specialize (JC r). rewrite XL in JL by exact Hr. rewrite XR in JR by exact Hr. lra.
  - eapply gas_ext; [apply (gas_scale (2 * m) ur HM GR)|]. intros r Hr. cbn beta. rewrite TS, Y. lra.
Qed.
End Sides.

(** ** a step *)
Section Step.
Context (c : config RNum) (H0 : first_order c) (HR : c_rs c = RS_hllc) (HG : 1 < c_gamma c) (HF : 0 < c_csq_floor c).
Context (HW : forall a, 0 < width c a) (H1 : c_CFL c * active_axes c <= 1/4).
Local Notation g := (c_gamma c).
Local Notation fl := (c_csq_floor c).
Lemma hflux0 (E : grid) d v i : face_flux wi wt c (c_p c) None d E v i =
  toro g fl d (primitive g (fun r => E r (up d (-1) i))) (primitive g (fun r => E r i)) v.
Proof.
  assert (P : primitives wi wt (c_p c) g E = fun v i => primitive g (fun r => E r i) v) by (apply grid_eq; intros; apply prim0; assumption).
  unfold face_flux. cbv zeta. rewrite P, HR. unfold trace, across. cbv zeta. rewrite !H0, w0_t, !w0_i by tauto.
  destruct d; repeat rewrite line_1; reflexivity.
Qed.
(** what the two faces normal to an axis leave in the cell, per unit of time and length *)
Definition hpart (E : grid) (i : ix) (m : R) (a : axis) (r : Z) : R :=
  (2 * m * E r i - (face_flux wi wt c (c_p c) None a E r (up a 1 i) - euler_flux g a (primitive g (fun r => E r i)) r))
  + (2 * m * E r i + (face_flux wi wt c (c_p c) None a E r i - euler_flux g a (primitive g (fun r => E r i)) r)).
Lemma hpart_gas E i m a : gas (fun r => E r (up a 1 i)) -> gas (fun r => E r (up a (-1) i)) -> gas (fun r => E r i) ->
  speed c a (fun r => E r (up a (-1) i)) <= m -> speed c a (fun r => E r i) <= m -> speed c a (fun r => E r (up a 1 i)) <= m ->
  gas (hpart E i m a).
Proof.
  intros A B C D1 D2 D3. unfold hpart. apply gas_add.
  - destruct (sides g fl HG HF a _ _ C A m (conj D2 D3)) as [X _]. eapply gas_ext; [exact X|]. intros r Hr. cbn beta.
    rewrite hflux0, up_up. change (1 + -1)%Z with 0%Z. rewrite up_0. reflexivity.
  - destruct (sides g fl HG HF a _ _ B C m (conj D1 D2)) as [_ X]. eapply gas_ext; [exact X|]. intros r Hr. cbn beta.
    rewrite hflux0. reflexivity.
Qed.
Lemma hstep_gas : steps_gas c.
Proof.
  intros E i dt m HN HC HA HM Hm Hdt Hcfl.
  set (K := fun a => if inactive_b c a then 0 else dt / width c a * (4 * m)).
  set (Q := fun a r => (if inactive_b c a then 0 else dt / width c a) * hpart E i m a r).
  assert (CF : 0 <= c_CFL c).
  { assert (0 < Rmin (width c AX) (Rmin (width c AY) (width c AZ))) by (repeat apply Rmin_pos; apply HW).
    assert (0 < dt * m) by (apply Rmult_lt_0_compat; assumption). nra. }
  assert (L : forall a, 0 < dt / width c a) by (intro a; apply Rdiv_lt_0_compat; auto).
  assert (KB : forall a, K a <= 4 * c_CFL c * (if inactive_b c a then 0 else 1)).
  { intro a. unfold K. destruct (inactive_b c a) eqn:I; [lra|].
    assert (dt / width c a * m <= c_CFL c).
    { replace (dt / width c a * m) with (dt * m / width c a) by (field; pose proof (HW a); lra).
      apply Rmult_le_reg_r with (width c a); [apply HW|]. replace (dt * m / width c a * width c a) with (dt * m) by (field; pose proof (HW a); lra).
      eapply Rle_trans; [exact Hcfl|]. apply Rmult_le_compat_l; [exact CF|].
      destruct a; [apply Rmin_l|eapply Rle_trans; [apply Rmin_r|apply Rmin_l]|eapply Rle_trans; [apply Rmin_r|apply Rmin_r]]. }
    lra. }
  assert (KS : 0 <= 1 - (K AX + K AY + K AZ)).
  { pose proof (KB AX). pose proof (KB AY). pose proof (KB AZ). unfold active_axes in H1. lra. }
  assert (QG : forall a, inactive_b c a = false -> gas (Q a)).
  { intros a I. unfold Q. rewrite I. apply gas_scale; [specialize (L a); lra|]. destruct (HN a I), (HM a I) as (? & ? & ?). apply hpart_gas; assumption. }
  assert (QW : forall a, wgas (Q a)).
  { intro a. destruct (inactive_b c a) eqn:I; [right; intros; unfold Q; rewrite I; lra|left; apply QG, I]. }
  assert (SUM : gas (fun r => Q AX r + (Q AY r + Q AZ r))).
  { destruct HA as [a I]. destruct a.
    - apply (wgas_add (Q AX)); [apply QG, I|]. apply wgas_sum; apply QW.
    - eapply gas_ext; [apply (wgas_add (Q AY) (fun r => Q AX r + Q AZ r)); [apply QG, I|apply wgas_sum; apply QW]|]. intros; cbn beta; lra.
    - eapply gas_ext; [apply (wgas_add (Q AZ) (fun r => Q AX r + Q AY r)); [apply QG, I|apply wgas_sum; apply QW]|]. intros; cbn beta; lra. }
  eapply gas_ext; [apply (wgas_add _ (fun r => (1 - (K AX + K AY + K AZ)) * E r i) SUM); apply wgas_scale; assumption|].
  intros r Hr. cbn beta. unfold balance. cbv zeta.
  assert (OUT : forall a, (if inactive_b c a then 0 else (face_flux wi wt c (c_p c) None a E r (up a 1 i) - face_flux wi wt c (c_p c) None a E r i) / width c a) * dt
     = K a * E r i - Q a r).
  { intro a. unfold K, Q, hpart. destruct (inactive_b c a) eqn:I; [lra|]. field. pose proof (HW a). lra. }
  pose proof (OUT AX). pose proof (OUT AY). pose proof (OUT AZ). lra.
Qed.
End Step.

Theorem hllc_positive : forall (c : config RNum) heap as_averages T n exact downbeats log fuel u0 o,
  tabulated c -> closed c -> c_limit c = false -> first_order c -> c_rs c = RS_hllc -> c_fixed_dt c = None ->
  1 < c_gamma c -> 0 < c_csq_floor c -> (forall a, 0 < width c a) -> 0 < c_CFL c -> c_CFL c * active_axes c <= 1/4 ->
  shp u0 = c_n c -> (1 <= rows u0)%Z -> gas_everywhere u0 -> Forall (fun x => 0 <= x) downbeats ->
  simulate c heap I_euler as_averages T n exact downbeats log fuel u0 = Ok o ->
  gas_everywhere (o_u o) /\ Forall (fun s => positive_everywhere (fst (snd s))) (o_snaps o).
Proof.
  intros c heap av T n ex db log fuel u0 o HT HC HL H0 HR HF HG HFl HW C0 C1 Su Ru GU HD H.
  eapply euler_gas; eauto. apply hstep_gas; assumption.
Qed.
