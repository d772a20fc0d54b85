(** Concentrations of passive scalars in first-order runs stay within their initial bounds. *)
From Coq Require Import ZArith List Bool Lia Reals Lra Sorting FunctionalExtensionality.
From Verif Require Import Err Num PySlice NdArray HydroM RiemannM StencilsM FvM BcM SedM
  LimitM OdeM SolverM Spec SpecBc SpecSolver SpecCons SpecScheme SpecSym SpecPos SpecMix NdArrayP FvP BcP BcQ OpP SolverP OdeP RelP RelS LimP RunP ConsP
  RiemannP HydroP LoopP SlopeP WallP ExistP SchemeP SymP SeamP ShiftP WatchP UniformP MirrorP PosP HllcPosP.
Import ListNotations.
Open Scope R_scope.

Local Notation wi := (wts_i RNum).
Local Notation wt := (wts_t RNum).
(** a half space of states: one bound on the concentration *)
Definition tilt (a b : R) (v : Z) (u : state) : Prop := 0 <= a * u v + b * u 0%Z.
Lemma mixed_tilt lo hi v (u : state) : (lo * u 0%Z <= u v <= hi * u 0%Z) <-> tilt 1 (- lo) v u /\ tilt (-1) hi v u.
Proof. unfold tilt. split; [intros [A B]; split; lra|intros [A B]; split; lra]. Qed.

Section Row.
Context (a b : R) (v : Z) (Hv : ~ (0 <= v <= 4)%Z).
Lemma v_prim g (u : state) : primitive g u v = u v / u 0%Z.
Proof. unfold primitive. destruct v as [|[p|[p|[p|p|]|]|]|p]; try reflexivity; lia. Qed.
Lemma v_cons g (w : state) : conserved g w v = rho w * w v.
Proof. unfold conserved. destruct v as [|[p|[p|[p|p|]|]|]|p]; try reflexivity; lia. Qed.
Lemma v_ne : (v =? 0)%Z = false /\ (v =? 4)%Z = false /\ forall d, (v =? comp d)%Z = false.
Proof. repeat split; [apply Z.eqb_neq; lia|apply Z.eqb_neq; lia|intro d; apply Z.eqb_neq; destruct d; cbn [comp]; lia]. Qed.
Lemma v_flux g d (w : state) : euler_flux g d w v = rho w * vel d w * w v.
Proof. destruct v_ne as (A & B & C). unfold euler_flux. rewrite A, B, C. reflexivity. Qed.
Lemma o_flux g d (w : state) : euler_flux g d w 0%Z = rho w * vel d w.
Proof. reflexivity. Qed.

(** *** Rusanov *)
Section Llf.
Context (c : config RNum) (H0 : first_order c) (HR : c_rs c = RS_llf) (HG : 1 < c_gamma c).
Context (HW : forall a, 0 < width c a).
Local Notation g := (c_gamma c).
Local Notation fl := (c_csq_floor c).
Lemma part_row E i x : gas (fun r => E r (up x 1 i)) -> gas (fun r => E r (up x (-1) i)) -> forall r, r = 0%Z \/ r = v ->
  part c E i x r = (fspeed c x E (up x 1 i) - vel x (primitive g (fun r => E r (up x 1 i)))) * E r (up x 1 i)
    + (fspeed c x E i + vel x (primitive g (fun r => E r (up x (-1) i)))) * E r (up x (-1) i).
Proof.
  intros [A _] [B _] r [-> | ->]; unfold part.
  - rewrite !o_flux. unfold rho. cbn [primitive]. ring.
  - rewrite !v_flux, !v_prim. unfold rho. cbn [primitive]. field. lra.
Qed.
Lemma part_tilt E i x : gas (fun r => E r (up x 1 i)) -> gas (fun r => E r (up x (-1) i)) ->
  tilt a b v (fun r => E r (up x 1 i)) -> tilt a b v (fun r => E r (up x (-1) i)) -> tilt a b v (part c E i x).
Proof.
  intros A B TA TB. unfold tilt in *. rewrite !(part_row E i x A B) by tauto.
  assert (P : vel x (primitive g (fun r => E r (up x 1 i))) <= fspeed c x E (up x 1 i)).
  { eapply Rle_trans; [apply Rle_abs|]. eapply Rle_trans; [|apply Rmax_r]. unfold speed.
    pose proof (sound_pos g fl HG _ A). lra. }
  assert (Q : - vel x (primitive g (fun r => E r (up x (-1) i))) <= fspeed c x E i).
  { eapply Rle_trans; [apply Rle_abs|]. rewrite Rabs_Ropp. eapply Rle_trans; [|apply Rmax_l]. unfold speed.
    pose proof (sound_pos g fl HG _ B). lra. }
  match goal with |- 0 <= a * (?k * ?x + ?l * ?y) + b * (?k * ?z + ?l * ?w) =>
    replace (a * (k * x + l * y) + b * (k * z + l * w)) with (k * (a * x + b * z) + l * (a * y + b * w)) by ring end.
  apply Rplus_le_le_0_compat; apply Rmult_le_pos; lra || assumption.
Qed.
Lemma out_row E i x : gas (fun r => E r (up x 1 i)) -> gas (fun r => E r (up x (-1) i)) -> gas (fun r => E r i) ->
  face_flux wi wt c (c_p c) None x E v (up x 1 i) - face_flux wi wt c (c_p c) None x E v i
  = 1/2 * ((fspeed c x E (up x 1 i) + fspeed c x E i) * E v i - part c E i x v).
Proof.
  intros A B C. rewrite !(flux0 c H0 HR), up_up. change (1 + -1)%Z with 0%Z. rewrite up_0. unfold rusanov.
  assert (W : forall u : state, gas u -> conserved g (primitive g u) v = u v).
  { intros u [P _]. rewrite v_cons, v_prim. unfold rho. cbn [primitive]. field. lra. }
  rewrite (W _ A), (W _ B), (W _ C).
  unfold part, fspeed. rewrite up_up. change (1 + -1)%Z with 0%Z. rewrite up_0. unfold speed. lra.
Qed.
End Llf.

(** *** HLLC *)
Section Sides.
Context (gamma fl : R) (HG : 1 < gamma) (HF : 0 < fl) (d : axis) (ul ur : state) (GL : gas ul) (GR : gas ur).
Local Notation wl := (primitive gamma ul).
Local Notation wr := (primitive gamma ur).
(** the scalar is carried by the mass that crosses the face *)
Lemma carried : exists F, toro gamma fl d wl wr 0%Z = F /\
  (0 <= F /\ toro gamma fl d wl wr v = F * (ul v / ul 0%Z) \/ F <= 0 /\ toro gamma fl d wl wr v = F * (ur v / ur 0%Z)).
Proof.
  exists (toro gamma fl d wl wr 0%Z). split; [reflexivity|].
  assert (RL : 0 < rho wl) by apply GL. assert (RR : 0 < rho wr) by apply GR.
  pose proof (w_press gamma HG ul GL) as PL. pose proof (w_press gamma HG ur GR) as PR.
  assert (Yl : physical wl) by (split; [exact RL|lra]). assert (Yr : physical wr) by (split; [exact RR|lra]).
  pose proof (sound_pos gamma fl HG ul GL) as CL. pose proof (sound_pos gamma fl HG ur GR) as CR.
  destruct (v_ne) as (N0 & N4 & NC).
  assert (Hg : 1 <= gamma) by lra.
  set (q := hllc_compute RNum gamma fl d wl wr).
  pose proof (order gamma fl d HF Hg wl wr Yl Yr) as O. fold q in O.
  destruct (stars_pos gamma fl d HF Hg wl wr Yl Yr) as [S1 S2]. fold q in S1, S2.
  destruct (hllc_gaps gamma fl d wl wr) as (G1 & G2 & G3 & G4). fold q in G1, G2, G3, G4.
  pose proof (Rmax_l (sound gamma fl wl) (sound gamma fl wr)) as M1.
  pose proof (fun r => hllc_cases gamma fl d HF Hg wl wr Yl Yr r) as CS. fold q in CS.
  assert (TS : forall r, toro gamma fl d wl wr r = hllc RNum gamma fl d wl wr r) by (intro; symmetry; apply toro_is; auto).
  assert (N0' : forall e, (0 =? comp e)%Z = false) by (intros []; reflexivity).
  assert (P0 : forall k U, star_flux d k (q_Pstar q) U 0%Z = k * U 0%Z) by (intros; unfold star_flux; rewrite N0'; cbn [Z.eqb]; lra).
  assert (PV : forall k U, star_flux d k (q_Pstar q) U v = k * U v) by (intros; unfold star_flux; rewrite NC, N4; lra).
  rewrite !TS. destruct (CS 0%Z) as (A1 & A2 & A3 & A4 & A5). destruct (CS v) as (B1 & B2 & B3 & B4 & B5).
  assert (E0 : primitive gamma ul v = ul v / ul 0%Z) by apply v_prim. assert (E5 : primitive gamma ur v = ur v / ur 0%Z) by apply v_prim.
  unfold Fstar, UL, UR, starU in A2, A4, B2, B4. fold q in A2, A4, B2, B4. rewrite P0 in A2, A4. rewrite PV in B2, B4.
  rewrite N0, N4, NC in B2, B4. cbn [Z.eqb] in A2, A4. rewrite v_flux, E0 in B1. rewrite v_flux, E5 in B5. rewrite o_flux in A1, A5. rewrite E0 in B2. rewrite E5 in B4.
  destruct (Rle_dec 0 (q_Sl q)) as [K1|K1].
  { left. rewrite (A1 K1), (B1 K1). split; [|reflexivity]. apply Rmult_le_pos; lra. }
  destruct (Rtotal_order (q_vstar q) 0) as [K2|[K2|K2]].
  - right. destruct (Rle_dec 0 (q_Sr q)) as [K3|K3].
    + rewrite (A4 K2 K3), (B4 K2 K3). split; [nra|cbn [car RNum]; ring].
    + assert (K4 : q_Sr q <= 0) by lra. rewrite (A5 K4), (B5 K4). split; [nra|reflexivity].
  - left. rewrite (A3 K2), (B3 K2). unfold pressure_flux. rewrite N0', NC. split; lra.
  - left. rewrite (A2 ltac:(lra) K2), (B2 ltac:(lra) K2). split; [apply Rmult_le_pos; lra|cbn [car RNum]; ring].
Qed.
Lemma sides_tilt m : wave_bound gamma fl d ul ur m -> tilt a b v ul -> tilt a b v ur ->
  tilt a b v (fun r => 2 * m * ul r - (toro gamma fl d wl wr r - euler_flux gamma d wl r)) /\
  tilt a b v (fun r => 2 * m * ur r + (toro gamma fl d wl wr r - euler_flux gamma d wr r)).
Proof.
  intros WB TL TR. destruct (sides gamma fl HG HF d ul ur GL GR m WB) as [[XL _] [XR _]].
  destruct carried as (F & F0 & FC). cbv beta in XL, XR. rewrite F0, o_flux in XL, XR.
  assert (RL : 0 < ul 0%Z) by apply GL. assert (RR : 0 < ur 0%Z) by apply GR.
  unfold tilt in *. cbv beta. rewrite F0, !v_flux, !o_flux, !v_prim. unfold rho in *. cbn [primitive] in *.
  destruct WB as [W1 W2]. pose proof (sound_pos gamma fl HG ul GL) as CL. pose proof (sound_pos gamma fl HG ur GR) as CR.
  set (sl := vel d wl) in *. set (sr := vel d wr) in *.
  assert (VL : - m < sl < m). { pose proof (Rle_abs sl). pose proof (Rle_abs (- sl)) as Q. rewrite Rabs_Ropp in Q. lra. }
  assert (VR : - m < sr < m). { pose proof (Rle_abs sr). pose proof (Rle_abs (- sr)) as Q. rewrite Rabs_Ropp in Q. lra. }
  assert (AL : forall k, a * (k * (ul v / ul 0%Z)) + b * k = k * ((a * ul v + b * ul 0%Z) / ul 0%Z)) by (intro; field; lra).
  assert (AR : forall k, a * (k * (ur v / ur 0%Z)) + b * k = k * ((a * ur v + b * ur 0%Z) / ur 0%Z)) by (intro; field; lra).
  assert (TL' : 0 <= (a * ul v + b * ul 0%Z) / ul 0%Z) by (apply Rmult_le_pos; [exact TL|apply Rlt_le, Rinv_0_lt_compat, RL]).
  assert (TR' : 0 <= (a * ur v + b * ur 0%Z) / ur 0%Z) by (apply Rmult_le_pos; [exact TR|apply Rlt_le, Rinv_0_lt_compat, RR]).
  assert (UL : ul v = ul 0%Z * (ul v / ul 0%Z)) by (field; lra). assert (UR : ur v = ur 0%Z * (ur v / ur 0%Z)) by (field; lra).
  set (x := ul v / ul 0%Z) in *. set (y := ur v / ur 0%Z) in *. rewrite UL, UR in *.
  destruct FC as [[S FV]|[S FV]]; rewrite FV.
  - split.
    + apply Rle_trans with ((2 * m * ul 0%Z - (F - ul 0%Z * sl)) * (a * x + b)); [|right; ring]. apply Rmult_le_pos; [lra|].
      replace (a * x + b) with ((a * (ul 0%Z * x) + b * ul 0%Z) / ul 0%Z) by (field; lra). exact TL'.
    + apply Rle_trans with (ur 0%Z * (2 * m - sr) * (a * y + b) + F * (a * x + b)); [|right; ring].
      apply Rplus_le_le_0_compat; apply Rmult_le_pos; try exact S.
      * apply Rmult_le_pos; lra.
      * replace (a * y + b) with ((a * (ur 0%Z * y) + b * ur 0%Z) / ur 0%Z) by (field; lra). exact TR'.
      * replace (a * x + b) with ((a * (ul 0%Z * x) + b * ul 0%Z) / ul 0%Z) by (field; lra). exact TL'.
  - split.
    + apply Rle_trans with (ul 0%Z * (2 * m + sl) * (a * x + b) + - F * (a * y + b)); [|right; ring].
      apply Rplus_le_le_0_compat; apply Rmult_le_pos; try lra.
      * apply Rmult_le_pos; lra.
      * replace (a * x + b) with ((a * (ul 0%Z * x) + b * ul 0%Z) / ul 0%Z) by (field; lra). exact TL'.
      * replace (a * y + b) with ((a * (ur 0%Z * y) + b * ur 0%Z) / ur 0%Z) by (field; lra). exact TR'.
    + apply Rle_trans with ((2 * m * ur 0%Z + (F - ur 0%Z * sr)) * (a * y + b)); [|right; ring]. apply Rmult_le_pos; [lra|].
      replace (a * y + b) with ((a * (ur 0%Z * y) + b * ur 0%Z) / ur 0%Z) by (field; lra). exact TR'.
Qed.
End Sides.

(** *** a step *)
Definition steps_tilt (c : config RNum) : Prop := forall (E : grid) (i : ix) (dt m : R),
  (forall x, inactive_b c x = false -> gas (fun r => E r (up x 1 i)) /\ gas (fun r => E r (up x (-1) i))) -> gas (fun r => E r i) ->
  (forall x, inactive_b c x = false -> tilt a b v (fun r => E r (up x 1 i)) /\ tilt a b v (fun r => E r (up x (-1) i))) -> tilt a b v (fun r => E r i) ->
  (forall x, inactive_b c x = false -> speed c x (fun r => E r (up x (-1) i)) <= m /\ speed c x (fun r => E r i) <= m /\ speed c x (fun r => E r (up x 1 i)) <= m) ->
  0 < m -> 0 < dt -> dt * m <= c_CFL c * Rmin (width c AX) (Rmin (width c AY) (width c AZ)) ->
  tilt a b v (fun r => E r i + dt * balance c (fun d => face_flux wi wt c (c_p c) None d E) r i).
Section Step.
Context (c : config RNum) (H0 : first_order c) (HG : 1 < c_gamma c) (HW : forall x, 0 < width c x).
Local Notation g := (c_gamma c).
Local Notation fl := (c_csq_floor c).
Lemma cfl_axis dt m x : 0 < m -> 0 < dt -> dt * m <= c_CFL c * Rmin (width c AX) (Rmin (width c AY) (width c AZ)) ->
  0 <= c_CFL c /\ dt / width c x * m <= c_CFL c.
Proof.
  intros Hm Hdt Hcfl.
  assert (CF : 0 <= c_CFL c).
  { assert (0 < Rmin (width c AX) (Rmin (width c AY) (width c AZ))) by (repeat apply Rmin_pos; apply HW).
    assert (0 < dt * m) by (apply Rmult_lt_0_compat; assumption). nra. }
  split; [exact CF|].
  replace (dt / width c x * m) with (dt * m / width c x) by (field; pose proof (HW x); lra).
  apply Rmult_le_reg_r with (width c x); [apply HW|]. replace (dt * m / width c x * width c x) with (dt * m) by (field; pose proof (HW x); lra).
  eapply Rle_trans; [exact Hcfl|]. apply Rmult_le_compat_l; [exact CF|].
  destruct x; [apply Rmin_l|eapply Rle_trans; [apply Rmin_r|apply Rmin_l]|eapply Rle_trans; [apply Rmin_r|apply Rmin_r]].
Qed.
Lemma tilt_step (E : grid) (i : ix) (dt : R) (K : axis -> R) (Q : axis -> Z -> R) :
  0 <= 1 - (K AX + K AY + K AZ) -> (forall x, tilt a b v (Q x)) -> tilt a b v (fun r => E r i) ->
  (forall x r, r = 0%Z \/ r = v -> (if inactive_b c x then 0 else (face_flux wi wt c (c_p c) None x E r (up x 1 i) - face_flux wi wt c (c_p c) None x E r i) / width c x) * dt
     = K x * E r i - Q x r) ->
  tilt a b v (fun r => E r i + dt * balance c (fun d => face_flux wi wt c (c_p c) None d E) r i).
Proof.
  intros KS QT TE OUT. unfold tilt in *. cbv beta in *.
  assert (R : forall r, r = 0%Z \/ r = v -> E r i + dt * balance c (fun d => face_flux wi wt c (c_p c) None d E) r i
    = (1 - (K AX + K AY + K AZ)) * E r i + (Q AX r + Q AY r + Q AZ r)).
  { intros r Hr. unfold balance. cbv zeta. pose proof (OUT AX r Hr). pose proof (OUT AY r Hr). pose proof (OUT AZ r Hr). lra. }
  rewrite !R by tauto. pose proof (QT AX). pose proof (QT AY). pose proof (QT AZ).
  assert (0 <= (1 - (K AX + K AY + K AZ)) * (a * E v i + b * E 0%Z i)) by (apply Rmult_le_pos; assumption). lra.
Qed.
Lemma tilt_scale k (u : state) : 0 <= k -> tilt a b v u -> tilt a b v (fun r => k * u r).
Proof. unfold tilt. intros A B. replace (a * (k * u v) + b * (k * u 0%Z)) with (k * (a * u v + b * u 0%Z)) by ring. apply Rmult_le_pos; assumption. Qed.
Lemma llf_tilt : c_rs c = RS_llf -> c_CFL c * active_axes c <= 1 -> steps_tilt c.
Proof.
  intros HR H1 E i dt m HN HC TN TC HM Hm Hdt Hcfl.
  assert (FM : forall x, inactive_b c x = false -> fspeed c x E i <= m /\ fspeed c x E (up x 1 i) <= m).
  { intros x I. destruct (HM x I) as (X & Y & Z). unfold fspeed. rewrite up_up. change (1 + -1)%Z with 0%Z. rewrite up_0. split; apply Rmax_lub; assumption. }
  assert (L : forall x, 0 < dt / width c x) by (intro x; apply Rdiv_lt_0_compat; auto).
  apply (tilt_step E i dt (fun x => if inactive_b c x then 0 else dt / width c x * (1/2) * (fspeed c x E (up x 1 i) + fspeed c x E i))
    (fun x r => (if inactive_b c x then 0 else dt / width c x * (1/2)) * part c E i x r)).
  - assert (KB : forall x, (if inactive_b c x then 0 else dt / width c x * (1/2) * (fspeed c x E (up x 1 i) + fspeed c x E i)) <= c_CFL c * (if inactive_b c x then 0 else 1)).
    { intro x. destruct (inactive_b c x) eqn:I; [lra|]. destruct (FM x I) as [M1 M2]. specialize (L x). destruct (cfl_axis dt m x Hm Hdt Hcfl). nra. }
    pose proof (KB AX). pose proof (KB AY). pose proof (KB AZ). unfold active_axes in H1. lra.
  - intro x. destruct (inactive_b c x) eqn:I; [unfold tilt; lra|]. apply tilt_scale; [specialize (L x); lra|].
    destruct (HN x I), (TN x I). apply part_tilt; assumption.
  - exact TC.
  - intros x r Hr. destruct (inactive_b c x) eqn:I; [lra|]. destruct (HN x I) as [A B].
    assert (OUT : face_flux wi wt c (c_p c) None x E r (up x 1 i) - face_flux wi wt c (c_p c) None x E r i
      = 1/2 * ((fspeed c x E (up x 1 i) + fspeed c x E i) * E r i - part c E i x r)).
    { destruct Hr as [-> | ->]; [apply out_is; auto; lia|apply out_row; assumption]. }
    rewrite OUT. field. pose proof (HW x). lra.
Qed.
Lemma hllc_tilt : c_rs c = RS_hllc -> 0 < fl -> c_CFL c * active_axes c <= 1/4 -> steps_tilt c.
Proof.
  intros HR HF H1 E i dt m HN HC TN TC HM Hm Hdt Hcfl.
  assert (L : forall x, 0 < dt / width c x) by (intro x; apply Rdiv_lt_0_compat; auto).
  apply (tilt_step E i dt (fun x => if inactive_b c x then 0 else dt / width c x * (4 * m))
    (fun x r => (if inactive_b c x then 0 else dt / width c x) * hpart c E i m x r)).
  - assert (KB : forall x, (if inactive_b c x then 0 else dt / width c x * (4 * m)) <= 4 * c_CFL c * (if inactive_b c x then 0 else 1)).
    { intro x. destruct (inactive_b c x) eqn:I; [lra|]. destruct (cfl_axis dt m x Hm Hdt Hcfl). lra. }
    pose proof (KB AX). pose proof (KB AY). pose proof (KB AZ). unfold active_axes in H1. lra.
  - intro x. destruct (inactive_b c x) eqn:I; [unfold tilt; lra|]. apply tilt_scale; [specialize (L x); lra|].
    destruct (HN x I) as [A B], (TN x I) as [TA TB], (HM x I) as (D1 & D2 & D3).
    destruct (sides_tilt g fl HG HF x _ _ HC A m (conj D2 D3) TC TA) as [X _].
    destruct (sides_tilt g fl HG HF x _ _ B HC m (conj D1 D2) TB TC) as [_ Y].
    unfold tilt, hpart in *. cbv beta in *. rewrite !(hflux0 c H0 HR), up_up. change (1 + -1)%Z with 0%Z. rewrite up_0. lra.
  - exact TC.
  - intros x r Hr. unfold hpart. destruct (inactive_b c x) eqn:I; [lra|]. field. pose proof (HW x). lra.
Qed.
End Step.
End Row.

(** ** whole runs *)
Section Run.
Context (lo hi : R) (v : Z) (Hv : ~ (0 <= v <= 4)%Z).
Context (c : config RNum) (heap : Z -> Z -> ix -> R) (r : Z) (HT : tabulated c) (HC : closed c) (HL : c_limit c = false).
Context (H0 : first_order c) (HF : c_fixed_dt c = None) (HG : 1 < c_gamma c) (HW : forall a, 0 < width c a).
Context (CF0 : 0 < c_CFL c) (STEP : steps_gas c) (TILT : forall a b, steps_tilt a b v c) (Hr : (1 <= r)%Z).
Local Notation g := (c_gamma c).
Definition mixed_state (x : aux RNum) (u : arr R) : Prop := sound_state c r x u /\ mixed_within lo hi v u.
Lemma zone_folds i : flux_zone c i -> in_shape (c_n c) (folded3 (c_bc c) (c_n c) i).
Proof.
  intro Z. apply (folded_in RNum c HT HC). intro a. specialize (Z a). cbv zeta in Z.
  assert (TD : top_degree (c_p c) = 0%Z).
  { unfold top_degree. pose proof (H0 AX). pose proof (H0 AY). pose proof (H0 AZ). cbn [getc] in *. lia. }
  rewrite TD in Z.
  pose proof (width_main RNum c HT a) as W. pose proof (ghost_width_pos (c_p c) (degs c HT)). unfold solver_width in W. rewrite getc_prim_width in W.
  rewrite getc_active_width, active_inactive in W. unfold interp_cost in W. rewrite H0 in W. cbn in W.
  destruct (inactive_b c a); cbn [negb] in W; [lia|]. change (half_up 0) with 0%Z in Z. lia.
Qed.
Lemma filled_row u i : filled c u v i = at_ u v (folded3 (c_bc c) (c_n c) i) /\ filled c u 0%Z i = at_ u 0%Z (folded3 (c_bc c) (c_n c) i).
Proof.
  split; [|reflexivity]. unfold filled.
  assert (N : negated3 (c_bc c) (c_n c) i v = false).
  { unfold negated3. destruct (v_ne v Hv) as (_ & _ & NC). change (vrow AX) with (comp AX). change (vrow AY) with (comp AY). change (vrow AZ) with (comp AZ). rewrite (NC AX), (NC AY), (NC AZ). reflexivity. }
  rewrite N. reflexivity.
Qed.
Lemma filled_mixed u i : shp u = c_n c -> mixed_within lo hi v u -> flux_zone c i ->
  tilt 1 (- lo) v (fun s => filled c u s i) /\ tilt (-1) hi v (fun s => filled c u s i).
Proof.
  intros Su M Z. apply mixed_tilt. destruct (filled_row u i) as [-> ->]. apply M. rewrite Su. apply zone_folds, Z.
Qed.
Lemma mixed_sound s t u target s' dt un u' : mixed_state s u -> (forall d, target = Some d -> t < d) ->
  solver_step RNum c heap I_euler s t u target = Ok (s', (dt, un)) -> vassign (arr_ops RNum) u un = Ok u' ->
  mixed_state (step_helper RNum c s') u' /\ (forall d, target = Some d -> t + dt <= d).
Proof.
  intros [SS M] HTg H HA.
  destruct (euler_sound c heap r HT HC HL H0 HF HG HW CF0 STEP Hr s t u target s' dt un u' SS HTg H HA) as [SS' HB].
  destruct (euler_step_is c heap r HT HC HL H0 HF HG HW CF0 Hr s t u target s' dt un u' SS HTg H HA) as (_ & RZ & SZ & FO & m & Pm & PD & LE & SP & V).
  destruct SS as (Ru & Su & _ & GU). split; [|exact HB]. split; [exact SS'|].
  intros i Hi. assert (Hi' : in_shape (c_n c) i) by (rewrite <- SZ; exact Hi). clear Hi.
  assert (FG : forall j, flux_zone c j -> gas (fun s => filled c u s j)) by (intros; apply (filled_gas c HT HC H0); auto).
  assert (FM : forall j, flux_zone c j -> tilt 1 (- lo) v (fun s => filled c u s j) /\ tilt (-1) hi v (fun s => filled c u s j)) by (intros; apply filled_mixed; auto).
  assert (ZN : forall a k, inactive_b c a = false -> (-1 <= k <= 1)%Z -> flux_zone c (up a k i)) by (intros; apply zone_near; auto).
  assert (ZI : flux_zone c i) by (apply zone_in; auto).
  rewrite !V by exact Hi'.
  apply (mixed_tilt lo hi v (fun s => filled c u s i + dt * balance c (fun d => face_flux wi wt c (c_p c) None d (filled c u)) s i)).
  split; apply (TILT _ _ (filled c u) i dt m); auto.
  all: try (intros a I; split; try split; first [apply FG|apply FM|apply SP]; auto; apply ZN; auto; lia).
  all: apply FM; exact ZI.
Qed.
Lemma mixed_snap av x t u d : mixed_state x u -> snap_payload RNum c heap av x t u = Ok d -> concentration_within lo hi v (fst d).
Proof.
  intros ((Ru & Su & FO & GU) & M) H.
  destruct (payload_is RNum c heap av x t u (filled c u) HT Su (padding_filled c HT HC t u Su)) as (w & E & Rw & Sw & Vw).
  rewrite E in H. injection H as <-. cbn [fst]. intros i Hi. assert (Hi' : in_shape (c_n c) i) by (rewrite <- Sw; exact Hi). clear Hi.
  assert (P : at_ w v i = primitive g (fun s => filled c u s i) v).
  { etransitivity; [apply Vw; exact Hi'|]. rewrite (gprim_is c HT). destruct av; [apply (prim0 c H0)|].
    unfold centre_prim, block. cbv zeta. rewrite !H0, !w0_i by tauto. repeat rewrite line_1. reflexivity. }
  pose proof (filled_gas c HT HC H0 u i Su GU (zone_in c H0 i Hi')) as [G0 _].
  pose proof (filled_mixed u i Su M (zone_in c H0 i Hi')) as T. apply mixed_tilt in T. cbv beta in T, G0.
  change (car RNum) with R in P, w. rewrite P, (v_prim v Hv). split.
  - apply Rmult_le_reg_r with (filled c u 0%Z i); [exact G0|]. eapply Rle_trans; [apply T|]. right. field. lra.
  - apply Rmult_le_reg_r with (filled c u 0%Z i); [exact G0|]. eapply Rle_trans; [|apply T]. right. field. lra.
Qed.
End Run.
Theorem mixed_runs : forall lo hi v (c : config RNum) heap as_averages T n exact downbeats log fuel u0 o,
  ~ (0 <= v <= 4)%Z -> tabulated c -> closed c -> c_limit c = false -> first_order c -> c_fixed_dt c = None ->
  1 < c_gamma c -> (forall a, 0 < width c a) -> 0 < c_CFL c ->
  (c_rs c = RS_llf /\ c_CFL c * active_axes c <= 1 \/ c_rs c = RS_hllc /\ 0 < c_csq_floor c /\ c_CFL c * active_axes c <= 1/4) ->
  shp u0 = c_n c -> (1 <= rows u0)%Z -> gas_everywhere u0 -> mixed_within lo hi v u0 -> Forall (fun x => 0 <= x) downbeats ->
  simulate c heap I_euler as_averages T n exact downbeats log fuel u0 = Ok o ->
  mixed_within lo hi v (o_u o) /\ Forall (fun s => concentration_within lo hi v (fst (snd s))) (o_snaps o).
Proof.
  intros lo hi v c heap av T n ex db log fuel u0 o Hv HT HC HL H0 HF HG HW C0 RS Su Ru GU M HD H.
  assert (ST : steps_gas c).
  { destruct RS as [[HR C1]|(HR & Hf & C1)]; [|apply hstep_gas; assumption].
    intros E i dt m A B CC D F G J. eapply (step_gas c H0 HR HG HW E i dt m); eauto.
    intros a I. destruct (D a I) as (X & Y & Z). unfold fspeed. rewrite up_up. change (1 + -1)%Z with 0%Z. rewrite up_0.
    split; apply Rmax_lub; assumption. }
  assert (TI : forall a b, steps_tilt a b v c).
  { intros a b. destruct RS as [[HR C1]|(HR & Hf & C1)]; [apply llf_tilt; assumption|apply hllc_tilt; assumption]. }
  unfold simulate, solver_integrate in H.
  apply (fine_integrate (arr_ops RNum) (solver_step RNum c heap I_euler) (step_helper RNum c) (snap_payload RNum c heap av)
    (fun x _ => mixed_state lo hi v c (rows u0) x) (fun d => concentration_within lo hi v (fst d))) in H.
  - destruct H as [[_ G] F]. split; assumption.
  - intros s t u target s' dt un u'. apply mixed_sound; auto.
  - intros s t u d. apply mixed_snap with (r := rows u0); auto.
  - split; [|exact M]. split; [reflexivity|]. split; [exact Su|]. split; [|exact GU]. intro d. cbn. auto.
  - exact HD.
Qed.

Theorem hllc_carried : forall gamma floor d v (ul ur : state), ~ (0 <= v <= 4)%Z -> 1 < gamma -> 0 < floor -> gas ul -> gas ur ->
  let flux := hllc RNum gamma floor d (primitive gamma ul) (primitive gamma ur) in
  (0 <= flux 0%Z /\ flux v = flux 0%Z * (ul v / ul 0%Z)) \/ (flux 0%Z <= 0 /\ flux v = flux 0%Z * (ur v / ur 0%Z)).
Proof.
  intros gamma fl d v ul ur Hv HG HF GL GR. cbv zeta. destruct (carried v Hv gamma fl HG HF d ul ur GL GR) as (F & <- & H).
  assert (TS : forall r, hllc RNum gamma fl d (primitive gamma ul) (primitive gamma ur) r = toro gamma fl d (primitive gamma ul) (primitive gamma ur) r).
  { intro. pose proof (w_press gamma HG ul GL). pose proof (w_press gamma HG ur GR). apply toro_is; auto; try lra; split; try apply GL; try apply GR; lra. }
  rewrite !TS. exact H.
Qed.
