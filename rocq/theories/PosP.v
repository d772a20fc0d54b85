(** Positivity of density and pressure in first-order runs with the Rusanov flux. *)
From Coq Require Import ZArith List Bool Lia Reals Lra Sorting FunctionalExtensionality.
From Verif Require Import Err Num PySlice NdArray HydroM RiemannM StencilsM FvM BcM SedM
  LimitM OdeM SolverM Spec SpecBc SpecSolver SpecCons SpecScheme SpecSym SpecPos NdArrayP FvP BcP BcQ OpP SolverP OdeP RelP RelS LimP RunP ConsP
  RiemannP HydroP LoopP SlopeP WallP ExistP SchemeP SymP SeamP ShiftP WatchP UniformP MirrorP.
From Verif Require OdeT.
Import ListNotations.
Open Scope Z_scope.

Local Notation wi := (wts_i RNum).
Local Notation wt := (wts_t RNum).
(** ** the cone of gas states *)
Open Scope R_scope.
Definition heat (u : state) : R := u 4%Z - 1/2 * (u 1%Z * u 1%Z + u 2%Z * u 2%Z + u 3%Z * u 3%Z) / u 0%Z.
Definition wgas (u : state) : Prop := gas u \/ (forall r, (0 <= r <= 4)%Z -> u r = 0).
Lemma gas_ext u v : gas u -> (forall r, (0 <= r <= 4)%Z -> u r = v r) -> gas v.
Proof. intros [A B] H. unfold gas. rewrite <- !H by lia. auto. Qed.
Lemma gas_scale k u : 0 < k -> gas u -> gas (fun r => k * u r).
Proof.
  intros K [A B]. unfold gas. cbv beta. split; [apply Rmult_lt_0_compat; assumption|].
  replace (k * u 4%Z - 1/2 * (k * u 1%Z * (k * u 1%Z) + k * u 2%Z * (k * u 2%Z) + k * u 3%Z * (k * u 3%Z)) / (k * u 0%Z))
    with (k * (u 4%Z - 1/2 * (u 1%Z * u 1%Z + u 2%Z * u 2%Z + u 3%Z * u 3%Z) / u 0%Z)) by (field; lra).
  apply Rmult_lt_0_compat; assumption.
Qed.
Lemma gas_add u v : gas u -> gas v -> gas (fun r => u r + v r).
Proof.
  intros [A B] [C D]. unfold gas. cbv beta. split; [lra|].
  pose (q := (fun r => (u r / u 0%Z - v r / v 0%Z) * (u r / u 0%Z - v r / v 0%Z))).
  assert (Q : forall r, 0 <= q r) by (intro; unfold q; apply Rle_0_sqr).
  assert (E : u 4%Z + v 4%Z - 1/2 * ((u 1%Z + v 1%Z) * (u 1%Z + v 1%Z) + (u 2%Z + v 2%Z) * (u 2%Z + v 2%Z) + (u 3%Z + v 3%Z) * (u 3%Z + v 3%Z)) / (u 0%Z + v 0%Z)
    = (u 4%Z - 1/2 * (u 1%Z * u 1%Z + u 2%Z * u 2%Z + u 3%Z * u 3%Z) / u 0%Z)
    + (v 4%Z - 1/2 * (v 1%Z * v 1%Z + v 2%Z * v 2%Z + v 3%Z * v 3%Z) / v 0%Z)
    + 1/2 * (u 0%Z * v 0%Z / (u 0%Z + v 0%Z)) * (q 1%Z + q 2%Z + q 3%Z)) by (unfold q; field; lra).
  rewrite E. assert (0 <= 1/2 * (u 0%Z * v 0%Z / (u 0%Z + v 0%Z)) * (q 1%Z + q 2%Z + q 3%Z)).
  { apply Rmult_le_pos; [|pose proof (Q 1%Z); pose proof (Q 2%Z); pose proof (Q 3%Z); lra].
    apply Rmult_le_pos; [lra|]. apply Rlt_le, Rdiv_lt_0_compat; [apply Rmult_lt_0_compat; assumption|lra]. }
  lra.
Qed.
Lemma wgas_add u v : gas u -> wgas v -> gas (fun r => u r + v r).
Proof. intros H [K|K]; [apply gas_add; assumption|]. eapply gas_ext; [exact H|]. intros r Hr. cbn beta. rewrite (K r Hr). lra. Qed.
Lemma wgas_scale k u : 0 <= k -> gas u -> wgas (fun r => k * u r).
Proof. intros [K|<-] H; [left; apply gas_scale; assumption|right; intros; lra]. Qed.

(** the one-sided parts of the flux *)
Section Part.
Context (gamma fl : R) (HG : 1 < gamma) (d : axis) (u : state) (U : gas u).
Let w := primitive gamma u.
Lemma w_press : 0 < press w.
Proof. unfold press, w. cbn [primitive]. destruct U. apply Rmult_lt_0_compat; [lra|assumption]. Qed.
Lemma w_rho : rho w = u 0%Z. Proof. reflexivity. Qed.
Lemma w_vel a : vel a w = u (comp a) / u 0%Z. Proof. destruct a; reflexivity. Qed.
Lemma w_cons r : (0 <= r <= 4)%Z -> conserved gamma w r = u r.
Proof.
  intro Hr. destruct U as [A _]. assert (r = 0 \/ r = 1 \/ r = 2 \/ r = 3 \/ r = 4)%Z as [-> |[-> |[-> |[-> | ->]]]] by lia;
  unfold conserved, total_energy, rho, press, vel, w; cbn [primitive comp]; try reflexivity; field; lra.
Qed.
Lemma sound_sq : gamma * press w / rho w <= sound gamma fl w * sound gamma fl w.
Proof.
  unfold sound. rewrite sqrt_sqrt; [apply Rmax_l|]. eapply Rle_trans; [|apply Rmax_l].
  apply Rlt_le, Rdiv_lt_0_compat; [apply Rmult_lt_0_compat; [lra|apply w_press]|apply U].
Qed.
Lemma sound_pos : 0 < sound gamma fl w.
Proof.
  apply sqrt_lt_R0. eapply Rlt_le_trans; [|apply Rmax_l].
  apply Rdiv_lt_0_compat; [apply Rmult_lt_0_compat; [lra|apply w_press]|apply U].
Qed.
(** s u - f(u) and s u + f(u) are gas when s is at least the fastest wave *)
Lemma part_gas (e s : R) : e = 1 \/ e = -1 -> Rabs (vel d w) + sound gamma fl w <= s ->
  gas (fun r => s * u r - e * euler_flux gamma d w r).
Proof.
  intros He Hs. pose proof sound_sq as SQ. pose proof sound_pos as SP. pose proof w_press as WP. destruct U as [A B].
  pose (k := s - e * vel d w).
  assert (K : sound gamma fl w <= k).
  { unfold k. pose proof (Rle_abs (vel d w)). pose proof (Rle_abs (- vel d w)) as Q. rewrite Rabs_Ropp in Q. destruct He as [-> | ->]; lra. }
  assert (K2 : gamma * press w / rho w <= k * k) by nra.
  assert (HD : forall r, (r = 0 \/ r = 1 \/ r = 2 \/ r = 3)%Z -> s * u r - e * euler_flux gamma d w r = k * u r - (if (r =? comp d)%Z then e * press w else 0)).
  { intros r [-> |[-> |[-> | ->]]]; unfold k, euler_flux, rho, vel, w; destruct d; cbn [comp Z.eqb Pos.eqb primitive]; field; lra. }
  assert (H4 : s * u 4%Z - e * euler_flux gamma d w 4%Z = k * u 4%Z - e * vel d w * press w).
  { pose proof (w_cons 4 ltac:(lia)) as WC. cbn [conserved] in WC. unfold euler_flux. cbn [Z.eqb Pos.eqb]. rewrite WC. unfold k. ring. }
  unfold gas. cbv beta. rewrite H4, (HD 0%Z), (HD 1%Z), (HD 2%Z), (HD 3%Z) by tauto.
  assert (C0 : (0 =? comp d)%Z = false) by (destruct d; reflexivity). rewrite C0. cbv iota.
  split; [rewrite Rminus_0_r; apply Rmult_lt_0_compat; lra|].
  assert (P1 : u 4%Z - 1/2 * (u 1%Z * u 1%Z + u 2%Z * u 2%Z + u 3%Z * u 3%Z) / u 0%Z = press w / (gamma - 1)).
  { unfold press, w. cbn [primitive]. field. lra. }
  assert (E2 : e * e = 1) by (destruct He as [-> | ->]; ring).
  assert (E : k * u 4%Z - e * vel d w * press w -
    1/2 * ((k * u 1%Z - (if (1 =? comp d)%Z then e * press w else 0)) * (k * u 1%Z - (if (1 =? comp d)%Z then e * press w else 0)) +
           (k * u 2%Z - (if (2 =? comp d)%Z then e * press w else 0)) * (k * u 2%Z - (if (2 =? comp d)%Z then e * press w else 0)) +
           (k * u 3%Z - (if (3 =? comp d)%Z then e * press w else 0)) * (k * u 3%Z - (if (3 =? comp d)%Z then e * press w else 0))) / (k * u 0%Z - 0)
    = k * (press w / (gamma - 1)) - (e * e) * (press w * press w) / (2 * u 0%Z * k)).
  { rewrite <- P1. rewrite w_vel. set (P := press w). destruct d; cbn [comp Z.eqb Pos.eqb]; field; lra. }
  rewrite E, E2. rewrite w_rho in K2.
  assert (X : press w * press w / (2 * u 0%Z * k) * k = press w * press w / (2 * u 0%Z)) by (field; lra).
  apply Rmult_lt_reg_r with k; [lra|]. rewrite Rmult_0_l, Rmult_minus_distr_r, Rmult_1_l, X.
  replace (k * (press w / (gamma - 1)) * k) with (press w / (gamma - 1) * (k * k)) by ring.
  assert (Y : press w / (gamma - 1) * (gamma * press w / u 0%Z) <= press w / (gamma - 1) * (k * k)).
  { apply Rmult_le_compat_l; [apply Rlt_le, Rdiv_lt_0_compat; lra|exact K2]. }
  assert (Z : press w * press w / (2 * u 0%Z) < press w / (gamma - 1) * (gamma * press w / u 0%Z)).
  { apply Rminus_gt_0_lt.
    replace (press w / (gamma - 1) * (gamma * press w / u 0%Z) - press w * press w / (2 * u 0%Z))
      with (press w * press w * (gamma + 1) / (2 * u 0%Z * (gamma - 1))) by (field; lra).
    apply Rlt_gt, Rdiv_lt_0_compat; [|apply Rmult_lt_0_compat; lra].
    apply Rmult_lt_0_compat; [apply Rmult_lt_0_compat; assumption|lra]. }
  lra.
Qed.
End Part.

(** ** a step *)
Lemma wgas_sum u v : wgas u -> wgas v -> wgas (fun r => u r + v r).
Proof.
  intros H [K|K].
  - left. eapply gas_ext; [apply (wgas_add v u K H)|]. intros; cbn beta; lra.
  - destruct H as [H|H]; [left|right; intros r Hr; cbn beta; rewrite (H r Hr), (K r Hr); lra].
    eapply gas_ext; [exact H|]. intros r Hr. cbn beta. rewrite (K r Hr). lra.
Qed.
Section Step.
Context (c : config RNum) (HT : tabulated c) (H0 : first_order c) (HR : c_rs c = RS_llf) (HG : 1 < c_gamma c).
Context (HW : forall a, 0 < width c a).
Local Notation g := (c_gamma c).
Local Notation fl := (c_csq_floor c).
Lemma prim0 (E : grid) v i : primitives wi wt (c_p c) g E v i = primitive g (fun r => E r i) v.
Proof. unfold primitives, block. cbv zeta. rewrite !H0, w0_t, !w0_i by tauto. repeat rewrite line_1. reflexivity. Qed.
Lemma flux0 (E : grid) d v i : face_flux wi wt c (c_p c) None d E v i =
  rusanov g fl d (primitive g (fun r => E r (up d (-1) i))) (primitive g (fun r => E r i)) v.
Proof.
  assert (P : primitives wi wt (c_p c) g E = fun v i => primitive g (fun r => E r i) v) by (apply grid_eq; intros; apply prim0).
  unfold face_flux. cbv zeta. rewrite P, HR. unfold trace, across. cbv zeta. rewrite !H0, w0_t, !w0_i by tauto.
  destruct d; repeat rewrite line_1; reflexivity.
Qed.
Definition speed (d : axis) (u : state) : R := Rabs (vel d (primitive g u)) + sound g fl (primitive g u).
Definition fspeed (d : axis) (E : grid) (i : ix) : R := Rmax (speed d (fun r => E r (up d (-1) i))) (speed d (fun r => E r i)).
Lemma up_up d k j i : up d k (up d j i) = up d (j + k) i.
Proof. unfold up. rewrite getc_setc_eq. apply ix_ext. intro a. destruct (axis_dec d a) as [<-|N]; [rewrite !getc_setc_eq; lia|rewrite !getc_setc_ne; auto]. Qed.
Definition part (E : grid) (i : ix) (a : axis) (r : Z) : R :=
  (fspeed a E (up a 1 i) * E r (up a 1 i) - 1 * euler_flux g a (primitive g (fun r => E r (up a 1 i))) r)
  + (fspeed a E i * E r (up a (-1) i) - -1 * euler_flux g a (primitive g (fun r => E r (up a (-1) i))) r).
Lemma part_is_gas E i a : gas (fun r => E r (up a 1 i)) -> gas (fun r => E r (up a (-1) i)) -> gas (part E i a).
Proof.
  intros A B. unfold part. apply gas_add.
  - apply (part_gas g fl HG a (fun r => E r (up a 1 i)) A); [left; reflexivity|]. apply Rmax_r.
  - apply (part_gas g fl HG a (fun r => E r (up a (-1) i)) B); [right; reflexivity|]. apply Rmax_l.
Qed.
Lemma out_is E i a r : (0 <= r <= 4)%Z -> gas (fun r => E r (up a 1 i)) -> gas (fun r => E r (up a (-1) i)) -> gas (fun r => E r i) ->
  face_flux wi wt c (c_p c) None a E r (up a 1 i) - face_flux wi wt c (c_p c) None a E r i
  = 1/2 * ((fspeed a E (up a 1 i) + fspeed a E i) * E r i - part E i a r).
Proof.
  intros Hr A B C. rewrite !flux0, up_up. change (1 + -1)%Z with 0%Z. rewrite up_0. unfold rusanov.
  rewrite (w_cons g HG _ A r Hr), (w_cons g HG _ B r Hr), (w_cons g HG _ C r Hr).
  unfold part, fspeed. rewrite up_up. change (1 + -1)%Z with 0%Z. rewrite up_0. unfold speed. lra.
Qed.
(** a forward Euler step no longer than the CFL condition allows *)
Lemma step_gas (E : grid) (i : ix) (dt m : R) :
  (forall a, inactive_b c a = false -> gas (fun r => E r (up a 1 i)) /\ gas (fun r => E r (up a (-1) i))) -> gas (fun r => E r i) ->
  (exists a, inactive_b c a = false) ->
  (forall a, inactive_b c a = false -> fspeed a E i <= m /\ fspeed a E (up a 1 i) <= m) -> 0 < m ->
  0 < dt -> dt * m <= c_CFL c * Rmin (width c AX) (Rmin (width c AY) (width c AZ)) -> c_CFL c * active_axes c <= 1 ->
  gas (fun r => E r i + dt * balance c (fun d => face_flux wi wt c (c_p c) None d E) r i).
Proof.
  intros HN HC HA HM Hm Hdt Hcfl H1.
  set (K := fun a => if inactive_b c a then 0 else dt / width c a * (1/2) * (fspeed a E (up a 1 i) + fspeed a E i)).
  set (Q := fun a r => (if inactive_b c a then 0 else dt / width c a * (1/2)) * part E i a r).
  assert (CF : 0 <= c_CFL c).
  { assert (0 < Rmin (width c AX) (Rmin (width c AY) (width c AZ))) by (repeat apply Rmin_pos; apply HW).
    assert (0 < dt * m) by (apply Rmult_lt_0_compat; assumption). nra. }
  assert (L : forall a, 0 < dt / width c a) by (intro a; apply Rdiv_lt_0_compat; auto).
  assert (KB : forall a, K a <= c_CFL c * (if inactive_b c a then 0 else 1)).
  { intro a. unfold K. destruct (inactive_b c a) eqn:I; [lra|]. destruct (HM a I) as [M1 M2]. specialize (L a).
    assert (dt / width c a * (1/2) * (fspeed a E (up a 1 i) + fspeed a E i) <= dt / width c a * m) by nra.
    assert (dt / width c a * m <= c_CFL c).
    { replace (dt / width c a * m) with (dt * m / width c a) by (field; pose proof (HW a); lra).
      apply Rmult_le_reg_r with (width c a); [apply HW|]. replace (dt * m / width c a * width c a) with (dt * m) by (field; pose proof (HW a); lra).
      eapply Rle_trans; [exact Hcfl|]. apply Rmult_le_compat_l; [exact CF|].
      destruct a; [apply Rmin_l|eapply Rle_trans; [apply Rmin_r|apply Rmin_l]|eapply Rle_trans; [apply Rmin_r|apply Rmin_r]]. }
    lra. }
  assert (KS : 0 <= 1 - (K AX + K AY + K AZ)).
  { pose proof (KB AX). pose proof (KB AY). pose proof (KB AZ). unfold active_axes in H1. lra. }
  assert (QG : forall a, inactive_b c a = false -> gas (Q a)).
  { intros a I. unfold Q. rewrite I. apply gas_scale; [specialize (L a); lra|]. destruct (HN a I). apply part_is_gas; assumption. }
  assert (QW : forall a, wgas (Q a)).
  { intro a. destruct (inactive_b c a) eqn:I; [right; intros; unfold Q; rewrite I; lra|left; apply QG, I]. }
  assert (SUM : gas (fun r => Q AX r + (Q AY r + Q AZ r))).
  { destruct HA as [a I]. destruct a.
    - apply (wgas_add (Q AX)); [apply QG, I|]. apply wgas_sum; apply QW.
    - eapply gas_ext; [apply (wgas_add (Q AY) (fun r => Q AX r + Q AZ r)); [apply QG, I|apply wgas_sum; apply QW]|]. intros; cbn beta; lra.
    - eapply gas_ext; [apply (wgas_add (Q AZ) (fun r => Q AX r + Q AY r)); [apply QG, I|apply wgas_sum; apply QW]|]. intros; cbn beta; lra. }
  eapply gas_ext; [apply (wgas_add _ (fun r => (1 - (K AX + K AY + K AZ)) * E r i) SUM); apply wgas_scale; assumption|].
  intros r Hr. cbn beta. unfold balance. cbv zeta.
  assert (OUT : forall a, (if inactive_b c a then 0 else (face_flux wi wt c (c_p c) None a E r (up a 1 i) - face_flux wi wt c (c_p c) None a E r i) / width c a) * dt
     = K a * E r i - Q a r).
  { intro a. unfold K, Q. destruct (inactive_b c a) eqn:I; [lra|]. destruct (HN a I). rewrite out_is by assumption. field. pose proof (HW a). lra. }
  pose proof (OUT AX). pose proof (OUT AY). pose proof (OUT AZ). lra.
Qed.
Lemma signal_bound a u : inactive_b c a = false -> speed a u <= signal_speed c (primitive g u).
Proof.
  intro I. unfold speed, signal_speed. set (w := primitive g u). pose proof (sound_nonneg g fl w) as SN.
  assert (B : 1 <= IZR ((if inactive_b c AX then 0 else 1) + (if inactive_b c AY then 0 else 1) + (if inactive_b c AZ then 0 else 1))).
  { apply IZR_le. destruct a; rewrite I; destruct (inactive_b c AX), (inactive_b c AY), (inactive_b c AZ); lia. }
  pose proof (Rabs_pos (vel AX w)). pose proof (Rabs_pos (vel AY w)). pose proof (Rabs_pos (vel AZ w)).
  assert (sound g fl w <= IZR ((if inactive_b c AX then 0 else 1) + (if inactive_b c AY then 0 else 1) + (if inactive_b c AZ then 0 else 1)) * sound g fl w) by nra.
  destruct a; lra.
Qed.
End Step.

(** ** invariants of forward steps *)
Section Forward.
Context {U S D : Type} (V : vops RNum U) (step : stepper (U := U) (S := S) RNum) (helper : S -> S) (payload : S -> R -> U -> res D).
Context (Inv : S -> R -> U -> Prop) (PD : D -> Prop).
Context (Hstep : forall s t u target s' dt un u', Inv s t u -> (forall d, target = Some d -> t < d) ->
  step s t u target = Ok (s', (dt, un)) -> vassign V u un = Ok u' ->
  Inv (helper s') (t + dt) u' /\ (forall d, target = Some d -> t + dt <= d)).
Context (Hsnap : forall s t u d, Inv s t u -> payload s t u = Ok d -> PD d).
Local Notation ode := (@ode RNum U S D).
Definition fine (o : ode) : Prop := Inv (o_aux o) (o_t o) (o_u o) /\ Forall (fun x => PD (snd x)) (o_snaps o).
Lemma fine_snapshot (o o' : ode) : fine o -> snapshot RNum payload o = Ok o' -> fine o' /\ o_t o' = o_t o.
Proof.
  intros [I F] H. unfold snapshot in H. destruct (payload (o_aux o) (o_t o) (o_u o)) as [x|] eqn:E; cbn [bind] in H; [|discriminate].
  injection H as <-. split; [|reflexivity]. split; cbn [o_aux o_t o_u o_snaps]; [exact I|].
  apply Forall_app. split; [exact F|]. constructor; [|constructor]. exact (Hsnap _ _ _ _ I E).
Qed.
Lemma fine_step (o o' : ode) target : fine o -> (forall d, target = Some d -> o_t o < d) -> take_step RNum V step helper o target = Ok o' ->
  fine o' /\ (forall d, target = Some d -> o_t o' <= d).
Proof.
  intros [I F] HT H. unfold take_step in H. destruct (step (o_aux o) (o_t o) (o_u o) target) as [[s [dt un]]|] eqn:E; cbn [bind] in H; [|discriminate].
  destruct (vassign V (o_u o) un) as [u'|] eqn:E2; cbn [bind] in H; [|discriminate]. injection H as <-.
  destruct (Hstep _ _ _ _ _ _ _ _ I HT E E2) as [A B]. split; [split; [exact A|exact F]|]. exact B.
Qed.
Lemma fine_n n : forall (o o' : ode), fine o -> take_n RNum V step helper n o = Ok o' -> fine o'.
Proof.
  induction n as [|n IH]; intros o o' F H; cbn [take_n] in H; [injection H as <-; exact F|].
  destruct (take_step RNum V step helper o None) as [o1|] eqn:E; cbn [bind] in H; [|discriminate].
  apply (fine_step o o1) in E; [|exact F|discriminate]. destruct E as [F1 _]. exact (IH _ _ F1 H).
Qed.
Lemma fine_loop T log fuel : forall (o o' : ode) target ds, fine o ->
  (forall d, target = Some d -> o_t o < d /\ StronglySorted Rlt (d :: ds) /\ In T (d :: ds)) ->
  loop RNum V step helper payload T log fuel o target ds = Ok o' -> fine o'.
Proof.
  assert (STOP : forall fuel (o o' : ode) target ds, T <= o_t o -> fine o -> loop RNum V step helper payload T log fuel o target ds = Ok o' -> fine o').
  { intros fu o o' tg ds LE F H. destruct fu; cbn [loop] in H; (destruct (nltb (o_t o) T) eqn:E; [apply Rltb_true in E; cbn in E; lra|]); injection H as <-; exact F. }
  induction fuel as [|fuel IH]; intros o o' target ds F HT H; cbn [loop] in H;
   (destruct (nltb (o_t o) T) eqn:E; [|injection H as <-; exact F]); [discriminate|].
  destruct (take_step RNum V step helper o target) as [o1|] eqn:E1; cbn [bind] in H; [|discriminate].
  apply (fine_step o o1) in E1; [|exact F|intros d Hd; apply (HT d Hd)]. destruct E1 as [F1 B1].
  assert (NH : eq_target RNum (o_t o1) target = false -> forall d, target = Some d -> o_t o1 < d).
  { intros NE d Hd. specialize (B1 d Hd). subst target. cbn [eq_target] in NE. apply Reqb_false in NE. destruct B1 as [B1|B1]; [exact B1|congruence]. }
  match type of H with (if ?b then _ else _) = _ => destruct b eqn:EB end.
  - destruct (snapshot RNum payload o1) as [o2|] eqn:E2; cbn [bind] in H; [|discriminate].
    apply (fine_snapshot o1 o2 F1) in E2. destruct E2 as [F2 T2].
    destruct ds as [|d' ds].
    + destruct (eq_target RNum (o_t o1) target) eqn:EQ.
      * destruct target as [d|]; [|discriminate]. cbn [eq_target] in EQ. apply Reqb_true in EQ.
        destruct (HT d eq_refl) as (_ & _ & [->|[]]). eapply STOP; [|exact F2|exact H]. rewrite T2, EQ. right. reflexivity.
      * eapply IH; [exact F2| |exact H]. intros d Hd. destruct (HT d Hd) as (_ & P & Q). split; [rewrite T2; auto|]. auto.
    + rewrite T2 in H. destruct (eq_target RNum (o_t o1) target) eqn:EQ.
      * destruct target as [d|]; [|discriminate]. cbn [eq_target] in EQ. apply Reqb_true in EQ.
        destruct (HT d eq_refl) as (_ & P & Q). apply StronglySorted_inv in P. destruct P as [P' PA]. apply Forall_inv in PA. destruct Q as [Q|Q].
        -- eapply STOP; [|exact F2|exact H]. rewrite T2, EQ, Q. right. reflexivity.
        -- eapply IH; [exact F2| |exact H]. intros d0 Hd0. injection Hd0 as <-. split; [rewrite T2, EQ; assumption|]. auto.
      * eapply IH; [exact F2| |exact H]. intros d Hd. destruct (HT d Hd) as (_ & P & Q). split; [rewrite T2; auto|]. auto.
  - apply orb_false_iff in EB. destruct EB as [EB _]. apply orb_false_iff in EB. destruct EB as [EQ _].
    eapply IH; [exact F1| |exact H]. intros d Hd. destruct (HT d Hd) as (_ & P & Q). split; auto.
Qed.
Theorem fine_integrate T n exact db log fuel u0 s0 o : Inv s0 0 u0 -> Forall (fun x => 0 <= x) db ->
  integrate RNum V step helper payload T n exact db log fuel (ode_init RNum u0 s0) = Ok o -> fine o.
Proof.
  intros I HD H. assert (F0 : fine (ode_init RNum u0 s0 : ode)) by (split; [exact I|constructor]).
  unfold integrate in H. destruct T as [T|].
  - unfold integrate_T in H. 
    match type of H with (bind ?x _) = _ => destruct x as [[tg ds]|] eqn:ET end; cbn [bind] in H; [|discriminate].
    destruct (snapshot RNum payload _) as [o1|] eqn:E1; cbn [bind fst snd] in H; [|discriminate].
    apply (fine_snapshot _ o1 F0) in E1. destruct E1 as [F1 T1]. cbn [o_t ode_init] in T1.
    destruct (Rlt_dec 0 T) as [PT|NT].
    + destruct exact.
      * destruct (targets RNum (fun _ => True) (fun x => x)) with (db := db) (T := T) as (d & ds' & A & B & _ & C & PP & _).
        { intros x y _ _. exact (Rltb_true x y). } { intros x y _ _. exact (Reqb_true x y). } { auto. } { exact Logic.I. } { reflexivity. }
        { clear. induction db; constructor; auto. } { exact HD. } { exact Logic.I. } { exact PT. }
        rewrite A in ET. cbn [tl] in ET. injection ET as <- <-. eapply fine_loop; [exact F1| |exact H].
        intros d0 Hd0. injection Hd0 as <-. split; [|split; [exact B|exact C]].
        rewrite T1. apply (PP d). left. reflexivity.
      * injection ET as <- <-. eapply fine_loop; [exact F1| |exact H]. discriminate.
    + destruct fuel; cbn [loop] in H; (destruct (nltb (o_t o1) T) eqn:E; [apply Rltb_true in E; rewrite T1 in E; cbn in E; lra|]); injection H as <-; exact F1.
  - destruct n as [n|].
    + unfold integrate_n in H. destruct (snapshot RNum payload _) as [o1|] eqn:E1; cbn [bind] in H; [|discriminate].
      apply (fine_snapshot _ o1 F0) in E1. destruct E1 as [F1 _].
      destruct (take_n RNum V step helper (Z.to_nat n) o1) as [o2|] eqn:E2; cbn [bind] in H; [|discriminate].
      apply (fine_n _ _ _ F1) in E2. apply (fine_snapshot _ _ E2 H).
    + destruct (snapshot RNum payload _); discriminate.
Qed.
End Forward.

(** ** whole runs *)
(** what is needed of a forward Euler step *)
Definition steps_gas (c : config RNum) : Prop := forall (E : grid) (i : ix) (dt m : R),
  (forall a, inactive_b c a = false -> gas (fun r => E r (up a 1 i)) /\ gas (fun r => E r (up a (-1) i))) -> gas (fun r => E r i) ->
  (exists a, inactive_b c a = false) ->
  (forall a, inactive_b c a = false -> speed c a (fun r => E r (up a (-1) i)) <= m /\ speed c a (fun r => E r i) <= m /\ speed c a (fun r => E r (up a 1 i)) <= m) ->
  0 < m -> 0 < dt -> dt * m <= c_CFL c * Rmin (width c AX) (Rmin (width c AY) (width c AZ)) ->
  gas (fun r => E r i + dt * balance c (fun d => face_flux wi wt c (c_p c) None d E) r i).
Section Run.
Context (c : config RNum) (heap : Z -> Z -> ix -> R) (r : Z) (HT : tabulated c) (HC : closed c) (HL : c_limit c = false).
Context (H0 : first_order c) (HF : c_fixed_dt c = None) (HG : 1 < c_gamma c) (HW : forall a, 0 < width c a).
Context (CF0 : 0 < c_CFL c) (STEP : steps_gas c) (Hr : (1 <= r)%Z).
Local Notation g := (c_gamma c).
Lemma filled_gas u i : shp u = c_n c -> gas_everywhere u -> flux_zone c i -> gas (fun v => filled c u v i).
Proof.
  intros Su HU Z.
  assert (IN : in_shape (c_n c) (folded3 (c_bc c) (c_n c) i)).
  { apply (folded_in RNum c HT HC). intro a. specialize (Z a). cbv zeta in Z.
    assert (TD : top_degree (c_p c) = 0%Z).
    { unfold top_degree. pose proof (H0 AX). pose proof (H0 AY). pose proof (H0 AZ). cbn [getc] in *. lia. }
    rewrite TD in Z.
    pose proof (width_main RNum c HT a) as W. pose proof (ghost_width_pos (c_p c) (degs c HT)). unfold solver_width in W. rewrite getc_prim_width in W.
    rewrite getc_active_width, active_inactive in W. unfold interp_cost in W. rewrite H0 in W. cbn in W.
    destruct (inactive_b c a); cbn [negb] in W; [lia|]. change (half_up 0) with 0%Z in Z. lia. }
  specialize (HU _ ltac:(rewrite Su; exact IN)). destruct HU as [P0 P1].
  assert (SQ : forall v, filled c u v i * filled c u v i = at_ u v (folded3 (c_bc c) (c_n c) i) * at_ u v (folded3 (c_bc c) (c_n c) i))
    by (intro v; unfold filled; destruct (negated3 _ _ _ _); ring).
  assert (F0 : filled c u 0%Z i = at_ u 0%Z (folded3 (c_bc c) (c_n c) i)) by reflexivity.
  assert (F4 : filled c u 4%Z i = at_ u 4%Z (folded3 (c_bc c) (c_n c) i)) by reflexivity.
  unfold gas. rewrite F0, F4, !SQ. split; assumption.
Qed.
Lemma zone_near i a k : in_shape (c_n c) i -> inactive_b c a = false -> (-1 <= k <= 1)%Z -> flux_zone c (up a k i).
Proof.
  intros Hi I K b. cbv zeta. specialize (Hi b). unfold up. assert (Q : (0 <= half_up (top_degree (c_p c)))%Z).
  { unfold top_degree. pose proof (H0 AX) as A. pose proof (H0 AY) as B. pose proof (H0 AZ) as C. cbn [getc] in *. rewrite A, B, C. cbn. lia. }
  destruct (axis_dec a b) as [<-|N]; [rewrite getc_setc_eq, I; lia|rewrite getc_setc_ne by auto; destruct (inactive_b c b); lia].
Qed.
Lemma zone_in i : in_shape (c_n c) i -> flux_zone c i.
Proof.
  intros Hi b. cbv zeta. specialize (Hi b). assert (Q : (0 <= half_up (top_degree (c_p c)))%Z).
  { unfold top_degree. pose proof (H0 AX) as A. pose proof (H0 AY) as B. pose proof (H0 AZ) as C. cbn [getc] in *. rewrite A, B, C. cbn. lia. }
  destruct (inactive_b c b); lia.
Qed.
Lemma some_active : exists a, inactive_b c a = false.
Proof.
  destruct HT as [[_ _ [a Ha] _] _]. exists a. unfold inactive_b. apply andb_false_iff.
  destruct (Z.eqb_spec (getc a (c_n c)) 1) as [A|A]; [|left; reflexivity]. destruct (Z.eqb_spec (getc a (c_p c)) 0) as [B|B]; [|right; reflexivity].
  exfalso. apply Ha. split; assumption.
Qed.
Definition sound_state (x : aux RNum) (u : arr R) : Prop :=
  rows u = r /\ shp u = c_n c /\ flux_arrays_ok RNum c r (x_flux x) /\ gas_everywhere u.
Lemma padding_filled t u : shp u = c_n c -> pads RNum c t u (filled c u).
Proof. intro Su. rewrite <- copied_filled. apply closed_pads; auto. Qed.
(** a forward Euler step of the solver: the text-book step, no longer than the CFL condition allows *)
Lemma euler_step_is s t u target s' dt un u' : sound_state s u -> (forall d, target = Some d -> t < d) ->
  solver_step RNum c heap I_euler s t u target = Ok (s', (dt, un)) -> vassign (arr_ops RNum) u un = Ok u' ->
  (forall d, target = Some d -> t + dt <= d) /\ rows u' = r /\ shp u' = c_n c /\ flux_arrays_ok RNum c r (x_flux (step_helper RNum c s')) /\
  exists m, 0 < m /\ 0 < dt /\ dt * m <= c_CFL c * Rmin (width c AX) (Rmin (width c AY) (width c AZ)) /\
    (forall a j, inactive_b c a = false -> flux_zone c j -> speed c a (fun v => filled c u v j) <= m) /\
    (forall v i, in_shape (c_n c) i ->
      at_ u' v i = filled c u v i + dt * balance c (fun d => face_flux wi wt c (c_p c) None d (filled c u)) v i).
Proof.
  intros (Ru & Su & FO & GU) HTg H HA. unfold solver_step, stepper_of, euler, solver_f in H.
  destruct (hydrodynamics_is RNum c heap s t u (filled c u)) as (x' & dt0 & k & E1 & ED & Rk & Sk & Vk & FO' & _); auto.
  { apply tab_good; assumption. } { exact (eq_ind_r (fun q => (1 <= q)%Z) Hr Ru). } { apply sane_dims, HT. } { exact (eq_ind_r (fun q => flux_arrays_ok RNum c q (x_flux s)) FO Ru). }
  { unfold padding. apply padding_filled; auto. apply width_main; assumption. }
  rewrite E1 in H. cbn [bind] in H.
  apply (gdt_is wi wt tables_are c HT) in ED. unfold time_step in ED. rewrite HF in ED. destruct ED as (m & [(im & Zm & Em) Um] & ED).
  assert (SP : forall a j, inactive_b c a = false -> flux_zone c j -> speed c a (fun v => filled c u v j) <= m).
  { intros a j I Zj. eapply Rle_trans; [apply (signal_bound c a _ I)|]. specialize (Um j Zj). cbv beta in Um.
    rewrite <- (functional_extensionality _ _ (fun v => prim0 c H0 (filled c u) v j)). exact Um. }
  destruct some_active as [a0 A0].
  assert (Pm : 0 < m).
  { eapply Rlt_le_trans; [|apply (SP a0 im A0 Zm)]. unfold speed.
    pose proof (Rabs_pos (vel a0 (primitive g (fun v => filled c u v im)))).
    pose proof (sound_pos g (c_csq_floor c) HG _ (filled_gas u im Su GU Zm)). lra. }
  assert (PH : 0 < Rmin (width c AX) (Rmin (width c AY) (width c AZ))) by (repeat apply Rmin_pos; apply HW).
  assert (D0 : 0 < dt0) by (rewrite ED; apply Rdiv_lt_0_compat; [apply Rmult_lt_0_compat; assumption|exact Pm]).
  set (h := hit_target RNum t dt0 target) in *.
  assert (HH : 0 < h <= dt0 /\ forall d, target = Some d -> t + h <= d).
  { unfold h, hit_target. destruct target as [d|]; [|split; [lra|discriminate]]. specialize (HTg d eq_refl). cbn [nltb nsub RNum].
    destruct (Rltb (d - t) dt0) eqn:EL; [apply Rltb_true in EL|apply Rltb_false in EL]; (split; [lra|intros d' [= <-]; lra]). }
  destruct HH as [HH HB].
  destruct (amap2_is (@nadd RNum) u (amap (fun x => @nmul RNum h x) k) r (c_n c) (at_ u) (fun v i => @nmul RNum h (at_ k v i))) as (z & EZ & RZ & SZ & VZ).
  { split; auto. } { split; [exact (eq_trans Rk Ru)|]. split; [exact Sk|reflexivity]. }
  cbn [vadd vscale arr_ops] in H. rewrite EZ in H. cbn [bind] in H. injection H as <- <- <-.
  destruct (assign_all_is u z r (c_n c) (at_ z) Ru Su) as (z' & EZ' & RZ' & SZ' & VZ').
  { split; [exact RZ|]. split; [exact SZ|reflexivity]. }
  cbn [vassign arr_ops] in HA. assert (UZ : Ok u' = Ok z') by exact (eq_trans (eq_sym HA) EZ'). injection UZ as <-. split; [exact HB|].
  split; [exact RZ'|]. split; [exact SZ'|]. split; [rewrite helper_flux; exact (eq_ind _ (fun q => flux_arrays_ok RNum c q (x_flux x')) FO' _ Ru)|].
  exists m. split; [exact Pm|]. split; [apply HH|].
  split; [eapply Rle_trans; [apply Rmult_le_compat_r; [lra|apply HH]|]; rewrite ED; right; field; lra|].
  split; [exact SP|]. intros v i Hi'.
  assert (IN : filled c u v i = at_ u v i).
  { unfold filled. assert (FI : folded3 (c_bc c) (c_n c) i = i) by (apply ix_ext; intro a; rewrite getc_folded3; apply folded_inside, Hi').
    rewrite FI. unfold negated3. rewrite !negated_inside by apply Hi'. rewrite !andb_false_r. reflexivity. }
  rewrite IN. rewrite VZ', VZ. cbn [nadd nmul RNum]. rewrite Vk by exact Hi'. rewrite (gdudt_is c HT). reflexivity.
Qed.
Lemma euler_sound s t u target s' dt un u' : sound_state s u -> (forall d, target = Some d -> t < d) ->
  solver_step RNum c heap I_euler s t u target = Ok (s', (dt, un)) -> vassign (arr_ops RNum) u un = Ok u' ->
  sound_state (step_helper RNum c s') u' /\ (forall d, target = Some d -> t + dt <= d).
Proof.
  intros SS HTg H HA. destruct (euler_step_is _ _ _ _ _ _ _ _ SS HTg H HA) as (HB & RZ & SZ & FO & m & Pm & PD & LE & SP & V).
  destruct SS as (Ru & Su & _ & GU). split; [|exact HB]. split; [exact RZ|]. split; [exact SZ|]. split; [exact FO|].
  destruct some_active as [a0 A0].
  intros i Hi. assert (Hi' : in_shape (c_n c) i) by (rewrite <- SZ; exact Hi). clear Hi.
  eapply gas_ext; [apply (STEP (filled c u) i dt m)|].
  - intros a I. split; apply filled_gas; auto; apply zone_near; auto; lia.
  - apply filled_gas; auto. apply zone_in, Hi'.
  - exists a0. exact A0.
  - intros a I. split; [|split]; apply SP; auto using zone_in; apply zone_near; auto; lia.
  - exact Pm.
  - exact PD.
  - exact LE.
  - intros v Hv. cbn beta. symmetry. apply V, Hi'.
Qed.
Lemma snap_sound av x t u d : sound_state x u -> snap_payload RNum c heap av x t u = Ok d -> positive_everywhere (fst d).
Proof.
  intros (Ru & Su & FO & GU) H.
  destruct (payload_is RNum c heap av x t u (filled c u) HT Su (padding_filled t u Su)) as (w & E & Rw & Sw & Vw).
  rewrite E in H. injection H as <-. cbn [fst]. intros i Hi. assert (Hi' : in_shape (c_n c) i) by (rewrite <- Sw; exact Hi). clear Hi.
  assert (P : forall v, at_ w v i = primitive g (fun s => filled c u s i) v).
  { intro v. etransitivity; [apply Vw; exact Hi'|]. rewrite (gprim_is c HT). destruct av; [apply (prim0 c H0)|].
    unfold centre_prim, block. cbv zeta. rewrite !H0, !w0_i by tauto. repeat rewrite line_1. reflexivity. }
  pose proof (filled_gas u i Su GU (zone_in i Hi')) as [G0 G1].
  change (0 < at_ w 0%Z i) with (0 < at_ (w : arr R) 0%Z i). rewrite !P. cbn [primitive]. split; [exact G0|].
  apply Rmult_lt_0_compat; [lra|exact G1].
Qed.
End Run.
Theorem euler_gas : forall (c : config RNum) heap as_averages T n exact downbeats log fuel u0 o,
  tabulated c -> closed c -> c_limit c = false -> first_order c -> c_fixed_dt c = None ->
  1 < c_gamma c -> (forall a, 0 < width c a) -> 0 < c_CFL c -> steps_gas c ->
  shp u0 = c_n c -> (1 <= rows u0)%Z -> gas_everywhere u0 -> Forall (fun x => 0 <= x) downbeats ->
  simulate c heap I_euler as_averages T n exact downbeats log fuel u0 = Ok o ->
  gas_everywhere (o_u o) /\ Forall (fun s => positive_everywhere (fst (snd s))) (o_snaps o).
Proof.
  intros c heap av T n ex db log fuel u0 o HT HC HL H0 HF HG HW C0 ST Su Ru GU HD H. unfold simulate, solver_integrate in H.
  apply (fine_integrate (arr_ops RNum) (solver_step RNum c heap I_euler) (step_helper RNum c) (snap_payload RNum c heap av)
    (fun x _ => sound_state c (rows u0) x) (fun d => positive_everywhere (fst d))) in H.
  - destruct H as [(_ & _ & _ & G) F]. split; assumption.
  - intros s t u target s' dt un u'. apply euler_sound; auto.
  - intros s t u d. apply snap_sound; auto.
  - split; [reflexivity|]. split; [exact Su|]. split; [|exact GU]. intro d. cbn. auto.
  - exact HD.
Qed.


Theorem euler_positive : forall (c : config RNum) heap as_averages T n exact downbeats log fuel u0 o,
  tabulated c -> closed c -> c_limit c = false -> first_order c -> c_rs c = RS_llf -> c_fixed_dt c = None ->
  1 < c_gamma c -> (forall a, 0 < width c a) -> 0 < c_CFL c -> c_CFL c * active_axes c <= 1 ->
  shp u0 = c_n c -> (1 <= rows u0)%Z -> gas_everywhere u0 -> Forall (fun x => 0 <= x) downbeats ->
  simulate c heap I_euler as_averages T n exact downbeats log fuel u0 = Ok o ->
  gas_everywhere (o_u o) /\ Forall (fun s => positive_everywhere (fst (snd s))) (o_snaps o).
Proof.
  intros c heap av T n ex db log fuel u0 o HT HC HL H0 HR HF HG HW C0 C1 Su Ru GU HD H.
  eapply euler_gas; eauto. intros E i dt m A B CC D F G J. eapply (step_gas c H0 HR HG HW E i dt m); eauto.
  intros a I. destruct (D a I) as (X & Y & Z). unfold fspeed. rewrite up_up. change (1 + -1)%Z with 0%Z. rewrite up_0.
  split; apply Rmax_lub; assumption.
Qed.

(** ** examples *)
Definition tube : config RNum :=
  mkcfg (N := RNum) (mkix 12 1 1) (mkix 0 0 0) (fun _ => (0, 1)) (4/5) None (7/5) 0 RS_llf (uniform_bc B_reflective) false L_minmod false
    (mknad (N := RNum) 1 M_global R_absolute None None false 1) false.
Lemma tube_ok : tabulated tube /\ closed tube /\ (forall xc q, fillable xc tube q).
Proof.
  assert (T : tabulated tube).
  { split; [split|].
    - intros []; cbn; lia.
    - intros []; cbn; lia.
    - exists AX. intros [H _]. discriminate.
    - exact I.
    - intros []; cbn; lia. }
  assert (E : forall a, enough B_reflective (getc a (c_n tube)) (getc a (ghost_zones3 tube))).
  { intros []; vm_compute; discriminate. }
  split; [exact T|]. split.
  - intro a. right. split; [|auto]. intro pos. split; [exact I|apply E].
  - intros xc q a. right. split; [left; split; [exact I|apply E]|split; [left; split; [exact I|apply E]|auto]].
Qed.
Lemma tube_runs heap k f : (1 <= k)%Z -> exists o, simulate tube heap I_euler true None (Some k) true [] false 0 (mkarr 5 (mkix 12 1 1) f) = Ok o.
Proof.
  intro K. destruct tube_ok as (T & _ & F).
  destruct (runs_end RNum (fun _ _ => 0%R) tube heap I_euler true k true [] false 0 (mkarr 5 (mkix 12 1 1) f)) as (o & E & _); auto; try (cbn; lia); try lia.
  exists o. exact E.
Qed.
(** two streams leaving each other, almost without pressure *)
Definition streams (v : Z) (i : ix) : R :=
  if (v =? 0)%Z then 1 else if (v =? 1)%Z then (if (cx i <? 6)%Z then -100 else 100) else if (v =? 4)%Z then 5001 else 0.
Lemma streams_gas : gas_everywhere (mkarr 5 (mkix 12 1 1) streams).
Proof. intros i _. unfold gas, streams. cbn [at_ Z.eqb Pos.eqb]. destruct (cx i <? 6)%Z; split; lra. Qed.

(** ** two dimensions with the default CFL number *)
Open Scope Z_scope.
Definition plane : config FNum :=
  mkcfg (N := FNum) (mkix 3 3 1) (mkix 0 0 0) (fun _ => (fof 0, fof 1)) (ndiv (nofZ 4) (nofZ 5)) None (ndiv (nofZ 7) (nofZ 5)) (fof 0) RS_llf
    (uniform_bc B_outflow) false L_minmod false (mknad (N := FNum) (fof 1) M_global R_absolute None None false (fof 1)) false.
(** four jets leaving the middle cell, all of density 1 and internal energy 2 *)
Definition jets (v : Z) (i : ix) : f64 :=
  if v =? 0 then fof 1 else if v =? 1 then if cy i =? 1 then fof (100 * (cx i - 1)) else fof 0
  else if v =? 2 then if cx i =? 1 then fof (100 * (cy i - 1)) else fof 0
  else if v =? 4 then
    if (cx i =? 1) && (cy i =? 1) then fof 2 else if (cx i =? 1) || (cy i =? 1) then fof 5002 else fof 2
  else fof 0.
Definition middle (o : run FNum) : bool := nltb (at_ (o_u o) 0 (mkix 1 1 0)) (fof 0).
Notation plane_run := (simulate plane (fun _ _ _ => fof 0) I_euler true None (Some 1) true [] false 0 (mkarr 5 (mkix 3 3 1) jets)).
Lemma plane_value : OdeT.looked middle plane_run = Some true.
Proof. vm_compute. reflexivity. Qed.
Lemma plane_negative : exists o, plane_run = Ok o /\ middle o = true.
Proof. exact (OdeT.looked_ok middle _ _ plane_value). Qed.
Lemma jets_gas : gas_test (N := FNum) (mkarr 5 (mkix 3 3 1) jets) = true.
Proof. vm_compute. reflexivity. Qed.
Lemma plane_drained : exists (c : config FNum) heap u0 o,
  first_order c /\ c_rs c = RS_llf /\ c_fixed_dt c = None /\ c_CFL c = ndiv (nofZ 4) (nofZ 5) /\
  shp u0 = c_n c /\ gas_test (N := FNum) u0 = true /\
  simulate c heap I_euler true None (Some 1) true [] false 0 u0 = Ok o /\
  nltb (at_ (o_u o) 0 (mkix 1 1 0)) (nofZ 0) = true.
Proof.
  destruct plane_negative as (o & E & M). exists plane, (fun _ _ _ => fof 0), (mkarr 5 (mkix 3 3 1) jets), o.
  split; [intros []; reflexivity|]. split; [reflexivity|]. split; [reflexivity|]. split; [reflexivity|]. split; [reflexivity|].
  split; [exact jets_gas|]. split; [exact E|exact M].
Qed.
