(** Facts about the Riemann solvers over the reals. *)
From Coq Require Import ZArith List Bool Lia Reals Lra Psatz.
From Verif Require Import Err Num NdArray NdArrayP HydroM HydroP RiemannM Spec.
Local Open Scope R_scope.

Lemma vrow_comp d : vrow d = comp d.
Proof. reflexivity. Qed.

Ltac eqR := cbn [car RNum]; match goal with |- @eq _ ?a ?b => change (@eq R a b) end.

(** ** spec and model vocabulary agree *)
Lemma cons_is gamma w r :
  compute_conservatives RNum gamma w r = conserved gamma w r.
Proof.
  unfold compute_conservatives, conserved, total_energy, sum3, rRho, rE, rho, press, vel.
  destruct (r =? 0)%Z eqn:E0; [zb; subst; reflexivity|].
  destruct (is_vel r) eqn:Ev.
  { destruct (is_vel_cases r Ev) as [->|[->| ->]]; reflexivity. }
  destruct (r =? 4)%Z eqn:E4.
  { zb; subst. cbn. lra. }
  zb. destruct r as [|p|p]; try congruence; cbn; auto.
  destruct p as [[p|p|]|[[p|p|]|[p|p|]|]|]; cbn; auto; try congruence.
Qed.

Lemma sound_is gamma fl w : compute_sound_speed RNum gamma fl w = sound gamma fl w.
Proof.
  unfold compute_sound_speed, sound, rE, rRho, press, rho. rn.
  f_equal. unfold Rmax. destruct (Rle_dec _ _); destruct (Rltb _ _) eqn:E; rb; lra.
Qed.

Lemma flux_is gamma d w r :
  compute_fluxes RNum d true w (compute_conservatives RNum gamma w) r
  = euler_flux gamma d w r.
Proof.
  unfold compute_fluxes, euler_flux, rRho, rE. rewrite !cons_is. fold (press w).
  change (w 0%Z) with (rho w). change (w (vrow d)) with (vel d w). rn.
  rewrite vrow_comp.
  destruct (r =? 0)%Z eqn:E0; [lra|].
  destruct (is_vel r) eqn:Ev.
  { destruct (is_vel_cases r Ev) as [->|[->| ->]]; destruct d; cbn; unfold rho, vel, press; cbn; try lra. }
  destruct (r =? 4)%Z eqn:E4.
  { zb; subst. unfold conserved. change (w 4%Z) with (press w). cbn. lra. }
  destruct (r =? comp d)%Z eqn:Ed.
  { zb; subst. destruct d; discriminate. }
  zb. unfold conserved. destruct r as [|p|p]; try congruence; try lra.
  destruct p as [[p|p|]|[[p|p|]|[p|p|]|]|]; try congruence; lra.
Qed.

Lemma flux_adv_is gamma d w r :
  compute_fluxes RNum d false w (compute_conservatives RNum gamma w) r
  = transport_flux gamma d w r.
Proof.
  unfold compute_fluxes, transport_flux, rRho, rE. rewrite !cons_is.
  change (w (vrow d)) with (vel d w). rn.
  destruct (r =? 0)%Z eqn:E0; [zb; subst; reflexivity|].
  destruct (is_vel r) eqn:Ev; [reflexivity|].
  destruct (r =? 4)%Z eqn:E4; zb; subst; reflexivity.
Qed.

(** ** HLLC scalar core *)
Section Core.
Context (rl vl Pl El rr vr Pr Er c : R).
Context (Hrl : 0 < rl) (Hrr : 0 < rr) (Hc : 0 < c).
Let Sl := Rmin vl vr - c.
Let Sr := Rmax vl vr + c.
Let a := rl * (vl - Sl).
Let b := rr * (Sr - vr).
Let vs := (a * vl + b * vr + Pl - Pr) / (a + b).
Let Ps := (a * Pr + b * Pl + a * b * (vl - vr)) / (a + b).

Lemma core_gaps : c <= vl - Sl /\ c <= vr - Sl /\ c <= Sr - vl /\ c <= Sr - vr.
Proof.
  unfold Sl, Sr. pose proof (Rmin_l vl vr). pose proof (Rmin_r vl vr).
  pose proof (Rmax_l vl vr). pose proof (Rmax_r vl vr). lra.
Qed.
Lemma core_ab : 0 < a /\ 0 < b.
Proof. destruct core_gaps as (G1 & G2 & G3 & G4). unfold a, b. nra. Qed.
Lemma core_vs : (a + b) * vs = a * vl + b * vr + Pl - Pr.
Proof. destruct core_ab. unfold vs. field. lra. Qed.
Lemma core_Ps_l : a * vs + Ps = a * vl + Pl.
Proof. destruct core_ab. unfold vs, Ps. field. lra. Qed.
Lemma core_Ps_r : b * vs - Ps = b * vr - Pr.
Proof. destruct core_ab. unfold vs, Ps. field. lra. Qed.

Lemma core_order :
  0 <= Pl -> 0 <= Pr -> Pl <= rl * (c * c) -> Pr <= rr * (c * c) -> Sl < vs < Sr.
Proof.
  intros HPl HPr Bl Br. destruct core_gaps as (G1 & G2 & G3 & G4).
  destruct core_ab as [Ha Hb]. pose proof core_vs as E.
  assert (X1 : rr * (c * c) <= b * (vr - Sl)).
  { unfold b. rewrite Rmult_assoc. apply Rmult_le_compat_l; [lra|]. apply Rmult_le_compat; lra. }
  assert (X2 : rl * (c * c) <= a * (Sr - vl)).
  { unfold a. rewrite Rmult_assoc. apply Rmult_le_compat_l; [lra|]. apply Rmult_le_compat; lra. }
  assert (0 < a * (vl - Sl)) by (apply Rmult_lt_0_compat; lra).
  assert (0 < b * (Sr - vr)) by (apply Rmult_lt_0_compat; lra).
  split.
  - assert (0 < (a + b) * (vs - Sl)) by nra. nra.
  - assert (0 < (a + b) * (Sr - vs)) by nra. nra.
Qed.
End Core.

Section HLLC.
Context (gamma fl : R) (d : axis) (wl wr : state).
Context (Hf : 0 < fl) (Hrl : 0 < rho wl) (Hrr : 0 < rho wr).
Let q := hllc_compute RNum gamma fl d wl wr.
Let c := Rmax (sound gamma fl wl) (sound gamma fl wr).
Let vl := vel d wl. Let vr := vel d wr.
Let a := rho wl * (vl - q_Sl q).
Let b := rho wr * (q_Sr q - vr).

Lemma c_pos : 0 < c.
Proof.
  unfold c. rewrite <- !sound_is. pose proof (sound_speed_pos gamma fl wl Hf).
  eapply Rlt_le_trans; [exact H|apply Rmax_l].
Qed.

Lemma hllc_Sl : q_Sl q = Rmin vl vr - c.
Proof. unfold q, hllc_compute, c. rewrite <- !sound_is. reflexivity. Qed.
Lemma hllc_Sr : q_Sr q = Rmax vl vr + c.
Proof. unfold q, hllc_compute, c. rewrite <- !sound_is. reflexivity. Qed.

Lemma hllc_gaps : c <= vl - q_Sl q /\ c <= vr - q_Sl q /\ c <= q_Sr q - vl /\ c <= q_Sr q - vr.
Proof. rewrite hllc_Sl, hllc_Sr. apply core_gaps. Qed.

Lemma hllc_ab : 0 < a /\ 0 < b.
Proof. unfold a, b. rewrite hllc_Sl, hllc_Sr. apply core_ab; auto. apply c_pos. Qed.

Lemma hllc_vstar :
  q_vstar q = (a * vl + b * vr + press wl - press wr) / (a + b).
Proof. unfold a, b. rewrite hllc_Sl, hllc_Sr. unfold q, hllc_compute, c. rewrite <- !sound_is. reflexivity. Qed.
Lemma hllc_Pstar :
  q_Pstar q = (a * press wr + b * press wl + a * b * (vl - vr)) / (a + b).
Proof. unfold a, b. rewrite hllc_Sl, hllc_Sr. unfold q, hllc_compute, c. rewrite <- !sound_is. reflexivity. Qed.

Lemma hllc_vs : (a + b) * q_vstar q = a * vl + b * vr + press wl - press wr.
Proof. destruct hllc_ab. rewrite hllc_vstar. field. lra. Qed.
Lemma hllc_Pl : a * q_vstar q + q_Pstar q = a * vl + press wl.
Proof. destruct hllc_ab. rewrite hllc_vstar, hllc_Pstar. field. lra. Qed.
Lemma hllc_Pr : b * q_vstar q - q_Pstar q = b * vr - press wr.
Proof. destruct hllc_ab. rewrite hllc_vstar, hllc_Pstar. field. lra. Qed.

Lemma press_bound w : 1 <= gamma -> physical w -> sound gamma fl w <= c -> press w <= rho w * (c * c).
Proof.
  intros Hg [Hr HP] Hs. destruct (sound_speed_sq gamma fl w Hf) as (S1 & S2 & S3).
  rewrite sound_is in *.
  change (gamma * press w / rho w <= sound gamma fl w * sound gamma fl w) in S3.
  assert (sound gamma fl w * sound gamma fl w <= c * c) by nra.
  assert (X : rho w * (gamma * press w / rho w) <= rho w * (c * c)).
  { apply Rmult_le_compat_l; lra. }
  replace (rho w * (gamma * press w / rho w)) with (gamma * press w) in X by (field; lra).
  nra.
Qed.

Lemma hllc_order : 1 <= gamma -> 0 <= press wl -> 0 <= press wr ->
  q_Sl q < q_vstar q < q_Sr q.
Proof.
  intros Hg HPl HPr. rewrite hllc_vstar. unfold a, b. rewrite hllc_Sl, hllc_Sr.
  apply core_order; auto; try apply c_pos.
  - apply press_bound; auto. split; auto. apply Rmax_l.
  - apply press_bound; auto. split; auto. apply Rmax_r.
Qed.

Lemma hllc_rL : q_Sl q <> q_vstar q ->
  q_rL q * (q_Sl q - q_vstar q) = rho wl * (q_Sl q - vl).
Proof.
  intro H.
  assert (E : q_rL q = rho wl * (q_Sl q - vl) / (q_Sl q - q_vstar q)) by reflexivity.
  rewrite E. field. lra.
Qed.
Lemma hllc_rR : q_Sr q <> q_vstar q ->
  q_rR q * (q_Sr q - q_vstar q) = rho wr * (q_Sr q - vr).
Proof.
  intro H.
  assert (E : q_rR q = rho wr * (q_Sr q - vr) / (q_Sr q - q_vstar q)) by reflexivity.
  rewrite E. field. lra.
Qed.
Let El := total_energy gamma wl. Let Er := total_energy gamma wr.
Lemma hllc_EL : q_Sl q <> q_vstar q ->
  q_EL q * (q_Sl q - q_vstar q)
  = (q_Sl q - vl) * El - press wl * vl + q_Pstar q * q_vstar q.
Proof.
  intro H.
  assert (E : q_EL q = ((q_Sl q - vl) * compute_conservatives RNum gamma wl 4%Z - press wl * vl + q_Pstar q * q_vstar q) / (q_Sl q - q_vstar q)) by reflexivity.
  rewrite cons_is in E. change (conserved gamma wl 4%Z) with El in E.
  rewrite E. field. lra.
Qed.
Lemma hllc_ER : q_Sr q <> q_vstar q ->
  q_ER q * (q_Sr q - q_vstar q)
  = (q_Sr q - vr) * Er - press wr * vr + q_Pstar q * q_vstar q.
Proof.
  intro H.
  assert (E : q_ER q = ((q_Sr q - vr) * compute_conservatives RNum gamma wr 4%Z - press wr * vr + q_Pstar q * q_vstar q) / (q_Sr q - q_vstar q)) by reflexivity.
  rewrite cons_is in E. change (conserved gamma wr 4%Z) with Er in E.
  rewrite E. field. lra.
Qed.

(** sampled state, one equation per sector *)
Definition sector : Z :=
  if Rltb 0 (q_Sl q) then 0%Z else if Rltb 0 (q_vstar q) then 1%Z
  else if Rltb 0 (q_Sr q) then 2%Z else 3%Z.
Lemma hllc_sample :
  (q_r q, q_v q, q_P q, q_E q) =
  match sector with
  | 0%Z => (rho wl, vl, press wl, El)
  | 1%Z => (q_rL q, q_vstar q, q_Pstar q, q_EL q)
  | 2%Z => (q_rR q, q_vstar q, q_Pstar q, q_ER q)
  | _ => (rho wr, vr, press wr, Er)
  end.
Proof.
  unfold sector.
  unfold El, Er. rewrite <- (cons_is gamma wl 4 : _ = total_energy gamma wl).
  rewrite <- (cons_is gamma wr 4 : _ = total_energy gamma wr).
  destruct (Rltb 0 (q_Sl q)) eqn:E1; [|destruct (Rltb 0 (q_vstar q)) eqn:E2; [|destruct (Rltb 0 (q_Sr q)) eqn:E3]];
  unfold q, hllc_compute in *; cbn [q_Sl q_Sr q_vstar q_r q_v q_P q_E q_rL q_EL q_rR q_ER q_Pstar] in *; rn;
  rewrite ?E1, ?E2, ?E3; reflexivity.
Qed.

(** flux of the sampled state *)
Definition gdv_flux (r v P E : R) (k : Z) : R :=
  if (k =? 0)%Z then r * v
  else if (k =? 4)%Z then v * (E + P)
  else if (k =? comp d)%Z then r * v * v + P
  else r * v * (if Rltb 0 v then wl k else if Rltb v 0 then wr k else 0).
Lemma hllc_gdv k : hllc RNum gamma fl d wl wr k = gdv_flux (q_r q) (q_v q) (q_P q) (q_E q) k.
Proof.
  unfold hllc, gdv_flux. fold q. unfold rRho, rE. rewrite vrow_comp. rn.
  destruct (k =? 0)%Z eqn:E0; auto.
  destruct (is_vel k) eqn:Ev.
  - destruct (is_vel_cases k Ev) as [->|[->| ->]]; destruct d; reflexivity.
  - destruct (k =? 4)%Z eqn:E4; auto.
    destruct (k =? comp d)%Z eqn:Ed; auto.
    zb. subst. destruct d; discriminate.
Qed.
End HLLC.

Arguments sector : clear implicits.
Arguments gdv_flux : clear implicits.

Lemma gdv_eq d wl wr r v P E r' v' P' E' k :
  (r, v, P, E) = (r', v', P', E') -> gdv_flux d wl wr r v P E k = gdv_flux d wl wr r' v' P' E' k.
Proof. congruence. Qed.

(** ** Solution structure *)
Section Struct.
Context (gamma fl : R) (d : axis).
Context (Hf : 0 < fl) (Hg : 1 <= gamma).
Local Notation Q wl wr := (hllc_compute RNum gamma fl d wl wr).

Definition starU (rs Es s : R) (w : state) (r : Z) : R :=
  if (r =? 0)%Z then rs else if (r =? 4)%Z then Es
  else if (r =? comp d)%Z then rs * s else rs * w r.
Definition UL wl wr := starU (q_rL (Q wl wr)) (q_EL (Q wl wr)) (q_vstar (Q wl wr)) wl.
Definition UR wl wr := starU (q_rR (Q wl wr)) (q_ER (Q wl wr)) (q_vstar (Q wl wr)) wr.
Definition Fstar wl wr U r := star_flux d (q_vstar (Q wl wr)) (q_Pstar (Q wl wr)) U r.

Lemma comp_ne0 : comp d <> 0%Z. Proof. destruct d; discriminate. Qed.
Lemma comp_ne4 : comp d <> 4%Z. Proof. destruct d; discriminate. Qed.

Lemma conserved_split w r :
  conserved gamma w r = if (r =? 0)%Z then rho w else if (r =? 4)%Z then total_energy gamma w
  else rho w * w r.
Proof.
  unfold conserved. destruct (r =? 0)%Z eqn:E0; zb; [subst; reflexivity|].
  destruct (r =? 4)%Z eqn:E4; zb; [subst; reflexivity|].
  destruct r as [|p|p]; try congruence.
  destruct p as [[p|p|]|[[p|p|]|[p|p|]|]|]; congruence.
Qed.

Ltac rowsplit r :=
  destruct (r =? 0)%Z eqn:?E0; [zb; subst r|
  destruct (r =? 4)%Z eqn:?E4; [zb; subst r|
  destruct (r =? comp d)%Z eqn:?Ed; [zb; subst r|]]].

Lemma cd0 : (0 =? comp d)%Z = false. Proof. destruct d; reflexivity. Qed.
Lemma cd4 : (4 =? comp d)%Z = false. Proof. destruct d; reflexivity. Qed.
Lemma dc0 : (comp d =? 0)%Z = false. Proof. destruct d; reflexivity. Qed.
Lemma dc4 : (comp d =? 4)%Z = false. Proof. destruct d; reflexivity. Qed.

Context (wl wr : state) (Pl : physical wl) (Pr : physical wr).
Let q := Q wl wr.

Lemma order : q_Sl q < q_vstar q < q_Sr q.
Proof. destruct Pl, Pr. apply hllc_order; auto. Qed.

Lemma rh_left r :
  Fstar wl wr (UL wl wr) r - euler_flux gamma d wl r
  = q_Sl q * (UL wl wr r - conserved gamma wl r).
Proof.
  destruct Pl as [Hrl HPl], Pr as [Hrr HPr]. pose proof order as O.
  assert (Hs : q_Sl q <> q_vstar q) by lra.
  pose proof (hllc_rL gamma fl d wl wr Hs) as E1. fold q in E1.
  pose proof (hllc_EL gamma fl d wl wr Hs) as E2. fold q in E2.
  pose proof (hllc_Pl gamma fl d wl wr Hf Hrl Hrr) as E3. fold q in E3.
  unfold Fstar, UL, starU, star_flux, euler_flux. rewrite conserved_split. fold q.
  rowsplit r; rewrite ?cd0, ?cd4, ?dc0, ?dc4, ?Z.eqb_refl; cbn [Z.eqb Pos.eqb]; try lra.
  - change (wl (comp d)) with (vel d wl).
    assert (q_rL q * q_vstar q * (q_vstar q - q_Sl q) = rho wl * (vel d wl - q_Sl q) * q_vstar q).
    { replace (q_rL q * q_vstar q * (q_vstar q - q_Sl q)) with
      (- (q_rL q * (q_Sl q - q_vstar q)) * q_vstar q) by ring. rewrite E1. ring. }
    lra.
  - replace (q_vstar q * (q_rL q * wl r) + 0 - rho wl * vel d wl * wl r) with
     (wl r * (q_vstar q * q_rL q - rho wl * vel d wl)) by ring.
    replace (q_vstar q * q_rL q - rho wl * vel d wl) with (q_Sl q * (q_rL q - rho wl)) by lra. ring.
Qed.

Lemma rh_right r :
  Fstar wl wr (UR wl wr) r - euler_flux gamma d wr r
  = q_Sr q * (UR wl wr r - conserved gamma wr r).
Proof.
  destruct Pl as [Hrl HPl], Pr as [Hrr HPr]. pose proof order as O.
  assert (Hs : q_Sr q <> q_vstar q) by lra.
  pose proof (hllc_rR gamma fl d wl wr Hs) as E1. fold q in E1.
  pose proof (hllc_ER gamma fl d wl wr Hs) as E2. fold q in E2.
  pose proof (hllc_Pr gamma fl d wl wr Hf Hrl Hrr) as E3. fold q in E3.
  unfold Fstar, UR, starU, star_flux, euler_flux. rewrite conserved_split. fold q.
  rowsplit r; rewrite ?cd0, ?cd4, ?dc0, ?dc4, ?Z.eqb_refl; cbn [Z.eqb Pos.eqb]; try lra.
  - change (wr (comp d)) with (vel d wr).
    assert (q_rR q * q_vstar q * (q_Sr q - q_vstar q) = rho wr * (q_Sr q - vel d wr) * q_vstar q).
    { replace (q_rR q * q_vstar q * (q_Sr q - q_vstar q)) with
      ((q_rR q * (q_Sr q - q_vstar q)) * q_vstar q) by ring. rewrite E1. ring. }
    lra.
  - replace (q_vstar q * (q_rR q * wr r) + 0 - rho wr * vel d wr * wr r) with
     (wr r * (q_vstar q * q_rR q - rho wr * vel d wr)) by ring.
    replace (q_vstar q * q_rR q - rho wr * vel d wr) with (q_Sr q * (q_rR q - rho wr)) by lra. ring.
Qed.

Lemma rh_contact r :
  Fstar wl wr (UL wl wr) r - Fstar wl wr (UR wl wr) r
  = q_vstar q * (UL wl wr r - UR wl wr r).
Proof. unfold Fstar, star_flux. fold q. ring. Qed.

Lemma stars_pos : 0 < q_rL q /\ 0 < q_rR q.
Proof.
  destruct Pl as [Hrl HPl], Pr as [Hrr HPr]. pose proof order as O.
  pose proof (hllc_rL gamma fl d wl wr) as E1. fold q in E1. specialize (E1 ltac:(lra)).
  pose proof (hllc_rR gamma fl d wl wr) as E2. fold q in E2. specialize (E2 ltac:(lra)).
  destruct (hllc_gaps gamma fl d wl wr) as (G1 & G2 & G3 & G4). fold q in G1, G4.
  pose proof (c_pos gamma fl wl wr Hf).
  split.
  - assert (0 < rho wl * (vel d wl - q_Sl q)) by nra.
    assert (0 < q_rL q * (q_vstar q - q_Sl q)) by lra. nra.
  - assert (0 < rho wr * (q_Sr q - vel d wr)) by nra.
    assert (0 < q_rR q * (q_Sr q - q_vstar q)) by lra. nra.
Qed.

(** the flux returned, symmetric form *)
Lemma hllc_cases r :
  (0 <= q_Sl q -> hllc RNum gamma fl d wl wr r = euler_flux gamma d wl r) /\
  (q_Sl q <= 0 -> 0 < q_vstar q -> hllc RNum gamma fl d wl wr r = Fstar wl wr (UL wl wr) r) /\
  (q_vstar q = 0 -> hllc RNum gamma fl d wl wr r = pressure_flux d (q_Pstar q) r) /\
  (q_vstar q < 0 -> 0 <= q_Sr q -> hllc RNum gamma fl d wl wr r = Fstar wl wr (UR wl wr) r) /\
  (q_Sr q <= 0 -> hllc RNum gamma fl d wl wr r = euler_flux gamma d wr r).
Proof.
  pose proof order as O.
  pose proof (hllc_sample gamma fl d wl wr) as S. cbv zeta in S. fold q in S.
  destruct (hllc_gaps gamma fl d wl wr) as (G1 & G2 & G3 & G4).
  pose proof (c_pos gamma fl wl wr Hf) as C. fold q in G1, G2, G3, G4.
  unfold sector in S. fold q in S.
  assert (A : 0 < q_Sl q -> hllc RNum gamma fl d wl wr r = euler_flux gamma d wl r).
  { intro H. rewrite hllc_gdv. fold q. apply Rltb_true in H. rewrite H in S.
    rewrite (gdv_eq _ _ _ _ _ _ _ _ _ _ _ _ S). unfold gdv_flux, euler_flux. rb.
    assert (Hv : 0 < vel d wl) by lra. apply Rltb_true in Hv. rewrite Hv. reflexivity. }
  assert (B : q_Sl q <= 0 -> 0 < q_vstar q -> hllc RNum gamma fl d wl wr r = Fstar wl wr (UL wl wr) r).
  { intros H1 H2. rewrite hllc_gdv. fold q. apply Rltb_false in H1. apply Rltb_true in H2.
    rewrite H1, H2 in S. rewrite (gdv_eq _ _ _ _ _ _ _ _ _ _ _ _ S). unfold gdv_flux. rewrite H2.
    unfold Fstar, star_flux, UL, starU. fold q.
    rowsplit r; rewrite ?cd0, ?cd4, ?dc0, ?dc4, ?Z.eqb_refl; cbn [Z.eqb Pos.eqb]; rn; ring. }
  assert (D : q_vstar q < 0 -> 0 < q_Sr q -> hllc RNum gamma fl d wl wr r = Fstar wl wr (UR wl wr) r).
  { intros H1 H2. assert (X1 : q_Sl q <= 0) by lra. assert (X2 : q_vstar q <= 0) by lra.
    rewrite hllc_gdv. fold q. apply Rltb_false in X1, X2. apply Rltb_true in H2.
    rewrite X1, X2, H2 in S. rewrite (gdv_eq _ _ _ _ _ _ _ _ _ _ _ _ S). unfold gdv_flux. rewrite X2.
    apply Rltb_true in H1. rewrite H1.
    unfold Fstar, star_flux, UR, starU. fold q.
    rowsplit r; rewrite ?cd0, ?cd4, ?dc0, ?dc4, ?Z.eqb_refl; cbn [Z.eqb Pos.eqb]; rn; ring. }
  assert (E : q_Sr q <= 0 -> hllc RNum gamma fl d wl wr r = euler_flux gamma d wr r).
  { intro H. assert (X1 : q_Sl q <= 0) by lra. assert (X2 : q_vstar q <= 0) by lra.
    rewrite hllc_gdv. fold q. apply Rltb_false in X1, X2, H.
    rewrite X1, X2, H in S. rewrite (gdv_eq _ _ _ _ _ _ _ _ _ _ _ _ S). unfold gdv_flux, euler_flux. rb.
    assert (Hv : vel d wr < 0) by lra. assert (Hv' : vel d wr <= 0) by lra.
    apply Rltb_true in Hv. apply Rltb_false in Hv'. rewrite Hv, Hv'. reflexivity. }
  split; [|split; [|split; [|split]]]; auto.
  - intros [H|H]; auto. rewrite B by lra.
    pose proof (rh_left r) as X. rewrite <- H in X. lra.
  - intro H. assert (X1 : q_Sl q <= 0) by lra. assert (X2 : q_vstar q <= 0) by lra.
    assert (X3 : 0 < q_Sr q) by lra.
    rewrite hllc_gdv. fold q. apply Rltb_false in X1, X2. apply Rltb_true in X3.
    rewrite X1, X2, X3 in S. rewrite (gdv_eq _ _ _ _ _ _ _ _ _ _ _ _ S). unfold gdv_flux, pressure_flux. rewrite H.
    rowsplit r; rewrite ?cd0, ?cd4, ?dc0, ?dc4, ?Z.eqb_refl; cbn [Z.eqb Pos.eqb]; rn; ring.
  - intros H1 [H2|H2]; auto. rewrite E by lra.
    pose proof (rh_right r) as X. rewrite <- H2 in X. lra.
Qed.
End Struct.

Ltac rowsplit d r :=
  destruct (r =? 0)%Z eqn:?E0; [zb; subst r|
  destruct (r =? 4)%Z eqn:?E4; [zb; subst r|
  destruct (r =? comp d)%Z eqn:?Ed; [zb; subst r|]]];
  rewrite ?cd0, ?cd4, ?dc0, ?dc4, ?Z.eqb_refl; cbn [Z.eqb Pos.eqb].

(** ** Contacts (C07) *)
Section Contact.
Context (gamma fl : R) (d : axis) (Hf : 0 < fl) (Hg : 1 <= gamma).
Context (wl wr : state) (Pl : physical wl) (Pr : physical wr).
Context (Hv : vel d wl = vel d wr) (HP : press wl = press wr).
Let q := hllc_compute RNum gamma fl d wl wr.

Lemma contact_vs : q_vstar q = vel d wl.
Proof.
  destruct Pl, Pr. destruct (hllc_ab gamma fl d wl wr) as [A B]; auto.
  unfold q. rewrite hllc_vstar, <- Hv, HP. eqR. field. rewrite <- Hv in B. lra.
Qed.
Lemma contact_Ps : q_Pstar q = press wl.
Proof.
  destruct Pl, Pr. destruct (hllc_ab gamma fl d wl wr) as [A B]; auto.
  unfold q. rewrite hllc_Pstar, <- Hv, HP. eqR. field. rewrite <- Hv in B. lra.
Qed.
Lemma mul_cancel x y z : z <> 0 -> x * z = y * z -> x = y.
Proof. intros H E. apply (Rmult_eq_reg_r z); auto. Qed.
Lemma contact_UL r : UL gamma fl d wl wr r = conserved gamma wl r.
Proof.
  pose proof (order gamma fl d Hf Hg wl wr Pl Pr) as O. fold q in O.
  pose proof (hllc_rL gamma fl d wl wr) as E1. fold q in E1. specialize (E1 ltac:(lra)).
  pose proof (hllc_EL gamma fl d wl wr) as E2. fold q in E2. specialize (E2 ltac:(lra)).
  rewrite contact_Ps in E2. rewrite contact_vs in E1, E2, O.
  assert (X1 : q_rL q = rho wl) by (apply (mul_cancel _ _ (q_Sl q - vel d wl)); lra).
  assert (X2 : q_EL q = total_energy gamma wl) by (apply (mul_cancel _ _ (q_Sl q - vel d wl)); lra).
  unfold UL, starU. fold q. rewrite conserved_split, X1, X2, contact_vs.
  rowsplit d r; reflexivity.
Qed.
Lemma contact_UR r : UR gamma fl d wl wr r = conserved gamma wr r.
Proof.
  pose proof (order gamma fl d Hf Hg wl wr Pl Pr) as O. fold q in O.
  pose proof (hllc_rR gamma fl d wl wr) as E1. fold q in E1. specialize (E1 ltac:(lra)).
  pose proof (hllc_ER gamma fl d wl wr) as E2. fold q in E2. specialize (E2 ltac:(lra)).
  rewrite contact_Ps, HP in E2. rewrite contact_vs, Hv in E1, E2. rewrite contact_vs, Hv in O.
  assert (X1 : q_rR q = rho wr) by (apply (mul_cancel _ _ (q_Sr q - vel d wr)); lra).
  assert (X2 : q_ER q = total_energy gamma wr) by (apply (mul_cancel _ _ (q_Sr q - vel d wr)); lra).
  unfold UR, starU. fold q. rewrite conserved_split, X1, X2, contact_vs, Hv.
  rowsplit d r; reflexivity.
Qed.

Lemma hllc_contact r :
  hllc RNum gamma fl d wl wr r =
  if Rlt_dec 0 (vel d wl) then euler_flux gamma d wl r
  else if Rlt_dec (vel d wl) 0 then euler_flux gamma d wr r
  else pressure_flux d (press wl) r.
Proof.
  destruct (hllc_cases gamma fl d Hf Hg wl wr Pl Pr r) as (C1 & C2 & C3 & C4 & C5).
  pose proof (rh_left gamma fl d Hf Hg wl wr Pl Pr r) as R1.
  pose proof (rh_right gamma fl d Hf Hg wl wr Pl Pr r) as R2.
  fold q in C1, C2, C3, C4, C5, R1, R2. rewrite contact_UL in R1. rewrite contact_UR in R2.
  rewrite contact_vs in C2, C3, C4. rewrite contact_Ps in C3.
  destruct (Rlt_dec 0 (vel d wl)).
  - destruct (Rle_lt_dec 0 (q_Sl q)); auto. rewrite C2 by lra.
    eqR. lra.
  - destruct (Rlt_dec (vel d wl) 0).
    + destruct (Rle_lt_dec (q_Sr q) 0); auto. rewrite C4 by lra. eqR. lra.
    + apply C3. lra.
Qed.
End Contact.

(** ** LLF in the spec vocabulary *)
Lemma llf_is gamma fl d wl wr r :
  llf RNum gamma fl d wl wr r =
  1/2 * (euler_flux gamma d wl r + euler_flux gamma d wr r)
  - 1/2 * Rmax (Rabs (vel d wl) + sound gamma fl wl) (Rabs (vel d wr) + sound gamma fl wr)
    * (conserved gamma wr r - conserved gamma wl r).
Proof.
  rewrite <- !cons_is, <- !flux_is, <- !sound_is. reflexivity.
Qed.
Lemma upwind_is gamma fl d wl wr r :
  advection_upwind RNum gamma fl d wl wr r =
  if Rlt_dec 0 (vel d wl) then transport_flux gamma d wl r
  else if Rlt_dec (vel d wl) 0 then transport_flux gamma d wr r else 0.
Proof.
  unfold advection_upwind. rewrite !flux_adv_is.
  change (wl (vrow d)) with (vel d wl). rn. unfold Rltb.
  destruct (Rlt_dec 0 (vel d wl)); auto. destruct (Rlt_dec (vel d wl) 0); auto.
Qed.

(** ** Consistency (C05) *)
Lemma pressure_flux_rest gamma d w r :
  vel d w = 0 -> pressure_flux d (press w) r = euler_flux gamma d w r.
Proof.
  intro H. unfold pressure_flux, euler_flux. rewrite H. rowsplit d r; ring.
Qed.
Lemma hllc_consistent gamma fl d w r :
  0 < fl -> 1 <= gamma -> physical w ->
  hllc RNum gamma fl d w w r = euler_flux gamma d w r.
Proof.
  intros. rewrite hllc_contact; auto.
  destruct (Rlt_dec 0 (vel d w)); auto. destruct (Rlt_dec (vel d w) 0); auto.
  apply pressure_flux_rest. lra.
Qed.
Lemma llf_consistent gamma fl d w r :
  llf RNum gamma fl d w w r = euler_flux gamma d w r.
Proof. rewrite llf_is. lra. Qed.
Lemma upwind_consistent gamma fl d w r :
  advection_upwind RNum gamma fl d w w r = transport_flux gamma d w r.
Proof.
  rewrite upwind_is. destruct (Rlt_dec 0 (vel d w)); auto. destruct (Rlt_dec (vel d w) 0); auto.
  unfold transport_flux. replace (vel d w) with 0 by lra. eqR. ring.
Qed.

(** ** Mirror images (C09) *)
Section Mirror.
Context (gamma fl : R) (d : axis).
Local Notation M := (mirror d).

Lemma m_rho w : rho (M w) = rho w.
Proof. unfold rho, mirror. rewrite cd0. reflexivity. Qed.
Lemma m_press w : press (M w) = press w.
Proof. unfold press, mirror. rewrite cd4. reflexivity. Qed.
Lemma m_vel w : vel d (M w) = - vel d w.
Proof. unfold vel, mirror. rewrite Z.eqb_refl. reflexivity. Qed.
Lemma m_sound w : sound gamma fl (M w) = sound gamma fl w.
Proof. unfold sound. rewrite m_rho, m_press. reflexivity. Qed.
Lemma m_energy w : total_energy gamma (M w) = total_energy gamma w.
Proof.
  unfold total_energy. rewrite m_rho, m_press. unfold vel, mirror.
  destruct d; cbn; lra.
Qed.
Lemma m_physical w : physical w -> physical (M w).
Proof. unfold physical. rewrite m_rho, m_press. auto. Qed.
Lemma m_flux w r : euler_flux gamma d (M w) r = mirror_sign d r * euler_flux gamma d w r.
Proof.
  unfold euler_flux, mirror_sign. rewrite m_rho, m_press, m_vel, m_energy.
  rowsplit d r; try ring. unfold mirror. rewrite Ed. ring.
Qed.
Lemma m_cons w r : conserved gamma (M w) r = - mirror_sign d r * conserved gamma w r.
Proof.
  rewrite !conserved_split. unfold mirror_sign. rewrite m_rho, m_energy.
  rowsplit d r; try ring; unfold mirror; rewrite ?Ed, ?Z.eqb_refl; ring.
Qed.

Lemma llf_mirror wl wr r :
  llf RNum gamma fl d (M wr) (M wl) r = mirror_sign d r * llf RNum gamma fl d wl wr r.
Proof.
  rewrite !llf_is, !m_flux, !m_cons, !m_vel, !m_sound, !Rabs_Ropp.
  rewrite (Rmax_comm (Rabs (vel d wr) + _)). eqR. ring.
Qed.

Context (Hf : 0 < fl) (Hg : 1 <= gamma).
Context (wl wr : state) (Pl : physical wl) (Pr : physical wr).
Let q := hllc_compute RNum gamma fl d wl wr.
Let q' := hllc_compute RNum gamma fl d (M wr) (M wl).

Lemma min_opp x y : Rmin (- x) (- y) = - Rmax x y.
Proof. unfold Rmin, Rmax. destruct (Rle_dec _ _), (Rle_dec _ _); lra. Qed.
Lemma max_opp x y : Rmax (- x) (- y) = - Rmin x y.
Proof. unfold Rmin, Rmax. destruct (Rle_dec _ _), (Rle_dec _ _); lra. Qed.

Lemma m_Sl : q_Sl q' = - q_Sr q.
Proof.
  unfold q, q'. rewrite hllc_Sl, hllc_Sr, !m_vel, !m_sound, min_opp.
  rewrite (Rmax_comm (sound gamma fl wr)), (Rmax_comm (vel d wr)). eqR. ring.
Qed.
Lemma m_Sr : q_Sr q' = - q_Sl q.
Proof.
  unfold q, q'. rewrite hllc_Sl, hllc_Sr, !m_vel, !m_sound, max_opp.
  rewrite (Rmax_comm (sound gamma fl wr)), (Rmin_comm (vel d wr)). eqR. ring.
Qed.
Lemma m_vs : q_vstar q' = - q_vstar q.
Proof.
  destruct Pl, Pr. destruct (hllc_ab gamma fl d wl wr) as [A B]; auto.
  unfold q, q'. rewrite !hllc_vstar. fold q q'. rewrite m_Sl, m_Sr, !m_vel, !m_rho, !m_press.
  fold q in A, B. eqR. field. lra.
Qed.
Lemma m_Ps : q_Pstar q' = q_Pstar q.
Proof.
  destruct Pl, Pr. destruct (hllc_ab gamma fl d wl wr) as [A B]; auto.
  unfold q, q'. rewrite !hllc_Pstar. fold q q'. rewrite m_Sl, m_Sr, !m_vel, !m_rho, !m_press.
  fold q in A, B. eqR. field. lra.
Qed.
Lemma m_rL : q_rL q' = q_rR q.
Proof.
  pose proof (order gamma fl d Hf Hg wl wr Pl Pr) as O. fold q in O.
  pose proof (hllc_rL gamma fl d (M wr) (M wl)) as E1. fold q' in E1.
  pose proof (hllc_rR gamma fl d wl wr) as E2. fold q in E2.
  rewrite m_Sl, m_vs, m_vel, m_rho in E1. specialize (E1 ltac:(lra)). specialize (E2 ltac:(lra)).
  apply (mul_cancel _ _ (q_Sr q - q_vstar q)); lra.
Qed.
Lemma m_rR : q_rR q' = q_rL q.
Proof.
  pose proof (order gamma fl d Hf Hg wl wr Pl Pr) as O. fold q in O.
  pose proof (hllc_rR gamma fl d (M wr) (M wl)) as E1. fold q' in E1.
  pose proof (hllc_rL gamma fl d wl wr) as E2. fold q in E2.
  rewrite m_Sr, m_vs, m_vel, m_rho in E1. specialize (E1 ltac:(lra)). specialize (E2 ltac:(lra)).
  apply (mul_cancel _ _ (q_Sl q - q_vstar q)); lra.
Qed.
Lemma m_EL : q_EL q' = q_ER q.
Proof.
  pose proof (order gamma fl d Hf Hg wl wr Pl Pr) as O. fold q in O.
  pose proof (hllc_EL gamma fl d (M wr) (M wl)) as E1. fold q' in E1.
  pose proof (hllc_ER gamma fl d wl wr) as E2. fold q in E2.
  rewrite m_Ps, m_Sl, m_vs, m_vel, m_press, m_energy in E1. specialize (E1 ltac:(lra)). specialize (E2 ltac:(lra)).
  apply (mul_cancel _ _ (q_Sr q - q_vstar q)); lra.
Qed.
Lemma m_ER : q_ER q' = q_EL q.
Proof.
  pose proof (order gamma fl d Hf Hg wl wr Pl Pr) as O. fold q in O.
  pose proof (hllc_ER gamma fl d (M wr) (M wl)) as E1. fold q' in E1.
  pose proof (hllc_EL gamma fl d wl wr) as E2. fold q in E2.
  rewrite m_Ps, m_Sr, m_vs, m_vel, m_press, m_energy in E1. specialize (E1 ltac:(lra)). specialize (E2 ltac:(lra)).
  apply (mul_cancel _ _ (q_Sl q - q_vstar q)); lra.
Qed.
Lemma m_FL r : Fstar gamma fl d (M wr) (M wl) (UL gamma fl d (M wr) (M wl)) r
  = mirror_sign d r * Fstar gamma fl d wl wr (UR gamma fl d wl wr) r.
Proof.
  unfold Fstar, UL, UR, star_flux, starU. fold q q'.
  rewrite m_vs, m_Ps, m_rL, m_EL. unfold mirror_sign.
  rowsplit d r; try ring. unfold mirror. rewrite Ed. ring.
Qed.
Lemma m_FR r : Fstar gamma fl d (M wr) (M wl) (UR gamma fl d (M wr) (M wl)) r
  = mirror_sign d r * Fstar gamma fl d wl wr (UL gamma fl d wl wr) r.
Proof.
  unfold Fstar, UL, UR, star_flux, starU. fold q q'.
  rewrite m_vs, m_Ps, m_rR, m_ER. unfold mirror_sign.
  rowsplit d r; try ring. unfold mirror. rewrite Ed. ring.
Qed.

Lemma hllc_mirror r :
  hllc RNum gamma fl d (M wr) (M wl) r = mirror_sign d r * hllc RNum gamma fl d wl wr r.
Proof.
  destruct (hllc_cases gamma fl d Hf Hg wl wr Pl Pr r) as (C1 & C2 & C3 & C4 & C5).
  destruct (hllc_cases gamma fl d Hf Hg (M wr) (M wl) (m_physical _ Pr) (m_physical _ Pl) r)
    as (D1 & D2 & D3 & D4 & D5).
  fold q in C1, C2, C3, C4, C5. fold q' in D1, D2, D3, D4, D5.
  rewrite m_Sl in D1, D2. rewrite m_Sr in D4, D5. rewrite m_vs in D2, D3, D4. rewrite m_Ps in D3.
  pose proof (order gamma fl d Hf Hg wl wr Pl Pr) as O. fold q in O.
  rewrite m_flux in D1, D5. rewrite m_FL in D2. rewrite m_FR in D4.
  destruct (Rle_lt_dec 0 (q_Sl q)).
  { rewrite D5, C1 by lra. reflexivity. }
  destruct (Rle_lt_dec (q_Sr q) 0).
  { rewrite D1, C5 by lra. reflexivity. }
  destruct (Rtotal_order (q_vstar q) 0) as [L|[L|L]].
  - rewrite D2, C4 by lra. reflexivity.
  - rewrite D3, C3 by lra. unfold pressure_flux, mirror_sign. destruct (r =? comp d)%Z; cbn [car RNum]; try lra.
  - rewrite D4, C2 by lra. reflexivity.
Qed.
End Mirror.

(** ** Walls (C10) *)
Lemma llf_wall gamma fl d w r :
  llf RNum gamma fl d w (mirror d w) r =
  if (r =? comp d)%Z then llf RNum gamma fl d w (mirror d w) r else 0.
Proof.
  destruct (r =? comp d)%Z eqn:E; auto.
  rewrite llf_is, m_flux, m_cons. unfold mirror_sign. rewrite E. lra.
Qed.
Lemma mirror_inv d w r : mirror d (mirror d w) r = w r.
Proof. unfold mirror. destruct (r =? comp d)%Z; lra. Qed.

Section Wall.
Context (gamma fl : R) (d : axis) (Hf : 0 < fl) (Hg : 1 <= gamma).
Context (w : state) (Pw : physical w).
Let q := hllc_compute RNum gamma fl d w (mirror d w).
Lemma wall_S : q_Sr q = - q_Sl q.
Proof.
  unfold q. rewrite hllc_Sl, hllc_Sr, m_vel, m_sound. unfold Rmin, Rmax.
  destruct (Rle_dec (vel d w) _); eqR; destruct (Rle_dec _ _); lra.
Qed.
Lemma wall_vs : q_vstar q = 0.
Proof.
  pose proof (m_physical d w Pw) as Pm. destruct Pw as [Hr HP], Pm as [Hr' HP'].
  destruct (hllc_ab gamma fl d w (mirror d w)) as [A B]; auto.
  pose proof (hllc_vs gamma fl d w (mirror d w) Hf Hr Hr') as E. fold q in E, A, B.
  rewrite wall_S, m_vel, m_rho, m_press in *.
  replace (rho w * (- q_Sl q - - vel d w)) with (rho w * (vel d w - q_Sl q)) in * by (eqR; ring).
  set (a := rho w * (vel d w - q_Sl q)) in *. nra.
Qed.
Lemma hllc_wall r :
  hllc RNum gamma fl d w (mirror d w) r = pressure_flux d (q_Pstar q) r.
Proof.
  apply hllc_cases; auto. apply m_physical; auto. apply wall_vs.
Qed.
End Wall.

(** ** Axis interchange (C11) *)
Section Permute.
Context (gamma fl : R) (s : axis -> axis) (Hs : forall a b, s a = s b -> a = b).
Local Notation P := (permute s).

Lemma p_vel a w : vel a (P w) = vel (s a) w.
Proof. destruct a; reflexivity. Qed.
Lemma p_row r (w : state) : is_vel r = false -> P w r = w r.
Proof.
  intro H. unfold permute. destruct r as [|p|p]; auto.
  destruct p as [[p|p|]|[p|p|]|]; try discriminate; auto.
Qed.
Lemma p_energy w : total_energy gamma (P w) = total_energy gamma w.
Proof.
  unfold total_energy. rewrite !p_vel.
  change (rho (P w)) with (rho w). change (press (P w)) with (press w).
  pose proof (Hs AX AY). pose proof (Hs AX AZ). pose proof (Hs AY AZ).
  destruct (s AX), (s AY), (s AZ);
    try (exfalso; (discriminate (H eq_refl) || discriminate (H0 eq_refl) || discriminate (H1 eq_refl)));
    unfold vel; cbn; lra.
Qed.
Lemma p_sound w : sound gamma fl (P w) = sound gamma fl w.
Proof. reflexivity. Qed.
Lemma p_comp a b : (comp a =? comp b)%Z = (comp (s a) =? comp (s b))%Z.
Proof.
  destruct (Z.eqb_spec (comp a) (comp b)) as [E|E], (Z.eqb_spec (comp (s a)) (comp (s b))) as [E'|E']; auto.
  - exfalso. apply E'. f_equal. f_equal. destruct a, b; simpl in E; congruence.
  - exfalso. apply E. f_equal. apply Hs. destruct (s a), (s b); simpl in E'; congruence.
Qed.
Lemma comp_cases r : is_vel r = true -> exists b, r = comp b.
Proof. intro H. destruct (is_vel_cases r H) as [->|[->| ->]]; [exists AX|exists AY|exists AZ]; auto. Qed.
Lemma p_comp_row f b : P f (comp b) = f (comp (s b)).
Proof. destruct b; reflexivity. Qed.

Lemma p_cons w r : conserved gamma (P w) r = P (conserved gamma w) r.
Proof.
  destruct (is_vel r) eqn:E.
  - destruct (comp_cases r E) as [b ->]. rewrite p_comp_row, !conserved_split, !dc0, !dc4, p_comp_row.
    reflexivity.
  - rewrite (p_row r (conserved gamma w) E), !conserved_split, p_energy, (p_row r w E). reflexivity.
Qed.
Lemma comp_novel a r : is_vel r = false -> (r =? comp a)%Z = false.
Proof. intro H. apply Z.eqb_neq. intros ->. destruct a; discriminate. Qed.
Lemma p_flux a w r : euler_flux gamma a (P w) r = P (euler_flux gamma (s a) w) r.
Proof.
  destruct (is_vel r) eqn:E.
  - destruct (comp_cases r E) as [b ->]. rewrite p_comp_row. unfold euler_flux.
    rewrite !dc0, !dc4, p_comp_row, <- p_comp, p_vel. reflexivity.
  - rewrite (p_row r (euler_flux gamma (s a) w) E). unfold euler_flux.
    rewrite !(comp_novel _ r E), p_vel, p_energy, (p_row r w E). reflexivity.
Qed.
Lemma p_transport a w r : transport_flux gamma a (P w) r = P (transport_flux gamma (s a) w) r.
Proof.
  unfold transport_flux. rewrite p_cons, p_vel.
  destruct (is_vel r) eqn:E.
  - destruct (comp_cases r E) as [b ->]. rewrite !p_comp_row. reflexivity.
  - rewrite !(p_row r _ E). reflexivity.
Qed.
Lemma P_ext f g r : (forall k, f k = g k) -> P f r = P g r.
Proof.
  intro H. destruct (is_vel r) eqn:E.
  - destruct (comp_cases r E) as [b ->]. rewrite !p_comp_row. auto.
  - rewrite !(p_row r _ E). auto.
Qed.

Lemma hllc_compute_eq d d' wl wr wl' wr' :
  rho wl = rho wl' -> rho wr = rho wr' -> press wl = press wl' -> press wr = press wr' ->
  vel d wl = vel d' wl' -> vel d wr = vel d' wr' ->
  total_energy gamma wl = total_energy gamma wl' ->
  total_energy gamma wr = total_energy gamma wr' ->
  hllc_compute RNum gamma fl d wl wr = hllc_compute RNum gamma fl d' wl' wr'.
Proof.
  intros H1 H2 H3 H4 H5 H6 H7 H8. unfold hllc_compute.
  unfold rE, rRho, compute_sound_speed, rE, rRho.
  rewrite !(cons_is gamma _ 4). unfold conserved.
  change (wl 0%Z) with (rho wl). change (wr 0%Z) with (rho wr).
  change (wl 4%Z) with (press wl). change (wr 4%Z) with (press wr).
  change (wl (vrow d)) with (vel d wl). change (wr (vrow d)) with (vel d wr).
  rewrite H1, H2, H3, H4, H5, H6, H7, H8. reflexivity.
Qed.

Lemma hllc_permute a wl wr r :
  hllc RNum gamma fl a (P wl) (P wr) r = P (hllc RNum gamma fl (s a) wl wr) r.
Proof.
  rewrite hllc_gdv.
  rewrite (P_ext _ _ r (fun k => hllc_gdv gamma fl (s a) wl wr k)).
  rewrite (hllc_compute_eq a (s a) (P wl) (P wr) wl wr); auto using p_vel, p_energy.
  destruct (is_vel r) eqn:E.
  - destruct (comp_cases r E) as [b ->]. rewrite p_comp_row. unfold gdv_flux.
    rewrite !dc0, !dc4, <- p_comp, !p_comp_row. reflexivity.
  - rewrite (p_row r _ E). unfold gdv_flux.
    rewrite !(comp_novel _ r E), !(p_row r _ E). reflexivity.
Qed.
Lemma llf_permute a wl wr r :
  llf RNum gamma fl a (P wl) (P wr) r = P (llf RNum gamma fl (s a) wl wr) r.
Proof.
  rewrite llf_is. rewrite (P_ext _ _ r (fun k => llf_is gamma fl (s a) wl wr k)).
  rewrite !p_flux, !p_cons, !p_vel, !p_sound.
  destruct (is_vel r) eqn:E.
  - destruct (comp_cases r E) as [b ->]. rewrite !p_comp_row. reflexivity.
  - rewrite !(p_row r _ E). reflexivity.
Qed.
Lemma upwind_permute a wl wr r :
  advection_upwind RNum gamma fl a (P wl) (P wr) r = P (advection_upwind RNum gamma fl (s a) wl wr) r.
Proof.
  rewrite upwind_is. rewrite (P_ext _ _ r (fun k => upwind_is gamma fl (s a) wl wr k)).
  rewrite !p_vel, !p_transport.
  destruct (is_vel r) eqn:E.
  - destruct (comp_cases r E) as [b ->]. rewrite !p_comp_row. reflexivity.
  - rewrite !(p_row r _ E). reflexivity.
Qed.
Lemma riemann_permute rs a wl wr r :
  riemann RNum rs gamma fl a (P wl) (P wr) r = P (riemann RNum rs gamma fl (s a) wl wr) r.
Proof.
  destruct rs; [apply upwind_permute|apply llf_permute|apply hllc_permute].
Qed.
End Permute.

(** ** Statements in the form used by the property theorems *)
Lemma hllc_structure : forall gamma floor d wl wr,
  0 < floor -> 1 <= gamma -> physical wl -> physical wr ->
  exists Sl s Sr P UL UR,
    let c := Rmax (sound gamma floor wl) (sound gamma floor wr) in
    Sl = Rmin (vel d wl) (vel d wr) - c /\ Sr = Rmax (vel d wl) (vel d wr) + c /\
    Sl < s < Sr /\
    0 < UL 0%Z /\ 0 < UR 0%Z /\ UL (comp d) = UL 0%Z * s /\ UR (comp d) = UR 0%Z * s /\
    (forall r, star_flux d s P UL r - euler_flux gamma d wl r
               = Sl * (UL r - conserved gamma wl r)) /\
    (forall r, star_flux d s P UR r - euler_flux gamma d wr r
               = Sr * (UR r - conserved gamma wr r)) /\
    (forall r, star_flux d s P UL r - star_flux d s P UR r = s * (UL r - UR r)) /\
    (forall r,
      (0 <= Sl -> hllc RNum gamma floor d wl wr r = euler_flux gamma d wl r) /\
      (Sl <= 0 <= s -> hllc RNum gamma floor d wl wr r = star_flux d s P UL r) /\
      (s <= 0 <= Sr -> hllc RNum gamma floor d wl wr r = star_flux d s P UR r) /\
      (Sr <= 0 -> hllc RNum gamma floor d wl wr r = euler_flux gamma d wr r)).
Proof.
  intros gamma fl d wl wr Hf Hg Pl Pr.
  set (q := hllc_compute RNum gamma fl d wl wr).
  exists (q_Sl q), (q_vstar q), (q_Sr q), (q_Pstar q), (UL gamma fl d wl wr), (UR gamma fl d wl wr).
  cbv zeta.
  destruct (stars_pos gamma fl d Hf Hg wl wr Pl Pr) as [S1 S2].
  split; [apply hllc_Sl|]. split; [apply hllc_Sr|].
  split; [apply order; auto|]. split; [exact S1|]. split; [exact S2|].
  split; [unfold UL, starU; rewrite dc0, dc4, Z.eqb_refl; reflexivity|].
  split; [unfold UR, starU; rewrite dc0, dc4, Z.eqb_refl; reflexivity|].
  split; [apply rh_left; auto|]. split; [apply rh_right; auto|].
  split; [intro; unfold star_flux; ring|].
  intro r. destruct (hllc_cases gamma fl d Hf Hg wl wr Pl Pr r) as (C1 & C2 & C3 & C4 & C5).
  fold q in C1, C2, C3, C4, C5.
  assert (Z0 : forall U, q_vstar q = 0 ->
    pressure_flux d (q_Pstar q) r = star_flux d (q_vstar q) (q_Pstar q) U r).
  { intros U H. unfold pressure_flux, star_flux. rewrite H.
    destruct (r =? comp d)%Z, (r =? 4)%Z; cbn [car RNum]; lra. }
  split; [auto|]. split; [|split; [|auto]].
  - intros [H1 [H2|H2]]; [apply C2; auto|]. rewrite C3 by auto. apply Z0; auto.
  - intros [[H1|H1] H2]; [apply C4; auto|]. rewrite C3 by auto. apply Z0; auto.
Qed.

Lemma hllc_denominators : forall gamma floor d wl wr,
  0 < floor -> 1 <= gamma -> physical wl -> physical wr ->
  let q := hllc_compute RNum gamma floor d wl wr in
  rho wl <> 0 /\ rho wr <> 0 /\
  rho wl * (vel d wl - q_Sl q) + rho wr * (q_Sr q - vel d wr) <> 0 /\
  q_Sl q - q_vstar q <> 0 /\ q_Sr q - q_vstar q <> 0.
Proof.
  intros gamma fl d wl wr Hf Hg Pl Pr q.
  pose proof (order gamma fl d Hf Hg wl wr Pl Pr) as O. fold q in O.
  destruct Pl as [H1 H2], Pr as [H3 H4].
  destruct (hllc_ab gamma fl d wl wr Hf H1 H3) as [A B]. fold q in A, B.
  repeat split; lra.
Qed.

Lemma upwind_mirror : forall gamma floor d wl wr r,
  vel d wl = vel d wr ->
  advection_upwind RNum gamma floor d (mirror d wr) (mirror d wl) r
  = - advection_upwind RNum gamma floor d wl wr r * (if (r =? comp d)%Z then -1 else 1).
Proof.
  intros gamma fl d wl wr r H. rewrite !upwind_is, m_vel, <- H. unfold transport_flux.
  rewrite !m_vel, !m_cons, <- H. unfold mirror_sign. rn.
  destruct (Rlt_dec 0 (vel d wl)), (Rlt_dec (vel d wl) 0), (Rlt_dec 0 (- vel d wl)),
   (Rlt_dec (- vel d wl) 0), (r =? comp d)%Z; lra.
Qed.

Lemma upwind_not_mirror : exists gamma floor d wl wr r,
  physical wl /\ physical wr /\
  advection_upwind RNum gamma floor d (mirror d wr) (mirror d wl) r
  <> - advection_upwind RNum gamma floor d wl wr r * (if (r =? comp d)%Z then -1 else 1).
Proof.
  exists 2, 1, AX, (fun _ => 1), (fun r => if (r =? 1)%Z then -1 else 1), 0%Z.
  split; [split; unfold rho, press; cbn; lra|].
  split; [split; unfold rho, press; cbn; lra|].
  rewrite !upwind_is. unfold transport_flux, conserved, vel, mirror, rho, comp. cbn [Z.eqb Pos.eqb].
  destruct (Rlt_dec 0 (- (-1))), (Rlt_dec (- (-1)) 0), (Rlt_dec 0 1), (Rlt_dec 1 0); lra.
Qed.

Lemma llf_wall0 : forall gamma floor d w r,
  r <> comp d -> llf RNum gamma floor d w (mirror d w) r = 0.
Proof. intros. rewrite llf_wall. apply Z.eqb_neq in H. rewrite H. reflexivity. Qed.
Lemma hllc_wall0 : forall gamma floor d w r,
  0 < floor -> 1 <= gamma -> physical w ->
  r <> comp d -> hllc RNum gamma floor d w (mirror d w) r = 0.
Proof.
  intros. rewrite hllc_wall; auto. unfold pressure_flux.
  apply Z.eqb_neq in H2. rewrite H2. reflexivity.
Qed.

Lemma hydro_dt_full : forall (w : arr R) (h CFL gamma floor : R) (ndim : Z),
  (forall a, (1 <= getc a (shp w))%Z) -> (1 <= ndim)%Z ->
  0 < floor -> 0 < h -> 0 < CFL ->
  let wc i := fun r => at_ w r i in
  let speed i := Rabs (at_ w 1 i) + Rabs (at_ w 2 i) + Rabs (at_ w 3 i)
                 + IZR ndim * sound gamma floor (wc i) in
  exists dt, hydro_dt RNum w h ndim CFL gamma floor = Ok dt /\ 0 < dt /\
    (forall i, in_shape (shp w) i -> dt * speed i / h <= CFL) /\
    (forall i d, in_shape (shp w) i ->
       dt * (Rabs (vel d (wc i)) + sound gamma floor (wc i)) / h <= CFL) /\
    (exists i, in_shape (shp w) i /\ dt * speed i / h = CFL).
Proof.
  intros w h CFL gamma fl nd Hs Hn Hf Hh HC wc speed.
  assert (E : exists dt, hydro_dt RNum w h nd CFL gamma fl = Ok dt).
  { unfold hydro_dt. destruct (reduce_cells_ok (@nmax RNum) (shp w)
      (fun i => cell_speed RNum nd gamma fl (fun r => at_ w r i)) Hs) as [m E].
    exists (CFL * h / (m : R)). etransitivity; [apply (f_equal (fun x => bind x _) E)|]. reflexivity. }
  destruct E as [dt E]. exists dt. split; auto.
  destruct (hydro_dt_spec w h nd CFL gamma fl dt Hn Hf Hh HC E) as (D1 & D2 & D3).
  assert (Sp : forall i, cell_speed RNum nd gamma fl (fun r => at_ w r i) = speed i).
  { intro i. destruct (cell_speed_bound nd gamma fl (wc i) Hn Hf) as (_ & B & _).
    unfold speed, wc in *. rewrite B, sound_is. reflexivity. }
  split; auto. split; [|split].
  - intros i Hi. specialize (D2 i Hi). rewrite Sp in D2.
    apply (Rmult_le_reg_r h); auto. unfold Rdiv. rewrite Rmult_assoc, Rinv_l; lra.
  - intros i d Hi. specialize (D2 i Hi).
    destruct (cell_speed_bound nd gamma fl (wc i) Hn Hf) as (_ & _ & B). specialize (B d).
    rewrite sound_is in B. fold (vel d (wc i)) in B. change (wc i (vrow d)) with (vel d (wc i)) in B.
    assert (X : dt * (Rabs (vel d (wc i)) + sound gamma fl (wc i)) <= CFL * h).
    { eapply Rle_trans; [|exact D2]. apply Rmult_le_compat_l; [lra|exact B]. }
    apply (Rmult_le_reg_r h); auto. unfold Rdiv. rewrite Rmult_assoc, Rinv_l; lra.
  - destruct D3 as (i & Hi & D3). exists i. split; auto. rewrite Sp in D3.
    rewrite D3. field. lra.
Qed.
