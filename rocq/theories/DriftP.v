(** With the limited scheme of degree one, a uniform velocity and short steps the density stays
    within its initial bounds. *)
From Coq Require Import ZArith List Bool Lia Reals Lra Sorting FunctionalExtensionality.
From Verif Require Import Err Num PySlice NdArray HydroM RiemannM StencilsM FvM BcM SedM
  LimitM OdeM SolverM Spec SpecBc SpecLim SpecOde SpecSolver SpecCons SpecScheme SpecSym SpecDrift NdArrayP FvP BcP BcQ OpP SolverP OdeP RelP RelS LimP RunP ConsP
  RiemannP HydroP LoopP SlopeP WallP RkP MusclP ExistP SchemeP SymP SeamP ShiftP WatchP UniformP MirrorP PosP LimExistP SymLimP ShiftLimP.
Import ListNotations.
Open Scope R_scope.

Local Notation wi := (wts_i RNum).
Local Notation wt := (wts_t RNum).
(** ** the scheme of degree one *)
Lemma line_c q a (f : grid) : (q = 0 \/ q = 1)%Z -> line a (wi q P_c) f = f.
Proof.
  intros [-> | ->]; [rewrite w0_i by tauto; apply line_1|]. apply grid_eq. intros v i. unfold line, wts_i. cbn. rewrite up_0.
  match goal with |- @eq _ ?x ?y => change (@eq R x y) end. change (Pos.to_nat 1) with 1%nat. change (Pos.to_nat 2) with 2%nat. cbv iota. ring.
Qed.
Lemma line_t q a (f : grid) : (q = 0 \/ q = 1)%Z -> line a (wt q) f = f.
Proof.
  intros [-> | ->]; [rewrite w0_t; apply line_1|]. apply grid_eq. intros v i. unfold line, wts_t. cbn. rewrite up_0.
  match goal with |- @eq _ ?x ?y => change (@eq R x y) end. change (Pos.to_nat 1) with 1%nat. change (Pos.to_nat 2) with 2%nat. cbv iota. ring.
Qed.
Section Low.
Context (c : config RNum) (p : ix) (Hp : forall a, (getc a p = 0 \/ getc a p = 1)%Z) (s : R -> R -> R).
Local Notation g := (c_gamma c).
Lemma low_prim (E : grid) : primitives wi wt p g E = fun v i => primitive g (fun r => E r i) v.
Proof. unfold primitives, block. cbv zeta. rewrite !line_c, !line_t by apply Hp. reflexivity. Qed.
(** half the limited slope *)
Definition tiltd (d : axis) (f : ix -> R) (i : ix) : R :=
  if (getc d p =? 1)%Z then 1/2 * s (f i - f (up d (-1) i)) (f (up d 1 i) - f i) else 0.
Lemma low_trace (w : grid) d v i : trace wi p (Some s) d P_r w v i = w v i + tiltd d (w v) i /\ trace wi p (Some s) d P_l w v i = w v i - tiltd d (w v) i.
Proof.
  unfold trace, tiltd, across. cbv zeta. rewrite !line_c by apply Hp.
  assert (G : match d with AX => w | AY => w | AZ => w end = w) by (destruct d; reflexivity). rewrite G.
  destruct (getc d p =? 1)%Z eqn:Q; [split; reflexivity|].
  assert (Z0 : getc d p = 0%Z) by (destruct (Hp d) as [H|H]; [exact H|apply Z.eqb_neq in Q; contradiction]).
  rewrite Z0, !w0_i by tauto. rewrite line_1. lra.
Qed.
Lemma low_flux (E : grid) d v i : c_rs c = RS_upwind ->
  let w := fun v i => primitive g (fun r => E r i) v in
  face_flux wi wt c p (Some s) d E v i =
  donor g d (fun r => w r (up d (-1) i) + tiltd d (w r) (up d (-1) i)) (fun r => w r i - tiltd d (w r) i) v.
Proof.
  intros HR w. unfold face_flux. cbv zeta. rewrite low_prim. fold w. unfold across at 1. rewrite !line_t by apply Hp. rewrite HR. cbn [numerical_flux].
  assert (X : forall f : grid, match d with AX => f | AY => f | AZ => f end = f) by (intro f; destruct d; reflexivity). rewrite X.
  f_equal; apply functional_extensionality; intro r; apply low_trace.
Qed.
Context (k : R) (Hk : 0 <= k <= 2) (Hs : forall a b, limited_by k (s a b) a b).
Lemma s_zero : s 0 0 = 0.
Proof. apply (Hs 0 0). lra. Qed.
(** a limited slope is a multiple, between 0 and k, of either difference *)
Lemma share_l a b : exists x, 0 <= x <= k /\ s a b = x * a.
Proof.
  destruct (Hs a b) as [H1 H2]. destruct (Rle_dec (a * b) 0) as [L|L].
  - exists 0. rewrite (H1 L). lra.
  - assert (P : 0 < a * b) by lra. destruct (H2 P) as [S1 S2]. assert (NA : a <> 0) by (intro; subst; lra).
    exists (s a b / a). split; [|field; exact NA].
    assert (E : s a b / a = s a b * a / (a * a)) by (field; exact NA). assert (0 < a * a) by nra.
    split; [rewrite E; apply Rlt_le, Rdiv_lt_0_compat; assumption|].
    assert (A : Rabs (s a b) <= k * Rabs a) by (eapply Rle_trans; [exact S2|]; apply Rmult_le_compat_l; [lra|apply Rmin_l]).
    eapply Rle_trans; [apply Rle_abs|]. unfold Rdiv. rewrite Rabs_mult, Rabs_inv. apply Rmult_le_reg_r with (Rabs a); [apply Rabs_pos_lt, NA|].
    rewrite Rmult_assoc, Rinv_l, Rmult_1_r by (apply Rabs_no_R0, NA). exact A.
Qed.
Lemma share_r a b : exists x, 0 <= x <= k /\ s a b = x * b.
Proof.
  destruct (Hs a b) as [H1 H2]. destruct (Rle_dec (a * b) 0) as [L|L].
  - exists 0. rewrite (H1 L). lra.
  - assert (P : 0 < a * b) by lra. destruct (H2 P) as [S1 S2]. assert (NA : b <> 0) by (intro; subst; lra).
    exists (s a b / b). split; [|field; exact NA].
    assert (SB : 0 < s a b * b). { assert (Q : 0 < (s a b * a) * (a * b)) by (apply Rmult_lt_0_compat; assumption). assert (0 < a * a) by (assert (a <> 0) by (intro; subst; lra); nra). nra. }
    assert (E : s a b / b = s a b * b / (b * b)) by (field; exact NA). assert (0 < b * b) by nra.
    split; [rewrite E; apply Rlt_le, Rdiv_lt_0_compat; assumption|].
    assert (A : Rabs (s a b) <= k * Rabs b) by (eapply Rle_trans; [exact S2|]; apply Rmult_le_compat_l; [lra|apply Rmin_r]).
    eapply Rle_trans; [apply Rle_abs|]. unfold Rdiv. rewrite Rabs_mult, Rabs_inv. apply Rmult_le_reg_r with (Rabs b); [apply Rabs_pos_lt, NA|].
    rewrite Rmult_assoc, Rinv_l, Rmult_1_r by (apply Rabs_no_R0, NA). exact A.
Qed.
(** ** a gas of uniform velocity *)
Context (V : axis -> R) (E : grid) (HR : c_rs c = RS_upwind).
Definition carried (j : ix) : Prop := 0 < E 0%Z j /\ forall a, E (comp a) j = V a * E 0%Z j.
Lemma prim_rho j : primitive g (fun r => E r j) 0%Z = E 0%Z j. Proof. reflexivity. Qed.
Lemma prim_vel j a : carried j -> primitive g (fun r => E r j) (comp a) = V a.
Proof. intros [P H]. destruct a; cbn [comp primitive]; [rewrite (H AX : E 1%Z j = _)|rewrite (H AY : E 2%Z j = _)|rewrite (H AZ : E 3%Z j = _)]; field; lra. Qed.
(** the density on the upwind side of the lower face of cell j *)
Definition upwind (d : axis) (j : ix) : R :=
  if Rlt_dec 0 (V d) then E 0%Z (up d (-1) j) + tiltd d (E 0%Z) (up d (-1) j) else E 0%Z j - tiltd d (E 0%Z) j.
Lemma drift_flux d j : (forall m, (-2 <= m <= 1)%Z -> carried (up d m j)) ->
  face_flux wi wt c p (Some s) d E 0%Z j = V d * upwind d j /\
  forall a, face_flux wi wt c p (Some s) d E (comp a) j = V a * (V d * upwind d j).
Proof.
  intro H. rewrite low_flux by exact HR. cbv zeta.
  assert (T : forall a (m : Z), (-1 <= m <= 0)%Z -> tiltd d (fun i => primitive g (fun r => E r i) (comp a)) (up d m j) = 0).
  { intros a m Hm. unfold tiltd. destruct (_ =? _)%Z; [|reflexivity]. rewrite !up_up.
    rewrite !prim_vel by (apply H; lia). rewrite (Rminus_eq_0 (V a)). rewrite s_zero. lra. }
  assert (VL : forall a, primitive g (fun r => E r (up d (-1) j)) (comp a) + tiltd d (fun i => primitive g (fun r => E r i) (comp a)) (up d (-1) j) = V a).
  { intro a. rewrite T by lia. rewrite prim_vel by (apply H; lia). lra. }
  assert (VR : forall a, primitive g (fun r => E r j) (comp a) - tiltd d (fun i => primitive g (fun r => E r i) (comp a)) j = V a).
  { intro a. pose proof (T a 0%Z ltac:(lia)) as X. rewrite up_0 in X. rewrite X. pose proof (H 0%Z ltac:(lia)) as Y. rewrite up_0 in Y. rewrite prim_vel by exact Y. lra. }
  assert (CV : forall (w : Spec.state) (a : axis), conserved g w (comp a) = rho w * w (comp a)) by (intros w []; reflexivity).
  assert (VD : vel d (fun r => primitive g (fun r0 => E r0 (up d (-1) j)) r + tiltd d (fun i => primitive g (fun r0 => E r0 i) r) (up d (-1) j)) = V d).
  { unfold vel. apply VL. }
  assert (VD' : vel d (fun r => primitive g (fun r0 => E r0 j) r - tiltd d (fun i => primitive g (fun r0 => E r0 i) r) j) = V d).
  { unfold vel. apply VR. }
  split; [|intro a; rewrite low_flux by exact HR; cbv zeta]; unfold donor, transport_flux; rewrite VD, VD', ?CV; unfold upwind.
  - change (conserved g ?w 0%Z) with (rho w). unfold rho. rewrite !prim_rho.
    destruct (Rlt_dec 0 (V d)); [reflexivity|]. destruct (Rlt_dec (V d) 0); [reflexivity|]. replace (V d) with 0 by lra. lra.
  - unfold rho. cbv beta. rewrite VL, VR, !prim_rho.
    destruct (Rlt_dec 0 (V d)); [change (tiltd d (fun i => primitive g (fun r => E r i) 0%Z)) with (tiltd d (E 0%Z)); ring|].
    destruct (Rlt_dec (V d) 0); [change (tiltd d (fun i => primitive g (fun r => E r i) 0%Z)) with (tiltd d (E 0%Z)); ring|]. replace (V d) with 0 by lra. ring.
Qed.
Definition neighbour (d : axis) (i : ix) : ix := up d (if Rlt_dec 0 (V d) then -1 else 1) i.
(** what leaves through the two faces is a fraction of the difference with the upwind neighbour *)
Lemma leaves d i : exists x, 0 <= x <= 1 + k / 2 /\ V d * (upwind d (up d 1 i) - upwind d i) = Rabs (V d) * x * (E 0%Z i - E 0%Z (neighbour d i)).
Proof.
  assert (T1 : forall j, exists x, 0 <= x <= k /\ tiltd d (E 0%Z) j = x / 2 * (E 0%Z j - E 0%Z (up d (-1) j))).
  { intro j. unfold tiltd. destruct (_ =? _)%Z; [|exists 0; split; [lra|lra]].
    destruct (share_l (E 0%Z j - E 0%Z (up d (-1) j)) (E 0%Z (up d 1 j) - E 0%Z j)) as (x & X & ->). exists x. split; [exact X|lra]. }
  assert (T2 : forall j, exists x, 0 <= x <= k /\ tiltd d (E 0%Z) j = x / 2 * (E 0%Z (up d 1 j) - E 0%Z j)).
  { intro j. unfold tiltd. destruct (_ =? _)%Z; [|exists 0; split; [lra|lra]].
    destruct (share_r (E 0%Z j - E 0%Z (up d (-1) j)) (E 0%Z (up d 1 j) - E 0%Z j)) as (x & X & ->). exists x. split; [exact X|lra]. }
  assert (U0 : up d (-1) (up d 1 i) = i) by (rewrite up_up; apply up_0).
  assert (U1 : up d 1 (up d (-1) i) = i) by (rewrite up_up; apply up_0).
  unfold upwind, neighbour. destruct (Rlt_dec 0 (V d)) as [P|P].
  - rewrite U0. destruct (T1 i) as (x & X & ->). destruct (T2 (up d (-1) i)) as (y & Y & ->). rewrite U1.
    exists (1 + x / 2 - y / 2). split; [lra|]. rewrite Rabs_right by lra. ring.
  - destruct (T2 i) as (x & X & ->). destruct (T1 (up d 1 i)) as (y & Y & ->). rewrite U0.
    exists (1 + x / 2 - y / 2). split; [lra|]. rewrite Rabs_left1 by lra. ring.
Qed.
(** a step replaces the density by a mean of itself and those of the upwind neighbours *)
Lemma drift_incr dt i : (forall a, 0 < width c a) -> 0 <= dt -> (1 + k / 2) * (dt * crossings c V) <= 1 ->
  (forall d m, inactive_b c d = false -> (-2 <= m <= 2)%Z -> carried (up d m i)) -> (forall a, E (comp a) i = V a * E 0%Z i) ->
  let B := balance c (fun d => face_flux wi wt c p (Some s) d E) in
  (exists w : axis -> R, (forall d, 0 <= w d /\ (inactive_b c d = true -> w d = 0)) /\ w AX + w AY + w AZ <= 1 /\
    E 0%Z i + dt * B 0%Z i = E 0%Z i - (w AX * (E 0%Z i - E 0%Z (neighbour AX i)) + w AY * (E 0%Z i - E 0%Z (neighbour AY i)) + w AZ * (E 0%Z i - E 0%Z (neighbour AZ i)))) /\
  forall a, E (comp a) i + dt * B (comp a) i = V a * (E 0%Z i + dt * B 0%Z i).
Proof.
  intros HW Hdt HC CA MI B.
  assert (FL : forall d m, inactive_b c d = false -> (m = 0 \/ m = 1)%Z -> face_flux wi wt c p (Some s) d E 0%Z (up d m i) = V d * upwind d (up d m i) /\
    forall a, face_flux wi wt c p (Some s) d E (comp a) (up d m i) = V a * (V d * upwind d (up d m i))).
  { intros d m I Hm. apply drift_flux. intros m' Hm'. rewrite up_up. apply CA; [exact I|lia]. }
  assert (F0 : forall d, inactive_b c d = false -> face_flux wi wt c p (Some s) d E 0%Z i = V d * upwind d i /\
    forall a, face_flux wi wt c p (Some s) d E (comp a) i = V a * (V d * upwind d i)).
  { intros d I. pose proof (FL d 0%Z I (or_introl eq_refl)) as X. rewrite up_0 in X. exact X. }
  assert (ROW : forall a, B (comp a) i = V a * B 0%Z i).
  { intro a. unfold B, balance. cbv zeta.
    assert (T : forall d, (if inactive_b c d then 0 else (face_flux wi wt c p (Some s) d E (comp a) (up d 1 i) - face_flux wi wt c p (Some s) d E (comp a) i) / width c d)
      = V a * (if inactive_b c d then 0 else (face_flux wi wt c p (Some s) d E 0%Z (up d 1 i) - face_flux wi wt c p (Some s) d E 0%Z i) / width c d)).
    { intro d. destruct (inactive_b c d) eqn:I; [ring|]. destruct (FL d 1%Z I (or_intror eq_refl)) as [-> X], (F0 d I) as [-> Y]. rewrite X, Y. field. pose proof (HW d). lra. }
    rewrite !T. ring. }
  split; [|intro a; rewrite ROW, MI; ring].
  assert (OUT : forall d, exists w, (0 <= w <= (1 + k / 2) * (dt * (if inactive_b c d then 0 else Rabs (V d) / width c d)) /\ (inactive_b c d = true -> w = 0)) /\
    dt * (if inactive_b c d then 0 else (face_flux wi wt c p (Some s) d E 0%Z (up d 1 i) - face_flux wi wt c p (Some s) d E 0%Z i) / width c d) = w * (E 0%Z i - E 0%Z (neighbour d i))).
  { intro d. destruct (inactive_b c d) eqn:I.
    - exists 0. split; [split; [lra|reflexivity]|ring].
    - destruct (FL d 1%Z I (or_intror eq_refl)) as [-> _], (F0 d I) as [-> _]. destruct (leaves d i) as (x & X & LV).
      exists (dt * (Rabs (V d) / width c d) * x).
      assert (Q : 0 <= dt * (Rabs (V d) / width c d)).
      { apply Rmult_le_pos; [exact Hdt|]. apply Rmult_le_pos; [apply Rabs_pos|]. apply Rlt_le, Rinv_0_lt_compat, HW. }
      split. { split; [|discriminate]. split; [apply Rmult_le_pos; lra|]. rewrite (Rmult_comm (1 + k / 2)). apply Rmult_le_compat_l; lra. }
      rewrite <- Rmult_minus_distr_l, LV. field. pose proof (HW d). lra. }
  unfold B, balance. cbv zeta. unfold crossings in HC. cbv zeta in HC.
  destruct (OUT AX) as (w1 & [W1 I1] & O1). destruct (OUT AY) as (w2 & [W2 I2] & O2). destruct (OUT AZ) as (w3 & [W3 I3] & O3).
  exists (fun a => match a with AX => w1 | AY => w2 | AZ => w3 end). split; [intros []; split; auto; apply W1 || apply W2 || apply W3|]. split; [lra|].
  match goal with |- ?r + dt * - (?x + ?y + ?z) = _ => replace (r + dt * - (x + y + z)) with (r - (dt * x + dt * y + dt * z)) by ring end.
  rewrite O1, O2, O3. reflexivity.
Qed.
Lemma drift_step lo hi dt i : (forall a, 0 < width c a) -> 0 <= dt -> (1 + k / 2) * (dt * crossings c V) <= 1 ->
  (forall d m, inactive_b c d = false -> (-2 <= m <= 2)%Z -> carried (up d m i)) ->
  (forall d, inactive_b c d = false -> lo <= E 0%Z (neighbour d i) <= hi) -> lo <= E 0%Z i <= hi -> (forall a, E (comp a) i = V a * E 0%Z i) ->
  let B := balance c (fun d => face_flux wi wt c p (Some s) d E) in
  lo <= E 0%Z i + dt * B 0%Z i <= hi /\ forall a, E (comp a) i + dt * B (comp a) i = V a * (E 0%Z i + dt * B 0%Z i).
Proof.
  intros HW Hdt HC CA NB CI MI B. destruct (drift_incr dt i HW Hdt HC CA MI) as [(w & W & WS & EQ) MO]. split; [|exact MO].
  unfold B. rewrite EQ. clear EQ MO B.
  assert (OUT : forall d, exists b, lo <= b <= hi /\ w d * (E 0%Z i - E 0%Z (neighbour d i)) = w d * (E 0%Z i - b)).
  { intro d. destruct (inactive_b c d) eqn:I; [exists (E 0%Z i); split; [exact CI|]; rewrite (proj2 (W d) I); ring|exists (E 0%Z (neighbour d i)); split; [apply NB, I|reflexivity]]. }
  destruct (OUT AX) as (b1 & B1 & ->). destruct (OUT AY) as (b2 & B2 & ->). destruct (OUT AZ) as (b3 & B3 & ->).
  pose proof (proj1 (W AX)) as W1. pose proof (proj1 (W AY)) as W2. pose proof (proj1 (W AZ)) as W3.
  set (r := E 0%Z i) in *. set (w1 := w AX) in *. set (w2 := w AY) in *. set (w3 := w AZ) in *. clearbody r w1 w2 w3. clear - WS W1 W2 W3 B1 B2 B3 CI.
  replace (r - (w1 * (r - b1) + w2 * (r - b2) + w3 * (r - b3))) with ((1 - w1 - w2 - w3) * r + w1 * b1 + w2 * b2 + w3 * b3) by ring.
  split; nra.
Qed.
End Low.

(** ** whole runs *)
Lemma limiter_bound l : l = L_minmod \/ l = L_moncen -> exists s k, slope_of l = Some s /\ 0 <= k <= 2 /\ (forall a b, limited_by k (s a b) a b) /\
  1 + k / 2 = match l with L_minmod => 3/2 | _ => 2 end.
Proof.
  intros [-> | ->].
  - exists (minmod RNum), 1. split; [reflexivity|]. split; [lra|]. split; [apply minmod_limited|lra].
  - exists (moncen RNum), 2. split; [reflexivity|]. split; [lra|]. split; [apply moncen_limited|lra].
Qed.
Section Run.
Context (c : config RNum) (heap : Z -> Z -> ix -> R) (r : Z) (HT : tabulated c) (HC : closed c) (HL : c_limit c = true) (HF : c_force c = true).
Context (HK : known_options c) (HV : c_convex c = false \/ flat_box c) (HR : c_rs c = RS_upwind) (HW : forall a, 0 < width c a).
Context (V : axis -> R) (HP : passes_walls c V) (lo hi : R) (LO : 0 < lo) (HU : unhurried c V) (Hr : (5 <= r)%Z).
Local Notation n := (c_n c).
Definition shaped_drift (u : arr R) : Prop := SpecOde.shaped r n u /\ drifting V lo hi u.
Lemma drift_convex : convex_set r n shaped_drift.
Proof.
  split; [intros u [H _]; exact H|]. intros x y z t [[Rx Sx] Dx] [[Ry Sy] Dy] Ht [Rz Sz] EQ. split; [split; assumption|].
  intros i Hi. rewrite Sz in Hi. destruct (Dx i ltac:(rewrite Sx; exact Hi)) as [X0 X1]. destruct (Dy i ltac:(rewrite Sy; exact Hi)) as [Y0 Y1].
  assert (C : forall a, (0 <= comp a < r)%Z) by (intros []; cbn; lia).
  rewrite EQ by (split; [lia|exact Hi]). split; [split; nra|].
  intro a. rewrite EQ by (split; [apply C|exact Hi]). rewrite X1, Y1. ring.
Qed.
Lemma off_walls a pos : bc_type (c_bc c) a pos = B_reflective -> inactive_b c a = false -> V a = 0.
Proof. intros H I. apply (HP a pos); [|exact H]. unfold inactive. unfold inactive_b in I. intros [A B]. rewrite A, B in I. discriminate. Qed.
Lemma filled_drift u i : shp u = n -> drifting V lo hi u -> in_padded n (ghost_zones3 c) i ->
  lo <= filled c u 0%Z i <= hi /\ forall a, filled c u (comp a) i = V a * filled c u 0%Z i.
Proof.
  intros Su D Hi. pose proof (folded_in RNum c HT HC i Hi) as IN. destruct (D _ ltac:(rewrite Su; exact IN)) as [D0 D1].
  assert (F0 : filled c u 0%Z i = at_ u 0%Z (folded3 (c_bc c) n i)) by reflexivity. rewrite F0. split; [exact D0|].
  intro a. unfold filled. cbv zeta. destruct (negated3 (c_bc c) n i (comp a)) eqn:N3; [|apply D1].
  assert (NA : negated (bc_type (c_bc c) a SL) (bc_type (c_bc c) a SR) (getc a n) (getc a i) = true).
  { unfold negated3 in N3. destruct a; cbn in N3; rewrite ?orb_false_r, ?andb_true_r in N3; exact N3. }
  assert (V0 : V a = 0).
  { unfold negated in NA. specialize (Hi a).
    assert (G : (getc a i < 0 \/ getc a n <= getc a i)%Z -> inactive_b c a = false).
    { intro O. destruct (inactive_b c a) eqn:I; [|reflexivity]. exfalso.
      assert (Z0 : getc a (ghost_zones3 c) = 0%Z) by (unfold ghost_zones3, ghost_zones; destruct a; cbn [getc cx cy cz]; rewrite I; reflexivity). lia. }
    destruct (getc a i <? 0)%Z eqn:L1; [apply Z.ltb_lt in L1|].
    - apply (off_walls a SL); [|apply G; lia]. destruct (bc_type (c_bc c) a SL); try discriminate; reflexivity.
    - destruct (getc a n <=? getc a i)%Z eqn:L2; [apply Z.leb_le in L2|discriminate].
      apply (off_walls a SR); [|apply G; lia]. destruct (bc_type (c_bc c) a SR); try discriminate; reflexivity. }
  rewrite D1, V0. ring.
Qed.
Lemma near_padded i d m : in_shape n i -> inactive_b c d = false -> (-2 <= m <= 2)%Z -> in_padded n (ghost_zones3 c) (up d m i).
Proof.
  intros Hi I M b. specialize (Hi b).
  assert (G : getc b (ghost_zones3 c) = ghost_zones c b) by (destruct b; reflexivity). rewrite G. unfold up.
  assert (Q : (0 <= ghost_zones c b)%Z) by (rewrite <- G; pose proof (width_main RNum c HT b); lia).
  destruct (axis_dec d b) as [<-|NE]; [|rewrite getc_setc_ne by auto; lia].
  rewrite getc_setc_eq. unfold ghost_zones. rewrite I, HL. cbv zeta.
  assert (0 <= half_up (getc d (c_p c)))%Z by (unfold half_up; pose proof (sane_p c (proj1 HT) d); apply Z.div_pos; lia). lia.
Qed.
Lemma here_padded i : in_shape n i -> in_padded n (ghost_zones3 c) i.
Proof. intros Hi a. specialize (Hi a). pose proof (width_main RNum c HT a). lia. Qed.
Lemma inside_filled (u : arr R) v i : in_shape n i -> filled c u v i = at_ u v i.
Proof.
  intro Hi. unfold filled. assert (FI : folded3 (c_bc c) n i = i) by (apply ix_ext; intro a; rewrite getc_folded3; apply folded_inside, Hi).
  rewrite FI. unfold negated3. rewrite !negated_inside by apply Hi. rewrite !andb_false_r. reflexivity.
Qed.
Lemma flat_low a : (getc a (low (c_p c)) = 0 \/ getc a (low (c_p c)) = 1)%Z.
Proof. pose proof (sane_p c (proj1 HT) a). destruct a; cbn [low getc cx cy cz] in *; lia. Qed.
Definition factor : R := match c_limiter c with L_minmod => 3/2 | _ => 2 end.
Lemma known_limiter : c_limiter c = L_minmod \/ c_limiter c = L_moncen.
Proof. unfold unhurried in HU. destruct (c_limiter c); tauto. Qed.
Lemma pace : paced factor c V.
Proof. unfold unhurried in HU. unfold factor. destruct (c_limiter c); try contradiction; exact HU. Qed.
Lemma rhs_drift dt s t t' u s' h k : 0 <= dt -> factor * (dt * crossings c V) <= 1 -> limiting RNum c r s -> shaped_drift u ->
  solver_f RNum c heap s t t' u = Ok (s', (h, k)) ->
  limiting RNum c r s' /\ SpecOde.shaped r n k /\ forall z, SpecOde.shaped r n z -> (forall v i, SpecOde.inside r n v i -> at_ z v i = at_ u v i + dt * at_ k v i) ->
  shaped_drift z /\
  forall i, in_shape n i -> exists w : axis -> R, (forall d, 0 <= w d /\ (inactive_b c d = true -> w d = 0)) /\ w AX + w AY + w AZ <= 1 /\
    let D d := w d * (at_ u 0%Z i - filled c u 0%Z (neighbour V d i)) in at_ z 0%Z i = at_ u 0%Z i - (D AX + D AY + D AZ).
Proof.
  intros D0 D1 LX [[Ru Su] Du] H.
  pose proof (padding_filled c HT HC t u Su) as PE.
  destruct (limited_rhs c HT HL HK r ltac:(lia) t HV (fun _ _ => 0) (closed_fillable c _ r HC) heap s t' u (filled c u) LX Ru Su PE)
    as (x' & h' & k' & us & th & E1 & LX' & _ & RK & SK & _ & SU & _ & WG & VK).
  assert (EQ : Ok (s', (h, k)) = Ok (x', (h', k'))) by exact (eq_trans (eq_sym H) E1). injection EQ as -> -> ->.
  split; [exact LX'|]. split; [split; assumption|]. intros z [RZ SZ] VZ.
  specialize (WG _ (padding_filled c HT HC t us SU)).
  destruct (limiter_bound _ known_limiter) as (sl & kk & SO & KK & SB & FA).
  assert (VB : forall v i, in_shape n i -> at_ k' v i = balance c (fun d => face_flux wi wt c (low (c_p c)) (Some sl) d (filled c u)) v i).
  { intros v i Hi. etransitivity; [apply VK, Hi|]. etransitivity; [apply (forced_balance c HT HV _ th (filled c u) v i (fun j => or_introl HF) WG Hi)|].
    refine (eq_trans (balance_is c _ v i) _). apply balance_fun. intros d v' i'.
    etransitivity; [apply (gflux_is wi wt tables_are c (fallback_p RNum c)); apply degs_low; exact HT|]. rewrite SO, (low_is c HT). reflexivity. }
  assert (C : forall a, (0 <= comp a < r)%Z) by (intros []; cbn; lia).
  assert (NEAR : forall i, in_shape n i -> forall d m, inactive_b c d = false -> (-2 <= m <= 2)%Z -> carried V (filled c u) (up d m i)).
  { intros i Hi d m I M. destruct (filled_drift u _ Su Du (near_padded i d m Hi I M)) as [X Y]. split; [lra|exact Y]. }
  split; [split; [split; assumption|]|]; intros i Hi; [rewrite SZ in Hi|]; destruct (filled_drift u i Su Du (here_padded i Hi)) as [FI0 FI1].
  - destruct (drift_step c (low (c_p c)) flat_low sl kk KK SB V (filled c u) HR lo hi dt i HW D0) as [S0 S1]; auto.
    + rewrite FA. exact D1.
    + intros d I. apply filled_drift; auto. unfold neighbour. apply near_padded; auto. destruct (Rlt_dec _ _); lia.
    + split.
      * rewrite VZ by (split; [lia|exact Hi]). rewrite VB by exact Hi. rewrite <- inside_filled by exact Hi. exact S0.
      * intro a. rewrite !VZ by (split; [first [apply C|lia]|exact Hi]). rewrite !VB by exact Hi. rewrite <- !inside_filled by exact Hi. apply S1.
  - destruct (drift_incr c (low (c_p c)) flat_low sl kk KK SB V (filled c u) HR dt i HW D0) as [(w & W1 & W2 & W3) _]; auto.
    + rewrite FA. exact D1.
    + exists w. split; [exact W1|]. split; [exact W2|]. cbv zeta. rewrite VZ by (split; [lia|exact Hi]). rewrite VB by exact Hi. rewrite <- inside_filled by exact Hi. exact W3.
Qed.
(** the step proposed by the solver *)
Lemma flat_main : (forall a, (getc a (c_p c) <= 1)%Z) -> forall a, (getc a (c_p c) = 0 \/ getc a (c_p c) = 1)%Z.
Proof. intros H a. pose proof (sane_p c (proj1 HT) a). specialize (H a). lia. Qed.
Lemma crossings_bound : crossings c V * Rmin (width c AX) (Rmin (width c AY) (width c AZ)) <= Rabs (V AX) + Rabs (V AY) + Rabs (V AZ).
Proof.
  unfold crossings. cbv zeta. set (M := Rmin _ _).
  assert (B : forall a, (if inactive_b c a then 0 else Rabs (V a) / width c a) * M <= Rabs (V a)).
  { intro a. pose proof (Rabs_pos (V a)). destruct (inactive_b c a); [lra|]. pose proof (HW a) as W.
    assert (L : M <= width c a) by (unfold M; destruct a; [apply Rmin_l|eapply Rle_trans; [apply Rmin_r|apply Rmin_l]|eapply Rle_trans; [apply Rmin_r|apply Rmin_r]]).
    apply Rle_trans with (Rabs (V a) / width c a * width c a); [|right; field; lra].
    apply Rmult_le_compat_l; [apply Rmult_le_pos; [lra|apply Rlt_le, Rinv_0_lt_compat, W]|exact L]. }
  pose proof (B AX). pose proof (B AY). pose proof (B AZ). lra.
Qed.
Lemma crossings_pos : 0 <= crossings c V.
Proof.
  unfold crossings. cbv zeta.
  assert (B : forall a, 0 <= if inactive_b c a then 0 else Rabs (V a) / width c a).
  { intro a. destruct (inactive_b c a); [lra|]. apply Rmult_le_pos; [apply Rabs_pos|apply Rlt_le, Rinv_0_lt_compat, HW]. }
  pose proof (B AX). pose proof (B AY). pose proof (B AZ). lra.
Qed.
Lemma first_cell : in_shape n (mkix 0 0 0).
Proof. intro a. pose proof (sane_n c (proj1 HT) a). destruct a; cbn [getc cx cy cz] in *; lia. Qed.
Lemma cell_zone i : in_shape n i -> flux_zone c i.
Proof.
  intros Hi a. cbv zeta. specialize (Hi a). pose proof (width_main RNum c HT a).
  assert (0 <= half_up (top_degree (c_p c)))%Z.
  { unfold half_up. apply Z.div_pos; [|lia]. pose proof (sane_p c (proj1 HT) AX). unfold top_degree. cbn [getc] in *. lia. }
  destruct (inactive_b c a); lia.
Qed.
Lemma step_paced h u : shp u = n -> drifting V lo hi u -> SpecScheme.time_step c (primitives wi wt (c_p c) (c_gamma c) (filled c u)) h ->
  0 < h /\ factor * (h * crossings c V) <= 1.
Proof.
  intros Su D TS. pose proof pace as PC. unfold SpecScheme.time_step in TS. unfold paced in PC.
  destruct (c_fixed_dt c) as [x|]; [subst h; exact PC|].
  destruct PC as (DG & C0 & C1 & FL). destruct TS as (m & [_ UM] & ->).
  specialize (UM _ (cell_zone _ first_cell)). cbv beta in UM.
  rewrite (low_prim c (c_p c) (flat_main DG)) in UM. unfold signal_speed in UM.
  destruct (filled_drift u _ Su D (here_padded _ first_cell)) as [F0 F1].
  assert (CA : carried V (filled c u) (mkix 0 0 0)) by (split; [lra|exact F1]).
  assert (VA : forall a, vel a (fun q => primitive (c_gamma c) (fun r0 => filled c u r0 (mkix 0 0 0)) q) = V a).
  { intro a. unfold vel. exact (prim_vel c V (filled c u) (mkix 0 0 0) a CA). }
  rewrite !VA in UM.
  set (w := fun q => primitive (c_gamma c) (fun r0 => filled c u r0 (mkix 0 0 0)) q) in *.
  assert (SP : 0 < sound (c_gamma c) (c_csq_floor c) w).
  { unfold sound. apply sqrt_lt_R0. eapply Rlt_le_trans; [exact FL|apply Rmax_r]. }
  assert (B : 1 <= IZR ((if inactive_b c AX then 0 else 1) + (if inactive_b c AY then 0 else 1) + (if inactive_b c AZ then 0 else 1))).
  { apply IZR_le. destruct (some_active c HT) as [a I]. destruct a; rewrite I; destruct (inactive_b c AX), (inactive_b c AY), (inactive_b c AZ); lia. }
  match type of B with 1 <= ?x => set (K := x) in * end. set (so := sound _ _ _) in *.
  assert (KS : so <= K * so) by (clearbody K so; clear - B SP; nra).
  pose proof (Rabs_pos (V AX)). pose proof (Rabs_pos (V AY)). pose proof (Rabs_pos (V AZ)).
  assert (Pm : 0 < m) by lra.
  assert (PH : 0 < Rmin (width c AX) (Rmin (width c AY) (width c AZ))) by (repeat apply Rmin_pos; apply HW).
  pose proof crossings_bound as CB. pose proof crossings_pos as CP. set (M := Rmin _ _) in *. set (X := crossings c V) in *.
  split; [apply Rdiv_lt_0_compat; [apply Rmult_lt_0_compat; assumption|exact Pm]|].
  assert (XM : X * M / m <= 1).
  { apply Rmult_le_reg_r with m; [exact Pm|]. unfold Rdiv. rewrite Rmult_assoc, Rinv_l, Rmult_1_r by lra. lra. }
  assert (FP : 0 < factor) by (unfold factor; destruct (c_limiter c); lra).
  replace (factor * (c_CFL c * M / m * X)) with ((factor * c_CFL c) * (X * M / m)) by (field; lra).
  assert (0 <= X * M / m) by (apply Rmult_le_pos; [nra|apply Rlt_le, Rinv_0_lt_compat, Pm]). nra.
Qed.
(** a convex set of such states that short enough steps do not leave *)
Lemma step_in (C : arr R -> Prop) i s t u target s' dt un u' : convex_set r n C -> (forall u, C u -> shaped_drift u) ->
  (forall dt s t t' u s' h k, 0 <= dt -> factor * (dt * crossings c V) <= 1 -> limiting RNum c r s -> C u -> solver_f RNum c heap s t t' u = Ok (s', (h, k)) ->
    limiting RNum c r s' /\ SpecOde.shaped r n k /\ forall z, SpecOde.shaped r n z -> (forall v i, SpecOde.inside r n v i -> at_ z v i = at_ u v i + dt * at_ k v i) -> C z) ->
  i = I_euler \/ i = I_ssprk2 \/ i = I_ssprk3 ->
  limiting RNum c r s -> C u -> (forall d, target = Some d -> t < d) ->
  solver_step RNum c heap i s t u target = Ok (s', (dt, un)) -> vassign (arr_ops RNum) u un = Ok u' ->
  (limiting RNum c r (step_helper RNum c s') /\ C u') /\ (forall d, target = Some d -> t + dt <= d).
Proof.
  intros CC CD CE Hi LX SD HTg H HA. pose proof (CD u SD) as [[Ru Su] Du].
  unfold solver_step in H. destruct (stepper_dt _ _ _ _ _ _ _ _ _ _ H) as (s1 & h & k & E1 & ED).
  assert (TS : SpecScheme.time_step c (primitives wi wt (c_p c) (c_gamma c) (filled c u)) h).
  { destruct (limited_rhs c HT HL HK r ltac:(lia) t HV (fun _ _ => 0) (closed_fillable c _ r HC) heap s t u (filled c u) LX Ru Su (padding_filled c HT HC t u Su))
      as (x' & h' & k' & us & th & E2 & _ & G & _).
    assert (EQ : Ok (s1, (h, k)) = Ok (x', (h', k'))) by exact (eq_trans (eq_sym E1) E2). injection EQ as -> -> ->.
    apply (gdt_is wi wt tables_are c HT), G. }
  destruct (step_paced h u Su Du TS) as [H0 H1].
  assert (HH : 0 < dt <= h /\ forall d, target = Some d -> t + dt <= d).
  { rewrite ED. unfold hit_target. destruct target as [d|]; [|split; [lra|discriminate]]. specialize (HTg d eq_refl). cbn [nltb nsub RNum].
    destruct (Rltb (d - t) h) eqn:EL; [apply Rltb_true in EL|apply Rltb_false in EL]; (split; [lra|intros d' [= <-]; lra]). }
  destruct HH as [HH HB].
  assert (D1 : factor * (dt * crossings c V) <= 1).
  { pose proof crossings_pos. assert (0 < factor) by (unfold factor; destruct (c_limiter c); lra).
    eapply Rle_trans; [|exact H1]. apply Rmult_le_compat_l; [lra|]. apply Rmult_le_compat_r; lra. }
  destruct (step_convex_inv r n (solver_f RNum c heap) C dt (limiting RNum c r) CC) with (i := i) (s := s) (t := t) (u := u) (target := target) (s' := s') (un := un)
    as [LX' CN]; auto.
  { intros s0 t0 t0' u0 s0' h0 k0 L0 S0 F0. eapply CE; eauto. lra. }
  split; [|exact HB]. split; [apply limiting_helper; assumption|]. destruct (proj1 CC un CN) as [Rn Sn].
  destruct (assign_all_is u un r n (at_ un) Ru Su) as (z & EZ & RZ & SZ & VZ).
  { split; [exact Rn|]. split; [exact Sn|reflexivity]. }
  cbn [vassign arr_ops] in HA. assert (UZ : Ok u' = Ok z) by exact (eq_trans (eq_sym HA) EZ). injection UZ as ->.
  apply (proj2 CC un un z 1); auto; [lra|split; assumption|]. intros v j _. refine (eq_trans (VZ v j) _). clear. change (car RNum) with R in *. match goal with |- @eq _ ?x ?y => change (@eq R x y) end. ring.
Qed.
Lemma step_drift i s t u target s' dt un u' : i = I_euler \/ i = I_ssprk2 \/ i = I_ssprk3 ->
  limiting RNum c r s -> shaped_drift u -> (forall d, target = Some d -> t < d) ->
  solver_step RNum c heap i s t u target = Ok (s', (dt, un)) -> vassign (arr_ops RNum) u un = Ok u' ->
  (limiting RNum c r (step_helper RNum c s') /\ shaped_drift u') /\ (forall d, target = Some d -> t + dt <= d).
Proof.
  apply step_in; [exact drift_convex|auto|]. intros dt0 s0 t0 t0' u0 s0' h0 k0 P0 P1 L0 S0 F0. destruct (rhs_drift dt0 s0 t0 t0' u0 s0' h0 k0 P0 P1 L0 S0 F0) as (A & B & Z).
  split; [exact A|]. split; [exact B|]. intros z Sz Vz. apply Z; assumption.
Qed.
Lemma snap_drift av x t u d : shaped_drift u -> snap_payload RNum c heap av x t u = Ok d ->
  (forall a, (getc a (c_p c) <= 1)%Z) -> drifts V lo hi (fst d).
Proof.
  intros [[Ru Su] Du] H DG.
  destruct (payload_is RNum c heap av x t u (filled c u) HT Su (padding_filled c HT HC t u Su)) as (w & E & Rw & Sw & Vw).
  rewrite E in H. injection H as <-. cbn [fst]. intros i Hi. assert (Hi' : in_shape n i) by (rewrite <- Sw; exact Hi). clear Hi.
  assert (P : forall v, at_ w v i = primitive (c_gamma c) (fun s => filled c u s i) v).
  { intro v. etransitivity; [apply Vw; exact Hi'|]. rewrite (gprim_is c HT). destruct av; [rewrite (low_prim c (c_p c) (flat_main DG)); reflexivity|].
    unfold centre_prim, block. cbv zeta. rewrite !line_c by (apply flat_main, DG). reflexivity. }
  destruct (filled_drift u i Su Du (here_padded i Hi')) as [F0 F1].
  assert (CA : carried V (filled c u) i) by (split; [lra|exact F1]).
  split; [|intro a].
  - refine (eq_ind _ (fun q => lo <= q <= hi) F0 _ _). symmetry. apply P.
  - etransitivity; [apply P|]. exact (prim_vel c V (filled c u) i a CA).
Qed.
End Run.
Theorem drift_kept : forall (c : config RNum) heap i as_averages T m exact downbeats log fuel u0 o V lo hi,
  tabulated c -> closed c -> c_limit c = true -> c_force c = true -> known_options c -> (c_convex c = false \/ flat_box c) ->
  c_rs c = RS_upwind -> (forall a, 0 < width c a) -> passes_walls c V -> unhurried c V ->
  i = I_euler \/ i = I_ssprk2 \/ i = I_ssprk3 ->
  shp u0 = c_n c -> (5 <= rows u0)%Z -> 0 < lo -> drifting V lo hi u0 -> List.Forall (fun x => 0 <= x) downbeats ->
  simulate c heap i as_averages T m exact downbeats log fuel u0 = Ok o ->
  drifting V lo hi (o_u o) /\
  ((forall a, (getc a (c_p c) <= 1)%Z) -> List.Forall (fun s => drifts V lo hi (fst (snd s))) (o_snaps o)).
Proof.
  intros c heap i av T m ex db log fuel u0 o V lo hi HT HC HL HF HK HV HR HW HP HU Hi Su Ru LO D HD H. unfold simulate, solver_integrate in H.
  apply (fine_integrate (arr_ops RNum) (solver_step RNum c heap i) (step_helper RNum c) (snap_payload RNum c heap av)
    (fun x _ u => limiting RNum c (rows u0) x /\ shaped_drift c (rows u0) V lo hi u)
    (fun d => (forall a, (getc a (c_p c) <= 1)%Z) -> drifts V lo hi (fst d))) in H.
  - destruct H as [[_ [_ G]] F]. split; [exact G|]. intro DG. eapply List.Forall_impl; [|exact F]. intros x Hx. apply Hx, DG.
  - intros s t u target s' dt un u' [LX SD] HTg HS HA. eapply step_drift; eauto.
  - intros s t u d [_ SD] HS DG. eapply snap_drift; eauto.
  - split; [apply limiting_init|]. split; [split; [reflexivity|exact Su]|exact D].
  - exact HD.
Qed.
