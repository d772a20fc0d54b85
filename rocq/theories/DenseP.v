(** The limited scheme of degree one with the Rusanov flux keeps densities positive. *)
From Coq Require Import ZArith List Bool Lia Reals Lra Sorting FunctionalExtensionality.
From Verif Require Import Err Num PySlice NdArray HydroM RiemannM StencilsM FvM BcM SedM
  LimitM OdeM SolverM Spec SpecBc SpecLim SpecOde SpecSolver SpecCons SpecScheme SpecSym SpecDrift SpecDense NdArrayP FvP BcP BcQ OpP SolverP OdeP RelP RelS LimP RunP ConsP
  RiemannP HydroP LoopP SlopeP WallP RkP MusclP ExistP SchemeP SymP SeamP ShiftP WatchP UniformP MirrorP PosP LimExistP SymLimP ShiftLimP DriftP.
Import ListNotations.
Open Scope R_scope.

Local Notation wi := (wts_i RNum).
Local Notation wt := (wts_t RNum).
Lemma Rabs_def2b x a : Rabs x <= a -> - a <= x <= a.
Proof. intro H. pose proof (Rle_abs x). pose proof (Rle_abs (- x)) as Q. rewrite Rabs_Ropp in Q. lra. Qed.
(** what the Rusanov flux carries is at most what a signal sweeps over *)
Lemma mass_flux g fl d (wl wr : Spec.state) S : 0 <= rho wl -> 0 <= rho wr -> Rabs (vel d wl) + sound g fl wl <= S -> Rabs (vel d wr) + sound g fl wr <= S ->
  - (S * rho wr) <= rusanov g fl d wl wr 0%Z <= S * rho wl.
Proof.
  intros Pl Pr Hl Hr. unfold rusanov.
  assert (F : forall w, euler_flux g d w 0%Z = rho w * vel d w) by (intro w; destruct d; reflexivity).
  assert (C : forall w, conserved g w 0%Z = rho w) by reflexivity. rewrite !F, !C.
  assert (P : forall w, 0 <= sound g fl w) by (intro w; apply sqrt_pos).
  set (M := Rmax _ _). assert (M1 : Rabs (vel d wl) <= M) by (eapply Rle_trans; [|apply Rmax_l]; pose proof (P wl); lra).
  assert (M2 : Rabs (vel d wr) <= M) by (eapply Rle_trans; [|apply Rmax_r]; pose proof (P wr); lra).
  assert (M3 : M <= S) by (apply Rmax_lub; assumption). clearbody M.
  apply Rabs_def2b in M1. apply Rabs_def2b in M2. clear - Pl Pr M1 M2 M3.
  set (a := rho wl) in *. set (b := rho wr) in *. set (x := vel d wl) in *. set (y := vel d wr) in *. clearbody a b x y.
  assert (0 <= b * (M - y)) by (apply Rmult_le_pos; lra). assert (0 <= a * (M + x)) by (apply Rmult_le_pos; lra).
  assert (0 <= a * (S - M)) by (apply Rmult_le_pos; lra). assert (0 <= b * (S - M)) by (apply Rmult_le_pos; lra).
  assert (0 <= a * (M - x)) by (apply Rmult_le_pos; lra). assert (0 <= b * (M + y)) by (apply Rmult_le_pos; lra). lra.
Qed.
Section Low.
Context (c : config RNum) (p : ix) (Hp : forall a, (getc a p = 0 \/ getc a p = 1)%Z) (s : R -> R -> R).
Local Notation g := (c_gamma c).
Lemma low_flux_llf (E : grid) d v i : c_rs c = RS_llf ->
  let w := fun v i => primitive g (fun r => E r i) v in
  face_flux wi wt c p (Some s) d E v i =
  rusanov g (c_csq_floor c) d (fun r => w r (up d (-1) i) + tiltd p s d (w r) (up d (-1) i)) (fun r => w r i - tiltd p s d (w r) i) v.
Proof.
  intros HR w. unfold face_flux. cbv zeta. rewrite (low_prim c p Hp). fold w. unfold across at 1. rewrite !line_t by apply Hp. rewrite HR. cbn [numerical_flux].
  assert (X : forall f : grid, match d with AX => f | AY => f | AZ => f end = f) by (intro f; destruct d; reflexivity). rewrite X.
  f_equal; apply functional_extensionality; intro r; apply (low_trace p Hp s).
Qed.
Context (k : R) (Hk : 0 <= k <= 2) (Hs : forall a b, limited_by k (s a b) a b) (E : grid) (HR : c_rs c = RS_llf).
Lemma tilt_small d j : 0 < E 0%Z j -> 0 < E 0%Z (up d 1 j) -> 0 < E 0%Z (up d (-1) j) -> Rabs (tiltd p s d (E 0%Z) j) <= E 0%Z j.
Proof.
  intros P0 P1 P2. unfold tiltd. destruct (_ =? _)%Z; [|rewrite Rabs_R0; lra].
  destruct (share_l s k Hk Hs (E 0%Z j - E 0%Z (up d (-1) j)) (E 0%Z (up d 1 j) - E 0%Z j)) as (x & X & EX).
  destruct (share_r s k Hk Hs (E 0%Z j - E 0%Z (up d (-1) j)) (E 0%Z (up d 1 j) - E 0%Z j)) as (y & Y & EY).
  set (t := s _ _) in *. clearbody t. set (a := E 0%Z j) in *. set (b := E 0%Z (up d 1 j)) in *. set (e := E 0%Z (up d (-1) j)) in *. clearbody a b e.
  apply Rabs_le. split.
  - rewrite EY. assert (0 <= y * b) by (apply Rmult_le_pos; lra). assert (0 <= (2 - y) * a) by (apply Rmult_le_pos; lra). lra.
  - rewrite EX. assert (0 <= x * e) by (apply Rmult_le_pos; lra). assert (0 <= (2 - x) * a) by (apply Rmult_le_pos; lra). lra.
Qed.
Definition face_w (d : axis) (e : R) (i : ix) (v : Z) : R := primitive g (fun r => E r i) v + e * tiltd p s d (fun j => primitive g (fun r => E r j) v) i.
Lemma flux_is d i v : face_flux wi wt c p (Some s) d E v i = rusanov g (c_csq_floor c) d (face_w d 1 (up d (-1) i)) (face_w d (-1) i) v.
Proof.
  rewrite low_flux_llf by exact HR. cbv zeta. f_equal; apply functional_extensionality; intro r; unfold face_w; ring.
Qed.
Lemma dense_step (S : axis -> R) dt i : (forall a, 0 < width c a) -> 0 <= dt -> (forall a, inactive_b c a = false -> 0 <= S a) -> 2 * (dt * crossings c S) < 1 ->
  0 < E 0%Z i -> (forall d m, inactive_b c d = false -> (-2 <= m <= 2)%Z -> 0 < E 0%Z (up d m i)) ->
  (forall d m e, inactive_b c d = false -> (-1 <= m <= 1)%Z -> e = 1 \/ e = -1 ->
    Rabs (vel d (face_w d e (up d m i))) + sound g (c_csq_floor c) (face_w d e (up d m i)) <= S d) ->
  0 < E 0%Z i + dt * balance c (fun d => face_flux wi wt c p (Some s) d E) 0%Z i.
Proof.
  intros HW Hdt HS HC PI PN SL.
  assert (RH : forall d m e, inactive_b c d = false -> (-1 <= m <= 1)%Z -> e = 1 \/ e = -1 -> 0 <= rho (face_w d e (up d m i))).
  { intros d m e I M He. unfold rho, face_w. change (primitive g (fun r => E r (up d m i)) 0%Z) with (E 0%Z (up d m i)).
    change (fun j => primitive g (fun r => E r j) 0%Z) with (E 0%Z).
    pose proof (tilt_small d (up d m i)) as T. rewrite !up_up in T. specialize (T (PN d m I ltac:(lia)) (PN d (m + 1)%Z I ltac:(lia)) (PN d (m + -1)%Z I ltac:(lia))).
    apply Rabs_def2b in T. destruct He as [-> | ->]; lra. }
  assert (OUT : forall d, dt * (if inactive_b c d then 0 else (face_flux wi wt c p (Some s) d E 0%Z (up d 1 i) - face_flux wi wt c p (Some s) d E 0%Z i) / width c d)
    <= 2 * E 0%Z i * (dt * (if inactive_b c d then 0 else Rabs (S d) / width c d))).
  { intro d. destruct (inactive_b c d) eqn:I; [lra|]. rewrite !flux_is, up_up. replace (1 + -1)%Z with 0%Z by lia. rewrite up_0.
    pose proof (RH d 0%Z 1 I ltac:(lia) ltac:(auto)) as R1. pose proof (RH d 0%Z (-1) I ltac:(lia) ltac:(auto)) as R2. pose proof (RH d 1%Z (-1) I ltac:(lia) ltac:(auto)) as R3. pose proof (RH d (-1)%Z 1 I ltac:(lia) ltac:(auto)) as R4.
    pose proof (SL d 0%Z 1 I ltac:(lia) ltac:(auto)) as S1. pose proof (SL d 0%Z (-1) I ltac:(lia) ltac:(auto)) as S2. pose proof (SL d 1%Z (-1) I ltac:(lia) ltac:(auto)) as S3. pose proof (SL d (-1)%Z 1 I ltac:(lia) ltac:(auto)) as S4.
    rewrite !up_0 in R1, R2, S1, S2.
    pose proof (mass_flux g (c_csq_floor c) d _ _ (S d) R1 R3 S1 S3) as [_ F1]. pose proof (mass_flux g (c_csq_floor c) d _ _ (S d) R4 R2 S4 S2) as [F2 _].
    assert (SUM : rho (face_w d 1 i) + rho (face_w d (-1) i) = 2 * E 0%Z i).
    { unfold rho, face_w. change (primitive g (fun r => E r i) 0%Z) with (E 0%Z i). ring. }
    rewrite Rabs_right by (apply Rle_ge, HS, I).
    set (f := rusanov _ _ _ _ _ _) in *. set (f' := rusanov g (c_csq_floor c) d (face_w d 1 (up d (-1) i)) _ _) in *. clearbody f f'.
    replace (2 * E 0%Z i * (dt * (S d / width c d))) with (dt * ((S d * (2 * E 0%Z i)) / width c d)) by (field; pose proof (HW d); lra).
    apply Rmult_le_compat_l; [exact Hdt|]. unfold Rdiv. apply Rmult_le_compat_r; [apply Rlt_le, Rinv_0_lt_compat, HW|]. rewrite <- SUM. lra. }
  unfold balance. cbv zeta. unfold crossings in HC. cbv zeta in HC.
  pose proof (OUT AX) as O1. pose proof (OUT AY) as O2. pose proof (OUT AZ) as O3.
  match goal with |- 0 < ?r + dt * - (?x + ?y + ?z) => replace (r + dt * - (x + y + z)) with (r - (dt * x + dt * y + dt * z)) by ring;
    set (X := dt * x) in *; set (Y := dt * y) in *; set (Z := dt * z) in *; clearbody X Y Z end.
  match type of HC with 2 * (dt * (?x + ?y + ?z)) < 1 => set (x1 := x) in *; set (y1 := y) in *; set (z1 := z) in * ; clearbody x1 y1 z1 end.
  set (r := E 0%Z i) in *. clearbody r. assert (0 < r * (1 - 2 * (dt * (x1 + y1 + z1)))) by (apply Rmult_lt_0_compat; lra). lra.
Qed.
End Low.

Section Run.
Context (c : config RNum) (heap : Z -> Z -> ix -> R) (r : Z) (HT : tabulated c) (HC : closed c) (HL : c_limit c = true) (HF : c_force c = true).
Context (HK : known_options c) (HV : c_convex c = false \/ flat_box c) (HR : c_rs c = RS_llf) (HW : forall a, 0 < width c a).
Context (HM : c_limiter c = L_minmod \/ c_limiter c = L_moncen) (S : axis -> R) (h : R) (Hh : c_fixed_dt c = Some h) (H0 : 0 < h) (HH : 2 * (h * crossings c S) < 1).
Context (ok : arr R -> bool) (Hok : forall u, ok u = true -> slow c S u) (Hr : (2 <= r)%Z).
Local Notation n := (c_n c).
Definition shaped_dense (u : arr R) : Prop := SpecOde.shaped r n u /\ dense u.
Lemma dense_convex : convex_set r n shaped_dense.
Proof.
  split; [intros u [H _]; exact H|]. intros x y z t [[Rx Sx] Dx] [[Ry Sy] Dy] Ht [Rz Sz] EQ. split; [split; assumption|].
  intros i Hi. rewrite Sz in Hi. pose proof (Dx i ltac:(rewrite Sx; exact Hi)) as X0. pose proof (Dy i ltac:(rewrite Sy; exact Hi)) as Y0.
  rewrite EQ by (split; [lia|exact Hi]). nra.
Qed.
Lemma filled_dense u i : shp u = n -> dense u -> in_padded n (ghost_zones3 c) i -> 0 < filled c u 0%Z i.
Proof.
  intros Su D Hi. pose proof (folded_in RNum c HT HC i Hi) as IN.
  assert (F0 : filled c u 0%Z i = at_ u 0%Z (folded3 (c_bc c) n i)) by reflexivity. rewrite F0. apply D. rewrite Su. exact IN.
Qed.
Lemma rhs_dense dt s t t' u s' h' k : 0 <= dt <= h -> limiting RNum c r s -> shaped_dense u ->
  checked (N := RNum) ok (solver_f RNum c heap) s t t' u = Ok (s', (h', k)) ->
  limiting RNum c r s' /\ SpecOde.shaped r n k /\ forall z, SpecOde.shaped r n z -> (forall v i, SpecOde.inside r n v i -> at_ z v i = at_ u v i + dt * at_ k v i) -> shaped_dense z.
Proof.
  intros D0 LX [[Ru Su] Du] H. unfold checked in H. destruct (ok u) eqn:EO; [|discriminate]. apply Hok in EO.
  pose proof (padding_filled c HT HC t u Su) as PE.
  destruct (limited_rhs c HT HL HK r ltac:(lia) t HV (fun _ _ => 0) (closed_fillable c _ r HC) heap s t' u (filled c u) LX Ru Su PE)
    as (x' & h1 & k' & us & th & E1 & LX' & _ & RK & SK & _ & SU & _ & WG & VK).
  assert (EQ : Ok (s', (h', k)) = Ok (x', (h1, k'))) by exact (eq_trans (eq_sym H) E1). injection EQ as -> -> ->.
  split; [exact LX'|]. split; [split; assumption|]. intros z [RZ SZ] VZ.
  specialize (WG _ (padding_filled c HT HC t us SU)).
  destruct (limiter_bound _ HM) as (sl & kk & SO & KK & SB & _).
  assert (VB : forall v i, in_shape n i -> at_ k' v i = balance c (fun d => face_flux wi wt c (low (c_p c)) (Some sl) d (filled c u)) v i).
  { intros v i Hi. etransitivity; [apply VK, Hi|]. etransitivity; [apply (forced_balance c HT HV _ th (filled c u) v i (fun j => or_introl HF) WG Hi)|].
    refine (eq_trans (balance_is c _ v i) _). apply balance_fun. intros d v' i'.
    etransitivity; [apply (gflux_is wi wt tables_are c (fallback_p RNum c)); apply degs_low; exact HT|]. rewrite SO, (low_is c HT). reflexivity. }
  assert (SL : match c_limiter c with L_minmod => minmod RNum | _ => moncen RNum end = sl).
  { destruct HM as [E|E]; rewrite E in *; injection SO as <-; reflexivity. }
  assert (AB : forall d, inactive_b c d = false -> ~ inactive c d).
  { intros d I [A B]. unfold inactive_b in I. rewrite A, B in I. discriminate. }
  assert (FW : forall d e j, face_w c (low (c_p c)) sl (filled c u) d e j = face_prim c u d e j).
  { intros d e j. apply functional_extensionality. intro v. unfold face_w, face_prim, tiltd, cell_prim. cbv zeta. rewrite SL.
    assert (G : (getc d (low (c_p c)) =? 1)%Z = (0 <? getc d (c_p c))%Z).
    { pose proof (sane_p c (proj1 HT) d). destruct d; cbn [low getc cx cy cz] in *; apply eq_true_iff_eq; rewrite Z.eqb_eq, Z.ltb_lt; lia. }
    rewrite G. reflexivity. }
  split; [split; assumption|]. intros i Hi. rewrite SZ in Hi.
  rewrite VZ by (split; [lia|exact Hi]). rewrite VB by exact Hi. rewrite <- (inside_filled c u) by exact Hi.
  assert (ACT : forall d, inactive_b c d = false -> 0 <= S d).
  { intros d I. pose proof (EO d i 0%Z 1 (AB d I) ltac:(lia) ltac:(rewrite up_0; exact Hi) (or_introl eq_refl)) as X. cbv zeta in X.
    eapply Rle_trans; [|exact X]. apply Rplus_le_le_0_compat; [apply Rabs_pos|apply sqrt_pos]. }
  apply (dense_step c (low (c_p c)) (flat_low c HT) sl kk KK SB (filled c u) HR S dt i HW); auto; [lra| | | |].
  - assert (0 <= crossings c S).
    { unfold crossings. cbv zeta. assert (B : forall a, 0 <= if inactive_b c a then 0 else Rabs (S a) / width c a).
      { intro a. destruct (inactive_b c a); [lra|]. apply Rmult_le_pos; [apply Rabs_pos|apply Rlt_le, Rinv_0_lt_compat, HW]. }
      pose proof (B AX). pose proof (B AY). pose proof (B AZ). lra. }
    eapply Rle_lt_trans; [|exact HH]. apply Rmult_le_compat_l; [lra|]. apply Rmult_le_compat_r; lra.
  - apply filled_dense; auto. apply here_padded; auto.
  - intros d m I M. apply filled_dense; auto. apply near_padded; auto.
  - intros d m e I M He. rewrite FW. apply (EO d (up d m i) (- m)%Z e); auto; [lia|]. rewrite up_up. replace (m + - m)%Z with 0%Z by lia. rewrite up_0. exact Hi.
Qed.
Lemma step_dense i s t u target s' dt un u' : i = I_euler \/ i = I_ssprk2 \/ i = I_ssprk3 ->
  limiting RNum c r s -> shaped_dense u -> (forall d, target = Some d -> t < d) ->
  stepper_of RNum (arr_ops RNum) (checked (N := RNum) ok (solver_f RNum c heap)) i s t u target = Ok (s', (dt, un)) -> vassign (arr_ops RNum) u un = Ok u' ->
  (limiting RNum c r (step_helper RNum c s') /\ shaped_dense u') /\ (forall d, target = Some d -> t + dt <= d).
Proof.
  intros Hi LX SD HTg H HA. pose proof SD as [[Ru Su] Du].
  destruct (stepper_dt _ _ _ _ _ _ _ _ _ _ H) as (s1 & h1 & k & E1 & ED).
  assert (HE : h1 = h).
  { unfold checked in E1. destruct (ok u); [|discriminate].
    destruct (limited_rhs c HT HL HK r ltac:(lia) t HV (fun _ _ => 0) (closed_fillable c _ r HC) heap s t u (filled c u) LX Ru Su (padding_filled c HT HC t u Su))
      as (x' & h' & k' & us & th & E2 & _ & G & _).
    assert (EQ : Ok (s1, (h1, k)) = Ok (x', (h', k'))) by exact (eq_trans (eq_sym E1) E2). injection EQ as -> -> ->.
    apply (gdt_is wi wt tables_are c HT) in G. unfold SpecScheme.time_step in G. rewrite Hh in G. exact G. }
  subst h1.
  assert (HB : 0 < dt <= h /\ forall d, target = Some d -> t + dt <= d).
  { rewrite ED. unfold hit_target. destruct target as [d|]; [|split; [lra|discriminate]]. specialize (HTg d eq_refl). cbn [nltb nsub RNum].
    destruct (Rltb (d - t) h) eqn:EL; [apply Rltb_true in EL|apply Rltb_false in EL]; (split; [lra|intros d' [= <-]; lra]). }
  destruct HB as [HB HD].
  destruct (step_convex_inv r n (checked (N := RNum) ok (solver_f RNum c heap)) shaped_dense dt (limiting RNum c r) dense_convex) with (i := i) (s := s) (t := t) (u := u) (target := target) (s' := s') (un := un)
    as [LX' CN]; auto.
  { intros s0 t0 t0' u0 s0' h0 k0 L0 S0 F0. apply (rhs_dense dt s0 t0 t0' u0 s0' h0 k0); auto. lra. }
  split; [|exact HD]. split; [apply limiting_helper; assumption|]. destruct (proj1 dense_convex un CN) as [Rn Sn].
  destruct (assign_all_is u un r n (at_ un) Ru Su) as (z & EZ & RZ & SZ & VZ).
  { split; [exact Rn|]. split; [exact Sn|reflexivity]. }
  cbn [vassign arr_ops] in HA. assert (UZ : Ok u' = Ok z) by exact (eq_trans (eq_sym HA) EZ). injection UZ as ->.
  apply (proj2 dense_convex un un z 1); auto; [lra|split; assumption|]. intros v j _. refine (eq_trans (VZ v j) _). clear. change (car RNum) with R in *. match goal with |- @eq _ ?x ?y => change (@eq R x y) end. ring.
Qed.
Lemma snap_dense av x t u d : shaped_dense u -> snap_payload RNum c heap av x t u = Ok d ->
  (forall a, (getc a (c_p c) <= 1)%Z) -> dense (fst d).
Proof.
  intros [[Ru Su] Du] H DG.
  destruct (payload_is RNum c heap av x t u (filled c u) HT Su (padding_filled c HT HC t u Su)) as (w & E & Rw & Sw & Vw).
  rewrite E in H. injection H as <-. cbn [fst]. intros i Hi. assert (Hi' : in_shape n i) by (rewrite <- Sw; exact Hi). clear Hi.
  assert (P : at_ w 0%Z i = filled c u 0%Z i).
  { etransitivity; [apply Vw; exact Hi'|]. rewrite (gprim_is c HT). destruct av; [rewrite (low_prim c (c_p c) (flat_main c HT DG)); reflexivity|].
    unfold centre_prim, block. cbv zeta. rewrite !line_c by (apply (flat_main c HT), DG). reflexivity. }
  refine (eq_ind _ (fun q => 0 < q) (filled_dense u i Su Du (here_padded c HT i Hi')) _ _). symmetry. exact P.
Qed.
End Run.
Theorem density_kept : forall ok (c : config RNum) heap i as_averages T m exact downbeats log fuel u0 o S h,
  tabulated c -> closed c -> c_limit c = true -> c_force c = true -> known_options c -> (c_convex c = false \/ flat_box c) ->
  c_limiter c = L_minmod \/ c_limiter c = L_moncen -> c_rs c = RS_llf -> (forall a, 0 < width c a) ->
  c_fixed_dt c = Some h -> 0 < h -> 2 * (h * crossings c S) < 1 -> (forall u, ok u = true <-> slow c S u) ->
  i = I_euler \/ i = I_ssprk2 \/ i = I_ssprk3 ->
  shp u0 = c_n c -> (2 <= rows u0)%Z -> dense u0 -> List.Forall (fun x => 0 <= x) downbeats ->
  simulate_checked (N := RNum) ok c heap i as_averages T m exact downbeats log fuel u0 = Ok o ->
  simulate c heap i as_averages T m exact downbeats log fuel u0 = Ok o /\
  dense (o_u o) /\ ((forall a, (getc a (c_p c) <= 1)%Z) -> List.Forall (fun s => dense (fst (snd s))) (o_snaps o)).
Proof.
  intros ok c heap i av T m ex db log fuel u0 o S h HT HC HL HF HK HV HM HR HW Hh H0 HH Hok Hi Su Ru D HD H.
  split; [exact (unchecked RNum ok c heap i av T m ex db log fuel u0 o H)|]. unfold simulate_checked in H.
  apply (fine_integrate (arr_ops RNum) (stepper_of RNum (arr_ops RNum) (checked (N := RNum) ok (solver_f RNum c heap)) i) (step_helper RNum c) (snap_payload RNum c heap av)
    (fun x _ u => limiting RNum c (rows u0) x /\ shaped_dense c (rows u0) u)
    (fun d => (forall a, (getc a (c_p c) <= 1)%Z) -> dense (fst d))) in H.
  - destruct H as [[_ [_ G]] F]. split; [exact G|]. intro DG. eapply List.Forall_impl; [|exact F]. intros x Hx. apply Hx, DG.
  - intros s t u target s' dt un u' [LX SD] HTg HS HA. eapply (step_dense c heap (rows u0)) with (S := S) (h := h) (ok := ok); eauto. intros w Hw. apply Hok, Hw.
  - intros s t u d [_ SD] HS DG. eapply snap_dense; eauto.
  - split; [apply limiting_init|]. split; [split; [reflexivity|exact Su]|exact D].
  - exact HD.
Qed.
