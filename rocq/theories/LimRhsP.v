(** The slope-limited right-hand side in closed form. *)
From Coq Require Import ZArith List Bool Lia Reals Lra Classical.
From Verif Require Import Err Num PySlice NdArray HydroM RiemannM StencilsM FvM BcM SedM
  LimitM OdeM SolverM Spec SpecBc SpecLim SpecSolver SpecCons SpecScheme SpecSym SpecLimRhs NdArrayP FvP BcP BcQ OpP SolverP OdeP RelP RelS LimP RunP ConsP
  HydroP BroadP SedP DetectP ConvexP ExistP SchemeP SymP ShiftP UniformP MirrorP LimExistP SymLimP MirLimQ.
Import ListNotations.
Open Scope Z_scope.

(** ** the detector's smoothness *)
Lemma cd_slope (f : Z -> R) j : cd RNum f j = slope_at f (j + 1).
Proof.
  unfold cd, slope_at, nhalf. cbn [nmul nsub ndiv nofZ RNum]. replace (j + 1 + 1) with (j + 2) by lia. replace (j + 1 - 1) with j by lia.
  match goal with |- @eq _ ?x ?y => change (@eq R x y) end. field.
Qed.
Lemma cd_ext (f g : Z -> R) j : (forall k, f k = g k) -> cd RNum f j = cd RNum g j.
Proof. intro H. unfold cd. rewrite !H. reflexivity. Qed.
Section Three.
Context (eps x0 x1 x2 : R) (He : (0 < eps)%R).
Local Open Scope R_scope.
Let b := (let b := (x2 - x0) / 4 in if Rle_dec (Rabs b) eps then (if Rle_dec 0 b then eps else - eps) else b).
Lemma three_b : sed_dv RNum eps (/ 2 * (x2 - x0)) = b.
Proof.
  unfold sed_dv, b, nhalf. cbn [nmul nopp nabs nleb ndiv nofZ RNum]. cbv zeta.
  replace (IZR 1 / IZR 2 * (/ 2 * (x2 - x0))) with ((x2 - x0) / 4) by field.
  unfold Rleb. repeat destr_if; reflexivity || lra.
Qed.
Lemma three_nz : b <> 0.
Proof.
  unfold b. cbv zeta. destruct (Rle_dec (Rabs _) eps) as [A|A]; [destruct (Rle_dec 0 _); lra|]. intro E. rewrite E, Rabs_R0 in A. lra.
Qed.
Lemma three_left : sed_alphaL RNum b (x0 - x1) = Rmin 1 (share b (x1 - x0)).
Proof.
  pose proof three_nz as NZ. unfold sed_alphaL, share. cbv zeta. cbn [ndiv nopp nltb nofZ RNum]. unfold Rltb, Rmin, Rmax.
  match goal with |- (if (if Rlt_dec (?a / b) _ then true else false) then _ else _) = (if Rle_dec _ (?d / b) then _ else _) =>
    assert (E : a = d) by (clear; repeat destr_if; lra); rewrite E end. repeat destr_if; lra.
Qed.
Lemma three_right : sed_alphaR RNum eps b (x2 - x1) = if Rle_dec (Rabs b) eps then 1 else share b (x2 - x1).
Proof.
  pose proof three_nz as NZ. unfold sed_alphaR, share. cbv zeta. cbn [ndiv nopp nltb nleb nabs nofZ RNum]. unfold Rltb, Rleb, Rmin, Rmax.
  destruct (Rle_dec (Rabs b) eps); [reflexivity|]. f_equal. repeat destr_if; lra.
Qed.
End Three.
Lemma sed_at_is eps (f : Z -> R) j : (0 < eps)%R -> sed_at RNum eps f j = smoothness eps f (j + 2).
Proof.
  intro He. unfold sed_at, smoothness, smooth_left, smooth_right, bend. cbv zeta.
  replace (cd RNum (cd RNum f) j) with (/ 2 * (slope_at f (j + 2 + 1) - slope_at f (j + 2 - 1)))%R.
  2:{ unfold cd at 1. rewrite !cd_slope. unfold nhalf. cbn [nmul nsub ndiv nofZ RNum]. replace (j + 2 - 1) with (j + 1) by lia.
      match goal with |- @eq _ ?x ?y => change (@eq R x y) end. field. }
  rewrite !cd_slope. replace (j + 1 + 1) with (j + 2) by lia. replace (j + 2 - 1) with (j + 1) by lia.
  generalize (slope_at f (j + 1)), (slope_at f (j + 2)), (slope_at f (j + 2 + 1)). intros x0 x1 x2.
  pose proof (three_left eps x0 x1 x2 He) as L. pose proof (three_right eps x0 x1 x2 He) as RR. rewrite (three_b eps x0 x2). cbv zeta in *.
  cbn [nsub RNum]. rewrite L, RR. cbn [nmin nltb RNum]. unfold Rltb, Rmin. change (car RNum) with R. repeat destr_if; lra.
Qed.
Lemma bumpy_is (c : config RNum) ws v i : (0 < sed_eps (c_nad c))%R -> bumpy c ws v i <-> not_smooth c ws v i.
Proof.
  intro He.
  assert (M : forall a, (sed_line RNum (sed_eps (c_nad c)) (fun k => ws v (up a k i)) (-3) < 1)%R <->
    exists k, -1 <= k <= 1 /\ (smoothness (sed_eps (c_nad c)) (fun k => ws v (up a k i)) k < 1)%R).
  { intro a. unfold sed_line. rewrite !sed_at_is by exact He. cbn [Z.add Z.pos_sub Pos.pred_double Pos.add]. cbn [nmin RNum].
    set (s := smoothness _ _). clearbody s. split.
    - intro H. unfold Rmin in H. repeat (destruct (Rle_dec _ _) in H); eexists; (split; [|exact H]); lia.
    - intros (k & K & H). assert (k = -1 \/ k = 0 \/ k = 1) as [->|[->| ->]] by lia; (eapply Rle_lt_trans; [|exact H]);
        [apply Rmin_r|eapply Rle_trans; [apply Rmin_l|apply Rmin_r]|eapply Rle_trans; [apply Rmin_l|apply Rmin_l]]. }
  unfold bumpy, not_smooth. split.
  - intros (a & A & H). apply M in H. destruct H as (k & K & H). exists a, k. split; [apply active_spec, A|auto].
  - intros (a & k & A & K & H). exists a. split; [apply active_spec, A|]. apply M. eauto.
Qed.

Section Rhs.
Context (wi : Z -> ipos -> list R) (wt : Z -> list R) (HW : tables wi wt).
Context (c : config RNum) (HT : tabulated c).
Lemma primitives_tab f v i : primitives (wts_i RNum) (wts_t RNum) (c_p c) (c_gamma c) f v i = primitives wi wt (c_p c) (c_gamma c) f v i.
Proof.
  pose proof (good_deg RNum c _ (tab_good RNum c HT)) as D.
  assert (A : forall a, wts_i RNum (getc a (c_p c)) P_c = wi (getc a (c_p c)) P_c).
  { intro a. pose proof (tab_i _ _ tables_are (getc a (c_p c)) P_c (D a) ltac:(cbn; auto)) as X.
    rewrite (tab_i _ _ HW (getc a (c_p c)) P_c (D a) ltac:(cbn; auto)) in X. injection X as X. symmetry. exact X. }
  assert (B : forall a, wts_t RNum (getc a (c_p c)) = wt (getc a (c_p c))).
  { intro a. pose proof (tab_t _ _ tables_are (getc a (c_p c)) (D a)) as X.
    rewrite (tab_t _ _ HW (getc a (c_p c)) (D a)) in X. injection X as X. symmetry. exact X. }
  unfold primitives, block. rewrite !A, !B. reflexivity.
Qed.
Lemma flag_is (w w' ws ws' : grid) i : (sed_on (c_nad c) = true -> 0 < sed_eps (c_nad c))%R -> (forall v j, w v j = w' v j) -> (forall v j, ws v j = ws' v j) ->
  flag c w ws i <-> troubled c w' ws' i.
Proof.
  intros He HWw HWs.
  assert (VL : forall b f g, (forall v, f v = g v) -> violates_last b f <-> violates_last b g).
  { intros b f g EQ. unfold violates_last. destruct b as [l|]; [|tauto]. split; intros (e & A & B); exists e; (split; [exact A|]); [rewrite <- EQ|rewrite EQ]; exact B. }
  assert (NB : forall j, nearby (dims RNum c) i j <-> beside c i j).
  { intro j. split; intros H a; specialize (H a); rewrite mem_dims, active_inactive in *; destruct (inactive_b c a); exact H. }
  assert (SE : forall j, in_padded (c_n c) (active_width RNum c 3) j <-> seen c j).
  { intro j. split; intros H a; specialize (H a); cbv zeta in *; rewrite getc_active_width, active_inactive in *; destruct (inactive_b c a); exact H. }
  assert (ST : forall v x, strays (c_nad c) (nearby (dims RNum c) i) (in_padded (c_n c) (active_width RNum c 3)) (w v) x <-> overshoots c w' v i x).
  { intros v x. change (overshoots c w' v i x) with (strays (c_nad c) (beside c i) (seen c) (w' v) x).
    apply strays_map; intros j Hj; exists j; (split; [first [apply NB, Hj|apply SE, Hj]|]); auto. }
  assert (NS : sed_on (c_nad c) = true -> forall v, bumpy c ws v i <-> not_smooth c ws' v i).
  { intros SO v. rewrite bumpy_is by (apply He, SO). unfold not_smooth.
    assert (SM : forall a k, smoothness (sed_eps (c_nad c)) (fun k => ws v (up a k i)) k = smoothness (sed_eps (c_nad c)) (fun k => ws' v (up a k i)) k).
    { intros a k. unfold smoothness, smooth_left, smooth_right, bend, slope_at. cbv zeta. rewrite !HWs. reflexivity. }
    split; intros (a & k & A & B & H); exists a, k; (split; [exact A|split; [exact B|]]); [rewrite <- SM|rewrite SM]; exact H. }
  unfold flag, troubled. rewrite (VL _ _ (fun v => ws' v i)) by auto.
  split; (intros [H|[H|(v & A & B & C)]]; [left; exact H|right; left; exact H|right; right; exists v; split; [exact A|]]).
  - split; [apply ST; rewrite <- HWs; exact B|]. intro SO. apply (NS SO), C, SO.
  - split; [apply ST; rewrite HWs; exact B|]. intro SO. apply (NS SO), C, SO.
Qed.
Lemma share_is fl tr a i w : (forall j, in_shape (c_n c) j -> fl j <-> tr j) -> face_value (c_convex c) (c_n c) fl a i w -> limited_share c tr a i w.
Proof.
  intros HF. unfold limited_share. destruct (c_convex c); cbn [face_value].
  - intros [A B]. split; [intros cc j H1 H2 H3; apply (A cc j); auto; apply HF; auto|]. destruct B as [B|(cc & j & B1 & B2 & B3 & B4)]; [left; exact B|right].
    exists cc, j. repeat (split; auto). apply HF; auto.
  - assert (B : bordering (c_n c) fl a i <-> exists j, touches a i j /\ in_shape (c_n c) j /\ tr j) by (split; intros (j & B1 & B2 & B3); exists j; (split; [exact B1|split; [exact B2|apply HF; auto]])). tauto.
Qed.
Context (HL : c_limit c = true) (HK : known_options c) (HB : c_convex c = false \/ flat_box c).
Context (He : (sed_on (c_nad c) = true -> 0 < sed_eps (c_nad c))%R).
Lemma pads_extended xc t u : fillable xc c (rows u) -> shp u = c_n c -> pads RNum c t u (extended RNum xc (c_bc c) (c_n c) t u).
Proof.
  intros HF S junk g HG. destruct (apply_fillable RNum xc c junk u g t HT) as (o & E & RO & SO & VO); auto.
  exists o. split; [exact E|]. split; [exact RO|]. split; [exact SO|]. intros v i Hi. rewrite <- S. apply VO, Hi.
Qed.
Theorem limited_rhs_closed xc heap x s t u slope :
  fillable xc c (rows u) -> fallback_slope c slope -> shp u = c_n c -> 2 <= rows u -> aux_shapes c (rows u) x ->
  let E := extended RNum xc (c_bc c) (c_n c) s u in
  let hi d := face_flux wi wt c (c_p c) None d E in
  let lo d := face_flux wi wt c (low (c_p c)) slope d E in
  exists x' dt dudt theta, solver_f RNum c heap x s t u = Ok (x', (dt, dudt)) /\ aux_shapes c (rows u) x' /\
    let E' := extended RNum xc (c_bc c) (c_n c) s (euler_candidate c u dt (balance c hi)) in
    let W := primitives wi wt (c_p c) (c_gamma c) in
    time_step c (W E) dt /\ rows dudt = rows u /\ shp dudt = c_n c /\
    (forall d i, ~ inactive c d -> in_shape (interface_shape d (c_n c)) i -> limited_share c (troubled c (W E) (W E')) d i (theta d i)) /\
    forall v i, in_shape (c_n c) i -> at_ dudt v i = balance c (blended (Some theta) hi lo) v i.
Proof.
  intros HA HS Su Ru AX E hi lo. pose proof (tab_good RNum c HT) as G. pose proof (good_deg RNum c _ G) as D.
  pose proof (good_fallback RNum c G) as GF. pose proof (good_deg RNum c _ GF) as DF.
  destruct (slope_is c slope HS) as [SL NU].
  destruct (limited_rhs c HT HL HK (rows u) Ru s HB xc HA heap x t u E AX eq_refl Su (pads_extended xc s u HA Su))
    as (x' & dt & k & us & theta & E1 & LX & ED & RK & SK & RU & SU & VU & WG & VK).
  exists x', dt, k, (wgt theta). split; [exact E1|]. split; [exact LX|]. intros E' W.
  split; [apply (gdt_is wi wt HW c HT), ED|]. split; [exact RK|]. split; [exact SK|].
  assert (HH : forall v i, gdudt RNum c (c_p c) L_none E v i = balance c hi v i).
  { intros v i. unfold gdudt. refine (eq_trans (balance_is c _ v i) _). apply balance_fun. intros d v' i'.
    exact (gflux_is wi wt HW c (c_p c) L_none d E v' i' D). }
  assert (PE : pads RNum c s us E').
  { eapply pads_ext; [exact SU|apply pads_extended; [setoid_rewrite RU; exact HA|exact SU]|].
    intros v i Hi. apply (extended_agree RNum (fun _ => True) xc (c_bc c) (c_bc c) (c_n c) (ghost_zones3 c)); auto.
    - setoid_rewrite RU. intros a pos. split; reflexivity || auto.
    - intro a. setoid_rewrite RU. apply HA.
    - intro a. pose proof (width_main RNum c HT a). lia.
    - intros w j _ Hj. cbn [euler_candidate at_]. rewrite VU by exact Hj. rewrite HH. reflexivity. }
  split.
  - intros d i Ad Hi. eapply share_is; [|apply (WG E' PE d i); [apply active_spec, Ad|exact Hi]].
    intros j _. apply flag_is; [exact He| |]; intros; apply primitives_tab.
  - intros v i Hi. refine (eq_trans (VK v i Hi) (eq_trans (balance_is c _ v i) _)). apply balance_fun. intros d v' i'.
    rewrite mixed_wgt. unfold blended. rewrite !(gflux_is wi wt HW c) by assumption. rewrite SL, low_is by exact HT. reflexivity.
Qed.
Lemma share_unique tr a i w w' : limited_share c tr a i w -> limited_share c tr a i w' -> w = w'.
Proof.
  intros H H'. apply (face_value_fun (c_convex c) (c_n c) (c_n c) tr tr a i a i w w'); [exact H|reflexivity|reflexivity|exact H'].
Qed.
Lemma balance_cell (F G : axis -> grid) v i : (forall d, ~ inactive c d -> F d v i = G d v i /\ F d v (up d 1 i) = G d v (up d 1 i)) ->
  balance c F v i = balance c G v i.
Proof.
  intro H. unfold balance. cbv zeta.
  assert (T : forall d, (if inactive_b c d then 0 else (F d v (up d 1 i) - F d v i) / width c d)%R = (if inactive_b c d then 0 else (G d v (up d 1 i) - G d v i) / width c d)%R).
  { intro d. destruct (inactive_b c d) eqn:Ed; [reflexivity|]. destruct (H d) as [-> ->]; [|reflexivity].
    apply active_spec. rewrite active_inactive, Ed. reflexivity. }
  rewrite !T. reflexivity.
Qed.
Lemma faces_of i d : in_shape (c_n c) i -> in_shape (interface_shape d (c_n c)) i /\ in_shape (interface_shape d (c_n c)) (up d 1 i) /\
  touches d i i /\ touches d (up d 1 i) i.
Proof.
  intro Hi. unfold interface_shape, up, touches, moved. split; [|split; [|split; [left; reflexivity|right]]].
  - intro a. specialize (Hi a). destruct (axis_dec d a) as [<-|NE]; rewrite ?getc_setc_eq, ?(getc_setc_ne d a) by assumption; lia.
  - intro a. specialize (Hi a). destruct (axis_dec d a) as [<-|NE]; rewrite ?getc_setc_eq, ?(getc_setc_ne d a) by assumption; lia.
  - rewrite getc_setc_eq, setc_setc. replace (getc d i + 1 + -1) with (getc d i) by lia. symmetry. apply setc_getc.
Qed.
Lemma blend_self i : blend_weight i i = 1%R.
Proof. unfold blend_weight. cbv zeta. rewrite !Z.sub_diag. reflexivity. Qed.
Lemma blend_le_1 i j : (blend_weight i j <= 1)%R.
Proof. unfold blend_weight. cbv zeta. repeat destr_if; lra. Qed.
(** a troubled cell gets the limited fluxes *)
Lemma share_troubled (tr : ix -> Prop) a i j w : touches a i j -> in_shape (c_n c) j -> tr j -> limited_share c tr a i w -> w = 1%R.
Proof.
  intros T I Tr. unfold limited_share. destruct (c_convex c).
  - intros [A B]. pose proof (A j j T I Tr) as L. rewrite blend_self in L. destruct B as [->|(x & k & _ & _ & _ & ->)]; [lra|]. pose proof (blend_le_1 x k). lra.
  - intros [A _]. apply A. eauto.
Qed.
Theorem troubled_rhs xc heap x s t u slope x' dt dudt :
  fillable xc c (rows u) -> fallback_slope c slope -> shp u = c_n c -> 2 <= rows u -> aux_shapes c (rows u) x ->
  solver_f RNum c heap x s t u = Ok (x', (dt, dudt)) ->
  let E := extended RNum xc (c_bc c) (c_n c) s u in
  let hi d := face_flux wi wt c (c_p c) None d E in
  let lo d := face_flux wi wt c (low (c_p c)) slope d E in
  let W := primitives wi wt (c_p c) (c_gamma c) in
  let tr := troubled c (W E) (W (extended RNum xc (c_bc c) (c_n c) s (euler_candidate c u dt (balance c hi)))) in
  (forall i, in_shape (c_n c) i -> tr i -> forall v, at_ dudt v i = balance c lo v i) /\
  (c_convex c = false -> forall i, in_shape (c_n c) i -> ~ tr i ->
    (forall a k, ~ inactive c a -> k = 1 \/ k = -1 -> in_shape (c_n c) (up a k i) -> ~ tr (up a k i)) ->
    forall v, at_ dudt v i = balance c hi v i).
Proof.
  intros HA HS Su Ru AX H E hi lo W tr.
  destruct (limited_rhs_closed xc heap x s t u slope HA HS Su Ru AX) as (x1 & dt1 & k1 & theta & E1 & _ & _ & _ & _ & TH & VK).
  rewrite H in E1. injection E1 as <- <- <-. fold E in TH, VK. change (fun d => face_flux wi wt c (c_p c) None d E) with hi in TH, VK.
  change (fun d => face_flux wi wt c (low (c_p c)) slope d E) with lo in VK. fold W in TH. fold tr in TH.
  split.
  - intros i Hi Ti v. rewrite (VK v i Hi). apply balance_cell. intros d Ad. destruct (faces_of i d Hi) as (F1 & F2 & T1 & T2).
    unfold blended. rewrite (share_troubled tr d i i _ T1 Hi Ti (TH d i Ad F1)), (share_troubled tr d (up d 1 i) i _ T2 Hi Ti (TH d _ Ad F2)). split; ring.
  - intros CV i Hi Ti Tn v. rewrite (VK v i Hi). apply balance_cell. intros d Ad. destruct (faces_of i d Hi) as (F1 & F2 & T1 & T2).
    assert (Z1 : theta d i = 0%R).
    { pose proof (TH d i Ad F1) as X. unfold limited_share in X. rewrite CV in X. apply X.
      intros (j & [->| ->] & I & J); [exact (Ti J)|]. exact (Tn d (-1) Ad (or_intror eq_refl) I J). }
    assert (Z2 : theta d (up d 1 i) = 0%R).
    { pose proof (TH d _ Ad F2) as X. unfold limited_share in X. rewrite CV in X. apply X.
      intros (j & T & I & J). destruct T as [->| ->]; [exact (Tn d 1 Ad (or_introl eq_refl) I J)|].
      assert (EQ : moved d (-1) (up d 1 i) = i).
      { unfold moved, up. rewrite getc_setc_eq, setc_setc. replace (getc d i + 1 + -1) with (getc d i) by lia. apply setc_getc. }
      rewrite EQ in J. exact (Ti J). }
    unfold blended. rewrite Z1, Z2. split; ring.
Qed.
End Rhs.
Lemma plate_rhs cv ty heap (u : arr R) : copies ty -> rows u = 5 -> let c := plate_sed true cv ty in
  tables (wts_i RNum) (wts_t RNum) /\ tabulated c /\ c_limit c = true /\ known_options c /\ flat_box c /\
  (sed_on (c_nad c) = true /\ (0 < sed_eps (c_nad c))%R) /\ fillable (N := RNum) (fun _ _ => 0%R) c (rows u) /\
  (exists slope, fallback_slope c slope) /\ aux_shapes c (rows u) (aux_init RNum c heap (rows u)).
Proof.
  intros H R c. destruct (plate_ok true cv ty H) as (T & C & O & F).
  split; [exact tables_are|]. split; [exact T|]. split; [reflexivity|]. split; [exact O|]. split; [exact F|].
  split; [split; [reflexivity|]|]. { cbn. lra. }
  split; [apply closed_fillable, C|]. split; [eexists; eexists; split; reflexivity|]. apply limiting_init.
Qed.
