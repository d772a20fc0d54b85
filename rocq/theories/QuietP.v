(** Runs in which slope limiting acts nowhere or everywhere. *)
From Coq Require Import ZArith List Bool Lia Reals Lra.
From Verif Require Import Err Num PySlice NdArray HydroM RiemannM StencilsM FvM BcM SedM
  LimitM OdeM SolverM Spec SpecBc SpecLim SpecSolver SpecCons SpecScheme SpecSym SpecLimRhs NdArrayP FvP BcP BcQ OpP SolverP OdeP RelP RelS LimP RunP ConsP
  HydroP BroadP SedP DetectP ConvexP ExistP SchemeP SymP ShiftP WatchP UniformP MirrorP LimExistP SymLimP LimRhsP SpecQuiet.
Import ListNotations.
Local Open Scope Z_scope.

Lemma largest_unique (D : ix -> Prop) f m m' : SpecScheme.largest D f m -> SpecScheme.largest D f m' -> m = m'.
Proof. intros [(i & I & <-) A] [(j & J & <-) B]. apply Rle_antisym; auto. Qed.
Lemma time_step_unique (c : config RNum) w dt dt' : SpecScheme.time_step c w dt -> SpecScheme.time_step c w dt' -> dt = dt'.
Proof.
  unfold SpecScheme.time_step. destruct (c_fixed_dt c); [congruence|]. intros (m & A & ->) (m' & B & ->).
  rewrite (largest_unique _ _ _ _ A B). reflexivity.
Qed.
Lemma fillable_narrow xc (c c' : config RNum) q : tabulated c -> c_n c' = c_n c -> c_bc c' = c_bc c ->
  (forall a, 0 <= getc a (ghost_zones3 c') <= getc a (ghost_zones3 c)) -> fillable (N := RNum) xc c q -> fillable (N := RNum) xc c' q.
Proof. intros HT E1 E2 H F a. rewrite E1, E2. eapply axis_ok_narrow; [apply F|exact H]. Qed.
Lemma half_up_le x y : x <= y -> half_up x <= half_up y.
Proof. intro H. unfold half_up. apply Z.div_le_mono; lia. Qed.
Lemma zones_get (c : config RNum) a : getc a (ghost_zones3 c) = ghost_zones c a.
Proof. destruct a; reflexivity. Qed.

Section Nowhere.
Context (wi : Z -> ipos -> list R) (wt : Z -> list R) (HW : tables wi wt).
Context (c : config RNum) (HT : tabulated c) (HL : c_limit c = true) (HK : known_options c) (HB : c_convex c = false \/ flat_box c).
Context (He : sed_on (c_nad c) = true -> (0 < sed_eps (c_nad c))%R).
Context (xc : axis -> Z -> R) (r : Z) (Hr : 2 <= r) (HA : fillable (N := RNum) xc c r) (slope : option (R -> R -> R)) (HS : fallback_slope c slope).
Context (ok : arr R -> bool) (Hok : test_of_cells ok) (HN : no_trouble wi wt xc c r ok).
Local Notation n := (c_n c).
Local Notation c0 := (unlimited c).
Lemma tab_un : tabulated c0. Proof. destruct HT as [[A B C D] P]. split; [split|]; assumption. Qed.
Lemma zones_un a : 0 <= getc a (ghost_zones3 c0) <= getc a (ghost_zones3 c).
Proof.
  rewrite !zones_get. unfold ghost_zones. change (inactive_b c0 a) with (inactive_b c a). destruct (inactive_b c a); [lia|].
  cbn [unlimited c_limit c_p]. rewrite HL. cbv zeta.
  assert (N1 : 0 <= half_up (getc a (c_p c))) by (apply (half_up_le 0), HT).
  assert (N2 : 0 <= half_up (top_degree (c_p c))).
  { apply (half_up_le 0). destruct HT as [[_ Sp _ _] _]. specialize (Sp AX). unfold top_degree. cbn [getc] in Sp. lia. }
  lia.
Qed.
Lemma fill_un : fillable (N := RNum) xc c0 r. Proof. apply (fillable_narrow xc c c0 r HT eq_refl eq_refl zones_un HA). Qed.
Local Notation E t w := (extended RNum xc (c_bc c) n t w).
Lemma balance_gd (q : config RNum) F : tabulated q -> forall v i, gdudt RNum q (c_p q) L_none F v i = balance q (fun d => face_flux wi wt q (c_p q) None d F) v i.
Proof.
  intros Tq v i. unfold gdudt. refine (eq_trans (balance_is q _ v i) _). apply balance_fun. intros d v' i'.
  exact (gflux_is wi wt HW q (c_p q) L_none d F v' i' (good_deg RNum q _ (tab_good RNum q Tq))).
Qed.
Local Notation rel := (related RNum c c0 r (fun f => f)).
Lemma rel_E t u1 u2 : rel u1 u2 -> forall v i, in_padded n (ghost_zones3 c0) i -> E t u2 v i = E t u1 v i.
Proof.
  intros (R1 & R2 & S1 & S2 & V) v i Hi.
  apply (extended_agree RNum (fun _ => True) xc (c_bc c) (c_bc c) n (ghost_zones3 c0)); auto.
  - setoid_rewrite R1. setoid_rewrite R2. intros a pos. split; reflexivity || auto.
  - intro a. setoid_rewrite R2. apply fill_un.
  - intro a. apply zones_un.
Qed.
Lemma quiet_rhs heap heap' x1 x2 s t u1 u2 : limiting RNum c r x1 -> flux_arrays_ok RNum c0 r (x_flux x2) -> rel u1 u2 -> ok u1 = true ->
  exists x1' x2' dt k1 k2, solver_f RNum c heap x1 s t u1 = Ok (x1', (dt, k1)) /\ solver_f RNum c0 heap' x2 s t u2 = Ok (x2', (dt, k2)) /\
    (limiting RNum c r x1' /\ flux_arrays_ok RNum c0 r (x_flux x2')) /\ rel k1 k2.
Proof.
  intros A1 A2 H O. pose proof H as (R1 & R2 & S1 & S2 & V).
  assert (HA' : fillable (N := RNum) xc c (rows u1)) by (setoid_rewrite R1; exact HA).
  assert (AS : aux_shapes c (rows u1) x1) by (setoid_rewrite R1; exact A1).
  destruct (limited_rhs_closed wi wt HW c HT HL HK HB He xc heap x1 s t u1 slope HA' HS S1 ltac:(rewrite R1; exact Hr) AS)
    as (x1' & dt & k1 & theta & F1 & L1 & TS & RK & SK & SH & VK).
  pose proof (HN u1 s dt R1 S1 O TS) as QT. cbv zeta in QT.
  assert (P2 : pads RNum c0 s u2 (E s u1)).
  { eapply pads_ext; [exact S2|apply pads_extended; [exact tab_un|setoid_rewrite R2; exact fill_un|exact S2]|]. intros v i Hi. exact (rel_E s u1 u2 H v i Hi). }
  destruct (hydrodynamics_is RNum c0 heap' x2 s u2 (E s u1)) as (x2' & dt2 & k2 & F2 & ED & RK2 & SK2 & VK2 & FO & _); auto.
  { apply tab_good, tab_un. } { setoid_rewrite R2. lia. } { apply sane_dims, tab_un. } { setoid_rewrite R2. exact A2. }
  { unfold padding. apply P2. apply width_main, tab_un. }
  assert (DT : dt2 = dt) by (apply (time_step_unique c (primitives wi wt (c_p c) (c_gamma c) (E s u1))); [|exact TS]; change (SpecScheme.time_step c0 (primitives wi wt (c_p c0) (c_gamma c0) (E s u1)) dt2); apply (gdt_is wi wt HW c0 tab_un), ED).
  subst dt2. exists x1', x2', dt, k1, k2. split; [exact F1|]. split; [exact F2|].
  rewrite R1 in *. rewrite R2 in *. split; [split; [exact L1|exact FO]|]. split; [exact RK|]. split; [exact RK2|]. split; [exact SK|]. split; [exact SK2|].
  intros v i Hi. rewrite (VK2 v i Hi), (VK v i Hi), (balance_gd c0 _ tab_un).
  apply (balance_cell c). intros d Ad. destruct (faces_of c i d Hi) as (B1 & B2 & _ & _).
  assert (ZZ : forall j, in_shape (interface_shape d n) j -> theta d j = 0%R).
  { intros j Hj. pose proof (SH d j Ad Hj) as X. unfold limited_share in X. destruct (c_convex c).
    - destruct X as [_ [X|(cc & k & _ & X1 & X2 & _)]]; [exact X|]. destruct (QT k X1 X2).
    - apply X. intros (k & _ & X1 & X2). exact (QT k X1 X2). }
  unfold SpecScheme.blended. rewrite !ZZ by assumption. split; [|]; match goal with |- @eq _ ?x ?y => change (@eq R x y) end; unfold face_flux; ring_simplify; reflexivity.
Qed.
Theorem quiet_outcome heap heap' i av T k exact db log fuel u : shp u = n -> rows u = r ->
  moved_outcome (N := RNum) (same_cells n) (simulate_checked (N := RNum) ok c heap i av T k exact db log fuel u)
    (simulate_checked (N := RNum) ok c0 heap' i av T k exact db log fuel u).
Proof.
  intros Su Ru.
  apply (gen_moved RNum c c0 heap heap' r HT tab_un (fun f => f)) with (ok1 := ok) (ok2 := ok)
      (E1 := fun t w => E t w) (E2 := fun t w => E t w) (W := fun f => f) (A1 := limiting RNum c r) (A2 := fun x => flux_arrays_ok RNum c0 r (x_flux x)).
    - intros f g H. exact H.
    - reflexivity.
    - reflexivity.
    - intros t w Rw Sw. apply pads_extended; [exact HT|setoid_rewrite Rw; exact HA|exact Sw].
    - intros t w Rw Sw. apply (pads_extended c0 tab_un); [setoid_rewrite Rw; exact fill_un|exact Sw].
    - intros u1 u2 (R1 & R2 & S1 & S2 & V). apply Hok; [exact (eq_trans R1 (eq_sym R2))|exact (eq_trans S1 (eq_sym S2))|]. intros v j Hj. symmetry. apply V. change (in_shape n j). rewrite <- S1. exact Hj.
    - intros t u1 u2 H v j Hj. apply rel_E; assumption.
    - reflexivity.
    - apply limiting_helper, HL.
    - intros x H. rewrite helper_flux. exact H.
    - apply limiting_init.
    - intro d. cbn. auto.
    - intros x1 x2 s t u1 u2 [A1 A2] H O. apply quiet_rhs; assumption.
    - split; [exact Ru|]. split; [exact Ru|]. split; [exact Su|]. split; [exact Su|]. reflexivity.
    - intros w1 w2 (R1 & R2 & S1 & S2 & V). split; [exact (eq_trans R1 (eq_sym R2))|]. split; [exact S1|]. split; [exact S2|]. intros v j _ Hj. symmetry. apply V, Hj.
Qed.
Theorem quiet_runs heap heap' i av T k exact db log fuel u o : shp u = n -> rows u = r ->
  simulate_checked (N := RNum) ok c heap i av T k exact db log fuel u = Ok o ->
  simulate c heap i av T k exact db log fuel u = Ok o /\
  exists o', simulate c0 heap' i av T k exact db log fuel u = Ok o' /\ moved_run (N := RNum) (same_cells n) o o'.
Proof.
  intros Su Ru HS0. split; [exact (unchecked RNum ok c heap i av T k exact db log fuel u o HS0)|].
  pose proof (quiet_outcome heap heap' i av T k exact db log fuel u Su Ru) as Q.
  rewrite HS0 in Q. destruct (simulate_checked (N := RNum) ok c0 _ _ _ _ _ _ _ _ _ _) as [o'|] eqn:EQ; [|destruct Q].
  exists o'. split; [exact (unchecked RNum _ _ _ _ _ _ _ _ _ _ _ _ _ EQ)|exact Q].
Qed.
End Nowhere.

(** a detector that looks at nothing *)
Theorem nothing_watched (c : config RNum) xc slope heap heap' i av T k exact db log fuel u :
  tabulated c -> c_limit c = true -> known_options c -> c_convex c = false \/ flat_box c -> fallback_slope c slope ->
  c_force c = false -> nad_vars (c_nad c) = Some [] -> pad_bounds (c_nad c) = None ->
  (sed_on (c_nad c) = true -> (0 < sed_eps (c_nad c))%R) -> fillable (N := RNum) xc c (rows u) -> shp u = c_n c -> 2 <= rows u ->
  moved_outcome (N := RNum) (same_cells (c_n c)) (simulate c heap i av T k exact db log fuel u) (simulate (unlimited c) heap' i av T k exact db log fuel u).
Proof.
  intros HT HL HK HB HS HF HV HP He HA Su Ru.
  refine (quiet_outcome (wts_i RNum) (wts_t RNum) tables_are c HT HL HK HB He xc (rows u) Ru HA slope HS (fun _ => true) (fun _ _ _ _ _ => eq_refl) _ heap heap' i av T k exact db log fuel u Su eq_refl).
  intros w t dt _ _ _ E W hi _ j _ [Q|[Q|(v & Q & _)]].
  - congruence.
  - rewrite HP in Q. exact Q.
  - unfold selected in Q. rewrite HV in Q. destruct Q as [_ Q]. exact Q.
Qed.

(** ** everywhere *)
Lemma snap_times (l l' : list (R * payload RNum)) : Forall2 (snap_rel RNum (fun _ _ : payload RNum => True)) l l' -> map fst l = map fst l'.
Proof. intro H. induction H as [|[t1 d1] [t2 d2] l1 l2 [A B] Hs IH]; [reflexivity|]. cbn in *. rewrite A, IH. reflexivity. Qed.
Section Everywhere.
Context (wi : Z -> ipos -> list R) (wt : Z -> list R) (HW : tables wi wt).
Context (c : config RNum) (HT : tabulated c) (HL : c_limit c = true) (HK : known_options c) (HB : c_convex c = false \/ flat_box c).
Context (He : sed_on (c_nad c) = true -> (0 < sed_eps (c_nad c))%R) (HF : c_force c = true).
Context (xc : axis -> Z -> R) (r : Z) (Hr : 2 <= r) (HA : fillable (N := RNum) xc c r) (slope : option (R -> R -> R)) (HS : fallback_slope c slope).
Context (dt : R) (FD : c_fixed_dt c = Some dt).
Local Notation n := (c_n c).
Local Notation c1 := (linear c).
Lemma low_get p a : getc a (low p) = Z.min 1 (getc a p). Proof. destruct a; reflexivity. Qed.
Lemma low_low p : low (low p) = low p.
Proof. unfold low. cbn [cx cy cz]. rewrite !Z.min_assoc. reflexivity. Qed.
Lemma inactive_low a : inactive_b c1 a = inactive_b c a.
Proof.
  unfold inactive_b. cbn [linear c_n c_p]. rewrite low_get. assert (P : 0 <= getc a (c_p c)) by apply HT.
  f_equal. destruct (Z.eqb_spec (getc a (c_p c)) 0) as [->|NE]; [reflexivity|]. apply Z.eqb_neq. lia.
Qed.
Lemma inactive_low' a : inactive c1 a <-> inactive c a.
Proof. unfold inactive. cbn [linear c_n c_p]. rewrite low_get. assert (P : 0 <= getc a (c_p c)) by apply HT. lia. Qed.
Lemma tab_lin : tabulated c1.
Proof.
  destruct HT as [[A B C D] P]. split; [split|]; try assumption.
  - intro a. cbn [linear c_p]. rewrite low_get. specialize (B a). lia.
  - destruct C as [a C]. exists a. rewrite inactive_low'. exact C.
  - intro a. cbn [linear c_p]. rewrite low_get. specialize (P a). lia.
Qed.
Lemma zones_lin a : 0 <= getc a (ghost_zones3 c1) <= getc a (ghost_zones3 c).
Proof.
  rewrite !zones_get. unfold ghost_zones. rewrite inactive_low. destruct (inactive_b c a); [lia|].
  cbn [linear c_limit c_p]. rewrite HL, low_get. cbv zeta. destruct HT as [[_ Sp _ _] _].
  assert (P : 0 <= getc a (c_p c)) by apply Sp. pose proof (Sp AX). pose proof (Sp AY). pose proof (Sp AZ). cbn [getc] in *.
  assert (N1 : 0 <= half_up (Z.min 1 (getc a (c_p c)))) by (apply (half_up_le 0); lia).
  assert (N2 : half_up (Z.min 1 (getc a (c_p c))) <= half_up (getc a (c_p c))) by (apply half_up_le; lia).
  assert (N3 : 0 <= half_up (top_degree (low (c_p c)))) by (apply (half_up_le 0); unfold top_degree, low; cbn [cx cy cz]; lia).
  assert (N4 : half_up (top_degree (low (c_p c))) <= half_up (top_degree (c_p c))) by (apply half_up_le; unfold top_degree, low; cbn [cx cy cz]; lia).
  lia.
Qed.
Lemma fill_lin : fillable (N := RNum) xc c1 r. Proof. apply (fillable_narrow xc c c1 r HT eq_refl eq_refl zones_lin HA). Qed.
Lemma flat_lin : c_convex c1 = false \/ flat_box c1.
Proof.
  destruct HB as [H|H]; [left; exact H|right]. destruct H as [(a & Na & I)|(a & Ia & I & P)]; [left|right]; exists a.
  - rewrite inactive_low'. split; [exact Na|]. intros b Hb. rewrite inactive_low'. apply I, Hb.
  - rewrite inactive_low'. split; [exact Ia|]. split; [|exact P]. intros b Hb. rewrite inactive_low'. apply I, Hb.
Qed.
Lemma slope_lin : fallback_slope c1 slope. Proof. exact HS. Qed.
Local Notation E t w := (extended RNum xc (c_bc c) n t w).
Lemma balance_low (F : axis -> grid) v i : balance c1 F v i = balance c F v i.
Proof. unfold balance. rewrite !inactive_low. reflexivity. Qed.
Lemma forced_rhs (q : config RNum) heap x s t u F : tabulated q -> c_limit q = true -> known_options q -> c_convex q = false \/ flat_box q ->
  c_force q = true -> fillable (N := RNum) xc q r -> fallback_slope q slope -> c_fixed_dt q = Some dt ->
  limiting RNum q r x -> rows u = r -> shp u = c_n q -> pads RNum q s u F ->
  exists x' k, solver_f RNum q heap x s t u = Ok (x', (dt, k)) /\ limiting RNum q r x' /\ rows k = r /\ shp k = c_n q /\
    forall v i, in_shape (c_n q) i -> at_ k v i = balance q (fun d => face_flux wi wt q (low (c_p q)) slope d F) v i.
Proof.
  intros T L K B FT A S D X Rw Su PF.
  destruct (limited_rhs q T L K r Hr s B xc A heap x t u F X Rw Su PF) as (x' & dt' & k & us & theta & F1 & L1 & TS & RK & SK & RU & SU & VU & WG & VK).
  unfold gdt in TS. rewrite D in TS. injection TS as <-.
  exists x', k. split; [exact F1|]. split; [exact L1|]. split; [exact RK|]. split; [exact SK|].
  assert (PU : pads RNum q s us (extended RNum xc (c_bc q) (c_n q) s us)) by (apply (pads_extended q T); [setoid_rewrite RU; exact A|exact SU]).
  specialize (WG _ PU).
  destruct (slope_is q slope S) as [SL NU].
  assert (DF : forall a, deg_ok (getc a (fallback_p RNum q))) by (apply (good_deg RNum q), good_fallback, tab_good, T).
  intros v i Hi. refine (eq_trans (VK v i Hi) (eq_trans (balance_is q _ v i) _)). apply balance_cell. intros d Ad. destruct (faces_of q i d Hi) as (F2 & F3 & T1 & T2).
  assert (OO : forall j, in_shape (interface_shape d (c_n q)) j -> touches d j i -> wgt theta d j = 1%R).
  { intros j Hj Tj. refine (share_troubled q B (fun _ => True) d j i _ Tj Hi I _).
    eapply share_is; [|apply (WG d j); [apply active_spec, Ad|exact Hj]]. intros y _. split; [auto|]. intros _. left. exact FT. }
  rewrite !mixed_wgt, !OO by assumption.
  rewrite !(gflux_is wi wt HW q (fallback_p RNum q)) by assumption. rewrite SL, low_is by exact T.
  split; match goal with |- @eq _ ?x ?y => change (@eq R x y) end; ring.
Qed.
Local Notation rel := (related RNum c c1 r (fun f => f)).
Lemma rel_E' t u1 u2 : rel u1 u2 -> forall v i, in_padded n (ghost_zones3 c1) i -> E t u2 v i = E t u1 v i.
Proof.
  intros (R1 & R2 & S1 & S2 & V) v i Hi.
  apply (extended_agree RNum (fun _ => True) xc (c_bc c) (c_bc c) n (ghost_zones3 c1)); auto.
  - setoid_rewrite R1. setoid_rewrite R2. intros a pos. split; reflexivity || auto.
  - intro a. setoid_rewrite R2. apply fill_lin.
  - intro a. apply zones_lin.
Qed.
Theorem forced_runs heap heap' i av T k exact db log fuel u : shp u = n -> rows u = r ->
  match simulate c heap i av T k exact db log fuel u, simulate c1 heap' i av T k exact db log fuel u with
  | Ok o, Ok o' => same_states (N := RNum) n o o'
  | Err e, Err e' => e = e'
  | _, _ => False
  end.
Proof.
  intros Su Ru.
  assert (GR : respects RNum (arr_ops RNum) (arr_ops RNum) (solver_f RNum c heap) (solver_f RNum c1 heap') rel rel (auxes RNum (limiting RNum c r) (limiting RNum c1 r))).
  { apply (gen_respects RNum c c1 heap heap' r (fun f => f) (fun f g H => H) (fun f g v j => eq_refl) (fun k f v j => eq_refl) (fun _ => true) (fun _ => true)
      (fun _ _ _ => eq_refl) (limiting RNum c r) (limiting RNum c1 r)).
    intros x1 x2 s t u1 u2 [A1 A2] H _. pose proof H as (R1 & R2 & S1 & S2 & V).
    assert (P1 : pads RNum c s u1 (E s u1)) by (apply (pads_extended c HT); [setoid_rewrite R1; exact HA|exact S1]).
    assert (P2 : pads RNum c1 s u2 (E s u1)).
    { eapply pads_ext; [exact S2|apply pads_extended; [exact tab_lin|setoid_rewrite R2; exact fill_lin|exact S2]|]. intros v j Hj. exact (rel_E' s u1 u2 H v j Hj). }
    destruct (forced_rhs c heap x1 s t u1 (E s u1) HT HL HK HB HF HA HS FD A1 R1 S1 P1) as (x1' & k1 & F1 & L1 & RK1 & SK1 & V1).
    destruct (forced_rhs c1 heap' x2 s t u2 (E s u1) tab_lin HL HK flat_lin HF fill_lin slope_lin FD A2 R2 S2 P2) as (x2' & k2 & F2 & L2 & RK2 & SK2 & V2).
    exists x1', x2', dt, k1, k2. split; [exact F1|]. split; [exact F2|]. split; [split; assumption|].
    split; [exact RK1|]. split; [exact RK2|]. split; [exact SK1|]. split; [exact SK2|]. intros v j Hj. rewrite (V2 v j Hj), (V1 v j Hj), balance_low.
    change (c_p c1) with (low (c_p c)). rewrite low_low. reflexivity. }
  assert (X : res_rel (ode_rel RNum rel (auxes RNum (limiting RNum c r) (limiting RNum c1 r)) (fun _ _ => True))
    (simulate c heap i av T k exact db log fuel u) (simulate c1 heap' i av T k exact db log fuel u)).
  { unfold simulate, solver_integrate.
    apply (integrate_rel RNum (arr_ops RNum) (arr_ops RNum) _ _ rel rel _ (fun _ _ => True) GR).
    - intros x1 x2 [F1 F2]. split; apply limiting_helper; auto.
    - intros x1 x2 t w1 w2 _ (RW1 & RW2 & SW1 & SW2 & VW).
      destruct (payload_is RNum c heap av x1 t w1 (E t w1) HT SW1) as (d1 & B1 & _). { apply (pads_extended c HT); [setoid_rewrite RW1; exact HA|exact SW1]. }
      destruct (payload_is RNum c1 heap' av x2 t w2 (E t w2) tab_lin SW2) as (d2 & B2 & _). { apply (pads_extended c1 tab_lin); [setoid_rewrite RW2; exact fill_lin|exact SW2]. }
      rewrite B1, B2. exact I.
    - split; cbn; auto. + split; [exact Ru|]. split; [exact Ru|]. split; [exact Su|]. split; [exact Su|]. reflexivity.
      + setoid_rewrite Ru. split; apply limiting_init. }
  revert X. destruct (simulate c _ _ _ _ _ _ _ _ _ _) as [o1|e1], (simulate c1 _ _ _ _ _ _ _ _ _ _) as [o2|e2]; cbn; auto.
  intros [Et Hu Est Esn Ha Hs]. split; auto.
  - destruct Hu as (R1 & R2 & S1 & S2 & V). split; [exact (eq_trans R1 (eq_sym R2))|]. split; [exact S1|]. split; [exact S2|]. intros v j _ Hj. symmetry. apply V, Hj.
  - exact (snap_times (o_snaps o1) (o_snaps o2) Hs).
Qed.
End Everywhere.
