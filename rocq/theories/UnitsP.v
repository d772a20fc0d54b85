(** Runs do not depend on the units. *)
From Coq Require Import ZArith List Bool Lia Reals Lra FunctionalExtensionality.
From Verif Require Import Err Num PySlice NdArray NdArrayP HydroM HydroP StencilsM FvM FvP RiemannM RiemannP
  BcM LimitM OdeM SolverM Spec SpecBc SpecSolver SpecCons SpecScheme SchemeP SolverP OpP BcP BcQ RelP RelS ExistP RunP OdeP ConsP SymP MirrorP SedM SedP SpecExact ClockP SpecUnits.
Import ListNotations.
Local Open Scope R_scope.

Ltac eqr := match goal with |- ?x = ?y => change (@eq R x y) end.
Section Units.
Context (L V D : R) (HL : 0 < L) (HV : 0 < V) (HD : 0 < D).
Local Notation ru := (row_unit V D).
Local Notation pu := (prim_unit V D).
Local Notation big m f := (fun r => m r * f r).
Lemma Rmin_scaled k a b : 0 <= k -> Rmin (k * a) (k * b) = k * Rmin a b.
Proof. intro. unfold Rmin. destruct (Rle_dec a b), (Rle_dec (k * a) (k * b)); auto; nra. Qed.
Lemma Rmax_scaled k a b : 0 <= k -> Rmax (k * a) (k * b) = k * Rmax a b.
Proof. intro. unfold Rmax. destruct (Rle_dec a b), (Rle_dec (k * a) (k * b)); auto; nra. Qed.
Lemma Rabs_scaled k a : 0 <= k -> Rabs (k * a) = k * Rabs a.
Proof. intro. rewrite Rabs_mult, (Rabs_pos_eq k) by assumption. reflexivity. Qed.
Ltac rows r := destruct r as [|[[[?|?|]|[?|?|]|]|[[?|?|]|[?|?|]|]|]|?].
Lemma quot_scaled a b x y : b <> 0 -> (a * x) / (b * y) = (a / b) * (x / y).
Proof. intro. unfold Rdiv. rewrite Rinv_mult. ring. Qed.

Lemma primitive_units g (u : state) r : primitive g (big ru u) r = pu r * primitive g u r.
Proof.
  assert (ND : D <> 0) by lra. assert (NV : V <> 0) by lra.
  assert (Q : forall m x k, m = k * D -> m * x / (D * u 0%Z) = k * (x / u 0%Z)).
  { intros m x k ->. rewrite quot_scaled by assumption. replace (k * D / D) with k by (field; assumption). reflexivity. }
  rows r; cbn [primitive row_unit prim_unit]; try reflexivity; try (apply Q; ring).
  replace (1 / 2 * (D * V * u 1%Z * (D * V * u 1%Z) + D * V * u 2%Z * (D * V * u 2%Z) + D * V * u 3%Z * (D * V * u 3%Z)))
    with (D * V * (D * V) * (1 / 2 * (u 1%Z * u 1%Z + u 2%Z * u 2%Z + u 3%Z * u 3%Z))) by ring.
  rewrite (Q _ _ (V * (D * V))) by ring. ring.
Qed.
Lemma vel_units d (w : state) : vel d (big pu w) = V * vel d w.
Proof. destruct d; reflexivity. Qed.
Lemma rho_units (w : state) : rho (big pu w) = D * rho w.
Proof. reflexivity. Qed.
Lemma press_units (w : state) : press (big pu w) = D * (V * V) * press w.
Proof. reflexivity. Qed.
Lemma energy_units g (w : state) : total_energy g (big pu w) = D * (V * V) * total_energy g w.
Proof. unfold total_energy. rewrite !vel_units, rho_units, press_units. unfold Rdiv. ring. Qed.
Lemma conserved_units g (w : state) r : conserved g (big pu w) r = ru r * conserved g w r.
Proof.
  rows r; cbn [conserved]; rewrite ?energy_units, ?rho_units; cbn [prim_unit row_unit]; ring.
Qed.
Lemma row_unit_other r : (r <> 0)%Z -> (r <> 4)%Z -> ru r = D * pu r.
Proof. rows r; cbn; intros; try congruence; ring. Qed.
Lemma row_unit_comp d : ru (comp d) = D * V.
Proof. destruct d; reflexivity. Qed.
Lemma euler_units g d (w : state) r : euler_flux g d (big pu w) r = V * ru r * euler_flux g d w r.
Proof.
  unfold euler_flux. destruct (Z.eqb_spec r 0) as [->|N0]; [rewrite rho_units, vel_units; cbn [row_unit]; ring|].
  destruct (Z.eqb_spec r 4) as [->|N4]; [rewrite energy_units, press_units, vel_units; cbn [row_unit]; ring|].
  destruct (Z.eqb_spec r (comp d)) as [->|NC]; [rewrite rho_units, press_units, vel_units, row_unit_comp; ring|].
  rewrite rho_units, vel_units, (row_unit_other r N0 N4). ring.
Qed.
Lemma transport_units g d (w : state) r : transport_flux g d (big pu w) r = V * ru r * transport_flux g d w r.
Proof. unfold transport_flux. rewrite vel_units, conserved_units. ring. Qed.
Lemma sound_units g fl (w : state) : sound g (V * V * fl) (big pu w) = V * sound g fl w.
Proof.
  unfold sound. rewrite press_units, rho_units.
  replace (g * (D * (V * V) * press w) / (D * rho w)) with (V * V * (g * press w / rho w)).
  - rewrite Rmax_scaled by nra. rewrite sqrt_mult_alt by nra. rewrite sqrt_square by lra. reflexivity.
  - replace (g * (D * (V * V) * press w)) with (D * (V * V) * (g * press w)) by ring. rewrite quot_scaled by lra. f_equal. field. lra.
Qed.
Lemma Rlt_dec_scaled {A} k x (a b : A) : 0 < k -> (if Rlt_dec 0 (k * x) then a else b) = if Rlt_dec 0 x then a else b.
Proof. intro. destruct (Rlt_dec 0 x), (Rlt_dec 0 (k * x)); auto; exfalso; nra. Qed.
Lemma Rlt_dec_scaled' {A} k x (a b : A) : 0 < k -> (if Rlt_dec (k * x) 0 then a else b) = if Rlt_dec x 0 then a else b.
Proof. intro. destruct (Rlt_dec x 0), (Rlt_dec (k * x) 0); auto; exfalso; nra. Qed.
Section Hllc.
Context (g fl : R) (d : axis) (wl wr : state).
Local Notation fl' := (V * V * fl).
Local Notation wl' := (big pu wl).
Local Notation wr' := (big pu wr).
Lemma wave_left_units : wave_left g fl' d wl' wr' = V * wave_left g fl d wl wr.
Proof. unfold wave_left. rewrite !vel_units, !sound_units, Rmin_scaled, Rmax_scaled by lra. ring. Qed.
Lemma wave_right_units : wave_right g fl' d wl' wr' = V * wave_right g fl d wl wr.
Proof. unfold wave_right. rewrite !vel_units, !sound_units, !Rmax_scaled by lra. ring. Qed.
Lemma impedance_left_units : impedance_left g fl' d wl' wr' = D * V * impedance_left g fl d wl wr.
Proof. unfold impedance_left. rewrite wave_left_units, vel_units, rho_units. ring. Qed.
Lemma impedance_right_units : impedance_right g fl' d wl' wr' = D * V * impedance_right g fl d wl wr.
Proof. unfold impedance_right. rewrite wave_right_units, vel_units, rho_units. ring. Qed.
Lemma contact_speed_units : contact_speed g fl' d wl' wr' = V * contact_speed g fl d wl wr.
Proof.
  unfold contact_speed. rewrite impedance_left_units, impedance_right_units, !vel_units, !press_units.
  rewrite <- Rmult_plus_distr_l.
  match goal with |- ?x / _ = V * (?y / _) => replace x with (D * (V * V) * y) by ring end.
  rewrite quot_scaled by nra. f_equal. field. split; lra.
Qed.
Lemma contact_pressure_units : contact_pressure g fl' d wl' wr' = D * (V * V) * contact_pressure g fl d wl wr.
Proof.
  unfold contact_pressure. rewrite impedance_left_units, impedance_right_units, !vel_units, !press_units.
  rewrite <- Rmult_plus_distr_l.
  match goal with |- ?x / _ = _ * (?y / _) => replace x with (D * V * (D * (V * V)) * y) by ring end.
  rewrite quot_scaled by nra. f_equal. field. split; lra.
Qed.
Lemma star_units S w r : star g fl' d wl' wr' (V * S) (big pu w) r = ru r * star g fl d wl wr S w r.
Proof.
  unfold star. cbv zeta. rewrite contact_speed_units, contact_pressure_units, !vel_units, !rho_units, press_units, energy_units.
  replace (V * S - V * vel d w) with (V * (S - vel d w)) by ring.
  replace (V * S - V * contact_speed g fl d wl wr) with (V * (S - contact_speed g fl d wl wr)) by ring.
  assert (Q : forall x y, V * x / (V * y) = x / y) by (intros; rewrite quot_scaled by lra; replace (V / V) with 1 by (field; lra); ring).
  rewrite Q.
  destruct (Z.eqb_spec r 0) as [->|N0]; [cbn [row_unit]; ring|].
  destruct (Z.eqb_spec r 4) as [->|N4].
  { match goal with |- ?x / _ = _ * (?y / _) => replace x with (V * (D * (V * V)) * y) by ring end.
    rewrite quot_scaled by lra. cbn [row_unit]. f_equal. field. lra. }
  destruct (Z.eqb_spec r (comp d)) as [->|NC]; [rewrite row_unit_comp; ring|].
  rewrite (row_unit_other r N0 N4). ring.
Qed.
Lemma star_flux_units s P (U U' : Z -> R) r : U' r = ru r * U r ->
  star_flux d (V * s) (D * (V * V) * P) U' r = V * ru r * star_flux d s P U r.
Proof.
  intro E. unfold star_flux. rewrite E. destruct (Z.eqb_spec r (comp d)) as [->|NC]; [rewrite row_unit_comp; ring|].
  destruct (Z.eqb_spec r 4) as [->|N4]; cbn [row_unit]; ring.
Qed.
Lemma toro_units r : toro g fl' d wl' wr' r = V * ru r * toro g fl d wl wr r.
Proof.
  unfold toro. rewrite wave_left_units, wave_right_units, contact_speed_units, contact_pressure_units, !Rlt_dec_scaled by assumption.
  destruct (Rlt_dec 0 (wave_left _ _ _ _ _)); [apply euler_units|].
  destruct (Rlt_dec 0 (contact_speed _ _ _ _ _)); [apply star_flux_units, star_units|].
  destruct (Rlt_dec 0 (wave_right _ _ _ _ _)); [apply star_flux_units, star_units|apply euler_units].
Qed.
Lemma flux_units rs r : numerical_flux rs g fl' d wl' wr' r = V * ru r * numerical_flux rs g fl d wl wr r.
Proof.
  destruct rs; cbn [numerical_flux].
  - unfold donor. rewrite !vel_units, Rlt_dec_scaled, Rlt_dec_scaled', !transport_units by assumption.
    destruct (Rlt_dec 0 _); [reflexivity|]. destruct (Rlt_dec _ 0); [reflexivity|]. ring.
  - unfold rusanov. rewrite !euler_units, !conserved_units, !vel_units, !sound_units, !Rabs_scaled, <- !Rmult_plus_distr_l, Rmax_scaled by lra. ring.
  - apply toro_units.
Qed.
End Hllc.

(** ** stencils *)
Local Notation scaled m f := (fun v i => m v * f v i).
Lemma line_units (m : Z -> R) a ws f : line a ws (scaled m f) = (scaled m (line a ws f)).
Proof.
  extensionality v. extensionality i. unfold line. rewrite <- sum_scale. apply sum_ext. intros. ring.
Qed.
Lemma block_units (m : Z -> R) ws f : block ws (scaled m f) = (scaled m (block ws f)).
Proof. unfold block. rewrite !line_units. reflexivity. Qed.
Lemma across_units (m : Z -> R) d ws f : across d ws (scaled m f) = (scaled m (across d ws f)).
Proof. destruct d; cbn [across]; rewrite !line_units; reflexivity. Qed.
Section Grid.
Context (wi : Z -> ipos -> list R) (wt : Z -> list R) (p : ix).
Lemma primitives_units g f : primitives wi wt p g (scaled ru f) = (scaled pu (primitives wi wt p g f)).
Proof.
  unfold primitives. cbv zeta. rewrite block_units, <- block_units. f_equal. extensionality v. extensionality i.
  apply (primitive_units g (fun r => block (fun a => wi (getc a p) P_c) f r i) v).
Qed.
Lemma trace_units d pos (w : grid) : trace wi p None d pos (scaled pu w) = (scaled pu (trace wi p None d pos w)).
Proof. unfold trace. cbv zeta. rewrite across_units, line_units. reflexivity. Qed.
End Grid.
Context (q : Z) (c c' : config RNum) (HU : units_changed L V D q c c').
Context (HT : tabulated c) (HT' : tabulated c').
Local Notation wi := (wts_i RNum).
Local Notation wt := (wts_t RNum).
Lemma n_same : c_n c' = c_n c. Proof. pose proof (uc_rest _ _ _ _ _ _ HU) as E. congruence. Qed.
Lemma p_same : c_p c' = c_p c. Proof. pose proof (uc_rest _ _ _ _ _ _ HU) as E. congruence. Qed.
Lemma g_same : c_gamma c' = c_gamma c. Proof. pose proof (uc_rest _ _ _ _ _ _ HU) as E. congruence. Qed.
Lemma rs_same : c_rs c' = c_rs c. Proof. pose proof (uc_rest _ _ _ _ _ _ HU) as E. congruence. Qed.
Lemma cfl_same : c_CFL c' = c_CFL c. Proof. pose proof (uc_rest _ _ _ _ _ _ HU) as E. congruence. Qed.
Lemma inactive_same a : inactive_b c' a = inactive_b c a.
Proof. unfold inactive_b. rewrite n_same, p_same. reflexivity. Qed.
Lemma face_units d f : face_flux wi wt c' (c_p c') None d (scaled ru f) = (fun v i => V * ru v * face_flux wi wt c (c_p c) None d f v i).
Proof.
  unfold face_flux. cbv zeta. rewrite p_same, g_same, rs_same, (uc_floor _ _ _ _ _ _ HU).
  rewrite primitives_units, !trace_units.
  refine (eq_trans _ (across_units (fun v => V * ru v) d _ _)). f_equal. extensionality v. extensionality i.
  exact (flux_units (c_gamma c) (c_csq_floor c) d (fun r => trace wi (c_p c) None d P_r (primitives wi wt (c_p c) (c_gamma c) f) r (up d (-1) i))
    (fun r => trace wi (c_p c) None d P_l (primitives wi wt (c_p c) (c_gamma c) f) r i) (c_rs c) v).
Qed.
Lemma width_units a : width c' a = L * width c a.
Proof. unfold width. rewrite (uc_bounds _ _ _ _ _ _ HU), n_same. cbn [fst snd]. unfold Rdiv. ring. Qed.
Lemma balance_units (F F' : axis -> grid) v i : (forall d i, F' d v i = V * ru v * F d v i) ->
  balance c' F' v i = V / L * (ru v * balance c F v i).
Proof.
  intro E. unfold balance. cbv zeta. rewrite !E, !width_units, !inactive_same.
  assert (Q : forall a b x, (V * ru v * a - V * ru v * b) / (L * x) = V / L * (ru v * ((a - b) / x))).
  { intros. replace (V * ru v * a - V * ru v * b) with (V * ru v * (a - b)) by ring. rewrite quot_scaled by lra. unfold Rdiv. ring. }
  rewrite !Q. destruct (inactive_b c AX), (inactive_b c AY), (inactive_b c AZ); ring.
Qed.
Lemma signal_units (w : state) : signal_speed c' (big pu w) = V * signal_speed c w.
Proof.
  unfold signal_speed. rewrite !vel_units, g_same, (uc_floor _ _ _ _ _ _ HU), sound_units, !Rabs_scaled, !inactive_same by lra. ring.
Qed.
Lemma step_units w dt dt' : time_step c w dt -> time_step c' (scaled pu w) dt' -> dt' = L / V * dt.
Proof.
  unfold time_step. rewrite (uc_dt _ _ _ _ _ _ HU). destruct (c_fixed_dt c) as [x|]; cbn [option_map]; [intros -> ->; reflexivity|].
  intros (m & [(i0 & Z0 & M0) M1] & ->) (m' & [(i0' & Z0' & M0') M1'] & ->).
  assert (FZ : forall i, flux_zone c' i <-> flux_zone c i).
  { intro i. unfold flux_zone. cbv zeta. rewrite p_same, n_same. split; intros X a; specialize (X a); rewrite inactive_same in *; exact X. }
  assert (SS : forall i, signal_speed c' (fun r => pu r * w r i) = V * signal_speed c (fun r => w r i)) by (intro; apply signal_units).
  assert (E : m' = V * m).
  { apply Rle_antisym.
    - rewrite <- M0', SS. apply Rmult_le_compat_l; [lra|]. apply M1, FZ, Z0'.
    - rewrite <- M0, <- SS. apply M1', FZ, Z0. }
  rewrite E, cfl_same, !width_units, !Rmin_scaled by (try apply Rlt_le; assumption).
  set (h := Rmin _ _). replace (c_CFL c * (L * h)) with (L * (c_CFL c * h)) by ring. apply quot_scaled. lra.
Qed.

(** ** ghost cells *)
Lemma middle_units a k : middle_of c' a k = L * middle_of c a k.
Proof. unfold middle_of. rewrite width_units, (uc_bounds _ _ _ _ _ _ HU). cbn [fst]. ring. Qed.
Lemma prescribed_units a pos t v i : prescribes (bc_type (c_bc c) a pos) ->
  prescribed RNum (middle_of c') q (bc_val (c_bc c') a pos) (option_map (fun s => L / V * s) t) v i
  = ru v * prescribed RNum (middle_of c) q (bc_val (c_bc c) a pos) t v i.
Proof.
  intro HP. pose proof (uc_val _ _ _ _ _ _ HU a pos HP) as X. unfold value_rescaled in X.
  destruct (bc_val (c_bc c) a pos), (bc_val (c_bc c') a pos); try contradiction; cbn [prescribed].
  - rewrite X. cbn [nmul nofZ RNum]. eqr; ring.
  - rewrite !middle_units. apply X.
  - cbn [nofZ RNum]. symmetry. apply Rmult_0_r.
  - cbn [nofZ RNum]. symmetry. apply Rmult_0_r.
Qed.
Lemma extend_units n t a f f' : (forall v i, f' v i = ru v * f v i) ->
  forall v i, extend RNum (middle_of c') (c_bc c') q n (L / V * t) a f' v i = ru v * extend RNum (middle_of c) (c_bc c) q n t a f v i.
Proof.
  intros HF v i.
  assert (G : forall pos, ghost RNum (middle_of c') (c_bc c') q n (L / V * t) a pos f' v i = ru v * ghost RNum (middle_of c) (c_bc c) q n t a pos f v i).
  { intro pos. unfold ghost. rewrite (uc_bc _ _ _ _ _ _ HU). pose proof (prescribed_units a pos) as P.
    destruct (bc_type (c_bc c) a pos); rewrite ?HF; try reflexivity.
    - destruct (v =? vrow a)%Z; rewrite ?HF; [|reflexivity]. cbn [nmul nofZ RNum]. eqr; ring.
    - apply (P (Some t)). exact I.
    - apply (P None). exact I. }
  unfold extend. destruct (getc a i <? 0)%Z; [apply G|]. destruct (getc a n <=? getc a i)%Z; [apply G|apply HF].
Qed.
Lemma extended_units n t u u' : rows u = q -> rows u' = q -> (forall v i, at_ u' v i = ru v * at_ u v i) ->
  forall v i, extended RNum (middle_of c') (c_bc c') n (L / V * t) u' v i = ru v * extended RNum (middle_of c) (c_bc c) n t u v i.
Proof. intros R R' H. unfold extended. setoid_rewrite R. setoid_rewrite R'. do 3 apply extend_units. exact H. Qed.
Context (HF : fillable (N := RNum) (middle_of c) c q) (HF' : fillable (N := RNum) (middle_of c') c' q).
Definition urel (m : Z -> R) (u u' : arr R) : Prop :=
  rows u = q /\ rows u' = q /\ shp u = c_n c /\ shp u' = c_n c /\ forall v i, in_shape (c_n c) i -> at_ u' v i = m v * at_ u v i.
Lemma pads_here t u : rows u = q -> shp u = c_n c -> pads RNum c t u (extended RNum (middle_of c) (c_bc c) (c_n c) t u).
Proof.
  intros R S junk g HG. destruct (apply_fillable RNum (middle_of c) c junk u g t HT) as (o & E & RO & SO & VO); auto.
  { rewrite R. exact HF. }
  exists o. split; [exact E|]. split; [exact RO|]. split; [exact SO|]. intros v i Hi. rewrite <- S. apply VO, Hi.
Qed.
Lemma pads_there t u u' : urel ru u u' -> pads RNum c' (L / V * t) u' (scaled ru (extended RNum (middle_of c) (c_bc c) (c_n c) t u)).
Proof.
  intros (R & R' & S & S' & H).
  assert (P : pads RNum c' (L / V * t) u' (extended RNum (middle_of c') (c_bc c') (c_n c) (L / V * t) u')).
  { intros junk g HG. destruct (apply_fillable RNum (middle_of c') c' junk u' g (L / V * t) HT') as (o & E & RO & SO & VO); auto.
    { setoid_rewrite R'. exact HF'. } { rewrite n_same. exact S'. }
    exists o. split; [exact E|]. split; [exact RO|]. split; [exact SO|]. intros v i Hi. rewrite <- S'. apply VO, Hi. }
  eapply pads_ext; [rewrite n_same; exact S'|exact P|]. rewrite n_same. intros v i Hi.
  rewrite <- (extended_units (c_n c) t u (mkarr q (c_n c) (fun v i => ru v * at_ u v i))); auto.
  apply (extended_agree RNum (fun _ => True) (middle_of c') (c_bc c') (c_bc c') (c_n c) (ghost_zones3 c')); auto.
  - setoid_rewrite R'. intros a pos. split; reflexivity || auto.
  - intro a. setoid_rewrite R'. rewrite <- n_same. apply HF'.
  - intro a. pose proof (width_main RNum c' HT' a). lia.
  - intros w j _ Hj. apply H, Hj.
Qed.
Definition arel (x x' : aux RNum) : Prop := flux_arrays_ok RNum c q (x_flux x) /\ flux_arrays_ok RNum c' q (x_flux x').
Definition drel (d d' : payload RNum) : Prop := urel pu (fst d) (fst d').
Lemma urel_ext m u u' f f' : rows u = q -> rows u' = q -> shp u = c_n c -> shp u' = c_n c ->
  (forall v i, in_shape (c_n c) i -> at_ u v i = f v i) -> (forall v i, in_shape (c_n c) i -> at_ u' v i = f' v i) ->
  (forall v i, in_shape (c_n c) i -> f' v i = m v * f v i) -> urel m u u'.
Proof.
  intros R1 R2 S1 S2 V1 V2 H. repeat (split; [assumption|]). intros v i Hi. rewrite V2, H, V1 by exact Hi. reflexivity.
Qed.
Lemma combine_units m k x x' y y' a a' b b' : urel m x x' -> urel k y y' -> (forall v, a' * m v = m v * a) -> (forall v, b' * k v = m v * b) ->
  res_rel (urel m) (amap2 (@nadd RNum) (amap (fun z => @nmul RNum a z) x) (amap (fun z => @nmul RNum b z) y))
                (amap2 (@nadd RNum) (amap (fun z => @nmul RNum a' z) x') (amap (fun z => @nmul RNum b' z) y')).
Proof.
  intros (R1 & R2 & S1 & S2 & E1) (R1' & R2' & S1' & S2' & E2) Ha Hb.
  destruct (amap2_is (@nadd RNum) (amap (fun z => @nmul RNum a z) x) (amap (fun z => @nmul RNum b z) y) q (c_n c) (fun v i => a * at_ x v i) (fun v i => b * at_ y v i)) as (z1 & Z1 & RZ1 & SZ1 & VZ1); try (split; auto).
  destruct (amap2_is (@nadd RNum) (amap (fun z => @nmul RNum a' z) x') (amap (fun z => @nmul RNum b' z) y') q (c_n c) (fun v i => a' * at_ x' v i) (fun v i => b' * at_ y' v i)) as (z2 & Z2 & RZ2 & SZ2 & VZ2); try (split; auto).
  rewrite Z1, Z2. cbn [res_rel]. apply (urel_ext m z1 z2 (fun v i => a * at_ x v i + b * at_ y v i) (fun v i => a' * at_ x' v i + b' * at_ y' v i)); auto.
  intros v i Hi. cbn [nadd RNum]. rewrite E1, E2 by exact Hi. eqr.
  rewrite <- !Rmult_assoc, Ha, Hb. ring.
Qed.
Lemma scale_units m (k : R) x x' : urel m x x' -> urel m (amap (fun z => @nmul RNum k z) x) (amap (fun z => @nmul RNum k z) x').
Proof.
  intros (R1 & R2 & S1 & S2 & E1). repeat (split; [assumption|]). intros v i Hi. cbn [amap at_ nmul RNum]. rewrite E1 by exact Hi. exact (eq_trans (eq_sym (Rmult_assoc _ _ _)) (eq_trans (f_equal (fun z => z * _) (Rmult_comm _ _)) (Rmult_assoc _ _ _))).
Qed.
Lemma one_scale (x : arr R) : amap (fun z => @nmul RNum 1 z) x = x.
Proof. destruct x. unfold amap. cbn. f_equal. extensionality v. extensionality i. ring. Qed.
Lemma prim_units av E v i : gprim RNum c' av (scaled ru E) v i = pu v * gprim RNum c av E v i.
Proof.
  etransitivity; [apply (gprim_is c' HT')|]. rewrite (gprim_is c HT). destruct av; unfold centre_prim; rewrite p_same, g_same.
  - rewrite primitives_units. reflexivity.
  - rewrite block_units. apply primitive_units.
Qed.
(** ** runs of two solvers whose right-hand sides are converted *)
Section Gen.
Context (heap heap' : Z -> Z -> ix -> R) (AR : aux RNum -> aux RNum -> Prop).
Context (HR : forall x x' s t u u', AR x x' -> urel ru u u' ->
  res_rel (crhs_rel (L / V) (urel (fun v => V / L * ru v)) AR)
    (solver_f RNum c heap x s t u) (solver_f RNum c' heap' x' (L / V * s) (L / V * t) u')).
Context (HA : forall x x', AR x x' -> AR (step_helper RNum c x) (step_helper RNum c' x')).
Context (HI : AR (aux_init RNum c heap q) (aux_init RNum c' heap' q)).
Lemma gen_respects : crespects (L / V) (arr_ops RNum) (arr_ops RNum) (solver_f RNum c heap) (solver_f RNum c' heap')
  (urel ru) (urel (fun v => V / L * ru v)) AR.
Proof.
  assert (LV : L / V * (V / L) = 1) by (field; lra).
  split; cbn [vadd vscale vassign arr_ops].
  - exact HR.
  - intros k k' u u' x x' -> H H'. rewrite <- (one_scale u), <- (one_scale u').
    apply (combine_units ru (fun v => V / L * ru v)); auto; [intros; ring|]. intro v.
    transitivity (L / V * (V / L) * (ru v * k)); [ring|]. rewrite LV. ring.
  - intros. apply scale_units. assumption.
  - intros x x' y y' H H'. rewrite <- (one_scale x), <- (one_scale x'), <- (one_scale y), <- (one_scale y').
    apply (combine_units (fun v => V / L * ru v) (fun v => V / L * ru v)); auto; intros; ring.
  - intros x x' y y' H H'. apply (combine_units ru ru); auto; intros; apply Rmult_comm.
  - intros u1 u2 v1 v2 (R1 & R2 & S1 & S2 & E) (R1' & R2' & S1' & S2' & E').
    destruct (assign_all_is u1 v1 q (c_n c) (at_ v1) R1 S1) as (z1 & Z1 & RZ1 & SZ1 & VZ1).
    { split; [exact R1'|]. split; [exact S1'|]. reflexivity. }
    destruct (assign_all_is u2 v2 q (c_n c) (at_ v2) R2 S2) as (z2 & Z2 & RZ2 & SZ2 & VZ2).
    { split; [exact R2'|]. split; [exact S2'|]. reflexivity. }
    rewrite Z1, Z2. cbn [res_rel]. apply (urel_ext ru z1 z2 (at_ v1) (at_ v2)); auto.
Qed.
Theorem gen_run i av T n exact db log fuel u u' : rows u = q -> shp u = c_n c -> rescaled ru u u' ->
  outcome_rescaled L V D (simulate c heap i av T n exact db log fuel u)
    (simulate c' heap' i av (option_map (fun t => L / V * t) T) n exact (map (fun t => L / V * t) db) log fuel u').
Proof.
  intros R S (R' & S' & E).
  assert (H : urel ru u u') by (repeat split; try congruence; intros; apply E; rewrite S; assumption).
  pose proof (cintegrate_rel (L / V) (Rdiv_lt_0_compat _ _ HL HV) (arr_ops RNum) (arr_ops RNum) (solver_f RNum c heap) (solver_f RNum c' heap')
    (urel ru) (urel (fun v => V / L * ru v)) AR drel gen_respects i (step_helper RNum c) (step_helper RNum c')
    (snap_payload RNum c heap av) (snap_payload RNum c' heap' av)) as X.
  lapply X; clear X; [intro X; lapply X; clear X; [intro X|]|].
  - specialize (X T n exact db log fuel (ode_init RNum u (aux_init RNum c heap (rows u))) (ode_init RNum u' (aux_init RNum c' heap' (rows u')))).
    lapply X; clear X; [intro X|].
    + fold (simulate c heap i av T n exact db log fuel u) in X.
      revert X. unfold simulate. match goal with |- res_rel _ ?a ?b -> outcome_rescaled _ _ _ ?a' ?b' => change a' with a; change b' with b; destruct a as [o|], b as [o'|]; cbn [res_rel outcome_rescaled]; auto end.
      intros [Et Hu Est Esn Ha Hs]. split; auto.
      * destruct Hu as (P1 & P2 & Q1 & Q2 & Q3). split; [exact (eq_trans P2 (eq_sym P1))|]. split; [exact (eq_trans Q2 (eq_sym Q1))|]. intros v j Hj. apply Q3. rewrite <- Q1. exact Hj.
      * clear -Hs. induction Hs as [|[t1 d1] [t2 d2] l1 l2 [A B] Hs IH]; constructor; [|exact IH]. split; [exact A|].
        destruct B as (P1 & P2 & Q1 & Q2 & Q3). cbn [fst snd] in *. split; [exact (eq_trans P2 (eq_sym P1))|]. split; [exact (eq_trans Q2 (eq_sym Q1))|]. intros v j Hj. apply Q3. rewrite <- Q1. exact Hj.
    + split; cbn; auto; try ring.
      * f_equal. ring.
      * setoid_rewrite R'. setoid_rewrite R. exact HI.
  - intros x x' t w w' _ HW. pose proof HW as (RW & RW' & SW & SW' & EW).
    destruct (payload_is RNum c heap av x t w _ HT SW (pads_here t w RW SW)) as (d1 & A1 & B1 & C1 & D1).
    destruct (payload_is RNum c' heap' av x' (L / V * t) w' _ HT' (eq_trans SW' (eq_sym n_same)) (pads_there t w w' HW)) as (d2 & A2 & B2 & C2 & D2).
    rewrite n_same in *. rewrite A1. setoid_rewrite A2. cbn [res_rel]. unfold drel. cbn [fst].
    eapply urel_ext; [exact (eq_trans B1 RW)|exact (eq_trans B2 RW')|exact C1|exact C2|exact D1|exact D2|]. intros v j _. apply prim_units.
  - exact HA.
Qed.
End Gen.
Context (CL : c_limit c = false) (Hq : (1 <= q)%Z).
Lemma limit_same : c_limit c' = false. Proof. pose proof (uc_rest _ _ _ _ _ _ HU) as E. congruence. Qed.
Lemma rhs_units heap heap' x x' t u u' : arel x x' -> urel ru u u' ->
  res_rel (crhs_rel (L / V) (urel (fun v => V / L * ru v)) arel)
    (hydrodynamics RNum c heap x t u) (hydrodynamics RNum c' heap' x' (L / V * t) u').
Proof.
  intros [F F'] HR. pose proof HR as (R & R' & S & S' & H).
  set (E := extended RNum (middle_of c) (c_bc c) (c_n c) t u).
  destruct (hydrodynamics_is RNum c heap x t u E) as (y & dt & k & A1 & A2 & A3 & A4 & A5 & A6 & _); auto.
  { apply tab_good; assumption. } { setoid_rewrite R; exact Hq. } { apply sane_dims, HT. } { setoid_rewrite R. exact F. }
  { unfold padding. apply pads_here; auto. apply width_main; assumption. }
  destruct (hydrodynamics_is RNum c' heap' x' (L / V * t) u' (scaled ru E)) as (y' & dt' & k' & B1 & B2 & B3 & B4 & B5 & B6 & _); auto.
  { apply tab_good; assumption. } { rewrite n_same. exact S'. } { setoid_rewrite R'; exact Hq. } { apply limit_same. } { apply sane_dims, HT'. } { setoid_rewrite R'. exact F'. }
  { unfold padding. apply pads_there; auto. apply width_main; assumption. }
  rewrite A1, B1. cbn [res_rel]. split; [|split]; cbn [fst snd].
  - setoid_rewrite R in A6. setoid_rewrite R' in B6. split; assumption.
  - apply (gdt_is wi wt tables_are c HT) in A2. apply (gdt_is wi wt tables_are c' HT') in B2.
    rewrite p_same, g_same in B2. eapply step_units; [exact A2|]. rewrite <- primitives_units. exact B2.
  - split; [exact (eq_trans A3 R)|]. split; [exact (eq_trans B3 R')|]. split; [exact A4|]. split; [exact (eq_trans B4 n_same)|].
    intros v i Hi. rewrite n_same in B5. specialize (B5 v i Hi). specialize (A5 v i Hi).
    refine (eq_trans B5 (eq_trans (gdudt_is c' HT' _ v i) _)).
    refine (eq_trans (balance_units (fun d => face_flux wi wt c (c_p c) None d E) _ v i _) _).
    + intros d j. rewrite face_units. reflexivity.
    + refine (eq_trans _ (eq_sym (Rmult_assoc _ _ _))). do 2 f_equal. exact (eq_sym (eq_trans A5 (gdudt_is c HT E v i))).
Qed.
Theorem units_run heap heap' i av T n exact db log fuel u u' : rows u = q -> shp u = c_n c -> rescaled ru u u' ->
  outcome_rescaled L V D (simulate c heap i av T n exact db log fuel u)
    (simulate c' heap' i av (option_map (fun t => L / V * t) T) n exact (map (fun t => L / V * t) db) log fuel u').
Proof.
  apply (gen_run heap heap' arel).
  - intros. apply rhs_units; assumption.
  - intros x x' [F F']. split; rewrite helper_flux; assumption.
  - split; intro d; cbn; split; reflexivity.
Qed.
End Units.

(** ** converting a configuration *)
Lemma convert_tab L V D q c : tabulated c -> tabulated (convert L V D q c).
Proof.
  intros [[A1 A2 A3 A4] A5]. split; [split|]; try assumption.
  cbn [convert c_nad pad_bounds]. destruct (pad_bounds (c_nad c)) as [l|]; cbn [option_map]; [|exact I].
  intros e He. apply in_map_iff in He. destruct He as (e0 & <- & I0). apply (A4 e0 I0).
Qed.
Lemma convert_units L V D q c : 0 < L -> 0 < V -> units_changed L V D q c (convert L V D q c).
Proof.
  intros HL HV. split; try reflexivity. intros a pos HP. cbn [c_bc convert bc_val].
  destruct (bc_val (c_bc c) a pos); cbn [convert_value value_rescaled]; auto.
  - intro v. rewrite Z.eqb_refl. reflexivity.
  - intros t x y z v.
    assert (E : forall x, L * x / L = x) by (intro; field; lra). rewrite !E. f_equal.
    destruct t as [t|]; cbn [option_map]; [|reflexivity].
    replace (V / L * (L / V * t)) with t by (field; lra). reflexivity.
Qed.
Lemma convert_fillable L V D q c : 0 < L -> 0 < V -> fillable (N := RNum) (middle_of c) c q ->
  fillable (N := RNum) (middle_of (convert L V D q c)) (convert L V D q c) q.
Proof.
  intros HL HV HF a. pose proof (convert_units L V D q c HL HV) as HU.
  change (ghost_zones3 (convert L V D q c)) with (ghost_zones3 c). change (c_n (convert L V D q c)) with (c_n c).
  destruct (HF a) as [E|(A1 & A2 & A3)]; [left; exact E|right].
  assert (S : forall pos, side_ok (N := RNum) (middle_of c) (c_bc c) q (c_n c) (ghost_zones3 c) a pos ->
     side_ok (N := RNum) (middle_of (convert L V D q c)) (c_bc (convert L V D q c)) q (c_n c) (ghost_zones3 c) a pos).
  { intros pos [X|[P (O & sl & X1 & X2 & X3)]]; [left; exact X|right]. split; [exact P|]. split.
    - cbn [c_bc convert bc_val]. destruct (bc_val (c_bc c) a pos); cbn [convert_value]; auto.
    - cbn [c_bc convert bc_slabs]. rewrite X1. cbn [option_map]. eexists. split; [reflexivity|]. split; [exact X2|].
      intro d. destruct (X3 d) as [Y1 Y2]. split.
      + destruct d; exact Y1.
      + intro i. refine (eq_trans _ (eq_sym (middle_units L V D q c _ HU d _))). specialize (Y2 i). destruct d; cbn [fst snd at_] in *;
          apply (f_equal (fun z => L * z)) in Y2; exact Y2. }
  split; [apply S, A1|]. split; [apply S, A2|]. exact A3.
Qed.

(** ** the smoothness test is not independent of the units *)
Definition parabola (A : R) : arr R := mkarr 1 (mkix 7 1 1) (fun _ i => A * (IZR (cx i) * IZR (cx i))).
Lemma parabola_sed A eps : 0 < eps -> 0 < A -> exists o, sed_1d RNum AX eps (parabola A) = Ok o /\ shp o = mkix 1 1 1 /\
  at_ o 0 (mkix 0 0 0) = if Rle_dec A eps then Rmin (2 * A / eps) 1 else 1.
Proof.
  intros He HA. destruct (sed_1d_is RNum AX eps (parabola A)) as (o & E & R & S & F); [cbn; lia|].
  exists o. split; [exact E|]. split; [exact S|]. rewrite F.
  assert (Q : forall j, sed_at RNum eps (along RNum AX (parabola A) 0 (mkix 0 0 0)) j = if Rle_dec A eps then Rmin (2 * A / eps) 1 else 1).
  { intro j. unfold sed_at. cbv zeta.
    assert (C : forall k, cd RNum (along RNum AX (parabola A) 0 (mkix 0 0 0)) k = A * (2 * IZR k + 2)).
    { intro k. unfold cd, along, parabola. cbn [at_ setc cx]. rewrite nhalf_R. rn. rewrite plus_IZR. eqr. field. }
    assert (C2 : cd RNum (cd RNum (along RNum AX (parabola A) 0 (mkix 0 0 0))) j = 2 * A).
    { unfold cd at 1. rewrite !C, nhalf_R. rn. rewrite plus_IZR. eqr. field. }
    rewrite C2, !C. rewrite !plus_IZR. cbn [nsub RNum].
    replace (A * (2 * IZR j + 2) - A * (2 * (IZR j + 1) + 2)) with (- (2 * A)) by ring.
    replace (A * (2 * (IZR j + 2) + 2) - A * (2 * (IZR j + 1) + 2)) with (2 * A) by ring.
    assert (DV : sed_dv RNum eps (2 * A) = if Rle_dec A eps then eps else A).
    { unfold sed_dv. rewrite nhalf_R. cbn [nmul nabs nleb nofZ RNum]. replace (1 / 2 * (2 * A)) with A by field.
      rewrite (Rabs_pos_eq A) by lra. unfold Rleb. destruct (Rle_dec A eps); [|reflexivity].
      destruct (Rle_dec 0 A); [reflexivity|lra]. }
    rewrite DV. destruct (Rle_dec A eps) as [S1|S1].
    - assert (AL : sed_alphaL RNum eps (- (2 * A)) = Rmin (2 * A / eps) 1).
      { unfold sed_alphaL. cbn [nltb nofZ nopp ndiv RNum]. unfold Rltb.
        destruct (Rlt_dec eps 0); [lra|]. destruct (Rlt_dec (- (2 * A)) 0); [|lra].
        rewrite Ropp_involutive. unfold Rmin. destruct (Rlt_dec (2 * A / eps) 1), (Rle_dec (2 * A / eps) 1); auto; lra. }
      assert (AR : sed_alphaR RNum eps eps (2 * A) = 1).
      { unfold sed_alphaR. cbn [nabs nleb RNum]. rewrite (Rabs_pos_eq eps) by lra. unfold Rleb. destruct (Rle_dec eps eps); [reflexivity|lra]. }
      rewrite AL, AR. cbn [nltb nmin RNum]. unfold Rltb.
      destruct (Rlt_dec 1 (Rmin (2 * A / eps) 1)); [pose proof (Rmin_r (2 * A / eps) 1); lra|]. apply Rmin_left. apply Rle_refl.
    - assert (AL : sed_alphaL RNum A (- (2 * A)) = 1).
      { unfold sed_alphaL. cbn [nltb nofZ nopp ndiv RNum]. unfold Rltb.
        destruct (Rlt_dec A 0); [lra|]. destruct (Rlt_dec (- (2 * A)) 0); [|lra].
        rewrite Ropp_involutive. replace (2 * A / A) with 2 by (field; lra). destruct (Rlt_dec 2 1); [lra|reflexivity]. }
      assert (AR : sed_alphaR RNum eps A (2 * A) = 2).
      { unfold sed_alphaR. cbn [nltb nofZ ndiv nabs nleb RNum]. rewrite (Rabs_pos_eq A) by lra. unfold Rleb, Rltb. destruct (Rle_dec A eps); [lra|].
        destruct (Rlt_dec 0 A); [|lra]. destruct (Rlt_dec 0 (2 * A)); [|lra]. eqr. field. lra. }
      rewrite AL, AR. cbn [nltb nmin RNum]. unfold Rltb. destruct (Rlt_dec 2 1); [lra|]. apply Rmin_left. apply Rle_refl. }
  unfold sed_line. cbn [getc cx]. rewrite !Q. cbn [nmin RNum]. assert (M : forall z, Rmin z z = z) by (intro; apply Rmin_left, Rle_refl). rewrite !M. reflexivity.
Qed.
Lemma smoothness_units eps : 0 < eps -> exists u u' o o' D, 0 < D /\ rescaled (fun _ => D) u u' /\
  sed_1d RNum AX eps u = Ok o /\ sed_1d RNum AX eps u' = Ok o' /\ in_shape (shp o) (mkix 0 0 0) /\
  at_ o 0 (mkix 0 0 0) = 1 /\ at_ o' 0 (mkix 0 0 0) = 1/2.
Proof.
  intro He. destruct (parabola_sed (2 * eps) eps) as (o & E & S & F); [lra|lra|].
  destruct (parabola_sed (1/4 * eps) eps) as (o' & E' & S' & F'); [lra|lra|].
  exists (parabola (2 * eps)), (parabola (1/4 * eps)), o, o', (1/8). split; [lra|]. split; [|split; [exact E|split; [exact E'|split; [|split]]]].
  - split; [reflexivity|]. split; [reflexivity|]. intros v i _. cbn [parabola at_]. field.
  - rewrite S. intros []; cbn; lia.
  - refine (eq_trans F _). destruct (Rle_dec (2 * eps) eps); lra.
  - refine (eq_trans F' _). destruct (Rle_dec (1/4 * eps) eps); [|lra]. replace (2 * (1/4 * eps) / eps) with (1/2) by (field; lra).
    apply Rmin_left. lra.
Qed.
