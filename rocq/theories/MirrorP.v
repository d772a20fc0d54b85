(** Mirror images of whole runs. *)
From Coq Require Import ZArith List Bool Lia Reals Lra FunctionalExtensionality.
From Verif Require Import Err Num PySlice NdArray HydroM RiemannM StencilsM FvM BcM SedM
  LimitM OdeM SolverM Spec SpecBc SpecSolver SpecCons SpecScheme SpecSym NdArrayP FvP BcP BcQ OpP SolverP OdeP RelP RelS LimP RunP ConsP
  RiemannP HydroP SlopeP WallP ExistP SchemeP SymP SeamP ShiftP WatchP UniformP.
Import ListNotations.
Open Scope Z_scope.

Local Notation wi := (wts_i RNum).
Local Notation wt := (wts_t RNum).
(** ** what the model computes, in text-book form *)
Section Forms.
Context (c : config RNum) (HT : tabulated c).
Lemma degs a : deg_ok (getc a (c_p c)).
Proof. apply (good_deg RNum c), tab_good, HT. Qed.
Lemma gdudt_is (E : grid) v i : gdudt RNum c (c_p c) L_none E v i = balance c (fun d => face_flux wi wt c (c_p c) None d E) v i.
Proof.
  unfold gdudt. refine (eq_trans (balance_is c _ v i) _). apply balance_fun. intros d v' i'.
  exact (gflux_is wi wt tables_are c (c_p c) L_none d E v' i' degs).
Qed.
Definition centre_prim (E : grid) : grid := fun v i =>
  primitive (c_gamma c) (fun r => block (fun a => wi (getc a (c_p c)) P_c) E r i) v.
Lemma gprim_is av (E : grid) v i : gprim RNum c av E v i =
  if av then primitives wi wt (c_p c) (c_gamma c) E v i else centre_prim E v i.
Proof.
  unfold gprim. destruct av.
  - rewrite <- (c_prim wi wt tables_are (c_p c) degs). f_equal; try (apply ix_ext; intro a;
    rewrite !getc_shift', !getc_neg, getc_prim_width, getc_scale3, getc_sr3; unfold interp_cost; destruct a; cbn [getc cx cy cz]; lia).
  - unfold pcell, centre_prim. rewrite <- primitive_is. apply cellwise_prim. intro r.
    rewrite <- (c_centre wi wt tables_are (c_p c) degs). f_equal; try (apply ix_ext; intro a;
    rewrite !getc_shift', !getc_neg, getc_prim_width, getc_sr3; unfold interp_cost; destruct a; cbn [getc cx cy cz]; lia).
Qed.
Lemma gdt_ok (E : grid) : exists dt, gdt RNum c (c_p c) E = Ok dt.
Proof.
  unfold gdt. destruct (c_fixed_dt c) as [x|]; [exists x; reflexivity|]. unfold gspeed.
  destruct (reduce_cells_some (@nmax RNum) (padded (c_n c) (active_width RNum c (ghost_width (c_p c))))
    (fun i => cell_speed RNum (ndim RNum c) (c_gamma c) (c_csq_floor c)
       (fun r => pprim RNum (c_p c) (c_gamma c) E r
          (shift (neg3 (prim_width (c_p c) (active_width RNum c (ghost_width (c_p c))) true)) i)))) as (m & ->).
  - intro a. rewrite getc_padded, getc_active_width. pose proof (ghost_width_pos (c_p c) degs).
    destruct HT as [[Sn _ _ _] _]. specialize (Sn a). destruct (active RNum c a); lia.
  - eexists. reflexivity.
Qed.
End Forms.
Lemma largest_unique {A B} (z1 : A -> Prop) (z2 : B -> Prop) f1 f2 m1 m2 : largest z1 f1 m1 -> largest z2 f2 m2 ->
  (forall i, z1 i -> exists j, z2 j /\ f2 j = f1 i) -> (forall j, z2 j -> exists i, z1 i /\ f1 i = f2 j) -> m1 = m2.
Proof.
  intros [(i & Zi & Ei) U1] [(j & Zj & Ej) U2] H1 H2.
  destruct (H1 i Zi) as (j' & Zj' & E1). destruct (H2 j Zj) as (i' & Zi' & E2).
  specialize (U1 i' Zi'). specialize (U2 j' Zj'). lra.
Qed.
Lemma gdt_same (c1 c2 : config RNum) (E1 E2 : grid) : tabulated c1 -> tabulated c2 ->
  c_fixed_dt c2 = c_fixed_dt c1 -> c_CFL c2 = c_CFL c1 ->
  Rmin (width c2 AX) (Rmin (width c2 AY) (width c2 AZ)) = Rmin (width c1 AX) (Rmin (width c1 AY) (width c1 AZ)) ->
  (forall i, flux_zone c1 i -> exists j, flux_zone c2 j /\
     signal_speed c2 (fun r => primitives wi wt (c_p c2) (c_gamma c2) E2 r j) = signal_speed c1 (fun r => primitives wi wt (c_p c1) (c_gamma c1) E1 r i)) ->
  (forall j, flux_zone c2 j -> exists i, flux_zone c1 i /\
     signal_speed c1 (fun r => primitives wi wt (c_p c1) (c_gamma c1) E1 r i) = signal_speed c2 (fun r => primitives wi wt (c_p c2) (c_gamma c2) E2 r j)) ->
  gdt RNum c2 (c_p c2) E2 = gdt RNum c1 (c_p c1) E1.
Proof.
  intros T1 T2 EF EC EW H1 H2. destruct (gdt_ok c1 T1 E1) as (d1 & G1), (gdt_ok c2 T2 E2) as (d2 & G2).
  rewrite G1, G2. f_equal. apply (gdt_is wi wt tables_are c1 T1) in G1. apply (gdt_is wi wt tables_are c2 T2) in G2.
  unfold time_step in *. rewrite EF in G2. destruct (c_fixed_dt c1); [congruence|].
  destruct G1 as (m1 & L1 & ->), G2 as (m2 & L2 & ->). rewrite EC, EW. f_equal. f_equal. symmetry.
  exact (largest_unique _ _ _ _ m1 m2 L1 L2 H1 H2).
Qed.

(** ** stencils on reflected grids *)
Definition refl (d : axis) (s : Z -> R) (m : Z) (f : grid) : grid := fun v i => (s v * f v (setc d (m - getc d i) i))%R.
Lemma grid_eq (f g : grid) : (forall v i, f v i = g v i) -> f = g.
Proof. intro H. extensionality v. extensionality i. apply H. Qed.
Lemma line_w a (ws : list R) (f : grid) v i : line a ws f v i = wsum RNum ws (fun k => f v (up a (k - (Z.of_nat (length ws) - 1) / 2) i)).
Proof. symmetry. exact (wsum_sum ws _). Qed.
Lemma line_refl_other a d ws s m f : a <> d -> line a ws (refl d s m f) = refl d s m (line a ws f).
Proof.
  intro NE. apply grid_eq. intros v i. unfold refl. rewrite !line_w. rewrite <- wsum_scale. apply (wsum_ext RNum). intros k _. f_equal. f_equal.
  unfold up. rewrite (getc_setc_ne a d), (getc_setc_ne d a) by auto. apply setc_comm. auto.
Qed.
Lemma line_refl d ws s m f : Z.odd (Z.of_nat (length ws)) = true -> line d ws (refl d s m f) = refl d s m (line d (rev ws) f).
Proof.
  intro L. apply grid_eq. intros v i. unfold refl. rewrite !line_w. rewrite wsum_rev, <- wsum_scale. apply (wsum_ext RNum). intros k _. f_equal. f_equal.
  unfold up. rewrite rev_length, !getc_setc_eq, !setc_setc. f_equal. change (@length (car RNum) ws) with (@length R ws). apply Z.odd_spec in L. destruct L as [h ->].
  replace (2 * h + 1 - 1) with (h * 2) by lia. rewrite Z.div_mul by lia. lia.
Qed.
Definition even_w (ws : list R) : Prop := rev ws = ws /\ Z.odd (Z.of_nat (length ws)) = true.
Lemma line_even a d ws s m f : even_w ws -> line a ws (refl d s m f) = refl d s m (line a ws f).
Proof. intros [E L]. destruct (axis_dec a d) as [<-|NE]; [rewrite line_refl, E by exact L; reflexivity|apply line_refl_other, NE]. Qed.
Lemma block_refl d ws s m f : (forall a, even_w (ws a)) -> block ws (refl d s m f) = refl d s m (block ws f).
Proof. intro H. unfold block. rewrite !line_even by apply H. reflexivity. Qed.
Lemma across_refl a d ws s m f : (forall b, b <> a -> even_w (ws b)) -> across a ws (refl d s m f) = refl d s m (across a ws f).
Proof. intro H. unfold across. destruct a; rewrite !line_even by (apply H; discriminate); reflexivity. Qed.
Lemma line_local a ws (f g : grid) v i :
  (forall j, (forall b, b <> a -> getc b j = getc b i) -> Z.abs (getc a j - getc a i) <= (Z.of_nat (length ws) - 1) / 2 -> f v j = g v j) ->
  Z.odd (Z.of_nat (length ws)) = true -> line a ws f v i = line a ws g v i.
Proof.
  intros H L. rewrite !line_w. apply (wsum_ext RNum). intros k Hk. apply H.
  - intros b NE. unfold up. apply getc_setc_ne. auto.
  - unfold up. rewrite getc_setc_eq. apply Z.odd_spec in L. destruct L as [h L]. change (@length (car RNum) ws) with (@length R ws) in Hk. rewrite L in *.
    replace (2 * h + 1 - 1) with (h * 2) by lia. rewrite Z.div_mul by lia. lia.
Qed.
Lemma across_local d ws (f g : grid) v i : (forall b, even_w (ws b)) ->
  (forall j, getc d j = getc d i -> (forall a, a <> d -> Z.abs (getc a j - getc a i) <= (Z.of_nat (length (ws a)) - 1) / 2) -> f v j = g v j) ->
  across d ws f v i = across d ws g v i.
Proof.
  intros W H. assert (S : forall (a b : axis) j1 j2, (forall e, e <> a -> getc e j1 = getc e i) -> Z.abs (getc a j1 - getc a i) <= (Z.of_nat (length (ws a)) - 1) / 2 ->
     (forall e, e <> b -> getc e j2 = getc e j1) -> Z.abs (getc b j2 - getc b j1) <= (Z.of_nat (length (ws b)) - 1) / 2 ->
     a <> b -> d <> a -> d <> b -> f v j2 = g v j2).
  { intros a b j1 j2 A1 A2 B1 B2 N1 N2 N3. apply H.
    - rewrite B1, A1 by auto. reflexivity.
    - intros e Ne. destruct (axis_dec e b) as [->|Eb].
      + rewrite <- (A1 b) by auto. exact B2.
      + destruct (axis_dec e a) as [->|Ea]; [rewrite B1 by auto; exact A2|]. destruct a, b, d, e; congruence. }
  destruct d; unfold across.
  - apply line_local; [|apply W]. intros j1 A1 A2. apply line_local; [|apply W]. intros j2 B1 B2. apply (S AY AZ j1 j2); auto; discriminate.
  - apply line_local; [|apply W]. intros j1 A1 A2. apply line_local; [|apply W]. intros j2 B1 B2. apply (S AX AZ j1 j2); auto; discriminate.
  - apply line_local; [|apply W]. intros j1 A1 A2. apply line_local; [|apply W]. intros j2 B1 B2. apply (S AX AY j1 j2); auto; discriminate.
Qed.
Section Degrees.
Context (p : ix) (D : forall a, deg_ok (getc a p)).
Lemma odd_len (ws : list R) s : Z.of_nat (length ws) - 1 = 2 * s -> Z.odd (Z.of_nat (length ws)) = true.
Proof. intro H. replace (Z.of_nat (length ws)) with (2 * s + 1) by lia. apply Z.odd_spec. exists s. reflexivity. Qed.
Lemma even_c a : even_w (wi (getc a p) P_c).
Proof. split; [apply rev_c, D|]. eapply odd_len, len_i; [apply D|apply lr_c]. Qed.
Lemma even_t a : even_w (wt (getc a p)).
Proof. split; [apply rev_t, D|]. eapply odd_len, len_t, D. Qed.
Lemma primitive_sg g d (x : state) v : primitive g (fun r => sg d r * x r)%R v = (sg d v * primitive g x v)%R.
Proof. rewrite <- !primitive_is. apply prim_sg. Qed.
Lemma centre_refl g d m (f : grid) :
  (fun v i => primitive g (fun r => block (fun a => wi (getc a p) P_c) (refl d (sg d) m f) r i) v)
  = refl d (sg d) m (fun v i => primitive g (fun r => block (fun a => wi (getc a p) P_c) f r i) v).
Proof. rewrite block_refl by apply even_c. apply grid_eq. intros v i. apply primitive_sg. Qed.
Lemma primitives_refl g d m (f : grid) : primitives wi wt p g (refl d (sg d) m f) = refl d (sg d) m (primitives wi wt p g f).
Proof.
  unfold primitives. cbv zeta. rewrite centre_refl. apply block_refl, even_t.
Qed.
Lemma trace_refl d s m pos w : pos = P_l \/ pos = P_r ->
  trace wi p None d pos (refl d s m w) = refl d s m (trace wi p None d (other_pos pos) w).
Proof.
  intro Hp. unfold trace. cbv zeta. rewrite across_refl by (intros; apply even_c).
  assert (L : Z.odd (Z.of_nat (length (wi (getc d p) pos))) = true) by (eapply odd_len, len_i; [apply D|unfold lr_pos; tauto]).
  rewrite line_refl by exact L. destruct Hp as [-> | ->]; cbn [other_pos]; [rewrite rev_l by apply D|rewrite rev_r by apply D]; reflexivity.
Qed.
Lemma trace_refl_other a d s m pos w : a <> d -> trace wi p None a pos (refl d s m w) = refl d s m (trace wi p None a pos w).
Proof.
  intro NE. unfold trace. cbv zeta. rewrite across_refl by (intros; apply even_c). apply line_refl_other, NE.
Qed.
End Degrees.

(** ** numerical fluxes of reflected states *)
Lemma sg_is_mirror d (w : state) : (fun r => sg d r * w r)%R = mirror d w.
Proof. extensionality r. apply sg_mirror. Qed.
Lemma flux_mirror rs g fl d (wl wr : state) r : rs = RS_llf \/ (rs = RS_hllc /\ (0 < fl)%R /\ (1 <= g)%R /\ physical wl /\ physical wr) ->
  numerical_flux rs g fl d (mirror d wr) (mirror d wl) r = (mirror_sign d r * numerical_flux rs g fl d wl wr r)%R.
Proof.
  intros [-> | (-> & F & G & [P1 P2] & [P3 P4])]; rewrite <- !riemann_is; cbn [riemann].
  - apply llf_mirror.
  - apply hllc_mirror; auto; split; assumption.
Qed.
Section Other.
Context (g fl : R) (a d : axis) (NE : a <> d).
Lemma o_rho w : rho (mirror d w) = rho w. Proof. clear NE a. destruct d; reflexivity. Qed.
Lemma o_press w : press (mirror d w) = press w. Proof. clear NE a. destruct d; reflexivity. Qed.
Lemma o_vel w : vel a (mirror d w) = vel a w.
Proof. clear -NE. destruct a, d; try reflexivity; exfalso; apply NE; reflexivity. Qed.
Lemma o_energy w : total_energy g (mirror d w) = total_energy g w.
Proof. clear NE a. destruct d; unfold total_energy, vel, mirror, rho, press; cbn [comp Z.eqb Pos.eqb]; do 2 f_equal; ring. Qed.
Lemma o_sound w : sound g fl (mirror d w) = sound g fl w.
Proof. unfold sound. rewrite o_rho, o_press. reflexivity. Qed.
Lemma o_row w r : mirror d w r = (sg d r * w r)%R. Proof. symmetry. apply sg_mirror. Qed.
Lemma o_sg0 : sg d 0 = 1%R. Proof. clear NE a. destruct d; reflexivity. Qed.
Lemma o_sg4 : sg d 4 = 1%R. Proof. clear NE a. destruct d; reflexivity. Qed.
Lemma o_sga : sg d (comp a) = 1%R.
Proof. clear -NE. destruct a, d; try reflexivity; exfalso; apply NE; reflexivity. Qed.
Lemma o_euler w r : euler_flux g a (mirror d w) r = (sg d r * euler_flux g a w r)%R.
Proof.
  unfold euler_flux. rewrite o_rho, o_press, o_vel, o_energy. 
  destruct (Z.eqb_spec r 0) as [->|]; [rewrite o_sg0; ring|]. destruct (Z.eqb_spec r 4) as [->|]; [rewrite o_sg4; ring|].
  destruct (Z.eqb_spec r (comp a)) as [->|]; [rewrite o_sga; ring|]. rewrite o_row. ring.
Qed.
Lemma o_cons w r : conserved g (mirror d w) r = (sg d r * conserved g w r)%R.
Proof.
  rewrite !conserved_split. rewrite o_rho, o_energy. 
  destruct (Z.eqb_spec r 0) as [->|]; [rewrite o_sg0; ring|]. destruct (Z.eqb_spec r 4) as [->|]; [rewrite o_sg4; ring|].
  rewrite o_row. ring.
Qed.
Lemma o_donor wl wr r : donor g a (mirror d wl) (mirror d wr) r = (sg d r * donor g a wl wr r)%R.
Proof. unfold donor, transport_flux. rewrite !o_vel, !o_cons. destruct (Rlt_dec _ _); [ring|]. destruct (Rlt_dec _ _); ring. Qed.
Lemma o_rusanov wl wr r : rusanov g fl a (mirror d wl) (mirror d wr) r = (sg d r * rusanov g fl a wl wr r)%R.
Proof. unfold rusanov. rewrite !o_vel, !o_cons, !o_euler, !o_sound. ring. Qed.
Section Toro.
Context (wl wr : state).
Local Notation M := (mirror d).
Lemma o_wl : wave_left g fl a (M wl) (M wr) = wave_left g fl a wl wr. Proof. unfold wave_left. rewrite !o_vel, !o_sound. reflexivity. Qed.
Lemma o_wr : wave_right g fl a (M wl) (M wr) = wave_right g fl a wl wr. Proof. unfold wave_right. rewrite !o_vel, !o_sound. reflexivity. Qed.
Lemma o_il : impedance_left g fl a (M wl) (M wr) = impedance_left g fl a wl wr. Proof. unfold impedance_left. rewrite !o_vel, o_rho, o_wl. reflexivity. Qed.
Lemma o_ir : impedance_right g fl a (M wl) (M wr) = impedance_right g fl a wl wr. Proof. unfold impedance_right. rewrite !o_vel, o_rho, o_wr. reflexivity. Qed.
Lemma o_cs : contact_speed g fl a (M wl) (M wr) = contact_speed g fl a wl wr.
Proof. unfold contact_speed. rewrite !o_vel, !o_press, o_il, o_ir. reflexivity. Qed.
Lemma o_cp : contact_pressure g fl a (M wl) (M wr) = contact_pressure g fl a wl wr.
Proof. unfold contact_pressure. rewrite !o_vel, !o_press, o_il, o_ir. reflexivity. Qed.
Lemma o_star S w r : star g fl a (M wl) (M wr) S (M w) r = (sg d r * star g fl a wl wr S w r)%R.
Proof.
  unfold star. rewrite o_cs, o_cp, o_vel, o_rho, o_press, o_energy. cbv zeta.
  destruct (Z.eqb_spec r 0) as [->|]; [rewrite o_sg0; ring|]. destruct (Z.eqb_spec r 4) as [->|]; [rewrite o_sg4; ring|].
  destruct (Z.eqb_spec r (comp a)) as [->|]; [rewrite o_sga; ring|]. rewrite o_row. ring.
Qed.
Lemma o_star_flux s P U U' r : (forall r, U' r = sg d r * U r)%R -> star_flux a s P U' r = (sg d r * star_flux a s P U r)%R.
Proof.
  intro H. unfold star_flux. rewrite H.
  destruct (Z.eqb_spec r (comp a)) as [->|]; [rewrite o_sga; ring|]. destruct (Z.eqb_spec r 4) as [->|]; [rewrite o_sg4; ring|ring].
Qed.
Lemma o_toro r : toro g fl a (M wl) (M wr) r = (sg d r * toro g fl a wl wr r)%R.
Proof.
  unfold toro. rewrite o_wl, o_wr, o_cs, o_cp.
  destruct (Rlt_dec _ _); [apply o_euler|]. destruct (Rlt_dec _ _); [apply o_star_flux; intro; apply o_star|].
  destruct (Rlt_dec _ _); [apply o_star_flux; intro; apply o_star|apply o_euler].
Qed.
End Toro.
Lemma flux_other rs wl wr r : numerical_flux rs g fl a (mirror d wl) (mirror d wr) r = (sg d r * numerical_flux rs g fl a wl wr r)%R.
Proof. destruct rs; [apply o_donor|apply o_rusanov|apply o_toro]. Qed.
End Other.

(** ** fluxes, rates of change and time steps of reflected grids *)
Section Fluxes.
Context (c : config RNum) (HT : tabulated c).
Local Notation p := (c_p c).
Local Notation FF := (face_flux wi wt c p None).
Local Notation prims E := (primitives wi wt p (c_gamma c) E).
Local Notation tr d pos E := (trace wi p None d pos (prims E)).
Definition between (d : axis) (E : grid) : grid := fun v i =>
  numerical_flux (c_rs c) (c_gamma c) (c_csq_floor c) d (fun r => tr d P_r E r (up d (-1) i)) (fun r => tr d P_l E r i) v.
Lemma face_between d E : FF d E = across d (fun a => wt (getc a p)) (between d E).
Proof. reflexivity. Qed.
Definition good_faces (d : axis) (E : grid) (j : ix) : Prop := c_rs c = RS_llf \/
  (c_rs c = RS_hllc /\ (0 < c_csq_floor c)%R /\ (1 <= c_gamma c)%R /\
   physical (fun r => tr d P_r E r (up d (-1) j)) /\ physical (fun r => tr d P_l E r j)).
Lemma between_refl d m E v i : good_faces d E (setc d (m + 1 - getc d i) i) ->
  between d (refl d (sg d) m E) v i = refl d (mirror_sign d) (m + 1) (between d E) v i.
Proof.
  intro H. unfold between. rewrite (primitives_refl p (degs c HT)).
  rewrite !(trace_refl p (degs c HT)) by auto. cbn [other_pos]. unfold refl.
  rewrite <- (flux_mirror (c_rs c) (c_gamma c) (c_csq_floor c) d) by (destruct H as [H|(A & B & C & E1 & E2)]; [left; exact H|right; auto]).
  rewrite <- !sg_is_mirror.
  assert (X : forall r, tr d P_l E r (setc d (m - getc d (up d (-1) i)) (up d (-1) i)) = tr d P_l E r (setc d (m + 1 - getc d i) i)).
  { intro r. f_equal. unfold up. rewrite getc_setc_eq, setc_setc. f_equal. lia. }
  assert (Y : forall r, tr d P_r E r (setc d (m - getc d i) i) = tr d P_r E r (up d (-1) (setc d (m + 1 - getc d i) i))).
  { intro r. f_equal. unfold up. rewrite getc_setc_eq, setc_setc. f_equal. lia. }
  f_equal; extensionality r; [rewrite X|rewrite Y]; reflexivity.
Qed.
Lemma between_other a d m E : a <> d -> between a (refl d (sg d) m E) = refl d (sg d) m (between a E).
Proof.
  intro NE. apply grid_eq. intros v i. unfold between. rewrite (primitives_refl p (degs c HT)).
  rewrite !(trace_refl_other p (degs c HT)) by exact NE. unfold refl.
  rewrite <- (flux_other _ _ a d NE). rewrite <- !sg_is_mirror.
  f_equal. extensionality r. f_equal. f_equal. unfold up. rewrite (getc_setc_ne a d), (getc_setc_ne d a) by auto. apply setc_comm. auto.
Qed.
Lemma flux_refl d m E v i :
  (forall j, getc d j = getc d i -> (forall a, a <> d -> Z.abs (getc a j - getc a i) <= stencil_right (getc a p)) ->
     good_faces d E (setc d (m + 1 - getc d j) j)) ->
  FF d (refl d (sg d) m E) v i = refl d (mirror_sign d) (m + 1) (FF d E) v i.
Proof.
  intro H. rewrite !face_between. rewrite <- across_refl by (intros; apply even_t, (degs c HT)).
  apply across_local; [intro; apply even_t, (degs c HT)|]. intros j J1 J2. apply between_refl, H; [exact J1|].
  intros a Na. specialize (J2 a Na). pose proof (len_t (getc a p) (degs c HT a)) as L.
  assert (Q : (Z.of_nat (@length R (wt (getc a p))) - 1) / 2 = stencil_right (getc a p)).
  { change (@length R (wt (getc a p))) with (@length (car RNum) (wt (getc a p))). rewrite L, Z.mul_comm. apply Z.div_mul. lia. }
  rewrite <- Q. exact J2.
Qed.
Lemma flux_refl_other a d m E : a <> d -> FF a (refl d (sg d) m E) = refl d (sg d) m (FF a E).
Proof. intro NE. rewrite !face_between, between_other by exact NE. apply across_refl. intros; apply even_t, (degs c HT). Qed.
Lemma mirror_sign_sg d v : mirror_sign d v = (- sg d v)%R.
Proof. unfold mirror_sign, sg. change (vrow d) with (comp d). destruct (v =? comp d); lra. Qed.
Lemma balance_refl_at d m E v i :
  (~ inactive c d -> forall k, k = 0 \/ k = 1 -> forall j, getc d j = getc d i + k -> (forall a, a <> d -> Z.abs (getc a j - getc a i) <= stencil_right (getc a p)) ->
     good_faces d E (setc d (m + 1 - getc d j) j)) ->
  balance c (fun a => FF a (refl d (sg d) m E)) v i
  = refl d (sg d) m (balance c (fun a => FF a E)) v i.
Proof.
  intro H. set (i' := setc d (m - getc d i) i).
  change (balance c (fun a => FF a (refl d (sg d) m E)) v i = (sg d v * balance c (fun a => FF a E) v i')%R). unfold balance. cbv zeta.
  assert (X : forall a, (if inactive_b c a then 0 else (FF a (refl d (sg d) m E) v (up a 1 i) - FF a (refl d (sg d) m E) v i) / width c a)%R
    = (sg d v * (if inactive_b c a then 0 else (FF a E v (up a 1 i') - FF a E v i') / width c a))%R).
  { intro a. destruct (inactive_b c a) eqn:IA; [ring|]. destruct (axis_dec a d) as [->|NE].
    - assert (IA' : ~ inactive c d) by (apply active_spec; rewrite active_inactive, IA; reflexivity).
      rewrite (flux_refl d m E v i), (flux_refl d m E v (up d 1 i)).
      + unfold refl. rewrite mirror_sign_sg.
        replace (setc d (m + 1 - getc d (up d 1 i)) (up d 1 i)) with i' by (unfold i', up; rewrite getc_setc_eq, setc_setc; f_equal; lia).
        replace (setc d (m + 1 - getc d i) i) with (up d 1 i') by (unfold i', up; rewrite getc_setc_eq, setc_setc; f_equal; lia).
        unfold Rdiv. ring.
      + intros j J1 J2. apply (H IA' 1); auto.
        * rewrite J1. unfold up. apply getc_setc_eq.
        * intros b Nb. specialize (J2 b Nb). unfold up in J2. rewrite getc_setc_ne in J2 by auto. exact J2.
      + intros j J1 J2. apply (H IA' 0); auto. lia.
    - rewrite flux_refl_other by exact NE. unfold refl.
      replace (setc d (m - getc d (up a 1 i)) (up a 1 i)) with (up a 1 i')
        by (unfold i', up; rewrite (getc_setc_ne a d), (getc_setc_ne d a) by auto; apply setc_comm; auto).
      fold i'. unfold Rdiv. ring. }
  rewrite !X. ring.
Qed.
Lemma balance_refl d E v i :
  (~ inactive c d -> forall k, k = 0 \/ k = 1 -> forall j, getc d j = getc d i + k -> (forall a, a <> d -> Z.abs (getc a j - getc a i) <= stencil_right (getc a p)) ->
     good_faces d E (setc d (getc d (c_n c) - getc d j) j)) ->
  balance c (fun a => FF a (refl d (sg d) (getc d (c_n c) - 1) E)) v i
  = refl d (sg d) (getc d (c_n c) - 1) (balance c (fun a => FF a E)) v i.
Proof.
  intro H. apply balance_refl_at. intros A k Hk j J1 J2. replace (getc d (c_n c) - 1 + 1 - getc d j) with (getc d (c_n c) - getc d j) by lia. exact (H A k Hk j J1 J2).
Qed.
End Fluxes.

(** ** ghost cells *)
Lemma folded_exchange tl tr n k : 1 <= n -> folded tr tl n k = n - 1 - folded tl tr n (n - 1 - k).
Proof. intro N1. unfold folded. destruct tl, tr; cbn [source]; repeat destr_if; zb; lia. Qed.
Lemma negated_exchange tl tr n k : 1 <= n -> negated tr tl n k = negated tl tr n (n - 1 - k).
Proof. intro N1. unfold negated. repeat destr_if; zb; try reflexivity; lia. Qed.
Section Ghosts.
Context (c : config RNum) (b' : bcond RNum) (d : axis) (X : ends_exchanged d (c_bc c) b') (ND : 1 <= getc d (c_n c)).
Local Notation n := (c_n c).
Local Notation c' := (replace_bc c b').
Lemma x_same a pos : a <> d -> bc_type b' a pos = bc_type (c_bc c) a pos.
Proof. intro NE. rewrite X. axf. reflexivity. Qed.
Lemma x_other pos : bc_type b' d pos = bc_type (c_bc c) d (opposite pos).
Proof. rewrite X, axis_eqb_refl. reflexivity. Qed.
Lemma folded3_x i : let j := folded3 (c_bc c) n (setc d (getc d n - 1 - getc d i) i) in
  folded3 b' n i = setc d (getc d n - 1 - getc d j) j.
Proof.
  cbv zeta. apply ix_ext. intro a. rewrite getc_folded3. destruct (axis_dec a d) as [->|NE].
  - rewrite getc_setc_eq, getc_folded3, getc_setc_eq, !x_other. cbn [opposite]. apply folded_exchange, ND.
  - rewrite getc_setc_ne, getc_folded3, getc_setc_ne, !x_same by auto. reflexivity.
Qed.
Lemma negated3_x i v : negated3 b' n i v = negated3 (c_bc c) n (setc d (getc d n - 1 - getc d i) i) v.
Proof.
  assert (Y : forall a, negated (bc_type b' a SL) (bc_type b' a SR) (getc a n) (getc a i)
     = negated (bc_type (c_bc c) a SL) (bc_type (c_bc c) a SR) (getc a n) (getc a (setc d (getc d n - 1 - getc d i) i))).
  { intro a. destruct (axis_dec a d) as [->|NE].
    - rewrite getc_setc_eq, !x_other. apply negated_exchange, ND.
    - rewrite getc_setc_ne, !x_same by auto. reflexivity. }
  unfold negated3. rewrite !Y. reflexivity.
Qed.
Lemma copied_filled u : copied RNum (c_bc c) n u = filled c u.
Proof. apply grid_eq. intros v i. unfold copied, filled. destruct (negated3 _ _ _ _); [|reflexivity]. cbn [nmul nofZ RNum]. eqR. lra. Qed.
Lemma copied_x u u' v i : (forall v i, in_shape n i -> at_ u' v i = refl d (sg d) (getc d n - 1) (at_ u) v i) ->
  in_shape n (folded3 b' n i) -> copied RNum b' n u' v i = refl d (sg d) (getc d n - 1) (filled c u) v i.
Proof.
  intros V I. unfold copied, filled, refl. rewrite V by exact I. rewrite negated3_x, folded3_x. unfold refl. rewrite getc_setc_eq, setc_setc.
  set (j := folded3 _ _ _). replace (getc d n - 1 - (getc d n - 1 - getc d j)) with (getc d j) by lia. rewrite setc_getc.
  destruct (negated3 _ _ _ _); cbn [nmul nofZ RNum]; eqR; lra.
Qed.
End Ghosts.
Lemma mirrored_refl d (u u' : arr R) n : shp u = n -> (mirrored d u u' <-> rows u' = rows u /\ shp u' = n /\
  forall v i, in_shape n i -> at_ u' v i = refl d (sg d) (getc d n - 1) (at_ u) v i).
Proof.
  intros <-. unfold mirrored, refl, sg. change (vrow d) with (comp d).
  split; intros (A & B & C); (split; [exact A|split; [exact B|]]); intros v i Hi; rewrite C by exact Hi; cbv zeta; destruct (v =? comp d); lra.
Qed.
Lemma tabulated_bc (c : config RNum) b' : tabulated c -> tabulated (replace_bc c b').
Proof. intros [[A B C D] E]. split; [split; assumption|exact E]. Qed.
Lemma signal_mirror c d w : signal_speed c (fun r => sg d r * w r)%R = signal_speed c w.
Proof.
  rewrite sg_is_mirror. unfold signal_speed. rewrite o_sound. f_equal.
  assert (V : forall a, Rabs (vel a (mirror d w)) = Rabs (vel a w)).
  { intro a. unfold vel. rewrite o_row. unfold sg. destr_if; [|f_equal; lra]. rewrite <- Rabs_Ropp. f_equal. lra. }
  rewrite !V. reflexivity.
Qed.

(** ** runs *)
Section Runs.
Context (c : config RNum) (b' : bcond RNum) (d : axis) (HT : tabulated c) (HC : closed c) (HC' : closed (replace_bc c b'))
  (X : ends_exchanged d (c_bc c) b') (HL : c_limit c = false).
Local Notation n := (c_n c).
Local Notation c' := (replace_bc c b').
Local Notation m := (getc d n - 1).
Context (ok : arr R -> bool) (Hok : test_of_cells ok).
Context (G : c_rs c = RS_llf \/ (c_rs c = RS_hllc /\ (0 < c_csq_floor c)%R /\ (1 <= c_gamma c)%R /\
  forall u, shp u = n -> ok u = true -> physical_traces wi wt c (filled c u))).
Definition image (u : arr R) : arr R := mkarr (rows u) (shp u) (refl d (sg d) m (at_ u)).
Lemma flip_in i : in_shape n i -> in_shape n (setc d (m - getc d i) i).
Proof. intros H a. specialize (H a). destruct (axis_dec d a) as [<-|E]; co; lia. Qed.
Lemma refl_refl f v i : refl d (sg d) m (refl d (sg d) m f) v i = f v i.
Proof.
  unfold refl. rewrite getc_setc_eq, setc_setc, <- Rmult_assoc, sg_sg, Rmult_1_l. f_equal.
  replace (m - (m - getc d i)) with (getc d i) by lia. apply setc_getc.
Qed.
Lemma zone_flip i : flux_zone c i -> flux_zone c (setc d (m - getc d i) i).
Proof. intros H a. specialize (H a). cbv zeta in *. destruct (axis_dec d a) as [<-|E]; co; lia. Qed.
Lemma faces_good u v i : shp u = n -> ok u = true -> in_shape n i ->
  gdudt RNum c' (c_p c) L_none (refl d (sg d) m (filled c u)) v i = refl d (sg d) m (gdudt RNum c (c_p c) L_none (filled c u)) v i.
Proof.
  intros Su O Hi. change (c_p c) with (c_p c') at 1.
  rewrite (gdudt_is c' (tabulated_bc c b' HT)). unfold refl at 2. rewrite (gdudt_is c HT).
  change (balance c (fun a => face_flux wi wt c (c_p c) None a (refl d (sg d) m (filled c u))) v i
   = refl d (sg d) m (balance c (fun a => face_flux wi wt c (c_p c) None a (filled c u))) v i).
  apply balance_refl; [exact HT|]. intros Ad k Hk j J1 J2. destruct G as [G1|(G1 & G2 & G3 & G4)]; [left; exact G1|]. right.
  specialize (G4 u Su O).
  pose proof (degs c HT) as D. pose proof (ghost_width_pos (c_p c) D) as GP.
  assert (Z1 : face_zone c d (setc d (getc d n - getc d j) j) /\ face_zone c d (up d (-1) (setc d (getc d n - getc d j) j))).
  { pose proof (proj2 (active_spec RNum c d) Ad) as A. rewrite active_inactive in A. apply negb_true_iff in A.
    assert (Z0 : forall a, d <> a -> - (if inactive_b c a then 0 else half_up (getc a (c_p c))) <= getc a j < getc a n + (if inactive_b c a then 0 else half_up (getc a (c_p c)))).
    { intros a Na. assert (Na' : a <> d) by auto. specialize (J2 a Na'). specialize (Hi a). rewrite half_up_sr. destruct (inactive_b c a) eqn:I; [|lia].
      pose proof (proj2 (proj2 (tab_good RNum c HT a)) ltac:(rewrite active_inactive, I; reflexivity)) as P0. rewrite P0 in J2. cbn in J2. lia. }
    specialize (Hi d). split; intro a; cbv zeta; (destruct (axis_dec d a) as [<-|E]; [rewrite A, axis_eqb_refl; unfold up; co; destruct Hk; lia|]);
      axf; unfold up; co; apply Z0, E. }
  destruct Z1 as [Za Zb]. split; [exact G1|]. split; [exact G2|]. split; [exact G3|]. split; [apply (G4 d _ P_r Ad Zb); auto|apply (G4 d _ P_l Ad Za); auto].
Qed.
Lemma dt_same u : gdt RNum c' (c_p c) (refl d (sg d) m (filled c u)) = gdt RNum c (c_p c) (filled c u).
Proof.
  change (c_p c) with (c_p c') at 1. apply gdt_same; auto using tabulated_bc.
  - intros i Hi. exists (setc d (m - getc d i) i). split; [exact (zone_flip i Hi)|].
    change (c_p c') with (c_p c). change (c_gamma c') with (c_gamma c). rewrite (primitives_refl (c_p c) (degs c HT)).
    unfold refl. rewrite getc_setc_eq, setc_setc. replace (m - (m - getc d i)) with (getc d i) by lia. rewrite setc_getc.
    exact (signal_mirror c d _).
  - intros i Hi. exists (setc d (m - getc d i) i). split; [exact (zone_flip i Hi)|].
    change (c_p c') with (c_p c). change (c_gamma c') with (c_gamma c). rewrite (primitives_refl (c_p c) (degs c HT)).
    unfold refl. symmetry. exact (signal_mirror c d _).
Qed.
Lemma prim_same av E v i : gprim RNum c' av (refl d (sg d) m E) v i = refl d (sg d) m (gprim RNum c av E) v i.
Proof.
  unfold refl at 2. rewrite (gprim_is c' (tabulated_bc c b' HT)), (gprim_is c HT). destruct av.
  - change (c_p c') with (c_p c). change (c_gamma c') with (c_gamma c). rewrite (primitives_refl (c_p c) (degs c HT)). reflexivity.
  - unfold centre_prim. change (c_p c') with (c_p c). change (c_gamma c') with (c_gamma c).
    pose proof (centre_refl (c_p c) (degs c HT) (c_gamma c) d m E) as Q. exact (f_equal (fun f : grid => f v i) Q).
Qed.
Theorem mirror_checked heap heap' i av T k exact db log fuel u u' : shp u = n -> 1 <= rows u -> mirrored d u u' ->
  moved_outcome (N := RNum) (mirrored d) (simulate_checked (N := RNum) ok c heap i av T k exact db log fuel u)
    (simulate_checked (N := RNum) (fun w => ok (image w)) c' heap' i av T k exact db log fuel u').
Proof.
  intros Su Ru MI. pose proof (proj1 (mirrored_refl d u u' n Su) MI) as (Ru' & Su' & V).
  assert (ND : 1 <= getc d n) by (apply HT).
  apply (sym_moved RNum c c' heap heap' (rows u) HT (tabulated_bc c b' HT) HL HL Ru (refl d (sg d) m)) with
    (ok1 := ok) (ok2 := fun w => ok (image w)) (E1 := fun _ w => filled c w) (E2 := fun _ w => copied RNum b' n w)
    (W := refl d (sg d) m).
  - intros f g H v j Hj. unfold refl. rewrite H; [reflexivity|]. apply flip_in, Hj.
  - intros f g v j. unfold refl. cbn [nadd RNum]. apply Rmult_plus_distr_l.
  - intros f g v j. unfold refl. cbn [nmul RNum]. eqR. ring.
  - intros t w _ Sw. rewrite <- copied_filled. apply closed_pads; auto.
  - intros t w _ Sw. exact (closed_pads RNum c' t w (tabulated_bc c b' HT) HC' Sw).
  - intros u1 u2 (R1 & R2 & S1 & S2 & V2). apply Hok; cbn [image rows shp at_]; [exact (eq_trans R1 (eq_sym R2))|exact (eq_trans S1 (eq_sym S2))|].
    intros v j Hj. assert (Hj' : in_shape n j) by (rewrite <- S1; exact Hj). clear Hj. rename Hj' into Hj. exact (eq_trans (eq_sym (refl_refl (at_ u1) v j)) (eq_sym (f_equal (Rmult (sg d v)) (V2 v (setc d (m - getc d j) j) (flip_in j Hj))))).
  - intros t u1 u2 (R1 & R2 & S1 & S2 & V2) v j Hj. apply copied_x; auto. exact (folded_in RNum c' (tabulated_bc c b' HT) HC' j Hj).
  - intros t u1 u2 _ _. apply dt_same.
  - intros t u1 u2 (R1 & R2 & S1 & S2 & V2) O v j Hj. apply faces_good; auto.
  - intros t u1 u2 _ v j Hj. apply prim_same.
  - repeat split; auto.
  - intros w1 w2 (R1 & R2 & S1 & S2 & V2). apply (mirrored_refl d w1 w2 n S1). split; [exact (eq_trans R2 (eq_sym R1))|]. split; [exact S2|exact V2].
Qed.
End Runs.

Theorem mirror_llf (c : config RNum) b' d heap heap' i av T k exact db log fuel u u' :
  tabulated c -> closed c -> closed (replace_bc c b') -> ends_exchanged d (c_bc c) b' -> c_limit c = false -> c_rs c = RS_llf ->
  shp u = c_n c -> 1 <= rows u -> mirrored d u u' ->
  moved_outcome (N := RNum) (mirrored d) (simulate c heap i av T k exact db log fuel u) (simulate (replace_bc c b') heap' i av T k exact db log fuel u').
Proof.
  intros HT HC HC' X HL G Su Ru M.
  exact (mirror_checked c b' d HT HC HC' X HL (fun _ => true) (fun _ _ _ _ _ => eq_refl) (or_introl G) heap heap' i av T k exact db log fuel u u' Su Ru M).
Qed.
Lemma unwatch ok (c : config RNum) heap i av T k exact db log fuel u o : tabulated c -> closed c -> c_limit c = false ->
  shp u = c_n c -> 1 <= rows u ->
  simulate_checked (N := RNum) ok c heap i av T k exact db log fuel u = Ok o -> simulate c heap i av T k exact db log fuel u = Ok o.
Proof.
  intros HT HC HL Su Ru HS.
  destruct (checked_invariant RNum c heap (rows u) ok (fun _ => True) (fun _ => True)) with (i := i) (av := av) (T := T) (n := k) (exact := exact) (db := db) (log := log) (fuel := fuel) (u0 := u) (o := o) as (A & _); auto.
  - intros x t w x' dt q _ FO (Rw & Sw & _) E.
    destruct (hydrodynamics_is RNum c heap x t w (copied RNum (c_bc c) (c_n c) w)) as (x2 & dt2 & k2 & A & _ & RK & SK & _ & FO2 & _); auto.
    + apply tab_good, HT.
    + lia.
    + apply sane_dims, HT.
    + rewrite Rw. exact FO.
    + unfold padding. apply closed_pads; auto. apply width_main, HT.
    + rewrite A in E. injection E as <- <- <-. rewrite Rw in *. exact (conj FO2 (conj RK (conj SK I))).
  - repeat split; auto.
Qed.
Section Weights.
Context (xi : Z -> ipos -> list R) (xt : Z -> list R) (HW : tables xi xt).
Lemma physical_tables (c : config RNum) E : tabulated c -> physical_traces xi xt c E -> physical_traces wi wt c E.
Proof.
  intros HT H d i pos A Z P. specialize (H d i pos A Z P). pose proof (degs c HT) as D.
  assert (EI : forall q, (fun a => wi (getc a (c_p c)) q) = (fun a => wi (getc a (c_p c)) q)) by reflexivity.
  assert (EC : (fun a => xi (getc a (c_p c)) P_c) = (fun a => wi (getc a (c_p c)) P_c)) by (extensionality a; symmetry; apply (wi_is xi xt HW (c_p c) D), lr_c).
  assert (ET : (fun a => xt (getc a (c_p c))) = (fun a => wt (getc a (c_p c)))) by (extensionality a; symmetry; apply (wt_is xi xt HW (c_p c) D)).
  unfold trace, primitives in *. cbv zeta in *. rewrite EC, ET in H.
  rewrite <- (wi_is xi xt HW (c_p c) D d pos) in H by (unfold lr_pos; tauto). exact H.
Qed.
Theorem mirror_hllc ok (c : config RNum) b' d heap heap' i av T k exact db log fuel u u' o :
  tabulated c -> closed c -> closed (replace_bc c b') -> ends_exchanged d (c_bc c) b' -> c_limit c = false ->
  c_rs c = RS_hllc -> (0 < c_csq_floor c)%R -> (1 <= c_gamma c)%R -> test_of_cells ok ->
  (forall w, shp w = c_n c -> ok w = true -> physical_traces xi xt c (filled c w)) ->
  shp u = c_n c -> 1 <= rows u -> mirrored d u u' ->
  simulate_checked (N := RNum) ok c heap i av T k exact db log fuel u = Ok o ->
  simulate c heap i av T k exact db log fuel u = Ok o /\
  exists o', simulate (replace_bc c b') heap' i av T k exact db log fuel u' = Ok o' /\ moved_run (N := RNum) (mirrored d) o o'.
Proof.
  intros HT HC HC' X HL G1 G2 G3 Hok Hph Su Ru M HS. split; [exact (unwatch ok c heap i av T k exact db log fuel u o HT HC HL Su Ru HS)|].
  pose proof (mirror_checked c b' d HT HC HC' X HL ok Hok (or_intror (conj G1 (conj G2 (conj G3 (fun w Sw O => physical_tables c _ HT (Hph w Sw O))))))
    heap heap' i av T k exact db log fuel u u' Su Ru M) as Q.
  rewrite HS in Q. revert Q. destruct (simulate_checked _ (replace_bc c b') _ _ _ _ _ _ _ _ _ _) as [o'|] eqn:E; [|intros []].
  intro Q. exists o'. split; [|exact Q]. destruct M as (R' & S' & _).
  apply (unwatch _ (replace_bc c b') _ _ _ _ _ _ _ _ _ _ _ (tabulated_bc c b' HT) HC' HL) in E; auto; [exact (eq_trans S' Su)|exact (eq_ind_r (fun z => 1 <= z) Ru R')].
Qed.
End Weights.

(** ** symmetric data *)
Lemma same_bc (c : config RNum) : replace_bc c (c_bc c) = c.
Proof. destruct c; reflexivity. Qed.
Lemma same_ends (c : config RNum) d : bc_type (c_bc c) d SL = bc_type (c_bc c) d SR -> ends_exchanged d (c_bc c) (c_bc c).
Proof. intros E a pos. destruct (axis_eqb a d) eqn:A; [|reflexivity]. apply axis_eqb_eq in A. subst a. destruct pos; cbn [opposite]; auto. Qed.
Lemma moved_self d (o o' : run RNum) : moved_run (N := RNum) (mirrored d) o o' -> o' = o ->
  mirrored d (o_u o) (o_u o) /\ Forall (fun s => mirrored d (fst (snd s)) (fst (snd s))) (o_snaps o).
Proof.
  intros [_ _ _ A B] ->. split; [exact A|]. revert B. generalize (o_snaps o). induction l as [|s l IH]; intro B; constructor.
  - inversion B; subst. tauto.
  - apply IH. inversion B; assumption.
Qed.
Theorem symmetric_llf (c : config RNum) d heap i av T k exact db log fuel u o :
  tabulated c -> closed c -> bc_type (c_bc c) d SL = bc_type (c_bc c) d SR -> c_limit c = false -> c_rs c = RS_llf ->
  shp u = c_n c -> 1 <= rows u -> mirrored d u u ->
  simulate c heap i av T k exact db log fuel u = Ok o ->
  mirrored d (o_u o) (o_u o) /\ Forall (fun s => mirrored d (fst (snd s)) (fst (snd s))) (o_snaps o).
Proof.
  intros HT HC HE HL G Su Ru M HS.
  pose proof (mirror_llf c (c_bc c) d heap heap i av T k exact db log fuel u u) as Q. rewrite same_bc, HS in Q.
  apply (moved_self d o o); [|reflexivity]. apply Q; auto. apply same_ends, HE.
Qed.
Theorem symmetric_hllc xi xt ok (c : config RNum) d heap i av T k exact db log fuel u o : tables xi xt ->
  tabulated c -> closed c -> bc_type (c_bc c) d SL = bc_type (c_bc c) d SR -> c_limit c = false ->
  c_rs c = RS_hllc -> (0 < c_csq_floor c)%R -> (1 <= c_gamma c)%R -> test_of_cells ok ->
  (forall w, shp w = c_n c -> ok w = true -> physical_traces xi xt c (filled c w)) ->
  shp u = c_n c -> 1 <= rows u -> mirrored d u u ->
  simulate_checked (N := RNum) ok c heap i av T k exact db log fuel u = Ok o ->
  mirrored d (o_u o) (o_u o) /\ Forall (fun s => mirrored d (fst (snd s)) (fst (snd s))) (o_snaps o).
Proof.
  intros HW HT HC HE HL G1 G2 G3 Hok Hph Su Ru M HS.
  pose proof (mirror_hllc xi xt HW ok c (c_bc c) d heap heap i av T k exact db log fuel u u o) as Q. rewrite same_bc in Q.
  destruct Q as (S1 & o' & S2 & MR); auto; [apply same_ends, HE|]. apply (moved_self d o o' MR). congruence.
Qed.

(** ** degree 0: cells with positive density and pressure suffice *)
Lemma line_1 a f : line a [1%R] f = f.
Proof. apply grid_eq. intros v i. unfold line. cbn. rewrite up_0. lra. Qed.
Lemma w0_i pos : pos = P_l \/ pos = P_c \/ pos = P_r -> wi 0 pos = [1%R].
Proof. intros [-> |[-> | ->]]; cbn; unfold wts_i; cbn; (match goal with |- context [ndiv ?a ?b] => idtac | _ => idtac end); f_equal; cbn; lra. Qed.
Lemma w0_t : wt 0 = [1%R].
Proof. unfold wts_t; cbn; f_equal; cbn; lra. Qed.
Lemma physical_degree0 (c : config RNum) u : tabulated c -> closed c -> (1 < c_gamma c)%R -> (forall a, getc a (c_p c) = 0) -> shp u = c_n c ->
  all_physical u -> physical_traces wi wt c (filled c u).
Proof.
  intros HT HC HG H0 Su HP d i pos A Z P.
  assert (T : forall r, trace wi (c_p c) None d pos (primitives wi wt (c_p c) (c_gamma c) (filled c u)) r i = primitive (c_gamma c) (fun r => filled c u r i) r).
  { intro r. unfold trace, primitives, across, block. cbv zeta. rewrite !H0. rewrite w0_t, !w0_i by tauto.
    repeat rewrite line_1. destruct d; rewrite ?line_1; reflexivity. }
  assert (IN : in_shape (c_n c) (folded3 (c_bc c) (c_n c) i)).
  { apply (folded_in RNum c HT HC). intro a. specialize (Z a). cbv zeta in Z. rewrite H0 in Z.
    pose proof (width_main RNum c HT a) as W. pose proof (ghost_width_pos (c_p c) (degs c HT)). unfold solver_width in W. rewrite getc_prim_width in W.
    rewrite getc_active_width, active_inactive in W. unfold interp_cost in W. rewrite H0 in W. cbn in W.
    destruct (inactive_b c a); cbn [negb] in W; [lia|]. change (half_up 0) with 0 in Z. destruct (axis_eqb a d); lia. }
  specialize (HP _ ltac:(rewrite Su; exact IN)). destruct HP as [P0 P1].
  assert (SQ : forall v, (filled c u v i * filled c u v i = at_ u v (folded3 (c_bc c) (c_n c) i) * at_ u v (folded3 (c_bc c) (c_n c) i))%R)
    by (intro v; unfold filled; destruct (negated3 _ _ _ _); ring).
  split; [unfold rho|unfold press]; rewrite T; cbn [primitive].
  - exact P0.
  - rewrite !SQ. apply Rmult_le_pos; [lra|]. exact P1.
Qed.
Definition physical_b (u : arr R) : bool :=
  forallb (fun i => andb (if Rlt_dec 0 (at_ u 0 i) then true else false)
    (if Rle_dec 0 (at_ u 4 i - 1/2 * (at_ u 1 i * at_ u 1 i + at_ u 2 i * at_ u 2 i + at_ u 3 i * at_ u 3 i) / at_ u 0 i) then true else false)) (ix_list (shp u)).
Lemma physical_b_spec u : physical_b u = true <-> all_physical u.
Proof.
  unfold physical_b. rewrite forallb_forall. split.
  - intros H i Hi. apply in_ix_list in Hi. specialize (H i Hi). apply andb_true_iff in H. destruct H as [A B].
    destruct (Rlt_dec _ _); [|discriminate]. destruct (Rle_dec _ _); [|discriminate]. auto.
  - intros H i Hi. apply in_ix_list in Hi. destruct (H i Hi). destruct (Rlt_dec _ _); [|contradiction]. destruct (Rle_dec _ _); [reflexivity|contradiction].
Qed.
Lemma physical_b_cells : test_of_cells physical_b.
Proof.
  intros u u' _ S V. apply eq_true_iff_eq. rewrite !physical_b_spec. unfold all_physical. rewrite <- S.
  split; intros H i Hi; specialize (H i Hi); rewrite !V in * by exact Hi; exact H.
Qed.
Lemma uniform_physical (c : config RNum) heap i av T n exact db log fuel u0 s o :
  tabulated c -> closed c -> along_walls c s -> c_limit c = false ->
  shp u0 = c_n c -> 2 <= rows u0 -> uniform u0 s -> (0 < s 0%Z)%R -> (0 <= s 4%Z - 1/2 * (s 1%Z * s 1%Z + s 2%Z * s 2%Z + s 3%Z * s 3%Z) / s 0%Z)%R ->
  simulate c heap i av T n exact db log fuel u0 = Ok o ->
  simulate_checked (N := RNum) physical_b c heap i av T n exact db log fuel u0 = Ok o.
Proof.
  intros HT HC HP HL S0 R0 HU S1 S2 HS.
  destruct (checked_passes RNum c heap (rows u0) physical_b (fun f => forall v j, in_shape (c_n c) j -> f v j = s v) (fun f => forall v j, in_shape (c_n c) j -> f v j = 0%R)) with
    (i := i) (av := av) (T := T) (n := n) (exact := exact) (db := db) (log := log) (fuel := fuel) (u0 := u0) (o := o) as [E _]; try exact E; try exact HS.
  - intros f g H E v j Hj. rewrite <- E by exact Hj. auto.
  - intros f g H E v j Hj. rewrite <- E by exact Hj. auto.
  - intros k f g Hf Hg v j Hj. rewrite (Hf v j Hj), (Hg v j Hj). cbn. lra.
  - intros k g Hg v j Hj. rewrite (Hg v j Hj). cbn. lra.
  - intros f g Hf Hg v j Hj. rewrite (Hf v j Hj), (Hg v j Hj). cbn. lra.
  - intros f g Hf Hg v j Hj. rewrite (Hf v j Hj), (Hg v j Hj). unfold nhalf. cbn. lra.
  - intros u (_ & Su & Vu). apply physical_b_spec. intros j Hj. assert (Hj' : in_shape (c_n c) j) by (rewrite <- Su; exact Hj).
    change (@at_ R u) with (@at_ (car RNum) u). rewrite !Vu by exact Hj'. split; assumption.
  - apply uniform_rhs; auto. congruence.
  - split; [reflexivity|]. split; [exact S0|]. intros v j Hj. apply HU. rewrite S0. exact Hj.
Qed.
(** a box of 12 x 13 x 14 cells with a floor under the sound speed and time steps from the
    CFL condition *)
Definition box (rs : rsolver) (p : ix) (ty : bct) : config RNum :=
  mkcfg (N := RNum) (mkix 12 13 14) p (fun _ => (0, 1)%R) (1/2)%R None (7/5)%R (1/100)%R rs (uniform_bc ty) false L_minmod false
    (mknad (N := RNum) 1%R M_global R_absolute None None false 1%R) false.
Lemma box_ok rs p ty : In p [mkix 3 2 1; mkix 0 0 0] -> copies ty ->
  tabulated (box rs p ty) /\ closed (box rs p ty) /\ (forall xc q, fillable xc (box rs p ty) q).
Proof.
  intros Hp HTy.
  assert (T : tabulated (box rs p ty)).
  { split; [split|].
    - intros []; cbn; lia.
    - intros a. destruct Hp as [<-|[<-|[]]]; destruct a; cbn; lia.
    - exists AX. intros [H _]. discriminate.
    - exact I.
    - intros a. destruct Hp as [<-|[<-|[]]]; destruct a; cbn; lia. }
  assert (GZ : forall a, getc a (ghost_zones3 (box rs p ty)) <= 12 /\ 12 <= getc a (c_n (box rs p ty))).
  { intro a. destruct Hp as [<-|[<-|[]]]; destruct a; vm_compute; split; discriminate. }
  assert (E : forall a, enough ty (getc a (c_n (box rs p ty))) (getc a (ghost_zones3 (box rs p ty)))).
  { intro a. destruct (GZ a). destruct ty; cbn [enough]; lia. }
  split; [exact T|]. split.
  - intro a. right. split; [|auto]. intro pos. split; [exact HTy|apply E].
  - intros xc q a. right. split; [left; split; [exact HTy|apply E]|split; [left; split; [exact HTy|apply E]|auto]].
Qed.
Lemma box_runs rs p ty heap i k u : In p [mkix 3 2 1; mkix 0 0 0] -> copies ty -> shp u = mkix 12 13 14 -> 2 <= rows u -> 1 <= k ->
  exists o, simulate (box rs p ty) heap i true None (Some k) true [] false 0 u = Ok o.
Proof.
  intros Hp HTy Su Ru K. destruct (box_ok rs p ty Hp HTy) as (T & C & F).
  destruct (runs_end RNum (fun _ _ => 0%R) (box rs p ty) heap i true k true [] false 0 u) as (o & E & _); auto; [lia|].
  exists o. exact E.
Qed.
Lemma box_self_exchange rs p ty d : ends_exchanged d (c_bc (box rs p ty)) (c_bc (box rs p ty)).
Proof. intros a pos. reflexivity. Qed.
(** mirror images exist *)
Lemma mirrored_exists d (u : arr R) : mirrored d u (mkarr (rows u) (shp u) (fun v i =>
  let x := at_ u v (setc d (getc d (shp u) - 1 - getc d i) i) in if v =? comp d then (- x)%R else x)).
Proof. split; [reflexivity|]. split; [reflexivity|]. intros v i _. reflexivity. Qed.
(** a wind through a box with outflow at all sides *)
Definition wind (v : Z) : R := nth (Z.to_nat v) [1; 1; -2; 1/2; 5]%R 0%R.
Lemma wind_example heap : let c := box RS_hllc (mkix 0 0 0) B_outflow in let u := mkarr 5 (c_n c) (fun v _ => wind v) in
  tabulated c /\ closed c /\ test_of_cells physical_b /\
  (forall w, shp w = c_n c -> physical_b w = true -> physical_traces wi wt c (filled c w)) /\
  exists o, simulate_checked (N := RNum) physical_b c heap I_ssprk3 true None (Some 7) true [] false 0 u = Ok o.
Proof.
  cbv zeta. set (c := box _ _ _). destruct (box_ok RS_hllc (mkix 0 0 0) B_outflow) as (T & C & F); [right; left; reflexivity|exact I|].
  split; [exact T|]. split; [exact C|]. split; [exact physical_b_cells|]. split.
  - intros w Sw O. apply physical_degree0; auto; [cbn; lra|intros []; reflexivity|]. apply physical_b_spec, O.
  - destruct (box_runs RS_hllc (mkix 0 0 0) B_outflow heap I_ssprk3 7 (mkarr 5 (c_n c) (fun v _ => wind v))) as (o & E).
    { right; left; reflexivity. } { exact I. } { reflexivity. } { cbn; lia. } { lia. }
    exists o. apply (uniform_physical c heap I_ssprk3 true None (Some 7) true [] false 0%nat (mkarr 5 (c_n c) (fun v _ => wind v)) wind); auto.
    + intros a pos _. discriminate.
    + cbn. lia.
    + intros v j _. reflexivity.
    + change (0 < 1)%R. lra.
    + change (0 <= 5 - 1/2 * (1 * 1 + -2 * -2 + 1/2 * (1/2)) / 1)%R. lra.
Qed.
