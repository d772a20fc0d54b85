(** Gas seen from a frame that moves along an ignorable axis. *)
From Coq Require Import ZArith List Bool Lia Reals Lra FunctionalExtensionality.
From Verif Require Import Err Num PySlice NdArray HydroM RiemannM StencilsM FvM BcM SedM
  LimitM OdeM SolverM Spec SpecBc SpecSolver SpecCons SpecScheme SpecSym SpecBoost NdArrayP HydroP FvP BcP BcQ OpP SolverP OdeP RelP RelS LimP RunP ConsP ExistP
  SchemeP ShiftP SymP WallP UniformP MirrorP.
Import ListNotations.
Local Open Scope R_scope.

Local Notation wi := (wts_i RNum).
Local Notation wt := (wts_t RNum).
Definition bump (W : R) (a : axis) (q : Z -> R) (r : Z) : R :=
  if (r =? comp a)%Z then q r + W * q 0%Z
  else if (r =? 4)%Z then q 4%Z + (W * q (comp a) + 1 / 2 * (W * W) * q 0%Z)
  else q r.
Lemma bo_is W a q r : boost (N := RNum) W a q r = bump W a q r.
Proof. reflexivity. Qed.
Definition glide (W : R) (a : axis) (w : Z -> R) (r : Z) : R := w r + if (r =? comp a)%Z then W else 0.
Lemma row_cases (P : Z -> Prop) a : P 0%Z -> P (comp a) -> P 4%Z -> (forall r, r <> 0%Z -> r <> comp a -> r <> 4%Z -> P r) -> forall r, P r.
Proof.
  intros. destruct (Z.eq_dec r 0) as [->|]; auto. destruct (Z.eq_dec r 4) as [->|]; auto. destruct (Z.eq_dec r (comp a)) as [->|]; auto.
Qed.
Lemma primitive_other g q r : r <> 0%Z -> r <> 4%Z -> primitive g q r = q r / q 0%Z.
Proof. intros A B. unfold primitive. destruct r as [|[[|[]|]|[|[]|]|]|]; congruence. Qed.
Lemma conserved_other g q r : r <> 0%Z -> r <> 4%Z -> conserved g q r = q 0%Z * q r.
Proof. intros A B. unfold conserved, rho. destruct r as [|[[|[]|]|[|[]|]|]|]; congruence. Qed.
Lemma bo_0 W a q : bump W a q 0%Z = q 0%Z. Proof. destruct a; reflexivity. Qed.
Lemma bo_4 W a q : bump W a q 4%Z = q 4%Z + (W * q (comp a) + 1 / 2 * (W * W) * q 0%Z). Proof. destruct a; reflexivity. Qed.
Lemma bo_a W a q : bump W a q (comp a) = q (comp a) + W * q 0%Z. Proof. destruct a; reflexivity. Qed.
Lemma bo_o W a q r : r <> comp a -> r <> 4%Z -> bump W a q r = q r.
Proof. intros A B. unfold bump. rewrite (proj2 (Z.eqb_neq _ _) A), (proj2 (Z.eqb_neq _ _) B). reflexivity. Qed.
Lemma dr_a W a w : glide W a w (comp a) = w (comp a) + W. Proof. unfold glide. rewrite Z.eqb_refl. reflexivity. Qed.
Lemma dr_o W a w r : r <> comp a -> glide W a w r = w r.
Proof. intros A. unfold glide. rewrite (proj2 (Z.eqb_neq _ _) A). apply Rplus_0_r. Qed.
Lemma comp_0 a : comp a <> 0%Z. Proof. destruct a; discriminate. Qed.
Lemma comp_4 a : comp a <> 4%Z. Proof. destruct a; discriminate. Qed.
Lemma comp_inj a b : a <> b -> comp a <> comp b. Proof. destruct a, b; cbn; congruence. Qed.

Section Boost.
Context (W : R) (a : axis).
Local Notation bo := (bump W a).
Local Notation drift := (glide W a).
Lemma primitive_boost g q r : q 0%Z <> 0 -> primitive g (bo q) r = drift (primitive g q) r.
Proof.
  intro H. revert r. apply (row_cases _ a).
  - rewrite dr_o by (intro X; symmetry in X; revert X; apply comp_0). cbn [primitive]. apply bo_0.
  - rewrite dr_a, !primitive_other, bo_a, bo_0 by (apply comp_0 || apply comp_4). field. exact H.
  - rewrite dr_o by (intro X; symmetry in X; revert X; apply comp_4). cbn [primitive]. rewrite bo_4, bo_0.
    destruct a; unfold bump; cbn [comp Z.eqb Pos.eqb]; field; exact H.
  - intros r A B C. rewrite dr_o, !primitive_other, bo_0, bo_o by assumption. reflexivity.
Qed.
Lemma energy_drift g w : total_energy g (drift w) = total_energy g w + (W * (rho w * w (comp a)) + 1 / 2 * (W * W) * rho w).
Proof.
  unfold total_energy, rho, press, vel.
  destruct a; unfold glide; cbn [comp Z.eqb Pos.eqb]; unfold Rdiv; generalize (/ (g - 1)); intro; field.
Qed.
Lemma rho_drift w : rho (drift w) = rho w. Proof. apply dr_o. intro X; symmetry in X; revert X; apply comp_0. Qed.
Lemma press_drift w : press (drift w) = press w. Proof. apply dr_o. intro X; symmetry in X; revert X; apply comp_4. Qed.
Lemma conserved_drift g w r : conserved g (drift w) r = bo (conserved g w) r.
Proof.
  revert r. apply (row_cases _ a).
  - rewrite bo_0. cbn [conserved]. apply rho_drift.
  - rewrite bo_a, !(conserved_other g) by (apply comp_0 || apply comp_4). rewrite dr_a. change (drift w 0%Z) with (rho (drift w)). rewrite rho_drift. cbn [conserved]. unfold rho. ring.
  - rewrite bo_4, (conserved_other g w (comp a)) by (apply comp_0 || apply comp_4). cbn [conserved]. rewrite energy_drift. unfold rho. ring.
  - intros r A B C. rewrite bo_o, !conserved_other, (dr_o _ _ _ r) by assumption. change (drift w 0%Z) with (rho (drift w)). rewrite rho_drift. reflexivity.
Qed.
Context (d : axis) (ND : d <> a).
Lemma vel_drift w : vel d (drift w) = vel d w. Proof. apply dr_o, comp_inj, ND. Qed.
Lemma bo_scale k q r : bo (fun r => k * q r) r = k * bo q r.
Proof. unfold bump. destruct (r =? comp a)%Z; [ring|]. destruct (r =? 4)%Z; ring. Qed.
Lemma bo_add q q' r : bo (fun r => q r + q' r) r = bo q r + bo q' r.
Proof. unfold bump. destruct (r =? comp a)%Z; [ring|]. destruct (r =? 4)%Z; ring. Qed.
Lemma bo_zero r : bo (fun _ => 0) r = 0.
Proof. unfold bump. destruct (r =? comp a)%Z; [ring|]. destruct (r =? 4)%Z; ring. Qed.
Lemma euler_other g w r : r <> 0%Z -> r <> 4%Z -> r <> comp d -> euler_flux g d w r = rho w * vel d w * w r.
Proof. intros A B C. unfold euler_flux. rewrite !(proj2 (Z.eqb_neq _ _)) by assumption. reflexivity. Qed.
Lemma euler_drift g w r : euler_flux g d (drift w) r = bo (euler_flux g d w) r.
Proof.
  assert (NA : comp a <> comp d) by (apply comp_inj; auto).
  revert r. apply (row_cases _ a).
  - rewrite bo_0. unfold euler_flux. cbn [Z.eqb]. rewrite rho_drift, vel_drift. reflexivity.
  - rewrite bo_a, !euler_other by (apply comp_0 || apply comp_4 || exact NA). rewrite dr_a, rho_drift, vel_drift. unfold euler_flux. cbn [Z.eqb]. ring.
  - rewrite bo_4, (euler_other g w (comp a)) by (apply comp_0 || apply comp_4 || exact NA). unfold euler_flux. cbn [Z.eqb Pos.eqb].
    rewrite energy_drift, vel_drift, press_drift. ring.
  - intros r A B C. rewrite bo_o by assumption. unfold euler_flux. rewrite rho_drift, vel_drift, press_drift, dr_o by assumption.
    rewrite (proj2 (Z.eqb_neq _ _) A), (proj2 (Z.eqb_neq _ _) C). reflexivity.
Qed.
Lemma sound_drift g fl w : sound g fl (drift w) = sound g fl w.
Proof. unfold sound. rewrite rho_drift, press_drift. reflexivity. Qed.
Section Hllc.
Context (g fl : R) (wl wr : state).
Lemma wl_drift : wave_left g fl d (drift wl) (drift wr) = wave_left g fl d wl wr.
Proof. unfold wave_left. rewrite !vel_drift, !sound_drift. reflexivity. Qed.
Lemma wr_drift : wave_right g fl d (drift wl) (drift wr) = wave_right g fl d wl wr.
Proof. unfold wave_right. rewrite !vel_drift, !sound_drift. reflexivity. Qed.
Lemma cs_drift : contact_speed g fl d (drift wl) (drift wr) = contact_speed g fl d wl wr.
Proof. unfold contact_speed, impedance_left, impedance_right. rewrite wl_drift, wr_drift, !vel_drift, !rho_drift, !press_drift. reflexivity. Qed.
Lemma cp_drift : contact_pressure g fl d (drift wl) (drift wr) = contact_pressure g fl d wl wr.
Proof. unfold contact_pressure, impedance_left, impedance_right. rewrite wl_drift, wr_drift, !vel_drift, !rho_drift, !press_drift. reflexivity. Qed.
Lemma star_other S w r : r <> 0%Z -> r <> 4%Z -> r <> comp d ->
  star g fl d wl wr S w r = rho w * ((S - vel d w) / (S - contact_speed g fl d wl wr)) * w r.
Proof. intros A B C. unfold star. rewrite !(proj2 (Z.eqb_neq _ _)) by assumption. reflexivity. Qed.
Lemma star_drift S w r : star g fl d (drift wl) (drift wr) S (drift w) r = bo (star g fl d wl wr S w) r.
Proof.
  assert (NA : comp a <> comp d) by (apply comp_inj; auto).
  revert r. apply (row_cases _ a).
  - rewrite bo_0. unfold star. cbn [Z.eqb]. rewrite cs_drift, rho_drift, vel_drift. reflexivity.
  - rewrite bo_a, (star_other S w (comp a)) by (apply comp_0 || apply comp_4 || exact NA). unfold star. cbn [Z.eqb].
    rewrite (proj2 (Z.eqb_neq _ _) (comp_0 a)), (proj2 (Z.eqb_neq _ _) (comp_4 a)), (proj2 (Z.eqb_neq _ _) NA).
    rewrite dr_a, cs_drift, rho_drift, vel_drift. ring.
  - rewrite bo_4, (star_other S w (comp a)) by (apply comp_0 || apply comp_4 || exact NA). unfold star. cbn [Z.eqb Pos.eqb].
    rewrite energy_drift, cs_drift, cp_drift, vel_drift, press_drift. unfold Rdiv. ring.
  - intros r A B C. rewrite bo_o by assumption. unfold star. rewrite cs_drift, rho_drift, vel_drift, dr_o by assumption.
    rewrite (proj2 (Z.eqb_neq _ _) A), (proj2 (Z.eqb_neq _ _) C). reflexivity.
Qed.
Lemma star_flux_boost s P U r : star_flux d s P (bo U) r = bo (star_flux d s P U) r.
Proof.
  assert (NA : comp a <> comp d) by (apply comp_inj; auto).
  assert (N4 : 4%Z <> comp d) by (intro X; symmetry in X; revert X; apply comp_4).
  assert (N0 : 0%Z <> comp d) by (intro X; symmetry in X; revert X; apply comp_0).
  revert r. apply (row_cases _ a).
  - rewrite bo_0. unfold star_flux. rewrite bo_0. reflexivity.
  - rewrite bo_a. unfold star_flux. rewrite bo_a, (proj2 (Z.eqb_neq _ _) NA), (proj2 (Z.eqb_neq _ _) (comp_4 a)), (proj2 (Z.eqb_neq _ _) N0). cbn [Z.eqb]. ring.
  - rewrite bo_4. unfold star_flux. rewrite bo_4, (proj2 (Z.eqb_neq _ _) NA), (proj2 (Z.eqb_neq _ _) (comp_4 a)), (proj2 (Z.eqb_neq _ _) N0), (proj2 (Z.eqb_neq _ _) N4). cbn [Z.eqb Pos.eqb]. ring.
  - intros r A B C. rewrite bo_o by assumption. unfold star_flux. rewrite bo_o by assumption. reflexivity.
Qed.
Lemma flux_drift rs r : numerical_flux rs g fl d (drift wl) (drift wr) r = bo (numerical_flux rs g fl d wl wr) r.
Proof.
  destruct rs; cbn [numerical_flux].
  - change (numerical_flux RS_upwind g fl d wl wr) with (donor g d wl wr). unfold donor, transport_flux. rewrite !vel_drift, !conserved_drift.
    destruct (Rlt_dec 0 _); [symmetry; apply bo_scale|]. destruct (Rlt_dec _ 0); [symmetry; apply bo_scale|symmetry; apply bo_zero].
  - change (numerical_flux RS_llf g fl d wl wr) with (rusanov g fl d wl wr). unfold rusanov. rewrite !vel_drift, !sound_drift, !euler_drift, !conserved_drift. unfold bump. destruct (r =? comp a)%Z; [ring|]. destruct (r =? 4)%Z; ring.
  - change (numerical_flux RS_hllc g fl d wl wr) with (toro g fl d wl wr). unfold toro. rewrite wl_drift, wr_drift, cs_drift, cp_drift, !euler_drift.
    assert (SF : forall S w, star_flux d (contact_speed g fl d wl wr) (contact_pressure g fl d wl wr) (star g fl d (drift wl) (drift wr) S (drift w)) r
       = bo (star_flux d (contact_speed g fl d wl wr) (contact_pressure g fl d wl wr) (star g fl d wl wr S w)) r).
    { intros S w. rewrite <- star_flux_boost. f_equal. extensionality q. apply star_drift. }
    rewrite !SF. destruct (Rlt_dec 0 _); [reflexivity|]. destruct (Rlt_dec 0 _); [reflexivity|]. destruct (Rlt_dec 0 _); reflexivity.
Qed.
End Hllc.
End Boost.

(** ** stencils *)
Definition bog (W : R) (a : axis) (f : grid) : grid := fun v i => bump W a (fun r => f r i) v.
Definition drg (W : R) (a : axis) (f : grid) : grid := fun v i => glide W a (fun r => f r i) v.
Section Grid.
Context (W : R) (a : axis).
Lemma line_add b ws (f g : grid) v i : line b ws (fun v i => f v i + g v i) v i = line b ws f v i + line b ws g v i.
Proof. unfold line. rewrite <- sum_add. apply sum_ext. intros. ring. Qed.
Lemma line_mul b ws k (f : grid) v i : line b ws (fun v i => k * f v i) v i = k * line b ws f v i.
Proof. unfold line. rewrite <- sum_scale. apply sum_ext. intros. ring. Qed.
Lemma line_row b ws (f g : grid) v w i : (forall j, f v j = g w j) -> line b ws f v i = line b ws g w i.
Proof. intro H. unfold line. apply sum_ext. intros. rewrite H. reflexivity. Qed.
Lemma line_bog b ws f : line b ws (bog W a f) = bog W a (line b ws f).
Proof.
  apply grid_eq. intros v i. unfold bog, bump. destruct (v =? comp a)%Z eqn:Ea; [|destruct (v =? 4)%Z eqn:E4].
  - rewrite <- line_mul. rewrite (line_row b ws (fun v i => W * f v i) (fun _ i => W * f 0%Z i) 0 v i) by reflexivity.
    rewrite <- line_add. apply line_row. intro j. rewrite Ea. reflexivity.
  - apply Z.eqb_eq in E4. subst v.
    transitivity (line b ws (fun v i => f v i + (W * f (comp a) i + 1 / 2 * (W * W) * f 0%Z i)) 4%Z i); [apply line_row; intro j; rewrite Ea; reflexivity|].
    rewrite line_add. f_equal. rewrite line_add. f_equal.
    + rewrite <- line_mul. apply line_row. reflexivity.
    + rewrite <- line_mul. apply line_row. reflexivity.
  - apply line_row. intro j. rewrite Ea, E4. reflexivity.
Qed.
Lemma block_bog ws f : block ws (bog W a f) = bog W a (block ws f).
Proof. unfold block. rewrite !line_bog. reflexivity. Qed.
Lemma across_bog d ws f : across d ws (bog W a f) = bog W a (across d ws f).
Proof. destruct d; cbn [across]; rewrite !line_bog; reflexivity. Qed.
Lemma line_const b ws k v i : lsum ws = 1 -> line b ws (fun _ _ => k) v i = k.
Proof. intro H. rewrite line_w. refine (eq_trans (wsum_const ws k) _). rewrite H. apply Rmult_1_l. Qed.
Lemma line_drg b ws f : lsum ws = 1 -> line b ws (drg W a f) = drg W a (line b ws f).
Proof.
  intro H. apply grid_eq. intros v i. unfold drg, glide.
  refine (eq_trans (line_add b ws f (fun v _ => if (v =? comp a)%Z then W else 0) v i) _). f_equal.
  etransitivity; [|exact (line_const b ws (if (v =? comp a)%Z then W else 0) v i H)]. apply line_row. reflexivity.
Qed.
Lemma block_drg ws f : (forall b, lsum (ws b) = 1) -> block ws (drg W a f) = drg W a (block ws f).
Proof. intro H. unfold block. rewrite !line_drg by apply H. reflexivity. Qed.
Lemma across_drg d ws f : (forall b, lsum (ws b) = 1) -> across d ws (drg W a f) = drg W a (across d ws f).
Proof. intro H. destruct d; cbn [across]; rewrite !line_drg by apply H; reflexivity. Qed.
End Grid.

(** ** locality *)
Definition seen_in (lo hi : axis -> Z) (i j : ix) : Prop := forall b, (getc b i - lo b <= getc b j <= getc b i + hi b)%Z.
Definition looks (T : grid -> grid) (lo hi : axis -> Z) : Prop := forall f g v i,
  (forall w j, seen_in lo hi i j -> f w j = g w j) -> T f v i = T g v i.
Definition one_axis (b : axis) (k : Z) (e : axis) : Z := if axis_eqb e b then k else 0%Z.
Lemma looks_comp T S lo hi lo' hi' : looks T lo hi -> looks S lo' hi' -> looks (fun f => T (S f)) (fun b => lo b + lo' b)%Z (fun b => hi b + hi' b)%Z.
Proof.
  intros HT HS f g v i H. apply HT. intros w j Hj. apply HS. intros x k Hk. apply H. intro b. specialize (Hj b). specialize (Hk b). lia.
Qed.
Lemma looks_le T lo hi lo' hi' : looks T lo hi -> (forall b, lo b <= lo' b)%Z -> (forall b, hi b <= hi' b)%Z -> looks T lo' hi'.
Proof. intros HT A B f g v i H. apply HT. intros w j Hj. apply H. intro b. specialize (Hj b). specialize (A b). specialize (B b). lia. Qed.
Lemma looks_line b ws s : Z.of_nat (length ws) = (2 * s + 1)%Z -> looks (line b ws) (one_axis b s) (one_axis b s).
Proof.
  intros L f g v i H. apply line_local.
  - intros j J1 J2. apply H. rewrite L in J2. replace (2 * s + 1 - 1)%Z with (s * 2)%Z in J2 by lia. rewrite Z.div_mul in J2 by lia.
    intro e. unfold one_axis. destruct (axis_dec e b) as [->|NE]; [rewrite axis_eqb_refl; lia|]. rewrite (proj2 (axis_eqb_neq e b) NE), J1 by assumption. lia.
  - rewrite L. apply Z.odd_spec. exists s. reflexivity.
Qed.
Lemma wt_len p : deg_ok p -> Z.of_nat (length (wt p)) = (2 * stencil_right p + 1)%Z.
Proof. intro D. pose proof (len_t p D). lia. Qed.
Lemma wi_len p pos : deg_ok p -> lr_pos pos -> Z.of_nat (length (wi p pos)) = (2 * stencil_right p + 1)%Z.
Proof. intros D H. pose proof (len_i p pos D H). lia. Qed.
Section Face.
Context (c : config RNum) (HT : tabulated c) (W : R) (a : axis) (IA : inactive c a).
Local Notation p := (c_p c).
Local Notation s b := (stencil_right (getc b p)).
Definition at_centres (E : grid) : grid := fun v i => primitive (c_gamma c) (fun r => block (fun b => wi (getc b p) P_c) E r i) v.
Definition flux_of (d : axis) (P : grid) : grid :=
  across d (fun b => wt (getc b p)) (fun v i =>
    numerical_flux (c_rs c) (c_gamma c) (c_csq_floor c) d
      (fun r => trace wi p None d P_r (block (fun b => wt (getc b p)) P) r (up d (-1) i))
      (fun r => trace wi p None d P_l (block (fun b => wt (getc b p)) P) r i) v).
Lemma face_of d E : face_flux wi wt c p None d E = flux_of d (at_centres E).
Proof. reflexivity. Qed.
Lemma sums_t b : lsum (wt (getc b p)) = 1. Proof. apply lsum_t, degs, HT. Qed.
Lemma sums_i b pos : lr_pos pos -> lsum (wi (getc b p) pos) = 1. Proof. apply lsum_i, degs, HT. Qed.
Lemma trace_drg d pos P : lr_pos pos -> trace wi p None d pos (drg W a P) = drg W a (trace wi p None d pos P).
Proof.
  intro H. unfold trace. cbv zeta. rewrite across_drg by (intro; apply sums_i, lr_c). rewrite line_drg by (apply sums_i, H). reflexivity.
Qed.
Lemma flux_of_drg d P : d <> a -> flux_of d (drg W a P) = bog W a (flux_of d P).
Proof.
  intro ND. unfold flux_of. rewrite <- across_bog. f_equal. apply grid_eq. intros v i. rewrite block_drg by apply sums_t.
  rewrite !trace_drg by (unfold lr_pos; auto).
  exact (flux_drift W a d ND (c_gamma c) (c_csq_floor c) (fun r => trace wi p None d P_r (block (fun b => wt (getc b p)) P) r (up d (-1) i))
    (fun r => trace wi p None d P_l (block (fun b => wt (getc b p)) P) r i) (c_rs c) v).
Qed.
Lemma looks_block ws : (forall b, Z.of_nat (length (ws b)) = (2 * s b + 1)%Z) -> looks (block ws) (fun b => s b) (fun b => s b).
Proof.
  intro H. unfold block. eapply looks_le; [refine (looks_comp _ _ _ _ _ _ (looks_line AX _ _ (H AX)) (looks_comp _ _ _ _ _ _ (looks_line AY _ _ (H AY)) (looks_line AZ _ _ (H AZ))))| |];
    intros []; unfold one_axis; cbn [axis_eqb]; lia.
Qed.
Definition side_of (d : axis) (x y : Z) (b : axis) : Z := if axis_eqb b d then x else y.
Lemma looks_across d ws : (forall b, Z.of_nat (length (ws b)) = (2 * s b + 1)%Z) -> looks (across d ws) (fun b => side_of d 0 (s b) b) (fun b => side_of d 0 (s b) b).
Proof.
  intro H. destruct d; cbn [across].
  - eapply looks_le; [refine (looks_comp _ _ _ _ _ _ (looks_line AY _ _ (H AY)) (looks_line AZ _ _ (H AZ)))| |]; intros []; unfold one_axis, side_of; cbn [axis_eqb]; lia.
  - eapply looks_le; [refine (looks_comp _ _ _ _ _ _ (looks_line AX _ _ (H AX)) (looks_line AZ _ _ (H AZ)))| |]; intros []; unfold one_axis, side_of; cbn [axis_eqb]; lia.
  - eapply looks_le; [refine (looks_comp _ _ _ _ _ _ (looks_line AX _ _ (H AX)) (looks_line AY _ _ (H AY)))| |]; intros []; unfold one_axis, side_of; cbn [axis_eqb]; lia.
Qed.
Lemma looks_trace d pos : lr_pos pos -> looks (trace wi p None d pos) (fun b => s b) (fun b => s b).
Proof.
  intro H. unfold trace. cbv zeta. eapply looks_le.
  - refine (looks_comp (line d (wi (getc d p) pos)) _ _ _ _ _ (looks_line d _ _ (wi_len _ pos (degs c HT d) H)) (looks_across d _ (fun b => wi_len _ P_c (degs c HT b) lr_c))).
  - intro b. unfold one_axis, side_of. destruct (axis_eqb b d) eqn:E; [apply axis_eqb_eq in E; subst|]; lia.
  - intro b. unfold one_axis, side_of. destruct (axis_eqb b d) eqn:E; [apply axis_eqb_eq in E; subst|]; lia.
Qed.
Lemma looks_flux d : looks (flux_of d) (fun b => side_of d (2 * s d + 1) (3 * s b) b) (fun b => side_of d (2 * s d) (3 * s b) b).
Proof.
  set (T := fun w : grid => (fun v i => numerical_flux (c_rs c) (c_gamma c) (c_csq_floor c) d
      (fun r => trace wi p None d P_r w r (up d (-1) i)) (fun r => trace wi p None d P_l w r i) v) : grid).
  assert (LT : looks T (fun b => side_of d (s d + 1) (s b) b) (fun b => s b)).
  { intros f g v i H. unfold T. f_equal; extensionality r; apply looks_trace; try (unfold lr_pos; tauto); intros w j Hj; apply H; intro b; specialize (Hj b).
    - unfold side_of, up in *. destruct (axis_dec b d) as [->|NE].
      + rewrite axis_eqb_refl. rewrite getc_setc_eq in Hj. lia.
      + rewrite (proj2 (axis_eqb_neq b d) NE). rewrite getc_setc_ne in Hj by auto. lia.
    - cbv beta in Hj. unfold side_of. destruct (axis_eqb b d) eqn:E; [apply axis_eqb_eq in E; subst|]; lia. }
  eapply looks_le; [refine (looks_comp (across d (fun b => wt (getc b p))) (fun P => T (block (fun b => wt (getc b p)) P)) _ _ _ _
     (looks_across d _ (fun b => wt_len _ (degs c HT b))) (looks_comp T _ _ _ _ _ LT (looks_block _ (fun b => wt_len _ (degs c HT b)))))| |].
  - intro b. unfold side_of. destruct (axis_eqb b d) eqn:E; [apply axis_eqb_eq in E; subst|]; lia.
  - intro b. unfold side_of. destruct (axis_eqb b d) eqn:E; [apply axis_eqb_eq in E; subst|]; lia.
Qed.
Lemma centres_boost E i v : block (fun b => wi (getc b p) P_c) E 0%Z i <> 0 -> at_centres (bog W a E) v i = drg W a (at_centres E) v i.
Proof.
  intro H. unfold at_centres at 1. rewrite block_bog. unfold bog, drg.
  exact (primitive_boost W a (c_gamma c) (fun r => block (fun b => wi (getc b p) P_c) E r i) v H).
Qed.
Lemma face_boost d E i v : ~ inactive c d -> dense_centres wi c E -> (forall b, d <> b -> (0 <= getc b i < getc b (c_n c))%Z) -> (0 <= getc d i <= getc d (c_n c))%Z ->
  face_flux wi wt c p None d (bog W a E) v i = bump W a (fun r => face_flux wi wt c p None d E r i) v.
Proof.
  intros AD DC H1 H2. assert (ND : d <> a) by (intros ->; contradiction). rewrite !face_of.
  change (bump W a (fun r => flux_of d (at_centres E) r i) v) with (bog W a (flux_of d (at_centres E)) v i). rewrite <- flux_of_drg by exact ND.
  apply looks_flux. intros w j Hj. apply centres_boost, DC. intro b. cbv zeta. rewrite half_up_sr.
  specialize (Hj b). unfold side_of in Hj. pose proof (stencil_right_nonneg (getc b p) (proj1 (degs c HT b))) as S0.
  destruct (axis_dec b d) as [->|NE].
  - rewrite axis_eqb_refl in Hj. assert (I : inactive_b c d = false).
    { apply not_true_is_false. intro I. apply AD. unfold inactive_b in I. apply andb_prop in I. destruct I as [I1 I2]. apply Z.eqb_eq in I1, I2. split; assumption. }
    rewrite I. lia.
  - rewrite (proj2 (axis_eqb_neq b d) NE) in Hj. specialize (H1 b (not_eq_sym NE)). destruct (inactive_b c b) eqn:I; [|lia].
    unfold inactive_b in I. apply andb_prop in I. destruct I as [I1 I2]. apply Z.eqb_eq in I1, I2. rewrite I2 in Hj. cbn in Hj. lia.
Qed.
Lemma balance_bump (F F' : axis -> grid) v i : (forall d j, inactive_b c d = false -> j = i \/ j = up d 1 i -> F' d v j = bump W a (fun r => F d r j) v) ->
  balance c F' v i = bump W a (fun r => balance c F r i) v.
Proof.
  intro H. unfold balance. cbv zeta.
  assert (Q : forall d, (if inactive_b c d then 0 else (F' d v (up d 1 i) - F' d v i) / width c d)
     = bump W a (fun r => if inactive_b c d then 0 else (F d r (up d 1 i) - F d r i) / width c d) v).
  { intro d. destruct (inactive_b c d) eqn:I; [symmetry; apply bo_zero|]. rewrite !H by auto. unfold bump, Rdiv.
    destruct (v =? comp a)%Z; [ring|]. destruct (v =? 4)%Z; ring. }
  rewrite !Q. unfold bump. destruct (v =? comp a)%Z; [ring|]. destruct (v =? 4)%Z; ring.
Qed.
Lemma rate_boost E v i : dense_centres wi c E -> in_shape (c_n c) i ->
  gdudt RNum c p L_none (bog W a E) v i = bump W a (fun r => gdudt RNum c p L_none E r i) v.
Proof.
  intros DC Hi. rewrite (gdudt_is c HT).
  transitivity (bump W a (fun r => balance c (fun d => face_flux wi wt c p None d E) r i) v).
  - apply balance_bump. intros d j I Hj.
    assert (AD : ~ inactive c d). { intros [I1 I2]. unfold inactive_b in I. rewrite I1, I2 in I. discriminate. }
    apply face_boost; auto; destruct Hj as [->| ->]; try (intros b NE); try (unfold up; rewrite ?getc_setc_eq, ?getc_setc_ne by auto).
    + apply Hi. + specialize (Hi b). lia. + specialize (Hi d). lia. + specialize (Hi d). lia.
  - f_equal. extensionality r. symmetry. apply (gdudt_is c HT).
Qed.
End Face.

(** ** runs *)
Lemma Forall2_weaken {A B} (P Q : A -> B -> Prop) l l' : (forall x y, P x y -> Q x y) -> Forall2 P l l' -> Forall2 Q l l'.
Proof. intros H X. induction X; constructor; auto. Qed.
Section Runs.
Context (c : config RNum) (HT : tabulated c) (HC : closed c) (HL : c_limit c = false) (W : R) (a : axis) (IA : inactive c a).
Context (dt : R) (FD : c_fixed_dt c = Some dt).
Context (ok : arr R -> bool) (Hok : test_of_cells ok).
Context (Hd : forall u, shp u = c_n c -> ok u = true -> dense_centres wi c (filled c u)).
Local Notation n := (c_n c).
Definition back (u : arr R) : arr R := mkarr (rows u) (shp u) (bog (- W) a (at_ u)).
Lemma bump_back q r : bump (- W) a (bump W a q) r = q r.
Proof.
  revert r. apply (row_cases _ a).
  - rewrite !bo_0. reflexivity.
  - rewrite !bo_a, bo_0. ring.
  - rewrite !bo_4, bo_a, bo_0. field.
  - intros r A B C. rewrite !bo_o by assumption. reflexivity.
Qed.
Lemma bump_ext q q' r : (forall v, q v = q' v) -> bump W a q r = bump W a q' r.
Proof. intro H. unfold bump. rewrite !H. reflexivity. Qed.
Lemma gdt_fixed (E E' : grid) : gdt RNum c (c_p c) E = gdt RNum c (c_p c) E'.
Proof.
  destruct (gdt_ok c HT E) as (d1 & G1), (gdt_ok c HT E') as (d2 & G2). rewrite G1, G2. f_equal.
  apply (gdt_is wi wt tables_are c HT) in G1. apply (gdt_is wi wt tables_are c HT) in G2. unfold time_step in *. rewrite FD in *. congruence.
Qed.
Lemma filled_boost u u' v i : shp u = n -> (forall v i, in_shape n i -> at_ u' v i = bog W a (at_ u) v i) ->
  in_padded n (ghost_zones3 c) i -> filled c u' v i = bog W a (filled c u) v i.
Proof.
  intros Su H Hi. pose proof (ShiftP.folded_in RNum c HT HC i Hi) as FI. unfold filled, bog. rewrite H by exact FI. cbv zeta.
  set (j := folded3 (c_bc c) n i) in *.
  assert (NA : forall r, r = comp a \/ r = 0%Z \/ r = 4%Z -> negated3 (c_bc c) n i r = false).
  { intros r Hr. unfold negated3. cbv zeta.
    assert (NR : negated (bc_type (c_bc c) a SL) (bc_type (c_bc c) a SR) (getc a n) (getc a i) = false).
    { specialize (Hi a). destruct IA as [N1 _]. assert (G0 : getc a (ghost_zones3 c) = 0%Z).
      { unfold ghost_zones3. destruct IA as [A1 A2]. destruct a; cbn [getc cx cy cz] in *; unfold ghost_zones, inactive_b; cbn [getc]; rewrite A1, A2; reflexivity. }
      rewrite G0, N1 in Hi. rewrite N1. replace (getc a i) with 0%Z by lia. reflexivity. }
    apply not_true_is_false. intro X. apply orb_prop in X. destruct X as [X|X]; [apply orb_prop in X; destruct X as [X|X]|];
      apply andb_prop in X; destruct X as [X1 X2]; apply Z.eqb_eq in X1; destruct a; cbn in *; try lia; congruence. }
  unfold bog. revert v. apply (row_cases _ a).
  - rewrite (NA 0%Z) by auto. rewrite !bo_0, (NA 0%Z) by auto. reflexivity.
  - rewrite (NA (comp a)), !bo_a, (NA 0%Z), (NA (comp a)) by auto. reflexivity.
  - rewrite (NA 4%Z), !bo_4, (NA 0%Z), (NA (comp a)), (NA 4%Z) by auto. reflexivity.
  - intros r A B C. rewrite !bo_o by assumption. reflexivity.
Qed.
Definition snap_rel (av : bool) (d1 d2 : payload RNum) : Prop := av = false -> drifting W a (fst d1) (fst d2).
Theorem boost_checked heap heap' i av T k exact db log fuel u u' : shp u = n -> (1 <= rows u)%Z -> boosted (N := RNum) W a u u' ->
  match simulate_checked (N := RNum) ok c heap i av T k exact db log fuel u,
        simulate_checked (N := RNum) (fun w => ok (back w)) c heap' i av T k exact db log fuel u' with
  | Ok o, Ok o' => run_boosted av W a o o'
  | Err e, Err e' => e = e'
  | _, _ => False
  end.
Proof.
  intros Su Ru (R' & S' & V).
  assert (RE : related RNum c c (rows u) (bog W a) u u').
  { split; [reflexivity|]. split; [exact R'|]. split; [exact Su|]. split; [exact (eq_trans S' Su)|]. intros v j Hj.
    refine (eq_trans (V v j _) (bo_is W a _ v)). rewrite Su. exact Hj. }
  assert (SR : respects RNum (arr_ops RNum) (arr_ops RNum) (checked (N := RNum) ok (solver_f RNum c heap)) (checked (N := RNum) (fun w => ok (back w)) (solver_f RNum c heap'))
     (related RNum c c (rows u) (bog W a)) (related RNum c c (rows u) (bog W a)) (aux_related RNum c c (rows u))).
  { apply (sym_respects RNum c c heap heap' (rows u) HT HT HL HL Ru (bog W a)) with
      (E1 := fun _ w => filled c w) (E2 := fun _ w => filled c w) (W := bog W a).
    - intros f g H v j Hj. unfold bog. apply bump_ext. intro w. apply H, Hj.
    - intros f g v j. exact (bo_add W a (fun r => f r j) (fun r => g r j) v).
    - intros x f v j. exact (bo_scale W a x (fun r => f r j) v).
    - intros t w _ Sw. rewrite <- copied_filled. apply closed_pads; auto.
    - intros t w _ Sw. rewrite <- copied_filled. apply closed_pads; auto.
    - intros u1 u2 (R1 & R2 & S1 & S2 & V2). apply Hok; cbn [back rows shp at_]; [exact (eq_trans R1 (eq_sym R2))|exact (eq_trans S1 (eq_sym S2))|].
      intros v j Hj. assert (Hj' : in_shape n j) by (rewrite <- S1; exact Hj). symmetry. unfold bog at 1.
      etransitivity; [|exact (bump_back (fun r => at_ u1 r j) v)]. f_equal. extensionality r. exact (V2 r j Hj').
    - intros t u1 u2 (R1 & R2 & S1 & S2 & V2) v j Hj. apply filled_boost; auto.
    - intros. apply gdt_fixed.
    - intros t u1 u2 (R1 & R2 & S1 & S2 & V2) O v j Hj. apply rate_boost; auto. }
  assert (X : res_rel (ode_rel RNum (related RNum c c (rows u) (bog W a)) (aux_related RNum c c (rows u)) (snap_rel av))
    (simulate_checked (N := RNum) ok c heap i av T k exact db log fuel u)
    (simulate_checked (N := RNum) (fun w => ok (back w)) c heap' i av T k exact db log fuel u')).
  { unfold simulate_checked.
    apply (integrate_rel RNum (arr_ops RNum) (arr_ops RNum) _ _ (related RNum c c (rows u) (bog W a)) (related RNum c c (rows u) (bog W a)) (aux_related RNum c c (rows u)) (snap_rel av) SR).
    - intros x1 x2 [F1 F2]. split; rewrite helper_flux; assumption.
    - intros x1 x2 t w1 w2 _ Hw. pose proof Hw as (RW1 & RW2 & SW1 & SW2 & VW).
      assert (P1 : pads RNum c t w1 (filled c w1)) by (rewrite <- copied_filled; apply closed_pads; auto).
      assert (P2 : pads RNum c t w2 (bog W a (filled c w1))).
      { assert (P0 : pads RNum c t w2 (filled c w2)) by (rewrite <- copied_filled; apply closed_pads; auto).
        eapply pads_ext; [exact SW2|exact P0|]. intros v j Hj. apply filled_boost; auto. }
      destruct (payload_is RNum c heap av x1 t w1 _ HT SW1 P1) as (d1 & A1 & B1 & C1 & D1).
      destruct (payload_is RNum c heap' av x2 t w2 _ HT SW2 P2) as (d2 & A2 & B2 & C2 & D2).
      rewrite A1, A2. cbn [res_rel]. unfold snap_rel. cbn [fst]. intros ->.
      split; [exact (eq_trans B2 (eq_trans RW2 (eq_sym (eq_trans B1 RW1))))|]. split; [exact (eq_trans C2 (eq_sym C1))|].
      intros v j Hj NZ. assert (Hj' : in_shape n j) by (rewrite <- C1; exact Hj). clear Hj.
      pose proof (D1 v j Hj') as D1v. pose proof (D1 0%Z j Hj') as D10. pose proof (D2 v j Hj') as D2v. rewrite (gprim_is c HT) in *.
      refine (eq_trans D2v _). assert (NZ' : block (fun b => wi (getc b (c_p c)) P_c) (filled c w1) 0%Z j <> 0) by (intro Z0; apply NZ; exact (eq_trans D10 Z0)).
      refine (eq_trans (centres_boost c W a (filled c w1) j v NZ') _). unfold drg, glide. f_equal. symmetry. exact D1v.
    - split; cbn; auto. split; intro d; cbn; rewrite ?R', ?Su; auto. }
  revert X.
  destruct (simulate_checked (N := RNum) ok _ _ _ _ _ _ _ _ _ _ _) as [o1|e1], (simulate_checked (N := RNum) (fun _ => _) _ _ _ _ _ _ _ _ _ _ _) as [o2|e2]; cbn; auto.
  intros [Et Hu Est Esn Ha Hs]. split; auto.
  - destruct Hu as (R1 & R2 & S1 & S2 & V2). split; [exact (eq_trans R2 (eq_sym R1))|]. split; [exact (eq_trans S2 (eq_sym S1))|].
    intros v j Hj. refine (eq_trans (V2 v j _) (eq_sym (bo_is W a _ v))). rewrite <- S1. exact Hj.
  - refine (Forall2_weaken _ _ _ _ _ Hs). intros [t1 d1] [t2 d2] [A B]. split; [symmetry; exact A|exact B].
Qed.
End Runs.
Section Weights.
Context (xi : Z -> ipos -> list R) (xt : Z -> list R) (HW : tables xi xt).
Lemma dense_tables (c : config RNum) E : tabulated c -> dense_centres xi c E -> dense_centres wi c E.
Proof.
  intros HT H i Hi. specialize (H i Hi).
  assert (EC : (fun a => xi (getc a (c_p c)) P_c) = (fun a => wi (getc a (c_p c)) P_c)) by (extensionality b; symmetry; apply (wi_is xi xt HW (c_p c) (degs c HT)), lr_c).
  rewrite EC in H. exact H.
Qed.
Theorem boost_run ok (c : config RNum) (W : R) a heap heap' i av T k exact db log fuel u u' o dt :
  tabulated c -> closed c -> c_limit c = false -> inactive c a -> c_fixed_dt c = Some dt -> test_of_cells ok ->
  (forall w, shp w = c_n c -> ok w = true -> dense_centres xi c (filled c w)) ->
  shp u = c_n c -> (1 <= rows u)%Z -> boosted (N := RNum) W a u u' ->
  simulate_checked (N := RNum) ok c heap i av T k exact db log fuel u = Ok o ->
  simulate c heap i av T k exact db log fuel u = Ok o /\
  exists o', simulate c heap' i av T k exact db log fuel u' = Ok o' /\ run_boosted av W a o o'.
Proof.
  intros HT HC HL IA FD Hok Hd Su Ru B HS. split; [exact (unwatch ok c heap i av T k exact db log fuel u o HT HC HL Su Ru HS)|].
  pose proof (boost_checked c HT HC HL W a IA dt FD ok Hok (fun w Sw O => dense_tables c _ HT (Hd w Sw O)) heap heap' i av T k exact db log fuel u u' Su Ru B) as Q.
  rewrite HS in Q. destruct (simulate_checked (N := RNum) (fun _ => _) _ _ _ _ _ _ _ _ _ _ _) as [o'|e] eqn:E; [|contradiction].
  exists o'. split; [|exact Q]. destruct B as (R' & S' & _). refine (unwatch _ c heap' i av T k exact db log fuel u' o' HT HC HL _ _ E).
  - exact (eq_trans S' Su).
  - assert (rows u' = rows u) as -> by exact R'. exact Ru.
Qed.
End Weights.
(** degree 0: cells of positive density suffice *)
Lemma dense_degree0 (c : config RNum) u : tabulated c -> closed c -> (forall a, getc a (c_p c) = 0%Z) -> shp u = c_n c ->
  all_physical u -> dense_centres wi c (filled c u).
Proof.
  intros HT HC H0 Su HP i Z. unfold block. rewrite !H0, !w0_i by tauto. rewrite !line_1.
  assert (IN : in_shape (c_n c) (folded3 (c_bc c) (c_n c) i)).
  { apply (ShiftP.folded_in RNum c HT HC). intro a. specialize (Z a). cbv zeta in Z. rewrite H0 in Z.
    pose proof (width_main RNum c HT a) as X. pose proof (ghost_width_pos (c_p c) (degs c HT)). unfold solver_width in X. rewrite getc_prim_width in X.
    rewrite getc_active_width, active_inactive in X. unfold interp_cost in X. rewrite H0 in X. cbn in X.
    destruct (inactive_b c a); cbn [negb] in X; [lia|]. change (half_up 0) with 0%Z in Z. lia. }
  destruct (HP _ ltac:(rewrite Su; exact IN)) as [P0 _]. apply Rgt_not_eq. exact P0.
Qed.
