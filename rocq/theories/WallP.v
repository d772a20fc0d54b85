(** Reflection of fields, walls, and conservation between walls. *)
From Coq Require Import ZArith List Bool Lia Reals Lra.
From Verif Require Import Err Num PySlice NdArray HydroM RiemannM StencilsM FvM BcM SedM
  LimitM OdeM SolverM Spec SpecBc SpecSolver SpecCons NdArrayP FvP BcP BcQ OpP SolverP OdeP RelP RelS LimP RunP ConsP RiemannP HydroP SlopeP.
Import ListNotations.
Open Scope Z_scope.

Ltac ringR := cbn [car RNum]; match goal with |- @eq _ ?a ?b => change (@eq R a b) end; ring.
Section Flip.
Local Notation N := RNum.
Definition sg (d : axis) (v : Z) : R := if v =? vrow d then (-1)%R else 1%R.
Lemma sg_sg d v : (sg d v * sg d v)%R = 1%R.
Proof. unfold sg. destr_if; lra. Qed.
(** mirror image in a plane normal to d, cell k going to cell m - k *)
Definition flip (d : axis) (m : Z) (f : field N) : field N := fun v i => (sg d v * f v (setc d (m - getc d i)%Z i))%R.

Lemma wsum_from_add ws j (g : Z -> R) a : wsum_from N ws j g a = (a + wsum_from N ws j g 0)%R.
Proof.
  revert j a. induction ws as [|w ws IH]; intros j a; cbn [wsum_from]; [lra|].
  rewrite (IH _ (@nadd RNum a _)), (IH _ (@nadd RNum 0%R _)). cbn [nadd nmul RNum]. lra.
Qed.
Lemma wsum_from_scale ws j (g : Z -> R) s : wsum_from N ws j (fun k => s * g k)%R 0%R = (s * wsum_from N ws j g 0)%R.
Proof.
  revert j. induction ws as [|w ws IH]; intro j; cbn [wsum_from]; [lra|].
  rewrite wsum_from_add, IH, (wsum_from_add ws (j + 1) g (@nadd RNum _ _)). cbn [nadd nmul RNum]. lra.
Qed.
Lemma wsum_scale ws (g : Z -> R) s : wsum N ws (fun k => s * g k)%R = (s * wsum N ws g)%R.
Proof. apply wsum_from_scale. Qed.
Lemma wsum_from_app a b j (g : Z -> R) x : wsum_from N (a ++ b) j g x = wsum_from N b (j + Z.of_nat (length a)) g (wsum_from N a j g x).
Proof.
  revert j x. induction a as [|w a IH]; intros j x; cbn [app wsum_from length].
  - rewrite Z.add_0_r. reflexivity.
  - rewrite IH. f_equal. lia.
Qed.
Lemma wsum_from_shift ws j k (g : Z -> R) a : wsum_from N ws (j + k) g a = wsum_from N ws j (fun z => g (z + k)) a.
Proof.
  revert j a. induction ws as [|w ws IH]; intros j a; cbn [wsum_from]; [reflexivity|].
  rewrite <- IH. f_equal. lia.
Qed.
Lemma wsum_rev ws (g : Z -> R) : wsum N ws g = wsum N (rev ws) (fun j => g (Z.of_nat (length ws) - 1 - j)).
Proof.
  unfold wsum. change (nofZ 0) with 0%R. revert g. induction ws as [|w ws IH]; intro g; [reflexivity|].
  cbn [rev]. rewrite wsum_from_app. cbn [wsum_from]. rewrite rev_length.
  rewrite (wsum_from_shift ws 0 1), wsum_from_add, (IH (fun z => g (z + 1))).
  cbn [length]. cbn [nadd nmul RNum]. rewrite Rplus_comm. f_equal.
  - apply wsum_from_ext. intros j _. f_equal. lia.
  - replace (Z.of_nat (S (length ws)) - 1 - (0 + Z.of_nat (length ws))) with 0 by lia. apply Rplus_0_l.
Qed.

Lemma setc_comm a d y z i : a <> d -> setc a y (setc d z i) = setc d z (setc a y i).
Proof. destruct a, d; intro H; try reflexivity; exfalso; apply H; reflexivity. Qed.
Lemma setc_setc a y z i : setc a y (setc a z i) = setc a y i.
Proof. destruct a; reflexivity. Qed.
Lemma flip_ext d m (f g : field N) : (forall v i, f v i = g v i) -> forall v i, flip d m f v i = flip d m g v i.
Proof. intros H v i. unfold flip. rewrite H. reflexivity. Qed.
Lemma sweep_flip_other a d ws m (f : field N) v i : a <> d ->
  psweep N a ws (flip d m f) v i = flip d m (psweep N a ws f) v i.
Proof.
  intro H. unfold psweep, flip. rewrite <- wsum_scale. apply wsum_ext. intros k _.
  rewrite (getc_setc_ne a d), (getc_setc_ne d a) by auto. rewrite (setc_comm a d) by auto. reflexivity.
Qed.
Lemma sweep_flip d ws m (f : field N) v i :
  psweep N d ws (flip d m f) v i = flip d (m - (Z.of_nat (length ws) - 1)) (psweep N d (rev ws) f) v i.
Proof.
  unfold psweep, flip. rewrite wsum_rev, <- wsum_scale. apply wsum_ext. intros k _.
  rewrite !getc_setc_eq, !setc_setc. do 3 f_equal. lia.
Qed.

(** ** weights *)
Lemma rev_c p : deg_ok p -> rev (wts_i N p P_c) = wts_i N p P_c.
Proof. intro Hp; destruct (deg_cases _ Hp) as [->|[->|[->|[->|[->|[->|[->|[->| ->]]]]]]]]; reflexivity. Qed.
Lemma rev_l p : deg_ok p -> rev (wts_i N p P_l) = wts_i N p P_r.
Proof. intro Hp; destruct (deg_cases _ Hp) as [->|[->|[->|[->|[->|[->|[->|[->| ->]]]]]]]]; reflexivity. Qed.
Lemma rev_r p : deg_ok p -> rev (wts_i N p P_r) = wts_i N p P_l.
Proof. intro Hp; destruct (deg_cases _ Hp) as [->|[->|[->|[->|[->|[->|[->|[->| ->]]]]]]]]; reflexivity. Qed.
Lemma rev_t p : deg_ok p -> rev (wts_t N p) = wts_t N p.
Proof. intro Hp; destruct (deg_cases _ Hp) as [->|[->|[->|[->|[->|[->|[->|[->| ->]]]]]]]]; reflexivity. Qed.
Lemma len_i p pos : deg_ok p -> lr_pos pos -> Z.of_nat (length (wts_i N p pos)) - 1 = 2 * stencil_right p.
Proof. intros Hp L. destruct (interpolation_weights_ok N p pos Hp L) as [_ ->]. lia. Qed.
Lemma len_t p : deg_ok p -> Z.of_nat (length (wts_t N p)) - 1 = 2 * stencil_right p.
Proof. intros Hp. destruct (transverse_weights_ok N p Hp) as [_ ->]. lia. Qed.

Lemma flip_m d m m' (f : field N) v i : m = m' -> flip d m f v i = flip d m' f v i.
Proof. intros ->. reflexivity. Qed.

Section Deg.
Context (p : ix) (D : forall a, deg_ok (getc a p)).
Local Notation s := (fun d => stencil_right (getc d p)).
(** a sweep with symmetric weights *)
Lemma sweep_sym_flip ws a d m (f : field N) v i : rev ws = ws -> Z.of_nat (length ws) - 1 = 2 * s a ->
  psweep N a ws (flip d m f) v i = flip d (if axis_eqb a d then m - 2 * s d else m) (psweep N a ws f) v i.
Proof.
  intros E L. destruct (axis_dec a d) as [<-|NE].
  - rewrite axis_eqb_refl, sweep_flip, E, L. reflexivity.
  - replace (axis_eqb a d) with false by (symmetry; apply axis_eqb_neq; auto). apply sweep_flip_other. exact NE.
Qed.
Definition centre_w (ws : axis -> list R) : Prop := forall a, rev (ws a) = ws a /\ Z.of_nat (length (ws a)) - 1 = 2 * s a.
Lemma cw_c : centre_w (fun a => wts_i N (getc a p) P_c).
Proof. intro a. split; [apply rev_c, D|apply len_i; [apply D|apply lr_c]]. Qed.
Lemma cw_t : centre_w (fun a => wts_t N (getc a p)).
Proof. intro a. split; [apply rev_t, D|apply len_t, D]. Qed.
Definition sweep3 (ws : axis -> list R) (f : field N) : field N := psweep N AZ (ws AZ) (psweep N AY (ws AY) (psweep N AX (ws AX) f)).
Lemma sweep3_flip ws d m f v i : centre_w ws -> sweep3 ws (flip d m f) v i = flip d (m - 2 * s d) (sweep3 ws f) v i.
Proof.
  intro C. unfold sweep3.
  etransitivity; [apply psweep_fun; intros v1 i1; etransitivity; [apply psweep_fun; intros v2 i2; exact (sweep_sym_flip _ _ d m f v2 i2 (proj1 (C AX)) (proj2 (C AX)))|
     exact (sweep_sym_flip _ _ d _ _ v1 i1 (proj1 (C AY)) (proj2 (C AY)))]|].
  etransitivity; [exact (sweep_sym_flip _ _ d _ _ v i (proj1 (C AZ)) (proj2 (C AZ)))|].
  apply flip_m. destruct d; cbn [axis_eqb]; lia.
Qed.
Lemma centre_flip d m f v i : pcentre N p (flip d m f) v i = flip d (m - 2 * s d) (pcentre N p f) v i.
Proof. exact (sweep3_flip _ d m f v i cw_c). Qed.
Lemma average_flip d m f v i : paverage N p (flip d m f) v i = flip d (m - 2 * s d) (paverage N p f) v i.
Proof. exact (sweep3_flip _ d m f v i cw_t). Qed.
Lemma prim_sg gam d (x : Z -> R) v : compute_primitives N gam (fun w => (sg d w * x w)%R) v = (sg d v * compute_primitives N gam x v)%R.
Proof.
  unfold compute_primitives, sum3, rRho, rE. change (sg d 0) with (if 0 =? vrow d then (-1)%R else 1%R).
  assert (S0 : sg d 0 = 1%R) by (destruct d; reflexivity). assert (S4 : sg d 4 = 1%R) by (destruct d; reflexivity).
  fold (sg d 0). rewrite S0, S4. cbn [ndiv nmul nadd nsub nofZ RNum]. unfold nhalf. cbn [ndiv nofZ RNum].
  destruct (v =? 0) eqn:E0; [apply Z.eqb_eq in E0; subst; rewrite S0; reflexivity|].
  rewrite !Rmult_1_l. unfold Rdiv.
  destruct (is_vel v); [apply Rmult_assoc|].
  destruct (v =? 4) eqn:E4; [apply Z.eqb_eq in E4; subst; rewrite S4|apply Rmult_assoc].
  assert (Q : forall k, (sg d k * x k * (sg d k * x k * / x 0%Z) = x k * (x k * / x 0%Z))%R).
  { intro k. replace (sg d k * x k * (sg d k * x k * / x 0%Z))%R with (sg d k * sg d k * (x k * (x k * / x 0%Z)))%R by ring. rewrite sg_sg. ring. }
  rewrite !Q. symmetry. apply Rmult_1_l.
Qed.
Lemma average_fun (f g : field N) v i : (forall v i, f v i = g v i) -> paverage N p f v i = paverage N p g v i.
Proof. intros H. unfold paverage. do 3 (apply psweep_fun; intros). apply H. Qed.
Lemma prim_flip gam d m f v i : pprim N p gam (flip d m f) v i = flip d (m - 4 * s d) (pprim N p gam f) v i.
Proof.
  assert (X : forall v1 i1, pcell N (compute_primitives N gam) (pcentre N p (flip d m f)) v1 i1
    = flip d (m - 2 * s d) (pcell N (compute_primitives N gam) (pcentre N p f)) v1 i1).
  { intros v1 i1. unfold pcell. etransitivity; [apply cellwise_prim; intro w; apply centre_flip|].
    exact (prim_sg gam d (fun w => pcentre N p f w (setc d (m - 2 * s d - getc d i1) i1)) v1). }
  unfold pprim. etransitivity; [exact (average_fun _ _ v i X)|].
  etransitivity; [exact (average_flip d _ _ v i)|]. apply flip_m. lia.
Qed.
Lemma trans_flip d m f v i : ptrans N p d (flip d m f) v i = flip d m (ptrans N p d f) v i.
Proof.
  destruct d; unfold ptrans, interp_axes;
  (etransitivity; [apply psweep_fun; intros v1 i1; apply sweep_flip_other; discriminate|apply sweep_flip_other; discriminate]).
Qed.
Lemma trans_flip_other a d m f v i : a <> d -> ptrans N p a (flip d m f) v i = flip d (m - 2 * s d) (ptrans N p a f) v i.
Proof.
  intro NE. assert (C := cw_c). destruct a; unfold ptrans, interp_axes;
  (etransitivity; [apply psweep_fun; intros v1 i1; exact (sweep_sym_flip _ _ d m f v1 i1 (proj1 (C _)) (proj2 (C _)))|];
   etransitivity; [exact (sweep_sym_flip _ _ d _ _ v i (proj1 (C _)) (proj2 (C _)))|]; apply flip_m; destruct d; cbn [axis_eqb]; try lia; exfalso; apply NE; reflexivity).
Qed.
Lemma integral_flip d m f v i : pintegral N p d (flip d m f) v i = flip d m (pintegral N p d f) v i.
Proof.
  destruct d; unfold pintegral, recon_axes;
  (etransitivity; [apply psweep_fun; intros v1 i1; apply sweep_flip_other; discriminate|apply sweep_flip_other; discriminate]).
Qed.
Lemma integral_flip_other a d m f v i : a <> d -> pintegral N p a (flip d m f) v i = flip d (m - 2 * s d) (pintegral N p a f) v i.
Proof.
  intro NE. assert (C := cw_t). destruct a; unfold pintegral, recon_axes;
  (etransitivity; [apply psweep_fun; intros v1 i1; exact (sweep_sym_flip _ _ d m f v1 i1 (proj1 (C _)) (proj2 (C _)))|];
   etransitivity; [exact (sweep_sym_flip _ _ d _ _ v i (proj1 (C _)) (proj2 (C _)))|]; apply flip_m; destruct d; cbn [axis_eqb]; try lia; exfalso; apply NE; reflexivity).
Qed.

(** traces *)
Lemma slope_sg l d v (a b : R) : slope_fn N l (sg d v * b)%R (sg d v * a)%R = (sg d v * slope_fn N l a b)%R.
Proof.
  unfold sg. destr_if.
  - replace (-1 * b)%R with (- b)%R by ring. replace (-1 * a)%R with (- a)%R by ring. rewrite slope_opp, slope_sym. ringR.
  - rewrite !Rmult_1_l. apply slope_sym.
Qed.
Lemma slope_sg2 l d v (a b : R) : slope_fn N l (- (sg d v * b))%R (- (sg d v * a))%R = (- (sg d v * slope_fn N l a b))%R.
Proof. rewrite slope_opp, slope_sg. reflexivity. Qed.
Lemma slope_sg3 l d v (a b : R) : slope_fn N l (sg d v * a)%R (sg d v * b)%R = (sg d v * slope_fn N l a b)%R.
Proof. rewrite slope_sym, slope_sg. reflexivity. Qed.

Lemma p3_flip d m F G (f : field N) v i : (forall x y z, F (sg d v * z) (sg d v * y) (sg d v * x) = sg d v * G x y z)%R ->
  p3 N d F (flip d m f) v i = flip d (m - 2) (p3 N d G f) v i.
Proof.
  intro H. unfold p3, flip. rewrite <- H. rewrite !getc_setc_eq, !setc_setc. f_equal; do 3 f_equal; lia.
Qed.
Lemma p3_flip_other a d m F (f : field N) v i : a <> d -> (forall x y z, F (sg d v * x) (sg d v * y) (sg d v * z) = sg d v * F x y z)%R ->
  p3 N a F (flip d m f) v i = flip d m (p3 N a F f) v i.
Proof.
  intros NE H. unfold p3, flip. rewrite <- H. rewrite !(getc_setc_ne a d), !(getc_setc_ne d a) by auto. rewrite !(setc_comm d a) by auto. reflexivity.
Qed.
Lemma muscl_l_flip l d v (x y z : R) : (muscl_l N l (sg d v * z) (sg d v * y) (sg d v * x) = sg d v * muscl_r N l x y z)%R.
Proof.
  unfold muscl_l, muscl_r. cbn [nsub nadd nmul RNum].
  replace (sg d v * y - sg d v * z)%R with (- (sg d v * (z - y)))%R by ring.
  replace (sg d v * x - sg d v * y)%R with (- (sg d v * (y - x)))%R by ring. rewrite slope_sg2. ringR.
Qed.
Lemma muscl_r_flip l d v (x y z : R) : (muscl_r N l (sg d v * z) (sg d v * y) (sg d v * x) = sg d v * muscl_l N l x y z)%R.
Proof.
  unfold muscl_l, muscl_r. cbn [nsub nadd nmul RNum].
  replace (sg d v * y - sg d v * z)%R with (- (sg d v * (z - y)))%R by ring.
  replace (sg d v * x - sg d v * y)%R with (- (sg d v * (y - x)))%R by ring. rewrite slope_sg2. ringR.
Qed.
Lemma muscl_l_same l d v (x y z : R) : (muscl_l N l (sg d v * x) (sg d v * y) (sg d v * z) = sg d v * muscl_l N l x y z)%R.
Proof.
  unfold muscl_l. cbn [nsub nadd nmul RNum].
  replace (sg d v * y - sg d v * x)%R with (sg d v * (y - x))%R by ring.
  replace (sg d v * z - sg d v * y)%R with (sg d v * (z - y))%R by ring. rewrite slope_sg3. ringR.
Qed.
Lemma muscl_r_same l d v (x y z : R) : (muscl_r N l (sg d v * x) (sg d v * y) (sg d v * z) = sg d v * muscl_r N l x y z)%R.
Proof.
  unfold muscl_r. cbn [nsub nadd nmul RNum].
  replace (sg d v * y - sg d v * x)%R with (sg d v * (y - x))%R by ring.
  replace (sg d v * z - sg d v * y)%R with (sg d v * (z - y))%R by ring. rewrite slope_sg3. ringR.
Qed.
Lemma p3_fun d F (f g : field N) v i : (forall v i, f v i = g v i) -> p3 N d F f v i = p3 N d F g v i.
Proof. intro H. unfold p3. rewrite !H. reflexivity. Qed.
Definition other_pos (pos : ipos) : ipos := match pos with P_l => P_r | P_r => P_l | _ => pos end.
Lemma trace_flip limit l d pos m f v i : pos = P_l \/ pos = P_r ->
  ptrace N p limit l d pos (flip d m f) v i = flip d (m - 2 * s d) (ptrace N p limit l d (other_pos pos) f) v i.
Proof.
  intro Hpos. unfold ptrace. destruct (limit && (getc d p =? 1)) eqn:E.
  - assert (S1 : s d = 1) by (zb; cbn beta; replace (getc d p) with 1; reflexivity). cbn beta in S1. rewrite S1.
    etransitivity; [apply p3_fun; intros; apply trans_flip|].
    destruct Hpos as [-> | ->]; apply p3_flip; intros; [apply muscl_l_flip|apply muscl_r_flip].
  - etransitivity; [apply psweep_fun; intros; apply trans_flip|]. etransitivity; [apply sweep_flip|].
    rewrite len_i by (try apply D; unfold lr_pos; tauto).
    destruct Hpos as [-> | ->]; cbn [other_pos]; [rewrite rev_l by apply D|rewrite rev_r by apply D]; reflexivity.
Qed.
Lemma trace_flip_other limit l a d pos m f v i : a <> d -> pos = P_l \/ pos = P_r ->
  ptrace N p limit l a pos (flip d m f) v i = flip d (m - 2 * s d) (ptrace N p limit l a pos f) v i.
Proof.
  intros NE Hpos. unfold ptrace. destruct (limit && (getc a p =? 1)) eqn:E.
  - etransitivity; [apply p3_fun; intros; apply trans_flip_other; exact NE|].
    destruct Hpos as [-> | ->]; apply p3_flip_other; auto; intros; [apply muscl_l_same|apply muscl_r_same].
  - etransitivity; [apply psweep_fun; intros; apply trans_flip_other; exact NE|]. apply sweep_flip_other. exact NE.
Qed.

(** ** the flux through a plane of symmetry *)
Lemma hllc_wall0 gam fl d (w : Z -> R) r : r <> vrow d -> hllc N gam fl d w (mirror d w) r = 0%R.
Proof.
  intro NE. set (q := hllc_compute N gam fl d w (mirror d w)).
  assert (C0 : (0 <= sound gam fl w)%R) by apply sqrt_pos.
  assert (VS : q_vstar q = 0%R).
  { unfold q, hllc_compute. cbn [q_vstar]. rewrite !sound_is, !m_sound. change (w (vrow d)) with (vel d w).
    change (mirror d w (vrow d)) with (vel d (mirror d w)). rewrite m_vel. change (mirror d w rRho) with (rho (mirror d w)). rewrite m_rho.
    change (mirror d w rE) with (press (mirror d w)). rewrite m_press. unfold rho, rRho, rE, press. cbn [nadd nsub nmul ndiv nmin nmax RNum].
    rewrite Rmax_left by lra. set (a := vel d w). set (cs := sound gam fl w).
    assert (MM : Rmax a (- a) = (- Rmin a (- a))%R) by (unfold Rmax, Rmin; destruct (Rle_dec a (- a)); lra).
    rewrite MM. match goal with |- (?n / _)%R = _ => replace n with 0%R by ring end. apply Rmult_0_l. }
  assert (V0 : q_v q = 0%R).
  { unfold q, hllc_compute in *. cbn [q_v q_vstar] in *. rewrite VS.
    rewrite !sound_is, !m_sound in *. change (w (vrow d)) with (vel d w) in *. change (mirror d w (vrow d)) with (vel d (mirror d w)) in *. rewrite m_vel in *.
    cbn [nadd nsub nmul ndiv nmin nmax nltb nofZ RNum] in *. rewrite Rmax_left by lra.
    set (a := vel d w) in *. set (cs := sound gam fl w) in *.
    replace (Rltb 0 (Rmin a (- a) - cs)) with false by (symmetry; apply Rltb_false; unfold Rmin; destruct (Rle_dec a (- a)); lra).
    replace (Rltb 0 0) with false by (symmetry; apply Rltb_false; lra).
    destruct (Rltb 0 (Rmax a (- a) + cs)) eqn:E; rb; [reflexivity|]. unfold Rmax in E. destruct (Rle_dec a (- a)); lra. }
  unfold hllc. fold q. rewrite V0. cbn [nadd nsub nmul ndiv nmin nmax nltb nofZ RNum].
  destr_if; [ringR|]. destr_if; [destr_if; [zb; contradiction|ringR]|]. destr_if; ringR.
Qed.
Lemma riemann_wall0 rs gam fl d (w : Z -> R) r : rs <> RS_upwind -> r <> vrow d -> riemann N rs gam fl d w (mirror d w) r = 0%R.
Proof.
  intros HR NE. destruct rs; [contradiction| |apply hllc_wall0; exact NE]. cbn [riemann]. rewrite llf_wall.
  replace (r =? comp d) with false by (symmetry; apply Z.eqb_neq; exact NE). reflexivity.
Qed.
Lemma wsum_zero ws (g : Z -> R) : (forall k, 0 <= k < Z.of_nat (length ws) -> g k = 0%R) -> wsum N ws g = 0%R.
Proof.
  intro H. rewrite (wsum_ext N ws g (fun _ => 0 * 0)%R) by (intros; rewrite H by assumption; symmetry; apply Rmult_0_l).
  rewrite (wsum_scale ws (fun _ => 0%R) 0%R). apply Rmult_0_l.
Qed.
Lemma integral_zero d (f : field N) v i : (forall j, getc d j = getc d i -> f v j = 0%R) -> pintegral N p d f v i = 0%R.
Proof.
  intro H. destruct d; unfold pintegral, recon_axes, psweep; apply wsum_zero; intros k1 _; apply wsum_zero; intros k2 _; apply H; reflexivity.
Qed.
Lemma prim_fun gam (f g : field N) : (forall v i, f v i = g v i) -> forall v i, pprim N p gam f v i = pprim N p gam g v i.
Proof. intros H v i. apply (op_local _ _ _ (op_pprim N p D gam)). auto. Qed.
Lemma trace_fun limit l d pos (f g : field N) : pos = P_l \/ pos = P_r -> (forall v i, f v i = g v i) -> forall v i, ptrace N p limit l d pos f v i = ptrace N p limit l d pos g v i.
Proof. intros Hpos H v i. apply (op_local _ _ _ (op_ptrace N p D limit l d pos Hpos)). auto. Qed.
Definition symmetric (d : axis) (m : Z) (f : field N) : Prop := forall v i, f v i = flip d m f v i.
Lemma prim_symmetric gam d m f : symmetric d m f -> symmetric d (m - 4 * s d) (pprim N p gam f).
Proof. intros H v i. rewrite <- prim_flip. apply prim_fun. exact H. Qed.
Lemma trace_symmetric limit l d m f : symmetric d m f -> forall v i,
  ptrace N p limit l d P_l f v i = flip d (m - 2 * s d) (ptrace N p limit l d P_r f) v i.
Proof. intros H v i. etransitivity; [|exact (trace_flip limit l d P_l m f v i (or_introl eq_refl))]. apply trace_fun; auto. Qed.
Lemma sg_mirror d (w : Z -> R) r : (sg d r * w r)%R = mirror d w r.
Proof. unfold sg, mirror. change (vrow d) with (comp d). destr_if; ring. Qed.
Lemma setc_getc d i : setc d (getc d i) i = i.
Proof. destruct d, i; reflexivity. Qed.
Lemma wall_flux (c : config N) l d E v i k : c_rs c <> RS_upwind -> v <> vrow d -> symmetric d (2 * k - 1) E -> getc d i = k ->
  gflux N c p l d E v i = 0%R.
Proof.
  intros HR NE HE Hi. unfold gflux, pflux. apply integral_zero. intros j Hj.
  rewrite getc_shift', getc_neg in Hj. unfold flux_off in Hj. rewrite getc_setc_eq in Hj.
  pose proof (prim_symmetric (c_gamma c) d _ _ HE) as HW. pose proof (trace_symmetric (limits l) l d _ _ HW) as HT.
  unfold pface. rewrite <- (riemann_wall0 (c_rs c) (c_gamma c) (c_csq_floor c) d (fun w => ptrace N p (limits l) l d P_r (pprim N p (c_gamma c) E) w j) v HR NE).
  apply cellwise_riemann; [reflexivity|]. intro w. rewrite HT. unfold flip. rewrite <- sg_mirror. f_equal.
  rewrite getc_setc_eq, setc_setc. f_equal. transitivity (setc d (getc d j) j); [|apply setc_getc]. f_equal. cbn beta. lia.
Qed.
End Deg.

(** ** walls of a box *)
Definition wall_face (n : Z) (pos : side) : Z := match pos with SL => 0 | SR => n end.
Lemma copied_wall (b : bcond N) n (u : arr R) d pos v j :
  bc_type b d pos = B_reflective -> 1 <= getc d n ->
  (match pos with SL => - getc d n <= getc d j < 0 | SR => getc d n <= getc d j < 2 * getc d n end) ->
  copied N b n u v j = (sg d v * copied N b n u v (setc d (2 * wall_face (getc d n) pos - 1 - getc d j) j))%R.
Proof.
  intros HB H1 HJ. set (j' := setc d _ j). unfold copied.
  assert (G : forall a, getc a j' = if axis_eqb a d then 2 * wall_face (getc d n) pos - 1 - getc d j else getc a j).
  { intro a. unfold j'. destruct (axis_dec a d) as [->|NE]; [rewrite axis_eqb_refl; apply getc_setc_eq|].
    replace (axis_eqb a d) with false by (symmetry; apply axis_eqb_neq; auto). apply getc_setc_ne. auto. }
  assert (FE : folded3 b n j = folded3 b n j').
  { apply ix_ext. intro a.
    assert (X : folded (bc_type b a SL) (bc_type b a SR) (getc a n) (getc a j) = folded (bc_type b a SL) (bc_type b a SR) (getc a n) (getc a j')).
    { rewrite G. destruct (axis_dec a d) as [->|NE].
      - rewrite axis_eqb_refl. unfold folded. destruct pos; rewrite HB; cbn [wall_face source]; repeat destr_if; zb; lia.
      - replace (axis_eqb a d) with false by (symmetry; apply axis_eqb_neq; auto). reflexivity. }
    destruct a; exact X. }
  rewrite <- FE. set (x := at_ u v (folded3 b n j)).
  assert (NG : forall a, negated (bc_type b a SL) (bc_type b a SR) (getc a n) (getc a j)
     = if axis_eqb a d then true else negated (bc_type b a SL) (bc_type b a SR) (getc a n) (getc a j')).
  { intro a. rewrite G. destruct (axis_dec a d) as [->|NE].
    - rewrite axis_eqb_refl. unfold negated. destruct pos; rewrite HB; cbn [is_reflective]; repeat destr_if; zb; try reflexivity; lia.
    - replace (axis_eqb a d) with false by (symmetry; apply axis_eqb_neq; auto). reflexivity. }
  assert (ND : negated (bc_type b d SL) (bc_type b d SR) (getc d n) (getc d j') = false).
  { rewrite G, axis_eqb_refl. unfold negated. destruct pos; cbn [wall_face]; repeat destr_if; zb; try reflexivity; lia. }
  assert (NN : negated3 b n j v = if v =? vrow d then true else negated3 b n j' v).
  { unfold negated3. rewrite !NG.
    destruct d; cbn [axis_eqb] in *; rewrite ?ND; destruct (Z.eqb_spec v (vrow AX)), (Z.eqb_spec v (vrow AY)), (Z.eqb_spec v (vrow AZ));
      cbn [vrow] in *; try (exfalso; congruence); cbn [andb orb]; rewrite ?orb_true_r, ?orb_false_r, ?andb_false_r; reflexivity. }
  assert (NV : v = vrow d -> negated3 b n j' v = false).
  { intros ->. unfold negated3. destruct d; cbn [vrow Z.eqb Pos.eqb andb orb]; rewrite ND; reflexivity. }
  rewrite NN. unfold sg. destruct (Z.eqb_spec v (vrow d)) as [E|E].
  - rewrite (NV E). cbn [nmul nofZ RNum]. apply Rmult_comm.
  - rewrite Rmult_1_l. reflexivity.
Qed.
Lemma flux_wall (c : config N) p l d (u : arr R) v i pos :
  good N c p -> active N c d = true -> bc_type (c_bc c) d pos = B_reflective -> ghost_zones c d <= getc d (c_n c) ->
  c_rs c <> RS_upwind -> v <> vrow d ->
  getc d (solver_width N c p) <= ghost_zones c d -> in_shape (c_n c) i ->
  gflux N c p l d (copied N (c_bc c) (c_n c) u) v (setc d (wall_face (getc d (c_n c)) pos) i) = 0%R.
Proof.
  intros G Ad HB HZ HR NE HW Hi. set (E := copied N (c_bc c) (c_n c) u). set (n := getc d (c_n c)) in *.
  set (k := wall_face n pos).
  pose (keep := fun x => match pos with SL => 0 <=? x | SR => x <? n end).
  pose (E' := (fun w j => if keep (getc d j) then E w j else sg d w * E w (setc d (2 * k - 1 - getc d j)%Z j))%R : field N).
  assert (KP : forall x, keep (2 * k - 1 - x) = negb (keep x)).
  { intro x. unfold keep, k, wall_face. destruct pos; [destruct (Z.leb_spec 0 x)|destruct (Z.ltb_spec x n)]; cbn [negb]; lia. }
  rewrite <- (wall_flux p (good_deg N c p G) c l d E' v (setc d k i) k); auto.
  - apply gflux_local; [apply (good_deg N c p G)|]. intros w j Hj. unfold E'. destruct (keep (getc d j)) eqn:KJ; [reflexivity|].
    assert (F : in_shape (face_shape d (c_n c)) (setc d k i)).
    { intro a. specialize (Hi a). destruct (G a) as [? _]. unfold face_shape, k, wall_face. destruct (axis_dec d a) as [<-|]; co; destruct pos; lia. }
    specialize (Hj d). rewrite axis_eqb_refl, getc_setc_eq in Hj.
    pose proof (ghost_width_ge p d (good_deg N c p G)) as GW. pose proof (sr_pos _ (good_deg N c p G d)) as SP. destruct (G d) as [N1 _]. fold n in N1.
    assert (WW : 3 * stencil_right (getc d p) + 1 <= n).
    { unfold solver_width in HW. rewrite getc_prim_width in HW. unfold interp_cost in HW. rewrite getc_active_width, Ad in HW. lia. }
    apply copied_wall; [exact HB|exact N1|]. fold n. unfold keep, k, wall_face in *. destruct pos; zb; lia.
  - intros w j. unfold flip, E'. rewrite getc_setc_eq, KP, setc_setc.
    destruct (keep (getc d j)) eqn:KJ; cbn [negb].
    + replace (2 * k - 1 - (2 * k - 1 - getc d j)) with (getc d j) by lia. rewrite setc_getc, <- Rmult_assoc, sg_sg. symmetry. apply Rmult_1_l.
    + reflexivity.
  - apply getc_setc_eq.
Qed.

(** C40: boxes whose active axes are closed by walls, or periodic if nothing is limited *)
Theorem walls_conserve (c : config N) heap i av T n exact db log fuel u0 o :
  tabulated c -> c_rs c <> RS_upwind ->
  (forall a, ~ inactive c a -> both_ends B_reflective c a \/ (c_limit c = false /\ both_ends B_periodic c a)) ->
  (c_limit c = true -> c_limiter c <> L_unknown) -> shp u0 = c_n c -> 2 <= rows u0 ->
  simulate c heap i av T n exact db log fuel u0 = Ok o ->
  rows (o_u o) = rows u0 /\ shp (o_u o) = c_n c /\
  forall v, ~ (1 <= v <= 3) -> total (c_n c) (at_ (o_u o) v) = total (c_n c) (at_ u0 v).
Proof.
  intros HT HR HE HL S0 R0 HS.
  assert (HC : closed c).
  { intro a. destruct (active N c a) eqn:A.
    - apply active_spec in A. right. destruct HT as [[Sn _ _ _] _]. specialize (Sn a).
      destruct (HE a A) as [[HB HZ]|[_ [HB HZ]]]; (split; [intro pos; rewrite HB; split; [exact I|]; cbn [enough]; destruct a; exact HZ|rewrite !HB; auto]).
    - left. unfold active in A. unfold ghost_zones3, ghost_zones, inactive_b. apply negb_false_iff in A.
      destruct a; cbn [getc cx cy cz] in *; rewrite A; reflexivity. }
  pose proof (tab_good N c HT) as G. pose proof (good_fallback N c G) as GF.
  apply (conserve_run (fun v => ~ (1 <= v <= 3)) c heap i av T n exact db log fuel u0 o); auto.
  intros u theta x t F dt Su Ru FO VF MO d Ad v j Hv Hj.
  assert (WM : getc d (solver_width N c (c_p c)) <= ghost_zones c d) by (pose proof (width_main N c HT d) as [_ W]; destruct d; exact W).
  assert (WF : getc d (solver_width N c (fallback_p N c)) <= ghost_zones c d) by (pose proof (width_fall N c HT d) as [_ W]; destruct d; exact W).
  assert (NV : v <> vrow d) by (intros ->; apply Hv; destruct d; cbn; lia).
  destruct (HE d (proj1 (active_spec N c d) Ad)) as [[HB HZ]|[L0 HB]].
  - assert (Z0 : forall pos, mixed N c theta (copied N (c_bc c) (c_n c) u) d v (setc d (wall_face (getc d (c_n c)) pos) j) = 0%R).
    { intro pos. unfold mixed. rewrite (flux_wall c (c_p c) L_none d u v j pos) by auto.
      destruct theta as [th|]; [|reflexivity]. rewrite (flux_wall c (fallback_p N c) (c_limiter c) d u v j pos) by auto.
      cbn [nadd nmul nsub nofZ RNum]. ringR. }
    exact (eq_trans (Z0 SR) (eq_sym (Z0 SL))).
  - destruct theta as [th|]; [destruct MO as [MO _]; congruence|]. unfold mixed. apply flux_periodic; auto.
Qed.
End Flip.
