(** The model computes the text-book scheme. *)
From Coq Require Import ZArith List Bool Lia Reals Lra.
From Verif Require Import Err Num PySlice NdArray HydroM RiemannM StencilsM FvM BcM SedM
  LimitM OdeM SolverM Spec SpecBc SpecSolver SpecCons SpecScheme NdArrayP FvP BcP BcQ OpP SolverP OdeP RelP RelS LimP RunP ConsP
  RiemannP HydroP SlopeP WallP ExistP.
Import ListNotations.
Open Scope Z_scope.

(** ** sums *)
Lemma wsum_sum (ws : list R) (g : Z -> R) : wsum RNum ws g = sum_to (length ws) (fun k => nth (Z.to_nat k) ws 0 * g k)%R.
Proof.
  unfold wsum. change (nofZ 0) with 0%R. induction ws as [|w ws IH] using rev_ind; [reflexivity|].
  rewrite wsum_from_app, app_length, Nat.add_1_r. cbn [sum_to wsum_from]. rewrite IH. rn. f_equal.
  - apply sum_ext. intros k Hk. rewrite app_nth1 by lia. reflexivity.
  - rewrite Nat2Z.id, app_nth2, Nat.sub_diag by lia. reflexivity.
Qed.
Lemma sum_swap n m (f : Z -> Z -> R) : sum_to n (fun x => sum_to m (f x)) = sum_to m (fun y => sum_to n (fun x => f x y)).
Proof.
  induction n as [|n IH]; cbn [sum_to]; [symmetry; apply sum_zero|]. rewrite IH. symmetry. apply sum_add.
Qed.
Lemma up_comm a b k j i : a <> b -> up a k (up b j i) = up b j (up a k i).
Proof. intro H. destruct a, b, i; try congruence; reflexivity. Qed.
Lemma line_comm a b ws ws' f v i : a <> b -> line a ws (line b ws' f) v i = line b ws' (line a ws f) v i.
Proof.
  intro H. unfold line.
  rewrite (sum_ext _ _ (fun k => sum_to (length ws') (fun k' =>
    nth (Z.to_nat k) ws 0 * (nth (Z.to_nat k') ws' 0 * f v (up b (k' - (Z.of_nat (length ws') - 1) / 2) (up a (k - (Z.of_nat (length ws) - 1) / 2) i))))%R)).
  2: { intros; symmetry; apply sum_scale. }
  rewrite sum_swap. apply sum_ext. intros k' _. rewrite <- sum_scale. apply sum_ext. intros k _.
  rewrite (up_comm a b) by exact H. ring.
Qed.
Lemma line_fun a ws f g : (forall v i, f v i = g v i) -> forall v i, line a ws f v i = line a ws g v i.
Proof. intros H v i. unfold line. apply sum_ext. intros. rewrite H. reflexivity. Qed.

(** ** operators whose result sits off centre *)
Local Notation field := (field RNum).
Definition centres (T : field -> field) (o : ix) (L : grid -> grid) : Prop :=
  forall f v i, T f v (shift (neg3 o) i) = L f v i.
Definition respectful (L : grid -> grid) : Prop := forall f g, (forall v i, f v i = g v i) -> forall v i, L f v i = L g v i.
Lemma centres_comp T r o L T' o' L' : op_ok RNum T r -> centres T o L -> centres T' o' L' ->
  centres (fun f => T (T' f)) (shift o o') (fun f => L (L' f)).
Proof.
  intros H C C' f v i.
  replace (shift (neg3 (shift o o')) i) with (shift (neg3 o') (shift (neg3 o) i)).
  - rewrite <- (op_shift RNum T r H). rewrite <- C. apply (op_local RNum T r H). intros w j _. apply C'.
  - apply ix_ext. intro a. rewrite !getc_shift', !getc_neg, getc_shift'. lia.
Qed.
Lemma centres_off T o o' L : (forall a, getc a o = getc a o') -> centres T o L -> centres T o' L.
Proof. intros E C. replace o' with o by (apply ix_ext; exact E). exact C. Qed.
Lemma centres_to T o L L' : (forall f v i, L f v i = L' f v i) -> centres T o L -> centres T o L'.
Proof. intros E C f v i. rewrite <- E. apply C. Qed.
Lemma centres_line a (ws : list R) s : Z.of_nat (length ws) = 2 * s + 1 -> centres (psweep RNum a ws) (setc a s zero3) (line a ws).
Proof.
  intros L f v i. unfold psweep, line. rewrite wsum_sum. apply sum_ext. intros k _.
  replace ((Z.of_nat (length ws) - 1) / 2) with s
    by (rewrite L; replace (2 * s + 1 - 1) with (s * 2) by lia; rewrite Z.div_mul; lia).
  do 2 f_equal.
  unfold up. apply ix_ext. intro b. destruct (axis_dec a b) as [<-|E].
  - rewrite !getc_setc_eq, getc_shift', getc_neg, getc_setc_eq. lia.
  - rewrite !getc_setc_ne, getc_shift', getc_neg, getc_setc_ne, getc_zero by exact E. lia.
Qed.
Lemma shift_none i : shift (neg3 zero3) i = i.
Proof. apply ix_ext. intro a. rewrite getc_shift', getc_neg, getc_zero. lia. Qed.
Lemma centres_cell F : centres (pcell RNum F) zero3 (fun f v i => F (fun r => f r i) v).
Proof. intros f v i. unfold pcell. rewrite shift_none. reflexivity. Qed.
Lemma shift_unit d o i : shift (neg3 (shift o (unit3 d))) i = shift (neg3 o) (up d (-1) i).
Proof.
  apply ix_ext. intro a. unfold up. rewrite !getc_shift', !getc_neg, getc_shift', getc_unit.
  destruct (axis_dec d a) as [<-|E].
  - rewrite axis_eqb_refl, getc_setc_eq. lia.
  - rewrite getc_setc_ne by exact E. replace (axis_eqb a d) with false by (symmetry; apply axis_eqb_neq; auto). lia.
Qed.
Lemma up_shift d o k i : setc d (getc d (shift (neg3 o) (up d (-1) i)) + k) (shift (neg3 o) (up d (-1) i)) = shift (neg3 o) (up d (k - 1) i).
Proof.
  apply ix_ext. intro a. unfold up. destruct (axis_dec d a) as [<-|E].
  - rewrite !getc_setc_eq, !getc_shift', !getc_setc_eq. lia.
  - rewrite !getc_setc_ne, !getc_shift', !getc_setc_ne by exact E. reflexivity.
Qed.
Lemma up_0 d i : up d 0 i = i.
Proof. unfold up. rewrite Z.add_0_r. apply setc_getc. Qed.
Lemma centres_p3 d F : centres (p3 RNum d F) (unit3 d) (fun f v i => F (f v (up d (-1) i)) (f v i) (f v (up d 1 i))).
Proof.
  intros f v i. unfold p3. pose proof (shift_unit d zero3 i) as E.
  replace (shift zero3 (unit3 d)) with (unit3 d) in E by (destruct d; reflexivity). rewrite E, !up_shift.
  rewrite !shift_none.
  change (1 - 1) with 0. change (2 - 1) with 1. rewrite up_0. reflexivity.
Qed.
Lemma centres_face d F R L o LR LL : cellwise2 RNum F -> centres R o LR -> centres L o LL ->
  centres (fun f => pface RNum d F (R f) (L f)) (shift o (unit3 d))
    (fun f v i => F (fun r => LR f r (up d (-1) i)) (fun r => LL f r i) v).
Proof.
  intros HF CR CL f v i. unfold pface. rewrite shift_unit. apply HF; intro w.
  - apply CR.
  - rewrite up_shift. change (1 - 1) with 0. rewrite up_0. apply CL.
Qed.

(** ** the stages of the scheme *)
Section Stages.
Context (wi : Z -> ipos -> list R) (wt : Z -> list R) (HW : tables wi wt).
Context (p : ix) (Hp : forall a, deg_ok (getc a p)).
Local Notation N := RNum.
Lemma wi_is a pos : lr_pos pos -> wts_i N (getc a p) pos = wi (getc a p) pos.
Proof.
  intro H. pose proof (proj1 (interpolation_weights_ok N (getc a p) pos (Hp a) H)) as E.
  rewrite (tab_i _ _ HW) in E; [congruence|apply Hp|]. unfold lr_pos in H. cbn [In]. intuition.
Qed.
Lemma wt_is a : wts_t N (getc a p) = wt (getc a p).
Proof.
  pose proof (proj1 (transverse_weights_ok N (getc a p) (Hp a))) as E. rewrite (tab_t _ _ HW) in E; [congruence|apply Hp].
Qed.
Lemma c_i a pos : lr_pos pos -> centres (psweep N a (wts_i N (getc a p) pos)) (setc a (stencil_right (getc a p)) zero3) (line a (wi (getc a p) pos)).
Proof.
  intro H. rewrite <- (wi_is a pos H). apply centres_line. apply (interpolation_weights_ok N (getc a p) pos (Hp a) H).
Qed.
Lemma c_t a : centres (psweep N a (wts_t N (getc a p))) (setc a (stencil_right (getc a p)) zero3) (line a (wt (getc a p))).
Proof. rewrite <- (wt_is a). apply centres_line. apply (transverse_weights_ok N (getc a p) (Hp a)). Qed.
Ltac off := let a := fresh in intro a; rewrite ?getc_shift', ?getc_scale3, ?getc_sr3; destruct a; cbn [setc getc cx cy cz zero3 unit3 scale3 sr3 shift]; lia.

Lemma block_flip ws f v i : line AZ (ws AZ) (line AY (ws AY) (line AX (ws AX) f)) v i = block ws f v i.
Proof.
  unfold block. rewrite (line_fun AZ _ _ (line AX (ws AX) (line AY (ws AY) f))) by (intros; apply line_comm; discriminate).
  rewrite line_comm by discriminate. apply line_fun. intros. apply line_comm. discriminate.
Qed.
Lemma c_centre : centres (pcentre N p) (sr3 p) (block (fun a => wi (getc a p) P_c)).
Proof.
  eapply centres_to; [intros; apply (block_flip (fun a => wi (getc a p) P_c))|].
  eapply centres_off; [|unfold pcentre; eapply (centres_comp _ _ _ _ _ _ _ (op_i N p Hp AZ P_c lr_c)); [apply (c_i AZ), lr_c|];
    eapply (centres_comp _ _ _ _ _ _ _ (op_i N p Hp AY P_c lr_c)); [apply (c_i AY), lr_c|apply (c_i AX), lr_c]]. off.
Qed.
Lemma c_average : centres (paverage N p) (sr3 p) (block (fun a => wt (getc a p))).
Proof.
  eapply centres_to; [intros; apply (block_flip (fun a => wt (getc a p)))|].
  eapply centres_off; [|unfold paverage; eapply (centres_comp _ _ _ _ _ _ _ (op_t N p Hp AZ)); [apply (c_t AZ)|];
    eapply (centres_comp _ _ _ _ _ _ _ (op_t N p Hp AY)); [apply (c_t AY)|apply (c_t AX)]]. off.
Qed.
Lemma primitive_is g u r : compute_primitives N g u r = primitive g u r.
Proof.
  unfold compute_primitives, primitive, rRho, rE, sum3, is_vel. rn. unfold nhalf. rn. unfold Rdiv.
  destruct (r =? 0) eqn:E0; zb; [subst; reflexivity|].
  destruct (r =? 4) eqn:E4; zb; [subst; cbn; lra|].
  destruct r as [|q|q]; try congruence; [|reflexivity].
  destruct q as [[q|q|]|[[q|q|]|[q|q|]|]|]; try congruence; repeat match goal with |- context [if ?b then _ else _] => destruct b end; reflexivity.
Qed.
Lemma c_prim (g : R) : centres (pprim N p g) (scale3 2 (sr3 p)) (primitives wi wt p g).
Proof.
  unfold primitives. eapply (centres_to _ _ (fun f => block (fun a => wt (getc a p)) (fun v i => compute_primitives N g (fun r => block (fun a => wi (getc a p) P_c) f r i) v))).
  - intros f v i. unfold block. do 3 (apply line_fun; clear; intros v i). apply primitive_is.
  - unfold pprim. eapply centres_off; [|eapply (centres_comp _ _ _ _ _ _ _ (op_paverage N p Hp)); [apply c_average|];
      exact (centres_comp _ _ _ _ _ _ _ (op_pcell N _ (cellwise_prim N g)) (centres_cell _) c_centre)].
    intro a. rewrite !getc_shift', getc_scale3, getc_sr3, getc_zero. lia.
Qed.
Lemma c_trans d : centres (ptrans N p d) (setc d 0 (sr3 p)) (across d (fun a => wi (getc a p) P_c)).
Proof.
  destruct d; unfold ptrans, interp_axes, across.
  - eapply centres_off; [|eapply (centres_comp _ _ _ _ _ _ _ (op_i N p Hp AY P_c lr_c)); [apply (c_i AY), lr_c|apply (c_i AZ), lr_c]]. off.
  - eapply centres_to; [intros; apply (line_comm AZ AX); discriminate|].
    eapply centres_off; [|eapply (centres_comp _ _ _ _ _ _ _ (op_i N p Hp AZ P_c lr_c)); [apply (c_i AZ), lr_c|apply (c_i AX), lr_c]]. off.
  - eapply centres_off; [|eapply (centres_comp _ _ _ _ _ _ _ (op_i N p Hp AX P_c lr_c)); [apply (c_i AX), lr_c|apply (c_i AY), lr_c]]. off.
Qed.
Lemma c_integral d : centres (pintegral N p d) (setc d 0 (sr3 p)) (across d (fun a => wt (getc a p))).
Proof.
  destruct d; unfold pintegral, recon_axes, across.
  - eapply centres_to; [intros; apply (line_comm AZ AY); discriminate|].
    eapply centres_off; [|eapply (centres_comp _ _ _ _ _ _ _ (op_t N p Hp AZ)); [apply (c_t AZ)|apply (c_t AY)]]. off.
  - eapply centres_to; [intros; apply (line_comm AZ AX); discriminate|].
    eapply centres_off; [|eapply (centres_comp _ _ _ _ _ _ _ (op_t N p Hp AZ)); [apply (c_t AZ)|apply (c_t AX)]]. off.
  - eapply centres_to; [intros; apply (line_comm AY AX); discriminate|].
    eapply centres_off; [|eapply (centres_comp _ _ _ _ _ _ _ (op_t N p Hp AY)); [apply (c_t AY)|apply (c_t AX)]]. off.
Qed.
Lemma across_fun d ws f g : (forall v i, f v i = g v i) -> forall v i, across d ws f v i = across d ws g v i.
Proof. intro H. destruct d; intros v i; do 2 (apply line_fun; intros); apply H. Qed.

Definition slope_of (l : limiter) : option (R -> R -> R) := if limits l then Some (slope_fn N l) else None.
Lemma c_trace l d pos : pos = P_l \/ pos = P_r ->
  centres (ptrace N p (limits l) l d pos) (sr3 p) (trace wi p (slope_of l) d pos).
Proof.
  intro HP. unfold ptrace, trace, slope_of.
  assert (PL : centres (fun f => psweep N d (wts_i N (getc d p) pos) (ptrans N p d f)) (sr3 p)
     (fun f => line d (wi (getc d p) pos) (across d (fun a => wi (getc a p) P_c) f))).
  { assert (LP : lr_pos pos) by (unfold lr_pos; tauto).
    eapply centres_off; [|eapply (centres_comp _ _ _ _ _ _ _ (op_i N p Hp d pos LP)); [apply (c_i d), LP|apply c_trans]].
    destruct d; off. }
  destruct (limits l) eqn:EL; cbn [andb]; [|exact PL].
  destruct (getc d p =? 1) eqn:E1; [|exact PL]. clear PL.
  assert (S1 : stencil_right (getc d p) = 1) by (zb; replace (getc d p) with 1; reflexivity).
  eapply (centres_to _ _ (fun f v i => let g := across d (fun a => wi (getc a p) P_c) f in
     (match pos with P_l => muscl_l N l | _ => muscl_r N l end) (g v (up d (-1) i)) (g v i) (g v (up d 1 i)))).
  - intros f v i. cbv zeta. unfold muscl_l, muscl_r, nhalf. rn. destruct HP as [-> | ->]; reflexivity.
  - eapply centres_off; [|exact (centres_comp _ _ _ _ _ _ _ (op_p3 N d _) (centres_p3 d _) (c_trans d))].
    destruct d; cbn [getc] in S1; intro a; rewrite ?getc_shift', ?getc_sr3; destruct a; cbn [setc getc cx cy cz zero3 unit3 sr3 shift]; lia.
Qed.

Context (c : config RNum).
Local Notation rie d := (riemann N (c_rs c) (c_gamma c) (c_csq_floor c) d).
Lemma c_flux l d (E : grid) v i : gflux N c p l d E v i =
  across d (fun a => wt (getc a p)) (fun v i =>
    rie d (fun r => trace wi p (slope_of l) d P_r (primitives wi wt p (c_gamma c) E) r (up d (-1) i))
          (fun r => trace wi p (slope_of l) d P_l (primitives wi wt p (c_gamma c) E) r i) v) v i.
Proof.
  unfold gflux.
  pose proof (centres_comp _ _ _ _ _ _ _ (op_pintegral N p Hp d) (c_integral d)
    (centres_face d (rie d) _ _ _ _ _ (cellwise_riemann N _ _ _ d) (c_trace l d P_r (or_intror eq_refl)) (c_trace l d P_l (or_introl eq_refl)))) as C1.
  pose proof (centres_comp _ _ _ _ _ _ _ (op_pflux N p Hp (limits l) l (c_rs c) (c_gamma c) (c_csq_floor c) d) C1 (c_prim (c_gamma c))) as C2.
  cbv beta in C2. refine (eq_trans _ (C2 E v i)). f_equal.
  apply ix_ext. intro a. rewrite !getc_shift', !getc_neg, !getc_shift', !getc_scale3, !getc_sr3, getc_unit. unfold flux_off.
  destruct (axis_dec d a) as [<-|Ne].
  - rewrite !getc_setc_eq, axis_eqb_refl. lia.
  - rewrite !getc_setc_ne, getc_scale3, getc_sr3 by exact Ne. replace (axis_eqb a d) with false by (symmetry; apply axis_eqb_neq; auto). lia.
Qed.
End Stages.

(** ** HLLC *)
Section Toro.
Context (gamma fl : R) (d : axis) (wl wr : state).
Local Notation q := (hllc_compute RNum gamma fl d wl wr).
Local Open Scope R_scope.
Lemma t_sl : q_Sl q = wave_left gamma fl d wl wr. Proof. exact (hllc_Sl gamma fl d wl wr). Qed.
Lemma t_sr : q_Sr q = wave_right gamma fl d wl wr. Proof. exact (hllc_Sr gamma fl d wl wr). Qed.
Lemma t_vs : q_vstar q = contact_speed gamma fl d wl wr.
Proof. unfold contact_speed, impedance_left, impedance_right. rewrite <- t_sl, <- t_sr. reflexivity. Qed.
Lemma t_ps : q_Pstar q = contact_pressure gamma fl d wl wr.
Proof. unfold contact_pressure, impedance_left, impedance_right. rewrite <- t_sl, <- t_sr. reflexivity. Qed.
Lemma t_rL : q_rL q = star gamma fl d wl wr (wave_left gamma fl d wl wr) wl 0.
Proof. unfold star. cbn [Z.eqb]. rewrite <- t_vs, <- t_sl. unfold Rdiv. rewrite <- Rmult_assoc. reflexivity. Qed.
Lemma t_rR : q_rR q = star gamma fl d wl wr (wave_right gamma fl d wl wr) wr 0.
Proof. unfold star. cbn [Z.eqb]. rewrite <- t_vs, <- t_sr. unfold Rdiv. rewrite <- Rmult_assoc. reflexivity. Qed.
Lemma t_EL : q_EL q = star gamma fl d wl wr (wave_left gamma fl d wl wr) wl 4.
Proof. unfold star. cbn [Z.eqb Pos.eqb]. rewrite <- t_vs, <- t_ps, <- t_sl. rewrite <- (cons_is gamma wl 4 : _ = total_energy gamma wl). reflexivity. Qed.
Lemma t_ER : q_ER q = star gamma fl d wl wr (wave_right gamma fl d wl wr) wr 4.
Proof. unfold star. cbn [Z.eqb Pos.eqb]. rewrite <- t_vs, <- t_ps, <- t_sr. rewrite <- (cons_is gamma wr 4 : _ = total_energy gamma wr). reflexivity. Qed.

Lemma sound_nonneg w : 0 <= sound gamma fl w.
Proof. apply sqrt_pos. Qed.
Lemma toro_is r : hllc RNum gamma fl d wl wr r = toro gamma fl d wl wr r.
Proof.
  rewrite hllc_gdv. pose proof (hllc_sample gamma fl d wl wr) as S. cbv zeta in S.
  unfold sector, Rltb in S. unfold toro. rewrite t_sl, t_sr, t_vs in S.
  pose proof (sound_nonneg wl). pose proof (sound_nonneg wr).
  destruct (Rlt_dec 0 (wave_left gamma fl d wl wr)) as [H1|H1].
  - rewrite (gdv_eq _ _ _ _ _ _ _ _ _ _ _ _ S). assert (V : 0 < vel d wl).
    { unfold wave_left in H1. pose proof (Rmax_l (sound gamma fl wl) (sound gamma fl wr)).
      pose proof (Rmin_l (vel d wl) (vel d wr)). lra. }
    unfold gdv_flux, euler_flux. destruct (r =? 0)%Z eqn:E0; [reflexivity|]. destruct (r =? 4)%Z; [reflexivity|].
    destruct (r =? comp d)%Z; [reflexivity|]. apply Rltb_true in V. rewrite V. reflexivity.
  - destruct (Rlt_dec 0 (contact_speed gamma fl d wl wr)) as [H2|H2].
    + rewrite (gdv_eq _ _ _ _ _ _ _ _ _ _ _ _ S). unfold gdv_flux, star_flux. rewrite t_rL, t_EL, t_ps. unfold star. cbn [Z.eqb Pos.eqb].
      apply Rltb_true in H2. rewrite H2.
      destruct (r =? 0)%Z eqn:E0; [apply Z.eqb_eq in E0; subst r; destruct d; cbn [comp Z.eqb]; (eqR; ring)|].
      destruct (r =? 4)%Z eqn:E4; [apply Z.eqb_eq in E4; subst r; destruct d; cbn [comp Z.eqb Pos.eqb]; (eqR; ring)|].
      destruct (r =? comp d)%Z; (eqR; ring).
    + destruct (Rlt_dec 0 (wave_right gamma fl d wl wr)) as [H3|H3].
      * rewrite (gdv_eq _ _ _ _ _ _ _ _ _ _ _ _ S). unfold gdv_flux, star_flux. rewrite t_rR, t_ER, t_ps. unfold star. cbn [Z.eqb Pos.eqb].
        assert (Rltb 0 (contact_speed gamma fl d wl wr) = false) as H2' by (apply Rltb_false; lra). rewrite H2'.
        destruct (r =? 0)%Z eqn:E0; [apply Z.eqb_eq in E0; subst r; destruct d; cbn [comp Z.eqb]; (eqR; ring)|].
        destruct (r =? 4)%Z eqn:E4; [apply Z.eqb_eq in E4; subst r; destruct d; cbn [comp Z.eqb Pos.eqb]; (eqR; ring)|].
        destruct (r =? comp d)%Z; [(eqR; ring)|]. destruct (Rltb (contact_speed gamma fl d wl wr) 0) eqn:E; [(eqR; ring)|].
        apply Rltb_false in E. replace (contact_speed gamma fl d wl wr) with 0 by lra. (eqR; ring).
      * rewrite (gdv_eq _ _ _ _ _ _ _ _ _ _ _ _ S). unfold gdv_flux, euler_flux. destruct (r =? 0)%Z eqn:E0; [reflexivity|]. destruct (r =? 4)%Z; [reflexivity|].
        destruct (r =? comp d)%Z; [reflexivity|].
        assert (V : vel d wr <= 0).
        { unfold wave_right in H3. pose proof (Rmax_l (sound gamma fl wl) (sound gamma fl wr)).
          pose proof (Rmax_r (vel d wl) (vel d wr)). lra. }
        replace (Rltb 0 (vel d wr)) with false by (symmetry; apply Rltb_false; lra).
        destruct (Rltb (vel d wr) 0) eqn:E; [reflexivity|]. apply Rltb_false in E. replace (vel d wr) with 0 by lra. (eqR; ring).
Qed.
End Toro.
Lemma riemann_is rs gamma fl d wl wr r : riemann RNum rs gamma fl d wl wr r = numerical_flux rs gamma fl d wl wr r.
Proof.
  destruct rs; cbn [riemann numerical_flux]; [apply upwind_is|apply llf_is|apply toro_is].
Qed.

(** ** time step *)
Lemma active_inactive {N} (c : config N) a : active N c a = negb (inactive_b c a).
Proof. reflexivity. Qed.
Lemma ndim_is (c : config RNum) : ndim RNum c =
  (if inactive_b c AX then 0 else 1) + (if inactive_b c AY then 0 else 1) + (if inactive_b c AZ then 0 else 1).
Proof.
  unfold ndim, dims, axes. cbn [filter]. rewrite !active_inactive.
  destruct (inactive_b c AX), (inactive_b c AY), (inactive_b c AZ); reflexivity.
Qed.
Lemma signal_is (c : config RNum) w : cell_speed RNum (ndim RNum c) (c_gamma c) (c_csq_floor c) w = signal_speed c w.
Proof.
  unfold cell_speed, signal_speed, sum3. rewrite ndim_is, sound_is. rn. reflexivity.
Qed.
Lemma min_h_is (c : config RNum) : min_h RNum c = Rmin (width c AX) (Rmin (width c AY) (width c AZ)).
Proof.
  unfold min_h. change (spacing RNum c) with (width c). rn.
  unfold Rltb, Rmin. repeat (destruct Rlt_dec || destruct Rle_dec); lra.
Qed.
Section Step.
Context (wi : Z -> ipos -> list R) (wt : Z -> list R) (HW : tables wi wt).
Context (c : config RNum) (HT : tabulated c).
Lemma zone_width a : getc a (active_width RNum c (ghost_width (c_p c))) =
  if inactive_b c a then 0 else Z.max (half_up (top_degree (c_p c)) + 1) (2 * half_up (top_degree (c_p c))).
Proof.
  rewrite getc_active_width, active_inactive. rewrite half_up_sr. unfold ghost_width. replace (pmax (c_p c)) with (top_degree (c_p c)) by (unfold pmax, top_degree; lia).
  destruct (inactive_b c a); reflexivity.
Qed.
Lemma gdt_is (E : grid) dt : gdt RNum c (c_p c) E = Ok dt ->
  time_step c (primitives wi wt (c_p c) (c_gamma c) E) dt.
Proof.
  pose proof (tab_good RNum c HT) as G. pose proof (good_deg RNum c _ G) as D.
  unfold gdt, time_step. destruct (c_fixed_dt c); [intro H; injection H as <-; reflexivity|].
  destruct (gspeed RNum c (c_p c) E) as [m|] eqn:EM; cbn [bind]; [|discriminate].
  intro H. injection H as <-. exists m. rewrite min_h_is. split; [|reflexivity].
  unfold gspeed in EM. apply reduce_max in EM. destruct EM as [U A].
  set (gw := active_width RNum c (ghost_width (c_p c))) in *.
  assert (V : forall i, cell_speed RNum (ndim RNum c) (c_gamma c) (c_csq_floor c) (fun r => pprim RNum (c_p c) (c_gamma c) E r
            (shift (neg3 (prim_width (c_p c) gw true)) i))
          = signal_speed c (fun r => primitives wi wt (c_p c) (c_gamma c) E r (shift (neg3 gw) i))).
  { intro i. rewrite signal_is. unfold signal_speed, sound, vel, rho, press.
    assert (P : forall r, pprim RNum (c_p c) (c_gamma c) E r (shift (neg3 (prim_width (c_p c) gw true)) i) =
       primitives wi wt (c_p c) (c_gamma c) E r (shift (neg3 gw) i)).
    { intro r. rewrite <- (c_prim wi wt HW (c_p c) D). f_equal. apply ix_ext. intro a.
      rewrite !getc_shift', !getc_neg, getc_prim_width, getc_scale3, getc_sr3. unfold interp_cost. lia. }
    rewrite !P. reflexivity. }
  assert (GW : forall a, getc a gw = if inactive_b c a then 0 else Z.max (half_up (top_degree (c_p c)) + 1) (2 * half_up (top_degree (c_p c))))
    by (intro; apply zone_width).
  split.
  - destruct A as (i & Hi & <-). exists (shift (neg3 gw) i). split; [|symmetry; apply V].
    intro a. cbv zeta. rewrite <- GW, getc_shift', getc_neg. specialize (Hi a). rewrite getc_padded in Hi. lia.
  - intros i Hi. specialize (U (shift gw i)). rewrite V in U.
    replace (shift (neg3 gw) (shift gw i)) with i in U
      by (apply ix_ext; intro; rewrite !getc_shift', getc_neg; lia).
    apply U. intro a. specialize (Hi a). cbv zeta in Hi. rewrite <- GW in Hi. rewrite getc_padded, getc_shift'. lia.
Qed.

Lemma gflux_is p l d E v i : (forall a, deg_ok (getc a p)) -> gflux RNum c p l d E v i = face_flux wi wt c p (slope_of l) d E v i.
Proof.
  intro D. rewrite (c_flux wi wt HW p D c). unfold face_flux. apply across_fun. intros. apply riemann_is.
Qed.
Lemma balance_is F v i : gsum RNum c F v i = balance c F v i.
Proof.
  unfold gsum, balance, dims, axes, gterm. cbn [filter]. rewrite !active_inactive.
  change (spacing RNum c) with (width c). unfold up, Rdiv. rn.
  destruct (inactive_b c AX), (inactive_b c AY), (inactive_b c AZ); cbn [negb fold_left]; eqR; unfold Rdiv; ring.
Qed.
Lemma balance_fun F G v i : (forall d v i, F d v i = G d v i) -> balance c F v i = balance c G v i.
Proof. intro H. unfold balance. rewrite !H. reflexivity. Qed.
Lemma low_is : fallback_p RNum c = low (c_p c).
Proof.
  destruct HT as [[_ Sp _ _] _]. pose proof (Sp AX). pose proof (Sp AY). pose proof (Sp AZ). cbn [getc] in *.
  unfold fallback_p, low. f_equal; destruct (0 <? _) eqn:E; zb; lia.
Qed.
Lemma slope_is slope : fallback_slope c slope -> slope_of (c_limiter c) = slope /\ c_limiter c <> L_unknown.
Proof.
  unfold fallback_slope, slope_of, slope_fn, limits.
  destruct (c_limiter c); [intros (s & H & ->)..| |].
  all: try (injection H as <-; split; [reflexivity|discriminate]).
  - intros ->. split; [reflexivity|discriminate].
  - intros (s & H & _). discriminate.
Qed.

Theorem scheme xc heap x t u x' dt dudt slope :
  fillable xc c (rows u) -> (c_limit c = true -> fallback_slope c slope) ->
  shp u = c_n c -> 2 <= rows u -> interface_arrays (c_n c) (rows u) (x_flux x) ->
  hydrodynamics RNum c heap x t u = Ok (x', (dt, dudt)) ->
  let E := extended RNum xc (c_bc c) (c_n c) t u in
  let hi d := face_flux wi wt c (c_p c) None d E in
  let lo d := face_flux wi wt c (low (c_p c)) slope d E in
  time_step c (primitives wi wt (c_p c) (c_gamma c) E) dt /\
  rows dudt = rows u /\ shp dudt = c_n c /\
  exists F theta, interface_arrays (c_n c) (rows u) F /\
    (forall d, ~ inactive c d -> forall v i, in_shape (interface_shape d (c_n c)) i -> at_ (F d) v i = hi d v i) /\
    weights_from c (fun j => heap (4 * (x_evals x + 1) + j)) t u F dt theta /\
    forall v i, in_shape (c_n c) i -> at_ dudt v i = balance c (blended theta hi lo) v i.
Proof.
  intros HA HL Su Ru FO H E hi lo.
  pose proof (tab_good RNum c HT) as G. pose proof (good_deg RNum c _ G) as D.
  pose proof (good_fallback RNum c G) as GF. pose proof (good_deg RNum c _ GF) as DF.
  destruct (hydrodynamics_lim RNum c heap x t u E x' dt dudt G Su Ru (sane_dims RNum c (proj1 HT)) FO
    (padding_fillable RNum xc c _ _ t u HT HA Su (width_main RNum c HT))) as (EDT & R1 & S1 & _ & _ & F & theta & FF & VF & MO & VK).
  - intro CL. destruct (slope_is slope (HL CL)) as [_ NU]. split; [exact NU|].
    apply padding_fillable; auto. apply width_fall; assumption.
  - exact H.
  - split; [apply gdt_is; exact EDT|]. split; [exact R1|]. split; [exact S1|].
    exists F, theta. split; [exact FF|]. split.
    { intros d Ad v i Hi. exact (eq_trans (VF d (proj2 (active_spec RNum c d) Ad) v i Hi) (gflux_is (c_p c) L_none d E v i D)). }
    split.
    { destruct theta as [th|]; [|exact MO]. destruct MO as (CL & det & f & E1 & _ & _ & E2 & E3 & E4). split; [exact CL|]. exists det, f. auto. }
    intros v i Hi. refine (eq_trans (VK v i Hi) (eq_trans (balance_is _ v i) _)). apply balance_fun. intros d v' i'.
    unfold mixed, blended. cbv zeta. destruct theta as [th|].
    + destruct MO as (CL & _). destruct (slope_is slope (HL CL)) as [SL _].
      rewrite !gflux_is by assumption. rewrite SL, low_is. reflexivity.
    + rewrite gflux_is by assumption. reflexivity.
Qed.
End Step.
Lemma tables_are : tables (wts_i RNum) (wts_t RNum).
Proof.
  split.
  - intros p pos D H. apply interpolation_weights_ok; [exact D|]. unfold lr_pos. cbn [In] in H. intuition.
  - intros p D. apply transverse_weights_ok. exact D.
Qed.
Lemma flow3d_rhs : forall xc heap t u, let c := flow3d B_periodic false in
  rows u = 5 -> shp u = c_n c ->
  tabulated c /\ fillable xc c 5 /\ exists y, solver_f RNum c heap (aux_init RNum c heap 5) t t u = Ok y.
Proof.
  intros xc heap t u c R S.
  assert (HT : tabulated c) by apply flow3d_tabulated. assert (HA : fillable xc c 5) by (apply flow3d_fillable; exact I).
  split; [exact HT|]. split; [exact HA|].
  destruct (f_ok RNum xc c heap 5 HT HA ltac:(lia) eq_refl (aux_init RNum c heap 5) t t u) as (x' & dt & k & E & _).
  - intro d. cbn. auto.
  - split; assumption.
  - eexists. exact E.
Qed.
