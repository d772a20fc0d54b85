(** The right-hand side is exact for polynomial densities carried by a uniform flow. *)
From Coq Require Import ZArith List Bool Reals Lra Lia.
From Coquelicot Require Import Coquelicot.
From Verif Require Import Err Num PySlice NdArray NdArrayP HydroM HydroP StencilsM FvM FvP RiemannM RiemannP
  BcM LimitM OdeM SolverM Spec SpecBc SpecSolver SpecCons SpecPoly PolyP StencilP SpecScheme SchemeP ExistP RunP SpecExact.
Import ListNotations.
Local Open Scope R_scope.

(** ** sums of products of one-dimensional functions *)
Inductive kind := KA | KP (o : R).
Definition upd (ks : axis -> kind) (a : axis) (k : kind) : axis -> kind := fun b => if axis_eqb a b then k else ks b.
Definition expo (a : axis) (t : mono) : nat :=
  let '(_, (x, y, z)) := t in match a with AX => x | AY => y | AZ => z end.

Section Tensor.
Context (xo h : axis -> R) (Hh : forall a, h a <> 0).
Definition KK (a : axis) (k : kind) (e : nat) (m : Z) : R :=
  match k with KA => mavg e (xo a + IZR m * h a) (h a) | KP o => (xo a + (IZR m + o) * h a) ^ e end.
Definition ten1 (ks : axis -> kind) (t : mono) (i : ix) : R :=
  fst t * KK AX (ks AX) (expo AX t) (cx i) * KK AY (ks AY) (expo AY t) (cy i) * KK AZ (ks AZ) (expo AZ t) (cz i).
Fixpoint ten (ks : axis -> kind) (l : list mono) (i : ix) : R :=
  match l with [] => 0 | t :: l' => ten1 ks t i + ten ks l' i end.
Lemma ten_ext ks ks' l i : (forall a, ks a = ks' a) -> ten ks l i = ten ks' l i.
Proof. intro H. induction l as [|t l IH]; [reflexivity|]. cbn [ten]. rewrite IH. unfold ten1. rewrite !H. reflexivity. Qed.

(** the factors along the other axes *)
Definition others (a : axis) (ks : axis -> kind) (t : mono) (i : ix) : R :=
  fst t * match a with
  | AX => KK AY (ks AY) (expo AY t) (cy i) * KK AZ (ks AZ) (expo AZ t) (cz i)
  | AY => KK AX (ks AX) (expo AX t) (cx i) * KK AZ (ks AZ) (expo AZ t) (cz i)
  | AZ => KK AX (ks AX) (expo AX t) (cx i) * KK AY (ks AY) (expo AY t) (cy i)
  end.
Lemma ten1_split a ks t i m : ten1 ks t (setc a m i) = others a ks t i * KK a (ks a) (expo a t) m.
Proof. unfold ten1, others. destruct a; cbn [setc NdArray.cx NdArray.cy NdArray.cz]; ring. Qed.
Lemma others_upd a ks k t i : others a (upd ks a k) t i = others a ks t i.
Proof. destruct a; reflexivity. Qed.
Lemma upd_same ks a k : upd ks a k a = k.
Proof. destruct a; reflexivity. Qed.

(** the polynomial along one line of cells *)
Fixpoint gen (a : axis) (ks : axis -> kind) (l : list mono) (i : ix) (x : R) : R :=
  match l with [] => 0 | t :: l' => others a ks t i * x ^ expo a t + gen a ks l' i x end.
Lemma gen_poly a ks l i n : List.Forall (fun t => (expo a t <= n)%nat) l -> is_poly n (gen a ks l i).
Proof.
  induction 1 as [|t l Ht _ IH]; [exact (is_poly_const _ 0)|]. cbn [gen].
  apply is_poly_plus; [|exact IH]. apply is_poly_scal, is_poly_pow. exact Ht.
Qed.
Lemma some_degree a l : exists n, List.Forall (fun t => (expo a t <= n)%nat) l.
Proof.
  induction l as [|t l [n IH]]; [exists 0%nat; constructor|].
  exists (n + expo a t)%nat. constructor; [lia|]. eapply Forall_impl; [|exact IH]. cbn. intros; lia.
Qed.
Lemma gen_average a ks l i x : average (gen a ks l i) x (h a) =
  (fix go l := match l with [] => 0 | t :: l' => others a ks t i * mavg (expo a t) x (h a) + go l' end) l.
Proof.
  induction l as [|t l IH].
  - cbn [gen]. unfold average. rewrite RInt_const. unfold scal; simpl; unfold mult; simpl. unfold Rdiv; ring.
  - change (gen a ks (t :: l) i) with (fun x => others a ks t i * x ^ expo a t + gen a ks l i x).
    destruct (some_degree a l) as [n Hn].
    rewrite (average_plus (fun x => others a ks t i * x ^ expo a t) (gen a ks l i)).
    + rewrite average_scal by apply pow_integrable. rewrite IH. reflexivity.
    + apply (ex_RInt_scal (V := R_NormedModule) (fun x => x ^ expo a t)). apply pow_integrable.
    + apply (poly_integrable n). apply gen_poly. exact Hn.
Qed.
Lemma ten_average a ks l i m : ks a = KA -> ten ks l (setc a m i) = average (gen a ks l i) (xo a + IZR m * h a) (h a).
Proof.
  intro H. rewrite gen_average. induction l as [|t l IH]; [reflexivity|].
  cbn [ten]. rewrite IH, ten1_split, H. reflexivity.
Qed.
Lemma ten_point a ks l i m o : ks a = KP o -> ten ks l (setc a m i) = gen a ks l i (xo a + (IZR m + o) * h a).
Proof.
  intro H. induction l as [|t l IH]; [reflexivity|].
  cbn [ten gen]. rewrite IH, ten1_split, H. reflexivity.
Qed.
Lemma gen_upd a ks k l i x : gen a (upd ks a k) l i x = gen a ks l i x.
Proof. induction l as [|t l IH]; [reflexivity|]. cbn [gen]. rewrite others_upd, IH. reflexivity. Qed.
Lemma setc_getc a i : setc a (getc a i) i = i.
Proof. destruct a, i; reflexivity. Qed.

Lemma line_wsum a ws s (f : grid) v i : Z.of_nat (length ws) = (2 * s + 1)%Z ->
  line a ws f v i = wsum RNum ws (fun k => f v (setc a (getc a i - s + k)%Z i)).
Proof.
  intro L. unfold line. rewrite wsum_sum. apply ConsP.sum_ext. intros k Hk. f_equal. f_equal. unfold up. f_equal.
  replace ((Z.of_nat (length ws) - 1) / 2)%Z with s; [lia|]. rewrite L.
  replace (2 * s + 1 - 1)%Z with (s * 2)%Z by lia. rewrite Z.div_mul by lia. reflexivity.
Qed.
Lemma affine_average al be (f : R -> R) n x hh : hh <> 0 -> is_poly n f -> average (fun t => al + be * f t) x hh = al + be * average f x hh.
Proof.
  intros Hx Pf.
  rewrite (average_plus (fun _ => al) (fun t => be * f t)).
  - rewrite average_scal by (apply (poly_integrable n); exact Pf). f_equal.
    unfold average. rewrite RInt_const. unfold scal; simpl; unfold mult; simpl. field. exact Hx.
  - apply ex_RInt_const.
  - apply (poly_integrable n). apply is_poly_scal. exact Pf.
Qed.
Lemma line_interp a p pos (f : grid) v i al be ks l :
  deg_ok p -> lr_pos pos -> List.Forall (fun t => (expo a t <= Z.to_nat p)%nat) l -> ks a = KA ->
  (forall k, (Z.abs k <= stencil_right p)%Z -> f v (up a k i) = al + be * ten ks l (up a k i)) ->
  line a (wts_i RNum p pos) f v i = al + be * ten (upd ks a (KP (offset pos))) l i.
Proof.
  intros Hp Hpos Dl Ka Hf. pose proof (proj2 (interpolation_weights_ok RNum p pos Hp Hpos)) as L.
  rewrite (line_wsum a _ (stencil_right p)) by exact L.
  refine (eq_trans (sweep_interp p pos (fun x => al + be * gen a ks l i x) (fun k => f v (setc a k i)) (xo a) (h a)
     (getc a i - stencil_right p) Hp Hpos _ (Hh a) _) _).
  - apply is_poly_plus; [apply is_poly_const|]. apply is_poly_scal, gen_poly. exact Dl.
  - intros k Hk.
    rewrite (affine_average _ _ _ (Z.to_nat p)) by (try apply Hh; apply gen_poly; exact Dl).
    rewrite <- ten_average by exact Ka.
    specialize (Hf (k - getc a i)%Z ltac:(lia)). unfold up in Hf.
    replace (getc a i + (k - getc a i))%Z with k in Hf by lia. exact Hf.
  - replace (getc a i - stencil_right p + stencil_right p)%Z with (getc a i) by lia.
    rewrite <- (gen_upd a ks (KP (offset pos))). rewrite <- ten_point by apply upd_same. rewrite setc_getc. reflexivity.
Qed.
Lemma line_recon a p (f : grid) v i al be ks l :
  deg_ok p -> List.Forall (fun t => (expo a t <= Z.to_nat p)%nat) l -> ks a = KP 0 ->
  (forall k, (Z.abs k <= stencil_right p)%Z -> f v (up a k i) = al + be * ten ks l (up a k i)) ->
  line a (wts_t RNum p) f v i = al + be * ten (upd ks a KA) l i.
Proof.
  intros Hp Dl Ka Hf. pose proof (proj2 (transverse_weights_ok RNum p Hp)) as L.
  rewrite (line_wsum a _ (stencil_right p)) by exact L.
  refine (eq_trans (sweep_recon p (fun x => al + be * gen a ks l i x) (fun k => f v (setc a k i)) (xo a) (h a)
     (getc a i - stencil_right p) Hp _ (Hh a) _) _).
  - apply is_poly_plus; [apply is_poly_const|]. apply is_poly_scal, gen_poly. exact Dl.
  - intros k Hk.
    specialize (Hf (k - getc a i)%Z ltac:(lia)). unfold up in Hf.
    replace (getc a i + (k - getc a i))%Z with k in Hf by lia.
    rewrite Hf, (ten_point a ks l i k 0 Ka). rewrite Rplus_0_r. reflexivity.
  - replace (getc a i - stencil_right p + stencil_right p)%Z with (getc a i) by lia.
    rewrite (affine_average _ _ _ (Z.to_nat p)) by (try apply Hh; apply gen_poly; exact Dl).
    rewrite <- (average_ext (gen a (upd ks a KA) l i)) by (intro; apply gen_upd).
    rewrite <- ten_average by apply upd_same. rewrite setc_getc. reflexivity.
Qed.

(** ** the stencils of the scheme *)
Context (p : ix) (Hp : forall a, deg_ok (getc a p)).
Context (l : list mono) (Dl : forall a, List.Forall (fun t => (expo a t <= Z.to_nat (getc a p))%nat) l).
Local Notation sr a := (stencil_right (getc a p)).
Definition within (m : axis -> Z) (i j : ix) : Prop := forall a, (Z.abs (getc a j - getc a i) <= m a)%Z.
Lemma within_trans m m' i j k : within m i j -> within m' j k -> within (fun a => m a + m' a)%Z i k.
Proof. intros H H' a. specialize (H a). specialize (H' a). lia. Qed.
Lemma within_le m m' i j : (forall a, (m a <= m' a)%Z) -> within m i j -> within m' i j.
Proof. intros H H' a. specialize (H a). specialize (H' a). lia. Qed.
Lemma sr_pos a : (0 <= sr a)%Z.
Proof. apply stencil_right_nonneg. destruct (Hp a). assumption. Qed.

Ltac wi3 := let b := fresh "b" in intro b; pose proof (sr_pos AX); pose proof (sr_pos AY); pose proof (sr_pos AZ);
  destruct b; cbn [up setc getc NdArray.cx NdArray.cy NdArray.cz] in *; lia.
Lemma block_interp (f : grid) v i al be :
  (forall j, within (fun a => sr a) i j -> f v j = al + be * ten (fun _ => KA) l j) ->
  block (fun a => wts_i RNum (getc a p) P_c) f v i = al + be * ten (fun _ => KP 0) l i.
Proof.
  intro H. unfold block.
  assert (HC : lr_pos P_c) by (right; left; reflexivity).
  rewrite (line_interp AX (cx p) P_c _ v i al be (upd (upd (fun _ => KA) AZ (KP 0)) AY (KP 0)) l (Hp AX) HC (Dl AX) eq_refl).
  - f_equal. f_equal. apply ten_ext. intros []; reflexivity.
  - intros k Hk.
    apply (line_interp AY (cy p) P_c _ v _ al be (upd (fun _ => KA) AZ (KP 0)) l (Hp AY) HC (Dl AY) eq_refl).
    intros k' Hk'.
    apply (line_interp AZ (cz p) P_c _ v _ al be (fun _ => KA) l (Hp AZ) HC (Dl AZ) eq_refl).
    intros k2 Hk2. apply H. wi3.
Qed.
Lemma block_recon (f : grid) v i al be :
  (forall j, within (fun a => sr a) i j -> f v j = al + be * ten (fun _ => KP 0) l j) ->
  block (fun a => wts_t RNum (getc a p)) f v i = al + be * ten (fun _ => KA) l i.
Proof.
  intro H. unfold block.
  rewrite (line_recon AX (cx p) _ v i al be (upd (upd (fun _ => KP 0) AZ KA) AY KA) l (Hp AX) (Dl AX) eq_refl).
  - f_equal. f_equal. apply ten_ext. intros []; reflexivity.
  - intros k Hk.
    apply (line_recon AY (cy p) _ v _ al be (upd (fun _ => KP 0) AZ KA) l (Hp AY) (Dl AY) eq_refl).
    intros k' Hk'.
    apply (line_recon AZ (cz p) _ v _ al be (fun _ => KP 0) l (Hp AZ) (Dl AZ) eq_refl).
    intros k2 Hk2. apply H. wi3.
Qed.
Definition flat (d a : axis) : Z := if axis_eqb d a then 0%Z else sr a.
Lemma across_interp d (f : grid) v i al be :
  (forall j, within (flat d) i j -> f v j = al + be * ten (fun _ => KA) l j) ->
  across d (fun a => wts_i RNum (getc a p) P_c) f v i = al + be * ten (upd (fun _ => KP 0) d KA) l i.
Proof.
  intro H. unfold across.
  assert (HC : lr_pos P_c) by (right; left; reflexivity).
  destruct d.
  - rewrite (line_interp AY (cy p) P_c _ v i al be (upd (fun _ => KA) AZ (KP 0)) l (Hp AY) HC (Dl AY) eq_refl).
    + f_equal. f_equal. apply ten_ext. intros []; reflexivity.
    + intros k Hk. apply (line_interp AZ (cz p) P_c _ v _ al be (fun _ => KA) l (Hp AZ) HC (Dl AZ) eq_refl).
      intros k2 Hk2. apply H. unfold flat. intros []; cbn [axis_eqb up setc getc NdArray.cx NdArray.cy NdArray.cz] in *; lia.
  - rewrite (line_interp AX (cx p) P_c _ v i al be (upd (fun _ => KA) AZ (KP 0)) l (Hp AX) HC (Dl AX) eq_refl).
    + f_equal. f_equal. apply ten_ext. intros []; reflexivity.
    + intros k Hk. apply (line_interp AZ (cz p) P_c _ v _ al be (fun _ => KA) l (Hp AZ) HC (Dl AZ) eq_refl).
      intros k2 Hk2. apply H. unfold flat. intros []; cbn [axis_eqb up setc getc NdArray.cx NdArray.cy NdArray.cz] in *; lia.
  - rewrite (line_interp AX (cx p) P_c _ v i al be (upd (fun _ => KA) AY (KP 0)) l (Hp AX) HC (Dl AX) eq_refl).
    + f_equal. f_equal. apply ten_ext. intros []; reflexivity.
    + intros k Hk. apply (line_interp AY (cy p) P_c _ v _ al be (fun _ => KA) l (Hp AY) HC (Dl AY) eq_refl).
      intros k2 Hk2. apply H. unfold flat. intros []; cbn [axis_eqb up setc getc NdArray.cx NdArray.cy NdArray.cz] in *; lia.
Qed.
Lemma across_recon d o (f : grid) v i al be :
  (forall j, within (flat d) i j -> f v j = al + be * ten (upd (fun _ => KP 0) d (KP o)) l j) ->
  across d (fun a => wts_t RNum (getc a p)) f v i = al + be * ten (upd (fun _ => KA) d (KP o)) l i.
Proof.
  intro H. unfold across. destruct d.
  - rewrite (line_recon AY (cy p) _ v i al be (upd (upd (fun _ => KP 0) AX (KP o)) AZ KA) l (Hp AY) (Dl AY) eq_refl).
    + f_equal. f_equal. apply ten_ext. intros []; reflexivity.
    + intros k Hk. apply (line_recon AZ (cz p) _ v _ al be (upd (fun _ => KP 0) AX (KP o)) l (Hp AZ) (Dl AZ) eq_refl).
      intros k2 Hk2. apply H. unfold flat. intros []; cbn [axis_eqb up setc getc NdArray.cx NdArray.cy NdArray.cz] in *; lia.
  - rewrite (line_recon AX (cx p) _ v i al be (upd (upd (fun _ => KP 0) AY (KP o)) AZ KA) l (Hp AX) (Dl AX) eq_refl).
    + f_equal. f_equal. apply ten_ext. intros []; reflexivity.
    + intros k Hk. apply (line_recon AZ (cz p) _ v _ al be (upd (fun _ => KP 0) AY (KP o)) l (Hp AZ) (Dl AZ) eq_refl).
      intros k2 Hk2. apply H. unfold flat. intros []; cbn [axis_eqb up setc getc NdArray.cx NdArray.cy NdArray.cz] in *; lia.
  - rewrite (line_recon AX (cx p) _ v i al be (upd (upd (fun _ => KP 0) AZ (KP o)) AY KA) l (Hp AX) (Dl AX) eq_refl).
    + f_equal. f_equal. apply ten_ext. intros []; reflexivity.
    + intros k Hk. apply (line_recon AY (cy p) _ v _ al be (upd (fun _ => KP 0) AZ (KP o)) l (Hp AY) (Dl AY) eq_refl).
      intros k2 Hk2. apply H. unfold flat. intros []; cbn [axis_eqb up setc getc NdArray.cx NdArray.cy NdArray.cz] in *; lia.
Qed.
(** value at a face, seen from the cells on either side *)
Lemma ten_other_side d l' ks i : ten (upd ks d (KP (1/2))) l' (up d (-1) i) = ten (upd ks d (KP (-(1/2)))) l' i.
Proof.
  pose proof (ten_point d (upd ks d (KP (-(1/2)))) l' i (getc d i) (-(1/2)) (upd_same _ _ _)) as E. rewrite setc_getc in E.
  rewrite E. unfold up. rewrite (ten_point d _ l' i _ (1/2)) by apply upd_same. rewrite !gen_upd. f_equal.
  rewrite plus_IZR. f_equal. f_equal. lra.
Qed.
End Tensor.

(** ** uniform velocity and pressure *)
Lemma flux_rows rs gamma fl d wl wr wl' wr' r :
  (forall q, (0 <= q <= 4)%Z \/ q = r -> wl q = wl' q) -> (forall q, (0 <= q <= 4)%Z \/ q = r -> wr q = wr' q) ->
  numerical_flux rs gamma fl d wl wr r = numerical_flux rs gamma fl d wl' wr' r.
Proof.
  intros HL HR.
  assert (Qc : (0 <= comp d <= 4)%Z) by (destruct d; cbn; lia).
  assert (L0 := HL 0%Z ltac:(lia)). assert (L1 := HL 1%Z ltac:(lia)). assert (L2 := HL 2%Z ltac:(lia)).
  assert (L3 := HL 3%Z ltac:(lia)). assert (L4 := HL 4%Z ltac:(lia)). assert (Lr := HL r ltac:(lia)).
  assert (R0 := HR 0%Z ltac:(lia)). assert (R1 := HR 1%Z ltac:(lia)). assert (R2 := HR 2%Z ltac:(lia)).
  assert (R3 := HR 3%Z ltac:(lia)). assert (R4 := HR 4%Z ltac:(lia)). assert (Rr := HR r ltac:(lia)).
  assert (EL : conserved gamma wl r = conserved gamma wl' r).
  { unfold conserved, total_energy, rho, press, vel, comp. destruct r as [|[[|[]|]|[|[]|]|]|]; congruence. }
  assert (ER : conserved gamma wr r = conserved gamma wr' r).
  { unfold conserved, total_energy, rho, press, vel, comp. destruct r as [|[[|[]|]|[|[]|]|]|]; congruence. }
  assert (VL : vel d wl = vel d wl') by (apply HL; auto). assert (VR : vel d wr = vel d wr') by (apply HR; auto).
  assert (TL : total_energy gamma wl = total_energy gamma wl') by (unfold total_energy, rho, press, vel, comp; congruence).
  assert (TR : total_energy gamma wr = total_energy gamma wr') by (unfold total_energy, rho, press, vel, comp; congruence).
  assert (FL : euler_flux gamma d wl r = euler_flux gamma d wl' r) by (unfold euler_flux, rho, press; rewrite TL, VL, L0, L4, Lr; reflexivity).
  assert (FR : euler_flux gamma d wr r = euler_flux gamma d wr' r) by (unfold euler_flux, rho, press; rewrite TR, VR, R0, R4, Rr; reflexivity).
  assert (SL : sound gamma fl wl = sound gamma fl wl') by (unfold sound, rho, press; rewrite L0, L4; reflexivity).
  assert (SR : sound gamma fl wr = sound gamma fl wr') by (unfold sound, rho, press; rewrite R0, R4; reflexivity).
  destruct rs; cbn [numerical_flux].
  - unfold donor, transport_flux. rewrite VL, VR, EL, ER. reflexivity.
  - unfold rusanov. rewrite VL, VR, EL, ER, FL, FR, SL, SR. reflexivity.
  - assert (WL : wave_left gamma fl d wl wr = wave_left gamma fl d wl' wr') by (unfold wave_left; congruence).
    assert (WR : wave_right gamma fl d wl wr = wave_right gamma fl d wl' wr') by (unfold wave_right; congruence).
    assert (IL : impedance_left gamma fl d wl wr = impedance_left gamma fl d wl' wr') by (unfold impedance_left, rho; congruence).
    assert (IR : impedance_right gamma fl d wl wr = impedance_right gamma fl d wl' wr') by (unfold impedance_right, rho; congruence).
    assert (CS : contact_speed gamma fl d wl wr = contact_speed gamma fl d wl' wr') by (unfold contact_speed, press; congruence).
    assert (CP : contact_pressure gamma fl d wl wr = contact_pressure gamma fl d wl' wr') by (unfold contact_pressure, press; congruence).
    assert (ST : forall S q, q = 0%Z \/ q = 4%Z \/ q = comp d \/ q = r ->
       star gamma fl d wl wr S wl q = star gamma fl d wl' wr' S wl' q /\ star gamma fl d wl wr S wr q = star gamma fl d wl' wr' S wr' q).
    { intros S q Hq. assert (Q : (0 <= q <= 4)%Z \/ q = r) by (destruct d; cbn in *; lia).
      unfold star, rho, press. rewrite CS, CP, VL, VR, TL, TR, L0, L4, R0, R4, (HL q Q), (HR q Q). auto. }
    unfold toro. rewrite WL, WR, CS, CP, FL, FR. unfold star_flux.
    pose proof (fun S => proj1 (ST S r ltac:(auto))) as Sl. pose proof (fun S => proj2 (ST S r ltac:(auto))) as Sr'.
    pose proof (fun S => proj1 (ST S (comp d) ltac:(auto))) as Scl. pose proof (fun S => proj2 (ST S (comp d) ltac:(auto))) as Scr.
    rewrite ?Sl, ?Sr', ?Scl, ?Scr. reflexivity.
Qed.
Lemma flux_same rs gamma fl d V P s r q : 0 < fl -> 1 <= gamma -> 0 <= P -> 0 < r ->
  numerical_flux rs gamma fl d (drifting V P s r) (drifting V P s r) q =
    (match rs with RS_upwind => 0 | _ => if (q =? comp d)%Z then P else if (q =? 4)%Z then V d * P else 0 end)
    + V d * conserved gamma (drifting V P s r) q.
Proof.
  intros Hf Hg HP Hr. rewrite <- riemann_is. unfold riemann.
  set (w := drifting V P s r).
  assert (Pw : physical w) by (split; assumption).
  assert (HV : vel d w = V d) by (destruct d; reflexivity).
  assert (E : euler_flux gamma d w q = (if (q =? comp d)%Z then P else if (q =? 4)%Z then V d * P else 0) + V d * conserved gamma w q).
  { unfold euler_flux, conserved. rewrite HV.
    destruct (Z.eqb_spec q 0) as [->|N0]; [destruct d; cbn; unfold rho; lra|].
    destruct (Z.eqb_spec q 4) as [->|N4]; [destruct d; cbn -[total_energy]; unfold press; cbn -[total_energy]; lra|].
    assert (C : conserved gamma w q = rho w * w q).
    { unfold conserved. destruct q as [|[[|[]|]|[|[]|]|]|]; try reflexivity; contradiction. }
    unfold conserved in C. rewrite C.
    destruct (Z.eqb_spec q (comp d)) as [->|Nc]; [|lra]. change (w (comp d)) with (vel d w). rewrite HV. change (press w) with P. ring. }
  destruct rs.
  - rewrite upwind_consistent. unfold transport_flux. rewrite HV. lra.
  - rewrite llf_consistent. exact E.
  - rewrite hllc_consistent by assumption. exact E.
Qed.
Lemma cons_affine gamma V P s r q : conserved gamma (drifting V P s r) q =
  conserved gamma (drifting V P s 0) q + (conserved gamma (drifting V P s 1) q - conserved gamma (drifting V P s 0) q) * r.
Proof.
  unfold conserved, total_energy, rho, press, vel. cbn [comp drifting].
  destruct q as [|[[|[]|]|[|[]|]|]|]; cbn [drifting]; try ring; lra.
Qed.
Definition dens (v : Z) : R := if (v =? 0)%Z then 1 else 0.
Lemma drift_affine V P s r v : drifting V P s r v = drifting V P s 0 v + dens v * r.
Proof. unfold dens. destruct v as [|[[|[]|]|[|[]|]|]|]; cbn; ring. Qed.
Lemma primitive_back gamma V P s r v : r <> 0 -> gamma <> 1 ->
  primitive gamma (conserved gamma (drifting V P s r)) v = drifting V P s r v.
Proof.
  intros Hr Hg. unfold primitive, conserved, total_energy, rho, press, vel. cbn [comp drifting].
  destruct v as [|[[|[]|]|[|[]|]|]|]; cbn [drifting]; field; auto; lra.
Qed.
Lemma primitive_rows gamma u u' v : (forall q, (0 <= q <= 4)%Z \/ q = v -> u q = u' q) -> primitive gamma u v = primitive gamma u' v.
Proof.
  intro H. unfold primitive. rewrite (H 0%Z), (H 1%Z), (H 2%Z), (H 3%Z), (H 4%Z) by lia.
  destruct v as [|[[|[]|]|[|[]|]|]|]; rewrite ?H by auto; reflexivity.
Qed.

(** ** means and derivatives *)
Definition scaled (be : R) (l : list mono) : list mono := map (fun t : mono => (be * fst t, snd t)) l.
Definition affine (al be : R) (l : list mono) : list mono := (al, (0, 0, 0)%nat) :: scaled be l.
Lemma peval_scaled be l x y z : peval3 (scaled be l) x y z = be * peval3 l x y z.
Proof.
  induction l as [|[k [[a b] c]] l IH]; [cbn; ring|]. cbn [scaled map peval3] in *. fold (scaled be l). rewrite IH. cbn [fst snd tval]. ring.
Qed.
Lemma peval_affine al be l x y z : peval3 (affine al be l) x y z = al + be * peval3 l x y z.
Proof. unfold affine. cbn [peval3 tval pow]. rewrite peval_scaled. ring. Qed.
Lemma peval_app l l' x y z : peval3 (l ++ l') x y z = peval3 l x y z + peval3 l' x y z.
Proof. induction l as [|t l IH]; cbn [app peval3]; [ring|]. rewrite IH. ring. Qed.

Section Means.
Context (xo h : axis -> R) (Hh : forall a, h a <> 0).
Local Notation tn := (ten xo h).
Lemma ten_scaled ks be l i : tn ks (scaled be l) i = be * tn ks l i.
Proof.
  induction l as [|[k [[a b] c]] l IH]; [cbn; ring|]. cbn [scaled map ten] in *. fold (scaled be l). rewrite IH. unfold ten1. cbn [fst snd expo]. ring.
Qed.
Lemma ten_app ks l l' i : tn ks (l ++ l') i = tn ks l i + tn ks l' i.
Proof. induction l as [|t l IH]; cbn [app ten]; [ring|]. rewrite IH. ring. Qed.
Lemma mavg_0 x hh : hh <> 0 -> mavg 0 x hh = 1.
Proof.
  intro H. unfold mavg, average. cbn [pow]. rewrite RInt_const. unfold scal; simpl; unfold mult; simpl. field. exact H.
Qed.
Lemma ten_affine al be l i : tn (fun _ => KA) (affine al be l) i = al + be * tn (fun _ => KA) l i.
Proof.
  unfold affine. cbn [ten]. rewrite ten_scaled. unfold ten1. cbn [fst expo KK]. rewrite !mavg_0 by apply Hh. ring.
Qed.
Lemma mean_is f l i : (forall x y z, f x y z = peval3 l x y z) ->
  average3 f (xo AX + IZR (cx i) * h AX) (xo AY + IZR (cy i) * h AY) (xo AZ + IZR (cz i) * h AZ) (h AX) (h AY) (h AZ)
  = tn (fun _ => KA) l i.
Proof.
  intro E. unfold average3.
  set (X := xo AX + _). set (Y := xo AY + _). set (Z := xo AZ + _).
  transitivity (peval3 (map (avg_x X (h AX)) (map (avg_y Y (h AY)) (map (avg_z Z (h AZ)) l))) 0 0 0).
  - rewrite <- average_x. apply average_ext. intro x'.
    rewrite <- average_y. apply average_ext. intro y'.
    rewrite <- average_z. apply average_ext. intro z'. apply E.
  - clear E. induction l as [|[k [[a b] c]] l IH]; [reflexivity|]. cbn [map peval3 ten]. rewrite IH.
    f_equal. unfold ten1. cbn [avg_x avg_y avg_z tval fst expo KK pow]. fold X Y Z. ring.
Qed.

(** derivative along an axis *)
Definition dmono (a : axis) (t : mono) : mono :=
  let '(k, (x, y, z)) := t in
  match a with
  | AX => (INR x * k, (pred x, y, z)) | AY => (INR y * k, (x, pred y, z)) | AZ => (INR z * k, (x, y, pred z))
  end.
Lemma pow_mean e x hh : hh <> 0 -> INR e * mavg (pred e) x hh = ((x + hh / 2) ^ e - (x - hh / 2) ^ e) / hh.
Proof.
  intro H. unfold mavg, average.
  assert (D : is_RInt (fun t => INR e * t ^ pred e) (x - hh / 2) (x + hh / 2) ((x + hh / 2) ^ e - (x - hh / 2) ^ e)).
  { apply (is_RInt_derive (fun t => t ^ e)).
    - intros t _. replace (INR e * t ^ pred e) with (INR e * 1 * t ^ pred e) by ring.
      apply (is_derive_pow (fun t => t) e t 1). apply @is_derive_id.
    - intros t _. apply (continuous_scal_r (INR e) (fun t => t ^ pred e)).
      apply continuity_pt_filterlim, derivable_continuous_pt, derivable_pt_pow. }
  rewrite <- (is_RInt_unique (V := R_CompleteNormedModule) _ _ _ _ D).
  rewrite (RInt_scal (fun t => t ^ pred e)) by apply pow_integrable. unfold scal; simpl; unfold mult; simpl. unfold Rdiv. ring.
Qed.
Lemma kk_diff a e m : INR e * KK xo h a KA (pred e) m = (KK xo h a (KP (1/2)) e m - KK xo h a (KP (-(1/2))) e m) / h a.
Proof.
  cbn [KK]. rewrite pow_mean by apply Hh. f_equal. f_equal; f_equal; lra.
Qed.
Lemma ten_dmono a l i : tn (fun _ => KA) (map (dmono a) l) i =
  (tn (upd (fun _ => KA) a (KP (1/2))) l i - tn (upd (fun _ => KA) a (KP (-(1/2)))) l i) / h a.
Proof.
  induction l as [|[k [[x y] z]] l IH]; [cbn [map ten]; field; apply Hh|].
  cbn [map ten]. rewrite IH.
  assert (E : ten1 xo h (fun _ => KA) (dmono a (k, (x, y, z))) i =
     (ten1 xo h (upd (fun _ => KA) a (KP (1/2))) (k, (x, y, z)) i - ten1 xo h (upd (fun _ => KA) a (KP (-(1/2)))) (k, (x, y, z)) i) / h a).
  { unfold ten1. destruct a; cbn [dmono upd axis_eqb fst expo].
    - replace (INR x * k * KK xo h AX KA (pred x) (cx i)) with (k * (INR x * KK xo h AX KA (pred x) (cx i))) by ring.
      rewrite kk_diff. unfold Rdiv. ring.
    - replace (INR y * k * KK xo h AX KA x (cx i) * KK xo h AY KA (pred y) (cy i)) with (k * KK xo h AX KA x (cx i) * (INR y * KK xo h AY KA (pred y) (cy i))) by ring.
      rewrite kk_diff. unfold Rdiv. ring.
    - replace (INR z * k * KK xo h AX KA x (cx i) * KK xo h AY KA y (cy i) * KK xo h AZ KA (pred z) (cz i)) with (k * KK xo h AX KA x (cx i) * KK xo h AY KA y (cy i) * (INR z * KK xo h AZ KA (pred z) (cz i))) by ring.
      rewrite kk_diff. unfold Rdiv. ring. }
  rewrite E. unfold Rdiv. ring.
Qed.
Lemma ten_dmono_0 a l i : List.Forall (fun t => expo a t = 0%nat) l -> tn (fun _ => KA) (map (dmono a) l) i = 0.
Proof.
  induction 1 as [|[k [[x y] z]] l Ht _ IH]; [reflexivity|]. cbn [map ten]. rewrite IH.
  unfold ten1. destruct a; cbn [dmono fst expo] in *; subst; cbn [INR]; ring.
Qed.
End Means.

Lemma derive_x l x y z : is_derive (fun s => peval3 l s y z) x (peval3 (map (dmono AX) l) x y z).
Proof.
  induction l as [|[k [[a b] c]] l IH]; [exact (is_derive_const (K := R_AbsRing) (V := R_NormedModule) 0 x)|].
  cbn [map peval3]. apply (is_derive_plus (K := R_AbsRing) (V := R_NormedModule) (fun s => tval (k, (a, b, c)) s y z) (fun s => peval3 l s y z)); [|exact IH]. cbn [tval dmono].
  apply (is_derive_ext (fun s => (k * y ^ b * z ^ c) * s ^ a)); [intro; eqR; ring|].
  replace (INR a * k * x ^ pred a * y ^ b * z ^ c) with ((k * y ^ b * z ^ c) * (INR a * 1 * x ^ pred a)) by ring.
  apply (is_derive_scal (fun s => s ^ a)). apply (is_derive_pow (fun t => t) a x 1). apply @is_derive_id.
Qed.
Lemma derive_y l x y z : is_derive (fun s => peval3 l x s z) y (peval3 (map (dmono AY) l) x y z).
Proof.
  induction l as [|[k [[a b] c]] l IH]; [exact (is_derive_const (K := R_AbsRing) (V := R_NormedModule) 0 y)|].
  cbn [map peval3]. apply (is_derive_plus (K := R_AbsRing) (V := R_NormedModule) (fun s => tval (k, (a, b, c)) x s z) (fun s => peval3 l x s z)); [|exact IH]. cbn [tval dmono].
  apply (is_derive_ext (fun s => (k * x ^ a * z ^ c) * s ^ b)); [intro; eqR; ring|].
  replace (INR b * k * x ^ a * y ^ pred b * z ^ c) with ((k * x ^ a * z ^ c) * (INR b * 1 * y ^ pred b)) by ring.
  apply (is_derive_scal (fun s => s ^ b)). apply (is_derive_pow (fun t => t) b y 1). apply @is_derive_id.
Qed.
Lemma derive_z l x y z : is_derive (fun s => peval3 l x y s) z (peval3 (map (dmono AZ) l) x y z).
Proof.
  induction l as [|[k [[a b] c]] l IH]; [exact (is_derive_const (K := R_AbsRing) (V := R_NormedModule) 0 z)|].
  cbn [map peval3]. apply (is_derive_plus (K := R_AbsRing) (V := R_NormedModule) (fun s => tval (k, (a, b, c)) x y s) (fun s => peval3 l x y s)); [|exact IH]. cbn [tval dmono].
  apply (is_derive_ext (fun s => (k * x ^ a * y ^ b) * s ^ c)); [intro; eqR; ring|].
  replace (INR c * k * x ^ a * y ^ b * z ^ pred c) with ((k * x ^ a * y ^ b) * (INR c * 1 * z ^ pred c)) by ring.
  apply (is_derive_scal (fun s => s ^ c)). apply (is_derive_pow (fun t => t) c z 1). apply @is_derive_id.
Qed.
Lemma derive_affine al be (f : R -> R) x d : is_derive f x d -> Derive (fun s => al + be * f s) x = be * d.
Proof.
  intro H. apply is_derive_unique. replace (be * d) with (plus 0 (be * d)) by (unfold plus; simpl; ring).
  apply @is_derive_plus; [apply @is_derive_const|]. apply (is_derive_scal f). exact H.
Qed.

(** ** the right-hand side *)
Section Whole.
Context (c : config RNum) (HT : tabulated c).
Context (l : list mono) (Dl : degree3 (Z.to_nat (cx (c_p c))) (Z.to_nat (cy (c_p c))) (Z.to_nat (cz (c_p c))) l).
Context (V : axis -> R) (P : R) (s : Z -> R).
Context (Hf : 0 < c_csq_floor c) (Hg : 1 < c_gamma c) (HP : 0 <= P).
Context (HB : forall a, fst (c_bounds c a) < snd (c_bounds c a)).
Context (E : grid) (nr : Z) (Hnr : (5 <= nr)%Z) (i : ix).
Local Notation g := (c_gamma c).
Local Notation p := (c_p c).
Local Notation sr a := (stencil_right (getc a p)).
Local Notation fluid := (drifting V P s).
Context (HE : forall j, seen_from c i j ->
  (forall x y z, in_cell c j x y z -> 0 < peval3 l x y z) /\
  forall r, (0 <= r < nr)%Z -> E r j = cell_mean c (fun x y z => conserved g (fluid (peval3 l x y z)) r) j).
Let xo (a : axis) : R := middle_of c a 0.
Let h (a : axis) : R := width c a.
Local Notation tn := (ten xo h).

Lemma h_pos a : 0 < h a.
Proof.
  unfold h, width. apply Rdiv_lt_0_compat; [specialize (HB a); lra|]. apply IZR_lt.
  pose proof (sane_n c (proj1 HT) a). lia.
Qed.
Lemma h_ne a : h a <> 0. Proof. pose proof (h_pos a). lra. Qed.
Lemma at_centre a k : middle_of c a k = xo a + IZR k * h a.
Proof. unfold xo, h, middle_of. ring. Qed.
Lemma p_ok a : deg_ok (getc a p).
Proof. split; [apply (sane_p c (proj1 HT))|apply HT]. Qed.
Lemma deg_all a : List.Forall (fun t => (expo a t <= Z.to_nat (getc a p))%nat) l.
Proof. eapply Forall_impl; [|exact Dl]. intros [k [[x y] z]] H. destruct a; cbn in *; tauto. Qed.

(** how far each stage looks *)
Lemma reach_is a : reach c a = if inactive_b c a then 0%Z else Z.max (3 * sr a + 1) (4 * sr a).
Proof. unfold reach. rewrite !half_up_sr. reflexivity. Qed.
Lemma idle a : inactive_b c a = true -> getc a p = 0%Z.
Proof. unfold inactive_b. intro H. apply andb_prop in H. destruct H as [_ H]. apply Z.eqb_eq in H. exact H. Qed.

Definition ca q := conserved g (fluid 0) q.
Definition cb q := conserved g (fluid 1) q - conserved g (fluid 0) q.
Lemma data j r : seen_from c i j -> (0 <= r < nr)%Z -> E r j = ca r + cb r * tn (fun _ => KA) l j.
Proof.
  intros H Hr. rewrite (proj2 (HE j H) r Hr). unfold cell_mean. rewrite !at_centre.
  rewrite (mean_is xo h _ (affine (ca r) (cb r) l)).
  - apply ten_affine. exact h_ne.
  - intros x y z. rewrite peval_affine. apply cons_affine.
Qed.
Lemma centre_point j : tn (fun _ => KP 0) l j = peval3 l (middle_of c AX (cx j)) (middle_of c AY (cy j)) (middle_of c AZ (cz j)).
Proof.
  rewrite !at_centre. clear. induction l as [|[k [[a b] d]] l' IH]; [reflexivity|]. cbn [ten peval3]. rewrite IH. f_equal.
  unfold ten1. cbn [fst expo KK tval]. rewrite !Rplus_0_r. ring.
Qed.
Lemma centre_positive j : seen_from c i j -> 0 < tn (fun _ => KP 0) l j.
Proof.
  intro H. rewrite centre_point. apply (HE j H). unfold in_cell. rewrite !Rminus_eq_0, Rabs_R0.
  pose proof (h_pos AX). pose proof (h_pos AY). pose proof (h_pos AZ). unfold h in *. lra.
Qed.

Lemma prim_is j v : (forall k, within (fun a => 2 * sr a)%Z j k -> seen_from c i k) -> (0 <= v < nr)%Z ->
  primitives (wts_i RNum) (wts_t RNum) p g E v j = fluid 0 v + dens v * tn (fun _ => KA) l j.
Proof.
  intros H Hv. unfold primitives.
  apply (block_recon xo h h_ne p p_ok l deg_all). intros k Hk.
  assert (C : forall q, (0 <= q < nr)%Z -> block (fun a => wts_i RNum (getc a p) P_c) E q k = conserved g (fluid (tn (fun _ => KP 0) l k)) q).
  { intros q Hq. rewrite (block_interp xo h h_ne p p_ok l deg_all E q k (ca q) (cb q)).
    - symmetry. apply cons_affine.
    - intros m Hm. apply data; [|exact Hq]. apply H. eapply within_le; [|exact (within_trans _ _ _ _ _ Hk Hm)]. intro a. cbv beta. lia. }
  rewrite (primitive_rows _ _ (conserved g (fluid (tn (fun _ => KP 0) l k)))).
  - rewrite primitive_back; [apply drift_affine| |lra].
    apply Rgt_not_eq. apply centre_positive. apply H. eapply within_le; [|exact Hk].
    intro a. pose proof (sr_pos p p_ok a). cbv beta. lia.
  - intros q Hq. apply C. lia.
Qed.
Lemma trace_is d pos j v : pos = P_l \/ pos = P_r ->
  (forall k, within (fun a => 3 * sr a)%Z j k -> seen_from c i k) -> (0 <= v < nr)%Z ->
  trace (wts_i RNum) p None d pos (primitives (wts_i RNum) (wts_t RNum) p g E) v j =
  fluid (tn (upd (fun _ => KP 0) d (KP (offset pos))) l j) v.
Proof.
  intros Hpos H Hv. unfold trace. rewrite drift_affine.
  assert (LP : lr_pos pos) by (unfold lr_pos; tauto).
  rewrite (line_interp xo h h_ne d (getc d p) pos _ v j (fluid 0 v) (dens v) (upd (fun _ => KP 0) d KA) l (p_ok d) LP (deg_all d) (upd_same _ _ _)).
  - f_equal. f_equal. apply ten_ext. intro a. unfold upd. destruct (axis_eqb d a); reflexivity.
  - intros k Hk. apply (across_interp xo h h_ne p p_ok l deg_all). intros m Hm.
    apply prim_is; [|exact Hv]. intros n Hn. apply H. intro a.
    specialize (Hm a). specialize (Hn a). unfold flat in Hm. pose proof (sr_pos p p_ok a).
    destruct d, a; cbn [axis_eqb up setc getc NdArray.cx NdArray.cy NdArray.cz] in *; lia.
Qed.
Definition half (d a : axis) : R := if axis_eqb d a then - (width c a / 2) else 0.
Lemma face_point d j : tn (upd (fun _ => KP 0) d (KP (-(1/2)))) l j =
  peval3 l (middle_of c AX (cx j) + half d AX) (middle_of c AY (cy j) + half d AY) (middle_of c AZ (cz j) + half d AZ).
Proof.
  rewrite !at_centre. unfold half. fold (h AX) (h AY) (h AZ). clear.
  induction l as [|[k [[a b] e]] l' IH]; [reflexivity|]. cbn [ten peval3]. rewrite IH. f_equal.
  assert (Q : forall x m hh, x + (m + -(1/2)) * hh = x + m * hh + -(hh/2)) by (intros; lra).
  unfold ten1. destruct d; cbn [fst expo tval upd axis_eqb KK]; rewrite !Rplus_0_r, Q; reflexivity.
Qed.
Definition konst d q := match c_rs c with RS_upwind => 0 | _ => if (q =? comp d)%Z then P else if (q =? 4)%Z then V d * P else 0 end.
Lemma face_is d j v : inactive_b c d = false -> (0 <= v < nr)%Z -> j = i \/ j = up d 1 i ->
  face_flux (wts_i RNum) (wts_t RNum) c p None d E v j =
  (konst d v + V d * ca v) + (V d * cb v) * tn (upd (fun _ => KA) d (KP (-(1/2)))) l j.
Proof.
  intros Hd Hv Hj. unfold face_flux.
  apply (across_recon xo h h_ne p p_ok l deg_all). intros k Hk.
  set (r := tn (upd (fun _ => KP 0) d (KP (-(1/2)))) l k).
  assert (Near : forall k2 m, k2 = k \/ k2 = up d (-1) k -> within (fun a => 3 * sr a)%Z k2 m -> seen_from c i m).
  { intros k2 m Hk2 Hm a. rewrite reach_is.
    destruct (inactive_b c a) eqn:Ia.
    - assert (da : axis_eqb d a = false) by (destruct d, a; cbn; congruence).
      specialize (Hk a). specialize (Hm a). cbv beta in Hm. unfold flat in Hk. rewrite da in Hk. rewrite (idle a Ia) in Hk, Hm.
      change (stencil_right 0) with 0%Z in *.
      assert (getc a k2 = getc a k) by (destruct Hk2 as [->| ->]; [reflexivity|destruct d, a; try reflexivity; discriminate]).
      assert (getc a j = getc a i) by (destruct Hj as [->| ->]; [reflexivity|destruct d, a; try reflexivity; discriminate]). lia.
    - specialize (Hk a). specialize (Hm a). cbv beta in Hm. unfold flat in Hk. pose proof (sr_pos p p_ok a).
      assert (axis_eqb d a = false -> getc a k2 = getc a k /\ getc a j = getc a i).
      { intro da. split; [destruct Hk2 as [->| ->]|destruct Hj as [->| ->]]; try reflexivity; destruct d, a; try reflexivity; discriminate. }
      assert (axis_eqb d a = true -> (getc a k - 1 <= getc a k2 <= getc a k /\ getc a i <= getc a j <= getc a i + 1)%Z).
      { intro da. split; [destruct Hk2 as [->| ->]|destruct Hj as [->| ->]]; destruct d, a; try discriminate; cbn; lia. }
      destruct (axis_eqb d a).
      + destruct (H1 eq_refl). lia.
      + destruct (H0 eq_refl). lia. }
  rewrite (flux_rows _ _ _ d _ _ (fluid r) (fluid r)).
  - rewrite flux_same; try assumption; try lra.
    + rewrite cons_affine. unfold konst, ca, cb. ring.
    + unfold r. rewrite face_point. apply (HE k).
      * apply (Near k); [left; reflexivity|]. intro a. pose proof (sr_pos p p_ok a). rewrite Z.sub_diag. cbn [Z.abs]. lia.
      * pose proof (h_pos AX) as HX. pose proof (h_pos AY) as HY. pose proof (h_pos AZ) as HZ. unfold h in HX, HY, HZ.
        unfold in_cell. destruct d; cbn [half axis_eqb]; rewrite ?Rplus_0_r; unfold middle_of;
        repeat split; apply Rabs_le; split; lra.
  - intros q Hq.
    rewrite (trace_is d P_r) by (try (right; reflexivity); try lia; intros m Hm; apply (Near (up d (-1) k)); auto).
    f_equal. exact (ten_other_side xo h d l _ k).
  - intros q Hq.
    rewrite (trace_is d P_l) by (try (left; reflexivity); try lia; intros m Hm; apply (Near k); auto).
    reflexivity.
Qed.

Lemma euler_affine d v r : euler_flux g d (fluid r) v =
  ((if (v =? comp d)%Z then P else if (v =? 4)%Z then V d * P else 0) + V d * ca v) + (V d * cb v) * r.
Proof.
  assert (HV : vel d (fluid r) = V d) by (destruct d; reflexivity).
  replace (_ + V d * ca v + V d * cb v * r) with ((if (v =? comp d)%Z then P else if (v =? 4)%Z then V d * P else 0) + V d * conserved g (fluid r) v)
    by (rewrite cons_affine; unfold ca, cb; ring).
  unfold euler_flux. rewrite HV.
  destruct (Z.eqb_spec v 0) as [->|N0]; [destruct d; cbn; unfold rho; lra|].
  destruct (Z.eqb_spec v 4) as [->|N4]; [destruct d; cbn -[total_energy]; unfold press; cbn -[total_energy]; lra|].
  assert (C : conserved g (fluid r) v = rho (fluid r) * fluid r v).
  { unfold conserved. destruct v as [|[[|[]|]|[|[]|]|]|]; try reflexivity; contradiction. }
  rewrite C.
  destruct (Z.eqb_spec v (comp d)) as [->|Nc]; [|lra]. change (fluid r (comp d)) with (vel d (fluid r)). rewrite HV. change (press (fluid r)) with P. ring.
Qed.
Definition dlist v : list mono :=
  scaled (V AX * cb v) (map (dmono AX) l) ++ scaled (V AY * cb v) (map (dmono AY) l) ++ scaled (V AZ * cb v) (map (dmono AZ) l).
Lemma divergence_is v x y z : divergence (fun a x y z => euler_flux g a (fluid (peval3 l x y z)) v) x y z = peval3 (dlist v) x y z.
Proof.
  unfold divergence, dlist. rewrite !peval_app, !peval_scaled.
  rewrite (Derive_ext _ _ x (fun s => euler_affine AX v (peval3 l s y z))), (derive_affine _ _ (fun s => peval3 l s y z) _ _ (derive_x l x y z)).
  rewrite (Derive_ext _ _ y (fun s => euler_affine AY v (peval3 l x s z))), (derive_affine _ _ (fun s => peval3 l x s z) _ _ (derive_y l x y z)).
  rewrite (Derive_ext _ _ z (fun s => euler_affine AZ v (peval3 l x y s))), (derive_affine _ _ (fun s => peval3 l x y s) _ _ (derive_z l x y z)).
  ring.
Qed.
Lemma out_is d v : (0 <= v < nr)%Z ->
  (if inactive_b c d then 0 else
     (face_flux (wts_i RNum) (wts_t RNum) c p None d E v (up d 1 i) - face_flux (wts_i RNum) (wts_t RNum) c p None d E v i) / width c d)
  = V d * cb v * tn (fun _ => KA) (map (dmono d) l) i.
Proof.
  intro Hv. destruct (inactive_b c d) eqn:Hd.
  - rewrite ten_dmono_0; [ring|]. eapply Forall_impl; [|exact (deg_all d)]. intros t Ht. rewrite (idle d Hd) in Ht. cbn in Ht. lia.
  - rewrite !face_is by auto. rewrite (ten_dmono xo h h_ne).
    pose proof (ten_other_side xo h d l (fun _ => KA) (up d 1 i)) as O.
    replace (up d (-1) (up d 1 i)) with i in O
      by (unfold up; destruct d, i; cbn [setc getc NdArray.cx NdArray.cy NdArray.cz]; f_equal; lia).
    rewrite <- O. unfold Rdiv. fold (h d). ring.
Qed.
Lemma balance_exact v : (0 <= v < nr)%Z ->
  balance c (fun d => face_flux (wts_i RNum) (wts_t RNum) c p None d E) v i =
  - cell_mean c (divergence (fun a x y z => euler_flux g a (fluid (peval3 l x y z)) v)) i.
Proof.
  intro Hv. unfold balance. rewrite !out_is by exact Hv. f_equal.
  unfold cell_mean. rewrite !at_centre. rewrite (mean_is xo h _ (dlist v)) by (intros; apply divergence_is).
  unfold dlist. rewrite !ten_app, !ten_scaled. ring.
Qed.
End Whole.

Theorem transport_exact : forall (c : config RNum) xc heap x self_t t u x' dt dudt l V P s i,
  tabulated c -> fillable xc c (rows u) -> c_limit c = false ->
  0 < c_csq_floor c -> 1 < c_gamma c -> (forall a, fst (c_bounds c a) < snd (c_bounds c a)) ->
  shp u = c_n c -> (5 <= rows u)%Z -> interface_arrays (c_n c) (rows u) (x_flux x) ->
  degree3 (Z.to_nat (cx (c_p c))) (Z.to_nat (cy (c_p c))) (Z.to_nat (cz (c_p c))) l -> 0 <= P ->
  in_shape (c_n c) i ->
  (forall j, seen_from c i j ->
    (forall x y z, in_cell c j x y z -> 0 < peval3 l x y z) /\
    forall r, (0 <= r < rows u)%Z -> extended RNum xc (c_bc c) (c_n c) self_t u r j =
      cell_mean c (fun x y z => conserved (c_gamma c) (drifting V P s (peval3 l x y z)) r) j) ->
  solver_f RNum c heap x self_t t u = Ok (x', (dt, dudt)) ->
  forall r, (0 <= r < rows u)%Z ->
    at_ dudt r i = - cell_mean c (divergence (fun a x y z => euler_flux (c_gamma c) a (drifting V P s (peval3 l x y z)) r)) i.
Proof.
  intros c xc heap x self_t t u x' dt dudt l V P s i HT HA HL Hf Hg HB Su Ru FO Dl HP Hi HE Hs r Hr.
  destruct (scheme _ _ tables_are c HT xc heap x self_t u x' dt dudt None HA ltac:(congruence) Su ltac:(lia) FO Hs)
    as (_ & _ & _ & F & theta & _ & _ & HW & HD).
  rewrite (HD r i Hi).
  destruct theta as [th|].
  - destruct HW as [HW _]. congruence.
  - exact (balance_exact c HT l Dl V P s Hf Hg HP HB _ (rows u) Ru i HE r Hr).
Qed.


(** the same for cells whose neighbours all lie in the domain *)
Lemma extended_inside xc b n t (u : arr R) r j : in_shape n j -> extended RNum xc b n t u r j = at_ u r j.
Proof.
  intro H. unfold extended, extend. pose proof (H AX). pose proof (H AY). pose proof (H AZ).
  repeat match goal with
  | |- context [(?a <? 0)%Z] => destruct (Z.ltb_spec a 0); [lia|]
  | |- context [(?a <=? ?b)%Z] => destruct (Z.leb_spec a b); [lia|]
  end. reflexivity.
Qed.
Theorem transport_exact_inside : forall (c : config RNum) xc heap x self_t t u x' dt dudt l V P s i,
  tabulated c -> fillable xc c (rows u) -> c_limit c = false ->
  0 < c_csq_floor c -> 1 < c_gamma c -> (forall a, fst (c_bounds c a) < snd (c_bounds c a)) ->
  shp u = c_n c -> (5 <= rows u)%Z -> interface_arrays (c_n c) (rows u) (x_flux x) ->
  degree3 (Z.to_nat (cx (c_p c))) (Z.to_nat (cy (c_p c))) (Z.to_nat (cz (c_p c))) l -> 0 <= P ->
  (forall j, seen_from c i j -> in_shape (c_n c) j /\
    (forall x y z, in_cell c j x y z -> 0 < peval3 l x y z) /\
    forall r, (0 <= r < rows u)%Z ->
      at_ u r j = cell_mean c (fun x y z => conserved (c_gamma c) (drifting V P s (peval3 l x y z)) r) j) ->
  solver_f RNum c heap x self_t t u = Ok (x', (dt, dudt)) ->
  forall r, (0 <= r < rows u)%Z ->
    at_ dudt r i = - cell_mean c (divergence (fun a x y z => euler_flux (c_gamma c) a (drifting V P s (peval3 l x y z)) r)) i.
Proof.
  intros c xc heap x self_t t u x' dt dudt l V P s i HT HA HL Hf Hg HB Su Ru FO Dl HP HE Hs r Hr.
  refine (transport_exact c xc heap x self_t t u x' dt dudt l V P s i HT HA HL Hf Hg HB Su Ru FO Dl HP _ _ Hs r Hr).
  - apply (HE i). intro a. rewrite Z.sub_diag. unfold reach. destruct (inactive_b c a); cbn [Z.abs]; [lia|].
    pose proof (half_up_sr (getc a (c_p c))). pose proof (sane_p c (proj1 HT) a). pose proof (stencil_right_nonneg _ H0). lia.
  - intros j Hj. destruct (HE j Hj) as (Hin & Pos & Val). split; [exact Pos|]. intros q Hq.
    rewrite extended_inside by exact Hin. exact (Val q Hq).
Qed.

(** a case *)
Definition flow18 : config RNum :=
  mkcfg (N := RNum) (mkix 18 10 1) (mkix 3 2 0) (fun _ => (0, 1)) (1/2) None (7/5) (1/1000) RS_hllc (uniform_bc B_free) false
    L_none false (mknad (N := RNum) 1 M_global R_absolute None None false 1) false.
Definition ramp32 : list mono := [(2, (0, 0, 0)%nat); (1, (3, 2, 0)%nat)].
Lemma flow18_case : forall xc heap t, let c := flow18 in
  let V := fun a => match a with AX => 1 | AY => -2 | AZ => 3 end in
  let u := mkarr 5 (c_n c) (fun r j => cell_mean c (fun x y z => conserved (c_gamma c) (drifting V 1 (fun _ => 0) (peval3 ramp32 x y z)) r) j) in
  let i := mkix 8 4 0 in
  tabulated c /\ fillable xc c 5 /\ c_limit c = false /\ 0 < c_csq_floor c /\ 1 < c_gamma c /\
  (forall a, fst (c_bounds c a) < snd (c_bounds c a)) /\
  degree3 (Z.to_nat (cx (c_p c))) (Z.to_nat (cy (c_p c))) (Z.to_nat (cz (c_p c))) ramp32 /\
  (forall j, seen_from c i j -> in_shape (c_n c) j /\
    (forall x y z, in_cell c j x y z -> 0 < peval3 ramp32 x y z)) /\
  exists y, solver_f RNum c heap (aux_init RNum c heap 5) t t u = Ok y.
Proof.
  intros xc heap t c V u i.
  assert (HT : tabulated c).
  { split; [split|].
    - intros []; cbn; lia.
    - intros []; cbn; lia.
    - exists AX. intros [H _]. discriminate.
    - exact I.
    - intros []; cbn; lia. }
  assert (HA : fillable xc c 5).
  { intros a. destruct a.
    - right. split; [left; split; [exact I|vm_compute; discriminate]|split; [left; split; [exact I|vm_compute; discriminate]|intro X; exact X]].
    - right. split; [left; split; [exact I|vm_compute; discriminate]|split; [left; split; [exact I|vm_compute; discriminate]|intro X; exact X]].
    - left. reflexivity. }
  assert (HB : forall a, c_bounds c a = (0, 1)) by (intros []; reflexivity).
  split; [exact HT|]. split; [exact HA|]. split; [reflexivity|].
  split; [cbn; try lra|]. split; [cbn; try lra|]. split; [intro a; rewrite HB; cbn; lra|].
  split; [unfold ramp32; repeat constructor; cbn; lia|].
  split.
  - intros j Hj. assert (J : in_shape (c_n c) j).
    { intro a. specialize (Hj a). destruct a; vm_compute (reach _ _) in Hj; cbn [getc i NdArray.cx NdArray.cy NdArray.cz c flow18 c_n] in *; lia. }
    split; [exact J|]. intros x y z (Hx & Hy & Hz).
    assert (H0 : 0 <= x).
    { assert (E : middle_of c AX (cx j) - width c AX / 2 = IZR (cx j) / 18).
      { unfold middle_of, width. rewrite HB. cbn [fst snd]. change (getc AX (c_n c)) with 18%Z. field. }
      pose proof (IZR_le _ _ (proj1 (J AX))) as Q. cbn [getc] in Q. apply Rabs_le_between in Hx. lra. }
    unfold ramp32. cbn [peval3 tval pow].
    assert (0 <= x * (x * x)) by (repeat apply Rmult_le_pos; assumption).
    assert (0 <= y * y) by (apply Rle_0_sqr).
    assert (0 <= (x * (x * x)) * (y * y)) by (apply Rmult_le_pos; assumption). lra.
  - destruct (f_ok RNum xc c heap 5 HT HA ltac:(lia) eq_refl (aux_init RNum c heap 5) t t u) as (x' & dt & k & E & _).
    + intro d. cbn. auto.
    + split; reflexivity.
    + eexists. exact E.
Qed.
