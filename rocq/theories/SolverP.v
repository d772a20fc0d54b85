(** Closed form of the solver's right-hand side. *)
From Coq Require Import ZArith List Bool Lia.
From Verif Require Import Err Num PySlice NdArray NdArrayP HydroM RiemannM StencilsM FvM FvP
  BcM SedM LimitM OdeM SolverM SpecBc BcP OpP.
Import ListNotations.
Open Scope Z_scope.

Section SolverP.
Context (N : Num).
Local Notation K := (car N).

Lemma is_at {A} (c : arr A) r s f : is_arr c r s f -> forall v i, at_ c v i = f v i.
Proof. intros (_ & _ & H). exact H. Qed.

Ltac grab H :=
  match type of H with
  | res_is ?x _ _ _ => let c := fresh "c" in let R := fresh "R" in let S := fresh "S" in
      let E := fresh "E" in let V := fresh "V" in
      destruct H as (c & E & R & S & V); rewrite E; cbn [bind]
  end.

(** extensionality of sweeps, as functions *)
Lemma psweep_fun a ws (f g : field N) : (forall v i, f v i = g v i) ->
  forall v i, psweep N a ws f v i = psweep N a ws g v i.
Proof. intros H v i. apply psweep_ext. auto. Qed.
Lemma pcell_fun F (f g : field N) : cellwise N F -> (forall v i, f v i = g v i) ->
  forall v i, pcell N F f v i = pcell N F g v i.
Proof. intros C H v i. apply C. auto. Qed.

Lemma sr_pos p : deg_ok p -> 0 <= stencil_right p.
Proof. intro H. apply stencil_right_nonneg. unfold deg_ok in H. lia. Qed.

Ltac co := repeat match goal with
  | |- context [getc ?a (setc ?a _ _)] => rewrite getc_setc_eq
  | |- context [getc ?b (setc ?a _ _)] => rewrite getc_setc_ne by congruence
  end.

(** three sweeps *)
Lemma cell_centers_is p (u : arr K) :
  (forall a, deg_ok (getc a p)) -> (forall a, 2 * stencil_right (getc a p) <= getc a (shp u)) ->
  exists c, interpolate_cell_centers N p u = Ok c /\ rows c = rows u /\
    (forall a, getc a (shp c) = getc a (shp u) - 2 * stencil_right (getc a p)) /\
    forall v i, at_ c v i = pcentre N p (at_ u) v i.
Proof.
  intros D Sz. unfold interpolate_cell_centers.
  pose proof (conservative_interpolation_is N (cx p) AX P_c u (D AX) lr_c (Sz AX)) as H1. grab H1.
  assert (Z2 : 2 * stencil_right (cy p) <= getc AY (shp c)) by (rewrite S; co; apply (Sz AY)).
  pose proof (conservative_interpolation_is N (cy p) AY P_c c (D AY) lr_c Z2) as H2. grab H2.
  assert (Z3 : 2 * stencil_right (cz p) <= getc AZ (shp c0)) by (rewrite S0; co; rewrite S; co; apply (Sz AZ)).
  pose proof (conservative_interpolation_is N (cz p) AZ P_c c0 (D AZ) lr_c Z3) as H3. grab H3.
  exists c1. split; [reflexivity|]. split; [congruence|]. split.
  - intro a. rewrite S1, S0, S. destruct a; co; reflexivity.
  - intros v i. rewrite V1. unfold pcentre. apply psweep_fun. intros v' i'. rewrite V0.
    apply psweep_fun. intros v'' i''. apply V.
Qed.
Lemma fv_averages_is p (u : arr K) :
  (forall a, deg_ok (getc a p)) -> (forall a, 2 * stencil_right (getc a p) <= getc a (shp u)) ->
  exists c, interpolate_fv_averages N p u = Ok c /\ rows c = rows u /\
    (forall a, getc a (shp c) = getc a (shp u) - 2 * stencil_right (getc a p)) /\
    forall v i, at_ c v i = paverage N p (at_ u) v i.
Proof.
  intros D Sz. unfold interpolate_fv_averages.
  pose proof (transverse_reconstruction_is N (cx p) AX u (D AX) (Sz AX)) as H1. grab H1.
  assert (Z2 : 2 * stencil_right (cy p) <= getc AY (shp c)) by (rewrite S; co; apply (Sz AY)).
  pose proof (transverse_reconstruction_is N (cy p) AY c (D AY) Z2) as H2. grab H2.
  assert (Z3 : 2 * stencil_right (cz p) <= getc AZ (shp c0)) by (rewrite S0; co; rewrite S; co; apply (Sz AZ)).
  pose proof (transverse_reconstruction_is N (cz p) AZ c0 (D AZ) Z3) as H3. grab H3.
  exists c1. split; [reflexivity|]. split; [congruence|]. split.
  - intro a. rewrite S1, S0, S. destruct a; co; reflexivity.
  - intros v i. rewrite V1. unfold paverage. apply psweep_fun. intros v' i'. rewrite V0.
    apply psweep_fun. intros v'' i''. apply V.
Qed.

(** the ghost width interpolate_primitives asks for *)
Definition prim_width (p gw : ix) (avg : bool) : ix :=
  mkix (cx gw + interp_cost avg (cx p)) (cy gw + interp_cost avg (cy p)) (cz gw + interp_cost avg (cz p)).
Lemma getc_prim_width a p gw avg :
  getc a (prim_width p gw avg) = getc a gw + interp_cost avg (getc a p).
Proof. destruct a; reflexivity. Qed.

Lemma interpolate_primitives_raw c junk t u p gw u_bc :
  (forall a, deg_ok (getc a p)) ->
  apply N (c_bc c) junk u (prim_width p gw true) t = Ok u_bc ->
  rows u_bc = rows u -> shp u_bc = padded (shp u) (prim_width p gw true) ->
  (forall a, 0 <= getc a (shp u)) -> (forall a, 0 <= getc a gw) ->
  exists w, interpolate_primitives N c junk t u p gw true = Ok w /\ rows w = rows u /\
    shp w = padded (shp u) gw /\
    forall v i, at_ w v i = pprim N p (c_gamma c) (at_ u_bc) v i.
Proof.
  intros D HA HR HS Hn Hg. unfold interpolate_primitives.
  change (mkix _ _ _) with (prim_width p gw true). rewrite HA. cbn [bind].
  assert (Sh : forall a, getc a (shp u_bc) = getc a (shp u) + 2 * getc a gw + 4 * stencil_right (getc a p)).
  { intro a. rewrite HS. destruct a; unfold padded, prim_width, interp_cost; cbn [getc cx cy cz]; lia. }
  assert (S0 : forall a, 0 <= stencil_right (getc a p)) by (intro; apply sr_pos; auto).
  destruct (cell_centers_is p u_bc D) as (cc & E1 & R1 & S1 & V1).
  { intro a. rewrite Sh. specialize (S0 a). specialize (Hn a). specialize (Hg a). lia. }
  rewrite E1. cbn [bind].
  destruct (fv_averages_is p (cmap (compute_primitives N (c_gamma c)) cc) D) as (w & E2 & R2 & S2 & V2).
  { intro a. cbn [cmap shp]. rewrite S1, Sh. specialize (S0 a). specialize (Hn a). specialize (Hg a). lia. }
  exists w. split; [exact E2|]. split; [rewrite R2; cbn [cmap rows]; congruence|]. split.
  - apply ix_ext. intro a. rewrite S2. cbn [cmap shp]. rewrite S1, Sh.
    destruct a; unfold padded; cbn [getc cx cy cz]; lia.
  - intros v i. rewrite V2. unfold pprim, paverage. apply psweep_fun; intros. apply psweep_fun; intros.
    apply psweep_fun; intros. cbn [cmap at_]. unfold pcell. apply cellwise_prim. intro; apply V1.
Qed.

(** [E] is the field the padded array shows, in global indices *)
Definition shows (u : arr K) (n g : ix) (E : field N) : Prop :=
  forall v i, in_padded n g i -> at_ u v (shift g i) = E v i.

Lemma interpolate_primitives_is c junk t u p gw u_bc E :
  (forall a, deg_ok (getc a p)) ->
  apply N (c_bc c) junk u (prim_width p gw true) t = Ok u_bc ->
  rows u_bc = rows u -> shp u_bc = padded (shp u) (prim_width p gw true) ->
  shows u_bc (shp u) (prim_width p gw true) E ->
  (forall a, 0 <= getc a (shp u)) -> (forall a, 0 <= getc a gw) ->
  exists w, interpolate_primitives N c junk t u p gw true = Ok w /\ rows w = rows u /\
    shp w = padded (shp u) gw /\
    forall v i, in_shape (shp w) i ->
      at_ w v i = pprim N p (c_gamma c) E v (shift (neg3 (prim_width p gw true)) i).
Proof.
  intros D HA HR HS HE Hn Hg.
  destruct (interpolate_primitives_raw c junk t u p gw u_bc D HA HR HS Hn Hg) as (w & E1 & R1 & S1 & V1).
  exists w. split; [exact E1|]. split; [exact R1|]. split; [exact S1|].
  intros v i Hi. rewrite V1. rewrite <- (op_shift N _ _ (op_pprim N p D (c_gamma c))).
  apply (op_local N _ _ (op_pprim N p D (c_gamma c))). intros x j Hj. unfold shiftf.
  rewrite <- HE.
  - rewrite shift_pos. reflexivity.
  - intro a. specialize (Hj a). specialize (Hi a). rewrite S1 in Hi.
    rewrite getc_shift', getc_neg, getc_prim_width. rewrite getc_scale3, getc_sr3 in Hj.
    assert (getc a (padded (shp u) gw) = getc a (shp u) + 2 * getc a gw) as PS by (destruct a; reflexivity).
    unfold interp_cost. lia.
Qed.

(** ** face states and fluxes *)
Definition lim_ok (l : limiter) (p : ix) : Prop := l = L_none \/ (pmax p <= 1 /\ l <> L_unknown).
Definition limits (l : limiter) : bool := match l with L_none => false | _ => true end.
Lemma limit_slopes_ok l p : lim_ok l p -> limit_slopes l p = Ok (limits l).
Proof.
  intros [->|[H1 H2]]; [reflexivity|]. unfold limit_slopes. replace (pmax p <=? 1) with true by (symmetry; apply Z.leb_le; exact H1).
  destruct l; reflexivity.
Qed.

Lemma y0_sl n : 2 <= n -> slice_adjust n y0 = mkext 0 (n - 2) 1.
Proof. intros. unfold y0. slice_tac. Qed.
Lemma y1_sl n : 2 <= n -> slice_adjust n y1 = mkext 1 (n - 2) 1.
Proof. intros. unfold y1. slice_tac. Qed.
Lemma y2_sl n : 2 <= n -> slice_adjust n y2 = mkext 2 (n - 2) 1.
Proof. intros. unfold y2. slice_tac. Qed.

Lemma MUSCL_is d l (u : arr K) : l <> L_unknown -> 2 <= getc d (shp u) ->
  exists L R, MUSCL_interpolations N d l u = Ok (L, R) /\
    is_arr L (rows u) (setc d (getc d (shp u) - 2) (shp u)) (p3 N d (muscl_l N l) (at_ u)) /\
    is_arr R (rows u) (setc d (getc d (shp u) - 2) (shp u)) (p3 N d (muscl_r N l) (at_ u)).
Proof.
  intros Hl Hn. unfold MUSCL_interpolations.
  pose proof (view_is d y0 u _ _ (y0_sl _ Hn)) as I0.
  pose proof (view_is d y1 u _ _ (y1_sl _ Hn)) as I1.
  pose proof (view_is d y2 u _ _ (y2_sl _ Hn)) as I2.
  destruct (amap2_is (@nsub N) _ _ _ _ _ _ I1 I0) as (dl & -> & Idl). cbn [bind].
  destruct (amap2_is (@nsub N) _ _ _ _ _ _ I2 I1) as (dr & -> & Idr). cbn [bind].
  assert (LS : limited_slope N l = Ok (slope_fn N l)) by (destruct l; [reflexivity..|congruence]).
  rewrite LS. cbn [bind].
  destruct (amap2_is (slope_fn N l) _ _ _ _ _ _ Idl Idr) as (sl & -> & Isl). cbn [bind].
  destruct (amap2_is (fun x s => nsub x (nmul nhalf s)) _ _ _ _ _ _ I1 Isl) as (L & -> & IL). cbn [bind].
  destruct (amap2_is (fun x s => nadd x (nmul nhalf s)) _ _ _ _ _ _ I1 Isl) as (R & -> & IR). cbn [bind].
  exists L, R. split; [reflexivity|]. split.
  - eapply is_arr_ext; [exact IL|]. intros v i. cbn beta. unfold p3, muscl_l.
    rewrite !(Z.add_comm (getc d i)), Z.add_0_l, !setc_getc. reflexivity.
  - eapply is_arr_ext; [exact IR|]. intros v i. cbn beta. unfold p3, muscl_r.
    rewrite !(Z.add_comm (getc d i)), Z.add_0_l, !setc_getc. reflexivity.
Qed.

Lemma interp_axes_spec d : let '(a1, a2) := interp_axes d in a1 <> d /\ a2 <> d /\ a1 <> a2.
Proof. destruct d; cbn; repeat split; congruence. Qed.

(** everything the flux routine needs of the primitive array *)
Lemma face_states_is c p l d (w : arr K) :
  (forall a, deg_ok (getc a p)) -> lim_ok l p ->
  (forall a, 2 * stencil_right (getc a p) <= getc a (shp w)) ->
  exists L R, face_states N c p (limits l) l d w = Ok (L, R) /\
    rows L = rows w /\ rows R = rows w /\
    (forall a, getc a (shp L) = getc a (shp w) - 2 * stencil_right (getc a p)) /\
    (forall a, getc a (shp R) = getc a (shp w) - 2 * stencil_right (getc a p)) /\
    (forall v i, at_ L v i = ptrace N p (limits l) l d P_l (at_ w) v i) /\
    (forall v i, at_ R v i = ptrace N p (limits l) l d P_r (at_ w) v i).
Proof.
  intros D HL Sz. unfold face_states.
  pose proof (interp_axes_spec d) as AS. unfold ptrace, ptrans.
  destruct (interp_axes d) as [a1 a2] eqn:EA. destruct AS as (N1 & N2 & N3).
  pose proof (conservative_interpolation_is N (getc a1 p) a1 P_c w (D a1) lr_c (Sz a1)) as H1. grab H1.
  assert (Z2 : 2 * stencil_right (getc a2 p) <= getc a2 (shp c0)) by (rewrite S; co; apply Sz).
  pose proof (conservative_interpolation_is N (getc a2 p) a2 P_c c0 (D a2) lr_c Z2) as H2. grab H2.
  assert (Z3 : 2 * stencil_right (getc d p) <= getc d (shp c1)) by (rewrite S0; co; rewrite S; co; apply Sz).
  assert (V2 : forall v i, at_ c1 v i = psweep N a2 (wts_i N (getc a2 p) P_c) (psweep N a1 (wts_i N (getc a1 p) P_c) (at_ w)) v i).
  { intros v i. rewrite V0. apply psweep_fun. exact V. }
  assert (SS : forall a, a <> d -> getc a (shp c1) = getc a (shp w) - 2 * stencil_right (getc a p)).
  { intros a Ha. rewrite S0, S. destruct (axis_dec a2 a) as [<-|]; co; [reflexivity|].
    destruct (axis_dec a1 a) as [<-|]; co; [reflexivity|]. exfalso.
    destruct a, a1, a2, d; congruence. }
  assert (SD : getc d (shp c1) = getc d (shp w)) by (rewrite S0; co; rewrite S; co; reflexivity).
  destruct (limits l && (getc d p =? 1)) eqn:EL.
  - assert (P1 : getc d p = 1) by (zb; assumption).
    assert (SR1 : stencil_right (getc d p) = 1) by (rewrite P1; reflexivity).
    assert (Hl : l <> L_unknown) by (destruct HL as [->|[_ ?]]; [discriminate|assumption]).
    destruct (MUSCL_is d l c1 Hl ltac:(lia)) as (L & R' & EM & (RL & SL & VL) & (RR & SRr & VR)).
    exists L, R'. split; [exact EM|]. split; [congruence|]. split; [congruence|].
    split; [|split; [|split]].
    + intro a. rewrite SL. destruct (axis_dec d a) as [<-|]; co; [lia|]. apply SS; congruence.
    + intro a. rewrite SRr. destruct (axis_dec d a) as [<-|]; co; [lia|]. apply SS; congruence.
    + intros v i. rewrite VL. unfold p3. rewrite !V2. reflexivity.
    + intros v i. rewrite VR. unfold p3. rewrite !V2. reflexivity.
  - pose proof (conservative_interpolation_is N (getc d p) d P_l c1 (D d) ltac:(unfold lr_pos; auto) Z3) as H3. grab H3.
    pose proof (conservative_interpolation_is N (getc d p) d P_r c1 (D d) ltac:(unfold lr_pos; auto) Z3) as H4. grab H4.
    exists c2, c3. split; [reflexivity|]. split; [congruence|]. split; [congruence|].
    split; [|split; [|split]].
    + intro a. rewrite S1. destruct (axis_dec d a) as [<-|]; co; [lia|]. apply SS; congruence.
    + intro a. rewrite S2. destruct (axis_dec d a) as [<-|]; co; [lia|]. apply SS; congruence.
    + intros v i. rewrite V1. apply psweep_fun. exact V2.
    + intros v i. rewrite V3. apply psweep_fun. exact V2.
Qed.

Lemma cmap2_is {A B C} (f : (Z -> A) -> (Z -> B) -> Z -> C) a b r s g h :
  (forall x y x' y' v, (forall w, x w = x' w) -> (forall w, y w = y' w) -> f x y v = f x' y' v) ->
  is_arr a r s g -> is_arr b r s h ->
  res_is (cmap2 f a b) r s (fun v i => f (fun w => g w i) (fun w => h w i) v).
Proof.
  intros HF (Ra & Sa & Ga) (Rb & Sb & Gb). unfold cmap2.
  rewrite Ra, Rb, Sa, Sb, bdim_eq, bshape_eq. eexists; split; [reflexivity|].
  split; [reflexivity|]. split; [reflexivity|]. intros; cbn [at_]. apply HF; intro w; rewrite brow_eq, bix_eq; auto.
Qed.

Definition excess3 (c : config N) (p : ix) (gw : Z) (d : axis) : ix :=
  mkix (excess N c p gw d AX) (excess N c p gw d AY) (excess N c p gw d AZ).
Lemma getc_excess3 a c p gw d : getc a (excess3 c p gw d) = excess N c p gw d a.
Proof. destruct a; reflexivity. Qed.

(** a grid and degrees the solver can work with *)
Definition good (c : config N) (p : ix) : Prop :=
  forall a, 1 <= getc a (c_n c) /\ deg_ok (getc a p) /\ (active N c a = false -> getc a p = 0).
Lemma good_deg c p : good c p -> forall a, deg_ok (getc a p).
Proof. intros H a. apply (H a). Qed.
Lemma getc_active_width a c g : getc a (active_width N c g) = if active N c a then g else 0.
Proof. destruct a; reflexivity. Qed.
Lemma getc_padded a n g : getc a (padded n g) = getc a n + 2 * getc a g.
Proof. destruct a; reflexivity. Qed.
Lemma sr_pmax p a : (forall b, deg_ok (getc b p)) -> 0 <= stencil_right (getc a p) <= stencil_right (pmax p).
Proof.
  intro D. split; [apply sr_pos; auto|].
  assert (getc a p <= pmax p) by (unfold pmax; destruct a; cbn [getc]; lia).
  unfold stencil_right. pose proof (Z.div_le_mono (- pmax p) (- getc a p) 2). lia.
Qed.
Lemma ghost_width_ge p a : (forall b, deg_ok (getc b p)) ->
  stencil_right (getc a p) + 1 <= ghost_width p /\ 2 * stencil_right (getc a p) <= ghost_width p.
Proof. intro D. pose proof (sr_pmax p a D). unfold ghost_width. lia. Qed.
Lemma inactive_one c p a : good c p -> active N c a = false -> getc a (c_n c) = 1.
Proof. intros H E. unfold active in E. zb. assumption. Qed.

Lemma recon_axes_spec d : let '(a1, a2) := recon_axes d in a1 <> d /\ a2 <> d /\ a1 <> a2.
Proof. destruct d; cbn; repeat split; congruence. Qed.

Lemma dir_flux_raw c p l d (w : arr K) :
  good c p -> lim_ok l p -> active N c d = true ->
  shp w = padded (c_n c) (active_width N c (ghost_width p)) ->
  exists F, dir_flux N c p (ghost_width p) (limits l) l d w = Ok F /\
    rows F = rows w /\ shp F = face_shape d (c_n c) /\
    forall v i, at_ F v i = pflux N p (limits l) l (c_rs c) (c_gamma c) (c_csq_floor c) d (at_ w) v
                              (shift (excess3 c p (ghost_width p) d) i).
Proof.
  intros G HL Ad HS. pose proof (good_deg c p G) as D. unfold dir_flux.
  assert (Sw : forall a, getc a (shp w) = getc a (c_n c) + 2 * (if active N c a then ghost_width p else 0))
    by (intro a; rewrite HS, getc_padded, getc_active_width; reflexivity).
  assert (Pa : forall a, active N c a = false -> stencil_right (getc a p) = 0)
    by (intros a E; replace (getc a p) with 0 by (symmetry; apply (G a), E); reflexivity).
  assert (Wd : forall a, 2 * stencil_right (getc a p) <= if active N c a then ghost_width p else 0).
  { intro a. destruct (active N c a) eqn:E; [apply ghost_width_ge, D|rewrite (Pa a E); lia]. }
  assert (N1 : forall a, 1 <= getc a (c_n c)) by (intro a; apply (G a)).
  assert (W0 : forall a, 0 <= stencil_right (getc a p)) by (intro; apply sr_pos; auto).
  destruct (face_states_is c p l d w D HL) as (L & R & EF & RL & RR & SL & SR & VL & VR).
  { intro a. rewrite Sw. specialize (Wd a). specialize (N1 a). specialize (W0 a). lia. }
  rewrite EF. cbn [bind].
  pose proof (ghost_width_ge p d D) as GW.
  assert (Hd : 2 <= getc d (shp L)) by (rewrite SL, Sw, Ad; specialize (N1 d); lia).
  assert (Hd' : 2 <= getc d (shp R)) by (rewrite SR, <- SL; exact Hd).
  assert (SLR : shp L = shp R) by (apply ix_ext; intro a; rewrite SL, SR; reflexivity).
  pose proof (view_is d s_init R _ _ (sl_init (getc d (shp R)) ltac:(lia))) as IR.
  pose proof (view_is d s_tail L _ _ (sl_tail (getc d (shp L)) ltac:(lia))) as IL.
  rewrite RR in IR. rewrite RL, SLR in IL.
  destruct (cmap2_is (riemann N (c_rs c) (c_gamma c) (c_csq_floor c) d) _ _ _ _ _ _ (cellwise_riemann N _ _ _ _) IR IL)
    as (f & EFx & Rf & Sf & Vf).
  rewrite EFx. cbn [bind].
  pose proof (recon_axes_spec d) as AS. unfold pflux, pintegral.
  destruct (recon_axes d) as [a1 a2] eqn:EA. destruct AS as (A1 & A2 & A3).
  assert (Z1 : 2 * stencil_right (getc a1 p) <= getc a1 (shp f)).
  { rewrite Sf; co. rewrite SR, Sw. specialize (Wd a1). specialize (N1 a1). lia. }
  pose proof (transverse_reconstruction_is N (getc a1 p) a1 f (D a1) Z1) as H1. grab H1.
  assert (Z2 : 2 * stencil_right (getc a2 p) <= getc a2 (shp c0)).
  { rewrite S; co. rewrite Sf; co. rewrite SR, Sw. specialize (Wd a2). specialize (N1 a2). lia. }
  pose proof (transverse_reconstruction_is N (getc a2 p) a2 c0 (D a2) Z2) as H2. grab H2.
  assert (S2 : forall a, getc a (shp c1) =
     getc a (c_n c) + (if axis_eqb a d then 1 else 0) + 2 * excess N c p (ghost_width p) d a).
  { intro a. unfold excess. destruct (axis_dec a d) as [->|Nd].
    - rewrite axis_eqb_refl, Ad. rewrite S0; co. rewrite S; co. rewrite Sf; co. rewrite SR, Sw, Ad. lia.
    - replace (axis_eqb a d) with false by (symmetry; apply axis_eqb_neq; assumption).
      assert (Q : getc a (shp c1) = getc a (shp f) - 2 * stencil_right (getc a p)).
      { rewrite S0, S. destruct (axis_dec a2 a) as [<-|]; co; [reflexivity|].
        destruct (axis_dec a1 a) as [<-|]; co; [reflexivity|]. exfalso. destruct a, a1, a2, d; congruence. }
      rewrite Q, Sf; co. rewrite SR, Sw. specialize (Pa a). destruct (active N c a); [lia|]. rewrite Pa by reflexivity. lia. }
  assert (X0 : forall a, 0 <= excess N c p (ghost_width p) d a).
  { intro a. unfold excess. pose proof (ghost_width_ge p a D). destruct (active N c a), (axis_eqb a d); lia. }
  eexists. split; [reflexivity|].
  assert (HV : forall a, slice_adjust (getc a (shp c1)) (cut (excess N c p (ghost_width p) d a) (- excess N c p (ghost_width p) d a))
            = mkext (getc a (excess3 c p (ghost_width p) d)) (getc a (face_shape d (c_n c))) 1).
  { intro a. specialize (X0 a). specialize (N1 a).
    rewrite sl_sym by (rewrite ?S2; destruct (axis_eqb a d); lia). rewrite getc_excess3. f_equal.
    rewrite S2. unfold face_shape. destruct (axis_dec d a) as [<-|Ed]; co.
    - rewrite axis_eqb_refl. lia.
    - replace (axis_eqb a d) with false by (symmetry; apply axis_eqb_neq; congruence). lia. }
  destruct (view3_is (fun a => cut (excess N c p (ghost_width p) d a) (- excess N c p (ghost_width p) d a)) c1
    (excess3 c p (ghost_width p) d) (face_shape d (c_n c)) HV) as (Rv & Sv & Vv).
  split; [congruence|]. split; [exact Sv|].
  intros v i. rewrite Vv, V0. apply psweep_fun. intros v' i'. rewrite V. apply psweep_fun. intros v2 i2.
  rewrite Vf. unfold pface. apply cellwise_riemann; intro x.
  - rewrite VR. rewrite Z.add_0_l, setc_getc. reflexivity.
  - rewrite VL. rewrite Z.add_comm. reflexivity.
Qed.

(** distance from the first flux cell to the first cell of the padded conservative array *)
Definition flux_off (p : ix) (d : axis) : ix :=
  setc d (3 * stencil_right (getc d p) + 1) (scale3 4 (sr3 p)).
(** numerical flux through the face below cell i normal to d, in global indices *)
Definition gflux (c : config N) (p : ix) (l : limiter) (d : axis) (E : field N) : field N :=
  fun v i => pflux N p (limits l) l (c_rs c) (c_gamma c) (c_csq_floor c) d (pprim N p (c_gamma c) E) v
               (shift (neg3 (flux_off p d)) i).
Lemma op_gflux c p l d : (forall a, deg_ok (getc a p)) ->
  op_ok N (fun E v i => pflux N p (limits l) l (c_rs c) (c_gamma c) (c_csq_floor c) d (pprim N p (c_gamma c) E) v i)
        (shift (flux_reach p d) (scale3 4 (sr3 p))).
Proof. intro D. apply (op_comp N _ _ _ _ (op_pflux N p D _ _ _ _ _ _) (op_pprim N p D _)). Qed.

Lemma dir_flux_is c p l d (w : arr K) (E : field N) :
  good c p -> lim_ok l p -> active N c d = true ->
  shp w = padded (c_n c) (active_width N c (ghost_width p)) ->
  (forall v i, in_shape (shp w) i ->
     at_ w v i = pprim N p (c_gamma c) E v
                   (shift (neg3 (prim_width p (active_width N c (ghost_width p)) true)) i)) ->
  exists F, dir_flux N c p (ghost_width p) (limits l) l d w = Ok F /\
    rows F = rows w /\ shp F = face_shape d (c_n c) /\
    forall v i, in_shape (face_shape d (c_n c)) i -> at_ F v i = gflux c p l d E v i.
Proof.
  intros G HL Ad HS HW. pose proof (good_deg c p G) as D.
  destruct (dir_flux_raw c p l d w G HL Ad HS) as (F & EF & RF & SF & VF).
  exists F. split; [exact EF|]. split; [exact RF|]. split; [exact SF|].
  intros v i Hi. rewrite VF. unfold gflux.
  set (pw := prim_width p (active_width N c (ghost_width p)) true) in *.
  replace (shift (neg3 (flux_off p d)) i)
    with (shift (neg3 pw) (shift (excess3 c p (ghost_width p) d) i)).
  - rewrite <- (op_shift N _ _ (op_pflux N p D _ _ _ _ _ _) (neg3 pw) (pprim N p (c_gamma c) E)).
    apply (op_local N _ _ (op_pflux N p D _ _ _ _ _ _)). intros x j Hj. unfold shiftf.
    apply HW. intro a. specialize (Hj a). specialize (Hi a). rewrite HS, getc_padded, getc_active_width.
    rewrite getc_shift', getc_excess3 in Hj. pose proof (ghost_width_ge p a D) as GW.
    pose proof (sr_pos _ (D a)).
    assert (Pa : active N c a = false -> stencil_right (getc a p) = 0)
      by (intros Ea; replace (getc a p) with 0 by (symmetry; apply (G a), Ea); reflexivity).
    unfold excess in Hj. unfold flux_reach in Hj. unfold face_shape in Hi.
    destruct (axis_dec d a) as [<-|Nd].
    + rewrite axis_eqb_refl, Ad in Hj. rewrite Ad. rewrite getc_setc_eq in Hj, Hi. lia.
    + replace (axis_eqb a d) with false in Hj by (symmetry; apply axis_eqb_neq; congruence).
      rewrite getc_setc_ne in Hj, Hi by congruence. rewrite getc_scale3, getc_sr3 in Hj.
      destruct (active N c a); [lia|]. rewrite Pa in Hj by reflexivity. lia.
  - apply ix_ext. intro a. rewrite !getc_shift', !getc_neg, getc_excess3.
    unfold pw, flux_off. rewrite getc_prim_width, getc_active_width. unfold interp_cost, excess.
    assert (Pa : active N c a = false -> stencil_right (getc a p) = 0)
      by (intros Ea; replace (getc a p) with 0 by (symmetry; apply (G a), Ea); reflexivity).
    destruct (axis_dec d a) as [<-|Nd].
    + rewrite axis_eqb_refl, Ad, getc_setc_eq. lia.
    + replace (axis_eqb a d) with false by (symmetry; apply axis_eqb_neq; congruence).
      rewrite getc_setc_ne, getc_scale3, getc_sr3 by congruence.
      destruct (active N c a); [lia|]. rewrite Pa by reflexivity. lia.
Qed.

(** ** reductions *)
Lemma reduce_cells_ext {A} (op : A -> A -> A) s f g :
  (forall i, in_shape s i -> f i = g i) -> reduce_cells op s f = reduce_cells op s g.
Proof.
  intro H. unfold reduce_cells. pose proof (fun i => proj1 (in_ix_list s i)) as M.
  destruct (ix_list s) as [|i0 l]; [reflexivity|].
  rewrite (H i0) by (apply M; left; reflexivity). f_equal.
  assert (M' : forall i, In i l -> f i = g i) by (intros; apply H, M; right; assumption).
  generalize (g i0). clear M. induction l as [|j l IH]; intro x; [reflexivity|]. cbn [fold_left].
  rewrite (M' j) by (left; reflexivity). apply IH. intros; apply M'; right; assumption.
Qed.
Lemma reduce_cells_some {A} (op : A -> A -> A) s f : (forall a, 1 <= getc a s) ->
  exists m, reduce_cells op s f = Ok m.
Proof.
  intro H. unfold reduce_cells. pose proof (proj2 (in_ix_list s zero3)) as M.
  destruct (ix_list s); [|eexists; reflexivity]. exfalso. apply M. intro a. rewrite getc_zero. specialize (H a). lia.
Qed.

(** the signal speed hydro_dt divides by, over the padded primitive array *)
Definition gspeed (c : config N) (p : ix) (E : field N) : res K :=
  reduce_cells nmax (padded (c_n c) (active_width N c (ghost_width p)))
    (fun i => cell_speed N (ndim N c) (c_gamma c) (c_csq_floor c)
       (fun r => pprim N p (c_gamma c) E r
          (shift (neg3 (prim_width p (active_width N c (ghost_width p)) true)) i))).
Definition gdt (c : config N) (p : ix) (E : field N) : res K :=
  match c_fixed_dt c with
  | Some dt => Ok dt
  | None => do m <- gspeed c p E; Ok (ndiv (nmul (c_CFL c) (min_h N c)) m)
  end.

Definition solver_width (c : config N) (p : ix) : ix :=
  prim_width p (active_width N c (ghost_width p)) true.
(** the padded array u_bc is defined and shows E *)
Definition padding (c : config N) (p : ix) (junk : Z -> ix -> K) (t : K) (u : arr K) (E : field N) : Prop :=
  exists u_bc, apply N (c_bc c) junk u (solver_width c p) t = Ok u_bc /\
    rows u_bc = rows u /\ shp u_bc = padded (shp u) (solver_width c p) /\
    shows u_bc (shp u) (solver_width c p) E.

Lemma ghost_width_pos p : (forall b, deg_ok (getc b p)) -> 1 <= ghost_width p.
Proof. intro D. pose proof (ghost_width_ge p AX D). pose proof (sr_pos _ (D AX)). lia. Qed.

Theorem hydrofluxes_is c junk t stale u p l E :
  good c p -> lim_ok l p -> shp u = c_n c -> padding c p junk t u E ->
  exists dt F, hydrofluxes N c junk t stale u p l = Ok (dt, F) /\ gdt c p E = Ok dt /\
    forall d,
      (active N c d = true -> rows (F d) = rows u /\ shp (F d) = face_shape d (c_n c) /\
        forall v i, in_shape (face_shape d (c_n c)) i -> at_ (F d) v i = gflux c p l d E v i) /\
      (active N c d = false -> F d = stale d).
Proof.
  intros G HL HS (u_bc & HA & HR & HSh & HE). pose proof (good_deg c p G) as D.
  unfold hydrofluxes. rewrite (limit_slopes_ok l p HL). cbn [bind].
  pose proof (ghost_width_pos p D) as GP.
  assert (AW0 : forall a, 0 <= getc a (active_width N c (ghost_width p)))
    by (intro a; rewrite getc_active_width; destruct (active N c a); lia).
  destruct (interpolate_primitives_is c junk t u p (active_width N c (ghost_width p)) u_bc E D HA HR HSh HE)
    as (w & EW & RW & SW & VW).
  { intro a. rewrite HS. specialize (G a). lia. }
  { exact AW0. }
  rewrite EW. cbn [bind]. rewrite HS in SW.
  assert (EDT : match c_fixed_dt c with
           | None => hydro_dt N w (min_h N c) (ndim N c) (c_CFL c) (c_gamma c) (c_csq_floor c)
           | Some dt => Ok dt end = gdt c p E).
  { unfold gdt. destruct (c_fixed_dt c); [reflexivity|]. unfold hydro_dt, gspeed. rewrite SW.
    erewrite reduce_cells_ext; [reflexivity|]. intros i Hi. cbn beta.
    unfold cell_speed, sum3, compute_sound_speed. rewrite !VW by (rewrite SW; exact Hi). reflexivity. }
  rewrite EDT.
  assert (exists dt, gdt c p E = Ok dt) as (dt & EQ).
  { unfold gdt. destruct (c_fixed_dt c); [eexists; reflexivity|]. unfold gspeed.
    match goal with |- context [reduce_cells ?o ?s ?f] => destruct (reduce_cells_some o s f) as (m & Em) end.
    - intro a. rewrite getc_padded. specialize (AW0 a). specialize (G a). lia.
    - rewrite Em. eexists; reflexivity. }
  rewrite EQ. cbn [bind].
  assert (FX : forall d, exists F, (if active N c d then dir_flux N c p (ghost_width p) (limits l) l d w else Ok (stale d)) = Ok F /\
      (active N c d = true -> rows F = rows u /\ shp F = face_shape d (c_n c) /\
        forall v i, in_shape (face_shape d (c_n c)) i -> at_ F v i = gflux c p l d E v i) /\
      (active N c d = false -> F = stale d)).
  { intro d. destruct (active N c d) eqn:Ad.
    - destruct (dir_flux_is c p l d w E G HL Ad SW VW) as (F & EF & RF & SF & VF).
      exists F. split; [exact EF|]. split; [|discriminate]. intros _. split; [congruence|]. auto.
    - exists (stale d). split; [reflexivity|]. split; [discriminate|reflexivity]. }
  destruct (FX AX) as (F1 & E1 & H1). destruct (FX AY) as (F2 & E2 & H2). destruct (FX AZ) as (F3 & E3 & H3).
  rewrite E1, E2, E3. cbn [bind]. eexists _, _. split; [reflexivity|]. split; [reflexivity|].
  intros [| |]; assumption.
Qed.

(** ** euler_equation *)
Definition gterm (c : config N) (d : axis) (F : field N) : field N := fun v i =>
  nmul (nopp (ndiv (nofZ 1) (spacing N c d)))
       (nsub (F v (setc d (getc d i + 1) i)) (F v i)).
Definition gsum (c : config N) (F : axis -> field N) : field N := fun v i =>
  fold_left (fun acc d => nadd acc (gterm c d (F d) v i)) (dims N c) (nofZ 0).

Lemma bdim_one n : 1 <= n -> bdim 1 n = Some n.
Proof. intro. unfold bdim. destr_if; zb; [f_equal; lia|]. reflexivity. Qed.

Lemma euler_fold c (F : fluxes N) r n l : (forall d, 1 <= getc d n) -> 1 <= r ->
  (forall d, In d l -> rows (F d) = r /\ shp (F d) = face_shape d n) ->
  forall acc g, is_arr acc r n g ->
  res_is (fold_left (fun acc d => do dudt <- acc;
            do x <- amap2 (fun x y => nmul (nopp (ndiv (nofZ 1) (spacing N c d))) (nsub x y))
                      (view d s_tail (F d)) (view d s_init (F d));
            amap2 nadd dudt x) l (Ok acc)) r n
    (fun v i => fold_left (fun acc d => nadd acc (gterm c d (at_ (F d)) v i)) l (g v i)).
Proof.
  intros Hn Hr. induction l as [|d l IH]; intros HF acc g IA.
  - exists acc. split; [reflexivity|exact IA].
  - destruct (HF d (or_introl eq_refl)) as [Rd Sd]. cbn [fold_left].
    assert (L1 : 1 <= getc d (shp (F d))) by (rewrite Sd; unfold face_shape; co; specialize (Hn d); lia).
    pose proof (view_is d s_tail (F d) _ _ (sl_tail _ L1)) as IT.
    pose proof (view_is d s_init (F d) _ _ (sl_init _ L1)) as II.
    destruct (amap2_is (fun x y => nmul (nopp (ndiv (nofZ 1) (spacing N c d))) (nsub x y)) _ _ _ _ _ _ IT II) as (x & Ex & IX).
    assert (SX : setc d (getc d (shp (F d)) - 1) (shp (F d)) = n).
    { rewrite Sd. unfold face_shape. rewrite getc_setc_eq, setc_setc, Z.add_simpl_r, setc_getc. reflexivity. }
    rewrite Rd, SX in IX.
    destruct (amap2_is (@nadd N) _ _ _ _ _ _ IA IX) as (y & Ey & IY).
    match goal with |- res_is (fold_left _ l ?i) _ _ _ => replace i with (Ok y) by (cbn [bind]; rewrite Ex; cbn [bind]; symmetry; exact Ey) end.
    eapply res_is_ext; [apply (IH (fun d' H => HF d' (or_intror H)) y _ IY)|].
    intros v i. cbn beta. unfold gterm. rewrite Z.add_0_l, setc_getc, (Z.add_comm 1). reflexivity.
Qed.

Lemma amap2_scalar (x : arr K) r n g : (forall d, 1 <= getc d n) -> 1 <= r -> is_arr x r n g ->
  res_is (amap2 nadd (mkarr 1 (mkix 1 1 1) (fun _ _ => nofZ 0)) x) r n (fun v i => nadd (nofZ 0) (g v i)).
Proof.
  intros Hn Hr (Rx & Sx & Vx). unfold amap2. cbn [rows shp at_]. rewrite Rx, Sx, (bdim_one r Hr).
  unfold bshape. cbn [cx cy cz]. rewrite (bdim_one (cx n) (Hn AX)), (bdim_one (cy n) (Hn AY)), (bdim_one (cz n) (Hn AZ)).
  replace (mkix (cx n) (cy n) (cz n)) with n by (destruct n; reflexivity).
  eexists. split; [reflexivity|]. split; [reflexivity|]. split; [reflexivity|].
  intros v i. cbn [at_]. rewrite brow_eq, bix_eq, Vx. reflexivity.
Qed.

Theorem euler_equation_is c (F : fluxes N) r n : (forall d, 1 <= getc d n) -> 1 <= r -> dims N c <> [] ->
  (forall d, active N c d = true -> rows (F d) = r /\ shp (F d) = face_shape d n) ->
  res_is (euler_equation N c F) r n (gsum c (fun d => at_ (F d))).
Proof.
  intros Hn Hr Hd HF. unfold euler_equation, gsum.
  assert (HF' : forall d, In d (dims N c) -> rows (F d) = r /\ shp (F d) = face_shape d n)
    by (intros d Hin; apply HF; apply filter_In in Hin; apply Hin).
  destruct (dims N c) as [|d l]; [congruence|]. cbn [fold_left].
  destruct (HF' d (or_introl eq_refl)) as [Rd Sd].
  assert (L1 : 1 <= getc d (shp (F d))) by (rewrite Sd; unfold face_shape; co; specialize (Hn d); lia).
  pose proof (view_is d s_tail (F d) _ _ (sl_tail _ L1)) as IT.
  pose proof (view_is d s_init (F d) _ _ (sl_init _ L1)) as II.
  destruct (amap2_is (fun x y => nmul (nopp (ndiv (nofZ 1) (spacing N c d))) (nsub x y)) _ _ _ _ _ _ IT II) as (x & Ex & IX).
  assert (SX : setc d (getc d (shp (F d)) - 1) (shp (F d)) = n).
  { rewrite Sd. unfold face_shape. rewrite getc_setc_eq, setc_setc, Z.add_simpl_r, setc_getc. reflexivity. }
  rewrite Rd, SX in IX.
  destruct (amap2_scalar x r n _ Hn Hr IX) as (y & Ey & IY).
  match goal with |- res_is (fold_left _ l ?i) _ _ _ => replace i with (Ok y) by (cbn [bind]; rewrite Ex; cbn [bind]; symmetry; exact Ey) end.
  eapply res_is_ext; [apply (euler_fold c F r n l Hn Hr (fun d' H => HF' d' (or_intror H)) y _ IY)|].
  intros v i. cbn beta. unfold gterm. rewrite Z.add_0_l, setc_getc, (Z.add_comm 1). reflexivity.
Qed.

(** ** the right-hand side without slope limiting *)
Definition flux_arrays_ok (c : config N) (nv : Z) (F : fluxes N) : Prop :=
  forall d, rows (F d) = nv /\ shp (F d) = face_shape d (c_n c).
Definition gdudt (c : config N) (p : ix) (l : limiter) (E : field N) : field N :=
  gsum c (fun d => gflux c p l d E).

Lemma gsum_ext c F G n v i : in_shape n i ->
  (forall d, active N c d = true -> forall w j, in_shape (face_shape d n) j -> F d w j = G d w j) ->
  gsum c F v i = gsum c G v i.
Proof.
  intros Hi H. unfold gsum.
  assert (HF' : forall d, In d (dims N c) -> gterm c d (F d) v i = gterm c d (G d) v i).
  { intros d Hin. apply filter_In in Hin. destruct Hin as [_ Ad]. unfold gterm.
    rewrite !(H d Ad); [reflexivity|..]; intro a; specialize (Hi a); unfold face_shape;
      (destruct (axis_dec d a) as [<-|]; co; lia). }
  generalize (@nofZ N 0). induction (dims N c) as [|d l IH]; intro x; [reflexivity|]. cbn [fold_left].
  rewrite (HF' d) by (left; reflexivity). apply IH. intros; apply HF'; right; assumption.
Qed.

Theorem hydrodynamics_is c heap x t u E :
  good c (c_p c) -> shp u = c_n c -> 1 <= rows u -> c_limit c = false -> dims N c <> [] ->
  flux_arrays_ok c (rows u) (x_flux x) ->
  padding c (c_p c) (heap (4 * (x_evals x + 1))) t u E ->
  exists x' dt dudt, hydrodynamics N c heap x t u = Ok (x', (dt, dudt)) /\
    gdt c (c_p c) E = Ok dt /\ rows dudt = rows u /\ shp dudt = c_n c /\
    (forall v i, in_shape (c_n c) i -> at_ dudt v i = gdudt c (c_p c) L_none E v i) /\
    flux_arrays_ok c (rows u) (x_flux x') /\ x_evals x' = x_evals x + 1.
Proof.
  intros G HS HR HL HD FO HP. unfold hydrodynamics.
  rewrite <- (Z.add_0_r (4 * (x_evals x + 1))) in HP.
  destruct (hydrofluxes_is c _ t (x_flux x) u (c_p c) L_none E G (or_introl eq_refl) HS HP) as (dt & F & EF & EDT & HF).
  rewrite EF. cbn [bind].
  assert (AF : forall d, exists F', assign_all (x_flux x d) (F d) = Ok F' /\ rows F' = rows u /\ shp F' = face_shape d (c_n c) /\
     (active N c d = true -> forall v i, in_shape (face_shape d (c_n c)) i -> at_ F' v i = gflux c (c_p c) L_none d E v i)).
  { intro d. destruct (FO d) as [R1 S1]. destruct (HF d) as [HA HI].
    assert (RS : rows (F d) = rows u /\ shp (F d) = face_shape d (c_n c)).
    { destruct (active N c d); [destruct HA as (? & ? & _); auto|]. rewrite HI by reflexivity. auto. }
    destruct RS as [R2 S2].
    destruct (assign_all_is (x_flux x d) (F d) (rows u) (face_shape d (c_n c)) (at_ (F d)) R1 S1) as (F' & E' & R' & S' & V').
    { split; [exact R2|]. split; [exact S2|]. reflexivity. }
    exists F'. split; [exact E'|]. split; [exact R'|]. split; [exact S'|].
    intros Ad v i Hi. rewrite V'. apply HA; assumption. }
  destruct (AF AX) as (F1 & E1 & R1 & S1 & V1). destruct (AF AY) as (F2 & E2 & R2 & S2 & V2).
  destruct (AF AZ) as (F3 & E3 & R3 & S3 & V3). rewrite E1, E2, E3. cbn [bind]. rewrite HL. cbn [bind].
  set (x2 := set_flux _ _ _ _).
  assert (FO2 : flux_arrays_ok c (rows u) (x_flux x2)) by (intros [| |]; split; assumption).
  destruct (euler_equation_is c (x_flux x2) (rows u) (c_n c)) as (dudt & ED & RD & SD & VD).
  { intro d; apply (G d). } { exact HR. } { exact HD. } { intros d _. apply FO2. }
  rewrite ED. cbn [bind]. exists x2, dt, dudt. split; [reflexivity|]. split; [exact EDT|].
  split; [exact RD|]. split; [exact SD|]. split; [|split; [exact FO2|reflexivity]].
  intros v i Hi. rewrite VD. apply (gsum_ext c _ _ (c_n c)); [exact Hi|].
  intros [| |] Ad w j Hj; auto.
Qed.
End SolverP.
