(** A scalar that is uniform stays uniform. *)
From Coq Require Import ZArith List Bool Lia Reals Lra.
From Verif Require Import Err Num PySlice NdArray HydroM RiemannM StencilsM FvM BcM SedM
  LimitM OdeM SolverM Spec SpecBc SpecSolver SpecCons NdArrayP FvP BcP BcQ OpP SolverP OdeP RelP RelS LimP RunP ConsP ExistP UniformP WallP WatchP HydroP.
Import ListNotations.
Open Scope Z_scope.

Section Scalar.
Local Notation N := RNum.
Context (phi : R) (v : Z) (Hv : ~ (0 <= v <= 4)).

Lemma row_cases : (v =? 0) = false /\ is_vel v = false /\ (v =? 4) = false.
Proof. unfold is_vel. repeat split; lia. Qed.
Lemma riemann_scalar rs gam fl d (wl wr : Z -> R) : wl v = phi -> wr v = phi ->
  riemann N rs gam fl d wl wr v = (phi * riemann N rs gam fl d wl wr 0%Z)%R.
Proof.
  intros HL HR. destruct row_cases as (R0 & RV & R4).
  assert (C : forall w : Z -> R, w v = phi -> compute_conservatives N gam w v = (phi * compute_conservatives N gam w 0%Z)%R).
  { intros w Hw. unfold compute_conservatives, rRho, rE. rewrite R0, RV, R4, Hw. cbn. ringR. }
  assert (F : forall b (w : Z -> R), w v = phi -> compute_fluxes N d b w (compute_conservatives N gam w) v
     = (phi * compute_fluxes N d b w (compute_conservatives N gam w) 0%Z)%R).
  { intros b w Hw. unfold compute_fluxes, rRho, rE. rewrite R0, RV, R4. rewrite (C w Hw). cbn [Z.eqb].
    unfold compute_conservatives, rRho. cbn. ringR. }
  destruct rs; unfold riemann.
  - unfold advection_upwind. rewrite (F false wl HL), (F false wr HR). cbn [nltb nofZ RNum]. repeat destr_if; ringR.
  - unfold llf. rewrite (F true wl HL), (F true wr HR), (C wl HL), (C wr HR). cbn [nadd nsub nmul RNum]. ringR.
  - unfold hllc, rRho, rE. rewrite R0, RV, R4, HL, HR. cbn [Z.eqb nmul nltb nofZ RNum]. set (q := hllc_compute N gam fl d wl wr).
    destruct (Rltb 0 (q_v q)) eqn:E1; [ringR|]. destruct (Rltb (q_v q) 0) eqn:E2; [ringR|]. rb.
    replace (q_v q) with 0%R by (apply Rle_antisym; assumption). ringR.
Qed.

Section Deg.
Context (p : ix) (D : forall a, deg_ok (getc a p)).
Definition level (f : field N) : Prop := forall j, f v j = phi.
Definition ratio (f : field N) : Prop := forall j, f v j = (phi * f 0%Z j)%R.
Lemma sweep_level a ws f : lsum ws = 1%R -> level f -> level (psweep N a ws f).
Proof.
  intros L H j. unfold psweep. rewrite (wsum_ext N ws _ (fun _ => phi)) by (intros; apply H).
  rewrite wsum_const, L. apply Rmult_1_l.
Qed.
Lemma sweep_ratio a ws f : ratio f -> ratio (psweep N a ws f).
Proof. intros H j. unfold psweep. rewrite <- wsum_scale. apply wsum_ext. intros. apply H. Qed.
Lemma average_level f : level f -> level (paverage N p f).
Proof. intro H. unfold paverage. pose proof (D AX); pose proof (D AY); pose proof (D AZ). cbn [getc] in *.
  do 3 (apply sweep_level; [apply lsum_t; assumption|]). exact H. Qed.
Lemma trans_level d f : level f -> level (ptrans N p d f).
Proof. intro H. unfold ptrans. destruct (interp_axes d) as [a1 a2]. do 2 (apply sweep_level; [apply lsum_i; [apply D|apply lr_c]|]). exact H. Qed.
Lemma trace_level limit l d pos f : pos = P_l \/ pos = P_r -> level f -> level (ptrace N p limit l d pos f).
Proof.
  intros Hpos H. pose proof (trans_level d f H) as HT. unfold ptrace. destr_if.
  - intro j. unfold p3. rewrite !HT. destruct Hpos as [-> | ->]; unfold muscl_l, muscl_r; cbn [nsub nadd nmul RNum];
      (replace (phi - phi)%R with 0%R by (symmetry; apply Rminus_diag_eq; reflexivity));
      rewrite slope_zero, Rmult_0_r; [apply Rminus_0_r|apply Rplus_0_r].
  - apply sweep_level; [|exact HT]. apply lsum_i; [apply D|]. unfold lr_pos. tauto.
Qed.
Lemma flux_ratio limit l rs gam csq d f : level f -> ratio (pflux N p limit l rs gam csq d f).
Proof.
  intro H. unfold pflux, pintegral. destruct (recon_axes d) as [a1 a2]. do 2 apply sweep_ratio.
  intro j. unfold pface. apply riemann_scalar; apply trace_level; auto.
Qed.
Lemma centre_level f : level f -> level (pcentre N p f).
Proof. intro H. unfold pcentre. pose proof (D AX); pose proof (D AY); pose proof (D AZ). cbn [getc] in *.
  do 3 (apply sweep_level; [apply lsum_i; [assumption|apply lr_c]|]). exact H. Qed.
Lemma centre_ratio f : ratio f -> ratio (pcentre N p f).
Proof. intro H. unfold pcentre. do 3 apply sweep_ratio. exact H. Qed.

(** locally, given densities that do not vanish *)
Lemma gflux_scalar (c : config N) l d (E : field N) i :
  (forall (w : Z) j, near (shift (flux_reach p d) (scale3 2 (sr3 p))) (shift (neg3 (flux_off p d)) i) j ->
     pcentre N p E v j = (phi * pcentre N p E 0%Z j)%R /\ pcentre N p E 0 j <> 0%R) ->
  gflux N c p l d E v i = (phi * gflux N c p l d E 0%Z i)%R.
Proof.
  intro H. unfold gflux, pprim. set (f := pcell N (compute_primitives N (c_gamma c)) (pcentre N p E)).
  pose (f' := (fun w j => if w =? v then phi else f w j) : field N).
  pose proof (op_comp N _ _ _ _ (op_pflux N p D (limits l) l (c_rs c) (c_gamma c) (c_csq_floor c) d) (op_paverage N p D)) as OP.
  assert (X : forall w, pflux N p (limits l) l (c_rs c) (c_gamma c) (c_csq_floor c) d (paverage N p f) w (shift (neg3 (flux_off p d)) i)
     = pflux N p (limits l) l (c_rs c) (c_gamma c) (c_csq_floor c) d (paverage N p f') w (shift (neg3 (flux_off p d)) i)).
  { intro w. apply (op_local _ _ _ OP). intros w' j Hj. unfold f'. destruct (Z.eqb_spec w' v) as [->|]; [|reflexivity].
    destruct (H v j Hj) as [H1 H2]. unfold f, pcell, compute_primitives, rRho, rE. destruct row_cases as (-> & -> & ->).
    rewrite H1. cbn [ndiv RNum]. unfold Rdiv. rewrite Rmult_assoc, Rinv_r by exact H2. apply Rmult_1_r. }
  rewrite !X. apply flux_ratio, average_level. intro j. unfold f'. rewrite Z.eqb_refl. reflexivity.
Qed.
End Deg.

Lemma gsum_ratio (c : config N) (F : axis -> field N) i :
  (forall d, active N c d = true -> forall j, j = i \/ j = setc d (getc d i + 1) i -> F d v j = (phi * F d 0%Z j)%R) ->
  gsum N c F v i = (phi * gsum N c F 0%Z i)%R.
Proof.
  intro H. unfold gsum.
  assert (G : forall l, (forall d, In d l -> active N c d = true) -> forall x y : R, x = (phi * y)%R ->
     fold_left (fun acc d => @nadd N acc (gterm N c d (F d) v i)) l x = (phi * fold_left (fun acc d => @nadd N acc (gterm N c d (F d) 0%Z i)) l y)%R).
  { induction l as [|d l IH]; intros Hl x y E; cbn [fold_left]; [exact E|]. apply IH; [intros; apply Hl; right; assumption|].
    unfold gterm. rewrite !(H d (Hl d (or_introl eq_refl))) by auto. rewrite E. cbn [nadd nmul nsub RNum]. ringR. }
  apply G; [intros d Hd; apply filter_In in Hd; apply Hd|]. cbn [nofZ RNum]. ring.
Qed.

(** what no_vacuum says about the extended field *)
Lemma vacuum_free (c : config N) p (u : arr R) : tabulated c -> closed c -> shp u = c_n c -> good N c p ->
  (forall a, 0 <= getc a (solver_width N c p) <= getc a (ghost_zones3 c)) -> no_vacuum c p u ->
  let g := solver_width N c p in
  forall j, (forall a, - getc a g <= getc a j < getc a (c_n c) + getc a g - 2 * stencil_right (getc a p)) ->
    pcentre N p (copied N (c_bc c) (c_n c) u) 0 j <> 0%R.
Proof.
  intros HT HC S G HW HV g j Hj.
  destruct (padding_copies N c p (fun _ _ => 0%R) 0%R u HT HC S HW) as (ub & EA & RA & SA & VA).
  assert (S2 : @shp (car N) u = c_n c) by exact S. rewrite S2 in SA, VA.
  pose (gw := mkix (getc AX g - stencil_right (getc AX p)) (getc AY g - stencil_right (getc AY p)) (getc AZ g - stencil_right (getc AZ p))).
  assert (GW : forall a, getc a gw = getc a g - stencil_right (getc a p)) by (intros []; reflexivity).
  assert (PW : prim_width p gw false = g).
  { apply ix_ext. intro a. rewrite getc_prim_width, GW. unfold interp_cost. lia. }
  assert (SP : forall a, 0 <= stencil_right (getc a p)) by (intro a; apply sr_pos, (good_deg N c p G)).
  assert (G2 : forall a, 2 * stencil_right (getc a p) <= getc a g).
  { intro a. unfold g, solver_width. rewrite getc_prim_width, getc_active_width. unfold interp_cost.
    pose proof (ghost_width_pos p (good_deg N c p G)). destruct (active N c a); lia. }
  destruct (cell_centers_is N p ub (good_deg N c p G)) as (cc & E1 & R1 & S1 & V1).
  { intro a. rewrite SA, getc_padded. fold g. specialize (G2 a). specialize (SP a). destruct (G a) as [? _]. lia. }
  assert (EI : interpolate_primitives N c (fun _ _ => 0%R) 0%R u p gw false = Ok (cmap (compute_primitives N (c_gamma c)) cc)).
  { unfold interpolate_primitives. fold (prim_width p gw false). rewrite PW. unfold g. rewrite EA. cbn [bind]. rewrite E1. reflexivity. }
  pose (i := shift g j).
  assert (Hi : in_shape (shp cc) i).
  { intro a. rewrite S1, SA, getc_padded. unfold i. rewrite getc_shift'. specialize (Hj a). specialize (G2 a). fold g. lia. }
  specialize (HV _ _ gw _ ltac:(intro a; rewrite GW, half_up_sr; specialize (HW a); specialize (G2 a); specialize (SP a); destruct a; cbn [ghost_zones3 getc cx cy cz] in *; fold g in HW; lia) EI i Hi).
  cbn [cmap at_] in HV. unfold compute_primitives in HV. cbn [rRho Z.eqb] in HV. change (at_ cc 0 i <> 0%R) in HV. rewrite V1 in HV. intro Z0. apply HV.
  rewrite <- Z0. unfold i. rewrite <- (op_shift _ _ _ (op_pcentre N p (good_deg N c p G)) g (at_ ub)).
  apply (op_local _ _ _ (op_pcentre N p (good_deg N c p G))). intros w k Hk. unfold shiftf. apply VA.
  intro a. specialize (Hk a). specialize (Hj a). rewrite getc_scale3, getc_sr3 in Hk. fold g. lia.
Qed.

Theorem scalar_run (c : config N) heap ok i av T n exact db log fuel u0 o :
  tabulated c -> closed c -> (c_limit c = true -> c_limiter c <> L_unknown) -> shp u0 = c_n c -> 2 <= rows u0 ->
  (forall u, ok u = true -> no_vacuum c (c_p c) u /\ (c_limit c = true -> no_vacuum c (fallback_p N c) u)) ->
  proportional phi v u0 ->
  simulate_checked ok c heap i av T n exact db log fuel u0 = Ok o ->
  simulate c heap i av T n exact db log fuel u0 = Ok o /\
  rows (o_u o) = rows u0 /\ shp (o_u o) = c_n c /\ proportional phi v (o_u o).
Proof.
  intros HT HC HL S0 R0 HO HP HS.
  pose proof (tab_good N c HT) as G. pose proof (good_fallback N c G) as GF.
  pose (P := fun f : field N => forall j, in_shape (c_n c) j -> f v j = (phi * f 0%Z j)%R).
  destruct (checked_invariant N c heap (rows u0) ok P P) with (i := i) (av := av) (T := T) (n := n) (exact := exact) (db := db) (log := log) (fuel := fuel) (u0 := u0) (o := o)
    as [E (X1 & X2 & X3)].
  - intros f g H E j Hj. rewrite <- !E by exact Hj. apply H. exact Hj.
  - intros f g H E j Hj. rewrite <- !E by exact Hj. apply H. exact Hj.
  - intros k f g Hf Hg j Hj. rewrite (Hf j Hj), (Hg j Hj). cbn. ringR.
  - intros k g Hg j Hj. rewrite (Hg j Hj). cbn. ringR.
  - intros f g Hf Hg j Hj. rewrite (Hf j Hj), (Hg j Hj). cbn. ringR.
  - intros f g Hf Hg j Hj. rewrite (Hf j Hj), (Hg j Hj). cbn. ringR.
  - intros x t u x' dt k OKu FO (Ru & Su & Vu) H. rewrite <- Ru in *. destruct (HO u OKu) as [V1 V2].
    destruct (rhs_copies N c heap x t u x' dt k HT HC HL Su ltac:(lia) FO H) as (_ & RK & SK & FO' & _ & F & theta & FF & VF & MO & VK).
    split; [exact FO'|]. split; [exact RK|]. split; [exact SK|]. intros j Hj. rewrite !VK by exact Hj.
    set (E := copied N (c_bc c) (c_n c) u).
    assert (GFX : forall q l d m, good N c q -> (forall a, 0 <= getc a (solver_width N c q) <= getc a (ghost_zones3 c)) -> no_vacuum c q u ->
       active N c d = true -> in_shape (face_shape d (c_n c)) m -> gflux N c q l d E v m = (phi * gflux N c q l d E 0%Z m)%R).
    { intros q l d m Gq HW NV Ad Hm. apply gflux_scalar; [apply (good_deg N c q Gq)|]. intros _ k' Hk.
      assert (B : forall a, - getc a (solver_width N c q) <= getc a k' < getc a (c_n c) + getc a (solver_width N c q) - 2 * stencil_right (getc a q)).
      { intro a. specialize (Hk a). specialize (Hm a). rewrite !getc_shift', getc_neg, getc_scale3, getc_sr3 in Hk.
        unfold flux_reach, flux_off, face_shape in *. unfold solver_width. rewrite getc_prim_width, getc_active_width. unfold interp_cost.
        pose proof (ghost_width_ge q a (good_deg N c q Gq)). pose proof (sr_pos _ (good_deg N c q Gq a)).
        destruct (axis_dec d a) as [<-|NE].
        - rewrite !getc_setc_eq in *. rewrite Ad. lia.
        - rewrite !getc_setc_ne in * by auto. rewrite !getc_scale3, !getc_sr3 in Hk. destruct (active N c a) eqn:AA; [lia|].
          destruct (Gq a) as (_ & _ & G0). rewrite (G0 AA) in *. change (stencil_right 0) with 0 in *. lia. }
      split.
      - pose (E' := (fun w j => if w =? v then (phi * E 0%Z j)%R else E w j) : field N).
        assert (EE : forall w, pcentre N q E w k' = pcentre N q E' w k').
        { intro w. apply (op_local _ _ _ (op_pcentre N q (good_deg N c q Gq))). intros w' j' Hj'. unfold E'.
          destruct (Z.eqb_spec w' v) as [->|]; [|reflexivity].
          assert (Pj : in_padded (c_n c) (solver_width N c q) j').
          { intro a. specialize (Hj' a). specialize (B a). rewrite getc_scale3, getc_sr3 in Hj'. lia. }
          assert (FI : in_shape (c_n c) (folded3 (c_bc c) (c_n c) j')).
          { intro a. pose proof (folded_in N (c_bc c) (c_n c) (solver_width N c q) a (getc a j')
              ltac:(intro b; destruct (G b); lia) (copy_axis_narrow N _ _ _ _ a (HC a) (HW a)) (Pj a)) as FD. destruct a; exact FD. }
          assert (NV0 : forall w, w = v \/ w = 0 -> negated3 (c_bc c) (c_n c) j' w = false).
          { intros w0 Hw. unfold negated3. replace (w0 =? vrow AX) with false by (symmetry; cbn; lia).
            replace (w0 =? vrow AY) with false by (symmetry; cbn; lia). replace (w0 =? vrow AZ) with false by (symmetry; cbn; lia). reflexivity. }
          unfold E, copied. rewrite !NV0 by auto. apply Vu. exact FI. }
        rewrite !EE. apply centre_ratio. intro j'. unfold E'. rewrite Z.eqb_refl.
        replace (0 =? v) with false by (symmetry; apply Z.eqb_neq; lia). reflexivity.
      - apply vacuum_free; auto. }
    apply gsum_ratio. intros d Ad m Hm.
    assert (Fm : in_shape (face_shape d (c_n c)) m).
    { destruct Hm as [-> | ->]; intro a; specialize (Hj a); unfold face_shape; (destruct (axis_dec d a) as [<-|]; co; lia). }
    unfold mixed. rewrite (GFX (c_p c) L_none d m G (width_main N c HT) V1 Ad Fm).
    destruct theta as [th|]; [|reflexivity].
    rewrite (GFX (fallback_p N c) (c_limiter c) d m GF (width_fall N c HT) (V2 (proj1 MO)) Ad Fm).
    cbn [nadd nmul nsub nofZ RNum]. ringR.
  - split; [reflexivity|]. split; [exact S0|]. intros j Hj. apply HP. rewrite S0. exact Hj.
  - exact HS.
  - split; [exact E|]. split; [exact X1|]. split; [exact X2|]. intros j Hj. apply X3. rewrite <- X2. exact Hj.
Qed.
End Scalar.

(** ** a case: density one everywhere *)
Definition unit_density (n : ix) (u : arr R) : bool :=
  ix_eqb (shp u) n && forallb (fun i => if Req_EM_T (at_ u 0 i) 1 then true else false) (ix_list n).
Lemma unit_density_spec n u : unit_density n u = true <-> shp u = n /\ forall i, in_shape n i -> at_ u 0 i = 1%R.
Proof.
  unfold unit_density. rewrite andb_true_iff, ix_eqb_eq, forallb_forall. split; intros [E H]; (split; [exact E|]).
  - intros i Hi. specialize (H i (proj2 (in_ix_list n i) Hi)). destruct (Req_EM_T _ _); [assumption|discriminate].
  - intros i Hi. destruct (Req_EM_T _ _) as [|NE]; [reflexivity|]. exfalso. apply NE, H, in_ix_list, Hi.
Qed.
Lemma unit_no_vacuum (c : config RNum) p u : tabulated c -> closed c -> good RNum c p -> unit_density (c_n c) u = true -> no_vacuum c p u.
Proof.
  intros HT HC G HU junk t gw w HG HI i Hi. apply unit_density_spec in HU. destruct HU as [S HU].
  assert (S' : @shp (car RNum) u = c_n c) by exact S.
  pose proof (good_deg RNum c p G) as D.
  assert (HW : forall a, 0 <= getc a (prim_width p gw false) <= getc a (ghost_zones3 c)).
  { intro a. rewrite getc_prim_width. specialize (HG a). rewrite half_up_sr in HG. pose proof (sr_pos _ (D a)). unfold interp_cost.
    destruct a; cbn [ghost_zones3 getc cx cy cz] in *; lia. }
  assert (Hn : forall a, 1 <= getc a (c_n c)) by (intro a; apply (G a)).
  destruct (apply_copies RNum (c_bc c) junk u (prim_width p gw false) t) as (o & E & R & SH & V).
  { intro a. rewrite S'. specialize (Hn a). lia. }
  { intro a. apply HW. }
  { intro a. rewrite S'. eapply copy_axis_narrow; [apply HC|apply HW]. }
  rewrite S' in SH, V.
  unfold interpolate_primitives in HI. change (mkix _ _ _) with (prim_width p gw false) in HI. rewrite E in HI. cbn [bind] in HI.
  assert (Sh : forall a, getc a (shp o) = getc a (c_n c) + 2 * getc a (prim_width p gw false)) by (intro a; rewrite SH, getc_padded; reflexivity).
  destruct (cell_centers_is RNum p o D) as (cc & E1 & R1 & S1 & V1).
  { intro a. rewrite Sh, getc_prim_width. specialize (Hn a). specialize (HG a). unfold interp_cost. pose proof (sr_pos _ (D a)). lia. }
  rewrite E1 in HI. cbn [bind] in HI. injection HI as <-. cbn [cmap at_ shp] in *.
  unfold compute_primitives. cbn [rRho Z.eqb]. rewrite V1.
  rewrite (op_local _ _ _ (op_pcentre RNum p D) _ (fun v j => if v =? 0 then 1%R else at_ o v j)).
  - rewrite (centre_level 1 0 p D); [apply R1_neq_R0|]. intro j. reflexivity.
  - intros v j Hj. destruct (Z.eqb_spec v 0) as [->|]; [|reflexivity].
    set (g := prim_width p gw false) in *. assert (J : in_padded (c_n c) g (shift (neg3 g) j)).
    { intro a. specialize (Hj a). specialize (Hi a). rewrite S1, Sh in Hi. rewrite getc_scale3, getc_sr3 in Hj. rewrite getc_shift', getc_neg. lia. }
    replace j with (shift g (shift (neg3 g) j)) by (apply ix_ext; intro a; rewrite !getc_shift', getc_neg; lia).
    destruct (V 0 _ J) as [_ ->]. replace (negated3 (c_bc c) (c_n c) (shift (neg3 g) j) 0) with false by reflexivity.
    apply HU. intro a. pose proof (folded_in RNum (c_bc c) (c_n c) g a (getc a (shift (neg3 g) j))
      ltac:(intro b; specialize (Hn b); lia) (copy_axis_narrow RNum _ _ _ _ a (HC a) (HW a)) (J a)) as FD. destruct a; exact FD.
Qed.
(** uniform runs pass the test *)
Lemma uniform_passes (c : config RNum) heap i av T n exact db log fuel u0 s o :
  tabulated c -> closed c -> along_walls c s -> (c_limit c = true -> c_limiter c <> L_unknown) ->
  shp u0 = c_n c -> 2 <= rows u0 -> uniform u0 s -> s 0 = 1%R ->
  simulate c heap i av T n exact db log fuel u0 = Ok o ->
  simulate_checked (N := RNum) (unit_density (c_n c)) c heap i av T n exact db log fuel u0 = Ok o.
Proof.
  intros HT HC HP HL S0 R0 HU S1 HS.
  destruct (checked_passes RNum c heap (rows u0) (unit_density (c_n c)) (fun f => forall v j, in_shape (c_n c) j -> f v j = s v) (fun f => forall v j, in_shape (c_n c) j -> f v j = 0%R)) with
    (i := i) (av := av) (T := T) (n := n) (exact := exact) (db := db) (log := log) (fuel := fuel) (u0 := u0) (o := o) as [E _]; try exact E; try exact HS.
  - intros f g H E v j Hj. rewrite <- E by exact Hj. auto.
  - intros f g H E v j Hj. rewrite <- E by exact Hj. auto.
  - intros k f g Hf Hg v j Hj. rewrite (Hf v j Hj), (Hg v j Hj). cbn. lra.
  - intros k g Hg v j Hj. rewrite (Hg v j Hj). cbn. lra.
  - intros f g Hf Hg v j Hj. rewrite (Hf v j Hj), (Hg v j Hj). cbn. lra.
  - intros f g Hf Hg v j Hj. rewrite (Hf v j Hj), (Hg v j Hj). unfold nhalf. cbn. lra.
  - intros u (_ & Su & Vu). apply unit_density_spec. split; [exact Su|]. intros j Hj. rewrite <- S1. apply Vu. exact Hj.
  - apply uniform_rhs; auto.
  - split; [reflexivity|]. split; [exact S0|]. intros v j Hj. apply HU. rewrite S0. exact Hj.
Qed.
Definition flow_state (v : Z) : R := nth (Z.to_nat v) [1; 1; -2; 1/2; 5; 1/3]%R 0%R.
Lemma scalar_example : forall heap, exists o,
  let c := flow3d B_outflow false in let u0 := mkarr 6 (c_n c) (fun v _ => flow_state v) in
  tabulated c /\ closed c /\ proportional (1/3) 5 u0 /\
  (forall u, unit_density (c_n c) u = true -> no_vacuum c (c_p c) u) /\
  simulate_checked (N := RNum) (unit_density (c_n c)) c heap I_ssprk3 true None (Some 7) true [] false 0 u0 = Ok o.
Proof.
  intro heap. pose (c := flow3d B_outflow false). pose (u0 := mkarr 6 (c_n c) (fun v (_ : ix) => flow_state v)).
  assert (HC : closed c) by (apply flow3d_closed; exact I). assert (HT : tabulated c) by apply flow3d_tabulated.
  destruct (runs_end RNum (fun _ _ => 0%R) c heap I_ssprk3 true 7 true [] false 0 u0) as (o & E & _); try reflexivity; try lia; auto.
  { apply flow3d_fillable. exact I. } { cbn. lia. }
  exists o. split; [exact HT|]. split; [exact HC|]. split.
  { intros j _. change (1/3 = 1/3 * 1)%R. lra. }
  split. { intros u. apply unit_no_vacuum; auto. apply tab_good, HT. }
  apply (uniform_passes c heap I_ssprk3 true None (Some 7) true [] false 0 u0 flow_state); auto.
  - intros a pos _. discriminate.
  - discriminate.
  - cbn. lia.
  - intros v j _. reflexivity.
Qed.
