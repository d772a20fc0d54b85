(** Uniform flow. *)
From Coq Require Import ZArith List Bool Lia Reals Lra.
From Verif Require Import Err Num PySlice NdArray HydroM RiemannM StencilsM FvM BcM SedM
  LimitM OdeM SolverM Spec SpecBc SpecSolver SpecCons NdArrayP FvP BcP BcQ OpP SolverP OdeP RelP RelS LimP RunP ConsP ExistP.
Import ListNotations.
Open Scope Z_scope.

Section Uniform.
Local Notation N := RNum.
Fixpoint lsum (l : list R) : R := match l with [] => 0%R | x :: l' => (x + lsum l')%R end.
Lemma wsum_from_const ws j (x a : R) : wsum_from N ws j (fun _ => x) a = (a + lsum ws * x)%R.
Proof.
  revert j a. induction ws as [|w ws IH]; intros j a; cbn [wsum_from lsum]; [lra|].
  rewrite IH. cbn [nadd nmul RNum]. lra.
Qed.
Lemma wsum_const ws (x : R) : wsum N ws (fun _ => x) = (lsum ws * x)%R.
Proof. unfold wsum. rewrite wsum_from_const. cbn [nofZ RNum]. lra. Qed.
Lemma lsum_i p pos : deg_ok p -> lr_pos pos -> lsum (wts_i N p pos) = 1%R.
Proof.
  intros Hp [->|[->| ->]]; destruct (deg_cases _ Hp) as [->|[->|[->|[->|[->|[->|[->|[->| ->]]]]]]]];
    cbn; lra.
Qed.
Lemma lsum_t p : deg_ok p -> lsum (wts_t N p) = 1%R.
Proof.
  intros Hp; destruct (deg_cases _ Hp) as [->|[->|[->|[->|[->|[->|[->|[->| ->]]]]]]]]; cbn; lra.
Qed.
Definition flat (s : Z -> R) : field N := fun v _ => s v.
Lemma flat_i a p pos s v i : deg_ok p -> lr_pos pos -> psweep N a (wts_i N p pos) (flat s) v i = s v.
Proof. intros. unfold psweep, flat. rewrite wsum_const, lsum_i by assumption. apply Rmult_1_l. Qed.
Lemma flat_t a p s v i : deg_ok p -> psweep N a (wts_t N p) (flat s) v i = s v.
Proof. intros. unfold psweep, flat. rewrite wsum_const, lsum_t by assumption. apply Rmult_1_l. Qed.
Lemma slope_zero l : slope_fn N l 0%R 0%R = 0%R.
Proof.
  unfold slope_fn. destruct l; cbn [limited_slope].
  - unfold minmod. cbn [nmul RNum]. apply Rmult_0_r.
  - unfold moncen, nsign. cbn [nmul nadd nltb neqb nofZ RNum nhalf ndiv].
    assert (Z0 : (1 / 2 * (0 + 0))%R = 0%R) by lra. rewrite Z0.
    unfold Rltb, Reqb. destruct (Rlt_dec 0 0) as [H|_]; [lra|]. destruct (Req_EM_T 0 0) as [_|H]; [|lra].
    destr_if; [apply Rmult_0_l|reflexivity].
  - cbn. lra.
  - reflexivity.
Qed.
Section Deg.
Context (p : ix) (D : forall a, deg_ok (getc a p)).
Lemma flat_trans d s v i : ptrans N p d (flat s) v i = s v.
Proof.
  destruct d; unfold ptrans, interp_axes;
    (etransitivity; [apply psweep_fun; intros; exact (flat_i _ _ _ s _ _ (D _) lr_c)|exact (flat_i _ _ _ s _ _ (D _) lr_c)]).
Qed.
Lemma flat_centre s v i : pcentre N p (flat s) v i = s v.
Proof.
  unfold pcentre. etransitivity; [|exact (flat_i AZ (cz p) P_c s v i (D AZ) lr_c)].
  apply psweep_fun; intros v1 i1. etransitivity; [|exact (flat_i AY (cy p) P_c s v1 i1 (D AY) lr_c)].
  apply psweep_fun; intros v2 i2. exact (flat_i AX (cx p) P_c s v2 i2 (D AX) lr_c).
Qed.
Lemma flat_average s v i : paverage N p (flat s) v i = s v.
Proof.
  unfold paverage. etransitivity; [|exact (flat_t AZ (cz p) s v i (D AZ))].
  apply psweep_fun; intros v1 i1. etransitivity; [|exact (flat_t AY (cy p) s v1 i1 (D AY))].
  apply psweep_fun; intros v2 i2. exact (flat_t AX (cx p) s v2 i2 (D AX)).
Qed.
Lemma paverage_fun (f g : field N) : (forall v i, f v i = g v i) -> forall v i, paverage N p f v i = paverage N p g v i.
Proof. intros H v i. unfold paverage. do 3 (apply psweep_fun; intros). apply H. Qed.
Lemma flat_prim gam s v i : pprim N p gam (flat s) v i = compute_primitives N gam s v.
Proof.
  unfold pprim. etransitivity; [|exact (flat_average (compute_primitives N gam s) v i)].
  apply paverage_fun. intros w j. unfold pcell, flat. apply cellwise_prim. intro. apply flat_centre.
Qed.
Lemma flat_trace limit l d pos s v i : pos = P_l \/ pos = P_r -> ptrace N p limit l d pos (flat s) v i = s v.
Proof.
  intro Hpos. unfold ptrace. destr_if.
  - unfold p3. rewrite !flat_trans. destruct Hpos as [-> | ->]; unfold muscl_l, muscl_r; cbn [nsub nadd nmul RNum];
      (replace (s v - s v)%R with 0%R by (symmetry; apply Rminus_diag_eq; reflexivity));
      rewrite slope_zero, Rmult_0_r; [apply Rminus_0_r|apply Rplus_0_r].
  - etransitivity; [apply (psweep_fun N d _ _ (flat s)); intros; apply flat_trans|]. apply flat_i; [apply D|]. unfold lr_pos. tauto.
Qed.
Lemma flat_flux limit l rs gam csq d s v i :
  pflux N p limit l rs gam csq d (flat s) v i = riemann N rs gam csq d s s v.
Proof.
  unfold pflux.
  assert (HP : forall w j, pface N d (riemann N rs gam csq d) (ptrace N p limit l d P_r (flat s)) (ptrace N p limit l d P_l (flat s)) w j
     = flat (riemann N rs gam csq d s s) w j).
  { intros w j. unfold pface. apply cellwise_riemann; intro; apply flat_trace; auto. }
  destruct d; unfold pintegral, recon_axes;
  (etransitivity; [apply psweep_fun; intros; etransitivity; [apply psweep_fun; intros; apply HP|exact (flat_t _ _ _ _ _ (D _))]
                  |exact (flat_t _ _ _ _ _ (D _))]).
Qed.
Lemma pflux_fun limit l rs gam csq d (f g : field N) : (forall v i, f v i = g v i) ->
  forall v i, pflux N p limit l rs gam csq d f v i = pflux N p limit l rs gam csq d g v i.
Proof. intros H v i. apply (op_local _ _ _ (op_pflux N p D limit l rs gam csq d)). auto. Qed.
Lemma flat_gflux (c : config N) l d s v i :
  gflux N c p l d (flat s) v i = riemann N (c_rs c) (c_gamma c) (c_csq_floor c) d (compute_primitives N (c_gamma c) s) (compute_primitives N (c_gamma c) s) v.
Proof.
  unfold gflux. rewrite <- (flat_flux (limits l) l _ _ _ d _ v (shift (neg3 (flux_off p d)) i)).
  apply pflux_fun. intros w j. apply flat_prim.
Qed.
End Deg.

Lemma copied_uniform (c : config N) u s g : tabulated c -> closed c -> along_walls c s -> shp u = c_n c -> uniform u s ->
  (forall a, 0 <= getc a g <= getc a (ghost_zones3 c)) ->
  forall v j, in_padded (c_n c) g j -> copied N (c_bc c) (c_n c) u v j = s v.
Proof.
  intros HT HC HP S HU HG v j Hj. unfold copied.
  assert (HF : at_ u v (folded3 (c_bc c) (c_n c) j) = s v).
  { apply HU. rewrite S. intro a.
    assert (N0 : forall a, 0 <= getc a (c_n c)) by (intro b; destruct HT as [[Sn _ _ _] _]; specialize (Sn b); lia).
    pose proof (folded_in N (c_bc c) (c_n c) g a (getc a j) N0 (copy_axis_narrow N _ _ _ g a (HC a) (HG a)) (Hj a)) as H.
    destruct a; exact H. }
  cbv zeta. change (car N) with R in *. rewrite HF. destruct (negated3 (c_bc c) (c_n c) j v) eqn:NG; [|reflexivity].
  assert (Z0 : s v = 0%R); [|rewrite Z0; cbn [nmul nofZ RNum]; lra].
  assert (X : forall a, (v =? vrow a) && negated (bc_type (c_bc c) a SL) (bc_type (c_bc c) a SR) (getc a (c_n c)) (getc a j) = true -> s v = 0%R).
  { intros a H. apply andb_prop in H as [H1 H2]. apply Z.eqb_eq in H1. subst v. specialize (Hj a). specialize (HG a).
    destruct (active N c a) eqn:A.
    - apply active_spec in A. unfold negated in H2. destruct (getc a j <? 0); [|destruct (getc a (c_n c) <=? getc a j); [|discriminate]].
      + apply (HP a SL A). destruct (bc_type (c_bc c) a SL); try discriminate; reflexivity.
      + apply (HP a SR A). destruct (bc_type (c_bc c) a SR); try discriminate; reflexivity.
    - exfalso. assert (Z0 : getc a (ghost_zones3 c) = 0).
      { unfold active in A. apply negb_false_iff in A. unfold ghost_zones3, ghost_zones, inactive_b.
        destruct a; cbn [getc cx cy cz] in *; rewrite A; reflexivity. }
      rewrite negated_inside in H2 by lia. discriminate. }
  unfold negated3 in NG. apply orb_prop in NG as [NG|NG]; [apply orb_prop in NG as [NG|NG]|]; eapply X; exact NG.
Qed.

(** the right-hand side of a uniform state vanishes *)
Lemma uniform_rhs (c : config N) heap r s :
  tabulated c -> closed c -> along_walls c s -> (c_limit c = true -> c_limiter c <> L_unknown) -> 2 <= r ->
  forall x t u x' dt k, flux_arrays_ok N c r (x_flux x) ->
    holds N c r (fun f => forall v j, in_shape (c_n c) j -> f v j = s v) u ->
    hydrodynamics N c heap x t u = Ok (x', (dt, k)) ->
    flux_arrays_ok N c r (x_flux x') /\ holds N c r (fun f => forall v j, in_shape (c_n c) j -> f v j = 0%R) k.
Proof.
  intros HT HC HP HL R0 x t u x' dt k FO (Ru & Su & Vu) H. rewrite <- Ru in *.
  pose proof (tab_good N c HT) as G. pose proof (good_fallback N c G) as GF.
    assert (HUu : uniform u s) by (unfold uniform; rewrite Su; exact Vu).
    destruct (rhs_copies N c heap x t u x' dt k HT HC HL Su ltac:(lia) FO H) as (_ & RK & SK & FO' & _ & F & theta & FF & VF & MO & VK).
    split; [exact FO'|]. split; [exact RK|]. split; [exact SK|]. intros v j Hj. rewrite (VK v j Hj).
    set (W := compute_primitives N (c_gamma c) s).
    assert (M : forall d, active N c d = true -> forall w l, in_shape (face_shape d (c_n c)) l ->
      mixed N c theta (copied N (c_bc c) (c_n c) u) d w l = riemann N (c_rs c) (c_gamma c) (c_csq_floor c) d W W w).
    { intros d Ad w l Hl.
      assert (GFX : forall p lm, good N c p -> (forall a, 0 <= getc a (solver_width N c p) <= getc a (ghost_zones3 c)) ->
        gflux N c p lm d (copied N (c_bc c) (c_n c) u) w l = riemann N (c_rs c) (c_gamma c) (c_csq_floor c) d W W w).
      { intros p lm Gp HW. etransitivity; [|exact (flat_gflux p (good_deg N c p Gp) c lm d s w l)].
        apply gflux_local; [apply (good_deg N c p Gp)|]. intros w' l' Hr.
        apply (copied_uniform c u s (solver_width N c p)); auto. eapply reads_padded; eauto. }
      unfold mixed. rewrite (GFX (c_p c) L_none G (width_main N c HT)).
      destruct theta as [th|]; [|reflexivity]. rewrite (GFX (fallback_p N c) (c_limiter c) GF (width_fall N c HT)).
      cbn [nadd nmul nsub nofZ RNum]. lra. }
    rewrite (gsum_ext N c _ (fun d w _ => riemann N (c_rs c) (c_gamma c) (c_csq_floor c) d W W w) (c_n c) v j Hj M).
    unfold gsum. assert (Z0 : forall l, fold_left (fun acc d => nadd acc (gterm N c d (fun w _ => riemann N (c_rs c) (c_gamma c) (c_csq_floor c) d W W w) v j)) l (nofZ 0) = 0%R).
    { induction l as [|d l IH]; [reflexivity|]. cbn [fold_left]. etransitivity; [|exact IH]. f_equal.
      unfold gterm. cbn [nadd nmul nsub nofZ RNum]. lra. }
    apply Z0.
Qed.
Lemma no_walls_along (c : config N) s : no_walls c -> along_walls c s.
Proof. intros H a pos A E. destruct (H a pos A E). Qed.
Theorem uniform_run (c : config N) heap i av T n exact db log fuel u0 s o :
  tabulated c -> closed c -> along_walls c s -> (c_limit c = true -> c_limiter c <> L_unknown) ->
  shp u0 = c_n c -> 2 <= rows u0 -> uniform u0 s ->
  simulate c heap i av T n exact db log fuel u0 = Ok o ->
  rows (o_u o) = rows u0 /\ shp (o_u o) = c_n c /\ uniform (o_u o) s.
Proof.
  intros HT HC HP HL S0 R0 HU.
  assert (X : simulate c heap i av T n exact db log fuel u0 = Ok o ->
    holds N c (rows u0) (fun f => forall v j, in_shape (c_n c) j -> f v j = s v) (o_u o)).
  2:{ intro HS. destruct (X HS) as (X1 & X2 & X3). unfold uniform. rewrite X2. auto. }
  apply (run_invariant N c heap (rows u0) _ (fun f => forall v j, in_shape (c_n c) j -> f v j = 0%R)).
  - intros f g H E v j Hj. rewrite <- E by exact Hj. auto.
  - intros f g H E v j Hj. rewrite <- E by exact Hj. auto.
  - intros k f g Hf Hg v j Hj. rewrite (Hf v j Hj), (Hg v j Hj). cbn. lra.
  - intros k g Hg v j Hj. rewrite (Hg v j Hj). cbn. lra.
  - intros f g Hf Hg v j Hj. rewrite (Hf v j Hj), (Hg v j Hj). cbn. lra.
  - intros f g Hf Hg v j Hj. rewrite (Hf v j Hj), (Hg v j Hj). unfold nhalf. cbn. lra.
  - apply uniform_rhs; auto.
  - split; [reflexivity|]. split; [exact S0|]. intros v j Hj. apply HU. rewrite S0. exact Hj.
Qed.
End Uniform.
