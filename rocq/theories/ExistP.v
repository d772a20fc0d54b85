(** Runs without slope limiting cannot fail. *)
From Coq Require Import ZArith List Bool Lia.
From Verif Require Import Err Num PySlice NdArray HydroM RiemannM StencilsM FvM BcM SedM
  LimitM OdeM SolverM SpecBc SpecSolver SpecCons NdArrayP FvP BcP BcQ OpP SolverP OdeP RelP RelS LimP RunP ConsP.
From Verif Require SpecOde.
Import ListNotations.
Open Scope Z_scope.

Lemma bind_ok {A B} (x : res A) a (k : A -> res B) : x = Ok a -> bind x k = k a.
Proof. intros ->. reflexivity. Qed.
Section Exist.
Context (N : Num).
Local Notation K := (car N).
Context (xc : axis -> Z -> K).
Lemma apply_fillable (c : config N) junk u g t : tabulated c -> fillable xc c (rows u) -> shp u = c_n c ->
  (forall a, 0 <= getc a g <= getc a (ghost_zones3 c)) ->
  exists out, apply N (c_bc c) junk u g t = Ok out /\ rows out = rows u /\ shp out = padded (shp u) g /\
    forall v i, in_padded (shp u) g i -> at_ out v (shift g i) = extended N xc (c_bc c) (shp u) t u v i.
Proof.
  intros [[Sn _ _ _] _] HA S HG. apply apply_is.
  - intro a. rewrite S. specialize (Sn a). lia.
  - intro a. apply HG.
  - intro a. rewrite S. eapply axis_ok_narrow; [apply HA|exact HG].
Qed.
Lemma padding_fillable (c : config N) p junk t u : tabulated c -> fillable xc c (rows u) -> shp u = c_n c ->
  (forall a, 0 <= getc a (solver_width N c p) <= getc a (ghost_zones3 c)) ->
  padding N c p junk t u (extended N xc (c_bc c) (c_n c) t u).
Proof.
  intros T HA S HW. destruct (apply_fillable c junk u (solver_width N c p) t T HA S HW) as (o & E & R & SH & V).
  exists o. split; [exact E|]. split; [exact R|]. split; [exact SH|]. rewrite S in *. exact V.
Qed.

Lemma primitives_ok (c : config N) junk t u av : tabulated c -> fillable xc c (rows u) -> shp u = c_n c ->
  exists w, interpolate_primitives N c junk t u (c_p c) (mkix 0 0 0) av = Ok w /\ rows w = rows u /\ shp w = c_n c.
Proof.
  intros T HA S. pose proof (tab_good N c T) as G.
  assert (D : forall a, deg_ok (getc a (c_p c))) by apply (good_deg N c _ G).
  assert (Z0 : forall a, getc a (mkix 0 0 0) = 0) by (intros []; reflexivity).
  assert (N0 : forall a, 0 <= getc a (shp u)) by (intro a; rewrite S; destruct (G a); lia).
  assert (HW : forall a, 0 <= getc a (prim_width (c_p c) (mkix 0 0 0) av) <= getc a (ghost_zones3 c)).
  { intro a. pose proof (width_main N c T a) as W. unfold solver_width in W. rewrite getc_prim_width in *.
    rewrite getc_active_width in W. rewrite Z0. pose proof (sr_pos _ (D a)).
    pose proof (ghost_width_pos (c_p c) D). unfold interp_cost in *. destruct (active N c a), av; lia. }
  destruct (apply_fillable c junk u _ t T HA S HW) as (o & E & R & SH & _).
  destruct av.
  - destruct (interpolate_primitives_raw N c junk t u (c_p c) (mkix 0 0 0) o D E R SH N0) as (w & E' & R' & S' & _).
    { intro a. rewrite Z0. lia. }
    exists w. split; [exact E'|]. split; [exact R'|]. rewrite S', S. apply ix_ext. intro a. rewrite getc_padded, Z0. lia.
  - unfold interpolate_primitives. change (mkix _ _ _) with (prim_width (c_p c) (mkix 0 0 0) false). rewrite E. cbn [bind].
    assert (Sh : forall a, getc a (shp o) = getc a (c_n c) + 2 * stencil_right (getc a (c_p c))).
    { intro a. rewrite SH, getc_padded, getc_prim_width, Z0, S. unfold interp_cost. lia. }
    destruct (cell_centers_is N (c_p c) o D) as (cc & E1 & R1 & S1 & _).
    { intro a. rewrite Sh. specialize (N0 a). rewrite S in N0. lia. }
    rewrite E1. cbn [bind]. eexists. split; [reflexivity|]. cbn [cmap rows shp]. split; [congruence|].
    apply ix_ext. intro a. rewrite S1, Sh. lia.
Qed.
Lemma payload_exists (c : config N) heap av x t u : tabulated c -> fillable xc c (rows u) -> shp u = c_n c ->
  exists d, snap_payload N c heap av x t u = Ok d.
Proof.
  intros T HA S. unfold snap_payload. destruct (primitives_ok c (heap 0) t u av T HA S) as (w & E & R & SW).
  rewrite E. cbn [bind].
  destruct (assign_all_is (mkarr (rows u) (c_n c) (fun _ _ => nofZ 0)) w (rows u) (c_n c) (at_ w)) as (z & EZ & _); try reflexivity.
  { split; [exact R|]. split; [exact SW|]. reflexivity. }
  rewrite EZ. cbn [bind]. eauto.
Qed.

(** shape invariant *)
Context (c : config N) (heap : Z -> Z -> ix -> K) (r : Z).
Context (HT : tabulated c) (HA : fillable xc c r) (Hr : 1 <= r).
Definition shaped (u : arr K) : Prop := rows u = r /\ shp u = c_n c.
Section Steps.
Context (fluxed : aux N -> Prop).
Context (f_ok : forall x s t u, fluxed x -> shaped u -> exists x' dt k, solver_f N c heap x s t u = Ok (x', (dt, k)) /\ fluxed x' /\ shaped k).
Context (helper_ok : forall x, fluxed x -> fluxed (step_helper N c x)).
Context (init_ok : fluxed (aux_init N c heap r)).
Lemma scale_ok k u : shaped u -> shaped (vscale (arr_ops N) k u).
Proof. auto. Qed.
Lemma add_ok u w : shaped u -> shaped w -> exists z, vadd (arr_ops N) u w = Ok z /\ shaped z.
Proof.
  intros [R1 S1] [R2 S2]. cbn [vadd arr_ops].
  destruct (amap2_is nadd u w r (c_n c) (at_ u) (at_ w)) as (z & E & RZ & SZ & _); try (split; auto).
  exists z. split; [exact E|]. split; assumption.
Qed.
Ltac call := match goal with |- exists _ _ _, bind (solver_f N c heap ?x ?s ?t ?u) _ = _ /\ _ =>
   destruct (f_ok x s t u) as (? & ? & ? & -> & ? & ?); [assumption|assumption|]; cbn [bind] end.
Ltac add := match goal with |- exists _ _ _, bind (vadd _ ?u ?w) _ = _ /\ _ =>
   destruct (add_ok u w) as (? & -> & ?); [auto using scale_ok|auto using scale_ok|]; cbn [bind] end.
Lemma step_ok i x t u target : fluxed x -> shaped u ->
  exists x' dt un, solver_step N c heap i x t u target = Ok (x', (dt, un)) /\ fluxed x' /\ shaped un.
Proof.
  intros FX HU. unfold solver_step. destruct i; cbn [stepper_of]; unfold euler, ssprk2, ssprk3, rk4.
  - call. add. eauto 8.
  - call. add. call. add. add. eauto 8.
  - call. add. call. add. add. call. add. add. add. eauto 8.
  - call. add. call. add. call. add. call. add. add. add. add. eauto 8.
Qed.
Definition okrun (o : run N) : Prop := shaped (o_u o) /\ fluxed (o_aux o).
Lemma take_ok i (o : run N) target : okrun o ->
  exists o', take_step N (arr_ops N) (solver_step N c heap i) (step_helper N c) o target = Ok o' /\ okrun o' /\
    o_steps o' = o_steps o + 1.
Proof.
  intros [HU HX]. unfold take_step. destruct (step_ok i (o_aux o) (o_t o) (o_u o) target HX HU) as (x & dt & un & -> & FX & [RU SU]).
  cbn [bind]. destruct HU as [R1 S1]. cbn [vassign arr_ops].
  destruct (assign_all_is (o_u o) un r (c_n c) (at_ un) R1 S1) as (z & -> & RZ & SZ & _).
  { split; [exact RU|]. split; [exact SU|]. reflexivity. }
  cbn [bind]. eexists. split; [reflexivity|]. split; [|reflexivity]. split; [split; assumption|].
  cbn [o_aux]. apply helper_ok, FX.
Qed.
Lemma snap_ok av (o : run N) : okrun o -> exists o', snapshot N (snap_payload N c heap av) o = Ok o' /\ okrun o' /\ o_steps o' = o_steps o.
Proof.
  intros [[R S] HX]. unfold snapshot. destruct (payload_exists c heap av (o_aux o) (o_t o) (o_u o) HT) as (d & E); auto.
  { rewrite R. exact HA. }
  eexists. split. { etransitivity; [apply (f_equal (fun z => bind z _)); exact E|]. reflexivity. } split; [|reflexivity]. split; [split|]; assumption.
Qed.
Lemma taken_ok i n : forall o : run N, okrun o ->
  exists o', take_n N (arr_ops N) (solver_step N c heap i) (step_helper N c) n o = Ok o' /\ okrun o' /\
    o_steps o' = o_steps o + Z.of_nat n.
Proof.
  induction n; intros o H; cbn [take_n].
  - exists o. split; [reflexivity|]. split; [exact H|lia].
  - destruct (take_ok i o None H) as (o1 & -> & H1 & S1). cbn [bind].
    destruct (IHn o1 H1) as (o2 & -> & H2 & S2). exists o2. split; [reflexivity|]. split; [exact H2|]. lia.
Qed.
Theorem run_exists_gen i av k exact db log fuel u0 : shaped u0 -> 0 <= k ->
  exists o, simulate c heap i av None (Some k) exact db log fuel u0 = Ok o /\ shaped (o_u o) /\ o_steps o = k.
Proof.
  intros HU Hk. unfold simulate, solver_integrate, integrate, integrate_n.
  assert (I : okrun (ode_init N u0 (aux_init N c heap (rows u0)))).
  { split; [exact HU|]. cbn [o_aux ode_init]. destruct HU as [-> _]. exact init_ok. }
  destruct (snap_ok av _ I) as (o1 & E1 & H1 & S1).
  destruct (taken_ok i (Z.to_nat k) o1 H1) as (o2 & E2 & H2 & S2).
  destruct (snap_ok av _ H2) as (o3 & E3 & H3 & S3). exists o3.
  split. { etransitivity; [exact (bind_ok _ _ _ E1)|]. etransitivity; [exact (bind_ok _ _ _ E2)|]. exact E3. } split; [apply H3|].
  etransitivity; [exact S3|]. etransitivity; [exact S2|]. etransitivity; [apply (f_equal (fun z => z + _)); exact S1|]. cbn. lia.
Qed.
End Steps.
Definition fluxed (x : aux N) : Prop := flux_arrays_ok N c r (x_flux x).
Lemma f_ok (HL : c_limit c = false) x s t u : fluxed x -> shaped u -> exists x' dt k, solver_f N c heap x s t u = Ok (x', (dt, k)) /\ fluxed x' /\ shaped k.
Proof.
  intros FX [R S]. unfold solver_f.
  destruct (hydrodynamics_is N c heap x s u (extended N xc (c_bc c) (c_n c) s u)) as (x' & dt & k & E & _ & RK & SK & _ & FO & _); auto.
  - apply tab_good; assumption.
  - lia.
  - apply sane_dims, HT.
  - rewrite R. exact FX.
  - apply padding_fillable; auto; [rewrite R; exact HA|apply width_main; assumption].
  - exists x', dt, k. split; [exact E|]. rewrite R in *. split; [exact FO|]. split; auto.
Qed.
Theorem run_exists (HL : c_limit c = false) i av k exact db log fuel u0 : shaped u0 -> 0 <= k ->
  exists o, simulate c heap i av None (Some k) exact db log fuel u0 = Ok o /\ shaped (o_u o) /\ o_steps o = k.
Proof.
  apply (run_exists_gen fluxed (f_ok HL)).
  - intros x FX. unfold fluxed. rewrite helper_flux. exact FX.
  - intro d. cbn. auto.
Qed.
End Exist.

Lemma runs_end : forall (N : Num) (xc : axis -> Z -> car N) (c : config N) heap i as_averages k exact downbeats log fuel u0,
  tabulated c -> fillable xc c (rows u0) -> c_limit c = false -> shp u0 = c_n c -> 2 <= rows u0 -> 0 <= k ->
  exists o, simulate c heap i as_averages None (Some k) exact downbeats log fuel u0 = Ok o /\
    shp (o_u o) = c_n c /\ rows (o_u o) = rows u0 /\ o_steps o = k.
Proof.
  intros N xc c heap i av k ex db log fuel u0 HT HA HL S R K0.
  destruct (run_exists N xc c heap (rows u0) HT HA ltac:(lia) HL i av k ex db log fuel u0) as (o & E & [X Y] & Z); auto.
  - split; auto.
  - exists o. auto.
Qed.

(** the flux arrays *)
Lemma fluxes_shaped : forall (N : Num) (xc : axis -> Z -> car N) (c : config N) junk t stale u p l,
  tabulated c -> fillable xc c (rows u) -> shp u = c_n c -> interface_arrays (c_n c) (rows u) stale ->
  (p = c_p c /\ l = L_none \/ p = fallback_p N c /\ l <> L_unknown) ->
  exists dt F, hydrofluxes N c junk t stale u p l = Ok (dt, F) /\ interface_arrays (c_n c) (rows u) F.
Proof.
  intros N xc c junk t stale u p l HT HA S HS HP. pose proof (tab_good N c HT) as G.
  assert (X : good N c p /\ lim_ok l p /\ forall a, 0 <= getc a (solver_width N c p) <= getc a (ghost_zones3 c)).
  { destruct HP as [[-> ->]|[-> HL]].
    - split; [exact G|]. split; [left; reflexivity|]. apply width_main; exact HT.
    - split; [apply good_fallback; exact G|]. split; [|apply width_fall; exact HT].
      right. split; [apply pmax_fallback|exact HL]. }
  destruct X as (G' & LO & W).
  destruct (hydrofluxes_is N c junk t stale u p l _ G' LO S (padding_fillable N xc c p junk t u HT HA S W)) as (dt & F & E & _ & HF).
  exists dt, F. split; [exact E|]. intro d. destruct (HF d) as [H1 H2]. destruct (active N c d) eqn:A.
  - destruct (H1 eq_refl) as (A1 & A2 & _). split; [exact A1|]. exact A2.
  - rewrite (H2 eq_refl). apply HS.
Qed.

(** examples *)
Definition flow3d (ty : bct) (limit : bool) : config RNum := demo (mkix 12 13 14) (mkix 3 2 1) (uniform_bc ty) limit.
Lemma flow3d_tabulated ty limit : tabulated (flow3d ty limit).
Proof.
  split; [split|].
  - intros []; cbn; lia.
  - intros []; cbn; lia.
  - exists AX. intros [H _]. discriminate.
  - exact I.
  - intros []; cbn; lia.
Qed.
Lemma flow3d_ends ty limit : all_ends ty (flow3d ty limit).
Proof. intros a _. split; [reflexivity|]. destruct a, limit; vm_compute; discriminate. Qed.
Lemma flow3d_closed ty limit : copies ty -> closed (flow3d ty limit).
Proof. intro H. apply (all_closed ty); [apply flow3d_tabulated|exact H|apply flow3d_ends]. Qed.
Lemma flow3d_fillable ty limit xc q : copies ty -> fillable xc (flow3d ty limit) q.
Proof.
  intros H a. right. assert (E : enough ty (getc a (c_n (flow3d ty limit))) (getc a (ghost_zones3 (flow3d ty limit)))).
  { destruct ty; cbn [enough]; try exact I; destruct a, limit; vm_compute; try discriminate; reflexivity. }
  split; [left; split; [exact H|exact E]|split; [left; split; [exact H|exact E]|intro X; exact X]].
Qed.
(** run() *)
Lemma run_order N (c : config N) : sane c -> Z.of_nat (SpecOde.order (run_integrator N c)) = Z.min (top_degree (c_p c) + 1) 4.
Proof.
  intros [_ Sp _ _]. unfold run_integrator, top_degree. pose proof (Sp AX) as Px. cbn [getc] in Px.
  replace (pmax (c_p c)) with (Z.max (cx (c_p c)) (Z.max (cy (c_p c)) (cz (c_p c)))) by (unfold pmax; lia).
  set (m := Z.max _ _). assert (0 <= m) by (unfold m; lia). clearbody m.
  assert (C : m = 0 \/ m = 1 \/ m = 2 \/ 3 <= m) by lia. destruct C as [-> |[-> |[-> |C]]]; try reflexivity.
  rewrite (Z.min_r m 3) by lia. rewrite Z.min_r by lia. reflexivity.
Qed.
