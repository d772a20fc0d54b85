(** Runs with slope limiting never raise. *)
From Coq Require Import ZArith List Bool Lia Reals.
From Verif Require Import Err Num PySlice NdArray HydroM RiemannM StencilsM FvM BcM SedM
  LimitM OdeM SolverM SpecBc SpecLim SpecSolver SpecCons NdArrayP FvP BcP BcQ OpP SolverP OdeP RelP RelS LimP RunP ConsP BroadP DetectP ConvexP ExistP SpecSym.
Import ListNotations.
Open Scope Z_scope.

Lemma dims_nodup N (c : config N) : NoDup (dims N c).
Proof. unfold dims. apply NoDup_filter. repeat constructor; cbn; intuition discriminate. Qed.
Lemma mem_dims N (c : config N) a : mem_axis a (dims N c) = active N c a.
Proof.
  apply Bool.eq_true_iff_eq. rewrite in_mem. unfold dims. rewrite filter_In. split; [tauto|].
  intro H. split; [destruct a; cbn; auto|exact H].
Qed.

Section LimExist.
Context (N : Num).
Local Notation K := (car N).
Context (xc : axis -> Z -> K) (c : config N) (heap : Z -> Z -> ix -> K) (r : Z).
Context (HT : tabulated c) (HA : fillable xc c r) (Hr : 2 <= r).
Context (HL : c_limit c = true) (HM : c_limiter c <> L_unknown) (HR : nad_range_ (c_nad c) <> R_unknown) (HQ : nad_mode_ (c_nad c) <> M_unknown).
Context (broad : forall tr : arr bool, rows tr = 1 -> shp tr = c_n c ->
  exists th, broadcast_to_troubled_interfaces N tr (dims N c) (c_convex c) (is_periodic N c) = Ok th).

Lemma width_detect a : 0 <= getc a (prim_width (c_p c) (active_width N c 3) true) <= getc a (ghost_zones3 c).
Proof.
  pose proof (tab_good N c HT) as G. destruct HT as [[_ Sp _ _] _].
  rewrite <- (widest_zones N c Sp). rewrite getc_prim_width.
  unfold interp_cost. rewrite getc_active_width.
  pose proof (ghost_width_pos (c_p c) (good_deg N c _ G)). pose proof (sr_pos _ (good_deg N c _ G a)).
  destruct (G a) as (_ & _ & G0).
  destruct a; cbn [widest getc cx cy cz] in *; destruct (active N c _); try rewrite (G0 eq_refl) in *;
    change (stencil_right 0) with 0 in *; rewrite ?HL in *; lia.
Qed.
Lemma wide_primitives junk t u : shaped N c r u ->
  exists w, interpolate_primitives N c junk t u (c_p c) (active_width N c 3) true = Ok w /\ rows w = r /\ shp w = padded (c_n c) (active_width N c 3).
Proof.
  intros [R S]. pose proof (tab_good N c HT) as G.
  destruct (apply_fillable N xc c junk u _ t HT ltac:(rewrite R; exact HA) S width_detect) as (o & E & RO & SO & _).
  destruct (interpolate_primitives_raw N c junk t u (c_p c) (active_width N c 3) o (good_deg N c _ G) E RO SO) as (w & EW & RW & SW & _).
  - intro a. rewrite S. destruct (G a). lia.
  - intro a. rewrite getc_active_width. destruct (active N c a); lia.
  - exists w. rewrite S in SW. rewrite R in RW. auto.
Qed.
Lemma detect_ok junk t u F dt : shaped N c r u -> flux_arrays_ok N c r F ->
  exists det, detect N c junk t u F dt = Ok det /\ rows (d_trouble det) = 1 /\ shp (d_trouble det) = c_n c /\
    rows (d_nad det) = 1 /\ shp (d_nad det) = c_n c /\ rows (d_pad det) = 1 /\ shp (d_pad det) = c_n c.
Proof.
  intros HU FO. pose proof (tab_good N c HT) as G. pose proof (sane_dims N c (proj1 HT)) as HD.
  assert (N1 : forall d, 1 <= getc d (c_n c)) by (intro d; apply (G d)).
  unfold detect, candidate_primitives.
  destruct (euler_equation_is N c F r (c_n c) N1 ltac:(lia) HD (fun d _ => FO d)) as (k & EK & RK & SK & VK).
  rewrite EK. cbn [bind].
  destruct HU as [R S].
  destruct (amap2_is (fun x y => nadd x (nmul dt y)) u k r (c_n c) (at_ u) (at_ k)) as (us & EU & RU & SU & _).
  { split; [exact R|]. split; [exact S|]. reflexivity. } { split; [exact RK|]. split; [exact SK|]. reflexivity. }
  rewrite EU. cbn [bind].
  destruct (wide_primitives (junk 1) t u (conj R S)) as (w & EW & RW & SW). rewrite EW. cbn [bind].
  destruct (wide_primitives (junk 2) t us (conj RU SU)) as (ws & EX & RX & SX). rewrite EX. cbn [bind fst snd].
  destruct (detect_is N (c_nad c) (dims N c) (active_rows N w) (active_rows N ws)) as (det & ED & _).
  { split; [exact HR|]. split; [exact HQ|]. split; [reflexivity|]. split; [reflexivity|]. split; [cbn [active_rows shp]; congruence|].
    split; [apply dims_nodup|]. split; [exact HD|]. intro a. rewrite mem_dims. cbn [active_rows shp]. rewrite SW.
    specialize (N1 a). 
    destruct a; cbn [padded active_width getc cx cy cz] in *; destruct (active N c _); lia. }
  rewrite ED. cbn [bind]. apply detect_shape in ED; [|cbn [active_rows shp]; congruence].
  rewrite interior_padded in ED by (auto; exact SX). destruct ED as (A1 & A2 & A3 & A4 & A5 & A6).
  eexists. split; [reflexivity|]. destruct (c_force c); cbn [d_trouble d_nad d_pad amap rows shp]; auto 8.
Qed.

(** the trouble logs *)
Definition logs (x : aux N) : Prop :=
  forall y, In y [x_trouble x; x_nad x; x_pad x] -> rows y = 5 /\ shp y = c_n c.
Definition limiting (x : aux N) : Prop := flux_arrays_ok N c r (x_flux x) /\ logs x.
Lemma put_ok (b : bool) (dst src : arr K) : rows dst = 5 -> shp dst = c_n c -> rows src = 1 -> shp src = c_n c ->
  exists y, (if b then assign_all dst src else do s <- amap2 nadd dst src; assign_all dst s) = Ok y /\ rows y = 5 /\ shp y = c_n c.
Proof.
  intros R S R' S'. destruct b.
  - unfold assign_all. rewrite R, S, R', S'. unfold bcast_ok. rewrite !Z.eqb_refl. cbn [orb andb Z.eqb Pos.eqb].
    eexists. split; [reflexivity|]. cbn. auto.
  - unfold amap2. rewrite R, S, R', S'. rewrite bshape_eq. cbn.
    unfold assign_all. cbn [rows shp]. rewrite R, S, bcast_ok_eq. eexists. split; [reflexivity|]. cbn. auto.
Qed.
Lemma log_ok x t n p : logs x -> rows t = 1 -> shp t = c_n c -> rows n = 1 -> shp n = c_n c -> rows p = 1 -> shp p = c_n c ->
  exists x', log_troubles N x t n p = Ok x' /\ logs x'.
Proof.
  intros L R1 S1 R2 S2 R3 S3. unfold log_troubles.
  destruct (L (x_trouble x)) as [A1 B1]; [cbn; auto|]. destruct (L (x_nad x)) as [A2 B2]; [cbn; auto|]. destruct (L (x_pad x)) as [A3 B3]; [cbn; auto|].
  destruct (put_ok (x_counter x =? 0) _ _ A1 B1 R1 S1) as (y1 & E1 & P1). rewrite E1. cbn [bind].
  destruct (put_ok (x_counter x =? 0) _ _ A2 B2 R2 S2) as (y2 & E2 & P2). rewrite E2. cbn [bind].
  destruct (put_ok (x_counter x =? 0) _ _ A3 B3 R3 S3) as (y3 & E3 & P3). rewrite E3. cbn [bind].
  eexists. split; [reflexivity|]. intros y [<-|[<-|[<-|[]]]]; assumption.
Qed.
Lemma limiting_helper x : limiting x -> limiting (step_helper N c x).
Proof.
  intros [F L]. split; [rewrite helper_flux; exact F|]. unfold step_helper, reset_troubles. destruct (c_limit c); [|exact L].
  destruct (0 <? x_counter x); [|exact L].
  intros y [<-|[<-|[<-|[]]]]; cbn [amap rows shp x_trouble x_nad x_pad]; apply L; cbn; auto.
Qed.
Lemma limiting_init : limiting (aux_init N c heap r).
Proof. split; [intro d; cbn; auto|]. intros y [<-|[<-|[<-|[]]]]; cbn; auto. Qed.

Lemma revise_ok junk t x u dt : limiting x -> shaped N c r u ->
  exists x', revise_fluxes N c junk t x u dt = Ok x' /\ limiting x'.
Proof.
  intros [FO LX] HU. pose proof (tab_good N c HT) as G.
  assert (N1 : forall d, 1 <= getc d (c_n c)) by (intro d; apply (G d)).
  unfold revise_fluxes. destruct (detect_ok junk t u (x_flux x) dt HU FO) as (det & ED & R1 & S1 & R2 & S2 & R3 & S3).
  rewrite ED. cbn [bind].
  destruct (log_ok x (amap (b2k N) (d_trouble det)) (d_nad det) (d_pad det) LX) as (x1 & EL & L1); auto.
  rewrite EL. cbn [bind]. apply log_flux in EL as [LF LE].
  destruct (any_trouble (d_trouble det)).
  2:{ exists x1. split; [reflexivity|]. split; [rewrite LF; exact FO|exact L1]. }
  destruct HU as [R S].
  assert (LO : lim_ok (c_limiter c) (fallback_p N c)) by (right; split; [apply pmax_fallback|exact HM]).
  destruct (hydrofluxes_is N c (junk 3) t (x_flux x) u (fallback_p N c) (c_limiter c) _ (good_fallback N c G) LO S
     (padding_fillable N xc c _ (junk 3) t u HT ltac:(rewrite R; exact HA) S (width_fall N c HT))) as (dt1 & G1 & EG & _ & HG).
  rewrite EG. cbn [bind].
  destruct (broad (d_trouble det) R1 S1) as (th & EB). rewrite EB. cbn [bind snd].
  pose proof (broadcast_shape N _ _ _ _ _ EB R1) as BS. rewrite S1 in BS.
  specialize (BS ltac:(intro b; specialize (N1 b); lia)).
  assert (BL : forall d, exists y, blend N (th d) (x_flux x d) (G1 d) = Ok y /\ rows y = r /\ shp y = face_shape d (c_n c)).
  { intro d. destruct (BS d) as [B1 B2].
    destruct (blend_is N (th d) (x_flux x d) (G1 d) r (face_shape d (c_n c)) (at_ (x_flux x d)) (at_ (G1 d))) as (y & EY & RY & SY & _); auto.
    - destruct (FO d) as [? ?]. split; [assumption|]. split; [assumption|reflexivity].
    - destruct (HG d) as [H1 H2]. destruct (active N c d).
      + destruct H1 as (? & ? & _); [reflexivity|]. split; [congruence|]. split; [assumption|reflexivity].
      + rewrite H2 by reflexivity. destruct (FO d) as [? ?]. split; [assumption|]. split; [assumption|reflexivity].
    - exists y. auto. }
  destruct (BL AX) as (y1 & Y1 & P1). destruct (BL AY) as (y2 & Y2 & P2). destruct (BL AZ) as (y3 & Y3 & P3).
  rewrite Y1, Y2, Y3. cbn [bind]. eexists. split; [reflexivity|]. split; [intros []; assumption|exact L1].
Qed.

Lemma limited_f_ok x s t u : limiting x -> shaped N c r u ->
  exists x' dt k, solver_f N c heap x s t u = Ok (x', (dt, k)) /\ limiting x' /\ shaped N c r k.
Proof.
  intros [FO LX] HU. pose proof (tab_good N c HT) as G.
  assert (N1 : forall d, 1 <= getc d (c_n c)) by (intro d; apply (G d)).
  unfold solver_f, hydrodynamics. destruct HU as [R S].
  destruct (hydrofluxes_is N c (heap (4 * (x_evals x + 1) + 0)) s (x_flux x) u (c_p c) L_none _ G (or_introl eq_refl) S
     (padding_fillable N xc c _ _ s u HT ltac:(rewrite R; exact HA) S (width_main N c HT))) as (dt & F & EF & _ & HF).
  rewrite EF. cbn [bind].
  assert (AF : forall d, exists y, assign_all (x_flux x d) (F d) = Ok y /\ rows y = r /\ shp y = face_shape d (c_n c)).
  { intro d. destruct (FO d) as [R1 S1].
    destruct (assign_all_is (x_flux x d) (F d) r (face_shape d (c_n c)) (at_ (F d)) R1 S1) as (y & EY & RY & SY & _).
    - destruct (HF d) as [H1 H2]. destruct (active N c d).
      + destruct H1 as (? & ? & _); [reflexivity|]. split; [congruence|]. split; [assumption|reflexivity].
      + rewrite H2 by reflexivity. split; [assumption|]. split; [assumption|reflexivity].
    - exists y. auto. }
  destruct (AF AX) as (y1 & Y1 & P1). destruct (AF AY) as (y2 & Y2 & P2). destruct (AF AZ) as (y3 & Y3 & P3).
  rewrite Y1, Y2, Y3. cbn [bind]. rewrite HL.
  match goal with |- context [revise_fluxes N c ?j s ?x1 u dt] => destruct (revise_ok j s x1 u dt) as (x2 & E2 & F2 & L2) end.
  - split; [intros []; assumption|exact LX].
  - split; assumption.
  - rewrite E2. cbn [bind].
    destruct (euler_equation_is N c (x_flux x2) r (c_n c) N1 ltac:(lia) (sane_dims N c (proj1 HT)) (fun d _ => F2 d)) as (k & EK & RK & SK & _).
    rewrite EK. cbn [bind]. exists x2, dt, k. split; [reflexivity|]. split; [split; assumption|]. split; assumption.
Qed.
End LimExist.

Lemma limited_runs_end : forall (N : Num) (xc : axis -> Z -> car N) (c : config N) heap i as_averages k exact downbeats log fuel u0,
  tabulated c -> fillable xc c (rows u0) -> c_limit c = true -> known_options c -> c_convex c = false -> max_of_flags N ->
  shp u0 = c_n c -> 2 <= rows u0 -> 0 <= k ->
  exists o, simulate c heap i as_averages None (Some k) exact downbeats log fuel u0 = Ok o /\
    shp (o_u o) = c_n c /\ rows (o_u o) = rows u0 /\ o_steps o = k.
Proof.
  intros N xc c heap i av k ex db log fuel u0 HT HA HL (K1 & K2 & K3) HC HF S R K0.
  assert (BR : forall tr : arr bool, rows tr = 1 -> shp tr = c_n c ->
     exists th, broadcast_to_troubled_interfaces N tr (dims N c) (c_convex c) (is_periodic N c) = Ok th).
  { intros tr RT ST. rewrite HC. destruct (simple_faces N tr (dims N c) (is_periodic N c) HF RT) as (th & E & _); [|eauto].
    intro b. rewrite ST. destruct (tab_good N c HT b). lia. }
  destruct (run_exists_gen N xc c heap (rows u0) HT HA (limiting N c (rows u0))
    (limited_f_ok N xc c heap (rows u0) HT HA R HL K1 K2 K3 BR) (limiting_helper N c (rows u0) HL) (limiting_init N c heap (rows u0))
    i av k ex db log fuel u0) as (o & E & [X Y] & Z); auto.
  - split; auto.
  - exists o. auto.
Qed.
Lemma flat_dims {N} (c : config N) : tabulated c -> flat_box c ->
  (exists a, dims N c = [a]) \/ (exists a b, a <> b /\ dims N c = [a; b] /\ (In AZ [a; b] -> is_periodic N c AZ = false)).
Proof.
  intros HT H. assert (I : forall a, active N c a = false <-> inactive c a).
  { intro a. pose proof (active_spec N c a) as Q. destruct (active N c a); split; intro X; try discriminate; auto.
    - exfalso. destruct Q as [Q _]. exact (Q eq_refl X).
    - unfold inactive in *. destruct (Z.eq_dec (getc a (c_n c)) 1), (Z.eq_dec (getc a (c_p c)) 0); auto;
       destruct Q as [_ Q]; (assert (false = true) by (apply Q; tauto); discriminate). }
  assert (P : (exists pos, bc_type (c_bc c) AZ pos <> B_periodic) -> is_periodic N c AZ = false).
  { intros [[] Q]; unfold is_periodic; destruct (bc_type (c_bc c) AZ SL) eqn:E1; destruct (bc_type (c_bc c) AZ SR) eqn:E2; auto; congruence. }
  unfold dims, axes. destruct H as [(a & A & B)|(a & A & B & C)].
  - left. exists a. apply active_spec in A.
    destruct a; cbn [filter]; rewrite A, ?(proj2 (I AX) (B AX ltac:(discriminate))), ?(proj2 (I AY) (B AY ltac:(discriminate))), ?(proj2 (I AZ) (B AZ ltac:(discriminate))); reflexivity.
  - right. apply I in A.
    destruct a; cbn [filter]; rewrite A, ?(proj2 (active_spec N c AX) (B AX ltac:(discriminate))), ?(proj2 (active_spec N c AY) (B AY ltac:(discriminate))), ?(proj2 (active_spec N c AZ) (B AZ ltac:(discriminate))).
    + exists AY, AZ. split; [discriminate|]. split; [reflexivity|]. intros _. apply P, C. discriminate.
    + exists AX, AZ. split; [discriminate|]. split; [reflexivity|]. intros _. apply P, C. discriminate.
    + exists AX, AY. split; [discriminate|]. split; [reflexivity|]. intros [X|[X|[]]]; discriminate.
Qed.
Lemma convex_runs_end : forall xc (c : config RNum) heap i as_averages k exact downbeats log fuel u0,
  tabulated c -> fillable xc c (rows u0) -> c_limit c = true -> known_options c -> c_convex c = true -> flat_box c ->
  shp u0 = c_n c -> 2 <= rows u0 -> 0 <= k ->
  exists o, simulate c heap i as_averages None (Some k) exact downbeats log fuel u0 = Ok o /\
    shp (o_u o) = c_n c /\ rows (o_u o) = rows u0 /\ o_steps o = k.
Proof.
  intros xc c heap i av k ex db log fuel u0 HT HA HL (K1 & K2 & K3) HC HF S R K0.
  assert (BR : forall tr : arr bool, rows tr = 1 -> shp tr = c_n c ->
     exists th, broadcast_to_troubled_interfaces RNum tr (dims RNum c) (c_convex c) (is_periodic RNum c) = Ok th).
  { intros tr RT ST. rewrite HC.
    assert (T : thin (dims RNum c) (shp tr)).
    { intro a. rewrite ST. split; [apply (tab_good RNum c HT a)|]. rewrite mem_dims. intro H.
      unfold active in H. apply negb_false_iff, andb_true_iff in H. lia. }
    destruct (flat_dims c HT HF) as [(a & D)|(a & b & AB & D & PZ)]; rewrite D in *.
    - destruct (convex_line tr a (is_periodic RNum c) RT T) as (th & E & _). eauto.
    - destruct (convex_plane tr a b (is_periodic RNum c) AB RT T PZ) as (th & E & _). eauto. }
  destruct (run_exists_gen RNum xc c heap (rows u0) HT HA (limiting RNum c (rows u0))
    (limited_f_ok RNum xc c heap (rows u0) HT HA R HL K1 K2 K3 BR) (limiting_helper RNum c (rows u0) HL) (limiting_init RNum c heap (rows u0))
    i av k ex db log fuel u0) as (o & E & [X Y] & Z); auto.
  - split; auto.
  - exists o. auto.
Qed.

(** convex blending in three dimensions *)
Section Space.
Context (N : Num) (c : config N) (heap : Z -> Z -> ix -> car N).
Ltac ob H := match type of H with bind ?x _ = Ok _ => let E := fresh "E" in destruct x eqn:E; cbn [bind] in H; [|discriminate] end.
Lemma space_dims : (forall a, ~ inactive c a) -> dims N c = [AX; AY; AZ].
Proof. intro H. unfold dims, axes. cbn [filter]. rewrite !(proj2 (active_spec N c _) (H _)). reflexivity. Qed.
Lemma assign_keeps {A} (x y z : arr A) r n : assign_all x y = Ok z -> rows x = r /\ shp x = n -> rows z = r /\ shp z = n.
Proof. unfold assign_all. destruct (bcast_ok _ _ _ _); [|discriminate]. intro H. injection H as <-. auto. Qed.
Lemma space_f x s t u y : tabulated c -> shp u = c_n c -> 2 <= rows u -> flux_arrays_ok N c (rows u) (x_flux x) ->
  c_limit c = true -> c_force c = true ->
  (forall tr : arr bool, rows tr = 1 -> shp tr = c_n c -> exists e, broadcast_to_troubled_interfaces N tr (dims N c) (c_convex c) (is_periodic N c) = Err e) ->
  solver_f N c heap x s t u <> Ok y.
Proof.
  intros HT S R FO HL HF BD H. pose proof (tab_good N c HT) as G. pose proof (sane_dims N c (proj1 HT)) as ND.
  unfold solver_f, hydrodynamics in H. ob H. destruct a as [dt F]. ob H. rename a into a1. ob H. ob H. rewrite HL in H. ob H.
  unfold revise_fluxes in E3. ob E3. rename a3 into det. 
  assert (DD : rows (d_trouble det) = 1 /\ shp (d_trouble det) = c_n c).
  { eapply detect_domain; [exact G|exact ND|exact S|lia| |exact E4]. intros [] _; cbn [x_flux set_flux]; eapply assign_keeps; eauto; apply FO. }
  assert (TR : forall i, at_ (d_trouble det) 0 i = true).
  { unfold detect in E4. ob E4. ob E4. injection E4 as <-. rewrite HF. reflexivity. }
  ob E3. 
  assert (AT : any_trouble (d_trouble det) = true).
  { apply existsb_exists. exists (mkix 0 0 0). split; [|apply TR]. apply in_ix_list. rewrite (proj2 DD).
    intro b. destruct (G b). destruct b; cbn in *; lia. }
  rewrite AT in E3. ob E3. destruct (BD _ (proj1 DD) (proj2 DD)) as (e & EE). rewrite EE in E3. discriminate.
Qed.
Theorem force_raises i av k exact db log fuel u0 o : tabulated c -> shp u0 = c_n c -> 2 <= rows u0 -> 1 <= k ->
  c_limit c = true -> c_force c = true ->
  (forall tr : arr bool, rows tr = 1 -> shp tr = c_n c -> exists e, broadcast_to_troubled_interfaces N tr (dims N c) (c_convex c) (is_periodic N c) = Err e) ->
  simulate c heap i av None (Some k) exact db log fuel u0 <> Ok o.
Proof.
  intros HT S R K HL HF BD H. unfold simulate, solver_integrate, integrate, integrate_n in H. ob H.
  unfold snapshot in E. ob E. injection E as <-.
  assert (NF : forall t y, solver_f N c heap (aux_init N c heap (rows u0)) t t u0 <> Ok y).
  { intros t y. apply space_f; auto. intro d. cbn. auto. }
  destruct (Z.to_nat k) eqn:EK; [lia|]. cbn [take_n] in H. ob H. ob E. clear H.
  unfold take_step in E1. ob E1. clear E1 E. cbn [o_aux o_t o_u ode_init] in E2.
  destruct i; unfold solver_step, stepper_of, euler, ssprk2, ssprk3, rk4 in E2;
   (destruct (solver_f N c heap (aux_init N c heap (rows u0)) _ _ u0) eqn:EF; cbn [bind] in E2; [exact (NF _ _ EF)|discriminate]).
Qed.
Theorem space_raises i av k exact db log fuel u0 o : tabulated c -> shp u0 = c_n c -> 2 <= rows u0 -> 1 <= k ->
  c_limit c = true -> c_convex c = true -> c_force c = true -> (forall a, ~ inactive c a) ->
  simulate c heap i av None (Some k) exact db log fuel u0 <> Ok o.
Proof.
  intros HT S R K HL HC HF HD. apply force_raises; auto. intros tr _ _. rewrite HC, space_dims by exact HD. apply convex_space_raises.
Qed.
End Space.
(** examples *)
Lemma with_tabulated {N} (c : config N) convex force : tabulated c -> tabulated (with_limiting convex force c).
Proof. intros [[A B C D] E]. split; [split|]; assumption. Qed.
Lemma with_fillable {N} xc (c : config N) convex force q : c_limit c = true -> fillable xc c q -> fillable xc (with_limiting convex force c) q.
Proof. intros L H a. specialize (H a). revert H. unfold ghost_zones3, ghost_zones, inactive_b. cbn [c_n c_p c_limit with_limiting c_bc]. rewrite L. exact (fun x => x). Qed.
Definition sheet : config RNum := demo (mkix 12 13 1) (mkix 3 2 0) (uniform_bc B_periodic) true.
Lemma sheet_tabulated : tabulated sheet.
Proof.
  split; [split|].
  - intros []; cbn; lia.
  - intros []; cbn; lia.
  - exists AX. intros [H _]. discriminate.
  - exact I.
  - intros []; cbn; lia.
Qed.
Lemma sheet_fillable xc q : fillable xc sheet q.
Proof.
  intro a. right. assert (E : enough B_periodic (getc a (c_n sheet)) (getc a (ghost_zones3 sheet))).
  { destruct a; vm_compute; try discriminate; reflexivity. }
  split; [left; split; [exact I|exact E]|split; [left; split; [exact I|exact E]|intro X; exact X]].
Qed.
Lemma sheet_flat convex force : flat_box (with_limiting convex force sheet).
Proof.
  right. exists AZ. split; [split; reflexivity|]. split; [|congruence].
  intros b B [H _]. destruct b; cbn in H; congruence.
Qed.
