(** Shape and meaning of the fluxes after slope limiting. *)
From Coq Require Import ZArith List Bool Lia.
From Verif Require Import Err Num PySlice NdArray HydroM RiemannM StencilsM FvM BcM SedM
  LimitM OdeM SolverM SpecBc NdArrayP FvP BcP BcQ OpP SolverP OdeP RelP RelS.
Import ListNotations.
Open Scope Z_scope.

Section LimP.
Context (N : Num).
Local Notation K := (car N).

Ltac ob H := match type of H with bind ?x _ = Ok _ => let E := fresh "E" in destruct x eqn:E; cbn [bind] in H; [|discriminate] end.

Lemma detect_shape q ds u uc det : shp u = shp uc -> detect_troubled_cells N q ds u uc = Ok det ->
  rows (d_trouble det) = 1 /\ shp (d_trouble det) = shp (interior ds uc) /\
  rows (d_nad det) = 1 /\ shp (d_nad det) = shp (interior ds uc) /\
  rows (d_pad det) = 1 /\ shp (d_pad det) = shp (interior ds uc).
Proof.
  intros Hs H. unfold detect_troubled_cells in H. ob H. destruct a as [ind fl].
  apply nad_shapes in E; [|exact Hs]. destruct E as [S1 S2]. ob H.
  assert (S3 : shp a = shp (interior ds uc)).
  { destruct (sed_on q); [|congruence]. ob E. ob E. rewrite (assign_all_shape _ _ _ E). exact S2. }
  ob H. assert (S4 : shp a0 = shp (interior ds uc)).
  { destruct (nad_vars q); [|congruence]. destruct (_ || _); [|discriminate]. injection E0 as <-. exact S3. }
  injection H as <-. cbn [d_trouble d_nad d_pad rows shp]. repeat split; assumption.
Qed.

(** the ghost cells and the interior cut of the detection cancel *)
Lemma interior_padded (c : config N) (w : arr K) : (forall a, 1 <= getc a (c_n c)) ->
  shp w = padded (c_n c) (active_width N c 3) -> shp (interior (dims N c) w) = c_n c.
Proof.
  intros Hn S. apply ix_ext. intro a.
  assert (M : mem_axis a (dims N c) = active N c a).
  { unfold dims, axes. destruct a; cbn [filter]; destruct (active N c AX), (active N c AY), (active N c AZ); reflexivity. }
  pose proof (Hn a).
  assert (G : getc a (shp (interior (dims N c) w)) =
     if active N c a then getc a (shp w) - 6 else getc a (shp w)).
  { unfold interior. rewrite <- M. 
    assert (L3 : mem_axis a (dims N c) = true -> 6 <= getc a (shp w)).
    { intro HM. rewrite S. rewrite M in HM. destruct a; cbn [padded active_width getc cx cy cz] in *; rewrite HM; lia. }
    assert (L0 : 0 <= getc a (shp w)).
    { rewrite S. destruct a; cbn [padded active_width getc cx cy cz] in *; destruct (active N c _); lia. }
    assert (VW : forall b s (x : arr K), getc a (shp (view b s x)) = if axis_eqb a b then ex_len (slice_adjust (getc a (shp x)) s) else getc a (shp x)).
    { intros b s x. unfold view. cbn [shp]. destruct (axis_dec b a) as [<-|Hne].
      - rewrite axis_eqb_refl, getc_setc_eq. reflexivity.
      - replace (axis_eqb a b) with false by (symmetry; apply axis_eqb_neq; auto). rewrite getc_setc_ne by auto. reflexivity. }
    unfold view3. destruct a; rewrite !VW; cbn [axis_eqb];
      (destruct (mem_axis _ (dims N c)); [specialize (L3 eq_refl); rewrite sl_in by lia; cbn [ex_len]; lia|rewrite sl_slice_all by lia; reflexivity]). }
  rewrite G, S. destruct a; cbn [padded active_width getc cx cy cz]; destruct (active N c _); lia.
Qed.

(** interface masks have the shape of the faces *)
Lemma simple_shape a t th : simple_broadcast N a t = Ok th -> rows t = 1 -> (forall b, 0 <= getc b (shp t)) ->
  rows th = 1 /\ shp th = face_shape a (shp t).
Proof.
  intros H R Nn. unfold simple_broadcast in H. ob H. ob H.
  assert (AS : forall (x y z : arr K) sl, assign_slice a sl x y = Ok z -> rows z = rows x /\ shp z = shp x).
  { intros x y z sl HA. unfold assign_slice in HA. destruct (bcast_ok _ _ _ _); [|discriminate]. injection HA as <-. auto. }
  destruct (AS _ _ _ _ E) as [R1 S1]. destruct (AS _ _ _ _ H) as [R2 S2].
  split; [rewrite R2; exact R1|rewrite S2; exact S1].
Qed.
Lemma broadcast_shape t ds cv per th : broadcast_to_troubled_interfaces N t ds cv per = Ok th -> rows t = 1 ->
  (forall b, 0 <= getc b (shp t)) -> forall a, rows (th a) = 1 /\ shp (th a) = face_shape a (shp t).
Proof.
  intros H R Nn. unfold broadcast_to_troubled_interfaces in H.
  set (z := fun a => zeros N (face_shape a (shp (amap (b2k N) t)))) in H.
  assert (Z0 : forall a, rows (z a) = 1 /\ shp (z a) = face_shape a (shp t)) by (intro; split; reflexivity).
  assert (AA : forall (x y w : arr K), assign_all x y = Ok w -> rows w = rows x /\ shp w = shp x).
  { intros x y w HA. unfold assign_all in HA. destruct (bcast_ok _ _ _ _); [|discriminate]. injection HA as <-. auto. }
  assert (SF : forall f a x, (forall b, rows (f b) = 1 /\ shp (f b) = face_shape b (shp t)) ->
     rows x = 1 /\ shp x = face_shape a (shp t) ->
     forall b, rows (set_face N f a x b) = 1 /\ shp (set_face N f a x b) = face_shape b (shp t)).
  { intros f a x Hf Hx b. unfold set_face. destruct (axis_dec a b) as [<-|Hne]; [rewrite axis_eqb_refl; exact Hx|].
    replace (axis_eqb b a) with false by (symmetry; apply axis_eqb_neq; auto). apply Hf. }
  destruct cv.
  - ob H. destruct ds as [|d1 [|d2 [|d3 [|]]]]; try (injection H as <-; exact Z0); try discriminate.
    + ob H. ob H. injection H as <-. apply SF; [exact Z0|]. destruct (AA _ _ _ E1) as [-> ->]. apply Z0.
    + ob H. ob H. ob H. injection H as <-. apply SF; [apply SF; [exact Z0|]|].
      * destruct (AA _ _ _ E1) as [-> ->]. apply Z0.
      * destruct (AA _ _ _ E2) as [-> ->]. apply Z0.
  - revert H. generalize (filter (fun a => mem_axis a ds) [AX; AY; AZ]). intro l.
    assert (L : forall l x, (forall f, x = Ok f -> forall b, rows (f b) = 1 /\ shp (f b) = face_shape b (shp t)) ->
       fold_left (fun acc a => do f <- acc; do x <- simple_broadcast N a (amap (b2k N) t); Ok (set_face N f a x)) l x = Ok th ->
       forall a, rows (th a) = 1 /\ shp (th a) = face_shape a (shp t)).
    { clear l. induction l as [|a l IH]; intros x Hx; cbn [fold_left]; [apply Hx|]. apply IH.
      intros f Hf. ob Hf. ob Hf. injection Hf as <-. apply SF; [apply (Hx a0); congruence|].
      apply simple_shape in E0; [|exact R|exact Nn]. exact E0. }
    apply L. intros f Hf. injection Hf as <-. exact Z0.
Qed.

(** blending is pointwise *)
Lemma blend_is (th F G : arr K) r n g1 g2 : 2 <= r ->
  rows th = 1 -> shp th = n -> is_arr F r n g1 -> is_arr G r n g2 ->
  res_is (blend N th F G) r n (fun v i =>
    nadd (nmul (nsub (nofZ 1) (at_ th 0 i)) (g1 v i)) (nmul (at_ th 0 i) (g2 v i))).
Proof.
  intros Hr R S (RF & SF & VF) (RG & SG & VG). unfold blend.
  assert (A1 : forall (f : K -> K -> K) (x : arr K) g, is_arr x r n g ->
     res_is (amap2 f th x) r n (fun v i => f (at_ th 0 i) (g v i))).
  { intros f x g (Rx & Sx & Vx). unfold amap2. rewrite R, Rx, S, Sx, bdim_1l, bshape_eq.
    eexists. split; [reflexivity|]. split; [reflexivity|]. split; [reflexivity|].
    intros v i. cbn [at_]. rewrite brow_eq, !bix_eq, Vx.
    unfold brow. destruct (Z.eqb_spec 1 r); [lia|reflexivity]. }
  destruct (A1 (fun t x => nmul (nsub (nofZ 1) t) x) F g1) as (x1 & E1 & I1); [split; [|split]; assumption|].
  rewrite E1. cbn [bind].
  destruct (A1 (fun t x => nmul t x) G g2) as (x2 & E2 & I2); [split; [|split]; assumption|].
  rewrite E2. cbn [bind].
  destruct (amap2_is (@nadd N) _ _ _ _ _ _ I1 I2) as (x3 & E3 & I3). rewrite E3. cbn [bind].
  apply assign_all_is; assumption.
Qed.

Lemma log_flux x t n p x' : log_troubles N x t n p = Ok x' -> x_flux x' = x_flux x /\ x_evals x' = x_evals x.
Proof. intro H. unfold log_troubles in H. ob H. ob H. ob H. injection H as <-. auto. Qed.

Lemma primitives_shape (c : config N) junk t u p gw w : (forall a, deg_ok (getc a p)) ->
  (forall a, 0 <= getc a (shp u)) -> (forall a, 0 <= getc a gw) ->
  interpolate_primitives N c junk t u p gw true = Ok w -> shp w = padded (shp u) gw /\ rows w = rows u.
Proof.
  intros D Hn Hg H.
  destruct (apply N (c_bc c) junk u (prim_width p gw true) t) as [o|] eqn:E.
  - pose proof (apply_keeps N _ _ _ _ _ _ Hn E) as (KR & KS & _).
    destruct (interpolate_primitives_raw N c junk t u p gw o D E KR KS Hn Hg) as (w' & E' & R' & S' & _).
    rewrite H in E'. injection E' as ->. auto.
  - unfold interpolate_primitives in H. change (mkix _ _ _) with (prim_width p gw true) in H. rewrite E in H. discriminate.
Qed.
(** the trouble array covers the domain *)
Lemma detect_domains (c : config N) junk t u F dt det : good N c (c_p c) -> dims N c <> [] ->
  shp u = c_n c -> 1 <= rows u ->
  (forall d, active N c d = true -> rows (F d) = rows u /\ shp (F d) = face_shape d (c_n c)) ->
  detect N c junk t u F dt = Ok det -> (rows (d_trouble det) = 1 /\ shp (d_trouble det) = c_n c) /\
    (rows (d_nad det) = 1 /\ shp (d_nad det) = c_n c) /\ (rows (d_pad det) = 1 /\ shp (d_pad det) = c_n c).
Proof.
  intros G HD S HR HF H.
  assert (N1 : forall d, 1 <= getc d (c_n c)) by (intro d; apply (G d)).
  assert (N0 : forall d, 0 <= getc d (c_n c)) by (intro d; specialize (N1 d); lia).
  assert (A3 : forall a, 0 <= getc a (active_width N c 3)) by (intros []; cbn; destruct (active N c _); lia).
  unfold detect in H. ob H. destruct a as [w ws]. ob H. rename E0 into ED.
  unfold candidate_primitives in E. ob E. rename E0 into EE. ob E. rename E0 into EU. ob E. rename E0 into EW. ob E. rename E0 into EX.
  injection E as <- <-. cbn [fst snd] in ED.
  assert (SA : shp a1 = c_n c).
  { destruct (euler_equation_is N c F (rows u) (c_n c) N1 HR HD HF) as (k & EK & RK & SK & _).
    rewrite EE in EK. injection EK as <-. eapply amap2_eqshape; eassumption. }
  apply primitives_shape in EW; [|apply (good_deg N c _ G)|rewrite S; exact N0|exact A3].
  apply primitives_shape in EX; [|apply (good_deg N c _ G)|rewrite SA; exact N0|exact A3].
  destruct EW as [SW _], EX as [SX _]. rewrite S in SW. rewrite SA in SX.
  apply detect_shape in ED; [|cbn [active_rows shp]; congruence].
  rewrite interior_padded in ED by (auto; exact SX). destruct ED as (R1 & S1 & R2 & S2 & R3 & S3).
  destruct (c_force c); injection H as <-; cbn [d_trouble d_nad d_pad amap rows shp]; auto 8.
Qed.
(** what the detector is called with *)
Lemma detect_inputs (c : config N) junk t u F dt det : good N c (c_p c) -> dims N c <> [] ->
  shp u = c_n c -> 1 <= rows u ->
  (forall d, active N c d = true -> rows (F d) = rows u /\ shp (F d) = face_shape d (c_n c)) ->
  detect N c junk t u F dt = Ok det -> exists w ws d0,
    (rows w = 5 /\ shp w = padded (c_n c) (active_width N c 3)) /\ (rows ws = 5 /\ shp ws = padded (c_n c) (active_width N c 3)) /\
    detect_troubled_cells N (c_nad c) (dims N c) w ws = Ok d0 /\
    det = (if c_force c then mkdet (amap (fun _ => true) (d_trouble d0)) (d_nad d0) (d_pad d0) else d0).
Proof.
  intros G HD S HR HF H.
  assert (N1 : forall d, 1 <= getc d (c_n c)) by (intro d; apply (G d)).
  assert (N0 : forall d, 0 <= getc d (c_n c)) by (intro d; specialize (N1 d); lia).
  assert (A3 : forall a, 0 <= getc a (active_width N c 3)) by (intros []; cbn; destruct (active N c _); lia).
  unfold detect in H. ob H. destruct a as [w ws]. ob H. rename E0 into ED.
  unfold candidate_primitives in E. ob E. rename E0 into EE. ob E. rename E0 into EU. ob E. rename E0 into EW. ob E. rename E0 into EX.
  injection E as <- <-. cbn [fst snd] in ED.
  assert (SA : shp a1 = c_n c).
  { destruct (euler_equation_is N c F (rows u) (c_n c) N1 HR HD HF) as (k & EK & RK & SK & _).
    rewrite EE in EK. injection EK as <-. eapply amap2_eqshape; eassumption. }
  apply primitives_shape in EW; [|apply (good_deg N c _ G)|rewrite S; exact N0|exact A3].
  apply primitives_shape in EX; [|apply (good_deg N c _ G)|rewrite SA; exact N0|exact A3].
  destruct EW as [SW _], EX as [SX _]. rewrite S in SW. rewrite SA in SX.
  eexists _, _, a. split; [|split; [|split; [exact ED|injection H as <-; reflexivity]]]; (split; [reflexivity|assumption]).
Qed.
Lemma detect_domain (c : config N) junk t u F dt det : good N c (c_p c) -> dims N c <> [] ->
  shp u = c_n c -> 1 <= rows u ->
  (forall d, active N c d = true -> rows (F d) = rows u /\ shp (F d) = face_shape d (c_n c)) ->
  detect N c junk t u F dt = Ok det -> rows (d_trouble det) = 1 /\ shp (d_trouble det) = c_n c.
Proof. intros G HD S HR HF H. apply (detect_domains c junk t u F dt det G HD S HR HF H). Qed.

(** What the right-hand side does with the fluxes: high-order fluxes where [theta] is absent,
    otherwise the pointwise blend with the fallback fluxes. *)
Definition mixed (c : config N) (theta : option (axis -> ix -> K)) (E : field N) (d : axis) : field N := fun v j =>
  let hi := gflux N c (c_p c) L_none d E v j in
  match theta with
  | None => hi
  | Some th => nadd (nmul (nsub (nofZ 1) (th d j)) hi)
                    (nmul (th d j) (gflux N c (fallback_p N c) (c_limiter c) d E v j))
  end.
(** where [theta] comes from *)
Definition mask_of (c : config N) junk t u F dt (theta : option (axis -> ix -> K)) : Prop :=
  match theta with
  | None => c_limit c = false \/ exists det, detect N c junk t u F dt = Ok det /\ any_trouble (d_trouble det) = false
  | Some th => c_limit c = true /\ exists det f, detect N c junk t u F dt = Ok det /\
      rows (d_trouble det) = 1 /\ shp (d_trouble det) = c_n c /\ any_trouble (d_trouble det) = true /\
      broadcast_to_troubled_interfaces N (d_trouble det) (dims N c) (c_convex c) (is_periodic N c) = Ok f /\
      forall d j, th d j = at_ (f d) 0 j
  end.

Lemma good_fallback (c : config N) : good N c (c_p c) -> good N c (fallback_p N c).
Proof.
  intros G a. destruct (G a) as (G1 & G2 & G3). split; [exact G1|].
  split; [|intro I; specialize (G3 I)]; destruct a; cbn [fallback_p getc cx cy cz] in *; destr_if; zb; unfold deg_ok in *; lia.
Qed.
Lemma pmax_fallback (c : config N) : pmax (fallback_p N c) <= 1.
Proof. unfold pmax, fallback_p. cbn [cx cy cz]. repeat destr_if; lia. Qed.

Theorem hydrodynamics_lim (c : config N) heap x t u E x' dt dudt :
  let k := 4 * (x_evals x + 1) in
  good N c (c_p c) -> shp u = c_n c -> 2 <= rows u -> dims N c <> [] ->
  flux_arrays_ok N c (rows u) (x_flux x) ->
  padding N c (c_p c) (heap k) t u E ->
  (c_limit c = true -> c_limiter c <> L_unknown /\ padding N c (fallback_p N c) (heap (k + 3)) t u E) ->
  hydrodynamics N c heap x t u = Ok (x', (dt, dudt)) ->
  gdt N c (c_p c) E = Ok dt /\ rows dudt = rows u /\ shp dudt = c_n c /\
  flux_arrays_ok N c (rows u) (x_flux x') /\ x_evals x' = x_evals x + 1 /\
  exists F theta, 
    flux_arrays_ok N c (rows u) F /\
    (forall d, active N c d = true -> forall v i, in_shape (face_shape d (c_n c)) i -> at_ (F d) v i = gflux N c (c_p c) L_none d E v i) /\
    mask_of c (fun j => heap (k + j)) t u F dt theta /\
    forall v i, in_shape (c_n c) i -> at_ dudt v i = gsum N c (mixed c theta E) v i.
Proof.
  intros k G HS HR HD FO HP HP' H.
  assert (N1 : forall d, 1 <= getc d (c_n c)) by (intro d; apply (G d)).
  unfold hydrodynamics in H. fold k in H.
  rewrite <- (Z.add_0_r k) in HP.
  destruct (hydrofluxes_is N c _ t (x_flux x) u (c_p c) L_none E G (or_introl eq_refl) HS HP) as (dt0 & F & EF & EDT & HF).
  rewrite EF in H. cbn [bind] in H.
  assert (AF : forall d, exists F', assign_all (x_flux x d) (F d) = Ok F' /\ rows F' = rows u /\ shp F' = face_shape d (c_n c) /\
     (active N c d = true -> forall v i, in_shape (face_shape d (c_n c)) i -> at_ F' v i = gflux N c (c_p c) L_none d E v i)).
  { intro d. destruct (FO d) as [R1 S1]. destruct (HF d) as [HA HI].
    assert (RS : rows (F d) = rows u /\ shp (F d) = face_shape d (c_n c)).
    { destruct (active N c d); [destruct HA as (? & ? & _); auto|]. rewrite HI by reflexivity. auto. }
    destruct RS as [R2 S2].
    destruct (assign_all_is (x_flux x d) (F d) (rows u) (face_shape d (c_n c)) (at_ (F d)) R1 S1) as (F' & E' & R' & S' & V').
    { split; [exact R2|]. split; [exact S2|]. reflexivity. }
    exists F'. split; [exact E'|]. split; [exact R'|]. split; [exact S'|].
    intros Ad v i Hi. rewrite V'. apply HA; assumption. }
  destruct (AF AX) as (F1 & E1 & R1 & S1 & V1). destruct (AF AY) as (F2 & E2 & R2 & S2 & V2).
  destruct (AF AZ) as (F3 & E3 & R3 & S3 & V3). rewrite E1, E2, E3 in H. cbn [bind] in H.
  set (FF := fun d => match d with AX => F1 | AY => F2 | AZ => F3 end) in H.
  assert (FO1 : flux_arrays_ok N c (rows u) FF) by (intros [| |]; split; assumption).
  assert (VF : forall d, active N c d = true -> forall v i, in_shape (face_shape d (c_n c)) i -> at_ (FF d) v i = gflux N c (c_p c) L_none d E v i)
    by (intros [| |]; assumption).
  clearbody FF. clear F1 E1 R1 S1 V1 F2 E2 R2 S2 V2 F3 E3 R3 S3 V3 AF.
  set (x1 := set_flux N x FF (x_evals x + 1)) in H.
  ob H. rename a into x2. ob H. rename a into dd. injection H as <- <- <-.
  assert (X2 : exists theta, flux_arrays_ok N c (rows u) (x_flux x2) /\ x_evals x2 = x_evals x + 1 /\
     mask_of c (fun j => heap (k + j)) t u FF dt0 theta /\
     forall d, active N c d = true -> forall v i, in_shape (face_shape d (c_n c)) i -> at_ (x_flux x2 d) v i = mixed c theta E d v i).
  { destruct (c_limit c) eqn:L.
    2:{ injection E0 as <-. exists None. split; [exact FO1|]. split; [reflexivity|]. split; [left; exact L|].
        intros d Ad v i Hi. apply VF; assumption. }
    destruct (HP' eq_refl) as [HL HPF]. unfold revise_fluxes in E0. ob E0. rename E2 into ED.
    cbn [x_flux x1 set_flux] in ED.
    pose proof (detect_domain c _ t u FF dt0 _ G HD HS ltac:(lia) (fun d _ => FO1 d) ED) as [RT ST].
    ob E0. apply log_flux in E2 as [LF LE].
    destruct (any_trouble (d_trouble a)) eqn:AT.
    2:{ injection E0 as <-. exists None. rewrite LF, LE. split; [exact FO1|]. split; [reflexivity|].
        split; [right; exists a; auto|]. intros d Ad v i Hi. apply VF; assumption. }
    assert (LO : lim_ok (c_limiter c) (fallback_p N c)) by (right; split; [apply pmax_fallback|exact HL]).
    destruct (hydrofluxes_is N c _ t (x_flux x1) u (fallback_p N c) (c_limiter c) E (good_fallback c G) LO HS HPF) as (dt1 & G1 & EG & _ & HG).
    rewrite EG in E0. cbn [bind] in E0. ob E0. rename E2 into EB.
    pose proof (broadcast_shape _ _ _ _ _ EB RT) as BS. rewrite ST in BS.
    specialize (BS ltac:(intro b; specialize (N1 b); lia)). rename a1 into th.
    assert (BL : forall d, res_is (blend N (th d) (x_flux x1 d) (snd (dt1, G1) d)) (rows u) (face_shape d (c_n c))
       (fun v i => nadd (nmul (nsub (nofZ 1) (at_ (th d) 0 i)) (at_ (FF d) v i)) (nmul (at_ (th d) 0 i) (at_ (G1 d) v i)))).
    { intro d. destruct (BS d) as [B1 B2]. apply blend_is; [exact HR|exact B1|exact B2| |].
      - destruct (FO1 d) as [? ?]. split; [assumption|]. split; [assumption|reflexivity].
      - cbn [snd]. destruct (HG d) as [HA HI]. destruct (active N c d).
        + destruct HA as (? & ? & _); [reflexivity|]. split; [assumption|]. split; [assumption|reflexivity].
        + rewrite HI by reflexivity. destruct (FO1 d) as [? ?]. split; [assumption|]. split; [assumption|reflexivity]. }
    destruct (BL AX) as (y1 & Y1 & RY1 & SY1 & VY1). destruct (BL AY) as (y2 & Y2 & RY2 & SY2 & VY2).
    destruct (BL AZ) as (y3 & Y3 & RY3 & SY3 & VY3). rewrite Y1, Y2, Y3 in E0. cbn [bind] in E0. injection E0 as <-.
    exists (Some (fun d j => at_ (th d) 0 j)). cbn [x_flux x_evals]. rewrite LE.
    split; [intros [| |]; split; assumption|]. split; [reflexivity|].
    split; [split; [exact L|]; exists a, th; auto 8|].
    assert (MX : forall d, active N c d = true -> forall v i, in_shape (face_shape d (c_n c)) i ->
       nadd (nmul (nsub (nofZ 1) (at_ (th d) 0 i)) (at_ (FF d) v i)) (nmul (at_ (th d) 0 i) (at_ (G1 d) v i))
       = mixed c (Some (fun d j => at_ (th d) 0 j)) E d v i).
    { intros d Ad v i Hi. unfold mixed. rewrite (VF d Ad v i Hi). destruct (HG d) as [HA _]. destruct (HA Ad) as (_ & _ & VG).
      rewrite (VG v i Hi). reflexivity. }
    intros [| |] Ad v i Hi; [rewrite VY1|rewrite VY2|rewrite VY3]; apply MX; assumption. }
  destruct X2 as (theta & FO2 & XE & MO & VX).
  destruct (euler_equation_is N c (x_flux x2) (rows u) (c_n c) N1 ltac:(lia) HD (fun d _ => FO2 d)) as (dd' & ED & RD & SD & VD).
  rewrite E1 in ED. injection ED as <-.
  split; [exact EDT|]. split; [exact RD|]. split; [exact SD|]. split; [exact FO2|]. split; [exact XE|].
  exists FF, theta. split; [exact FO1|]. split; [exact VF|]. split; [exact MO|].
  intros v i Hi. rewrite VD. apply (gsum_ext N c _ _ (c_n c)); [exact Hi|]. intros d Ad w j Hj. apply VX; assumption.
Qed.
End LimP.
