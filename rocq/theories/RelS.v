(** The right-hand side of the solver maps related inputs to related outputs: equal errors,
    equal time steps, and arrays that agree on the rows P. *)
From Coq Require Import ZArith List Bool Lia.
From Verif Require Import Err Num PySlice NdArray HydroM RiemannM StencilsM FvM BcM SedM
  LimitM OdeM SolverM SpecBc NdArrayP FvP BcP BcQ OpP SolverP OdeP RelP.
Import ListNotations.
Open Scope Z_scope.

Section RelS.
Context (N : Num).
Local Notation K := (car N).

Definition with_bc (c : config N) (b : bcond N) : config N :=
  mkcfg (c_n c) (c_p c) (c_bounds c) (c_CFL c) (c_fixed_dt c) (c_gamma c) (c_csq_floor c)
        (c_rs c) b (c_limit c) (c_limiter c) (c_force c) (c_nad c) (c_convex c).
(** the widest padding the solver asks for *)
Definition widest (c : config N) : ix :=
  let w a := if active N c a
             then Z.max (ghost_width (c_p c)) (if c_limit c then 3 else 0) + 2 * stencil_right (getc a (c_p c))
             else 0 in
  mkix (w AX) (w AY) (w AZ).

Context (P : Z -> Prop) (HP : forall v, 0 <= v <= 4 -> P v).
Context (r r' : Z) (Hr : 5 <= r) (Hr' : 5 <= r').
Context (c : config N) (b' : bcond N).
Context (Hn : forall a, 0 <= getc a (c_n c)) (Hdeg : forall a, 0 <= getc a (c_p c)).
Context (Hdim : dims N c <> []).
Context (Htype : forall a pos, bc_type (c_bc c) a pos = bc_type b' a pos).
Context (Hq : c_limit c = true -> pad_rows_ok N (c_nad c)).
Context (Hbc : forall junk junk' u u' g t, aeq P r r' u u' -> shp u = c_n c ->
  (forall a, 0 <= getc a g <= getc a (widest c)) ->
  res_rel (aeq P r r') (apply N (c_bc c) junk u g t) (apply N b' junk' u' g t)).
Local Notation c' := (with_bc c b').

Lemma HP0 v : P v -> P 0. Proof. intros _. apply HP; lia. Qed.
Lemma cls_rr : cls r r'. Proof. right; auto. Qed.
Ltac rb := eapply res_rel_bind.

Lemma sr_nonneg p : 0 <= p -> 0 <= stencil_right p.
Proof. intro. unfold stencil_right. pose proof (Z.div_mod (-p) 2 ltac:(lia)). pose proof (Z.mod_pos_bound (-p) 2 ltac:(lia)). lia. Qed.

Lemma interp_aeq junk junk' t u u' p gw av : aeq P r r' u u' -> shp u = c_n c ->
  (forall a, 0 <= getc a gw + interp_cost av (getc a p) <= getc a (widest c)) ->
  res_rel (aeq P r r') (interpolate_primitives N c junk t u p gw av)
                       (interpolate_primitives N c' junk' t u' p gw av).
Proof.
  intros H S G. unfold interpolate_primitives. cbn [c_bc c_gamma with_bc].
  rb; [apply Hbc; [exact H|exact S|]|].
  - intro a. pose proof (G a). destruct a; cbn in *; assumption.
  - intros x y Hx. rb; [apply icc_aeq; [apply HP0|eassumption]|]. intros x1 y1 Hx1.
    assert (HC : aeq P r r' (cmap (compute_primitives N (c_gamma c)) x1) (cmap (compute_primitives N (c_gamma c)) y1))
      by (apply cmap_aeq; [|assumption]; intros; apply (prim_P P); assumption).
    destruct av; [|exact HC]. apply ifa_aeq; [apply HP0|assumption].
Qed.

Lemma face_states_aeq p limit l d w w' : aeq P r r' w w' ->
  res_rel (fun x y => aeq P r r' (fst x) (fst y) /\ aeq P r r' (snd x) (snd y))
    (face_states N c p limit l d w) (face_states N c' p limit l d w').
Proof.
  intro H. unfold face_states. destruct (interp_axes d) as [a1 a2].
  rb; [apply ci_aeq; [apply HP0|eassumption]|intros]. rb; [apply ci_aeq; [apply HP0|eassumption]|intros].
  destruct (limit && _)%bool; [apply MUSCL_aeq; [apply HP0|assumption]|].
  rb; [apply ci_aeq; [apply HP0|eassumption]|intros]. rb; [apply ci_aeq; [apply HP0|eassumption]|intros].
  cbn. auto.
Qed.
Lemma dir_flux_aeq p gw limit l d w w' : aeq P r r' w w' ->
  res_rel (aeq P r r') (dir_flux N c p gw limit l d w) (dir_flux N c' p gw limit l d w').
Proof.
  intro H. unfold dir_flux. rb; [apply face_states_aeq; eassumption|]. intros [x1 x2] [y1 y2] [H1 H2].
  cbn [fst snd] in *. cbn [c_rs c_gamma c_csq_floor with_bc].
  eapply (res_rel_bind (aeq P r r')).
  - eapply cmap2_aeq; [|apply view_aeq; [reflexivity|assumption]|apply view_aeq; [reflexivity|assumption]].
    intros. apply (riemann_P P); assumption.
  - intros. destruct (recon_axes d) as [a1 a2].
    rb; [apply tr_aeq; [apply HP0|eassumption]|intros]. rb; [apply tr_aeq; [apply HP0|eassumption]|intros].
    cbn [res_rel]. apply view3_aeq; [intro; reflexivity|assumption].
Qed.
Lemma hydro_dt_eq w w' h nd CFL g cf : aeq P r r' w w' ->
  hydro_dt N w h nd CFL g cf = hydro_dt N w' h nd CFL g cf.
Proof.
  intros (R & R' & S & Nn & V). unfold hydro_dt. rewrite <- S. f_equal. apply reduce_cells_eq. intros i Hi.
  assert (C : ceq P N (fun k => at_ w k i) (fun k => at_ w' k i)) by (intros v Pv; apply V; assumption).
  unfold cell_speed, sum3. rewrite (sound_P P N HP g cf _ _ C), !V by (first [apply HP; lia|assumption]). reflexivity.
Qed.

(** flux arrays: active ones agree, the others have equal shapes *)
Definition fl_eq (Q : axis -> bool) (F F' : fluxes N) : Prop :=
  forall a, aeq (if Q a then P else fun _ => False) r r' (F a) (F' a) /\ shp (F a) = face_shape a (c_n c).
Lemma aeq_weak {A} (Q Q' : Z -> Prop) q q' (x x' : arr A) : (forall v, Q' v -> Q v) -> aeq Q q q' x x' -> aeq Q' q q' x x'.
Proof. intros HQ (R & R' & S & Nn & V). split; [|split; [|split; [|split]]]; auto. Qed.

Lemma hydrofluxes_aeq Q junk junk' t F F' u u' p l : aeq P r r' u u' -> shp u = c_n c ->
  fl_eq Q F F' ->
  (forall a, 0 <= getc a (active_width N c (ghost_width p)) + interp_cost true (getc a p) <= getc a (widest c)) ->
  res_rel (fun x y => fst x = fst y /\
      forall a, if active N c a then aeq P r r' (snd x a) (snd y a) else snd x a = F a /\ snd y a = F' a)
    (hydrofluxes N c junk t F u p l) (hydrofluxes N c' junk' t F' u' p l).
Proof.
  intros H S HF G. unfold hydrofluxes.
  destruct (limit_slopes l p); [|reflexivity]. cbn [bind].
  rb; [apply interp_aeq; [exact H|exact S|exact G]|]. intros w w' Hw.
  eapply (res_rel_bind eq).
  { cbn [c_fixed_dt with_bc]. destruct (c_fixed_dt c); [reflexivity|].
    change (min_h N c') with (min_h N c). change (ndim N c') with (ndim N c). cbn [c_CFL c_gamma c_csq_floor with_bc].
    rewrite (hydro_dt_eq w w' _ _ _ _ _ Hw). destruct (hydro_dt N w' _ _ _ _ _); reflexivity. }
  intros dt ? <-.
  assert (D : forall d, res_rel (fun x y => if active N c d then aeq P r r' x y else x = F d /\ y = F' d)
     (if active N c d then dir_flux N c p (ghost_width p) a l d w else Ok (F d))
     (if active N c' d then dir_flux N c' p (ghost_width p) a l d w' else Ok (F' d))).
  { intro d. change (active N c' d) with (active N c d). destruct (active N c d).
    - apply dir_flux_aeq; assumption.
    - cbn. auto. }
  rb; [apply D|intros]. rb; [apply D|intros]. rb; [apply D|intros].
  cbn [res_rel fst snd]. split; [reflexivity|]. intros []; assumption.
Qed.

Lemma dims_active d : In d (dims N c) -> active N c d = true.
Proof. intro H. apply filter_In in H. apply H. Qed.

(** the slices of a flux array have the shape of the domain *)
Lemma face_view d x : shp x = face_shape d (c_n c) ->
  shp (view d s_tail (A := K) x) = c_n c /\ shp (view d s_init (A := K) x) = c_n c.
Proof.
  intro S. unfold view. cbn [shp]. rewrite S. unfold face_shape. rewrite getc_setc_eq.
  pose proof (Hn d). rewrite sl_tail, sl_init by lia. cbn [ex_len].
  rewrite !setc_setc, !Z.add_simpl_r. unfold Z.sub. rewrite ?Z.add_simpl_r.
  split; (replace (getc d (c_n c) + 1 + -1) with (getc d (c_n c)) by lia) || idtac; apply setc_getc.
Qed.
Lemma amap2_eqshape {A B C} (f : A -> B -> C) a b k s : amap2 f a b = Ok k -> shp a = s -> shp b = s -> shp k = s.
Proof. intros. eapply amap2_shape; eauto. Qed.
Lemma amap2_1shape {A B C} (f : A -> B -> C) a b k s : amap2 f a b = Ok k -> shp a = mkix 1 1 1 -> shp b = s -> shp k = s.
Proof.
  unfold amap2. intros H Ha Hb. destruct (bdim (rows a) (rows b)); [|discriminate]. rewrite Ha, Hb in H.
  unfold bshape in H. cbn [cx cy cz] in H. rewrite !bdim_1l in H. injection H as <-. destruct s; reflexivity.
Qed.
Lemma res_rel_ok {A B} (R : A -> B -> Prop) (T : A -> Prop) x y :
  res_rel R x y -> (forall a, x = Ok a -> T a) -> res_rel (fun a b => R a b /\ T a) x y.
Proof. destruct x, y; cbn; auto. Qed.

Lemma euler_equation_aeq F F' : fl_eq (active N c) F F' ->
  res_rel (fun x y => aeq P r r' x y /\ shp x = c_n c) (euler_equation N c F) (euler_equation N c' F').
Proof.
  intro HF. unfold euler_equation. change (dims N c') with (dims N c).
  set (R := fun first (x y : arr K) => if first : bool then aeq P 1 1 x y /\ shp x = mkix 1 1 1
      else aeq P r r' x y /\ shp x = c_n c).
  assert (L : forall l first x y, (forall d, In d l -> active N c d = true) -> res_rel (R first) x y ->
    res_rel (R (first && match l with [] => true | _ => false end))
     (fold_left (fun acc d => do dudt <- acc; do x <- amap2 (fun x y : K => nmul (nopp (ndiv (nofZ 1) (spacing N c d))) (nsub x y))
                      (view d s_tail (F d)) (view d s_init (F d)); amap2 nadd dudt x) l x)
     (fold_left (fun acc d => do dudt <- acc; do x <- amap2 (fun x y : K => nmul (nopp (ndiv (nofZ 1) (spacing N c' d))) (nsub x y))
                      (view d s_tail (F' d)) (view d s_init (F' d)); amap2 nadd dudt x) l y)).
  { induction l as [|d l IH]; intros first x y Hl HR; cbn [fold_left].
    - rewrite andb_true_r. exact HR.
    - rewrite andb_false_r. change false with (false && match l with [] => true | _ => false end) at 1.
      apply IH; [intros; apply Hl; right; assumption|].
      rb; [exact HR|]. intros x1 y1 H1. destruct (HF d) as [HFd SFd]. rewrite Hl in HFd by (left; reflexivity).
      destruct (face_view d _ SFd) as [S1 S2].
      eapply (res_rel_bind (fun x y => aeq P r r' x y /\ shp x = c_n c)).
      + apply res_rel_ok; [|intros; eapply amap2_eqshape; eassumption].
        eapply amap2_aeq; [apply HP0|apply mix_same| |]; (apply view_aeq; [reflexivity|assumption]).
      + intros x2 y2 [H2 S3]. destruct first; destruct H1 as [H1 S4]; (apply res_rel_ok).
        * eapply amap2_aeq; [apply HP0|apply mix_l, cls_rr|eassumption|eassumption].
        * intros. eapply amap2_1shape; eassumption.
        * eapply amap2_aeq; [apply HP0|apply mix_same|eassumption|eassumption].
        * intros. eapply amap2_eqshape; eassumption. }
  specialize (L (dims N c) true (Ok (mkarr 1 (mkix 1 1 1) (fun _ _ => nofZ 0))) (Ok (mkarr 1 (mkix 1 1 1) (fun _ _ => nofZ 0))) dims_active).
  destruct (dims N c) eqn:E; [contradiction|]. rewrite andb_false_r in L. apply L. cbn [res_rel]. split; [|reflexivity].
  split; [reflexivity|]. split; [reflexivity|]. split; [reflexivity|]. split; [|reflexivity].
  intros []; cbn; lia.
Qed.

(** the rest of the mutable state *)
Definition L5 (u u' : arr K) : Prop := aeq P 5 5 u u' /\ shp u = c_n c.
Definition log_eq (x x' : aux N) : Prop :=
  x_evals x = x_evals x' /\ x_counter x = x_counter x' /\
  L5 (x_trouble x) (x_trouble x') /\ L5 (x_nad x) (x_nad x') /\ L5 (x_pad x) (x_pad x').
Definition RS (Q : axis -> bool) (x x' : aux N) : Prop := fl_eq Q (x_flux x) (x_flux x') /\ log_eq x x'.

Lemma log_aeq Q x x' t t' n n' p p' : RS Q x x' -> aeq P 1 1 t t' -> aeq P 1 1 n n' -> aeq P 1 1 p p' ->
  res_rel (RS Q) (log_troubles N x t n p) (log_troubles N x' t' n' p').
Proof.
  intros (HF & He & Hc & Ht & Hnn & Hpp) H1 H2 H3. unfold log_troubles. rewrite <- Hc.
  assert (PUT : forall d d' s s' : arr K, L5 d d' -> aeq P 1 1 s s' ->
     res_rel L5 (if x_counter x =? 0 then assign_all d s else do q <- amap2 nadd d s; assign_all d q)
                         (if x_counter x =? 0 then assign_all d' s' else do q <- amap2 nadd d' s'; assign_all d' q)).
  { intros d d' s s' [Hd Sd] Hs. apply res_rel_ok.
    2:{ intros a E. destruct (x_counter x =? 0); [rewrite (assign_all_shape _ _ _ E); exact Sd|].
        destruct (amap2 nadd d s); [|discriminate]. rewrite (assign_all_shape _ _ _ E). exact Sd. }
    destruct (x_counter x =? 0).
    - eapply assign_all_aeq; [apply HP0|apply fits_1; left; reflexivity|eassumption|eassumption].
    - eapply (res_rel_bind (aeq P 5 5)).
      + eapply amap2_aeq; [apply HP0|apply mix_r; left; reflexivity|eassumption|eassumption].
      + intros. eapply assign_all_aeq; [apply HP0|apply fits_same|eassumption|eassumption]. }
  rb; [apply PUT; eassumption|intros]. rb; [apply PUT; eassumption|intros]. rb; [apply PUT; eassumption|intros].
  cbn [res_rel]. split; [exact HF|]. split; [exact He|]. split; [cbn; congruence|]. cbn. auto.
Qed.

Lemma step_helper_RS Q x x' : RS Q x x' -> RS Q (step_helper N c x) (step_helper N c' x').
Proof.
  intros (HF & He & Hc & Ht & Hnn & Hpp). unfold step_helper. cbn [c_limit with_bc]. destruct (c_limit c); [|split; [exact HF|split; [|split; [|split]]]; auto].
  unfold reset_troubles. rewrite <- Hc. destruct (0 <? x_counter x); [|split; [exact HF|split; [|split; [|split]]]; auto].
  split; [exact HF|]. split; [exact He|]. split; [reflexivity|]. cbn. split; [|split]; (split; [apply amap_aeq; apply Ht || apply Hnn || apply Hpp|apply Ht || apply Hnn || apply Hpp]).
Qed.

(** shapes of the interpolated arrays depend on the shapes of the inputs only *)
Lemma interp_shape (k : config N) junk1 junk2 t u1 u2 p gw av w1 w2 :
  shp u1 = shp u2 -> (forall a, 0 <= getc a (shp u1)) ->
  interpolate_primitives N k junk1 t u1 p gw av = Ok w1 -> interpolate_primitives N k junk2 t u2 p gw av = Ok w2 ->
  shp w1 = shp w2.
Proof.
  intros S Nn E1 E2. unfold interpolate_primitives in E1, E2.
  set (g := mkix _ _ _) in E1, E2.
  destruct (apply N (c_bc k) junk1 u1 g t) as [o1|] eqn:A1; [|discriminate].
  destruct (apply N (c_bc k) junk2 u2 g t) as [o2|] eqn:A2; [|discriminate]. cbn [bind] in E1, E2.
  apply apply_keeps in A1; [|exact Nn]. apply apply_keeps in A2; [|rewrite <- S; exact Nn].
  destruct A1 as (_ & S1 & G1 & _), A2 as (_ & S2 & _ & _).
  assert (Hs : aeq (fun _ => False) (rows o1) (rows o2) o1 o2).
  { split; [reflexivity|]. split; [reflexivity|]. split; [congruence|]. split; [|contradiction].
    intro a. rewrite S1. pose proof (Nn a). pose proof (G1 a). clearbody g. destruct a; cbn [padded getc cx cy cz] in *; lia. }
  pose proof (icc_aeq (fun _ => False) (fun _ H => H) N p _ _ _ _ Hs) as I1.
  destruct (interpolate_cell_centers N p o1) as [q1|]; [|discriminate].
  destruct (interpolate_cell_centers N p o2) as [q2|]; [|discriminate]. cbn [bind res_rel] in *.
  assert (I2 : aeq (fun _ => False) (rows o1) (rows o2) (cmap (compute_primitives N (c_gamma k)) q1) (cmap (compute_primitives N (c_gamma k)) q2))
    by (apply cmap_aeq; [contradiction|assumption]).
  destruct av.
  - pose proof (ifa_aeq (fun _ => False) (fun _ H => H) N p _ _ _ _ I2) as I3. rewrite E1, E2 in I3. apply I3.
  - injection E1 as <-. injection E2 as <-. apply I2.
Qed.

Lemma widest_cand a : c_limit c = true -> 0 <= getc a (active_width N c 3) + interp_cost true (getc a (c_p c)) <= getc a (widest c).
Proof.
  intro L. unfold widest. rewrite L. pose proof (Hdeg a). pose proof (sr_nonneg (getc a (c_p c)) ltac:(lia)).
  unfold interp_cost.
  assert (I : active N c a = false -> getc a (c_p c) = 0).
  { unfold active. intro E. apply negb_false_iff, andb_true_iff in E. lia. }
  destruct a; cbn [getc active_width cx cy cz] in *; destruct (active N c _); try (rewrite I in * by reflexivity; cbn); lia.
Qed.
Lemma widest_main a : 0 <= getc a (active_width N c (ghost_width (c_p c))) + interp_cost true (getc a (c_p c)) <= getc a (widest c).
Proof.
  unfold widest. pose proof (Hdeg a). pose proof (sr_nonneg (getc a (c_p c)) ltac:(lia)).
  assert (G : 0 <= ghost_width (c_p c)).
  { unfold ghost_width. assert (0 <= stencil_right (pmax (c_p c))); [|lia]. apply sr_nonneg. unfold pmax. pose proof (Hdeg AX). cbn in *. lia. }
  unfold interp_cost.
  assert (I : active N c a = false -> getc a (c_p c) = 0).
  { unfold active. intro E. apply negb_false_iff, andb_true_iff in E. lia. }
  destruct a; cbn [getc active_width cx cy cz] in *; destruct (active N c _); try (rewrite I in * by reflexivity; cbn); lia.
Qed.
Lemma widest_fall a : c_limit c = true -> 0 <= getc a (active_width N c (ghost_width (fallback_p N c))) + interp_cost true (getc a (fallback_p N c)) <= getc a (widest c).
Proof.
  intro L. unfold widest. rewrite L. pose proof (Hdeg a).
  assert (Q : forall p, 0 <= p -> 0 <= stencil_right p /\ (0 < p -> 1 <= stencil_right p)) by (intros p Hp; unfold stencil_right; pose proof (Z.div_mod (-p) 2 ltac:(lia)); pose proof (Z.mod_pos_bound (-p) 2 ltac:(lia)); lia).
  pose proof (Q _ H).
  assert (G : 0 <= ghost_width (fallback_p N c) <= 2).
  { unfold ghost_width, fallback_p, pmax. cbn [cx cy cz].
    destruct (0 <? cx (c_p c)), (0 <? cy (c_p c)), (0 <? cz (c_p c)); cbn; lia. }
  unfold interp_cost.
  assert (I : active N c a = false -> getc a (c_p c) = 0).
  { unfold active. intro E. apply negb_false_iff, andb_true_iff in E. lia. }
  assert (F1 : stencil_right 1 = 1) by reflexivity. assert (F0 : stencil_right 0 = 0) by reflexivity.
  destruct a; cbn [getc active_width fallback_p cx cy cz] in *; destruct (active N c _); try (rewrite I in * by reflexivity; cbn; lia);
   (destruct (Z.ltb_spec 0 (cx (c_p c))) || idtac); (destruct (Z.ltb_spec 0 (cy (c_p c))) || idtac); (destruct (Z.ltb_spec 0 (cz (c_p c))) || idtac);
   rewrite ?F1, ?F0; lia.
Qed.

Definition A (u u' : arr K) : Prop := aeq P r r' u u' /\ shp u = c_n c.

Lemma active_rows_aeq w w' : aeq P r r' w w' -> aeq P 5 5 (active_rows N w) (active_rows N w').
Proof.
  intros (R & R' & S & Nn & V). split; [reflexivity|]. split; [reflexivity|]. split; [exact S|]. split; [exact Nn|exact V].
Qed.
Lemma detect_rel junk junk' t u u' F F' dt : c_limit c = true -> A u u' -> fl_eq (active N c) F F' ->
  res_rel (det_eq P N) (detect N c junk t u F dt) (detect N c' junk' t u' F' dt).
Proof.
  intros L [H S] HF. unfold detect, candidate_primitives.
  eapply (res_rel_bind (fun x y => (aeq P r r' (fst x) (fst y) /\ aeq P r r' (snd x) (snd y)) /\ shp (fst x) = shp (snd x))).
  - rb; [apply euler_equation_aeq; exact HF|]. intros d d' [Hd Sd].
    eapply (res_rel_bind A).
    { apply res_rel_ok; [|intros; eapply amap2_eqshape; eassumption].
      eapply amap2_aeq; [apply HP0|apply mix_same|exact H|exact Hd]. }
    intros v v' [Hv Sv].
    pose proof (interp_aeq (junk 1) (junk' 1) t u u' (c_p c) (active_width N c 3) true H S (fun a => widest_cand a L)) as I1.
    pose proof (interp_aeq (junk 2) (junk' 2) t v v' (c_p c) (active_width N c 3) true Hv Sv (fun a => widest_cand a L)) as I2.
    change (c_p c') with (c_p c). change (active_width N c' 3) with (active_width N c 3).
    destruct (interpolate_primitives N c (junk 1) t u _ _ _) as [w|] eqn:E1,
             (interpolate_primitives N c' (junk' 1) t u' _ _ _) as [w'|]; try contradiction; [|exact I1].
    destruct (interpolate_primitives N c (junk 2) t v _ _ _) as [x|] eqn:E2,
             (interpolate_primitives N c' (junk' 2) t v' _ _ _) as [x'|]; try contradiction; [|exact I2].
    cbn [bind res_rel fst snd]. split; [split; assumption|].
    eapply interp_shape; [|apply H|exact E1|exact E2]. congruence.
  - intros [w x] [w' x'] [[H1 H2] H3]. cbn [fst snd] in *. rb.
    + apply detect_aeq; [apply HP0|exact HP|apply Hq, L|exact H3|apply active_rows_aeq, H1|apply active_rows_aeq, H2].
    + intros d d' (D1 & D2 & D3). cbn [c_force with_bc res_rel]. destruct (c_force c); [|split; [|split]; assumption].
      split; [|split]; try assumption. apply amap_aeq. assumption.
Qed.
Lemma any_trouble_eq t t' : aeq P 1 1 t t' -> any_trouble t = any_trouble t'.
Proof.
  intros (R & R' & S & Nn & V). unfold any_trouble. rewrite <- S. apply existsb_ext_in.
  intros i Hi. apply V; [apply HP; lia|]. apply in_ix_list, Hi.
Qed.
Lemma blend_fl Q th th' F F' G G' : faces_eq P N 1 1 th th' -> fl_eq Q F F' ->
  (forall a, aeq (if Q a then P else fun _ => False) r r' (G a) (G' a)) -> forall a,
  res_rel (fun x y => aeq (if Q a then P else fun _ => False) r r' x y /\ shp x = face_shape a (c_n c))
   (blend N (th a) (F a) (G a)) (blend N (th' a) (F' a) (G' a)).
Proof.
  intros H1 H2 H3 a. destruct (H2 a) as [H4 S4]. apply res_rel_ok.
  - apply blend_aeq; auto.
    + intros v Hv. destruct (Q a); [apply HP; lia|exact Hv].
    + destruct (Q a); [apply H1|eapply aeq_weak; [|apply H1]; contradiction].
  - intros x E. unfold blend in E.
    repeat match type of E with bind ?y _ = Ok _ => destruct y; cbn [bind] in E; [|discriminate] end.
    rewrite (assign_all_shape _ _ _ E). exact S4.
Qed.
Lemma is_periodic_eq a : is_periodic N c' a = is_periodic N c a.
Proof. unfold is_periodic. cbn [c_bc with_bc]. rewrite !Htype. reflexivity. Qed.
Lemma fold_left_fext {X Y} (f g : X -> Y -> X) l : (forall x y, f x y = g x y) -> forall a, fold_left f l a = fold_left g l a.
Proof. intro H. induction l; intro; cbn; [reflexivity|]. rewrite H. apply IHl. Qed.
Lemma broadcast_ext t0 ds cv per per' : (forall a, per a = per' a) ->
  broadcast_to_troubled_interfaces N t0 ds cv per = broadcast_to_troubled_interfaces N t0 ds cv per'.
Proof. intro H. unfold broadcast_to_troubled_interfaces, alloc_trouble. rewrite !H. reflexivity. Qed.

Lemma revise_rel junk junk' t x x' u u' dt : c_limit c = true -> A u u' -> RS (active N c) x x' ->
  res_rel (RS (active N c)) (revise_fluxes N c junk t x u dt) (revise_fluxes N c' junk' t x' u' dt).
Proof.
  intros L HA HR. unfold revise_fluxes. rb; [apply detect_rel; [exact L|exact HA|apply HR]|].
  intros d d' (D1 & D2 & D3). rb; [apply log_aeq; [exact HR|apply amap_aeq, D1|exact D2|exact D3]|].
  intros x1 x1' HX. rewrite (any_trouble_eq _ _ D1). destruct (any_trouble (d_trouble d')); [|exact HX].
  rb; [eapply hydrofluxes_aeq; [apply HA|apply HA|apply HR|intro; apply widest_fall, L]|].
  intros [t1 G] [t1' G'] [_ HG]. cbn [fst snd] in *.
  rewrite (broadcast_ext _ _ _ (is_periodic N c') (is_periodic N c) is_periodic_eq).
  rb; [apply broadcast_aeq; [apply HP0|exact D1]|]. intros th th' Hth.
  assert (B : forall a, res_rel (fun x y => aeq (if active N c a then P else fun _ => False) r r' x y /\ shp x = face_shape a (c_n c))
     (blend N (th a) (x_flux x a) (G a)) (blend N (th' a) (x_flux x' a) (G' a))).
  { apply blend_fl; [exact Hth|apply HR|]. intro a. specialize (HG a). destruct (HR) as [HF _]. destruct (HF a) as [HF1 _].
    destruct (active N c a); [exact HG|]. destruct HG as [-> ->]. exact HF1. }
  rb; [apply B|intros]. rb; [apply B|intros]. rb; [apply B|intros].
  cbn [res_rel]. split; [|apply HX]. cbn [x_flux]. intros []; assumption.
Qed.

Lemma assign_flux_rel a F F' G G' : 
  aeq (fun _ => False) r r' (F a) (F' a) -> shp (F a) = face_shape a (c_n c) ->
  aeq (if active N c a then P else fun _ => False) r r' (G a) (G' a) ->
  res_rel (fun x y => aeq (if active N c a then P else fun _ => False) r r' x y /\ shp x = face_shape a (c_n c))
    (assign_all (A := K) (F a) (G a)) (assign_all (F' a) (G' a)).
Proof.
  intros HF SF HG. apply res_rel_ok; [|intros z E; rewrite (assign_all_shape _ _ _ E); exact SF].
  destruct HF as (Ra & Ra' & Sa & Na & Va). destruct HG as (Rb & Rb' & Sb & Nb & Vb).
  unfold assign_all. rewrite Ra, Ra', Rb, Rb', <- Sa, <- Sb.
  destruct (bcast_ok r r (shp (G a)) (shp (F a))) eqn:E.
  - assert (E' : bcast_ok r' r' (shp (G a)) (shp (F a)) = true).
    { rewrite <- (proj1 (fits_ok r r' r r' (fits_same r r'))). exact E. }
    rewrite E'. cbn [res_rel]. split; [reflexivity|]. split; [reflexivity|]. split; [reflexivity|]. split; [exact Na|].
    intros v i Pv Hi. cbn [at_ shp] in *. rewrite <- (proj2 (fits_ok r r' r r' (fits_same r r'))).
    apply Vb; [|eapply bcast_in; eassumption].
    unfold brow. rewrite Z.eqb_refl. exact Pv.
  - rewrite <- (proj1 (fits_ok r r' r r' (fits_same r r'))), E. reflexivity.
Qed.

Lemma hydrodynamics_rel heap heap' x x' t u u' : A u u' -> RS (fun _ => false) x x' ->
  res_rel (rhs_rel N A (RS (fun _ => false))) (hydrodynamics N c heap x t u) (hydrodynamics N c' heap' x' t u').
Proof.
  intros HA [HF (He & HL)]. unfold hydrodynamics. rewrite <- He.
  rb; [eapply hydrofluxes_aeq; [apply HA|apply HA|exact HF|intro; apply widest_main]|].
  intros [dt G] [dt' G'] [E HG]. cbn [fst snd] in *. subst dt'.
  assert (B : forall a, res_rel (fun x y => aeq (if active N c a then P else fun _ => False) r r' x y /\ shp x = face_shape a (c_n c))
     (assign_all (x_flux x a) (G a)) (assign_all (x_flux x' a) (G' a))).
  { intro a. specialize (HG a). destruct (HF a) as [HF1 HF2]. apply (assign_flux_rel a (x_flux x) (x_flux x') G G'); auto.
    destruct (active N c a); [exact HG|]. destruct HG as [-> ->]. exact HF1. }
  rb; [apply B|intros]. rb; [apply B|intros]. rb; [apply B|intros].
  eapply (res_rel_bind (RS (active N c))).
  - cbn [c_limit with_bc]. assert (L : c_limit c = true \/ c_limit c = false) by (case (c_limit c); auto). destruct L as [L|L]; rewrite L.
    + apply revise_rel; [assumption|assumption|]. split; [|split; [reflexivity|exact HL]].
      cbn [x_flux set_flux]. intros []; assumption.
    + cbn [res_rel]. split; [|split; [reflexivity|exact HL]]. cbn [x_flux set_flux]. intros []; assumption.
  - intros y y' HY. eapply (res_rel_bind A); [apply euler_equation_aeq, HY|].
    intros k k' HK. cbn [res_rel]. split; [|split; [reflexivity|exact HK]].
    split; [|apply HY]. intro d. destruct HY as [HY _]. destruct (HY d) as [HY1 HY2]. split; [|exact HY2].
    eapply aeq_weak; [|exact HY1]. contradiction.
Qed.

Lemma solver_respects heap heap' :
  respects N (arr_ops N) (arr_ops N) (solver_f N c heap) (solver_f N c' heap') A A (RS (fun _ => false)).
Proof.
  assert (ADD : forall x x' y y', A x x' -> A y y' -> res_rel A (amap2 nadd x y) (amap2 nadd x' y')).
  { intros x x' y y' [H S] [H' S']. apply res_rel_ok; [|intros; eapply amap2_eqshape; eassumption].
    eapply amap2_aeq; [apply HP0|apply mix_same|eassumption|eassumption]. }
  assert (SC : forall k x x', A x x' -> A (amap (fun y => nmul k y) x) (amap (fun y => nmul k y) x')).
  { intros k x x' [H S]. split; [apply amap_aeq, H|exact S]. }
  split; cbn [vadd vscale vassign arr_ops]; intros.
  - apply hydrodynamics_rel; assumption.
  - apply ADD; auto.
  - apply SC; auto.
  - apply ADD; auto.
  - apply ADD; auto.
  - destruct H as [H S], H0 as [H' S']. apply res_rel_ok; [|intros z E; rewrite (assign_all_shape _ _ _ E); exact S].
    eapply assign_all_aeq; [apply HP0|apply fits_same|eassumption|eassumption].
Qed.

Definition payload_rel (d d' : arr K * (arr K * arr K * arr K)) : Prop :=
  A (fst d) (fst d') /\ L5 (fst (fst (snd d))) (fst (fst (snd d'))) /\
  L5 (snd (fst (snd d))) (snd (fst (snd d'))) /\ L5 (snd (snd d)) (snd (snd d')).
Lemma payload_ok heap heap' av x x' t u u' : RS (fun _ => false) x x' -> A u u' ->
  res_rel payload_rel (snap_payload N c heap av x t u) (snap_payload N c' heap' av x' t u').
Proof.
  intros [HF (He & Hc & HL)] HA. unfold snap_payload. change (c_p c') with (c_p c). change (c_n c') with (c_n c).
  rb.
  - apply (interp_aeq (heap 0) (heap' 0) t u u' (c_p c) (mkix 0 0 0) av); [apply HA|apply HA|].
    intro a. pose proof (widest_main a) as W. assert (G : 0 <= getc a (active_width N c (ghost_width (c_p c)))).
    { assert (0 <= ghost_width (c_p c)); [|destruct a; cbn; destruct (active N c _); lia].
      unfold ghost_width. assert (0 <= stencil_right (pmax (c_p c))); [|lia]. apply sr_nonneg. unfold pmax. pose proof (Hdeg AX). cbn in *. lia. }
    pose proof (sr_nonneg _ (Hdeg a)). unfold interp_cost in *.
    replace (getc a (mkix 0 0 0)) with 0 by (destruct a; reflexivity). destruct av; lia.
  - intros w w' Hw. eapply (res_rel_bind A).
    + apply res_rel_ok; [|intros z E; rewrite (assign_all_shape _ _ _ E); reflexivity].
      eapply assign_all_aeq; [apply HP0|apply fits_same| |exact Hw].
      destruct HA as [(R & R' & S & Nn & V) SA]. rewrite R, R'.
      split; [reflexivity|]. split; [reflexivity|]. split; [reflexivity|]. split; [exact Hn|reflexivity].
    + intros z z' HZ. cbn [res_rel]. split; [exact HZ|]. cbn. split; [apply HL|split; apply HL].
Qed.

Theorem run_rel heap heap' i av T n exact db log fuel o o' :
  ode_rel N A (RS (fun _ => false)) payload_rel o o' ->
  res_rel (ode_rel N A (RS (fun _ => false)) payload_rel)
    (solver_integrate N c heap i av T n exact db log fuel o)
    (solver_integrate N c' heap' i av T n exact db log fuel o').
Proof.
  intro H. unfold solver_integrate, solver_step.
  apply (integrate_rel N (arr_ops N) (arr_ops N) (solver_f N c heap) (solver_f N c' heap') A A (RS (fun _ => false)) payload_rel).
  - apply solver_respects.
  - intros. apply step_helper_RS; assumption.
  - intros. apply payload_ok; assumption.
  - exact H.
Qed.
End RelS.
