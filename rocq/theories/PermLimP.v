(** Runs with slope limiting and the axes exchanged. *)
From Coq Require Import ZArith List Bool Lia Reals Lra FunctionalExtensionality.
From Verif Require Import Err Num PySlice NdArray HydroM RiemannM StencilsM FvM BcM SedM
  LimitM OdeM SolverM Spec SpecBc SpecLim SpecSolver SpecCons SpecScheme SpecSym SpecMirLim NdArrayP FvP BcP BcQ OpP SolverP OdeP RelP RelS LimP RunP ConsP
  RiemannP HydroP SlopeP WallP BroadP SedP DetectP ConvexP ExistP SchemeP SymP SeamP ShiftP WatchP UniformP LimExistP MirrorP SymLimP PermP.
Import ListNotations.
Open Scope Z_scope.

Local Notation wi := (wts_i RNum).
Local Notation wt := (wts_t RNum).
Section Perm.
Context (s t : axis -> axis) (ST : forall a, s (t a) = a) (TS : forall a, t (s a) = a).
Context (c c' : config RNum) (X : axes_exchanged s c c') (HT : tabulated c) (HC : closed c) (HL : c_limit c = true) (HK : known_options c).
Context (HB : c_convex c = false \/ (flat_box c /\ flat_box c')) (HF : c_force c = true \/ axes_fair s (c_nad c)).
Local Notation W := (turn_grid s t).
Local Notation g := (c_gamma c).
Local Notation n := (c_n c).
Local Notation n' := (c_n c').
Lemma ey_rest : c_CFL c' = c_CFL c /\ c_gamma c' = c_gamma c /\ c_csq_floor c' = c_csq_floor c /\ c_rs c' = c_rs c /\ c_limit c' = c_limit c /\ c_nad c' = c_nad c /\
  c_limiter c' = c_limiter c /\ c_force c' = c_force c /\ c_convex c' = c_convex c.
Proof. destruct X as [_ _ _ _ H]. injection H. intros. repeat split; assumption. Qed.
Local Notation tab' := (ex_tab s t ST c c' X HT).
(** ** traces and fluxes of any degrees *)
Section Degrees.
Context (p p' : ix) (Hp : forall a, getc a p' = getc (s a) p) (sl : option (R -> R -> R)).
Lemma centre_turn_p (f : grid) : (fun v i => primitive g (fun r => block (fun a => wi (getc a p') P_c) (W f) r i) v)
  = W (fun v i => primitive g (fun r => block (fun a => wi (getc a p) P_c) f r i) v).
Proof.
  rewrite (block_turn s t ST TS (fun a => wi (getc a p) P_c)) by (intro a; rewrite Hp; reflexivity).
  apply grid_eq. intros v i. unfold turn_grid at 2. rewrite <- permute_row, <- (primitive_turn s t TS).
  f_equal. extensionality r. rewrite permute_row. reflexivity.
Qed.
Lemma primitives_turn_p (f : grid) : primitives wi wt p' g (W f) = W (primitives wi wt p g f).
Proof.
  unfold primitives. cbv zeta. rewrite centre_turn_p.
  apply (block_turn s t ST TS (fun a => wt (getc a p))). intro a. rewrite Hp. reflexivity.
Qed.
Lemma trace_turn_s a pos w : trace wi p' sl a pos (W w) = W (trace wi p sl (s a) pos w).
Proof.
  unfold trace. cbv zeta. rewrite (across_turn s t ST TS a (fun a => wi (getc a p) P_c)) by (intro b; rewrite Hp; reflexivity).
  rewrite Hp, (line_turn s t ST TS). destruct sl as [h|]; [|reflexivity].
  apply grid_eq. intros v i. unfold turn_grid. rewrite !(turned_up s t ST TS). reflexivity.
Qed.
Lemma flux_turn_s a f : face_flux wi wt c' p' sl a (W f) = W (face_flux wi wt c p sl (s a) f).
Proof.
  destruct ey_rest as (_ & EG & EF & ER & _). unfold face_flux. cbv zeta. rewrite EG, EF, ER, primitives_turn_p, !trace_turn_s.
  rewrite <- (across_turn s t ST TS a (fun a => wt (getc a p)) (fun a => wt (getc a p'))) by (intro b; rewrite Hp; reflexivity). f_equal.
  apply grid_eq. intros v i. unfold turn_grid at 3. rewrite <- permute_row.
  pose proof (riemann_permute g (c_csq_floor c) s (s_inj s t TS) (c_rs c) a (fun r => trace wi p sl (s a) P_r (primitives wi wt p g f) r (up (s a) (-1) (turned t i)))
    (fun r => trace wi p sl (s a) P_l (primitives wi wt p g f) r (turned t i)) v) as Q.
  rewrite riemann_is in Q. etransitivity; [etransitivity; [|exact Q]|].
  - f_equal; extensionality r; rewrite permute_row; unfold turn_grid; rewrite ?(turned_up s t ST TS); reflexivity.
  - rewrite !permute_row. apply riemann_is.
Qed.
End Degrees.
Lemma low_p a : getc a (fallback_p RNum c') = getc (s a) (fallback_p RNum c).
Proof.
  assert (Q : forall (q : config RNum) b, getc b (fallback_p RNum q) = if 0 <? getc b (c_p q) then 1 else 0) by (intros q []; reflexivity).
  rewrite !Q, (ex_p s c c' X). reflexivity.
Qed.
(** ** flags and weights *)
Lemma ey_active a : active RNum c' a = active RNum c (s a).
Proof. rewrite !active_inactive, (ex_inactive s c c' X). reflexivity. Qed.
Lemma ey_mem a : mem_axis a (dims RNum c') = mem_axis (s a) (dims RNum c).
Proof. rewrite !mem_dims. apply ey_active. Qed.
Lemma near_turn i j : nearby (dims RNum c') i j <-> nearby (dims RNum c) (turned t i) (turned t j).
Proof.
  split; intros H a.
  - specialize (H (t a)). rewrite ey_mem, ST in H. rewrite !getc_turned. exact H.
  - specialize (H (s a)). rewrite !getc_turned, TS in H. rewrite ey_mem. exact H.
Qed.
Lemma wide_turn i : in_padded n' (active_width RNum c' 3) i <-> in_padded n (active_width RNum c 3) (turned t i).
Proof.
  split; intros H a.
  - specialize (H (t a)). rewrite getc_active_width, ey_active, (ex_n s c c' X), ST in H. rewrite getc_active_width, getc_turned. exact H.
  - specialize (H (s a)). rewrite getc_active_width, getc_turned, TS in H. rewrite getc_active_width, ey_active, (ex_n s c c' X). exact H.
Qed.
Lemma shape_turn i : in_shape n' i <-> in_shape n (turned t i).
Proof. rewrite (ae_n _ _ _ X). apply (turned_in s t ST TS). Qed.
Lemma prow_cases v : (exists a, v = comp a) \/ forall a, v <> comp a.
Proof.
  destruct (Z.eq_dec v 1) as [->|]; [left; exists AX; reflexivity|]. destruct (Z.eq_dec v 2) as [->|]; [left; exists AY; reflexivity|].
  destruct (Z.eq_dec v 3) as [->|]; [left; exists AZ; reflexivity|]. right. intros []; cbn [comp]; assumption.
Qed.
Lemma prow_inv v : exists v', prow s v' = v /\ prow t v = v'.
Proof.
  exists (prow t v). split; [|reflexivity]. destruct (prow_cases v) as [[a ->]|H].
  - rewrite !prow_comp, ST. reflexivity.
  - rewrite !prow_other; auto. rewrite prow_other; auto.
Qed.
Lemma sel_prow v : axes_fair s (c_nad c) -> selected (c_nad c) 5 v <-> selected (c_nad c) 5 (prow s v).
Proof.
  intros (Q & _). destruct (prow_cases v) as [[a ->]|H].
  - rewrite prow_comp. apply Q.
  - rewrite prow_other by exact H. tauto.
Qed.
Lemma flag_turn w ws i : flag c' (W w) (W ws) i <-> flag c w ws (turned t i).
Proof.
  destruct ey_rest as (_ & _ & _ & _ & _ & EN & _ & EF & _). unfold flag. rewrite EN, EF.
  destruct HF as [FO|FA]; [rewrite FO; tauto|]. pose proof FA as (Q2 & Q3).
  apply or_iff_compat_l. assert (A : violates_last (pad_bounds (c_nad c)) (fun v => W ws v i) <-> violates_last (pad_bounds (c_nad c)) (fun v => ws v (turned t i))).
  { unfold violates_last. destruct (pad_bounds (c_nad c)) as [l|] eqn:PB; [|tauto].
    assert (Y : forall e, l = removelast l ++ [e] -> W ws (fst e) i = ws (fst e) (turned t i)).
    { intros e He. unfold turn_grid. rewrite prow_other; [reflexivity|]. apply (Q3 (removelast l) e). rewrite <- He. reflexivity. }
    split; intros (e & He & H); exists e; (split; [exact He|]); [exact (eq_ind _ (fun x => out_of_bounds (snd e) x) H _ (Y e He))|exact (eq_ind_r (fun x => out_of_bounds (snd e) x) H (Y e He))]. }
  rewrite A. apply or_iff_compat_l.
  assert (S : forall v, strays (c_nad c) (nearby (dims RNum c') i) (in_padded n' (active_width RNum c' 3)) (W w v) (W ws v i) <->
    strays (c_nad c) (nearby (dims RNum c) (turned t i)) (in_padded n (active_width RNum c 3)) (w (prow s v)) (ws (prow s v) (turned t i))).
  { intros v. unfold turn_grid. apply strays_map; intros j Hj.
    - exists (turned t j). split; [apply near_turn, Hj|reflexivity].
    - exists (turned s j). rewrite (turned_ts s t ST). split; [apply near_turn; rewrite (turned_ts s t ST); exact Hj|reflexivity].
    - exists (turned t j). split; [apply wide_turn, Hj|reflexivity].
    - exists (turned s j). rewrite (turned_ts s t ST). split; [apply wide_turn; rewrite (turned_ts s t ST); exact Hj|reflexivity]. }
  assert (B : forall v, bumpy c' (W ws) v i <-> bumpy c ws (prow s v) (turned t i)).
  { intro v. unfold bumpy. rewrite EN. split; intros (a & Aa & H).
    - exists (s a). rewrite <- ey_active. split; [exact Aa|]. unfold turn_grid in H.
      refine (eq_ind _ (fun x => (x < 1)%R) H _ _). apply (sed_line_ext RNum). intro k. rewrite (turned_up s t ST TS). reflexivity.
    - exists (t a). rewrite ey_active, ST. split; [exact Aa|]. unfold turn_grid.
      refine (eq_ind _ (fun x => (x < 1)%R) H _ _). apply (sed_line_ext RNum). intro k. rewrite (turned_up s t ST TS), ST. reflexivity. }
  split; intros (v & SV & H & HH).
  - exists (prow s v). split; [apply (sel_prow v FA), SV|]. split; [apply S, H|]. intro SO. apply B, HH, SO.
  - destruct (prow_inv v) as (v' & <- & _). exists v'. split; [apply (sel_prow v' FA), SV|]. split; [apply S, H|]. intro SO. apply B, HH, SO.
Qed.
Lemma touches_turn a i j : touches a i j <-> touches (s a) (turned t i) (turned t j).
Proof.
  unfold touches. change (moved a (-1) i) with (up a (-1) i). change (moved (s a) (-1) (turned t i)) with (up (s a) (-1) (turned t i)). rewrite <- (turned_up s t ST TS).
  assert (I : forall x y, turned t x = turned t y <-> x = y).
  { intros x y. split; [|congruence]. intro H. rewrite <- (turned_st s t TS x), H. apply (turned_st s t TS). }
  rewrite !I. tauto.
Qed.
Lemma face_turn a i : in_shape (face_shape a n') i <-> in_shape (face_shape (s a) n) (turned t i).
Proof.
  assert (E : face_shape (s a) n = turned t (face_shape a n')).
  { unfold face_shape. rewrite (turned_setc s t ST TS), (ex_n s c c' X). f_equal. rewrite (ae_n _ _ _ X). symmetry. apply (turned_ts s t ST). }
  rewrite E. split; intros H b.
  - rewrite !getc_turned. apply H.
  - specialize (H (s b)). rewrite !getc_turned, TS in H. exact H.
Qed.
Lemma blend_turn x j : blend_weight (turned t x) (turned t j) = blend_weight x j.
Proof.
  unfold blend_weight. cbv zeta. rewrite !getc_turned.
  assert (M : forall f : axis -> Z, Z.max (f (t AX)) (Z.max (f (t AY)) (f (t AZ))) = Z.max (f AX) (Z.max (f AY) (f AZ)) /\ f (t AX) + f (t AY) + f (t AZ) = f AX + f AY + f AZ).
  { intro f. pose proof (s_inj t s ST AX AY) as I1. pose proof (s_inj t s ST AX AZ) as I2. pose proof (s_inj t s ST AY AZ) as I3.
    destruct (t AX) eqn:SX, (t AY) eqn:SY, (t AZ) eqn:SZ;
    try (exfalso; first [discriminate (I1 eq_refl)|discriminate (I2 eq_refl)|discriminate (I3 eq_refl)]); split; lia. }
  destruct (M (fun a => Z.abs (getc a x - getc a j))) as [M1 M2]. cbv beta in M1, M2. rewrite M1, M2. reflexivity.
Qed.
Lemma weights_turn fl fl' th th' a i : (forall i, in_shape n' i -> fl' i <-> fl (turned t i)) ->
  weighs c fl th -> weighs c' fl' th' -> active RNum c' a = true -> in_shape (face_shape a n') i -> wgt th' a i = wgt th (s a) (turned t i).
Proof.
  intros HFl V V' A I. destruct ey_rest as (_ & _ & _ & _ & _ & _ & _ & _ & EC).
  pose proof (V' a i A I) as V2. rewrite EC in V2.
  eapply face_value_fun; [exact V2| | |apply (V (s a) (turned t i)); [rewrite <- ey_active; exact A|apply face_turn, I]].
  - unfold bordering. split.
    + intros (j & T & J & F). exists (turned t j). split; [apply (proj1 (touches_turn a i j)), T|]. split; [apply shape_turn, J|apply HFl; assumption].
    + intros (j & T & J & F). rewrite <- (turned_ts s t ST j) in T, J, F. exists (turned s j). apply shape_turn in J. split; [apply (proj2 (touches_turn a i _)), T|]. split; [exact J|apply HFl; assumption].
  - intros _ x. split.
    + intros (cc & j & T & J & F & ->). exists (turned t cc), (turned t j). rewrite blend_turn. split; [apply (proj1 (touches_turn a i cc)), T|]. split; [apply shape_turn, J|]. split; [apply HFl; assumption|reflexivity].
    + intros (cc & j & T & J & F & ->). rewrite <- (turned_ts s t ST j) in J, F. rewrite <- (turned_ts s t ST cc) in T. apply shape_turn in J. exists (turned s cc), (turned s j).
      split; [apply (proj2 (touches_turn a i _)), T|]. split; [exact J|]. split; [apply HFl; assumption|]. rewrite <- (blend_turn (turned s cc)), !(turned_ts s t ST). reflexivity.
Qed.
Lemma degs_low (q : config RNum) a : tabulated q -> deg_ok (getc a (fallback_p RNum q)).
Proof. intro H. apply (good_deg RNum q), good_fallback, tab_good, H. Qed.
Lemma mixed_turn fl fl' th th' E v i : (forall i, in_shape n' i -> fl' i <-> fl (turned t i)) ->
  weighs c fl th -> weighs c' fl' th' -> in_shape n' i ->
  gsum RNum c' (mixed RNum c' th' (W E)) v i = W (gsum RNum c (mixed RNum c th E)) v i.
Proof.
  intros HFl V V' I. unfold turn_grid at 2. rewrite !balance_is. destruct ey_rest as (_ & _ & _ & _ & _ & _ & EL & _ & _).
  assert (FV : forall a k, k = 0 \/ k = 1 -> in_shape (face_shape a n') (up a k i)).
  { intros a k Hk b. specialize (I b). unfold face_shape, up. destruct (axis_dec a b) as [<-|E']; rewrite ?getc_setc_eq, ?(getc_setc_ne a b) by assumption; lia. }
  assert (FG : forall (q : config RNum) p l a E' v' j, (forall b, deg_ok (getc b p)) -> gflux RNum q p l a E' v' j = face_flux wi wt q p (slope_of l) a E' v' j)
    by (intros; apply (gflux_is wi wt tables_are); assumption).
  assert (Q : forall a k, active RNum c' a = true -> k = 0 \/ k = 1 -> mixed RNum c' th' (W E) a v (up a k i) = mixed RNum c th E (s a) (prow s v) (up (s a) k (turned t i))).
  { intros a k A Hk. rewrite !mixed_wgt, !FG by (intro; first [apply (degs c HT)|apply (degs c' tab')|apply degs_low; first [exact HT|exact tab']]).
    rewrite (weights_turn fl fl' th th' a (up a k i) HFl V V' A (FV a k Hk)). rewrite EL.
    rewrite (flux_turn_s (c_p c) (c_p c') (ex_p s c c' X)), (flux_turn_s (fallback_p RNum c) (fallback_p RNum c') low_p).
    unfold turn_grid. rewrite (turned_up s t ST TS). reflexivity. }
  unfold balance. cbv zeta. rewrite !(ex_width s c c' X).
  assert (RR : forall a, (if inactive_b c' a then 0 else (mixed RNum c' th' (W E) a v (up a 1 i) - mixed RNum c' th' (W E) a v i) / width c (s a))%R
    = (if inactive_b c (s a) then 0 else (mixed RNum c th E (s a) (prow s v) (up (s a) 1 (turned t i)) - mixed RNum c th E (s a) (prow s v) (turned t i)) / width c (s a))%R).
  { intro a. rewrite (ex_inactive s c c' X). destruct (inactive_b c (s a)) eqn:IA; [reflexivity|].
    assert (A : active RNum c' a = true) by (rewrite active_inactive, (ex_inactive s c c' X), IA; reflexivity).
    pose proof (Q a 0 A (or_introl eq_refl)) as Q0. rewrite !up_0 in Q0. rewrite Q0, (Q a 1 A (or_intror eq_refl)). reflexivity. }
  rewrite !RR. pose proof (s_inj s t TS AX AY) as I1. pose proof (s_inj s t TS AX AZ) as I2. pose proof (s_inj s t TS AY AZ) as I3.
  destruct (s AX) eqn:SX, (s AY) eqn:SY, (s AZ) eqn:SZ;
  try (exfalso; first [discriminate (I1 eq_refl)|discriminate (I2 eq_refl)|discriminate (I3 eq_refl)]); match goal with |- @eq _ ?x ?y => change (@eq R x y) end; ring.
Qed.
Local Notation closed' := (ex_closed s t TS c c' X HC).
Local Notation E1 := (copied RNum (c_bc c) n).
Local Notation E2 := (copied RNum (c_bc c') n').
Local Notation rel r := (related RNum c c' r W).
Lemma mext_turn (f h : grid) : (forall v i, in_shape n i -> f v i = h v i) -> forall v i, in_shape n' i -> W f v i = W h v i.
Proof. intros H v j Hj. apply H, shape_turn, Hj. Qed.
Lemma padded_turn r q u1 u2 : rel r u1 u2 -> pads RNum c' q u2 (W (E1 u1)).
Proof.
  apply (pads_image RNum c c' r W (fun _ w => E1 w) (fun _ w => E2 w) W).
  - intros q' w _ Sw. exact (closed_pads RNum c' q' w tab' closed' Sw).
  - intros q' w1 w2 (R1 & R2 & S1 & S2 & V2) v j Hj. apply (copied_turn s t ST TS c c' X); auto. exact (folded_in RNum c' tab' closed' j Hj).
Qed.
Lemma limited_turn heap heap' r : 2 <= r -> forall x1 x2 q q' u1 u2, auxes RNum (limiting RNum c r) (limiting RNum c' r) x1 x2 -> rel r u1 u2 ->
  exists x1' x2' dt k1 k2, solver_f RNum c heap x1 q q' u1 = Ok (x1', (dt, k1)) /\ solver_f RNum c' heap' x2 q q' u2 = Ok (x2', (dt, k2)) /\
    auxes RNum (limiting RNum c r) (limiting RNum c' r) x1' x2' /\ rel r k1 k2.
Proof.
  intros Hr x1 x2 q q' u1 u2 [A1 A2] H. pose proof H as (R1 & R2 & S1 & S2 & V).
  destruct ey_rest as (_ & EG & _ & _ & ELi & EN & ELm & EF & EC).
  assert (HL' : c_limit c' = true) by congruence.
  assert (HK' : known_options c') by (unfold known_options; rewrite ELm, EN; exact HK).
  assert (HB1 : c_convex c = false \/ flat_box c) by (destruct HB; tauto).
  assert (HB2 : c_convex c' = false \/ flat_box c') by (rewrite EC; destruct HB; tauto).
  pose proof (padded_turn r q u1 u2 H) as PI.
  destruct (limited_rhs c HT HL HK r Hr q HB1 (fun _ _ => 0%R) (closed_fillable c _ r HC) heap x1 q' u1 (E1 u1) A1 R1 S1 (closed_pads RNum c q u1 HT HC S1))
    as (x1' & dt1 & k1 & us1 & th1 & F1 & L1 & G1 & RK1 & SK1 & RU1 & SU1 & VU1 & W1 & VK1).
  destruct (limited_rhs c' tab' HL' HK' r Hr q HB2 (fun _ _ => 0%R) (closed_fillable c' _ r closed') heap' x2 q' u2 (W (E1 u1)) A2 R2 S2 PI)
    as (x2' & dt2 & k2 & us2 & th2 & F2 & L2 & G2 & RK2 & SK2 & RU2 & SU2 & VU2 & W2 & VK2).
  assert (DT : dt2 = dt1).
  { rewrite (dt_turn s t ST TS c c' X HT) in G2. rewrite G1 in G2. injection G2 as ->. reflexivity. }
  subst dt2.
  assert (US : rel r us1 us2).
  { split; [exact RU1|]. split; [exact RU2|]. split; [exact SU1|]. split; [exact SU2|]. intros v i Hi.
    rewrite VU2 by exact Hi. rewrite (dudt_turn s t ST TS c c' X HT), (V v i Hi). unfold turn_grid.
    rewrite VU1 by (apply shape_turn, Hi). reflexivity. }
  exists x1', x2', dt1, k1, k2. split; [exact F1|]. split; [exact F2|]. split; [split; assumption|].
  split; [exact RK1|]. split; [exact RK2|]. split; [exact SK1|]. split; [exact SK2|]. intros v i Hi.
  rewrite VK2 by exact Hi.
  specialize (W1 _ (closed_pads RNum c q us1 HT HC SU1)). specialize (W2 _ (padded_turn r q us1 us2 US)).
  rewrite EG, !(primitives_turn_p (c_p c) (c_p c') (ex_p s c c' X)) in W2.
  transitivity (W (gsum RNum c (mixed RNum c th1 (E1 u1))) v i).
  - refine (mixed_turn _ _ th1 th2 (E1 u1) v i _ W1 W2 Hi). intros j Hj. apply flag_turn.
  - unfold turn_grid. symmetry. apply VK1, shape_turn, Hi.
Qed.
Theorem permuted_limited heap heap' i av T k exact db log fuel u u' : shp u = n -> 2 <= rows u -> permuted s u u' ->
  moved_outcome (N := RNum) (permuted s) (simulate c heap i av T k exact db log fuel u) (simulate c' heap' i av T k exact db log fuel u').
Proof.
  intros Su Ru PU. pose proof (proj1 (permuted_is s t ST TS c c' X u u' Su) PU) as (Ru' & Su' & V).
  destruct ey_rest as (_ & _ & _ & _ & ELi & _).
  apply (gen_moved RNum c c' heap heap' (rows u) HT tab' W) with
    (ok1 := fun _ => true) (ok2 := fun _ => true) (E1 := fun _ w => E1 w) (E2 := fun _ w => E2 w)
    (W := W) (A1 := limiting RNum c (rows u)) (A2 := limiting RNum c' (rows u)).
  - exact mext_turn.
  - reflexivity.
  - reflexivity.
  - intros q w _ Sw. apply closed_pads; auto.
  - intros q w _ Sw. exact (closed_pads RNum c' q w tab' closed' Sw).
  - reflexivity.
  - intros q u1 u2 (R1 & R2 & S1 & S2 & V2) v j Hj. apply (copied_turn s t ST TS c c' X); auto. exact (folded_in RNum c' tab' closed' j Hj).
  - intros q u1 u2 _ v j Hj. apply (prim_turn s t ST TS c c' X HT).
  - apply limiting_helper, HL.
  - apply limiting_helper. congruence.
  - apply limiting_init.
  - apply limiting_init.
  - intros x1 x2 q q' u1 u2 A H _. apply limited_turn; auto.
  - repeat split; auto.
  - intros w1 w2 (R1 & R2 & S1 & S2 & V2). apply (permuted_is s t ST TS c c' X w1 w2 S1). split; [exact (eq_trans R2 (eq_sym R1))|]. split; [exact S2|exact V2].
Qed.
End Perm.
Theorem axes_equivalent_limited s (c c' : config RNum) : (forall a b, s a = s b -> a = b) -> axes_exchanged s c c' ->
  tabulated c -> closed c -> c_limit c = true -> known_options c -> c_convex c = false \/ (flat_box c /\ flat_box c') ->
  c_force c = true \/ axes_fair s (c_nad c) ->
  forall heap heap' i av T k exact db log fuel u u', shp u = c_n c -> 2 <= rows u -> permuted s u u' ->
  moved_outcome (N := RNum) (permuted s) (simulate c heap i av T k exact db log fuel u) (simulate c' heap' i av T k exact db log fuel u').
Proof.
  intros HS X HT HC HL HK HB HF. destruct (inverse_exists s HS) as (t & ST & TS).
  exact (permuted_limited s t ST TS c c' X HT HC HL HK HB HF).
Qed.
