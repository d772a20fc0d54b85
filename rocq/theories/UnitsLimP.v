(** Runs with slope limiting do not depend on the units. *)
From Coq Require Import ZArith List Bool Lia Reals Lra Psatz FunctionalExtensionality.
From Verif Require Import Err Num PySlice NdArray NdArrayP HydroM HydroP StencilsM FvM FvP RiemannM RiemannP
  BcM LimitM OdeM SolverM Spec SpecBc SpecLim SpecSolver SpecCons SpecScheme SpecSym SchemeP SolverP OpP BcP BcQ RelP RelS ExistP RunP OdeP ConsP SymP MirrorP
  LimP SlopeP LimExistP SymLimP BroadP SpecExact SpecMesh StageT ClockP SpecUnits UnitsP.
Import ListNotations.
Local Open Scope R_scope.

(** ** slopes *)
Lemma nsign_units (k x : R) : 0 < k -> @nsign RNum (k * x) = @nsign RNum x.
Proof.
  intro K. unfold nsign. rn. repeat match goal with |- context [Rltb ?x ?y] => destruct (Rltb x y) eqn:? | |- context [Reqb ?x ?y] => destruct (Reqb x y) eqn:? end; rb; nra.
Qed.
Definition homogeneous (s : R -> R -> R) : Prop := forall k a b, 0 < k -> s (k * a) (k * b) = k * s a b.
Lemma moncen_units : homogeneous (moncen RNum).
Proof.
  intros k a b K. unfold moncen, nhalf. rn. replace (1 / 2 * (k * a + k * b)) with (k * (1 / 2 * (a + b))) by ring.
  replace (2 * (k * a)) with (k * (2 * a)) by ring. replace (2 * (k * b)) with (k * (2 * b)) by ring.
  rewrite nsign_units, !Rabs_scaled, !Rmin_scaled by lra. replace (k * a * (k * b)) with (k * k * (a * b)) by ring.
  assert (E : Rleb 0 (k * k * (a * b)) = Rleb 0 (a * b)).
  { pose proof (Rmult_lt_0_compat _ _ K K) as KK. unfold Rleb. destruct (Rle_dec 0 (a * b)), (Rle_dec 0 (k * k * (a * b))); auto; exfalso; nra. }
  rewrite E. destruct (Rleb 0 (a * b)); ring.
Qed.

(** ** flags *)
Lemma least_units (D : ix -> Prop) f m k : 0 < k -> least D f m -> least D (fun j => k * f j) (k * m).
Proof. intros K [U (j & J & E)]. split; [intros i Hi; apply Rmult_le_compat_l; [lra|apply U, Hi]|]. exists j. split; [exact J|congruence]. Qed.
Lemma greatest_units (D : ix -> Prop) f m k : 0 < k -> greatest D f m -> greatest D (fun j => k * f j) (k * m).
Proof. intros K [U (j & J & E)]. split; [intros i Hi; apply Rmult_le_compat_l; [lra|apply U, Hi]|]. exists j. split; [exact J|congruence]. Qed.
Lemma strays_units1 (q q' : nad_params RNum) D Zn f x k : nad_eps q' = nad_eps q -> nad_mode_ q' = nad_mode_ q -> nad_range_ q' = nad_range_ q -> 0 < k ->
  strays q D Zn f x -> strays q' D Zn (fun j => k * f j) (k * x).
Proof.
  intros E1 E2 E3 K (m & M & gm & gM & Q1 & Q2 & Q3 & Q4 & Q5). exists (k * m), (k * M), (k * gm), (k * gM).
  split; [apply least_units; assumption|]. split; [apply greatest_units; assumption|]. split; [apply least_units; assumption|]. split; [apply greatest_units; assumption|].
  rewrite E1, E2, E3. cbv zeta in *. set (e := nad_eps q) in *. change (car RNum) with R in e. clearbody e.
  assert (S : forall a b, a < b -> k * a < k * b) by (intros; apply Rmult_lt_compat_l; assumption).
  destruct (nad_range_ q), (nad_mode_ q); try exact Q5; (destruct Q5 as [Q5|Q5]; [left|right]; apply S in Q5; lra).
Qed.
Lemma strays_units (q q' : nad_params RNum) D Zn f x k : nad_eps q' = nad_eps q -> nad_mode_ q' = nad_mode_ q -> nad_range_ q' = nad_range_ q -> 0 < k ->
  strays q' D Zn (fun j => k * f j) (k * x) <-> strays q D Zn f x.
Proof.
  intros E1 E2 E3 K. split; [|apply strays_units1; assumption]. intro H.
  apply (strays_units1 q' q _ _ _ _ (/ k)) in H; try congruence; [|apply Rinv_0_lt_compat, K].
  assert (C : forall y, / k * (k * y) = y) by (intro; field; lra). rewrite C in H.
  eapply strays_map; [| | | |exact H]; intros j Hj; exists j; (split; [exact Hj|]); cbv beta; rewrite C; reflexivity.
Qed.
Lemma bounds_units V D (b : option (list (Z * (option R * option R)))) (w : Z -> R) : 0 < V -> 0 < D ->
  violates_last (option_map (convert_bounds V D) b) (fun v => prim_unit V D v * w v) <-> violates_last b w.
Proof.
  intros HV HD. destruct b as [l|]; cbn [option_map violates_last]; [|tauto].
  assert (PU : forall v, 0 < prim_unit V D v).
  { pose proof (Rmult_lt_0_compat _ _ HD (Rmult_lt_0_compat _ _ HV HV)). intro v. unfold prim_unit. destruct v as [|[[[?|?|]|[?|?|]|]|[[?|?|]|[?|?|]|]|]|?]; lra. }
  set (g := fun e : Z * (option R * option R) => (fst e, (option_map (fun x => prim_unit V D (fst e) * x) (fst (snd e)), option_map (fun x => prim_unit V D (fst e) * x) (snd (snd e))))).
  change (convert_bounds V D l) with (map g l).
  assert (O : forall e, out_of_bounds (snd (g e)) (prim_unit V D (fst (g e)) * w (fst (g e))) <-> out_of_bounds (snd e) (w (fst e))).
  { intros (v & lo & hi). unfold g, out_of_bounds. cbn [fst snd]. specialize (PU v). set (k := prim_unit V D v) in *. clearbody k.
    destruct lo, hi; cbn [option_map]; nra. }
  clearbody g. induction l as [|x front _] using rev_ind.
  - split; intros (e & E & _); destruct (removelast _); discriminate.
  - rewrite map_app. cbn [map]. rewrite !removelast_last. split; intros (e & E & H).
    + apply app_inv_head in E. injection E as <-. exists x. split; [reflexivity|]. apply O, H.
    + apply app_inv_head in E. injection E as <-. exists (g x). split; [reflexivity|]. apply O, H.
Qed.

Section Units.
Context (L V D : R) (HL : 0 < L) (HV : 0 < V) (HD : 0 < D).
Local Notation ru := (row_unit V D).
Local Notation pu := (prim_unit V D).
Local Notation scaled m f := (fun v i => m v * f v i).
Local Notation wi := (wts_i RNum).
Local Notation wt := (wts_t RNum).
Lemma pu_pos v : 0 < pu v.
Proof.
  pose proof (Rmult_lt_0_compat _ _ HD (Rmult_lt_0_compat _ _ HV HV)). unfold prim_unit.
  destruct v as [|[[[?|?|]|[?|?|]|]|[[?|?|]|[?|?|]|]|]|?]; lra.
Qed.
Lemma trace_units_s p s d pos (w : grid) : match s with None => True | Some s => homogeneous s end ->
  trace wi p s d pos (scaled pu w) = (scaled pu (trace wi p s d pos w)).
Proof.
  destruct s as [s|]; [|intros _; apply trace_units]. intro HS. unfold trace. cbv zeta. rewrite across_units, line_units.
  extensionality v. extensionality i. destruct (getc d p =? 1)%Z; [|reflexivity].
  rewrite <- !Rmult_minus_distr_l, (HS _ _ _ (pu_pos v)). destruct pos; ring.
Qed.
Context (q : Z) (c c' : config RNum) (HU : units_changed L V D q c c') (HN : limiting_changed V D c c').
Context (HT : tabulated c) (HT' : tabulated c').
Context (HF : fillable (N := RNum) (middle_of c) c q) (HF' : fillable (N := RNum) (middle_of c') c' q).
Context (CL : c_limit c = true) (HK : known_options c) (HC : c_convex c = false \/ flat_box c) (Hq : (2 <= q)%Z).
Context (HM : c_limiter c <> L_minmod) (HS : c_force c = true \/ sed_on (c_nad c) = false).
Local Notation nsame := (n_same L V D q c c' HU).
Local Notation psame := (p_same L V D q c c' HU).
Local Notation gsame := (g_same L V D q c c' HU).
Lemma face_units_s p s d f : match s with None => True | Some s => homogeneous s end ->
  face_flux wi wt c' p s d (scaled ru f) = (fun v i => V * ru v * face_flux wi wt c p s d f v i).
Proof.
  intro H. unfold face_flux. cbv zeta. rewrite gsame, (rs_same _ _ _ _ _ _ HU), (uc_floor _ _ _ _ _ _ HU).
  rewrite (primitives_units V D HV HD), !trace_units_s by assumption.
  refine (eq_trans _ (across_units (fun v => V * ru v) d _ _)). f_equal. extensionality v. extensionality i.
  exact (flux_units V D HV HD (c_gamma c) (c_csq_floor c) d (fun r => trace wi p s d P_r (primitives wi wt p (c_gamma c) f) r (up d (-1) i))
    (fun r => trace wi p s d P_l (primitives wi wt p (c_gamma c) f) r i) (c_rs c) v).
Qed.
Lemma active_same a : active RNum c' a = active RNum c a.
Proof. unfold active. rewrite nsame, psame. reflexivity. Qed.
Lemma flag_units w ws i : flag c' (scaled pu w) (scaled pu ws) i <-> flag c w ws i.
Proof.
  destruct HN as [O N B]. injection O as O1 O2 O3. injection N as N1 N2 N3 N4 N5.
  assert (AW : active_width RNum c' 3 = active_width RNum c 3) by (unfold active_width; rewrite !active_same; reflexivity).
  assert (DS : dims RNum c' = dims RNum c) by (apply filter_ext, active_same).
  unfold flag. rewrite O2, N5, AW, DS, nsame, B.
  destruct HS as [Z|Z]; [rewrite Z; tauto|]. rewrite Z.
  rewrite (bounds_units V D (pad_bounds (c_nad c)) (fun v => ws v i) HV HD).
  assert (Q : (exists v, selected (c_nad c') 5 v /\ strays (c_nad c') (nearby (dims RNum c) i) (in_padded (c_n c) (active_width RNum c 3)) (fun j => pu v * w v j) (pu v * ws v i) /\ (false = true -> bumpy c' (scaled pu ws) v i))
    <-> exists v, selected (c_nad c) 5 v /\ strays (c_nad c) (nearby (dims RNum c) i) (in_padded (c_n c) (active_width RNum c 3)) (w v) (ws v i) /\ (false = true -> bumpy c ws v i)).
  { split; intros (v & S & H & _); exists v; unfold selected in *; rewrite N4 in *; (split; [exact S|]; split; [|discriminate]);
      apply (strays_units (c_nad c) (c_nad c') _ _ (w v) (ws v i) (pu v) N1 N2 N3 (pu_pos v)), H. }
  rewrite Q. reflexivity.
Qed.
Lemma limit_same' : c_limit c' = true. Proof. pose proof (uc_rest _ _ _ _ _ _ HU) as E. congruence. Qed.
Lemma options_same : known_options c'.
Proof. destruct HN as [O N B], HK as (K1 & K2 & K3). injection O as O1 O2 O3. injection N as N1 N2 N3 N4 N5. unfold known_options. rewrite O1, N2, N3. auto. Qed.
Lemma convex_same : c_convex c' = c_convex c. Proof. destruct HN as [O N B]. congruence. Qed.
Lemma limiter_same : c_limiter c' = c_limiter c. Proof. destruct HN as [O N B]. congruence. Qed.
Lemma flat_same : c_convex c' = false \/ flat_box c'.
Proof.
  rewrite convex_same. destruct HC as [E|F]; [left; exact E|right].
  assert (I : forall a, inactive c' a <-> inactive c a) by (intro a; unfold inactive; rewrite nsame, psame; reflexivity).
  destruct F as [(a & A & B)|(a & A & B & X)]; [left|right]; exists a.
  - split; [rewrite I; exact A|]. intros b NE. apply I, B, NE.
  - split; [apply I, A|]. split; [intros b NE; rewrite I; apply B, NE|]. intro NE. destruct (X NE) as (pos & P). exists pos. rewrite (uc_bc _ _ _ _ _ _ HU). exact P.
Qed.
Lemma slope_homogeneous : match slope_of (c_limiter c) with None => True | Some s => homogeneous s end.
Proof. destruct HK as (K & _). unfold slope_of. destruct (c_limiter c); cbn [limits]; try congruence; try exact I. exact moncen_units. Qed.
Lemma deg_c : forall a, deg_ok (getc a (c_p c)). Proof. exact (good_deg RNum c _ (tab_good RNum c HT)). Qed.
Definition lrel (x x' : aux RNum) : Prop := limiting RNum c q x /\ limiting RNum c' q x'.
Lemma flux_units_hi (E : grid) d v i : gflux RNum c' (c_p c') L_none d (scaled ru E) v i = V * ru v * gflux RNum c (c_p c) L_none d E v i.
Proof.
  rewrite psame. rewrite (gflux_is wi wt tables_are c' (c_p c) L_none d _ v i deg_c), (gflux_is wi wt tables_are c (c_p c) L_none d E v i deg_c).
  change (slope_of L_none) with (@None (R -> R -> R)). rewrite face_units_s by exact I. reflexivity.
Qed.
Lemma flux_units_lo (E : grid) d v i : gflux RNum c' (fallback_p RNum c') (c_limiter c') d (scaled ru E) v i = V * ru v * gflux RNum c (fallback_p RNum c) (c_limiter c) d E v i.
Proof.
  assert (FP : fallback_p RNum c' = fallback_p RNum c) by (unfold fallback_p; rewrite psame; reflexivity).
  assert (DL : forall a, deg_ok (getc a (fallback_p RNum c))) by (exact (good_deg RNum c _ (good_fallback RNum c (tab_good RNum c HT)))).
  rewrite FP, limiter_same, (gflux_is wi wt tables_are c' _ _ d _ v i DL), (gflux_is wi wt tables_are c _ _ d E v i DL).
  rewrite face_units_s by exact slope_homogeneous. reflexivity.
Qed.
Lemma rhs_units_limited heap heap' x x' s t u u' : lrel x x' -> urel q c ru u u' ->
  res_rel (crhs_rel (L / V) (urel q c (fun v => V / L * ru v)) lrel)
    (solver_f RNum c heap x s t u) (solver_f RNum c' heap' x' (L / V * s) (L / V * t) u').
Proof.
  intros [A A'] H. pose proof H as (Q0 & R' & S & S' & VU).
  set (E := extended RNum (middle_of c) (c_bc c) (c_n c) s u).
  destruct (limited_rhs c HT CL HK q Hq s HC (middle_of c) HF heap x t u E A Q0 S (pads_here q c HT HF s u Q0 S))
    as (x1 & dt & k & us & th & F1 & L1 & G1 & RK & SK & RU & SU & VUS & W & VK).
  assert (S2 : shp u' = c_n c') by (rewrite nsame; exact S').
  destruct (limited_rhs c' HT' limit_same' options_same q Hq (L / V * s) flat_same (middle_of c') HF' heap' x' (L / V * t) u' (scaled ru E) A' R' S2
     (pads_there L V D q c c' HU HT' HF' s u u' H))
    as (x1' & dt' & k' & us' & th' & F1' & L1' & G1' & RK' & SK' & RU' & SU' & VUS' & W' & VK').
  setoid_rewrite F1. setoid_rewrite F1'. cbn [res_rel].
  apply (gdt_is wi wt tables_are c HT) in G1. apply (gdt_is wi wt tables_are c' HT') in G1'.
  assert (DT : dt' = L / V * dt).
  { rewrite psame, gsame in G1'. eapply (step_units L V D HL HV HD q c c' HU); [exact G1|]. rewrite <- (primitives_units V D HV HD). exact G1'. }
  assert (RATE : forall v i, gdudt RNum c' (c_p c') L_none (scaled ru E) v i = V / L * (ru v * gdudt RNum c (c_p c) L_none E v i)).
  { intros v i. unfold gdudt. rewrite (balance_is c'), (balance_is c). apply (balance_units L V D HL q c c' HU). intros d j. apply flux_units_hi. }
  assert (US : urel q c ru us us').
  { split; [exact RU|]. split; [exact RU'|]. split; [exact SU|]. rewrite nsame in SU', VUS'. split; [exact SU'|]. intros v i Hi.
    rewrite (VUS' v i Hi), (VUS v i Hi), RATE, DT. setoid_rewrite (VU v i Hi).
    assert (X : forall a b d : R, ru v * a + L / V * d * (V / L * (ru v * b)) = ru v * (a + d * b)) by (intros; field; lra). apply X. }
  split; [split; assumption|]. split; cbn [fst snd]; [exact DT|].
  split; [exact RK|]. split; [exact RK'|]. split; [exact SK|]. rewrite nsame in SK', VK'. split; [exact SK'|]. intros v i Hi.
  refine (eq_trans (VK' v i Hi) (eq_trans _ (f_equal (Rmult (V / L * ru v)) (eq_sym (VK v i Hi))))).
  specialize (W _ (pads_here q c HT HF s us RU SU)). specialize (W' _ (pads_there L V D q c c' HU HT' HF' s us us' US)).
  rewrite psame, gsame in W'. rewrite !(primitives_units V D HV HD) in W'.
  assert (TH : forall d j, active RNum c d = true -> in_shape (face_shape d (c_n c)) j -> wgt th' d j = wgt th d j).
  { intros d j Ad Hj. pose proof (W d j Ad Hj) as W1. rewrite <- active_same in Ad. rewrite <- nsame in Hj. pose proof (W' d j Ad Hj) as W2.
    rewrite convex_same, nsame in W2. symmetry. eapply face_value_fun; [exact W1| | |exact W2].
    - unfold bordering. split; intros (b & B1 & B2 & B3); exists b; (split; [exact B1|]; split; [exact B2|]); apply flag_units, B3.
    - intros _ y. split; intros (b & b' & B1 & B2 & B3 & B4); exists b, b'; (split; [exact B1|]; split; [exact B2|]; split; [|exact B4]); apply flag_units, B3. }
  rewrite (gsum_ext RNum c' (mixed RNum c' th' (scaled ru E)) (fun d v j => V * ru v * mixed RNum c th E d v j) (c_n c) v i Hi).
  - rewrite (balance_is c'), (balance_is c). rewrite (balance_units L V D HL q c c' HU (mixed RNum c th E)) by (intros; reflexivity). eqr; ring.
  - intros d Ad w j Hj. rewrite active_same in Ad. rewrite !mixed_wgt, flux_units_hi, flux_units_lo, (TH d j Ad Hj). eqr; ring.
Qed.
Theorem units_run_limited heap heap' i av T n exact db log fuel u u' : rows u = q -> shp u = c_n c -> rescaled ru u u' ->
  outcome_rescaled L V D (simulate c heap i av T n exact db log fuel u)
    (simulate c' heap' i av (option_map (fun t => L / V * t) T) n exact (map (fun t => L / V * t) db) log fuel u').
Proof.
  apply (gen_run L V D HL HV HD q c c' HU HT HT' HF HF' heap heap' lrel).
  - apply rhs_units_limited.
  - intros x x' [A A']. split; [apply limiting_helper, A; exact CL|apply limiting_helper, A'; exact limit_same'].
  - split; apply limiting_init.
Qed.
End Units.
Lemma convert_limiting L V D q c : limiting_changed V D c (convert L V D q c).
Proof. split; reflexivity. Qed.

(** ** minmod is not independent of the units *)
Definition incline (A : R) : arr R := mkarr 1 (mkix 3 1 1) (fun _ i => A * IZR (cx i)).
Lemma incline_minmod A : 0 < A -> exists l r, MUSCL_interpolations RNum AX L_minmod (incline A) = Ok (l, r) /\ in_shape (shp r) (mkix 0 0 0) /\
  at_ r 0 (mkix 0 0 0) = A + 1 / 2 * Rmin A (A * A / tiny RNum).
Proof.
  intro HA. destruct (MUSCL_is RNum AX L_minmod (incline A)) as (l & r & E & _ & (_ & S & F)); [discriminate|cbn; lia|].
  exists l, r. split; [exact E|]. rewrite S. split; [intros []; cbn; lia|]. rewrite F.
  unfold p3, muscl_r, incline, slope_fn, limited_slope. cbn [at_ up setc getc cx]. rewrite nhalf_R.
  change (A * 1 + 1 / 2 * minmod RNum (A * 1 - A * 0) (A * 2 - A * 1) = A + 1 / 2 * Rmin A (A * A / tiny RNum)).
  replace (A * 1 - A * 0) with A by ring. replace (A * 2 - A * 1) with A by ring.
  rewrite minmod_pos by exact HA. replace (Rltb 0 A) with true by (symmetry; apply Rltb_true; exact HA).
  rewrite (Rmin_left A A) by lra. rewrite Rmult_1_r. reflexivity.
Qed.
Lemma minmod_units : exists u u' l r l' r' D, 0 < D /\ rescaled (fun _ => D) u u' /\
  MUSCL_interpolations RNum AX L_minmod u = Ok (l, r) /\ MUSCL_interpolations RNum AX L_minmod u' = Ok (l', r') /\
  in_shape (shp r) (mkix 0 0 0) /\ at_ r' 0 (mkix 0 0 0) <> D * at_ r 0 (mkix 0 0 0).
Proof.
  pose proof tiny_pos as T. set (t := tiny RNum) in *. change (car RNum) with R in t.
  destruct (incline_minmod (t / 2) ltac:(lra)) as (l & r & E & I & F). destruct (incline_minmod (2 * t) ltac:(lra)) as (l' & r' & E' & _ & F').
  exists (incline (t / 2)), (incline (2 * t)), l, r, l', r', 4. split; [lra|]. split.
  { split; [reflexivity|]. split; [reflexivity|]. intros v i _. cbn [incline at_]. lra. }
  split; [exact E|]. split; [exact E'|]. split; [exact I|]. rewrite F'. rewrite F. fold t.
  replace (t / 2 * (t / 2) / t) with (t / 4) by (field; lra). replace (2 * t * (2 * t) / t) with (4 * t) by (field; lra).
  rewrite (Rmin_left (2 * t)), (Rmin_right (t / 2)) by lra. intro Q. revert Q. match goal with |- @eq _ ?x ?y -> _ => change (@eq R x y -> False) end. intro Q. lra.
Qed.

(** ** a case *)
Definition guarded (c : config RNum) : config RNum :=
  mkcfg (N := RNum) (c_n c) (c_p c) (c_bounds c) (c_CFL c) (c_fixed_dt c) (c_gamma c) (c_csq_floor c) (c_rs c) (c_bc c) true L_moncen false
    (mknad (N := RNum) (1 / 100) M_local R_absolute None (Some [(0%Z, (Some (1 / 2), None)); (4%Z, (Some 0, Some 10))]) false 1) false.
Lemma guarded_channel heap : let c := guarded channel in
  tabulated c /\ fillable (N := RNum) (middle_of c) c 5 /\ c_limit c = true /\ known_options c /\ c_convex c = false /\
  exists o, simulate c heap I_ssprk3 false None (Some 2%Z) true [] false 0 channel_gas = Ok o.
Proof.
  intro c.
  assert (HT : tabulated c).
  { split; [split|].
    - intros []; cbn; lia.
    - intros []; cbn; lia.
    - exists AX. intros [H _]. discriminate.
    - intros e [<-|[<-|[]]]; cbn; lia.
    - intros []; cbn; lia. }
  assert (HA : fillable (N := RNum) (middle_of c) c 5).
  { assert (D : forall a pos, dir_ok (N := RNum) (middle_of c) (c_bc c) 5 (c_n c) (ghost_zones3 c) a pos).
    { intros a pos.
      assert (M : middle_of c = fun d k => centre (fst (bnd (0, 1) (0, 1) (0, 1) d)) (snd (bnd (0, 1) (0, 1) (0, 1) d)) (getc d (mkix 8 8 1)) k).
      { extensionality d. extensionality k. destruct d; reflexivity. }
      rewrite M. apply (mesh_dir_ok (c_bc c) 5 (mkix 8 8 1) (0, 1) (0, 1) (0, 1) (mkix 9 9 9) (ghost_zones3 c) a pos).
      - intros []; cbn; lia.
      - intros []; cbn; lia.
      - destruct a; cbn; lia.
      - intros []; vm_compute; discriminate.
      - reflexivity.
      - exact I. }
    intros a. destruct a; [right|right|left; reflexivity].
    - split; [right; split; [exact I|apply D]|]. split; [right; split; [exact I|apply D]|]. intro X; discriminate X.
    - split; [right; split; [exact I|apply D]|]. split; [right; split; [exact I|apply D]|]. intro X; discriminate X. }
  split; [exact HT|]. split; [exact HA|]. split; [reflexivity|]. split; [repeat split; discriminate|]. split; [reflexivity|].
  destruct (limited_runs_end RNum (middle_of c) c heap I_ssprk3 false 2 true [] false 0 channel_gas) as (o & E & _); auto.
  - repeat split; discriminate.
  - apply flags_R.
  - cbn; lia.
  - lia.
  - exists o. exact E.
Qed.
