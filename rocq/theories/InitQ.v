(** Boundaries of a constructed solver, and what the constructor lets through. *)
From Coq Require Import ZArith List Bool Lia Reals Lra String FunctionalExtensionality.
From Coq Require Import QArith.QArith_base QArith.Qreduction.
From Verif Require Import Err Num PySlice NdArray HydroM HydroStateM RiemannM StencilsM FvM BcM LimitM OdeM SolverM ICM InitM
  SpecMesh SpecBc SpecSolver SpecCons SpecHs SpecIC SpecPos SpecInit HydroP NdArrayP BcP BcQ OpP SolverP RunP HsP ICP OdeT InitP.
Import ListNotations.
Open Scope Z_scope.

Section Q.
Context (N : Num).
Local Notation K := (car N).

(** boundary values that act alike on states with the given number of rows *)
Lemma apply_vals (b b' : bcond N) junk u g t : (forall d, 0 <= getc d (shp u)) ->
  (forall d s, bc_type b d s = bc_type b' d s) -> bc_slabs b = bc_slabs b' -> bc_cupy b = bc_cupy b' ->
  (forall d s (w : arr K) to xyz, prescribes (bc_type b d s) -> rows w = rows u ->
     set_dirichlet_bc N (bc_cupy b) w (bc_val b d s) (getc d g) d s to xyz = set_dirichlet_bc N (bc_cupy b) w (bc_val b' d s) (getc d g) d s to xyz) ->
  apply N b junk u g t = apply N b' junk u g t.
Proof.
  intros Hn ET ES EC HV. unfold apply. destruct (pad_empty junk g u) as [o|] eqn:Ep; [|reflexivity]. cbn [bind].
  assert (Hg : forall a, 0 <= getc a g).
  { unfold pad_empty in Ep. destruct (_ || _) eqn:Eb in Ep; [discriminate|]. zb. intros []; cbn [getc]; lia. }
  assert (P0 : rows o = rows u /\ shp o = padded (shp u) g).
  { unfold pad_empty in Ep. destruct (_ || _) eqn:Eb in Ep; [discriminate|]. injection Ep as <-. split; reflexivity. }
  assert (A : forall a pos w, rows w = rows u -> apply_slab N b g t a pos w = apply_slab N b' g t a pos w).
  { intros a pos w Rw. unfold apply_slab. rewrite <- ET. destruct (Z.eqb_spec (getc a g) 0); [reflexivity|].
    assert (T : forall a pos, trim_slabs N b g a pos = trim_slabs N b' g a pos) by (intros; unfold trim_slabs; rewrite ES; reflexivity).
    rewrite <- !T, <- EC. destruct (bc_type b a pos) eqn:TY; try reflexivity.
    - destruct (trim_slabs N b g a pos) as [xyz|]; [|reflexivity]. cbn [bind]. apply HV; [rewrite TY; exact I|exact Rw].
    - destruct (trim_slabs N b g a pos) as [xyz|]; [|reflexivity]. cbn [bind]. apply HV; [rewrite TY; exact I|exact Rw]. }
  destruct P0 as [R0 S0]. revert R0 S0. generalize o. induction slab_order as [|[a pos] l IH]; intros w Rw Sw; [reflexivity|].
  cbn [fold_left bind fst snd]. rewrite <- (A a pos w Rw).
  destruct (apply_slab N b g t a pos w) as [w'|e] eqn:E.
  - destruct (apply_slab_keeps N b (shp u) g t a pos w w' Hn Hg Sw E) as (R1 & S1 & _). apply IH; congruence.
  - clear. induction l as [|x l IH]; [reflexivity|]. cbn [fold_left bind]. exact IH.
Qed.
Lemma apply_other (b : bcond N) junk u g t a pos out : prescribes (bc_type b a pos) -> bc_val b a pos = V_other -> getc a g <> 0 ->
  apply N b junk u g t <> Ok out.
Proof.
  intros Hp HV G0 E.
  assert (A : forall w, exists e, apply_slab N b g t a pos w = Err e).
  { intro w. unfold apply_slab. destruct (Z.eqb_spec (getc a g) 0); [contradiction|].
    destruct (bc_type b a pos); try contradiction; rewrite HV; destruct (trim_slabs N b g a pos); eexists; reflexivity. }
  unfold apply in E. destruct (pad_empty junk g u) as [o|]; [|discriminate]. cbn [bind] in E.
  assert (Fe : forall l e, fold_left (fun acc (ap : axis * side) => do o <- acc; apply_slab N b g t (fst ap) (snd ap) o) l (Err e) = Err e)
    by (induction l; intros; cbn [fold_left bind]; auto).
  assert (Fl : forall l r, In (a, pos) l -> fold_left (fun acc (ap : axis * side) => do o <- acc; apply_slab N b g t (fst ap) (snd ap) o) l r <> Ok out).
  { induction l as [|[a' pos'] l IH]; intros r Hin; [contradiction|]. cbn [fold_left].
    destruct Hin as [Hin|Hin]; [|apply IH; auto].
    injection Hin as -> ->. destruct r as [w|e]; cbn [bind fst snd].
    - destruct (A w) as [e ->]. rewrite Fe. discriminate.
    - rewrite Fe. discriminate. }
  eapply Fl; [|exact E]. destruct a, pos; cbn; tauto.
Qed.

(** ghost cells of the first padding of a right-hand side *)
Definition flux_width (c : config N) : ix :=
  let w := active_width N c (ghost_width (c_p c)) in
  mkix (cx w + interp_cost true (cx (c_p c))) (cy w + interp_cost true (cy (c_p c))) (cz w + interp_cost true (cz (c_p c))).
Lemma no_padding (c : config N) heap x t u r :
  (forall junk out, apply N (c_bc c) junk u (flux_width c) t <> Ok out) -> hydrodynamics N c heap x t u <> Ok r.
Proof.
  intros H E. unfold hydrodynamics, hydrofluxes in E. cbn [limit_slopes bind] in E. unfold interpolate_primitives in E.
  change (mkix _ _ _) with (flux_width c) in E.
  match type of E with context [apply N (c_bc c) ?j u (flux_width c) t] => specialize (H j); destruct (apply N (c_bc c) j u (flux_width c) t) as [o|] eqn:EA end.
  - exact (H o eq_refl).
  - cbn [bind] in E. discriminate.
Qed.
Lemma flux_width_is (c : config N) d : (forall a, 0 <= getc a (c_p c)) -> ~ (getc d (c_n c) = 1 /\ getc d (c_p c) = 0) ->
  getc d (flux_width c) = Z.max (half_up (top_degree (c_p c)) + 1) (2 * half_up (top_degree (c_p c))) + 2 * half_up (getc d (c_p c)).
Proof.
  intros Hp Hd. assert (A : active N c d = true).
  { rewrite active_is. apply negb_true_iff. apply andb_false_iff. rewrite !Z.eqb_neq. lia. }
  assert (TD : pmax (c_p c) = top_degree (c_p c)) by (unfold pmax, top_degree; lia).
  assert (HS : forall k, stencil_right k = half_up k) by (intro k; symmetry; apply half_up_sr).
  unfold flux_width, active_width, interp_cost, ghost_width. rewrite TD, !HS. destruct d; cbn [getc cx cy cz]; rewrite A; reflexivity.
Qed.
Lemma flux_width_pos (c : config N) d : (forall a, 0 <= getc a (c_p c)) -> ~ (getc d (c_n c) = 1 /\ getc d (c_p c) = 0) -> getc d (flux_width c) <> 0.
Proof.
  intros Hp Hd. rewrite (flux_width_is c d Hp Hd). pose proof (Hp d).
  assert (0 <= top_degree (c_p c)). { unfold top_degree. pose proof (Hp AX). cbn [getc] in *. lia. }
  assert (0 <= half_up (top_degree (c_p c))) by (unfold half_up; apply Z.div_pos; lia).
  assert (0 <= half_up (getc d (c_p c))) by (unfold half_up; apply Z.div_pos; lia). lia.
Qed.

(** "ic" boundaries need the initial condition at points *)
Theorem averaged_ic_sides lg cupy a s ub d pos : construct N lg cupy a = Ok s -> a_bc N a = Some ub ->
  a_fv N a = true -> (forall e, 0 <= getc e (a_p N a)) ->
  ~ (getc d (a_n N a) = 1 /\ getc d (a_p N a) = 0) -> bc_type ub d pos = B_ic ->
  forall heap x t u r, hydrodynamics N (s_cfg N s) heap x t u <> Ok r.
Proof.
  intros HC HB HF Hp Hd HT heap x t u r.
  destruct (construct_inv N _ _ _ _ HC) as (h & w0 & u0 & rs & H1 & H2 & H3 & H4 & H5 & H6 & H7 & ->). cbn [s_cfg].
  assert (HCons : a_conservative N a = true).
  { specialize (H5 _ (config_on_mesh N a (final_bc N a cupy w0) rs)). unfold initial_state in H5. rewrite H2 in H5. cbn [bind] in H5. rewrite H3 in H5. cbn [bind] in H5.
    rewrite HF in H5. destruct (a_conservative N a); [reflexivity|discriminate]. }
  apply no_padding. intros junk out. apply (apply_other _ _ _ _ _ d pos).
  - cbn [config_of c_bc final_bc]. unfold final_bc. rewrite HB. cbn [bc_type]. rewrite HT. exact I.
  - cbn [config_of c_bc]. unfold final_bc. rewrite HB. cbn [bc_type bc_val]. rewrite HT. unfold u0_value. rewrite HCons, HF. reflexivity.
  - apply flux_width_pos; assumption.
Qed.
(** narrow slabs *)
Theorem narrow_slabs lg cupy a s ub d e pos : construct N lg cupy a = Ok s -> a_bc N a = Some ub ->
  (forall k, 0 <= getc k (a_p N a)) ->
  ~ (getc d (a_n N a) = 1 /\ getc d (a_p N a) = 0) -> prescribes (bc_type ub d pos) ->
  ~ (getc e (a_n N a) = 1 /\ getc e (a_p N a) = 0) ->
  (let q := half_up (top_degree (a_p N a)) in a_slab_buffer N a < Z.max (q + 1) (2 * q) + 2 * half_up (getc e (a_p N a))) ->
  forall heap x t u r, hydrodynamics N (s_cfg N s) heap x t u <> Ok r.
Proof.
  intros HC HB Hp Hd HT He Hw heap x t u r.
  destruct (construct_inv N _ _ _ _ HC) as (h & w0 & u0 & rs & H1 & H2 & H3 & H4 & H5 & H6 & H7 & ->). cbn [s_cfg].
  apply no_padding. intros junk out.
  assert (EB : c_bc (config_of N a (final_bc N a cupy w0) rs) = final_bc N a cupy w0) by reflexivity. rewrite EB.
  apply (apply_too_wide N _ _ _ _ _ d pos _ (slab_mesh N (a_n N a) (a_bounds N a AX) (a_bounds N a AY) (a_bounds N a AZ) (slab_width a))).
  - unfold final_bc. rewrite HB. cbn [bc_type]. exact HT.
  - apply flux_width_pos; assumption.
  - unfold final_bc. rewrite HB. reflexivity.
  - exists e. pose proof (flux_width_is (config_of N a (final_bc N a cupy w0) rs) e Hp He) as W. rewrite W.
    cbn [config_of c_p]. cbv zeta in Hw. eapply Z.le_lt_trans; [|exact Hw].
    assert (SW : slab_buffer N (slab_mesh N (a_n N a) (a_bounds N a AX) (a_bounds N a AY) (a_bounds N a AZ) (slab_width a)) = slab_width a) by (destruct (slab_width a); reflexivity).
    rewrite SW. assert (IE : (getc e (a_n N a) =? 1) && (getc e (a_p N a) =? 0) = false) by (apply andb_false_iff; rewrite !Z.eqb_neq; lia).
    unfold slab_width. destruct e; cbn [getc NdArray.cx NdArray.cy NdArray.cz] in *; rewrite IE; lia.
Qed.
(** the default width *)
Theorem default_slabs (c : config N) : tabulated c -> forall d, 0 <= ghost_zones c d <= if inactive_b c d then 0 else 30.
Proof.
  intros [[_ Hp _ _] H8] d. unfold ghost_zones. destruct (inactive_b c d); [lia|]. cbv zeta.
  assert (T : 0 <= top_degree (c_p c) <= 8).
  { unfold top_degree. pose proof (Hp AX). pose proof (H8 AX). pose proof (H8 AY). pose proof (H8 AZ). cbn [getc] in *. lia. }
  assert (Q : forall k, 0 <= k <= 8 -> 0 <= half_up k <= 4).
  { intros k Hk. unfold half_up. split; [apply Z.div_pos; lia|]. apply Z.lt_succ_r. apply Z.div_lt_upper_bound; lia. }
  pose proof (Q _ T). pose proof (Q (getc d (c_p c)) (conj (Hp d) (H8 d))). destruct (c_limit c); lia.
Qed.
End Q.

(** ** "ic" boundaries show the initial condition *)
Lemma is_arr_eq {A} (c : arr A) r n f : is_arr c r n f -> c = mkarr r n f.
Proof. intros (<- & <- & H). destruct c as [r n g]. cbn [rows shp at_] in *. f_equal. apply functional_extensionality. intro v. apply functional_extensionality. intro i. apply H. Qed.
Lemma u0_pointwise (a : args RNum) f h w0 cupy (w : arr R) st d pos to xyz : a_w0 RNum a = pointwise RNum f -> a_fv RNum a = false ->
  good_names (map fst (listed (a_passives RNum a))) ->
  hydro_state (match a_passives RNum a with None => [] | Some fs => map fst fs end) 4 = Ok h ->
  build_ic RNum (a_w0 RNum a) h (a_passives RNum a) = Ok w0 ->
  rows w = 5 + Z.of_nat (List.length (listed (a_passives RNum a))) ->
  set_dirichlet_bc RNum cupy w (u0_value RNum a w0) st d pos to xyz =
  set_dirichlet_bc RNum cupy w (V_func (N := RNum) (fun _ => ic_point a f)) st d pos to xyz.
Proof.
  intros HW HF HG EH EB Rw. destruct xyz as [[X Y] Z].
  destruct (build_ok RNum (a_w0 RNum a) (a_passives RNum a) HG) as (h' & w' & EH' & EB' & B).
  assert (h' = h) by (rewrite EH in EH'; injection EH'; auto). subst h'.
  assert (w' = w0) by (rewrite EB in EB'; injection EB'; auto). subst w'.
  specialize (B X Y Z (shp X) (fun v i => f (at_ X 0 i) (at_ Y 0 i) (at_ Z 0 i) v)). rewrite HW in B.
  assert (P : res_is (pointwise RNum f (X, Y, Z)) 5 (shp X) (fun v i => f (at_ X 0 i) (at_ Y 0 i) (at_ Z 0 i) v)).
  { eexists. split; [reflexivity|]. repeat split. }
  specialize (B P). destruct B as (r & Er & Ar).
  assert (EV : forall v i, filled RNum (fun v i => f (at_ X 0 i) (at_ Y 0 i) (at_ Z 0 i) v) (listed (a_passives RNum a)) (X, Y, Z) (List.length (listed (a_passives RNum a))) v i
    = point_value f (listed (a_passives RNum a)) (at_ X 0 i) (at_ Y 0 i) (at_ Z 0 i) v).
  { intros v i. unfold filled, point_value. rewrite firstn_all. destruct (v <? 5)%Z; [reflexivity|]. destruct (nth_error _ _) as [[q g]|]; reflexivity. }
  unfold u0_value. rewrite HF, andb_false_r. unfold ic_point, to_state.
  destruct (a_conservative RNum a); cbn [set_dirichlet_bc].
  - refine (eq_trans (f_equal (fun q => bind q _) Er) _). cbn [bind]. f_equal. refine (eq_trans (is_arr_eq _ _ _ _ (is_arr_ext _ _ _ _ _ Ar EV)) _).
    f_equal. symmetry. exact Rw.
  - refine (eq_trans (f_equal (fun q => bind (bind q _) _) Er) _). cbn [bind]. f_equal.
    refine (is_arr_eq _ _ _ _ _). destruct Ar as (A1 & A2 & A3). split; [refine (eq_trans A1 _); symmetry; exact Rw|]. split; [exact A2|].
    intros v i. unfold conservatives. cbn [cmap at_]. apply (to_state_ext false). intro q. refine (eq_trans (A3 q i) (EV q i)).
Qed.
Theorem ic_sides lg cupy a s ub f e pos junk u g t :
  construct RNum lg cupy a = Ok s -> a_bc RNum a = Some ub -> a_w0 RNum a = pointwise RNum f -> a_fv RNum a = false ->
  good_names (map fst (listed (a_passives RNum a))) ->
  shp u = a_n RNum a -> rows u = 5 + Z.of_nat (List.length (listed (a_passives RNum a))) ->
  (forall d, 0 <= getc d g <= getc d (slab_width a)) ->
  (forall d p, getc d g <> 0 ->
     (copies (bc_type ub d p) /\ enough (bc_type ub d p) (getc d (a_n RNum a)) (getc d g)) \/ bc_type ub d p = B_ic \/
     (bc_type ub d p = B_dirichlet /\ match bc_val ub d p with V_array len _ => len = rows u \/ len = 1 | V_func _ => True | _ => False end)) ->
  (forall d, getc d g <> 0 -> bc_type ub d SR = B_periodic -> bc_type ub d SL = B_periodic) ->
  bc_type ub e pos = B_ic ->
  exists out, apply RNum (c_bc (s_cfg RNum s)) junk u g t = Ok out /\ shp out = padded (a_n RNum a) g /\
    forall v i, in_padded (a_n RNum a) g i ->
      (match pos with SL => getc e i < 0 | SR => getc e (a_n RNum a) <= getc e i end) ->
      (forall d, (match e, d with AX, (AY | AZ) => True | AY, AZ => True | _, _ => False end) -> 0 <= getc d i < getc d (a_n RNum a)) ->
      at_ out v (shift g i) = ic_point a f (cell_centre (s_cfg RNum s) AX i) (cell_centre (s_cfg RNum s) AY i) (cell_centre (s_cfg RNum s) AZ i) v.
Proof.
  intros HC HB HW HF HG HS HR Hg Hsides Hper HT.
  destruct (construct_inv RNum _ _ _ _ HC) as (h & w0 & u0 & rs & H1 & H2 & H3 & H4 & H5 & H6 & H7 & ->). cbn [s_cfg].
  assert (EB : c_bc (config_of RNum a (final_bc RNum a cupy w0) rs) = final_bc RNum a cupy w0) by reflexivity. rewrite EB.
  set (b := final_bc RNum a cupy w0).
  set (b' := mkbc (N := RNum) (bc_type ub) (fun d p => match bc_type ub d p with B_ic => V_func (N := RNum) (fun _ => ic_point a f) | _ => bc_val ub d p end)
     (Some (slab_mesh RNum (a_n RNum a) (a_bounds RNum a AX) (a_bounds RNum a AY) (a_bounds RNum a AZ) (slab_width a))) cupy).
  assert (SAME : apply RNum b junk u g t = apply RNum b' junk u g t).
  { apply apply_vals; try (unfold b, final_bc; rewrite HB; reflexivity).
    - intro d. rewrite (HS : shp (u : arr (car RNum)) = a_n RNum a). specialize (H1 d). lia.
    - intros d p w to xyz HP RW. unfold b, b', final_bc. rewrite HB. cbn [bc_val bc_cupy].
      destruct (bc_type ub d p); try reflexivity. apply (u0_pointwise a f h w0); auto. exact (eq_trans RW HR). }
  rewrite SAME.
  destruct (apply_dirichlet b' junk u g t (a_bounds RNum a AX) (a_bounds RNum a AY) (a_bounds RNum a AZ) (slab_width a) e pos (fun _ => ic_point a f)) as (out & E1 & E2 & E3).
  - intro d. rewrite HS. apply H1.
  - exact Hg.
  - cbn [b' bc_slabs]. rewrite HS. reflexivity.
  - intros d p G. cbn [b' bc_type bc_val]. rewrite HS. destruct (Hsides d p G) as [Q|[Q|[Q V]]]; [left; exact Q| |]; right; rewrite Q.
    + split; [exact I|]. exact I.
    + split; [exact I|]. destruct (bc_val ub d p); tauto.
  - exact Hper.
  - cbn [b' bc_type]. rewrite HT. exact I.
  - cbn [b' bc_val bc_type]. rewrite HT. reflexivity.
  - exists out. split; [exact E1|]. rewrite HS in E2, E3. split; [exact E2|]. intros v i Hi Hp Hd. rewrite (E3 v i Hi Hp Hd). reflexivity.
Qed.

(** ** concrete cases *)
Lemma no_default (N : Num) lg cupy s : construct N lg cupy (default_args N) <> Ok s.
Proof.
  intro H. destruct (proj1 (accepts N lg cupy (default_args N) _ (config_on_mesh N _ (uniform_bc B_none) RS_hllc)) (ex_intro _ s H)) as (_ & _ & _ & [d Hd] & _).
  apply Hd. destruct d; split; reflexivity.
Qed.
Lemma default_settings lg cupy n p : positive_rules lg -> 2 <= n -> 0 <= p ->
  exists s, construct RNum lg cupy (along_x n p (default_args RNum)) = Ok s /\ s_averages RNum s = true /\ gas_everywhere (s_u0 RNum s) /\
  let c := s_cfg RNum s in c_n c = mkix n 1 1 /\ c_p c = mkix p 0 0 /\ (forall a, c_bounds c a = (0, 1)%R) /\
  initial_state RNum lg c (square_ic RNum "x" 1%R 2%R 1%R 1%R 0%R 0%R) None false false = Ok (s_u0 RNum s) /\
  c_CFL c = (4/5)%R /\ c_fixed_dt c = None /\ c_gamma c = (5/3)%R /\ c_csq_floor c = (1/10^10)%R /\ c_rs c = RS_hllc /\
  (forall a pos, bc_type (c_bc c) a pos = B_periodic) /\ c_limit c = false /\ c_limiter c = L_minmod /\ c_force c = false /\ c_convex c = false /\
  nad_eps (c_nad c) = (1/100)%R /\ nad_mode_ (c_nad c) = M_global /\ nad_range_ (c_nad c) = R_relative /\ nad_vars (c_nad c) = None /\
  sed_on (c_nad c) = true /\ sed_eps (c_nad c) = (1/10^10)%R /\ pad_bounds (c_nad c) = Some [(0, (Some 0%R, None)); (4, (Some 0%R, None))].
Proof.
  intros L Hn Hp. set (a := along_x n p (default_args RNum)).
  pose (c0 := config_of RNum a (uniform_bc B_none) RS_hllc).
  assert (OM : on_mesh a c0) by (repeat split; reflexivity).
  destruct (ICP.initial_positive lg c0 (a_w0 RNum a) None) as (u & EU & _ & SU & GU); auto.
  - intros []; cbn; lia.
  - cbn. lra.
  - split; [constructor|intros x []].
  - cbn [a_w0 a along_x default_args]. apply ICP.square_positive; cbn; lra.
  - assert (AC : exists s, construct RNum lg cupy a = Ok s).
    { apply (accepts RNum lg cupy a c0 OM). split; [intros []; cbn; lia|]. split; [intros _ []; cbn; lia|]. split; [exists u; exact EU|].
      split; [exists AX; cbn; lia|]. split; [cbn; lia|]. split; [cbn; lia|]. exists RS_hllc. cbn. tauto. }
    destruct AC as (s & ES). exists s. split; [exact ES|]. destruct (constructed RNum lg cupy a s ES) as (K & SK & IS & AV).
    destruct K as ((K1 & K2 & K3 & K4) & K5 & K6 & K7 & K8 & K9 & K10 & K11 & K12 & K13 & K14 & K15 & K16 & K17 & K18 & K19).
    split; [exact AV|]. cbv zeta. split.
    { assert (E : initial_state RNum lg c0 (a_w0 RNum a) None false false = initial_state RNum lg (s_cfg RNum s) (a_w0 RNum a) None false false).
      { apply (initial_mesh RNum lg a c0 (s_cfg RNum s)); [exact OM|split; [exact K1|split; [exact K2|split; [exact K3|exact K4]]]]. }
      assert (X : Ok (s_u0 RNum s) = Ok u) by exact (eq_trans (eq_sym IS) (eq_trans (eq_sym E) EU)). injection X as ->. exact GU. }
    split; [exact K1|]. split; [exact K2|]. split; [intro b; rewrite K3; reflexivity|]. split; [exact IS|]. split; [exact K5|]. split; [exact K6|]. split; [exact K4|].
    split; [rewrite K7; cbn; field|]. split. { destruct K8 as [E|[E|[E|[]]]]; [discriminate E|discriminate E|injection E as <-; reflexivity]. }
    split; [apply SK|]. do 4 (split; [assumption|]). split; [exact K13|]. split; [exact K14|]. split; [exact K15|]. split; [exact K16|]. split; [exact K17|].
    split; [rewrite K18; cbn; field|exact K19].
Qed.
Lemma undocumented : In "advection_upwinding"%string documented_solvers /\
  forall (N : Num) lg cupy a s, a_riemann N a = "advection_upwinding"%string -> construct N lg cupy a <> Ok s.
Proof.
  split; [left; reflexivity|]. intros N lg cupy a s HN H.
  destruct (construct_inv N _ _ _ _ H) as (h & w0 & u0 & rs & _ & _ & _ & _ & _ & _ & H7 & _). rewrite HN in H7.
  cbn in H7. destruct H7 as [E|[E|[E|[]]]]; discriminate.
Qed.
Definition floor_args : args QNum := demo_args (N := QNum) bar 4 0 None "hllc" None (Some 3%Q) (Some 3%Q) 30.
Definition floor_solver : solver QNum := match construct QNum (fun _ => []) false floor_args with Ok s => s | Err _ => mksolver QNum (config_of QNum floor_args (uniform_bc B_none) RS_hllc) (mkhs [] 4 [] false 5) (mkarr 0 (mkix 0 0 0) (fun _ _ => 0%Q)) true None None end.
Lemma floor_made : construct QNum (fun _ => []) false floor_args = Ok floor_solver.
Proof. reflexivity. Qed.
Definition shown (x : res (arr Q)) : option (ix * list Q * list Q) :=
  match x with Ok w => Some (shp w, map (fun i => Qred (at_ w 0 i)) (ix_list (shp w)), map (fun i => Qred (at_ w 4 i)) (ix_list (shp w))) | Err _ => None end.
Lemma floor_value : shown (interpolate_primitives QNum (s_cfg QNum floor_solver) (fun _ _ => 0%Q) 0%Q (s_u0 QNum floor_solver) (mkix 0 0 0) (mkix 1 0 0) true)
  = Some (mkix 6 1 1, [1; 1; 2; 1; 1; 1]%Q, [Qmake 9 5; Qmake 9 5; Qmake 8 5; Qmake 9 5; Qmake 9 5; Qmake 9 5]).
Proof. vm_compute. reflexivity. Qed.
Theorem floors_ignored : exists (a : args QNum) s w i,
  a_density_floor QNum a = Some 3%Q /\ a_pressure_floor QNum a = Some 3%Q /\ construct QNum (fun _ => []) false a = Ok s /\
  interpolate_primitives QNum (s_cfg QNum s) (fun _ _ => 0%Q) 0%Q (s_u0 QNum s) (a_p QNum a) (mkix 1 0 0) true = Ok w /\
  in_shape (shp w) i /\ (at_ w 0 i < 3)%Q /\ (at_ w 4 i < 3)%Q.
Proof.
  pose proof floor_value as V.
  destruct (interpolate_primitives QNum (s_cfg QNum floor_solver) (fun _ _ => 0%Q) 0%Q (s_u0 QNum floor_solver) (mkix 0 0 0) (mkix 1 0 0) true) as [w|] eqn:E; [|discriminate].
  cbn [shown] in V. injection V as S V0 V4. change (@shp (car QNum) w) with (@shp Q w) in *. rewrite S in V0, V4.
  exists floor_args, floor_solver, w, (mkix 0 0 0). do 2 (split; [reflexivity|]). split; [exact floor_made|]. split; [exact E|].
  split. { change (@shp (car QNum) w) with (@shp Q w). rewrite S. intros []; cbn; lia. }
  cbn in V0, V4. injection V0 as V0 _. injection V4 as V4 _.
  split.
  - rewrite <- (Qred_correct (at_ w 0 (mkix 0 0 0))). change (car QNum) with Q. rewrite V0. reflexivity.
  - rewrite <- (Qred_correct (at_ w 4 (mkix 0 0 0))). change (car QNum) with Q. rewrite V4. reflexivity.
Qed.
Definition fixed_args : args QNum := demo_args (N := QNum) bar 4 0 None "advection_upwind" (Some ["rho"; "vx"; "P"]%string) None None 30.
Definition fixed_solver : solver QNum := match construct QNum (fun _ => []) false fixed_args with Ok s => s | Err _ => floor_solver end.
Lemma fixed_made : construct QNum (fun _ => []) false fixed_args = Ok fixed_solver.
Proof. reflexivity. Qed.
Notation fixed_run := (simulate (s_cfg QNum fixed_solver) (fun _ _ _ => 0%Q) I_euler true None (Some 1) true [] false 0 (s_u0 QNum fixed_solver)).
Definition first_row (u : arr Q) : list Q := map (fun i => Qred (at_ u 0 i)) (ix_list (mkix 4 1 1)).
Lemma fixed_value : looked (fun o => first_row (o_u o)) fixed_run = Some [1%Q; Qmake 3 2; Qmake 3 2; 1%Q].
Proof. vm_compute. reflexivity. Qed.
Theorem fixed_changes : exists (a : args QNum) s o,
  a_fixed QNum a = Some ["rho"; "vx"; "P"]%string /\ construct QNum (fun _ => []) false a = Ok s /\
  simulate (s_cfg QNum s) (fun _ _ _ => 0%Q) (run_integrator QNum (s_cfg QNum s)) (s_averages QNum s) None (Some 1) true [] false 0 (s_u0 QNum s) = Ok o /\
  ~ (at_ (o_u o) 0 (mkix 1 0 0) == at_ (s_u0 QNum s) 0 (mkix 1 0 0))%Q.
Proof.
  destruct (looked_ok (fun o => first_row (o_u o)) _ _ fixed_value) as (o & E & V).
  exists fixed_args, fixed_solver, o. split; [reflexivity|]. split; [exact fixed_made|]. split; [exact E|].
  unfold first_row in V. cbn in V. injection V as _ V _ _. intro H. apply Qred_complete in H.
  change (car QNum) with Q in *. rewrite V in H. cbn in H. discriminate H.
Qed.
(** arguments of the last two theorems that the constructor accepts *)
Definition ic_bc {N} : bcond N := mkbc (fun a _ => match a with AX => B_ic | _ => B_periodic end) (fun _ _ => V_other) None false.
Lemma averaged_case : exists s, construct QNum (fun _ => []) false (demo_args (N := QNum) bar 4 0 (Some ic_bc) "hllc" None None None 30) = Ok s.
Proof. eexists. reflexivity. Qed.
Lemma narrow_case : exists s, construct QNum (fun _ => []) false (demo_args (N := QNum) bar 4 2 (Some ic_bc) "hllc" None None None 3) = Ok s.
Proof. eexists. reflexivity. Qed.
Definition ic_args : args RNum :=
  mkargs RNum (pointwise RNum (fun x _ _ => vec5 RNum (1 + x * x) x 0 0 1)%R) None (mkix 3 1 1) (mkix 2 0 0) (fun _ => (0, 1)%R) (1/2)%R
    None (7/5)%R (Some ic_bc) "hllc" false false None false L_minmod false
    1%R M_global R_absolute None None false 1%R false None None 0%R true 30.
Lemma ic_case : exists a s ub, construct RNum (fun _ => [(0, 2)])%R false a = Ok s /\ a_bc RNum a = Some ub /\
  a_w0 RNum a = pointwise RNum (fun x _ _ => vec5 RNum (1 + x * x) x 0 0 1)%R /\ a_fv RNum a = false /\ a_n RNum a = mkix 3 1 1 /\
  slab_width a = mkix 30 0 0 /\ bc_type ub AX SL = B_ic /\ bc_type ub AX SR = B_ic.
Proof.
  assert (H : exists s, construct RNum (fun _ => [(0, 2)])%R false ic_args = Ok s).
  { apply (accepts RNum (fun _ => [(0, 2)])%R false ic_args _ (config_on_mesh RNum _ ic_bc RS_hllc)).
    split; [intros []; cbn; lia|]. split; [intros _ []; cbn; lia|]. split.
    { destruct (initial_is (fun _ => [(0, 2)])%R (config_of RNum ic_args ic_bc RS_hllc) (fun x _ _ => vec5 RNum (1 + x * x) x 0 0 1)%R None false) as (u & E & _).
      - intros []; cbn; lia.
      - split; [constructor|]. intros q [].
      - exists u. exact E. }
    split; [exists AX; cbn; lia|]. cbn. split; [lia|]. split; [lia|]. exists RS_hllc. auto. }
  destruct H as [s H]. exists ic_args, s, ic_bc. split; [exact H|]. repeat split.
Qed.
