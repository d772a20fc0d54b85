(** Mirror images with slope limiting and the HLLC solver: a plate of degree one. *)
From Coq Require Import ZArith List Bool Lia Reals Lra FunctionalExtensionality.
From Verif Require Import Err Num NdArray FvM RiemannM StencilsM BcM SpecBc LimitM OdeM SolverM Spec SpecLim SpecSolver SpecCons SpecScheme SpecSym SpecMirLim
  NdArrayP FvP BcQ OpP SolverP ExistP SchemeP UniformP MirrorP BroadP LimExistP SlopeP RunP ConsP SymP SeamP ShiftP MirLimP MirLimQ DriftP.
Import ListNotations.
Local Open Scope Z_scope.

Local Notation wi := (wts_i RNum).
Local Notation wt := (wts_t RNum).
(** 12 x 13 cells, degree one, with the default solver and options apart from the
    smooth-extrema detector *)
Definition disc (ty : bct) : config RNum :=
  mkcfg (N := RNum) (mkix 12 13 1) (mkix 1 1 0) (fun _ => (0, 1)%R) (1/2)%R None (7/5)%R (1/100)%R RS_hllc (uniform_bc ty) true L_minmod false (usual_sed false) false.
Lemma disc_ok ty : copies ty -> tabulated (disc ty) /\ closed (disc ty) /\ known_options (disc ty) /\ flat_box (disc ty) /\
  (forall a, 2 <= getc a (ghost_zones3 (disc ty)) \/ inactive_b (disc ty) a = true).
Proof.
  intro HTy. assert (E : forall a, enough ty (getc a (c_n (disc ty))) (getc a (ghost_zones3 (disc ty)))).
  { intros []; destruct ty; vm_compute; try discriminate; try exact I; reflexivity. }
  split; [|split; [|split; [|split]]].
  - split; [split|].
    + intros []; cbn; lia.
    + intros []; cbn; lia.
    + exists AX. intros [H _]. discriminate.
    + intros e [<-|[<-|[]]]; cbn; lia.
    + intros []; cbn; lia.
  - intro a. right. split; [|auto]. intro pos. split; [exact HTy|apply E].
  - split; [discriminate|]. split; discriminate.
  - right. exists AZ. split; [split; reflexivity|]. split.
    + intros b' B [H _]. destruct b'; cbn in H; congruence.
    + congruence.
  - intros []; [left; vm_compute; discriminate|left; vm_compute; discriminate|right; reflexivity].
Qed.
(** density and pressure between 2 and 3 in every cell *)
Definition calm (g : R) (u : arr R) : Prop := forall i, in_shape (shp u) i ->
  (2 <= at_ u 0 i <= 3)%R /\ (2 <= primitive g (fun r => at_ u r i) 4 <= 3)%R.
Definition within (x : R) : bool := andb (if Rle_dec 2 x then true else false) (if Rle_dec x 3 then true else false).
Definition calm_b (u : arr R) : bool :=
  forallb (fun i => andb (within (at_ u 0 i)) (within (primitive (7/5) (fun r => at_ u r i) 4))) (ix_list (shp u)).
Lemma within_spec x : within x = true <-> (2 <= x <= 3)%R.
Proof. unfold within. destruct (Rle_dec 2 x), (Rle_dec x 3); cbn; split; intros; try discriminate; try lra; reflexivity. Qed.
Lemma calm_b_spec u : calm_b u = true <-> calm (7/5) u.
Proof.
  unfold calm_b. rewrite forallb_forall. split.
  - intros H i Hi. apply in_ix_list in Hi. specialize (H i Hi). apply andb_true_iff in H. rewrite !within_spec in H. exact H.
  - intros H i Hi. apply in_ix_list in Hi. apply andb_true_iff. rewrite !within_spec. apply H, Hi.
Qed.
Lemma calm_b_cells : test_of_cells calm_b.
Proof.
  intros u u' _ S V. apply eq_true_iff_eq. rewrite !calm_b_spec. unfold calm. rewrite <- S.
  split; intros H i Hi; specialize (H i Hi); cbn [primitive] in *; rewrite !V in * by exact Hi; exact H.
Qed.
(** the unlimited trace of degree one is linear with the mean of the two slopes *)
Definition mean (a b : R) : R := ((a + b) / 2)%R.
Lemma plain_trace p (Hp : forall a, getc a p = 0 \/ getc a p = 1) (w : grid) d pos v i : pos = P_l \/ pos = P_r ->
  trace wi p None d pos w v i = trace wi p (Some mean) d pos w v i.
Proof.
  intro Hpos. unfold trace. cbv zeta. destruct (getc d p =? 1) eqn:E; [|reflexivity]. apply Z.eqb_eq in E. rewrite E.
  set (g := across _ _ _). unfold mean, line, wts_i. destruct Hpos as [-> | ->]; cbn; rewrite up_0;
    match goal with |- @eq _ ?x ?y => change (@eq R x y) end;
    change (Pos.to_nat 1) with 1%nat; change (Pos.to_nat 2) with 2%nat; change (Pos.to_nat 4) with 4%nat; cbv iota; field.
Qed.
Definition tame (s : R -> R -> R) : Prop := forall a b, (Rabs (s a b) <= Rmax (Rabs a) (Rabs b))%R.
Lemma mean_tame : tame mean.
Proof.
  intros a b. unfold mean. pose proof (Rmax_l (Rabs a) (Rabs b)). pose proof (Rmax_r (Rabs a) (Rabs b)).
  pose proof (Rabs_triang a b). unfold Rdiv. rewrite Rabs_mult, (Rabs_right (/2)) by lra. lra.
Qed.
Lemma minmod_tame : tame (LimitM.minmod RNum).
Proof.
  intros a b. pose proof (Rmax_l (Rabs a) (Rabs b)). pose proof (Rmax_r (Rabs a) (Rabs b)). pose proof (Rabs_pos a).
  destruct (minmod_bounds a b) as [[Q1 Q2]|(Q1 & Q2 & Q3)]; [rewrite Q2, Rabs_R0; lra|].
  pose proof (Rmin_l (Rabs a) (Rabs b)). lra.
Qed.
Section Calm.
Context (c : config RNum) (HT : tabulated c) (HC : closed c) (Hp : forall a, getc a (c_p c) = 0 \/ getc a (c_p c) = 1)
  (HG : forall a, 2 <= getc a (ghost_zones3 c) \/ inactive_b c a = true) (u : arr R) (Su : shp u = c_n c) (HU : calm (c_gamma c) u).
Local Notation w := (fun v i => primitive (c_gamma c) (fun r => filled c u r i) v).
Lemma calm_cells v i : v = 0 \/ v = 4 -> (forall a, let g := if inactive_b c a then 0 else 2 in - g <= getc a i < getc a (c_n c) + g) ->
  (2 <= w v i <= 3)%R.
Proof.
  intros Hv Hi. assert (IN : in_shape (c_n c) (folded3 (c_bc c) (c_n c) i)).
  { apply (folded_in RNum c HT HC). intro a. specialize (Hi a). cbv zeta in Hi. destruct (HG a) as [G|G]; [destruct (inactive_b c a); lia|].
    rewrite G in Hi. pose proof (width_main RNum c HT a) as W. unfold solver_width in W. lia. }
  destruct (HU _ ltac:(rewrite Su; exact IN)) as [P0 P1].
  assert (SQ : forall v, (filled c u v i * filled c u v i = at_ u v (folded3 (c_bc c) (c_n c) i) * at_ u v (folded3 (c_bc c) (c_n c) i))%R)
    by (intro r; unfold filled; destruct (negated3 _ _ _ _); ring).
  destruct Hv as [-> | ->]; cbn [primitive] in *; [exact P0|]. rewrite !SQ. exact P1.
Qed.
Lemma calm_trace s (HS : tame s) d i pos : ~ inactive c d -> face_zone c d i -> pos = P_l \/ pos = P_r ->
  physical (fun r => trace wi (c_p c) (Some s) d pos (primitives wi wt (c_p c) (c_gamma c) (filled c u)) r i).
Proof.
  intros A Hi Hpos. rewrite (low_prim c (c_p c) Hp).
  assert (AD : inactive_b c d = false).
  { destruct (inactive_b c d) eqn:Q; [|reflexivity]. exfalso. pose proof (proj2 (active_spec RNum c d) A) as B. rewrite active_inactive, Q in B. discriminate. }
  assert (Y : forall v k, v = 0 \/ v = 4 -> -1 <= k <= 1 -> (2 <= w v (up d k i) <= 3)%R).
  { intros v k Hv Hk. apply calm_cells; [exact Hv|]. intro a. specialize (Hi a). cbv zeta in *. unfold up.
    destruct (axis_dec d a) as [<-|NE].
    - rewrite AD, axis_eqb_refl in *. rewrite getc_setc_eq. lia.
    - rewrite (getc_setc_ne d a) by auto. revert Hi. axf. destruct (inactive_b c a); [lia|]. destruct (Hp a) as [-> | ->]; cbn; lia. }
  assert (V : forall v, v = 0 \/ v = 4 -> (0 < trace wi (c_p c) (Some s) d pos w v i)%R).
  { intros v Hv. pose proof (Y v 0 Hv ltac:(lia)) as Y0. pose proof (Y v 1 Hv ltac:(lia)) as Y1. pose proof (Y v (-1) Hv ltac:(lia)) as Y2.
    destruct (low_trace (c_p c) Hp s w d v i) as [TR TL]. rewrite up_0 in Y0.
    assert (B : (Rabs (tiltd (c_p c) s d (w v) i) <= 1/2)%R).
    { unfold tiltd. destruct (_ =? _); [|rewrite Rabs_R0; lra]. rewrite Rabs_mult, (Rabs_right (1/2)) by lra.
      match goal with |- (_ * Rabs (s ?a ?b) <= _)%R => pose proof (HS a b) as T; assert (Rmax (Rabs a) (Rabs b) <= 1)%R
       by (apply Rmax_lub; apply Rabs_le; lra) end. lra. }
    pose proof (Rle_abs (tiltd (c_p c) s d (w v) i)). pose proof (Rle_abs (- tiltd (c_p c) s d (w v) i)%R) as B2. rewrite Rabs_Ropp in B2.
    destruct Hpos as [-> | ->]; [rewrite TL|rewrite TR]; lra. }
  split; [apply (V 0); auto|apply Rlt_le, (V 4); auto].
Qed.
Lemma calm_physical : physical_traces wi wt c (filled c u).
Proof.
  intros d i pos A Z P. pose proof (calm_trace mean mean_tame d i pos A Z P) as H. unfold physical, rho, press in *.
  rewrite !(plain_trace (c_p c) Hp) by exact P. exact H.
Qed.
Lemma calm_low s : tame s -> physical_low_traces wi wt c (Some s) (filled c u).
Proof.
  intros HS d i pos A Z P. replace (low (c_p c)) with (c_p c); [apply calm_trace; assumption|].
  pose proof (Hp AX). pose proof (Hp AY). pose proof (Hp AZ). destruct (c_p c) as [x y z]. cbn in *. unfold low. cbn. f_equal; lia.
Qed.
End Calm.
(** one Euler step only evaluates the right-hand side at the initial state *)
Lemma checked_euler (ok : arr R -> bool) (c : config RNum) heap av exact db log fuel u : ok u = true ->
  simulate_checked (N := RNum) ok c heap I_euler av None (Some 1) exact db log fuel u = simulate c heap I_euler av None (Some 1) exact db log fuel u.
Proof.
  intro O. unfold simulate_checked, simulate, solver_integrate, integrate, integrate_n. change (Z.to_nat 1) with 1%nat. cbn [take_n stepper_of].
  destruct (snapshot _ _ _) as [o|] eqn:E; [|reflexivity].
  assert (U : o_u o = u) by (unfold snapshot in E; destruct (snap_payload _ _ _ _ _ _ _); [injection E as <-; reflexivity|discriminate]).
  clear E. rewrite <- U in O. destruct o as [?t ?u ?ts ?sn ?ax]. cbn [o_u] in *. cbn [bind].
  unfold take_step. cbn. unfold euler, checked. rewrite O. reflexivity.
Qed.
Lemma disc_example ty : copies ty -> let c := disc ty in
  tabulated c /\ closed c /\ known_options c /\ test_of_cells calm_b /\ fallback_slope c (Some (LimitM.minmod RNum)) /\
  (forall w, shp w = c_n c -> calm_b w = true -> physical_traces wi wt c (filled c w) /\ physical_low_traces wi wt c (Some (LimitM.minmod RNum)) (filled c w)) /\
  forall heap u, shp u = c_n c -> 2 <= rows u -> calm (7/5) u ->
    exists o, simulate_checked (N := RNum) calm_b c heap I_euler true None (Some 1) true [] false 0 u = Ok o.
Proof.
  intro HTy. cbv zeta. destruct (disc_ok ty HTy) as (T & C & O & F & GZ).
  assert (Hp : forall a, getc a (c_p (disc ty)) = 0 \/ getc a (c_p (disc ty)) = 1) by (intros []; cbn; lia).
  do 3 (split; [assumption|]). split; [exact calm_b_cells|]. split; [exists (LimitM.minmod RNum); split; reflexivity|]. split.
  - intros w Sw Ow. apply calm_b_spec in Ow. split; [apply calm_physical; auto|apply calm_low; auto using minmod_tame].
  - intros heap u Su Ru Cu. rewrite checked_euler by (apply calm_b_spec, Cu).
    assert (FI : fillable (N := RNum) (fun _ _ => 0%R) (disc ty) (rows u)) by (apply SymLimP.closed_fillable, C).
    assert (EX : forall c : config RNum, tabulated c -> fillable (N := RNum) (fun _ _ => 0%R) c (rows u) -> c_limit c = true -> known_options c -> c_convex c = false -> shp u = c_n c ->
      exists o, simulate c heap I_euler true None (Some 1) true [] false 0 u = Ok o).
    { intros c T' FI' L' O' F' S'.
      destruct (limited_runs_end RNum (fun _ _ => 0%R) c heap I_euler true 1 true [] false 0%nat u) as (o & E & _); auto; [apply flags_R|lia|]. exists o. exact E. }
    apply EX; auto.
Qed.
