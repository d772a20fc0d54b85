(** Runs in which the fall-back scheme is the scheme itself. *)
From Coq Require Import ZArith List Bool Lia Reals Lra.
From Verif Require Import Err Num PySlice NdArray HydroM RiemannM StencilsM FvM BcM SedM
  LimitM OdeM SolverM Spec SpecBc SpecLim SpecSolver SpecCons SpecScheme SpecSym SpecLimRhs NdArrayP FvP BcP BcQ OpP SolverP OdeP RelP RelS LimP RunP ConsP
  HydroP BroadP SedP DetectP ConvexP ExistP SchemeP SymP ShiftP WatchP UniformP MirrorP LimExistP SymLimP LimRhsP SpecQuiet QuietP.
Import ListNotations.
Local Open Scope Z_scope.

Section Same.
Context (wi : Z -> ipos -> list R) (wt : Z -> list R) (HW : tables wi wt).
Context (c : config RNum) (HT : tabulated c) (HL : c_limit c = true) (HK : known_options c) (HB : c_convex c = false \/ flat_box c).
Context (He : sed_on (c_nad c) = true -> (0 < sed_eps (c_nad c))%R).
Context (xc : axis -> Z -> R) (r : Z) (Hr : 2 <= r) (HA : fillable (N := RNum) xc c r) (slope : option (R -> R -> R)) (HS : fallback_slope c slope).
Context (ok : arr R -> bool) (Hok : test_of_cells ok)
  (HD : forall a, getc a (c_p c) <= 1) (HO : c_limiter c = L_none \/ forall a, getc a (c_p c) = 0).
Local Notation n := (c_n c).
Local Notation c0 := (unlimited c).
Lemma tab_un : tabulated c0. Proof. destruct HT as [[A B C D] P]. split; [split|]; assumption. Qed.
Lemma zones_un a : 0 <= getc a (ghost_zones3 c0) <= getc a (ghost_zones3 c).
Proof.
  rewrite !zones_get. unfold ghost_zones. change (inactive_b c0 a) with (inactive_b c a). destruct (inactive_b c a); [lia|].
  cbn [unlimited c_limit c_p]. rewrite HL. cbv zeta.
  assert (N1 : 0 <= half_up (getc a (c_p c))) by (apply (half_up_le 0), HT).
  assert (N2 : 0 <= half_up (top_degree (c_p c))).
  { apply (half_up_le 0). destruct HT as [[_ Sp _ _] _]. specialize (Sp AX). unfold top_degree. cbn [getc] in Sp. lia. }
  lia.
Qed.
Lemma fill_un : fillable (N := RNum) xc c0 r. Proof. apply (fillable_narrow xc c c0 r HT eq_refl eq_refl zones_un HA). Qed.
Local Notation E t w := (extended RNum xc (c_bc c) n t w).
Lemma same_flux d F : face_flux wi wt c (low (c_p c)) slope d F = face_flux wi wt c (c_p c) None d F.
Proof.
  assert (L : low (c_p c) = c_p c).
  { destruct HT as [[_ P _ _] _]. apply ix_ext. intro a. rewrite low_get. specialize (HD a). specialize (P a). lia. }
  rewrite L. destruct HO as [O|O].
  - unfold fallback_slope in HS. rewrite O in HS. subst slope. reflexivity.
  - destruct slope as [f|]; [|reflexivity]. unfold face_flux, trace. cbv zeta. rewrite (O d). reflexivity.
Qed.
Local Notation rel := (related RNum c c0 r (fun f => f)).
Lemma rel_E t u1 u2 : rel u1 u2 -> forall v i, in_padded n (ghost_zones3 c0) i -> E t u2 v i = E t u1 v i.
Proof.
  intros (R1 & R2 & S1 & S2 & V) v i Hi.
  apply (extended_agree RNum (fun _ => True) xc (c_bc c) (c_bc c) n (ghost_zones3 c0)); auto.
  - setoid_rewrite R1. setoid_rewrite R2. intros a pos. split; reflexivity || auto.
  - intro a. setoid_rewrite R2. apply fill_un.
  - intro a. apply zones_un.
Qed.
Lemma same_rhs heap heap' x1 x2 s t u1 u2 : limiting RNum c r x1 -> flux_arrays_ok RNum c0 r (x_flux x2) -> rel u1 u2 -> ok u1 = true ->
  exists x1' x2' dt k1 k2, solver_f RNum c heap x1 s t u1 = Ok (x1', (dt, k1)) /\ solver_f RNum c0 heap' x2 s t u2 = Ok (x2', (dt, k2)) /\
    (limiting RNum c r x1' /\ flux_arrays_ok RNum c0 r (x_flux x2')) /\ rel k1 k2.
Proof.
  intros A1 A2 H O. pose proof H as (R1 & R2 & S1 & S2 & V).
  assert (HA' : fillable (N := RNum) xc c (rows u1)) by (setoid_rewrite R1; exact HA).
  assert (AS : aux_shapes c (rows u1) x1) by (setoid_rewrite R1; exact A1).
  destruct (limited_rhs_closed wi wt HW c HT HL HK HB He xc heap x1 s t u1 slope HA' HS S1 ltac:(rewrite R1; exact Hr) AS)
    as (x1' & dt & k1 & theta & F1 & L1 & TS & RK & SK & SH & VK).
  assert (P2 : pads RNum c0 s u2 (E s u1)).
  { eapply pads_ext; [exact S2|apply pads_extended; [exact tab_un|setoid_rewrite R2; exact fill_un|exact S2]|]. intros v i Hi. exact (rel_E s u1 u2 H v i Hi). }
  destruct (hydrodynamics_is RNum c0 heap' x2 s u2 (E s u1)) as (x2' & dt2 & k2 & F2 & ED & RK2 & SK2 & VK2 & FO & _); auto.
  { apply tab_good, tab_un. } { setoid_rewrite R2. lia. } { apply sane_dims, tab_un. } { setoid_rewrite R2. exact A2. }
  { unfold padding. apply P2. apply width_main, tab_un. }
  assert (DT : dt2 = dt) by (apply (time_step_unique c (primitives wi wt (c_p c) (c_gamma c) (E s u1))); [|exact TS]; change (SpecScheme.time_step c0 (primitives wi wt (c_p c0) (c_gamma c0) (E s u1)) dt2); apply (gdt_is wi wt HW c0 tab_un), ED).
  subst dt2. exists x1', x2', dt, k1, k2. split; [exact F1|]. split; [exact F2|].
  rewrite R1 in *. rewrite R2 in *. split; [split; [exact L1|exact FO]|]. split; [exact RK|]. split; [exact RK2|]. split; [exact SK|]. split; [exact SK2|].
  intros v i Hi. rewrite (VK2 v i Hi), (VK v i Hi), (QuietP.balance_gd wi wt HW c0 _ tab_un).
  apply (balance_cell c). intros d Ad. destruct (faces_of c i d Hi) as (B1 & B2 & _ & _).
  unfold SpecScheme.blended. rewrite !(same_flux d). split; [|]; match goal with |- @eq _ ?x ?y => change (@eq R x y) end; change (c_p c0) with (c_p c); unfold face_flux; ring_simplify; reflexivity.
Qed.
Theorem same_outcome heap heap' i av T k exact db log fuel u : shp u = n -> rows u = r ->
  moved_outcome (N := RNum) (same_cells n) (simulate_checked (N := RNum) ok c heap i av T k exact db log fuel u)
    (simulate_checked (N := RNum) ok c0 heap' i av T k exact db log fuel u).
Proof.
  intros Su Ru.
  apply (gen_moved RNum c c0 heap heap' r HT tab_un (fun f => f)) with (ok1 := ok) (ok2 := ok)
      (E1 := fun t w => E t w) (E2 := fun t w => E t w) (W := fun f => f) (A1 := limiting RNum c r) (A2 := fun x => flux_arrays_ok RNum c0 r (x_flux x)).
    - intros f g H. exact H.
    - reflexivity.
    - reflexivity.
    - intros t w Rw Sw. apply pads_extended; [exact HT|setoid_rewrite Rw; exact HA|exact Sw].
    - intros t w Rw Sw. apply (pads_extended c0 tab_un); [setoid_rewrite Rw; exact fill_un|exact Sw].
    - intros u1 u2 (R1 & R2 & S1 & S2 & V). apply Hok; [exact (eq_trans R1 (eq_sym R2))|exact (eq_trans S1 (eq_sym S2))|]. intros v j Hj. symmetry. apply V. change (in_shape n j). rewrite <- S1. exact Hj.
    - intros t u1 u2 H v j Hj. apply rel_E; assumption.
    - reflexivity.
    - apply limiting_helper, HL.
    - intros x H. rewrite helper_flux. exact H.
    - apply limiting_init.
    - intro d. cbn. auto.
    - intros x1 x2 s t u1 u2 [A1 A2] H O. apply same_rhs; assumption.
    - split; [exact Ru|]. split; [exact Ru|]. split; [exact Su|]. split; [exact Su|]. reflexivity.
    - intros w1 w2 (R1 & R2 & S1 & S2 & V). split; [exact (eq_trans R1 (eq_sym R2))|]. split; [exact S1|]. split; [exact S2|]. intros v j _ Hj. symmetry. apply V, Hj.
Qed.
End Same.
Theorem same_fallback (c : config RNum) xc slope heap heap' i av T k exact db log fuel u :
  tabulated c -> c_limit c = true -> known_options c -> c_convex c = false \/ flat_box c -> fallback_slope c slope ->
  (forall a, getc a (c_p c) <= 1) -> c_limiter c = L_none \/ (forall a, getc a (c_p c) = 0) ->
  (sed_on (c_nad c) = true -> (0 < sed_eps (c_nad c))%R) -> fillable (N := RNum) xc c (rows u) -> shp u = c_n c -> 2 <= rows u ->
  moved_outcome (N := RNum) (same_cells (c_n c)) (simulate c heap i av T k exact db log fuel u) (simulate (unlimited c) heap' i av T k exact db log fuel u).
Proof.
  intros HT HL HK HB HS HD HO He HA Su Ru.
  exact (same_outcome (wts_i RNum) (wts_t RNum) tables_are c HT HL HK HB He xc (rows u) Ru HA slope HS (fun _ => true) (fun _ _ _ _ _ => eq_refl) HD HO heap heap' i av T k exact db log fuel u Su eq_refl).
Qed.
