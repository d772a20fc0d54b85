(** A wall at the upper end with the HLLC solver and slope limiting. *)
From Coq Require Import ZArith List Bool Lia Reals Lra.
From Verif Require Import Err Num PySlice NdArray HydroM RiemannM StencilsM FvM BcM SedM
  LimitM OdeM SolverM Spec SpecBc SpecLim SpecSolver SpecCons SpecScheme SpecSym SpecMirLim SpecFold SpecExtent SpecFoldUp
  NdArrayP FvP BcP BcQ OpP SolverP RiemannP HydroP SlopeP WallP ExistP SchemeP SymP SeamP ShiftP WatchP UniformP MirrorP MirLimP FoldP FoldLimP ExtentP FoldUpP FoldUpQ.
Import ListNotations.
Local Open Scope Z_scope.
Local Notation wi := (wts_i RNum).
Local Notation wt := (wts_t RNum).

Section Up.
Context (c : config RNum) (b' : bcond RNum) (d : axis).
Context (HT : tabulated c) (HC : closed c) (X : lower_at_both_ends d (c_bc c) b') (WU : bc_type (c_bc c) d SR = B_reflective)
  (NP : bc_type (c_bc c) d SL <> B_periodic) (HA : ~ inactive c d).
Notation b1 := (turned c d).
Notation c1 := (replace_bc c (turned c d)).
Local Notation n := (c_n c).
Local Notation m := (getc d n - 1).
Lemma physical_low_turned sl w : fair sl -> physical_low_traces wi wt c sl (filled c (image c d w)) -> physical_low_traces wi wt c1 sl (filled c1 w).
Proof.
  intros FS H a i pos NA Z P. rewrite (filled_turned c d HT). change (c_p c1) with (c_p c). change (c_gamma c1) with (c_gamma c).
  pose proof (degs_low c HT) as D. rewrite (low_is c HT) in D.
  rewrite (primitives_refl (low (c_p c)) D).
  assert (ZF : face_zone c a (setc d (m - getc d i) i)).
  { intro b. specialize (Z b). cbv zeta in Z |- *. change (inactive_b c1 b) with (inactive_b c b) in Z. change (c_p c1) with (c_p c) in Z. change (c_n c1) with n in Z.
    destruct (axis_dec d b) as [<-|E]; [rewrite getc_setc_eq; lia|rewrite (getc_setc_ne d b) by exact E; exact Z]. }
  destruct (axis_dec a d) as [E|NE].
  - rewrite E in *. rewrite (trace_refl_s (low (c_p c)) D sl FS d _ pos _ P). unfold refl. apply physical_sg. apply (H d _ (other_pos pos) NA ZF).
    destruct P as [-> | ->]; cbn; auto.
  - rewrite (trace_refl_other_s (low (c_p c)) D sl FS a d _ pos _ NE). unfold refl. apply physical_sg. exact (H a _ pos NA ZF P).
Qed.
Theorem up_limited_hllc xi xt ok sl heap heap' i av T k exact db log fuel u u' o : tables xi xt -> c_limit c = true -> known_options c ->
  (c_convex c = false \/ (flat_box c /\ flat_box (doubled_up d b' c))) -> c_rs c = RS_hllc ->
  (0 < c_csq_floor c)%R -> (1 <= c_gamma c)%R -> (c_force c = true \/ wall_fair d (c_nad c)) -> fallback_slope c sl -> test_of_cells ok ->
  (forall w, shp w = c_n c -> ok w = true -> (c_force c = true \/ physical_traces xi xt c (filled c w)) /\ physical_low_traces xi xt c sl (filled c w)) ->
  shp u = c_n c -> 2 <= rows u -> unfolded_up (N := RNum) d u u' ->
  simulate_checked (N := RNum) ok c heap i av T k exact db log fuel u = Ok o ->
  simulate c heap i av T k exact db log fuel u = Ok o /\
  exists o', simulate (doubled_up d b' c) heap' i av T k exact db log fuel u' = Ok o' /\ moved_run (N := RNum) (unfolded_up (N := RNum) d) o o'.
Proof.
  intros HW HL HK CV G1 G2 G3 W FB Hok Hph Su Ru U HS. split; [exact (unchecked RNum _ _ _ _ _ _ _ _ _ _ _ _ _ HS)|].
  pose proof (mirrored_exists d u) as M. match type of M with mirrored d u ?x => set (mu := x) in * end.
  destruct (slope_is c sl FB) as [SL0 LK]. symmetry in SL0.
  assert (C1 : closed c1) by (eapply turned_closed; eassumption). pose proof (turned_tab c d HT) as T1.
  pose proof (turned_upper c b' d X) as X1. assert (W1 : bc_type (c_bc c1) d SL = B_reflective) by (eapply turned_wall; eassumption).
  assert (Hph' : forall w, shp w = c_n c -> ok w = true -> (c_force c = true \/ physical_traces wi wt c (filled c w)) /\ physical_low_traces wi wt c (slope_of (c_limiter c)) (filled c w)).
  { intros w Sw O. destruct (Hph w Sw O) as [A B]. split; [destruct A as [A|A]; [left; exact A|right; exact (physical_tables xi xt HW c _ HT A)]|].
    apply (physical_low_tables xi xt HW c _ _ HT). rewrite <- SL0. exact B. }
  assert (CV1 : c_convex c = false \/ (flat_box c /\ flat_box c1)).
  { destruct CV as [CV|[F F']]; [left; exact CV|right]. split; [exact F|apply turned_flat, F]. }
  assert (CV2 : c_convex c1 = false \/ (flat_box c1 /\ flat_box (doubled d b' c1))).
  { destruct CV as [CV|[F F']]; [left; exact CV|right]. split; [apply turned_flat, F|exact F']. }
  assert (WM : c_force c = true \/ mirror_fair d (c_nad c)).
  { destruct W as [W|(Wa & Wb & Wc)]; [left; exact W|right]. split; [exact Wa|]. split; [|exact Wc]. destruct Wb as [[Wb _]|Wb]; [left|right]; exact Wb. }
  pose proof (mirror_limited_checked c b1 d HT HC C1 (turned_ends c d) HL HK ok Hok (or_intror (conj G1 (conj G2 (conj G3 Hph')))) CV1 WM
    heap heap i av T k exact db log fuel u mu Su Ru M) as Q1.
  set (ok1 := fun w : arr R => ok (image c d w)) in *.
  assert (H0 : forall w w' : arr R, shp w = n -> unfolded (N := RNum) d w w' -> ok1 (upper_half d n w') = ok1 w).
  { intros w w' Sw MW. destruct (upper_half_of d n w w' Sw (m_pos c d HT) MW) as [A B]. apply Hok; [exact A|symmetry; exact Sw|].
    intros v j Hj. cbn [image at_]. unfold refl. f_equal. apply B. apply flip_in; exact Hj. }
  assert (G' : forall w : arr R, shp w = c_n c1 -> ok1 w = true ->
    (c_force c1 = true \/ physical_traces wi wt c1 (filled c1 w)) /\ physical_low_traces wi wt c1 (slope_of (c_limiter c1)) (filled c1 w)).
  { intros w Sw O. destruct (Hph' (image c d w) Sw O) as [A B]. split; [destruct A as [A|A]; [left; exact A|right; apply physical_turned; assumption]|].
    apply physical_low_turned; [apply slope_fair, LK|exact B]. }
  pose proof (fold_limited_checked c1 b' d T1 C1 X1 W1 HA W HL HK ok1 (or_intror (conj G1 (conj G2 (conj G3 G')))) CV2
    (fun w => ok1 (upper_half d n w)) H0 heap heap' i av T k exact db log fuel mu u' Su Ru (unfold_mirror d u mu u' M U)) as Q2.
  pose proof (outcomes d _ _ _ Q1 Q2) as Q. rewrite HS in Q. revert Q.
  destruct (simulate_checked _ (doubled d b' c1) _ _ _ _ _ _ _ _ _ _) as [o'|] eqn:E; [|intros []].
  intro Q. exists o'. split; [|exact Q]. rewrite (same_place c b' d). exact (unchecked RNum _ _ _ _ _ _ _ _ _ _ _ _ _ E).
Qed.
End Up.
