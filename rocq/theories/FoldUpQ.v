(** A wall at the upper end with the HLLC solver. *)
From Coq Require Import ZArith List Bool Lia Reals Lra.
From Verif Require Import Err Num PySlice NdArray HydroM RiemannM StencilsM FvM BcM SedM
  LimitM OdeM SolverM Spec SpecBc SpecLim SpecSolver SpecCons SpecScheme SpecSym SpecMirLim SpecFold SpecExtent SpecFoldUp
  NdArrayP FvP BcP BcQ OpP SolverP RiemannP HydroP SlopeP WallP ExistP SchemeP SymP SeamP ShiftP WatchP UniformP MirrorP FoldP ExtentP FoldUpP.
Import ListNotations.
Local Open Scope Z_scope.
Local Notation wi := (wts_i RNum).
Local Notation wt := (wts_t RNum).

Section Up.
Context (c : config RNum) (b' : bcond RNum) (d : axis).
Context (HT : tabulated c) (HC : closed c) (X : lower_at_both_ends d (c_bc c) b') (WU : bc_type (c_bc c) d SR = B_reflective)
  (NP : bc_type (c_bc c) d SL <> B_periodic) (HA : ~ inactive c d).
Notation b1 := (turned c d).
Notation c1 := (replace_bc c (turned c d)).
Local Notation n := (c_n c).
Local Notation m := (getc d n - 1).
Lemma n_pos : 1 <= getc d n.
Proof. apply HT. Qed.
Lemma filled_turned w : filled c1 w = refl d (sg d) m (filled c (image c d w)).
Proof.
  apply grid_eq. intros v i. unfold filled, refl. cbn [replace_bc c_bc c_n].
  rewrite (negated3_x c b1 d (turned_ends c d) n_pos), (folded3_x c b1 d (turned_ends c d) n_pos). cbn [image at_]. unfold refl.
  set (j := folded3 _ _ _). unfold sg. destruct (negated3 _ _ _ _), (v =? vrow d); cbn [nmul nofZ RNum]; eqR; lra.
Qed.
Lemma physical_sg (w : state) : physical w -> physical (fun r => sg d r * w r)%R.
Proof. intro H. rewrite sg_is_mirror. unfold physical in *. rewrite o_rho, o_press. exact H. Qed.
Lemma physical_turned w : physical_traces wi wt c (filled c (image c d w)) -> physical_traces wi wt c1 (filled c1 w).
Proof.
  intros H a i pos NA Z P. rewrite filled_turned. change (c_p c1) with (c_p c). change (c_gamma c1) with (c_gamma c).
  rewrite (primitives_refl (c_p c) (degs c HT)).
  assert (ZF : face_zone c a (setc d (m - getc d i) i)).
  { intro b. specialize (Z b). cbv zeta in Z |- *. change (inactive_b c1 b) with (inactive_b c b) in Z. change (c_p c1) with (c_p c) in Z. change (c_n c1) with n in Z.
    destruct (axis_dec d b) as [<-|E]; [rewrite getc_setc_eq; lia|rewrite (getc_setc_ne d b) by exact E; exact Z]. }
  destruct (axis_dec a d) as [E|NE].
  - rewrite E in *. rewrite (trace_refl (c_p c) (degs c HT) d _ _ pos _ P). unfold refl. apply physical_sg. apply (H d _ (other_pos pos) NA ZF).
    destruct P as [-> | ->]; cbn; auto.
  - rewrite (trace_refl_other (c_p c) (degs c HT) a d _ _ pos _ NE). unfold refl. apply physical_sg. exact (H a _ pos NA ZF P).
Qed.
Theorem up_hllc xi xt ok heap heap' i av T k exact db log fuel u u' o : tables xi xt -> c_limit c = false -> c_rs c = RS_hllc ->
  (0 < c_csq_floor c)%R -> (1 <= c_gamma c)%R -> test_of_cells ok ->
  (forall w, shp w = c_n c -> ok w = true -> physical_traces xi xt c (filled c w)) ->
  shp u = c_n c -> 1 <= rows u -> unfolded_up (N := RNum) d u u' ->
  simulate_checked (N := RNum) ok c heap i av T k exact db log fuel u = Ok o ->
  simulate c heap i av T k exact db log fuel u = Ok o /\
  exists o', simulate (doubled_up d b' c) heap' i av T k exact db log fuel u' = Ok o' /\ moved_run (N := RNum) (unfolded_up (N := RNum) d) o o'.
Proof.
  intros HW HL G1 G2 G3 Hok Hph Su Ru U HS. split; [exact (unwatch ok c heap i av T k exact db log fuel u o HT HC HL Su Ru HS)|].
  pose proof (mirrored_exists d u) as M. match type of M with mirrored d u ?x => set (mu := x) in * end.
  assert (C1 : closed c1) by (eapply turned_closed; eassumption). pose proof (turned_tab c d HT) as T1.
  pose proof (turned_upper c b' d X) as X1. assert (W1 : bc_type (c_bc c1) d SL = B_reflective) by (eapply turned_wall; eassumption).
  assert (Hph' : forall w, shp w = c_n c -> ok w = true -> physical_traces wi wt c (filled c w)) by (intros w Sw O; exact (physical_tables xi xt HW c _ HT (Hph w Sw O))).
  pose proof (mirror_checked c b1 d HT HC C1 (turned_ends c d) HL ok Hok (or_intror (conj G1 (conj G2 (conj G3 Hph')))) heap heap i av T k exact db log fuel u mu Su Ru M) as Q1.
  set (ok1 := fun w : arr R => ok (image c d w)) in *.
  pose proof (fold_checked c1 b' d T1 C1 X1 W1 HA HL ok1 (or_intror (conj G1 (conj G2 (conj G3 (fun w Sw O => physical_turned w (Hph' (image c d w) Sw O))))))
    (fun w => ok1 (upper_half d n w))) as Q2.
  specialize (fun H => Q2 H heap heap' i av T k exact db log fuel mu u' Su Ru (unfold_mirror d u mu u' M U)).
  assert (H0 : forall w w' : arr R, shp w = n -> unfolded (N := RNum) d w w' -> ok1 (upper_half d n w') = ok1 w).
  { intros w w' Sw MW. destruct (upper_half_of d n w w' Sw (m_pos c d HT) MW) as [A B]. apply Hok; [exact A|symmetry; exact Sw|].
    intros v j Hj. cbn [image at_]. unfold refl. f_equal. apply B. apply flip_in; exact Hj. }
  specialize (Q2 H0). pose proof (outcomes d _ _ _ Q1 Q2) as Q. rewrite HS in Q. revert Q.
  destruct (simulate_checked _ (doubled d b' c1) _ _ _ _ _ _ _ _ _ _) as [o'|] eqn:E; [|intros []].
  intro Q. exists o'. split; [|exact Q]. rewrite (same_place c b' d).
  destruct U as (R' & S' & _). change (car RNum) with R in *.
  apply (unwatch _ (doubled d b' c1) _ _ _ _ _ _ _ _ _ _ _ (double_tab c1 b' d T1) (double_closed c1 b' d T1 C1 X1 W1 HA) HL) in E; auto.
  - exact (eq_trans S' (f_equal (fun s => setc d (2 * getc d s) s) Su)).
  - exact (eq_ind_r (fun z => 1 <= z) Ru R').
Qed.
End Up.
