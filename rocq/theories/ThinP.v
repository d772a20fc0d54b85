(** Data that do not vary along an axis: the run is the run with a single layer of cells. *)
From Coq Require Import ZArith List Bool Lia Reals Lra FunctionalExtensionality.
From Verif Require Import Err Num PySlice NdArray HydroM RiemannM StencilsM FvM BcM SedM
  LimitM OdeM SolverM Spec SpecBc SpecSolver SpecCons SpecScheme SpecSym SpecThin NdArrayP FvP BcP BcQ OpP SolverP OdeP RelP RelS LimP RunP ConsP
  RiemannP HydroP LoopP ExistP SchemeP SymP ShiftP WatchP UniformP MirrorP BoostP.
Import ListNotations.
Local Open Scope R_scope.

Local Notation wi := (wts_i RNum).
Local Notation wt := (wts_t RNum).
(** ** grids *)
Section Grid.
Context (e : axis).
Definition ext (f : grid) : grid := fun v i => f v (setc e 0%Z i).
(** a sum along an axis, left out along e *)
Definition lin (b : axis) (ws : list R) (f : grid) : grid := if axis_eqb b e then f else line b ws f.
Lemma setc_up b k i : b <> e -> setc e 0%Z (up b k i) = up b k (setc e 0%Z i).
Proof.
  intro NE. unfold up. apply ix_ext. intro a. destruct (axis_dec a e) as [->|N1].
  - rewrite getc_setc_eq, getc_setc_ne, getc_setc_eq by auto. reflexivity.
  - rewrite getc_setc_ne by auto. destruct (axis_dec a b) as [->|N2]; [rewrite !getc_setc_eq, getc_setc_ne by auto; reflexivity|].
    rewrite !getc_setc_ne by auto. reflexivity.
Qed.
Lemma setc_up_e k i : setc e 0%Z (up e k i) = setc e 0%Z i.
Proof. unfold up. apply ix_ext. intro a. destruct (axis_dec a e) as [->|N1]; [rewrite !getc_setc_eq|rewrite !getc_setc_ne by auto]; reflexivity. Qed.
Lemma line_ext b ws f : lsum ws = 1 -> line b ws (ext f) = ext (lin b ws f).
Proof.
  intro H. apply grid_eq. intros v i. unfold lin. destruct (axis_dec b e) as [->|NE].
  - rewrite axis_eqb_refl, line_w. transitivity (wsum RNum ws (fun _ => ext f v i)).
    + f_equal. extensionality k. unfold ext. rewrite setc_up_e. reflexivity.
    + rewrite wsum_const, H. apply Rmult_1_l.
  - rewrite (proj2 (axis_eqb_neq b e) NE). unfold ext. unfold line. f_equal. extensionality k. rewrite setc_up by exact NE. reflexivity.
Qed.
(** the weights of the thin configuration *)
Lemma line_thin b (w : Z -> list R) p f : w 0%Z = [1] -> line b (w (getc b (setc e 0%Z p))) f = lin b (w (getc b p)) f.
Proof.
  intro H. unfold lin. destruct (axis_dec b e) as [->|NE].
  - rewrite axis_eqb_refl, getc_setc_eq, H. apply line_1.
  - rewrite (proj2 (axis_eqb_neq b e) NE), getc_setc_ne by auto. reflexivity.
Qed.
Lemma block_ext (w : Z -> list R) p f : w 0%Z = [1] -> (forall b, lsum (w (getc b p)) = 1) ->
  block (fun b => w (getc b p)) (ext f) = ext (block (fun b => w (getc b (setc e 0%Z p))) f).
Proof. intros H S. unfold block. rewrite !line_ext by apply S. rewrite !line_thin by exact H. reflexivity. Qed.
Lemma across_ext d (w : Z -> list R) p f : w 0%Z = [1] -> (forall b, lsum (w (getc b p)) = 1) ->
  across d (fun b => w (getc b p)) (ext f) = ext (across d (fun b => w (getc b (setc e 0%Z p))) f).
Proof. intros H S. unfold across. destruct d; rewrite !line_ext by apply S; rewrite !line_thin by exact H; reflexivity. Qed.
End Grid.

Section Face.
Context (c : config RNum) (HT : tabulated c) (e : axis).
Local Notation c' := (thin e c).
Local Notation p := (c_p c).
Local Notation p' := (setc e 0%Z (c_p c)).
Lemma s_t b : lsum (wt (getc b p)) = 1. Proof. apply lsum_t, degs, HT. Qed.
Lemma s_i pos b : lr_pos pos -> lsum (wi (getc b p) pos) = 1. Proof. apply lsum_i, degs, HT. Qed.
Lemma w_i pos : lr_pos pos -> wi 0 pos = [1]. Proof. intro H. apply w0_i. unfold lr_pos in H. tauto. Qed.
Lemma prim_ext E : (fun v i => primitive (c_gamma c) (fun r => ext e E r i) v) = ext e (fun v i => primitive (c_gamma c) (fun r => E r i) v).
Proof. reflexivity. Qed.
Lemma primitives_ext E : primitives wi wt p (c_gamma c) (ext e E) = ext e (primitives wi wt p' (c_gamma c) E).
Proof.
  unfold primitives. cbv zeta. rewrite (block_ext e (fun d => wi d P_c)); [|apply w_i, lr_c|intro; apply s_i, lr_c].
  rewrite prim_ext. apply (block_ext e wt); [apply w0_t|apply s_t].
Qed.
Lemma trace_ext d pos w : lr_pos pos -> trace wi p None d pos (ext e w) = ext e (trace wi p' None d pos w).
Proof.
  intro H. unfold trace. cbv zeta. rewrite (across_ext e d (fun d => wi d P_c)); [|apply w_i, lr_c|intro; apply s_i, lr_c].
  rewrite line_ext by (apply s_i, H). rewrite <- (line_thin e d (fun d => wi d pos) p) by (apply w_i, H). reflexivity.
Qed.
Lemma flux_ext d E : exists G, face_flux wi wt c p None d (ext e E) = ext e G /\ (d <> e -> G = face_flux wi wt c' p' None d E).
Proof.
  unfold face_flux. cbv zeta. rewrite primitives_ext, !trace_ext by (unfold lr_pos; auto).
  cbn [thin c_gamma c_rs c_csq_floor]. set (w := primitives wi wt p' (c_gamma c) E).
  set (F := fun k : Z => (fun v i => numerical_flux (c_rs c) (c_gamma c) (c_csq_floor c) d
      (fun r => trace wi p' None d P_r w r (up d k i)) (fun r => trace wi p' None d P_l w r i) v) : grid).
  destruct (axis_dec d e) as [->|NE].
  - exists (across e (fun b => wt (getc b p')) (F 0%Z)). split; [|congruence].
    rewrite <- (across_ext e e wt); [|apply w0_t|apply s_t]. f_equal. apply grid_eq. intros v i. unfold ext, F. rewrite setc_up_e, up_0. reflexivity.
  - exists (across d (fun b => wt (getc b p')) (F (-1)%Z)). split; [|reflexivity].
    rewrite <- (across_ext e d wt); [|apply w0_t|apply s_t]. f_equal. apply grid_eq. intros v i. unfold ext, F. rewrite setc_up by exact NE. reflexivity.
Qed.
Lemma inactive_thin d : d <> e -> inactive_b c' d = inactive_b c d.
Proof. intro NE. unfold inactive_b. cbn [thin c_n c_p]. rewrite !getc_setc_ne by auto. reflexivity. Qed.
Lemma inactive_e : inactive_b c' e = true.
Proof. unfold inactive_b. cbn [thin c_n c_p]. rewrite !getc_setc_eq. reflexivity. Qed.
Lemma width_thin d : d <> e -> width c' d = width c d.
Proof. intro NE. unfold width. cbn [thin c_n c_bounds]. rewrite getc_setc_ne by auto. reflexivity. Qed.
Lemma balance_ext E v i : balance c (fun d => face_flux wi wt c p None d (ext e E)) v i
  = balance c' (fun d => face_flux wi wt c' p' None d E) v (setc e 0%Z i).
Proof.
  unfold balance. cbv zeta.
  assert (Q : forall d, (if inactive_b c d then 0 else (face_flux wi wt c p None d (ext e E) v (up d 1 i) - face_flux wi wt c p None d (ext e E) v i) / width c d)
    = (if inactive_b c' d then 0 else (face_flux wi wt c' p' None d E v (up d 1 (setc e 0%Z i)) - face_flux wi wt c' p' None d E v (setc e 0%Z i)) / width c' d)).
  { intro d. destruct (flux_ext d E) as (G & EG & HG). rewrite EG. unfold ext. destruct (axis_dec d e) as [->|NE].
    - rewrite inactive_e, setc_up_e. destruct (inactive_b c e); [reflexivity|]. unfold Rdiv. ring.
    - rewrite (HG NE), inactive_thin, width_thin, setc_up by exact NE. reflexivity. }
  rewrite !Q. reflexivity.
Qed.
End Face.

(** ** runs *)
Section Runs.
Context (c : config RNum) (HT : tabulated c) (HC : closed c) (HL : c_limit c = false) (e : axis).
Context (HA : exists a, a <> e /\ ~ inactive c a) (HW : forall pos, bc_type (c_bc c) e pos <> B_reflective).
Context (dt : R) (FD : c_fixed_dt c = Some dt).
Local Notation c' := (thin e c).
Local Notation n := (c_n c).
Lemma thin_tab : tabulated c'.
Proof.
  destruct HT as [[Sn Sp _ Pd] P8]. split; [split|].
  - intro a. cbn [thin c_n]. destruct (axis_dec a e) as [->|NE]; [rewrite getc_setc_eq; lia|rewrite getc_setc_ne by auto; apply Sn].
  - intro a. cbn [thin c_p]. destruct (axis_dec a e) as [->|NE]; [rewrite getc_setc_eq; lia|rewrite getc_setc_ne by auto; apply Sp].
  - destruct HA as (a & NE & Na). exists a. intros [I1 I2]. apply Na. cbn [thin c_n c_p] in I1, I2. rewrite getc_setc_ne in I1, I2 by auto. split; assumption.
  - exact Pd.
  - intro a. cbn [thin c_p]. destruct (axis_dec a e) as [->|NE]; [rewrite getc_setc_eq; lia|rewrite getc_setc_ne by auto; apply P8].
Qed.
Lemma half_up_mono x y : (x <= y)%Z -> (half_up x <= half_up y)%Z.
Proof. intro H. unfold half_up. apply Z.div_le_mono; lia. Qed.
Lemma zones_thin a : a <> e -> (0 <= getc a (ghost_zones3 c') <= getc a (ghost_zones3 c))%Z.
Proof.
  clear HL HW. intro NE. assert (G : forall k : config RNum, getc a (ghost_zones3 k) = ghost_zones k a) by (intro; destruct a; reflexivity). rewrite !G.
  unfold ghost_zones. rewrite inactive_thin by exact NE. destruct (inactive_b c a); [lia|]. cbv zeta. cbn [thin c_limit].
  assert (T : (top_degree (c_p c') <= top_degree (c_p c))%Z).
  { destruct HT as [[_ Sp _ _] _]. pose proof (Sp AX). pose proof (Sp AY). pose proof (Sp AZ). unfold top_degree. cbn [thin c_p getc] in *. destruct e; cbn [setc cx cy cz]; lia. }
  assert (P : getc a (c_p c') = getc a (c_p c)) by (cbn [thin c_p]; apply getc_setc_ne; auto). rewrite P.
  assert (N0 : (0 <= half_up (top_degree (c_p c')))%Z).
  { change 0%Z with (half_up 0). apply half_up_mono. destruct thin_tab as [[_ Sp _ _] _]. specialize (Sp AX). unfold top_degree. cbn [getc] in Sp. lia. }
  assert (N1 : (0 <= half_up (getc a (c_p c)))%Z).
  { change 0%Z with (half_up 0). apply half_up_mono. destruct HT as [[_ Sp _ _] _]. apply Sp. }
  pose proof (half_up_mono _ _ T). destruct (c_limit c); lia.
Qed.
Lemma thin_closed : closed c'.
Proof.
  intro a. destruct (axis_dec a e) as [->|NE].
  - left. assert (G : getc e (ghost_zones3 c') = ghost_zones c' e) by (destruct e; reflexivity). rewrite G. unfold ghost_zones. rewrite inactive_e. reflexivity.
  - pose proof (copy_axis_narrow RNum _ _ _ (ghost_zones3 c') a (HC a) (zones_thin a NE)) as K. unfold copy_axis in *. cbn [thin c_bc c_n].
    rewrite getc_setc_ne by auto. exact K.
Qed.
Lemma thin_gdt (E E' : grid) : gdt RNum c (c_p c) E = gdt RNum c' (c_p c') E'.
Proof.
  destruct (gdt_ok c HT E) as (d1 & G1), (gdt_ok c' thin_tab E') as (d2 & G2). rewrite G1, G2. f_equal.
  apply (gdt_is wi wt tables_are c HT) in G1. apply (gdt_is wi wt tables_are c' thin_tab) in G2. unfold time_step in *. cbn [thin c_fixed_dt] in G2. rewrite FD in *. congruence.
Qed.
Lemma filled_ext u u' v i : shp u' = n -> shp u = c_n c' -> (forall v i, in_shape n i -> at_ u' v i = ext e (at_ u) v i) ->
  in_padded n (ghost_zones3 c) i -> filled c u' v i = ext e (filled c' u) v i.
Proof.
  intros Su Su' H Hi. pose proof (ShiftP.folded_in RNum c HT HC i Hi) as FI. unfold filled, ext. cbv zeta. rewrite H by exact FI. unfold ext.
  cbn [thin c_bc c_n].
  assert (F : setc e 0%Z (folded3 (c_bc c) n i) = folded3 (c_bc c) (setc e 1%Z n) (setc e 0%Z i)).
  { apply ix_ext. intro a. rewrite (getc_folded3 RNum). destruct (axis_dec a e) as [->|NE].
    - rewrite !getc_setc_eq. symmetry. apply folded_inside. lia.
    - rewrite !getc_setc_ne by auto. apply (getc_folded3 RNum). }
  assert (Ng : negated3 (c_bc c) n i v = negated3 (c_bc c) (setc e 1%Z n) (setc e 0%Z i) v).
  { assert (Q : forall a, negated (bc_type (c_bc c) a SL) (bc_type (c_bc c) a SR) (getc a n) (getc a i)
      = negated (bc_type (c_bc c) a SL) (bc_type (c_bc c) a SR) (getc a (setc e 1%Z n)) (getc a (setc e 0%Z i))).
    { intro a. destruct (axis_dec a e) as [->|NE]; [|rewrite !getc_setc_ne by auto; reflexivity].
      rewrite !getc_setc_eq. rewrite (negated_inside _ _ 1 0) by lia. unfold negated.
      assert (NR : forall pos, is_reflective (bc_type (c_bc c) e pos) = false) by (intro pos; specialize (HW pos); destruct (bc_type (c_bc c) e pos); try reflexivity; congruence).
      rewrite !NR. destruct (_ <? _)%Z; [reflexivity|]. destruct (_ <=? _)%Z; reflexivity. }
    unfold negated3. cbv zeta. rewrite !Q. reflexivity. }
  rewrite F, Ng. reflexivity.
Qed.
Lemma centre_ext E v i : centre_prim c (ext e E) v i = centre_prim c' E v (setc e 0%Z i).
Proof.
  unfold centre_prim. cbn [thin c_gamma c_p]. rewrite (block_ext e (fun d => wi d P_c)); [|apply w_i, lr_c|intro; apply s_i; [assumption|apply lr_c]]. reflexivity.
Qed.
Theorem thin_runs heap heap' i av T k exact db log fuel u u' : shp u' = n -> (1 <= rows u)%Z -> extruded e u u' ->
  moved_outcome (N := RNum) (extruded e) (simulate c' heap i av T k exact db log fuel u) (simulate c heap' i av T k exact db log fuel u').
Proof.
  intros Su' Ru (R' & S' & V).
  assert (RE : related RNum c' c (rows u) (ext e) u u').
  { split; [reflexivity|]. split; [exact R'|]. split; [rewrite <- S', Su'; reflexivity|]. split; [exact Su'|].
    intros v j Hj. apply V. rewrite Su'. exact Hj. }
  assert (IN : forall j, in_shape n j -> in_shape (c_n c') (setc e 0%Z j)).
  { intros j Hj a. cbn [thin c_n]. specialize (Hj a). destruct (axis_dec a e) as [->|NE]; [rewrite !getc_setc_eq; lia|rewrite !getc_setc_ne by auto; exact Hj]. }
  apply (sym_moved RNum c' c heap heap' (rows u) thin_tab HT HL HL Ru (ext e)) with (ok1 := fun _ => true) (ok2 := fun _ => true)
      (E1 := fun _ w => filled c' w) (E2 := fun _ w => filled c w) (W := ext e).
  - intros f g H v j Hj. unfold ext. apply H, IN, Hj.
  - intros f g v j. reflexivity.
  - intros x f v j. reflexivity.
  - intros t w _ Sw. rewrite <- copied_filled. apply closed_pads; auto using thin_tab, thin_closed.
  - intros t w _ Sw. rewrite <- copied_filled. apply closed_pads; auto.
  - reflexivity.
  - intros t u1 u2 (R1 & R2 & S1 & S2 & V2) v j Hj. apply filled_ext; auto.
  - intros. apply thin_gdt.
  - intros t u1 u2 _ _ v j Hj. rewrite (gdudt_is c HT). refine (eq_trans (balance_ext c HT e _ v j) _). symmetry. apply (gdudt_is c' thin_tab).
  - intros t u1 u2 _ v j Hj. rewrite (gprim_is c HT). refine (eq_trans _ (eq_sym (gprim_is c' thin_tab av _ v (setc e 0%Z j)))).
    destruct av; [|apply centre_ext]. rewrite primitives_ext by exact HT. reflexivity.
  - exact RE.
  - intros w1 w2 (R1 & R2 & S1 & S2 & V2). split; [exact (eq_trans R2 (eq_sym R1))|]. split; [rewrite S1, S2; reflexivity|].
    intros v j Hj. refine (V2 v j _). rewrite <- S2. exact Hj.
Qed.
End Runs.
