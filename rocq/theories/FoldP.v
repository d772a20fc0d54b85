(** A reflecting wall is a plane of symmetry of a larger domain. *)
From Coq Require Import ZArith List Bool Lia Reals Lra FunctionalExtensionality.
From Verif Require Import Err Num PySlice NdArray HydroM RiemannM StencilsM FvM BcM SedM
  LimitM OdeM SolverM Spec SpecBc SpecSolver SpecCons SpecScheme SpecSym SpecFold NdArrayP FvP BcP BcQ OpP SolverP OdeP RelP RelS LimP RunP ConsP
  RiemannP HydroP SlopeP WallP ExistP SchemeP SymP SeamP ShiftP WatchP UniformP MirrorP BoostP.
Import ListNotations.
Local Open Scope Z_scope.

Local Notation wi := (wts_i RNum).
Local Notation wt := (wts_t RNum).
(** ** moved grids *)
Definition slide (d : axis) (k : Z) (f : grid) : grid := fun v i => f v (up d k i).
Lemma up_up a b x y i : up a x (up b y i) = up b y (up a x i).
Proof.
  apply ix_ext. intro e. unfold up. destruct (axis_dec a b) as [<-|NE]; [rewrite !getc_setc_eq, !setc_setc; destruct (axis_dec e a) as [->|N]; [rewrite !getc_setc_eq; lia|rewrite !getc_setc_ne by auto; reflexivity]|].
  rewrite (getc_setc_ne a b), (getc_setc_ne b a) by auto. rewrite setc_comm by auto. reflexivity.
Qed.
Lemma line_slide a ws d k f : line a ws (slide d k f) = slide d k (line a ws f).
Proof. apply grid_eq. intros v i. unfold slide, line. f_equal. extensionality x. rewrite up_up. reflexivity. Qed.
Lemma block_slide ws d k f : block ws (slide d k f) = slide d k (block ws f).
Proof. unfold block. rewrite !line_slide. reflexivity. Qed.
Lemma across_slide a ws d k f : across a ws (slide d k f) = slide d k (across a ws f).
Proof. unfold across. destruct a; rewrite !line_slide; reflexivity. Qed.
Lemma primitives_slide p g d k f : primitives wi wt p g (slide d k f) = slide d k (primitives wi wt p g f).
Proof. unfold primitives. cbv zeta. rewrite block_slide. exact (block_slide _ d k (fun v i => primitive g (fun r => block (fun a => wi (getc a p) P_c) f r i) v)). Qed.
Lemma trace_slide p a pos d k w : trace wi p None a pos (slide d k w) = slide d k (trace wi p None a pos w).
Proof. unfold trace. cbv zeta. rewrite across_slide, line_slide. reflexivity. Qed.
Lemma flux_slide c p a d k E : face_flux wi wt c p None a (slide d k E) = slide d k (face_flux wi wt c p None a E).
Proof.
  unfold face_flux. cbv zeta. rewrite primitives_slide, !trace_slide, <- across_slide. f_equal. apply grid_eq. intros v i. unfold slide. rewrite up_up. reflexivity.
Qed.

(** ** grids continued symmetrically *)
Section Sym.
Context (d : axis).
Definition even (f : grid) : grid := fun v i => if 0 <=? getc d i then f v i else (sg d v * f v (setc d (-1 - getc d i) i))%R.
Lemma even_refl f : refl d (sg d) (-1) (even f) = even f.
Proof.
  apply grid_eq. intros v i. unfold refl, even. rewrite getc_setc_eq, setc_setc.
  destruct (Z.leb_spec 0 (getc d i)), (Z.leb_spec 0 (-1 - getc d i)); try lia.
  - replace (-1 - (-1 - getc d i)) with (getc d i) by lia. rewrite setc_getc, <- Rmult_assoc, sg_sg. apply Rmult_1_l.
  - reflexivity.
Qed.
Lemma even_of f : refl d (sg d) (-1) f = f -> even f = f.
Proof.
  intro H. apply grid_eq. intros v i. unfold even. destruct (_ <=? _); [reflexivity|].
  exact (f_equal (fun g : grid => g v i) H).
Qed.
Lemma even_ext f g v i : (forall v j, 0 <= getc d j -> (forall a, a <> d -> getc a j = getc a i) -> getc d j = getc d i \/ getc d j = -1 - getc d i -> f v j = g v j) -> even f v i = even g v i.
Proof.
  intro H. unfold even. destruct (Z.leb_spec 0 (getc d i)).
  - apply H; auto.
  - f_equal. apply H.
    + rewrite getc_setc_eq. lia.
    + intros a NE. apply getc_setc_ne. auto.
    + rewrite getc_setc_eq. auto.
Qed.
End Sym.
Lemma negated_pair d v (fi fj : axis -> bool) : fj d = false -> fi d = true -> (forall a, a <> d -> fj a = fi a) ->
  ((v =? vrow AX) && fi AX || (v =? vrow AY) && fi AY || (v =? vrow AZ) && fi AZ)%bool
  = if v =? comp d then negb ((v =? vrow AX) && fj AX || (v =? vrow AY) && fj AY || (v =? vrow AZ) && fj AZ)
    else ((v =? vrow AX) && fj AX || (v =? vrow AY) && fj AY || (v =? vrow AZ) && fj AZ)%bool.
Proof.
  intros Hj Hi H. destruct d.
  - rewrite Hj, Hi, (H AY), (H AZ) by discriminate. cbn [comp vrow]. destruct (Z.eqb_spec v 1), (Z.eqb_spec v 2), (Z.eqb_spec v 3); try lia; cbn [andb orb negb]; reflexivity.
  - rewrite Hj, Hi, (H AX), (H AZ) by discriminate. cbn [comp vrow]. destruct (Z.eqb_spec v 1), (Z.eqb_spec v 2), (Z.eqb_spec v 3); try lia; cbn [andb orb negb]; reflexivity.
  - rewrite Hj, Hi, (H AX), (H AY) by discriminate. cbn [comp vrow]. destruct (Z.eqb_spec v 1), (Z.eqb_spec v 2), (Z.eqb_spec v 3); try lia; cbn [andb orb negb]; reflexivity.
Qed.
Section Runs.
Context (c : config RNum) (b' : bcond RNum) (d : axis) (HT : tabulated c) (HC : closed c)
  (X : upper_at_both_ends d (c_bc c) b') (WL : bc_type (c_bc c) d SL = B_reflective) (HA : ~ inactive c d) (HL : c_limit c = false).
Local Notation n := (c_n c).
Local Notation m := (getc d (c_n c)).
Local Notation c' := (doubled d b' c).
Local Notation n' := (setc d (2 * getc d (c_n c)) (c_n c)).
Lemma m_pos : 1 <= m. Proof. apply HT. Qed.
Lemma inactive_double a : inactive_b c' a = inactive_b c a.
Proof.
  unfold inactive_b. cbn [doubled c_n c_p]. destruct (axis_dec a d) as [->|NE]; [|rewrite getc_setc_ne by auto; reflexivity].
  rewrite getc_setc_eq. pose proof m_pos. assert (I : inactive_b c d = false).
  { apply not_true_is_false. intro I. apply HA. unfold inactive_b in I. apply andb_prop in I. destruct I as [I1 I2]. apply Z.eqb_eq in I1, I2. split; assumption. }
  unfold inactive_b in I. rewrite I. destruct (Z.eqb_spec (2 * m) 1); [lia|reflexivity].
Qed.
Lemma double_tab : tabulated c'.
Proof.
  destruct HT as [[Sn Sp Sa Pd] P8]. split; [split|].
  - intro a. cbn [doubled c_n]. destruct (axis_dec a d) as [->|NE]; [rewrite getc_setc_eq; pose proof m_pos; lia|rewrite getc_setc_ne by auto; apply Sn].
  - exact Sp.
  - exists d. intros [I1 I2]. cbn [doubled c_n] in I1. rewrite getc_setc_eq in I1. lia.
  - exact Pd.
  - exact P8.
Qed.
Lemma zones_double a : getc a (ghost_zones3 c') = getc a (ghost_zones3 c).
Proof.
  assert (G : forall k : config RNum, getc a (ghost_zones3 k) = ghost_zones k a) by (intro; destruct a; reflexivity). rewrite !G.
  unfold ghost_zones. rewrite inactive_double. reflexivity.
Qed.
Lemma zone_pos : 1 <= getc d (ghost_zones3 c).
Proof.
  pose proof (width_main RNum c HT d) as W. unfold solver_width in W. rewrite getc_prim_width, getc_active_width in W.
  rewrite (proj2 (active_spec RNum c d) HA) in W. pose proof (ghost_width_pos (c_p c) (degs c HT)). pose proof (sr_pos _ (degs c HT d)). unfold interp_cost in W. lia.
Qed.
Lemma upper_end : (copies (bc_type (c_bc c) d SR) /\ enough (bc_type (c_bc c) d SR) m (getc d (ghost_zones3 c))) /\
  bc_type (c_bc c) d SR <> B_periodic /\ getc d (ghost_zones3 c) <= m.
Proof.
  pose proof zone_pos. destruct (HC d) as [Z0|[K P]]; [lia|]. split; [apply K|]. split.
  - intro E. apply P in E. congruence.
  - destruct (K SL) as [_ E]. rewrite WL in E. exact E.
Qed.
Lemma x_end pos : bc_type b' d pos = bc_type (c_bc c) d SR. Proof. rewrite X, axis_eqb_refl. reflexivity. Qed.
Lemma x_rest a pos : a <> d -> bc_type b' a pos = bc_type (c_bc c) a pos. Proof. intro NE. rewrite X. axf. reflexivity. Qed.
Lemma double_closed : closed c'.
Proof.
  intro a. unfold copy_axis. rewrite zones_double. cbn [doubled c_bc c_n]. destruct (axis_dec a d) as [->|NE].
  - right. destruct upper_end as ((K1 & K2) & NP & GM). rewrite getc_setc_eq. split; [|rewrite !x_end; auto]. intro pos. rewrite x_end. split; [exact K1|].
    pose proof m_pos. destruct (bc_type (c_bc c) d SR); cbn [enough] in *; lia.
  - rewrite getc_setc_ne, !x_rest by auto. destruct (HC a) as [Z0|[K P]]; [left; exact Z0|right]. split; [|exact P]. intro pos. rewrite x_rest by auto. apply K.
Qed.
Lemma width_double a : width c' a = width c a.
Proof.
  unfold width. cbn [doubled c_n c_bounds]. destruct (axis_dec a d) as [->|NE].
  - rewrite axis_eqb_refl, getc_setc_eq, mult_IZR. cbn [fst snd]. cbn [nsub nmul nofZ RNum]. assert (H : IZR m <> 0%R) by (apply not_0_IZR; pose proof m_pos; lia). eqR. field. exact H.
  - axf. rewrite getc_setc_ne by auto. reflexivity.
Qed.
(** ** ghost cells *)
Local Notation back i := (up d (- m) i).
Definition unfolding (f : grid) : grid := slide d (- m) (even d f).
Lemma folded_upper tr k : (tr = B_free \/ tr = B_outflow \/ tr = B_reflective) -> 0 <= k ->
  folded tr tr (2 * m) (k + m) = folded B_reflective tr m k + m /\ negated tr tr (2 * m) (k + m) = negated B_reflective tr m k.
Proof.
  intros H K. pose proof m_pos. unfold folded, negated. destruct H as [-> |[-> | ->]]; cbn [source is_reflective]; repeat destr_if; zb; split; try reflexivity; lia.
Qed.
Lemma folded_lower tr k : (tr = B_free \/ tr = B_outflow \/ tr = B_reflective) -> k < 0 ->
  folded tr tr (2 * m) (k + m) = m - 1 - folded B_reflective tr m (-1 - k) /\ negated tr tr (2 * m) (k + m) = negated B_reflective tr m (-1 - k).
Proof.
  intros H K. pose proof m_pos. unfold folded, negated. destruct H as [-> |[-> | ->]]; cbn [source is_reflective]; repeat destr_if; zb; split; try reflexivity; lia.
Qed.
Lemma upper_kind : let tr := bc_type (c_bc c) d SR in tr = B_free \/ tr = B_outflow \/ tr = B_reflective.
Proof. destruct upper_end as ((K1 & _) & NP & _). cbv zeta. destruct (bc_type (c_bc c) d SR); cbn in K1; try contradiction; auto. Qed.
Lemma ghosts u u' v i : shp u = n -> (forall v i, in_shape n' i -> at_ u' v i = unfolding (at_ u) v i) -> in_padded n' (ghost_zones3 c') i ->
  filled c' u' v i = unfolding (filled c u) v i.
Proof.
  intros Su V Hi. pose proof (ShiftP.folded_in RNum c' double_tab double_closed i Hi) as FI. unfold filled at 1. cbv zeta. cbn [doubled c_bc c_n] in *. rewrite V by exact FI.
  assert (Ha : forall a, a <> d -> folded (bc_type b' a SL) (bc_type b' a SR) (getc a n') (getc a i) = folded (bc_type (c_bc c) a SL) (bc_type (c_bc c) a SR) (getc a n) (getc a i)
     /\ negated (bc_type b' a SL) (bc_type b' a SR) (getc a n') (getc a i) = negated (bc_type (c_bc c) a SL) (bc_type (c_bc c) a SR) (getc a n) (getc a i)).
  { intros a NE. rewrite !x_rest, getc_setc_ne by auto. auto. }
  pose proof upper_kind as UK. cbv zeta in UK. pose proof m_pos.
  set (k := getc d i - m). assert (Ek : getc d i = k + m) by (unfold k; lia).
  assert (Bk : getc d (back i) = k) by (unfold up; rewrite getc_setc_eq; unfold k; lia).
  assert (Ba : forall a, a <> d -> getc a (back i) = getc a i) by (intros a NE; unfold up; apply getc_setc_ne; auto).
  unfold unfolding, slide, even. rewrite Bk.
  assert (Ng : forall j, (forall a, a <> d -> getc a j = getc a i) -> negated B_reflective (bc_type (c_bc c) d SR) m (getc d j) = negated (bc_type b' d SL) (bc_type b' d SR) (getc d n') (getc d i) ->
     negated3 b' n' i v = negated3 (c_bc c) n j v).
  { intros j Ja Jd. rewrite <- WL in Jd. assert (Q : forall a, negated (bc_type b' a SL) (bc_type b' a SR) (getc a n') (getc a i) = negated (bc_type (c_bc c) a SL) (bc_type (c_bc c) a SR) (getc a n) (getc a j)).
    { intro a. destruct (axis_dec a d) as [->|NE]; [symmetry; exact Jd|]. rewrite (proj2 (Ha a NE)), Ja by exact NE. reflexivity. }
    unfold negated3. cbv zeta. rewrite !Q. reflexivity. }
  destruct (Z.leb_spec 0 k) as [K|K].
  - destruct (folded_upper _ k UK K) as [F1 F2].
    assert (FF : back (folded3 b' n' i) = folded3 (c_bc c) n (back i)).
    { apply ix_ext. intro a. destruct (axis_dec a d) as [->|NE].
      - unfold up at 1. rewrite getc_setc_eq, !(getc_folded3 RNum), Bk, !x_end, getc_setc_eq, Ek, F1, WL. lia.
      - unfold up at 1. rewrite getc_setc_ne by auto. rewrite !(getc_folded3 RNum), Ba by auto. apply (Ha a NE). }
    rewrite FF. assert (IN : 0 <= getc d (folded3 (c_bc c) n (back i))).
    { rewrite <- FF. unfold up. rewrite getc_setc_eq, (getc_folded3 RNum), !x_end, getc_setc_eq, Ek, F1. 
      assert (0 <= folded B_reflective (bc_type (c_bc c) d SR) m k); [|lia]. specialize (Hi d). rewrite getc_setc_eq, zones_double in Hi. destruct upper_end as (_ & _ & GM).
      clear - Hi GM K UK Ek H. unfold folded. destruct UK as [-> |[-> | ->]]; cbn [source]; repeat destr_if; zb; lia. }
    rewrite (proj2 (Z.leb_le _ _) IN). unfold filled. cbv zeta. rewrite (Ng (back i)); auto. rewrite Bk, !x_end, getc_setc_eq, Ek. symmetry. exact F2.
  - destruct (folded_lower _ k UK K) as [F1 F2]. set (j := setc d (-1 - k) (back i)).
    assert (Jd : getc d j = -1 - k) by (unfold j; apply getc_setc_eq).
    assert (Ja : forall a, a <> d -> getc a j = getc a i) by (intros a NE; unfold j; rewrite getc_setc_ne by auto; apply Ba, NE).
    assert (IN : 0 <= folded B_reflective (bc_type (c_bc c) d SR) m (-1 - k)).
    { specialize (Hi d). rewrite getc_setc_eq, zones_double in Hi. destruct upper_end as (_ & _ & GM).
      clear - Hi GM K UK Ek H. unfold folded. destruct UK as [-> |[-> | ->]]; cbn [source]; repeat destr_if; zb; lia. }
    assert (GF : getc d (back (folded3 b' n' i)) = -1 - folded B_reflective (bc_type (c_bc c) d SR) m (-1 - k)).
    { unfold up. rewrite getc_setc_eq, (getc_folded3 RNum), !x_end, getc_setc_eq, Ek, F1. lia. }
    assert (FF : setc d (-1 - getc d (back (folded3 b' n' i))) (back (folded3 b' n' i)) = folded3 (c_bc c) n j).
    { apply ix_ext. intro a. destruct (axis_dec a d) as [->|NE].
      - rewrite getc_setc_eq, GF, (getc_folded3 RNum), WL, Jd. lia.
      - rewrite getc_setc_ne by auto. unfold up. rewrite getc_setc_ne by auto. rewrite !(getc_folded3 RNum), Ja by auto. apply (Ha a NE). }
    rewrite FF, GF. destruct (Z.leb_spec 0 (-1 - folded B_reflective (bc_type (c_bc c) d SR) m (-1 - k))); [lia|].
    unfold filled. cbv zeta. rewrite (Ng j); auto; [|rewrite Jd, !x_end, getc_setc_eq, Ek; symmetry; exact F2]. destruct (negated3 (c_bc c) n j v); ring.
Qed.
(** ** rates of change, time steps and snapshots *)
Context (ok : arr R -> bool).
Context (G : c_rs c = RS_llf \/ (c_rs c = RS_hllc /\ (0 < c_csq_floor c)%R /\ (1 <= c_gamma c)%R /\
  forall u, shp u = n -> ok u = true -> physical_traces wi wt c (filled c u))).
Local Notation sr a := (stencil_right (getc a (c_p c))).
Lemma looks_prims : looks (primitives wi wt (c_p c) (c_gamma c)) (fun b => 2 * sr b) (fun b => 2 * sr b).
Proof.
  intros f g v i H. unfold primitives. cbv zeta. apply (looks_block c _ (fun b => wt_len _ (degs c HT b))). intros w j Hj.
  f_equal. extensionality r. apply (looks_block c _ (fun b => wi_len _ P_c (degs c HT b) lr_c)). intros x q Hq. apply H.
  intro b. specialize (Hj b). specialize (Hq b). cbv beta in *. lia.
Qed.
Lemma looks_traces d0 pos : lr_pos pos -> looks (fun E => trace wi (c_p c) None d0 pos (primitives wi wt (c_p c) (c_gamma c) E)) (fun b => 3 * sr b) (fun b => 3 * sr b).
Proof.
  intro H. eapply looks_le; [exact (looks_comp _ _ _ _ _ _ (looks_trace c HT d0 pos H) looks_prims)| |]; intro b; cbv beta; lia.
Qed.
Lemma face_reach d0 i j : face_zone c d0 i -> ~ inactive c d0 -> seen_in (fun b => 3 * sr b) (fun b => 3 * sr b) i j -> in_padded n (ghost_zones3 c) j.
Proof.
  intros Z A S a. specialize (Z a). specialize (S a). cbv beta zeta in *. pose proof (degs c HT) as D.
  pose proof (width_main RNum c HT a) as W. unfold solver_width in W. rewrite getc_prim_width, getc_active_width, active_inactive in W. unfold interp_cost in W.
  pose proof (sr_pos _ (D a)) as S0. rewrite half_up_sr in Z.
  destruct (inactive_b c a) eqn:I; cbn [negb] in W.
  - pose proof (proj2 (proj2 (tab_good RNum c HT a)) ltac:(rewrite active_inactive, I; reflexivity)) as P0. rewrite P0 in *. cbn in *. lia.
  - assert (GW : sr a + 1 <= ghost_width (c_p c) /\ 2 * sr a <= ghost_width (c_p c)) by apply (ghost_width_ge (c_p c) a D). destruct (axis_eqb a d0); lia.
Qed.
Lemma even_filled u v i : shp u = n -> in_padded n (ghost_zones3 c) i -> even d (filled c u) v i = filled c u v i.
Proof.
  intros Su Hi. unfold even. destruct (Z.leb_spec 0 (getc d i)) as [|K]; [reflexivity|]. unfold filled. cbv zeta.
  set (j := setc d (-1 - getc d i) i). pose proof (Hi d) as Hd. destruct upper_end as (_ & _ & GM).
  assert (Jd : getc d j = -1 - getc d i) by (unfold j; apply getc_setc_eq).
  assert (Ja : forall a, a <> d -> getc a j = getc a i) by (intros a NE; unfold j; apply getc_setc_ne; auto).
  assert (F : folded3 (c_bc c) n j = folded3 (c_bc c) n i).
  { apply ix_ext. intro a. rewrite !(getc_folded3 RNum). destruct (axis_dec a d) as [->|NE]; [|rewrite Ja by exact NE; reflexivity].
    rewrite Jd, folded_inside by lia. unfold folded. rewrite (proj2 (Z.ltb_lt _ _) K), WL. reflexivity. }
  rewrite F. assert (NG : negated3 (c_bc c) n i v = if v =? comp d then negb (negated3 (c_bc c) n j v) else negated3 (c_bc c) n j v).
  { assert (Q : forall a, a <> d -> negated (bc_type (c_bc c) a SL) (bc_type (c_bc c) a SR) (getc a n) (getc a j) = negated (bc_type (c_bc c) a SL) (bc_type (c_bc c) a SR) (getc a n) (getc a i))
      by (intros a NE; rewrite Ja by exact NE; reflexivity).
    assert (Q1 : negated (bc_type (c_bc c) d SL) (bc_type (c_bc c) d SR) m (getc d j) = false) by (rewrite Jd; apply negated_inside; lia).
    assert (Q2 : negated (bc_type (c_bc c) d SL) (bc_type (c_bc c) d SR) m (getc d i) = true) by (unfold negated; rewrite (proj2 (Z.ltb_lt _ _) K), WL; reflexivity).
    unfold negated3. cbv zeta. exact (negated_pair d v (fun a => negated (bc_type (c_bc c) a SL) (bc_type (c_bc c) a SR) (getc a n) (getc a i)) (fun a => negated (bc_type (c_bc c) a SL) (bc_type (c_bc c) a SR) (getc a n) (getc a j)) Q1 Q2 Q). }
  rewrite NG. unfold sg. change (vrow d) with (comp d). destruct (v =? comp d); destruct (negated3 (c_bc c) n j v); cbn [negb]; ring.
Qed.
Lemma traces_even u d0 pos r i : shp u = n -> ~ inactive c d0 -> face_zone c d0 i -> lr_pos pos ->
  trace wi (c_p c) None d0 pos (primitives wi wt (c_p c) (c_gamma c) (even d (filled c u))) r i
  = trace wi (c_p c) None d0 pos (primitives wi wt (c_p c) (c_gamma c) (filled c u)) r i.
Proof.
  intros Su A Z P. apply (looks_traces d0 pos P). intros w j Hj. apply even_filled; [exact Su|]. exact (face_reach d0 i j Z A Hj).
Qed.
Lemma balance_slide E v i : balance c' (fun a => face_flux wi wt c' (c_p c') None a (slide d (- m) E)) v i = balance c (fun a => face_flux wi wt c (c_p c) None a E) v (back i).
Proof.
  unfold balance. cbv zeta. assert (Q : forall a, face_flux wi wt c' (c_p c') None a (slide d (- m) E) = slide d (- m) (face_flux wi wt c (c_p c) None a E)).
  { intro a. exact (flux_slide c (c_p c) a d (- m) E). }
  rewrite !Q, !inactive_double, !width_double. unfold slide. rewrite !(up_up d). reflexivity.
Qed.
Lemma rate_even u v i : shp u = n -> ok u = true -> in_shape n' i ->
  gdudt RNum c' (c_p c') L_none (slide d (- m) (even d (filled c u))) v i = unfolding (gdudt RNum c (c_p c) L_none (even d (filled c u))) v i.
Proof.
  intros Su O Hi. rewrite (gdudt_is c' double_tab). refine (eq_trans (balance_slide _ v i) _). unfold unfolding, slide, even at 2.
  destruct (Z.leb_spec 0 (getc d (back i))) as [K|K]; [symmetry; apply (gdudt_is c HT)|].
  rewrite (gdudt_is c HT). set (E := even d (filled c u)).
  transitivity (balance c (fun a => face_flux wi wt c (c_p c) None a (refl d (sg d) (-1) E)) v (back i)); [unfold E; rewrite even_refl; reflexivity|].
  apply (balance_refl_at c HT d (-1) E v (back i)). intros _ k Hk j J1 J2. destruct G as [G1|(G1 & G2 & G3 & G4)]; [left; exact G1|right].
  specialize (G4 u Su O). set (q := setc d (-1 + 1 - getc d j) j).
  assert (Qd : getc d q = - getc d j) by (unfold q; rewrite getc_setc_eq; lia).
  assert (Qa : forall a, a <> d -> getc a q = getc a j) by (intros a NE; unfold q; apply getc_setc_ne; auto).
  assert (BD : getc d (back i) = getc d i - m) by (unfold up; rewrite getc_setc_eq; lia).
  assert (BA : forall a, a <> d -> getc a (back i) = getc a i) by (intros a NE; unfold up; apply getc_setc_ne; auto).
  assert (ID : inactive_b c d = false) by (pose proof (proj2 (active_spec RNum c d) HA) as A; rewrite active_inactive in A; apply negb_true_iff in A; exact A).
  assert (Z1 : face_zone c d q /\ face_zone c d (up d (-1) q)).
  { assert (Z0 : forall a, a <> d -> - (if inactive_b c a then 0 else half_up (getc a (c_p c))) <= getc a j < getc a n + (if inactive_b c a then 0 else half_up (getc a (c_p c)))).
    { intros a Na. specialize (J2 a Na). rewrite BA in J2 by exact Na. specialize (Hi a). rewrite getc_setc_ne in Hi by auto. rewrite half_up_sr. destruct (inactive_b c a) eqn:I; [|lia].
      pose proof (proj2 (proj2 (tab_good RNum c HT a)) ltac:(rewrite active_inactive, I; reflexivity)) as P0. rewrite P0 in J2. cbn in J2. lia. }
    specialize (Hi d). rewrite getc_setc_eq in Hi. split; intro a; cbv zeta; (destruct (axis_dec a d) as [->|E0]; [rewrite ID, axis_eqb_refl; unfold up; rewrite ?getc_setc_eq, Qd; destruct Hk; lia|]);
      axf; unfold up; rewrite ?getc_setc_ne by auto; rewrite Qa by exact E0; apply Z0, E0. }
  destruct Z1 as [Za Zb]. split; [exact G1|]. split; [exact G2|]. split; [exact G3|].
  destruct (G4 d (up d (-1) q) P_r HA Zb (or_intror eq_refl)) as [A1 A2]. destruct (G4 d q P_l HA Za (or_introl eq_refl)) as [B1 B2].
  unfold E. split; split; unfold rho, press in *; rewrite traces_even; auto; unfold lr_pos; auto.
Qed.
Lemma dt_even u : gdt RNum c' (c_p c') (slide d (- m) (even d (filled c u))) = gdt RNum c (c_p c) (even d (filled c u)).
Proof.
  pose proof m_pos as MP. set (E := even d (filled c u)).
  assert (SP : forall w, signal_speed c' w = signal_speed c w) by (intro w; unfold signal_speed; rewrite !inactive_double; reflexivity).
  assert (ID : inactive_b c d = false) by (pose proof (proj2 (active_spec RNum c d) HA) as A; rewrite active_inactive in A; apply negb_true_iff in A; exact A).
  assert (Q0 : 0 <= half_up (top_degree (c_p c))).
  { rewrite half_up_sr. apply stencil_right_nonneg. destruct HT as [[_ Sp _ _] _]. specialize (Sp AX). unfold top_degree. cbn [getc] in Sp. lia. }
  apply gdt_same; auto using double_tab.
  - rewrite !width_double. reflexivity.
  - intros i Hi. exists (up d m i). split.
    + intro a. specialize (Hi a). cbv zeta in *. rewrite inactive_double. cbn [doubled c_p c_n]. destruct (axis_dec a d) as [->|NE].
      * unfold up. rewrite !getc_setc_eq, ID in *. lia.
      * unfold up. rewrite !getc_setc_ne by auto. exact Hi.
    + rewrite SP. change (c_p c') with (c_p c). change (c_gamma c') with (c_gamma c). rewrite primitives_slide. unfold slide. f_equal. extensionality r. f_equal.
      unfold up. rewrite getc_setc_eq, setc_setc. replace (getc d i + m + - m) with (getc d i) by lia. apply setc_getc.
  - intros j Hj. destruct (Z.leb_spec 0 (getc d (back j))) as [K|K].
    + exists (back j). split.
      * intro a. specialize (Hj a). cbv zeta in *. rewrite inactive_double in Hj. cbn [doubled c_p c_n] in Hj. destruct (axis_dec a d) as [->|NE].
        -- unfold up in *. rewrite !getc_setc_eq, ID in *. lia.
        -- unfold up. rewrite !getc_setc_ne in * by auto. exact Hj.
      * rewrite SP. change (c_p c') with (c_p c). change (c_gamma c') with (c_gamma c). rewrite primitives_slide. reflexivity.
    + exists (setc d (-1 - getc d (back j)) (back j)). split.
      * intro a. specialize (Hj a). cbv zeta in *. rewrite inactive_double in Hj. cbn [doubled c_p c_n] in Hj. destruct (axis_dec a d) as [->|NE].
        -- unfold up in *. rewrite !getc_setc_eq, ID in *. lia.
        -- unfold up. rewrite !getc_setc_ne in * by auto. exact Hj.
      * rewrite SP. change (c_p c') with (c_p c). change (c_gamma c') with (c_gamma c). rewrite primitives_slide. unfold slide.
        transitivity (signal_speed c (fun r => primitives wi wt (c_p c) (c_gamma c) (refl d (sg d) (-1) E) r (back j))); [|unfold E; rewrite even_refl; reflexivity].
        rewrite (primitives_refl (c_p c) (degs c HT)). unfold refl. symmetry. exact (signal_mirror c d _).
Qed.
Lemma prim_even av u v i : gprim RNum c' av (slide d (- m) (even d (filled c u))) v i = unfolding (gprim RNum c av (even d (filled c u))) v i.
Proof.
  set (E := even d (filled c u)).
  assert (R1 : forall f g : grid, (forall v i, f v i = g v i) -> unfolding f v i = unfolding g v i) by (intros f g H; unfold unfolding, slide, even; rewrite !H; reflexivity).
  rewrite (gprim_is c' double_tab). rewrite (R1 _ _ (gprim_is c HT av E)). destruct av.
  - change (c_p c') with (c_p c). change (c_gamma c') with (c_gamma c). rewrite primitives_slide. unfold unfolding.
    rewrite (even_of d (fun v i => primitives wi wt (c_p c) (c_gamma c) E v i)); [reflexivity|].
    transitivity (primitives wi wt (c_p c) (c_gamma c) (refl d (sg d) (-1) E)); [symmetry; apply (primitives_refl (c_p c) (degs c HT))|unfold E; rewrite even_refl; reflexivity].
  - unfold unfolding. rewrite (even_of d (fun v i => centre_prim c E v i)).
    + unfold centre_prim. change (c_p c') with (c_p c). change (c_gamma c') with (c_gamma c). rewrite block_slide. reflexivity.
    + pose proof (centre_refl (c_p c) (degs c HT) (c_gamma c) d (-1) E) as Q. unfold E in Q at 1. rewrite even_refl in Q. symmetry. exact Q.
Qed.
(** ** runs *)
Lemma unfolded_is (u u' : arr R) : shp u = n -> (unfolded (N := RNum) d u u' <-> rows u' = rows u /\ shp u' = n' /\ forall v i, in_shape n' i -> at_ u' v i = unfolding (at_ u) v i).
Proof.
  intro Su. unfold unfolded. change (car RNum) with R. cbv zeta. cbn [nopp RNum]. rewrite Su.
  assert (Q : forall v i, unfolding (at_ u) v i = if m <=? getc d i then at_ u v (setc d (getc d i - m) i)
                 else let x := at_ u v (setc d (m - 1 - getc d i) i) in if v =? comp d then (- x)%R else x).
  { intros v i. unfold unfolding, slide, even, up. rewrite getc_setc_eq, setc_setc. cbv zeta.
    replace (-1 - (getc d i + - m)) with (m - 1 - getc d i) by lia.
    destruct (Z.leb_spec 0 (getc d i + - m)), (Z.leb_spec m (getc d i)); try lia; [f_equal; f_equal; lia|].
    unfold sg. change (vrow d) with (comp d). destruct (v =? comp d); ring. }
  split; intros (A & B & C); (split; [exact A|split; [exact B|]]); intros v i Hi.
  - rewrite Q. apply C. rewrite B. exact Hi.
  - rewrite <- Q. apply C. rewrite <- B. exact Hi.
Qed.
Context (ok' : arr R -> bool) (Hok : forall u u', shp u = n -> unfolded (N := RNum) d u u' -> ok' u' = ok u).
Theorem fold_checked heap heap' i av T k exact db log fuel u u' : shp u = n -> 1 <= rows u -> unfolded (N := RNum) d u u' ->
  moved_outcome (N := RNum) (unfolded (N := RNum) d) (simulate_checked (N := RNum) ok c heap i av T k exact db log fuel u)
    (simulate_checked (N := RNum) ok' c' heap' i av T k exact db log fuel u').
Proof.
  intros Su Ru MI. pose proof (proj1 (unfolded_is u u' Su) MI) as (Ru' & Su' & V).
  apply (sym_moved RNum c c' heap heap' (rows u) HT double_tab HL HL Ru unfolding) with
    (ok1 := ok) (ok2 := ok') (E1 := fun _ w => even d (filled c w)) (E2 := fun _ w => filled c' w) (W := slide d (- m)).
  - intros f g H v j Hj. unfold unfolding, slide. apply even_ext. intros w q Q0 Qa Qd. apply H. intro a. destruct (axis_dec a d) as [->|NE].
    + specialize (Hj d). cbn [doubled c_n] in Hj. rewrite getc_setc_eq in Hj. unfold up in Qd. rewrite getc_setc_eq in Qd. lia.
    + specialize (Hj a). cbn [doubled c_n] in Hj. rewrite Qa by exact NE. unfold up. rewrite getc_setc_ne in * by auto. exact Hj.
  - intros f g v j. unfold unfolding, slide, even. cbn [nadd RNum]. destruct (_ <=? _); [reflexivity|]. apply Rmult_plus_distr_l.
  - intros x f v j. unfold unfolding, slide, even. cbn [nmul RNum]. destruct (_ <=? _); [reflexivity|]. eqR. ring.
  - intros t w _ Sw. eapply pads_ext; [exact Sw|apply closed_pads; auto|]. intros v j Hj. rewrite copied_filled. symmetry. apply even_filled; auto.
  - intros t w _ Sw. rewrite <- copied_filled. apply closed_pads; auto using double_tab, double_closed.
  - intros u1 u2 (R1 & R2 & S1 & S2 & V2). symmetry. apply Hok; [exact S1|]. apply unfolded_is; [exact S1|]. split; [exact (eq_trans R2 (eq_sym R1))|]. split; [exact S2|exact V2].
  - intros t u1 u2 (R1 & R2 & S1 & S2 & V2) v j Hj. exact (ghosts u1 u2 v j S1 V2 Hj).
  - intros t u1 u2 _ _. apply dt_even.
  - intros t u1 u2 (R1 & R2 & S1 & S2 & V2) O v j Hj. apply rate_even; auto.
  - intros t u1 u2 _ v j Hj. apply prim_even.
  - repeat split; auto.
  - intros w1 w2 (R1 & R2 & S1 & S2 & V2). apply (unfolded_is w1 w2 S1). split; [exact (eq_trans R2 (eq_sym R1))|]. split; [exact S2|exact V2].
Qed.
End Runs.

Section Halves.
Context (d : axis) (n : ix).
Definition upper_half (u : arr R) : arr R := mkarr (rows u) n (fun v i => at_ u v (up d (getc d n) i)).
Lemma upper_half_of (u u' : arr R) : shp u = n -> 1 <= getc d n -> unfolded (N := RNum) d u u' -> rows (upper_half u') = rows u /\
  forall v i, in_shape n i -> at_ (upper_half u') v i = at_ u v i.
Proof.
  intros Su M (A & B & C). change (car RNum) with R in *. split; [exact A|]. intros v i Hi. cbn [upper_half at_]. rewrite C.
  - rewrite Su. unfold up. rewrite getc_setc_eq, setc_setc. pose proof (Hi d). destruct (Z.leb_spec (getc d n) (getc d i + getc d n)); [|lia].
    replace (getc d i + getc d n - getc d n) with (getc d i) by lia. rewrite setc_getc. reflexivity.
  - rewrite B, Su. intro a. specialize (Hi a). unfold up. destruct (axis_dec a d) as [->|NE]; [rewrite !getc_setc_eq; lia|rewrite !getc_setc_ne by auto; exact Hi].
Qed.
Lemma unfolded_exists (u : arr R) : unfolded (N := RNum) d u (mkarr (rows u) (setc d (2 * getc d (shp u)) (shp u)) (fun v i =>
  if getc d (shp u) <=? getc d i then at_ u v (setc d (getc d i - getc d (shp u)) i)
  else let x := at_ u v (setc d (getc d (shp u) - 1 - getc d i) i) in if v =? comp d then (- x)%R else x)).
Proof. split; [reflexivity|]. split; [reflexivity|]. intros v i _. reflexivity. Qed.
End Halves.
Theorem fold_llf (c : config RNum) b' d heap heap' i av T k exact db log fuel u u' :
  tabulated c -> closed c -> upper_at_both_ends d (c_bc c) b' -> bc_type (c_bc c) d SL = B_reflective -> ~ inactive c d ->
  c_limit c = false -> c_rs c = RS_llf -> shp u = c_n c -> 1 <= rows u -> unfolded (N := RNum) d u u' ->
  moved_outcome (N := RNum) (unfolded (N := RNum) d) (simulate c heap i av T k exact db log fuel u) (simulate (doubled d b' c) heap' i av T k exact db log fuel u').
Proof.
  intros HT HC X WL HA HL G Su Ru M.
  exact (fold_checked c b' d HT HC X WL HA HL (fun _ => true) (or_introl G) (fun _ => true) (fun _ _ _ _ => eq_refl) heap heap' i av T k exact db log fuel u u' Su Ru M).
Qed.
Theorem fold_hllc xi xt ok (c : config RNum) b' d heap heap' i av T k exact db log fuel u u' o : tables xi xt ->
  tabulated c -> closed c -> upper_at_both_ends d (c_bc c) b' -> bc_type (c_bc c) d SL = B_reflective -> ~ inactive c d ->
  c_limit c = false -> c_rs c = RS_hllc -> (0 < c_csq_floor c)%R -> (1 <= c_gamma c)%R -> test_of_cells ok ->
  (forall w, shp w = c_n c -> ok w = true -> physical_traces xi xt c (filled c w)) ->
  shp u = c_n c -> 1 <= rows u -> unfolded (N := RNum) d u u' ->
  simulate_checked (N := RNum) ok c heap i av T k exact db log fuel u = Ok o ->
  simulate c heap i av T k exact db log fuel u = Ok o /\
  exists o', simulate (doubled d b' c) heap' i av T k exact db log fuel u' = Ok o' /\ moved_run (N := RNum) (unfolded (N := RNum) d) o o'.
Proof.
  intros HW HT HC X WL HA HL G1 G2 G3 Hok Hph Su Ru M HS. split; [exact (unwatch ok c heap i av T k exact db log fuel u o HT HC HL Su Ru HS)|].
  pose proof (fold_checked c b' d HT HC X WL HA HL ok (or_intror (conj G1 (conj G2 (conj G3 (fun w Sw O => physical_tables xi xt HW c _ HT (Hph w Sw O))))))
    (fun w => ok (upper_half d (c_n c) w))) as Q.
  specialize (fun H => Q H heap heap' i av T k exact db log fuel u u' Su Ru M). rewrite HS in Q.
  assert (H0 : forall w w' : arr R, shp w = c_n c -> unfolded (N := RNum) d w w' -> ok (upper_half d (c_n c) w') = ok w).
  { intros w w' Sw MW. destruct (upper_half_of d (c_n c) w w' Sw (m_pos c d HT) MW) as [A B]. apply Hok; [exact A|symmetry; exact Sw|exact B]. }
  specialize (Q H0). revert Q. destruct (simulate_checked _ (doubled d b' c) _ _ _ _ _ _ _ _ _ _) as [o'|] eqn:E; [|intros []].
  intro Q. exists o'. split; [|exact Q]. destruct M as (R' & S' & _). change (car RNum) with R in *.
  apply (unwatch _ (doubled d b' c) _ _ _ _ _ _ _ _ _ _ _ (double_tab c b' d HT) (double_closed c b' d HT HC X WL HA) HL) in E; auto; [exact (eq_trans S' (f_equal (fun s => setc d (2 * getc d s) s) Su))|exact (eq_ind_r (fun z => 1 <= z) Ru R')].
Qed.
