(** The trouble log of runs from uniform states. *)
From Coq Require Import ZArith List Bool Lia Reals Lra FunctionalExtensionality.
From Verif Require Import Err Num NdArray HydroM RiemannM StencilsM FvM BcM LimitM OdeM SolverM Spec SpecBc SpecSolver SpecCons SpecScheme SpecSym SpecLim SpecLimRhs SpecUniLog
  NdArrayP FvP BcP BcQ OpP SolverP OdeP RelP RelS LimP RunP SchemeP ConsP ExistP SymP MirrorP UniformP LimRhsP CleanP CleanQ.
From Verif Require BoostP MirrorP QuietP.
Import ListNotations.
Local Open Scope Z_scope.

Section UniLog.
Context (wi : Z -> ipos -> list R) (wt : Z -> list R) (HW : tables wi wt).
Context (c : config RNum) (HT : tabulated c) (HC : closed c) (HL : c_limit c = true) (s : Z -> R) (HP : along_walls c s).
Local Notation n := (c_n c).
Local Notation W u := (primitives wi wt (c_p c) (c_gamma c) (filled c u)).
Lemma filled_uniform u g : shp u = n -> uniform u s -> (forall a, 0 <= getc a g <= getc a (ghost_zones3 c)) ->
  forall v j, in_padded n g j -> filled c u v j = s v.
Proof.
  intros Su HU G v j Hj. rewrite <- (MirrorP.copied_filled c u). exact (copied_uniform c u s g HT HC HP Su HU G v j Hj).
Qed.
Lemma zones a : (if inactive_b c a then 0 else 3) + (stencil_right (getc a (c_p c)) + stencil_right (getc a (c_p c))) <= getc a (ghost_zones3 c).
Proof.
  assert (E : getc a (ghost_zones3 c) = ghost_zones c a) by (destruct a; reflexivity). rewrite E. unfold ghost_zones.
  destruct (inactive_b c a) eqn:A.
  - unfold inactive_b in A. apply andb_prop in A. destruct A as [_ A]. apply Z.eqb_eq in A. rewrite A. vm_compute. discriminate.
  - cbv zeta. rewrite HL, <- half_up_sr. lia.
Qed.
Lemma sr_pos a : 0 <= stencil_right (getc a (c_p c)).
Proof. destruct HT as [[_ P _ _] _]. specialize (P a). rewrite <- half_up_sr. unfold half_up. apply Z.div_pos; lia. Qed.
(** primitive variables where the detector looks *)
Lemma uniform_prim u v i : shp u = n -> uniform u s -> seen c i -> W u v i = primitive (c_gamma c) s v.
Proof.
  intros Su HU Hi. rewrite <- (primitives_tab wi wt HW c HT).
  pose proof (good_deg RNum c _ (tab_good RNum c HT)) as D.
  assert (LP : BoostP.looks (fun f => primitives (wts_i RNum) (wts_t RNum) (c_p c) (c_gamma c) f) (fun b => stencil_right (getc b (c_p c)) + stencil_right (getc b (c_p c)))
    (fun b => stencil_right (getc b (c_p c)) + stencil_right (getc b (c_p c)))).
  { refine (BoostP.looks_comp (block (fun b => wts_t RNum (getc b (c_p c)))) (fun f => (fun v i => primitive (c_gamma c) (fun r => block (fun a => wts_i RNum (getc a (c_p c)) P_c) f r i) v) : grid) _ _ _ _ _ _).
    - apply BoostP.looks_block. intro b. apply BoostP.wt_len, D.
    - intros f g v' j H. cbv beta. f_equal. extensionality r. apply (BoostP.looks_block c); [|exact H]. intro b. apply BoostP.wi_len; [apply D|unfold lr_pos; auto]. }
  etransitivity; [apply (LP _ (fun v _ => s v))|].
  - intros w j Hj. apply (filled_uniform u (ghost_zones3 c)); [exact Su|exact HU| |].
    + intro a. pose proof (zones a). pose proof (sr_pos a). destruct (inactive_b c a); lia.
    + intro a. pose proof (zones a). specialize (Hi a). cbv zeta in Hi. specialize (Hj a). cbv beta in Hj. destruct (inactive_b c a); lia.
  - unfold primitives. cbv zeta.
    assert (BC : forall ws (f : Z -> R) v i, (forall b, lsum (ws b) = 1%R) -> block ws (fun v _ => f v) v i = f v).
    { intros ws f v' j Hs. unfold block.
      assert (LC : forall b, line b (ws b) (fun v _ => f v) = (fun v _ => f v)).
      { intro b. extensionality v1. extensionality i1. etransitivity; [|exact (BoostP.line_const b (ws b) (f v1) v1 i1 (Hs b))]. reflexivity. }
      rewrite !LC. reflexivity. }
    etransitivity; [|apply (BC (fun a => wts_t RNum (getc a (c_p c))) (fun v => primitive (c_gamma c) s v) v i); intro b; apply (BoostP.sums_t c HT)].
    f_equal. extensionality v1. extensionality i1. f_equal. extensionality r. apply BC. intro b. apply (BoostP.sums_i c HT). unfold lr_pos; auto.
Qed.
(** nothing flows in or out *)
Lemma uniform_balance u v i : shp u = n -> uniform u s -> in_shape n i ->
  balance c (fun d => face_flux wi wt c (c_p c) None d (filled c u)) v i = 0%R.
Proof.
  intros Su HU Hi. rewrite <- (QuietP.balance_gd wi wt HW c _ HT).
  pose proof (tab_good RNum c HT) as G. pose proof (good_deg RNum c _ G) as D.
  unfold gdudt. set (P := compute_primitives RNum (c_gamma c) s).
  rewrite (gsum_ext RNum c _ (fun d w _ => riemann RNum (c_rs c) (c_gamma c) (c_csq_floor c) d P P w) n v i Hi).
  2:{ intros d A w j Hj. etransitivity; [|exact (flat_gflux (c_p c) D c L_none d s w j)].
      apply gflux_local; [exact D|]. intros w' l' Hr. apply (filled_uniform u (solver_width RNum c (c_p c))); [exact Su|exact HU|apply (width_main RNum c HT)|].
      eapply reads_padded; eauto. }
  unfold gsum. assert (Z0 : forall l, fold_left (fun acc d => nadd acc (gterm RNum c d (fun w _ => riemann RNum (c_rs c) (c_gamma c) (c_csq_floor c) d P P w) v i)) l (nofZ 0) = 0%R).
  { induction l as [|d l IH]; [reflexivity|]. cbn [fold_left]. etransitivity; [|exact IH]. f_equal. unfold gterm. cbn [nadd nmul nsub nofZ RNum]. lra. }
  apply Z0.
Qed.
(** the detector on constant fields *)
Lemma seen_here i : in_shape n i -> seen c i.
Proof. intros H a. specialize (H a). cbv zeta. destruct (inactive_b c a); lia. Qed.
Lemma beside_seen i j : in_shape n i -> beside c i j -> seen c j.
Proof. intros H B a. specialize (H a). specialize (B a). cbv zeta. destruct (inactive_b c a); lia. Qed.
Lemma up_seen a k i : ~ inactive c a -> in_shape n i -> -3 <= k <= 3 -> seen c (up a k i).
Proof.
  intros A H K b. specialize (H b). cbv zeta. unfold up. destruct (axis_dec b a) as [->|NE].
  - assert (E : inactive_b c a = false). { apply not_true_is_false. intro X. apply A. unfold inactive_b in X. apply andb_prop in X. rewrite !Z.eqb_eq in X. exact X. }
    rewrite E, getc_setc_eq. lia.
  - rewrite getc_setc_ne by auto. destruct (inactive_b c b); lia.
Qed.
Lemma overshoots_flat (w : grid) x v i : in_shape n i -> known_options c -> (forall j, seen c j -> w v j = x) ->
  (overshoots c w v i x <-> nad_range_ (c_nad c) = R_absolute /\ (nad_eps (c_nad c) * x < 0)%R).
Proof.
  intros Hi (_ & KR & KM) F.
  assert (BI : beside c i i) by (intro a; destruct (inactive_b c a); lia).
  assert (LB : least (beside c i) (w v) x) by (split; [intros j Hj; rewrite (F j (beside_seen i j Hi Hj)); apply Rle_refl|exists i; split; [exact BI|apply F, seen_here, Hi]]).
  assert (GB : greatest (beside c i) (w v) x) by (split; [intros j Hj; rewrite (F j (beside_seen i j Hi Hj)); apply Rle_refl|exists i; split; [exact BI|apply F, seen_here, Hi]]).
  assert (LS : least (seen c) (w v) x) by (split; [intros j Hj; rewrite (F j Hj); apply Rle_refl|exists i; split; [apply seen_here, Hi|apply F, seen_here, Hi]]).
  assert (GS : greatest (seen c) (w v) x) by (split; [intros j Hj; rewrite (F j Hj); apply Rle_refl|exists i; split; [apply seen_here, Hi|apply F, seen_here, Hi]]).
  assert (UL : forall D m, (exists j, D j) -> (forall j, D j -> w v j = x) -> (least D (w v) m -> m = x) /\ (greatest D (w v) m -> m = x)).
  { intros D m _ HD. split; intros (_ & j & Dj & E); rewrite <- E; apply HD, Dj. }
  unfold overshoots. cbv zeta. split.
  - intros (m & M & gm & gM & H1 & H2 & H3 & H4 & H).
    apply (proj1 (UL _ m (ex_intro _ i BI) (fun j Hj => F j (beside_seen i j Hi Hj)))) in H1. apply (proj2 (UL _ M (ex_intro _ i BI) (fun j Hj => F j (beside_seen i j Hi Hj)))) in H2.
    apply (proj1 (UL _ gm (ex_intro _ i (seen_here i Hi)) F)) in H3. apply (proj2 (UL _ gM (ex_intro _ i (seen_here i Hi)) F)) in H4. subst m M gm gM.
    change (car RNum) with R in *. destruct (nad_range_ (c_nad c)); [| |contradiction]; destruct (nad_mode_ (c_nad c)); try contradiction; first [exfalso; lra|split; [reflexivity|lra]].
  - intros [ER H]. exists x, x, x, x. do 4 (split; [assumption|]). rewrite ER. change (car RNum) with R in *. destruct (nad_mode_ (c_nad c)) eqn:EM; [left; lra|left; lra|contradiction].
Qed.
Lemma not_smooth_flat (w : grid) x v i : in_shape n i -> (0 < sed_eps (c_nad c))%R -> (forall j, seen c j -> w v j = x) -> not_smooth c w v i.
Proof.
  intros Hi He F. destruct HT as [[_ _ [a A] _] _]. exists a, 0. split; [exact A|]. split; [lia|].
  assert (FL : forall k, -3 <= k <= 3 -> w v (up a k i) = x) by (intros k K; apply F, up_seen; assumption).
  unfold smoothness. eapply Rle_lt_trans; [apply Rmin_l|]. unfold smooth_left. eapply Rle_lt_trans; [apply Rmin_r|].
  set (D := slope_at _). assert (D0 : forall k, -2 <= k <= 2 -> D k = 0%R). { intros k K. unfold D, slope_at. rewrite !FL by lia. unfold Rdiv. ring. }
  assert (B : bend (sed_eps (c_nad c)) D 0 = sed_eps (c_nad c)).
  { unfold bend. cbv zeta. rewrite !D0 by lia. replace ((0 - 0) / 4)%R with 0%R by field. rewrite Rabs_R0.
    destruct (Rle_dec 0 (sed_eps (c_nad c))) as [X|X]; [|exfalso; apply X; apply Rlt_le, He]. destruct (Rle_dec 0 0) as [Y|Y]; [reflexivity|exfalso; apply Y, Rle_refl]. }
  unfold share. rewrite B, !D0 by lia. change (car RNum) with R in *. destruct (Rlt_dec (sed_eps (c_nad c)) 0) as [X|X]; [exfalso; lra|].
  rewrite Rmax_left by lra. unfold Rdiv. rewrite Rminus_0_r, Rmult_0_l. lra.
Qed.
Lemma troubled_flat (w ws : grid) (q : Z -> R) i : in_shape n i -> known_options c -> (sed_on (c_nad c) = true -> (0 < sed_eps (c_nad c))%R) ->
  (forall v j, seen c j -> w v j = q v) -> (forall v j, seen c j -> ws v j = q v) ->
  (troubled c w ws i <-> c_force c = true \/ faulted (c_nad c) q).
Proof.
  intros Hi HK He F1 F2. unfold troubled, faulted.
  assert (E : (fun v => ws v i) = q) by (extensionality v; apply F2, seen_here, Hi). rewrite E.
  split.
  - intros [H|[H|(v & S & O & _)]]; [left; exact H|right; left; exact H|right; right].
    rewrite (F2 v i (seen_here i Hi)) in O. apply (proj1 (overshoots_flat w (q v) v i Hi HK (F1 v))) in O. destruct O as [O1 O2]. split; [exact O1|exists v; split; assumption].
  - intros [H|[H|(ER & v & S & O)]]; [left; exact H|right; left; exact H|right; right]. exists v. split; [exact S|]. split.
    + rewrite (F2 v i (seen_here i Hi)). apply (overshoots_flat w (q v) v i Hi HK (F1 v)). split; assumption.
    + intro SO. apply (not_smooth_flat ws (q v) v i Hi (He SO) (F2 v)).
Qed.
End UniLog.
Theorem uniform_logged : forall (c : config RNum) heap k exact downbeats log fuel u0 s o,
  tabulated c -> closed c -> along_walls c s -> c_limit c = true -> known_options c -> (sed_on (c_nad c) = true -> (0 < sed_eps (c_nad c))%R) ->
  shp u0 = c_n c -> 2 <= rows u0 -> uniform u0 s -> 1 <= k ->
  simulate c heap I_euler true None (Some k) exact downbeats log fuel u0 = Ok o ->
  let bad := c_force c = true \/ faulted (c_nad c) (primitive (c_gamma c) s) in
  forall i, in_shape (c_n c) i -> (bad /\ 0 < at_ (x_trouble (o_aux o)) 0 i)%R \/ ~ bad /\ at_ (x_trouble (o_aux o)) 0 i = 0%R.
Proof.
  intros c heap k ex db log fuel u0 s o HT HC HP HL HK He Su Ru HU Hk H bad i Hi.
  destruct (logged _ _ tables_are c heap k ex db log fuel u0 o HT HC HL HK He Su Ru Hk H) as (o1 & dt & E1 & _ & _ & D). cbv zeta in D.
  destruct (uniform_run c heap I_euler true None (Some (k - 1)) ex db log fuel u0 s o1 HT HC HP (fun _ => proj1 HK) Su Ru HU E1) as (R1 & S1 & U1).
  set (u' := euler_candidate _ _ _ _) in D.
  assert (U2 : uniform u' s).
  { intros v j Hj. unfold u', euler_candidate. cbn [at_]. rewrite (uniform_balance _ _ tables_are c HT HC s HP (o_u o1) v j S1 U1 Hj).
    rewrite Rmult_0_r, Rplus_0_r. apply U1. refine (eq_ind_r (fun z => in_shape z j) Hj S1). }
  assert (T : forall P Q : grid, (forall v j, seen c j -> P v j = primitive (c_gamma c) s v) -> (forall v j, seen c j -> Q v j = primitive (c_gamma c) s v) -> (troubled c P Q i <-> bad)).
  { intros P Q X Y. exact (troubled_flat c HT P Q (primitive (c_gamma c) s) i Hi HK He X Y). }
  destruct (D i Hi) as [[X Y]|[X Y]]; [left|right]; (split; [|exact Y]).
  - apply T in X; [exact X| |]; intros v j Hj; apply (uniform_prim _ _ tables_are c HT HC HL s HP); auto.
  - intro B. apply X. apply T; [| |exact B]; intros v j Hj; apply (uniform_prim _ _ tables_are c HT HC HL s HP); auto.
Qed.
