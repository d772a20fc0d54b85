(** Conservation. *)
From Coq Require Import ZArith List Bool Lia Reals Lra.
From Verif Require Import Err Num PySlice NdArray HydroM RiemannM StencilsM FvM BcM SedM
  LimitM OdeM SolverM Spec SpecBc SpecSolver SpecCons NdArrayP FvP BcP BcQ OpP SolverP OdeP RelP RelS LimP RunP RiemannP.
Import ListNotations.
Open Scope Z_scope.

(** ** sums *)
Lemma sum_ext n f g : (forall k, 0 <= k < Z.of_nat n -> f k = g k) -> sum_to n f = sum_to n g.
Proof. induction n; intro H; cbn [sum_to]; [reflexivity|]. rewrite IHn, H by (intros; try apply H; lia). reflexivity. Qed.
Lemma sum_add n f g : sum_to n (fun k => f k + g k)%R = (sum_to n f + sum_to n g)%R.
Proof. induction n; cbn [sum_to]; [lra|]. rewrite IHn. lra. Qed.
Lemma sum_scale n c f : sum_to n (fun k => c * f k)%R = (c * sum_to n f)%R.
Proof. induction n; cbn [sum_to]; [lra|]. rewrite IHn. lra. Qed.
Lemma sum_zero n : sum_to n (fun _ => 0%R) = 0%R.
Proof. induction n; cbn [sum_to]; [lra|]. rewrite IHn. lra. Qed.
Lemma sum_all0 n f : (forall k, 0 <= k < Z.of_nat n -> f k = 0%R) -> sum_to n f = 0%R.
Proof. intro H. rewrite (sum_ext n f (fun _ => 0%R) H). apply sum_zero. Qed.
Lemma sum_telescope n f : sum_to n (fun k => f (k + 1)%Z - f k)%R = (f (Z.of_nat n) - f 0%Z)%R.
Proof.
  induction n; cbn [sum_to]; [cbn; lra|]. rewrite IHn. replace (Z.of_nat (S n)) with (Z.of_nat n + 1) by lia. lra.
Qed.

Lemma total_ext n f g : (forall i, in_shape n i -> f i = g i) -> total n f = total n g.
Proof.
  intro H. unfold total. apply sum_ext. intros x Hx. apply sum_ext. intros y Hy. apply sum_ext. intros z Hz.
  apply H. intros []; cbn [getc cx cy cz]; lia.
Qed.
Lemma total_add n f g : total n (fun i => f i + g i)%R = (total n f + total n g)%R.
Proof.
  unfold total. rewrite <- sum_add. apply sum_ext. intros x _. rewrite <- sum_add. apply sum_ext. intros y _. apply sum_add.
Qed.
Lemma total_scale n c f : total n (fun i => c * f i)%R = (c * total n f)%R.
Proof.
  unfold total. rewrite <- sum_scale. apply sum_ext. intros x _. rewrite <- sum_scale. apply sum_ext. intros y _. apply sum_scale.
Qed.
Lemma total_zero n : total n (fun _ => 0%R) = 0%R.
Proof.
  unfold total. apply sum_all0. intros x _. apply sum_all0. intros y _. apply sum_zero.
Qed.
(** differences of face values sum to the difference between the two ends of the axis *)
Lemma total_telescope n d f : (forall a, 0 <= getc a n) ->
  (forall i, in_shape n i -> f (setc d (getc d n) i) = f (setc d 0 i)) ->
  total n (fun i => f (setc d (getc d i + 1)%Z i) - f i)%R = 0%R.
Proof.
  intros Hn H. unfold total. pose proof (Hn AX). pose proof (Hn AY). pose proof (Hn AZ). cbn [getc] in *.
  destruct (Z.eq_dec (getc d n) 0) as [E0|E0].
  { destruct d; cbn [getc] in E0; rewrite E0; cbn [Z.to_nat sum_to];
      repeat (first [reflexivity | apply sum_all0; intros]). }
  destruct d; cbn [getc setc cx cy cz] in *.
  - pose (g := fun x => sum_to (Z.to_nat (cy n)) (fun y => sum_to (Z.to_nat (cz n)) (fun z => f (mkix x y z)))).
    rewrite (sum_ext _ _ (fun x => g (x + 1)%Z - g x)%R).
    + rewrite sum_telescope, Z2Nat.id by lia. unfold g.
      assert (g (cx n) = g 0); [|unfold g in *; lra].
      apply sum_ext. intros y Hy. apply sum_ext. intros z Hz.
      specialize (H (mkix 0 y z)). cbn [setc cx cy cz] in H. apply H. intros []; cbn [getc cx cy cz]; lia.
    + intros x Hx. unfold g, Rminus. rewrite <- Rmult_1_l with (r := sum_to _ (fun y => sum_to _ (fun z => f (mkix x y z)))).
      rewrite <- Ropp_mult_distr_l_reverse, <- sum_scale, <- sum_add. apply sum_ext. intros y Hy.
      rewrite <- sum_scale, <- sum_add. apply sum_ext. intros z Hz. cbn [cx cy cz]. lra.
  - apply sum_all0. intros x Hx.
    pose (g := fun y => sum_to (Z.to_nat (cz n)) (fun z => f (mkix x y z))).
    rewrite (sum_ext _ _ (fun y => g (y + 1)%Z - g y)%R).
    + rewrite sum_telescope, Z2Nat.id by lia. unfold g.
      assert (g (cy n) = g 0); [|unfold g in *; lra]. apply sum_ext. intros z Hz.
      specialize (H (mkix x 0 z)). cbn [setc cx cy cz] in H. apply H. intros []; cbn [getc cx cy cz]; lia.
    + intros y Hy. unfold g, Rminus. rewrite <- Rmult_1_l with (r := sum_to _ (fun z => f (mkix x y z))).
      rewrite <- Ropp_mult_distr_l_reverse, <- sum_scale, <- sum_add. apply sum_ext. intros z Hz. cbn [cx cy cz]. lra.
  - apply sum_all0. intros x Hx.
    apply sum_all0. intros y Hy.
    rewrite (sum_telescope _ (fun z => f (mkix x y z))), Z2Nat.id by lia.
    specialize (H (mkix x y 0)). cbn [setc cx cy cz] in H. rewrite H; [lra|]. intros []; cbn [getc cx cy cz]; lia.
Qed.

(** fluxes that agree at the two ends of each active axis conserve *)
Lemma gsum_total (c : config RNum) F v : (forall a, 1 <= getc a (c_n c)) ->
  (forall d, active RNum c d = true -> forall i, in_shape (c_n c) i -> F d v (setc d (getc d (c_n c)) i) = F d v (setc d 0 i)) ->
  total (c_n c) (fun i => gsum RNum c F v i) = 0%R.
Proof.
  intros Hn H. unfold gsum.
  assert (G : forall l, (forall d, In d l -> active RNum c d = true) -> forall g : ix -> R,
    total (c_n c) (fun i => fold_left (fun acc d => nadd acc (gterm RNum c d (F d) v i)) l (g i)) = total (c_n c) g).
  { induction l as [|d l IH]; intros Hl g; cbn [fold_left]; [reflexivity|].
    rewrite (IH ltac:(intros; apply Hl; right; assumption) (fun i => @nadd RNum (g i) (gterm RNum c d (F d) v i))).
    cbn [nadd RNum]. rewrite total_add. unfold gterm. cbn [nmul nsub RNum]. rewrite total_scale.
    rewrite total_telescope; [lra|intro a; specialize (Hn a); lia|]. apply H, Hl. left; reflexivity. }
  exact (eq_trans (G (dims RNum c) ltac:(intros d Hd; apply filter_In in Hd; apply Hd) (fun _ => 0%R)) (total_zero _)).
Qed.

(** ** what a flux reads *)
Section Local.
Context (N : Num).
Local Notation K := (car N).
Definition reads (c : config N) (p : ix) (d : axis) (i j : ix) : Prop :=
  forall a, if axis_eqb a d
            then getc a i - (3 * stencil_right (getc a p) + 1) <= getc a j <= getc a i + 3 * stencil_right (getc a p)
            else getc a i - 4 * stencil_right (getc a p) <= getc a j <= getc a i + 4 * stencil_right (getc a p).
Lemma gflux_local (c : config N) p l d (E E' : field N) v i : (forall a, deg_ok (getc a p)) ->
  (forall w j, reads c p d i j -> E w j = E' w j) -> gflux N c p l d E v i = gflux N c p l d E' v i.
Proof.
  intros D H. unfold gflux. apply (op_local _ _ _ (op_gflux N c p l d D)).
  intros w j Hj. apply H. intro a. specialize (Hj a). rewrite !getc_shift', getc_neg in Hj.
  unfold flux_off, flux_reach in Hj. destruct (axis_dec d a) as [<-|E0].
  - rewrite axis_eqb_refl. rewrite !getc_setc_eq, getc_scale3, getc_sr3 in Hj. lia.
  - replace (axis_eqb a d) with false by (symmetry; apply axis_eqb_neq; auto).
    rewrite !getc_setc_ne, !getc_scale3, !getc_sr3 in Hj by auto. lia.
Qed.
Lemma gflux_shift (c : config N) p l d (E : field N) s v i : (forall a, deg_ok (getc a p)) ->
  gflux N c p l d (shiftf N s E) v i = gflux N c p l d E v (shift s i).
Proof.
  intro D. unfold gflux. rewrite (op_shift _ _ _ (op_gflux N c p l d D)). f_equal.
  rewrite !shift_shift. f_equal. apply shift_comm.
Qed.
(** the reads of a face of the domain are cells of the padded array *)
Lemma reads_padded (c : config N) p d i j : good N c p -> active N c d = true ->
  in_shape (face_shape d (c_n c)) i -> reads c p d i j -> in_padded (c_n c) (solver_width N c p) j.
Proof.
  intros G Ad Hi Hj a. specialize (Hi a). specialize (Hj a). unfold solver_width. rewrite getc_prim_width.
  unfold interp_cost. rewrite getc_active_width. unfold face_shape in Hi.
  pose proof (ghost_width_ge p a (good_deg N c p G)). pose proof (sr_pos _ (good_deg N c p G a)).
  destruct (axis_dec d a) as [<-|E0].
  - rewrite axis_eqb_refl in Hj. rewrite getc_setc_eq in Hi. rewrite Ad. lia.
  - replace (axis_eqb a d) with false in Hj by (symmetry; apply axis_eqb_neq; auto).
    rewrite getc_setc_ne in Hi by auto. destruct (active N c a) eqn:AA; [lia|].
    destruct (G a) as (_ & _ & G0). rewrite (G0 AA) in *. change (stencil_right 0) with 0 in *. lia.
Qed.

(** ** copying boundaries *)
Definition copied (b : bcond N) (n : ix) (u : arr K) : field N := fun v i =>
  let x := at_ u v (folded3 b n i) in if negated3 b n i v then nmul x (nofZ (-1)) else x.
Lemma copy_axis_narrow (b : bcond N) n g g' a : copy_axis b n g a -> 0 <= getc a g' <= getc a g -> copy_axis b n g' a.
Proof.
  intros H Hg. destruct (Z.eq_dec (getc a g') 0) as [E|E]; [left; exact E|]. right.
  destruct H as [H|[H1 H2]]; [exfalso; lia|]. split; [|exact H2]. intro pos. destruct (H1 pos) as [C E1].
  split; [exact C|]. destruct (bc_type b a pos); cbn [enough] in *; lia.
Qed.
Lemma tab_good (c : config N) : tabulated c -> good N c (c_p c).
Proof.
  intros [[Sn Sp _ _] H8] a. split; [apply Sn|]. split; [split; auto|]. intro A. unfold active in A. zb. assumption.
Qed.
Lemma sane_dims (c : config N) : sane c -> dims N c <> [].
Proof.
  intros [Sn Sp Sd Sq]. destruct Sd as [a Ha]. intro E. apply Ha.
  assert (I : ~ In a (dims N c)) by (rewrite E; auto). unfold dims in I. rewrite filter_In in I.
  assert (H : active N c a = false).
  { destruct (active N c a); [|reflexivity]. exfalso. apply I. split; [destruct a; cbn; auto|reflexivity]. }
  unfold active in H. apply negb_false_iff, andb_true_iff in H. unfold inactive. lia.
Qed.
Lemma active_spec (c : config N) a : active N c a = true <-> ~ inactive c a.
Proof.
  unfold active, inactive. rewrite negb_true_iff, andb_false_iff, !Z.eqb_neq. lia.
Qed.
Lemma width_main (c : config N) : tabulated c -> forall a, 0 <= getc a (solver_width N c (c_p c)) <= getc a (ghost_zones3 c).
Proof.
  intros T a. pose proof (tab_good c T) as G. destruct T as [[_ Sp _ _] _].
  rewrite <- (widest_zones N c Sp). unfold solver_width. rewrite getc_prim_width.
  unfold interp_cost. rewrite getc_active_width.
  pose proof (ghost_width_pos (c_p c) (good_deg N c _ G)). pose proof (sr_pos _ (good_deg N c _ G a)).
  destruct (G a) as (_ & _ & G0).
  destruct a; cbn [widest getc cx cy cz] in *; destruct (active N c _); try rewrite (G0 eq_refl) in *;
    change (stencil_right 0) with 0 in *; destruct (c_limit c); lia.
Qed.
Lemma width_fall (c : config N) : tabulated c -> forall a, 0 <= getc a (solver_width N c (fallback_p N c)) <= getc a (ghost_zones3 c).
Proof.
  intros T a. pose proof (tab_good c T) as G. pose proof (good_fallback N c G) as GF.
  pose proof (width_main c T a) as M. split.
  - unfold solver_width. rewrite getc_prim_width. unfold interp_cost. rewrite getc_active_width.
    pose proof (ghost_width_pos _ (good_deg N c _ GF)). pose proof (sr_pos _ (good_deg N c _ GF a)).
    destruct (active N c a); lia.
  - eapply Z.le_trans; [|apply M]. unfold solver_width. rewrite !getc_prim_width. unfold interp_cost.
    rewrite !getc_active_width.
    assert (S1 : forall q p : Z, deg_ok p -> q = (if (0 <? p)%Z then 1 else 0) -> stencil_right q <= stencil_right p).
    { intros q p Hp ->. destruct (Z.ltb_spec 0 p); [|apply sr_pos; exact Hp].
      unfold stencil_right. pose proof (Z.div_le_mono (- p) (-(1)) 2). lia. }
    assert (SA : forall b, stencil_right (getc b (fallback_p N c)) <= stencil_right (getc b (c_p c))).
    { intro b. apply S1; [apply (G b)|]. destruct b; reflexivity. }
    assert (SP : stencil_right (pmax (fallback_p N c)) <= stencil_right (pmax (c_p c))).
    { apply S1.
      - pose proof (G AX) as (_ & D1 & _). pose proof (G AY) as (_ & D2 & _). pose proof (G AZ) as (_ & D3 & _).
        unfold deg_ok, pmax in *. cbn [getc] in *. lia.
      - pose proof (G AX) as (_ & D1 & _). pose proof (G AY) as (_ & D2 & _). pose proof (G AZ) as (_ & D3 & _).
        unfold deg_ok, pmax, fallback_p in *. cbn [getc cx cy cz] in *. repeat destr_if; zb; lia. }
    specialize (SA a). unfold ghost_width. destruct (active N c a); lia.
Qed.
Lemma padding_copies (c : config N) p junk t u : tabulated c -> closed c -> shp u = c_n c ->
  (forall a, 0 <= getc a (solver_width N c p) <= getc a (ghost_zones3 c)) ->
  padding N c p junk t u (copied (c_bc c) (c_n c) u).
Proof.
  intros [[Sn _ _ _] _] HC S HW.
  destruct (apply_copies N (c_bc c) junk u (solver_width N c p) t) as (o & E & R & SH & V).
  - intro a. rewrite S. specialize (Sn a). lia.
  - intro a. apply HW.
  - intro a. rewrite S. eapply copy_axis_narrow; [apply HC|apply HW].
  - exists o. split; [exact E|]. split; [exact R|]. split; [exact SH|]. intros v i Hi.
    destruct (V v i Hi) as [_ ->]. rewrite S. reflexivity.
Qed.
End Local.

(** ** the right-hand side on closed boxes *)
Theorem rhs_copies N (c : config N) heap x t u x' dt dudt :
  let E := copied N (c_bc c) (c_n c) u in
  let k := 4 * (x_evals x + 1) in
  tabulated c -> closed c -> (c_limit c = true -> c_limiter c <> L_unknown) -> shp u = c_n c -> 2 <= rows u ->
  flux_arrays_ok N c (rows u) (x_flux x) ->
  hydrodynamics N c heap x t u = Ok (x', (dt, dudt)) ->
  gdt N c (c_p c) E = Ok dt /\ rows dudt = rows u /\ shp dudt = c_n c /\
  flux_arrays_ok N c (rows u) (x_flux x') /\ x_evals x' = x_evals x + 1 /\
  exists F theta,
    flux_arrays_ok N c (rows u) F /\
    (forall d, active N c d = true -> forall v i, in_shape (face_shape d (c_n c)) i -> at_ (F d) v i = gflux N c (c_p c) L_none d E v i) /\
    mask_of N c (fun j => heap (k + j)) t u F dt theta /\
    forall v i, in_shape (c_n c) i -> at_ dudt v i = gsum N c (mixed N c theta E) v i.
Proof.
  intros E k T HC HL S R FO H.
  apply (hydrodynamics_lim N c heap x t u E x' dt dudt); auto.
  - apply tab_good; assumption.
  - apply sane_dims, T.
  - apply padding_copies; auto. apply width_main; assumption.
  - intro L. split; [auto|]. apply padding_copies; auto. apply width_fall; assumption.
Qed.

(** ** invariants of runs *)
Section Inv.
Context (N : Num).
Local Notation K := (car N).
Context (c : config N) (heap : Z -> Z -> ix -> K) (r : Z).
Context (P Q : field N -> Prop).
Context (Hn : forall a, 1 <= getc a (c_n c)) (Hr : 1 <= r).
Context (Pext : forall f g, P f -> (forall v i, in_shape (c_n c) i -> f v i = g v i) -> P g).
Context (Qext : forall f g, Q f -> (forall v i, in_shape (c_n c) i -> f v i = g v i) -> Q g).
Context (Pstep : forall k f g, P f -> Q g -> P (fun v i => nadd (f v i) (nmul k (g v i)))).
Context (Qscale : forall k g, Q g -> Q (fun v i => nmul k (g v i))).
Context (Qadd : forall f g, Q f -> Q g -> Q (fun v i => nadd (f v i) (g v i))).
Context (Pmid : forall f g, P f -> P g -> P (fun v i => nadd (nmul nhalf (f v i)) (nmul nhalf (g v i)))).
Definition holds (A : field N -> Prop) (u : arr K) : Prop := rows u = r /\ shp u = c_n c /\ A (at_ u).
Context (Hf : forall x t u x' dt k, flux_arrays_ok N c r (x_flux x) -> holds P u ->
  hydrodynamics N c heap x t u = Ok (x', (dt, k)) -> flux_arrays_ok N c r (x_flux x') /\ holds Q k).

Definition good_ext (A : field N -> Prop) : Prop := forall f g, A f -> (forall v i, in_shape (c_n c) i -> f v i = g v i) -> A g.
Lemma add_holds (A B C : field N -> Prop) u w : good_ext C -> (forall f g, A f -> B g -> C (fun v i => nadd (f v i) (g v i))) ->
  holds A u -> holds B w -> exists z, amap2 nadd u w = Ok z /\ holds C z.
Proof.
  intros HX H (R1 & S1 & A1) (R2 & S2 & B1).
  destruct (amap2_is nadd u w r (c_n c) (at_ u) (at_ w)) as (z & E & RZ & SZ & VZ); try (split; auto).
  exists z. split; [exact E|]. split; [exact RZ|]. split; [exact SZ|].
  eapply HX; [apply (H _ _ A1 B1)|]. intros v i _. symmetry. apply VZ.
Qed.
Lemma scale_holds (A B : field N -> Prop) k u : (forall f, A f -> B (fun v i => nmul k (f v i))) ->
  holds A u -> holds B (amap (fun x => nmul k x) u).
Proof. intros H (R1 & S1 & A1). split; [exact R1|]. split; [exact S1|]. apply (H _ A1). Qed.

Lemma respects_inv : respects N (arr_ops N) (arr_ops N) (solver_f N c heap) (solver_f N c heap)
  (fun u u' => u = u' /\ holds P u) (fun u u' => u = u' /\ holds Q u)
  (fun x x' => x = x' /\ flux_arrays_ok N c r (x_flux x)).
Proof.
  split.
  - intros s1 s2 t t' u1 u2 [<- FO] [<- HP]. unfold solver_f.
    destruct (hydrodynamics N c heap s1 t u1) as [[x' [dt k]]|e] eqn:E; [|reflexivity].
    destruct (Hf _ _ _ _ _ _ FO HP E) as [F1 F2]. cbn. split; [|split; [reflexivity|]]; split; auto.
  - intros k u1 u2 k1 k2 [<- H1] [<- H2]. cbn [vadd vscale arr_ops].
    destruct (add_holds P (fun f => exists g, Q g /\ forall v i, f v i = nmul k (g v i)) P u1 (amap (fun x => nmul k x) k1) Pext) as (z & E & HZ); auto.
    + intros f g Hf' (g' & Hg & E). eapply Pext; [apply (Pstep k f g' Hf' Hg)|]. intros v i _. rewrite E. reflexivity.
    + apply (scale_holds Q); [|exact H2]. intros f Hq. exists f. auto.
    + rewrite E. cbn. auto.
  - intros k k1 k2 [<- H1]. split; [reflexivity|]. apply (scale_holds Q); auto.
  - intros k1 k2 m1 m2 [<- H1] [<- H2]. cbn [vadd arr_ops].
    destruct (add_holds Q Q Q k1 m1 Qext) as (z & E & HZ); auto. rewrite E. cbn. auto.
  - intros u1 u2 v1 v2 [<- H1] [<- H2]. cbn [vadd vscale arr_ops].
    pose (H := fun f => exists g, P g /\ forall v i, f v i = nmul nhalf (g v i)).
    destruct (add_holds H H P (amap (fun x => nmul nhalf x) u1) (amap (fun x => nmul nhalf x) v1) Pext) as (z & E & HZ).
    + intros f g (f' & Pf & Ef) (g' & Pg & Eg). eapply Pext; [apply (Pmid f' g' Pf Pg)|]. intros v i _. rewrite Ef, Eg. reflexivity.
    + apply (scale_holds P); [|exact H1]. intros f Pf. exists f. auto.
    + apply (scale_holds P); [|exact H2]. intros f Pf. exists f. auto.
    + rewrite E. cbn. auto.
  - intros u1 u2 v1 v2 [<- (R1 & S1 & A1)] [<- (R2 & S2 & A2)]. cbn [vassign arr_ops].
    destruct (assign_all_is u1 v1 r (c_n c) (at_ v1) R1 S1) as (z & E & RZ & SZ & VZ).
    { split; [exact R2|]. split; [exact S2|]. reflexivity. }
    rewrite E. cbn. split; [reflexivity|]. split; [exact RZ|]. split; [exact SZ|].
    eapply Pext; [exact A2|]. intros v i _. symmetry. apply VZ.
Qed.
Lemma helper_flux x : x_flux (step_helper N c x) = x_flux x.
Proof. unfold step_helper, reset_troubles. destruct (c_limit c); [|reflexivity]. destruct (0 <? x_counter x); reflexivity. Qed.

Theorem run_invariant i av T n exact db log fuel u0 o : holds P u0 ->
  simulate c heap i av T n exact db log fuel u0 = Ok o -> holds P (o_u o).
Proof.
  intros H0 HS. unfold simulate in HS.
  pose proof (integrate_rel N (arr_ops N) (arr_ops N) (solver_f N c heap) (solver_f N c heap)
    (fun u u' => u = u' /\ holds P u) (fun u u' => u = u' /\ holds Q u)
    (fun x x' => x = x' /\ flux_arrays_ok N c r (x_flux x)) eq respects_inv i (step_helper N c) (step_helper N c)
    (snap_payload N c heap av) (snap_payload N c heap av)) as IR.
  specialize (IR ltac:(intros s1 s2 [<- FO]; split; [reflexivity|rewrite helper_flux; exact FO])).
  specialize (IR ltac:(intros s1 s2 t u1 u2 [<- _] [<- _]; destruct (snap_payload N c heap av s1 t u1); reflexivity)).
  specialize (IR T n exact db log fuel (ode_init N u0 (aux_init N c heap (rows u0))) (ode_init N u0 (aux_init N c heap (rows u0)))).
  unfold solver_integrate, solver_step in HS. rewrite HS in IR. cbn [res_rel] in IR.
  assert (I : ode_rel N (fun u u' => u = u' /\ holds P u) (fun x x' => x = x' /\ flux_arrays_ok N c r (x_flux x)) eq
     (ode_init (D := payload N) N u0 (aux_init N c heap (rows u0))) (ode_init N u0 (aux_init N c heap (rows u0)))).
  { split; try reflexivity; cbn; auto.
    split; [reflexivity|]. intro d. cbn. destruct H0 as [-> _]. auto. }
  destruct (IR I) as [_ [_ HU] _ _ _ _]. exact HU.
Qed.
End Inv.

(** ** periodic axes *)
Ltac co := repeat match goal with
  | |- context [getc ?a (setc ?a _ _)] => rewrite getc_setc_eq
  | |- context [getc ?b (setc ?a _ _)] => rewrite (getc_setc_ne a b) by (auto; congruence)
  end.
Section Periodic.
Context (N : Num).
Local Notation K := (car N).
Definition along (d : axis) (k : Z) : ix := setc d k zero3.
Lemma getc_along a d k : getc a (along d k) = if axis_eqb a d then k else 0.
Proof. destruct a, d; reflexivity. Qed.
Lemma copied_periodic (b : bcond N) n u d v j :
  (forall pos, bc_type b d pos = B_periodic) -> 1 <= getc d n -> - getc d n <= getc d j < getc d n ->
  copied N b n u v (shift (along d (getc d n)) j) = copied N b n u v j.
Proof.
  intros HB H1 HJ.
  assert (FD : folded B_periodic B_periodic (getc d n) (getc d j + getc d n) = folded B_periodic B_periodic (getc d n) (getc d j)).
  { rewrite !(folded_periodic _ _ (getc d n)) by lia. rewrite <- (Z.mul_1_l (getc d n)) at 1. apply Z_mod_plus_full. }
  assert (E3 : folded3 b n (shift (along d (getc d n)) j) = folded3 b n j).
  { unfold folded3. pose proof (HB SL) as HL. pose proof (HB SR) as HR.
    destruct d; unfold along, shift, zero3; cbn [setc getc cx cy cz] in *; rewrite ?Z.add_0_r, ?HL, ?HR, ?FD; reflexivity. }
  assert (EN : negated3 b n (shift (along d (getc d n)) j) v = negated3 b n j v).
  { unfold negated3. pose proof (HB SL) as HL. pose proof (HB SR) as HR.
    destruct d; unfold along, shift, zero3; cbn [setc getc cx cy cz] in *; rewrite ?Z.add_0_r, ?HL, ?HR, ?negated_periodic; reflexivity. }
  unfold copied. rewrite E3, EN. reflexivity.
Qed.
Lemma flux_periodic (c : config N) p l d u v i :
  good N c p -> active N c d = true -> both_ends B_periodic c d ->
  getc d (solver_width N c p) <= ghost_zones c d -> in_shape (c_n c) i ->
  gflux N c p l d (copied N (c_bc c) (c_n c) u) v (setc d (getc d (c_n c)) i)
  = gflux N c p l d (copied N (c_bc c) (c_n c) u) v (setc d 0 i).
Proof.
  intros G Ad [HB HZ] HW Hi.
  replace (setc d (getc d (c_n c)) i) with (shift (along d (getc d (c_n c))) (setc d 0 i)).
  2:{ destruct d; unfold along, shift, zero3; cbn [setc getc cx cy cz]; f_equal; lia. }
  rewrite <- gflux_shift by apply (good_deg N c p G). apply gflux_local; [apply (good_deg N c p G)|].
  intros w j Hj. unfold shiftf. apply copied_periodic; [exact HB|apply (G d)|].
  assert (F : in_shape (face_shape d (c_n c)) (setc d 0 i)).
  { intro a. specialize (Hi a). destruct (G a) as [? _]. unfold face_shape. destruct (axis_dec d a) as [<-|]; co; lia. }
  pose proof (reads_padded N c p d _ j G Ad F Hj d) as [L _].
  specialize (Hj d). rewrite axis_eqb_refl, getc_setc_eq in Hj.
  pose proof (ghost_width_ge p d (good_deg N c p G)).
  unfold solver_width in *. rewrite getc_prim_width in *. unfold interp_cost in *. rewrite getc_active_width, Ad in *. lia.
Qed.
End Periodic.

Section Conserve.
Local Notation N := RNum.
Lemma all_closed {M} ty (c : config M) : sane c -> copies ty -> all_ends ty c -> closed c.
Proof.
  intros S HC H a. destruct (active M c a) eqn:A.
  - apply active_spec in A. destruct (H a A) as [HB HZ]. right. split.
    + intro pos. rewrite HB. split; [exact HC|]. destruct S as [Sn _ _ _]. specialize (Sn a).
      destruct ty; cbn [enough]; try lia; destruct a; exact HZ.
    + rewrite !HB. auto.
  - left. unfold active in A. unfold ghost_zones3, ghost_zones, inactive_b. apply negb_false_iff in A.
    destruct a; cbn [getc cx cy cz] in *; rewrite A; reflexivity.
Qed.

(** runs whose derivative has total zero on the rows Q keep the totals *)
Theorem conserve_run (Q : Z -> Prop) (c : config N) heap i av T n exact db log fuel u0 o :
  tabulated c -> closed c -> (c_limit c = true -> c_limiter c <> L_unknown) -> shp u0 = c_n c -> 2 <= rows u0 ->
  (forall (u : arr R) theta (x : aux N) t (F : fluxes N) dt, shp u = c_n c -> rows u = rows u0 -> 
    flux_arrays_ok N c (rows u) F ->
    (forall d, active N c d = true -> forall v i, in_shape (face_shape d (c_n c)) i -> at_ (F d) v i = gflux N c (c_p c) L_none d (copied N (c_bc c) (c_n c) u) v i) ->
    mask_of N c (fun j => heap (4 * (x_evals x + 1) + j)) t u F dt theta ->
    forall d, active N c d = true -> forall v i, Q v -> in_shape (c_n c) i ->
      mixed N c theta (copied N (c_bc c) (c_n c) u) d v (setc d (getc d (c_n c)) i)
      = mixed N c theta (copied N (c_bc c) (c_n c) u) d v (setc d 0 i)) ->
  simulate c heap i av T n exact db log fuel u0 = Ok o ->
  rows (o_u o) = rows u0 /\ shp (o_u o) = c_n c /\
  forall v, Q v -> total (c_n c) (at_ (o_u o) v) = total (c_n c) (at_ u0 v).
Proof.
  intros HT HC HL S0 R0 HM HS.
  assert (Hn : forall a, 1 <= getc a (c_n c)) by apply HT.
  assert (X : holds N c (rows u0) (fun f => forall v, Q v -> total (c_n c) (f v) = total (c_n c) (at_ u0 v)) (o_u o)).
  2:{ destruct X as (X1 & X2 & X3). auto. }
  revert HS. apply (run_invariant N c heap (rows u0)
    (fun f => forall v, Q v -> total (c_n c) (f v) = total (c_n c) (at_ u0 v))
    (fun f => forall v, Q v -> total (c_n c) (f v) = 0%R)).
  - intros f g H E v Qv. rewrite <- (H v Qv). apply total_ext. intros j Hj. symmetry. apply E. exact Hj.
  - intros f g H E v Qv. rewrite <- (H v Qv). apply total_ext. intros j Hj. symmetry. apply E. exact Hj.
  - intros k f g Hf Hg v Qv. cbn [nadd nmul RNum]. rewrite total_add, total_scale, Hf, Hg by exact Qv. lra.
  - intros k g Hg v Qv. cbn [nadd nmul RNum]. rewrite total_scale, Hg by exact Qv. lra.
  - intros f g Hf Hg v Qv. cbn [nadd nmul RNum]. rewrite total_add, Hf, Hg by exact Qv. lra.
  - intros f g Hf Hg v Qv. cbn [nadd nmul RNum]. rewrite total_add, !total_scale, Hf, Hg by exact Qv. unfold nhalf. cbn [ndiv nofZ RNum]. lra.
  - intros x t u x' dt k FO (Ru & Su & _) H. rewrite <- Ru in *.
    destruct (rhs_copies N c heap x t u x' dt k HT HC HL Su ltac:(lia) FO H) as (_ & RK & SK & FO' & _ & F & theta & FF & VF & MO & VK).
    split; [exact FO'|]. split; [exact RK|]. split; [exact SK|]. intros v Qv.
    rewrite (total_ext _ _ (gsum N c (mixed N c theta (copied N (c_bc c) (c_n c) u)) v)) by (intros j Hj; apply VK; exact Hj).
    apply gsum_total; [exact Hn|]. intros d Ad j Hj. eapply HM; eauto.
  - split; [reflexivity|]. split; [exact S0|]. reflexivity.
Qed.

(** C38 *)
Theorem periodic_conserves (c : config N) heap i av T n exact db log fuel u0 o :
  tabulated c -> all_ends B_periodic c -> c_limit c = false -> shp u0 = c_n c -> 2 <= rows u0 ->
  simulate c heap i av T n exact db log fuel u0 = Ok o ->
  rows (o_u o) = rows u0 /\ shp (o_u o) = c_n c /\
  forall v, total (c_n c) (at_ (o_u o) v) = total (c_n c) (at_ u0 v).
Proof.
  intros HT HE HL S0 R0 HS.
  pose proof (all_closed B_periodic c (proj1 HT) I HE) as HC.
  destruct (conserve_run (fun _ => True) c heap i av T n exact db log fuel u0 o) as (A & B & C); auto.
  - intro L. congruence.
  - intros u theta x t F dt Su Ru FO VF MO d Ad v j _ Hj.
    destruct theta as [th|]; [destruct MO as [MO _]; congruence|]. unfold mixed.
    apply flux_periodic; auto.
    + apply tab_good; assumption.
    + apply HE. apply active_spec. assumption.
    + pose proof (width_main N c HT d) as [_ W]. destruct d; exact W.
Qed.
End Conserve.
