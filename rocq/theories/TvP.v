(** The limited scheme of degree one does not increase the total variation. *)
From Coq Require Import ZArith List Bool Lia Reals Lra FunctionalExtensionality.
From Verif Require Import Err Num NdArray HydroM RiemannM StencilsM FvM BcM LimitM OdeM SolverM Spec SpecBc SpecLim SpecOde SpecSolver SpecCons SpecScheme SpecSym SpecDrift SpecTv
  NdArrayP FvP BcP BcQ OpP SolverP OdeP RelP RunP ConsP LoopP RkP ExistP SchemeP SymP SeamP ShiftP UniformP MirrorP LimExistP SymLimP PosP DriftP.
Import ListNotations.
Local Open Scope R_scope.

(** ** sums over a line or a ring of cells *)
Lemma sum_first m (h : Z -> R) : sum_to (S m) h = h 0%Z + sum_to m (fun x => h (x + 1)%Z).
Proof.
  induction m as [|m IH]; [cbn; lra|]. change (sum_to (S m) h + h (Z.of_nat (S m)) = h 0%Z + (sum_to m (fun x => h (x + 1)%Z) + h (Z.of_nat m + 1)%Z)).
  rewrite IH. replace (Z.of_nat (S m)) with (Z.of_nat m + 1)%Z by lia. lra.
Qed.
Lemma sum_le m (f h : Z -> R) : (forall x, (0 <= x < Z.of_nat m)%Z -> f x <= h x) -> sum_to m f <= sum_to m h.
Proof. induction m as [|m IH]; intro H; cbn [sum_to]; [lra|]. apply Rplus_le_compat; [apply IH; intros; apply H; lia|apply H; lia]. Qed.
(** finitely many choices *)
Lemma pick m (P : Z -> R -> Prop) : (forall x, (0 <= x < Z.of_nat m)%Z -> exists y, P x y) -> exists f, forall x, (0 <= x < Z.of_nat m)%Z -> P x (f x).
Proof.
  induction m as [|m IH]; intro H; [exists (fun _ => 0); lia|]. destruct IH as [f F]; [intros x Hx; apply H; lia|]. destruct (H (Z.of_nat m) ltac:(lia)) as [y Y].
  exists (fun x => if (x =? Z.of_nat m)%Z then y else f x). intros x Hx. destruct (Z.eqb_spec x (Z.of_nat m)) as [->|NE]; [exact Y|apply F; lia].
Qed.
Definition after (closed : bool) (n x : Z) : Z := if (x =? n - 1)%Z then (if closed then 0 else n - 1)%Z else (x + 1)%Z.
Section Line.
Context (cl : bool) (n : Z) (Hn : (1 <= n)%Z).
Local Notation b := (before cl n).
Local Notation a := (after cl n).
Local Notation ok x := (0 <= x < n)%Z.
Lemma before_ok x : ok x -> ok (b x). Proof. unfold before. destruct (Z.eqb_spec x 0); destruct cl; lia. Qed.
Lemma after_ok x : ok x -> ok (a x). Proof. unfold after. destruct (Z.eqb_spec x (n - 1)); destruct cl; lia. Qed.
Lemma split_n : exists m, Z.to_nat n = S m /\ n = (Z.of_nat m + 1)%Z.
Proof. exists (Z.to_nat (n - 1)). lia. Qed.
Lemma sum_before (h : Z -> R) : (forall x, ok x -> 0 <= h x) -> (cl = false -> h 0%Z = 0) -> sum_to (Z.to_nat n) (fun x => h (b x)) <= sum_to (Z.to_nat n) h.
Proof.
  intros P Z0. destruct split_n as (m & -> & E). rewrite sum_first. cbn [sum_to].
  assert (S1 : sum_to m (fun x => h (b (x + 1)%Z)) = sum_to m h).
  { apply sum_ext. intros x Hx. unfold before. destruct (Z.eqb_spec (x + 1) 0); [lia|]. f_equal. lia. }
  rewrite S1. unfold before. cbn [Z.eqb]. pose proof (P (Z.of_nat m) ltac:(lia)). destruct cl; [replace (n - 1)%Z with (Z.of_nat m) by lia; lra|rewrite Z0 by reflexivity; lra].
Qed.
Lemma sum_after (h : Z -> R) : (forall x, ok x -> 0 <= h x) -> (cl = false -> h (n - 1)%Z = 0) -> sum_to (Z.to_nat n) (fun x => h (a x)) <= sum_to (Z.to_nat n) h.
Proof.
  intros P Z0. destruct split_n as (m & -> & E). rewrite (sum_first m h). cbn [sum_to].
  assert (S1 : sum_to m (fun x => h (a x)) = sum_to m (fun x => h (x + 1)%Z)).
  { apply sum_ext. intros x Hx. unfold after. destruct (Z.eqb_spec x (n - 1)); [lia|reflexivity]. }
  rewrite S1. unfold after. destruct (Z.eqb_spec (Z.of_nat m) (n - 1)); [|lia]. pose proof (P 0%Z ltac:(lia)). destruct cl; [lra|rewrite Z0 by reflexivity; lra].
Qed.
Lemma jumps_after f : jumps cl n f = sum_to (Z.to_nat n) (fun x => Rabs (f (a x) - f x)).
Proof.
  unfold jumps. destruct split_n as (m & -> & E). rewrite sum_first. cbn [sum_to].
  assert (S1 : sum_to m (fun x => Rabs (f (x + 1)%Z - f (b (x + 1)%Z))) = sum_to m (fun x => Rabs (f (a x) - f x))).
  { apply sum_ext. intros x Hx. unfold before, after. destruct (Z.eqb_spec (x + 1) 0); [lia|]. destruct (Z.eqb_spec x (n - 1)); [lia|]. replace (x + 1 - 1)%Z with x by lia. reflexivity. }
  rewrite S1. unfold before, after. cbn [Z.eqb]. destruct (Z.eqb_spec (Z.of_nat m) (n - 1)) as [E'|]; [|lia].
  destruct cl; [rewrite E'; lra|]. rewrite <- E'. rewrite !Rminus_eq_0. rewrite Rabs_R0. lra.
Qed.
Context (f f' C : Z -> R) (HC : forall x, ok x -> 0 <= C x <= 1).
Lemma mean_le (x y p q : R) : 0 <= p <= 1 -> 0 <= q -> Rabs (x - p * x + q * y) <= Rabs x - p * Rabs x + q * Rabs y.
Proof.
  intros P Q. replace (x - p * x) with ((1 - p) * x) by ring. eapply Rle_trans; [apply Rabs_triang|]. rewrite !Rabs_mult. rewrite (Rabs_right (1 - p)), (Rabs_right q) by lra. lra.
Qed.
Lemma sum_mean (h k : Z -> R) m : sum_to m (fun x => h x - C x * h x + k x) = sum_to m h - sum_to m (fun x => C x * h x) + sum_to m k.
Proof. induction m as [|m IH]; cbn [sum_to]; [lra|]. rewrite IH. lra. Qed.
(** each cell moves towards the one before it *)
Lemma jumps_forward : (forall x, ok x -> f' x = f x - C x * (f x - f (b x))) -> jumps cl n f' <= jumps cl n f.
Proof.
  intro H. unfold jumps. set (D := fun x => f x - f (b x)). set (h := fun x => C x * Rabs (D x)).
  apply Rle_trans with (sum_to (Z.to_nat n) (fun x => Rabs (D x) - C x * Rabs (D x) + h (b x))).
  - apply sum_le. intros x Hx. assert (X : ok x) by lia. pose proof (before_ok x X) as BX. rewrite (H x X), (H _ BX).
    replace (f x - C x * (f x - f (b x)) - (f (b x) - C (b x) * (f (b x) - f (b (b x))))) with (D x - C x * D x + C (b x) * D (b x)) by (unfold D; ring).
    apply mean_le; [apply HC, X|apply HC, BX].
  - rewrite (sum_mean (fun x => Rabs (D x))). assert (S1 : sum_to (Z.to_nat n) (fun x => h (b x)) <= sum_to (Z.to_nat n) h).
    { apply sum_before; unfold h; [intros x X; apply Rmult_le_pos; [apply HC, X|apply Rabs_pos]|]. intro E. unfold D, before. rewrite E. cbn [Z.eqb]. rewrite Rminus_eq_0, Rabs_R0. ring. }
    unfold h in S1 at 2. unfold D in *. lra.
Qed.
(** each cell moves towards the one after it *)
Lemma jumps_backward : (forall x, ok x -> f' x = f x - C x * (f x - f (a x))) -> jumps cl n f' <= jumps cl n f.
Proof.
  intro H. rewrite !jumps_after. set (D := fun x => f (a x) - f x). set (h := fun x => C x * Rabs (D x)).
  apply Rle_trans with (sum_to (Z.to_nat n) (fun x => Rabs (D x) - C x * Rabs (D x) + h (a x))).
  - apply sum_le. intros x Hx. assert (X : ok x) by lia. pose proof (after_ok x X) as BX. rewrite (H x X), (H _ BX).
    replace (f (a x) - C (a x) * (f (a x) - f (a (a x))) - (f x - C x * (f x - f (a x)))) with (D x - C x * D x + C (a x) * D (a x)) by (unfold D; ring).
    apply mean_le; [apply HC, X|apply HC, BX].
  - rewrite (sum_mean (fun x => Rabs (D x))). assert (S1 : sum_to (Z.to_nat n) (fun x => h (a x)) <= sum_to (Z.to_nat n) h).
    { apply sum_after; unfold h; [intros x X; apply Rmult_le_pos; [apply HC, X|apply Rabs_pos]|]. intro E. unfold D, after. rewrite E, Z.eqb_refl, Rminus_eq_0, Rabs_R0. ring. }
    unfold h in S1 at 2. unfold D in *. lra.
Qed.
(** the total variation is convex *)
Lemma jumps_convex (g z : Z -> R) t : 0 <= t <= 1 -> (forall x, ok x -> z x = t * f x + (1 - t) * g x) -> jumps cl n z <= t * jumps cl n f + (1 - t) * jumps cl n g.
Proof.
  intros T H. unfold jumps. rewrite <- !sum_scale, <- sum_add. apply sum_le. intros x Hx. assert (X : ok x) by lia. rewrite (H x X), (H _ (before_ok x X)).
  replace (t * f x + (1 - t) * g x - (t * f (b x) + (1 - t) * g (b x))) with (t * (f x - f (b x)) + (1 - t) * (g x - g (b x))) by ring.
  eapply Rle_trans; [apply Rabs_triang|]. rewrite !Rabs_mult, (Rabs_right t), (Rabs_right (1 - t)) by lra. lra.
Qed.
End Line.
Lemma jumps_ext cl n (f g : Z -> R) : (forall x, (0 <= x < n)%Z -> f x = g x) -> jumps cl n f = jumps cl n g.
Proof. intro H. unfold jumps. apply sum_ext. intros x Hx. rewrite (H x) by lia. rewrite (H (before cl n x)); [reflexivity|]. apply before_ok; lia. Qed.

Lemma fold_before tl tr n x : (0 <= x < n)%Z -> copies tl -> folded tl tr n (x + -1) = before (match tl with B_periodic => true | _ => false end) n x.
Proof.
  intros X C1. unfold folded, before. destruct (Z.eqb_spec x 0) as [->|NX].
  - change (0 + -1)%Z with (-1)%Z. change (-1 <? 0)%Z with true. destruct tl; unfold source; try destruct C1; lia.
  - destruct (Z.ltb_spec (x + -1) 0); [lia|]. destruct (Z.leb_spec n (x + -1)); lia.
Qed.
Lemma fold_after tl tr n x : (0 <= x < n)%Z -> copies tl -> copies tr -> (tl = B_periodic <-> tr = B_periodic) -> folded tl tr n (x + 1) = after (match tl with B_periodic => true | _ => false end) n x.
Proof.
  intros X C1 C2 E. unfold folded, after. destruct (Z.ltb_spec (x + 1) 0); [lia|]. destruct (Z.eqb_spec x (n - 1)) as [->|NX].
  - destruct (Z.leb_spec n (n - 1 + 1)); [|lia]. destruct tr, tl; unfold source; try destruct C1; try destruct C2; try lia; exfalso;
    first [pose proof (proj1 E eq_refl); discriminate|pose proof (proj2 E eq_refl); discriminate].
  - destruct (Z.leb_spec n (x + 1)); lia.
Qed.
(** ** runs *)
Section Run.
Context (c : config RNum) (heap : Z -> Z -> ix -> R) (r : Z) (HT : tabulated c) (HC : closed c) (HL : c_limit c = true) (HF : c_force c = true).
Context (HK : known_options c) (HV : c_convex c = false \/ flat_box c) (HR : c_rs c = RS_upwind) (HW : forall a, 0 < width c a).
Context (V : axis -> R) (HP : passes_walls c V) (lo hi : R) (LO : 0 < lo) (HU : unhurried c V) (Hr : (5 <= r)%Z).
Context (d : axis) (HO : only_axis c d) (HE : ends_alike c d) (M : R).
Local Notation n := (c_n c).
Local Notation N := (getc d (c_n c)).
Definition shaped_tv (u : arr R) : Prop := shaped_drift c r V lo hi u /\ variation c d u <= M.
Lemma n_pos : (1 <= N)%Z. Proof. pose proof (sane_n c (proj1 HT) d). lia. Qed.
Lemma on_line x : (0 <= x < N)%Z -> in_shape n (setc d x (mkix 0 0 0)).
Proof.
  intros X a. destruct (axis_dec a d) as [->|NE]; [rewrite getc_setc_eq; exact X|]. rewrite getc_setc_ne by auto. pose proof (sane_n c (proj1 HT) a). destruct a; cbn [getc cx cy cz] in *; lia.
Qed.
Lemma tv_convex : convex_set r n shaped_tv.
Proof.
  destruct (drift_convex c r V lo hi Hr) as [D1 D2]. split; [intros u [H _]; exact (D1 u H)|].
  intros x y z t [Dx Vx] [Dy Vy] T Sz EQ. split; [exact (D2 x y z t Dx Dy T Sz EQ)|].
  assert (L : variation c d z <= t * variation c d x + (1 - t) * variation c d y).
  { unfold variation. apply (jumps_convex _ _ n_pos); [exact T|]. intros k Hk. apply EQ. split; [lia|apply on_line, Hk]. }
  eapply Rle_trans; [exact L|]. nra.
Qed.
Lemma active_d : inactive_b c d = false.
Proof. destruct HO as [A _]. unfold inactive in A. unfold inactive_b. destruct (Z.eqb_spec (getc d n) 1); destruct (Z.eqb_spec (getc d (c_p c)) 0); try reflexivity. exfalso. apply A. split; assumption. Qed.
Lemma others a : a <> d -> inactive_b c a = true.
Proof. intro NE. destruct (proj2 HO a NE) as [A B]. unfold inactive_b. rewrite A, B. reflexivity. Qed.
(** the cell whose value the ghost cells next to the ends have *)
Lemma beside (u : arr R) x : (0 <= x < N)%Z -> 
  filled c u 0%Z (up d (-1) (setc d x (mkix 0 0 0))) = at_ u 0%Z (setc d (before (ring c d) N x) (mkix 0 0 0)) /\
  filled c u 0%Z (up d 1 (setc d x (mkix 0 0 0))) = at_ u 0%Z (setc d (after (ring c d) N x) (mkix 0 0 0)).
Proof.
  intro X.
  assert (F : forall i, filled c u 0%Z i = at_ u 0%Z (folded3 (c_bc c) n i)) by reflexivity. rewrite !F.
  assert (OT : forall a y, a <> d -> getc a (folded3 (c_bc c) n (setc d y (mkix 0 0 0))) = 0%Z).
  { intros a y NE. rewrite getc_folded3, getc_setc_ne by auto. assert (Z0 : getc a (mkix 0 0 0) = 0%Z) by (destruct a; reflexivity). rewrite Z0.
    apply folded_inside. pose proof (sane_n c (proj1 HT) a). lia. }
  assert (UP : forall m y, up d m (setc d y (mkix 0 0 0)) = setc d (y + m) (mkix 0 0 0)).
  { intros m y. unfold up. rewrite getc_setc_eq. destruct d; reflexivity. }
  rewrite !UP.
  assert (G : forall y y', folded (bc_type (c_bc c) d SL) (bc_type (c_bc c) d SR) N y = y' -> folded3 (c_bc c) n (setc d y (mkix 0 0 0)) = setc d y' (mkix 0 0 0)).
  { intros y y' E. apply ix_ext. intro a. destruct (axis_dec a d) as [->|NE]; [rewrite getc_folded3, !getc_setc_eq; exact E|]. rewrite OT by exact NE. rewrite getc_setc_ne by auto. destruct a; reflexivity. }
  assert (CP : forall pos, copies (bc_type (c_bc c) d pos)).
  { destruct (HC d) as [Z0|[H _]]; [|intro pos; apply H]. exfalso. pose proof active_d as A. unfold ghost_zones3, ghost_zones in Z0.
    assert (E : getc d (ghost_zones3 c) = 0%Z) by exact Z0. pose proof (near_padded c HT HL (mkix 0 0 0) d (-1) (first_cell c HT) A ltac:(lia) d) as Q.
    unfold up in Q. rewrite getc_setc_eq in Q. rewrite E in Q. assert (K : getc d (mkix 0 0 0) = 0%Z) by (destruct d; reflexivity). lia. }
  pose proof n_pos as NP. unfold ends_alike in HE. pose proof (CP SL) as C1. pose proof (CP SR) as C2. unfold ring.
  split; f_equal; apply G.
  - apply fold_before; assumption.
  - apply fold_after; assumption.
Qed.
Lemma rhs_tv dt s t t' u s' h k : 0 <= dt -> factor c * (dt * crossings c V) <= 1 -> limiting RNum c r s -> shaped_tv u ->
  solver_f RNum c heap s t t' u = Ok (s', (h, k)) ->
  limiting RNum c r s' /\ SpecOde.shaped r n k /\ forall z, SpecOde.shaped r n z -> (forall v i, SpecOde.inside r n v i -> at_ z v i = at_ u v i + dt * at_ k v i) -> shaped_tv z.
Proof.
  intros D0 D1 LX [SD TV] H. destruct (rhs_drift c heap r HT HC HL HF HK HV HR HW V HP lo hi LO HU Hr dt s t t' u s' h k D0 D1 LX SD H) as (A & B & Z).
  split; [exact A|]. split; [exact B|]. intros z Sz Vz. destruct (Z z Sz Vz) as [SZ W]. split; [exact SZ|]. eapply Rle_trans; [|exact TV].
  assert (INC : forall x, (0 <= x < Z.of_nat (Z.to_nat N))%Z -> exists C, 0 <= C <= 1 /\ at_ z 0%Z (setc d x (mkix 0 0 0)) = at_ u 0%Z (setc d x (mkix 0 0 0)) - C * (at_ u 0%Z (setc d x (mkix 0 0 0)) - filled c u 0%Z (neighbour V d (setc d x (mkix 0 0 0))))).
  { intros x Hx. destruct (W _ (on_line x ltac:(lia))) as (w & W1 & W2 & W3). exists (w d).
    assert (W0 : forall a, a <> d -> w a = 0) by (intros a NE; apply W1, others, NE). cbv zeta in W3.
    pose proof (proj1 (W1 d)) as WD. split; [split; [exact WD|]|].
    - destruct d; rewrite ?(W0 AX), ?(W0 AY), ?(W0 AZ) in W2 by discriminate; lra.
    - rewrite W3. destruct d; rewrite ?(W0 AX), ?(W0 AY), ?(W0 AZ) by discriminate; lra. }
  apply pick in INC. destruct INC as (C & HCi). assert (HCx : forall x, (0 <= x < N)%Z -> _) by (intros x X; exact (HCi x ltac:(lia))). cbv beta in HCx.
  unfold variation. destruct (Rlt_dec 0 (V d)) as [P|P].
  - apply (jumps_forward _ _ n_pos _ _ C); [intros x X; apply HCx, X|]. intros x X. destruct (HCx x X) as [_ E]. rewrite E. unfold neighbour. destruct (Rlt_dec 0 (V d)); [|contradiction].
    rewrite (proj1 (beside u x X)). reflexivity.
  - apply (jumps_backward _ _ n_pos _ _ C); [intros x X; apply HCx, X|]. intros x X. destruct (HCx x X) as [_ E]. rewrite E. unfold neighbour. destruct (Rlt_dec 0 (V d)); [contradiction|].
    rewrite (proj2 (beside u x X)). reflexivity.
Qed.
End Run.
Lemma snap_tv (c : config RNum) heap r V lo hi d M av x t u w : tabulated c -> closed c -> shaped_tv c r V lo hi d M u -> snap_payload RNum c heap av x t u = Ok w ->
  (forall a, (getc a (c_p c) <= 1)%Z) -> variation c d (fst w) <= M.
Proof.
  intros HT HC [[[Ru Su] Du] TV] H DG.
  destruct (payload_is RNum c heap av x t u (filled c u) HT Su (padding_filled c HT HC t u Su)) as (w' & E & Rw & Sw & Vw).
  rewrite E in H. injection H as <-. cbn [fst].
  assert (P : forall i, in_shape (c_n c) i -> at_ w' 0%Z i = at_ u 0%Z i).
  { intros i Hi. etransitivity; [apply Vw; exact Hi|]. rewrite (gprim_is c HT).
    assert (Q : filled c u 0%Z i = at_ u 0%Z i) by (apply inside_filled; assumption).
    destruct av; [rewrite (low_prim c (c_p c) (flat_main c HT DG)); exact Q|]. unfold centre_prim, block. cbv zeta. rewrite !line_c by (apply flat_main; assumption). exact Q. }
  refine (eq_ind_r (fun q => q <= M) TV _). unfold variation. apply jumps_ext. intros k Hk. apply P, on_line; assumption.
Qed.
Theorem tv_kept : forall (c : config RNum) heap i as_averages T m exact downbeats log fuel u0 o V lo hi d,
  tabulated c -> closed c -> c_limit c = true -> c_force c = true -> known_options c -> (c_convex c = false \/ flat_box c) ->
  c_rs c = RS_upwind -> (forall a, 0 < width c a) -> passes_walls c V -> unhurried c V -> only_axis c d -> ends_alike c d ->
  i = I_euler \/ i = I_ssprk2 \/ i = I_ssprk3 ->
  shp u0 = c_n c -> (5 <= rows u0)%Z -> 0 < lo -> drifting V lo hi u0 -> List.Forall (fun x => 0 <= x) downbeats ->
  simulate c heap i as_averages T m exact downbeats log fuel u0 = Ok o ->
  variation c d (o_u o) <= variation c d u0 /\
  ((forall a, (getc a (c_p c) <= 1)%Z) -> List.Forall (fun s => variation c d (fst (snd s)) <= variation c d u0) (o_snaps o)).
Proof.
  intros c heap i av T m ex db log fuel u0 o V lo hi d HT HC HL HF HK HV HR HW HP HU HO HE Hi Su Ru LO D HD H. unfold simulate, solver_integrate in H.
  apply (fine_integrate (arr_ops RNum) (solver_step RNum c heap i) (step_helper RNum c) (snap_payload RNum c heap av)
    (fun x _ u => limiting RNum c (rows u0) x /\ shaped_tv c (rows u0) V lo hi d (variation c d u0) u)
    (fun w => (forall a, (getc a (c_p c) <= 1)%Z) -> variation c d (fst w) <= variation c d u0)) in H.
  - destruct H as [[_ [_ G]] F]. split; [exact G|]. intro DG. eapply List.Forall_impl; [|exact F]. intros x Hx. apply Hx, DG.
  - intros s t u target s' dt un u' [LX SD] HTg HS HA.
    apply (step_in c heap (rows u0) HT HC HL HK HV HW V HP lo hi LO HU Ru (shaped_tv c (rows u0) V lo hi d (variation c d u0)) i s t u target s' dt un u'); auto.
    + apply tv_convex; assumption.
    + intros u1 [A _]. exact A.
    + intros dt1 s1 t1 t1' u1 s1' h1 k1 A1 A2 A3 A4 A5. eapply rhs_tv; eassumption.
  - intros s t u w [_ SD] HS DG. eapply snap_tv; eassumption.
  - split; [apply limiting_init|]. split; [split; [split; [reflexivity|exact Su]|exact D]|lra].
  - exact HD.
Qed.
