(** Exact boundary values that move with the flow: the right-hand side is exact in every cell,
    and so are runs of forward Euler. *)
From Coq Require Import ZArith List Bool Reals Lra Lia Sorted FunctionalExtensionality.
From Coquelicot Require Import Coquelicot.
From Verif Require Import Err Num PySlice NdArray NdArrayP HydroM HydroP StencilsM FvM FvP RiemannM RiemannP
  BcM LimitM OdeM SolverM Spec SpecBc SpecSolver SpecCons SpecPoly PolyP StencilP SpecScheme SchemeP ExistP RunP RkP SpecOde OdeP OdeT ConsP
  PosP SpecExact ExactP ExactQ SpecStage.
Import ListNotations.
Local Open Scope R_scope.

(** ** a polynomial carried along is a polynomial of the same degrees *)
Definition times_coord (a : axis) (t : mono) : mono :=
  let '(k, (x, y, z)) := t in (k, match a with AX => (S x, y, z) | AY => (x, S y, z) | AZ => (x, y, S z) end).
Definition coord (a : axis) (x y z : R) : R := match a with AX => x | AY => y | AZ => z end.
(** times (coordinate - d) *)
Definition times_shifted (a : axis) (d : R) (l : list mono) : list mono := map (times_coord a) l ++ scaled (- d) l.
Lemma peval_times a l x y z : peval3 (map (times_coord a) l) x y z = coord a x y z * peval3 l x y z.
Proof. induction l as [|[k [[p q] r]] l IH]; [cbn; ring|]. cbn [map peval3]. rewrite IH. destruct a; cbn; ring. Qed.
Lemma peval_shifted a d l x y z : peval3 (times_shifted a d l) x y z = (coord a x y z - d) * peval3 l x y z.
Proof. unfold times_shifted. rewrite peval_app, peval_times, peval_scaled. ring. Qed.
Definition within (nx ny nz nt : nat) (t : mono) : Prop := let '(_, (a, b, c)) := t in (a <= nx /\ b <= ny /\ c <= nz /\ a + b + c <= nt)%nat.
Lemma within_shifted a d l nx ny nz nt : List.Forall (within nx ny nz nt) l ->
  List.Forall (within (match a with AX => S nx | _ => nx end) (match a with AY => S ny | _ => ny end) (match a with AZ => S nz | _ => nz end) (S nt)) (times_shifted a d l).
Proof.
  intro H. apply Forall_app. split; induction H as [|[k [[p q] r]] l H _ IH]; constructor; try assumption; cbn in H |- *; destruct a; cbn; lia.
Qed.
Fixpoint powers (a : axis) (d : R) (n : nat) (l : list mono) : list mono :=
  match n with O => l | S n => times_shifted a d (powers a d n l) end.
Lemma peval_powers a d n l x y z : peval3 (powers a d n l) x y z = (coord a x y z - d) ^ n * peval3 l x y z.
Proof. induction n; cbn [powers pow]; [ring|]. rewrite peval_shifted, IHn. ring. Qed.
Lemma within_powers a d n l nx ny nz nt : List.Forall (within nx ny nz nt) l ->
  List.Forall (within (match a with AX => (n + nx)%nat | _ => nx end) (match a with AY => (n + ny)%nat | _ => ny end) (match a with AZ => (n + nz)%nat | _ => nz end) (n + nt)) (powers a d n l).
Proof.
  intro H. induction n; cbn [powers].
  - destruct a; exact H.
  - apply (within_shifted a d) in IHn. destruct a; exact IHn.
Qed.
Lemma within_more nx ny nz nt nx' ny' nz' nt' l : (nx <= nx' -> ny <= ny' -> nz <= nz' -> nt <= nt' ->
  List.Forall (within nx ny nz nt) l -> List.Forall (within nx' ny' nz' nt') l)%nat.
Proof. intros. eapply Forall_impl; [|eassumption]. intros [k [[p q] r]] W. cbn in *. lia. Qed.
Lemma carried_list V t l nx ny nz nt : List.Forall (within nx ny nz nt) l ->
  exists L, List.Forall (within nx ny nz nt) L /\ forall x y z, peval3 L x y z = carried V t (peval3 l) x y z.
Proof.
  induction 1 as [|[k [[p q] r]] l H _ (L & W & E)].
  - exists []. split; [constructor|]. intros. reflexivity.
  - exists (powers AX (t * V AX) p (powers AY (t * V AY) q (powers AZ (t * V AZ) r [(k, (0, 0, 0)%nat)])) ++ L). split.
    + apply Forall_app. split; [|exact W]. cbn in H.
      eapply within_more; [| | | |apply within_powers, within_powers, within_powers; constructor; [|constructor]; cbn; repeat split; constructor]; cbn; lia.
    + intros. rewrite peval_app, E, !peval_powers. unfold carried. cbn [peval3 tval coord pow]. ring.
Qed.
Lemma within_degree nx ny nz nt l : degree3 nx ny nz l -> total_degree nt l -> List.Forall (within nx ny nz nt) l.
Proof.
  induction 1 as [|[k [[p q] r]] l H _ IH]; [constructor|]. intro T. apply Forall_cons_iff in T as [T1 T2]. constructor; [|exact (IH T2)].
  cbn in *. lia.
Qed.
Lemma degree_within nx ny nz nt l : List.Forall (within nx ny nz nt) l -> degree3 nx ny nz l /\ total_degree nt l.
Proof. intro H. split; (eapply Forall_impl; [|exact H]); intros [k [[p q] r]] W; cbn in *; lia. Qed.
Lemma degree_total nx ny nz l : degree3 nx ny nz l -> total_degree (nx + ny + nz) l.
Proof. intro H. eapply Forall_impl; [|exact H]. intros [k [[p q] r]] W; cbn in *; lia. Qed.

(** ** the ghost cells hold exact means *)
Lemma outside_exact (c : config RNum) V P s f t u j r : exact_sides c V P s f -> exact_means c V P s f t u ->
  neighbourhood c j -> (0 <= r < rows u)%Z ->
  extended RNum (middle_of c) (c_bc c) (c_n c) t u r j =
    cell_mean c (fun x y z => conserved (c_gamma c) (drifting V P s (carried V t f x y z)) r) j.
Proof.
  intros HS HM Hj Hr.
  assert (G : forall a pos F, (getc a j < 0 \/ getc a (c_n c) <= getc a j)%Z ->
    ghost RNum (middle_of c) (c_bc c) (rows u) (c_n c) t a pos F r j =
    cell_mean c (fun x y z => conserved (c_gamma c) (drifting V P s (carried V t f x y z)) r) j).
  { intros a pos F Ho.
    assert (I : inactive_b c a = false).
    { specialize (Hj a). unfold reach in Hj. destruct (inactive_b c a); [lia|reflexivity]. }
    destruct (HS a pos I) as (T & q & Q & E). unfold ghost. rewrite T, Q. cbn [prescribed]. rewrite E. reflexivity. }
  unfold extended, extend.
  destruct (Z.ltb_spec (getc AZ j) 0); [apply G; auto|]. destruct (Z.leb_spec (getc AZ (c_n c)) (getc AZ j)); [apply G; auto|].
  destruct (Z.ltb_spec (getc AY j) 0); [apply G; auto|]. destruct (Z.leb_spec (getc AY (c_n c)) (getc AY j)); [apply G; auto|].
  destruct (Z.ltb_spec (getc AX j) 0); [apply G; auto|]. destruct (Z.leb_spec (getc AX (c_n c)) (getc AX j)); [apply G; auto|].
  apply HM; [|exact Hr]. intros []; lia.
Qed.
Lemma seen_neighbour (c : config RNum) i j : in_shape (c_n c) i -> seen_from c i j -> neighbourhood c j.
Proof. intros Hi Hj a. specialize (Hi a). specialize (Hj a). lia. Qed.

Theorem boundary_rhs : forall (c : config RNum) heap x t t' u x' dt dudt l V P s i,
  tabulated c -> fillable (N := RNum) (middle_of c) c (rows u) -> c_limit c = false ->
  0 < c_csq_floor c -> 1 < c_gamma c -> (forall a, fst (c_bounds c a) < snd (c_bounds c a)) ->
  shp u = c_n c -> (5 <= rows u)%Z -> interface_arrays (c_n c) (rows u) (x_flux x) ->
  degree3 (Z.to_nat (cx (c_p c))) (Z.to_nat (cy (c_p c))) (Z.to_nat (cz (c_p c))) l -> 0 <= P ->
  exact_sides c V P s (peval3 l) -> exact_means c V P s (peval3 l) t u ->
  (forall j x y z, neighbourhood c j -> in_cell c j x y z -> 0 < carried V t (peval3 l) x y z) ->
  solver_f RNum c heap x t t' u = Ok (x', (dt, dudt)) ->
  in_shape (c_n c) i -> forall r, (0 <= r < rows u)%Z ->
    at_ dudt r i = - cell_mean c (divergence (fun a x y z => euler_flux (c_gamma c) a (drifting V P s (carried V t (peval3 l) x y z)) r)) i.
Proof.
  intros c heap x t t' u x' dt dudt l V P s i HT HA HL Hf Hg HB Su Ru FO Dl HP HS HM Pos E Hi r Hr.
  destruct (carried_list V t l _ _ _ _ (within_degree _ _ _ _ _ Dl (degree_total _ _ _ _ Dl))) as (L & W & EL).
  apply degree_within in W as [DL _].
  assert (FL : peval3 L = carried V t (peval3 l)) by (extensionality a; extensionality b; extensionality d; apply EL).
  rewrite <- FL in *.
  refine (transport_exact c (middle_of c) heap x t t' u x' dt dudt L V P s i HT HA HL Hf Hg HB Su Ru FO DL HP Hi _ E r Hr).
  intros j Hj. apply (seen_neighbour c i j Hi) in Hj. split; [intros; apply (Pos j); assumption|].
  intros q Hq. rewrite (outside_exact c V P s (peval3 l)); auto. rewrite FL. reflexivity.
Qed.

(** ** one step of forward Euler *)
Section EulerStep.
Context (c : config RNum) (heap : Z -> Z -> ix -> car RNum) (nr : Z) (l : list mono) (V : axis -> R) (P : R) (s : Z -> R).
Context (HT : tabulated c) (HA : fillable (N := RNum) (middle_of c) c nr) (HL : c_limit c = false).
Context (Hf : 0 < c_csq_floor c) (Hg : 1 < c_gamma c) (HB : forall a, fst (c_bounds c a) < snd (c_bounds c a)) (Hnr : (5 <= nr)%Z).
Context (Dl : degree3 (Z.to_nat (cx (c_p c))) (Z.to_nat (cy (c_p c))) (Z.to_nat (cz (c_p c))) l) (Tl : total_degree 1 l) (HP : 0 <= P).
Context (HS : exact_sides c V P s (peval3 l)) (HF : steps_forward c).
Lemma advance t dt r i :
  cell_mean c (fun x y z => conserved (c_gamma c) (drifting V P s (carried V (t + dt) (peval3 l) x y z)) r) i =
  cell_mean c (fun x y z => conserved (c_gamma c) (drifting V P s (carried V t (peval3 l) x y z)) r) i +
  dt * - cell_mean c (divergence (fun a x y z => euler_flux (c_gamma c) a (drifting V P s (carried V t (peval3 l) x y z)) r)) i.
Proof.
  destruct (carried_list V t l _ _ _ _ (within_degree _ _ _ _ _ Dl Tl)) as (L & W & EL). apply degree_within in W as [DL TL].
  assert (FL : peval3 L = carried V t (peval3 l)) by (extensionality a; extensionality b; extensionality d; apply EL).
  rewrite <- FL.
  assert (F2 : carried V (t + dt) (peval3 l) = peval3 (L ++ scaled dt (DV V L))).
  { extensionality a. extensionality b. extensionality d. rewrite <- carried_twice, <- FL, <- taylor1 by (apply total_below, TL).
    rewrite peval_app, peval_scaled. reflexivity. }
  rewrite F2. rewrite !(mean_cons c HT HB). rewrite ten_app, ten_scaled, DV_ten.
  unfold cell_mean. rewrite (at_centre c AX (cx i)), (at_centre c AY (cy i)), (at_centre c AZ (cz i)).
  rewrite (mean_is (fun a => middle_of c a 0) (fun a => width c a) _ (dlist c L V P s r)) by (intros; apply divergence_is).
  unfold dlist. rewrite !ten_app, !ten_scaled. ring.
Qed.
Context (tend : R) (Pos : forall t j x y z, 0 <= t <= tend -> neighbourhood c j -> in_cell c j x y z -> 0 < carried V t (peval3 l) x y z).
Definition on_track (x : aux RNum) (t : R) (u : arr R) : Prop :=
  fluxed RNum c nr x /\ rows u = nr /\ shp u = c_n c /\ 0 <= t /\ (t <= tend -> exact_means c V P s (peval3 l) t u).
Lemma track_step x t u target x' dt un u' : on_track x t u -> (forall d, target = Some d -> t < d) ->
  solver_step RNum c heap I_euler x t u target = Ok (x', (dt, un)) -> vassign (arr_ops RNum) u un = Ok u' ->
  on_track (step_helper RNum c x') (t + dt) u' /\ (forall d, target = Some d -> t + dt <= d).
Proof.
  intros (FX & Ru & Su & T0 & EM) HTg H EA. assert (SU : SpecOde.shaped nr (c_n c) u) by (split; assumption).
  destruct (f_ok RNum (middle_of c) c heap nr HT HA ltac:(lia) HL x t t u FX SU) as (x1 & h1 & k1 & E1 & FX1 & SK1).
  pose proof (solver_dt c heap HF _ _ _ _ _ _ _ E1) as D0. cbv beta in D0.
  destruct (axpy_ok nr (c_n c) (hit_target RNum t h1 target) u k1 SU SK1) as (z & Ez & [Rz Sz] & Gz).
  revert H. unfold solver_step; cbn [stepper_of]. unfold euler. setb (Ok (x1, (h1, k1))) E1. setb (Ok z) Ez.
  intro H. assert (Q : forall (A : Type) (a b : A), Ok a = Ok b -> a = b) by (intros A a b [=]; assumption).
  apply Q in H. clear Q. apply pair_equal_spec in H as [<- H]. apply pair_equal_spec in H as [<- <-].
  destruct (assign_all_is u z nr (c_n c) (at_ z) Ru Su) as (z' & EZ & RZ & SZ & GZ).
  { split; [exact Rz|]. split; [exact Sz|]. reflexivity. }
  cbn [vassign arr_ops] in EA. assert (Q : Ok u' = Ok z') by exact (eq_trans (eq_sym EA) EZ). injection Q as <-.
  set (h := hit_target RNum t h1 target) in *.
  assert (HH : 0 < h /\ forall d, target = Some d -> t + h <= d).
  { unfold h, hit_target. destruct target as [d|]; [|split; [exact D0|discriminate]]. specialize (HTg d eq_refl). cbn [nltb nsub RNum].
    destruct (Rltb (d - t) h1) eqn:EQ; [apply Rltb_true in EQ|apply Rltb_false in EQ]; (split; [lra|intros d' [= <-]; lra]). }
  destruct HH as [HH HD]. split; [|exact HD].
  split; [unfold fluxed; rewrite helper_flux; exact FX1|]. split; [exact RZ|]. split; [exact SZ|]. split; [lra|].
  intros Hend i r Hi Hr. rewrite RZ in Hr. specialize (EM ltac:(lra)).
  rewrite GZ by (split; assumption). rewrite Gz, EM by (rewrite ?Ru; assumption).
  rewrite (boundary_rhs c heap x t t u x1 h1 k1 l V P s i HT); rewrite ?Ru; auto.
  - symmetry. apply advance.
  - intros. eapply Pos; eauto. lra.
Qed.
End EulerStep.

Theorem boundary_run : forall (c : config RNum) heap as_averages T n exact downbeats log fuel u0 o l V P s,
  tabulated c -> fillable (N := RNum) (middle_of c) c (rows u0) -> c_limit c = false -> steps_forward c ->
  0 < c_csq_floor c -> 1 < c_gamma c -> (forall a, fst (c_bounds c a) < snd (c_bounds c a)) ->
  shp u0 = c_n c -> (5 <= rows u0)%Z -> List.Forall (fun x => 0 <= x) downbeats ->
  degree3 (Z.to_nat (cx (c_p c))) (Z.to_nat (cy (c_p c))) (Z.to_nat (cz (c_p c))) l -> total_degree 1 l -> 0 <= P ->
  exact_sides c V P s (peval3 l) -> exact_means c V P s (peval3 l) 0 u0 ->
  simulate c heap I_euler as_averages T n exact downbeats log fuel u0 = Ok o ->
  (forall t j x y z, 0 <= t <= o_t o -> neighbourhood c j -> in_cell c j x y z -> 0 < carried V t (peval3 l) x y z) ->
  exact_means c V P s (peval3 l) (o_t o) (o_u o).
Proof.
  intros c heap av T n ex db log fuel u0 o l V P s HT HA HL HF Hf Hg HB Su Ru HD Dl Tl HP HS HM H Pos. unfold simulate, solver_integrate in H.
  pose proof H as H'.
  apply (fine_integrate (arr_ops RNum) (solver_step RNum c heap I_euler) (step_helper RNum c) (snap_payload RNum c heap av)
    (on_track c (rows u0) l V P s (o_t o)) (fun _ => True)) in H.
  - destruct H as [(_ & _ & _ & _ & G) _]. apply G. apply Rle_refl.
  - intros x t u target x' dt un u'. apply track_step; auto.
  - auto.
  - split; [|split; [reflexivity|split; [exact Su|split; [lra|auto]]]]. intro d. cbn. auto.
  - exact HD.
Qed.
