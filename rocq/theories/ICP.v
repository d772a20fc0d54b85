(** Proofs about initial conditions. *)
From Coq Require Import ZArith List Bool String Ascii Reals Lra Lia.
From Verif Require Import Err Num PySlice NdArray HydroM HydroStateM FvM BcM OdeM SolverM ICM Spec SpecHs SpecMesh SpecSolver SpecCons SpecScheme SpecPos SpecIC SpecPoly
  NdArrayP HydroP RiemannP FvP QuadP MeshP HsP ConsP PosP SolverP.
Import ListNotations.
Open Scope R_scope.
Close Scope string_scope.

(** ** strings *)
Lemma has_is c s : has c s = existsb (Ascii.eqb c) (list_ascii_of_string s).
Proof. induction s as [|b s IH]; [reflexivity|]. cbn. rewrite IH. reflexivity. Qed.
Lemma with_is a dims : with_axis a dims = in_dims a dims.
Proof. apply has_is. Qed.
Lemma axis_of_is s a : axis_of s = Some a <-> s = String (letter a) EmptyString.
Proof.
  unfold axis_of. split.
  - destruct (String.eqb_spec s "x"); [intro H; injection H as <-; assumption|].
    destruct (String.eqb_spec s "y"); [intro H; injection H as <-; assumption|].
    destruct (String.eqb_spec s "z"); [intro H; injection H as <-; assumption|discriminate].
  - intros ->. destruct a; reflexivity.
Qed.

(** ** pointwise conditions *)
Lemma pointwise_assigns f (P : R -> R -> R -> (Z -> R) -> Prop) : (forall x y z, P x y z (f x y z)) -> assigns (pointwise RNum f) P.
Proof. intros H x y z. eexists. split; [reflexivity|]. split; [reflexivity|]. split; [reflexivity|]. intro i. apply H. Qed.
Lemma assigns_weaken f (P Q : R -> R -> R -> (Z -> R) -> Prop) : assigns f P -> (forall x y z s, P x y z s -> Q x y z s) -> assigns f Q.
Proof. intros H I x y z. destruct (H x y z) as (w & E & A & B & C). exists w. repeat (split; [assumption|]). intro i. apply I, C. Qed.
Lemma vec5_is rho vx vy vz P : cell_is (vec5 RNum rho vx vy vz P) rho vx vy vz P.
Proof. repeat split. Qed.
Lemma along_is a rho v P : cell_along a (vec5_along RNum a rho v P) rho v P.
Proof. destruct a; repeat split. Qed.
Lemma position_is a x y z : ICM.along RNum a x y z = position a x y z.
Proof. reflexivity. Qed.

Lemma sinus_rho_is dims lo hi x y z :
  sinus_rho RNum real_elem dims lo hi x y z = lo + (hi - lo) * (1 + sin (2 * PI * named_sum dims x y z)) / 2.
Proof.
  unfold sinus_rho, named_sum. rewrite !with_is, nhalf_R. rn.
  replace (0 + (if in_dims AX dims then x else 0) + (if in_dims AY dims then y else 0) + (if in_dims AZ dims then z else 0))
    with ((if in_dims AX dims then x else 0) + (if in_dims AY dims then y else 0) + (if in_dims AZ dims then z else 0)) by ring.
  cbn [e_sin e_pi real_elem]. field.
Qed.
Lemma sinus_holds dims lo hi P vx vy vz :
  assigns (sinus RNum real_elem dims lo hi P vx vy vz) (fun x y z s =>
    cell_is s (lo + (hi - lo) * (1 + sin (2 * PI * named_sum dims x y z)) / 2) vx vy vz P).
Proof. apply pointwise_assigns. intros. rewrite sinus_rho_is. apply vec5_is. Qed.
Lemma wave_bounds lo hi r : lo <= hi -> lo <= lo + (hi - lo) * (1 + sin r) / 2 <= hi.
Proof. intro H. destruct (SIN_bound r) as [A B]. split; nra. Qed.
Lemma wave_top lo hi : lo + (hi - lo) * (1 + sin (2 * PI * (1/4))) / 2 = hi.
Proof. replace (2 * PI * (1/4)) with (PI / 2) by field. rewrite sin_PI2. field. Qed.
Lemma wave_bottom lo hi : lo + (hi - lo) * (1 + sin (2 * PI * (3/4))) / 2 = lo.
Proof. replace (2 * PI * (3/4)) with (3 * (PI / 2)) by field. rewrite sin_3PI2. field. Qed.

Lemma in_square_is dims x y z : in_square RNum dims x y z = true <-> inside_box dims x y z.
Proof.
  unfold in_square, inside_box. rewrite forallb_forall. split.
  - intros H a D. assert (I : In a axes) by (destruct a; simpl; auto). specialize (H a I). rewrite with_is, D in H.
    apply andb_prop in H as [A B]. revert A B. rn. rewrite !Rltb_true. change (ICM.along RNum a x y z) with (position a x y z). lra.
  - intros H a _. rewrite with_is. destruct (in_dims a dims) eqn:D; [|reflexivity]. specialize (H a D).
    apply andb_true_intro. rn. rewrite !Rltb_true. change (ICM.along RNum a x y z) with (position a x y z). lra.
Qed.
Lemma two_ways (b : bool) (Q : Prop) (s in_ out : Z -> R) : (b = true <-> Q) ->
  (forall v, (0 <= v < 5)%Z -> s v = if b then in_ v else out v) -> by_region Q s in_ out.
Proof.
  intros E H. split; intros q v V; rewrite (H v V); destruct b; auto.
  - exfalso. apply E in q. discriminate.
  - exfalso. apply q, E. reflexivity.
Qed.
Ltac five v V := assert (v = 0 \/ v = 1 \/ v = 2 \/ v = 3 \/ v = 4)%Z as [->|[->|[->|[->| ->]]]] by lia.
Lemma vec5_rows rho vx vy vz P v : (0 <= v < 5)%Z -> vec5 RNum rho vx vy vz P v = rows_of rho vx vy vz P v.
Proof. intro V. five v V; reflexivity. Qed.
Lemma square_holds dims lo hi P vx vy vz :
  assigns (square_ic RNum dims lo hi P vx vy vz) (fun x y z s =>
    by_region (inside_box dims x y z) s (rows_of hi vx vy vz P) (rows_of lo vx vy vz P)).
Proof.
  apply pointwise_assigns. intros. apply (two_ways _ _ _ _ _ (in_square_is dims x y z)). intros v V.
  rewrite vec5_rows by exact V. destruct (in_square RNum dims x y z); reflexivity.
Qed.
Lemma in_disk_is x y : in_disk RNum x y = true <-> inside_disk x y.
Proof.
  unfold in_disk, inside_disk, square. rewrite andb_true_iff, negb_true_iff, andb_false_iff. rewrite nhalf_R. rn.
  rewrite Rltb_true, !Rltb_false. split.
  - intros [A B]. split; [lra|]. intros [C D]. destruct B as [B|B]; [|lra]. unfold Rabs in B. destruct (Rcase_abs (x - 1/2)); lra.
  - intros [A B]. split; [lra|]. destruct (Rlt_le_dec y (85/100)) as [L|L]; [|right; lra]. left.
    unfold Rabs. destruct (Rcase_abs (x - 1/2)); destruct (Rlt_le_dec (x - 1/2) (25/1000)); destruct (Rlt_le_dec (-25/1000) (x - 1/2)); try lra; exfalso; apply B; lra.
Qed.
Lemma disk_holds lo hi P :
  assigns (slotted_disk RNum lo hi P) (fun x y z s =>
    by_region (inside_disk x y) s (rows_of hi (1/2 - y) (x - 1/2) 0 P) (rows_of lo (1/2 - y) (x - 1/2) 0 P)).
Proof.
  apply pointwise_assigns. intros. apply (two_ways _ _ _ _ _ (in_disk_is x y)). intros v V.
  rewrite vec5_rows by exact V. rewrite nhalf_R. rn. replace (- (y - 1/2)) with (1/2 - y) by ring.
  destruct (in_disk RNum x y); reflexivity.
Qed.
Lemma along_rows a rho v P : exists s, (s = vec5_along RNum a rho v P) /\ cell_along a s rho v P.
Proof. eexists; split; [reflexivity|]. apply along_is. Qed.

Lemma in_xyz_one a : in_xyz (String (letter a) EmptyString) = true.
Proof. destruct a; reflexivity. Qed.
Lemma shock_holds a p rho P v :
  assigns (shock_1d RNum (String (letter a) EmptyString) p rho P v) (fun x y z s =>
    (position a x y z < p -> cell_along a s (fst rho) (fst v) (fst P)) /\
    (p <= position a x y z -> cell_along a s (snd rho) (snd v) (snd P))).
Proof.
  unfold shock_1d. rewrite in_xyz_one. rewrite (proj2 (axis_of_is _ a) eq_refl). cbn [negb].
  apply pointwise_assigns. intros x y z. rn. change (ICM.along RNum a x y z) with (position a x y z).
  destruct (Rltb (position a x y z) p) eqn:E; [apply Rltb_true in E|apply Rltb_false in E]; split; intro H; try lra; apply along_is.
Qed.
Lemma double_holds a p1 p2 r1 r2 r3 v1 v2 v3 q1 q2 q3 : p1 <= p2 ->
  assigns (double_shock_1d RNum (String (letter a) EmptyString) (p1, p2) (r1, r2, r3) (v1, v2, v3) (q1, q2, q3)) (fun x y z s =>
    (position a x y z < p1 -> cell_along a s r1 v1 q1) /\
    (p1 <= position a x y z < p2 -> cell_along a s r2 v2 q2) /\
    (p2 <= position a x y z -> cell_along a s r3 v3 q3)).
Proof.
  intro L. unfold double_shock_1d. rewrite (proj2 (axis_of_is _ a) eq_refl).
  apply pointwise_assigns. intros x y z. cbn [fst snd]. rn. change (ICM.along RNum a x y z) with (position a x y z).
  destruct (Rltb (position a x y z) p1) eqn:E; [apply Rltb_true in E|apply Rltb_false in E];
  destruct (Rltb (position a x y z) p2) eqn:E2; [apply Rltb_true in E2|apply Rltb_false in E2|apply Rltb_true in E2|apply Rltb_false in E2];
  repeat split; intros; try lra; try apply along_is.
Qed.
Lemma shu_osher_holds a :
  assigns (shu_osher_1d RNum real_elem (String (letter a) EmptyString)) (fun x y z s =>
    (position a x y z < 1 -> cell_along a s (3857143/1000000) (2629369/1000000) (1033333/100000)) /\
    (1 <= position a x y z -> cell_along a s (1 + 1/5 * sin (5 * (position a x y z - 5))) 0 1)).
Proof.
  unfold shu_osher_1d. rewrite (proj2 (axis_of_is _ a) eq_refl).
  apply pointwise_assigns. intros x y z. rn. change (ICM.along RNum a x y z) with (position a x y z).
  cbn [e_sin real_elem].
  destruct (Rltb (position a x y z - 5) (-(4))) eqn:E; [apply Rltb_true in E|apply Rltb_false in E]; split; intro H; try (exfalso; lra); [apply along_is|].
  replace (2 / 10) with (1 / 5) by field. apply along_is.
Qed.
Lemma kh_holds sigma w0 :
  assigns (kelvin_helmholtz RNum real_elem sigma w0) (fun x y z s =>
    let vy := w0 * sin (4 * PI * x) * (exp (- ((y - 1/4) * (y - 1/4)) / (2 * sigma * sigma)) + exp (- ((y - 3/4) * (y - 3/4)) / (2 * sigma * sigma))) in
    (1/4 < y < 3/4 -> cell_is s 2 (1/2) vy 0 (5/2)) /\
    (~ 1/4 < y < 3/4 -> cell_is s 1 (-1/2) vy 0 (5/2))).
Proof.
  apply pointwise_assigns. intros x y z. unfold square. rewrite nhalf_R. rn. cbn [e_sin e_exp e_pi real_elem]. cbv zeta.
  replace (25 / 10) with (5 / 2) by field. replace (- (1 / 2)) with (-1 / 2) by field.
  destruct (Rltb (1 / 4) y) eqn:E; [apply Rltb_true in E|apply Rltb_false in E]; destruct (Rltb y (3/4)) eqn:E2;
  [apply Rltb_true in E2|apply Rltb_false in E2|apply Rltb_true in E2|apply Rltb_false in E2]; cbn [andb]; split; intro H; try (exfalso; lra); apply vec5_is.
Qed.
Lemma mach_holds gamma :
  assigns (double_mach RNum real_elem gamma) (fun x y z s =>
    (x - y / tan (PI / 3) < 1/6 -> cell_is s 8 (7145/1000) (-825/200) 0 (1165/10)) /\
    (1/6 <= x - y / tan (PI / 3) -> cell_is s gamma 0 0 0 1)).
Proof.
  apply pointwise_assigns. intros x y z. rn. cbn [e_tan e_pi real_elem]. cbv zeta.
  replace (- (825 / 100) / 2) with (- 825 / 200) by field.
  destruct (Rltb (x - y / tan (PI / 3)) (1/6)) eqn:E; [apply Rltb_true in E|apply Rltb_false in E]; split; intro H; try (exfalso; lra); apply vec5_is.
Qed.
Lemma athena_holds :
  assigns (athena_blast RNum) (fun x y z s =>
    (x * x + y * y < 1/100 -> cell_is s 1 0 0 0 10) /\ (1/100 <= x * x + y * y -> cell_is s 1 0 0 0 (1/10))).
Proof.
  apply pointwise_assigns. intros x y z. unfold square. rn. change (@nsqrt RNum) with sqrt.
  assert (P : 0 <= x * x + y * y) by nra.
  assert (T : sqrt (1/100) = 1/10) by (replace (1/100) with ((1/10) * (1/10)) by field; apply sqrt_square; lra).
  destruct (Rltb (sqrt (x * x + y * y)) (1/10)) eqn:E; [apply Rltb_true in E|apply Rltb_false in E]; split; intro H; try apply vec5_is.
  - exfalso. apply (Rle_not_lt _ _ (sqrt_le_1 (1/100) (x * x + y * y) ltac:(lra) P H)). rewrite T. exact E.
  - exfalso. apply (Rle_not_lt _ _ E). rewrite <- T. apply sqrt_lt_1; lra.
Qed.

(** ** shock tubes *)
Lemma place_ok dims : forall center acc, String.length dims = List.length center ->
  (forall k, In k (list_ascii_of_string dims) -> exists a, k = letter a) ->
  exists c, place_center RNum dims center acc = Ok c /\
    (forall a, in_dims a dims = false -> c a = acc a) /\
    (NoDup (list_ascii_of_string dims) -> forall j a, nth_error (list_ascii_of_string dims) j = Some (letter a) -> nth_error center j = Some (c a)).
Proof.
  induction dims as [|k dims IH]; intros center acc L H.
  - exists acc. split; [destruct center; reflexivity|]. split; [reflexivity|]. intros _ [|j]; discriminate.
  - destruct center as [|v center]; [discriminate|].
    destruct (H k (or_introl eq_refl)) as [a ->]. cbn [place_center].
    replace (axis_index (letter a)) with (Some a) by (destruct a; reflexivity).
    destruct (IH center (fun b => if axis_eqb a b then v else acc b)) as (c & E & O & P).
    { cbn in L. injection L as L. exact L. } { intros k' K. apply H. right; exact K. }
    exists c. split; [exact E|]. split.
    + intros b B. unfold in_dims in B. cbn [list_ascii_of_string existsb] in B. apply orb_false_elim in B as [B1 B2].
      rewrite (O b B2). destruct (axis_eqb a b) eqn:X; [|reflexivity]. destruct a, b; discriminate.
    + cbn [list_ascii_of_string]. intros ND j b J. inversion ND as [|? ? NI ND']; subst. destruct j as [|j].
      * cbn in J. injection J as J. assert (a = b) as <- by (destruct a, b; try reflexivity; discriminate).
        cbn. rewrite (O a); [destruct a; reflexivity|]. unfold in_dims. apply not_true_is_false. intro X. apply existsb_exists in X as (k & K1 & K2).
        apply Ascii.eqb_eq in K2. subst k. auto.
      * apply (P ND' j b J).
Qed.
Definition all_axes (dims : string) : Prop := forall k, In k (list_ascii_of_string dims) -> exists a, k = letter a.
Lemma tube_holds dims center radius ins outs cube :
  String.length dims = List.length center ->
  NoDup (list_ascii_of_string dims) -> (forall k, In k (list_ascii_of_string dims) -> exists a, k = letter a) ->
  exists c, (forall j a, nth_error (list_ascii_of_string dims) j = Some (letter a) -> nth_error center j = Some (c a)) /\
  assigns (shock_tube RNum dims center radius ins outs "tube" cube) (fun x y z s => by_region (inside_ball dims c radius x y z) s ins outs).
Proof.
  intros L ND H. destruct (place_ok dims center (fun _ => 0) L H) as (c & E & O & P). exists c. split; [exact (P ND)|].
  unfold shock_tube. cbn [String.eqb Ascii.eqb Bool.eqb]. rewrite (proj2 (Nat.eqb_eq _ _) (eq_sym L)). cbn [negb].
  intros x y z.
  assert (E' : place_center RNum dims center (fun _ => nofZ 0) = Ok c) by exact E. rewrite E'. cbn [bind].
  refine (pointwise_assigns _ (fun x y z s => by_region (inside_ball dims c radius x y z) s ins outs) _ x y z). clear x y z. intros x y z.
  eapply two_ways.
  2:{ intros v V. match goal with |- (if ?b then _ else _) v = _ => instantiate (1 := b); destruct b; reflexivity end. }
  unfold inside_ball, square. rn. rewrite Rleb_true, !with_is. reflexivity.
Qed.
Lemma in_cube_is cube x y z : in_cube RNum cube x y z = true <-> inside_cube cube x y z.
Proof.
  unfold in_cube, inside_cube. rewrite forallb_forall. split.
  - intros H a lo hi E. assert (I : In a axes) by (destruct a; simpl; auto). specialize (H a I). rewrite E in H.
    apply andb_prop in H as [A B]. revert A B. rn. rewrite !Rleb_true. auto.
  - intros H a _. destruct (cube a) as [[lo hi]|] eqn:E; [|reflexivity]. specialize (H a lo hi E).
    apply andb_true_intro. rn. rewrite !Rleb_true. exact H.
Qed.
Lemma cube_holds dims center radius ins outs cube : (exists a, cube a <> None) ->
  assigns (shock_tube RNum dims center radius ins outs "cube" cube) (fun x y z s => by_region (inside_cube cube x y z) s ins outs).
Proof.
  intros H. unfold shock_tube. cbn [String.eqb Ascii.eqb Bool.eqb].
  assert (Q : forall m, match cube AX, cube AY, cube AZ with None, None, None => Err ValueError
     | _, _, _ => pointwise RNum (fun x y z => if in_cube RNum cube x y z then ins else outs) m end
     = pointwise RNum (fun x y z => if in_cube RNum cube x y z then ins else outs) m).
  { intro m. destruct H as [a H]. destruct (cube AX) eqn:E1, (cube AY) eqn:E2, (cube AZ) eqn:E3; try reflexivity. destruct a; congruence. }
  intros x y z. rewrite Q.
  refine (pointwise_assigns _ (fun x y z s => by_region (inside_cube cube x y z) s ins outs) _ x y z). clear x y z. intros x y z.
  apply (two_ways _ _ _ _ _ (in_cube_is cube x y z)). intros v V. destruct (in_cube RNum cube x y z); reflexivity.
Qed.

(** ** refused parameters *)
Definition dim_names : list string := ["x"; "y"; "z"]%string.
Lemma no_axis s : ~ In s dim_names -> axis_of s = None.
Proof.
  intro H. destruct (axis_of s) as [a|] eqn:E; [|reflexivity]. exfalso. apply H. apply axis_of_is in E. subst s. destruct a; simpl; auto.
Qed.
Lemma double_refuses s p r v q : ~ In s dim_names -> refuses (double_shock_1d RNum s p r v q) KeyError.
Proof. intros H m. unfold double_shock_1d. rewrite no_axis by exact H. reflexivity. Qed.
Lemma shu_refuses s : ~ In s dim_names -> refuses (shu_osher_1d RNum real_elem s) KeyError.
Proof. intros H m. unfold shu_osher_1d. rewrite no_axis by exact H. reflexivity. Qed.
Lemma shock_refuses s p r P v : ~ In s dim_names ->
  refuses (shock_1d RNum s p r P v) (if existsb (String.eqb s) [""; "xy"; "yz"; "xyz"]%string then KeyError else ValueError).
Proof.
  intros H m. unfold shock_1d, in_xyz. rewrite no_axis by exact H. cbn [existsb].
  replace (String.eqb s "x") with false by (symmetry; apply String.eqb_neq; intros ->; apply H; simpl; auto).
  replace (String.eqb s "y") with false by (symmetry; apply String.eqb_neq; intros ->; apply H; simpl; auto).
  replace (String.eqb s "z") with false by (symmetry; apply String.eqb_neq; intros ->; apply H; simpl; auto).
  destruct (String.eqb s ""), (String.eqb s "xy"), (String.eqb s "yz"), (String.eqb s "xyz"); reflexivity.
Qed.
Lemma tube_refuses_mode dims center radius ins outs mode cube : mode <> "tube"%string -> mode <> "cube"%string ->
  refuses (shock_tube RNum dims center radius ins outs mode cube) UnboundLocalError.
Proof. intros A B m. unfold shock_tube. rewrite (proj2 (String.eqb_neq _ _) A), (proj2 (String.eqb_neq _ _) B). reflexivity. Qed.
Lemma tube_refuses_center dims center radius ins outs cube : String.length dims <> List.length center ->
  refuses (shock_tube RNum dims center radius ins outs "tube" cube) ValueError.
Proof. intros A m. unfold shock_tube. cbn [String.eqb Ascii.eqb Bool.eqb]. rewrite (proj2 (Nat.eqb_neq _ _)) by (intro; congruence). reflexivity. Qed.
Lemma cube_refuses dims center radius ins outs cube : (forall a, cube a = None) ->
  refuses (shock_tube RNum dims center radius ins outs "cube" cube) ValueError.
Proof. intros A m. unfold shock_tube. cbn [String.eqb Ascii.eqb Bool.eqb]. rewrite !A. reflexivity. Qed.

(** ** averages of functions of whole meshes, in any arithmetic *)
Section Fold.
Context (N : Num).
Local Notation K := (car N).
Lemma fold_is {Q} (step : res (arr K) -> Q -> res (arr K)) (num : Z -> ix -> K -> Q -> K) q n :
  (forall acc G x, res_is acc q n G -> res_is (step acc x) q n (fun v i => num v i (G v i) x)) ->
  forall l acc G, res_is acc q n G -> res_is (fold_left step l acc) q n (fun v i => fold_left (num v i) l (G v i)).
Proof.
  intros H l. induction l as [|x l IH]; intros acc G A; cbn [fold_left]; [exact A|].
  exact (IH _ _ (H _ _ x A)).
Qed.
Lemma fv_mesh_is lg (f : ic N) hx hy hz p m q n (F : K -> K -> K -> Z -> ix -> K) F0 :
  res_is (f m) q n F0 -> (forall dx dy dz, res_is (f (shift N m dx dy dz)) q n (F dx dy dz)) ->
  res_is (fv_average_mesh N lg f (hx, hy, hz) p m) q n (fun v i =>
    fold_left (fun acc xq => fold_left (fun acc yq => fold_left (fun acc zq =>
      nadd acc (nmul (nmul (nmul (snd xq) (snd yq)) (snd zq)) (F (nmul (fst xq) hx) (nmul (fst yq) hy) (nmul (fst zq) hz) v i)))
      (get_legendre_quadrature N lg (cz p)) acc) (get_legendre_quadrature N lg (cy p)) acc) (get_legendre_quadrature N lg (cx p)) (nofZ 0)).
Proof.
  intros (o & E & O) H. unfold fv_average_mesh. rewrite E. cbn [bind].
  refine (fold_is _ (fun v i acc xq => fold_left (fun acc yq => fold_left (fun acc zq =>
      nadd acc (nmul (nmul (nmul (snd xq) (snd yq)) (snd zq)) (F (nmul (fst xq) hx) (nmul (fst yq) hy) (nmul (fst zq) hz) v i)))
      (get_legendre_quadrature N lg (cz p)) acc) (get_legendre_quadrature N lg (cy p)) acc) q n _ _ _ (fun _ _ => nofZ 0) _).
  2:{ eexists. split; [reflexivity|]. exact (amap_is (fun _ => nofZ 0) o q n F0 O). }
  intros acc G xq A.
  refine (fold_is _ (fun v i acc yq => fold_left (fun acc zq =>
      nadd acc (nmul (nmul (nmul (snd xq) (snd yq)) (snd zq)) (F (nmul (fst xq) hx) (nmul (fst yq) hy) (nmul (fst zq) hz) v i)))
      (get_legendre_quadrature N lg (cz p)) acc) q n _ _ _ G A).
  clear acc G A. intros acc G yq A.
  refine (fold_is _ (fun v i acc zq =>
      nadd acc (nmul (nmul (nmul (snd xq) (snd yq)) (snd zq)) (F (nmul (fst xq) hx) (nmul (fst yq) hy) (nmul (fst zq) hz) v i))) q n _ _ _ G A).
  clear acc G A. intros acc G zq (out & -> & A). cbn [bind].
  destruct (H (nmul (fst xq) hx) (nmul (fst yq) hy) (nmul (fst zq) hz)) as (r & Er & Ar). rewrite Er. cbn [bind].
  destruct (amap2_is nadd out (amap (fun x => nmul (nmul (nmul (snd xq) (snd yq)) (snd zq)) x) r) q n _ _ A
    (amap_is (fun x => nmul (nmul (nmul (snd xq) (snd yq)) (snd zq)) x) r q n _ Ar)) as (s & Es & As).
  rewrite Es. cbn [bind]. destruct A as (A1 & A2 & _). exact (assign_all_is out s q n _ A1 A2 As).
Qed.

(** ** passive scalars *)
Lemma dmem_key {V} (fs : dict V) s : In s (map fst fs) -> dmem s fs = true.
Proof. intro H. apply in_keys in H. unfold dmem. destruct (dget s fs); [reflexivity|congruence]. Qed.
Lemma dget_nth {V} (fs : dict V) j s g : NoDup (map fst fs) -> nth_error fs j = Some (s, g) -> dget s fs = Some g.
Proof.
  revert j. induction fs as [|[k v] fs IH]; intros [|j] ND H; try discriminate.
  - injection H as -> ->. cbn [dget]. rewrite String.eqb_refl. reflexivity.
  - cbn [dget]. cbn [map fst] in ND. inversion ND as [|? ? NI ND']; subst.
    destruct (String.eqb_spec s k) as [->|_]; [|exact (IH j ND' H)].
    exfalso. apply NI. apply in_map_iff. exists (k, g). split; [reflexivity|]. eapply nth_error_In, H.
Qed.
(** value of row v when the first k scalars have been filled in *)
Definition filled (base : Z -> ix -> K) (fs : passives N) (m : meshes N) (k : nat) (v : Z) (i : ix) : K :=
  if (v <? 5)%Z then base v i
  else match nth_error (firstn k fs) (Z.to_nat (v - 5)) with
       | Some (_, g) => let '(x, y, z) := m in g (at_ x 0%Z i) (at_ y 0%Z i) (at_ z 0%Z i)
       | None => nofZ 0
       end.
Lemma fill_is h fs x y z n base : NoDup (map fst fs) ->
  (forall j s, nth_error (map fst fs) j = Some s -> dget s (hs_map h) = Some (R_one (5 + Z.of_nat j))) ->
  forall l2 l1 out, fs = l1 ++ l2 ->
  is_arr out (5 + Z.of_nat (List.length fs)) n (filled base fs (x, y, z) (List.length l1)) ->
  res_is (fill_passives N h fs (map fst l2) (x, y, z) out) (5 + Z.of_nat (List.length fs)) n (filled base fs (x, y, z) (List.length fs)).
Proof.
  intros ND M l2. induction l2 as [|[s g] l2 IH]; intros l1 out E A.
  - rewrite app_nil_r in E. subst l1. exists out. split; [reflexivity|exact A].
  - cbn [map fst fill_passives].
    assert (J : nth_error fs (List.length l1) = Some (s, g)) by (rewrite E, nth_error_app2, Nat.sub_diag by lia; reflexivity).
    rewrite (M (List.length l1) s) by (rewrite nth_error_map, J; reflexivity).
    rewrite (dget_nth fs _ s g ND J). cbn [chosen_rows].
    apply (IH (l1 ++ [(s, g)])); [rewrite <- app_assoc; exact E|].
    destruct A as (A1 & A2 & A3). split; [exact A1|]. split; [exact A2|]. intros v i.
    cbn [fill_rows at_ existsb]. rewrite orb_false_r, A3. unfold filled. rewrite app_length. cbn [List.length].
    destruct (Z.eqb_spec v (5 + Z.of_nat (List.length l1))) as [->|NE].
    + replace (5 + Z.of_nat (List.length l1) <? 5)%Z with false by (symmetry; apply Z.ltb_ge; lia).
      replace (Z.to_nat (5 + Z.of_nat (List.length l1) - 5)) with (List.length l1) by lia.
      replace (nth_error (firstn (List.length l1 + 1) fs) (List.length l1)) with (Some (s, g)); [reflexivity|].
      rewrite E. rewrite firstn_app, (firstn_all2 l1) by lia. replace (List.length l1 + 1 - List.length l1)%nat with 1%nat by lia.
      rewrite nth_error_app2, Nat.sub_diag by lia. reflexivity.
    + destruct (v <? 5)%Z eqn:V; [reflexivity|]. apply Z.ltb_ge in V.
      replace (nth_error (firstn (List.length l1 + 1) fs) (Z.to_nat (v - 5))) with (nth_error (firstn (List.length l1) fs) (Z.to_nat (v - 5))); [reflexivity|].
      rewrite E. rewrite !firstn_app, (firstn_all2 l1), (firstn_all2 l1) by lia. rewrite Nat.sub_diag.
      replace (List.length l1 + 1 - List.length l1)%nat with 1%nat by lia. cbn [firstn]. rewrite app_nil_r.
      destruct (Nat.lt_ge_cases (Z.to_nat (v - 5)) (List.length l1)) as [L|L].
      * rewrite nth_error_app1 by exact L. reflexivity.
      * rewrite (proj2 (nth_error_None _ _)) by exact L. symmetry. apply nth_error_None. rewrite app_length. cbn [List.length]. lia.
Qed.
Definition given (fs : option (passives N)) : passives N := match fs with Some l => l | None => [] end.
Lemma build_ok (core : ic N) fs : good_names (map fst (given fs)) ->
  exists h f, hydro_state (match fs with None => [] | Some fs => map fst fs end) 4 = Ok h /\ build_ic N core h fs = Ok f /\
  forall x y z n base, res_is (core (x, y, z)) 5 n base ->
  res_is (f (x, y, z)) (5 + Z.of_nat (List.length (given fs))) n (filled base (given fs) (x, y, z) (List.length (given fs))).
Proof.
  intros G. destruct (names_addressed (map fst (given fs)) 4 G) as (h & E & NV & ND & M).
  exists h. eexists. split; [destruct fs; exact E|].
  assert (HP : hs_passives h = map fst (given fs)).
  { unfold hydro_state in E. rewrite (proj2 (distinct_nodup _) (proj1 G)) in E. cbn [negb] in E. injection E as <-. reflexivity. }
  assert (HI : hs_includes h = match map fst (given fs) with [] => false | _ => true end).
  { unfold hydro_state in E. rewrite (proj2 (distinct_nodup _) (proj1 G)) in E. cbn [negb] in E. injection E as <-. reflexivity. }
  assert (B : (if hs_includes h then
              match fs with
              | None => Err AttributeError
              | Some fs => if forallb (fun s => dmem s fs) (hs_passives h) then Ok fs else Err ValueError
              end
            else Ok []) = Ok (given fs)).
  { rewrite HI, HP. destruct fs as [fs|]; [|reflexivity]. cbn [given].
    replace (forallb (fun s => dmem s fs) (map fst fs)) with true; [destruct fs; reflexivity|].
    symmetry. apply forallb_forall. intros s S. apply dmem_key, S. }
  unfold build_ic. rewrite B. cbn [bind]. split; [reflexivity|]. intros x y z n base (w & Ew & W). rewrite Ew. cbn [bind]. rewrite HP.
  unfold count. rewrite map_length. destruct W as (W1 & W2 & W3).
  refine (fill_is h (given fs) x y z n base (proj1 G) _ (given fs) [] _ eq_refl _).
  - intros j s J. apply M. apply a_pas. exact J.
  - split; [reflexivity|]. split; [exact W2|]. intros v i. cbn [at_]. unfold filled. cbn [List.length firstn]. rewrite W3.
    destruct (v <? 5)%Z; [reflexivity|]. destruct (Z.to_nat (v - 5)); reflexivity.
Qed.
End Fold.

(** ** the initial state over the real numbers *)
Definition triple (lg : Z -> list (R * R)) (p : ix) (F : R -> R -> R -> R) : R :=
  quad (half_rule (lg (quadrature_size (cx p)))) (fun a =>
  quad (half_rule (lg (quadrature_size (cy p)))) (fun b =>
  quad (half_rule (lg (quadrature_size (cz p)))) (fun c => F a b c))).
Lemma fold_triple lg (F : R -> R -> R -> R) hx hy hz p :
  fold_left (fun acc xq => fold_left (fun acc yq => fold_left (fun acc zq =>
      @nadd RNum acc (@nmul RNum (@nmul RNum (@nmul RNum (snd xq) (snd yq)) (snd zq)) (F (@nmul RNum (fst xq) hx) (@nmul RNum (fst yq) hy) (@nmul RNum (fst zq) hz))))
      (get_legendre_quadrature RNum lg (cz p)) acc) (get_legendre_quadrature RNum lg (cy p)) acc) (get_legendre_quadrature RNum lg (cx p)) (@nofZ RNum 0)
  = triple lg p (fun a b c => F (a * hx) (b * hy) (c * hz)).
Proof.
  transitivity (fv_average RNum lg F (hx, hy, hz) p 0 0 0).
  - unfold fv_average. apply fold_ext. intros acc xq. apply fold_ext. intros acc' yq. apply fold_ext. intros acc'' zq. cbv zeta. rn.
    rewrite !Rplus_0_l. reflexivity.
  - rewrite fv_average_is. unfold triple. apply quad_ext. intro a. apply quad_ext. intro b. apply quad_ext. intro d. rewrite !Rplus_0_l. reflexivity.
Qed.
Definition to_state (conservative : bool) (gamma : R) (s : Z -> R) (v : Z) : R :=
  if conservative then s v else compute_conservatives RNum gamma s v.
Lemma initial_general lg (c : config RNum) core fs cons base0 (base : R -> R -> R -> Z -> ix -> R) :
  good_names (map fst (listed fs)) ->
  res_is (core (mesh_of c)) 5 (c_n c) base0 ->
  (forall dx dy dz, res_is (core (shift RNum (mesh_of c) dx dy dz)) 5 (c_n c) (base dx dy dz)) ->
  res_is (initial_state RNum lg c core fs cons false) (5 + Z.of_nat (List.length (listed fs))) (c_n c) (fun v i =>
    triple lg (c_p c) (fun q1 q2 q3 =>
      let dx := q1 * spacing RNum c AX in let dy := q2 * spacing RNum c AY in let dz := q3 * spacing RNum c AZ in
      to_state cons (c_gamma c) (fun w => filled RNum (base dx dy dz) (listed fs) (shift RNum (mesh_of c) dx dy dz) (List.length (listed fs)) w i) v)).
Proof.
  intros G H0 H. destruct (build_ok RNum core fs G) as (h & f & E1 & E2 & B). unfold initial_state. rewrite E1. cbn [bind]. rewrite E2. cbn [bind].
  rewrite andb_false_r.
  set (u0 := if cons then f else fun m => do w <- f m; Ok (conservatives RNum (c_gamma c) w)).
  assert (U : forall x y z n bs, res_is (core (x, y, z)) 5 n bs ->
    res_is (u0 (x, y, z)) (5 + Z.of_nat (List.length (listed fs))) n (fun v i => to_state cons (c_gamma c) (fun w => filled RNum bs (listed fs) (x, y, z) (List.length (listed fs)) w i) v)).
  { intros x y z n bs K. pose proof (B x y z n bs K) as B'. unfold u0, to_state. destruct cons; [exact B'|].
    destruct B' as (w & Ew & W1 & W2 & W3). rewrite Ew. cbn [bind]. eexists. split; [reflexivity|].
    split; [exact W1|]. split; [exact W2|]. intros v i. unfold conservatives. cbn [cmap at_].
    unfold compute_conservatives, sum3. cbv zeta. rewrite !W3. reflexivity. }
  eapply res_is_ext.
  - eapply (fv_mesh_is RNum lg u0 _ _ _ (c_p c) (mesh_of c) _ (c_n c)
      (fun dx dy dz v i => to_state cons (c_gamma c) (fun w => filled RNum (base dx dy dz) (listed fs) (shift RNum (mesh_of c) dx dy dz) (List.length (listed fs)) w i) v)).
    + apply U. exact H0.
    + intros. apply U. apply H.
  - intros v i. exact (fold_triple lg (fun dx dy dz => to_state cons (c_gamma c) (fun w => filled RNum (base dx dy dz) (listed fs) (shift RNum (mesh_of c) dx dy dz) (List.length (listed fs)) w i) v) _ _ _ (c_p c)).
Qed.
Lemma triple_ext lg p F G : (forall a b c, F a b c = G a b c) -> triple lg p F = triple lg p G.
Proof. intro H. unfold triple. apply quad_ext. intro a. apply quad_ext. intro b. apply quad_ext. intro d. apply H. Qed.
Lemma to_state_ext cons g s s' v : (forall w, s w = s' w) -> to_state cons g s v = to_state cons g s' v.
Proof. intro H. unfold to_state. destruct cons; [apply H|]. unfold compute_conservatives, sum3. cbv zeta. rewrite !H. reflexivity. Qed.
Lemma initial_is lg (c : config RNum) f fs cons : (forall a, 1 <= getc a (c_n c))%Z ->
  good_names (map fst (listed fs)) ->
  res_is (initial_state RNum lg c (pointwise RNum f) fs cons false) (5 + Z.of_nat (List.length (listed fs))) (c_n c) (fun v i =>
    fv_average RNum lg (fun x y z => to_state cons (c_gamma c) (point_value f (listed fs) x y z) v)
      (spacing RNum c AX, spacing RNum c AY, spacing RNum c AZ) (c_p c) (cell_centre c AX i) (cell_centre c AY i) (cell_centre c AZ i)).
Proof.
  intros Hn G.
  assert (M : forall i, at_ (fst (fst (mesh_of c))) 0%Z i = cell_centre c AX i /\ at_ (snd (fst (mesh_of c))) 0%Z i = cell_centre c AY i /\ at_ (snd (mesh_of c)) 0%Z i = cell_centre c AZ i).
  { intro i. cbn [mesh_of mesh fst snd at_]. unfold cell_centre.
    split; [exact (midpoint_is _ _ _ (Hn AX))|]. split; [exact (midpoint_is _ _ _ (Hn AY))|exact (midpoint_is _ _ _ (Hn AZ))]. }
  eapply res_is_ext.
  - apply (initial_general lg c (pointwise RNum f) fs cons (fun v i => f (at_ (fst (fst (mesh_of c))) 0%Z i) (at_ (snd (fst (mesh_of c))) 0%Z i) (at_ (snd (mesh_of c)) 0%Z i) v)
      (fun dx dy dz v i => f (at_ (fst (fst (mesh_of c))) 0%Z i + dx) (at_ (snd (fst (mesh_of c))) 0%Z i + dy) (at_ (snd (mesh_of c)) 0%Z i + dz) v) G).
    + eexists. split; [reflexivity|]. repeat split.
    + intros. eexists. split; [reflexivity|]. repeat split.
  - intros v i. cbv beta. rewrite fv_average_is. apply triple_ext. intros a b d. cbv zeta. apply to_state_ext. intro w. destruct (M i) as (M1 & M2 & M3).
    rewrite <- M1, <- M2, <- M3. unfold filled, point_value. rewrite firstn_all. destruct (w <? 5)%Z; [reflexivity|].
    assert (O : forall o : option (string * (R -> R -> R -> R)),
      match o with Some (_, g) => let '(x, y, z) := shift RNum (mesh_of c) (a * spacing RNum c AX) (b * spacing RNum c AY) (d * spacing RNum c AZ) in
         g (at_ x 0%Z i) (at_ y 0%Z i) (at_ z 0%Z i) | None => @nofZ RNum 0 end
      = match o with Some (_, g) => g (at_ (fst (fst (mesh_of c))) 0%Z i + a * spacing RNum c AX) (at_ (snd (fst (mesh_of c))) 0%Z i + b * spacing RNum c AY)
      (at_ (snd (mesh_of c)) 0%Z i + d * spacing RNum c AZ) | None => 0 end) by (intros [[s g]|]; reflexivity). apply O.
Qed.
Lemma initial_fv lg (c : config RNum) core fs : good_names (map fst (listed fs)) ->
  initial_state RNum lg c core fs false true = Err ValueError /\
  forall base, res_is (core (mesh_of c)) 5 (c_n c) base ->
  res_is (initial_state RNum lg c core fs true true) (5 + Z.of_nat (List.length (listed fs))) (c_n c)
    (filled RNum base (listed fs) (mesh_of c) (List.length (listed fs))).
Proof.
  intro G. destruct (build_ok RNum core fs G) as (h & f & E1 & E2 & B). unfold initial_state. rewrite E1. cbn [bind]. rewrite E2. cbn [bind].
  split; [reflexivity|]. intros base H. apply B. exact H.
Qed.

(** ** positivity *)
Lemma gas_of_prim gamma (s : Z -> R) : 1 < gamma -> 0 < s 0%Z -> 0 < s 4%Z -> gas (compute_conservatives RNum gamma s).
Proof.
  intros G A B. unfold gas, compute_conservatives, sum3, rRho, rE, is_vel. cbn [Z.eqb Pos.eqb orb Z.leb Z.compare Pos.compare Pos.compare_cont andb].
  rewrite nhalf_R. rn. split; [exact A|].
  match goal with |- 0 < ?e => replace e with (s 4%Z / (gamma - 1)) by (field; split; lra) end.
  apply Rdiv_lt_0_compat; lra.
Qed.
Lemma quad_gas l (F : R -> Z -> R) : l <> [] -> (forall q, In q l -> 0 < snd q) -> (forall q, gas (F q)) -> gas (fun v => quad l (fun q => F q v)).
Proof.
  intros NE W H. destruct l as [|[q w] l]; [congruence|]. clear NE.
  cbn [quad]. revert q w W. induction l as [|[q' w'] l IH]; intros q w W; cbn [quad].
  - eapply gas_ext; [exact (gas_scale w (F q) (W (q, w) (or_introl eq_refl)) (H q))|]. intros. cbv beta. ring.
  - exact (gas_add _ _ (gas_scale w (F q) (W (q, w) (or_introl eq_refl)) (H q)) (IH q' w' (fun k K => W k (or_intror K)))).
Qed.
Lemma half_positive lg p : (0 <= p)%Z -> positive_rules lg ->
  half_rule (lg (quadrature_size p)) <> [] /\ forall q, In q (half_rule (lg (quadrature_size p))) -> 0 < snd q.
Proof.
  intros P H. pose proof (quadrature_size_bounds p P). destruct (H (quadrature_size p) ltac:(lia)) as [A B]. unfold half_rule. split.
  - destruct (lg (quadrature_size p)); [congruence|discriminate].
  - intros q Q. apply in_map_iff in Q as (r & <- & R0). specialize (B r R0). cbn [snd]. lra.
Qed.
Lemma triple_gas lg p (F : R -> R -> R -> Z -> R) : (forall a, 0 <= getc a p)%Z -> positive_rules lg ->
  (forall a b c, gas (F a b c)) -> gas (fun v => triple lg p (fun a b c => F a b c v)).
Proof.
  intros P L H. unfold triple.
  destruct (half_positive lg _ (P AX) L) as [A1 A2]. destruct (half_positive lg _ (P AY) L) as [B1 B2]. destruct (half_positive lg _ (P AZ) L) as [C1 C2].
  exact (quad_gas _ (fun a v => quad _ (fun b => quad _ (fun c => F a b c v))) A1 A2 (fun a =>
    quad_gas _ (fun b v => quad _ (fun c => F a b c v)) B1 B2 (fun b => quad_gas _ (fun c v => F a b c v) C1 C2 (fun c => H a b c)))).
Qed.
Lemma filled_low (N : Num) base fs m k v i : (v < 5)%Z -> filled N base fs m k v i = base v i.
Proof. intro H. unfold filled. rewrite (proj2 (Z.ltb_lt _ _) H). reflexivity. Qed.
Definition positive_on (core : ic RNum) (m : meshes RNum) : Prop :=
  exists w, core m = Ok w /\ is_arr w 5 (shp (fst (fst m))) (fun v i => at_ w v i) /\ forall i, 0 < at_ w 0%Z i /\ 0 < at_ w 4%Z i.
Lemma initial_positive_on lg (c : config RNum) core fs : (forall a, 0 <= getc a (c_p c))%Z -> positive_rules lg -> 1 < c_gamma c ->
  good_names (map fst (listed fs)) ->
  positive_on core (mesh_of c) -> (forall dx dy dz, positive_on core (shift RNum (mesh_of c) dx dy dz)) ->
  exists u0, initial_state RNum lg c core fs false false = Ok u0 /\ rows u0 = (5 + Z.of_nat (List.length (listed fs)))%Z /\ shp u0 = c_n c /\ gas_everywhere u0.
Proof.
  intros P L Ga G Q0 Q.
  set (val := fun (o : res (arr (car RNum))) (v : Z) (i : ix) => match o with Ok w => at_ w v i | Err _ => 0 end).
  destruct (initial_general lg c core fs false (val (core (mesh_of c))) (fun dx dy dz => val (core (shift RNum (mesh_of c) dx dy dz)) ) G) as (u & E & Ru & Su & V).
  - destruct Q0 as (w & E & A & _). exists w. split; [exact E|]. rewrite E. exact A.
  - intros. destruct (Q dx dy dz) as (w & E & A & _). exists w. split; [exact E|]. rewrite E. exact A.
  - exists u. split; [exact E|]. split; [exact Ru|]. split; [exact Su|]. intros i _. cbv beta.
    eapply gas_ext.
    + apply (triple_gas lg (c_p c) (fun q1 q2 q3 v => let dx := q1 * spacing RNum c AX in let dy := q2 * spacing RNum c AY in let dz := q3 * spacing RNum c AZ in
        to_state false (c_gamma c) (fun w => filled RNum (val (core (shift RNum (mesh_of c) dx dy dz))) (listed fs) (shift RNum (mesh_of c) dx dy dz) (List.length (listed fs)) w i) v) P L).
      intros a b d. cbv zeta. destruct (Q (a * spacing RNum c AX) (b * spacing RNum c AY) (d * spacing RNum c AZ)) as (w & E' & _ & A).
      rewrite E'. unfold to_state. apply gas_of_prim; [exact Ga| |]; rewrite filled_low by lia; cbn [val]; apply A.
    + intros r _. symmetry. apply V.
Qed.
(** a condition with positive density and pressure on every mesh gives an initial state of gas *)
Lemma initial_positive lg (c : config RNum) core fs : (forall a, 0 <= getc a (c_p c))%Z -> positive_rules lg -> 1 < c_gamma c ->
  good_names (map fst (listed fs)) -> positive_ic core ->
  exists u0, initial_state RNum lg c core fs false false = Ok u0 /\ rows u0 = (5 + Z.of_nat (List.length (listed fs)))%Z /\ shp u0 = c_n c /\ gas_everywhere u0.
Proof.
  intros P L Ga G H. 
  assert (Q : forall m : meshes RNum, positive_on core m).
  { intros [[x y] z]. destruct (H x y z) as (w & E & A & B & C). exists w. split; [exact E|]. split; [split; [exact A|split; [exact B|reflexivity]]|exact C]. }
  exact (initial_positive_on lg c core fs P L Ga G (Q _) (fun _ _ _ => Q _)).
Qed.

Lemma sinus_positive dims lo hi P vx vy vz : 0 < lo <= hi -> 0 < P -> positive_ic (sinus RNum real_elem dims lo hi P vx vy vz).
Proof.
  intros L Pp. eapply assigns_weaken; [apply sinus_holds|]. intros x y z s (A & _ & _ & _ & B). rewrite A, B. split; [|exact Pp].
  pose proof (wave_bounds lo hi (2 * PI * named_sum dims x y z)). lra.
Qed.
Lemma by_region_positive (Q : Prop) s i o : Q \/ ~ Q -> by_region Q s i o -> 0 < i 0%Z -> 0 < o 0%Z -> 0 < i 4%Z -> 0 < o 4%Z -> 0 < s 0%Z /\ 0 < s 4%Z.
Proof. intros [q|q] [A B] H1 H2 H3 H4; [rewrite !(A q) by lia|rewrite !(B q) by lia]; auto. Qed.
Lemma bool_dec_prop (b : bool) (Q : Prop) : (b = true <-> Q) -> Q \/ ~ Q.
Proof. intro H. destruct b; [left; apply H; reflexivity|right; intro q; apply H in q; discriminate]. Qed.
Lemma square_positive dims lo hi P vx vy vz : 0 < lo -> 0 < hi -> 0 < P -> positive_ic (square_ic RNum dims lo hi P vx vy vz).
Proof.
  intros A B C. eapply assigns_weaken; [apply square_holds|]. intros x y z s H.
  exact (by_region_positive _ _ _ _ (bool_dec_prop _ _ (in_square_is dims x y z)) H B A C C).
Qed.
Lemma disk_positive lo hi P : 0 < lo -> 0 < hi -> 0 < P -> positive_ic (slotted_disk RNum lo hi P).
Proof.
  intros A B C. eapply assigns_weaken; [apply disk_holds|]. intros x y z s H.
  exact (by_region_positive _ _ _ _ (bool_dec_prop _ _ (in_disk_is x y)) H B A C C).
Qed.
Lemma along_positive a s rho v P : cell_along a s rho v P -> 0 < rho -> 0 < P -> 0 < s 0%Z /\ 0 < s 4%Z.
Proof. intros H A B. destruct a; destruct H as (E & _ & _ & _ & F); rewrite E, F; auto. Qed.
Lemma shock_positive a p rho P v : 0 < fst rho -> 0 < snd rho -> 0 < fst P -> 0 < snd P ->
  positive_ic (shock_1d RNum (String (letter a) EmptyString) p rho P v).
Proof.
  intros A B C D. eapply assigns_weaken; [apply shock_holds|]. intros x y z s [H1 H2].
  destruct (Rlt_le_dec (position a x y z) p) as [L|L]; [exact (along_positive _ _ _ _ _ (H1 L) A C)|exact (along_positive _ _ _ _ _ (H2 L) B D)].
Qed.
Lemma double_positive a p1 p2 r1 r2 r3 v1 v2 v3 q1 q2 q3 : p1 <= p2 -> 0 < r1 -> 0 < r2 -> 0 < r3 -> 0 < q1 -> 0 < q2 -> 0 < q3 ->
  positive_ic (double_shock_1d RNum (String (letter a) EmptyString) (p1, p2) (r1, r2, r3) (v1, v2, v3) (q1, q2, q3)).
Proof.
  intros L A B C D E F. eapply assigns_weaken; [apply double_holds, L|]. intros x y z s (H1 & H2 & H3).
  destruct (Rlt_le_dec (position a x y z) p1) as [L1|L1]; [exact (along_positive _ _ _ _ _ (H1 L1) A D)|].
  destruct (Rlt_le_dec (position a x y z) p2) as [L2|L2]; [exact (along_positive _ _ _ _ _ (H2 (conj L1 L2)) B E)|exact (along_positive _ _ _ _ _ (H3 L2) C F)].
Qed.
Lemma shu_positive a : positive_ic (shu_osher_1d RNum real_elem (String (letter a) EmptyString)).
Proof.
  eapply assigns_weaken; [apply shu_osher_holds|]. intros x y z s [H1 H2].
  destruct (Rlt_le_dec (position a x y z) 1) as [L|L]; [apply (along_positive _ _ _ _ _ (H1 L)); lra|].
  apply (along_positive _ _ _ _ _ (H2 L)); [|lra]. destruct (SIN_bound (5 * (position a x y z - 5))). lra.
Qed.
Lemma kh_positive sigma w0 : positive_ic (kelvin_helmholtz RNum real_elem sigma w0).
Proof.
  eapply assigns_weaken; [apply kh_holds|]. intros x y z s [H1 H2].
  destruct (Rlt_le_dec (1/4) y) as [L|L]; destruct (Rlt_le_dec y (3/4)) as [M|M];
  [destruct (H1 (conj L M)) as (E & _ & _ & _ & F)|destruct H2 as (E & _ & _ & _ & F); [lra|]..]; rewrite E, F; lra.
Qed.
Lemma mach_positive gamma : 0 < gamma -> positive_ic (double_mach RNum real_elem gamma).
Proof.
  intro G. eapply assigns_weaken; [apply mach_holds|]. intros x y z s [H1 H2].
  destruct (Rlt_le_dec (x - y / tan (PI / 3)) (1/6)) as [L|L]; [destruct (H1 L) as (E & _ & _ & _ & F)|destruct (H2 L) as (E & _ & _ & _ & F)]; rewrite E, F; lra.
Qed.
Lemma athena_positive : positive_ic (athena_blast RNum).
Proof.
  eapply assigns_weaken; [apply athena_holds|]. intros x y z s [H1 H2].
  destruct (Rlt_le_dec (x * x + y * y) (1/100)) as [L|L]; [destruct (H1 L) as (E & _ & _ & _ & F)|destruct (H2 L) as (E & _ & _ & _ & F)]; rewrite E, F; lra.
Qed.
Lemma tube_positive dims center radius ins outs cube :
  String.length dims = List.length center ->
  NoDup (list_ascii_of_string dims) -> (forall k, In k (list_ascii_of_string dims) -> exists a, k = letter a) ->
  0 < ins 0%Z -> 0 < outs 0%Z -> 0 < ins 4%Z -> 0 < outs 4%Z ->
  positive_ic (shock_tube RNum dims center radius ins outs "tube" cube).
Proof.
  intros L ND H A B C D. destruct (tube_holds dims center radius ins outs cube L ND H) as (c & _ & T).
  eapply assigns_weaken; [exact T|]. intros x y z s S. refine (by_region_positive _ _ _ _ _ S A B C D).
  unfold inside_ball. match goal with |- ?a <= ?b \/ _ => destruct (Rle_dec a b); [left|right]; assumption end.
Qed.
Lemma cube_positive dims center radius ins outs cube : (exists a, cube a <> None) ->
  0 < ins 0%Z -> 0 < outs 0%Z -> 0 < ins 4%Z -> 0 < outs 4%Z ->
  positive_ic (shock_tube RNum dims center radius ins outs "cube" cube).
Proof.
  intros H A B C D. eapply assigns_weaken; [exact (cube_holds dims center radius ins outs cube H)|]. intros x y z s S.
  exact (by_region_positive _ _ _ _ (bool_dec_prop _ _ (in_cube_is cube x y z)) S A B C D).
Qed.

(** ** the blast wave *)
Lemma sum_const (d : arr (car RNum)) h l : (forall i, at_ d 0%Z i = h) -> forall s : R, fold_left (fun s i => @nadd RNum s (at_ d 0%Z i)) l s = s + IZR (Z.of_nat (List.length l)) * h.
Proof.
  intro H. assert (Z1 : forall a b : R, a = a + 0 * b) by (intros; ring).
  assert (Z2 : forall a b k : R, a + b + k * b = a + (k + 1) * b) by (intros; ring).
  induction l as [|i l IH]; intro s; cbn [fold_left List.length]; [exact (Z1 s h)|].
  rewrite IH, H, Nat2Z.inj_succ, succ_IZR. exact (Z2 _ _ _).
Qed.
Lemma mean_is a (u : arr (car RNum)) n (g : Z -> R) h : (forall b, 1 <= getc b n)%Z -> is_arr u 1 n (fun _ i => g (getc a i)) ->
  (forall k, g (1 + k)%Z - g (0 + k)%Z = h) ->
  exists k, mean_step RNum a u = Ok k /\ ((2 <= getc a n)%Z -> k = h).
Proof.
  intros Hn (U1 & U2 & U3) G. unfold mean_step.
  change (cut 1 0) with s_tail. change (cut 0 (-1)) with s_init.
  destruct (view_is a s_tail u 1 (getc a n - 1)) as (V1 & V2 & V3). { rewrite U2. apply sl_tail, Hn. }
  destruct (view_is a s_init u 0 (getc a n - 1)) as (W1 & W2 & W3). { rewrite U2. apply sl_init, Hn. }
  destruct (amap2_is (@nsub RNum) (view a s_tail u) (view a s_init u) 1 (setc a (getc a n - 1) n) _ _ 
    (conj (eq_trans V1 U1) (conj (eq_trans V2 (f_equal _ U2)) V3)) (conj (eq_trans W1 U1) (conj (eq_trans W2 (f_equal _ U2)) W3))) as (d & E & D1 & D2 & D3).
  rewrite E. cbn [bind]. eexists. split; [reflexivity|]. intro H2. rewrite (sum_const d h).
  2:{ intro i. rewrite D3, !U3. replace (getc a (setc a (1 + getc a i)%Z i)) with (1 + getc a i)%Z by (destruct a; reflexivity).
      replace (getc a (setc a (0 + getc a i)%Z i)) with (0 + getc a i)%Z by (destruct a; reflexivity). apply G. }
  rewrite D2. rn.
  assert (L : (0 < Z.of_nat (List.length (ix_list (setc a (getc a n - 1) n))))%Z).
  { assert (I : In (mkix 0 0 0) (ix_list (setc a (getc a n - 1) n))).
    { apply in_ix_list. pose proof (Hn AX) as Hx. pose proof (Hn AY) as Hy. pose proof (Hn AZ) as Hz. destruct n as [n1 n2 n3]. destruct a; cbn [getc cx cy cz setc] in *; intros []; cbn [getc cx cy cz]; lia. }
    destruct (ix_list (setc a (getc a n - 1) n)); [destruct I|cbn [List.length]; lia]. }
  assert (IZR (Z.of_nat (List.length (ix_list (setc a (getc a n - 1) n)))) <> 0) by (apply IZR_neq; lia). field. exact H.
Qed.
Lemma sl_middle n : (2 <= n)%Z -> slice_adjust n (mkslice (Some (n / 2 - 1)%Z) (Some (n / 2 + 1)%Z) None) = mkext (n / 2 - 1) 2 1.
Proof.
  intro H. pose proof (Z.div_mod n 2 ltac:(lia)). pose proof (Z.mod_pos_bound n 2 ltac:(lia)).
  set (m := (n / 2)%Z) in *. slice_tac.
Qed.
Lemma in_middle n k : (2 <= n)%Z -> in_slice n (mkslice (Some (n / 2 - 1)%Z) (Some (n / 2 + 1)%Z) None) k = SpecIC.middle n k.
Proof.
  intro H. unfold in_slice, SpecIC.middle. rewrite sl_middle by exact H. cbn [ex_start ex_len].
  destruct (Z.eqb_spec k (n / 2 - 1)), (Z.eqb_spec k (n / 2)); cbn [orb]; rewrite ?andb_true_iff, ?andb_false_iff, ?Z.leb_le, ?Z.ltb_lt, ?Z.leb_gt, ?Z.ltb_ge; lia.
Qed.
Lemma in_peak_is (cen : bool) dims (c : config RNum) i : blast_size c dims ->
  in_peak cen dims (c_n c) i = if cen then middle_cell dims (c_n c) i else corner_cell i.
Proof.
  intro H. unfold in_peak, middle_cell, corner_cell. destruct cen; [|reflexivity]. change axes with [AX; AY; AZ]. cbn [forallb].
  f_equal; [|f_equal; [|f_equal]]; rewrite with_is; match goal with |- context [in_dims ?a dims] => destruct (in_dims a dims) eqn:D; [|reflexivity]; destruct (H a) as [_ X]; destruct (X D) as [Y _]; cbn [negb orb]; apply (in_middle _ _ Y) end.
Qed.
Lemma energy_is dims E1 (c : config RNum) (k h : axis -> R) : (forall a, in_dims a dims = true -> k a = h a /\ h a <> 0) ->
  peak_energy RNum dims E1 (k AX) (k AY) (k AZ) = E1 / over_named dims (fun a => 2 * h a).
Proof.
  intro H. unfold peak_energy, over_named. rewrite !with_is. rn.
  destruct (in_dims AX dims) eqn:X; [destruct (H AX X) as [-> ?]|];
  (destruct (in_dims AY dims) eqn:Y; [destruct (H AY Y) as [-> ?]|]);
  (destruct (in_dims AZ dims) eqn:Z; [destruct (H AZ Z) as [-> ?]|]); field; auto.
Qed.
Lemma centre_step lo hi n k d : centre lo hi n (1 + k)%Z + d - (centre lo hi n (0 + k)%Z + d) = (hi - lo) / IZR n.
Proof. unfold centre. rewrite !plus_IZR. ring. Qed.
Definition blast_value (cen : bool) (dims : string) (rho0 E0 E1 : R) (c : config RNum) (v : Z) (i : ix) : R :=
  vec5 RNum rho0 0 0 0 (if (if cen then middle_cell dims (c_n c) i else corner_cell i) then E1 / over_named dims (fun a => 2 * spacing RNum c a) else E0) v.
Lemma blast_steps (c : config RNum) dims (m : meshes RNum) (off : axis -> R) : blast_size c dims ->
  (forall a, is_arr (coord m a) 1 (c_n c) (fun _ i => midpoint RNum (c_bounds c a) (getc a (c_n c)) (getc a i) + off a)) ->
  exists k : axis -> R, (forall a, mean_step RNum a (coord m a) = Ok (k a)) /\ forall a, in_dims a dims = true -> k a = spacing RNum c a.
Proof.
  intros H U.
  assert (S : forall a, exists k, mean_step RNum a (coord m a) = Ok k /\ ((2 <= getc a (c_n c))%Z -> k = spacing RNum c a)).
  { intro a. apply (mean_is a (coord m a) (c_n c) (fun j => centre (fst (c_bounds c a)) (snd (c_bounds c a)) (getc a (c_n c)) j + off a)).
    - intro b. apply H.
    - eapply is_arr_ext; [apply (U a)|]. intros v i. cbv beta. f_equal. apply midpoint_is, H.
    - intro k. rewrite centre_step. reflexivity. }
  destruct (S AX) as (kx & X1 & X2). destruct (S AY) as (ky & Y1 & Y2). destruct (S AZ) as (kz & Z1 & Z2).
  exists (fun a => match a with AX => kx | AY => ky | AZ => kz end). split; [intros []; assumption|].
  intros a D. destruct (H a) as [_ Q]. destruct (Q D) as [Q1 _]. destruct a; auto.
Qed.
Lemma sedov_on (cen : bool) dims rho0 E0 E1 (c : config RNum) (m : meshes RNum) (off : axis -> R) : blast_size c dims ->
  (forall a, is_arr (coord m a) 1 (c_n c) (fun _ i => midpoint RNum (c_bounds c a) (getc a (c_n c)) (getc a i) + off a)) ->
  res_is (sedov_blast RNum (if cen then "center" else "corner")%string dims rho0 E0 E1 m) 5 (c_n c) (blast_value cen dims rho0 E0 E1 c).
Proof.
  intros H U. destruct (blast_steps c dims m off H U) as (k & K1 & K2). destruct m as [[x y] z]. unfold sedov_blast.
  pose proof (K1 AX) as KX. pose proof (K1 AY) as KY. pose proof (K1 AZ) as KZ. cbn [coord] in KX, KY, KZ.
  rewrite KX. cbn [bind].
  rewrite KY. cbn [bind].
  rewrite KZ. cbn [bind].
  pose proof (energy_is dims E1 c k (spacing RNum c)) as EN. cbv zeta. rewrite EN.
  2:{ intros a D. split; [exact (K2 a D)|]. destruct (H a) as [_ Q]. apply Rgt_not_eq, Q, D. }
  destruct (U AX) as (U1 & U2 & _). cbn [coord] in U1, U2.
  assert (SH : @shp (car RNum) x = c_n c) by exact U2.
  destruct cen; cbn [String.eqb Ascii.eqb Bool.eqb bind]; (eexists; split; [reflexivity|]; split; [reflexivity|]; split; [exact U2|]; intros v i; cbn [at_]; unfold blast_value;
    rewrite SH, (in_peak_is _ dims c i H); reflexivity).
Qed.

Lemma sedov_mesh (cen : bool) dims rho0 E0 E1 (c : config RNum) : blast_size c dims ->
  res_is (sedov_blast RNum (if cen then "center" else "corner")%string dims rho0 E0 E1 (mesh_of c)) 5 (c_n c) (blast_value cen dims rho0 E0 E1 c).
Proof.
  intro H. apply (sedov_on cen dims rho0 E0 E1 c (mesh_of c) (fun _ => 0) H). intro a.
  destruct a; (split; [reflexivity|]; split; [reflexivity|]; intros v i; symmetry; apply Rplus_0_r).
Qed.
Lemma sedov_shift (cen : bool) dims rho0 E0 E1 (c : config RNum) dx dy dz : blast_size c dims ->
  res_is (sedov_blast RNum (if cen then "center" else "corner")%string dims rho0 E0 E1 (shift RNum (mesh_of c) dx dy dz)) 5 (c_n c) (blast_value cen dims rho0 E0 E1 c).
Proof.
  intro H. apply (sedov_on cen dims rho0 E0 E1 c _ (fun a => match a with AX => dx | AY => dy | AZ => dz end) H). intro a.
  destruct a; (split; [reflexivity|]; split; [reflexivity|]; intros v i; reflexivity).
Qed.

(** sums of indicators *)
Lemma sum_one n j : (0 <= j < Z.of_nat n)%Z -> sum_to n (fun k => if (k =? j)%Z then 1 else 0) = 1.
Proof.
  induction n as [|n IH]; intro H; [lia|]. cbn [sum_to]. destruct (Z.eqb_spec (Z.of_nat n) j) as [E|E].
  - rewrite sum_all0; [lra|]. intros k K. destruct (Z.eqb_spec k j); [lia|reflexivity].
  - rewrite IH by lia. lra.
Qed.
Lemma sum_middle n : (2 <= n)%Z -> sum_to (Z.to_nat n) (fun k => if SpecIC.middle n k then 1 else 0) = 2.
Proof.
  intro H. pose proof (Z.div_mod n 2 ltac:(lia)). pose proof (Z.mod_pos_bound n 2 ltac:(lia)).
  rewrite (sum_ext _ _ (fun k => (if (k =? n / 2 - 1)%Z then 1 else 0) + (if (k =? n / 2)%Z then 1 else 0))).
  - rewrite sum_add, !sum_one by lia. lra.
  - intros k _. unfold SpecIC.middle. destruct (Z.eqb_spec k (n / 2 - 1)), (Z.eqb_spec k (n / 2)); cbn [orb]; try lra. lia.
Qed.
Lemma sum_ones n : (0 <= n)%Z -> sum_to (Z.to_nat n) (fun _ => 1) = IZR n.
Proof.
  intro H. rewrite <- (Z2Nat.id n) at 2 by lia. generalize (Z.to_nat n). intro m. induction m as [|m IH]; [reflexivity|].
  cbn [sum_to]. rewrite IH, Nat2Z.inj_succ, succ_IZR. reflexivity.
Qed.
Lemma total_prod n f g h : total n (fun i => f (cx i) * g (cy i) * h (cz i))
  = sum_to (Z.to_nat (cx n)) f * sum_to (Z.to_nat (cy n)) g * sum_to (Z.to_nat (cz n)) h.
Proof.
  unfold total. cbn [cx cy cz].
  rewrite (sum_ext _ _ (fun x => (sum_to (Z.to_nat (cy n)) g * sum_to (Z.to_nat (cz n)) h) * f x)).
  - rewrite sum_scale. ring.
  - intros x _. rewrite (sum_ext _ _ (fun y => (f x * sum_to (Z.to_nat (cz n)) h) * g y)).
    + rewrite sum_scale. ring.
    + intros y _. rewrite sum_scale. ring.
Qed.
Lemma total_scale n k f : total n (fun i => k * f i) = k * total n f.
Proof.
  unfold total. rewrite <- sum_scale. apply sum_ext. intros x _. rewrite <- sum_scale. apply sum_ext. intros y _. rewrite <- sum_scale. reflexivity.
Qed.
Lemma total_ext' n f g : (forall i, f i = g i) -> total n f = total n g.
Proof. intro H. unfold total. apply sum_ext. intros. apply sum_ext. intros. apply sum_ext. intros. apply H. Qed.
Lemma total_middle (c : config RNum) dims : blast_size c dims ->
  total (c_n c) (fun i => if middle_cell dims (c_n c) i then 1 else 0) = over_named dims (fun _ => 2) * over_unnamed dims (fun a => IZR (getc a (c_n c))).
Proof.
  intro H.
  set (w := fun a k => if negb (in_dims a dims) || SpecIC.middle (getc a (c_n c)) k then 1 else 0).
  rewrite (total_ext' _ _ (fun i => w AX (cx i) * w AY (cy i) * w AZ (cz i))).
  2:{ intro i. unfold middle_cell. cbn [forallb]. rewrite andb_true_r. unfold w. cbn [getc].
      destruct (negb (in_dims AX dims) || _), (negb (in_dims AY dims) || _), (negb (in_dims AZ dims) || _); cbn [andb]; ring. }
  rewrite (total_prod (c_n c) (w AX) (w AY) (w AZ)).
  assert (S : forall a, sum_to (Z.to_nat (getc a (c_n c))) (w a) = if in_dims a dims then 2 else IZR (getc a (c_n c))).
  { intro a. unfold w. destruct (H a) as [A B]. destruct (in_dims a dims); cbn [negb orb]; [apply sum_middle, B; reflexivity|apply sum_ones; lia]. }
  change (cx (c_n c)) with (getc AX (c_n c)). change (cy (c_n c)) with (getc AY (c_n c)). change (cz (c_n c)) with (getc AZ (c_n c)).
  rewrite !S. unfold over_named, over_unnamed. destruct (in_dims AX dims), (in_dims AY dims), (in_dims AZ dims); ring.
Qed.
Lemma total_corner (c : config RNum) : (forall a, 1 <= getc a (c_n c))%Z -> total (c_n c) (fun i => if corner_cell i then 1 else 0) = 1.
Proof.
  intro H. rewrite (total_ext' _ _ (fun i => (if (cx i =? 0)%Z then 1 else 0) * (if (cy i =? 0)%Z then 1 else 0) * (if (cz i =? 0)%Z then 1 else 0))).
  - pose (f := fun k : Z => if (k =? 0)%Z then 1 else 0). refine (eq_trans (total_prod (c_n c) f f f) _). pose proof (H AX). pose proof (H AY). pose proof (H AZ). cbn [getc] in *. unfold f. rewrite !sum_one by lia. ring.
  - intro i. unfold corner_cell. cbn [forallb getc]. destruct (cx i =? 0)%Z, (cy i =? 0)%Z, (cz i =? 0)%Z; cbn [andb]; ring.
Qed.
Lemma over_nonzero dims f : (forall a, in_dims a dims = true -> 0 < f a) -> 0 < over_named dims f.
Proof.
  intro H. unfold over_named. repeat apply Rmult_lt_0_compat;
  match goal with |- context [in_dims ?a dims] => destruct (in_dims a dims) eqn:X; [apply H, X|lra] end.
Qed.
Lemma over_mul dims f g : over_named dims (fun a => f a * g a) = over_named dims f * over_named dims g.
Proof. unfold over_named. destruct (in_dims AX dims), (in_dims AY dims), (in_dims AZ dims); ring. Qed.
(** energy in the peak cells, when every value there is K times the nominal one *)
Lemma deposit_center (c : config RNum) dims E1 k (f : ix -> R) : blast_size c dims ->
  (forall i, middle_cell dims (c_n c) i = true -> f i = k * (E1 / over_named dims (fun a => 2 * spacing RNum c a))) ->
  total (c_n c) (fun i => if middle_cell dims (c_n c) i then f i * over_named dims (spacing RNum c) else 0)
  = k * E1 * over_unnamed dims (fun a => IZR (getc a (c_n c))).
Proof.
  intros H F.
  assert (P2 : 0 < over_named dims (fun _ => 2)) by (apply over_nonzero; intros; lra).
  assert (PH : 0 < over_named dims (spacing RNum c)) by (apply over_nonzero; intros a D; destruct (H a) as [_ Q]; apply Q, D).
  rewrite (total_ext' _ _ (fun i => (k * E1 / over_named dims (fun _ => 2)) * (if middle_cell dims (c_n c) i then 1 else 0))).
  2:{ intro i. destruct (middle_cell dims (c_n c) i) eqn:M; [|ring]. rewrite (F i M), over_mul. field. split; lra. }
  rewrite total_scale, total_middle by exact H. field. lra.
Qed.
Lemma deposit_corner (c : config RNum) dims E1 k (f : ix -> R) : blast_size c dims ->
  (forall i, corner_cell i = true -> f i = k * (E1 / over_named dims (fun a => 2 * spacing RNum c a))) ->
  total (c_n c) (fun i => if corner_cell i then f i * over_named dims (spacing RNum c) else 0) = k * E1 / over_named dims (fun _ => 2).
Proof.
  intros H F.
  assert (P2 : 0 < over_named dims (fun _ => 2)) by (apply over_nonzero; intros; lra).
  assert (PH : 0 < over_named dims (spacing RNum c)) by (apply over_nonzero; intros a D; destruct (H a) as [_ Q]; apply Q, D).
  rewrite (total_ext' _ _ (fun i => (k * E1 / over_named dims (fun _ => 2)) * (if corner_cell i then 1 else 0))).
  2:{ intro i. destruct (corner_cell i) eqn:M; [|ring]. rewrite (F i M), over_mul. field. split; lra. }
  rewrite total_scale, total_corner by apply H. ring.
Qed.
(** the initial state of a blast: averages of constants *)
Lemma quad_const l k : quad (half_rule l) (fun _ => k) = k * (fold_right Rplus 0 (map snd l) / 2).
Proof. induction l as [|[q w] l IH]; cbn [half_rule map quad fst snd fold_right]; [field|]. fold (half_rule l). rewrite IH. field. Qed.
Lemma triple_const lg p k : (forall a, 0 <= getc a p)%Z -> unit_rules lg -> triple lg p (fun _ _ _ => k) = k.
Proof.
  intros P H. unfold triple.
  assert (U : forall a k, quad (half_rule (lg (quadrature_size (getc a p)))) (fun _ => k) = k).
  { intros a j. pose proof (quadrature_size_bounds _ (P a)). pose proof (P a). rewrite quad_const, (H (quadrature_size (getc a p))) by lia. field. }
  rewrite (quad_ext _ _ (fun _ => k)); [exact (U AX k)|]. intro. rewrite (quad_ext _ _ (fun _ => k)); [exact (U AY k)|]. intro. exact (U AZ k).
Qed.
Lemma sedov_initial lg (cen : bool) dims rho0 E0 E1 (c : config RNum) cons : blast_size c dims -> (forall a, 0 <= getc a (c_p c))%Z -> unit_rules lg ->
  res_is (initial_state RNum lg c (sedov_blast RNum (if cen then "center" else "corner")%string dims rho0 E0 E1) None cons false) 5 (c_n c) (fun v i =>
    if (v <? 5)%Z then to_state cons (c_gamma c) (fun w => blast_value cen dims rho0 E0 E1 c w i) v else to_state cons (c_gamma c) (fun w => if (w <? 5)%Z then blast_value cen dims rho0 E0 E1 c w i else 0) v).
Proof.
  intros H P U. eapply res_is_ext.
  - apply (initial_general lg c (sedov_blast RNum (if cen then "center" else "corner")%string dims rho0 E0 E1) None cons (blast_value cen dims rho0 E0 E1 c)
      (fun _ _ _ => blast_value cen dims rho0 E0 E1 c)).
    + split; [constructor|intros s []].
    + apply sedov_mesh, H.
    + intros. apply sedov_shift, H.
  - intros v i. cbv beta zeta.
    rewrite (triple_ext _ _ _ (fun _ _ _ => to_state cons (c_gamma c) (fun w => if (w <? 5)%Z then blast_value cen dims rho0 E0 E1 c w i else 0) v)).
    + rewrite (triple_const lg (c_p c) _ P U). destruct (v <? 5)%Z eqn:V; [|reflexivity]. unfold to_state. destruct cons; [rewrite V; reflexivity|].
      unfold compute_conservatives, sum3. cbv zeta. unfold rRho, rE. cbn [Z.ltb Z.compare Pos.compare Pos.compare_cont]. rewrite V. reflexivity.
    + intros a b d. apply to_state_ext. intro w. unfold filled, listed. cbn [List.length firstn].
      destruct (w <? 5)%Z; [reflexivity|]. destruct (Z.to_nat (w - 5)); reflexivity.
Qed.
Lemma blast_energy (cen : bool) dims rho0 E0 E1 (c : config RNum) i gamma : gamma <> 1 ->
  compute_conservatives RNum gamma (fun w => blast_value cen dims rho0 E0 E1 c w i) 4%Z
  = / (gamma - 1) * blast_value cen dims rho0 E0 E1 c 4%Z i.
Proof.
  intro G. unfold compute_conservatives, sum3, blast_value, rRho, rE, is_vel, vec5. cbn [Z.eqb Pos.eqb Z.leb Z.compare Pos.compare Pos.compare_cont andb].
  rewrite nhalf_R. rn. field. lra.
Qed.
(** ** statements used in PropsIC *)
Lemma initial_values lg (c : config RNum) f fs (cons : bool) : (forall a, 1 <= getc a (c_n c))%Z ->
  good_names (map fst (listed fs)) ->
  exists u0, initial_state RNum lg c (pointwise RNum f) fs cons false = Ok u0 /\ rows u0 = (5 + Z.of_nat (List.length (listed fs)))%Z /\ shp u0 = c_n c /\
  forall v i, at_ u0 v i =
    fv_average RNum lg (fun x y z => if cons then point_value f (listed fs) x y z v else conserved (c_gamma c) (point_value f (listed fs) x y z) v)
      (spacing RNum c AX, spacing RNum c AY, spacing RNum c AZ) (c_p c) (cell_centre c AX i) (cell_centre c AY i) (cell_centre c AZ i).
Proof.
  intros Hn G. destruct (initial_is lg c f fs cons Hn G) as (u & E & A & B & V). exists u. split; [exact E|]. split; [exact A|]. split; [exact B|].
  intros v i. rewrite V. rewrite !fv_average_is. apply triple_ext. intros. unfold to_state. destruct cons; [reflexivity|].
  exact (cons_is _ _ _).
Qed.
Lemma initial_point_values (c : config RNum) lg f fs : (forall a, 1 <= getc a (c_n c))%Z -> good_names (map fst (listed fs)) ->
  initial_state RNum lg c (pointwise RNum f) fs false true = Err ValueError /\
  exists u0, initial_state RNum lg c (pointwise RNum f) fs true true = Ok u0 /\ rows u0 = (5 + Z.of_nat (List.length (listed fs)))%Z /\ shp u0 = c_n c /\
  forall v i, at_ u0 v i = point_value f (listed fs) (cell_centre c AX i) (cell_centre c AY i) (cell_centre c AZ i) v.
Proof.
  intros Hn G. destruct (initial_fv lg c (pointwise RNum f) fs G) as [A B]. split; [exact A|].
  destruct (B _ (ex_intro _ _ (conj eq_refl (conj eq_refl (conj eq_refl (fun v i => eq_refl)))))) as (u & E & Ru & Su & V).
  exists u. split; [exact E|]. split; [exact Ru|]. split; [exact Su|]. intros v i. rewrite V.
  assert (M : forall a, at_ (coord (mesh_of c) a) 0%Z i = cell_centre c a i) by (intros []; [exact (midpoint_is _ _ _ (Hn AX))|exact (midpoint_is _ _ _ (Hn AY))|exact (midpoint_is _ _ _ (Hn AZ))]).
  pose proof (M AX) as MX. pose proof (M AY) as MY. pose proof (M AZ) as MZ. unfold mesh_of, mesh in MX, MY, MZ. cbn [coord at_] in MX, MY, MZ.
  unfold filled, point_value. rewrite firstn_all. rewrite <- MX, <- MY, <- MZ. destruct (v <? 5)%Z; [reflexivity|].
  assert (O : forall o : option (string * (R -> R -> R -> R)), match o with Some (_, g) => let '(x, y, z) := mesh_of c in g (at_ x 0%Z i) (at_ y 0%Z i) (at_ z 0%Z i) | None => @nofZ RNum 0 end
     = match o with Some (_, g) => g (midpoint RNum (c_bounds c AX) (cx (c_n c)) (cx i)) (midpoint RNum (c_bounds c AY) (cy (c_n c)) (cy i)) (midpoint RNum (c_bounds c AZ) (cz (c_n c)) (cz i)) | None => 0 end)
    by (intros [[s g]|]; reflexivity).
  apply O.
Qed.
Lemma sedov_center_holds dims rho0 E0 E1 (c : config RNum) : blast_size c dims ->
  exists w, sedov_blast RNum "center" dims rho0 E0 E1 (mesh_of c) = Ok w /\ rows w = 5%Z /\ shp w = c_n c /\
    (forall i, exists P, cell_is (fun v => at_ w v i) rho0 0 0 0 P) /\
    (forall i, middle_cell dims (c_n c) i = false -> at_ w 4%Z i = E0) /\
    total (c_n c) (fun i => if middle_cell dims (c_n c) i then at_ w 4%Z i * over_named dims (spacing RNum c) else 0)
    = E1 * over_unnamed dims (fun a => IZR (getc a (c_n c))).
Proof.
  intro H. destruct (sedov_mesh true dims rho0 E0 E1 c H) as (w & E & A & B & V). exists w. split; [exact E|]. split; [exact A|]. split; [exact B|].
  split; [|split].
  - intro i. eexists. unfold cell_is. cbv beta. rewrite !V. apply vec5_is.
  - intros i M. rewrite V. unfold blast_value. rewrite M. reflexivity.
  - rewrite (deposit_center c dims E1 1 _ H); [ring|]. intros i M. rewrite V. unfold blast_value. rewrite M. symmetry. apply Rmult_1_l.
Qed.
Lemma sedov_corner_holds dims rho0 E0 E1 (c : config RNum) : blast_size c dims ->
  exists w, sedov_blast RNum "corner" dims rho0 E0 E1 (mesh_of c) = Ok w /\ rows w = 5%Z /\ shp w = c_n c /\
    (forall i, exists P, cell_is (fun v => at_ w v i) rho0 0 0 0 P) /\
    (forall i, corner_cell i = false -> at_ w 4%Z i = E0) /\
    total (c_n c) (fun i => if corner_cell i then at_ w 4%Z i * over_named dims (spacing RNum c) else 0)
    = E1 / over_named dims (fun _ => 2).
Proof.
  intro H. destruct (sedov_mesh false dims rho0 E0 E1 c H) as (w & E & A & B & V). exists w. split; [exact E|]. split; [exact A|]. split; [exact B|].
  split; [|split].
  - intro i. eexists. unfold cell_is. cbv beta. rewrite !V. apply vec5_is.
  - intros i M. rewrite V. unfold blast_value. rewrite M. reflexivity.
  - rewrite (deposit_corner c dims E1 1 _ H); [rewrite Rmult_1_l; reflexivity|]. intros i M. rewrite V. unfold blast_value. rewrite M. symmetry. apply Rmult_1_l.
Qed.
Lemma sedov_refuses mode dims rho0 E0 E1 (c : config RNum) : blast_size c dims -> mode <> "center"%string -> mode <> "corner"%string ->
  sedov_blast RNum mode dims rho0 E0 E1 (mesh_of c) = Err UnboundLocalError.
Proof.
  intros H A B. destruct (blast_steps c dims (mesh_of c) (fun _ => 0) H) as (k & K1 & _).
  { intro a. destruct a; (split; [reflexivity|]; split; [reflexivity|]; intros v i; symmetry; apply Rplus_0_r). }
  unfold sedov_blast, mesh_of, mesh. pose proof (K1 AX) as KX. pose proof (K1 AY) as KY. pose proof (K1 AZ) as KZ.
  refine (eq_trans (f_equal (fun r => bind r _) KX) _). cbn [bind]. refine (eq_trans (f_equal (fun r => bind r _) KY) _). cbn [bind].
  refine (eq_trans (f_equal (fun r => bind r _) KZ) _). cbn [bind].
  rewrite (proj2 (String.eqb_neq _ _) A), (proj2 (String.eqb_neq _ _) B). reflexivity.
Qed.
Lemma middle_even n k : Z.Even n -> SpecIC.middle n (n - 1 - k) = SpecIC.middle n k.
Proof.
  intros [m ->]. unfold SpecIC.middle. replace (2 * m / 2)%Z with m by (rewrite Z.mul_comm, Z.div_mul; lia).
  destruct (Z.eqb_spec (2 * m - 1 - k) (m - 1)), (Z.eqb_spec (2 * m - 1 - k) m), (Z.eqb_spec k (m - 1)), (Z.eqb_spec k m); cbn [orb]; try reflexivity; lia.
Qed.
Lemma sedov_off_centre dims rho0 E0 E1 (c : config RNum) a i : blast_size c dims -> in_dims a dims = true -> Z.Odd (getc a (c_n c)) ->
  middle_cell dims (c_n c) i = true -> getc a i = (getc a (c_n c) / 2 - 1)%Z ->
  exists w, sedov_blast RNum "center" dims rho0 E0 E1 (mesh_of c) = Ok w /\
    at_ w 4%Z i = E1 / over_named dims (fun a => 2 * spacing RNum c a) /\
    at_ w 4%Z (setc a (getc a (c_n c) - 1 - getc a i)%Z i) = E0.
Proof.
  intros H D [m O] M Hi. destruct (sedov_mesh true dims rho0 E0 E1 c H) as (w & E & A & B & V). exists w. split; [exact E|].
  rewrite !V. unfold blast_value. rewrite M. split; [reflexivity|].
  replace (middle_cell dims (c_n c) (setc a (getc a (c_n c) - 1 - getc a i)%Z i)) with false; [reflexivity|].
  assert (X : SpecIC.middle (getc a (c_n c)) (getc a (c_n c) - 1 - getc a i) = false).
  { rewrite Hi, O. replace ((2 * m + 1) / 2)%Z with m by (apply Z.div_unique with 1%Z; lia). unfold SpecIC.middle.
    replace ((2 * m + 1) / 2)%Z with m by (apply Z.div_unique with 1%Z; lia).
    destruct (Z.eqb_spec (2 * m + 1 - 1 - (m - 1)) (m - 1)), (Z.eqb_spec (2 * m + 1 - 1 - (m - 1)) m); try reflexivity; lia. }
  symmetry. unfold middle_cell. cbn [forallb].
  destruct a; cbn [getc setc cx cy cz] in *; rewrite D, X; cbn [negb orb andb]; rewrite ?andb_false_r; reflexivity.
Qed.
Lemma sedov_default lg dims rho0 E0 E1 (c : config RNum) : blast_size c dims -> (forall a, 0 <= getc a (c_p c))%Z -> unit_rules lg -> c_gamma c <> 1 ->
  exists u0 u1, initial_state RNum lg c (sedov_blast RNum "center" dims rho0 E0 E1) None false false = Ok u0 /\
    initial_state RNum lg c (sedov_blast RNum "center" dims rho0 E0 E1) None true false = Ok u1 /\
    total (c_n c) (fun i => if middle_cell dims (c_n c) i then at_ u0 4%Z i * over_named dims (spacing RNum c) else 0)
    = E1 / (c_gamma c - 1) * over_unnamed dims (fun a => IZR (getc a (c_n c))) /\
    total (c_n c) (fun i => if middle_cell dims (c_n c) i then at_ u1 4%Z i * over_named dims (spacing RNum c) else 0)
    = E1 * over_unnamed dims (fun a => IZR (getc a (c_n c))).
Proof.
  intros H P U G. destruct (sedov_initial lg true dims rho0 E0 E1 c false H P U) as (u0 & X0 & A0 & B0 & V0).
  destruct (sedov_initial lg true dims rho0 E0 E1 c true H P U) as (u1 & X1 & A1 & B1 & V1). exists u0, u1. split; [exact X0|]. split; [exact X1|]. split.
  - rewrite (deposit_center c dims E1 (/ (c_gamma c - 1)) _ H); [field; lra|]. intros i M. rewrite V0. cbn [Z.ltb Z.compare Pos.compare Pos.compare_cont].
    unfold to_state. rewrite blast_energy by exact G. f_equal. unfold blast_value. rewrite M. reflexivity.
  - rewrite (deposit_center c dims E1 1 _ H); [ring|]. intros i M. rewrite V1. cbn [Z.ltb Z.compare Pos.compare Pos.compare_cont].
    unfold to_state, blast_value. rewrite M. symmetry. apply Rmult_1_l.
Qed.
Lemma sedov_positive lg dims (cen : bool) rho0 E0 E1 (c : config RNum) fs : (forall a, 0 <= getc a (c_p c))%Z -> positive_rules lg -> 1 < c_gamma c ->
  good_names (map fst (listed fs)) -> blast_size c dims -> 0 < rho0 -> 0 < E0 -> 0 < E1 ->
  exists u0, initial_state RNum lg c (sedov_blast RNum (if cen then "center" else "corner")%string dims rho0 E0 E1) fs false false = Ok u0 /\
    rows u0 = (5 + Z.of_nat (List.length (listed fs)))%Z /\ shp u0 = c_n c /\ gas_everywhere u0.
Proof.
  intros P L Ga G H A B C.
  assert (Q : forall w v i, is_arr w 5 (c_n c) (blast_value cen dims rho0 E0 E1 c) -> (v = 0 \/ v = 4)%Z -> 0 < at_ w v i).
  { intros w v i (_ & _ & V) [->| ->]; rewrite V; unfold blast_value, vec5; cbn [Z.eqb Pos.eqb]; [exact A|].
    match goal with |- 0 < (if ?b then _ else _) => destruct b end; [|exact B]. apply Rdiv_lt_0_compat; [exact C|].
    apply over_nonzero. intros a D. destruct (H a) as [_ X]. destruct (X D). lra. }
  assert (K : forall (m : meshes RNum), res_is (sedov_blast RNum (if cen then "center" else "corner")%string dims rho0 E0 E1 m) 5 (c_n c) (blast_value cen dims rho0 E0 E1 c) ->
    @shp (car RNum) (fst (fst m)) = c_n c -> positive_on (sedov_blast RNum (if cen then "center" else "corner")%string dims rho0 E0 E1) m).
  { intros m (w & E & W) S. exists w. split; [exact E|]. split; [|intro i; split; apply Q; auto]. rewrite S. destruct W as (W1 & W2 & _). split; [exact W1|]. split; [exact W2|reflexivity]. }
  apply (initial_positive_on lg c _ fs P L Ga G).
  - apply K; [apply sedov_mesh, H|reflexivity].
  - intros. apply K; [apply sedov_shift, H|reflexivity].
Qed.
(** ** missing scalars *)
Lemma missing_scalar (core : ic RNum) l : l <> [] -> good_names l ->
  exists h, hydro_state l 4 = Ok h /\ build_ic RNum core h None = Err AttributeError /\
  forall fs s, In s l -> ~ In s (map fst fs) -> build_ic RNum core h (Some fs) = Err ValueError.
Proof.
  intros NE G. destruct (names_addressed l 4 G) as (h & E & _). exists h. split; [exact E|].
  assert (HP : hs_passives h = l /\ hs_includes h = true).
  { unfold hydro_state in E. rewrite (proj2 (distinct_nodup _) (proj1 G)) in E. cbn [negb] in E. injection E as <-. split; [reflexivity|]. destruct l; [congruence|reflexivity]. }
  destruct HP as [HP HI]. unfold build_ic. rewrite HI, HP. split; [reflexivity|]. intros fs s I O.
  replace (forallb (fun s => dmem s fs) l) with false; [reflexivity|].
  symmetry. apply not_true_is_false. intro X. rewrite forallb_forall in X. specialize (X s I). unfold dmem in X.
  destruct (dget s fs) eqn:D; [|discriminate]. apply O. apply in_keys. congruence.
Qed.
