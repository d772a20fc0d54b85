(** A wall at the upper end, by way of the mirror image. *)
From Coq Require Import ZArith List Bool Lia Reals Lra.
From Verif Require Import Err Num PySlice NdArray HydroM RiemannM StencilsM FvM BcM SedM
  LimitM OdeM SolverM Spec SpecBc SpecLim SpecSolver SpecCons SpecScheme SpecSym SpecMirLim SpecFold SpecExtent SpecFoldUp
  NdArrayP MirrorP MirLimP FoldP FoldLimP ExtentP.
Import ListNotations.
Local Open Scope Z_scope.

Section Up.
Context (c : config RNum) (b' : bcond RNum) (d : axis).
Context (HT : tabulated c) (HC : closed c) (X : lower_at_both_ends d (c_bc c) b') (WU : bc_type (c_bc c) d SR = B_reflective)
  (NP : bc_type (c_bc c) d SL <> B_periodic) (HA : ~ inactive c d).

(** the boundary conditions of the mirror image *)
Definition turned : bcond RNum :=
  mkbc (N := RNum) (fun a pos => bc_type (c_bc c) a (if axis_eqb a d then opposite pos else pos)) (bc_val (c_bc c)) (bc_slabs (c_bc c)) (bc_cupy (c_bc c)).
Notation c1 := (replace_bc c turned).
Lemma turned_ends : ends_exchanged d (c_bc c) turned.
Proof. intros a pos. reflexivity. Qed.
Lemma turned_tab : tabulated c1.
Proof. destruct HT as [[A B D E] P]. split; [split|]; assumption. Qed.
Lemma turned_closed : closed c1.
Proof.
  intro a. destruct (HC a) as [Z|[P Q]]; [left; exact Z|right]. split.
  - intro pos. exact (P (if axis_eqb a d then opposite pos else pos)).
  - intro E. cbn [replace_bc c_bc turned bc_type opposite] in *. destruct (axis_eqb a d) eqn:AD; [|auto].
    destruct a, d; try discriminate AD; congruence.
Qed.
Lemma turned_wall : bc_type (c_bc c1) d SL = B_reflective.
Proof. cbn [replace_bc c_bc turned bc_type]. destruct d; exact WU. Qed.
Lemma turned_upper : upper_at_both_ends d (c_bc c1) b'.
Proof.
  intros a pos. rewrite X. cbn [replace_bc c_bc turned bc_type]. destruct (axis_eqb a d) eqn:AD; reflexivity.
Qed.
Lemma turned_flat : flat_box c -> flat_box c1.
Proof.
  intros [H|(a & A & B & P)]; [left; exact H|right]. exists a. split; [exact A|]. split; [exact B|].
  intro NA. destruct (P NA) as (pos & E). cbn [replace_bc c_bc turned bc_type].
  destruct (axis_eqb AZ d) eqn:AD; [exists (opposite pos); destruct pos; exact E|exists pos; exact E].
Qed.
Lemma mirror_unfold (w m w' : arr R) : mirrored d w m -> unfolded (N := RNum) d m w' -> unfolded_up (N := RNum) d w w'.
Proof.
  intros (R1 & S1 & A1) H2. unfold unfolded in H2. cbv zeta in H2. change (car RNum) with R in H2. rewrite S1 in H2. destruct H2 as (R2 & S2 & A2). unfold unfolded_up. cbv zeta. change (car RNum) with R. split; [congruence|]. split; [exact S2|].
  intros v i Hi. rewrite (A2 v i Hi). rewrite S2 in Hi.
  assert (Hd : 0 <= getc d i < 2 * getc d (shp w)) by (pose proof (Hi d) as K; rewrite getc_setc_eq in K; exact K).
  assert (IN : forall z, 0 <= z < getc d (shp w) -> in_shape (shp w) (setc d z i)).
  { intros z Hz a. assert (AD : {d = a} + {d <> a}) by decide equality. destruct AD as [<-|NE]; [rewrite getc_setc_eq; exact Hz|].
    rewrite (getc_setc_ne d a) by exact NE. pose proof (Hi a) as K. rewrite (getc_setc_ne d a) in K by exact NE. exact K. }
  destruct (getc d (shp w) <=? getc d i) eqn:LE.
  - apply Z.leb_le in LE. rewrite (proj2 (Z.ltb_ge _ _) LE). rewrite (A1 v _ (IN (getc d i - getc d (shp w)) ltac:(lia))). cbv zeta.
    rewrite getc_setc_eq, setc_setc. replace (getc d (shp w) - 1 - (getc d i - getc d (shp w))) with (2 * getc d (shp w) - 1 - getc d i) by lia. reflexivity.
  - apply Z.leb_gt in LE. rewrite (proj2 (Z.ltb_lt _ _) LE). rewrite (A1 v _ (IN (getc d (shp w) - 1 - getc d i) ltac:(lia))). cbv zeta.
    rewrite getc_setc_eq, setc_setc. replace (getc d (shp w) - 1 - (getc d (shp w) - 1 - getc d i)) with (getc d i) by lia.
    rewrite setc_getc. destruct (v =? comp d); [|reflexivity]. apply Ropp_involutive.
Qed.
Lemma unfold_mirror (w m w' : arr R) : mirrored d w m -> unfolded_up (N := RNum) d w w' -> unfolded (N := RNum) d m w'.
Proof.
  intros (R1 & S1 & A1) H2. unfold unfolded_up in H2. cbv zeta in H2. change (car RNum) with R in H2. destruct H2 as (R2 & S2 & A2). unfold unfolded. cbv zeta. change (car RNum) with R. rewrite S1. split; [congruence|]. split; [exact S2|].
  intros v i Hi. rewrite (A2 v i Hi). rewrite S2 in Hi.
  assert (Hd : 0 <= getc d i < 2 * getc d (shp w)) by (pose proof (Hi d) as K; rewrite getc_setc_eq in K; exact K).
  assert (IN : forall z, 0 <= z < getc d (shp w) -> in_shape (shp w) (setc d z i)).
  { intros z Hz a. assert (AD : {d = a} + {d <> a}) by decide equality. destruct AD as [<-|NE]; [rewrite getc_setc_eq; exact Hz|].
    rewrite (getc_setc_ne d a) by exact NE. pose proof (Hi a) as K. rewrite (getc_setc_ne d a) in K by exact NE. exact K. }
  destruct (getc d (shp w) <=? getc d i) eqn:LE.
  - apply Z.leb_le in LE. rewrite (proj2 (Z.ltb_ge _ _) LE). rewrite (A1 v _ (IN (getc d i - getc d (shp w)) ltac:(lia))). cbv zeta.
    rewrite getc_setc_eq, setc_setc. replace (getc d (shp w) - 1 - (getc d i - getc d (shp w))) with (2 * getc d (shp w) - 1 - getc d i) by lia. reflexivity.
  - apply Z.leb_gt in LE. rewrite (proj2 (Z.ltb_lt _ _) LE). rewrite (A1 v _ (IN (getc d (shp w) - 1 - getc d i) ltac:(lia))). cbv zeta.
    rewrite getc_setc_eq, setc_setc. replace (getc d (shp w) - 1 - (getc d (shp w) - 1 - getc d i)) with (getc d i) by lia.
    rewrite setc_getc. destruct (v =? comp d); [|reflexivity]. symmetry. apply Ropp_involutive.
Qed.
Lemma outcomes (x y z : res (run RNum)) : moved_outcome (N := RNum) (mirrored d) x y -> moved_outcome (N := RNum) (unfolded (N := RNum) d) y z ->
  moved_outcome (N := RNum) (unfolded_up (N := RNum) d) x z.
Proof.
  destruct x as [o|e], y as [o1|e1], z as [o'|e']; cbn [moved_outcome]; try contradiction; try congruence.
  intros [A1 A2 A3 A4 A5] [B1 B2 B3 B4 B5]. split; try congruence; [exact (mirror_unfold _ _ _ A4 B4)|].
  revert B5. generalize (o_snaps o'). clear - A5. induction A5 as [|s s1 l l1 [E Q] _ IH]; intros l' B5; inversion B5 as [|? s' ? l2 [E2 Q2] B6]; subst; constructor.
  - split; [congruence|exact (mirror_unfold _ _ _ Q Q2)].
  - exact (IH _ B6).
Qed.
Lemma same_place heap i av T k exact db log fuel u :
  simulate (doubled_up d b' c) heap i av T k exact db log fuel u = simulate (doubled d b' c1) heap i av T k exact db log fuel u.
Proof.
  apply (place RNum (doubled d b' c1) (c_bounds (doubled_up d b' c))). intro a. unfold extent, doubled_up, doubled, replace_bc. cbn [c_bounds].
  destruct (axis_eqb a d); cbn [fst snd]; [|reflexivity]. cbn. ring.
Qed.
Theorem up_llf heap heap' i av T k exact db log fuel u u' : c_limit c = false -> c_rs c = RS_llf -> shp u = c_n c -> 1 <= rows u ->
  unfolded_up (N := RNum) d u u' ->
  moved_outcome (N := RNum) (unfolded_up (N := RNum) d) (simulate c heap i av T k exact db log fuel u)
    (simulate (doubled_up d b' c) heap' i av T k exact db log fuel u').
Proof.
  intros HL G Su Ru U. pose proof (mirrored_exists d u) as M. match type of M with mirrored d u ?x => set (m := x) in * end.
  rewrite same_place. apply (outcomes _ (simulate c1 heap i av T k exact db log fuel m)).
  - apply mirror_llf; auto; [apply turned_closed|apply turned_ends].
  - exact (fold_llf c1 b' d heap heap' i av T k exact db log fuel m u' turned_tab turned_closed turned_upper turned_wall HA HL G Su Ru (unfold_mirror u m u' M U)).
Qed.
Theorem up_limited heap heap' i av T k exact db log fuel u u' : c_limit c = true -> known_options c ->
  (c_convex c = false \/ (flat_box c /\ flat_box (doubled_up d b' c))) -> c_rs c = RS_llf -> (c_force c = true \/ wall_fair d (c_nad c)) ->
  shp u = c_n c -> 2 <= rows u -> unfolded_up (N := RNum) d u u' ->
  moved_outcome (N := RNum) (unfolded_up (N := RNum) d) (simulate c heap i av T k exact db log fuel u)
    (simulate (doubled_up d b' c) heap' i av T k exact db log fuel u').
Proof.
  intros HL K CV G W Su Ru U. pose proof (mirrored_exists d u) as M. match type of M with mirrored d u ?x => set (m := x) in * end.
  rewrite same_place. apply (outcomes _ (simulate c1 heap i av T k exact db log fuel m)).
  - apply mirror_limited; auto; [apply turned_closed|apply turned_ends| |].
    + destruct CV as [CV|[F F']]; [left; exact CV|right]. split; [exact F|apply turned_flat, F].
    + destruct W as [W|(W1 & W2 & W3)]; [left; exact W|right]. split; [exact W1|]. split; [|exact W3]. destruct W2 as [[W2 _]|W2]; [left|right]; exact W2.
  - refine (fold_limited_llf c1 b' d turned_tab turned_closed turned_upper turned_wall HA HL K _ G W heap heap' i av T k exact db log fuel m u' Su Ru (unfold_mirror u m u' M U)).
    destruct CV as [CV|[F F']]; [left; exact CV|right]. split; [apply turned_flat, F|exact F'].
Qed.
End Up.
Lemma unfolded_up_exists d (u : arr R) : exists u', unfolded_up (N := RNum) d u u'.
Proof.
  exists (mkarr (rows u) (setc d (2 * getc d (shp u)) (shp u)) (fun v i => if getc d i <? getc d (shp u) then at_ u v i
    else let x := at_ u v (setc d (2 * getc d (shp u) - 1 - getc d i) i) in if v =? comp d then (- x)%R else x)).
  split; [reflexivity|]. split; [reflexivity|]. intros v i _. reflexivity.
Qed.
