(** Limited slopes and face values. *)
From Coq Require Import ZArith List Bool Lia Reals Lra Psatz Floats.SpecFloat.
From Verif Require Import Err Num PySlice NdArray FvM LimitM SpecLim HydroP NdArrayP OpP SolverP SlopeP.
Open Scope R_scope.

Lemma minmod_limited a b : limited_by 1 (minmod RNum a b) a b.
Proof. destruct (minmod_bounds a b) as [[H1 H2]|(H1 & H2 & H3)]; split; intro; try lra; try (split; assumption). Qed.
Lemma moncen_limited a b : limited_by 2 (moncen RNum a b) a b.
Proof. destruct (moncen_bounds a b) as [[H1 H2]|(H1 & H2 & H3)]; split; intro; try lra; try (split; assumption). Qed.

Lemma minmod_exact a b : 0 < a * b -> / 10 ^ 16 <= Rmax (Rabs a) (Rabs b) -> Rabs (minmod RNum a b) = Rmin (Rabs a) (Rabs b).
Proof.
  assert (T : tiny RNum = / 10 ^ 16). { unfold tiny. rn. unfold Rdiv. rewrite Rmult_1_l. f_equal. change (IZR (10 ^ 16)) with (IZR 10000000000000000). lra. }
  assert (P : forall a b, 0 < a -> 0 < b -> / 10 ^ 16 <= Rmax a b -> minmod RNum a b = Rmin a b).
  { clear a b. intros a b Ha Hb H. rewrite minmod_pos by assumption. replace (Rltb 0 b) with true by (symmetry; apply Rltb_true; exact Hb).
    apply Rmin_left. rewrite T. set (t := / 10 ^ 16) in *.
    assert (0 < t) by (rewrite <- T; apply tiny_pos). apply (Rmult_le_reg_r t); [assumption|]. replace (a * b / t * t) with (a * b) by (field; lra).
    unfold Rmin, Rmax in *. destruct (Rle_dec a b); nra. }
  intros H Hm. assert (C : 0 < a /\ 0 < b \/ a < 0 /\ b < 0) by (destruct (Rtotal_order a 0) as [?|[?|?]]; [right|exfalso|left]; nra).
  destruct C as [[Ha Hb]|[Ha Hb]].
  - rewrite (Rabs_right a), (Rabs_right b) in * by lra. rewrite P by assumption. apply Rabs_right. apply Rle_ge, Rmin_glb; lra.
  - rewrite (Rabs_left a), (Rabs_left b) in * by lra. rewrite <- (Ropp_involutive a), <- (Ropp_involutive b), minmod_opp, Rabs_Ropp.
    rewrite P by (try assumption; lra). rewrite !Ropp_involutive. apply Rabs_right. apply Rle_ge, Rmin_glb; lra.
Qed.
Lemma moncen_exact a b : 0 < a * b -> Rabs (moncen RNum a b) = Rmin (2 * Rmin (Rabs a) (Rabs b)) (Rabs ((a + b) / 2)).
Proof.
  assert (P : forall a b, 0 < a -> 0 < b -> moncen RNum a b = Rmin (2 * Rmin a b) ((a + b) / 2)).
  { clear a b. intros a b Ha Hb. unfold moncen, nhalf, nsign. rn.
    replace (Rleb 0 (a * b)) with true by (symmetry; apply Rleb_true; nra).
    replace (Rltb 0 (1 / 2 * (a + b))) with true by (symmetry; apply Rltb_true; lra).
    rewrite !Rabs_right by lra. rewrite Rmult_1_l. f_equal; [|lra]. unfold Rmin. repeat destruct (Rle_dec _ _); lra. }
  intros H. assert (C : 0 < a /\ 0 < b \/ a < 0 /\ b < 0) by (destruct (Rtotal_order a 0) as [?|[?|?]]; [right|exfalso|left]; nra).
  destruct C as [[Ha Hb]|[Ha Hb]].
  - rewrite (Rabs_right a), (Rabs_right b), (Rabs_right ((a + b) / 2)) by lra. rewrite P by assumption. apply Rabs_right.
    apply Rle_ge, Rmin_glb; [|lra]. assert (0 <= Rmin a b) by (apply Rmin_glb; lra). lra.
  - rewrite (Rabs_left a), (Rabs_left b), (Rabs_left ((a + b) / 2)) by lra. rewrite <- (Ropp_involutive a) at 1. rewrite <- (Ropp_involutive b) at 1. rewrite moncen_opp, Rabs_Ropp.
    rewrite P by lra. replace ((- a + - b) / 2) with (- ((a + b) / 2)) by lra. apply Rabs_right.
    apply Rle_ge, Rmin_glb; [|lra]. assert (0 <= Rmin (- a) (- b)) by (apply Rmin_glb; lra). lra.
Qed.

Lemma half_slope k s a b x y z : k <= 2 -> limited_by k s a b -> a = y - x -> b = z - y ->
  between x y (y - 1 / 2 * s) /\ between y z (y + 1 / 2 * s).
Proof.
  intros Hk [H0 H1] -> ->. unfold between. destruct (Rle_lt_dec ((y - x) * (z - y)) 0) as [H|H].
  - rewrite (H0 H). pose proof (Rmin_r x y). pose proof (Rmax_r x y). pose proof (Rmin_l y z). pose proof (Rmax_l y z). split; lra.
  - destruct (H1 H) as [H2 H3].
    assert (C : x < y /\ y < z \/ y < x /\ z < y). { destruct (Rtotal_order x y) as [?|[?|?]]; [left|exfalso|right]; nra. }
    assert (0 <= Rmin (Rabs (y - x)) (Rabs (z - y))) by (apply Rmin_glb; apply Rabs_pos).
    pose proof (Rmin_l (Rabs (y - x)) (Rabs (z - y))). pose proof (Rmin_r (Rabs (y - x)) (Rabs (z - y))).
    assert (HH : Rabs s <= 2 * Rmin (Rabs (y - x)) (Rabs (z - y))) by nra.
    destruct C as [[C1 C2]|[C1 C2]].
    + rewrite (Rabs_right (y - x)), (Rabs_right (z - y)) in * by lra. assert (0 < s) by nra. rewrite Rabs_right in HH by lra.
      rewrite (Rmin_left x y), (Rmax_right x y), (Rmin_left y z), (Rmax_right y z) by lra. split; lra.
    + rewrite (Rabs_left (y - x)), (Rabs_left (z - y)) in * by lra. assert (s < 0) by nra. rewrite Rabs_left in HH by lra.
      rewrite (Rmin_right x y), (Rmax_left x y), (Rmin_right y z), (Rmax_left y z) by lra. split; lra.
Qed.
Theorem face_values (a : axis) l (u : arr R) : l = L_minmod \/ l = L_moncen -> (2 <= getc a (shp u))%Z ->
  exists L R, MUSCL_interpolations RNum a l u = Ok (L, R) /\
    rows L = rows u /\ rows R = rows u /\
    shp L = setc a (getc a (shp u) - 2)%Z (shp u) /\ shp R = setc a (getc a (shp u) - 2)%Z (shp u) /\
    forall v i, between (at_ u v i) (at_ u v (moved a 1 i)) (at_ L v i) /\
                between (at_ u v (moved a 1 i)) (at_ u v (moved a 2 i)) (at_ R v i) /\
                at_ L v i + at_ R v i = 2 * at_ u v (moved a 1 i).
Proof.
  intros Hl Hn. destruct (MUSCL_is RNum a l u) as (L & R & E & (RL & SL & VL) & (RR & SR & VR)).
  { destruct Hl; subst; discriminate. } { exact Hn. }
  exists L, R. split; [exact E|]. split; [exact RL|]. split; [exact RR|]. split; [exact SL|]. split; [exact SR|].
  intros v i. rewrite VL, VR. unfold p3, muscl_l, muscl_r. fold (moved a 1 i). fold (moved a 2 i).
  replace (at_ u v (setc a (getc a i + 0) i)) with (at_ u v i) by (rewrite Z.add_0_r; f_equal; destruct a, i; reflexivity).
  unfold nhalf. rn. set (x := at_ u v i). set (y := at_ u v (moved a 1 i)). set (z := at_ u v (moved a 2 i)).
  assert (H : exists k, k <= 2 /\ limited_by k (slope_fn RNum l (y - x) (z - y)) (y - x) (z - y)).
  { destruct Hl; subst l; [exists 1; split; [lra|apply minmod_limited]|exists 2; split; [lra|apply moncen_limited]]. }
  destruct H as (k & Hk & HL). destruct (half_slope k _ _ _ x y z Hk HL eq_refl eq_refl) as [B1 B2].
  split; [exact B1|]. split; [exact B2|]. lra.
Qed.
(** binary64: the product of the differences underflows to -0 *)
Lemma moncen_underflow : exists dl dr : f64, nltb (n := FNum) (nofZ 0) dl = true /\ nltb (n := FNum) dr (nofZ 0) = true /\
  nltb (n := FNum) (moncen FNum dl dr) (nofZ 0) = true.
Proof.
  exists (S754_finite false 4503599627370496 (-660)), (S754_finite true 4503599627370496 (-658)). vm_compute. auto.
Qed.
