(** The one-dimensional reference solver: traces, markers, fluxes. *)
From Coq Require Import ZArith List Bool Lia Reals Lra Psatz String FunctionalExtensionality.
From Verif Require Import Err Num NdArray NdArrayP HydroM HydroP StencilsM FvM RiemannM RiemannP Spec SpecCons SpecScheme SchemeP
  RomainM SpecRomain ConsP.
Import ListNotations.
Open Scope R_scope.
Local Notation N := RNum.

(** ** ghost cells *)
Lemma set_bc_periodic n b v i : (4 <= n)%Z -> (0 <= i < n + 8)%Z ->
  set_bc N (n + 8) "periodic" b v i = b v (4 + (i - 4) mod n)%Z.
Proof.
  intros Hn Hi. unfold set_bc. cbn [String.eqb Ascii.eqb Bool.eqb fold_left]. unfold set_col. cbn [fst snd].
  assert (E : (4 + (i - 4) mod n = if i <? 4 then i + n else if i <? n + 4 then i else i - n)%Z).
  { destruct (Z.ltb_spec i 4).
    - rewrite <- (Z_mod_plus_full (i - 4) 1 n), Z.mod_small; lia.
    - destruct (Z.ltb_spec i (n + 4)); [rewrite Z.mod_small; lia|].
      rewrite <- (Z_mod_plus_full (i - 4) (-1) n), Z.mod_small; lia. }
  rewrite E. clear E.
  destruct (Z.ltb_spec i 4); [|destruct (Z.ltb_spec i (n + 4))];
    repeat (match goal with |- context [Z.eqb ?x ?y] => destruct (Z.eqb_spec x y); try (exfalso; lia) end);
    f_equal; lia.
Qed.

(** ** the smoothness marker *)
Lemma side_below d m : m <> 0 -> (side N d m < 1 <-> (0 < m /\ 2 * d < m) \/ (m < 0 /\ m < 2 * d)).
Proof.
  intro Hm. unfold side. rn. destruct (Reqb m 0) eqn:E; rb; [contradiction|]. clear E.
  assert (P : forall x, 0 < m -> (x / m < 1 <-> x < m)).
  { intros x H. split; intro L.
    - apply (Rmult_lt_compat_r m) in L; [|lra]. unfold Rdiv in L. rewrite Rmult_assoc, Rinv_l in L by lra. lra.
    - apply (Rmult_lt_reg_r m); [lra|]. unfold Rdiv. rewrite Rmult_assoc, Rinv_l by lra. lra. }
  assert (Q : forall x, m < 0 -> (x / m < 1 <-> m < x)).
  { intros x H. split; intro L.
    - assert (x / m * m = x) by (field; lra). nra.
    - assert (x / m * m = x) by (field; lra). nra. }
  destruct (Rltb 0 m) eqn:E; rb.
  - specialize (P (Rmax (2 * d) 0) E). split.
    + intro H. left. split; [exact E|]. unfold Rmin in H. destruct (Rle_dec 1 (Rmax (2 * d) 0 / m)); [lra|].
      apply P in H. pose proof (Rmax_l (2 * d) 0). lra.
    + intros [[_ H]|[H _]]; [|lra]. apply Rle_lt_trans with (Rmax (2 * d) 0 / m); [apply Rmin_r|]. apply P. apply Rmax_lub_lt; lra.
  - assert (M : m < 0) by lra. specialize (Q (Rmin (2 * d) 0) M). split.
    + intro H. right. split; [exact M|]. unfold Rmin in H at 1. destruct (Rle_dec 1 (Rmin (2 * d) 0 / m)); [lra|].
      apply Q in H. pose proof (Rmin_l (2 * d) 0). lra.
    + intros [[H _]|[_ H]]; [lra|]. apply Rle_lt_trans with (Rmin (2 * d) 0 / m); [apply Rmin_r|]. apply Q. apply Rmin_glb_lt; lra.
Qed.
Lemma marker_below dl dr : let m := (1/2 * (dl + dr))%R in
  Rmin (side N dl m) (side N dr m) < 1 <-> ~ steady dl dr.
Proof.
  intro m. destruct (Req_dec (dl + dr) 0) as [E|E].
  - assert (Z0 : m = 0) by (unfold m; lra). rewrite Z0. unfold side. rn. replace (Reqb 0 0) with true by (symmetry; apply Reqb_true; reflexivity).
    split; [intro H; unfold Rmin in H; destruct (Rle_dec 1 1) in H; lra|]. intro H. exfalso. apply H. left. exact E.
  - assert (M : m <> 0) by (unfold m; lra). pose proof (side_below dl m M) as A. pose proof (side_below dr m M) as B.
    assert (C : forall x y, Rmin x y < 1 <-> x < 1 \/ y < 1).
    { intros x y. unfold Rmin. destruct (Rle_dec x y); split; intro; try tauto; lra. }
    eapply iff_trans; [apply C|]. eapply iff_trans; [apply or_iff_compat_r; apply A|].
    eapply iff_trans; [apply or_iff_compat_l; apply B|]. unfold steady, m. split.
    + intros [[[? ?]|[? ?]]|[[? ?]|[? ?]]] [|[(?&?&?)|(?&?&?)]]; lra.
    + intro H. destruct (Rlt_or_le 0 (dl + dr)).
      * destruct (Rlt_or_le (2 * dl) (1 / 2 * (dl + dr))); [left; left; lra|].
        destruct (Rlt_or_le (2 * dr) (1 / 2 * (dl + dr))); [right; left; lra|]. exfalso. apply H. right. left. lra.
      * destruct (Rlt_or_le (1 / 2 * (dl + dr)) (2 * dl)); [left; right; lra|].
        destruct (Rlt_or_le (1 / 2 * (dl + dr)) (2 * dr)); [right; right; lra|]. exfalso. apply H. right. right. lra.
Qed.

(** the marker on an unbounded line *)
Definition marker (f : Z -> R) (k : Z) : R :=
  let dl := slope f k - slope f (k - 1)%Z in let dr := slope f (k + 1)%Z - slope f k in
  Rmin (side N dl (1/2 * (dl + dr))) (side N dr (1/2 * (dl + dr))).
Lemma marker_is f k : marker f k < 1 <-> ~ smooth_at f k.
Proof. apply marker_below. Qed.
Lemma slope_half (a b : R) : @eq R (1 / 2 * (a - b)) ((a - b) / 2).
Proof. lra. Qed.

(** away from the ghost cells the marker is that of the unbounded line *)
Lemma marker_inside L bc (u : mat N) v j : (bc = "periodic" \/ bc = "free" \/ set_bc N L bc = fun u => u)%string ->
  (5 <= j <= L - 6)%Z -> smooth_extrema N L bc u v j = marker (u v) j.
Proof.
  intros Hb Hj.
  assert (K : forall (d : mat N) i, (4 <= i <= L - 5)%Z -> set_bc N L bc (pad1 N L d) v i = d v (i - 1)%Z).
  { intros d i Hi. assert (P : pad1 N L d v i = d v (i - 1)%Z).
    { unfold pad1. destruct (Z.leb_spec 1 i); [|lia]. destruct (Z.ltb_spec i (L - 1)); [|lia]. reflexivity. }
    rewrite <- P. destruct Hb as [-> | [-> | ->]]; [| |reflexivity];
      unfold set_bc; cbn [String.eqb Ascii.eqb Bool.eqb fold_left]; unfold set_col; cbn [fst snd];
      repeat (match goal with |- context [Z.eqb i ?y] => destruct (Z.eqb_spec i y); try (exfalso; lia) end); reflexivity. }
  unfold smooth_extrema. cbv zeta. rewrite K by lia. replace (j - 1 + 1)%Z with j by lia. replace (j - 1 + 2)%Z with (j + 1)%Z by lia.
  rewrite !K by lia. unfold marker, slope. rewrite nhalf_R. rn.
  replace (j - 1 + 2)%Z with (j + 1)%Z by lia. replace (j + 1 - 1 + 2)%Z with (j + 1 + 1)%Z by lia. replace (j + 1 - 1)%Z with j by lia.
  replace (j - 1 - 1 + 2)%Z with j by lia. replace (j - 1 + 1)%Z with j by lia. rewrite !slope_half. reflexivity.
Qed.

(** ** traces *)
Lemma traces_ok space a b c d e : (1 <= space <= 5)%Z -> exists l r m, traces N space a b c d e = Some (l, r, m).
Proof.
  intro H. assert (C : (space = 1 \/ space = 2 \/ space = 3 \/ space = 4 \/ space = 5)%Z) by lia.
  destruct C as [-> |[-> |[-> |[-> | ->]]]]; cbn [traces]; repeat eexists.
Qed.
Lemma limited_ok space (u alpha : mat N) v i : (1 <= space <= 5)%Z -> exists l r, limited N space u alpha v i = Some (l, r).
Proof.
  intro H. unfold limited. cbv zeta. destruct (traces_ok space (u v (i + 1)%Z) (u v (i + 2)%Z) (u v (i + 3)%Z) (u v (i + 4)%Z) (u v (i + 5)%Z) H) as (l & r & m & ->).
  destruct (1 <? space)%Z; repeat eexists.
Qed.
Ltac wsum := unfold weighted; cbn [List.length sum_to nth Z.to_nat Z.of_nat Pos.of_succ_nat Pos.succ Pos.to_nat Pos.iter_op];
  repeat match goal with |- context [Z.to_nat ?k] => let x := eval compute in (Z.to_nat k) in change (Z.to_nat k) with x end; cbn [nth].
Lemma traces_weights space f k l r m : (1 <= space <= 5)%Z ->
  traces N space (f (k - 2)%Z) (f (k - 1)%Z) (f k) (f (k + 1)%Z) (f (k + 2)%Z) = Some (l, r, m) ->
  at_pos space P_r f k l /\ at_pos space P_l f k r /\
  match m with Some x => (3 <= space)%Z /\ at_pos space P_c f k x | None => (space <= 2)%Z end.
Proof.
  intros H. assert (C : (space = 1 \/ space = 2 \/ space = 3 \/ space = 4 \/ space = 5)%Z) by lia.
  unfold at_pos.
  assert (G : forall j, f (k + j)%Z = (fun j => f (k + j)%Z) j) by reflexivity.
  replace (k - 2)%Z with (k + -2)%Z by lia. replace (k - 1)%Z with (k + -1)%Z by lia.
  replace k with (k + 0)%Z at 3 by lia. set (g := fun j => f (k + j)%Z). change (fun j : Z => f (k + j)%Z) with g in G. rewrite !G. clearbody g. clear G.
  destruct C as [-> |[-> |[-> |[-> | ->]]]]; cbn [traces]; intro E; injection E as <- <- <-;
  (split; [|split]); try (split; [lia|]); try lia; (eexists; split; [reflexivity|]);
  rn; unfold weighted; cbv -[Rplus Rmult Rminus Ropp Rdiv Rinv IZR]; try lra; try (field; lra).
Qed.


Lemma theta_abs (hi c : R) : c <= hi -> Rabs (hi - c) = hi - c.
Proof. intro H. apply Rabs_right. lra. Qed.
Lemma theta_abs' (lo c : R) : lo <= c -> Rabs (lo - c) = c - lo.
Proof. intro H. rewrite Rabs_minus_sym. apply Rabs_right. lra. Qed.
Lemma min3_below a b c x : Rmin (Rmin a c) b < x <-> a < x \/ b < x \/ c < x.
Proof. unfold Rmin. destruct (Rle_dec a c); match goal with |- context [Rle_dec ?p b] => destruct (Rle_dec p b) end; split; intro; try tauto; lra. Qed.

Lemma limited_traced space f k (u alpha : mat N) v i l r : (1 <= space <= 5)%Z ->
  (forall j, (-2 <= j <= 2)%Z -> u v (i + 3 + j)%Z = f (k + j)%Z) ->
  (forall j, (-1 <= j <= 1)%Z -> alpha v (i + 3 + j)%Z = marker f (k + j)%Z) ->
  limited N space u alpha v i = Some (l, r) -> traced space f k l r.
Proof.
  intros Hs Hu Ha. unfold limited. cbv zeta.
  pose proof (Hu (-2)%Z ltac:(lia)) as U1. pose proof (Hu (-1)%Z ltac:(lia)) as U2. pose proof (Hu 0%Z ltac:(lia)) as U3.
  pose proof (Hu 1%Z ltac:(lia)) as U4. pose proof (Hu 2%Z ltac:(lia)) as U5.
  pose proof (Ha (-1)%Z ltac:(lia)) as A1. pose proof (Ha 0%Z ltac:(lia)) as A2. pose proof (Ha 1%Z ltac:(lia)) as A3.
  replace (i + 3 + -2)%Z with (i + 1)%Z in U1 by lia. replace (i + 3 + -1)%Z with (i + 2)%Z in * by lia.
  replace (i + 3 + 0)%Z with (i + 3)%Z in * by lia. replace (i + 3 + 1)%Z with (i + 4)%Z in * by lia. replace (i + 3 + 2)%Z with (i + 5)%Z in U5 by lia.
  replace (k + -2)%Z with (k - 2)%Z in * by lia. replace (k + -1)%Z with (k - 1)%Z in * by lia. replace (k + 0)%Z with k in * by lia.
  rewrite U1, U2, U3, U4, U5, A1, A2, A3. clear U1 U2 U3 U4 U5 A1 A2 A3 Hu Ha.
  destruct (traces N space (f (k - 2)%Z) (f (k - 1)%Z) (f k) (f (k + 1)%Z) (f (k + 2)%Z)) as [[[p q] m]|] eqn:T; [|discriminate].
  apply traces_weights in T; [|exact Hs]. destruct T as (Tp & Tq & Tm).
  assert (W : match m with Some x => at_pos space P_c f k x | None => True end) by (destruct m; [apply Tm|exact I]).
  destruct (Z.ltb_spec 1 space) as [S1|S1]; intro E; injection E as <- <-.
  2:{ assert (space = 1)%Z by lia. subst space. exists p, q, p, 1.
      split; [exact Tp|]. split; [exact Tq|]. split; [reflexivity|]. split; [reflexivity|]. split; [congruence|]. rn. split; lra. }
  set (th := theta_of N _ _ _ _ _ _ _ _ _).
  exists p, q, (match m with Some x => x | None => p end), th.
  split; [exact Tp|]. split; [exact Tq|]. split; [destruct m as [x|]; destruct (Z.leb_spec space 2); try (exfalso; lia); auto|].
  assert (B : Rmin (Rmin (marker f (k - 1)%Z) (marker f (k + 1)%Z)) (marker f k) < 1 <-> ~ smooth_around f k).
  { eapply iff_trans; [apply min3_below|]. unfold smooth_around. pose proof (marker_is f (k - 1)%Z) as M1. pose proof (marker_is f k) as M2. pose proof (marker_is f (k + 1)%Z) as M3.
    split; [intros [A|[A|A]]; [apply M1 in A|apply M2 in A|apply M3 in A]; tauto|].
    intro A. destruct (Rlt_or_le (marker f (k - 1)%Z) 1) as [X|X]; [tauto|]. destruct (Rlt_or_le (marker f k) 1) as [Y|Y]; [tauto|].
    destruct (Rlt_or_le (marker f (k + 1)%Z) 1) as [Z|Z]; [tauto|]. exfalso.
    assert (D : forall x y : R, 1 <= x -> (x < 1 <-> ~ y = y) -> True) by auto.
    destruct (Rlt_or_le (marker f (k - 1)%Z) 1); [lra|].
    apply A. repeat split; apply Classical_Prop.NNPP; intro Q; [apply M1 in Q|apply M2 in Q|apply M3 in Q]; lra. }
  split; [|split; [|rn; split; lra]].
  - intros [Sm|Q]; [|lia]. unfold th, theta_of. cbv zeta. rn. destruct (Rltb _ 1) eqn:X; [|reflexivity]. rb. apply B in X. contradiction.
  - intros Sm _. unfold th, theta_of. cbv zeta. rn. destruct (Rltb _ 1) eqn:X; [|rb; apply B in Sm; lra]. clear X.
    unfold lit, hi3, lo3. rn.
    rewrite (theta_abs (Rmax (f (k - 1)%Z) (Rmax (f k) (f (k + 1)%Z)))) by (eapply Rle_trans; [apply Rmax_l|apply Rmax_r]).
    rewrite (theta_abs' (Rmin (f (k - 1)%Z) (Rmin (f k) (f (k + 1)%Z)))) by (eapply Rle_trans; [apply Rmin_r|apply Rmin_l]).
    replace (1 / 1000000000000000) with (/ 10 ^ 15) by (field_simplify; lra).
    destruct m as [x|]; [reflexivity|].
    rewrite (Rmax_right p (Rmax p q)) by apply Rmax_l. rewrite (Rmin_right p (Rmin p q)) by apply Rmin_l. reflexivity.
Qed.

(** limited values stay between the neighbours *)
Lemma theta_bound (M m c x b s th : R) : m <= c <= M -> x <= b -> s <= x ->
  th = Rmin 1 (Rmin ((M - c) / (Rabs (b - c) + / 10 ^ 15)) ((c - m) / (Rabs (s - c) + / 10 ^ 15))) ->
  m <= c + th * (x - c) <= M.
Proof.
  intros HM Hb Hsx E.
  assert (P : 0 < / 10 ^ 15) by (apply Rinv_0_lt_compat; lra).
  assert (P1 : 0 < Rabs (b - c) + / 10 ^ 15) by (pose proof (Rabs_pos (b - c)); lra).
  assert (P2 : 0 < Rabs (s - c) + / 10 ^ 15) by (pose proof (Rabs_pos (s - c)); lra).
  assert (T0 : 0 <= th).
  { rewrite E. repeat apply Rmin_glb; [lra| |]; apply Rmult_le_pos; try lra; left; apply Rinv_0_lt_compat; assumption. }
  assert (T1 : th * (Rabs (b - c) + / 10 ^ 15) <= M - c).
  { apply Rle_trans with ((M - c) / (Rabs (b - c) + / 10 ^ 15) * (Rabs (b - c) + / 10 ^ 15)).
    - apply Rmult_le_compat_r; [lra|]. rewrite E. eapply Rle_trans; [apply Rmin_r|apply Rmin_l].
    - right. field. lra. }
  assert (T2 : th * (Rabs (s - c) + / 10 ^ 15) <= c - m).
  { apply Rle_trans with ((c - m) / (Rabs (s - c) + / 10 ^ 15) * (Rabs (s - c) + / 10 ^ 15)).
    - apply Rmult_le_compat_r; [lra|]. rewrite E. eapply Rle_trans; [apply Rmin_r|apply Rmin_r].
    - right. field. lra. }
  assert (U1 : x - c <= Rabs (b - c)) by (pose proof (Rle_abs (b - c)); lra).
  assert (U2 : c - x <= Rabs (s - c)) by (pose proof (Rle_abs (c - s)); rewrite (Rabs_minus_sym c s) in *; lra).
  assert (V1 : th * (x - c) <= th * (Rabs (b - c) + / 10 ^ 15)) by (apply Rmult_le_compat_l; lra).
  assert (V2 : th * (c - x) <= th * (Rabs (s - c) + / 10 ^ 15)) by (apply Rmult_le_compat_l; lra).
  split; lra.
Qed.
Lemma traced_bounded space f k l r : ~ smooth_around f k -> space <> 1%Z -> traced space f k l r ->
  lo3 (f (k - 1)%Z) (f k) (f (k + 1)%Z) <= l <= hi3 (f (k - 1)%Z) (f k) (f (k + 1)%Z) /\
  lo3 (f (k - 1)%Z) (f k) (f (k + 1)%Z) <= r <= hi3 (f (k - 1)%Z) (f k) (f (k + 1)%Z).
Proof.
  intros Sm Hs (u & lo & m & th & _ & _ & _ & _ & T & -> & ->). specialize (T Sm Hs).
  assert (C : lo3 (f (k - 1)%Z) (f k) (f (k + 1)%Z) <= f k <= hi3 (f (k - 1)%Z) (f k) (f (k + 1)%Z)).
  { unfold lo3, hi3. split; [eapply Rle_trans; [apply Rmin_r|apply Rmin_l]|eapply Rle_trans; [apply Rmax_l|apply Rmax_r]]. }
  split; (eapply theta_bound; [exact C| | |exact T]); unfold hi3, lo3;
    try (eapply Rle_trans; [|apply Rmax_r]; first [apply Rmax_l|apply Rmax_r]);
    (eapply Rle_trans; [apply Rmin_r|]; first [apply Rmin_l|apply Rmin_r]).
Qed.

(** ** fluxes *)
Lemma gam_R : gam N = (7/5)%R.
Proof. unfold gam. rn. lra. Qed.
Lemma sound_R floor w : floor <= 7/5 * w 2%Z / w 0%Z \/ floor = 0 -> compute_sound_speed N (7/5) floor (as_cell w) = r_sound N w.
Proof.
  intro H. unfold compute_sound_speed, r_sound. rewrite gam_R. cbv zeta. change (as_cell w rE) with (w 2%Z). change (as_cell w rRho) with (w 0%Z). rn.
  destruct (Rltb floor _) eqn:E; [reflexivity|]. rb. destruct H as [H|H]; [f_equal; lra|]. subst. rewrite sqrt_0. symmetry. apply sqrt_neg_0. exact E.
Qed.
Lemma cons3 (w : Z -> R) v : (0 <= v <= 2)%Z -> compute_conservatives N (7/5) (as_cell w) (row_of v) = prim_to_cons N w v.
Proof.
  intro H. assert (C : (v = 0 \/ v = 1 \/ v = 2)%Z) by lia. unfold prim_to_cons, vec3. rewrite gam_R, nhalf_R.
  destruct C as [-> |[-> | ->]]; unfold compute_conservatives, row_of, is_vel, sum3, as_cell; rewrite ?nhalf_R; cbn; lra.
Qed.
Lemma flux3 (w : Z -> R) v : (0 <= v <= 2)%Z ->
  compute_fluxes N AX true (as_cell w) (compute_conservatives N (7/5) (as_cell w)) (row_of v) = prim_to_flux N w v.
Proof.
  intro H. assert (C : (v = 0 \/ v = 1 \/ v = 2)%Z) by lia. unfold prim_to_flux, vec3. rewrite gam_R, nhalf_R.
  destruct C as [-> |[-> | ->]]; unfold compute_fluxes, compute_conservatives, row_of, is_vel, sum3, as_cell, vrow; rewrite ?nhalf_R; cbn; field.
Qed.
Definition floor_below (floor : R) (w : Z -> R) : Prop := floor <= 7/5 * w 2%Z / w 0%Z \/ floor = 0.
Lemma llf3 floor (wl wr : Z -> R) v : (0 <= v <= 2)%Z -> floor_below floor wl -> floor_below floor wr ->
  riemann N RS_llf (7/5) floor AX (as_cell wl) (as_cell wr) (row_of v) = r_llf N wl wr v.
Proof.
  intros H L1 L2. cbn [riemann]. unfold llf, llf_smax, r_llf. cbv zeta. rewrite !flux3, !cons3, !sound_R by assumption. reflexivity.
Qed.
Lemma hllc3 floor (wl wr : Z -> R) v : (0 <= v <= 2)%Z -> floor_below floor wl -> floor_below floor wr ->
  riemann N RS_hllc (7/5) floor AX (as_cell wl) (as_cell wr) (row_of v) = r_hllc N wl wr v.
Proof.
  intros H L1 L2. cbn [riemann]. unfold hllc, hllc_compute. cbv zeta. rewrite !sound_R by assumption.
  pose proof (cons3 wl 2%Z ltac:(lia)) as Cl. pose proof (cons3 wr 2%Z ltac:(lia)) as Cr. cbn [row_of Z.eqb Pos.eqb] in Cl, Cr.
  change rE with 4%Z. rewrite !Cl, !Cr. cbn [q_r q_v q_P q_E].
  unfold r_hllc. cbv zeta. unfold r_sound.
  assert (C : (v = 0 \/ v = 1 \/ v = 2)%Z) by lia.
  destruct C as [-> |[-> | ->]]; unfold vec3, row_of, is_vel; cbn -[Rltb Rmult Rplus Rminus Rdiv sqrt Rmin Rmax prim_to_cons gam]; try reflexivity.
  apply Rmult_comm.
Qed.
