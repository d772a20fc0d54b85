(** The smooth-extrema detector over the reals. *)
From Coq Require Import ZArith QArith List Bool Lia Reals Lra Psatz.
From Verif Require Import Err Num PySlice NdArray HydroM FvM SedM LimitM SpecLim HydroP NdArrayP BcP OpP SedP SlopeP DetectP.
Import ListNotations.
Open Scope R_scope.

Lemma sed_dv_ne eps d : 0 < eps -> sed_dv RNum eps d <> 0.
Proof.
  intro He. unfold sed_dv, nhalf. rn.
  destruct (Rleb (Rabs (1 / 2 * d)) eps) eqn:E; [destruct (Rleb 0 (1 / 2 * d)) eqn:E2; lra|].
  rb. intro H. rewrite H, Rabs_R0 in E. lra.
Qed.
Lemma alphaL_range dv v : dv <> 0 -> 0 <= sed_alphaL RNum dv v <= 1.
Proof.
  intro Hd. unfold sed_alphaL. rn.
  set (a := - _ / dv). assert (A : 0 <= a).
  { unfold a, Rdiv. destruct (Rltb dv 0) eqn:E; rb.
    - assert (/ dv < 0) by (apply Rinv_lt_0_compat; exact E). destruct (Rltb 0 v) eqn:E1; rb; nra.
    - assert (0 < / dv) by (apply Rinv_0_lt_compat; lra). destruct (Rltb v 0) eqn:E1; rb; nra. }
  destruct (Rltb a 1) eqn:E; rb; lra.
Qed.
Lemma alphaR_nonneg eps dv v : dv <> 0 -> 0 <= sed_alphaR RNum eps dv v.
Proof.
  intro Hd. unfold sed_alphaR. rn. destruct (Rleb _ _); [lra|]. unfold Rdiv.
  destruct (Rltb 0 dv) eqn:E; rb.
  - assert (0 < / dv) by (apply Rinv_0_lt_compat; exact E). destruct (Rltb 0 v) eqn:E1; rb; nra.
  - assert (/ dv < 0) by (apply Rinv_lt_0_compat; lra). destruct (Rltb v 0) eqn:E1; rb; nra.
Qed.
Lemma sed_at_range eps g j : 0 < eps -> 0 <= sed_at RNum eps g j <= 1.
Proof.
  intro He. unfold sed_at. cbv zeta. set (dv := sed_dv RNum eps _). assert (Hd : dv <> 0) by (apply sed_dv_ne, He).
  set (x := sed_alphaL RNum dv _). set (y := sed_alphaR RNum eps dv _).
  assert (0 <= x <= 1) by (apply alphaL_range, Hd). assert (0 <= y) by (apply alphaR_nonneg, Hd).
  rn. destruct (Rltb y x) eqn:E; rb; unfold Rmin; destruct (Rle_dec _ _); lra.
Qed.
Lemma Rmin_range a b : 0 <= a <= 1 -> 0 <= b <= 1 -> 0 <= Rmin a b <= 1.
Proof. intros. unfold Rmin. destruct (Rle_dec a b); lra. Qed.
Lemma sed_line_range eps g j : 0 < eps -> 0 <= sed_line RNum eps g j <= 1.
Proof. intro He. unfold sed_line. rn. apply Rmin_range; [apply Rmin_range|]; apply sed_at_range; exact He. Qed.
Lemma sed_value_range ds eps u v i : 0 < eps -> 0 <= sed_value RNum ds eps u v i <= 1.
Proof.
  intro He. unfold sed_value. rn. pose proof (fun a => sed_line_range eps (along RNum a u v (inner ds i)) (getc a i) He).
  destruct ds as [|a [|b [|c l]]]; [apply Rmin_range; [apply Rmin_range|]|idtac|apply Rmin_range|apply Rmin_range; [apply Rmin_range|]]; apply H.
Qed.

Lemma sed_line_const eps (g : Z -> R) c j : sed_line RNum eps (fun k => g k + c) j = sed_line RNum eps g j.
Proof.
  assert (C : forall k, cd RNum (fun k => g k + c) k = cd RNum g k). { intro k. unfold cd, nhalf. rn. lra. }
  assert (C2 : forall k, cd RNum (cd RNum (fun k => g k + c)) k = cd RNum (cd RNum g) k). { intro k. unfold cd at 1 3. rewrite !C. reflexivity. }
  unfold sed_line, sed_at. cbv zeta. rewrite !C2, !C. reflexivity.
Qed.
Lemma sed_at_parabola eps (g : Z -> R) p b c j : 0 < eps -> (forall k, g k = p + b * IZR k + c * IZR k * IZR k) ->
  sed_at RNum eps g j = Rmin 1 (2 * Rabs c / eps).
Proof.
  intros He Hg.
  assert (D : forall k, cd RNum g k = b + c * (2 * IZR k + 2)). { intro k. unfold cd, nhalf. rn. rewrite !Hg, !plus_IZR. lra. }
  assert (D2 : cd RNum (cd RNum g) j = 2 * c). { unfold cd at 1. unfold nhalf. rn. rewrite !D, !plus_IZR. lra. }
  unfold sed_at. cbv zeta. rewrite D2, !D. rewrite !plus_IZR.
  change (@nsub RNum) with Rminus. set (vL := b + c * (2 * IZR j + 2) - _). set (vR := _ - (b + c * (2 * (IZR j + 1) + 2))).
  assert (EL : vL = - (2 * c)) by (unfold vL; rn; lra). assert (ER : vR = 2 * c) by (unfold vR; rn; lra). clearbody vL vR. subst vL vR.
  unfold sed_dv, nhalf. rn. replace (1 / 2 * (2 * c)) with c by lra.
  destruct (Rleb (Rabs c) eps) eqn:E; rb.
  - assert (H : forall s, Rabs s = eps -> sed_alphaR RNum eps s (2 * c) = 1).
    { intros s Hs. unfold sed_alphaR. rn. replace (Rleb (Rabs s) eps) with true; [reflexivity|]. symmetry. apply Rleb_true. lra. }
    assert (L : forall s, (0 <= c /\ s = eps) \/ (c < 0 /\ s = - eps) -> sed_alphaL RNum s (- (2 * c)) = Rmin 1 (2 * Rabs c / eps)).
    { intros s Hs. unfold sed_alphaL. rn. destruct Hs as [[E0 ->]|[E0 ->]].
      - replace (Rltb eps 0) with false by (symmetry; apply Rltb_false; lra). rewrite (Rabs_right c) by lra.
        destruct (Rltb (- (2 * c)) 0) eqn:E1; rb.
        + replace (- - (2 * c) / eps) with (2 * c / eps) by (field; lra). unfold Rmin. destruct (Rltb _ _) eqn:E2; rb; destruct (Rle_dec _ _); lra.
        + replace (- 0 / eps) with 0 by (field; lra). replace c with 0 by lra. replace (2 * 0 / eps) with 0 by (field; lra).
          replace (Rltb 0 1) with true by (symmetry; apply Rltb_true; lra). symmetry. apply Rmin_right. lra.
      - replace (Rltb (- eps) 0) with true by (symmetry; apply Rltb_true; lra). rewrite (Rabs_left c) by lra.
        replace (Rltb 0 (- (2 * c))) with true by (symmetry; apply Rltb_true; lra).
        replace (- - (2 * c) / - eps) with (2 * - c / eps) by (field; lra). unfold Rmin. destruct (Rltb _ _) eqn:E2; rb; destruct (Rle_dec _ _); lra. }
    assert (G : forall s, (0 <= c /\ s = eps) \/ (c < 0 /\ s = - eps) -> Rmin (sed_alphaL RNum s (- (2 * c))) (if Rltb (sed_alphaR RNum eps s (2 * c)) (sed_alphaL RNum s (- (2 * c))) then sed_alphaR RNum eps s (2 * c) else sed_alphaL RNum s (- (2 * c))) = Rmin 1 (2 * Rabs c / eps)).
    { intros s Hs. rewrite L by exact Hs. rewrite H by (destruct Hs as [[? ->]|[? ->]]; [apply Rabs_right; lra|rewrite Rabs_left by lra; lra]).
      assert (Rmin 1 (2 * Rabs c / eps) <= 1) by apply Rmin_l. replace (Rltb 1 _) with false by (symmetry; apply Rltb_false; assumption). apply Rmin_left. lra. }
    destruct (Rleb 0 c) eqn:E0; rb; apply G; [left|right]; auto.
  - assert (Q : 2 <= 2 * Rabs c / eps). { apply (Rmult_le_reg_r eps); [lra|]. replace (2 * Rabs c / eps * eps) with (2 * Rabs c) by (field; lra). lra. }
    rewrite (Rmin_left 1) by lra.
    assert (L : sed_alphaL RNum c (- (2 * c)) = 1).
    { unfold sed_alphaL. rn. destruct (Rltb c 0) eqn:E0; rb.
      - rewrite (Rabs_left c) in E by lra. replace (Rltb 0 (- (2 * c))) with true by (symmetry; apply Rltb_true; lra).
        replace (- - (2 * c) / c) with 2 by (field; lra). replace (Rltb 2 1) with false by (symmetry; apply Rltb_false; lra). reflexivity.
      - rewrite (Rabs_right c) in E by lra. replace (Rltb (- (2 * c)) 0) with true by (symmetry; apply Rltb_true; lra).
        replace (- - (2 * c) / c) with 2 by (field; lra). replace (Rltb 2 1) with false by (symmetry; apply Rltb_false; lra). reflexivity. }
    assert (R2 : sed_alphaR RNum eps c (2 * c) = 2).
    { unfold sed_alphaR. rn. replace (Rleb (Rabs c) eps) with false by (symmetry; apply Rleb_false; lra). destruct (Rltb 0 c) eqn:E0; rb.
      - replace (Rltb 0 (2 * c)) with true by (symmetry; apply Rltb_true; lra). field; lra.
      - rewrite (Rabs_left1 c) in E by lra. replace (Rltb (2 * c) 0) with true by (symmetry; apply Rltb_true; lra). field; lra. }
    rewrite L, R2. replace (Rltb 2 1) with false by (symmetry; apply Rltb_false; lra). apply Rmin_left. lra.
Qed.
Lemma sed_line_parabola eps (g : Z -> R) p b c j : 0 < eps -> (forall k, g k = p + b * IZR k + c * IZR k * IZR k) ->
  sed_line RNum eps g j = Rmin 1 (2 * Rabs c / eps).
Proof.
  intros He Hg. unfold sed_line. rewrite !(sed_at_parabola eps g p b c) by assumption. rn.
  unfold Rmin at 1 2. repeat destruct (Rle_dec _ _); reflexivity.
Qed.

(** ** the detector on arrays *)
Theorem sed_bounds ds eps u : sed_fits ds u -> 0 < eps -> exists alpha, sed RNum ds eps u = Ok alpha /\
  rows alpha = rows u /\ shp alpha = cropped ds (shp u) /\ forall v i, 0 <= at_ alpha v i <= 1.
Proof.
  intros (H1 & H2 & H3) He. destruct (sed_is RNum ds eps u H1 H2 H3) as (al & E & R & S & F). exists al. split; [exact E|]. split; [exact R|]. split; [exact S|].
  intros v i. rewrite F. apply sed_value_range, He.
Qed.
Theorem sed_constant ds eps (u : arr R) (c : Z -> R) : sed_fits ds u -> exists alpha beta,
  sed RNum ds eps u = Ok alpha /\ sed RNum ds eps (mkarr (rows u) (shp u) (fun v i => at_ u v i + c v)) = Ok beta /\
  forall v i, at_ beta v i = at_ alpha v i.
Proof.
  intros (H1 & H2 & H3). destruct (sed_is RNum ds eps u H1 H2 H3) as (al & E & R & S & F).
  destruct (sed_is RNum ds eps (mkarr (rows u) (shp u) (fun v i => at_ u v i + c v)) H1 H2 H3) as (be & E' & R' & S' & F').
  exists al, be. split; [exact E|]. split; [exact E'|]. intros v i. rewrite F, F'.
  assert (L : forall a j k, sed_line RNum eps (along RNum a (mkarr (rows u) (shp u) (fun v i => at_ u v i + c v)) v j) k = sed_line RNum eps (along RNum a u v j) k).
  { intros a j k. exact (sed_line_const eps (along RNum a u v j) (c v) k). }
  unfold sed_value. destruct ds as [|a [|b [|d l]]]; cbv zeta; rewrite !L; reflexivity.
Qed.
Lemma nodup_axes (a b c : axis) : NoDup [a; b; c] -> forall x, x = a \/ x = b \/ x = c.
Proof. intros ND x. inversion ND as [|? ? N1 N2]; subst. inversion N2 as [|? ? N3 N4]; subst. simpl in *. destruct a, b, c, x; tauto. Qed.
Theorem sed_parabola ds eps (u : arr R) (c : axis -> R) v : sed_fits ds u -> 0 < eps ->
  (forall a, mem_axis a ds = true -> parabolic a (c a) (at_ u v)) -> exists alpha, sed RNum ds eps u = Ok alpha /\
  (forall i, (forall a, mem_axis a ds = true -> eps <= 2 * Rabs (c a)) -> at_ alpha v i = 1) /\
  (forall i, (exists a, mem_axis a ds = true /\ c a = 0) -> at_ alpha v i = 0).
Proof.
  intros (H1 & H2 & H3) He HP. destruct (sed_is RNum ds eps u H1 H2 H3) as (al & E & R & S & F). exists al. split; [exact E|].
  assert (L : forall a i k, mem_axis a ds = true -> sed_line RNum eps (along RNum a u v i) k = Rmin 1 (2 * Rabs (c a) / eps)).
  { intros a i k Ha. destruct (HP a Ha i) as (p & b & Hg). apply (sed_line_parabola eps _ p b); assumption. }
  assert (M : forall a, In a ds -> mem_axis a ds = true).
  { intros a Ha. unfold mem_axis. apply existsb_exists. exists a. split; [exact Ha|apply axis_eqb_refl]. }
  assert (Q : forall i, greatest (fun a => mem_axis a ds = true) (fun a => - Rmin 1 (2 * Rabs (c a) / eps)) (- at_ al v i)).
  { intro i. rewrite F. unfold sed_value. destruct ds as [|a [|b [|d l]]].
    - congruence.
    - rewrite L by (apply M; simpl; auto). split; [|exists a; split; [apply M; simpl; auto|reflexivity]].
      intros j Hj. unfold mem_axis in Hj. simpl in Hj. rewrite orb_false_r in Hj. apply axis_eqb_eq in Hj. subst. lra.
    - rewrite !L by (apply M; simpl; auto). rn. split.
      + intros j Hj. unfold mem_axis in Hj. simpl in Hj. rewrite orb_false_r, orb_true_iff, !axis_eqb_eq in Hj.
        apply Ropp_le_contravar. destruct Hj as [->| ->]; [apply Rmin_l|apply Rmin_r].
      + unfold Rmin at 2. destruct (Rle_dec _ _); [exists a|exists b]; (split; [apply M; simpl; auto|reflexivity]).
    - assert (T : forall x, mem_axis x (a :: b :: d :: l) = true).
      { intro x. apply M. inversion H1 as [|? ? N1 N2]; subst. inversion N2 as [|? ? N3 N4]; subst. inversion N4 as [|? ? N5 N6]; subst. simpl in *. destruct a, b, d, x; tauto. }
      rewrite !L by apply T. rn. split.
      + intros j _. apply Ropp_le_contravar. destruct j; [eapply Rle_trans; [apply Rmin_l|apply Rmin_l]|eapply Rle_trans; [apply Rmin_l|apply Rmin_r]|apply Rmin_r].
      + set (X := Rmin 1 _). set (Y := Rmin 1 (2 * Rabs (c AY) / eps)). set (Z := Rmin 1 (2 * Rabs (c AZ) / eps)).
        assert (C : Rmin (Rmin X Y) Z = X \/ Rmin (Rmin X Y) Z = Y \/ Rmin (Rmin X Y) Z = Z) by (unfold Rmin; repeat destruct (Rle_dec _ _); auto).
        destruct C as [C|[C|C]]; rewrite C; [exists AX|exists AY|exists AZ]; (split; [apply T|reflexivity]). }
  split; intros i Hi; destruct (Q i) as [Q1 (a & Ha & Q2)].
  - rewrite Rmin_left in Q2; [lra|]. apply (Rmult_le_reg_r eps); [exact He|]. replace (2 * Rabs (c a) / eps * eps) with (2 * Rabs (c a)) by (field; lra).
    specialize (Hi a Ha). lra.
  - destruct Hi as (b & Hb & Hc). specialize (Q1 b Hb). cbn beta in Q1. rewrite Hc, Rabs_R0 in Q1. replace (2 * 0 / eps) with 0 in Q1 by (field; lra). rewrite Rmin_right in Q1 by lra.
    assert (0 <= Rmin 1 (2 * Rabs (c a) / eps)). { apply Rmin_glb; [lra|]. apply Rmult_le_pos; [pose proof (Rabs_pos (c a)); lra|apply Rlt_le, Rinv_0_lt_compat, He]. } lra.
Qed.

(** the score of mirrored data differs: a zero second difference is divided by +eps on the left,
    and taken as smooth on the right *)
Definition bump : arr Q := mkarr 1 (mkix 7 1 1) (fun _ i => match cx i with 3%Z => 2%Q | 6%Z => (-4)%Q | _ => 0%Q end).
Theorem sed_not_mirror : exists (u w : arr Q) alpha beta, shp u = mkix 7 1 1 /\ shp w = mkix 7 1 1 /\
  (forall v i, at_ w v i = at_ u v (mkix (6 - cx i) (cy i) (cz i))) /\
  sed QNum [AX] (Qmake 1 (10 ^ 10)) u = Ok alpha /\ sed QNum [AX] (Qmake 1 (10 ^ 10)) w = Ok beta /\
  shp alpha = mkix 1 1 1 /\ shp beta = mkix 1 1 1 /\
  at_ alpha 0%Z (mkix 0 0 0) = 1%Q /\ at_ beta 0%Z (mkix 0 0 0) = 0%Q.
Proof.
  set (w := mkarr 1 (mkix 7 1 1) (fun v i => at_ bump v (mkix (6 - cx i) (cy i) (cz i)))).
  exists bump, w. destruct (sed_is QNum [AX] (Qmake 1 (10 ^ 10)) bump) as (al & E & R & S & F).
  { repeat constructor. intros []. } { discriminate. } { intros [] M; try discriminate M; vm_compute; discriminate. }
  destruct (sed_is QNum [AX] (Qmake 1 (10 ^ 10)) w) as (be & E' & R' & S' & F').
  { repeat constructor. intros []. } { discriminate. } { intros [] M; try discriminate M; vm_compute; discriminate. }
  exists al, be. split; [reflexivity|]. split; [reflexivity|]. split; [reflexivity|]. split; [exact E|]. split; [exact E'|].
  split; [exact S|]. split; [exact S'|]. rewrite F, F'. split; vm_compute; reflexivity.
Qed.
