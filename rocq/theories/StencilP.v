(** Exactness of the stencils on polynomials. *)
From Coq Require Import ZArith List Reals Lra Lia.
From Verif Require Import Err Num PySlice NdArray NdArrayP HydroM HydroP StencilsM FvM FvP SpecPoly PolyP.
Import ListNotations.
Local Open Scope R_scope.

Lemma peval_pad c k x : peval (c ++ repeat 0 k) x = peval c x.
Proof.
  induction c as [|a c IH]; simpl; [|rewrite IH; reflexivity].
  induction k as [|k IHk]; simpl in *; [lra|rewrite IHk; lra].
Qed.
Lemma pint_pad c k x : forall n, peval (pint_from n (c ++ repeat 0 k)) x = peval (pint_from n c) x.
Proof.
  induction c as [|a c IH]; intro n; cbn [app pint_from peval]; [|rewrite IH; reflexivity].
  revert n. induction k as [|k IHk]; intro n; cbn [repeat pint_from peval]; [lra|]. rewrite IHk. unfold Rdiv. lra.
Qed.
Lemma uavg_pad c k x : uavg (c ++ repeat 0 k) x = uavg c x.
Proof. unfold uavg, panti. rewrite !pint_pad. reflexivity. Qed.

Lemma length_list {A} n (l : list A) : length l = S n -> exists a l', l = a :: l' /\ length l' = n.
Proof. destruct l; simpl; intro H; [discriminate|]. injection H as H. eauto. Qed.

Ltac explode H :=
  repeat (let a := fresh "a" in let l := fresh "l" in let E := fresh in
          apply length_list in H; destruct H as (a & l & E & H); subst).

Ltac degs Hc :=
  match type of Hc with length ?c = _ =>
  (change (length c = 1%nat) in Hc || change (length c = 2%nat) in Hc || change (length c = 3%nat) in Hc ||
   change (length c = 4%nat) in Hc || change (length c = 5%nat) in Hc || change (length c = 6%nat) in Hc ||
   change (length c = 7%nat) in Hc || change (length c = 8%nat) in Hc || change (length c = 9%nat) in Hc)
  end.
Ltac crunch :=
  unfold uavg, panti; cbn -[Rplus Rminus Rmult Rdiv Rinv Ropp IZR]; rn;
  unfold fr; cbn -[Rplus Rminus Rmult Rdiv Rinv Ropp IZR]; rn; cbn [INR]; lra.

Lemma interp_exact_full p pos c :
  deg_ok p -> lr_pos pos -> length c = S (Z.to_nat p) ->
  wsum RNum (wts_i RNum p pos) (fun k => uavg c (IZR (k - stencil_right p))) = peval c (offset pos).
Proof.
  intros Hp Hpos Hc.
  destruct (deg_cases _ Hp) as [->|[->|[->|[->|[->|[->|[->|[->| ->]]]]]]]];
  degs Hc;
  explode Hc; apply length_zero_iff_nil in Hc; subst;
  destruct Hpos as [->|[->| ->]].
  all: crunch.
Qed.

Lemma interp_exact p pos c :
  deg_ok p -> lr_pos pos -> (length c <= S (Z.to_nat p))%nat ->
  wsum RNum (wts_i RNum p pos) (fun k => uavg c (IZR (k - stencil_right p))) = peval c (offset pos).
Proof.
  intros Hp Hpos Hc. rewrite <- (peval_pad c (S (Z.to_nat p) - length c)).
  rewrite <- (interp_exact_full p pos) by (auto; rewrite app_length, repeat_length; lia).
  apply wsum_ext. intros. rewrite uavg_pad. reflexivity.
Qed.

Lemma recon_exact_full p c :
  deg_ok p -> length c = S (Z.to_nat p) ->
  wsum RNum (wts_t RNum p) (fun k => peval c (IZR (k - stencil_right p))) = uavg c 0.
Proof.
  intros Hp Hc.
  destruct (deg_cases _ Hp) as [->|[->|[->|[->|[->|[->|[->|[->| ->]]]]]]]];
  degs Hc; explode Hc; apply length_zero_iff_nil in Hc; subst.
  all: crunch.
Qed.
Lemma recon_exact p c :
  deg_ok p -> (length c <= S (Z.to_nat p))%nat ->
  wsum RNum (wts_t RNum p) (fun k => peval c (IZR (k - stencil_right p))) = uavg c 0.
Proof.
  intros Hp Hc. rewrite <- (uavg_pad c (S (Z.to_nat p) - length c)).
  rewrite <- (recon_exact_full p) by (auto; rewrite app_length, repeat_length; lia).
  apply wsum_ext. intros. rewrite peval_pad. reflexivity.
Qed.

(** ** one line of cells; cell k of the line is centred at x0 + k h *)
Lemma sweep_interp p pos (f : R -> R) (g : Z -> R) x0 h m :
  deg_ok p -> lr_pos pos -> is_poly (Z.to_nat p) f -> h <> 0 ->
  (forall k, (m <= k <= m + 2 * stencil_right p)%Z -> g k = average f (x0 + IZR k * h) h) ->
  wsum RNum (wts_i RNum p pos) (fun k => g (m + k)%Z)
  = f (x0 + (IZR (m + stencil_right p) + offset pos) * h).
Proof.
  intros Hp Hpos (c & Hc & Ec) Hh Hg.
  set (X := x0 + IZR (m + stencil_right p) * h).
  rewrite (wsum_ext RNum _ _ (fun k => uavg (pcomp X h c) (IZR (k - stencil_right p)))).
  - rewrite interp_exact; auto; [|eapply Nat.le_trans; [apply pcomp_len|exact Hc]].
    rewrite pcomp_eval, Ec. f_equal. unfold X. ring.
  - intros k Hk. destruct (interpolation_weights_ok RNum p pos Hp Hpos) as [_ L]. rewrite L in Hk.
    rewrite Hg by lia. rewrite <- average_poly by auto.
    rewrite (average_ext f (peval c)) by auto. eqR. f_equal. unfold X.
    rewrite !plus_IZR, minus_IZR. ring.
Qed.
Lemma sweep_recon p (f : R -> R) (g : Z -> R) x0 h m :
  deg_ok p -> is_poly (Z.to_nat p) f -> h <> 0 ->
  (forall k, (m <= k <= m + 2 * stencil_right p)%Z -> g k = f (x0 + IZR k * h)) ->
  wsum RNum (wts_t RNum p) (fun k => g (m + k)%Z)
  = average f (x0 + IZR (m + stencil_right p) * h) h.
Proof.
  intros Hp (c & Hc & Ec) Hh Hg.
  set (X := x0 + IZR (m + stencil_right p) * h).
  rewrite (wsum_ext RNum _ _ (fun k => peval (pcomp X h c) (IZR (k - stencil_right p)))).
  - rewrite recon_exact; auto; [|eapply Nat.le_trans; [apply pcomp_len|exact Hc]].
    rewrite <- average_poly by auto. rewrite Rmult_0_r, Rplus_0_r.
    apply average_ext. intro. symmetry. apply Ec.
  - intros k Hk. destruct (transverse_weights_ok RNum p Hp) as [_ L]. rewrite L in Hk.
    rewrite Hg by lia. rewrite pcomp_eval, Ec. eqR. f_equal. unfold X.
    rewrite !plus_IZR, minus_IZR. ring.
Qed.

(** ** the arrays *)
Lemma interpolation_exact p a pos (u : arr R) :
  deg_ok p -> lr_pos pos -> (2 * stencil_right p <= getc a (shp u))%Z ->
  exists out, conservative_interpolation RNum p a pos u = Ok out /\
    rows out = rows u /\ shp out = setc a (getc a (shp u) - 2 * stencil_right p)%Z (shp u) /\
    forall v i (f : R -> R) x0 h, is_poly (Z.to_nat p) f -> h <> 0 ->
      (forall k, (getc a i <= k <= getc a i + 2 * stencil_right p)%Z ->
         at_ u v (setc a k i) = average f (x0 + IZR k * h) h) ->
      at_ out v i = f (x0 + (IZR (getc a i + stencil_right p) + offset pos) * h).
Proof.
  intros Hp Hpos Hn.
  destruct (conservative_interpolation_is RNum p a pos u Hp Hpos Hn) as (out & E & R & S & F).
  exists out. repeat split; auto. intros v i f x0 h Pf Hh Hu.
  rewrite F. unfold psweep.
  apply (sweep_interp p pos f (fun k => at_ u v (setc a k i)) x0 h (getc a i)); auto.
Qed.
Lemma reconstruction_exact p a (u : arr R) :
  deg_ok p -> (2 * stencil_right p <= getc a (shp u))%Z ->
  exists out, transverse_reconstruction RNum p a u = Ok out /\
    rows out = rows u /\ shp out = setc a (getc a (shp u) - 2 * stencil_right p)%Z (shp u) /\
    forall v i (f : R -> R) x0 h, is_poly (Z.to_nat p) f -> h <> 0 ->
      (forall k, (getc a i <= k <= getc a i + 2 * stencil_right p)%Z ->
         at_ u v (setc a k i) = f (x0 + IZR k * h)) ->
      at_ out v i = average f (x0 + IZR (getc a i + stencil_right p) * h) h.
Proof.
  intros Hp Hn.
  destruct (transverse_reconstruction_is RNum p a u Hp Hn) as (out & E & R & S & F).
  exists out. repeat split; auto. intros v i f x0 h Pf Hh Hu.
  rewrite F. unfold psweep.
  apply (sweep_recon p f (fun k => at_ u v (setc a k i)) x0 h (getc a i)); auto.
Qed.

(** ** three dimensions *)
Section Three.
Context (p : ix) (Hp : forall a, deg_ok (getc a p)).
Context (l : list mono) (Dl : degree3 (Z.to_nat (cx p)) (Z.to_nat (cy p)) (Z.to_nat (cz p)) l).
Context (x0 y0 z0 hx hy hz : R) (Hhx : hx <> 0) (Hhy : hy <> 0) (Hhz : hz <> 0).
Local Notation rg a := (stencil_right (getc a p)).
Let X (k : Z) := x0 + IZR k * hx.
Let Y (k : Z) := y0 + IZR k * hy.
Let W (k : Z) := z0 + IZR k * hz.

Lemma rg_nonneg a : (0 <= rg a)%Z.
Proof. apply stencil_right_nonneg. specialize (Hp a). unfold deg_ok in Hp. lia. Qed.

Lemma poly_x_avg y z : is_poly (Z.to_nat (cx p))
  (fun x => average (fun y' => average (fun z' => peval3 l x y' z') z hz) y hy).
Proof.
  apply (is_poly_ext _ (fun x => peval3 (map (avg_y y hy) (map (avg_z z hz) l)) x 0 0)).
  - intro x. rewrite <- average_y with (y := y) (h := hy).
    apply average_ext. intro y'. symmetry. apply average_z.
  - eapply poly3_x. eapply degree3_avg_y. eapply degree3_avg_z. exact Dl.
Qed.
Lemma poly_y_avg x z : is_poly (Z.to_nat (cy p)) (fun y => average (fun z' => peval3 l x y z') z hz).
Proof.
  apply (is_poly_ext _ (fun y => peval3 (map (avg_z z hz) l) x y 0)).
  - intro y. symmetry. apply average_z.
  - eapply poly3_y. eapply degree3_avg_z. exact Dl.
Qed.
Lemma poly_y_avgx x z : is_poly (Z.to_nat (cy p)) (fun y => average (fun x' => peval3 l x' y z) x hx).
Proof.
  apply (is_poly_ext _ (fun y => peval3 (map (avg_x x hx) l) 0 y z)).
  - intro y. symmetry. apply average_x.
  - eapply poly3_y. eapply degree3_avg_x. exact Dl.
Qed.
Lemma poly_z_avgxy x y : is_poly (Z.to_nat (cz p))
  (fun z => average (fun x' => average (fun y' => peval3 l x' y' z) y hy) x hx).
Proof.
  apply (is_poly_ext _ (fun z => peval3 (map (avg_x x hx) (map (avg_y y hy) l)) 0 0 z)).
  - intro z. rewrite <- average_x with (x := x) (h := hx).
    apply average_ext. intro x'. symmetry. apply average_y.
  - eapply poly3_z. eapply degree3_avg_x. eapply degree3_avg_y. exact Dl.
Qed.
(** order of integration is immaterial for polynomials *)
Lemma average_swap x y z :
  average (fun y' => average (fun x' => peval3 l x' y' z) x hx) y hy
  = average (fun x' => average (fun y' => peval3 l x' y' z) y hy) x hx.
Proof.
  rewrite (average_ext _ (fun y' => peval3 (map (avg_x x hx) l) 0 y' z)) by (intro; apply average_x).
  rewrite (average_y _ 0 y z hy 0).
  rewrite (average_ext _ (fun x' => peval3 (map (avg_y y hy) l) x' 0 z)) by (intro; apply average_y).
  rewrite (average_x _ x 0 z hx 0). clear.
  induction l as [|[k [[a b] c]] l' IH]; cbn [map avg_x avg_y peval3 tval]; [reflexivity|].
  rewrite IH. f_equal. cbn [pow]. ring.
Qed.
Lemma average3_alt x y z :
  average (fun z' => average (fun x' => average (fun y' => peval3 l x' y' z') y hy) x hx) z hz
  = average3 (peval3 l) x y z hx hy hz.
Proof.
  unfold average3.
  rewrite (average_ext _ (fun z' => peval3 (map (avg_x x hx) (map (avg_y y hy) l)) 0 0 z')).
  2:{ intro z'. rewrite <- average_x with (x := x) (h := hx). apply average_ext. intro. apply average_y. }
  rewrite (average_z _ 0 0 z hz 0).
  rewrite (average_ext _ (fun x' => peval3 (map (avg_y y hy) (map (avg_z z hz) l)) x' 0 0)).
  2:{ intro x'. rewrite <- average_y with (y := y) (h := hy). apply average_ext. intro. apply average_z. }
  rewrite (average_x _ x 0 0 hx 0). clear.
  induction l as [|[k [[a b] c]] l' IH]; cbn [map avg_x avg_y avg_z peval3 tval]; [reflexivity|].
  rewrite IH. f_equal. cbn [pow]. ring.
Qed.

Definition shrink (s : ix) : ix :=
  mkix (cx s - 2 * rg AX) (cy s - 2 * rg AY) (cz s - 2 * rg AZ).

Lemma cell_centers_exact (u : arr R) v :
  (forall a, (2 * rg a <= getc a (shp u))%Z) ->
  (forall i, in_shape (shp u) i ->
     at_ u v i = average3 (peval3 l) (X (cx i)) (Y (cy i)) (W (cz i)) hx hy hz) ->
  exists out, interpolate_cell_centers RNum p u = Ok out /\ rows out = rows u /\
    shp out = shrink (shp u) /\
    forall i, in_shape (shrink (shp u)) i ->
      at_ out v i = peval3 l (X (cx i + rg AX)) (Y (cy i + rg AY)) (W (cz i + rg AZ)).
Proof.
  intros Hn Hu. unfold interpolate_cell_centers.
  pose proof (rg_nonneg AX) as NX. pose proof (rg_nonneg AY) as NY. pose proof (rg_nonneg AZ) as NZ.
  destruct (interpolation_exact (cx p) AX P_c u (Hp AX) ltac:(right; left; auto) (Hn AX))
    as (o1 & E1 & R1 & S1 & F1). cbn [getc setc] in *.
  rewrite E1. cbn [bind].
  assert (N1 : (2 * rg AY <= getc AY (shp o1))%Z) by (rewrite S1; exact (Hn AY)).
  destruct (interpolation_exact (cy p) AY P_c o1 (Hp AY) ltac:(right; left; auto) N1)
    as (o2 & E2 & R2 & S2 & F2). cbn [car RNum] in *.
  rewrite E2. cbn [bind].
  assert (N2 : (2 * rg AZ <= getc AZ (shp o2))%Z) by (rewrite S2, S1; exact (Hn AZ)).
  destruct (interpolation_exact (cz p) AZ P_c o2 (Hp AZ) ltac:(right; left; auto) N2)
    as (o3 & E3 & R3 & S3 & F3). cbn [car RNum] in *.
  exists o3. split; [exact E3|]. split; [congruence|].
  split; [rewrite S3, S2, S1; reflexivity|].
  cbn [getc setc] in *.
  intros i Hi. pose proof (Hi AX) as IX. pose proof (Hi AY) as IY. pose proof (Hi AZ) as IZ'.
  unfold shrink in IX, IY, IZ'. cbn [getc cx cy cz] in IX, IY, IZ'.
  erewrite (F3 v i (fun z => peval3 l (X (cx i + rg AX)) (Y (cy i + rg AY)) z) z0 hz);
    [| eapply poly3_z; exact Dl | exact Hhz |].
  { cbn [getc offset]. rewrite Rplus_0_r. reflexivity. }
  intros k Hk.
  erewrite (F2 v _ (fun y => average (fun z' => peval3 l (X (cx i + rg AX)) y z') (W k) hz) y0 hy);
    [| apply poly_y_avg | exact Hhy |].
  { cbn [getc offset setc cx cy cz]. rewrite Rplus_0_r. reflexivity. }
  intros j Hj. cbn [getc setc cx cy cz] in *.
  erewrite (F1 v _ (fun x => average (fun y' => average (fun z' => peval3 l x y' z') (W k) hz) (Y j) hy) x0 hx);
    [| apply poly_x_avg | exact Hhx |].
  { cbn [getc offset setc cx cy cz]. rewrite Rplus_0_r. reflexivity. }
  intros m Hm. cbn [getc setc cx cy cz] in *.
  apply (Hu (mkix m j k)). intros [| |]; cbn [getc cx cy cz]; lia.
Qed.

Lemma fv_averages_exact (u : arr R) v :
  (forall a, (2 * rg a <= getc a (shp u))%Z) ->
  (forall i, in_shape (shp u) i -> at_ u v i = peval3 l (X (cx i)) (Y (cy i)) (W (cz i))) ->
  exists out, interpolate_fv_averages RNum p u = Ok out /\ rows out = rows u /\
    shp out = shrink (shp u) /\
    forall i, in_shape (shrink (shp u)) i ->
      at_ out v i = average3 (peval3 l) (X (cx i + rg AX)) (Y (cy i + rg AY)) (W (cz i + rg AZ)) hx hy hz.
Proof.
  intros Hn Hu. unfold interpolate_fv_averages.
  pose proof (rg_nonneg AX) as NX. pose proof (rg_nonneg AY) as NY. pose proof (rg_nonneg AZ) as NZ.
  destruct (reconstruction_exact (cx p) AX u (Hp AX) (Hn AX))
    as (o1 & E1 & R1 & S1 & F1). cbn [getc setc] in *.
  rewrite E1. cbn [bind].
  assert (N1 : (2 * rg AY <= getc AY (shp o1))%Z) by (rewrite S1; exact (Hn AY)).
  destruct (reconstruction_exact (cy p) AY o1 (Hp AY) N1)
    as (o2 & E2 & R2 & S2 & F2). cbn [car RNum] in *.
  rewrite E2. cbn [bind].
  assert (N2 : (2 * rg AZ <= getc AZ (shp o2))%Z) by (rewrite S2, S1; exact (Hn AZ)).
  destruct (reconstruction_exact (cz p) AZ o2 (Hp AZ) N2)
    as (o3 & E3 & R3 & S3 & F3). cbn [car RNum] in *.
  exists o3. split; [exact E3|]. split; [congruence|].
  split; [rewrite S3, S2, S1; reflexivity|].
  cbn [getc setc] in *.
  intros i Hi. pose proof (Hi AX) as IX. pose proof (Hi AY) as IY. pose proof (Hi AZ) as IZ'.
  unfold shrink in IX, IY, IZ'. cbn [getc cx cy cz] in IX, IY, IZ'.
  rewrite <- average3_alt.
  erewrite (F3 v i (fun z => average (fun x' => average (fun y' => peval3 l x' y' z)
      (Y (cy i + rg AY)) hy) (X (cx i + rg AX)) hx) z0 hz);
    [| apply poly_z_avgxy | exact Hhz |].
  { reflexivity. }
  intros k Hk. rewrite <- average_swap.
  erewrite (F2 v _ (fun y => average (fun x' => peval3 l x' y (W k)) (X (cx i + rg AX)) hx) y0 hy);
    [| apply poly_y_avgx | exact Hhy |].
  { reflexivity. }
  intros j Hj. cbn [getc setc cx cy cz] in *.
  erewrite (F1 v _ (fun x => peval3 l x (Y j) (W k)) x0 hx);
    [| eapply poly3_x; exact Dl | exact Hhx |].
  { reflexivity. }
  intros m Hm. cbn [getc setc cx cy cz] in *.
  apply (Hu (mkix m j k)). intros [| |]; cbn [getc cx cy cz]; lia.
Qed.
End Three.

Lemma there_and_back p l x0 y0 z0 hx hy hz (u : arr R) v :
  (forall a, deg_ok (getc a p)) ->
  degree3 (Z.to_nat (cx p)) (Z.to_nat (cy p)) (Z.to_nat (cz p)) l ->
  hx <> 0 -> hy <> 0 -> hz <> 0 ->
  (forall a, (4 * stencil_right (getc a p) <= getc a (shp u))%Z) ->
  (forall i, in_shape (shp u) i ->
     at_ u v i = average3 (peval3 l) (x0 + IZR (cx i) * hx) (y0 + IZR (cy i) * hy)
                   (z0 + IZR (cz i) * hz) hx hy hz) ->
  exists mid out, interpolate_cell_centers RNum p u = Ok mid /\
    interpolate_fv_averages RNum p mid = Ok out /\
    rows out = rows u /\ shp out = shrink p (shrink p (shp u)) /\
    forall i, in_shape (shp out) i ->
      at_ out v i = at_ u v (mkix (cx i + 2 * stencil_right (cx p)) (cy i + 2 * stencil_right (cy p))
                                  (cz i + 2 * stencil_right (cz p))).
Proof.
  intros Hp Dl Hx Hy Hz Hn Hu.
  assert (NN : forall a, (0 <= stencil_right (getc a p))%Z) by (intro; apply rg_nonneg; auto).
  destruct (cell_centers_exact p Hp l Dl x0 y0 z0 hx hy hz Hx Hy Hz u v) as (m & E1 & R1 & S1 & F1); auto.
  { intro a. specialize (Hn a). specialize (NN a). lia. }
  set (rx := stencil_right (cx p)) in *. set (ry := stencil_right (cy p)) in *. set (rz := stencil_right (cz p)) in *.
  destruct (fv_averages_exact p Hp l Dl (x0 + IZR rx * hx) (y0 + IZR ry * hy) (z0 + IZR rz * hz)
              hx hy hz Hx Hy Hz m v) as (o & E2 & R2 & S2 & F2); auto.
  { intro a. cbn [car RNum] in *. rewrite S1. specialize (Hn a). specialize (NN a). unfold shrink.
    destruct a; cbn [getc cx cy cz] in *; lia. }
  { intros i Hi. cbn [car RNum] in *. rewrite S1 in Hi. rewrite (F1 i Hi). cbn [getc]. fold rx ry rz.
    rewrite !plus_IZR. f_equal; ring. }
  cbn [car RNum] in *. exists m, o. split; [exact E1|]. split; [exact E2|]. split; [congruence|].
  rewrite S2, S1. split; [reflexivity|].
  intros i Hi. rewrite F2 by (rewrite S1; exact Hi).
  rewrite Hu.
  - cbn [cx cy cz getc]. fold rx ry rz. rewrite !plus_IZR, !mult_IZR. f_equal; ring.
  - intro a. specialize (Hi a). specialize (NN a). specialize (Hn a). unfold shrink in Hi.
    destruct a; cbn [getc cx cy cz] in *; fold rx in Hi, Hn, NN; fold ry in Hi, Hn, NN; fold rz in Hi, Hn, NN; fold rx; fold ry; fold rz; lia.
Qed.

(** ** value of a sweep, generic arithmetic *)
Section Value.
Context (N : Num).
Local Notation K := (car N).
Lemma wsum_fold (ws : list K) (g : Z -> K) :
  wsum N ws g = fold_left (fun acc wj => nadd acc (nmul (fst wj) (g (snd wj))))
                  (combine ws (zrange (Z.of_nat (length ws)))) (nofZ 0).
Proof.
  unfold wsum, zrange. rewrite Nat2Z.id.
  assert (H : forall j acc, wsum_from N ws (Z.of_nat j) g acc
     = fold_left (fun acc wj => nadd acc (nmul (fst wj) (g (snd wj))))
         (combine ws (map Z.of_nat (seq j (length ws)))) acc).
  { induction ws as [|w ws IH]; intros j acc; simpl; auto.
    rewrite <- IH. f_equal. lia. }
  apply (H 0%nat).
Qed.
Lemma stencil_total_right p : (0 <= p)%Z -> (2 * stencil_right p + 1 = stencil_total p)%Z.
Proof. intros. unfold stencil_right, stencil_total. lia. Qed.
Lemma sweep_value p a pos (u : arr K) :
  (0 <= p <= 8)%Z -> In pos [P_l; P_c; P_r] ->
  (stencil_total p - 1 <= getc a (shp u))%Z ->
  exists ws out,
    interpolation_weights N p pos = Ok ws /\ Z.of_nat (length ws) = stencil_total p /\
    conservative_interpolation N p a pos u = Ok out /\
    rows out = rows u /\ shp out = setc a (getc a (shp u) - (stencil_total p - 1))%Z (shp u) /\
    forall v i, at_ out v i =
      fold_left (fun acc wj => nadd acc (nmul (fst wj) (at_ u v (setc a (getc a i + snd wj)%Z i))))
        (combine ws (zrange (stencil_total p))) (nofZ 0).
Proof.
  intros Hp Hpos Hn.
  assert (Hpos' : lr_pos pos) by (simpl in Hpos; unfold lr_pos; intuition congruence).
  pose proof (stencil_total_right p ltac:(lia)) as T.
  destruct (conservative_interpolation_is N p a pos u Hp Hpos') as (out & E & R & S & F); [lia|].
  destruct (interpolation_weights_ok N p pos Hp Hpos') as [W L].
  exists (wts_i N p pos), out. repeat split; auto; try lia.
  - rewrite S. f_equal. lia.
  - intros. rewrite F. unfold psweep. rewrite wsum_fold, L, T. reflexivity.
Qed.
Lemma sweep_value_t p a (u : arr K) :
  (0 <= p <= 8)%Z -> (stencil_total p - 1 <= getc a (shp u))%Z ->
  exists ws out,
    transverse_weights N p = Ok ws /\ Z.of_nat (length ws) = stencil_total p /\
    transverse_reconstruction N p a u = Ok out /\
    rows out = rows u /\ shp out = setc a (getc a (shp u) - (stencil_total p - 1))%Z (shp u) /\
    forall v i, at_ out v i =
      fold_left (fun acc wj => nadd acc (nmul (fst wj) (at_ u v (setc a (getc a i + snd wj)%Z i))))
        (combine ws (zrange (stencil_total p))) (nofZ 0).
Proof.
  intros Hp Hn. pose proof (stencil_total_right p ltac:(lia)) as T.
  destruct (transverse_reconstruction_is N p a u Hp) as (out & E & R & S & F); [lia|].
  destruct (transverse_weights_ok N p Hp) as [W L].
  exists (wts_t N p), out. repeat split; auto; try lia.
  - rewrite S. f_equal. lia.
  - intros. rewrite F. unfold psweep. rewrite wsum_fold, L, T. reflexivity.
Qed.
Lemma sweep_errors p a (u : arr K) :
  (~ (0 <= p <= 8)%Z -> (forall pos, In pos [P_l; P_c; P_r] ->
     conservative_interpolation N p a pos u = Err NotImplementedError) /\
     transverse_reconstruction N p a u = Err NotImplementedError) /\
  conservative_interpolation N p a P_invalid u = Err ValueError /\
  ((1 <= p <= 8)%Z -> conservative_interpolation N p a P_other_substring u = Err UnboundLocalError).
Proof.
  split; [|split].
  - intro H. split.
    + intros pos Hpos. unfold conservative_interpolation.
      rewrite interpolation_weights_bad; [reflexivity|exact H|].
      simpl in Hpos; unfold lr_pos; intuition congruence.
    + unfold transverse_reconstruction.
      assert (E : transverse_weights N p = Err NotImplementedError); [|rewrite E; reflexivity].
      destruct p as [|q|q]; try lia; try reflexivity;
      do 4 (destruct q as [q|q|]; try reflexivity; try lia).
  - reflexivity.
  - intro H. unfold conservative_interpolation.
    assert (D : (p = 1 \/ p = 2 \/ p = 3 \/ p = 4 \/ p = 5 \/ p = 6 \/ p = 7 \/ p = 8)%Z) by lia.
    destruct D as [->|[->|[->|[->|[->|[->|[->| ->]]]]]]]; reflexivity.
Qed.
End Value.

(** ** restatements *)
Lemma shrink_getc p s a : getc a (shrink p s) = (getc a s - 2 * stencil_right (getc a p))%Z.
Proof. destruct a; reflexivity. Qed.
Lemma cell_centers_exact' : forall p l x0 y0 z0 hx hy hz (u : arr R) v,
  (forall a, (0 <= getc a p <= 8)%Z) ->
  degree3 (Z.to_nat (cx p)) (Z.to_nat (cy p)) (Z.to_nat (cz p)) l ->
  hx <> 0 -> hy <> 0 -> hz <> 0 ->
  (forall a, (2 * stencil_right (getc a p) <= getc a (shp u))%Z) ->
  (forall i, in_shape (shp u) i ->
     at_ u v i = average3 (peval3 l) (x0 + IZR (cx i) * hx) (y0 + IZR (cy i) * hy)
                   (z0 + IZR (cz i) * hz) hx hy hz) ->
  exists out, interpolate_cell_centers RNum p u = Ok out /\ rows out = rows u /\
    (forall a, getc a (shp out) = getc a (shp u) - 2 * stencil_right (getc a p))%Z /\
    forall i, in_shape (shp out) i ->
      at_ out v i = peval3 l (x0 + IZR (cx i + stencil_right (cx p)) * hx)
                             (y0 + IZR (cy i + stencil_right (cy p)) * hy)
                             (z0 + IZR (cz i + stencil_right (cz p)) * hz).
Proof.
  intros p l x0 y0 z0 hx hy hz u v Hp Dl Hx Hy Hz Hn Hu.
  destruct (cell_centers_exact p Hp l Dl x0 y0 z0 hx hy hz Hx Hy Hz u v Hn Hu) as (o & E & R & S & F).
  exists o. cbn [car RNum] in *. split; [exact E|]. split; [exact R|]. rewrite S.
  split; [intro; apply shrink_getc|exact F].
Qed.
Lemma fv_averages_exact' : forall p l x0 y0 z0 hx hy hz (u : arr R) v,
  (forall a, (0 <= getc a p <= 8)%Z) ->
  degree3 (Z.to_nat (cx p)) (Z.to_nat (cy p)) (Z.to_nat (cz p)) l ->
  hx <> 0 -> hy <> 0 -> hz <> 0 ->
  (forall a, (2 * stencil_right (getc a p) <= getc a (shp u))%Z) ->
  (forall i, in_shape (shp u) i ->
     at_ u v i = peval3 l (x0 + IZR (cx i) * hx) (y0 + IZR (cy i) * hy) (z0 + IZR (cz i) * hz)) ->
  exists out, interpolate_fv_averages RNum p u = Ok out /\ rows out = rows u /\
    (forall a, getc a (shp out) = getc a (shp u) - 2 * stencil_right (getc a p))%Z /\
    forall i, in_shape (shp out) i ->
      at_ out v i = average3 (peval3 l) (x0 + IZR (cx i + stencil_right (cx p)) * hx)
                             (y0 + IZR (cy i + stencil_right (cy p)) * hy)
                             (z0 + IZR (cz i + stencil_right (cz p)) * hz) hx hy hz.
Proof.
  intros p l x0 y0 z0 hx hy hz u v Hp Dl Hx Hy Hz Hn Hu.
  destruct (fv_averages_exact p Hp l Dl x0 y0 z0 hx hy hz Hx Hy Hz u v Hn Hu) as (o & E & R & S & F).
  exists o. cbn [car RNum] in *. split; [exact E|]. split; [exact R|]. rewrite S.
  split; [intro; apply shrink_getc|exact F].
Qed.
Lemma there_and_back' : forall p l x0 y0 z0 hx hy hz (u : arr R) v,
  (forall a, (0 <= getc a p <= 8)%Z) ->
  degree3 (Z.to_nat (cx p)) (Z.to_nat (cy p)) (Z.to_nat (cz p)) l ->
  hx <> 0 -> hy <> 0 -> hz <> 0 ->
  (forall a, (4 * stencil_right (getc a p) <= getc a (shp u))%Z) ->
  (forall i, in_shape (shp u) i ->
     at_ u v i = average3 (peval3 l) (x0 + IZR (cx i) * hx) (y0 + IZR (cy i) * hy)
                   (z0 + IZR (cz i) * hz) hx hy hz) ->
  exists mid out, interpolate_cell_centers RNum p u = Ok mid /\
    interpolate_fv_averages RNum p mid = Ok out /\
    rows out = rows u /\
    (forall a, getc a (shp out) = getc a (shp u) - 4 * stencil_right (getc a p))%Z /\
    forall i, in_shape (shp out) i ->
      at_ out v i = at_ u v (mkix (cx i + 2 * stencil_right (cx p))
                                  (cy i + 2 * stencil_right (cy p))
                                  (cz i + 2 * stencil_right (cz p))).
Proof.
  intros p l x0 y0 z0 hx hy hz u v Hp Dl Hx Hy Hz Hn Hu.
  destruct (there_and_back p l x0 y0 z0 hx hy hz u v Hp Dl Hx Hy Hz Hn Hu) as (m & o & E1 & E2 & R & S & F).
  exists m, o. split; [exact E1|]. split; [exact E2|]. split; [exact R|]. split; [|exact F].
  intro a. rewrite S, !shrink_getc. lia.
Qed.
Lemma square_averages :
  let u := mkarr 1 (mkix 5 1 1) (fun _ i => IZR (cx i) * IZR (cx i) + 1/12) in
  is_poly 2 (fun x => x ^ 2) /\ (2 * stencil_right 2 <= getc AX (shp u))%Z /\
  forall k, at_ u 0%Z (setc AX k (mkix 0 0 0)) = average (fun x => x ^ 2) (0 + IZR k * 1) 1.
Proof.
  cbv zeta. split; [|split].
  - exists [0; 0; 1]. split; [simpl; lia|]. intro; simpl; ring.
  - cbn; lia.
  - intro k. cbn [at_ setc cx].
    rewrite (average_ext (fun x => x ^ 2) (peval [0; 0; 1])) by (intro; simpl; ring).
    replace (0 + IZR k * 1) with (0 + 1 * IZR k) by ring.
    rewrite average_poly by lra. unfold uavg, panti. cbn -[IZR INR]. cbn [INR]. field.
Qed.
