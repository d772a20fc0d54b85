(** Exactness of the Gauss averages used for initial data. *)
From Coq Require Import ZArith List Reals Lra Lia.
From Coquelicot Require Import Coquelicot.
From Verif Require Import Err Num PySlice NdArray NdArrayP HydroM HydroP StencilsM FvM FvP SpecPoly PolyP StencilP.
Import ListNotations.
Local Open Scope R_scope.

(** weighted sum over a rule, as the loop of fv_average builds it *)
Definition half_rule (l : list (R * R)) : list (R * R) := map (fun pw => (fst pw / 2, snd pw / 2)) l.

Lemma quad_ext l f g : (forall x, f x = g x) -> quad l f = quad l g.
Proof. intro H. induction l as [|[q w] l IH]; simpl; auto. rewrite H, IH. reflexivity. Qed.
Lemma quad_scal l k f : quad l (fun x => k * f x) = k * quad l f.
Proof. induction l as [|[q w] l IH]; simpl; [ring|]. rewrite IH. ring. Qed.

Lemma half_rule_exact d l f x h :
  exact_rule d l -> is_poly d f -> h <> 0 ->
  quad (half_rule l) (fun q => f (x + q * h)) = average f x h.
Proof.
  intros Hl (c & Hc & Ec) Hh.
  assert (E : quad (half_rule l) (fun q => f (x + q * h))
              = 1/2 * quad l (peval (pcomp x (h / 2) c))).
  { clear Hl Hc. induction l as [|[q w] l IH]; [simpl; ring|].
    cbn [half_rule map fst snd quad]. fold (half_rule l). rewrite IH.
    rewrite pcomp_eval, Ec. replace (x + q / 2 * h) with (x + h / 2 * q) by field. field. }
  rewrite E, Hl.
  2:{ exists (pcomp x (h / 2) c). split; [|auto]. eapply Nat.le_trans; [apply pcomp_len|exact Hc]. }
  rewrite (average_ext f (peval c)) by auto.
  unfold average.
  pose proof (peval_int (pcomp x (h / 2) c) (-1) 1) as I.
  rewrite (is_RInt_unique _ _ _ _ I).
  pose proof (peval_int c (x - h / 2) (x + h / 2)) as J.
  pose proof (is_RInt_comp_lin (peval c) (h / 2) x (-1) 1) as L.
  replace (h / 2 * -1 + x) with (x - h / 2) in L by field.
  replace (h / 2 * 1 + x) with (x + h / 2) in L by field.
  specialize (L _ J).
  assert (I' : is_RInt (fun y => scal (h / 2) (peval c (h / 2 * y + x))) (-1) 1
                (h / 2 * (panti (pcomp x (h / 2) c) 1 - panti (pcomp x (h / 2) c) (-1)))).
  { apply (is_RInt_ext (fun y => scal (h / 2) (peval (pcomp x (h / 2) c) y))).
    - intros y _. rewrite pcomp_eval. f_equal. f_equal. ring.
    - apply (is_RInt_scal (peval (pcomp x (h / 2) c)) _ _ (h / 2) _ I). }
  pose proof (is_RInt_unique _ _ _ _ I') as U1. pose proof (is_RInt_unique _ _ _ _ L) as U2.
  assert (Q : panti c (x + h / 2) - panti c (x - h / 2)
              = h / 2 * (panti (pcomp x (h / 2) c) 1 - panti (pcomp x (h / 2) c) (-1)))
    by (etransitivity; [symmetry; exact U2|exact U1]).
  rewrite (is_RInt_unique _ _ _ _ J), Q. field. exact Hh.
Qed.

Lemma fold_quad (l : list (R * R)) (F : R -> R -> R) : forall acc,
  fold_left (fun acc q => acc + F (snd q) (fst q)) l acc
  = acc + fold_right (fun q s => F (snd q) (fst q) + s) 0 l.
Proof. induction l as [|q l IH]; intro acc; simpl; [ring|]. rewrite IH. ring. Qed.

Lemma fold_ext {A B} (f g : A -> B -> A) l : (forall a b, f a b = g a b) ->
  forall a, fold_left f l a = fold_left g l a.
Proof. intro H. induction l as [|b l IH]; intro a; simpl; auto. rewrite H. apply IH. Qed.
Lemma sum_quad l (f : R -> R) k :
  fold_right (fun q s => (k * snd q * f (fst q)) + s) 0 l = k * quad l f.
Proof. induction l as [|[q w] l IH]; simpl; [ring|]. rewrite IH. ring. Qed.

Lemma fv_average_is lg f hx hy hz p x y z :
  fv_average RNum lg f (hx, hy, hz) p x y z =
  quad (half_rule (lg (quadrature_size (cx p)))) (fun a =>
  quad (half_rule (lg (quadrature_size (cy p)))) (fun b =>
  quad (half_rule (lg (quadrature_size (cz p)))) (fun c =>
    f (x + a * hx) (y + b * hy) (z + c * hz)))).
Proof.
  unfold fv_average, get_legendre_quadrature. rn.
  change (map (fun pw => (fst pw / 2, snd pw / 2)) (lg (quadrature_size (cx p))))
    with (half_rule (lg (quadrature_size (cx p)))).
  change (map (fun pw => (fst pw / 2, snd pw / 2)) (lg (quadrature_size (cy p))))
    with (half_rule (lg (quadrature_size (cy p)))).
  change (map (fun pw => (fst pw / 2, snd pw / 2)) (lg (quadrature_size (cz p))))
    with (half_rule (lg (quadrature_size (cz p)))).
  generalize (half_rule (lg (quadrature_size (cx p)))) as qx.
  generalize (half_rule (lg (quadrature_size (cy p)))) as qy.
  generalize (half_rule (lg (quadrature_size (cz p)))) as qz. intros qz qy qx.
  set (gz := fun a b => quad qz (fun c => f (x + a * hx) (y + b * hy) (z + c * hz))).
  set (gy := fun a => quad qy (fun b => gz a b)).
  assert (Zl : forall (xq yq : R * R) acc,
    fold_left (fun acc (zq : R * R) => acc + snd xq * snd yq * snd zq
       * f (x + fst xq * hx) (y + fst yq * hy) (z + fst zq * hz)) qz acc
    = acc + snd xq * snd yq * gz (fst xq) (fst yq)).
  { intros. rewrite (fold_quad qz (fun w q => snd xq * snd yq * w * f (x + fst xq * hx) (y + fst yq * hy) (z + q * hz))).
    rewrite (sum_quad qz (fun q => f (x + fst xq * hx) (y + fst yq * hy) (z + q * hz)) (snd xq * snd yq)). reflexivity. }
  assert (Yl : forall (xq : R * R) acc,
    fold_left (fun acc (yq : R * R) => fold_left (fun acc (zq : R * R) => acc + snd xq * snd yq * snd zq
       * f (x + fst xq * hx) (y + fst yq * hy) (z + fst zq * hz)) qz acc) qy acc
    = acc + snd xq * gy (fst xq)).
  { intros. rewrite (fold_ext _ (fun acc yq => acc + snd xq * snd yq * gz (fst xq) (fst yq))) by (intros; apply Zl).
    rewrite (fold_quad qy (fun w q => snd xq * w * gz (fst xq) q)).
    rewrite (sum_quad qy (fun q => gz (fst xq) q) (snd xq)). reflexivity. }
  rewrite (fold_ext _ (fun acc xq => acc + 1 * snd xq * gy (fst xq))) by (intros; rewrite Yl; ring).
  rewrite (fold_quad qx (fun w q => 1 * w * gy q)), (sum_quad qx gy 1).
  unfold gy, gz. ring.
Qed.

Lemma quadrature_size_degree p : (0 <= p)%Z ->
  (Z.to_nat p <= 2 * Z.to_nat (quadrature_size p) - 1)%nat.
Proof.
  intro H. unfold quadrature_size.
  pose proof (Z.div_mod (- (p + 1)) 2 ltac:(lia)). pose proof (Z.mod_pos_bound (- (p + 1)) 2 ltac:(lia)). lia.
Qed.

Lemma is_poly_weaken n m f : (n <= m)%nat -> is_poly n f -> is_poly m f.
Proof. intros H (c & Hc & E). exists c. split; [lia|auto]. Qed.

Lemma fv_average_exact lg l p hx hy hz x y z :
  (forall a, (0 <= getc a p)%Z) ->
  degree3 (Z.to_nat (cx p)) (Z.to_nat (cy p)) (Z.to_nat (cz p)) l ->
  hx <> 0 -> hy <> 0 -> hz <> 0 ->
  (forall a, let n := quadrature_size (getc a p) in exact_rule (2 * Z.to_nat n - 1) (lg n)) ->
  fv_average RNum lg (peval3 l) (hx, hy, hz) p x y z = average3 (peval3 l) x y z hx hy hz.
Proof.
  intros Hp Dl Hx Hy Hz Hg. rewrite fv_average_is. cbv zeta in Hg.
  pose proof (Hg AX) as GX. pose proof (Hg AY) as GY. pose proof (Hg AZ) as GZ.
  cbn [getc] in GX, GY, GZ.
  unfold average3.
  erewrite quad_ext.
  2:{ intro a. erewrite quad_ext.
      2:{ intro b. rewrite (half_rule_exact _ _ (fun z' => peval3 l (x + a * hx) (y + b * hy) z') z hz GZ); auto.
          2:{ eapply is_poly_weaken; [apply quadrature_size_degree, (Hp AZ)|]. eapply poly3_z. exact Dl. }
          reflexivity. }
      cbv beta.
      rewrite (half_rule_exact _ _ (fun y' => average (fun z' => peval3 l (x + a * hx) y' z') z hz) y hy GY); auto.
      2:{ eapply is_poly_weaken; [apply quadrature_size_degree, (Hp AY)|]. eapply poly_y_avg; eauto. }
      reflexivity. }
  cbv beta.
  rewrite (half_rule_exact _ _ (fun x' => average (fun y' => average (fun z' => peval3 l x' y' z') z hz) y hy) x hx GX); auto.
  eapply is_poly_weaken; [apply quadrature_size_degree, (Hp AX)|]. eapply poly_x_avg; eauto.
Qed.

Lemma quadrature_size_bounds : forall p, (0 <= p)%Z ->
  (2 * quadrature_size p - 1 >= p /\ 2 * quadrature_size p - 1 <= p + 1)%Z.
Proof.
  intros p H. unfold quadrature_size.
  pose proof (Z.div_mod (- (p + 1)) 2 ltac:(lia)). pose proof (Z.mod_pos_bound (- (p + 1)) 2 ltac:(lia)). lia.
Qed.

Lemma gauss_examples :
  exact_rule (2 * Z.to_nat (quadrature_size 1) - 1) [(0, 2)] /\
  exact_rule (2 * Z.to_nat (quadrature_size 3) - 1) [(- sqrt (/3), 1); (sqrt (/3), 1)].
Proof.
  split; intros f (c & Hc & E).
  - change ((length c <= 2)%nat) in Hc.
    rewrite (quad_ext _ f (peval c)) by auto.
    rewrite (RInt_ext f (peval c)) by auto.
    rewrite (is_RInt_unique _ _ _ _ (peval_int c (-1) 1)).
    destruct c as [|a [|b [|d c]]]; [..|simpl in Hc; lia]; unfold panti; cbn -[IZR INR]; cbn [INR]; field.
  - change ((length c <= 4)%nat) in Hc.
    rewrite (quad_ext _ f (peval c)) by auto.
    rewrite (RInt_ext f (peval c)) by auto.
    rewrite (is_RInt_unique _ _ _ _ (peval_int c (-1) 1)).
    assert (S : sqrt (/3) * sqrt (/3) = /3) by (apply sqrt_sqrt; lra).
    assert (Q : forall d, d * (sqrt (/3) * sqrt (/3)) = d / 3) by (intro; rewrite S; field).
    destruct c as [|a [|b [|d [|e [|g c]]]]]; [..|simpl in Hc; lia]; unfold panti; cbn -[IZR INR sqrt]; cbn [INR];
      try (field; fail); set (s := sqrt (/3)) in *.
    + transitivity (2 * a + 2 * (d * (s * s))); [ring|rewrite Q; field].
    + transitivity (2 * a + 2 * (d * (s * s))); [ring|rewrite Q; field].
Qed.
