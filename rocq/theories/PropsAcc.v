(** Theorems on reconstruction accuracy and meshes (C12-C16). *)
From Coq Require Import ZArith List Reals Lra Lia.
From Verif Require Import Err Num NdArray StencilsM FvM StencilP QuadP MeshP SpecPoly SpecMesh.
Import ListNotations.
Local Open Scope R_scope.

(** C12. For p = 0..8, if on the stencil around some output entry the input holds the exact
    averages of a polynomial f of degree <= p over cells of width h centred at x0 + k h,
    the output holds the value of f at the left face, centre or right face of the middle
    cell. Exact arithmetic. *)
Theorem C12_interpolation_exact : forall p a pos (u : arr R),
  (0 <= p <= 8)%Z -> pos = P_l \/ pos = P_c \/ pos = P_r ->
  (2 * stencil_right p <= getc a (shp u))%Z ->
  exists out, conservative_interpolation RNum p a pos u = Ok out /\
    rows out = rows u /\ shp out = setc a (getc a (shp u) - 2 * stencil_right p)%Z (shp u) /\
    forall v i (f : R -> R) x0 h, is_poly (Z.to_nat p) f -> h <> 0 ->
      (forall k, (getc a i <= k <= getc a i + 2 * stencil_right p)%Z ->
         at_ u v (setc a k i) = average f (x0 + IZR k * h) h) ->
      at_ out v i = f (x0 + (IZR (getc a i + stencil_right p) + offset pos) * h).
Proof. exact interpolation_exact. Qed.
Print Assumptions C12_interpolation_exact.
Example C12_hypotheses : (* averages of x^2 with h = 1: k^2 + 1/12 *)
  let u := mkarr 1 (mkix 5 1 1) (fun _ i => IZR (cx i) * IZR (cx i) + 1/12) in
  is_poly 2 (fun x => x ^ 2) /\ (2 * stencil_right 2 <= getc AX (shp u))%Z /\
  forall k, at_ u 0%Z (setc AX k (mkix 0 0 0)) = average (fun x => x ^ 2) (0 + IZR k * 1) 1.
Proof. exact square_averages. Qed.

(** the same in three dimensions *)
Theorem C12_cell_centers_exact : forall p l x0 y0 z0 hx hy hz (u : arr R) v,
  (forall a, (0 <= getc a p <= 8)%Z) ->
  degree3 (Z.to_nat (cx p)) (Z.to_nat (cy p)) (Z.to_nat (cz p)) l ->
  hx <> 0 -> hy <> 0 -> hz <> 0 ->
  (forall a, (2 * stencil_right (getc a p) <= getc a (shp u))%Z) ->
  (forall i, in_shape (shp u) i ->
     at_ u v i = average3 (peval3 l) (x0 + IZR (cx i) * hx) (y0 + IZR (cy i) * hy)
                   (z0 + IZR (cz i) * hz) hx hy hz) ->
  exists out, interpolate_cell_centers RNum p u = Ok out /\ rows out = rows u /\
    (forall a, getc a (shp out) = getc a (shp u) - 2 * stencil_right (getc a p))%Z /\
    forall i, in_shape (shp out) i ->
      at_ out v i = peval3 l (x0 + IZR (cx i + stencil_right (cx p)) * hx)
                             (y0 + IZR (cy i + stencil_right (cy p)) * hy)
                             (z0 + IZR (cz i + stencil_right (cz p)) * hz).
Proof. exact cell_centers_exact'. Qed.
Print Assumptions C12_cell_centers_exact.

(** C13. *)
Theorem C13_reconstruction_exact : forall p a (u : arr R),
  (0 <= p <= 8)%Z -> (2 * stencil_right p <= getc a (shp u))%Z ->
  exists out, transverse_reconstruction RNum p a u = Ok out /\
    rows out = rows u /\ shp out = setc a (getc a (shp u) - 2 * stencil_right p)%Z (shp u) /\
    forall v i (f : R -> R) x0 h, is_poly (Z.to_nat p) f -> h <> 0 ->
      (forall k, (getc a i <= k <= getc a i + 2 * stencil_right p)%Z ->
         at_ u v (setc a k i) = f (x0 + IZR k * h)) ->
      at_ out v i = average f (x0 + IZR (getc a i + stencil_right p) * h) h.
Proof. exact reconstruction_exact. Qed.
Print Assumptions C13_reconstruction_exact.
Theorem C13_fv_averages_exact : forall p l x0 y0 z0 hx hy hz (u : arr R) v,
  (forall a, (0 <= getc a p <= 8)%Z) ->
  degree3 (Z.to_nat (cx p)) (Z.to_nat (cy p)) (Z.to_nat (cz p)) l ->
  hx <> 0 -> hy <> 0 -> hz <> 0 ->
  (forall a, (2 * stencil_right (getc a p) <= getc a (shp u))%Z) ->
  (forall i, in_shape (shp u) i ->
     at_ u v i = peval3 l (x0 + IZR (cx i) * hx) (y0 + IZR (cy i) * hy) (z0 + IZR (cz i) * hz)) ->
  exists out, interpolate_fv_averages RNum p u = Ok out /\ rows out = rows u /\
    (forall a, getc a (shp out) = getc a (shp u) - 2 * stencil_right (getc a p))%Z /\
    forall i, in_shape (shp out) i ->
      at_ out v i = average3 (peval3 l) (x0 + IZR (cx i + stencil_right (cx p)) * hx)
                             (y0 + IZR (cy i + stencil_right (cy p)) * hy)
                             (z0 + IZR (cz i + stencil_right (cz p)) * hz) hx hy hz.
Proof. exact fv_averages_exact'. Qed.
Print Assumptions C13_fv_averages_exact.
(** averages -> centre values -> averages gives back the averages two stencils further in *)
Theorem C13_there_and_back : forall p l x0 y0 z0 hx hy hz (u : arr R) v,
  (forall a, (0 <= getc a p <= 8)%Z) ->
  degree3 (Z.to_nat (cx p)) (Z.to_nat (cy p)) (Z.to_nat (cz p)) l ->
  hx <> 0 -> hy <> 0 -> hz <> 0 ->
  (forall a, (4 * stencil_right (getc a p) <= getc a (shp u))%Z) ->
  (forall i, in_shape (shp u) i ->
     at_ u v i = average3 (peval3 l) (x0 + IZR (cx i) * hx) (y0 + IZR (cy i) * hy)
                   (z0 + IZR (cz i) * hz) hx hy hz) ->
  exists mid out, interpolate_cell_centers RNum p u = Ok mid /\
    interpolate_fv_averages RNum p mid = Ok out /\
    rows out = rows u /\
    (forall a, getc a (shp out) = getc a (shp u) - 4 * stencil_right (getc a p))%Z /\
    forall i, in_shape (shp out) i ->
      at_ out v i = at_ u v (mkix (cx i + 2 * stencil_right (cx p))
                                  (cy i + 2 * stencil_right (cy p))
                                  (cz i + 2 * stencil_right (cz p))).
Proof. exact there_and_back'. Qed.
Print Assumptions C13_there_and_back.
Example C13_hypotheses : (* x y^2 - 3 z on a 9 x 9 x 9 grid with p = (1, 2, 1) *)
  let p := mkix 1 2 1 in
  let l := [(1, (1, 2, 0)%nat); (-3, (0, 0, 1)%nat)] in
  (forall a, (0 <= getc a p <= 8)%Z) /\
  degree3 (Z.to_nat (cx p)) (Z.to_nat (cy p)) (Z.to_nat (cz p)) l /\
  (forall a, (4 * stencil_right (getc a p) <= getc a (mkix 9 9 9))%Z).
Proof.
  split; [|split].
  - intros []; cbn; lia.
  - repeat constructor.
  - intros []; cbn; lia.
Qed.

(** C14. Valid for every arithmetic, in particular binary64. *)
Theorem C14_interpolation_sweep : forall (N : Num) p a pos (u : arr (car N)),
  (0 <= p <= 8)%Z -> In pos [P_l; P_c; P_r] ->
  (stencil_total p - 1 <= getc a (shp u))%Z ->
  exists ws out,
    interpolation_weights N p pos = Ok ws /\ Z.of_nat (length ws) = stencil_total p /\
    conservative_interpolation N p a pos u = Ok out /\
    rows out = rows u /\ shp out = setc a (getc a (shp u) - (stencil_total p - 1))%Z (shp u) /\
    forall v i, at_ out v i =
      fold_left (fun acc wj => nadd acc (nmul (fst wj) (at_ u v (setc a (getc a i + snd wj)%Z i))))
        (combine ws (zrange (stencil_total p))) (nofZ 0).
Proof. exact sweep_value. Qed.
Print Assumptions C14_interpolation_sweep.
Theorem C14_reconstruction_sweep : forall (N : Num) p a (u : arr (car N)),
  (0 <= p <= 8)%Z -> (stencil_total p - 1 <= getc a (shp u))%Z ->
  exists ws out,
    transverse_weights N p = Ok ws /\ Z.of_nat (length ws) = stencil_total p /\
    transverse_reconstruction N p a u = Ok out /\
    rows out = rows u /\ shp out = setc a (getc a (shp u) - (stencil_total p - 1))%Z (shp u) /\
    forall v i, at_ out v i =
      fold_left (fun acc wj => nadd acc (nmul (fst wj) (at_ u v (setc a (getc a i + snd wj)%Z i))))
        (combine ws (zrange (stencil_total p))) (nofZ 0).
Proof. exact sweep_value_t. Qed.
Print Assumptions C14_reconstruction_sweep.
Theorem C14_errors : forall (N : Num) p a (u : arr (car N)),
  (~ (0 <= p <= 8)%Z -> (forall pos, In pos [P_l; P_c; P_r] ->
     conservative_interpolation N p a pos u = Err NotImplementedError) /\
     transverse_reconstruction N p a u = Err NotImplementedError) /\
  conservative_interpolation N p a P_invalid u = Err ValueError /\
  ((1 <= p <= 8)%Z -> conservative_interpolation N p a P_other_substring u = Err UnboundLocalError).
Proof. exact sweep_errors. Qed.
Print Assumptions C14_errors.
Example C14_hypotheses : stencil_total 7 = 9%Z /\
  (stencil_total 7 - 1 <= getc AY (shp (mkarr 5 (mkix 1 8 1) (fun _ _ => 0))))%Z.
Proof. split; [reflexivity|cbn; lia]. Qed.

(** C15. [lg] stands for numpy's leggauss; the hypothesis is its documented property, that
    the n-point rule is exact on [-1,1] for degree 2n-1. *)
Theorem C15_fv_average_exact : forall lg l p hx hy hz x y z,
  (forall a, (0 <= getc a p)%Z) ->
  degree3 (Z.to_nat (cx p)) (Z.to_nat (cy p)) (Z.to_nat (cz p)) l ->
  hx <> 0 -> hy <> 0 -> hz <> 0 ->
  (forall a, let n := quadrature_size (getc a p) in exact_rule (2 * Z.to_nat n - 1) (lg n)) ->
  fv_average RNum lg (peval3 l) (hx, hy, hz) p x y z = average3 (peval3 l) x y z hx hy hz.
Proof. exact fv_average_exact. Qed.
Print Assumptions C15_fv_average_exact.
Theorem C15_quadrature_size : forall p, (0 <= p)%Z ->
  (2 * quadrature_size p - 1 >= p /\ 2 * quadrature_size p - 1 <= p + 1)%Z.
Proof. exact quadrature_size_bounds. Qed.
Print Assumptions C15_quadrature_size.
Example C15_hypotheses : (* the one- and two-point Gauss rules *)
  exact_rule (2 * Z.to_nat (quadrature_size 1) - 1) [(0, 2)] /\
  exact_rule (2 * Z.to_nat (quadrature_size 3) - 1) [(- sqrt (/3), 1); (sqrt (/3), 1)].
Proof. exact gauss_examples. Qed.

(** C16. *)
Theorem C16_mesh : forall n bx by_ bz a i,
  (forall a, (1 <= getc a n)%Z) ->
  shp (coord (mesh RNum n bx by_ bz) a) = n /\
  at_ (coord (mesh RNum n bx by_ bz) a) 0%Z i
  = centre (fst (bnd bx by_ bz a)) (snd (bnd bx by_ bz a)) (getc a n) (getc a i).
Proof. exact mesh_coords. Qed.
Print Assumptions C16_mesh.
Theorem C16_slabs : forall n bx by_ bz gw dim pos a i,
  (forall a, (1 <= getc a n)%Z) -> (forall a, (0 <= getc a gw)%Z) -> (1 <= getc dim gw)%Z ->
  exists slabs, fv_uniform_meshgen RNum n bx by_ bz gw = MeshWithSlabs RNum (mesh RNum n bx by_ bz) slabs /\
  let m := slabs dim pos in
  getc a (shp (coord m a)) = (if axis_eqb dim a then getc a gw else getc a n + 2 * getc a gw)%Z /\
  at_ (coord m a) 0%Z i
  = centre (fst (bnd bx by_ bz a)) (snd (bnd bx by_ bz a)) (getc a n)
      (slab_index dim a pos (getc a n) (getc a gw) (getc a i)).
Proof. exact meshgen_slabs. Qed.
Print Assumptions C16_slabs.
Example C16_hypotheses : (forall a, (1 <= getc a (mkix 10 4 1))%Z) /\
  (forall a, (0 <= getc a (mkix 2 3 0))%Z) /\ (1 <= getc AY (mkix 2 3 0))%Z.
Proof. split; [|split]; try (intros []; cbn; lia). cbn; lia. Qed.
