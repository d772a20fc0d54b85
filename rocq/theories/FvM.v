(** Model of /repo/fvhoe/fv.py. *)
From Coq Require Import ZArith List Bool.
From Verif Require Import Err Num PySlice NdArray HydroM StencilsM.
Import ListNotations.
Open Scope Z_scope.

(** get_symmetric_slices, fv.py:89-103. ndim is always that of the sliced array. *)
Definition get_symmetric_slices (nslices : Z) : res (list pyslice) :=
  if nslices <? 1 then Err ValueError
  else Ok (map (fun i => cut i (- (nslices - 1) + i)) (zrange nslices)).

Section Fv.
Context (N : Num).
Local Notation K := (car N).
Local Open Scope num_scope.

(** [np.add(out, x, out=out)], fv.py:139: x must broadcast to out's shape *)
Definition acc_add (out x : arr K) : res (arr K) :=
  if bcast_ok (rows x) (rows out) (shp x) (shp out) then
    Ok (mkarr (rows out) (shp out)
          (fun v i => at_ out v i
                      + at_ x (brow (rows x) (rows out) v) (bix (shp x) (shp out) i)))
  else Err ValueError.

Fixpoint sweep_loop (a : axis) (u : arr K) (ws : list (K * pyslice)) (out : arr K)
  : res (arr K) :=
  match ws with
  | [] => Ok out
  | (w, s) :: ws' =>
      do out' <- acc_add out (amap (fun x => w * x) (view a s u));
      sweep_loop a u ws' out'
  end.

(** stencil_sweep after the weights are known, fv.py:131-140 *)
Definition weighted_sweep (a : axis) (weights : list K) (u : arr K) : res (arr K) :=
  do slices <- get_symmetric_slices (Z.of_nat (length weights));
  match slices with
  | [] => Err IndexError
  | s0 :: _ =>
      let out0 := mkarr (rows u) (shp (view a s0 u)) (fun _ _ => #0) in
      sweep_loop a u (combine weights slices) out0
  end.

(** conservative_interpolation, fv.py:143-159 (stencil_sweep with mode="interpolation") *)
Definition conservative_interpolation (p : Z) (a : axis) (pos : ipos) (u : arr K)
  : res (arr K) :=
  do ws <- interpolation_weights N p pos; weighted_sweep a ws u.

(** transverse_reconstruction, fv.py:162-172 (stencil_sweep with mode="reconstruction") *)
Definition transverse_reconstruction (p : Z) (a : axis) (u : arr K) : res (arr K) :=
  do ws <- transverse_weights N p; weighted_sweep a ws u.

(** interpolate_cell_centers, fv.py:175-197 *)
Definition interpolate_cell_centers (p : ix) (u : arr K) : res (arr K) :=
  do a <- conservative_interpolation (cx p) AX P_c u;
  do b <- conservative_interpolation (cy p) AY P_c a;
  conservative_interpolation (cz p) AZ P_c b.

(** interpolate_fv_averages, fv.py:200-224 *)
Definition interpolate_fv_averages (p : ix) (u : arr K) : res (arr K) :=
  do a <- transverse_reconstruction (cx p) AX u;
  do b <- transverse_reconstruction (cy p) AY a;
  transverse_reconstruction (cz p) AZ b.

(** second_order_central_difference, fv.py:280-296 *)
Definition second_order_central_difference (a : axis) (h : option K) (u : arr K)
  : res (arr K) :=
  do d <- amap2 (fun x y => nhalf * (x - y)) (view a (cut 2 0) u) (view a (cut 0 (-2)) u);
  Ok (match h with None => d | Some h => amap (fun x => x / h) d end).

(** np.linspace(lo, hi, n + 1)[i]: NumPy computes i * step + lo and overwrites the last
    entry with hi *)
Definition linspace (lo hi : K) (n i : Z) : K :=
  if (i =? n)%Z && (0 <? n)%Z then hi else nofZ i * ((hi - lo) / nofZ n) + lo.

(** cell centres, fv.py:35-44 *)
Definition midpoint (b : K * K) (n i : Z) : K :=
  nhalf * (linspace (fst b) (snd b) n (i + 1) + linspace (fst b) (snd b) n i).

(** np.meshgrid(..., indexing="ij") of the three midpoint vectors, fv.py:47 *)
Definition mesh (n : ix) (bx by_ bz : K * K) : arr K * arr K * arr K :=
  (mkarr 1 n (fun _ i => midpoint bx (cx n) (cx i)),
   mkarr 1 n (fun _ i => midpoint by_ (cy n) (cy i)),
   mkarr 1 n (fun _ i => midpoint bz (cz n) (cz i))).

Inductive side := SL | SR.
Definition side_eqb (a b : side) : bool :=
  match a, b with SL, SL | SR, SR => true | _, _ => false end.

(** bounds of one slab along axis a, fv.py:67-81 *)
Definition slab_bounds (dim : axis) (pos : side) (a : axis) (b : K * K) (h : K) (gw : Z)
  : K * K :=
  if axis_eqb dim a then
    match pos with
    | SL => (fst b - h * nofZ gw, fst b)
    | SR => (snd b, snd b + h * nofZ gw)
    end
  else (fst b - h * nofZ gw, snd b + h * nofZ gw).
Definition slab_n (dim a : axis) (n gw : Z) : Z :=
  if axis_eqb dim a then gw else (n + 2 * gw)%Z.

(** one entry of the slab_coords dict, fv.py:57-83 *)
Definition slab_mesh (n : ix) (bx by_ bz : K * K) (gw : ix) (dim : axis) (pos : side)
  : arr K * arr K * arr K :=
  let hx := (snd bx - fst bx) / nofZ (cx n) in
  let hy := (snd by_ - fst by_) / nofZ (cy n) in
  let hz := (snd bz - fst bz) / nofZ (cz n) in
  mesh (mkix (slab_n dim AX (cx n) (cx gw)) (slab_n dim AY (cy n) (cy gw))
             (slab_n dim AZ (cz n) (cz gw)))
       (slab_bounds dim pos AX bx hx (cx gw))
       (slab_bounds dim pos AY by_ hy (cy gw))
       (slab_bounds dim pos AZ bz hz (cz gw)).

(** the two possible results of fv_uniform_meshgen, fv.py:12-85 *)
Inductive meshgen_result :=
| Mesh3 (m : arr K * arr K * arr K)
| MeshWithSlabs (inner : arr K * arr K * arr K)
                (slabs : axis -> side -> arr K * arr K * arr K).
Definition fv_uniform_meshgen (n : ix) (bx by_ bz : K * K) (slab_thickness : ix)
  : meshgen_result :=
  if ix_eqb slab_thickness (mkix 0 0 0) then Mesh3 (mesh n bx by_ bz)
  else MeshWithSlabs (mesh n bx by_ bz) (slab_mesh n bx by_ bz slab_thickness).

(** get_legendre_quadrature, fv.py:228-240. [leggauss] stands for
    numpy.polynomial.legendre.leggauss, which is not part of the repository. *)
Definition quadrature_size (p : Z) : Z := - (- (p + 1) / 2).
Definition get_legendre_quadrature (leggauss : Z -> list (K * K)) (p : Z) : list (K * K) :=
  map (fun pw => (fst pw / #2, snd pw / #2)) (leggauss (quadrature_size p)).

(** fv_average, fv.py:243-277, at one cell with coordinates (x, y, z) and for one row of
    the pointwise function f *)
Definition fv_average (leggauss : Z -> list (K * K)) (f : K -> K -> K -> K)
  (h : K * K * K) (p : ix) (x y z : K) : K :=
  let '(hx, hy, hz) := h in
  fold_left (fun acc xq =>
    fold_left (fun acc yq =>
      fold_left (fun acc zq =>
          let weight := snd xq * snd yq * snd zq in
          acc + weight * f (x + fst xq * hx) (y + fst yq * hy) (z + fst zq * hz))
        (get_legendre_quadrature leggauss (cz p)) acc)
      (get_legendre_quadrature leggauss (cy p)) acc)
    (get_legendre_quadrature leggauss (cx p)) #0.
End Fv.
