(** NumPy arrays of shape (rows, nx, ny, nz): views, broadcasting, slice assignment. *)
From Coq Require Import ZArith List Bool.
From Verif Require Import Err PySlice.
Import ListNotations.
Open Scope Z_scope.

(** Spatial axes; NumPy axis numbers 1, 2, 3 of the 4-D arrays. *)
Inductive axis := AX | AY | AZ.
Definition axis_eqb (a b : axis) : bool :=
  match a, b with AX, AX | AY, AY | AZ, AZ => true | _, _ => false end.

Record ix := mkix { cx : Z; cy : Z; cz : Z }.
Definition getc (a : axis) (i : ix) : Z :=
  match a with AX => cx i | AY => cy i | AZ => cz i end.
Definition setc (a : axis) (z : Z) (i : ix) : ix :=
  match a with
  | AX => mkix z (cy i) (cz i)
  | AY => mkix (cx i) z (cz i)
  | AZ => mkix (cx i) (cy i) z
  end.
Definition ix_eqb (i j : ix) : bool :=
  (cx i =? cx j) && (cy i =? cy j) && (cz i =? cz j).

(** An array: number of rows (variables), spatial shape, contents. The contents function
    is total; only indices inside the shape are meaningful. *)
Record arr (A : Type) := mkarr { rows : Z; shp : ix; at_ : Z -> ix -> A }.
Arguments mkarr {A}.
Arguments rows {A}.
Arguments shp {A}.
Arguments at_ {A}.

Definition in_shape (s i : ix) : Prop := forall a, 0 <= getc a i < getc a s.

(** [range(n)] *)
Definition zrange (n : Z) : list Z := map Z.of_nat (seq 0 (Z.to_nat n)).

(** all indices of a shape *)
Definition ix_list (s : ix) : list ix :=
  flat_map (fun x => flat_map (fun y => map (fun z => mkix x y z) (zrange (cz s)))
                              (zrange (cy s))) (zrange (cx s)).

Section Ops.
Context {A B C : Type}.

(** basic slicing along one axis: [u[..., s, ...]] (a view) *)
Definition view (a : axis) (s : pyslice) (u : arr A) : arr A :=
  let e := slice_adjust (getc a (shp u)) s in
  mkarr (rows u) (setc a (ex_len e) (shp u))
        (fun v i => at_ u v (setc a (ex_start e + ex_step e * getc a i) i)).

(** NumPy broadcasting of one dimension; None when NumPy raises ValueError *)
Definition bdim (m n : Z) : option Z :=
  if m =? n then Some m else if m =? 1 then Some n else if n =? 1 then Some m else None.
Definition bshape (s t : ix) : option ix :=
  match bdim (cx s) (cx t), bdim (cy s) (cy t), bdim (cz s) (cz t) with
  | Some x, Some y, Some z => Some (mkix x y z)
  | _, _, _ => None
  end.
(** index into an operand of shape [s] for result index [i] of shape [t] *)
Definition bix (s t i : ix) : ix :=
  mkix (if cx s =? cx t then cx i else 0)
       (if cy s =? cy t then cy i else 0)
       (if cz s =? cz t then cz i else 0).
Definition brow (r t v : Z) : Z := if r =? t then v else 0.

(** [dst[...] = src] is allowed iff src broadcasts to dst's shape *)
Definition bcast_ok (rs rt : Z) (s t : ix) : bool :=
  let ok m n := (m =? n) || (m =? 1) in
  ok rs rt && ok (cx s) (cx t) && ok (cy s) (cy t) && ok (cz s) (cz t).

(** elementwise unary operation *)
Definition amap (f : A -> B) (u : arr A) : arr B :=
  mkarr (rows u) (shp u) (fun v i => f (at_ u v i)).

(** operation on whole cells: the row function of each cell is transformed *)
Definition cmap (f : (Z -> A) -> Z -> B) (u : arr A) : arr B :=
  mkarr (rows u) (shp u) (fun v i => f (fun w => at_ u w i) v).
End Ops.

(** elementwise binary operation with broadcasting *)
Definition amap2 {A B C} (f : A -> B -> C) (a : arr A) (b : arr B) : res (arr C) :=
  match bdim (rows a) (rows b), bshape (shp a) (shp b) with
  | Some r, Some s =>
      Ok (mkarr r s (fun v i => f (at_ a (brow (rows a) r v) (bix (shp a) s i))
                                  (at_ b (brow (rows b) r v) (bix (shp b) s i))))
  | _, _ => Err ValueError
  end.

(** binary operation on whole cells (the Riemann solvers) with broadcasting *)
Definition cmap2 {A B C} (f : (Z -> A) -> (Z -> B) -> Z -> C) (a : arr A) (b : arr B)
  : res (arr C) :=
  match bdim (rows a) (rows b), bshape (shp a) (shp b) with
  | Some r, Some s =>
      Ok (mkarr r s (fun v i => f (fun w => at_ a (brow (rows a) r w) (bix (shp a) s i))
                                  (fun w => at_ b (brow (rows b) r w) (bix (shp b) s i)) v))
  | _, _ => Err ValueError
  end.

(** [dst[...] = src] *)
Definition assign_all {A} (dst src : arr A) : res (arr A) :=
  if bcast_ok (rows src) (rows dst) (shp src) (shp dst) then
    Ok (mkarr (rows dst) (shp dst)
          (fun v i => at_ src (brow (rows src) (rows dst) v) (bix (shp src) (shp dst) i)))
  else Err ValueError.

(** [dst[..., s, ...] = src] along one axis. Only step 1 occurs in fvhoe. *)
Definition assign_slice {A} (a : axis) (s : pyslice) (dst src : arr A) : res (arr A) :=
  let e := slice_adjust (getc a (shp dst)) s in
  let region := setc a (ex_len e) (shp dst) in
  if bcast_ok (rows src) (rows dst) (shp src) region then
    Ok (mkarr (rows dst) (shp dst)
          (fun v i =>
             if (ex_start e <=? getc a i) && (getc a i <? ex_start e + ex_len e)
             then at_ src (brow (rows src) (rows dst) v)
                          (bix (shp src) region (setc a (getc a i - ex_start e) i))
             else at_ dst v i))
  else Err ValueError.

(** [dst[row, ..., s, ...] *= -1] style update of one row along one axis *)
Definition update_row_slice {A} (a : axis) (s : pyslice) (row : Z) (f : A -> A)
  (dst : arr A) : arr A :=
  let e := slice_adjust (getc a (shp dst)) s in
  mkarr (rows dst) (shp dst)
    (fun v i =>
       if (v =? row) && (ex_start e <=? getc a i) && (getc a i <? ex_start e + ex_len e)
       then f (at_ dst v i) else at_ dst v i).

(** [np.pad(u, ((0,0),(gx,gx),(gy,gy),(gz,gz)), mode="empty")]: the ghost cells hold
    whatever the allocator returned, the argument [junk]. Negative widths raise. *)
Definition pad_empty {A} (junk : Z -> ix -> A) (g : ix) (u : arr A) : res (arr A) :=
  if (cx g <? 0) || (cy g <? 0) || (cz g <? 0) then Err ValueError else
  let s := shp u in
  Ok (mkarr (rows u) (mkix (cx s + 2 * cx g) (cy s + 2 * cy g) (cz s + 2 * cz g))
        (fun v i =>
           let j := mkix (cx i - cx g) (cy i - cy g) (cz i - cz g) in
           if (0 <=? cx j) && (cx j <? cx s) && (0 <=? cy j) && (cy j <? cy s)
              && (0 <=? cz j) && (cz j <? cz s)
           then at_ u v j else junk v i)).

(** np.max / np.min over all cells of a per-cell quantity; empty arrays raise ValueError *)
Definition reduce_cells {A} (op : A -> A -> A) (s : ix) (f : ix -> A) : res A :=
  match ix_list s with
  | [] => Err ValueError
  | i :: l => Ok (fold_left (fun acc j => op acc (f j)) l (f i))
  end.

(** basic slicing along the three spatial axes at once *)
Definition view3 {A} (s : axis -> pyslice) (u : arr A) : arr A :=
  view AZ (s AZ) (view AY (s AY) (view AX (s AX) u)).

(** [dst[:, sx, sy, sz] = src] (steps are all 1) *)
Definition assign3 {A} (s : axis -> pyslice) (dst src : arr A) : res (arr A) :=
  let ex a := slice_adjust (getc a (shp dst)) (s a) in
  let region := mkix (ex_len (ex AX)) (ex_len (ex AY)) (ex_len (ex AZ)) in
  let inside a i := (ex_start (ex a) <=? getc a i)
                    && (getc a i <? ex_start (ex a) + ex_len (ex a)) in
  if bcast_ok (rows src) (rows dst) (shp src) region then
    Ok (mkarr (rows dst) (shp dst)
          (fun v i =>
             if inside AX i && inside AY i && inside AZ i
             then at_ src (brow (rows src) (rows dst) v)
                    (bix (shp src) region
                       (mkix (cx i - ex_start (ex AX)) (cy i - ex_start (ex AY))
                             (cz i - ex_start (ex AZ))))
             else at_ dst v i))
  else Err ValueError.

(** reduction over all cells, separately for each row, keepdims=True *)
Definition reduce_rows {A} (op : A -> A -> A) (u : arr A) : res (arr A) :=
  match ix_list (shp u) with
  | [] => Err ValueError
  | i :: l =>
      Ok (mkarr (rows u) (mkix 1 1 1)
            (fun v _ => fold_left (fun acc j => op acc (at_ u v j)) l (at_ u v i)))
  end.

(** slices that are written literally in the source *)
Definition s_tail : pyslice := mkslice (Some 1) None None.          (* 1:  *)
Definition s_init : pyslice := mkslice None (Some (-1)) None.       (* :-1 *)
Definition s_in (k : Z) : pyslice := mkslice (Some k) (Some (- k)) None.  (* k:-k *)
