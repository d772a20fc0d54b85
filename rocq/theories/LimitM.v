(** Model of /repo/fvhoe/slope_limiting.py (NumPy back end). *)
From Coq Require Import ZArith List Bool.
From Verif Require Import Err Num PySlice NdArray HydroM FvM SedM.
Import ListNotations.
Open Scope Z_scope.

Inductive limiter := L_minmod | L_moncen | L_none | L_unknown.
Inductive nad_mode := M_global | M_local | M_unknown.
Inductive nad_range := R_relative | R_absolute | R_unknown.

Definition mem_axis (a : axis) (l : list axis) : bool := existsb (axis_eqb a) l.

Section Limit.
Context (N : Num).
Local Notation K := (car N).
Local Open Scope num_scope.

Definition tiny : K := #1 / nofZ (10 ^ 16)%Z.   (* 1e-16 *)

(** minmod, slope_limiting.py:56-70 *)
Definition minmod (dl dr : K) : K :=
  let ratio := dr / (if dl >? #0 then (if dl >? tiny then dl else tiny)
                     else (if dl <? nopp tiny then dl else nopp tiny)) in
  let ratio := if ratio <? #1 then ratio else #1 in
  (if ratio >? #0 then ratio else #0) * dl.

(** moncen, slope_limiting.py:73-84 *)
Definition moncen (dl dr : K) : K :=
  let dc := nhalf * (dl + dr) in
  let slope := nmin (nabs (#2 * dl)) (nabs (#2 * dr)) in
  let slope := nsign dc * nmin slope (nabs dc) in
  if dl * dr >=? #0 then slope else #0.

Definition limited_slope (l : limiter) : res (K -> K -> K) :=
  match l with
  | L_minmod => Ok minmod
  | L_moncen => Ok moncen
  | L_none => Ok (fun dl dr => nhalf * (dl + dr))
  | L_unknown => Err ValueError
  end.

(** MUSCL_interpolations, slope_limiting.py:24-53 *)
Definition MUSCL_interpolations (a : axis) (l : limiter) (u : arr K)
  : res (arr K * arr K) :=
  do du_left <- amap2 nsub (view a y1 u) (view a y0 u);
  do du_right <- amap2 nsub (view a y2 u) (view a y1 u);
  do slope <- limited_slope l;
  do slopes <- amap2 slope du_left du_right;
  do lface <- amap2 (fun x s => x - nhalf * s) (view a y1 u) slopes;
  do rface <- amap2 (fun x s => x + nhalf * s) (view a y1 u) slopes;
  Ok (lface, rface).

(** ** detect_troubled_cells, slope_limiting.py:87-244 *)

(** footprint of scipy's maximum_filter/minimum_filter: 3 wide along [dims] *)
Definition offsets (dims : list axis) : list ix :=
  let r a := if mem_axis a dims then [-1; 0; 1]%Z else [0%Z] in
  flat_map (fun x => flat_map (fun y => map (fun z => mkix x y z) (r AZ)) (r AY)) (r AX).

(** scipy.ndimage.maximum_filter(u, footprint, mode="constant", cval=0): maximum over the
    footprint, 0 being read outside the array. With [op := nmin], minimum_filter. *)
Definition read_const (u : arr K) (v : Z) (i : ix) : K :=
  if ((0 <=? cx i) && (cx i <? cx (shp u)) && (0 <=? cy i) && (cy i <? cy (shp u))
      && (0 <=? cz i) && (cz i <? cz (shp u)))%Z%bool then at_ u v i else #0.
Definition shift_ix (i o : ix) : ix := mkix (cx i + cx o) (cy i + cy o) (cz i + cz o).
Definition rank_filter (op : K -> K -> K) (dims : list axis) (u : arr K) : arr K :=
  mkarr (rows u) (shp u)
    (fun v i =>
       match offsets dims with
       | [] => #0
       | o :: os => fold_left (fun acc o' => op acc (read_const u v (shift_ix i o'))) os
                              (read_const u v (shift_ix i o))
       end).

(** interior_slice, slope_limiting.py:126-138 *)
Definition interior {A} (dims : list axis) (u : arr A) : arr A :=
  view3 (fun a => if mem_axis a dims then s_in 3 else slice_all) u.

Record nad_params := mknad {
  nad_eps : K; nad_mode_ : nad_mode; nad_range_ : nad_range;
  nad_vars : option (list Z);  (* rows of the names in NAD_vars; None = all *)
  (* PAD_bounds in dict order: row, lower bound, upper bound; None = infinite bound.
     np.inf never constrains: x - (-inf) and inf - x are +inf for every non-NaN x *)
  pad_bounds : option (list (Z * (option K * option K)));
  sed_on : bool; sed_eps : K
}.

Record detection := mkdet { d_trouble : arr bool; d_nad : arr K; d_pad : arr K }.

(** indicator and flag per variable, slope_limiting.py:165-197 *)
Definition nad_indicator (q : nad_params) (dims : list axis) (u uc : arr K)
  : res (arr K * arr bool) :=
  let uci := interior dims uc in
  let M := interior dims (rank_filter nmax dims u) in
  let m := interior dims (rank_filter nmin dims u) in
  match nad_range_ q with
  | R_relative =>
      do range <- match nad_mode_ q with
                  | M_global =>
                      do mx <- reduce_rows nmax u;
                      do mn <- reduce_rows nmin u;
                      amap2 nsub mx mn
                  | M_local => amap2 nsub M m
                  | M_unknown => Err ValueError
                  end;
      do under <- amap2 nsub uci m;
      do over <- amap2 nsub M uci;
      do ind <- amap2 nmin under over;
      do flag <- amap2 (fun i r => i <? nopp (nad_eps q) * r) ind range;
      Ok (ind, flag)
  | R_absolute =>
      do lu <- match nad_mode_ q with
               | M_global =>
                   do mx <- reduce_rows nmax u;
                   do mn <- reduce_rows nmin u;
                   Ok (amap (fun x => (#1 - nad_eps q) * x) mn,
                       amap (fun x => (#1 + nad_eps q) * x) mx)
               | M_local => Ok (amap (fun x => (#1 - nad_eps q) * x) m,
                                amap (fun x => (#1 + nad_eps q) * x) M)
               | M_unknown => Err ValueError
               end;
      do a <- amap2 nsub uci (fst lu);
      do b <- amap2 nsub (snd lu) uci;
      do ind <- amap2 nmin a b;
      Ok (ind, amap (fun i => i <? #0) ind)
  | R_unknown => Err ValueError
  end.

Definition memZ (x : Z) (l : list Z) : bool := existsb (Z.eqb x) l.

(** PAD loop body, slope_limiting.py:231-237: the indicator of the current variable
    replaces whatever the previous variable left there. None stands for +inf. *)
Definition pad_one (lo up : option K) (x : K) : option K :=
  let lower := match lo with None => None | Some l => Some (x - l) end in
  let upper := match up with None => None | Some h => Some (h - x) end in
  match lower, upper with
  | None, b => b
  | a, None => a
  | Some a, Some b => Some (nmin a b)
  end.
Definition pad_indicator (bounds : option (list (Z * (option K * option K)))) (c : Z -> K)
  : option K :=
  match bounds with
  | None => Some #0
  | Some l =>
      fold_left (fun (acc : option K) e => pad_one (fst (snd e)) (snd (snd e)) (c (fst e)))
                l (Some #0)
  end.
Definition pad_flag (x : option K) : bool :=
  match x with None => false | Some v => v <? #0 end.
Definition pad_mag (x : option K) : K :=
  match x with None => #0 | Some v => if v <? #0 then nopp v else #0 end.

Definition detect_troubled_cells (q : nad_params) (dims : list axis) (u uc : arr K)
  : res detection :=
  do nf <- nad_indicator q dims u uc;
  let '(ind, flag0) := nf in
  do flag1 <- (if sed_on q then
                 do alpha <- sed N dims (sed_eps q) uc;
                 do fl <- amap2 (fun al f => if al <? #1 then f else false) alpha flag0;
                 assign_all flag0 fl
               else Ok flag0);
  (* NAD_var_filter has shape (5, 1, 1, 1) and must broadcast, slope_limiting.py:217-220 *)
  do flag <- match nad_vars q with
             | None => Ok flag1
             | Some vs =>
                 if ((rows flag1 =? 5) || (rows flag1 =? 1))%Z then
                   Ok (mkarr 5 (shp flag1)
                        (fun v i => if memZ v vs then at_ flag1 (brow (rows flag1) 5 v) i
                                    else false))
                 else Err ValueError
             end;
  let s := shp flag in
  let nad_tr i := existsb (fun v => at_ flag v i) (zrange (rows flag)) in
  let nad_ind i := fold_left (fun acc v => nmin acc (at_ ind v i))
                     (tl (zrange (rows ind))) (at_ ind 0%Z i) in
  let uci := interior dims uc in
  let pad i := pad_indicator (pad_bounds q) (fun v => at_ uci v i) in
  Ok (mkdet (mkarr 1 s (fun _ i => if pad_flag (pad i) then true else nad_tr i))
            (mkarr 1 s (fun _ i => if nad_tr i then nopp (nad_ind i) else #0))
            (mkarr 1 s (fun _ i => pad_mag (pad i)))).

(** ** broadcast_to_troubled_interfaces, slope_limiting.py:247-384 *)
Definition b2k (b : bool) : K := if b then #1 else #0.

Definition zeros (s : ix) : arr K := mkarr 1 s (fun _ _ => #0).
Definition face_shape (a : axis) (s : ix) : ix := setc a (getc a s + 1) s.

(** simple broadcast along one axis, slope_limiting.py:366-380 *)
Definition simple_broadcast (a : axis) (tr : arr K) : res (arr K) :=
  let z := zeros (face_shape a (shp tr)) in
  do t1 <- assign_slice a s_tail z tr;
  do m <- amap2 nmax (view a s_init t1) tr;
  assign_slice a s_init t1 m.

(** theta[dst] = np.maximum(f(src), theta[dst]) for 1-D slices along axis a *)
Definition max_into (a : axis) (d : pyslice) (src theta : arr K) : res (arr K) :=
  do m <- amap2 nmax src (view a d theta); assign_slice a d theta m.

(** convex_1d_broadcast_to_troubled_interfaces, slope_limiting.py:387-407, on an array with
    all cells along axis a *)
Definition q75 : K := #3 / #4.
Definition q25 : K := #1 / #4.
Definition convex_1d (a : axis) (tr : arr K) : res (arr K) :=
  do t1 <- max_into a s_init (amap (fun x => q75 * x) (view a s_tail tr)) tr;
  do t2 <- max_into a s_tail (amap (fun x => q75 * x) (view a s_init tr)) t1;
  do t3 <- max_into a s_init (amap (fun x => q25 * b2k (x >? #0)) (view a s_tail t2)) t2;
  do t4 <- max_into a s_tail (amap (fun x => q25 * b2k (x >? #0)) (view a s_init t3)) t3;
  amap2 nmax (view a (mkslice (Some 1%Z) (Some (-2)%Z) None) t4)
             (view a (mkslice (Some 2%Z) (Some (-1)%Z) None) t4).

(** slices along two axes a (first) and b (second) *)
Definition sl2 (a b : axis) (sa sb : pyslice) (c : axis) : pyslice :=
  if axis_eqb c a then sa else if axis_eqb c b then sb else slice_all.
Definition max_into3 (d : axis -> pyslice) (src theta : arr K) : res (arr K) :=
  do m <- amap2 nmax src (view3 d theta); assign3 d theta m.

(** convex_2d_broadcast_to_troubled_interfaces, slope_limiting.py:410-442 *)
Definition convex_2d (a b : axis) (tr : arr K) : res (arr K * arr K) :=
  let S := sl2 a b in
  let all := slice_all in
  let near c d s t := max_into3 d (amap (fun x => c * x) (view3 s tr)) t in
  let third d s t := max_into3 d (amap (fun x => q25 * b2k (x >? #0)) (view3 s t)) t in
  do t <- near q75 (S all s_init) (S all s_tail) tr;
  do t <- near q75 (S all s_tail) (S all s_init) t;
  do t <- near q75 (S s_init all) (S s_tail all) t;
  do t <- near q75 (S s_tail all) (S s_init all) t;
  do t <- near nhalf (S s_init s_init) (S s_tail s_tail) t;
  do t <- near nhalf (S s_init s_tail) (S s_tail s_init) t;
  do t <- near nhalf (S s_tail s_init) (S s_init s_tail) t;
  do t <- near nhalf (S s_tail s_tail) (S s_init s_init) t;
  do t <- third (S all s_init) (S all s_tail) t;
  do t <- third (S all s_tail) (S all s_init) t;
  do t <- third (S s_init all) (S s_tail all) t;
  do t <- third (S s_tail all) (S s_init all) t;
  let s21 := mkslice (Some 2%Z) (Some (-1)%Z) None in
  let s12 := mkslice (Some 1%Z) (Some (-2)%Z) None in
  let s22 := s_in 2 in
  do fx <- amap2 nmax (view3 (S s21 s22) t) (view3 (S s12 s22) t);
  do fy <- amap2 nmax (view3 (S s22 s21) t) (view3 (S s22 s12) t);
  Ok (fx, fy).

(** allocation and periodic fill, slope_limiting.py:281-305 *)
Definition alloc_trouble (dims : list axis) (per : axis -> bool) (tr : arr K)
  : res (arr K) :=
  let s := shp tr in
  let d a := mem_axis a dims in
  let n a := if d a then (getc a s + 4)%Z else 1%Z in
  let z := zeros (mkix (n AX) (n AY) (n AZ)) in
  let lo := mkslice None (Some 2%Z) None in      (* :2  *)
  let hi := mkslice (Some (-2)%Z) None None in   (* -2: *)
  let mid := s_in 2 in
  let reg a sa := fun c => if axis_eqb c a then sa else mid in
  let only a sa := fun c => if axis_eqb c a then sa else slice_all in
  do t <- assign3 (fun a => if d a then mid else slice_all) z tr;
  do t <- (if per AX && d AX then
             do t1 <- assign3 (reg AX lo) t (view3 (only AX hi) tr);
             assign3 (reg AX hi) t1 (view3 (only AX lo) tr)
           else Ok t);
  do t <- (if per AY && d AY then
             do t1 <- assign3 (reg AY lo) t (view3 (only AY hi) tr);
             assign3 (reg AY hi) t1 (view3 (only AY lo) tr)
           else Ok t);
  (if per AZ && d AZ then
     (* here the right-hand sides are also cut to 2:-2 in x and y, lines 303-305 *)
     do t1 <- assign3 (reg AZ lo) t (view3 (reg AZ hi) tr);
     assign3 (reg AZ hi) t1 (view3 (reg AZ lo) tr)
   else Ok t).

(** The three interface arrays. [dims] lists distinct axes in x, y, z order, as
    EulerSolver builds it (solver.py:247-253). *)
Definition faces := (axis -> arr K).
Definition set_face (f : faces) (a : axis) (x : arr K) : faces :=
  fun c => if axis_eqb c a then x else f c.
Definition broadcast_to_troubled_interfaces (trouble : arr bool) (dims : list axis)
  (convex : bool) (per : axis -> bool) : res faces :=
  let tr := amap b2k trouble in
  let s := shp tr in
  let z := fun a => zeros (face_shape a s) in
  if convex then
    do alloc <- alloc_trouble dims per tr;
    match dims with
    | [a] =>
        do c <- convex_1d a alloc;
        do f <- assign_all (z a) c;
        Ok (set_face z a f)
    | [a; b] =>
        do cc <- convex_2d a b alloc;
        do f <- assign_all (z a) (fst cc);
        do g <- assign_all (z b) (snd cc);
        Ok (set_face (set_face z a f) b g)
    | [_; _; _] => Err NotImplementedError
    | _ => Ok z
    end
  else
    let step acc a := do f <- acc; do x <- simple_broadcast a tr; Ok (set_face f a x) in
    fold_left step (filter (fun a => mem_axis a dims) [AX; AY; AZ]) (Ok z).
End Limit.
Arguments mknad {N}. Arguments nad_eps {N}. Arguments nad_mode_ {N}. Arguments nad_range_ {N}.
Arguments nad_vars {N}. Arguments pad_bounds {N}. Arguments sed_on {N}. Arguments sed_eps {N}.
Arguments mkdet {N}. Arguments d_trouble {N}. Arguments d_nad {N}. Arguments d_pad {N}.
