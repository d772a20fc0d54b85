(** Vocabulary for the statements about the plots and the radial averages. *)
From Coq Require Import ZArith List Bool Reals String.
From Verif Require Import Err Num PySlice NdArray HydroStateM FvM OdeM SolverM SpecSolver VizM.
Import ListNotations.
Open Scope Z_scope.

(** entry k of a list *)
Definition entry_of (l : list R) (k : Z) : R := nth (Z.to_nat k) l 0%R.
(** k is the first of the places where the list comes closest to x *)
Definition closest (l : list R) (x : R) (k : Z) : Prop :=
  0 <= k < Z.of_nat (List.length l) /\
  forall j, 0 <= j < Z.of_nat (List.length l) ->
    (Rabs (entry_of l k - x) <= Rabs (entry_of l j - x))%R /\
    (j < k -> (Rabs (entry_of l k - x) < Rabs (entry_of l j - x))%R).
(** no coordinate: the whole axis; otherwise the closest cell *)
Definition chosen (l : list R) (x : option R) (i : sel) : Prop :=
  match x with None => i = S_all | Some x => exists k, i = S_at k /\ closest l x k end.
(** no time: the last snapshot; otherwise the one closest in time *)
Definition picks (l : list (snap RNum)) (t : option R) (n : Z) (s : snap RNum) : Prop :=
  match t with
  | None => n = -1 /\ exists front, l = front ++ [s]
  | Some t => closest (map sn_t l) t n /\ nth_error l (Z.to_nat n) = Some s
  end.
Definition has_cells (s : snap RNum) : Prop := sn_x s <> [] /\ sn_y s <> [] /\ sn_z s <> [].

(** what a summary says of an axis: both ends, or the coordinate of the closest cell *)
Definition names (show : R -> string) (l : list R) (x : option R) (text : string) : Prop :=
  match x with
  | None => text = ("[" ++ show (entry_of l 0) ++ ", " ++ show (entry_of l (Z.of_nat (List.length l) - 1)) ++ "]")%string
  | Some x => exists k, closest l x k /\ text = show (entry_of l k)
  end.

(** ** radial averages *)
Definition grid_of (s : snap RNum) : ix :=
  mkix (Z.of_nat (List.length (sn_x s))) (Z.of_nat (List.length (sn_y s))) (Z.of_nat (List.length (sn_z s))).
Definition radius (s : snap RNum) (c : R * R * R) (i : ix) : R :=
  sqrt ((entry_of (sn_x s) (cx i) - fst (fst c)) ^ 2 + (entry_of (sn_y s) (cy i) - snd (fst c)) ^ 2
        + (entry_of (sn_z s) (cz i) - snd c) ^ 2).
(** the cells of a snapshot in the ring lo < radius <= hi *)
Definition in_ring (s : snap RNum) (c : R * R * R) (lo hi : R) (i : ix) : Prop :=
  in_shape (grid_of s) i /\ (lo < radius s c i <= hi)%R.
Definition ring (s : snap RNum) (c : R * R * R) (lo hi : R) : list ix :=
  filter (fun i => if Rlt_dec lo (radius s c i) then if Rle_dec (radius s c i) hi then true else false else false)
         (ix_list (grid_of s)).
Definition sum_over (f : ix -> R) (l : list ix) : R := fold_right Rplus 0%R (map f l).
(** the mean over a list of cells, NaN if there are none *)
Definition mean (f : ix -> R) (l : list ix) : option R :=
  match l with [] => None | _ => Some (sum_over f l / INR (List.length l))%R end.
Definition edges (radii : list R) : list (R * R) := combine radii (tl radii).

(** f is the quantity called [param]: the speed, or one of the variables *)
Definition quantity (h : hstate) (param : string) (w : arr R) (f : ix -> R) : Prop :=
  (param = "v"%string /\ 4 <= rows w /\
   forall i, f i = sqrt (at_ w 1 i ^ 2 + at_ w 2 i ^ 2 + at_ w 3 i ^ 2)) \/
  (param <> "v"%string /\ exists k, dget param (hs_map h) = Some (R_one k) /\ 0 <= k < rows w /\
   forall i, f i = at_ w k i).
(** the arrays of a snapshot fit together *)
Definition fits (s : snap RNum) : Prop := shp (sn_w s) = grid_of s.

(** conversion to an integer *)
Definition toward_zero (x : R) : R := (if Rlt_dec x 0 then - IZR (Int_part (- x)) else IZR (Int_part x))%R.
(** the interfaces are in order *)
Fixpoint rising (radii : list R) : Prop :=
  match radii with lo :: (hi :: _) as rest => (lo <= hi)%R /\ rising rest | _ => True end.
Definition number_of (l : list ix) : R := INR (List.length l).

(** ** plots *)
Definition coords (s : snap RNum) (a : axis) : list R :=
  match a with AX => sn_x s | AY => sn_y s | AZ => sn_z s end.
Definition others (d : axis) : list axis := match d with AX => [AY; AZ] | AY => [AX; AZ] | AZ => [AX; AY] end.
(** the axes of a picture with the coordinate along e fixed: to the right and upwards *)
Definition plane (e : axis) : axis * axis := match e with AX => (AY, AZ) | AY => (AX, AZ) | AZ => (AX, AY) end.
Definition ends (l : list R) : R * R := (entry_of l 0, entry_of l (Z.of_nat (List.length l) - 1)).
(** the picture shows [f] along the plane through i across e: row r (counted from the top) and
    column c belong to the cell whose coordinates X and Y hold there *)
Definition shows (s : snap RNum) (f : ix -> R) (e : axis) (i : ix) (im : image RNum) : Prop :=
  let (h, v) := plane e in
  let m := Z.of_nat (List.length (coords s v)) in
  let n := Z.of_nat (List.length (coords s h)) in
  im_axes im = (h, v) /\ nshape (im_X im) = [m; n] /\ nshape (im_Y im) = [m; n] /\ nshape (im_Z im) = [m; n] /\
  im_extent im = (ends (coords s h), ends (coords s v)) /\
  forall r c, 0 <= r < m -> 0 <= c < n ->
    let j := setc v (m - 1 - r) (setc h c i) in
    nval (im_X im) [r; c] = entry_of (coords s h) (getc h j) /\
    nval (im_Y im) [r; c] = entry_of (coords s v) (getc v j) /\
    nval (im_Z im) [r; c] = Some (f j).
(** the cell i is the closest one to the point along the axes of [fixed] *)
Definition aims (s : snap RNum) (at_point : axis -> option R) (fixed : list axis) (i : ix) : Prop :=
  forall a, In a fixed -> exists x, at_point a = Some x /\ closest (coords s a) x (getc a i).
(** the trouble log of the snapshot, as EulerSolver allocates it *)
Definition logged_by_solver {N} (s : snap N) (n : ix) : Prop :=
  exists a b d, sn_log s = Some (a, b, d) /\
    forall x, In x [a; b; d] -> rows x = 5 /\ shp x = n.
(** the snapshot that a run with limiting stores *)
Definition stored {N} (c : config N) (e : car N * (arr (car N) * (arr (car N) * arr (car N) * arr (car N)))) : snap N :=
  let line a := map (midpoint N (c_bounds c a) (getc a (c_n c))) (zrange (getc a (c_n c))) in
  mksnap (fst e) (line AX) (line AY) (line AZ) (fst (snd e)) (Some (snd (snd e))).

(** how many coordinates are given *)
Definition given {A} (o : option A) : nat := match o with None => 0 | Some _ => 1 end.
(** a picture of m rows and n columns filling the extent: the middle of column c and of
    row r (counted from the top) *)
Definition column_middle (extent : R * R) (n c : Z) : R :=
  (fst extent + (IZR c + 1 / 2) * ((snd extent - fst extent) / IZR n))%R.
Definition row_middle (extent : R * R) (m r : Z) : R :=
  (snd extent - (IZR r + 1 / 2) * ((snd extent - fst extent) / IZR m))%R.

(** what plotting_trouble is to show *)
Definition visible (trouble_mode : string) (tol nad pad : R) : Prop :=
  if String.eqb trouble_mode "all" then (0 < pad \/ tol < nad)%R
  else if String.eqb trouble_mode "NAD" then (tol < nad)%R else (0 < pad)%R.
(** an index inside an array of that shape *)
Definition inside (sh k : list Z) : Prop := Forall2 (fun n x => 0 <= x < n) sh k.
(** the values of overlay_trouble that ask for no overlay *)
Definition overlay_off (m : mode) : Prop := m = M_none \/ m = M_bool false \/ m = M_name "".
