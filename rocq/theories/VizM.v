(** Model of /repo/fvhoe/visualization.py (lookup of snapshots, the data handed to
    matplotlib, radial averages) and of EulerSolver.plot_fields, solver.py:976-1001.
    What matplotlib does with the data is not modelled. *)
From Coq Require Import ZArith List Bool String.
From Verif Require Import Err PySlice NdArray Num HydroStateM.
Import ListNotations.
Open Scope Z_scope.

(** ** Arrays with any number of axes *)
Record nd (A : Type) := mknd { nshape : list Z; nval : list Z -> A }.
Arguments mknd {A}. Arguments nshape {A}. Arguments nval {A}.

(** an integer or slice(None) at one place of an index *)
Inductive sel := S_at (k : Z) | S_all.

(** [l[n]] on a Python list (negative numbers count from the end) *)
Definition py_item {A} (l : list A) (n : Z) : res A :=
  let m := Z.of_nat (List.length l) in
  let j := if n <? 0 then n + m else n in
  if j <? 0 then Err IndexError
  else match nth_error l (Z.to_nat j) with Some x => Ok x | None => Err IndexError end.

(** [u[s]] for a tuple s: entries belong to the leading axes, integers drop theirs *)
Fixpoint sel_shape (s : list sel) (sh : list Z) : res (list Z) :=
  match s, sh with
  | [], _ => Ok sh
  | _ :: _, [] => Err IndexError
  | S_all :: s', n :: sh' => do r <- sel_shape s' sh'; Ok (n :: r)
  | S_at k :: s', n :: sh' => do _ <- py_row n k; sel_shape s' sh'
  end.
Fixpoint sel_index (s : list sel) (sh i : list Z) : list Z :=
  match s, sh, i with
  | S_all :: s', _ :: sh', x :: i' => x :: sel_index s' sh' i'
  | S_at k :: s', n :: sh', _ => (if k <? 0 then k + n else k) :: sel_index s' sh' i
  | _, _, _ => i
  end.
Definition nd_get {A} (s : list sel) (u : nd A) : res (nd A) :=
  do sh <- sel_shape s (nshape u);
  Ok (mknd sh (fun i => nval u (sel_index s (nshape u) i))).

(** np.rot90(u, 1) *)
Definition rot90 {A} (u : nd A) : res (nd A) :=
  match nshape u with
  | a :: b :: sh =>
      Ok (mknd (b :: a :: sh)
            (fun i => match i with
                      | r :: c :: l => nval u (c :: b - 1 - r :: l)
                      | _ => nval u i
                      end))
  | _ => Err ValueError
  end.

(** broadcasting: the shapes are compared from the last axis on (here: reversed lists) *)
Fixpoint bshape_r (a b : list Z) : option (list Z) :=
  match a, b with
  | [], _ => Some b
  | _, [] => Some a
  | m :: a', n :: b' =>
      match bdim m n, bshape_r a' b' with Some k, Some l => Some (k :: l) | _, _ => None end
  end.
Fixpoint bix_r (s t i : list Z) : list Z :=
  match s, t, i with
  | m :: s', n :: t', x :: i' => (if m =? n then x else 0) :: bix_r s' t' i'
  | _, _, _ => []
  end.
Definition nd_map2 {A B C} (f : A -> B -> C) (u : nd A) (v : nd B) : res (nd C) :=
  match bshape_r (rev (nshape u)) (rev (nshape v)) with
  | None => Err ValueError
  | Some r =>
      Ok (mknd (rev r)
            (fun i => f (nval u (rev (bix_r (rev (nshape u)) r (rev i))))
                        (nval v (rev (bix_r (rev (nshape v)) r (rev i))))))
  end.
Definition nd_map {A B} (f : A -> B) (u : nd A) : nd B :=
  mknd (nshape u) (fun i => f (nval u i)).

(** all indices of a shape, last axis fastest *)
Fixpoint nd_list (sh : list Z) : list (list Z) :=
  match sh with
  | [] => [[]]
  | n :: sh' => flat_map (fun k => map (cons k) (nd_list sh')) (zrange n)
  end.

(** the four- and three-dimensional arrays of the solver *)
Definition ix_of (l : list Z) : ix :=
  match l with [x; y; z] => mkix x y z | _ => mkix 0 0 0 end.
Definition nd4 {A} (u : arr A) : nd A :=
  mknd [rows u; cx (shp u); cy (shp u); cz (shp u)]
       (fun i => match i with v :: l => at_ u v (ix_of l) | [] => at_ u 0 (ix_of []) end).
Definition nd3 {A} (u : arr A) : nd A :=
  mknd [cx (shp u); cy (shp u); cz (shp u)] (fun l => at_ u 0 (ix_of l)).

Section Viz.
Variable N : Num.
Notation K := (car N).
Local Open Scope num_scope.

(** one entry of solver.snapshots, solver.py:857-870: the trouble log is there only for runs
    with a-posteriori limiting *)
Record snap := mksnap {
  sn_t : K; sn_x : list K; sn_y : list K; sn_z : list K;
  sn_w : arr K;
  sn_log : option (arr K * arr K * arr K)
}.

(** the argument [solver]: a list, or an object with its attributes (if any) *)
Inductive source :=
| V_list (l : list snap)
| V_object (state : option hstate) (snapshots : option (list snap)).

(** get_snapshot_list, visualization.py:11-24 *)
Definition get_snapshot_list (s : source) : res (list snap) :=
  match s with
  | V_list l => Ok l
  | V_object _ (Some l) => Ok l
  | V_object _ None => Err ValueError
  end.
(** solver.hydro_state; lists have no such attribute *)
Definition state_of (s : source) : res hstate :=
  match s with V_object (Some h) _ => Ok h | _ => Err AttributeError end.

(** np.argmin: the first of the smallest entries; NaN counts as smallest *)
Definition is_nan (x : K) : bool := negb (neqb x x).
Fixpoint argmin_from (best : K) (at_best here : Z) (l : list K) : Z :=
  match l with
  | [] => at_best
  | x :: l' =>
      if negb (is_nan best) && (is_nan x || (x <? best)) then argmin_from x here (here + 1)%Z l'
      else argmin_from best at_best (here + 1)%Z l'
  end.
Definition argmin (l : list K) : res Z :=
  match l with [] => Err ValueError | x :: l' => Ok (argmin_from x 0%Z 1%Z l') end.
Definition nearest (l : list K) (x : K) : res Z := argmin (map (fun y => nabs (y - x)) l).

(** get_indices_from_coordinates, visualization.py:27-66 *)
Definition axis_index (l : list snap) (n : Z) (coord : snap -> list K) (x : option K) : res sel :=
  match x with
  | None => Ok S_all
  | Some x => do s <- py_item l n; do k <- nearest (coord s) x; Ok (S_at k)
  end.
Definition get_indices (l : list snap) (t x y z : option K) : res (Z * list sel) :=
  do n <- match t with None => Ok (-1)%Z | Some t => nearest (map sn_t l) t end;
  do i <- axis_index l n sn_x x;
  do j <- axis_index l n sn_y y;
  do k <- axis_index l n sn_z z;
  Ok (n, [i; j; k]).

(** xyzt_summary, visualization.py:69-96; [show] is str on floats *)
Definition summary_axis (show : K -> string) (x : list K) (i : sel) : res string :=
  match i with
  | S_at k => do v <- py_item x k; Ok (show v)
  | S_all => do a <- py_item x 0%Z; do b <- py_item x (-1)%Z;
             Ok ("[" ++ show a ++ ", " ++ show b ++ "]")%string
  end.
Definition xyzt_summary (show : K -> string) (l : list snap) (n : Z) (i j k : sel) : res string :=
  do s <- py_item l n;
  do x <- summary_axis show (sn_x s) i;
  do y <- summary_axis show (sn_y s) j;
  do z <- summary_axis show (sn_z s) k;
  Ok ("t=" ++ show (sn_t s) ++ ", x=" ++ x ++ ", y=" ++ y ++ ", z=" ++ z)%string.

(** get_velocity_magnitude, visualization.py:99-109 *)
Definition velocity_magnitude (w : arr K) : res (nd K) :=
  do vx <- select_rows (E_rows (R_one 1)) w;
  do vy <- select_rows (E_rows (R_one 2)) w;
  do vz <- select_rows (E_rows (R_one 3)) w;
  let sq (u : arr K) i := at_ u 0%Z i * at_ u 0%Z i in
  Ok (nd3 (mkarr 1 (shp w) (fun _ i => nsqrt (sq vx i + sq vy i + sq vz i)))).

(** what the arguments trouble_mode and overlay_trouble may be *)
Inductive mode := M_none | M_bool (b : bool) | M_name (s : string).
Definition truthy (m : mode) : bool :=
  match m with M_none => false | M_bool b => b | M_name s => negb (String.eqb s "") end.

(** plotting_trouble, visualization.py:112-136 *)
Definition plotting_trouble (s : snap) (m : mode) (tol : K) : res (nd Z) :=
  match sn_log s with
  | None => Err KeyError
  | Some (trouble, nad, pad) =>
      let tr := nd4 trouble in let na := nd4 nad in let pa := nd4 pad in
      do both <- nd_map2 (fun a b => orb (a >? #0) (b >? #0)) na pa;
      do agree <- nd_map2 (fun x b => Bool.eqb (x >? #0) b) tr both;
      if negb (forallb (nval agree) (nd_list (nshape agree))) then Err ValueError
      else
        match m with
        | M_name s =>
            if String.eqb s "all" then
              nd_map2 (fun p a => if p >? #0 then 1%Z else if a >? tol then 1%Z else 0%Z) pa na
            else if String.eqb s "NAD" then
              Ok (nd_map (fun a => if a >? tol then 1%Z else 0%Z) na)
            else if String.eqb s "PAD" then
              Ok (nd_map (fun p => if p >? #0 then 1%Z else 0%Z) pa)
            else Err ValueError
        | _ => Err ValueError
        end
  end.

(** w[hs(param)]: one variable gives a three-dimensional array *)
Definition field (h : hstate) (param : string) (w : arr K) : res (nd K) :=
  do es <- hs_call h (Q_name param) C_none C_none C_none None C_none None;
  do r <- index4 es w;
  Ok (match es with E_rows (R_one _) :: _ => nd3 r | _ => nd4 r end).
Definition data_of (h : hstate) (param : string) (w : arr K) : res (nd K) :=
  if String.eqb param "v" then velocity_magnitude w else field h param w.

(** plot_1d_slice, visualization.py:139-198: the two arguments of ax.plot *)
Definition plot_1d_slice (src : source) (param : string) (trouble_mode : mode)
  (t x y z : option K) (tol : K) : res (list K * nd K) :=
  do h <- state_of src;
  do l <- get_snapshot_list src;
  do ns <- get_indices l t x y z;
  do s <- py_item l (fst ns);
  do xs <- match x, y, z with
           | None, _, _ => Ok (sn_x s)
           | _, None, _ => Ok (sn_y s)
           | _, _, None => Ok (sn_z s)
           | _, _, _ => Err BaseException
           end;
  do data <- (if String.eqb param "trouble" then
                do tr <- plotting_trouble s trouble_mode tol; Ok (nd_map (fun k => nofZ k) tr)
              else data_of h param (sn_w s));
  do ys <- nd_get (snd ns) data;
  Ok (xs, ys).

(** plot_2d_slice, visualization.py:201-318: coordinates, data (None is np.nan) and the
    argument extent of ax.imshow. Colours, norms and contour levels are not modelled. *)
Record image := mkimage {
  im_axes : axis * axis;
  im_X : nd K; im_Y : nd K; im_Z : nd (option K);
  im_extent : (K * K) * (K * K)
}.
(** np.meshgrid(x, y, indexing="ij") *)
Definition mesh2 (x y : list K) (first : bool) : nd K :=
  mknd [Z.of_nat (List.length x); Z.of_nat (List.length y)]
    (fun i => match i with
              | [a; b] => if first then nth (Z.to_nat a) x #0 else nth (Z.to_nat b) y #0
              | _ => #0
              end).
Definition plot_2d_slice (src : source) (param : string) (t x y z : option K) (overlay : mode)
  (tol : K) : res image :=
  do h <- state_of src;
  do l <- get_snapshot_list src;
  do ns <- get_indices l t x y z;
  do s <- py_item l (fst ns);
  do hv <- match x, y, z with
           | None, None, _ => Ok ((AX, AY), (sn_x s, sn_y s))
           | _, None, None => Ok ((AY, AZ), (sn_y s, sn_z s))
           | None, _, None => Ok ((AX, AZ), (sn_x s, sn_z s))
           | _, _, _ => Err BaseException
           end;
  let '(ax, (hs, vs)) := hv in
  do h0 <- py_item hs 0%Z; do h1 <- py_item hs (-1)%Z;
  do v0 <- py_item vs 0%Z; do v1 <- py_item vs (-1)%Z;
  do tr <- (if truthy overlay then
              do tr <- plotting_trouble s overlay tol;
              do c <- nd_get (snd ns) tr; Ok (Some c)
            else Ok None);
  let log f := match sn_log s with None => Err KeyError | Some q => Ok (nd4 (f q)) end in
  do data <- (if String.eqb param "trouble" then log (fun q => fst (fst q))
              else if String.eqb param "NAD" then log (fun q => snd (fst q))
              else if String.eqb param "PAD" then log (fun q => snd q)
              else data_of h param (sn_w s));
  do zs <- nd_get (snd ns) data;
  do X <- rot90 (mesh2 hs vs true);
  do Y <- rot90 (mesh2 hs vs false);
  do Z <- rot90 zs;
  do Z' <- match tr with
           | None => Ok (nd_map Some Z)
           | Some tr =>
               do tr <- rot90 tr;
               nd_map2 (fun k v => if (0 <? k)%Z then None else Some v) tr Z
           end;
  Ok (mkimage ax X Y Z' ((h0, h1), (v0, v1))).

(** sample_circular_average, visualization.py:321-363. The result arrays have the type of
    the entries of radii: [None] for floats; integers cut off the averages with [trunc] and
    refuse NaN. NaN of the result is None. np.sum adds in another order than the fold. *)
Definition nsum (u : nd K) : K :=
  fold_left (fun acc i => acc + nval u i) (nd_list (nshape u)) #0.
Definition distances (s : snap) (c : K * K * K) : nd K :=
  let '(a, b, d) := c in
  let sq (q : K) := q * q in
  let co (l : list K) (k : Z) := nth (Z.to_nat k) l #0 in
  mknd [Z.of_nat (List.length (sn_x s)); Z.of_nat (List.length (sn_y s));
        Z.of_nat (List.length (sn_z s))]
    (fun i => match i with
              | [p; q; r] => nsqrt (sq (co (sn_x s) p - a) + sq (co (sn_y s) q - b)
                                    + sq (co (sn_z s) r - d))
              | _ => #0
              end).
Definition in_bin (lo hi : K) (r : K) : bool := (r >? lo) && (r <=? hi).
Definition store (trunc : option (K -> K)) (v : option K) : res (option K) :=
  match trunc, v with
  | None, _ => Ok v
  | Some f, Some x => Ok (Some (f x))
  | Some _, None => Err ValueError
  end.
Definition one_bin (trunc : option (K -> K)) (R data : nd K) (lo hi : K)
  : res (option K * option K) :=
  let inside := nd_map (in_bin lo hi) R in
  let sample_n := fold_left (fun acc i => if nval inside i then (acc + 1)%Z else acc)
                    (nd_list (nshape inside)) 0%Z in
  let r_sum := nsum (mknd (nshape R) (fun i => if nval inside i then nval R i else #0)) in
  do picked <- nd_map2 (fun (b : bool) v => if b then v else #0) inside data;
  let bin_sum := nsum picked in
  let avg s := if (0 <? sample_n)%Z then Some (s / nofZ sample_n) else None in
  do r <- store trunc (avg r_sum);
  do b <- store trunc (avg bin_sum);
  Ok (b, r).
Fixpoint all_bins (trunc : option (K -> K)) (R data : nd K) (radii : list K)
  : res (list (option K * option K)) :=
  match radii with
  | lo :: (hi :: _) as rest =>
      do b <- one_bin trunc R data lo hi;
      do bs <- all_bins trunc R data rest;
      Ok (b :: bs)
  | _ => Ok []
  end.
Definition sample_circular_average (trunc : option (K -> K)) (src : source) (param : string)
  (t : option K) (center : option (K * K * K)) (radii : option (list K))
  : res (list (option K) * list (option K)) :=
  do h <- state_of src;
  do l <- get_snapshot_list src;
  do ns <- get_indices l t None None None;
  do s <- py_item l (fst ns);
  match center with
  | None => Err TypeError                        (* center[0] *)
  | Some c =>
      let R := distances s c in
      do data <- data_of h param (sn_w s);
      match radii with
      | None => Err TypeError                    (* radii[:-1] *)
      | Some rs =>
          do bs <- all_bins trunc R data rs;
          Ok (map fst bs, map snd bs)
      end
  end.
End Viz.
Arguments mksnap {N}. Arguments sn_t {N}. Arguments sn_x {N}. Arguments sn_y {N}.
Arguments sn_z {N}. Arguments sn_w {N}. Arguments sn_log {N}.
Arguments V_list {N}. Arguments V_object {N}.
Arguments mkimage {N}. Arguments im_axes {N}. Arguments im_X {N}. Arguments im_Y {N}.
Arguments im_Z {N}. Arguments im_extent {N}.

(** plot_fields, solver.py:976-1001: which variable each panel shows and its label *)
Definition plot_fields (dims : string) : res (list (string * string)) :=
  match String.length dims with
  | 1%nat => Ok [("rho", ""); ("P", ""); ("v" ++ dims, "")]%string
  | 2%nat =>
      let names := ["rho"; "P"; "v"; "vx"; "vy"; "vz"]%string in
      Ok (map (fun ij => let k := (fst ij + snd ij)%nat in
                         (nth k names ""%string, nth k names ""%string))
              [(0, 0); (0, 1); (0, 2); (1, 0); (1, 1); (1, 2)]%nat)
  | _ => Err NotImplementedError
  end.
