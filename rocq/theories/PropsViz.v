(** Theorems on the plots and the radial averages (C53). *)
From Coq Require Import ZArith List Bool String Reals QArith.QArith_base Lia Lra.
From Verif Require Import Err Num PySlice NdArray HydroM HydroStateM RiemannM StencilsM FvM BcM LimitM OdeM SolverM SpecBc SpecSolver SpecCons SpecMesh SpecLog SpecSym VizM SpecViz
  ExistP LimExistP VizP VizQ.
Import ListNotations.
Open Scope Z_scope.

(** C53. get_indices_from_coordinates never fails on a nonempty list of snapshots: without a
    time it returns the last snapshot, otherwise the first of those closest in time; without a
    coordinate the whole axis, otherwise the first of the closest cells of that snapshot. *)
Theorem C53_lookup : forall (l : list (snap RNum)) t x y z, l <> [] -> (forall s, In s l -> has_cells s) ->
  exists n s i j k, get_indices RNum l t x y z = Ok (n, [i; j; k]) /\ picks l t n s /\ py_item l n = Ok s /\
    chosen (sn_x s) x i /\ chosen (sn_y s) y j /\ chosen (sn_z s) z k.
Proof. exact lookup. Qed.
Print Assumptions C53_lookup.

(** The summary made of these indices, for any way of writing numbers: the time of the snapshot
    found, and for each axis the coordinate of the cell found or the first and last coordinate. *)
Theorem C53_summary : forall (show : R -> string) (l : list (snap RNum)) t x y z, l <> [] -> (forall s, In s l -> has_cells s) ->
  exists n s i j k a b c, get_indices RNum l t x y z = Ok (n, [i; j; k]) /\ picks l t n s /\
    names show (sn_x s) x a /\ names show (sn_y s) y b /\ names show (sn_z s) z c /\
    xyzt_summary RNum show l n i j k = Ok ("t=" ++ show (sn_t s) ++ ", x=" ++ a ++ ", y=" ++ b ++ ", z=" ++ c)%string.
Proof. exact summary. Qed.
Print Assumptions C53_summary.
Example C53_summary_case : [dot] <> [] /\ (forall s, In s [dot] -> has_cells s).
Proof. split; [discriminate|]. intros s [<-|[]]. repeat split; discriminate. Qed.

(** On the mesh of the solver the closest cell is one that contains the coordinate. *)
Theorem C53_cell_of_coordinate : forall (lo hi x : R) n k, 1 <= n -> (lo < hi)%R -> (lo <= x <= hi)%R ->
  closest (map (midpoint RNum (lo, hi) n) (zrange n)) x k ->
  (lo + IZR k * ((hi - lo) / IZR n) <= x <= lo + (IZR k + 1) * ((hi - lo) / IZR n))%R.
Proof. exact cell_of_coordinate. Qed.
Print Assumptions C53_cell_of_coordinate.

(** The snapshots of the solver meet the hypotheses of the theorems here. *)
Theorem C53_solver_snapshots : forall (c : config RNum) heap i as_averages T n exact downbeats log fuel u0 o e, tabulated c ->
  simulate c heap i as_averages T n exact downbeats log fuel u0 = Ok o -> In e (o_snaps o) ->
  has_cells (stored c e) /\ fits (stored c e) /\ rows (sn_w (stored c e)) = rows u0.
Proof. exact run_snaps. Qed.
Print Assumptions C53_solver_snapshots.
Example C53_run : exists o e, simulate (with_limiting false false (flow3d B_periodic true)) (fun _ _ _ => 0%R) I_rk4 true None (Some 1) true [] false 0
  (mkarr 6 (mkix 12 13 14) (fun v i => IZR (v + cx i * cy i))) = Ok o /\ o_steps o = 1 /\ In e (o_snaps o) /\ fst e = o_t o.
Proof. exact open_case. Qed.

(** sample_circular_average returns, for every two neighbouring radii, the mean of the quantity
    and the mean radius over the cells in the ring lo < radius <= hi, NaN (None) for rings
    without cells. For one variable or the speed, radii of type float, over the real numbers. *)
Theorem C53_rings : forall h (l : list (snap RNum)) param t (c : R * R * R) (radii : list R) n s f, hs_ndim h = 4 ->
  picks l t n s -> l <> [] -> (forall s, In s l -> has_cells s) -> fits s -> quantity h param (sn_w s) f ->
  sample_circular_average RNum None (V_object (Some h) (Some l)) param t (Some c) (Some radii)
  = Ok (map (fun p => mean f (ring s c (fst p) (snd p))) (edges radii),
        map (fun p => mean (radius s c) (ring s c (fst p) (snd p))) (edges radii)).
Proof. exact rings. Qed.
Print Assumptions C53_rings.
Example C53_rings_case : sample_circular_average RNum None (V_object (Some plain) (Some [dot])) "rho" None (Some origin) (Some [0%R; 2%R])
  = Ok ([Some (1 / 2)%R], [Some 1%R]).
Proof. exact dot_sample. Qed.

(** Each average lies between two of its samples, and each mean radius in its ring. *)
Theorem C53_averages_in_range : forall h (l : list (snap RNum)) param t (c : R * R * R) (radii : list R) n s f (avg rad : list (option R)), hs_ndim h = 4 ->
  picks l t n s -> l <> [] -> (forall s, In s l -> has_cells s) -> fits s -> quantity h param (sn_w s) f ->
  sample_circular_average RNum None (V_object (Some h) (Some l)) param t (Some c) (Some radii) = Ok (avg, rad) ->
  List.length avg = (List.length radii - 1)%nat /\ List.length rad = (List.length radii - 1)%nat /\
  forall k lo hi, nth_error radii k = Some lo -> nth_error radii (S k) = Some hi ->
    ((forall i, ~ in_ring s c lo hi i) -> nth_error avg k = Some None /\ nth_error rad k = Some None) /\
    ((exists i, in_ring s c lo hi i) -> exists m r, nth_error avg k = Some (Some m) /\ nth_error rad k = Some (Some r) /\
      (lo < r <= hi)%R /\ exists i j, in_ring s c lo hi i /\ in_ring s c lo hi j /\ (f i <= m <= f j)%R).
Proof. exact averages. Qed.
Print Assumptions C53_averages_in_range.

(** For rising radii every cell between the first and the last one lies in exactly one ring,
    and the sums over the rings add up to the sum over the cells between. *)
Theorem C53_rings_partition : forall s c lo radii, rising (lo :: radii) ->
  (forall i, in_ring s c lo (last (lo :: radii) 0%R) i ->
    exists k, forall k', (exists a b, nth_error (lo :: radii) k' = Some a /\ nth_error (lo :: radii) (S k') = Some b /\ in_ring s c a b i) <-> k' = k) /\
  forall f, fold_right Rplus 0%R (map (fun p => sum_over f (ring s c (fst p) (snd p))) (edges (lo :: radii)))
    = sum_over f (ring s c lo (last (lo :: radii) 0%R)).
Proof. exact (fun s c lo radii H => conj (fun i Hi => one_ring s c lo radii i H Hi) (fun f => covered s c f lo radii H)). Qed.
Print Assumptions C53_rings_partition.
Example C53_rising : rising [0; 1; 1; 5]%R.
Proof. repeat split; lra. Qed.
(** A cell at the centre is in no ring. *)
Theorem C53_centre_refuted : exists (s : snap RNum) c i, in_shape (grid_of s) i /\ radius s c i = 0%R /\
  forall lo hi, (0 <= lo)%R -> ~ in_ring s c lo hi i.
Proof. exact centre_left_out. Qed.
Print Assumptions C53_centre_refuted.

(** Radii of an integer type: the averages are cut off to integers, and a ring without cells
    raises ValueError. *)
Theorem C53_integer_radii : forall h (l : list (snap RNum)) param t (c : R * R * R) (radii : list R) n s f, hs_ndim h = 4 ->
  picks l t n s -> l <> [] -> (forall s, In s l -> has_cells s) -> fits s -> quantity h param (sn_w s) f ->
  ((forall p, In p (edges radii) -> exists i, in_ring s c (fst p) (snd p) i) ->
   sample_circular_average RNum (Some toward_zero) (V_object (Some h) (Some l)) param t (Some c) (Some radii)
   = Ok (map (fun p => option_map toward_zero (mean f (ring s c (fst p) (snd p)))) (edges radii),
         map (fun p => option_map toward_zero (mean (radius s c) (ring s c (fst p) (snd p)))) (edges radii))) /\
  ((exists p, In p (edges radii) /\ forall i, ~ in_ring s c (fst p) (snd p) i) ->
   sample_circular_average RNum (Some toward_zero) (V_object (Some h) (Some l)) param t (Some c) (Some radii) = Err ValueError).
Proof. exact integer_rings. Qed.
Print Assumptions C53_integer_radii.
Theorem C53_integer_radii_refuted : exists (h : hstate) l param c radii s f, hs_ndim h = 4 /\ picks l None (-1) s /\ (forall s, In s l -> has_cells s) /\ fits s /\
  quantity h param (sn_w s) f /\ (forall i, f i = (1 / 2)%R) /\
  sample_circular_average RNum (Some toward_zero) (V_object (Some h) (Some l)) param None (Some c) (Some radii) = Ok ([Some 0%R], [Some 1%R]).
Proof. exact integers_cut. Qed.
Print Assumptions C53_integer_radii_refuted.

(** plot_1d_slice draws the quantity along the axis left free against the coordinates of that
    axis, through the cell closest to the two coordinates given. *)
Theorem C53_line : forall h (l : list (snap RNum)) param m t (p : axis -> option R) tol n s f d, hs_ndim h = 4 -> param <> "trouble"%string ->
  picks l t n s -> l <> [] -> (forall s, In s l -> has_cells s) -> fits s -> quantity h param (sn_w s) f ->
  p d = None -> (forall a, In a (others d) -> p a <> None) ->
  exists i data, plot_1d_slice RNum (V_object (Some h) (Some l)) param m t (p AX) (p AY) (p AZ) tol = Ok (coords s d, data) /\
    aims s p (others d) i /\ nshape data = [Z.of_nat (List.length (coords s d))] /\ forall k, nval data [k] = f (setc d k i).
Proof. exact slice_line. Qed.
Print Assumptions C53_line.

(** plot_2d_slice shows the plane through the cell closest to the coordinate given; pixels and
    the coordinate arrays X and Y agree on the cell they belong to. *)
Theorem C53_picture : forall h (l : list (snap RNum)) param t (p : axis -> option R) overlay tol n s f e, hs_ndim h = 4 ->
  ~ In param ["trouble"; "NAD"; "PAD"]%string -> overlay_off overlay ->
  picks l t n s -> l <> [] -> (forall s, In s l -> has_cells s) -> fits s -> quantity h param (sn_w s) f ->
  p e <> None -> (forall a, In a (others e) -> p a = None) ->
  exists i im, plot_2d_slice RNum (V_object (Some h) (Some l)) param t (p AX) (p AY) (p AZ) overlay tol = Ok im /\
    aims s p [e] i /\ shows s f e i im.
Proof. exact slice_plane. Qed.
Print Assumptions C53_picture.
Example C53_plot_hypotheses : hydro_state [] 4 = Ok plain /\ picks [dot] None (-1) dot /\ fits dot /\ quantity plain "rho" (sn_w dot) half.
Proof. exact (conj plain_is (conj dot_picked (conj dot_fits dot_quantity))). Qed.

(** Since the extent passed to imshow ends at the outermost cell centres, the middle of a pixel
    is less than half a cell away from the centre of its cell, but equal to it only in the
    middle column and row. *)
Theorem C53_pixels : forall (lo hi : R) n c, 1 <= n -> 0 <= c < n -> (lo < hi)%R -> let x := map (midpoint RNum (lo, hi) n) (zrange n) in
  (Rabs (column_middle (ends x) n c - entry_of x c) < (hi - lo) / IZR n / 2)%R /\
  (Rabs (row_middle (ends x) n c - entry_of x (n - 1 - c)) < (hi - lo) / IZR n / 2)%R.
Proof. exact pixels. Qed.
Print Assumptions C53_pixels.
Theorem C53_pixels_refuted : forall (lo hi : R) n c, 1 <= n -> 0 <= c < n -> (lo < hi)%R -> 2 * c + 1 <> n -> let x := map (midpoint RNum (lo, hi) n) (zrange n) in
  column_middle (ends x) n c <> entry_of x c /\ row_middle (ends x) n c <> entry_of x (n - 1 - c).
Proof. exact pixels_off. Qed.
Print Assumptions C53_pixels_refuted.

(** plotting_trouble accepts every snapshot of every completed run with limiting, unless trouble
    is forced, and marks the cells whose logged violations exceed the tolerance. *)
Theorem C53_trouble : forall (c : config RNum) heap i as_averages T n exact downbeats log fuel u0 o e m tol, tabulated c -> c_limit c = true -> c_force c = false -> (0 <= nad_eps (c_nad c))%R ->
  shp u0 = c_n c -> 1 <= rows u0 -> simulate c heap i as_averages T n exact downbeats log fuel u0 = Ok o -> In e (o_snaps o) -> In m ["all"; "NAD"; "PAD"]%string ->
  exists d, plotting_trouble RNum (stored c e) (M_name m) tol = Ok d /\ nshape d = [5; cx (c_n c); cy (c_n c); cz (c_n c)] /\
    forall v j, 0 <= v < 5 -> in_shape (c_n c) j -> (nval d (v :: [cx j; cy j; cz j]) = 0 \/ nval d (v :: [cx j; cy j; cz j]) = 1) /\
      (nval d (v :: [cx j; cy j; cz j]) = 1 <-> visible m tol (at_ (snd (fst (snd (snd e)))) v j) (at_ (snd (snd (snd e))) v j)).
Proof. exact runs_plot. Qed.
Print Assumptions C53_trouble.
(** With forced trouble there are runs whose snapshots it rejects. *)
Theorem C53_forced_trouble_refuted : exists (c : config QNum) heap u0 o e, tabulated c /\ c_limit c = true /\ shp u0 = c_n c /\
  simulate c heap I_euler true None (Some 1) true [] false 0 u0 = Ok o /\ In e (o_snaps o) /\
  plotting_trouble QNum (stored c e) (M_name "all") 0%Q = Err ValueError.
Proof. exact forced_plot. Qed.
Print Assumptions C53_forced_trouble_refuted.

(** The log arrays have a component axis in front that the slices of the plots ignore: a line
    plot of the trouble never gets one-dimensional data, a picture of or with trouble never
    two-dimensional data. *)
Theorem C53_trouble_line_refuted : forall N src m t x y z tol xs d, (given x + given y + given z = 2)%nat ->
  plot_1d_slice N src "trouble" m t x y z tol = Ok (xs, d) -> List.length (nshape d) = 2%nat.
Proof. exact @line_trouble_rank. Qed.
Print Assumptions C53_trouble_line_refuted.
Theorem C53_trouble_picture_refuted : forall N src param t x y z overlay tol im, (given x + given y + given z = 1)%nat ->
  ~ overlay_off overlay \/ In param ["trouble"; "NAD"; "PAD"]%string ->
  plot_2d_slice N src param t x y z overlay tol = Ok im -> (3 <= List.length (nshape (im_Z im)))%nat.
Proof. exact @picture_trouble_rank. Qed.
Print Assumptions C53_trouble_picture_refuted.
(** In two-dimensional runs the overlay raises ValueError. *)
Theorem C53_overlay_refuted : forall h (l : list (snap RNum)) param t z overlay tol n s f, hs_ndim h = 4 ->
  ~ In param ["trouble"; "NAD"; "PAD"]%string -> ~ overlay_off overlay -> logged_by_solver s (grid_of s) ->
  picks l t n s -> l <> [] -> (forall s, In s l -> has_cells s) -> fits s -> quantity h param (sn_w s) f ->
  List.length (sn_z s) = 1%nat -> List.length (sn_y s) <> 1%nat -> List.length (sn_y s) <> 5%nat ->
  plot_2d_slice RNum (V_object (Some h) (Some l)) param t None None (Some z) overlay tol = Err ValueError.
Proof. exact overlay_fails. Qed.
Print Assumptions C53_overlay_refuted.
(** Where the overlay does give a picture, it hides the troubled cells and no others. *)
Theorem C53_overlay_hides : forall N h (l : list (snap N)) param t x y z overlay tol im ns s tr, ~ overlay_off overlay ->
  plot_2d_slice N (V_object (Some h) (Some l)) param t x y z overlay tol = Ok im ->
  get_indices N l t x y z = Ok ns -> py_item l (fst ns) = Ok s -> plotting_trouble N s overlay tol = Ok tr ->
  ((forall k, inside (nshape tr) k -> nval tr k <= 0) -> forall k, inside (nshape (im_Z im)) k -> nval (im_Z im) k <> None) /\
  ((forall k, inside (nshape tr) k -> 0 < nval tr k) -> forall k, inside (nshape (im_Z im)) k -> nval (im_Z im) k = None).
Proof. exact @picture_overlay. Qed.
Print Assumptions C53_overlay_hides.
Example C53_overlay_case : forall q, q = 0%Q \/ q = 1%Q -> exists im ns tr, ~ overlay_off (M_name "all") /\
  plot_2d_slice QNum (V_object (Some plain) (Some [five q])) "rho" None None None (Some 0%Q) (M_name "all") 0%Q = Ok im /\
  get_indices QNum [five q] None None None (Some 0%Q) = Ok ns /\ py_item [five q] (fst ns) = Ok (five q) /\ plotting_trouble QNum (five q) (M_name "all") 0%Q = Ok tr /\
  ((q = 0%Q /\ forall k, inside (nshape tr) k -> nval tr k <= 0) \/ (q = 1%Q /\ forall k, inside (nshape tr) k -> 0 < nval tr k)).
Proof. exact overlay_case. Qed.
Theorem C53_solver_logs : forall (c : config RNum) heap i as_averages T n exact downbeats log fuel u0 o e, tabulated c -> c_limit c = true -> shp u0 = c_n c -> 1 <= rows u0 ->
  simulate c heap i as_averages T n exact downbeats log fuel u0 = Ok o -> In e (o_snaps o) -> logged_by_solver (stored c e) (c_n c).
Proof. exact run_logs. Qed.
Print Assumptions C53_solver_logs.

(** The documented argument types that fail: lists of snapshots, and overlay_trouble=True. *)
Theorem C53_snapshot_list_refuted : forall N (l : list (snap N)) param m t x y z tol overlay trunc c radii,
  plot_1d_slice N (V_list l) param m t x y z tol = Err AttributeError /\
  plot_2d_slice N (V_list l) param t x y z overlay tol = Err AttributeError /\
  sample_circular_average N trunc (V_list l) param t c radii = Err AttributeError.
Proof. exact @list_fails. Qed.
Print Assumptions C53_snapshot_list_refuted.
Theorem C53_overlay_true_refuted : forall N (s : snap N) n b tol, logged_by_solver s n -> plotting_trouble N s (M_bool b) tol = Err ValueError.
Proof. exact @true_fails. Qed.
Print Assumptions C53_overlay_true_refuted.

(** plot_fields of a one-dimensional run shows density, pressure and the velocity along its axis. *)
Theorem C53_plot_fields_line : forall dims, String.length dims = 1%nat -> plot_fields dims = Ok [("rho", ""); ("P", ""); ("v" ++ dims, "")]%string.
Proof. exact panels_line. Qed.
Print Assumptions C53_plot_fields_line.
(** plot_fields of a two-dimensional run shows six panels, but not vy and vz. *)
Theorem C53_plot_fields_refuted : forall dims, (String.length dims = 2%nat -> plot_fields dims = Ok [("rho", "rho"); ("P", "P"); ("v", "v"); ("P", "P"); ("v", "v"); ("vx", "vx")]%string) /\
  (String.length dims <> 1%nat -> String.length dims <> 2%nat -> plot_fields dims = Err NotImplementedError).
Proof. exact panels. Qed.
Print Assumptions C53_plot_fields_refuted.
