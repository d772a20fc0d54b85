(** Theorems on slope limiting (C22-C29). *)
From Coq Require Import ZArith QArith List Bool Lia Reals Lra Floats.SpecFloat.
From Verif Require Import Err Num NdArray FvM SedM LimitM OdeM SolverM SpecLim SpecSolver SpecCons MusclP DetectP SedR BroadP ConvexP ReviseP.
Import ListNotations.
Open Scope Z_scope.

(** C22. The minmod slope vanishes at extrema and otherwise has the sign of the one-sided
    differences and at most the smaller magnitude; moncen at most twice that. *)
Theorem C22_minmod_is_limited : forall a b : R, limited_by 1 (minmod RNum a b) a b.
Proof. exact minmod_limited. Qed.
Print Assumptions C22_minmod_is_limited.
Theorem C22_moncen_is_limited : forall a b : R, limited_by 2 (moncen RNum a b) a b.
Proof. exact moncen_limited. Qed.
Print Assumptions C22_moncen_is_limited.
(** The slopes are exactly the textbook ones; minmod up to the 1e-16 guard of its divisor. *)
Theorem C22_minmod_value : forall a b : R, (0 < a * b -> / 10 ^ 16 <= Rmax (Rabs a) (Rabs b) ->
  Rabs (minmod RNum a b) = Rmin (Rabs a) (Rabs b))%R.
Proof. exact minmod_exact. Qed.
Print Assumptions C22_minmod_value.
Theorem C22_moncen_value : forall a b : R, (0 < a * b ->
  Rabs (moncen RNum a b) = Rmin (2 * Rmin (Rabs a) (Rabs b)) (Rabs ((a + b) / 2)))%R.
Proof. exact moncen_exact. Qed.
Print Assumptions C22_moncen_value.
(** The face values of a cell lie between the cell and its neighbours. *)
Theorem C22_face_values_between_neighbours : forall (a : axis) l (u : arr R),
  l = L_minmod \/ l = L_moncen -> 2 <= getc a (shp u) ->
  exists L R, MUSCL_interpolations RNum a l u = Ok (L, R) /\
    rows L = rows u /\ rows R = rows u /\
    shp L = setc a (getc a (shp u) - 2) (shp u) /\ shp R = setc a (getc a (shp u) - 2) (shp u) /\
    forall v i, between (at_ u v i) (at_ u v (moved a 1 i)) (at_ L v i) /\
                between (at_ u v (moved a 1 i)) (at_ u v (moved a 2 i)) (at_ R v i) /\
                (at_ L v i + at_ R v i = 2 * at_ u v (moved a 1 i))%R.
Proof. exact face_values. Qed.
Print Assumptions C22_face_values_between_neighbours.
Example C22_hypotheses : 2 <= getc AX (shp (mkarr 5 (mkix 9 1 1) (fun v i => IZR (v + cx i)))) /\ (0 < 3 * 2 /\ / 10 ^ 16 <= Rmax (Rabs 3) (Rabs 2))%R.
Proof.
  split; [cbn; lia|]. split; [lra|]. apply Rle_trans with (Rabs 3); [|apply Rmax_l]. rewrite Rabs_right by lra. lra.
Qed.
(** In binary64 the slope of moncen need not vanish at an extremum: the product of the two
    differences underflows to -0, which passes the test >= 0. *)
Theorem C22_moncen_vanishes_at_extrema_refuted : exists dl dr : f64,
  nltb (n := FNum) (nofZ 0) dl = true /\ nltb (n := FNum) dr (nofZ 0) = true /\
  nltb (n := FNum) (moncen FNum dl dr) (nofZ 0) = true.
Proof. exact moncen_underflow. Qed.
Print Assumptions C22_moncen_vanishes_at_extrema_refuted.

(** C23, C25. The detector flags a cell iff the last entry of the bounds dict is violated, or
    some selected variable leaves its numerically admissible range and, with SED, its
    smoothness is below 1. Local and global, relative and absolute tolerances. *)
Theorem C25_flagged_cells : forall (q : nad_params RNum) dims (u uc : arr R),
  detectable q dims u uc ->
  exists det alpha, detect_troubled_cells RNum q dims u uc = Ok det /\ sed RNum dims (sed_eps q) uc = Ok alpha /\
  rows (d_trouble det) = 1 /\ shp (d_trouble det) = cropped dims (shp u) /\
  forall i, in_shape (cropped dims (shp u)) i ->
    (at_ (d_trouble det) 0 i = true <->
     violates_last (pad_bounds q) (fun v => at_ uc v (inner dims i)) \/
     exists v, selected q (rows u) v /\ inadmissible q dims u v (inner dims i) (at_ uc v (inner dims i)) /\
               (sed_on q = true -> at_ alpha v i < 1)%R).
Proof. exact detect_iff. Qed.
Print Assumptions C25_flagged_cells.
Example C25_hypotheses :
  detectable (mknad (N := RNum) (1/100)%R M_local R_absolute (Some [0; 4]) (Some [(0, (Some 0%R, None)); (4, (Some 0%R, None))]) true (1/1000)%R)
    [AX; AZ] (mkarr 5 (mkix 9 1 8) (fun v i => IZR (v + cx i))) (mkarr 5 (mkix 9 1 8) (fun v i => IZR (v - cx i))).
Proof.
  unfold detectable. cbn [nad_range_ nad_mode_ nad_vars rows shp]. repeat split; try discriminate.
  - repeat constructor; cbn; intuition discriminate.
  - intros []; cbn; lia.
Qed.
(** Switching SED on never adds a flag, in any arithmetic. *)
Theorem C25_sed_only_removes_flags : forall (N : Num) (q : nad_params N) dims u uc det,
  detectable q dims u uc -> detect_troubled_cells N q dims u uc = Ok det ->
  exists det', detect_troubled_cells N (without_sed q) dims u uc = Ok det' /\
    shp (d_trouble det) = shp (d_trouble det') /\
    forall i, at_ (d_trouble det) 0 i = true -> at_ (d_trouble det') 0 i = true.
Proof. exact sed_removes. Qed.
Print Assumptions C25_sed_only_removes_flags.

(** C23. With the solver's default options a candidate with a negative density passes: the
    bounds of the pressure overwrite those of the density. *)
Theorem C23_inadmissible_candidates_flagged_refuted : exists (u uc : arr Q) det,
  shp u = mkix 7 1 1 /\ shp uc = mkix 7 1 1 /\ rows u = 5 /\ rows uc = 5 /\
  (forall v i, Qlt 0 (at_ u v i)) /\ Qlt (at_ uc 0 (mkix 3 0 0)) 0 /\
  detect_troubled_cells QNum default_nad [AX] u uc = Ok det /\
  shp (d_trouble det) = mkix 1 1 1 /\ at_ (d_trouble det) 0 (mkix 0 0 0) = false.
Proof. exact negative_density_unflagged. Qed.
Print Assumptions C23_inadmissible_candidates_flagged_refuted.

(** A violation of the last entry is always flagged. *)
Theorem C23_last_entry_is_flagged : forall (q : nad_params RNum) dims (u uc : arr R) l e i,
  detectable q dims u uc -> in_shape (cropped dims (shp u)) i ->
  pad_bounds q = Some (l ++ [e]) -> out_of_bounds (snd e) (at_ uc (fst e) (inner dims i)) ->
  exists det, detect_troubled_cells RNum q dims u uc = Ok det /\ at_ (d_trouble det) 0 i = true.
Proof. exact last_flagged. Qed.
Print Assumptions C23_last_entry_is_flagged.
Example C23_hypotheses :
  detectable (mknad (N := RNum) (1/100)%R M_global R_relative None (Some ([(4, (Some 0%R, None))] ++ [(0, (Some 0%R, None))])) false (1/1000)%R)
    [AX] (mkarr 5 (mkix 7 1 1) (fun v i => 1%R)) (mkarr 5 (mkix 7 1 1) (fun v i => (-1)%R)) /\
  out_of_bounds (Some 0%R, None) (-1)%R.
Proof.
  split; [|left; cbn; lra].
  unfold detectable. cbn [nad_range_ nad_mode_ nad_vars rows shp]. repeat split; try discriminate.
  - repeat constructor; cbn; intuition discriminate.
  - intros []; cbn; lia.
Qed.

(** C24. A cell whose candidate is NaN in every row is never flagged, whatever the options. *)
Theorem C24_nan_candidates_flagged_refuted : forall (q : nad_params FNum) dims u uc det i,
  detectable q dims u uc -> detect_troubled_cells FNum q dims u uc = Ok det ->
  (forall v, at_ uc v (inner dims i) = S754_nan) -> at_ (d_trouble det) 0 i = false.
Proof. exact nan_unflagged. Qed.
Print Assumptions C24_nan_candidates_flagged_refuted.
Example C24_hypotheses :
  detectable (mknad (N := FNum) (fof 1) M_global R_relative None (Some [(0, (Some (fof 0), None))]) false (fof 1))
    [AX] (mkarr 5 (mkix 9 1 1) (fun v i => fof (v + cx i))) (mkarr 5 (mkix 9 1 1) (fun v i => if cx i =? 4 then S754_nan else fof 1)).
Proof.
  unfold detectable. cbn [nad_range_ nad_mode_ nad_vars rows shp]. repeat split; try discriminate.
  - repeat constructor; cbn; intuition discriminate.
  - intros []; cbn; lia.
Qed.

(** C26. The smoothness lies in [0,1]. *)
Theorem C26_smoothness_in_unit_interval : forall dims eps u, sed_fits dims u -> (0 < eps)%R ->
  exists alpha, sed RNum dims eps u = Ok alpha /\ rows alpha = rows u /\ shp alpha = cropped dims (shp u) /\
  forall v i, (0 <= at_ alpha v i <= 1)%R.
Proof. exact sed_bounds. Qed.
Print Assumptions C26_smoothness_in_unit_interval.
(** It does not change when a constant is added to a row. *)
Theorem C26_constants_do_not_matter : forall dims eps (u : arr R) (c : Z -> R), sed_fits dims u ->
  exists alpha beta, sed RNum dims eps u = Ok alpha /\
  sed RNum dims eps (mkarr (rows u) (shp u) (fun v i => at_ u v i + c v)%R) = Ok beta /\
  forall v i, at_ beta v i = at_ alpha v i.
Proof. exact sed_constant. Qed.
Print Assumptions C26_constants_do_not_matter.
(** A profile that is a parabola along every axis scores 1 in every cell if twice its
    curvature reaches the tolerance; it scores 0 if it is linear along some axis. *)
Theorem C26_parabolas_are_smooth_lines_are_not : forall dims eps (u : arr R) (c : axis -> R) v,
  sed_fits dims u -> (0 < eps)%R ->
  (forall a, mem_axis a dims = true -> parabolic a (c a) (at_ u v)) ->
  exists alpha, sed RNum dims eps u = Ok alpha /\
  (forall i, (forall a, mem_axis a dims = true -> eps <= 2 * Rabs (c a))%R -> at_ alpha v i = 1%R) /\
  (forall i, (exists a, mem_axis a dims = true /\ c a = 0%R) -> at_ alpha v i = 0%R).
Proof. exact sed_parabola. Qed.
Print Assumptions C26_parabolas_are_smooth_lines_are_not.
Example C26_hypotheses :
  let u := mkarr 1 (mkix 9 7 1) (fun _ i => (3 * IZR (cx i) * IZR (cx i) - IZR (cx i) * IZR (cy i) - IZR (cy i) * IZR (cy i))%R) in
  sed_fits [AX; AY] u /\ parabolic AX 3 (at_ u 0) /\ parabolic AY (-1) (at_ u 0).
Proof.
  cbv zeta. split; [|split].
  - split; [repeat constructor; cbn; intuition discriminate|]. split; [discriminate|]. intros [] H; try discriminate H; cbn; lia.
  - intro i. exists (- IZR (cy i) * IZR (cy i))%R, (- IZR (cy i))%R. intro k. cbn [at_ setc cx cy cz]. ring.
  - intro i. exists (3 * IZR (cx i) * IZR (cx i))%R, (- IZR (cx i))%R. intro k. cbn [at_ setc cx cy cz]. ring.
Qed.
(** Mirrored data can score 1 one way round and 0 the other. *)
Theorem C26_mirror_symmetry_refuted : exists (u w : arr Q) alpha beta, shp u = mkix 7 1 1 /\ shp w = mkix 7 1 1 /\
  (forall v i, at_ w v i = at_ u v (mkix (6 - cx i) (cy i) (cz i))) /\
  sed QNum [AX] (Qmake 1 (10 ^ 10)) u = Ok alpha /\ sed QNum [AX] (Qmake 1 (10 ^ 10)) w = Ok beta /\
  shp alpha = mkix 1 1 1 /\ shp beta = mkix 1 1 1 /\
  at_ alpha 0 (mkix 0 0 0) = 1%Q /\ at_ beta 0 (mkix 0 0 0) = 0%Q.
Proof. exact sed_not_mirror. Qed.
Print Assumptions C26_mirror_symmetry_refuted.

(** C27. Without convex blending a face has weight 1 if one of its two cells is troubled, else
    0; 0 along the axes not in dims. Holds for every arithmetic in which the larger of two 0/1
    flags is their disjunction. *)
Theorem C27_troubled_faces : forall (N : Num) (tr : arr bool) dims per,
  max_of_flags N -> rows tr = 1 -> (forall b, 0 <= getc b (shp tr)) ->
  exists th, broadcast_to_troubled_interfaces N tr dims false per = Ok th /\
  forall a, rows (th a) = 1 /\ shp (th a) = setc a (getc a (shp tr) + 1) (shp tr) /\
    forall i, in_shape (shp (th a)) i ->
      (In a dims /\ (exists j, touches a i j /\ in_shape (shp tr) j /\ at_ tr 0 j = true) -> at_ (th a) 0 i = nofZ 1) /\
      (~ (In a dims /\ exists j, touches a i j /\ in_shape (shp tr) j /\ at_ tr 0 j = true) -> at_ (th a) 0 i = nofZ 0).
Proof. exact simple_faces. Qed.
Print Assumptions C27_troubled_faces.
Theorem C27_real_and_binary64 : max_of_flags RNum /\ max_of_flags FNum.
Proof. exact (conj flags_R flags_F). Qed.
Print Assumptions C27_real_and_binary64.
Example C27_hypotheses : let tr := mkarr 1 (mkix 4 3 1) (fun _ i => (cx i =? 2) && (cy i =? 0)) in
  rows tr = 1 /\ (forall b, 0 <= getc b (shp tr)) /\ touches AX (mkix 3 0 0) (mkix 2 0 0) /\ at_ tr 0 (mkix 2 0 0) = true.
Proof. cbv zeta. split; [reflexivity|]. split; [intros []; cbn; lia|]. split; [right; reflexivity|reflexivity]. Qed.

(** C28. With convex blending along one axis, or along two without a periodic z axis, every
    face has the largest of the weights its two cells receive from the troubled cells: 1 from
    themselves, 3/4 and 1/2 from direct and diagonal neighbours, 1/4 from two cells away. *)
Theorem C28_weights_along_one_axis : forall (tr : arr bool) a per, rows tr = 1 -> thin [a] (shp tr) ->
  exists th, broadcast_to_troubled_interfaces RNum tr [a] true per = Ok th /\ blended tr [a] th.
Proof. exact convex_line. Qed.
Print Assumptions C28_weights_along_one_axis.
Theorem C28_weights_along_two_axes : forall (tr : arr bool) a b per, a <> b -> rows tr = 1 -> thin [a; b] (shp tr) ->
  (In AZ [a; b] -> per AZ = false) ->
  exists th, broadcast_to_troubled_interfaces RNum tr [a; b] true per = Ok th /\ blended tr [a; b] th.
Proof. exact convex_plane. Qed.
Print Assumptions C28_weights_along_two_axes.
(** So the weights lie in [0, 1], are 1 at the faces of troubled cells and 0 out of reach. *)
Theorem C28_meaning_of_weights : forall a (tr : arr bool) i w, face_weight a tr i w ->
  (0 <= w <= 1)%R /\
  ((exists j, touches a i j /\ in_shape (shp tr) j /\ at_ tr 0 j = true) -> w = 1%R) /\
  ((forall j, in_shape (shp tr) j -> at_ tr 0 j = true -> forall c, touches a i c -> exists d, 2 < Z.abs (getc d c - getc d j)) -> w = 0%R).
Proof. exact weight_meaning. Qed.
Print Assumptions C28_meaning_of_weights.
Example C28_hypotheses : thin [AX; AY] (mkix 6 7 1) /\ thin [AY] (mkix 1 5 1) /\
  exists w, face_weight AX (mkarr 1 (mkix 6 1 1) (fun _ i => cx i =? 2)) (mkix 4 0 0) w /\ w = (3 / 4)%R.
Proof.
  split; [intros []; cbn; split; lia || discriminate || reflexivity|]. split; [intros []; cbn; split; lia || discriminate || reflexivity|].
  exists (3 / 4)%R. split; [|reflexivity]. split.
  - intros c j Hc Hj Ht. apply Z.eqb_eq in Ht. destruct j as [j1 j2 j3]. cbn [cx] in Ht. subst j1.
    pose proof (Hj AY) as H2. pose proof (Hj AZ) as H3. cbn in H2, H3. assert (j2 = 0) by lia. assert (j3 = 0) by lia. subst.
    destruct Hc as [-> | ->]; vm_compute; lra.
  - right. exists (mkix 3 0 0), (mkix 2 0 0). split; [right; reflexivity|]. split; [intros []; cbn; lia|]. split; [reflexivity|reflexivity].
Qed.
(** The weights do not wrap around periodic axes: a troubled last cell gives its weight to the
    last face but not to the first one, which is the same face of a periodic box. *)
Theorem C28_wraps_around_refuted : exists (tr : arr bool) per th,
  rows tr = 1 /\ thin [AX] (shp tr) /\ per AX = true /\ at_ tr 0 (mkix (cx (shp tr) - 1) 0 0) = true /\
  broadcast_to_troubled_interfaces RNum tr [AX] true per = Ok th /\
  at_ (th AX) 0 (mkix 0 0 0) = 0%R /\ at_ (th AX) 0 (mkix (cx (shp tr)) 0 0) = 1%R.
Proof. exact convex_seam. Qed.
Print Assumptions C28_wraps_around_refuted.
(** In two dimensions with a periodic z axis the call raises, unless the other axis happens to
    have five cells; in three dimensions it always raises. *)
Theorem C28_periodic_z_raises_refuted : forall (tr : arr bool) c per, c = AX \/ c = AY ->
  rows tr = 1 -> thin [c; AZ] (shp tr) -> per AZ = true -> getc c (shp tr) <> 5 ->
  broadcast_to_troubled_interfaces RNum tr [c; AZ] true per = Err ValueError.
Proof. exact convex_z_raises. Qed.
Print Assumptions C28_periodic_z_raises_refuted.
Theorem C28_three_axes_raise_refuted : forall (N : Num) (tr : arr bool) a b c per,
  exists e, broadcast_to_troubled_interfaces N tr [a; b; c] true per = Err e.
Proof. exact convex_space_raises. Qed.
Print Assumptions C28_three_axes_raise_refuted.

(** C29. After revise_fluxes a face of weight 0 keeps its flux, one of weight 1 has the
    fallback flux, the others a value between the two. Nothing changes if no cell is troubled. *)
Theorem C29_weighted_fluxes : forall (c : config RNum) junk t x u dt x',
  tabulated c -> shp u = c_n c -> 2 <= rows u -> interface_arrays (c_n c) (rows u) (x_flux x) -> c_limiter c <> L_unknown ->
  revise_fluxes RNum c junk t x u dt = Ok x' ->
  exists det, detect RNum c junk t u (x_flux x) dt = Ok det /\
   (any_trouble (d_trouble det) = false -> x_flux x' = x_flux x) /\
   (any_trouble (d_trouble det) = true ->
     exists dt' G th, hydrofluxes RNum c (junk 3) t (x_flux x) u (fallback_p RNum c) (c_limiter c) = Ok (dt', G) /\
       broadcast_to_troubled_interfaces RNum (d_trouble det) (dims RNum c) (c_convex c) (is_periodic RNum c) = Ok th /\
       forall d v i,
         (at_ (th d) 0 i = 0%R -> at_ (x_flux x' d) v i = at_ (x_flux x d) v i) /\
         (at_ (th d) 0 i = 1%R -> at_ (x_flux x' d) v i = at_ (G d) v i) /\
         ((0 <= at_ (th d) 0 i <= 1)%R -> between (at_ (x_flux x d) v i) (at_ (G d) v i) (at_ (x_flux x' d) v i))).
Proof. exact fluxes_revised. Qed.
Print Assumptions C29_weighted_fluxes.
(** Without convex blending exactly the faces of troubled cells get the fallback flux. *)
Theorem C29_replaced_fluxes : forall (c : config RNum) junk t x u dt x',
  tabulated c -> shp u = c_n c -> 2 <= rows u -> interface_arrays (c_n c) (rows u) (x_flux x) -> c_limiter c <> L_unknown ->
  c_convex c = false -> revise_fluxes RNum c junk t x u dt = Ok x' ->
  exists det, detect RNum c junk t u (x_flux x) dt = Ok det /\
   (any_trouble (d_trouble det) = false -> x_flux x' = x_flux x) /\
   (any_trouble (d_trouble det) = true ->
     exists dt' G, hydrofluxes RNum c (junk 3) t (x_flux x) u (fallback_p RNum c) (c_limiter c) = Ok (dt', G) /\
       forall d v i, in_shape (interface_shape d (c_n c)) i ->
         (In d (dims RNum c) /\ (exists j, touches d i j /\ in_shape (c_n c) j /\ at_ (d_trouble det) 0 j = true) ->
          at_ (x_flux x' d) v i = at_ (G d) v i) /\
         (~ (In d (dims RNum c) /\ exists j, touches d i j /\ in_shape (c_n c) j /\ at_ (d_trouble det) 0 j = true) ->
          at_ (x_flux x' d) v i = at_ (x_flux x d) v i)).
Proof. exact fluxes_replaced. Qed.
Print Assumptions C29_replaced_fluxes.
(** In binary64 a NaN in either flux survives, whatever the weight. *)
Theorem C29_nan_survives : forall (c : config FNum) junk t x u dt x',
  tabulated c -> shp u = c_n c -> 2 <= rows u -> interface_arrays (c_n c) (rows u) (x_flux x) -> c_limiter c <> L_unknown ->
  revise_fluxes FNum c junk t x u dt = Ok x' ->
  exists det, detect FNum c junk t u (x_flux x) dt = Ok det /\
   (any_trouble (d_trouble det) = true ->
     exists dt' G, hydrofluxes FNum c (junk 3) t (x_flux x) u (fallback_p FNum c) (c_limiter c) = Ok (dt', G) /\
       forall d v i, (at_ (x_flux x d) v i = S754_nan \/ at_ (G d) v i = S754_nan) -> at_ (x_flux x' d) v i = S754_nan).
Proof. exact nan_fluxes. Qed.
Print Assumptions C29_nan_survives.
(** a call that meets the hypotheses and changes five of the six fluxes of a row *)
Example C29_hypotheses : tabulated box1d /\ c_limiter box1d <> L_unknown /\ c_convex box1d = false /\
  changed_faces spike_call = Some 5 /\ exists y, spike_call = Ok y.
Proof. exact spike_works. Qed.
