(** Theorems on initial conditions (C52). *)
From Coq Require Import ZArith List Bool String Ascii Reals Lra Lia.
From Verif Require Import Err Num PySlice NdArray HydroM HydroStateM FvM BcM OdeM SolverM RiemannM LimitM ICM Spec SpecHs SpecMesh SpecSolver SpecCons SpecScheme SpecSym SpecPos SpecIC
  PosP ICP.
Import ListNotations.
Open Scope R_scope.

(** C52. Sinus: the density is a sine wave between the two bounds in the sum of the named
    coordinates; both bounds are attained. *)
Theorem C52_sinus : forall dims lo hi P vx vy vz, lo <= hi ->
  assigns (sinus RNum real_elem dims lo hi P vx vy vz) (fun x y z s =>
    exists rho, cell_is s rho vx vy vz P /\
      rho = lo + (hi - lo) * (1 + sin (2 * PI * named_sum dims x y z)) / 2 /\ lo <= rho <= hi /\
      (named_sum dims x y z = 1/4 -> rho = hi) /\ (named_sum dims x y z = 3/4 -> rho = lo)).
Proof.
  intros dims lo hi P vx vy vz L. eapply assigns_weaken; [apply sinus_holds|]. intros x y z s H. eexists. split; [exact H|]. split; [reflexivity|].
  split; [apply wave_bounds, L|]. split; intros ->; [apply wave_top|apply wave_bottom].
Qed.
Print Assumptions C52_sinus.
(** Square: the larger density inside the open box (1/4, 3/4) in the named directions. *)
Theorem C52_square : forall dims lo hi P vx vy vz,
  assigns (square_ic RNum dims lo hi P vx vy vz) (fun x y z s =>
    by_region (inside_box dims x y z) s (rows_of hi vx vy vz P) (rows_of lo vx vy vz P)).
Proof. exact square_holds. Qed.
Print Assumptions C52_square.
(** SlottedDisk: a disk without its slot, in rigid rotation around (1/2, 1/2). *)
Theorem C52_slotted_disk : forall lo hi P,
  assigns (slotted_disk RNum lo hi P) (fun x y z s =>
    by_region (inside_disk x y) s (rows_of hi (1/2 - y) (x - 1/2) 0 P) (rows_of lo (1/2 - y) (x - 1/2) 0 P)).
Proof. exact disk_holds. Qed.
Print Assumptions C52_slotted_disk.
(** Shock1D: two states; the position itself belongs to the right one. *)
Theorem C52_shock : forall a p rho P v,
  assigns (shock_1d RNum (String (letter a) EmptyString) p rho P v) (fun x y z s =>
    (position a x y z < p -> cell_along a s (fst rho) (fst v) (fst P)) /\
    (p <= position a x y z -> cell_along a s (snd rho) (snd v) (snd P))).
Proof. exact shock_holds. Qed.
Print Assumptions C52_shock.
(** DoubleShock1D: three states. *)
Theorem C52_double_shock : forall a p1 p2 r1 r2 r3 v1 v2 v3 q1 q2 q3, p1 <= p2 ->
  assigns (double_shock_1d RNum (String (letter a) EmptyString) (p1, p2) (r1, r2, r3) (v1, v2, v3) (q1, q2, q3)) (fun x y z s =>
    (position a x y z < p1 -> cell_along a s r1 v1 q1) /\
    (p1 <= position a x y z < p2 -> cell_along a s r2 v2 q2) /\
    (p2 <= position a x y z -> cell_along a s r3 v3 q3)).
Proof. exact double_holds. Qed.
Print Assumptions C52_double_shock.
(** ShuOsher1D, KelvinHelmholtz2D, DoubleMachReflection2D and AthenaBlast. *)
Theorem C52_shu_osher : forall a,
  assigns (shu_osher_1d RNum real_elem (String (letter a) EmptyString)) (fun x y z s =>
    (position a x y z < 1 -> cell_along a s (3857143/1000000) (2629369/1000000) (1033333/100000)) /\
    (1 <= position a x y z -> cell_along a s (1 + 1/5 * sin (5 * (position a x y z - 5))) 0 1)).
Proof. exact shu_osher_holds. Qed.
Print Assumptions C52_shu_osher.
Theorem C52_kelvin_helmholtz : forall sigma w0,
  assigns (kelvin_helmholtz RNum real_elem sigma w0) (fun x y z s =>
    let vy := w0 * sin (4 * PI * x) * (exp (- ((y - 1/4) * (y - 1/4)) / (2 * sigma * sigma)) + exp (- ((y - 3/4) * (y - 3/4)) / (2 * sigma * sigma))) in
    (1/4 < y < 3/4 -> cell_is s 2 (1/2) vy 0 (5/2)) /\
    (~ 1/4 < y < 3/4 -> cell_is s 1 (-1/2) vy 0 (5/2))).
Proof. exact kh_holds. Qed.
Print Assumptions C52_kelvin_helmholtz.
Theorem C52_double_mach : forall gamma,
  assigns (double_mach RNum real_elem gamma) (fun x y z s =>
    (x - y / tan (PI / 3) < 1/6 -> cell_is s 8 (7145/1000) (-825/200) 0 (1165/10)) /\
    (1/6 <= x - y / tan (PI / 3) -> cell_is s gamma 0 0 0 1)).
Proof. exact mach_holds. Qed.
Print Assumptions C52_double_mach.
Theorem C52_athena_blast :
  assigns (athena_blast RNum) (fun x y z s =>
    (x * x + y * y < 1/100 -> cell_is s 1 0 0 0 10) /\ (1/100 <= x * x + y * y -> cell_is s 1 0 0 0 (1/10))).
Proof. exact athena_holds. Qed.
Print Assumptions C52_athena_blast.
(** ShockTube: a closed ball around the given centre, whose coordinates follow the order of the
    letters; or a closed box. *)
Theorem C52_shock_tube : forall dims center radius ins outs cube,
  String.length dims = List.length center ->
  NoDup (list_ascii_of_string dims) -> (forall k, In k (list_ascii_of_string dims) -> exists a, k = letter a) ->
  exists c, (forall j a, nth_error (list_ascii_of_string dims) j = Some (letter a) -> nth_error center j = Some (c a)) /\
  assigns (shock_tube RNum dims center radius ins outs "tube" cube) (fun x y z s => by_region (inside_ball dims c radius x y z) s ins outs).
Proof. exact tube_holds. Qed.
Print Assumptions C52_shock_tube.
Theorem C52_shock_cube : forall dims center radius ins outs cube, (exists a, cube a <> None) ->
  assigns (shock_tube RNum dims center radius ins outs "cube" cube) (fun x y z s => by_region (inside_cube cube x y z) s ins outs).
Proof. exact cube_holds. Qed.
Print Assumptions C52_shock_cube.
Example C52_tube_case : String.length "zx" = List.length [1; 2] /\ NoDup (list_ascii_of_string "zx") /\
  (forall k, In k (list_ascii_of_string "zx") -> exists a, k = letter a) /\
  inside_ball "zx" (fun a => match a with AZ => 1 | _ => 2 end) 1 (5/2) 100 (3/2).
Proof.
  split; [reflexivity|]. split; [repeat constructor; cbn; intros H; repeat destruct H as [H|H]; try discriminate; assumption|].
  split; [|unfold inside_ball; cbn; lra]. intros k [<-|[<-|[]]]; [exists AZ|exists AX]; reflexivity.
Qed.
(** What is refused: directions that do not exist, a centre of the wrong length, no box, and,
    without a message of its own, an unknown mode. *)
Theorem C52_refused : forall s, ~ In s ["x"; "y"; "z"]%string ->
  (forall p r P v, refuses (shock_1d RNum s p r P v) (if existsb (String.eqb s) [""; "xy"; "yz"; "xyz"]%string then KeyError else ValueError)) /\
  (forall p r v q, refuses (double_shock_1d RNum s p r v q) KeyError) /\ refuses (shu_osher_1d RNum real_elem s) KeyError /\
  (forall dims center radius ins outs mode cube, mode <> "tube"%string -> mode <> "cube"%string ->
     refuses (shock_tube RNum dims center radius ins outs mode cube) UnboundLocalError) /\
  (forall dims center radius ins outs cube, String.length dims <> List.length center ->
     refuses (shock_tube RNum dims center radius ins outs "tube" cube) ValueError) /\
  (forall dims center radius ins outs cube, (forall a, cube a = None) ->
     refuses (shock_tube RNum dims center radius ins outs "cube" cube) ValueError).
Proof.
  intros s H. split; [intros; apply shock_refuses, H|]. split; [intros; apply double_refuses, H|]. split; [apply shu_refuses, H|].
  split; [exact tube_refuses_mode|]. split; [exact tube_refuses_center|exact cube_refuses].
Qed.
Print Assumptions C52_refused.
(** SedovBlast, mode "center": outside the middle cells the background; the energy in them is E1
    for every line of cells along the directions not named, so E1 in all if those have one cell. *)
Theorem C52_sedov_center : forall dims rho0 E0 E1 (c : config RNum), blast_size c dims ->
  exists w, sedov_blast RNum "center" dims rho0 E0 E1 (mesh_of c) = Ok w /\ rows w = 5%Z /\ shp w = c_n c /\
    (forall i, exists P, cell_is (fun v => at_ w v i) rho0 0 0 0 P) /\
    (forall i, middle_cell dims (c_n c) i = false -> at_ w 4%Z i = E0) /\
    total (c_n c) (fun i => if middle_cell dims (c_n c) i then at_ w 4%Z i * over_named dims (spacing RNum c) else 0)
    = E1 * over_unnamed dims (fun a => IZR (getc a (c_n c))).
Proof. exact sedov_center_holds. Qed.
Print Assumptions C52_sedov_center.
(** mode "corner": one cell with E1 / 2^d, the share of a blast mirrored in d directions *)
Theorem C52_sedov_corner : forall dims rho0 E0 E1 (c : config RNum), blast_size c dims ->
  exists w, sedov_blast RNum "corner" dims rho0 E0 E1 (mesh_of c) = Ok w /\ rows w = 5%Z /\ shp w = c_n c /\
    (forall i, exists P, cell_is (fun v => at_ w v i) rho0 0 0 0 P) /\
    (forall i, corner_cell i = false -> at_ w 4%Z i = E0) /\
    total (c_n c) (fun i => if corner_cell i then at_ w 4%Z i * over_named dims (spacing RNum c) else 0)
    = E1 / over_named dims (fun _ => 2).
Proof. exact sedov_corner_holds. Qed.
Print Assumptions C52_sedov_corner.
(** any other mode fails after the mesh has been measured *)
Theorem C52_sedov_refused : forall mode dims rho0 E0 E1 (c : config RNum), blast_size c dims -> mode <> "center"%string -> mode <> "corner"%string ->
  sedov_blast RNum mode dims rho0 E0 E1 (mesh_of c) = Err UnboundLocalError.
Proof. exact sedov_refuses. Qed.
Print Assumptions C52_sedov_refused.
(** The middle cells are symmetric about the middle of the domain for an even number of cells. *)
Theorem C52_sedov_symmetric_if_even : forall n k, Z.Even n -> SpecIC.middle n (n - 1 - k) = SpecIC.middle n k.
Proof. exact middle_even. Qed.
Print Assumptions C52_sedov_symmetric_if_even.
(** For an odd number they are not: a cell holds the peak, its mirror image the background. *)
Theorem C52_sedov_centered_refuted : forall dims rho0 E0 E1 (c : config RNum) a i, blast_size c dims -> in_dims a dims = true -> Z.Odd (getc a (c_n c)) ->
  middle_cell dims (c_n c) i = true -> getc a i = (getc a (c_n c) / 2 - 1)%Z ->
  exists w, sedov_blast RNum "center" dims rho0 E0 E1 (mesh_of c) = Ok w /\
    at_ w 4%Z i = E1 / over_named dims (fun a => 2 * spacing RNum c a) /\
    at_ w 4%Z (setc a (getc a (c_n c) - 1 - getc a i)%Z i) = E0.
Proof. exact sedov_off_centre. Qed.
Print Assumptions C52_sedov_centered_refuted.
(** With the default [conservative_ic=False] the energy E1 is taken for a pressure: the initial
    state has E1 / (gamma - 1) instead, 2.5 times too much for gamma = 1.4. With
    [conservative_ic=True] it has E1. *)
Theorem C52_sedov_default_energy_refuted : forall lg dims rho0 E0 E1 (c : config RNum),
  blast_size c dims -> (forall a, 0 <= getc a (c_p c))%Z -> unit_rules lg -> c_gamma c <> 1 ->
  exists u0 u1, initial_state RNum lg c (sedov_blast RNum "center" dims rho0 E0 E1) None false false = Ok u0 /\
    initial_state RNum lg c (sedov_blast RNum "center" dims rho0 E0 E1) None true false = Ok u1 /\
    total (c_n c) (fun i => if middle_cell dims (c_n c) i then at_ u0 4%Z i * over_named dims (spacing RNum c) else 0)
    = E1 / (c_gamma c - 1) * over_unnamed dims (fun a => IZR (getc a (c_n c))) /\
    total (c_n c) (fun i => if middle_cell dims (c_n c) i then at_ u1 4%Z i * over_named dims (spacing RNum c) else 0)
    = E1 * over_unnamed dims (fun a => IZR (getc a (c_n c))).
Proof. exact sedov_default. Qed.
Print Assumptions C52_sedov_default_energy_refuted.
(** The initial state: every row of every cell is the quadrature average, around the centre of
    the cell, of the conserved variables of the core condition and of the scalars, which occupy
    the rows from 5 on in the order in which they are listed. *)
Theorem C52_initial_state : forall lg (c : config RNum) f fs (cons : bool), (forall a, 1 <= getc a (c_n c))%Z ->
  good_names (map fst (listed fs)) ->
  exists u0, initial_state RNum lg c (pointwise RNum f) fs cons false = Ok u0 /\ rows u0 = (5 + Z.of_nat (List.length (listed fs)))%Z /\ shp u0 = c_n c /\
  forall v i, at_ u0 v i =
    fv_average RNum lg (fun x y z => if cons then point_value f (listed fs) x y z v else conserved (c_gamma c) (point_value f (listed fs) x y z) v)
      (spacing RNum c AX, spacing RNum c AY, spacing RNum c AZ) (c_p c) (cell_centre c AX i) (cell_centre c AY i) (cell_centre c AZ i).
Proof. exact initial_values. Qed.
Print Assumptions C52_initial_state.
(** With [fv_ic=True] the values at the cell centres are used unchanged if they are conserved
    variables, and refused if they are primitive. *)
Theorem C52_initial_averages : forall (c : config RNum) lg f fs, (forall a, 1 <= getc a (c_n c))%Z -> good_names (map fst (listed fs)) ->
  initial_state RNum lg c (pointwise RNum f) fs false true = Err ValueError /\
  exists u0, initial_state RNum lg c (pointwise RNum f) fs true true = Ok u0 /\ rows u0 = (5 + Z.of_nat (List.length (listed fs)))%Z /\ shp u0 = c_n c /\
  forall v i, at_ u0 v i = point_value f (listed fs) (cell_centre c AX i) (cell_centre c AY i) (cell_centre c AZ i) v.
Proof. exact initial_point_values. Qed.
Print Assumptions C52_initial_averages.
(** Every named condition has positive density and pressure for positive parameters, *)
Theorem C52_positive_conditions :
  (forall dims lo hi P vx vy vz, 0 < lo <= hi -> 0 < P -> positive_ic (sinus RNum real_elem dims lo hi P vx vy vz)) /\
  (forall dims lo hi P vx vy vz, 0 < lo -> 0 < hi -> 0 < P -> positive_ic (square_ic RNum dims lo hi P vx vy vz)) /\
  (forall lo hi P, 0 < lo -> 0 < hi -> 0 < P -> positive_ic (slotted_disk RNum lo hi P)) /\
  (forall a p rho P v, 0 < fst rho -> 0 < snd rho -> 0 < fst P -> 0 < snd P -> positive_ic (shock_1d RNum (String (letter a) EmptyString) p rho P v)) /\
  (forall a p1 p2 r1 r2 r3 v1 v2 v3 q1 q2 q3, p1 <= p2 -> 0 < r1 -> 0 < r2 -> 0 < r3 -> 0 < q1 -> 0 < q2 -> 0 < q3 ->
     positive_ic (double_shock_1d RNum (String (letter a) EmptyString) (p1, p2) (r1, r2, r3) (v1, v2, v3) (q1, q2, q3))) /\
  (forall a, positive_ic (shu_osher_1d RNum real_elem (String (letter a) EmptyString))) /\
  (forall sigma w0, positive_ic (kelvin_helmholtz RNum real_elem sigma w0)) /\
  (forall gamma, 0 < gamma -> positive_ic (double_mach RNum real_elem gamma)) /\ positive_ic (athena_blast RNum) /\
  (forall dims center radius ins outs cube, String.length dims = List.length center ->
     NoDup (list_ascii_of_string dims) -> (forall k, In k (list_ascii_of_string dims) -> exists a, k = letter a) ->
     0 < ins 0%Z -> 0 < outs 0%Z -> 0 < ins 4%Z -> 0 < outs 4%Z -> positive_ic (shock_tube RNum dims center radius ins outs "tube" cube)).
Proof.
  split; [exact sinus_positive|]. split; [exact square_positive|]. split; [exact disk_positive|]. split; [exact shock_positive|]. split; [exact double_positive|].
  split; [exact shu_positive|]. split; [exact kh_positive|]. split; [exact mach_positive|]. split; [exact athena_positive|exact tube_positive].
Qed.
Print Assumptions C52_positive_conditions.
(** and such a condition gives an initial state of positive density and internal energy. *)
Theorem C52_initial_state_positive : forall lg (c : config RNum) core fs,
  (forall a, 0 <= getc a (c_p c))%Z -> positive_rules lg -> 1 < c_gamma c -> good_names (map fst (listed fs)) -> positive_ic core ->
  exists u0, initial_state RNum lg c core fs false false = Ok u0 /\ rows u0 = (5 + Z.of_nat (List.length (listed fs)))%Z /\ shp u0 = c_n c /\ gas_everywhere u0.
Proof. exact initial_positive. Qed.
Print Assumptions C52_initial_state_positive.
Theorem C52_sedov_positive : forall lg dims (cen : bool) rho0 E0 E1 (c : config RNum) fs, (forall a, 0 <= getc a (c_p c))%Z -> positive_rules lg -> 1 < c_gamma c ->
  good_names (map fst (listed fs)) -> blast_size c dims -> 0 < rho0 -> 0 < E0 -> 0 < E1 ->
  exists u0, initial_state RNum lg c (sedov_blast RNum (if cen then "center" else "corner")%string dims rho0 E0 E1) fs false false = Ok u0 /\
    rows u0 = (5 + Z.of_nat (List.length (listed fs)))%Z /\ shp u0 = c_n c /\ gas_everywhere u0.
Proof. exact sedov_positive. Qed.
Print Assumptions C52_sedov_positive.
(** From the condition to the end of the run: together with C45, first-order runs from any of
    them stay positive. *)
Theorem C52_runs_stay_positive : forall lg (c : config RNum) core fs heap as_averages T n exact downbeats log fuel,
  tabulated c -> closed c -> c_limit c = false -> first_order c -> c_rs c = RS_llf -> c_fixed_dt c = None ->
  1 < c_gamma c -> (forall a, 0 < width c a) -> 0 < c_CFL c -> c_CFL c * active_axes c <= 1 -> Forall (fun x => 0 <= x) downbeats ->
  positive_rules lg -> good_names (map fst (listed fs)) -> positive_ic core ->
  exists u0, initial_state RNum lg c core fs false false = Ok u0 /\
  forall o, simulate c heap I_euler as_averages T n exact downbeats log fuel u0 = Ok o ->
  gas_everywhere (o_u o) /\ Forall (fun s => positive_everywhere (fst (snd s))) (o_snaps o).
Proof.
  intros lg c core fs heap av T n ex db lo fu H1 H2 H3 H4 H5 H6 H7 H8 H9 H10 H11 L G P.
  destruct (initial_positive lg c core fs (fun a => eq_ind_r (fun z => (0 <= z)%Z) (Z.le_refl 0) (H4 a)) L H7 G P) as (u0 & E & Ru & Su & Gu).
  exists u0. split; [exact E|]. intros o O. refine (euler_positive c heap av T n ex db lo fu u0 o H1 H2 H3 H4 H5 H6 H7 H8 H9 H10 Su _ Gu H11 O).
  apply (eq_ind_r (fun z => (1 <= z)%Z)) with (2 := Ru). lia.
Qed.
Print Assumptions C52_runs_stay_positive.
Example C52_hypotheses : positive_rules (fun _ => [(0, 2)]) /\ unit_rules (fun _ => [(0, 2)]) /\ good_names (map fst [("dye", fun x y z : R => x)]%string) /\
  tabulated tube /\ closed tube /\ first_order tube /\ (forall a, 0 < width tube a) /\ c_CFL tube * active_axes tube <= 1 /\ blast_size tube "x".
Proof.
  split; [intros k _; split; [discriminate|intros q [<-|[]]; cbn; lra]|]. split; [intros k _; cbn; lra|].
  split; [split; [repeat constructor; intros []|intros s [<-|[]] I; cbn in I; repeat destruct I as [I|I]; try discriminate; assumption]|].
  destruct tube_ok as (T & C & _). split; [exact T|]. split; [exact C|]. split; [intros []; reflexivity|].
  split; [intros []; unfold width; cbn; lra|]. split; [unfold active_axes; cbn; lra|].
  intros a. split; [destruct a; cbn; lia|]. destruct a; cbn; intro H; try discriminate. split; [lia|unfold spacing; cbn; lra].
Qed.
(** Scalars without a condition are refused with a message if some conditions are given, and
    without one (None has no keys) if none are. *)
Theorem C52_missing_scalars : forall (core : ic RNum) l, l <> [] -> good_names l ->
  exists h, hydro_state l 4 = Ok h /\ build_ic RNum core h None = Err AttributeError /\
  forall fs s, In s l -> ~ In s (map fst fs) -> build_ic RNum core h (Some fs) = Err ValueError.
Proof. exact missing_scalar. Qed.
Print Assumptions C52_missing_scalars.
