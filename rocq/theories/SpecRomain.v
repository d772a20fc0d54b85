(** Vocabulary for the statements about the one-dimensional reference solver: the scheme on
    an unbounded line of cells, without ghost cells, slices or work arrays. *)
From Coq Require Import ZArith List Bool Reals String.
From Verif Require Import Err Num NdArray StencilsM RiemannM Spec SpecCons SpecScheme RomainM.
Import ListNotations.
Open Scope R_scope.

(** weighted sum of the values around a place; the weights are centred *)
Definition weighted (ws : list R) (f : Z -> R) : R :=
  sum_to (List.length ws) (fun k => nth (Z.to_nat k) ws 0 * f (k - (Z.of_nat (List.length ws) - 1) / 2)%Z).

(** density, velocity and pressure of the 1D solver as a state of the 3D solver, flowing along
    x; and the rows of the 3D solver its three variables are *)
Definition as_cell (w : Z -> R) : Z -> R := fun r =>
  if (r =? 0)%Z then w 0%Z else if (r =? 1)%Z then w 1%Z else if (r =? 4)%Z then w 2%Z else 0.
Definition row_of (v : Z) : Z := if (v =? 2)%Z then 4%Z else v.
(** conserved variables to density, velocity, pressure of a gas with gamma = 7/5 *)
Definition gas (u : Z -> R) : Z -> R := fun v =>
  if (v =? 0)%Z then u 0%Z else if (v =? 1)%Z then u 1%Z / u 0%Z
  else 2/5 * (u 2%Z - 1/2 * u 0%Z * (u 1%Z / u 0%Z * (u 1%Z / u 0%Z))).

(** the centred slope, and its growth on both sides of a cell *)
Definition slope (f : Z -> R) (k : Z) : R := (f (k + 1)%Z - f (k - 1)%Z) / 2.
(** the slope grows at comparable rates on both sides: neither is more than three times the other *)
Definition steady (dl dr : R) : Prop :=
  dl + dr = 0 \/ (0 < dl + dr /\ dr <= 3 * dl /\ dl <= 3 * dr) \/ (dl + dr < 0 /\ 3 * dl <= dr /\ 3 * dr <= dl).
Definition smooth_at (f : Z -> R) (k : Z) : Prop :=
  steady (slope f k - slope f (k - 1)%Z) (slope f (k + 1)%Z - slope f k).
Definition smooth_around (f : Z -> R) (k : Z) : Prop :=
  smooth_at f (k - 1)%Z /\ smooth_at f k /\ smooth_at f (k + 1)%Z.

(** largest and smallest of three *)
Definition hi3 (a b c : R) : R := Rmax a (Rmax b c).
Definition lo3 (a b c : R) : R := Rmin a (Rmin b c).

(** the unlimited values at the upper face, the lower face and (from third order on) the
    centre of cell k: the weights of the 3D solver for p = space - 1 *)
Definition at_pos (space : Z) (pos : ipos) (f : Z -> R) (k : Z) (x : R) : Prop :=
  exists ws, interpolation_weights RNum (space - 1) pos = Ok ws /\ x = weighted ws (fun j => f (k + j)%Z).
(** the slope limiter: both face values are drawn to the cell value by the same factor, unless
    the data is smooth around the cell *)
Definition traced (space : Z) (f : Z -> R) (k : Z) (up lo : R) : Prop :=
  exists u l m theta,
    at_pos space P_r f k u /\ at_pos space P_l f k l /\
    (if (space <=? 2)%Z then m = u else at_pos space P_c f k m) /\
    (smooth_around f k \/ space = 1%Z -> theta = 1) /\
    (~ smooth_around f k -> space <> 1%Z ->
      theta = Rmin 1 (Rmin ((hi3 (f (k - 1)%Z) (f k) (f (k + 1)%Z) - f k) / (Rabs (hi3 m u l - f k) + / 10 ^ 15))
                           ((f k - lo3 (f (k - 1)%Z) (f k) (f (k + 1)%Z)) / (Rabs (lo3 m u l - f k) + / 10 ^ 15)))) /\
    up = f k + theta * (u - f k) /\ lo = f k + theta * (l - f k).

(** F v k is the flux of variable v through the lower face of cell k, for the cell values w *)
Definition face_fluxes (rs : rsolver) (space : Z) (w : Z -> Z -> R) (F : Z -> Z -> R) : Prop :=
  exists up lo : Z -> Z -> R,
    (forall v k, traced space (w v) k (up v k) (lo v k)) /\
    forall v k, (0 <= v <= 2)%Z ->
      F v k = numerical_flux rs (7/5) 0 AX (as_cell (fun r => up r (k - 1)%Z)) (as_cell (fun r => lo r k)) (row_of v).

(** the periodic line of cells that repeats n cells, and its primitive variables *)
Definition around (n : Z) (u : Z -> Z -> R) : Z -> Z -> R := fun v k => u v (k mod n)%Z.
Definition gas_line (n : Z) (u : Z -> Z -> R) : Z -> Z -> R := fun v k => gas (fun r => around n u r k) v.
(** k is the rate of change of the n cell averages u *)
Definition balance (rs : rsolver) (space n : Z) (u k : Z -> Z -> R) : Prop :=
  exists F, face_fluxes rs space (gas_line n u) F /\
    forall v i, (0 <= v <= 2)%Z -> (0 <= i < n)%Z -> k v i = - (F v (i + 1)%Z - F v i) / (1 / IZR n).
(** s is the largest signal speed of the cells *)
Definition signal (w : Z -> R) : R := Rabs (w 1%Z) + sqrt (7/5 * w 2%Z / w 0%Z).
Definition top_speed (n : Z) (u : Z -> Z -> R) (s : R) : Prop :=
  (forall i, (0 <= i < n)%Z -> signal (gas (fun r => u r i)) <= s) /\
  exists i, (0 <= i < n)%Z /\ s = signal (gas (fun r => u r i)).

(** Butcher tableaux: rows of the matrix, and the final weights *)
Definition tableau (time : Z) : list (list R) * list R :=
  match time with
  | 1%Z => ([[]], [1])
  | 2%Z => ([[]; [1/2]], [0; 1])
  | 3%Z => ([[]; [1/3]; [0; 2/3]], [1/4; 0; 3/4])
  | _ => ([[]; [1/2]; [0; 1/2]; [0; 0; 1]], [1/6; 1/3; 1/3; 1/6])
  end.
Fixpoint dot (a : list R) (b : list R) : R :=
  match a, b with x :: a, y :: b => x * y + dot a b | _, _ => 0 end.
Definition ssum (a : list R) : R := fold_right Rplus 0 a.
(** sum over j of a_j k_j *)
Definition mix (a : list R) (ks : list (Z -> Z -> R)) (v i : Z) : R := dot a (map (fun k => k v i) ks).
Definition runge_kutta (rs : rsolver) (space n : Z) (dt : R) (T : list (list R) * list R) (u u' : Z -> Z -> R) : Prop :=
  exists ks, List.length ks = List.length (fst T) /\
    (forall j, (j < List.length ks)%nat -> exists y,
       (forall v i, (0 <= v <= 2)%Z -> (0 <= i < n)%Z -> y v i = u v i + dt * mix (nth j (fst T) []) ks v i) /\
       balance rs space n y (nth j ks (fun _ _ => 0))) /\
    forall v i, (0 <= v <= 2)%Z -> (0 <= i < n)%Z -> u' v i = u v i + dt * mix (snd T) ks v i.
(** the classical conditions for order 1, 2, 3 and 4 *)
Definition order_conditions (T : list (list R) * list R) (p : Z) : Prop :=
  let A := fst T in let b := snd T in
  let c := map ssum A in
  let on (x : list R) := map (fun row => dot row x) A in
  let times (x y : list R) := map (fun q => fst q * snd q) (combine x y) in
  ssum b = 1 /\
  ((2 <= p)%Z -> dot b c = 1/2) /\
  ((3 <= p)%Z -> dot b (times c c) = 1/3 /\ dot b (on c) = 1/6) /\
  ((4 <= p)%Z -> dot b (times c (times c c)) = 1/4 /\ dot b (times c (on c)) = 1/8 /\
     dot b (on (times c c)) = 1/12 /\ dot b (on (on c)) = 1/24).

(** content of the n cells *)
Definition content (n : Z) (u : Z -> Z -> R) (v : Z) : R := sum_to (Z.to_nat n) (u v).
(** the run: states u_0, u_1, ... with time steps dt_0, dt_1, ... *)
Definition chain (step : (Z -> Z -> R) -> (Z -> Z -> R) -> R -> Prop) (us : list (Z -> Z -> R)) (dts : list R) : Prop :=
  List.length us = S (List.length dts) /\
  forall j, (j < List.length dts)%nat -> step (nth j us (fun _ _ => 0)) (nth (S j) us (fun _ _ => 0)) (nth j dts 0).
Definition solver_named (rs : string) : option rsolver :=
  if String.eqb rs "llf" then Some RS_llf else if String.eqb rs "hllc" then Some RS_hllc else None.
(** the seven initial conditions that exist *)
Definition known_ics : list string :=
  ["sod test"; "toro test1"; "toro test2"; "toro test3"; "shu osher"; "supersonic blob"; "sedov"]%string.
(** density, velocity, pressure in cell i of n, whose centre is x = (i + 1/2) / n *)
Definition start (ic : string) (n i : Z) : R * R * R :=
  let x := (IZR i + 1/2) / IZR n in
  if String.eqb ic "sod test" then (if Rlt_dec x (1/2) then (1, 0, 1) else (1/8, 0, 1/10))
  else if String.eqb ic "toro test1" then (if Rlt_dec x (3/10) then (1, 3/4, 1) else (1/8, 0, 1/10))
  else if String.eqb ic "toro test2" then (if Rlt_dec x (1/2) then (1, -2, 2/5) else (1, 2, 2/5))
  else if String.eqb ic "toro test3" then (if Rlt_dec x (1/2) then (1, 0, 1000) else (1, 0, 1/100))
  else if String.eqb ic "shu osher" then
    (if Rlt_dec x (1/10) then (3857143/1000000, 2629369/1000000, 1033333/100000) else (1 + 1/5 * sin (5 * (10 * x - 5)), 0, 1))
  else if String.eqb ic "supersonic blob" then
    (if Rlt_dec (2/5) x then if Rlt_dec x (3/5) then (10, 3 * sqrt (50/3), 1) else (1/10, 0, 1) else (1/10, 0, 1))
  else (* sedov *) (1, 0, if ((i =? n / 2) || (i =? n / 2 + 1))%Z then IZR n / 5 else 1/100000).
(** a run that returned k states and ended with t *)
Definition runs_to {N : Num} (r : res (list (mat N) * car N)) (k : nat) (t : car N) : Prop :=
  exists us, r = Ok (us, t) /\ List.length us = k.
