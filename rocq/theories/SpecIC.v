(** Vocabulary for initial conditions. *)
From Coq Require Import ZArith List Bool String Ascii Reals.
From Verif Require Import Err Num PySlice NdArray HydroM FvM BcM OdeM SolverM ICM Spec SpecHs SpecMesh SpecSolver SpecCons SpecScheme SpecPos.
Import ListNotations.
Open Scope R_scope.

(** the elementary functions over the real numbers *)
Definition real_elem : elem RNum := @mkelem RNum sin exp tan PI.
(** the string contains the letter of the axis *)
Definition in_dims (a : axis) (dims : string) : bool := existsb (Ascii.eqb (letter a)) (list_ascii_of_string dims).
(** sum of the coordinates that the string names *)
Definition named_sum (dims : string) (x y z : R) : R :=
  (if in_dims AX dims then x else 0) + (if in_dims AY dims then y else 0) + (if in_dims AZ dims then z else 0).
Definition position (a : axis) (x y z : R) : R := match a with AX => x | AY => y | AZ => z end.

(** the values of the five rows in one cell *)
Definition cell_is (s : Z -> R) (rho vx vy vz P : R) : Prop :=
  s 0%Z = rho /\ s 1%Z = vx /\ s 2%Z = vy /\ s 3%Z = vz /\ s 4%Z = P.
(** motion along one axis only *)
Definition cell_along (a : axis) (s : Z -> R) (rho v P : R) : Prop :=
  match a with AX => cell_is s rho v 0 0 P | AY => cell_is s rho 0 v 0 P | AZ => cell_is s rho 0 0 v P end.
(** the function accepts every mesh and returns five rows of the shape of the mesh; in a cell with
    coordinates x, y, z the five values s satisfy [P x y z s] *)
Definition assigns (f : ic RNum) (P : R -> R -> R -> (Z -> R) -> Prop) : Prop :=
  forall x y z : arr R, exists w, f (x, y, z) = Ok w /\ rows w = 5%Z /\ shp w = shp x /\
    forall i, P (at_ x 0%Z i) (at_ y 0%Z i) (at_ z 0%Z i) (fun v => at_ w v i).
(** the function refuses every mesh *)
Definition refuses (f : ic RNum) (e : exn) : Prop := forall m, f m = Err e.
Definition positive_ic (f : ic RNum) : Prop := assigns f (fun _ _ _ s => 0 < s 0%Z /\ 0 < s 4%Z).

(** the box (1/4, 3/4) in the named directions *)
Definition inside_box (dims : string) (x y z : R) : Prop :=
  forall a, in_dims a dims = true -> 1/4 < position a x y z < 3/4.
(** a disk of radius 0.15 around (1/2, 3/4) without a slot of width 0.05 that ends at y = 0.85 *)
Definition inside_disk (x y : R) : Prop :=
  (x - 1/2) * (x - 1/2) + (y - 3/4) * (y - 3/4) < (15/100) * (15/100) /\
  ~ (-25/1000 < x - 1/2 < 25/1000 /\ y < 85/100).
(** the closed ball in the named directions *)
Definition inside_ball (dims : string) (c : axis -> R) (r x y z : R) : Prop :=
  (if in_dims AX dims then (x - c AX) * (x - c AX) else 0) +
  (if in_dims AY dims then (y - c AY) * (y - c AY) else 0) +
  (if in_dims AZ dims then (z - c AZ) * (z - c AZ) else 0) <= r * r.
Definition inside_cube (cube : axis -> option (R * R)) (x y z : R) : Prop :=
  forall a lo hi, cube a = Some (lo, hi) -> lo <= position a x y z <= hi.
(** one of two states, by region *)
Definition by_region (region : Prop) (s inside outside : Z -> R) : Prop :=
  (region -> forall v, (0 <= v < 5)%Z -> s v = inside v) /\ (~ region -> forall v, (0 <= v < 5)%Z -> s v = outside v).
Definition rows_of (rho vx vy vz P : R) (v : Z) : R := nth (Z.to_nat v) [rho; vx; vy; vz; P] 0.

(** ** the blast wave *)
(** the two middle cells of n *)
Definition middle (n k : Z) : bool := ((k =? n / 2 - 1) || (k =? n / 2))%Z.
Definition middle_cell (dims : string) (n i : ix) : bool :=
  forallb (fun a => negb (in_dims a dims) || middle (getc a n) (getc a i)) [AX; AY; AZ].
Definition corner_cell (i : ix) : bool := forallb (fun a => (getc a i =? 0)%Z) [AX; AY; AZ].
(** product over the named directions *)
Definition over_named (dims : string) (f : axis -> R) : R :=
  (if in_dims AX dims then f AX else 1) * (if in_dims AY dims then f AY else 1) * (if in_dims AZ dims then f AZ else 1).
Definition over_unnamed (dims : string) (f : axis -> R) : R :=
  (if in_dims AX dims then 1 else f AX) * (if in_dims AY dims then 1 else f AY) * (if in_dims AZ dims then 1 else f AZ).
(** at least one cell in every direction, and two cells of positive size in the named ones *)
Definition blast_size (c : config RNum) (dims : string) : Prop :=
  forall a, (1 <= getc a (c_n c))%Z /\ (in_dims a dims = true -> (2 <= getc a (c_n c))%Z /\ 0 < spacing RNum c a).
(** the cells of the mesh of the configuration *)
Definition mesh_of (c : config RNum) : meshes RNum :=
  mesh RNum (c_n c) (c_bounds c AX) (c_bounds c AY) (c_bounds c AZ).

(** ** the initial state *)
(** value of row v at a point: the core rows, then one row per passive scalar in order *)
Definition point_value (f : R -> R -> R -> Z -> R) (fs : list (string * (R -> R -> R -> R))) (x y z : R) (v : Z) : R :=
  if (v <? 5)%Z then f x y z v
  else match nth_error fs (Z.to_nat (v - 5)) with Some (_, g) => g x y z | None => 0 end.
Definition listed (fs : option (list (string * (R -> R -> R -> R)))) : list (string * (R -> R -> R -> R)) :=
  match fs with Some l => l | None => [] end.
(** centre of cell i along axis a *)
Definition cell_centre (c : config RNum) (a : axis) (i : ix) : R :=
  centre (fst (c_bounds c a)) (snd (c_bounds c a)) (getc a (c_n c)) (getc a i).
(** every rule has positive weights and at least one point *)
Definition positive_rules (lg : Z -> list (R * R)) : Prop :=
  forall k, (1 <= k)%Z -> lg k <> [] /\ forall q, In q (lg k) -> 0 < snd q.
(** the weights of every rule sum to the length of [-1, 1] *)
Definition unit_rules (lg : Z -> list (R * R)) : Prop :=
  forall k, (1 <= k)%Z -> fold_right Rplus 0 (map snd (lg k)) = 2.
