(** Vocabulary for exactness of the whole right-hand side: a gas of uniform velocity and
    pressure whose density varies in space, its conservation law, and the cells a right-hand
    side depends on. *)
From Coq Require Import ZArith List Reals.
From Coquelicot Require Import Coquelicot.
From Verif Require Import Num NdArray SolverM Spec SpecPoly SpecSolver SpecScheme.
Open Scope R_scope.

(** density [r], velocity V, pressure P, passive concentrations s *)
Definition drifting (V : axis -> R) (P : R) (s : Z -> R) (r : R) : state := fun q =>
  match q with
  | 0%Z => r | 1%Z => V AX | 2%Z => V AY | 3%Z => V AZ | 4%Z => P
  | _ => s q
  end.
(** coordinate of the centre of the cells numbered k along an axis *)
Definition middle_of (c : config RNum) (a : axis) (k : Z) : R :=
  fst (c_bounds c a) + (IZR k + 1/2) * width c a.
(** mean of a function of space over a cell *)
Definition cell_mean (c : config RNum) (f : R -> R -> R -> R) (i : ix) : R :=
  average3 f (middle_of c AX (cx i)) (middle_of c AY (cy i)) (middle_of c AZ (cz i))
    (width c AX) (width c AY) (width c AZ).
(** the point lies in the cell or on its surface *)
Definition in_cell (c : config RNum) (i : ix) (x y z : R) : Prop :=
  Rabs (x - middle_of c AX (cx i)) <= width c AX / 2 /\
  Rabs (y - middle_of c AY (cy i)) <= width c AY / 2 /\
  Rabs (z - middle_of c AZ (cz i)) <= width c AZ / 2.
(** divergence of a vector field *)
Definition divergence (F : axis -> R -> R -> R -> R) (x y z : R) : R :=
  Derive (fun x' => F AX x' y z) x + Derive (fun y' => F AY x y' z) y + Derive (fun z' => F AZ x y z') z.
(** how far the right-hand side looks along an axis *)
Definition reach (c : config RNum) (a : axis) : Z :=
  if inactive_b c a then 0%Z
  else let q := half_up (getc a (c_p c)) in Z.max (3 * q + 1) (4 * q).
Definition seen_from (c : config RNum) (i j : ix) : Prop :=
  forall a, (Z.abs (getc a j - getc a i) <= reach c a)%Z.

(** a density carried along for a time t by the velocity V *)
Definition carried (V : axis -> R) (t : R) (f : R -> R -> R -> R) : R -> R -> R -> R :=
  fun x y z => f (x - t * V AX) (y - t * V AY) (z - t * V AZ).
(** every term has total degree at most n *)
Definition total_degree (n : nat) (l : list mono) : Prop :=
  List.Forall (fun t : mono => let '(_, (a, b, c)) := t in (a + b + c <= n)%nat) l.
(** the density changes by less than its value while it is carried for a time dt: the first
    three derivatives along the way are small *)
Definition changes_little (V : axis -> R) (dt : R) (f : R -> R -> R -> R) (x y z : R) : Prop :=
  let d k := Derive_n (fun t => carried V t f x y z) k 0 in
  Rabs (dt * d 1%nat) + Rabs (dt ^ 2 * d 2%nat) + Rabs (dt ^ 3 * d 3%nat) < f x y z.
(** j is at most m times as far from i as the right-hand side looks *)
Definition seen_in (m : Z) (c : config RNum) (i j : ix) : Prop :=
  forall a, (Z.abs (getc a j - getc a i) <= m * reach c a)%Z.
