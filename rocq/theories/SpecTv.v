(** Vocabulary for the total variation along the only active axis. *)
From Coq Require Import ZArith QArith Qabs List Bool Reals.
From Verif Require Import Err Num NdArray FvM BcM LimitM OdeM SolverM Spec SpecBc SpecSolver SpecCons SpecScheme.
Local Open Scope R_scope.

(** the only axis along which anything can change *)
Definition only_axis {N} (c : config N) (d : axis) : Prop := ~ inactive c d /\ forall a, a <> d -> inactive c a.
(** the line of cells closes to a circle, or it ends at both ends *)
Definition ring {N} (c : config N) (d : axis) : bool := match bc_type (c_bc c) d SL with B_periodic => true | _ => false end.
Definition ends_alike {N} (c : config N) (d : axis) : Prop := bc_type (c_bc c) d SL = B_periodic <-> bc_type (c_bc c) d SR = B_periodic.
(** the cell before cell x; before the first one comes the last one of a ring, or nothing *)
Definition before (closed : bool) (n x : Z) : Z := if (x =? 0)%Z then (if closed then n - 1 else 0)%Z else (x - 1)%Z.
(** the sum of the jumps between neighbouring cells *)
Definition jumps (closed : bool) (n : Z) (f : Z -> R) : R := sum_to (Z.to_nat n) (fun x => Rabs (f x - f (before closed n x))).
(** the total variation of the density along axis d, on the line of cells *)
Definition variation {N} (c : config N) (d : axis) (u : arr R) : R :=
  jumps (ring c d) (getc d (c_n c)) (fun x => at_ u 0%Z (setc d x (mkix 0 0 0))).
(** the same in exact rationals *)
Definition variation_Q (c : config QNum) (d : axis) (u : arr Q) : Q :=
  let f x := at_ u 0%Z (setc d x (mkix 0 0 0)) in
  fold_right Qplus 0%Q (map (fun x => Qabs (Qminus (f x) (f (before (ring c d) (getc d (c_n c)) x)))) (zrange (getc d (c_n c)))).
