(** Specification of the uniform mesh. *)
From Coq Require Import ZArith Reals.
From Verif Require Import NdArray FvM.
Local Open Scope R_scope.

(** centre of cell k of the mesh of n equal cells on [lo, hi]; k may be negative or
    exceed n - 1: such cells continue the mesh outside the domain *)
Definition centre (lo hi : R) (n k : Z) : R := lo + (IZR k + 1/2) * ((hi - lo) / IZR n).

(** global cell index of entry k of a slab along axis a *)
Definition slab_index (dim a : axis) (pos : side) (n gw k : Z) : Z :=
  if axis_eqb dim a then match pos with SL => k - gw | SR => n + k end else k - gw.


(** coordinate array along an axis of a triple (X, Y, Z), and the matching bounds *)
Definition coord (m : arr R * arr R * arr R) (a : axis) : arr R :=
  match m, a with (x, _, _), AX => x | (_, y, _), AY => y | (_, _, z), AZ => z end.
Definition bnd (bx by_ bz : R * R) (a : axis) : R * R :=
  match a with AX => bx | AY => by_ | AZ => bz end.

