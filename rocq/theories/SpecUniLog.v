(** Vocabulary for uniform states and the trouble detector. *)
From Coq Require Import ZArith List Reals.
From Verif Require Import Err Num NdArray LimitM SolverM Spec SpecLim.
Open Scope Z_scope.

(** The detector finds fault with a gas that has the primitive variables s everywhere and always:
    they violate the last physical bound, or the bounds of the neighbourhood are taken relative to
    the value itself and one of the variables it looks at is negative. *)
Definition faulted (q : nad_params RNum) (s : Z -> R) : Prop :=
  violates_last (pad_bounds q) s \/
  nad_range_ q = R_absolute /\ exists v, selected q 5 v /\ (nad_eps q * s v < 0)%R.
