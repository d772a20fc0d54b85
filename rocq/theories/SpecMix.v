(** Vocabulary for the concentrations of passive scalars. *)
From Coq Require Import ZArith Reals.
From Verif Require Import Err Num NdArray Spec SpecBc.
Open Scope R_scope.

(** the conserved amount in row v is between lo and hi times the density, in every cell *)
Definition mixed_within (lo hi : R) (v : Z) (u : arr R) : Prop :=
  forall i, in_shape (shp u) i -> lo * at_ u 0 i <= at_ u v i <= hi * at_ u 0 i.
(** the same said of primitive variables: the concentration in row v is between lo and hi *)
Definition concentration_within (lo hi : R) (v : Z) (w : arr R) : Prop :=
  forall i, in_shape (shp w) i -> lo <= at_ w v i <= hi.
