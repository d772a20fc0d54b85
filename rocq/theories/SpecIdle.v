(** Vocabulary for boundary conditions on axes without ghost cells. *)
From Coq Require Import ZArith Bool.
From Verif Require Import Num NdArray FvM StencilsM BcM SolverM SpecSolver SpecSym.
Open Scope Z_scope.

(** the ghost cells of this type are computed from given values or functions *)
Definition prescribed (ty : bct) : Prop := ty = B_dirichlet \/ ty = B_ic \/ ty = B_dmr.
(** b and b' say the same about both ends of the axis *)
Definition same_ends {N} (b b' : bcond N) (a : axis) : Prop :=
  forall pos, bc_type b' a pos = bc_type b a pos /\
    (prescribed (bc_type b a pos) -> bc_val b' a pos = bc_val b a pos /\ bc_slabs b' = bc_slabs b /\ bc_cupy b' = bc_cupy b).
Definition same_where_active {N} (c : config N) (b' : bcond N) : Prop := forall a, ~ inactive c a -> same_ends (c_bc c) b' a.
