(** Vocabulary for positivity of density and pressure. *)
From Coq Require Import ZArith List Reals.
From Verif Require Import Err Num NdArray StencilsM FvM RiemannM BcM LimitM OdeM SolverM Spec SpecBc SpecSolver SpecScheme.
Open Scope R_scope.

(** positive density and positive internal energy *)
Definition gas (u : state) : Prop :=
  0 < u 0%Z /\ 0 < u 4%Z - 1/2 * (u 1%Z * u 1%Z + u 2%Z * u 2%Z + u 3%Z * u 3%Z) / u 0%Z.
Definition gas_everywhere (u : arr R) : Prop := forall i, in_shape (shp u) i -> gas (fun r => at_ u r i).
(** positive density and pressure, for primitive variables *)
Definition positive_everywhere (w : arr R) : Prop := forall i, in_shape (shp w) i -> 0 < at_ w 0 i /\ 0 < at_ w 4 i.
Definition active_axes (c : config RNum) : R :=
  (if inactive_b c AX then 0 else 1) + (if inactive_b c AY then 0 else 1) + (if inactive_b c AZ then 0 else 1).
(** first order: piecewise constant data in every direction *)
Definition first_order {N} (c : config N) : Prop := forall a, getc a (c_p c) = 0%Z.
(** the test for positive density and internal energy in any arithmetic *)
Definition gas_test {N} (u : arr (car N)) : bool :=
  List.forallb (fun i =>
    let m v := nmul (at_ u v i) (at_ u v i) in
    andb (nltb (nofZ 0) (at_ u 0%Z i))
      (nltb (ndiv (nmul nhalf (nadd (nadd (m 1%Z) (m 2%Z)) (m 3%Z))) (at_ u 0%Z i)) (at_ u 4%Z i))) (ix_list (shp u)).
