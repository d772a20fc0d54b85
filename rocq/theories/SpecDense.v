(** Vocabulary for positive densities in limited runs. *)
From Coq Require Import ZArith List Reals.
From Verif Require Import Err Num NdArray StencilsM FvM RiemannM BcM LimitM OdeM SolverM Spec SpecBc SpecSolver SpecScheme SpecSym SpecDrift.
Open Scope R_scope.

Definition dense (u : arr R) : Prop := forall i, in_shape (shp u) i -> 0 < at_ u 0%Z i.
(** primitive variables of cell i, which may be a ghost cell *)
Definition cell_prim (c : config RNum) (u : arr R) (i : ix) (v : Z) : R := primitive (c_gamma c) (fun r => filled c u r i) v.
(** the linear reconstruction with limited slopes at the upper (e = 1) or lower (e = -1) face of cell i normal to d *)
Definition face_prim (c : config RNum) (u : arr R) (d : axis) (e : R) (i : ix) (v : Z) : R :=
  let w j := cell_prim c u j v in
  let s := match c_limiter c with L_minmod => minmod RNum | _ => moncen RNum end in
  w i + e * (if (0 <? getc d (c_p c))%Z then 1/2 * s (w i - w (up d (-1) i)) (w (up d 1 i) - w i) else 0).
(** no signal along d of the reconstruction in the cells or next to the domain is faster than S d *)
Definition slow (c : config RNum) (S : axis -> R) (u : arr R) : Prop :=
  forall d i m e, ~ inactive c d -> (-1 <= m <= 1)%Z -> in_shape (c_n c) (up d m i) -> e = 1 \/ e = -1 ->
    let w := face_prim c u d e i in Rabs (vel d w) + sound (c_gamma c) (c_csq_floor c) w <= S d.
