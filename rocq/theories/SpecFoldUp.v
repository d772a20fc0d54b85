(** Vocabulary for a wall at the upper end of an axis. *)
From Coq Require Import ZArith List Bool.
From Verif Require Import Err Num NdArray FvM StencilsM BcM LimitM OdeM SolverM Spec SpecSolver.
Open Scope Z_scope.

(** the domain continued beyond its upper end along axis d by as many cells again, with
    boundary conditions b' *)
Definition doubled_up {N} (d : axis) (b' : bcond N) (c : config N) : config N :=
  mkcfg (setc d (2 * getc d (c_n c)) (c_n c)) (c_p c)
    (fun a => if axis_eqb a d then (fst (c_bounds c a), nsub (nmul (nofZ 2) (snd (c_bounds c a))) (fst (c_bounds c a))) else c_bounds c a)
    (c_CFL c) (c_fixed_dt c) (c_gamma c) (c_csq_floor c)
    (c_rs c) b' (c_limit c) (c_limiter c) (c_force c) (c_nad c) (c_convex c).
(** b' has the types of b, but at the upper end of axis d the type of its lower end *)
Definition lower_at_both_ends {N} (d : axis) (b b' : bcond N) : Prop :=
  forall a pos, bc_type b' a pos = bc_type b a (if axis_eqb a d then SL else pos).
(** u' is u together with its mirror image in the plane through the upper end of axis d *)
Definition unfolded_up {N} (d : axis) (u u' : arr (car N)) : Prop :=
  let m := getc d (shp u) in
  rows u' = rows u /\ shp u' = setc d (2 * m) (shp u) /\
  forall v i, in_shape (shp u') i ->
    at_ u' v i = if getc d i <? m then at_ u v i
                 else let x := at_ u v (setc d (2 * m - 1 - getc d i) i) in if v =? comp d then nopp x else x.
