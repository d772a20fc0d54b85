(** Vocabulary for a wall as a plane of symmetry. *)
From Coq Require Import ZArith List Reals.
From Verif Require Import Err Num NdArray HydroM StencilsM FvM RiemannM BcM LimitM OdeM SolverM Spec SpecBc SpecLim SpecSolver SpecCons SpecScheme SpecSym.
Open Scope Z_scope.

(** the domain continued behind its lower end along axis d by as many cells again, with
    boundary conditions b' *)
Definition doubled {N} (d : axis) (b' : bcond N) (c : config N) : config N :=
  mkcfg (setc d (2 * getc d (c_n c)) (c_n c)) (c_p c)
    (fun a => if axis_eqb a d then (nsub (nmul (nofZ 2) (fst (c_bounds c a))) (snd (c_bounds c a)), snd (c_bounds c a)) else c_bounds c a)
    (c_CFL c) (c_fixed_dt c) (c_gamma c) (c_csq_floor c)
    (c_rs c) b' (c_limit c) (c_limiter c) (c_force c) (c_nad c) (c_convex c).
(** b' has the types of b, but at the lower end of axis d the type of its upper end *)
Definition upper_at_both_ends {N} (d : axis) (b b' : bcond N) : Prop :=
  forall a pos, bc_type b' a pos = bc_type b a (if axis_eqb a d then SR else pos).
(** u' is u together with its mirror image in the plane through the lower end of axis d *)
Definition unfolded {N} (d : axis) (u u' : arr (car N)) : Prop :=
  let m := getc d (shp u) in
  rows u' = rows u /\ shp u' = setc d (2 * m) (shp u) /\
  forall v i, in_shape (shp u') i ->
    at_ u' v i = if m <=? getc d i then at_ u v (setc d (getc d i - m) i)
                 else let x := at_ u v (setc d (m - 1 - getc d i) i) in if v =? comp d then nopp x else x.
(** The trouble detection sees the same in the half and in the doubled domain: the
    smooth-extrema detector is off, the velocity along d is not looked at, or its admissible
    range has a tolerance relative to the local spread, and the bounds in force are not bounds
    of that velocity. *)
Definition wall_fair (d : axis) (q : nad_params RNum) : Prop :=
  sed_on q = false /\ ((nad_range_ q = R_relative /\ nad_mode_ q = M_local) \/ ~ selected q 5 (comp d)) /\
  (forall l e, pad_bounds q = Some (l ++ cons e nil)%list -> fst e <> comp d).
