(** Vocabulary for several walls as planes of symmetry, and for blasts in a corner. *)
From Coq Require Import ZArith List Bool Reals String.
From Verif Require Import Err Num NdArray HydroM StencilsM FvM RiemannM BcM LimitM OdeM SolverM Spec SpecSolver SpecCons SpecScheme SpecSym SpecFold SpecIC.
Import ListNotations.
Open Scope Z_scope.

Definition listed_axis (a : axis) (l : list axis) : bool := existsb (axis_eqb a) l.
(** as many cells again along the axes of the list *)
Definition twice_along (l : list axis) (n : ix) : ix :=
  let t a := if listed_axis a l then 2 * getc a n else getc a n in mkix (t AX) (t AY) (t AZ).
(** the domain continued behind its lower ends along the axes of the list *)
Definition continued {N} (l : list axis) (b' : bcond N) (c : config N) : config N :=
  mkcfg (twice_along l (c_n c)) (c_p c)
    (fun a => if listed_axis a l then (nsub (nmul (nofZ 2) (fst (c_bounds c a))) (snd (c_bounds c a)), snd (c_bounds c a)) else c_bounds c a)
    (c_CFL c) (c_fixed_dt c) (c_gamma c) (c_csq_floor c)
    (c_rs c) b' (c_limit c) (c_limiter c) (c_force c) (c_nad c) (c_convex c).
(** b' has the types of the boundary conditions of c on the active axes, but at the lower ends
    of the axes of the list those of the upper ends; on the other axes it may be anything *)
Definition upper_at_all_ends {N} (l : list axis) (c : config N) (b' : bcond N) : Prop :=
  forall a pos, ~ inactive c a -> bc_type b' a pos = bc_type (c_bc c) a (if listed_axis a l then SR else pos).
(** the cell of n cells of which cell i of the continued domain is an image *)
Definition original (l : list axis) (n i : ix) : ix :=
  let t a := if listed_axis a l then (if getc a n <=? getc a i then getc a i - getc a n else getc a n - 1 - getc a i) else getc a i in
  mkix (t AX) (t AY) (t AZ).
(** u' is u together with its mirror images in the planes through the lower ends of the axes
    of the list, and the images of the images *)
Definition opened {N} (l : list axis) (u u' : arr (car N)) : Prop :=
  rows u' = rows u /\ shp u' = twice_along l (shp u) /\
  forall v i, in_shape (shp u') i ->
    let x := at_ u v (original l (shp u) i) in
    at_ u' v i = if existsb (fun a => (v =? comp a) && (getc a i <? getc a (shp u))) l then nopp x else x.
(** the options of the slope limiting do not break the symmetry in those planes *)
Definition limiting_fair (l : list axis) (c : config RNum) : Prop :=
  known_options c /\ (c_convex c = false \/ flat_box c) /\ (c_force c = true \/ forall a, In a l -> wall_fair a (c_nad c)).
(** the fluxes are those of the scheme of degree zero, or of limited slopes *)
Definition low_order (c : config RNum) : Prop :=
  (c_limit c = false /\ forall a, getc a (c_p c) = 0) \/
  (c_limit c = true /\ c_force c = true /\ known_options c /\ (c_convex c = false \/ flat_box c) /\ (c_limiter c = L_minmod \/ c_limiter c = L_moncen)).
(** the axes with a letter in the string *)
Definition named_axes (dims : string) : list axis := filter (fun a => in_dims a dims) [AX; AY; AZ].
(** a domain for a blast in the corner: walls at the lower ends of the named axes, which have
    at least two cells; one cell along the others *)
Record blast_corner {N} (dims : string) (c : config N) : Prop := {
  bl_some : named_axes dims <> [];
  bl_wall : forall a, in_dims a dims = true -> bc_type (c_bc c) a SL = B_reflective;
  bl_cells : forall a, in_dims a dims = true -> 2 <= getc a (c_n c);
  bl_thin : forall a, in_dims a dims = false -> getc a (c_n c) = 1
}.
