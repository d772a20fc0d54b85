(** Vocabulary for conservation, uniform flow and symmetry. *)
From Coq Require Import ZArith List Bool Reals.
From Verif Require Import Err Num NdArray FvM BcM LimitM OdeM SolverM Spec SpecBc SpecSolver.
Import ListNotations.
Open Scope Z_scope.

(** f 0 + ... + f (n - 1) *)
Fixpoint sum_to (n : nat) (f : Z -> R) : R :=
  match n with O => 0%R | S m => (sum_to m f + f (Z.of_nat m))%R end.
(** sum over the cells of an n.x by n.y by n.z grid *)
Definition total (n : ix) (f : ix -> R) : R :=
  sum_to (Z.to_nat (cx n)) (fun x => sum_to (Z.to_nat (cy n)) (fun y =>
    sum_to (Z.to_nat (cz n)) (fun z => f (mkix x y z)))).

(** both ends of the axis have the given type, and there are as many cells as ghost cells *)
Definition both_ends {N} (ty : bct) (c : config N) (a : axis) : Prop :=
  (forall pos, bc_type (c_bc c) a pos = ty) /\ ghost_zones c a <= getc a (c_n c).
(** every axis is either inactive or has both ends of the given type *)
Definition all_ends {N} (ty : bct) (c : config N) : Prop :=
  forall a, ~ inactive c a -> both_ends ty c a.
(** the ghost cells of every active axis are copies of cells of the domain *)
Definition closed {N} (c : config N) : Prop :=
  forall a, copy_axis (c_bc c) (c_n c) (ghost_zones3 c) a.
(** a configuration the weight tables cover *)
Definition tabulated {N} (c : config N) : Prop := sane c /\ forall a, getc a (c_p c) <= 8.

(** every cell of the array holds the same state *)
Definition uniform {A} (u : arr A) (s : Z -> A) : Prop :=
  forall v i, in_shape (shp u) i -> at_ u v i = s v.

(** no active axis has a reflective end *)
Definition no_walls {N} (c : config N) : Prop :=
  forall a pos, ~ inactive c a -> bc_type (c_bc c) a pos <> B_reflective.
(** the state s has no momentum normal to the reflective ends of active axes *)
Definition along_walls (c : config RNum) (s : Z -> R) : Prop :=
  forall a pos, ~ inactive c a -> bc_type (c_bc c) a pos = B_reflective -> s (comp a) = 0%R.
(** the boundary conditions define every ghost cell of a state with q rows *)
Definition fillable {N} (xc : axis -> Z -> car N) (c : config N) (q : Z) : Prop :=
  forall a, axis_ok xc (c_bc c) q (c_n c) (ghost_zones3 c) a.
(** one more face than cells along the axis *)
Definition interface_shape (d : axis) (n : ix) : ix := setc d (getc d n + 1) n.
(** one array per direction, shaped like the interfaces *)
Definition interface_arrays {A} (n : ix) (q : Z) (F : axis -> arr A) : Prop :=
  forall d, rows (F d) = q /\ shp (F d) = interface_shape d n.

(** A run that stops with an exception as soon as the right-hand side is to be evaluated for
    a state that fails the test [ok]. *)
Definition checked {N} (ok : arr (car N) -> bool) (f : aux N -> car N -> car N -> arr (car N) -> res (aux N * (car N * arr (car N)))) :=
  fun x self_t t u => if ok u then f x self_t t u else Err ValueError.
Definition simulate_checked {N} (ok : arr (car N) -> bool) (c : config N) (heap : Z -> Z -> ix -> car N) (i : integrator)
  (as_averages : bool) (T : option (car N)) (n : option Z) (exact : bool) (downbeats : list (car N)) (log_every_step : bool)
  (fuel : nat) (u0 : arr (car N)) : res (run N) :=
  integrate N (arr_ops N) (stepper_of N (arr_ops N) (checked ok (solver_f N c heap)) i) (step_helper N c)
    (snap_payload N c heap as_averages) T n exact downbeats log_every_step fuel
    (ode_init N u0 (aux_init N c heap (rows u0))).

(** The density that the scheme of degrees p computes at cell centres does not vanish in any
    cell or ghost cell of the state u. *)
Definition no_vacuum {N} (c : config N) (p : ix) (u : arr (car N)) : Prop :=
  forall junk t gw w, (forall a, 0 <= getc a gw /\ getc a gw + half_up (getc a p) <= ghost_zones c a) ->
    interpolate_primitives N c junk t u p gw false = Ok w ->
    forall i, in_shape (shp w) i -> at_ w 0 i <> nofZ 0.
(** row v is the same multiple of row 0 (the density) in every cell: a passive scalar whose
    concentration is phi everywhere *)
Definition proportional (phi : R) (v : Z) (u : arr R) : Prop :=
  forall i, in_shape (shp u) i -> at_ u v i = (phi * at_ u 0 i)%R.
