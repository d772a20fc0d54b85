(** Vocabulary for gas seen from a frame that moves along an axis. *)
From Coq Require Import ZArith List Reals.
From Verif Require Import Err Num NdArray StencilsM FvM BcM OdeM SolverM Spec SpecBc SpecSolver SpecScheme SpecSym.
Import ListNotations.
Open Scope Z_scope.

(** the conserved variables of one cell after the speed W along axis a is added to the
    velocity: the momentum along a and the energy change *)
Definition boost {N : Num} (W : car N) (a : axis) (q : Z -> car N) (r : Z) : car N :=
  if r =? comp a then nadd (q r) (nmul W (q 0))
  else if r =? 4 then nadd (q 4) (nadd (nmul W (q (comp a))) (nmul (nmul nhalf (nmul W W)) (q 0)))
  else q r.
(** u' is u with the speed W along a added *)
Definition boosted {N : Num} (W : car N) (a : axis) (u u' : arr (car N)) : Prop :=
  rows u' = rows u /\ shp u' = shp u /\
  forall v i, in_shape (shp u) i -> at_ u' v i = boost W a (fun r => at_ u r i) v.
(** primitive variables: the velocity along a differs by W, nothing else, in the cells where
    the density is not zero *)
Definition drifting (W : R) (a : axis) (w w' : arr R) : Prop :=
  rows w' = rows w /\ shp w' = shp w /\
  forall v i, in_shape (shp w) i -> at_ w 0 i <> 0%R ->
    at_ w' v i = (at_ w v i + if v =? comp a then W else 0)%R.
(** the cells whose central values have a say in the fluxes through the faces of the domain *)
Definition centre_zone (c : config RNum) (i : ix) : Prop :=
  forall a, let s := half_up (getc a (c_p c)) in
    let g := if inactive_b c a then 0 else Z.max (2 * s + 1) (3 * s) in
    - g <= getc a i < getc a (c_n c) + g.
(** nowhere there the density at the centre of a cell is zero *)
Definition dense_centres (wi : Z -> ipos -> list R) (c : config RNum) (E : grid) : Prop :=
  forall i, centre_zone c i -> block (fun a => wi (getc a (c_p c)) P_c) E 0 i <> 0%R.
(** The same run seen from the moving frame: clock, history and times of the snapshots are
    the same, states and (if the snapshots hold central values) primitive variables differ by
    the speed. *)
Record run_boosted (as_averages : bool) (W : R) (a : axis) (o o' : run RNum) : Prop := {
  rb_t : o_t o' = o_t o;
  rb_stamps : o_stamps o' = o_stamps o;
  rb_steps : o_steps o' = o_steps o;
  rb_u : boosted (N := RNum) W a (o_u o) (o_u o');
  rb_snaps : Forall2 (fun s s' => fst s' = fst s /\
      (as_averages = false -> drifting W a (fst (snd s)) (fst (snd s')))) (o_snaps o) (o_snaps o')
}.
