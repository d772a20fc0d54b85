(** Vocabulary for symmetries of whole runs and for runs with slope limiting. *)
From Coq Require Import ZArith QArith.QArith_base List Bool Reals.
From Verif Require Import Err Num NdArray HydroM StencilsM FvM BcM LimitM OdeM SolverM Spec SpecBc SpecSolver SpecCons SpecScheme.
Import ListNotations.
Open Scope Z_scope.

(** Two runs show the same clock, history and snapshot times, and the states as well as the
    primitive variables of the snapshots are related by Q. *)
Record moved_run {N} (Q : arr (car N) -> arr (car N) -> Prop) (o o' : run N) : Prop := {
  mr_t : o_t o = o_t o';
  mr_stamps : o_stamps o = o_stamps o';
  mr_steps : o_steps o = o_steps o';
  mr_u : Q (o_u o) (o_u o');
  mr_snaps : Forall2 (fun s s' => fst s = fst s' /\ Q (fst (snd s)) (fst (snd s'))) (o_snaps o) (o_snaps o')
}.
(** related results or the same exception *)
Definition moved_outcome {N} (Q : arr (car N) -> arr (car N) -> Prop) (x x' : res (run N)) : Prop :=
  match x, x' with
  | Ok o, Ok o' => moved_run Q o o'
  | Err e, Err e' => e = e'
  | _, _ => False
  end.

(** u' is u moved cyclically by k cells along axis d: what was in cell j + k is now in cell j *)
Definition translated {A} (d : axis) (k : Z) (u u' : arr A) : Prop :=
  rows u' = rows u /\ shp u' = shp u /\
  forall v i, in_shape (shp u) i ->
    at_ u' v i = at_ u v (setc d ((getc d i + k) mod getc d (shp u)) i).

(** sum of a rational quantity over the cells of a grid *)
Definition rational_total (n : ix) (f : ix -> Q) : Q := fold_right (fun i acc => Qplus (f i) acc) 0%Q (ix_list n).
(** With the fluxes the solver computes for u, the trouble detection treats the first and the
    last cell of every line of cells along every active axis alike. *)
Definition seams_agree {N} (c : config N) (u : arr (car N)) : Prop :=
  forall junk t F dt G det, interface_arrays (c_n c) (rows u) F ->
    hydrofluxes N c (junk 0) t F u (c_p c) L_none = Ok (dt, G) ->
    (forall d v i, in_shape (interface_shape d (c_n c)) i -> at_ (F d) v i = at_ (G d) v i) ->
    detect N c junk t u F dt = Ok det ->
    forall d i, ~ inactive c d -> in_shape (c_n c) i ->
      at_ (d_trouble det) 0 (setc d 0 i) = at_ (d_trouble det) 0 (setc d (getc d (c_n c) - 1) i).
(** names of limiter, range and mode the code knows *)
Definition known_options {N} (c : config N) : Prop :=
  c_limiter c <> L_unknown /\ nad_range_ (c_nad c) <> R_unknown /\ nad_mode_ (c_nad c) <> M_unknown.
(** the active axes are one, or two of which z is not a periodic one *)
Definition flat_box {N} (c : config N) : Prop :=
  (exists a, ~ inactive c a /\ forall b, b <> a -> inactive c b) \/
  (exists a, inactive c a /\ (forall b, b <> a -> ~ inactive c b) /\
     (a <> AZ -> exists pos, bc_type (c_bc c) AZ pos <> B_periodic)).
(** the configuration with slope limiting on and the given options *)
Definition with_limiting {N} (convex force : bool) (c : config N) : config N :=
  mkcfg (c_n c) (c_p c) (c_bounds c) (c_CFL c) (c_fixed_dt c) (c_gamma c) (c_csq_floor c) (c_rs c) (c_bc c) true
    (c_limiter c) force (c_nad c) convex.

(** u' is the mirror image of u in a plane normal to d: cells in reverse order along d, and
    the component of the momentum along d negated *)
Definition mirrored (d : axis) (u u' : arr R) : Prop :=
  rows u' = rows u /\ shp u' = shp u /\
  forall v i, in_shape (shp u) i ->
    at_ u' v i = let x := at_ u v (setc d (getc d (shp u) - 1 - getc d i) i) in
                 if v =? comp d then (- x)%R else x.
(** the boundary types at the two ends of axis d exchanged *)
Definition opposite (pos : side) : side := match pos with SL => SR | SR => SL end.
Definition ends_exchanged {N} (d : axis) (b b' : bcond N) : Prop :=
  forall a pos, bc_type b' a pos = bc_type b a (if axis_eqb a d then opposite pos else pos).
(** the state continued into the ghost cells that copy cells of the domain *)
Definition filled (c : config RNum) (u : arr R) : grid := fun v i =>
  let x := at_ u v (folded3 (c_bc c) (c_n c) i) in if negated3 (c_bc c) (c_n c) i v then (- x)%R else x.
(** the cells on both sides of the faces normal to d that the average over a face of the
    domain looks at *)
Definition face_zone (c : config RNum) (d : axis) (i : ix) : Prop :=
  forall a, let g := if inactive_b c a then 0 else if axis_eqb a d then 1 else half_up (getc a (c_p c)) in
    - g <= getc a i < getc a (c_n c) + g.
(** There the traces of the scheme on the grid E have positive density and non-negative
    pressure. *)
Definition physical_traces wi wt (c : config RNum) (E : grid) : Prop :=
  forall d i pos, ~ inactive c d -> face_zone c d i -> pos = P_l \/ pos = P_r ->
    physical (fun r => trace wi (c_p c) None d pos (primitives wi wt (c_p c) (c_gamma c) E) r i).
(** a test that depends on the cells of the array only *)
Definition test_of_cells {A} (ok : arr A -> bool) : Prop :=
  forall u u', rows u = rows u' -> shp u = shp u' ->
    (forall v i, in_shape (shp u) i -> at_ u v i = at_ u' v i) -> ok u = ok u'.
(** every cell holds positive density and non-negative internal energy *)
Definition all_physical (u : arr R) : Prop :=
  forall i, in_shape (shp u) i -> (0 < at_ u 0 i)%R /\
    (0 <= at_ u 4 i - 1/2 * (at_ u 1 i * at_ u 1 i + at_ u 2 i * at_ u 2 i + at_ u 3 i * at_ u 3 i) / at_ u 0 i)%R.

(** ** exchanging the axes *)
(** component a of the new index is component s a of the old one *)
Definition turned (s : axis -> axis) (i : ix) : ix := mkix (getc (s AX) i) (getc (s AY) i) (getc (s AZ) i).
(** u' is u with the axes, and the components of the momentum, exchanged *)
Definition permuted (s : axis -> axis) (u u' : arr R) : Prop :=
  rows u' = rows u /\ shp u' = turned s (shp u) /\
  forall v i, in_shape (shp u) i -> at_ u' v (turned s i) = permute s (fun r => at_ u r i) v.
(** the same configuration with the axes exchanged *)
Record axes_exchanged {N} (s : axis -> axis) (c c' : config N) : Prop := {
  ae_n : c_n c' = turned s (c_n c);
  ae_p : c_p c' = turned s (c_p c);
  ae_bounds : forall a, c_bounds c' a = c_bounds c (s a);
  ae_bc : forall a pos, bc_type (c_bc c') a pos = bc_type (c_bc c) (s a) pos;
  ae_rest : (c_CFL c', c_fixed_dt c', c_gamma c', c_csq_floor c', c_rs c', c_limit c', c_limiter c', c_force c', c_nad c', c_convex c')
          = (c_CFL c, c_fixed_dt c, c_gamma c, c_csq_floor c, c_rs c, c_limit c, c_limiter c, c_force c, c_nad c, c_convex c)
}.
