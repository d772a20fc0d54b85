(** Vocabulary for a change of units: one unit of length, of speed and of density. *)
From Coq Require Import ZArith List Reals.
From Verif Require Import Err Num NdArray FvM HydroM BcM LimitM OdeM SolverM Spec SpecBc SpecSolver SpecScheme.
Import ListNotations.
Open Scope R_scope.

(** unit of row r of the conserved variables (mass, momentum, energy and passive mass per
    volume) and of the primitive ones (density, velocity, pressure and concentration) *)
Definition row_unit (V D : R) (r : Z) : R :=
  match r with 1%Z | 2%Z | 3%Z => D * V | 4%Z => D * (V * V) | _ => D end.
Definition prim_unit (V D : R) (r : Z) : R :=
  match r with 0%Z => D | 1%Z | 2%Z | 3%Z => V | 4%Z => D * (V * V) | _ => 1 end.
(** u' is u, row by row in other units *)
Definition rescaled (unit : Z -> R) (u u' : arr R) : Prop :=
  rows u' = rows u /\ shp u' = shp u /\ forall v i, in_shape (shp u) i -> at_ u' v i = unit v * at_ u v i.
(** a prescribed state of q rows in other units; the last two kinds of values occur only at the
    ends of ignorable axes of a fillable configuration, where nothing reads them *)
Definition value_rescaled (L V D : R) (q : Z) (x x' : bcval RNum) : Prop :=
  match x, x' with
  | V_func f, V_func f' => forall t x y z v,
      f' (option_map (fun s => L / V * s) t) (L * x) (L * y) (L * z) v = row_unit V D v * f t x y z v
  | V_array len f, V_array len' f' => forall v,
      f' (if (len' =? q)%Z then v else 0%Z) = row_unit V D v * f (if (len =? q)%Z then v else 0%Z)
  | V_mesh _, V_mesh _ | V_other, V_other => True
  | _, _ => False
  end.
(** the same configuration in other units *)
Record units_changed (L V D : R) (q : Z) (c c' : config RNum) : Prop := {
  uc_bounds : forall a, c_bounds c' a = (L * fst (c_bounds c a), L * snd (c_bounds c a));
  uc_floor : c_csq_floor c' = V * V * c_csq_floor c;
  uc_dt : c_fixed_dt c' = option_map (fun x => L / V * x) (c_fixed_dt c);
  uc_bc : forall a pos, bc_type (c_bc c') a pos = bc_type (c_bc c) a pos;
  uc_val : forall a pos, prescribes (bc_type (c_bc c) a pos) ->
    value_rescaled L V D q (bc_val (c_bc c) a pos) (bc_val (c_bc c') a pos);
  uc_rest : (c_n c', c_p c', c_CFL c', c_gamma c', c_rs c', c_limit c') = (c_n c, c_p c, c_CFL c, c_gamma c, c_rs c, c_limit c)
}.
(** the bounds of the physical admissibility test in other units *)
Definition convert_bounds (V D : R) (l : list (Z * (option R * option R))) : list (Z * (option R * option R)) :=
  map (fun e => (fst e, (option_map (fun x => prim_unit V D (fst e) * x) (fst (snd e)),
                         option_map (fun x => prim_unit V D (fst e) * x) (snd (snd e))))) l.
(** the same slope limiting in other units: only the bounds have a dimension *)
Record limiting_changed (V D : R) (c c' : config RNum) : Prop := {
  lc_options : (c_limiter c', c_force c', c_convex c') = (c_limiter c, c_force c, c_convex c);
  lc_nad : (nad_eps (c_nad c'), nad_mode_ (c_nad c'), nad_range_ (c_nad c'), nad_vars (c_nad c'), sed_on (c_nad c'))
    = (nad_eps (c_nad c), nad_mode_ (c_nad c), nad_range_ (c_nad c), nad_vars (c_nad c), sed_on (c_nad c));
  lc_bounds : pad_bounds (c_nad c') = option_map (convert_bounds V D) (pad_bounds (c_nad c))
}.
(** The second run is the first one in other units: clock, history and times of the
    snapshots, the state, and the primitive variables of the snapshots. *)
Record run_rescaled (L V D : R) (o o' : run RNum) : Prop := {
  rr_t : o_t o' = L / V * o_t o;
  rr_stamps : o_stamps o' = map (fun t => L / V * t) (o_stamps o);
  rr_steps : o_steps o' = o_steps o;
  rr_u : rescaled (row_unit V D) (o_u o) (o_u o');
  rr_snaps : Forall2 (fun s s' => fst s' = L / V * fst s /\ rescaled (prim_unit V D) (fst (snd s)) (fst (snd s')))
    (o_snaps o) (o_snaps o')
}.
Definition outcome_rescaled (L V D : R) (x x' : res (run RNum)) : Prop :=
  match x, x' with
  | Ok o, Ok o' => run_rescaled L V D o o'
  | Err e, Err e' => e = e'
  | _, _ => False
  end.
(** a configuration converted to other units, as are its boundary values for states of q rows,
    the coordinates it keeps and the bounds of the admissibility test *)
Definition convert_value (L V D : R) (q : Z) (x : bcval RNum) : bcval RNum :=
  match x with
  | V_func f => @V_func RNum (fun t x y z v => row_unit V D v * f (option_map (fun s => V / L * s) t) (x / L) (y / L) (z / L) v)
  | V_array len f => @V_array RNum q (fun v => row_unit V D v * f (if (len =? q)%Z then v else 0%Z))
  | _ => x
  end.
Definition convert (L V D : R) (q : Z) (c : config RNum) : config RNum :=
  let b := c_bc c in
  let longer (m : arr R) : arr R := mkarr (rows m) (shp m) (fun v i => L * at_ m v i) in
  let q' := c_nad c in
  mkcfg (N := RNum) (c_n c) (c_p c) (fun a => (L * fst (c_bounds c a), L * snd (c_bounds c a))) (c_CFL c)
    (option_map (fun x => L / V * x) (c_fixed_dt c)) (c_gamma c) (V * V * c_csq_floor c) (c_rs c)
    (mkbc (N := RNum) (bc_type b) (fun a pos => convert_value L V D q (bc_val b a pos))
       (option_map (fun sl a pos => (longer (fst (fst (sl a pos))), longer (snd (fst (sl a pos))), longer (snd (sl a pos)))) (bc_slabs b))
       (bc_cupy b))
    (c_limit c) (c_limiter c) (c_force c)
    (mknad (N := RNum) (nad_eps q') (nad_mode_ q') (nad_range_ q') (nad_vars q') (option_map (convert_bounds V D) (pad_bounds q'))
       (sed_on q') (sed_eps q'))
    (c_convex c).
