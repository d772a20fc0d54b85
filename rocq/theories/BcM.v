(** Model of /repo/fvhoe/boundary_conditions.py. *)
From Coq Require Import ZArith List Bool.
From Verif Require Import Err Num PySlice NdArray HydroM FvM.
Import ListNotations.
Open Scope Z_scope.

(** The strings accepted in the x, y, z fields, None, and any other value. *)
Inductive bct := B_periodic | B_free | B_outflow | B_reflective | B_dirichlet | B_ic
               | B_dmr (* "special-case-double-mach-reflection-y=0" *)
               | B_none | B_unknown.

Section Bc.
Context (N : Num).
Local Notation K := (car N).

(** Values of x_value, y_value, z_value: an array (length and contents), a callable, or
    anything else (None, NotImplemented, numbers). A callable is pointwise ([V_func]: it maps
    the time, Some t for "dirichlet" and absent for "ic", and one coordinate triple to one
    cell) or any function of the time and of whole coordinate arrays ([V_mesh]). *)
Inductive bcval :=
| V_array (len : Z) (f : Z -> K)
| V_func (f : option K -> K -> K -> K -> Z -> K)
| V_mesh (f : option K -> arr K * arr K * arr K -> res (arr K))
| V_other.

(** Fields of a BoundaryCondition after __post_init__ (boundary_conditions.py:155-228).
    [bc_slabs] is None when slab_coords is None. [bc_cupy] tells whether the import of cupy
    at the top of the module succeeded. *)
Record bcond := mkbc {
  bc_type : axis -> side -> bct;
  bc_val : axis -> side -> bcval;
  bc_slabs : option (axis -> side -> arr K * arr K * arr K);
  bc_cupy : bool
}.

(** __post_init__ on the fields x, y, z: tuples must have length 2, lists are rejected,
    single values are duplicated (boundary_conditions.py:194-202) *)
Inductive bc_arg (A : Type) := Arg_tuple (l : list A) | Arg_list (l : list A) | Arg_one (x : A).
Arguments Arg_tuple {A}. Arguments Arg_list {A}. Arguments Arg_one {A}.
Definition normalize_arg {A} (x : bc_arg A) : res (A * A) :=
  match x with
  | Arg_tuple [l; r] => Ok (l, r)
  | Arg_tuple _ => Err ValueError
  | Arg_list _ => Err ValueError
  | Arg_one v => Ok (v, v)
  end.

(** the slab cut {"l": (0, st), "r": (-st, 0)}[pos] *)
Definition outer_cut (st : Z) (pos : side) : pyslice :=
  match pos with SL => cut 0 st | SR => cut (- st) 0 end.

(** _set_free_bc, boundary_conditions.py:60-85 *)
Definition set_free_bc (u : arr K) (st : Z) (a : axis) (pos : side) : res (arr K) :=
  let inner := match pos with SL => cut st (st + 1) | SR => cut (- (st + 1)) (- st) end in
  assign_slice a (outer_cut st pos) u (view a inner u).

(** _set_periodic_bc, boundary_conditions.py:88-107 *)
Definition set_periodic_bc (u : arr K) (st : Z) (a : axis) : res (arr K) :=
  let outer_l := cut 0 st in
  let inner_l := cut st (2 * st) in
  let outer_r := cut (- st) 0 in
  let inner_r := cut (- 2 * st) (- st) in
  do u1 <- assign_slice a outer_l u (view a inner_r u);
  assign_slice a outer_r u1 (view a inner_l u1).

(** _set_symmetric_bc, boundary_conditions.py:110-151 *)
Definition set_symmetric_bc (u : arr K) (st : Z) (a : axis) (pos : side)
  (negate_var : option Z) : res (arr K) :=
  let flip := cut_step 0 0 (-1) in
  let inner := match pos with SL => cut st (2 * st) | SR => cut (- 2 * st) (- st) end in
  do u1 <- assign_slice a (outer_cut st pos) u (view a flip (view a inner u));
  Ok (match negate_var with
      | None => u1
      | Some row => update_row_slice a (outer_cut st pos) row
                      (fun x => nmul x (nofZ (-1))) u1
      end).

(** trim_slabs, boundary_conditions.py:247-304. The buffer sizes are the shapes recorded by
    __post_init__ (lines 215-222). Without slab coordinates the array lookup raises
    KeyError. *)
Definition slab_buffer (sl : axis -> side -> arr K * arr K * arr K) : ix :=
  let X a := fst (fst (sl a SL)) in
  mkix (cx (shp (X AX))) (cy (shp (X AY))) (cz (shp (X AZ))).
Definition trim_cut (a ax : axis) (pos : side) (gw excess : Z) : pyslice :=
  if axis_eqb a ax then match pos with SL => cut (- gw) 0 | SR => cut 0 gw end
  else cut excess (- excess).
Definition trim_slabs (b : bcond) (gw : ix) (a : axis) (pos : side)
  : res (arr K * arr K * arr K) :=
  match bc_slabs b with
  | None => Err KeyError
  | Some sl =>
      let '(X, Y, Z) := sl a pos in
      let buf := slab_buffer sl in
      let xe := cx buf - cx gw in
      let ye := cy buf - cy gw in
      let ze := cz buf - cz gw in
      if (xe <? 0) || (ye <? 0) || (ze <? 0) then Err ValueError else
      let trim u := view AZ (trim_cut a AZ pos (cz gw) ze)
                      (view AY (trim_cut a AY pos (cy gw) ye)
                        (view AX (trim_cut a AX pos (cx gw) xe) u)) in
      Ok (trim X, trim Y, trim Z)
  end.

(** _set_dirichlet_bc, boundary_conditions.py:18-57, called with the trimmed coordinates
    (lines 334-348). A value that is neither callable nor a NumPy array reaches
    [isinstance(boundary_values, cp.ndarray)], a NameError when cupy is not installed. *)
Definition set_dirichlet_bc (cupy : bool) (u : arr K) (v : bcval) (st : Z) (a : axis)
  (pos : side) (t : option K) (xyz : arr K * arr K * arr K) : res (arr K) :=
  match v with
  | V_func f =>
      let '(X, Y, Z) := xyz in
      assign_slice a (outer_cut st pos) u
        (mkarr (rows u) (shp X)
           (fun r i => f t (at_ X 0 i) (at_ Y 0 i) (at_ Z 0 i) r))
  | V_array len f =>
      let slab := view a (outer_cut st pos) u in
      do vals <- amap2 (fun one x => nmul one x)
                   (amap (fun _ => nofZ 1) slab) (mkarr len (mkix 1 1 1) (fun r _ => f r));
      assign_slice a (outer_cut st pos) u vals
  | V_mesh f => do w <- f t xyz; assign_slice a (outer_cut st pos) u w
  | V_other => Err (if cupy then ValueError else NameError)
  end.

(** one iteration of the loop in BoundaryCondition.apply, boundary_conditions.py:324-400 *)
Definition apply_slab (b : bcond) (gw : ix) (t : K) (a : axis) (pos : side) (out : arr K)
  : res (arr K) :=
  let st := getc a gw in
  if st =? 0 then Ok out else
  match bc_type b a pos with
  | B_dirichlet =>
      do xyz <- trim_slabs b gw a pos;
      set_dirichlet_bc (bc_cupy b) out (bc_val b a pos) st a pos (Some t) xyz
  | B_ic =>
      do xyz <- trim_slabs b gw a pos;
      set_dirichlet_bc (bc_cupy b) out (bc_val b a pos) st a pos None xyz
  | B_free => set_free_bc out st a pos
  | B_outflow => set_symmetric_bc out st a pos None
  | B_reflective => set_symmetric_bc out st a pos (Some (vrow a))
  | B_periodic =>
      match pos with SL => set_periodic_bc out st a | SR => Ok out end
  | B_dmr =>
      (* trims first (may raise), then calls _set_free_bc(out_free, slab_thickness,
         axis=.., pos=..) without hs: TypeError, lines 375-382 *)
      do _ <- trim_slabs b gw AY SL; Err TypeError
  | B_none => Ok out
  | B_unknown => Err ValueError
  end.

(** product(enumerate("xyz"), enumerate("lr")) *)
Definition slab_order : list (axis * side) :=
  [(AX, SL); (AX, SR); (AY, SL); (AY, SR); (AZ, SL); (AZ, SR)].

(** BoundaryCondition.apply, boundary_conditions.py:306-402. [junk] is the uninitialised
    memory of the padded array. *)
Definition apply (b : bcond) (junk : Z -> ix -> K) (u : arr K) (gw : ix) (t : K)
  : res (arr K) :=
  do out <- pad_empty junk gw u;
  fold_left (fun acc ap => do o <- acc; apply_slab b gw t (fst ap) (snd ap) o)
            slab_order (Ok out).
End Bc.
Arguments Arg_tuple {A}. Arguments Arg_list {A}. Arguments Arg_one {A}.
Arguments V_array {N}. Arguments V_func {N}. Arguments V_mesh {N}. Arguments V_other {N}.
Arguments mkbc {N}.
Arguments bc_type {N}. Arguments bc_val {N}. Arguments bc_slabs {N}. Arguments bc_cupy {N}.
