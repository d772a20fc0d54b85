(** Vocabulary for names, slices, timers and the array manager. *)
From Coq Require Import ZArith List Bool String.
From Verif Require Import Err PySlice NdArray HydroStateM.
Import ListNotations.
Open Scope Z_scope.

(** the names HydroState gives a meaning of its own *)
Definition reserved : list string :=
  ["rho"; "vx"; "mx"; "vy"; "my"; "vz"; "mz"; "v"; "m"; "P"; "E"; "active_scalars"; "passive_scalars"]%string.
(** names of a state of passive scalars *)
Definition good_names (l : list string) : Prop := NoDup l /\ forall s, In s l -> ~ In s reserved.
(** the rows a name addresses according to the documentation *)
Inductive addresses (passives : list string) : string -> rowsel -> Prop :=
| a_rho : addresses passives "rho" (R_one 0)
| a_x s : s = "vx"%string \/ s = "mx"%string -> addresses passives s (R_one 1)
| a_y s : s = "vy"%string \/ s = "my"%string -> addresses passives s (R_one 2)
| a_z s : s = "vz"%string \/ s = "mz"%string -> addresses passives s (R_one 3)
| a_v s : s = "v"%string \/ s = "m"%string -> addresses passives s (R_many [1; 2; 3])
| a_e s : s = "P"%string \/ s = "E"%string -> addresses passives s (R_one 4)
| a_act : addresses passives "active_scalars" (R_many [0; 1; 2; 3; 4])
| a_pas k s : nth_error passives k = Some s -> addresses passives s (R_one (5 + Z.of_nat k))
| a_all : passives <> [] ->
    addresses passives "passive_scalars" (R_many (map (fun k => 5 + Z.of_nat k) (seq 0 (List.length passives)))).

(** first and last-plus-one cell of a Python slice with bounds a, b on n cells; 0 means open *)
Definition first_cell (n a : Z) : Z := if a <? 0 then Z.max 0 (n + a) else Z.min a n.
Definition end_cell (n b : Z) : Z :=
  if b =? 0 then n else if b <? 0 then Z.max 0 (n + b) else Z.min b n.
(** NumPy's number of a spatial axis *)
Definition axis_number (a : axis) : Z := match a with AX => 1 | AY => 2 | AZ => 3 end.
(** u[hs(var)] for an array of shape (nvars, nx, ny, nz) *)
Definition ask {A} (h : hstate) (s : string) (u : arr A) : res (arr A) :=
  do e <- hs_call h (Q_name s) C_none C_none C_none None C_none None; index4 e u.
(** two names of one quantity, primitive and conservative *)
Definition same_quantity (s s' : string) : Prop :=
  s = s' \/ In (s, s') [("vx", "mx"); ("vy", "my"); ("vz", "mz"); ("P", "E");
                        ("mx", "vx"); ("my", "vy"); ("mz", "vz"); ("E", "P")]%string.
(** the rows of a selection *)
Definition chosen (r : rowsel) : list Z :=
  match r with R_one k => [k] | R_many ks => ks | R_grid kss => List.concat kss end.
(** u[hs(axis=..., cut=(a, b), step=...)] *)
Definition cut_cells {A} (h : hstate) (axis : option Z) (a b : Z) (step : option Z) (u : arr A) : res (arr A) :=
  do e <- hs_call h Q_none C_none C_none C_none axis (C_tuple [Some a; Some b]) step; index4 e u.
(** u[hs(var, x=..., y=..., z=..., axis=d, cut=c, step=k)] with pairs of integers *)
Definition pair_req (p : option (Z * Z)) : cutreq :=
  match p with None => C_none | Some (a, b) => C_tuple [Some a; Some b] end.
Definition box_cells {A} (h : hstate) (var : varreq) (q : axis -> option (Z * Z)) (d : option axis)
  (c : option (Z * Z)) (k : option Z) (u : arr A) : res (arr A) :=
  do e <- hs_call h var (pair_req (q AX)) (pair_req (q AY)) (pair_req (q AZ)) (option_map axis_number d) (pair_req c) k;
  index4 e u.
(** the bounds that count along an axis: those of cut if it is for that axis *)
Definition bounds_of (q : axis -> option (Z * Z)) (d : option axis) (c : option (Z * Z)) (e : axis) : option (Z * Z) :=
  match d, c with Some a, Some p => if axis_eqb a e then Some p else q e | _, _ => q e end.
(** first cell, end, and distance of the cells along an axis; the step is for the axis d, and
    only if there are bounds for it *)
Definition box_first (q : axis -> option (Z * Z)) d c (n : ix) (e : axis) : Z :=
  match bounds_of q d c e with Some (a, _) => first_cell (getc e n) a | None => 0 end.
Definition box_end (q : axis -> option (Z * Z)) d c (n : ix) (e : axis) : Z :=
  match bounds_of q d c e with Some (_, b) => end_cell (getc e n) b | None => getc e n end.
Definition box_step (q : axis -> option (Z * Z)) d c (k : option Z) (e : axis) : Z :=
  match bounds_of q d c e, d, k with
  | Some _, Some a, Some s => if axis_eqb a e then s else 1
  | _, _, _ => 1
  end.
