(** What each boundary condition means, cell by cell, in global indices: 0..n-1 are the cells
    of the domain, negative indices and indices >= n are ghost cells. *)
From Coq Require Import ZArith List Bool.
From Verif Require Import Num NdArray HydroM FvM BcM SpecMesh.
Open Scope Z_scope.

(** index of the cell whose data a ghost cell takes *)
Definition source (ty : bct) (pos : side) (n k : Z) : Z :=
  match ty, pos with
  | B_periodic, SL => k + n
  | B_periodic, SR => k - n
  | B_free, SL => 0
  | B_free, SR => n - 1
  | (B_outflow | B_reflective), SL => -1 - k
  | (B_outflow | B_reflective), SR => 2 * n - 1 - k
  | _, _ => k
  end.

Section Ghost.
Context (N : Num).
Local Notation K := (car N).
(** coordinate of the centre of cell k along each axis *)
Context (xc : axis -> Z -> K).

(** prescribed value of variable v (of nv) at cell i *)
Definition prescribed (nv : Z) (val : bcval N) (t : option K) (v : Z) (i : ix) : K :=
  match val with
  | V_func f => f t (xc AX (cx i)) (xc AY (cy i)) (xc AZ (cz i)) v
  | V_array len f => nmul (nofZ 1) (f (if len =? nv then v else 0))
  | V_mesh _ | V_other => nofZ 0
  end.

(** value of a ghost cell on the given side of axis a; f is the field known so far *)
Definition ghost (b : bcond N) (nv : Z) (n : ix) (t : K) (a : axis) (pos : side)
  (f : Z -> ix -> K) (v : Z) (i : ix) : K :=
  let x := f v (setc a (source (bc_type b a pos) pos (getc a n) (getc a i)) i) in
  match bc_type b a pos with
  | B_dirichlet => prescribed nv (bc_val b a pos) (Some t) v i
  | B_ic => prescribed nv (bc_val b a pos) None v i
  | B_reflective => if v =? vrow a then nmul x (nofZ (-1)) else x
  | _ => x
  end.

(** extension of a field across the two ends of axis a *)
Definition extend (b : bcond N) (nv : Z) (n : ix) (t : K) (a : axis)
  (f : Z -> ix -> K) (v : Z) (i : ix) : K :=
  if getc a i <? 0 then ghost b nv n t a SL f v i
  else if getc a n <=? getc a i then ghost b nv n t a SR f v i
  else f v i.

(** extension across x, then y, then z *)
Definition extended (b : bcond N) (n : ix) (t : K) (u : arr K) : Z -> ix -> K :=
  extend b (rows u) n t AZ (extend b (rows u) n t AY (extend b (rows u) n t AX (at_ u))).
End Ghost.

(** Requirements on one axis. *)
Definition copies (ty : bct) : Prop :=
  match ty with B_periodic | B_free | B_outflow | B_reflective => True | _ => False end.
Definition prescribes (ty : bct) : Prop :=
  match ty with B_dirichlet | B_ic => True | _ => False end.
(** enough cells for the ghost cells to copy from *)
Definition enough (ty : bct) (n g : Z) : Prop :=
  match ty with B_periodic | B_outflow | B_reflective => g <= n | _ => 1 <= n end.

Definition shift (g i : ix) : ix := mkix (cx i + cx g) (cy i + cy g) (cz i + cz g).
Definition padded (n g : ix) : ix := mkix (cx n + 2 * cx g) (cy n + 2 * cy g) (cz n + 2 * cz g).
(** cells of the padded array *)
Definition in_padded (n g i : ix) : Prop :=
  forall a, - getc a g <= getc a i < getc a n + getc a g.

(** Copying boundaries only: source index of any cell, and whether its value is negated *)
Definition folded (tl tr : bct) (n k : Z) : Z :=
  if k <? 0 then source tl SL n k else if n <=? k then source tr SR n k else k.
Definition is_reflective (ty : bct) : bool := match ty with B_reflective => true | _ => false end.
Definition negated (tl tr : bct) (n k : Z) : bool :=
  if k <? 0 then is_reflective tl else if n <=? k then is_reflective tr else false.
Definition folded3 {N} (b : bcond N) (n i : ix) : ix :=
  mkix (folded (bc_type b AX SL) (bc_type b AX SR) (cx n) (cx i))
       (folded (bc_type b AY SL) (bc_type b AY SR) (cy n) (cy i))
       (folded (bc_type b AZ SL) (bc_type b AZ SR) (cz n) (cz i)).
(** the value of variable v is negated iff v is the momentum normal to a reflecting side
    behind which the cell lies *)
Definition negated3 {N} (b : bcond N) (n i : ix) (v : Z) : bool :=
  let neg a := (v =? vrow a) && negated (bc_type b a SL) (bc_type b a SR) (getc a n) (getc a i) in
  neg AX || neg AY || neg AZ.
(** an axis whose ghost cells are all copies of cells of the domain *)
Definition copy_axis {N} (b : bcond N) (n g : ix) (a : axis) : Prop :=
  getc a g = 0 \/
  ((forall pos, copies (bc_type b a pos) /\ enough (bc_type b a pos) (getc a n) (getc a g)) /\
   (bc_type b a SR = B_periodic -> bc_type b a SL = B_periodic)).

(** A side with prescribed values: the value is an array or a function, and the slab arrays
    are wide enough and hold the coordinates of the cells. *)
Definition dir_ok {N : Num} (xc : axis -> Z -> car N) (b : bcond N) (nv : Z) (n g : ix) (a : axis) (pos : side) : Prop :=
  match bc_val b a pos with V_other => False | V_array len _ => len = nv \/ len = 1 | V_func _ => True | V_mesh _ => False end /\
  exists sl, bc_slabs b = Some sl /\
    (forall d, getc d g <= getc d (slab_buffer N sl)) /\
    forall d, shp (match d with AX => fst (fst (sl a pos)) | AY => snd (fst (sl a pos)) | AZ => snd (sl a pos) end)
       = mkix (if axis_eqb a AX then cx (slab_buffer N sl) else cx n + 2 * cx (slab_buffer N sl))
              (if axis_eqb a AY then cy (slab_buffer N sl) else cy n + 2 * cy (slab_buffer N sl))
              (if axis_eqb a AZ then cz (slab_buffer N sl) else cz n + 2 * cz (slab_buffer N sl)) /\
     forall i, at_ (match d with AX => fst (fst (sl a pos)) | AY => snd (fst (sl a pos)) | AZ => snd (sl a pos) end) 0 i
       = xc d (slab_index a d pos (getc d n) (getc d (slab_buffer N sl)) (getc d i)).

(** one side whose ghost cells get defined values *)
Definition side_ok {N : Num} (xc : axis -> Z -> car N) (b : bcond N) (nv : Z) (n g : ix) (a : axis) (pos : side) : Prop :=
  (copies (bc_type b a pos) /\ enough (bc_type b a pos) (getc a n) (getc a g)) \/
  (prescribes (bc_type b a pos) /\ dir_ok xc b nv n g a pos).
(** one axis whose ghost cells get defined values: the code fills both periodic slabs when it
    treats the left side, so a right side may be periodic only if the left one is *)
Definition axis_ok {N : Num} (xc : axis -> Z -> car N) (b : bcond N) (nv : Z) (n g : ix) (a : axis) : Prop :=
  getc a g = 0 \/
  (side_ok xc b nv n g a SL /\ side_ok xc b nv n g a SR /\
   (bc_type b a SR = B_periodic -> bc_type b a SL = B_periodic)).
