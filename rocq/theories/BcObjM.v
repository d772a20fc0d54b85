(** Model of the construction of a BoundaryCondition with its array manager,
    /repo/fvhoe/boundary_conditions.py:154-245, and of to_dict, :404-412. What the boundary
    condition does with its fields is modelled in BcM. *)
From Coq Require Import ZArith List Bool String.
From Verif Require Import Err HydroStateM NdArray FvM BcM ArrMgrM.
Import ListNotations.
Local Open Scope string_scope.

(** Values of x_value and its like: arrays, or any other object (a function, None, ...), told
    apart by a number. *)
Inductive value := Array (l : lib) (addr : nat) | Thing (id : nat).
Definition as_value (o : obj) : value := match o with Arr l a => Array l a | Other => Thing 0 end.

Section Construct.
Context {T V : Type}.
(** array.shape[k] *)
Context (extent : V -> nat -> res Z).

(** The manager and the memory change also when a later statement raises. *)
Definition state : Type := manager * heap V.
Definition prog (A : Type) : Type := state -> state * res A.
Definition ret {A} (x : A) : prog A := fun s => (s, Ok x).
Definition lift {A} (r : res A) : prog A := fun s => (s, r).
Definition seq {A B} (p : prog A) (k : A -> prog B) : prog B := fun s =>
  let (s', r) := p s in match r with Ok x => k x s' | Err e => (s', Err e) end.
Local Notation "'let!' x := p 'in' q" := (seq p (fun x => q)) (at level 200, x pattern, right associativity).

(** self.array_manager.add(name, array) and self.array_manager(name) *)
Definition add (name : string) (o : obj) : prog unit := fun s =>
  match am_add name o (fst s) (snd s) with
  | Ok s' => (s', Ok tt)
  | Err e => (s, Err e)
  end.
Definition fetch (name : string) : prog obj := fun s => (s, am_call name (fst s)).

Definition dim_name (a : axis) : string := match a with AX => "x" | AY => "y" | AZ => "z" end.
Definition pos_name (s : side) : string := match s with SL => "l" | SR => "r" end.
(** f"bc_{dim}{pos}_value" and f"bc_{dim}{pos}_slab_{k}" *)
Definition value_name (a : axis) (s : side) : string := "bc_" ++ dim_name a ++ pos_name s ++ "_value".
Definition slab_name (a : axis) (s : side) (k : axis) : string := "bc_" ++ dim_name a ++ pos_name s ++ "_slab_" ++ dim_name k.

(** the arguments of the constructor; the tuples of slab_coords are lists of objects *)
Record fields := mkfields {
  f_type : axis -> bc_arg T;
  f_value : axis -> bc_arg value;
  f_slabs : option (dict (list obj))
}.
(** the object: its fields after __post_init__ *)
Record bcobj := mkbcobj {
  b_type : axis -> T * T;
  b_value : axis -> value * value;
  b_slabs : option (dict (list obj));
  b_buffer : Z * Z * Z
}.

(** one end of one axis, boundary_conditions.py:207-212 *)
Definition register_value (a : axis) (s : side) (v : value) : prog value :=
  match v with
  | Array NumPy addr =>
      let! _ := add (value_name a s) (Arr NumPy addr) in
      let! o := fetch (value_name a s) in ret (as_value o)
  | _ => ret v
  end.
Definition register_values (a : axis) (lr : value * value) : prog (value * value) :=
  let! l := register_value a SL (fst lr) in
  let! r := register_value a SR (snd lr) in
  ret (l, r).

(** self.slab_coords[key][0].shape[k], boundary_conditions.py:219-221 *)
Definition slab_extent (d : dict (list obj)) (key : string) (k : nat) : prog Z :=
  let! objs := lift (match dget key d with Some l => Ok l | None => Err KeyError end) in
  let! o := lift (match objs with o :: _ => Ok o | [] => Err IndexError end) in
  fun s => (s, match o with
               | Arr _ addr => match load addr (snd s) with Some v => extent v k | None => Err RuntimeError end
               | Other => Err AttributeError
               end).
(** X, Y, Z = self.slab_coords[dim + pos] and the three add calls, :225-228 *)
Definition register_slab (d : dict (list obj)) (a : axis) (s : side) : prog unit :=
  let! objs := lift (match dget (dim_name a ++ pos_name s) d with Some l => Ok l | None => Err KeyError end) in
  match objs with
  | [X; Y; Z] =>
      let! _ := add (slab_name a s AX) X in
      let! _ := add (slab_name a s AY) Y in
      add (slab_name a s AZ) Z
  | _ => lift (Err ValueError)
  end.
Fixpoint each {A} (l : list A) (p : A -> prog unit) : prog unit :=
  match l with [] => ret tt | x :: l' => let! _ := p x in each l' p end.

(** __post_init__, boundary_conditions.py:192-228 *)
Definition post_init (f : fields) : prog bcobj :=
  let! x := lift (normalize_arg (f_type f AX)) in
  let! xv := lift (normalize_arg (f_value f AX)) in
  let! y := lift (normalize_arg (f_type f AY)) in
  let! yv := lift (normalize_arg (f_value f AY)) in
  let! z := lift (normalize_arg (f_type f AZ)) in
  let! zv := lift (normalize_arg (f_value f AZ)) in
  let! xv := register_values AX xv in
  let! yv := register_values AY yv in
  let! zv := register_values AZ zv in
  let obj := mkbcobj (fun a => match a with AX => x | AY => y | AZ => z end)
                     (fun a => match a with AX => xv | AY => yv | AZ => zv end) (f_slabs f) in
  match f_slabs f with
  | None => ret (obj (0, 0, 0)%Z)
  | Some d =>
      let! nx := slab_extent d "xl" 0 in
      let! ny := slab_extent d "yl" 1 in
      let! nz := slab_extent d "zl" 2 in
      let! _ := each slab_order (fun ap => register_slab d (fst ap) (snd ap)) in
      ret (obj (nx, ny, nz))
  end.

(** reset_value, boundary_conditions.py:230-245, for dim in "xyz" *)
Definition reset_value (a : axis) (pos : string) (v : value) (b : bcobj) : res bcobj :=
  let (l, r) := b_value b a in
  do lr <- (if String.eqb pos "l" then Ok (v, r) else if String.eqb pos "r" then Ok (l, v) else Err ValueError);
  Ok (mkbcobj (b_type b) (fun a' => if axis_eqb a' a then lr else b_value b a') (b_slabs b) (b_buffer b)).

(** to_dict, boundary_conditions.py:404-412 *)
Definition bc_to_dict (b : bcobj) : dict (T * T) := [("x", b_type b AX); ("y", b_type b AY); ("z", b_type b AZ)].
End Construct.
Arguments state V : clear implicits.
Arguments fields T : clear implicits.
Arguments bcobj T : clear implicits.
