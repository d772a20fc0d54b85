(** Model of HydroState, /repo/fvhoe/hydro.py:7-142: names of variables and index requests. *)
From Coq Require Import ZArith List Bool String.
From Verif Require Import Err PySlice NdArray.
Import ListNotations.
Open Scope Z_scope.

(** A Python dict with string keys, in insertion order: assigning to a key that is present
    keeps its place. *)
Definition dict (V : Type) := list (string * V).
Fixpoint dget {V} (k : string) (m : dict V) : option V :=
  match m with [] => None | (k', v) :: m' => if String.eqb k k' then Some v else dget k m' end.
Fixpoint dset {V} (k : string) (v : V) (m : dict V) : dict V :=
  match m with
  | [] => [(k, v)]
  | (k', v') :: m' => if String.eqb k k' then (k', v) :: m' else (k', v') :: dset k v m'
  end.
Definition dmem {V} (k : string) (m : dict V) : bool :=
  match dget k m with Some _ => true | None => false end.

(** what a name stands for: an integer, an index array, or (for tuples of names of index
    arrays) a two-dimensional index array *)
Inductive rowsel := R_one (k : Z) | R_many (ks : list Z) | R_grid (kss : list (list Z)).

(** np.arange(a, b) *)
Definition arange (a b : Z) : list Z := map (fun k => a + k) (zrange (b - a)).

(** variable_map before the passive scalars are added, hydro.py:36-49 *)
Definition builtin_map : dict rowsel :=
  [("rho", R_one 0); ("vx", R_one 1); ("mx", R_one 1); ("vy", R_one 2); ("my", R_one 2);
   ("vz", R_one 3); ("mz", R_one 3); ("v", R_many (arange 1 4)); ("m", R_many (arange 1 4));
   ("P", R_one 4); ("E", R_one 4); ("active_scalars", R_many (arange 0 5))]%string.

Record hstate := mkhs {
  hs_passives : list string;
  hs_ndim : Z;
  hs_map : dict rowsel;
  hs_includes : bool;
  hs_nvars : Z
}.

(** len(set(l)) *)
Definition distinct_count (l : list string) : Z := Z.of_nat (List.length (nodup string_dec l)).
Definition count (l : list string) : Z := Z.of_nat (List.length l).
(** enumerate(l, start) *)
Fixpoint enumerate {A} (start : Z) (l : list A) : list (Z * A) :=
  match l with [] => [] | x :: l' => (start, x) :: enumerate (start + 1) l' end.

(** __init__, hydro.py:28-67 *)
Definition hydro_state (passives : list string) (ndim : Z) : res hstate :=
  if negb (count passives =? distinct_count passives) then Err ValueError
  else
    let m := match passives with
             | [] => builtin_map
             | _ =>
                 dset "passive_scalars" (R_many (arange 5 (5 + count passives)))
                   (fold_left (fun m p => dset (snd p) (R_one (fst p)) m)
                      (enumerate 5 passives) builtin_map)
             end in
    Ok (mkhs passives ndim m (match passives with [] => false | _ => true end)
             (5 + count passives)).

(** the arguments var and x, y, z, cut of __call__ *)
Inductive varreq := Q_none | Q_name (s : string) | Q_names (l : list string) | Q_other.
Inductive cutreq := C_none | C_tuple (l : list (option Z)) | C_other.
(** one component of the returned index *)
Inductive entry := E_rows (r : rowsel) | E_slice (s : pyslice).

(** np.array(list(map(variable_map.get, var))): integers give an index array, index arrays of
    one length a two-dimensional one, anything else raises (numpy >= 1.24) *)
Fixpoint all_ones (l : list rowsel) : option (list Z) :=
  match l with
  | [] => Some []
  | R_one k :: l' => match all_ones l' with Some ks => Some (k :: ks) | None => None end
  | _ => None
  end.
Fixpoint all_many (len : nat) (l : list rowsel) : option (list (list Z)) :=
  match l with
  | [] => Some []
  | R_many ks :: l' =>
      if Nat.eqb (List.length ks) len
      then match all_many len l' with Some kss => Some (ks :: kss) | None => None end
      else None
  | _ => None
  end.
Definition np_array (l : list rowsel) : res rowsel :=
  match all_ones l with
  | Some ks => Ok (R_many ks)
  | None =>
      match l with
      | R_many ks :: _ =>
          match all_many (List.length ks) l with Some kss => Ok (R_grid kss) | None => Err ValueError end
      | _ => Err ValueError
      end
  end.
Fixpoint lookup_all (m : dict rowsel) (l : list string) : res (list rowsel) :=
  match l with
  | [] => Ok []
  | s :: l' =>
      match dget s m with
      | None => Err ValueError
      | Some r => do rs <- lookup_all m l'; Ok (r :: rs)
      end
  end.

(** [l[i] = x] on a Python list *)
Definition list_set {A} (i : Z) (x : A) (l : list A) : res (list A) :=
  let n := Z.of_nat (List.length l) in
  let j := if i <? 0 then i + n else i in
  if (0 <=? j) && (j <? n) then Ok (firstn (Z.to_nat j) l ++ x :: skipn (S (Z.to_nat j)) l)
  else Err IndexError.

(** [x or None] on an optional integer *)
Definition falsy_none (x : option Z) : option Z :=
  match x with Some k => or_none k | None => None end.

(** body of the loop over the axes, hydro.py:117-135 *)
Definition cut_axis (ndim : Z) (axis step : option Z) (acc : list entry) (i : option Z)
  (c : cutreq) : res (list entry) :=
  match c with
  | C_none => Ok acc
  | _ =>
      match i with
      | None => Err TypeError                       (* None >= self.ndim *)
      | Some k =>
          if ndim <=? k then Err ValueError
          else
            match c with
            | C_tuple [a; b] =>
                let same := match axis with Some x => x =? k | None => false end in
                list_set k (E_slice (mkslice (falsy_none a) (falsy_none b)
                                       (if same then step else None))) acc
            | _ => Err ValueError
            end
      end
  end.

(** __call__, hydro.py:73-139. The result is the list of the components. (For ndim 1 the code
    returns the only component instead of a tuple of length 1; both index alike.) *)
Definition hs_call (h : hstate) (var : varreq) (x y z : cutreq) (axis : option Z)
  (c : cutreq) (step : option Z) : res (list entry) :=
  let slices := repeat (E_slice slice_all) (Z.to_nat (hs_ndim h)) in
  do slices <- match var with
               | Q_none => Ok slices
               | Q_name s =>
                   match dget s (hs_map h) with
                   | None => Err ValueError
                   | Some r => list_set 0 (E_rows r) slices
                   end
               | Q_names l =>
                   do rs <- lookup_all (hs_map h) l;
                   do r <- np_array rs;
                   list_set 0 (E_rows r) slices
               | Q_other => Err ValueError
               end;
  do s1 <- cut_axis (hs_ndim h) axis step slices (Some 1) x;
  do s2 <- cut_axis (hs_ndim h) axis step s1 (Some 2) y;
  do s3 <- cut_axis (hs_ndim h) axis step s2 (Some 3) z;
  cut_axis (hs_ndim h) axis step s3 axis c.

(** Indexing an array of shape (rows, nx, ny, nz) with four components, u[...]. A single row
    is returned as an array with one row (NumPy drops the axis). Two-dimensional row
    selections are not modelled. *)
Definition py_row (n k : Z) : res Z :=
  let j := if k <? 0 then k + n else k in
  if (0 <=? j) && (j <? n) then Ok j else Err IndexError.
Fixpoint py_rows (n : Z) (ks : list Z) : res (list Z) :=
  match ks with
  | [] => Ok []
  | k :: l => do j <- py_row n k; do js <- py_rows n l; Ok (j :: js)
  end.
Definition select_rows {A} (e : entry) (u : arr A) : res (arr A) :=
  match e with
  | E_slice s =>
      let x := slice_adjust (rows u) s in
      Ok (mkarr (ex_len x) (shp u) (fun v i => at_ u (ex_start x + ex_step x * v) i))
  | E_rows (R_one k) => do j <- py_row (rows u) k; Ok (mkarr 1 (shp u) (fun _ i => at_ u j i))
  | E_rows (R_many ks) =>
      do js <- py_rows (rows u) ks;
      Ok (mkarr (Z.of_nat (List.length js)) (shp u) (fun v i => at_ u (nth (Z.to_nat v) js 0) i))
  | E_rows (R_grid _) => Err NotImplementedError
  end.
Definition index4 {A} (es : list entry) (u : arr A) : res (arr A) :=
  match es with
  | [e; E_slice a; E_slice b; E_slice c] =>
      do r <- select_rows e u;
      Ok (view AZ c (view AY b (view AX a r)))
  | _ => Err IndexError
  end.
