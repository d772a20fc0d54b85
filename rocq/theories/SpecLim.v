(** Vocabulary for the theorems about slope limiting. *)
From Coq Require Import ZArith QArith List Bool Reals.
From Verif Require Import Err Num NdArray FvM LimitM.
Import ListNotations.
Open Scope Z_scope.

(** x lies between a and b, in either order *)
Definition between (a b x : R) : Prop := (Rmin a b <= x <= Rmax a b)%R.
(** s is a limited slope for the one-sided differences a and b: zero at an extremum, else of
    their sign and at most k times the smaller of the two *)
Definition limited_by (k s a b : R) : Prop :=
  ((a * b <= 0 -> s = 0) /\ (0 < a * b -> 0 < s * a /\ Rabs s <= k * Rmin (Rabs a) (Rabs b)))%R.
(** index i moved by k along axis a *)
Definition moved (a : axis) (k : Z) (i : ix) : ix := setc a (getc a i + k) i.

(** ** troubled cells *)
(** the cell that the i-th entry of the detector's output refers to: three cells are cut off
    each end of the axes in dims *)
Definition inner (dims : list axis) (i : ix) : ix :=
  let s a k := if mem_axis a dims then k + 3 else k in
  mkix (s AX (cx i)) (s AY (cy i)) (s AZ (cz i)).
Definition cropped (dims : list axis) (s : ix) : ix :=
  let c a k := if mem_axis a dims then k - 6 else k in
  mkix (c AX (cx s)) (c AY (cy s)) (c AZ (cz s)).
(** j is i or one of its 3^d - 1 neighbours along dims *)
Definition nearby (dims : list axis) (i j : ix) : Prop :=
  forall a, if mem_axis a dims then getc a i - 1 <= getc a j <= getc a i + 1 else getc a j = getc a i.
Definition greatest {I} (D : I -> Prop) (f : I -> R) (M : R) : Prop :=
  ((forall j, D j -> f j <= M) /\ exists j, D j /\ f j = M)%R.
Definition least {I} (D : I -> Prop) (f : I -> R) (m : R) : Prop :=
  ((forall j, D j -> m <= f j) /\ exists j, D j /\ f j = m)%R.
(** x leaves the numerically admissible range around cell j of row v *)
Definition inadmissible (q : nad_params RNum) (dims : list axis) (u : arr R) (v : Z) (j : ix) (x : R) : Prop :=
  exists m M gm gM,
    least (nearby dims j) (at_ u v) m /\ greatest (nearby dims j) (at_ u v) M /\
    least (in_shape (shp u)) (at_ u v) gm /\ greatest (in_shape (shp u)) (at_ u v) gM /\
    let e : R := nad_eps q in
    match nad_range_ q, nad_mode_ q with
    | R_relative, M_local => x < m - e * (M - m) \/ M + e * (M - m) < x
    | R_relative, M_global => x < m - e * (gM - gm) \/ M + e * (gM - gm) < x
    | R_absolute, M_local => x < (1 - e) * m \/ (1 + e) * M < x
    | R_absolute, M_global => x < (1 - e) * gm \/ (1 + e) * gM < x
    | _, _ => False
    end%R.
(** x is below its lower or above its upper bound; None is an infinite bound *)
Definition out_of_bounds (b : option R * option R) (x : R) : Prop :=
  (match fst b with Some lo => x < lo | None => False end \/ match snd b with Some hi => hi < x | None => False end)%R.
(** some entry of a bounds dict is violated by the cell w *)
Definition violates (bounds : list (Z * (option R * option R))) (w : Z -> R) : Prop :=
  exists e, In e bounds /\ out_of_bounds (snd e) (w (fst e)).
(** the last entry of the dict is violated *)
Definition violates_last (bounds : option (list (Z * (option R * option R)))) (w : Z -> R) : Prop :=
  match bounds with
  | None => False
  | Some l => exists e, l = removelast l ++ [e] /\ out_of_bounds (snd e) (w (fst e))
  end.
(** rows the NAD test looks at *)
Definition selected {N} (q : nad_params N) (r v : Z) : Prop :=
  0 <= v < r /\ match nad_vars q with None => True | Some vs => In v vs end.
(** arrays and options on which the detector does not raise *)
Definition detectable {N} (q : nad_params N) (dims : list axis) (u uc : arr (car N)) : Prop :=
  nad_range_ q <> R_unknown /\ nad_mode_ q <> M_unknown /\ (nad_vars q <> None -> rows u = 5) /\
  rows u = rows uc /\ shp u = shp uc /\ NoDup dims /\ dims <> [] /\
  forall a, if mem_axis a dims then 6 <= getc a (shp u) else 1 <= getc a (shp u).

(** ** smooth extrema *)
(** along axis a every line of f is a parabola whose squared term has coefficient c *)
Definition parabolic (a : axis) (c : R) (f : ix -> R) : Prop :=
  forall i, exists p b, forall k, f (setc a k i) = (p + b * IZR k + c * IZR k * IZR k)%R.
(** arrays the detector accepts: six cells along each of its axes *)
Definition sed_fits (dims : list axis) (u : arr R) : Prop :=
  NoDup dims /\ dims <> [] /\ forall a, mem_axis a dims = true -> 6 <= getc a (shp u).
(** the same options with the smooth-extrema detector switched off *)
Definition without_sed {N} (q : nad_params N) : nad_params N :=
  mknad (nad_eps q) (nad_mode_ q) (nad_range_ q) (nad_vars q) (pad_bounds q) false (sed_eps q).
(** the detector's options as EulerSolver sets them by default, solver.py:68-77 and 392-396 *)
Definition default_nad : nad_params QNum :=
  mknad (N := QNum) (Qmake 1 100) M_global R_relative None
    (Some [(0, (Some (Qmake 0 1), None)); (4, (Some (Qmake 0 1), None))]) true (Qmake 1 (10 ^ 10)).

(** ** interface weights *)
(** cell j has the face i (an index among the faces along a) *)
Definition touches (a : axis) (i j : ix) : Prop := j = i \/ j = moved a (-1) i.
(** arithmetics in which the larger of two flags 0 and 1 is their disjunction *)
Definition max_of_flags (N : Num) : Prop :=
  forall x y : bool, @nmax N (b2k N x) (b2k N y) = b2k N (x || y).
(** weight given at cell c by a troubled cell j: 1 in the cell itself, 3/4 and 1/2 in its direct
    and diagonal neighbours, 1/4 one cell further *)
Definition blend_weight (c j : ix) : R :=
  let d a := Z.abs (getc a c - getc a j) in
  let far := Z.max (d AX) (Z.max (d AY) (d AZ)) in
  let count := d AX + d AY + d AZ in
  (if far =? 0 then 1 else if far =? 1 then (if count =? 1 then 3 / 4 else 1 / 2)
   else if far =? 2 then 1 / 4 else 0)%R.
(** w is the largest of the weights that the troubled cells give to the two cells at face i *)
Definition face_weight (a : axis) (trouble : arr bool) (i : ix) (w : R) : Prop :=
  (forall c j, touches a i c -> in_shape (shp trouble) j -> at_ trouble 0 j = true -> blend_weight c j <= w)%R /\
  (w = 0%R \/ exists c j, touches a i c /\ in_shape (shp trouble) j /\ at_ trouble 0 j = true /\ w = blend_weight c j).
(** at least one cell along every axis, exactly one along the axes not in ds *)
Definition thin (ds : list axis) (s : ix) : Prop :=
  forall a, 1 <= getc a s /\ (mem_axis a ds = false -> getc a s = 1).
(** th holds the weights of the faces along every axis: the convex ones along the axes in ds,
    0 along the others *)
Definition blended (tr : arr bool) (ds : list axis) (th : axis -> arr R) : Prop :=
  forall a, rows (th a) = 1 /\ shp (th a) = setc a (getc a (shp tr) + 1) (shp tr) /\
    forall i, in_shape (shp (th a)) i ->
      (In a ds -> face_weight a tr i (at_ (th a) 0 i)) /\ (~ In a ds -> at_ (th a) 0 i = 0%R).
