(** The slope-limited right-hand side as one would write it down: which cells are troubled,
    and how much of the limited flux each face gets. *)
From Coq Require Import ZArith List Bool Reals.
From Verif Require Import Err Num NdArray StencilsM FvM LimitM OdeM SolverM Spec SpecBc SpecLim SpecSolver SpecCons SpecScheme.
Import ListNotations.
Open Scope R_scope.

(** ** smoothness along a line *)
(** centred slope at k, and a quarter of the change of the slope from k - 1 to k + 1, kept away
    from zero by eps *)
Definition slope_at (f : Z -> R) (k : Z) : R := (f (k + 1)%Z - f (k - 1)%Z) / 2.
Definition bend (eps : R) (D : Z -> R) (k : Z) : R :=
  let b := (D (k + 1)%Z - D (k - 1)%Z) / 4 in
  if Rle_dec (Rabs b) eps then (if Rle_dec 0 b then eps else - eps) else b.
(** the change of slope on one side as a fraction of the bend: only changes that bend the
    same way count *)
Definition share (b change : R) : R := (if Rlt_dec b 0 then Rmin change 0 else Rmax change 0) / b.
Definition smooth_left (eps : R) (D : Z -> R) (k : Z) : R :=
  Rmin 1 (share (bend eps D k) (D k - D (k - 1)%Z)).
Definition smooth_right (eps : R) (D : Z -> R) (k : Z) : R :=
  if Rle_dec (Rabs (bend eps D k)) eps then 1 else share (bend eps D k) (D (k + 1)%Z - D k).
Definition smoothness (eps : R) (f : Z -> R) (k : Z) : R :=
  Rmin (smooth_left eps (slope_at f) k) (smooth_right eps (slope_at f) k).
(** row v is not smooth at cell i: along some active axis the smoothness of cell i or of one of
    its two neighbours is below 1 *)
Definition not_smooth (c : config RNum) (ws : grid) (v : Z) (i : ix) : Prop :=
  exists a k, ~ inactive c a /\ (-1 <= k <= 1)%Z /\ smoothness (sed_eps (c_nad c)) (fun k => ws v (up a k i)) k < 1.

(** ** troubled cells *)
(** the cells and the three layers around them along active axes: where the detector looks *)
Definition seen (c : config RNum) (i : ix) : Prop :=
  forall a, let g := if inactive_b c a then 0%Z else 3%Z in (- g <= getc a i < getc a (c_n c) + g)%Z.
(** cell i and its neighbours along active axes *)
Definition beside (c : config RNum) (i j : ix) : Prop :=
  forall a, if inactive_b c a then getc a j = getc a i else (getc a i - 1 <= getc a j <= getc a i + 1)%Z.
(** x, a value at cell i, leaves the range of row v of w around cell i *)
Definition overshoots (c : config RNum) (w : grid) (v : Z) (i : ix) (x : R) : Prop :=
  exists m M gm gM, least (beside c i) (w v) m /\ greatest (beside c i) (w v) M /\
    least (seen c) (w v) gm /\ greatest (seen c) (w v) gM /\
    let e : R := nad_eps (c_nad c) in
    match nad_range_ (c_nad c), nad_mode_ (c_nad c) with
    | R_relative, M_local => x < m - e * (M - m) \/ M + e * (M - m) < x
    | R_relative, M_global => x < m - e * (gM - gm) \/ M + e * (gM - gm) < x
    | R_absolute, M_local => x < (1 - e) * m \/ (1 + e) * M < x
    | R_absolute, M_global => x < (1 - e) * gm \/ (1 + e) * gM < x
    | _, _ => False
    end.
(** cell i is troubled: w are the primitive variables before, ws those after the candidate
    step *)
Definition troubled (c : config RNum) (w ws : grid) (i : ix) : Prop :=
  c_force c = true \/ violates_last (pad_bounds (c_nad c)) (fun v => ws v i) \/
  exists v, selected (c_nad c) 5 v /\ overshoots c w v i (ws v i) /\ (sed_on (c_nad c) = true -> not_smooth c ws v i).

(** ** weights of the limited fluxes *)
(** theta is the weight of the lower face of cell i normal to a: 1 at the faces of troubled
    cells and else 0, or with convex blending the largest weight that a troubled cell gives
    to the two cells at the face *)
Definition limited_share (c : config RNum) (tr : ix -> Prop) (a : axis) (i : ix) (theta : R) : Prop :=
  if c_convex c then
    (forall x j, touches a i x -> in_shape (c_n c) j -> tr j -> blend_weight x j <= theta) /\
    (theta = 0 \/ exists x j, touches a i x /\ in_shape (c_n c) j /\ tr j /\ theta = blend_weight x j)
  else
    ((exists j, touches a i j /\ in_shape (c_n c) j /\ tr j) -> theta = 1) /\
    (~ (exists j, touches a i j /\ in_shape (c_n c) j /\ tr j) -> theta = 0).
(** auxiliary arrays of the solver with the shapes the constructor gives them *)
Definition aux_shapes (c : config RNum) (r : Z) (x : aux RNum) : Prop :=
  interface_arrays (c_n c) r (x_flux x) /\
  forall y, In y [x_trouble x; x_nad x; x_pad x] -> rows y = 5%Z /\ shp y = c_n c.
(** the state after an explicit Euler step *)
Definition euler_candidate (c : config RNum) (u : arr R) (dt : R) (k : grid) : arr R :=
  mkarr (rows u) (c_n c) (fun v i => at_ u v i + dt * k v i).
