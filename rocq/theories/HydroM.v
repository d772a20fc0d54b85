(** Model of /repo/fvhoe/hydro.py (numerical part): conversion between primitive and
    conservative variables, sound speed, physical fluxes, time-step size.

    A cell is a function from row numbers to values. Rows follow HydroState
    (hydro.py:36-61): 0 density, 1-3 velocity or momentum, 4 pressure or energy,
    5 and above passive scalars. When the state has no passive scalars there are no rows
    above 4, so the [includes_passives] tests of the code need no separate branch. *)
From Coq Require Import ZArith List Bool.
From Verif Require Import Err Num NdArray.
Import ListNotations.
Open Scope Z_scope.

Definition rRho := 0.
Definition rE := 4. (* also P *)
(** row of the velocity / momentum component along an axis (hydro.py:38-43) *)
Definition vrow (d : axis) : Z := match d with AX => 1 | AY => 2 | AZ => 3 end.
(** rows 1..3 *)
Definition is_vel (r : Z) : bool := (1 <=? r) && (r <=? 3).

Section Hydro.
Context (N : Num).
Local Notation K := (car N).
Local Open Scope num_scope.
Definition cell := Z -> K.

(** np.sum over the three vector rows, axis=0 (sequential adds) *)
Definition sum3 (f : Z -> K) : K := f 1%Z + f 2%Z + f 3%Z.

(** compute_primitives, hydro.py:146-170 *)
Definition compute_primitives (gamma : K) (u : cell) : cell := fun r =>
  let rho := u rRho in
  let v := fun k => u k / rho in
  if (r =? rRho)%Z then rho
  else if is_vel r then v r
  else if (r =? rE)%Z then
    (gamma - #1) * (u rE - nhalf * sum3 (fun k => u k * v k))
  else u r / rho.

(** compute_conservatives, hydro.py:173-196 *)
Definition compute_conservatives (gamma : K) (w : cell) : cell := fun r =>
  let rho := w rRho in
  let m := fun k => rho * w k in
  if (r =? rRho)%Z then rho
  else if is_vel r then m r
  else if (r =? rE)%Z then
    w rE / (gamma - #1) + nhalf * sum3 (fun k => m k * w k)
  else rho * w r.

(** compute_sound_speed, hydro.py:199-210 *)
Definition compute_sound_speed (gamma csq_floor : K) (w : cell) : K :=
  let csq := gamma * w rE / w rRho in
  nsqrt (if csq >? csq_floor then csq else csq_floor).

(** compute_fluxes, hydro.py:213-246. The pressure terms are added after the products,
    as in the code. The argument gamma is unused there and dropped here. *)
Definition compute_fluxes (d : axis) (include_pressure : bool) (w u : cell) : cell :=
  fun r =>
  let v := w (vrow d) in
  if (r =? rRho)%Z then v * w rRho
  else if is_vel r then
    let f := v * u r in
    if include_pressure && (r =? vrow d)%Z then f + w rE else f
  else if (r =? rE)%Z then
    let f := v * u rE in
    if include_pressure then f + v * w rE else f
  else v * u r.

(** advection_dt, hydro.py:249-267, for arguments that are Python numbers: dividing by zero
    raises (NumPy scalars would give an infinity and a warning instead) *)
Definition advection_dt (h vx vy vz CFL : K) : res K :=
  let v := vx + vy + vz in
  if neqb v #0 then Err ZeroDivisionError else Ok (CFL * h / v).

(** per-cell signal speed inside hydro_dt, hydro.py:290-292 *)
Definition cell_speed (ndim : Z) (gamma csq_floor : K) (w : cell) : K :=
  sum3 (fun k => nabs (w k)) + nofZ ndim * compute_sound_speed gamma csq_floor w.

(** hydro_dt, hydro.py:270-294 *)
Definition hydro_dt (w : arr K) (h : K) (ndim : Z) (CFL gamma csq_floor : K) : res K :=
  do m <- reduce_cells nmax (shp w)
            (fun i => cell_speed ndim gamma csq_floor (fun r => at_ w r i));
  Ok (CFL * h / m).
End Hydro.
