(** Specification vocabulary for the gas-dynamics theorems, written from the Euler
    equations and independent of the model's own helpers. A state is a function from row
    numbers to reals: 0 density, 1..3 velocity, 4 pressure, 5.. passive scalars. *)
From Coq Require Import ZArith Reals.
From Verif Require Import NdArray.
Local Open Scope R_scope.

Definition state := Z -> R.
(** row holding the component of a vector along an axis *)
Definition comp (d : axis) : Z := match d with AX => 1 | AY => 2 | AZ => 3 end%Z.
Definition rho (w : state) := w 0%Z.
Definition vel (d : axis) (w : state) := w (comp d).
Definition press (w : state) := w 4%Z.
Definition physical (w : state) : Prop := 0 < rho w /\ 0 <= press w.

(** total energy of an ideal gas per unit volume *)
Definition total_energy (gamma : R) (w : state) : R :=
  press w / (gamma - 1)
  + 1/2 * rho w * (vel AX w * vel AX w + vel AY w * vel AY w + vel AZ w * vel AZ w).

(** conserved quantities: mass, momentum, energy, passive mass *)
Definition conserved (gamma : R) (w : state) (r : Z) : R :=
  match r with
  | 0%Z => rho w
  | 4%Z => total_energy gamma w
  | _ => rho w * w r
  end.

(** flux of the conserved quantities along axis d *)
Definition euler_flux (gamma : R) (d : axis) (w : state) (r : Z) : R :=
  if (r =? 0)%Z then rho w * vel d w
  else if (r =? 4)%Z then vel d w * (total_energy gamma w + press w)
  else if (r =? comp d)%Z then rho w * vel d w * vel d w + press w
  else rho w * vel d w * w r.
(** the same without pressure: transport of the conserved quantities by the velocity *)
Definition transport_flux (gamma : R) (d : axis) (w : state) (r : Z) : R :=
  vel d w * conserved gamma w r.
(** flux of a gas at rest: pressure only *)
Definition pressure_flux (d : axis) (P : R) (r : Z) : R :=
  if (r =? comp d)%Z then P else 0.

(** speed of sound squared is bounded below by the floor *)
Definition sound (gamma floor : R) (w : state) : R :=
  sqrt (Rmax (gamma * press w / rho w) floor).

(** reflection of a state in a plane normal to d *)
Definition mirror (d : axis) (w : state) : state :=
  fun r => if (r =? comp d)%Z then - w r else w r.
(** sign picked up by component r of a flux along d under that reflection *)
Definition mirror_sign (d : axis) (r : Z) : R :=
  if (r =? comp d)%Z then 1 else -1.

(** relabelling of the axes: component a of the new state is component s a of the old *)
Definition permute (s : axis -> axis) (w : state) : state :=
  fun r => match r with
           | 1%Z => w (comp (s AX)) | 2%Z => w (comp (s AY)) | 3%Z => w (comp (s AZ))
           | _ => w r end.

(** flux of a state with conserved vector U moving at normal speed s under pressure P *)
Definition star_flux (d : axis) (s P : R) (U : Z -> R) (r : Z) : R :=
  s * U r + (if (r =? comp d)%Z then P else if (r =? 4)%Z then s * P else 0).
