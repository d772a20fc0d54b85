(** Vocabulary for transport by a uniform velocity. *)
From Coq Require Import ZArith List Bool Reals.
From Verif Require Import Err Num NdArray FvM BcM LimitM OdeM SolverM Spec SpecBc SpecSolver SpecCons SpecScheme.
Import ListNotations.
Open Scope R_scope.

(** a gas that moves with velocity V everywhere and whose density lies between lo and hi *)
Definition drifting (V : axis -> R) (lo hi : R) (u : arr R) : Prop :=
  forall i, in_shape (shp u) i -> lo <= at_ u 0%Z i <= hi /\ forall a, at_ u (comp a) i = V a * at_ u 0%Z i.
(** the velocity is parallel to the walls *)
Definition passes_walls (c : config RNum) (V : axis -> R) : Prop :=
  forall a pos, ~ inactive c a -> bc_type (c_bc c) a pos = B_reflective -> V a = 0.
(** how many cells the gas crosses per unit time, added over the active axes *)
Definition crossings (c : config RNum) (V : axis -> R) : R :=
  let along a := if inactive_b c a then 0 else Rabs (V a) / width c a in along AX + along AY + along AZ.
(** no step crosses more than a cell over k: a fixed step that is short enough, or the CFL
    rule with CFL number at most 1 / k, for schemes of degree at most one *)
Definition paced (k : R) (c : config RNum) (V : axis -> R) : Prop :=
  match c_fixed_dt c with
  | Some dt => 0 < dt /\ k * (dt * crossings c V) <= 1
  | None => (forall a, (getc a (c_p c) <= 1)%Z) /\ 0 < c_CFL c /\ k * c_CFL c <= 1 /\ 0 < c_csq_floor c
  end.
(** the pace at which the limited scheme of degree one keeps the density within its bounds:
    minmod slopes add up to half a cell difference to the face values, monotonised central
    slopes up to a whole one *)
Definition unhurried (c : config RNum) (V : axis -> R) : Prop :=
  match c_limiter c with L_minmod => paced (3/2) c V | L_moncen => paced 2 c V | _ => False end.
(** the same for density and velocities *)
Definition drifts (V : axis -> R) (lo hi : R) (w : arr R) : Prop :=
  forall i, in_shape (shp w) i -> lo <= at_ w 0%Z i <= hi /\ forall a, at_ w (comp a) i = V a.
