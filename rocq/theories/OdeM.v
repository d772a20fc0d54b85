(** Model of /repo/fvhoe/ode.py: the time integrators and the integration loop. *)
From Coq Require Import ZArith List Bool.
From Verif Require Import Err Num.
Import ListNotations.
Open Scope Z_scope.

Section Ode.
Context (N : Num).
Local Notation K := (car N).
Local Open Scope num_scope.

(** _hit_target, ode.py:11-22 *)
Definition hit_target (t dt : K) (target : option K) : K :=
  match target with
  | Some T => if T - t <? dt then T - t else dt
  | None => dt
  end.

(** What the integrators need from the state type: [u + v], [c * u] and [dst[...] = src].
    Addition and assignment can raise (broadcasting). *)
Record vops (U : Type) := mkvops {
  vadd : U -> U -> res U;
  vscale : K -> U -> U;
  vassign : U -> U -> res U
}.
Arguments mkvops {U}. Arguments vadd {U}. Arguments vscale {U}. Arguments vassign {U}.

(** [S]: whatever other state the right-hand side mutates (fluxes, trouble logs,
    evaluation counter). [D]: the payload of a snapshot. *)
Section Integrators.
Context {U S D : Type} (V : vops U).
(** the method f: other state, self.t, the time argument, the state argument *)
Context (f : S -> K -> K -> U -> res (S * (K * U))).

Definition stepper := S -> K -> U -> option K -> res (S * (K * U)).

(** euler, ode.py:245-255 *)
Definition euler : stepper := fun s t u target =>
  do r <- f s t t u;
  let '(s, (dt, dudt)) := r in
  let dt := hit_target t dt target in
  do unext <- vadd V u (vscale V dt dudt);
  Ok (s, (dt, unext)).

(** ssprk2, ode.py:257-269. Both stages are evaluated at t. *)
Definition ssprk2 : stepper := fun s t u target =>
  do r <- f s t t u;
  let '(s, (dt, k0)) := r in
  let dt := hit_target t dt target in
  do u1 <- vadd V u (vscale V dt k0);
  do r <- f s t t u1;
  let '(s, (_, k1)) := r in
  do a <- vadd V u1 (vscale V dt k1);
  do unext <- vadd V (vscale V nhalf u) (vscale V nhalf a);
  Ok (s, (dt, unext)).

(** ssprk3, ode.py:271-283 *)
Definition ssprk3 : stepper := fun s t u target =>
  do r <- f s t t u;
  let '(s, (dt, k0)) := r in
  let dt := hit_target t dt target in
  do a <- vadd V u (vscale V dt k0);
  do r <- f s t (t + dt) a;
  let '(s, (_, k1)) := r in
  let q := #1 / #4 in
  do b <- vadd V u (vscale V (q * dt) k0);
  do b <- vadd V b (vscale V (q * dt) k1);
  do r <- f s t (t + nhalf * dt) b;
  let '(s, (_, k2)) := r in
  do k <- vadd V k0 k1;
  do k <- vadd V k (vscale V #4 k2);
  do unext <- vadd V u (vscale V (#1 / #6 * dt) k);
  Ok (s, (dt, unext)).

(** rk4, ode.py:285-298 *)
Definition rk4 : stepper := fun s t u target =>
  do r <- f s t t u;
  let '(s, (dt, k0)) := r in
  let dt := hit_target t dt target in
  do a <- vadd V u (vscale V (nhalf * dt) k0);
  do r <- f s t (t + nhalf * dt) a;
  let '(s, (_, k1)) := r in
  do b <- vadd V u (vscale V (nhalf * dt) k1);
  do r <- f s t (t + nhalf * dt) b;
  let '(s, (_, k2)) := r in
  do c <- vadd V u (vscale V dt k2);
  do r <- f s t (t + dt) c;
  let '(s, (_, k3)) := r in
  do k <- vadd V k0 (vscale V #2 k1);
  do k <- vadd V k (vscale V #2 k2);
  do k <- vadd V k k3;
  do unext <- vadd V u (vscale V (#1 / #6 * dt) k);
  Ok (s, (dt, unext)).

Inductive integrator := I_euler | I_ssprk2 | I_ssprk3 | I_rk4.
Definition stepper_of (i : integrator) : stepper :=
  match i with
  | I_euler => euler | I_ssprk2 => ssprk2 | I_ssprk3 => ssprk3 | I_rk4 => rk4
  end.

(** ODE object: fields set in ODE.__init__, ode.py:30-59 (the timer is modelled
    separately in TimerM) *)
Record ode := mkode {
  o_t : K; o_u : U; o_stamps : list K; o_steps : Z;
  o_snaps : list (K * D); (* snapshot_times and snapshots, oldest first *)
  o_aux : S
}.

(** a fresh object, ode.py:37-53 *)
Definition ode_init (u0 : U) (s0 : S) : ode := mkode #0 u0 [#0] 0 [] s0.

Context (step : stepper) (helper : S -> S) (payload : S -> K -> U -> res D).

(** take_step, ode.py:183-193 *)
Definition take_step (o : ode) (target : option K) : res ode :=
  do r <- step (o_aux o) (o_t o) (o_u o) target;
  let '(s, (dt, un)) := r in
  do u <- vassign V (o_u o) un;
  let t := o_t o + dt in
  Ok (mkode t u (o_stamps o ++ [t]) (o_steps o + 1) (o_snaps o) (helper s)).

(** snapshot, ode.py:176-181 and solver.py:840-874 *)
Definition snapshot (o : ode) : res ode :=
  do d <- payload (o_aux o) (o_t o) (o_u o);
  Ok (mkode (o_t o) (o_u o) (o_stamps o) (o_steps o) (o_snaps o ++ [(o_t o, d)]) (o_aux o)).

Fixpoint take_n (n : nat) (o : ode) : res ode :=
  match n with O => Ok o | Datatypes.S m => do o' <- take_step o None; take_n m o' end.

(** integrate with T=None, ode.py:116-128. range(n) is empty for negative n. *)
Definition integrate_n (n : Z) (o : ode) : res ode :=
  do o1 <- snapshot o; do o2 <- take_n (Z.to_nat n) o1; snapshot o2.

(** sorted(set(l)) *)
Fixpoint insert_uniq (x : K) (l : list K) : list K :=
  match l with
  | [] => [x]
  | y :: l' => if x <? y then x :: l else if neqb x y then l else y :: insert_uniq x l'
  end.
Definition sorted_set (l : list K) : list K := fold_left (fun acc x => insert_uniq x acc) l [].

Definition eq_target (t : K) (target : option K) : bool :=
  match target with Some T => neqb t T | None => false end.

(** the simulation loop, ode.py:157-166; [fuel] bounds the number of iterations *)
Fixpoint loop (T : K) (log_every_step : bool) (fuel : nat) (o : ode) (target : option K)
  (downbeats : list K) : res ode :=
  if o_t o <? T then
    match fuel with
    | O => Err OutOfFuel
    | Datatypes.S fuel =>
        do o1 <- take_step o target;
        if eq_target (o_t o1) target || (o_t o1 >=? T) || log_every_step then
          do o2 <- snapshot o1;
          match downbeats with
          | d :: ds =>
              if eq_target (o_t o2) target
              then loop T log_every_step fuel o2 (Some d) ds
              else loop T log_every_step fuel o2 target downbeats
          | [] => loop T log_every_step fuel o2 target []
          end
        else loop T log_every_step fuel o1 target downbeats
    end
  else Ok o.

(** integrate with T given and no snapshot directory, ode.py:138-170. [n] is ignored. *)
Definition integrate_T (T : K) (exact : bool) (downbeats : list K) (log_every_step : bool)
  (fuel : nat) (o : ode) : res ode :=
  let db := tl (sorted_set (#0 :: downbeats ++ [T])) in
  do td <- (if exact then match db with [] => Err IndexError | d :: ds => Ok (Some d, ds) end
            else Ok (None, db));
  do o1 <- snapshot o;
  loop T log_every_step fuel o1 (fst td) (snd td).

(** integrate, ode.py:94-174, without a snapshot directory; with both T and n None,
    range(None) raises TypeError after the first snapshot *)
Definition integrate (T : option K) (n : option Z) (exact : bool) (downbeats : list K)
  (log_every_step : bool) (fuel : nat) (o : ode) : res ode :=
  match T, n with
  | Some T, _ => integrate_T T exact downbeats log_every_step fuel o
  | None, Some n => integrate_n n o
  | None, None => do _ <- snapshot o; Err TypeError
  end.
End Integrators.
End Ode.
Arguments mkvops {N U}. Arguments vadd {N U}. Arguments vscale {N U}. Arguments vassign {N U}.
Arguments mkode {N U S D}.
Arguments o_t {N U S D}. Arguments o_u {N U S D}. Arguments o_stamps {N U S D}.
Arguments o_steps {N U S D}. Arguments o_snaps {N U S D}. Arguments o_aux {N U S D}.
