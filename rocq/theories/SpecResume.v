(** Definitions for the statements about several calls of integrate on one object. *)
From Coq Require Import ZArith List Bool Reals.
From Verif Require Import Err Num OdeM SpecOde.
Import ListNotations.

(** two objects that differ at most in their snapshots: the same time, state, time stamps, number
    of steps and remaining attributes *)
Definition same_state {N U S D} (o o' : @ode N U S D) : Prop :=
  o_t o = o_t o' /\ o_u o = o_u o' /\ o_stamps o = o_stamps o' /\ o_steps o = o_steps o' /\ o_aux o = o_aux o'.
(** [twice] has the snapshots of [once], the one between [A] and [B] two times instead of [k] times *)
Definition repeated {X} (k : nat) (once twice : list X) (A : list X) (x : X) (B : list X) : Prop :=
  once = A ++ repeat x k ++ B /\ twice = A ++ [x; x] ++ B.

(** du/dt = u with a constant time step, for the examples *)
Definition growth {N : Num} (h : car N) (s : unit) (_ _ : car N) (u : car N) : res (unit * (car N * car N)) := Ok (s, (h, u)).
Definition growth_run {N : Num} (h T : car N) (downbeats : list (car N)) : @ode N (car N) unit (car N) -> res (@ode N (car N) unit (car N)) :=
  integrate N num_ops (stepper_of N num_ops (growth h) I_euler) (fun s => s) (fun _ _ u => Ok u) (Some T) None true downbeats false 9.
(** what is compared in the examples *)
Definition seen {N U S D} (o : @ode N U S D) : car N * U * list (car N) * Z * list (car N) :=
  (o_t o, o_u o, o_stamps o, o_steps o, times o).
