(** Vocabulary for calls of integrate (C66). *)
From Coq Require Import ZArith List Bool String.
From Verif Require Import Err Num HydroStateM OdeM TimerM SpecTimer CallM.
Import ListNotations.
Open Scope Z_scope.

Definition idle {N} (tm : timer N) (c : string) : Prop := exists x, status tm c = Some (None, x).
Definition running {N} (tm : timer N) (c : string) : Prop := exists t x, status tm c = Some (Some t, x).
(** time accumulated in a category *)
Definition spent {N} (tm : timer N) (c : string) : option (car N) := option_map snd (status tm c).

(** the list that the argument downbeats stands for *)
Definition listed {K} (b : beats K) : option (list K) :=
  match b with Beats_none => Some [] | Beats_list l | Beats_array l => Some l | Beats_other => None end.

(** an integrator is chosen and neither TOTAL nor SNAPSHOTS is being timed *)
Definition ready {N U S D} (st : @stepper N U S) (s : @session N U S D) : Prop :=
  s_stepper s = Some st /\ tracked (s_timer s) /\ idle (s_timer s) "TOTAL" /\ idle (s_timer s) "SNAPSHOTS".

(** objects obtained by complete steps and complete snapshots *)
Inductive reaches {N U S D} (V : vops N U) (st : @stepper N U S) helper payload : @ode N U S D -> @ode N U S D -> Prop :=
| reach_here o : reaches V st helper payload o o
| reach_step o target o1 o2 : take_step N V st helper o target = Ok o1 -> reaches V st helper payload o1 o2 ->
    reaches V st helper payload o o2
| reach_snap o o1 o2 : snapshot N payload o = Ok o1 -> reaches V st helper payload o1 o2 ->
    reaches V st helper payload o o2.

(** the same time, state and number of steps *)
Definition no_step {N U S D} (o o' : @ode N U S D) : Prop :=
  o_t o' = o_t o /\ o_u o' = o_u o /\ o_stamps o' = o_stamps o /\ o_steps o' = o_steps o.

(** ** an object for examples: steps of length 1, which count; from time 2 on they raise *)
Definition counting : vops QNum (car QNum) := mkvops (fun u w => Ok (nadd u w)) (fun c u => nmul c u) (fun _ w => Ok w).
Definition failing : @stepper QNum (car QNum) unit := fun x t u target =>
  if nltb (n := QNum) t (nofZ 2) then Ok (x, (nofZ 1, nadd u (nofZ 1))) else Err ValueError.
Definition counted (x : unit) (t u : car QNum) : res (car QNum) := Ok u.
(** the clock advances by 1 between calls of the timer *)
Definition seconds (k : nat) : car QNum := nofZ (n := QNum) (Z.of_nat k).
Definition fresh (print : bool) : @session QNum (car QNum) unit (car QNum) :=
  mkses (ode_init QNum (nofZ (n := QNum) 0) tt) (Some failing) print solver_timer 0 [].
