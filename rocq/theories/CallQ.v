(** Computed calls of integrate. *)
From Coq Require Import ZArith List Bool String.
From Verif Require Import Err Num HydroStateM OdeM TimerM SpecTimer TimerP CallM SpecCall.
Import ListNotations.
Open Scope Z_scope.

Lemma ended {A B} (p : A * B) b : snd p = b -> p = (fst p, b).
Proof. intros <-. destruct p. reflexivity. Qed.
Lemma snapshots_apart : exists s', call_integrate QNum counting (fun x => x) counted seconds None (Some 1) true Beats_none false 9 (fresh false) = (s', Ok tt) /\
  spent (s_timer s') "TOTAL" = Some (nofZ 1) /\ spent (s_timer s') "SNAPSHOTS" = Some (nofZ 2).
Proof. eexists. split; [apply ended; vm_compute; reflexivity|]. split; vm_compute; reflexivity. Qed.
Lemma call_case : ready failing (fresh true) /\
  (exists s', call_integrate QNum counting (fun x => x) counted seconds (Some (nofZ 3)) None true Beats_none false 9 (fresh true) = (s', Err ValueError) /\
     o_steps (s_ode s') = 2 /\ s_bar s' = [Bar_total (nofZ 3); Bar_at (nofZ 1); Bar_at (nofZ 2)]) /\
  exists s', call_integrate QNum counting (fun x => x) counted seconds (Some (nofZ 2)) None true (Beats_array [nofZ 1]) false 9 (fresh true) = (s', Ok tt) /\
     s_bar s' = [Bar_total (nofZ 2); Bar_at (nofZ 1); Bar_at (nofZ 2); Bar_close] /\
     spent (s_timer s') "TOTAL" = Some (nofZ 5) /\ spent (s_timer s') "SNAPSHOTS" = Some (nofZ 2).
Proof.
  split; [|split].
  - destruct (solver_timer_ok (N := QNum)) as (tm & _ & _ & A & B). split; [reflexivity|]. split; [exact A|].
    split; apply B; cbn; auto.
  - eexists. split; [apply ended; vm_compute; reflexivity|]. split; vm_compute; reflexivity.
  - eexists. split; [apply ended; vm_compute; reflexivity|]. repeat split; vm_compute; reflexivity.
Qed.
