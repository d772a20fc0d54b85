(** Theorems on calls of integrate (C66). *)
From Coq Require Import ZArith List Bool String Reals.
From Verif Require Import Err Num HydroStateM OdeM TimerM SpecTimer TimerP CallM SpecCall CallP CallQ.
Import ListNotations.
Open Scope Z_scope.

(** C66. A call does what the integration loop alone does, and leaves the object ready for
    another call if it does not raise. *)
Theorem C66_result : forall N U S D (V : vops N U) helper (payload : S -> car N -> U -> res D) clock st (s : @session N U S D) T n exact b l log fuel,
  ready st s -> listed b = Some l -> exists s',
  match integrate N V st helper payload T n exact l log fuel (s_ode s) with
  | Ok o => call_integrate N V helper payload clock T n exact b log fuel s = (s', Ok tt) /\ s_ode s' = o /\ ready st s'
  | Err e => call_integrate N V helper payload clock T n exact b log fuel s = (s', Err e) /\ s_stepper s' = Some st /\ tracked (s_timer s')
  end.
Proof. intros. apply result; assumption. Qed.
Print Assumptions C66_result.
(** Whether it raises or not, the object has taken complete steps and snapshots only. *)
Theorem C66_whole_steps : forall N U S D (V : vops N U) helper (payload : S -> car N -> U -> res D) clock st (s s' : @session N U S D) T n exact b log fuel r,
  ready st s -> call_integrate N V helper payload clock T n exact b log fuel s = (s', r) ->
  reaches V st helper payload (s_ode s) (s_ode s').
Proof. intros. eapply whole_steps; eassumption. Qed.
Print Assumptions C66_whole_steps.
(** Until a time, with a clock that never goes back, the time spent in SNAPSHOTS is part of the
    time spent in TOTAL. *)
Theorem C66_times : forall U S D (V : vops RNum U) helper (payload : S -> R -> U -> res D) (clock : nat -> R) st (s s' : @session RNum U S D) T n exact b log fuel x y x' y',
  ready st s -> call_integrate RNum V helper payload clock (Some T) n exact b log fuel s = (s', Ok tt) ->
  (forall k, (clock k <= clock (Datatypes.S k))%R) ->
  spent (s_timer s) "TOTAL" = Some x -> spent (s_timer s') "TOTAL" = Some x' ->
  spent (s_timer s) "SNAPSHOTS" = Some y -> spent (s_timer s') "SNAPSHOTS" = Some y' -> (0 <= y' - y <= x' - x)%R.
Proof. intros. eapply times_T; eassumption. Qed.
Print Assumptions C66_times.
(** For a number of steps it is not. *)
Theorem C66_times_refuted : exists s', call_integrate QNum counting (fun x => x) counted seconds None (Some 1) true Beats_none false 9 (fresh false) = (s', Ok tt) /\
  spent (s_timer s') "TOTAL" = Some (nofZ 1) /\ spent (s_timer s') "SNAPSHOTS" = Some (nofZ 2).
Proof. exact snapshots_apart. Qed.
Print Assumptions C66_times_refuted.
(** The progress bar of a call until a time: none without print_progress_bar; otherwise it shows
    the time after each step, and is closed at the end, unless the call raises. *)
Theorem C66_progress : forall N U S D (V : vops N U) helper (payload : S -> car N -> U -> res D) clock st (s s' : @session N U S D) T n exact b log fuel r,
  ready st s -> call_integrate N V helper payload clock (Some T) n exact b log fuel s = (s', r) ->
  (s_print s = false -> s_bar s' = s_bar s) /\
  (s_print s = true -> exists ts, s_bar s' = s_bar s ++ Bar_total T :: map Bar_at ts ++ match r with Ok _ => [Bar_close] | Err _ => [] end /\
     (r = Ok tt -> o_stamps (s_ode s') = o_stamps (s_ode s) ++ ts)).
Proof. intros. eapply bar_T; eassumption. Qed.
Print Assumptions C66_progress.
(** A call for a number of steps shows a bar even without print_progress_bar. *)
Theorem C66_progress_refuted : forall N U S D (V : vops N U) helper (payload : S -> car N -> U -> res D) clock st (s s' : @session N U S D) n exact b log fuel,
  ready st s -> s_print s = false -> call_integrate N V helper payload clock None (Some n) exact b log fuel s = (s', Ok tt) ->
  s_bar s' = s_bar s ++ [Bar_range n].
Proof. intros. eapply bar_n; eassumption. Qed.
Print Assumptions C66_progress_refuted.
(** When a call until a time raises after it has begun, every further call raises, whatever its
    integrator and arguments, and takes no step. *)
Theorem C66_resume_refuted : forall N U S D (V : vops N U) helper (payload : S -> car N -> U -> res D) clock st (s s' : @session N U S D) T n exact b log fuel e,
  ready st s -> call_integrate N V helper payload clock (Some T) n exact b log fuel s = (s', Err e) -> s_ode s' <> s_ode s ->
  forall st' T' n' exact' b' log' fuel', exists s'' e',
    call_with N V helper payload clock st' T' n' exact' b' log' fuel' s' = (s'', Err e') /\ no_step (s_ode s') (s_ode s'').
Proof. intros. eapply no_retry; eassumption. Qed.
Print Assumptions C66_resume_refuted.
(** Downbeats in a tuple raise TypeError. *)
Theorem C66_downbeats_refuted : forall N U S D (V : vops N U) helper (payload : S -> car N -> U -> res D) clock (s : @session N U S D) T n exact log fuel,
  exists s', call_integrate N V helper payload clock (Some T) n exact Beats_other log fuel s = (s', Err TypeError) /\
    s_ode s' = s_ode s /\ s_timer s' = s_timer s.
Proof. intros. eexists. split; [apply bad_beats_bar|]. split; reflexivity. Qed.
Print Assumptions C66_downbeats_refuted.
(** With neither T nor n, and without an integrator, the call raises when the timer runs
    already: no further call can succeed. *)
Theorem C66_neither_refuted : forall N U S D (V : vops N U) helper (payload : S -> car N -> U -> res D) clock st (s : @session N U S D) exact b log fuel o,
  ready st s -> snapshot N payload (s_ode s) = Ok o ->
  exists s', call_integrate N V helper payload clock None None exact b log fuel s = (s', Err TypeError) /\ running (s_timer s') "TOTAL".
Proof. intros. eapply neither; eassumption. Qed.
Print Assumptions C66_neither_refuted.
Theorem C66_no_integrator_refuted : forall N U S D (V : vops N U) helper (payload : S -> car N -> U -> res D) clock (s : @session N U S D) T o fuel,
  s_stepper s = None -> tracked (s_timer s) -> idle (s_timer s) "TOTAL" -> snapshot N payload (s_ode s) = Ok o -> nltb (o_t (s_ode s)) T = true ->
  exists s', call_integrate N V helper payload clock (Some T) None false Beats_none false (Datatypes.S fuel) s = (s', Err AttributeError) /\
    running (s_timer s') "TOTAL".
Proof. intros. eapply no_integrator; eassumption. Qed.
Print Assumptions C66_no_integrator_refuted.
(** A fresh object is ready. Its run to 3 raises after two steps; a run to 2 shows its times. *)
Example C66_hypotheses : ready failing (fresh true) /\
  (exists s', call_integrate QNum counting (fun x => x) counted seconds (Some (nofZ 3)) None true Beats_none false 9 (fresh true) = (s', Err ValueError) /\
     o_steps (s_ode s') = 2 /\ s_bar s' = [Bar_total (nofZ 3); Bar_at (nofZ 1); Bar_at (nofZ 2)]) /\
  exists s', call_integrate QNum counting (fun x => x) counted seconds (Some (nofZ 2)) None true (Beats_array [nofZ 1]) false 9 (fresh true) = (s', Ok tt) /\
     s_bar s' = [Bar_total (nofZ 2); Bar_at (nofZ 1); Bar_at (nofZ 2); Bar_close] /\
     spent (s_timer s') "TOTAL" = Some (nofZ 5) /\ spent (s_timer s') "SNAPSHOTS" = Some (nofZ 2).
Proof. exact call_case. Qed.
