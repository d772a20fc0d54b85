(** Theorems on several calls of integrate on one object (C71). *)
From Coq Require Import ZArith QArith List Bool Reals Lra.
From Verif Require Import Err Num NdArray BcM OdeM SolverM SpecSolver SpecOde ExistP OdeT SpecResume ResumeP.
Import ListNotations.
Local Open Scope R_scope.

(** C71. Taking a steps and then b steps is taking a + b steps; the snapshot between the two calls
    is taken twice. *)
Theorem C71_steps : forall N U S D (V : vops N U) step helper (payload : S -> car N -> U -> res D)
  a b ex1 ex2 ex3 db1 db2 db3 lg1 lg2 lg3 f1 f2 f3 (o o1 o2 : @ode N U S D), (0 <= a)%Z -> (0 <= b)%Z ->
  integrate N V step helper payload None (Some a) ex1 db1 lg1 f1 o = Ok o1 ->
  integrate N V step helper payload None (Some b) ex2 db2 lg2 f2 o1 = Ok o2 ->
  exists o' x y z, integrate N V step helper payload None (Some (a + b)%Z) ex3 db3 lg3 f3 o = Ok o' /\ same_state o2 o' /\
    o_snaps o2 = o_snaps o ++ [x; y; y; z] /\ o_snaps o' = o_snaps o ++ [x; z].
Proof. intros. eapply steps_resume; eassumption. Qed.
Print Assumptions C71_steps.
(** With exact=False, running until T1 and then until T2 is running until T2, whatever the steps
    are. The snapshot between the calls is taken twice; the single call takes it once if it logs
    every step or T2 is reached with it. *)
Theorem C71_overshooting : forall U S D (V : vops RNum U) helper (payload : S -> R -> U -> res D) step
  T1 T2 n1 n2 n3 db1 db2 db3 lg f1 f2 (o o1 o2 : @ode RNum U S D), o_t o < T1 -> T1 <= T2 ->
  integrate RNum V step helper payload (Some T1) n1 false db1 lg f1 o = Ok o1 ->
  integrate RNum V step helper payload (Some T2) n2 false db2 lg f2 o1 = Ok o2 ->
  exists o', integrate RNum V step helper payload (Some T2) n3 false db3 lg (f1 + f2) o = Ok o' /\ same_state o2 o' /\
    exists A x B, repeated (if lg || nleb (n := RNum) T2 (o_t o1) then 1 else 0) (o_snaps o') (o_snaps o2) A x B /\
      o_snaps o1 = A ++ [x] /\ fst x = o_t o1.
Proof. intros. eapply late_resume; eassumption. Qed.
Print Assumptions C71_overshooting.
(** With exact=True, running until T1 and then until T2 is running until T2 with T1 among the
    downbeats; the snapshot at T1 is taken twice. The two calls succeed if and only if the single
    one does. *)
Theorem C71_exact : forall U S D (V : vops RNum U) helper (payload : S -> R -> U -> res D) f i
  T1 T2 n1 n2 n3 d1 d2 lg (o : @ode RNum U S D),
  proposes (N := RNum) f (fun dt => 0 < dt) -> 0 <= o_t o -> o_t o < T1 -> T1 < T2 ->
  List.Forall (fun x => o_t o < x < T1) d1 -> List.Forall (fun x => T1 < x) d2 ->
  let run := integrate RNum V (stepper_of RNum V f i) helper payload in
  (forall f1 f2 o1 o2, run (Some T1) n1 true d1 lg f1 o = Ok o1 -> run (Some T2) n2 true d2 lg f2 o1 = Ok o2 ->
   exists o', run (Some T2) n3 true (d1 ++ T1 :: d2) lg (f1 + f2)%nat o = Ok o' /\ same_state o2 o' /\
     exists A x B, repeated 1 (o_snaps o') (o_snaps o2) A x B /\ o_snaps o1 = A ++ [x] /\ fst x = T1) /\
  (forall fuel o', run (Some T2) n3 true (d1 ++ T1 :: d2) lg fuel o = Ok o' ->
   exists f1 f2 o1 o2, run (Some T1) n1 true d1 lg f1 o = Ok o1 /\ run (Some T2) n2 true d2 lg f2 o1 = Ok o2).
Proof. intros * F P L L' D1 D2. exact (exact_resume V helper payload f i F T1 T2 n1 n2 n3 d1 d2 lg o P L L' D1 D2). Qed.
Print Assumptions C71_exact.
(** In particular for the runs of the solver. *)
Theorem C71_solver : forall (c : config RNum) heap i as_averages T1 T2 n1 n2 n3 d1 d2 lg fuel u0 (o' : run RNum),
  steps_forward c -> 0 < T1 -> T1 < T2 -> List.Forall (fun x => 0 < x < T1) d1 -> List.Forall (fun x => T1 < x) d2 ->
  simulate c heap i as_averages (Some T2) n3 true (d1 ++ T1 :: d2) lg fuel u0 = Ok o' ->
  exists f1 f2 o1 o2, simulate c heap i as_averages (Some T1) n1 true d1 lg f1 u0 = Ok o1 /\
    solver_integrate RNum c heap i as_averages (Some T2) n2 true d2 lg f2 o1 = Ok o2 /\ same_state o2 o' /\
    exists A x B, repeated 1 (o_snaps o') (o_snaps o2) A x B /\ o_snaps o1 = A ++ [x] /\ fst x = T1.
Proof.
  intros * F P L D1 D2. unfold simulate, solver_integrate, solver_step.
  match goal with |- integrate _ _ _ _ _ _ _ _ _ _ _ ?o = _ -> _ =>
    exact (whole_splits (arr_ops RNum) (step_helper RNum c) (snap_payload RNum c heap as_averages) (solver_f RNum c heap) i (solver_dt c heap F)
      T1 T2 n1 n2 n3 d1 d2 lg fuel o o' (Rle_refl 0) P L D1 D2) end.
Qed.
Print Assumptions C71_solver.
Example C71_solver_case : steps_forward (flow3d B_periodic false) /\ List.Forall (fun x => 0 < x < 1) [1 / 2] /\ List.Forall (fun x => 1 < x) [3; 2].
Proof. split; [unfold steps_forward; cbn; unfold nhalf; cbn; lra|]. split; repeat constructor; lra. Qed.
(** du/dt = u with steps of length 1: until 1/2 and then until 2, and until 2 with the downbeat 1/2. *)
Example C71_case : proposes (N := RNum) (growth (N := RNum) 1) (fun dt => 0 < dt) /\
  exists o1 o2 o', let o := ode_init QNum (Qmake 1 1 : car QNum) tt in
  growth_run (Qmake 1 1 : car QNum) (Qmake 1 2) [] o = Ok o1 /\ growth_run (Qmake 1 1 : car QNum) (Qmake 2 1) [] o1 = Ok o2 /\
  growth_run (Qmake 1 1 : car QNum) (Qmake 2 1) [Qmake 1 2] o = Ok o' /\
  seen o2 = (Qmake 2 1, Qmake 9 2, [Qmake 0 1; Qmake 1 2; Qmake 3 2; Qmake 2 1], 3%Z, [Qmake 0 1; Qmake 1 2; Qmake 1 2; Qmake 2 1]) /\
  seen o' = (Qmake 2 1, Qmake 9 2, [Qmake 0 1; Qmake 1 2; Qmake 3 2; Qmake 2 1], 3%Z, [Qmake 0 1; Qmake 1 2; Qmake 2 1]).
Proof. split; [intros s t t' u s' dt k [= <- <- <-]; lra|exact declared_stop]. Qed.
(** If T1 is not among the downbeats of the single call, the results differ. *)
Theorem C71_undeclared_refuted : exists o1 o2 o', let o := ode_init QNum (Qmake 1 1 : car QNum) tt in
  growth_run (Qmake 1 1 : car QNum) (Qmake 1 2) [] o = Ok o1 /\ growth_run (Qmake 1 1 : car QNum) (Qmake 2 1) [] o1 = Ok o2 /\
  growth_run (Qmake 1 1 : car QNum) (Qmake 2 1) [] o = Ok o' /\ o_u o2 = Qmake 9 2 /\ o_u o' = Qmake 4 1.
Proof. exact undeclared_stop. Qed.
Print Assumptions C71_undeclared_refuted.
