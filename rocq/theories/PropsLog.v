(** Properties of the trouble log. *)
From Coq Require Import ZArith List Bool Reals.
From Verif Require Import Err Num PySlice NdArray HydroM StencilsM FvM BcM SedM LimitM OdeM SolverM SpecBc SpecSolver SpecCons SpecSym SpecLog
  BroadP ExistP LimExistP LogP.
Import ListNotations.
Open Scope Z_scope.

(** C46. The spied run is the run with a diary of all detections. In every completed run with
    limiting there is one detection for every stage of every step, and the log, at the end and
    in every snapshot, holds in each of its five components the flags, NAD and PAD marks of the
    last step, averaged over its stages; after the very first step it holds their sum divided
    by one more than the number of stages; before it, zeros. Unless trouble is forced, the
    flagged cells are those with a mark. Over the real numbers, for every
    integrator. *)
Theorem C46_log_is_the_mean : forall (c : config RNum) heap i as_averages T n exact downbeats log fuel u0 o,
  tabulated c -> c_limit c = true -> shp u0 = c_n c -> 1 <= rows u0 ->
  simulate c heap i as_averages T n exact downbeats log fuel u0 = Ok o ->
  exists o' : spied RNum, spied_run c heap i as_averages T n exact downbeats log fuel u0 = Ok o' /\ shadowed o o' /\
    Z.of_nat (List.length (dy_past (snd (o_aux o')))) = o_steps o /\
    List.Forall (stage_list c i) (dy_past (snd (o_aux o'))) /\
    logged (c_n c) (dy_past (snd (o_aux o'))) (x_trouble (o_aux o), x_nad (o_aux o), x_pad (o_aux o)) /\
    List.Forall (fun s => List.Forall (stage_list c i) (snd (snd s)) /\ logged (c_n c) (snd (snd s)) (snd (fst (snd s)))) (o_snaps o').
Proof. exact log_is_mean. Qed.
Print Assumptions C46_log_is_the_mean.
Example C46_case : exists o, simulate (with_limiting false true (flow3d B_periodic true)) (fun _ _ _ => 0%R) I_rk4 true None (Some 1) true [] false 0
  (mkarr 6 (mkix 12 13 14) (fun v i => IZR (v + cx i * cy i))) = Ok o /\ o_steps o = 1.
Proof. exact (box_case I_rk4). Qed.

(** For every integrator there is a run whose first step flags every cell in every stage and
    logs less than one. *)
Theorem C46_first_step_refuted : forall i, exists (c : config RNum) heap u0 o (o' : spied RNum) ds,
  tabulated c /\ c_limit c = true /\ shp u0 = c_n c /\ 1 <= rows u0 /\
  simulate c heap i true None (Some 1) true [] false 0 u0 = Ok o /\
  spied_run c heap i true None (Some 1) true [] false 0 u0 = Ok o' /\ dy_past (snd (o_aux o')) = [ds] /\
  (forall d j, In d ds -> flagged d j = 1%R) /\
  forall v j, 0 <= v < 5 -> in_shape (c_n c) j -> (at_ (x_trouble (o_aux o)) v j < 1)%R.
Proof. exact first_log. Qed.
Print Assumptions C46_first_step_refuted.
