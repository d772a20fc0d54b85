(** Theorems on uniform flow and the trouble detector (C85). *)
From Coq Require Import ZArith List Bool Reals.
From Verif Require Import Err Num NdArray FvM StencilsM BcM LimitM RiemannM OdeM SolverM Spec SpecBc SpecSolver SpecCons SpecScheme SpecSym SpecLim SpecLimRhs SpecUniLog
  UniLogP UniLogQ.
Import ListNotations.
Open Scope Z_scope.

(** C85. In a limited run from a uniform state, which stays as it is (C37), the log after any
    number of Euler steps is either positive in every cell or zero in every cell. It is positive
    exactly if trouble is forced, or the state violates the last physical bound, or the range is
    absolute and one of the variables the detector looks at is negative. Smooth-extrema detection
    does not help: it takes constant data for rough. *)
Theorem C85_uniform_flow_log : forall (c : config RNum) heap k exact downbeats log fuel u0 s o,
  tabulated c -> closed c -> along_walls c s -> c_limit c = true -> known_options c -> (sed_on (c_nad c) = true -> (0 < sed_eps (c_nad c))%R) ->
  shp u0 = c_n c -> 2 <= rows u0 -> uniform u0 s -> 1 <= k ->
  simulate c heap I_euler true None (Some k) exact downbeats log fuel u0 = Ok o ->
  let bad := c_force c = true \/ faulted (c_nad c) (primitive (c_gamma c) s) in
  forall i, in_shape (c_n c) i -> (bad /\ 0 < at_ (x_trouble (o_aux o)) 0 i)%R \/ ~ bad /\ at_ (x_trouble (o_aux o)) 0 i = 0%R.
Proof. exact uniform_logged. Qed.
Print Assumptions C85_uniform_flow_log.
(** C85. In particular the log of a gas flowing steadily through a periodic box depends on the
    direction: with the absolute range everything is trouble if it flows to the left, nothing if
    it flows to the right; with the relative range nothing is. *)
Theorem C85_steady_flow : forall g V heap k, g <> R_unknown -> 1 <= k -> let c := ranged g in let u := mkarr 5 (c_n c) (fun v _ => flow V v) in
  tabulated c /\ closed c /\ along_walls c (flow V) /\ c_limit c = true /\ known_options c /\ (sed_on (c_nad c) = true -> (0 < sed_eps (c_nad c))%R) /\ uniform u (flow V) /\
  exists o, simulate c heap I_euler true None (Some k) true [] false 0 u = Ok o /\
    forall i, in_shape (c_n c) i -> (g = R_absolute /\ V < 0 /\ 0 < at_ (x_trouble (o_aux o)) 0 i)%R \/
      ~ (g = R_absolute /\ V < 0)%R /\ at_ (x_trouble (o_aux o)) 0 i = 0%R.
Proof. exact flow_logs. Qed.
Print Assumptions C85_steady_flow.
