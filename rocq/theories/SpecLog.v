(** Definitions for the statements about the trouble log. *)
From Coq Require Import ZArith List Bool Reals.
From Verif Require Import Err Num PySlice NdArray HydroM RiemannM StencilsM FvM BcM SedM LimitM OdeM SolverM SpecSolver.
Import ListNotations.
Open Scope Z_scope.

(** the number of stages of a step *)
Definition stages (i : integrator) : nat :=
  match i with I_euler => 1 | I_ssprk2 => 2 | I_ssprk3 => 3 | I_rk4 => 4 end%nat.

(** A run that also keeps a diary of everything the detection ever returned: the detections of
    the step being taken and those of all steps taken so far, oldest first. *)
Record diary (N : Num) := mkdiary { dy_now : list (detection N); dy_past : list (list (detection N)) }.
Arguments mkdiary {N}. Arguments dy_now {N}. Arguments dy_past {N}.
(** what a snapshot holds: the primitive variables and the log *)
Definition entry (N : Num) : Type := (arr (car N) * (arr (car N) * arr (car N) * arr (car N)))%type.
(** a run that kept a diary; its snapshots hold the diary of the steps before them *)
Definition spied (N : Num) : Type :=
  @ode N (arr (car N)) (aux N * diary N) (entry N * list (list (detection N))).
Section Diary.
Context {N : Num} (c : config N) (heap : Z -> Z -> ix -> car N).
Local Notation K := (car N).
(** the detection made while the right-hand side is evaluated *)
Definition stage_detection (x : aux N) (t : K) (u : arr K) : res (detection N) :=
  let k := x_evals x + 1 in
  let junk j := heap (4 * k + j) in
  do hf <- hydrofluxes N c (junk 0) t (x_flux x) u (c_p c) L_none;
  do nF <- assign_all (x_flux x AX) (snd hf AX);
  do nG <- assign_all (x_flux x AY) (snd hf AY);
  do nH <- assign_all (x_flux x AZ) (snd hf AZ);
  detect N c junk t u (fun d => match d with AX => nF | AY => nG | AZ => nH end) (fst hf).
Definition spied_f (s : aux N * diary N) (self_t t : K) (u : arr K) : res (aux N * diary N * (K * arr K)) :=
  do r <- solver_f N c heap (fst s) self_t t u;
  do det <- stage_detection (fst s) self_t u;
  Ok ((fst r, mkdiary (dy_now (snd s) ++ [det]) (dy_past (snd s))), snd r).
Definition spied_helper (s : aux N * diary N) : aux N * diary N :=
  (step_helper N c (fst s), mkdiary [] (dy_past (snd s) ++ [dy_now (snd s)])).
(** what a snapshot holds, and the diary of the steps before it *)
Definition spied_payload (as_averages : bool) (s : aux N * diary N) (t : K) (u : arr K)
  : res (entry N * list (list (detection N))) :=
  do d <- snap_payload N c heap as_averages (fst s) t u; Ok (d, dy_past (snd s)).
Definition spied_run (i : integrator) (as_averages : bool) (T : option K) (n : option Z) (exact : bool)
  (downbeats : list K) (log_every_step : bool) (fuel : nat) (u0 : arr K) : res (spied N) :=
  integrate N (arr_ops N) (stepper_of N (arr_ops N) spied_f i) spied_helper (spied_payload as_averages)
    T n exact downbeats log_every_step fuel
    (ode_init N u0 (aux_init N c heap (rows u0), mkdiary [] [])).
End Diary.
(** apart from the diary it is the run [o] *)
Definition shadowed {N} (o : run N) (o' : spied N) : Prop :=
  o_t o' = o_t o /\ o_u o' = o_u o /\ o_stamps o' = o_stamps o /\ o_steps o' = o_steps o /\
  fst (o_aux o') = o_aux o /\ map (fun s => (fst s, fst (snd s))) (o_snaps o') = o_snaps o.

(** how often a cell was flagged, and the sums of its NAD and PAD marks *)
Definition total (mark : detection RNum -> ix -> R) (ds : list (detection RNum)) (i : ix) : R :=
  fold_right Rplus 0%R (map (fun d => mark d i) ds).
Definition flagged (d : detection RNum) (i : ix) : R := if at_ (d_trouble d) 0 i then 1%R else 0%R.
Definition nad_mark (d : detection RNum) (i : ix) : R := at_ (d_nad d) 0 i.
Definition pad_mark (d : detection RNum) (i : ix) : R := at_ (d_pad d) 0 i.

(** [log] is a field of five equal components, each being the totals over [ds] divided by [k] *)
Definition holds_totals (n : ix) (log : arr R) (mark : detection RNum -> ix -> R) (ds : list (detection RNum)) (k : Z) : Prop :=
  rows log = 5 /\ shp log = n /\
  forall v i, 0 <= v < 5 -> in_shape n i -> at_ log v i = (total mark ds i / IZR k)%R.
Definition log_of (n : ix) (ds : list (detection RNum)) (k : Z) (log : arr R * arr R * arr R) : Prop :=
  holds_totals n (fst (fst log)) flagged ds k /\ holds_totals n (snd (fst log)) nad_mark ds k /\
  holds_totals n (snd log) pad_mark ds k.
(** the log after the steps of a diary: zero before the first step; after it the totals
    divided by one more than the number of its stages; then the means over the stages of the
    last step *)
Definition logged (n : ix) (past : list (list (detection RNum))) (log : arr R * arr R * arr R) : Prop :=
  match rev past with
  | [] => log_of n [] 1 log
  | [ds] => log_of n ds (Z.of_nat (List.length ds) + 1) log
  | ds :: _ => log_of n ds (Z.of_nat (List.length ds)) log
  end.

(** with force_trouble every cell is flagged *)
Definition forced (c : config RNum) (d : detection RNum) : Prop :=
  c_force c = true -> forall v i, at_ (d_trouble d) v i = true.
(** without it, and with a tolerance that is not negative, the marks are not negative and the
    flagged cells are those with a mark *)
Definition marked (c : config RNum) (d : detection RNum) : Prop :=
  c_force c = false -> (0 <= nad_eps (c_nad c))%R -> forall i, in_shape (c_n c) i ->
  (0 <= nad_mark d i)%R /\ (0 <= pad_mark d i)%R /\
  (at_ (d_trouble d) 0 i = true <-> (0 < nad_mark d i \/ 0 < pad_mark d i)%R).
(** one detection for every stage of a step *)
Definition stage_list (c : config RNum) (i : integrator) (ds : list (detection RNum)) : Prop :=
  List.length ds = stages i /\ Forall (fun d => forced c d /\ marked c d) ds.
