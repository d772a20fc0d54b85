(** What the trouble log of a run says about its last step: the two halves and cases. *)
From Coq Require Import ZArith List Bool Lia Reals Lra.
From Verif Require Import Err Num NdArray HydroM FvM RiemannM StencilsM BcM LimitM OdeM SolverM Spec SpecBc SpecLim SpecSolver SpecCons SpecScheme SpecSym SpecPos SpecLimRhs SpecMirLim
  SpecQuiet NdArrayP SchemeP ExistP BroadP ConvexP LimExistP SymLimP MirLimQ ThinLimQ QuietQ DenseQ CleanP.
From Verif Require OdeT.
Import ListNotations.
Local Open Scope Z_scope.

Lemma logged wi wt : tables wi wt -> forall (c : config RNum) heap k exact downbeats log fuel u0 o,
  tabulated c -> closed c -> c_limit c = true -> known_options c -> (sed_on (c_nad c) = true -> (0 < sed_eps (c_nad c))%R) ->
  shp u0 = c_n c -> 2 <= rows u0 -> 1 <= k ->
  simulate c heap I_euler true None (Some k) exact downbeats log fuel u0 = Ok o ->
  let W u := primitives wi wt (c_p c) (c_gamma c) (filled c u) in
  exists o1 dt, simulate c heap I_euler true None (Some (k - 1)) exact downbeats log fuel u0 = Ok o1 /\
    SpecScheme.time_step c (W (o_u o1)) dt /\ o_t o = (o_t o1 + dt)%R /\
    let u' := euler_candidate c (o_u o1) dt (balance c (fun d => face_flux wi wt c (c_p c) None d (filled c (o_u o1)))) in
    forall i, in_shape (c_n c) i -> (troubled c (W (o_u o1)) (W u') i /\ 0 < at_ (x_trouble (o_aux o)) 0 i)%R \/
       ~ troubled c (W (o_u o1)) (W u') i /\ at_ (x_trouble (o_aux o)) 0 i = 0%R.
Proof.
  intros HW c heap k ex db log fuel u0 o HT HC HL HK He Su Ru Hk H W.
  destruct (clean_runs wi wt HW c heap k ex db log fuel u0 o HT HC HL HK He Su Ru Hk H) as (o1 & dt & A & B & C & D & _).
  exists o1, dt. split; [exact A|]. split; [exact B|]. split; [exact C|]. exact D.
Qed.
Lemma untroubled wi wt : tables wi wt -> forall (c : config RNum) heap k exact downbeats log fuel u0 o,
  tabulated c -> closed c -> c_limit c = true -> known_options c -> (sed_on (c_nad c) = true -> (0 < sed_eps (c_nad c))%R) ->
  shp u0 = c_n c -> 2 <= rows u0 -> 1 <= k ->
  simulate c heap I_euler true None (Some k) exact downbeats log fuel u0 = Ok o ->
  (forall i, in_shape (c_n c) i -> at_ (x_trouble (o_aux o)) 0 i = 0%R) ->
  let W u := primitives wi wt (c_p c) (c_gamma c) (filled c u) in
  exists o1 dt, simulate c heap I_euler true None (Some (k - 1)) exact downbeats log fuel u0 = Ok o1 /\
    SpecScheme.time_step c (W (o_u o1)) dt /\ o_t o = (o_t o1 + dt)%R /\
    (forall v i, in_shape (c_n c) i -> at_ (o_u o) v i =
      (at_ (o_u o1) v i + dt * balance c (fun d => face_flux wi wt c (c_p c) None d (filled c (o_u o1))) v i)%R) /\
    (forall i, in_shape (c_n c) i -> ~ troubled c (W (o_u o1)) (W (o_u o)) i) /\
    exists l w, o_snaps o = l ++ [(o_t o, (w, (x_trouble (o_aux o), x_nad (o_aux o), x_pad (o_aux o))))] /\
      forall v i, in_shape (c_n c) i -> at_ w v i = W (o_u o) v i.
Proof.
  intros HW c heap k ex db log fuel u0 o HT HC HL HK He Su Ru Hk H Q W.
  destruct (clean_runs wi wt HW c heap k ex db log fuel u0 o HT HC HL HK He Su Ru Hk H) as (o1 & dt & A & B & C & _ & D & S). destruct (D Q) as [D1 D2].
  exists o1, dt. split; [exact A|]. split; [exact B|]. split; [exact C|]. split; [exact D1|]. split; [exact D2|]. exact S.
Qed.
(** the plank with a detector that looks at no variable keeps a clean log, and with forced
    trouble it logs trouble everywhere *)
Lemma idle_clean cv ty heap k u wi wt : copies ty -> tables wi wt -> shp u = c_n (idle cv ty) -> rows u = 5 -> 1 <= k -> let c := idle cv ty in
  tabulated c /\ closed c /\ c_limit c = true /\ known_options c /\ (sed_on (c_nad c) = true -> (0 < sed_eps (c_nad c))%R) /\
  exists o, simulate c heap I_euler true None (Some k) true [] false 0 u = Ok o /\ forall i, in_shape (c_n c) i -> at_ (x_trouble (o_aux o)) 0 i = 0%R.
Proof.
  intros H HW Su Ru K c. destruct (idle_example cv ty heap I_euler k u H Su Ru K) as (T & L & O & _ & _ & F & NV & PB & _ & SE & _ & o & E).
  destruct (plank_ok true cv ty H) as (_ & C & _).
  assert (R2 : 2 <= rows u) by (setoid_rewrite Ru; lia).
  split; [exact T|]. split; [exact C|]. split; [exact L|]. split; [exact O|]. split; [intros _; exact SE|].
  exists o. split; [exact E|]. destruct (logged wi wt HW c heap k true [] false 0%nat u o T C L O (fun _ => SE) Su R2 K E) as (o1 & dt & _ & _ & _ & D).
  cbv zeta in D. intros i Hi. destruct (D i Hi) as [[X _]|[_ X]]; [|exact X]. exfalso. destruct X as [X|[X|(v & X & _)]].
  - change (c_force c) with false in X. discriminate.
  - destruct X.
  - destruct X as [_ X]. change (nad_vars (c_nad c)) with (Some (@nil Z)) in X. destruct X.
Qed.
Lemma driven_logs cv ty heap k u wi wt : copies ty -> tables wi wt -> shp u = c_n (driven cv ty) -> rows u = 5 -> 1 <= k -> let c := driven cv ty in
  tabulated c /\ closed c /\ c_limit c = true /\ known_options c /\ (sed_on (c_nad c) = true -> (0 < sed_eps (c_nad c))%R) /\
  exists o, simulate c heap I_euler true None (Some k) true [] false 0 u = Ok o /\ forall i, in_shape (c_n c) i -> (0 < at_ (x_trouble (o_aux o)) 0 i)%R.
Proof.
  intros H HW Su Ru K c. destruct (driven_example cv ty heap I_euler k u H Su Ru K) as (T & L & O & _ & _ & F & _ & _ & _ & _ & o & E).
  destruct (plank_ok true cv ty H) as (_ & C & _).
  assert (R2 : 2 <= rows u) by (setoid_rewrite Ru; lia).
  assert (SE : (0 < sed_eps (c_nad c))%R) by (unfold c, driven; cbn; lra).
  split; [exact T|]. split; [exact C|]. split; [exact L|]. split; [exact O|]. split; [intros _; exact SE|].
  exists o. split; [exact E|]. destruct (logged wi wt HW c heap k true [] false 0%nat u o T C L O (fun _ => SE) Su R2 K E) as (o1 & dt & _ & _ & _ & D).
  cbv zeta in D. intros i Hi. destruct (D i Hi) as [[_ X]|[X _]]; [exact X|]. exfalso. apply X. left. exact F.
Qed.
(** ** a step with trouble *)
(** two streams parting, with a detector that asks for a positive density only *)
Definition watched : config FNum :=
  mkcfg (N := FNum) (mkix 7 1 1) (mkix 1 0 0) (fun _ => (fof 0, fof 1)) (ndiv (nofZ 4) (nofZ 5)) None (ndiv (nofZ 7) (nofZ 5)) (fof 0) RS_llf
    (uniform_bc B_outflow) true L_minmod false (mknad (N := FNum) (fof 1) M_local R_relative (Some []) (Some [(0, (Some (fof 0), None))]) false (fof 1)) false.
(** gas leaving the middle cell on both sides *)
Definition burst (v : Z) (i : ix) : f64 :=
  if v =? 0 then fof 1 else if v =? 1 then (if cx i =? 2 then fof (-100) else if cx i =? 4 then fof 100 else fof 0)
  else if v =? 4 then (if (cx i =? 2) || (cx i =? 4) then fof 5002 else fof 2) else fof 0.
Definition marks (o : run FNum) : bool * bool * bool * bool :=
  (gap o, nltb (n := FNum) (fof 0) (at_ (x_trouble (o_aux o)) 0 (mkix 3 0 0)), nltb (n := FNum) (fof 0) (at_ (x_trouble (o_aux o)) 0 (mkix 2 0 0)), nltb (n := FNum) (fof 0) (at_ (x_trouble (o_aux o)) 0 (mkix 0 0 0))).
Notation watched_run := (simulate watched (fun _ _ _ => fof 0) I_euler true None (Some 1) true [] false 0 (mkarr 5 (mkix 7 1 1) burst)).
Lemma watched_value : OdeT.looked marks watched_run = Some (true, true, false, false).
Proof. vm_compute. reflexivity. Qed.
Lemma burst_gas : gas_test (N := FNum) (mkarr 5 (mkix 7 1 1) burst) = true.
Proof. vm_compute. reflexivity. Qed.
Lemma still_broken : exists (c : config FNum) heap u0 o,
  c_limit c = true /\ c_force c = false /\ c_limiter c = L_minmod /\ c_rs c = RS_llf /\ c_CFL c = ndiv (nofZ 4) (nofZ 5) /\
  pad_bounds (c_nad c) = Some [(0, (Some (nofZ 0), None))] /\ inactive c AY /\ inactive c AZ /\ shp u0 = c_n c /\ gas_test (N := FNum) u0 = true /\
  simulate c heap I_euler true None (Some 1) true [] false 0 u0 = Ok o /\
  nltb (nofZ 0) (at_ (x_trouble (o_aux o)) 0 (mkix 3 0 0)) = true /\
  nltb (at_ (o_u o) 0 (mkix 3 0 0)) (nofZ 0) = true.
Proof.
  destruct (OdeT.looked_ok _ _ _ watched_value) as (o & E & V). unfold marks, gap in V. injection V as V1 V2 _ _.
  exists watched, (fun _ _ _ => fof 0), (mkarr 5 (mkix 7 1 1) burst), o.
  do 6 (split; [reflexivity|]). split; [split; reflexivity|]. split; [split; reflexivity|]. split; [reflexivity|]. split; [exact burst_gas|].
  split; [exact E|]. split; [exact V2|exact V1].
Qed.
