(** A run of degree one without a limiter (an example for C78). *)
From Coq Require Import ZArith List Bool Lia Reals Lra.
From Verif Require Import Err Num PySlice NdArray HydroM RiemannM StencilsM FvM BcM SedM
  LimitM OdeM SolverM Spec SpecBc SpecLim SpecSolver SpecCons SpecScheme SpecSym SpecLimRhs SpecQuiet MirLimQ QuietP QuietQ.
Import ListNotations.
Open Scope Z_scope.
(** degrees 1 1 0 and the piecewise-linear fall-back without a slope limiter (L_none) *)
Definition plain (cv : bool) (ty : bct) : config RNum :=
  mkcfg (N := RNum) (mkix 12 13 1) (mkix 1 1 0) (fun _ => (0, 1)%R) (1/2)%R None (7/5)%R (1/100)%R RS_llf (uniform_bc ty) true L_none false (usual_sed true) cv.
Lemma plain_ok cv ty : copies ty ->
  tabulated (plain cv ty) /\ closed (plain cv ty) /\ known_options (plain cv ty) /\ flat_box (plain cv ty).
Proof.
  intro HTy. assert (E : forall a, enough ty (getc a (c_n (plain cv ty))) (getc a (ghost_zones3 (plain cv ty)))).
  { intros []; destruct ty; vm_compute; try discriminate; try exact I; reflexivity. }
  split; [|split; [|split]].
  - split; [split|].
    + intros []; cbn; lia.
    + intros []; cbn; lia.
    + exists AX. intros [H _]. discriminate.
    + intros e [<-|[<-|[]]]; cbn; lia.
    + intros []; cbn; lia.
  - intro a. right. split; [|auto]. intro pos. split; [exact HTy|apply E].
  - split; [discriminate|]. split; discriminate.
  - right. exists AZ. split; [split; reflexivity|]. split.
    + intros b' B [H _]. destruct b'; cbn in H; congruence.
    + congruence.
Qed.
Lemma plain_example cv ty heap i k u : copies ty -> shp u = c_n (plain cv ty) -> rows u = 5 -> 1 <= k -> let c := plain cv ty in
  tabulated c /\ c_limit c = true /\ known_options c /\ flat_box c /\ (exists slope, fallback_slope c slope) /\
  (forall a, getc a (c_p c) <= 1) /\ c_limiter c = L_none /\ (0 < sed_eps (c_nad c))%R /\
  fillable (N := RNum) (fun _ _ => 0%R) c (rows u) /\
  exists o, simulate c heap i true None (Some k) true [] false 0 u = Ok o.
Proof.
  intros H Su Ru K c. destruct (plain_ok cv ty H) as (T & C & O & F).
  split; [exact T|]. split; [reflexivity|]. split; [exact O|]. split; [exact F|]. split; [eexists; eexists; split; reflexivity|].
  split; [intros []; cbn; lia|]. split; [reflexivity|]. split; [cbn; lra|].
  split; [apply SymLimP.closed_fillable, C|]. apply runs_of; auto. setoid_rewrite Ru. lia.
Qed.
