(** A wall as a plane of symmetry with slope limiting: a basin of degree one. *)
From Coq Require Import ZArith List Bool Lia Reals Lra.
From Verif Require Import Err Num NdArray FvM RiemannM StencilsM BcM SpecBc LimitM OdeM SolverM Spec SpecLim SpecSolver SpecCons SpecScheme SpecSym SpecMirLim SpecFold
  NdArrayP FvP BcQ OpP SolverP ExistP SchemeP UniformP MirrorP BroadP LimExistP SymLimP MirLimP MirHllcQ FoldP.
Import ListNotations.
Local Open Scope Z_scope.

(** 12 x 13 cells with walls all around; the admissible ranges are local, or global and only
    those of density and pressure *)
Definition basin_nad (b : bool) : nad_params RNum :=
  mknad (N := RNum) (1/100)%R (if b then M_local else M_global) R_relative (if b then None else Some [0; 4])
    (Some [(0, (Some 0%R, None)); (4, (Some 0%R, None))]) false (1/10^10)%R.
Definition basin (rs : rsolver) (b cv : bool) : config RNum :=
  mkcfg (N := RNum) (mkix 12 13 1) (mkix 1 1 0) (fun _ => (0, 1)%R) (1/2)%R None (7/5)%R (1/100)%R rs (uniform_bc B_reflective) true L_minmod false (basin_nad b) cv.
Lemma basin_fair b d : wall_fair d (basin_nad b).
Proof.
  split; [reflexivity|]. split.
  - destruct b; [left; split; reflexivity|right]. intros [_ [H|[H|[]]]]; destruct d; discriminate.
  - intros l e H. injection H as H.
    change [(0, (Some 0%R, None)); (4, (Some 0%R, None))] with ([(0, (Some 0%R, @None R))] ++ [(4, (Some 0%R, @None R))]) in H.
    apply app_inj_tail in H. destruct H as [_ <-]. destruct d; discriminate.
Qed.
Lemma basin_ok rs b cv : let c := basin rs b cv in tabulated c /\ closed c /\ known_options c /\ flat_box c /\
  (forall a, 2 <= getc a (ghost_zones3 c) \/ inactive_b c a = true).
Proof.
  cbv zeta. assert (E : forall a, enough B_reflective (getc a (c_n (basin rs b cv))) (getc a (ghost_zones3 (basin rs b cv)))).
  { intros []; vm_compute; try discriminate; reflexivity. }
  split; [|split; [|split; [|split]]].
  - split; [split|].
    + intros []; cbn; lia.
    + intros []; cbn; lia.
    + exists AX. intros [H _]. discriminate.
    + intros e [<-|[<-|[]]]; cbn; lia.
    + intros []; cbn; lia.
  - intro a. right. split; [|auto]. intro pos. split; [exact I|apply E].
  - split; [discriminate|]. split; destruct b; discriminate.
  - right. exists AZ. split; [split; reflexivity|]. split.
    + intros b' B [H _]. destruct b'; cbn in H; congruence.
    + congruence.
  - intros []; [left; vm_compute; discriminate|left; vm_compute; discriminate|right; reflexivity].
Qed.
Lemma basin_doubled rs b cv d : d <> AZ -> flat_box (doubled d (uniform_bc B_reflective) (basin rs b cv)).
Proof.
  intro NE. right. exists AZ. split; [destruct d; [split; reflexivity|split; reflexivity|contradiction]|]. split.
  - intros b' B [H _]. destruct d; [| |contradiction]; destruct b'; cbn in H; congruence.
  - congruence.
Qed.
Lemma basin_runs rs b cv heap i k u : shp u = mkix 12 13 1 -> rows u = 5 -> 1 <= k ->
  exists o, simulate (basin rs b cv) heap i true None (Some k) true [] false 0 u = Ok o.
Proof.
  intros Su Ru K. destruct (basin_ok rs b cv) as (T & C & O & F & _).
  assert (FI : fillable (N := RNum) (fun _ _ => 0%R) (basin rs b cv) (rows u)) by (apply SymLimP.closed_fillable, C).
  assert (EX : forall c : config RNum, tabulated c -> fillable (N := RNum) (fun _ _ => 0%R) c (rows u) -> c_limit c = true -> known_options c -> flat_box c -> shp u = c_n c ->
    exists o, simulate c heap i true None (Some k) true [] false 0 u = Ok o).
  { intros c T' FI' L' O' F' S'. destruct (c_convex c) eqn:CV.
    - destruct (convex_runs_end (fun _ _ => 0%R) c heap i true k true [] false 0%nat u) as (o & E & _); auto; try lia. exists o. exact E.
    - destruct (limited_runs_end RNum (fun _ _ => 0%R) c heap i true k true [] false 0%nat u) as (o & E & _); auto; try apply flags_R; try lia. exists o. exact E. }
  apply EX; auto.
Qed.
Lemma basin_calm b : let c := basin RS_hllc b false in test_of_cells calm_b /\ fallback_slope c (Some (LimitM.minmod RNum)) /\
  (forall w, shp w = c_n c -> calm_b w = true -> physical_traces (wts_i RNum) (wts_t RNum) c (filled c w) /\
    physical_low_traces (wts_i RNum) (wts_t RNum) c (Some (LimitM.minmod RNum)) (filled c w)) /\
  forall heap u, shp u = c_n c -> rows u = 5 -> calm (7/5) u ->
    exists o, simulate_checked (N := RNum) calm_b c heap I_euler true None (Some 1) true [] false 0 u = Ok o.
Proof.
  cbv zeta. destruct (basin_ok RS_hllc b false) as (T & C & O & F & GZ).
  assert (Hp : forall a, getc a (c_p (basin RS_hllc b false)) = 0 \/ getc a (c_p (basin RS_hllc b false)) = 1) by (intros []; cbn; lia).
  split; [exact calm_b_cells|]. split; [exists (LimitM.minmod RNum); split; reflexivity|]. split.
  - intros w Sw Ow. apply calm_b_spec in Ow. split; [apply calm_physical; auto|apply calm_low; auto using minmod_tame].
  - intros heap u Su Ru Cu. rewrite checked_euler by (apply calm_b_spec, Cu). apply basin_runs; auto. lia.
Qed.
