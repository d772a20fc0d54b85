(** Mirror images of runs with slope limiting: examples, and the absolute range. *)
From Coq Require Import ZArith QArith List Bool Lia Reals Lra.
From Verif Require Import Err Num NdArray FvM RiemannM StencilsM BcM SpecBc LimitM OdeM SolverM Spec SpecLim SpecSolver SpecCons SpecScheme SpecSym SpecMirLim
  FvP BcQ OpP SolverP ExistP SchemeP UniformP MirrorP BroadP LimExistP MirLimP.
From Verif Require OdeT.
Import ListNotations.
Local Open Scope Z_scope.

(** the options EulerSolver sets by default, solver.py:68-77 and 392-396 ([sed := true]), and the
    same with the smooth-extrema detector switched off *)
Definition usual_sed (sed : bool) : nad_params RNum :=
  mknad (N := RNum) (1/100)%R M_global R_relative None (Some [(0, (Some 0%R, None)); (4, (Some 0%R, None))]) sed (1/10^10)%R.
Notation usual := (usual_sed false).
Lemma usual_fair d : mirror_fair d usual.
Proof.
  split; [reflexivity|]. split; [left; reflexivity|]. intros l e H. injection H as H.
  change [(0, (Some 0%R, None)); (4, (Some 0%R, None))] with ([(0, (Some 0%R, @None R))] ++ [(4, (Some 0%R, @None R))]) in H.
  apply app_inj_tail in H. destruct H as [_ <-]. destruct d; discriminate.
Qed.
Lemma usual_fair_axes s b : axes_fair s (usual_sed b).
Proof.
  split.
  - intro a. unfold selected. cbn [usual_sed nad_vars]. destruct a, (s AX), (s AY), (s AZ); cbn [comp]; split; intros _; (split; [lia|exact I]).
  - intros l e H. injection H as H.
    change [(0, (Some 0%R, None)); (4, (Some 0%R, None))] with ([(0, (Some 0%R, @None R))] ++ [(4, (Some 0%R, @None R))]) in H.
    apply app_inj_tail in H. destruct H as [_ <-]. intros []; discriminate.
Qed.
Definition plate_sed (b cv : bool) (ty : bct) : config RNum :=
  mkcfg (N := RNum) (mkix 12 13 1) (mkix 3 2 0) (fun _ => (0, 1)%R) (1/2)%R None (7/5)%R (1/100)%R RS_llf (uniform_bc ty) true L_moncen false (usual_sed b) cv.
Notation plate := (plate_sed false).
Lemma plate_ok b cv ty : copies ty ->
  tabulated (plate_sed b cv ty) /\ closed (plate_sed b cv ty) /\ known_options (plate_sed b cv ty) /\ flat_box (plate_sed b cv ty).
Proof.
  intro HTy. assert (E : forall a, enough ty (getc a (c_n (plate_sed b cv ty))) (getc a (ghost_zones3 (plate_sed b cv ty)))).
  { intros []; destruct ty; vm_compute; try discriminate; try exact I; reflexivity. }
  split; [|split; [|split]].
  - split; [split|].
    + intros []; cbn; lia.
    + intros []; cbn; lia.
    + exists AX. intros [H _]. discriminate.
    + intros e [<-|[<-|[]]]; cbn; lia.
    + intros []; cbn; lia.
  - intro a. right. split; [|auto]. intro pos. split; [exact HTy|apply E].
  - split; [discriminate|]. split; discriminate.
  - right. exists AZ. split; [split; reflexivity|]. split.
    + intros b' B [H _]. destruct b'; cbn in H; congruence.
    + congruence.
Qed.
Lemma plate_runs b cv ty heap i k u : copies ty -> shp u = mkix 12 13 1 -> 2 <= rows u -> 1 <= k ->
  exists o, simulate (plate_sed b cv ty) heap i true None (Some k) true [] false 0 u = Ok o.
Proof.
  intros HTy Su Ru K. destruct (plate_ok b cv ty HTy) as (T & C & O & F).
  assert (FI : fillable (N := RNum) (fun _ _ => 0%R) (plate_sed b cv ty) (rows u)) by (apply SymLimP.closed_fillable, C).
  assert (EX : forall c : config RNum, tabulated c -> fillable (N := RNum) (fun _ _ => 0%R) c (rows u) -> c_limit c = true -> known_options c -> flat_box c -> shp u = c_n c ->
    exists o, simulate c heap i true None (Some k) true [] false 0 u = Ok o).
  { intros c T' FI' L' O' F' S'. destruct (c_convex c) eqn:CV.
    - destruct (convex_runs_end (fun _ _ => 0%R) c heap i true k true [] false 0%nat u) as (o & E & _); auto; [lia|]. exists o. exact E.
    - destruct (limited_runs_end RNum (fun _ _ => 0%R) c heap i true k true [] false 0%nat u) as (o & E & _); auto; [apply flags_R|lia|]. exists o. exact E. }
  apply EX; auto.
Qed.

(** ** the absolute range *)
Definition pipe (q : nad_params QNum) : config QNum :=
  mkcfg (N := QNum) (mkix 5 1 1) (mkix 1 0 0) (fun _ => (0%Q, 3%Q)) (Qmake 1 2) (Some 1%Q) (Qmake 2 1) 1%Q RS_upwind (uniform_bc B_outflow)
    true L_minmod false q false.
Definition absolute : nad_params QNum := mknad (N := QNum) (Qmake 1 2) M_local R_absolute (Some [1]) None false 0%Q.
Definition relative : nad_params QNum := mknad (N := QNum) (Qmake 1 2) M_local R_relative (Some [1]) None false 0%Q.
(** unit velocity up or down the axis *)
Definition drift (up : bool) : arr Q := mkarr 5 (mkix 5 1 1) (fun v i =>
  let x := inject_Z (nth (Z.to_nat (if up then cx i else 4 - cx i)) [2; 2; 3; 5; 5] 0) in
  if v =? 0 then x else if v =? 1 then (if up then x else Qopp x) else if v =? 4 then Qmult (Qmake 1 2) x else 0%Q).
Notation drift_run q up := (simulate (pipe q) (fun _ _ _ => 0%Q) I_euler true None (Some 1) true [] false 0 (drift up)).
Definition row0 (o : run QNum) := map (fun i => Qred (at_ (o_u o) 0 i)) [mkix 0 0 0; mkix 1 0 0; mkix 2 0 0; mkix 3 0 0; mkix 4 0 0].
Lemma value_up : OdeT.looked row0 (drift_run absolute true) = Some [2%Q; Qmake 19 12; Qmake 1 2; Qmake 25 12; Qmake 35 6].
Proof. vm_compute. reflexivity. Qed.
Lemma value_down : OdeT.looked row0 (drift_run absolute false) = Some [5%Q; Qmake 5 2; Qmake 1 2; 2%Q; 2%Q].
Proof. vm_compute. reflexivity. Qed.
Lemma value_up_r : OdeT.looked row0 (drift_run relative true) = Some [2%Q; Qmake 19 12; Qmake 1 2; Qmake 25 12; Qmake 35 6].
Proof. vm_compute. reflexivity. Qed.
Lemma value_down_r : OdeT.looked row0 (drift_run relative false) = Some [Qmake 35 6; Qmake 25 12; Qmake 1 2; Qmake 19 12; 2%Q].
Proof. vm_compute. reflexivity. Qed.
Lemma pipe_ok q : pad_bounds q = None -> tabulated (pipe q) /\ closed (pipe q).
Proof.
  intro P. split.
  - split; [split|].
    + intros []; cbn; lia.
    + intros []; cbn; lia.
    + exists AX. intros [H _]. discriminate.
    + cbn. rewrite P. exact I.
    + intros []; cbn; lia.
  - intros a. right. split; [|tauto]. intro pos. split; [exact I|]. destruct a; vm_compute; first [exact I|discriminate|reflexivity|intro; discriminate].
Qed.
Lemma same_red (x y q : Q) : Qred x = q -> Qred y = q -> Qeq x y.
Proof. intros A B. rewrite <- (Qred_correct x), <- (Qred_correct y), A, B. reflexivity. Qed.
Theorem absolute_is_unfair : exists (c : config QNum) q heap u u' o o' p p',
  tabulated c /\ closed c /\ bc_type (c_bc c) AX SL = bc_type (c_bc c) AX SR /\ c_limit c = true /\ c_convex c = false /\
  nad_range_ (c_nad c) = R_absolute /\ sed_on (c_nad c) = false /\ nad_range_ q = R_relative /\
  shp u = c_n c /\ mirrored_rational AX u u' /\
  simulate c heap I_euler true None (Some 1) true [] false 0 u = Ok o /\
  simulate c heap I_euler true None (Some 1) true [] false 0 u' = Ok o' /\
  ~ Qeq (at_ (o_u o') 0 (mkix 0 0 0)) (at_ (o_u o) 0 (mkix 4 0 0)) /\
  simulate (with_nad q c) heap I_euler true None (Some 1) true [] false 0 u = Ok p /\
  simulate (with_nad q c) heap I_euler true None (Some 1) true [] false 0 u' = Ok p' /\
  forall x, 0 <= x < 5 -> Qeq (at_ (o_u p') 0 (mkix x 0 0)) (at_ (o_u p) 0 (mkix (4 - x) 0 0)).
Proof.
  destruct (OdeT.looked_ok _ _ _ value_up) as (o & E & V). destruct (OdeT.looked_ok _ _ _ value_down) as (o' & E' & V').
  destruct (OdeT.looked_ok _ _ _ value_up_r) as (p & P & W). destruct (OdeT.looked_ok _ _ _ value_down_r) as (p' & P' & W').
  exists (pipe absolute), relative, (fun _ _ _ => 0%Q), (drift true), (drift false), o, o', p, p'.
  destruct (pipe_ok absolute eq_refl) as [T C]. split; [exact T|]. split; [exact C|]. do 7 (split; [reflexivity|]). split.
  { split; [reflexivity|]. split; [reflexivity|]. intros v [x y z] Hi. cbv zeta. unfold drift. cbn [at_ shp setc getc cx cy cz].
    change (5 - 1 - x) with (4 - x). change (comp AX) with 1. destruct (Z.eqb_spec v 0) as [->|]; [reflexivity|]. destruct (Z.eqb_spec v 1) as [->|]; [reflexivity|]. reflexivity. }
  split; [exact E|]. split; [exact E'|]. clear E E'.
  unfold row0 in *. cbn [map] in *. injection V as _ _ _ _ V. injection V' as V' _ _ _ _. injection W as W1 W2 W3 W4 W5. injection W' as W1' W2' W3' W4' W5'.
  split. { intro X. apply Qred_complete in X. pose proof (eq_trans (eq_sym V') (eq_trans X V)) as Z0. discriminate Z0. }
  split; [exact P|]. split; [exact P'|]. clear P P'.
  intros x Hx.
  assert (D : x = 0 \/ x = 1 \/ x = 2 \/ x = 3 \/ x = 4) by lia.
  destruct D as [->|[->|[->|[->| ->]]]]; [change (4 - 0) with 4|change (4 - 1) with 3|change (4 - 2) with 2|change (4 - 3) with 1|change (4 - 4) with 0].
  - exact (same_red _ _ _ W1' W5).
  - exact (same_red _ _ _ W2' W4).
  - exact (same_red _ _ _ W3' W3).
  - exact (same_red _ _ _ W4' W2).
  - exact (same_red _ _ _ W5' W1).
Qed.
