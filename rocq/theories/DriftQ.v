(** Transport by a uniform velocity: examples, and steps that are too long. *)
From Coq Require Import ZArith QArith List Bool Lia Reals Lra.
From Verif Require Import Err Num NdArray FvM RiemannM StencilsM BcM SpecBc SedM LimitM OdeM SolverM Spec SpecSolver SpecCons SpecScheme SpecSym SpecDrift
  NdArrayP BroadP FvP BcQ OpP SolverP ExistP SchemeP UniformP MirrorP LimExistP SymLimP MirLimQ DriftP.
From Verif Require OdeT.
Import ListNotations.
Local Open Scope Z_scope.

(** a channel along x between walls *)
Definition canal_bc : bcond RNum := mkbc (N := RNum) (fun a _ => match a with AY => B_reflective | _ => B_periodic end) (fun _ _ => V_other) None false.
Definition canal : config RNum :=
  mkcfg (N := RNum) (mkix 12 13 1) (mkix 3 2 0) (fun _ => (0, 1)%R) (1/2)%R (Some (1/24)%R) (7/5)%R (1/100)%R RS_upwind canal_bc true L_moncen true (usual_sed true) true.
(** the same with steps from the CFL condition, degree one and minmod slopes *)
Definition canal_cfl : config RNum :=
  mkcfg (N := RNum) (mkix 12 13 1) (mkix 1 1 0) (fun _ => (0, 1)%R) (2/3)%R None (7/5)%R (1/100)%R RS_upwind canal_bc true L_minmod true (usual_sed true) false.
Definition stream (a : axis) : R := match a with AX => 1%R | _ => 0%R end.
(** a dense square in the stream *)
Definition blob (v : Z) (i : ix) : R :=
  let rho := if (3 <=? cx i) && (cx i <? 7) && (2 <=? cy i) && (cy i <? 9) then 2%R else 1%R in
  if (v =? 0) || (v =? 1) then rho else if v =? 4 then (5/2 + 1/2 * rho)%R else 0%R.
Lemma canal_ok (c : config RNum) : c = canal \/ c = canal_cfl ->
  tabulated c /\ closed c /\ known_options c /\ flat_box c /\ c_n c = mkix 12 13 1 /\ (forall a, 0 < width c a)%R /\ passes_walls c stream /\ unhurried c stream.
Proof.
  intro H. assert (E : forall a pos, enough (bc_type (c_bc c) a pos) (getc a (c_n c)) (getc a (ghost_zones3 c))).
  { destruct H as [-> | ->]; intros [] pos; vm_compute; discriminate. }
  assert (W : forall a, (0 < width c a)%R).
  { destruct H as [-> | ->]; intros []; unfold width; cbn [c_bounds canal canal_cfl fst snd getc cx cy cz c_n]; lra. }
  split; [|split; [|split; [|split; [|split; [|split; [exact W|split]]]]]].
  - destruct H as [-> | ->]; (split; [split; [intros []; cbn; lia|intros []; cbn; lia|exists AX; intros [H _]; discriminate|intros e [<-|[<-|[]]]; cbn; lia]|intros []; cbn; lia]).
  - intro a. right. split; [|destruct H as [-> | ->]; destruct a; auto]. intro pos. split; [destruct H as [-> | ->]; destruct a; exact I|apply E].
  - destruct H as [-> | ->]; (split; [discriminate|]; split; discriminate).
  - right. exists AZ. split; [destruct H as [-> | ->]; split; reflexivity|]. split; [|congruence].
    intros b' B [H1 _]. destruct H as [-> | ->]; destruct b'; cbn in H1; congruence.
  - destruct H as [-> | ->]; reflexivity.
  - intros a pos _ T. destruct H as [-> | ->]; destruct a; try discriminate T; reflexivity.
  - assert (X : (crossings c stream = 12)%R).
    { unfold crossings, width. destruct H as [-> | ->]; cbn [inactive_b canal canal_cfl c_n c_p c_bounds fst snd getc cx cy cz Z.eqb Pos.eqb andb stream]; rewrite Rabs_R1, ?Rabs_R0; field. }
    destruct H as [-> | ->]; unfold unhurried, paced; cbn [c_limiter c_fixed_dt canal canal_cfl].
    + rewrite X. split; lra.
    + split; [intros []; cbn; lia|]. cbn [c_CFL c_csq_floor canal_cfl]. split; [|split]; lra.
Qed.
Lemma blob_drifts : drifting stream 1 2 (mkarr 5 (mkix 12 13 1) blob).
Proof.
  intros i _. cbn [at_]. unfold blob. split; [cbn [Z.eqb orb]; destr_if; lra|]. intros []; cbn [comp stream Z.eqb Pos.eqb orb]; destr_if; lra.
Qed.
Lemma canal_case (c : config RNum) heap i k : c = canal \/ c = canal_cfl -> 1 <= k ->
  let u := mkarr 5 (c_n c) blob in
  tabulated c /\ closed c /\ c_limit c = true /\ c_force c = true /\ known_options c /\ (c_convex c = false \/ flat_box c) /\
  c_rs c = RS_upwind /\ (forall a, 0 < width c a)%R /\ passes_walls c stream /\ unhurried c stream /\ drifting stream 1 2 u /\
  exists o, simulate c heap i true None (Some k) true [] false 0 u = Ok o.
Proof.
  intros H K u. destruct (canal_ok c H) as (T & C & O & F & N & W & P & U).
  assert (L : c_limit c = true) by (destruct H as [-> | ->]; reflexivity).
  split; [exact T|]. split; [exact C|]. split; [exact L|]. split; [destruct H as [-> | ->]; reflexivity|]. split; [exact O|]. split; [right; exact F|].
  split; [destruct H as [-> | ->]; reflexivity|]. split; [exact W|]. split; [exact P|]. split; [exact U|].
  unfold u. rewrite N. split; [exact blob_drifts|].
  assert (FI : fillable (N := RNum) (fun _ _ => 0%R) c 5) by (apply SymLimP.closed_fillable, C).
  destruct (c_convex c) eqn:CV.
  - destruct (convex_runs_end (fun _ _ => 0%R) c heap i true k true [] false 0%nat (mkarr 5 (mkix 12 13 1) blob)) as (o & E & _); auto; [cbn; lia|lia|]. exists o. exact E.
  - destruct (limited_runs_end RNum (fun _ _ => 0%R) c heap i true k true [] false 0%nat (mkarr 5 (mkix 12 13 1) blob)) as (o & E & _); auto; [apply flags_R|cbn; lia|lia|]. exists o. exact E.
Qed.

(** ** steps that cross four fifths of a cell *)
Definition hose : config QNum :=
  mkcfg (N := QNum) (mkix 8 1 1) (mkix 1 0 0) (fun _ => (Qmake 0 1, Qmake 8 1)) (Qmake 4 5) (Some (Qmake 4 5)) (Qmake 7 5) (Qmake 1 100) RS_upwind (uniform_bc B_periodic)
    true L_minmod true (mknad (N := QNum) (Qmake 1 2) M_local R_relative (Some [0]) None false 0%Q) false.
Definition ramp (v : Z) (i : ix) : Q :=
  let rho := nth (Z.to_nat (cx i)) [Qmake 1 1; Qmake 1 1; Qmake 2 1; Qmake 3 1; Qmake 4 1; Qmake 3 1; Qmake 2 1; Qmake 1 1] (Qmake 1 1) in
  if (v =? 0) || (v =? 1) then rho else if v =? 4 then Qmult (Qmake 2 1) rho else 0%Q.
Notation hose_run := (simulate hose (fun _ _ _ => Qmake 0 1) I_euler true None (Some 1) true [] false 0 (mkarr 5 (mkix 8 1 1) ramp)).
Definition dent (o : run QNum) := Qred (at_ (o_u o) 0 (mkix 2 0 0)).
Lemma hose_value : OdeT.looked dent hose_run = Some (Qmake 4 5).
Proof. vm_compute. reflexivity. Qed.
Theorem too_fast : exists (c : config QNum) heap u o,
  tabulated c /\ closed c /\ c_limit c = true /\ c_force c = true /\ c_limiter c = L_minmod /\ c_rs c = RS_upwind /\
  c_bounds c AX = (Qmake 0 1, Qmake 8 1) /\ getc AX (c_n c) = 8 /\ inactive c AY /\ inactive c AZ /\ c_fixed_dt c = Some (Qmake 4 5) /\
  shp u = c_n c /\ rows u = 5 /\ (forall i, in_shape (c_n c) i -> Qle (Qmake 1 1) (at_ u 0 i) /\ at_ u 1 i = at_ u 0 i /\ at_ u 2 i = Qmake 0 1 /\ at_ u 3 i = Qmake 0 1) /\
  simulate c heap I_euler true None (Some 1) true [] false 0 u = Ok o /\
  Qlt (at_ (o_u o) 0 (mkix 2 0 0)) (Qmake 1 1).
Proof.
  destruct (OdeT.looked_ok _ _ _ hose_value) as (o & E & V).
  exists hose, (fun _ _ _ => Qmake 0 1), (mkarr 5 (mkix 8 1 1) ramp), o.
  split. { split; [split; [intros []; cbn; lia|intros []; cbn; lia|exists AX; intros [H _]; discriminate|exact I]|intros []; cbn; lia]. }
  split. { intro a. right. split; [|auto]. intro pos. split; [exact I|]. destruct a; vm_compute; discriminate. }
  do 6 (split; [reflexivity|]). do 2 (split; [split; reflexivity|]). do 3 (split; [reflexivity|]). split.
  - intros i Hi. pose proof (Hi AX) as X. cbn [getc cx c_n hose] in X. unfold ramp. cbn [at_ Z.eqb Pos.eqb orb].
    split; [|auto]. assert (C : cx i = 0 \/ cx i = 1 \/ cx i = 2 \/ cx i = 3 \/ cx i = 4 \/ cx i = 5 \/ cx i = 6 \/ cx i = 7) by lia.
    repeat (destruct C as [C|C]; [rewrite C; vm_compute; discriminate|]). rewrite C. vm_compute. discriminate.
  - split; [exact E|]. unfold dent in V. rewrite <- (Qred_correct (at_ (o_u o) 0 (mkix 2 0 0))). rewrite V. reflexivity.
Qed.
