(** Total variation: examples, and schemes that increase it. *)
From Coq Require Import ZArith QArith Qabs List Bool Lia Reals Lra.
From Verif Require Import Err Num NdArray FvM RiemannM StencilsM BcM SpecBc SedM LimitM OdeM SolverM Spec SpecSolver SpecCons SpecScheme SpecSym SpecDrift SpecTv
  NdArrayP BroadP FvP BcQ OpP SolverP ExistP SchemeP UniformP MirrorP LimExistP SymLimP MirLimQ DriftP DriftQ TvP.
From Verif Require OdeT.
Import ListNotations.
Local Open Scope Z_scope.

(** a tube of twelve cells, closed to a ring or open at both ends *)
Definition tube (ty : bct) : config RNum :=
  mkcfg (N := RNum) (mkix 12 1 1) (mkix 1 0 0) (fun _ => (0, 1)%R) (1/2)%R (Some (1/24)%R) (7/5)%R (1/100)%R RS_upwind (uniform_bc ty) true L_moncen true (usual_sed true) false.
Definition slug (s : R) (v : Z) (i : ix) : R :=
  let rho := if (3 <=? cx i) && (cx i <? 7) then 2%R else 1%R in
  if v =? 0 then rho else if v =? 1 then (s * rho)%R else if v =? 4 then (5/2 + 1/2 * rho)%R else 0%R.
Definition flow_by (s : R) (a : axis) : R := match a with AX => s | _ => 0%R end.
Lemma slug_jumps cl s : jumps cl 12 (fun x => slug s 0 (setc AX x (mkix 0 0 0))) = 2%R.
Proof.
  unfold jumps. change (Z.to_nat 12) with 12%nat. cbn [sum_to].
  assert (E : forall x y : R, (Rabs (x - x) = 0 /\ Rabs (2 - 1) = 1 /\ Rabs (1 - 2) = 1)%R).
  { intros x _. rewrite Rminus_eq_0, Rabs_R0. split; [reflexivity|]. split; [rewrite Rabs_right; lra|rewrite Rabs_left; lra]. }
  destruct (E 1%R 1%R) as (E1 & E2 & E3). destruct (E 2%R 2%R) as (E4 & _).
  destruct cl; cbn; rewrite ?E1, ?E2, ?E3, ?E4; lra.
Qed.
Lemma tube_case ty s heap i k : ty = B_periodic \/ ty = B_free -> s = 1%R \/ s = (-1)%R -> 1 <= k ->
  let c := tube ty in let u := mkarr 5 (mkix 12 1 1) (slug s) in
  tabulated c /\ closed c /\ known_options c /\ (forall a, 0 < width c a)%R /\ passes_walls c (flow_by s) /\ unhurried c (flow_by s) /\ only_axis c AX /\ ends_alike c AX /\
  drifting (flow_by s) 1 2 u /\ variation c AX u = 2%R /\ exists o, simulate c heap i true None (Some k) true [] false 0 u = Ok o.
Proof.
  intros T S K c u.
  assert (HT : tabulated c). { split; [split; [intros []; cbn; lia|intros []; cbn; lia|exists AX; intros [H _]; discriminate|intros e [<-|[<-|[]]]; cbn; lia]|intros []; cbn; lia]. }
  assert (HC : closed c). { intro a. destruct a; [right|left; reflexivity|left; reflexivity]. destruct T as [-> | ->]; (split; [|intro H; first [discriminate H|reflexivity]]); intro pos; (split; [exact I|vm_compute; discriminate]). }
  assert (HK : known_options c). { split; [discriminate|]; split; discriminate. }
  split; [exact HT|]. split; [exact HC|]. split; [exact HK|]. split.
  { intros []; unfold width; cbn [c_bounds c tube fst snd getc cx cy cz c_n]; lra. }
  split. { intros a pos _ E. destruct T as [-> | ->]; discriminate E. }
  split. { unfold unhurried, paced. cbn [c_limiter c_fixed_dt c tube]. assert (X : (crossings c (flow_by s) = 12)%R).
    { unfold crossings, width. cbn [inactive_b c tube c_n c_p c_bounds fst snd getc cx cy cz Z.eqb Pos.eqb andb flow_by].
      assert (A : Rabs s = 1%R) by (destruct S as [-> | ->]; [apply Rabs_R1|rewrite Rabs_left; lra]). rewrite A. field. }
    fold c. rewrite X. split; lra. }
  split. { split; [intros [H _]; discriminate|]. intros [] NE; try congruence; split; reflexivity. }
  split. { unfold ends_alike. destruct T as [-> | ->]; cbn; tauto. }
  split. { intros j _. unfold u. cbn [at_]. unfold slug. split; [cbn [Z.eqb]; destr_if; lra|]. intros []; cbn [comp flow_by Z.eqb Pos.eqb]; destr_if; lra. }
  split. { exact (slug_jumps (ring c AX) s). }
  assert (EX : forall c' : config RNum, c_limit c' = true -> c_convex c' = false -> tabulated c' -> closed c' -> known_options c' -> c_n c' = mkix 12 1 1 ->
    exists o, simulate c' heap i true None (Some k) true [] false 0 u = Ok o).
  { intros c' L CV T' C' K' N'. assert (FI : fillable (N := RNum) (fun _ _ => 0%R) c' 5) by (apply SymLimP.closed_fillable, C').
    destruct (limited_runs_end RNum (fun _ _ => 0%R) c' heap i true k true [] false 0%nat u) as (o & E & _); auto; [apply flags_R|cbn; lia|lia|]. exists o. exact E. }
  apply EX; auto.
Qed.

(** quadratic reconstruction without limiting *)
Definition pipe2 : config QNum :=
  mkcfg (N := QNum) (mkix 8 1 1) (mkix 2 0 0) (fun _ => (Qmake 0 1, Qmake 8 1)) (Qmake 4 5) (Some (Qmake 1 2)) (Qmake 7 5) (Qmake 1 100) RS_upwind (uniform_bc B_periodic)
    false L_minmod false (mknad (N := QNum) (Qmake 1 2) M_local R_relative (Some [0]) None false 0%Q) false.
Definition block_q (v : Z) (i : ix) : Q :=
  let rho := if (2 <=? cx i) && (cx i <? 5) then Qmake 2 1 else Qmake 1 1 in
  if (v =? 0) || (v =? 1) then rho else if v =? 4 then Qmult (Qmake 2 1) rho else 0%Q.
Notation pipe2_run := (simulate pipe2 (fun _ _ _ => Qmake 0 1) I_euler true None (Some 1) true [] false 0 (mkarr 5 (mkix 8 1 1) block_q)).
Definition total_jumps (c : config QNum) (o : run QNum) := Qred (variation_Q c AX (o_u o)).
Lemma pipe2_value : OdeT.looked (total_jumps pipe2) pipe2_run = Some (Qmake 9793 3456).
Proof. vm_compute. reflexivity. Qed.
Lemma hose_jumps : OdeT.looked (total_jumps hose) hose_run = Some (Qmake 34 5).
Proof. vm_compute. reflexivity. Qed.
Theorem unlimited_grows : exists (c : config QNum) heap u o,
  tabulated c /\ closed c /\ c_limit c = false /\ c_rs c = RS_upwind /\ c_p c = mkix 2 0 0 /\ only_axis c AX /\ ends_alike c AX /\
  c_bounds c AX = (Qmake 0 1, Qmake 8 1) /\ getc AX (c_n c) = 8 /\ c_fixed_dt c = Some (Qmake 1 2) /\
  shp u = c_n c /\ rows u = 5 /\ (forall i, in_shape (c_n c) i -> (at_ u 0 i = Qmake 1 1 \/ at_ u 0 i = Qmake 2 1) /\ at_ u 1 i = at_ u 0 i /\ at_ u 2 i = Qmake 0 1 /\ at_ u 3 i = Qmake 0 1) /\
  simulate c heap I_euler true None (Some 1) true [] false 0 u = Ok o /\
  Qeq (variation_Q c AX u) (Qmake 2 1) /\ Qlt (Qmake 28 10) (variation_Q c AX (o_u o)).
Proof.
  destruct (OdeT.looked_ok _ _ _ pipe2_value) as (o & E & V).
  exists pipe2, (fun _ _ _ => Qmake 0 1), (mkarr 5 (mkix 8 1 1) block_q), o.
  split. { split; [split; [intros []; cbn; lia|intros []; cbn; lia|exists AX; intros [H _]; discriminate|exact I]|intros []; cbn; lia]. }
  split. { intro a. right. split; [|auto]. intro pos. split; [exact I|]. destruct a; vm_compute; discriminate. }
  do 3 (split; [reflexivity|]). split; [split; [intros [H _]; discriminate|intros [] NE; try congruence; split; reflexivity]|]. split; [split; reflexivity|].
  do 5 (split; [reflexivity|]). split.
  - intros i _. unfold block_q. cbn [at_ Z.eqb Pos.eqb orb]. split; [destruct (_ && _); auto|auto].
  - split; [exact E|]. split; [vm_compute; reflexivity|]. unfold total_jumps in V. rewrite <- (Qred_correct (variation_Q pipe2 AX (o_u o))). rewrite V. reflexivity.
Qed.
Theorem long_grows : exists (c : config QNum) heap u o,
  tabulated c /\ closed c /\ c_limit c = true /\ c_force c = true /\ c_limiter c = L_minmod /\ c_rs c = RS_upwind /\ only_axis c AX /\ ends_alike c AX /\
  c_bounds c AX = (Qmake 0 1, Qmake 8 1) /\ getc AX (c_n c) = 8 /\ c_fixed_dt c = Some (Qmake 4 5) /\
  shp u = c_n c /\ rows u = 5 /\ (forall i, in_shape (c_n c) i -> Qle (Qmake 1 1) (at_ u 0 i) /\ at_ u 1 i = at_ u 0 i /\ at_ u 2 i = Qmake 0 1 /\ at_ u 3 i = Qmake 0 1) /\
  simulate c heap I_euler true None (Some 1) true [] false 0 u = Ok o /\
  Qlt (variation_Q c AX u) (variation_Q c AX (o_u o)).
Proof.
  destruct (OdeT.looked_ok _ _ _ hose_jumps) as (o & E & V).
  exists hose, (fun _ _ _ => Qmake 0 1), (mkarr 5 (mkix 8 1 1) ramp), o.
  split. { split; [split; [intros []; cbn; lia|intros []; cbn; lia|exists AX; intros [H _]; discriminate|exact I]|intros []; cbn; lia]. }
  split. { intro a. right. split; [|auto]. intro pos. split; [exact I|]. destruct a; vm_compute; discriminate. }
  do 4 (split; [reflexivity|]). split; [split; [intros [H _]; discriminate|intros [] NE; try congruence; split; reflexivity]|]. split; [split; reflexivity|].
  do 5 (split; [reflexivity|]). split.
  - intros i Hi. pose proof (Hi AX) as X. cbn [getc cx c_n hose] in X. unfold ramp. cbn [at_ Z.eqb Pos.eqb orb].
    split; [|auto]. assert (C : cx i = 0 \/ cx i = 1 \/ cx i = 2 \/ cx i = 3 \/ cx i = 4 \/ cx i = 5 \/ cx i = 6 \/ cx i = 7) by lia.
    repeat (destruct C as [C|C]; [rewrite C; vm_compute; discriminate|]). rewrite C. vm_compute. discriminate.
  - split; [exact E|]. unfold total_jumps in V. rewrite <- (Qred_correct (variation_Q hose AX (o_u o))). rewrite V. reflexivity.
Qed.
