(** Runs in exact arithmetic (C32, C34, C35). *)
From Coq Require Import ZArith QArith List Bool Lia Reals Lra Sorted.
From Verif Require Import Err Num NdArray HydroM HydroP OdeM SolverM SpecSolver SpecCons SpecOde ExistP LoopP.
Import ListNotations.
Local Open Scope R_scope.

Lemma hit_target_R (t h : R) d : hit_target RNum t h (Some d) = Rmin h (d - t).
Proof.
  unfold hit_target. rn. unfold Rltb. destruct (Rlt_dec (d - t) h).
  - rewrite Rmin_right; [reflexivity|lra].
  - rewrite Rmin_left; [reflexivity|lra].
Qed.
Lemma take_step_t {N : Num} {U S D} (V : vops N U) f i (helper : S -> S) (o o1 : @ode N U S D) target :
  take_step N V (stepper_of N V f i) helper o target = Ok o1 ->
  exists s h k, f (o_aux o) (o_t o) (o_t o) (o_u o) = Ok (s, (h, k)) /\
    o_t o1 = nadd (o_t o) (hit_target N (o_t o) h target).
Proof.
  unfold take_step. destruct (stepper_of N V f i (o_aux o) (o_t o) (o_u o) target) as [[s [dt un]]|] eqn:E; cbn [bind]; [|discriminate].
  destruct (vassign V (o_u o) un); cbn [bind]; [|discriminate]. intros [= <-].
  destruct (stepper_dt _ _ _ _ _ _ _ _ _ _ E) as (s1 & h & k & A & ->). exists s1, h, k. auto.
Qed.

Section Exact.
Context {U S D : Type} (V : vops RNum U) (f : S -> R -> R -> U -> res (S * (R * U))) (i : integrator)
  (helper : S -> S) (payload : S -> R -> U -> res D) (dmin : R).
Context (Hdmin : 0 <= dmin) (Hf : proposes (N := RNum) f (fun dt => 0 < dt /\ dmin <= dt)).
Local Notation step := (stepper_of RNum V f i).

Lemma step_R (o o1 : @ode RNum U S D) (d : R) : 0 <= o_t o -> True -> o_t o < d ->
  take_step RNum V step helper o (Some d) = Ok o1 ->
  0 <= o_t o1 /\ o_t o < o_t o1 /\ o_t o <= o_t o1 <= d /\ (dmin <= o_t o1 - o_t o \/ o_t o1 = d).
Proof.
  intros H0 _ Hlt H. destruct (take_step_t V f i helper o o1 (Some d) H) as (s & h & k & E & Et).
  destruct (Hf _ _ _ _ _ _ _ E) as [P M]. rewrite hit_target_R in Et.
  assert (Q : forall t t1 : R, 0 <= t -> t < d -> t1 = t + Rmin h (d - t) ->
     0 <= t1 /\ t < t1 /\ t <= t1 <= d /\ (dmin <= t1 - t \/ t1 = d)).
  { intros t t1 A B ->. unfold Rmin. destruct (Rle_dec h (d - t)); repeat split; try lra; (left; lra) || (right; lra). }
  apply Q; auto.
Qed.

Lemma cmp_lt (x y : R) : True -> True -> @nltb RNum x y = true <-> x < y.
Proof. intros. apply Rltb_true. Qed.
Lemma cmp_le (x y : R) : True -> True -> @nleb RNum x y = true <-> x <= y.
Proof. intros. apply Rleb_true. Qed.
Lemma cmp_eq (x y : R) : True -> True -> @neqb RNum x y = true <-> x = y.
Proof. intros. apply Reqb_true. Qed.

Lemma increasing_app l x ss : increasing l -> last l x = x -> l <> [] -> StronglySorted Rlt (x :: ss) -> increasing (l ++ ss).
Proof.
  intros Hl Hx Hn Hs. inversion Hs; subst. unfold increasing in *.
  assert (Hall : Forall (fun y => y <= x) l).
  { clear - Hl Hx Hn. revert Hx Hn. induction Hl as [|a l Hl IH Ha]; intros; [constructor|].
    destruct l as [|b l]; [cbn in Hx; subst; constructor; [lra|constructor]|].
    change (last (a :: b :: l) x) with (last (b :: l) x) in Hx.
    assert (IH' := IH Hx ltac:(discriminate)). constructor; auto. inversion IH'; inversion Ha; subst. lra. }
  induction l as [|a l IH]; [auto|]. cbn. inversion Hl; inversion Hall; subst.
  destruct l as [|b l]; [cbn in Hx; subst; auto|].
  constructor; [apply IH; auto; discriminate|].
  apply Forall_app. split; auto. eapply Forall_impl; [|exact H2]. cbn. intros. lra.
Qed.

Lemma run_from (o0 o : @ode RNum U S D) T n db log fuel :
  0 <= o_t o0 -> Forall (fun x => x = 0 \/ o_t o0 < x) db -> o_t o0 < T ->
  integrate RNum V step helper payload (Some T) n true db log fuel o0 = Ok o ->
  o_t o = T /\ exists ss tt,
    o_stamps o = o_stamps o0 ++ ss /\ increasing (o_t o0 :: ss) /\ last ss (o_t o0) = T /\
    o_steps o = (o_steps o0 + Z.of_nat (length ss))%Z /\
    times o = times o0 ++ o_t o0 :: (if log then ss else tt) /\
    increasing tt /\ (forall x, In x tt <-> (In x db /\ o_t o0 < x < T) \/ x = T) /\
    dmin * INR (length ss) <= T - o_t o0 + dmin * INR (Datatypes.S (length db)).
Proof.
  intros P0 Hdb HT H.
  assert (Q := integrate_exact RNum V step helper payload (fun _ => True) (fun x => x) (fun t : R => 0 <= t) Rlt dmin
    cmp_lt cmp_le cmp_eq (fun x y _ _ e _ => e) (fun t h => conj I h) Rlt_trans Hdmin step_R
    T n db log fuel o0 o I eq_refl P0).
  cbv beta in Q. apply Q; auto. apply Forall_forall. auto.
Qed.

Lemma fresh_run u0 s0 (o : @ode RNum U S D) T n db fuel :
  Forall (fun x => 0 <= x) db -> 0 < T ->
  integrate RNum V step helper payload (Some T) n true db false fuel (ode_init RNum u0 s0) = Ok o ->
  o_t o = T /\ increasing (times o) /\ (forall x, In x (times o) <-> wanted T db x) /\
  increasing (o_stamps o) /\ last (o_stamps o) 0 = T /\
  o_steps o = (Z.of_nat (length (o_stamps o)) - 1)%Z /\
  dmin * IZR (o_steps o) <= T + dmin * (IZR (Z.of_nat (length db)) + 1).
Proof.
  intros Hdb HT H.
  destruct (run_from (ode_init RNum u0 s0) o T n db false fuel) as (X1 & ss & tt & X2 & X3 & X4 & X5 & X6 & X7 & X8 & X9); auto.
  { cbn. lra. }
  { cbn. eapply Forall_impl; [|exact Hdb]. cbn. intros a Ha. destruct (Req_dec a 0); auto. right. lra. }
  cbn [ode_init o_t o_stamps o_steps] in *. change (times (ode_init RNum u0 s0 : @ode RNum U S D)) with (@nil R) in X6.
  cbn [app] in X2, X6. rn. split; [auto|]. split.
  { rewrite X6. constructor; auto. apply Forall_forall. intros x Hx. apply X8 in Hx. destruct Hx as [[_ Hx]| ->]; lra. }
  split.
  { intros x. rewrite X6. cbn [In]. rewrite X8. unfold wanted. intuition. }
  rewrite X2. split; [exact X3|]. split.
  { etransitivity; [exact (last_of RNum ss 0 0)|exact X4]. }
  split; [rewrite X5; cbn [length]; lia|].
  rewrite X5. rewrite Z.add_0_l, <- !INR_IZR_INZ. rewrite S_INR in X9. lra.
Qed.

Lemma fresh_run_every u0 s0 (o : @ode RNum U S D) T n db fuel :
  Forall (fun x => 0 <= x) db -> 0 < T ->
  integrate RNum V step helper payload (Some T) n true db true fuel (ode_init RNum u0 s0) = Ok o ->
  o_t o = T /\ times o = o_stamps o /\ increasing (o_stamps o).
Proof.
  intros Hdb HT H.
  destruct (run_from (ode_init RNum u0 s0) o T n db true fuel) as (X1 & ss & tt & X2 & X3 & X4 & X5 & X6 & X7 & X8 & X9); auto.
  { cbn. lra. }
  { cbn. eapply Forall_impl; [|exact Hdb]. cbn. intros a Ha. destruct (Req_dec a 0); auto. right. lra. }
  split; [auto|]. split; [rewrite X6, X2; reflexivity|]. rewrite X2. exact X3.
Qed.

Lemma run_terminates u0 s0 T n db log fuel : 0 < dmin -> never_raises V f payload ->
  Forall (fun x => 0 <= x) db -> 0 < T ->
  T / dmin + IZR (Z.of_nat (length db)) + 1 <= IZR (Z.of_nat fuel) ->
  exists o : @ode RNum U S D, integrate RNum V step helper payload (Some T) n true db log fuel (ode_init RNum u0 s0) = Ok o.
Proof.
  intros Pm (T1 & T2 & T3 & T4) Hdb HT Hf'.
  assert (Ht : forall (o : @ode RNum U S D) d, True -> exists o1, take_step RNum V step helper o (Some d) = Ok o1 /\ True).
  { intros o d _. unfold take_step.
    assert (Q : exists r, step (o_aux o) (o_t o) (o_u o) (Some d) = Ok r).
    { clear - T1 T2. generalize (o_aux o), (o_t o), (o_u o). intros s t u.
      Local Ltac one T1 T2 := match goal with |- exists r, bind ?X _ = Ok r =>
        match X with
        | vadd _ ?u ?w => let z := fresh "z" in let E := fresh "E" in destruct (T2 u w) as [z E]; rewrite E; clear E
        | _ => let s' := fresh "s" in let h := fresh "h" in let k := fresh "k" in let E := fresh "E" in
               match X with ?g ?s ?t ?t' ?u => destruct (T1 s t t' u) as [[s' [h k]] E]; rewrite E; clear E end
        end; cbn [bind] end.
      destruct i; cbn [stepper_of]; unfold euler, ssprk2, ssprk3, rk4; repeat one T1 T2; eauto. }
    destruct Q as [[s [dt un]] ->]. cbn [bind]. destruct (T3 (o_u o) un) as [z ->]. cbn [bind]. eauto. }
  assert (Hsn : forall o : @ode RNum U S D, True -> exists o1, snapshot RNum payload o = Ok o1 /\ True).
  { intros o _. unfold snapshot. destruct (T4 (o_aux o) (o_t o) (o_u o)) as [d ->]. cbn. eauto. }
  assert (Q := integrate_ends RNum V step helper payload (fun _ => True) (fun x => x) (fun t : R => 0 <= t) Rlt dmin
    cmp_lt cmp_le cmp_eq (fun x y _ _ e _ => e) (fun t h => conj I h) step_R (fun _ => True) Ht Hsn
    T n db log fuel u0 s0 I Pm (Rle_refl 0) eq_refl).
  cbv beta in Q. apply Q; auto; [apply Forall_forall; auto|].
  rewrite S_INR, !INR_IZR_INZ. 
  apply Rmult_le_compat_l with (r := dmin) in Hf'; [|lra].
  replace (dmin * (T / dmin + IZR (Z.of_nat (length db)) + 1)) with (T + dmin * (IZR (Z.of_nat (length db)) + 1)) in Hf' by (field; lra).
  exact Hf'.
Qed.
End Exact.

(** ** the time step of the solver is positive *)
Lemma spacing_positive (c : config RNum) a : (0 < getc a (c_n c))%Z -> fst (c_bounds c a) < snd (c_bounds c a) ->
  0 < spacing RNum c a.
Proof.
  intros Hn Hb. unfold spacing. rn. apply Rdiv_lt_0_compat; [lra|]. apply IZR_lt; auto.
Qed.
Lemma min_h_positive (c : config RNum) : (forall a, 0 < spacing RNum c a) -> 0 < min_h RNum c.
Proof.
  intros H. unfold min_h. rn.
  destruct (Rltb (spacing RNum c AY) (spacing RNum c AX));
  match goal with |- context [if ?b then _ else _] => destruct b end; apply H.
Qed.
Lemma solver_dt c heap : steps_forward c -> proposes (N := RNum) (solver_f RNum c heap) (fun dt => 0 < dt).
Proof.
  intros Hc s t t' u s' dt k H. unfold solver_f, hydrodynamics in H.
  destruct (hydrofluxes _ _ _ _ _ _ _ _) as [[dt0 F]|] eqn:E; cbn [bind] in H; [|discriminate].
  assert (dt = dt0) as ->.
  { repeat (match type of H with (do _ <- ?X; _) = _ => destruct X as [?x|]; cbn [bind] in H; [|discriminate] end).
    injection H; auto. }
  clear H. unfold hydrofluxes in E. cbn [limit_slopes bind] in E.
  destruct (interpolate_primitives _ _ _ _ _ _ _ _) as [w|]; cbn [bind] in E; [|discriminate].
  unfold steps_forward in Hc. destruct (c_fixed_dt c) as [h|].
  - cbn [bind] in E. repeat (match type of E with (do _ <- ?X; _) = _ => destruct X as [?x|]; cbn [bind] in E; [|discriminate] end).
    injection E as <- _. exact Hc.
  - destruct Hc as (C1 & C2 & C3 & C4).
    destruct (hydro_dt _ _ _ _ _ _ _) as [h|] eqn:Eh; cbn [bind] in E; [|discriminate].
    repeat (match type of E with (do _ <- ?X; _) = _ => destruct X as [?x|]; cbn [bind] in E; [|discriminate] end).
    injection E as <- _. eapply hydro_dt_spec in Eh; auto; [apply Eh|].
    apply min_h_positive. intros a. apply spacing_positive; apply C4.
Qed.
(** the solver with a fixed time step *)
Lemma solver_fixed {N} (c : config N) heap h : c_fixed_dt c = Some h ->
  proposes (solver_f N c heap) (fun dt => dt = h).
Proof.
  intros Hc s t t' u s' dt k H. unfold solver_f, hydrodynamics in H.
  destruct (hydrofluxes _ _ _ _ _ _ _ _) as [[dt0 F]|] eqn:E; cbn [bind] in H; [|discriminate].
  assert (dt = dt0) as ->.
  { repeat (match type of H with (do _ <- ?X; _) = _ => destruct X as [?x|]; cbn [bind] in H; [|discriminate] end).
    injection H; auto. }
  clear H. unfold hydrofluxes in E. cbn [limit_slopes bind] in E.
  destruct (interpolate_primitives _ _ _ _ _ _ _ _) as [w|]; cbn [bind] in E; [|discriminate].
  rewrite Hc in E. cbn [bind] in E.
  repeat (match type of E with (do _ <- ?X; _) = _ => destruct X as [?x|]; cbn [bind] in E; [|discriminate] end).
  injection E as <- _. reflexivity.
Qed.
Lemma proposes_weaken {N : Num} {U S} f (P Q : car N -> Prop) :
  (forall x, P x -> Q x) -> proposes (U := U) (S := S) f P -> proposes f Q.
Proof. intros H K s t t' u s' dt k E. eauto. Qed.
Lemma run_forward {U S D} (V : vops RNum U) f i helper (payload : S -> R -> U -> res D) (o0 o : @ode RNum U S D) T n db log fuel :
  proposes (N := RNum) f (fun dt => 0 < dt) ->
  0 <= o_t o0 -> Forall (fun x => x = 0 \/ o_t o0 < x) db -> o_t o0 < T ->
  integrate RNum V (stepper_of RNum V f i) helper payload (Some T) n true db log fuel o0 = Ok o ->
  o_t o = T /\ exists ss tt,
    o_stamps o = o_stamps o0 ++ ss /\ increasing (o_t o0 :: ss) /\ last ss (o_t o0) = T /\
    o_steps o = (o_steps o0 + Z.of_nat (length ss))%Z /\
    times o = times o0 ++ o_t o0 :: (if log then ss else tt) /\
    increasing tt /\ (forall x, In x tt <-> (In x db /\ o_t o0 < x < T) \/ x = T).
Proof.
  intros Hf P0 Hdb HT H.
  assert (Hf' : proposes (N := RNum) f (fun dt => 0 < dt /\ 0 <= dt)).
  { eapply proposes_weaken; [|exact Hf]. cbn. intros. lra. }
  destruct (run_from V f i helper payload 0 (Rle_refl 0) Hf' o0 o T n db log fuel P0 Hdb HT H) as (X1 & ss & tt & X2 & X3 & X4 & X5 & X6 & X7 & X8 & X9).
  split; [exact X1|]. exists ss, tt. repeat (split; [assumption|]). exact X8.
Qed.
Lemma fresh_every {U S D} (V : vops RNum U) f i helper (payload : S -> R -> U -> res D) u0 s0 (o : @ode RNum U S D) T n db fuel :
  proposes (N := RNum) f (fun dt => 0 < dt) -> Forall (fun x => 0 <= x) db -> 0 < T ->
  integrate RNum V (stepper_of RNum V f i) helper payload (Some T) n true db true fuel (ode_init RNum u0 s0) = Ok o ->
  o_t o = T /\ times o = o_stamps o /\ increasing (o_stamps o).
Proof.
  intros Hf. apply (fresh_run_every V f i helper payload 0 (Rle_refl 0)).
  eapply proposes_weaken; [|exact Hf]. cbn. intros. lra.
Qed.

Lemma solver_run c heap i avg T n db fuel u0 (o : run RNum) : steps_forward c ->
  Forall (fun x => 0 <= x) db -> 0 < T ->
  simulate c heap i avg (Some T) n true db false fuel u0 = Ok o ->
  o_t o = T /\ increasing (times o) /\ (forall x, In x (times o) <-> wanted T db x) /\
  increasing (o_stamps o) /\ last (o_stamps o) 0 = T.
Proof.
  intros Hc Hdb HT H. unfold simulate, solver_integrate, solver_step in H.
  apply (fresh_run (arr_ops RNum) (solver_f RNum c heap) i _ _ 0) in H; auto; [|lra|].
  - destruct H as (A & B & C & D & E & F & G). auto.
  - eapply proposes_weaken; [|exact (solver_dt c heap Hc)]. cbn. intros. lra.
Qed.

(** the run to time T with a fixed time step ends *)
Lemma solver_terminates_gen xc (c : config RNum) heap r (fluxed : aux RNum -> Prop) i avg T n db log fuel u0 h :
  (forall x s t u, fluxed x -> ExistP.shaped RNum c r u -> exists x' dt k, solver_f RNum c heap x s t u = Ok (x', (dt, k)) /\
     fluxed x' /\ ExistP.shaped RNum c r k) ->
  (forall x, fluxed x -> fluxed (step_helper RNum c x)) -> fluxed (aux_init RNum c heap r) ->
  tabulated c -> fillable xc c r -> shp u0 = c_n c -> rows u0 = r ->
  c_fixed_dt c = Some h -> 0 < h -> Forall (fun x => 0 <= x) db -> 0 < T ->
  T / h + IZR (Z.of_nat (length db)) + 1 <= IZR (Z.of_nat fuel) ->
  exists o, simulate c heap i avg (Some T) n true db log fuel u0 = Ok o.
Proof.
  intros FO HO IO HT HA SU RU Hc Ph Hdb PT Hf. unfold simulate, solver_integrate, solver_step. rewrite RU.
  assert (Hp : proposes (N := RNum) (solver_f RNum c heap) (fun dt => 0 < dt /\ h <= dt)).
  { eapply proposes_weaken; [|exact (solver_fixed c heap h Hc)]. cbn. intros x ->. lra. }
  assert (Q := integrate_ends RNum (arr_ops RNum) (stepper_of RNum (arr_ops RNum) (solver_f RNum c heap) i) (step_helper RNum c)
    (snap_payload RNum c heap avg) (fun _ => True) (fun x => x) (fun t : R => 0 <= t) Rlt h
    cmp_lt cmp_le cmp_eq (fun x y _ _ e _ => e) (fun t h => conj I h)
    (step_R (arr_ops RNum) (solver_f RNum c heap) i (step_helper RNum c) h Hp)
    (okrun RNum c r fluxed)).
  cbv beta in Q. apply Q; auto; try lra; try (apply Forall_forall; auto).
  - intros o d Ho. destruct (take_ok RNum c heap r fluxed FO HO i o (Some d) Ho) as (o' & A & B & _). eauto.
  - intros o Ho. destruct (snap_ok RNum xc c heap r HT HA fluxed avg o Ho) as (o' & A & B & _). eauto.
  - split; [split; auto|exact IO].
  - cbn. lra.
  - rewrite S_INR, !INR_IZR_INZ. apply Rmult_le_compat_l with (r := h) in Hf; [|lra].
    replace (h * (T / h + IZR (Z.of_nat (length db)) + 1)) with (T + h * (IZR (Z.of_nat (length db)) + 1)) in Hf by (field; lra).
    exact Hf.
Qed.
Lemma solver_terminates xc (c : config RNum) heap i avg T n db log fuel u0 h :
  tabulated c -> fillable xc c (rows u0) -> c_limit c = false -> shp u0 = c_n c -> (2 <= rows u0)%Z ->
  c_fixed_dt c = Some h -> 0 < h -> Forall (fun x => 0 <= x) db -> 0 < T ->
  T / h + IZR (Z.of_nat (length db)) + 1 <= IZR (Z.of_nat fuel) ->
  exists o, simulate c heap i avg (Some T) n true db log fuel u0 = Ok o.
Proof.
  intros HT HA HL SU RU Hc Ph Hdb PT Hf.
  eapply (solver_terminates_gen xc c heap (rows u0) (fluxed RNum c (rows u0))); eauto.
  - intros. eapply f_ok; eauto; lia.
  - intros x FX. unfold fluxed. rewrite ConsP.helper_flux. exact FX.
  - intro d. cbn. auto.
Qed.

(** ** the log of times; integrate(n) *)
Section Log.
Context (N : Num) {U S D : Type} (V : vops N U) (step : stepper (U := U) (S := S) N)
  (helper : S -> S) (payload : S -> car N -> U -> res D).
Local Notation ode := (@ode N U S D).
Lemma take_step_logged (o o1 : ode) target : take_step N V step helper o target = Ok o1 -> logged o -> logged o1.
Proof.
  intros H [A B]. destruct (take_step_fields N V step helper o o1 target H) as (F1 & F2 & F3).
  split; rewrite F1; [rewrite app_length, F2; cbn; lia|]. apply last_last.
Qed.
Lemma snapshot_logged (o o1 : ode) : snapshot N payload o = Ok o1 -> logged o -> logged o1.
Proof.
  intros H [A B]. destruct (snapshot_fields N payload o o1 H) as (F1 & F2 & F3 & F4).
  split; congruence.
Qed.
Lemma loop_logged T log fuel : forall (o o1 : ode) target ds,
  loop N V step helper payload T log fuel o target ds = Ok o1 -> logged o -> logged o1.
Proof.
  induction fuel as [|fuel IH]; intros o o1 target ds H L; cbn [loop] in H.
  - destruct (nltb (o_t o) T); [discriminate|congruence].
  - destruct (nltb (o_t o) T); [|congruence].
    destruct (take_step N V step helper o target) as [o2|] eqn:E; cbn [bind] in H; [|discriminate].
    pose proof (take_step_logged _ _ _ E L) as L2.
    destruct (_ || _)%bool.
    + destruct (snapshot N payload o2) as [o3|] eqn:E3; cbn [bind] in H; [|discriminate].
      pose proof (snapshot_logged _ _ E3 L2) as L3.
      destruct ds; [eauto|]. destruct (eq_target N (o_t o3) target); eauto.
    + eauto.
Qed.
Lemma take_n_fields n : forall (o o1 : ode), take_n N V step helper n o = Ok o1 ->
  o_steps o1 = (o_steps o + Z.of_nat n)%Z /\ times o1 = times o /\ (logged o -> logged o1) /\
  exists ss, o_stamps o1 = o_stamps o ++ ss /\ length ss = n.
Proof.
  induction n as [|n IH]; intros o o1 H; cbn [take_n] in H.
  - injection H as <-. split; [lia|]. split; [auto|]. split; [auto|]. exists []. rewrite app_nil_r. auto.
  - destruct (take_step N V step helper o None) as [o2|] eqn:E; cbn [bind] in H; [|discriminate].
    destruct (take_step_fields N V step helper o o2 None E) as (F1 & F2 & F3).
    destruct (IH _ _ H) as (A & B & C & ss & E1 & E2).
    split; [rewrite A, F2; lia|]. split; [rewrite B; unfold times; rewrite F3; reflexivity|].
    split; [intros; apply C; eapply take_step_logged; eauto|].
    exists (o_t o2 :: ss). rewrite E1, F1, <- app_assoc. cbn. auto.
Qed.
Lemma integrate_n_spec exact db log fuel n (o o1 : ode) :
  integrate N V step helper payload None (Some n) exact db log fuel o = Ok o1 ->
  o_steps o1 = (o_steps o + Z.max 0 n)%Z /\ times o1 = times o ++ [o_t o; o_t o1] /\
  exists ss, o_stamps o1 = o_stamps o ++ ss /\ Z.of_nat (length ss) = Z.max 0 n.
Proof.
  cbn [integrate]. unfold integrate_n. intros H.
  destruct (snapshot N payload o) as [o2|] eqn:E; cbn [bind] in H; [|discriminate].
  destruct (take_n N V step helper (Z.to_nat n) o2) as [o3|] eqn:E3; cbn [bind] in H; [|discriminate].
  destruct (snapshot_fields N payload _ _ E) as (F1 & F2 & F3 & F4).
  destruct (snapshot_fields N payload _ _ H) as (G1 & G2 & G3 & G4).
  destruct (take_n_fields _ _ _ E3) as (A & B & C & ss & X1 & X2).
  split; [rewrite G3, A, F3; lia|]. split; [rewrite G4, B, F4, <- app_assoc, G1; reflexivity|].
  exists ss. split; [congruence|]. rewrite X2. lia.
Qed.
Lemma integrate_logged T n exact db log fuel (o o1 : ode) :
  integrate N V step helper payload T n exact db log fuel o = Ok o1 -> logged o -> logged o1.
Proof.
  unfold integrate. intros H L. destruct T as [T|].
  - unfold integrate_T in H. destruct (if exact then _ else _) as [td|]; cbn [bind] in H; [|discriminate].
    destruct (snapshot N payload o) as [o2|] eqn:E; cbn [bind] in H; [|discriminate].
    eapply loop_logged; eauto. eapply snapshot_logged; eauto.
  - destruct n as [n|].
    + unfold integrate_n in H.
      destruct (snapshot N payload o) as [o2|] eqn:E; cbn [bind] in H; [|discriminate].
      destruct (take_n N V step helper (Z.to_nat n) o2) as [o3|] eqn:E3; cbn [bind] in H; [|discriminate].
      eapply snapshot_logged; [exact H|]. apply (take_n_fields _ _ _ E3). eapply snapshot_logged; eauto.
    + destruct (snapshot N payload o); cbn in H; discriminate.
Qed.
Lemma init_logged u0 s0 : logged (ode_init N u0 s0 : ode).
Proof. split; reflexivity. Qed.
Lemma n_ignored T n n' exact db log fuel (o : ode) :
  integrate N V step helper payload (Some T) n exact db log fuel o = integrate N V step helper payload (Some T) n' exact db log fuel o.
Proof. reflexivity. Qed.
End Log.

(** ** what goes wrong *)
Lemma zero_time {U S D} V step helper payload n log fuel (o : @ode RNum U S D) :
  integrate RNum V step helper payload (Some 0) n true [] log fuel o = Err IndexError.
Proof.
  cbn [integrate]. unfold integrate_T, sorted_set. cbn [app fold_left insert_uniq]. rn.
  replace (Rltb 0 0) with false by (symmetry; apply Rltb_false; lra).
  replace (Reqb 0 0) with true by (symmetry; apply Reqb_true; reflexivity). reflexivity.
Qed.
Definition q (z : Z) : car QNum := inject_Z z.
Definition looked {N U S D B} (g : @ode N U S D -> B) (x : res (@ode N U S D)) : option B :=
  match x with Ok o => Some (g o) | Err _ => None end.
Lemma looked_ok {N U S D B} (g : @ode N U S D -> B) x y : looked g x = Some y -> exists o, x = Ok o /\ g o = y.
Proof. destruct x as [o|]; [|discriminate]. intros [= <-]. eauto. Qed.
(** integrate to T = 2, then to T = 4 asking for a snapshot at time 1 *)
Lemma second_call_backwards : exists o1 o2 : @ode QNum (car QNum) unit unit,
  clock_run (N := QNum) (q 1) I_euler (Some (q 2)) None true [] false 9 (ode_init QNum (q 0) tt) = Ok o1 /\
  clock_run (N := QNum) (q 1) I_euler (Some (q 4)) None true [q 1] false 9 o1 = Ok o2 /\
  o_stamps o1 = [q 0; q 1; q 2] /\ o_stamps o2 = [q 0; q 1; q 2; q 1; q 2; q 3; q 4].
Proof.
  match goal with |- exists o1 o2, ?a = Ok o1 /\ ?b o1 /\ _ => idtac | |- exists o1 o2, ?a = Ok o1 /\ _ =>
    assert (E1 : looked o_stamps a = Some [q 0; q 1; q 2]) by (vm_compute; reflexivity);
    assert (E2 : looked o_stamps (do o <- a; clock_run (N := QNum) (q 1) I_euler (Some (q 4)) None true [q 1] false 9 o)
      = Some [q 0; q 1; q 2; q 1; q 2; q 3; q 4]) by (vm_compute; reflexivity) end.
  destruct (looked_ok _ _ _ E1) as (o1 & A1 & B1). destruct (looked_ok _ _ _ E2) as (o2 & A2 & B2).
  exists o1, o2. rewrite A1 in A2. auto.
Qed.
Lemma negative_downbeats_backwards : exists o : @ode QNum (car QNum) unit unit,
  clock_run (N := QNum) (q 1) I_euler (Some (q 2)) None true [q (-1); q (-2)] false 9 (ode_init QNum (q 0) tt) = Ok o /\
  o_stamps o = [q 0; q (-1); q 0; q 1; q 2].
Proof. apply looked_ok. vm_compute. reflexivity. Qed.
