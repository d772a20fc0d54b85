(** Runs with a test of every state the right-hand side is evaluated for. *)
From Coq Require Import ZArith List Bool Lia.
From Verif Require Import Err Num PySlice NdArray HydroM RiemannM StencilsM FvM BcM SedM
  LimitM OdeM SolverM SpecBc SpecSolver SpecCons NdArrayP FvP BcP BcQ OpP SolverP OdeP RelP RelS LimP RunP ConsP.
Import ListNotations.
Open Scope Z_scope.

(** if the first computation succeeds, so does the second, with the same result, on which R holds *)
Definition lax {A} (R : A -> Prop) (x y : res A) : Prop := forall a, x = Ok a -> y = Ok a /\ R a.
Lemma lax_bind {A B} (R : A -> Prop) (Q : B -> Prop) x y k k' :
  lax R x y -> (forall a, R a -> lax Q (k a) (k' a)) -> lax Q (bind x k) (bind y k').
Proof.
  intros H K b E. destruct x as [a|]; [|discriminate]. destruct (H a eq_refl) as [-> Ra]. cbn [bind] in *. apply (K a Ra). exact E.
Qed.
Lemma lax_ok {A} (R : A -> Prop) a : R a -> lax R (Ok a) (Ok a).
Proof. intros H b E. injection E as <-. auto. Qed.
Lemma lax_same {A} (R : A -> Prop) x : (forall a, x = Ok a -> R a) -> lax R x x.
Proof. intros H a E. auto. Qed.

Section Lax.
Context (N : Num).
Local Notation K := (car N).
Context {U S D : Type} (V : vops N U).
Context (f1 f2 : S -> K -> K -> U -> res (S * (K * U))).
Context (A Zr : U -> Prop) (RS : S -> Prop).
Definition rhs_inv (r : S * (K * U)) : Prop := RS (fst r) /\ Zr (snd (snd r)).
Definition step_inv (r : S * (K * U)) : Prop := RS (fst r) /\ A (snd (snd r)).
Record keeps : Prop := {
  k_f : forall s t t' u, RS s -> A u -> lax rhs_inv (f1 s t t' u) (f2 s t t' u);
  k_step : forall c u k r, A u -> Zr k -> vadd V u (vscale V c k) = Ok r -> A r;
  k_scale : forall c k, Zr k -> Zr (vscale V c k);
  k_add : forall k m r, Zr k -> Zr m -> vadd V k m = Ok r -> Zr r;
  k_mid : forall u v r, A u -> A v -> vadd V (vscale V nhalf u) (vscale V nhalf v) = Ok r -> A r;
  k_assign : forall u v r, A u -> A v -> vassign V u v = Ok r -> A r
}.
Context (H : keeps).
Ltac call := eapply lax_bind; [eapply (k_f H); eauto|intros [? [? ?]] [? ?]; cbn [fst snd] in *].
Ltac upd := eapply lax_bind; [apply (lax_same A); intros ? ?E; eapply (k_step H); [| |exact E]; eauto|intros ? ?].
Ltac addk := eapply lax_bind; [apply (lax_same Zr); intros ? ?E; eapply (k_add H); [| |exact E]; eauto using (k_scale H)|intros ? ?].
Lemma stepper_lax i s t u target : RS s -> A u ->
  lax step_inv (stepper_of N V f1 i s t u target) (stepper_of N V f2 i s t u target).
Proof.
  intros Hs Hu. destruct i; cbn [stepper_of].
  - unfold euler. call. upd. apply lax_ok. split; auto.
  - unfold ssprk2. call. upd. call. upd.
    eapply lax_bind; [apply (lax_same A); intros ? ?E; eapply (k_mid H); [| |exact E]; eauto|intros ? ?]. apply lax_ok. split; auto.
  - unfold ssprk3. call. upd. call. upd. upd. call. addk. addk. upd. apply lax_ok. split; auto.
  - unfold rk4. call. upd. call. upd. call. upd. call. addk. addk. addk. upd. apply lax_ok. split; auto.
Qed.
Context (i : integrator) (h : S -> S) (p : S -> K -> U -> res D).
Context (Hh : forall s, RS s -> RS (h s)).
Definition ode_inv (o : ode N (U := U) (S := S) (D := D)) : Prop := A (o_u o) /\ RS (o_aux o).
Lemma take_step_lax o target : ode_inv o ->
  lax ode_inv (take_step N V (stepper_of N V f1 i) h o target) (take_step N V (stepper_of N V f2 i) h o target).
Proof.
  intros [Hu Ha]. unfold take_step. eapply lax_bind.
  - apply stepper_lax; eassumption.
  - intros [? [? ?]] [? ?]; cbn [fst snd] in *.
    eapply lax_bind; [apply (lax_same A); intros ? E; eapply (k_assign H); [| |exact E]; eauto|intros]. apply lax_ok. split; cbn; auto.
Qed.
Lemma snapshot_lax (o : ode N) : ode_inv o -> lax ode_inv (snapshot N p o) (snapshot N p o).
Proof.
  intros [Hu Ha]. apply lax_same. intros o' E. unfold snapshot in E. destruct (p _ _ _); [|discriminate]. cbn [bind] in E. injection E as <-. split; cbn; auto.
Qed.
Lemma take_n_lax n : forall o, ode_inv o ->
  lax ode_inv (take_n N V (stepper_of N V f1 i) h n o) (take_n N V (stepper_of N V f2 i) h n o).
Proof.
  induction n; intros; cbn [take_n]; [apply lax_ok; assumption|].
  eapply lax_bind; [apply take_step_lax; assumption|auto].
Qed.
Lemma loop_lax T log fuel : forall o target db, ode_inv o ->
  lax ode_inv (loop N V (stepper_of N V f1 i) h p T log fuel o target db) (loop N V (stepper_of N V f2 i) h p T log fuel o target db).
Proof.
  induction fuel; intros o target db R; cbn [loop]; destruct (nltb (o_t o) T).
  - apply lax_same. discriminate.
  - apply lax_ok. assumption.
  - eapply lax_bind; [apply take_step_lax; assumption|]. intros a R1.
    destruct (eq_target N (o_t a) target || (nleb T (o_t a)) || log)%bool; [|auto].
    eapply lax_bind; [apply snapshot_lax; assumption|]. intros a' R2.
    destruct db; auto. destruct (eq_target N (o_t a') target); auto.
  - apply lax_ok. assumption.
Qed.
Theorem integrate_lax T n exact db log fuel o : ode_inv o ->
  lax ode_inv (integrate N V (stepper_of N V f1 i) h p T n exact db log fuel o) (integrate N V (stepper_of N V f2 i) h p T n exact db log fuel o).
Proof.
  intro R. unfold integrate. destruct T as [T|]; [|destruct n as [n|]].
  - unfold integrate_T. destruct (if exact then _ else _) as [td|e]; cbn [bind]; [|apply lax_same; discriminate].
    eapply lax_bind; [apply snapshot_lax; assumption|]. intros. apply loop_lax; assumption.
  - unfold integrate_n. eapply lax_bind; [apply snapshot_lax; assumption|]. intros.
    eapply lax_bind; [apply take_n_lax; assumption|]. intros. apply snapshot_lax; assumption.
  - eapply lax_bind; [apply snapshot_lax; assumption|]. intros. apply lax_same. discriminate.
Qed.
End Lax.

(** a run that passes every test is a run *)
Lemma unchecked (N : Num) (ok : arr (car N) -> bool) (c : config N) heap i av T n exact db log fuel u0 o :
  simulate_checked ok c heap i av T n exact db log fuel u0 = Ok o -> simulate c heap i av T n exact db log fuel u0 = Ok o.
Proof.
  assert (KP : keeps N (arr_ops N) (checked ok (solver_f N c heap)) (solver_f N c heap) (fun _ => True) (fun _ => True) (fun _ => True)).
  { split; auto. intros s t t' u _ _ r E. unfold checked in E. destruct (ok u); [|discriminate]. repeat split; auto. }
  intro HS. exact (proj1 (integrate_lax N (arr_ops N) _ _ _ _ _ KP i (step_helper N c) (snap_payload N c heap av) (fun _ _ => I)
    T n exact db log fuel (ode_init N u0 (aux_init N c heap (rows u0))) (conj I I) o HS)).
Qed.
Section Checked.
Context (N : Num).
Local Notation K := (car N).
Context (c : config N) (heap : Z -> Z -> ix -> K) (r : Z) (ok ok' : arr K -> bool).
Context (P Q : field N -> Prop).
Context (Hn : forall a, 1 <= getc a (c_n c)) (Hr : 1 <= r).
Context (Pext : forall f g, P f -> (forall v i, in_shape (c_n c) i -> f v i = g v i) -> P g).
Context (Qext : forall f g, Q f -> (forall v i, in_shape (c_n c) i -> f v i = g v i) -> Q g).
Context (Pstep : forall k f g, P f -> Q g -> P (fun v i => nadd (f v i) (nmul k (g v i)))).
Context (Qscale : forall k g, Q g -> Q (fun v i => nmul k (g v i))).
Context (Qadd : forall f g, Q f -> Q g -> Q (fun v i => nadd (f v i) (g v i))).
Context (Pmid : forall f g, P f -> P g -> P (fun v i => nadd (nmul nhalf (f v i)) (nmul nhalf (g v i)))).
Local Notation holds := (holds N c r).
Context (Hf : forall x t u x' dt k, ok u = true -> flux_arrays_ok N c r (x_flux x) -> holds P u ->
  hydrodynamics N c heap x t u = Ok (x', (dt, k)) -> ok' u = true /\ flux_arrays_ok N c r (x_flux x') /\ holds Q k).
Theorem lax_invariant i av T n exact db log fuel u0 o : holds P u0 ->
  simulate_checked ok c heap i av T n exact db log fuel u0 = Ok o ->
  simulate_checked ok' c heap i av T n exact db log fuel u0 = Ok o /\ holds P (o_u o).
Proof.
  intros H0 HS. unfold simulate_checked in HS.
  assert (KP : keeps N (arr_ops N) (checked ok (solver_f N c heap)) (checked ok' (solver_f N c heap)) (holds P) (holds Q) (fun x => flux_arrays_ok N c r (x_flux x))).
  { split.
    - intros s t t' u FO HP [x' [dt k]] E. unfold checked in *. destruct (ok u) eqn:EO; [|discriminate].
      destruct (Hf _ _ _ _ _ _ EO FO HP E) as (F0 & F1 & F2). rewrite F0. split; [exact E|]. split; assumption.
    - intros k u g z HP HQ E. cbn [vadd vscale arr_ops] in E.
      destruct (add_holds N c r P (fun f => exists g, Q g /\ forall v i, f v i = nmul k (g v i)) P u (amap (fun x => nmul k x) g) Pext) as (z' & E' & HZ); auto.
      + intros f g0 Hf' (g' & Hg & Eg). eapply Pext; [apply (Pstep k f g' Hf' Hg)|]. intros v j _. rewrite Eg. reflexivity.
      + apply (scale_holds N c r Q); [|exact HQ]. intros f Hq. exists f. auto.
      + congruence.
    - intros k g HQ. apply (scale_holds N c r Q); auto.
    - intros k m z H1 H2 E. cbn [vadd arr_ops] in E. destruct (add_holds N c r Q Q Q k m Qext) as (z' & E' & HZ); auto. congruence.
    - intros u v z H1 H2 E. cbn [vadd vscale arr_ops] in E.
      pose (H := fun f => exists g, P g /\ forall v i, f v i = nmul nhalf (g v i)).
      destruct (add_holds N c r H H P (amap (fun x => nmul nhalf x) u) (amap (fun x => nmul nhalf x) v) Pext) as (z' & E' & HZ).
      + intros f g (f' & Pf & Ef) (g' & Pg & Eg). eapply Pext; [apply (Pmid f' g' Pf Pg)|]. intros w j _. rewrite Ef, Eg. reflexivity.
      + apply (scale_holds N c r P); [|exact H1]. intros f Pf. exists f. auto.
      + apply (scale_holds N c r P); [|exact H2]. intros f Pf. exists f. auto.
      + congruence.
    - intros u v z (R1 & S1 & A1) (R2 & S2 & A2) E. cbn [vassign arr_ops] in E.
      destruct (assign_all_is u v r (c_n c) (at_ v) R1 S1) as (z' & E' & RZ & SZ & VZ).
      { split; [exact R2|]. split; [exact S2|]. reflexivity. }
      assert (z = z') by congruence. subst z'. split; [exact RZ|]. split; [exact SZ|].
      eapply Pext; [exact A2|]. intros w j _. symmetry. apply VZ. }
  pose proof (integrate_lax N (arr_ops N) _ _ _ _ _ KP i (step_helper N c) (snap_payload N c heap av)) as IL.
  specialize (IL ltac:(intros s FO; cbn beta in *; rewrite helper_flux; exact FO)).
  specialize (IL T n exact db log fuel (ode_init N u0 (aux_init N c heap (rows u0)))).
  destruct (IL) with (a := o) as [E [HU _]].
  - split; cbn; [exact H0|]. intro d. cbn. destruct H0 as [-> _]. auto.
  - exact HS.
  - split; [exact E|exact HU].
Qed.
End Checked.
Section Checked2.
Context (N : Num).
Local Notation K := (car N).
Context (c : config N) (heap : Z -> Z -> ix -> K) (r : Z) (ok : arr K -> bool).
Context (P Q : field N -> Prop).
Context (Hn : forall a, 1 <= getc a (c_n c)) (Hr : 1 <= r).
Context (Pext : forall f g, P f -> (forall v i, in_shape (c_n c) i -> f v i = g v i) -> P g).
Context (Qext : forall f g, Q f -> (forall v i, in_shape (c_n c) i -> f v i = g v i) -> Q g).
Context (Pstep : forall k f g, P f -> Q g -> P (fun v i => nadd (f v i) (nmul k (g v i)))).
Context (Qscale : forall k g, Q g -> Q (fun v i => nmul k (g v i))).
Context (Qadd : forall f g, Q f -> Q g -> Q (fun v i => nadd (f v i) (g v i))).
Context (Pmid : forall f g, P f -> P g -> P (fun v i => nadd (nmul nhalf (f v i)) (nmul nhalf (g v i)))).
Local Notation holds := (holds N c r).
Theorem checked_invariant i av T n exact db log fuel u0 o :
  (forall x t u x' dt k, ok u = true -> flux_arrays_ok N c r (x_flux x) -> holds P u ->
    hydrodynamics N c heap x t u = Ok (x', (dt, k)) -> flux_arrays_ok N c r (x_flux x') /\ holds Q k) ->
  holds P u0 ->
  simulate_checked ok c heap i av T n exact db log fuel u0 = Ok o ->
  simulate c heap i av T n exact db log fuel u0 = Ok o /\ holds P (o_u o).
Proof.
  intros Hf. apply (lax_invariant N c heap r ok (fun _ => true) P Q); auto. intros. split; [reflexivity|]. eapply Hf; eauto.
Qed.
(** an invariant that implies the test passes it *)
Theorem checked_passes i av T n exact db log fuel u0 o :
  (forall u, holds P u -> ok u = true) ->
  (forall x t u x' dt k, flux_arrays_ok N c r (x_flux x) -> holds P u ->
    hydrodynamics N c heap x t u = Ok (x', (dt, k)) -> flux_arrays_ok N c r (x_flux x') /\ holds Q k) ->
  holds P u0 ->
  simulate c heap i av T n exact db log fuel u0 = Ok o ->
  simulate_checked ok c heap i av T n exact db log fuel u0 = Ok o /\ holds P (o_u o).
Proof.
  intros Ho Hf. apply (lax_invariant N c heap r (fun _ => true) ok P Q); auto. intros. split; [auto|]. eapply Hf; eauto.
Qed.
End Checked2.
