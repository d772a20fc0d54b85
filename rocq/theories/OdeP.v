(** The integrators preserve every relation that the right-hand side and the vector
    operations preserve. *)
From Coq Require Import ZArith List Bool Lia.
From Verif Require Import Err Num OdeM.
Import ListNotations.
Open Scope Z_scope.

Definition res_rel {A B} (R : A -> B -> Prop) (x : res A) (y : res B) : Prop :=
  match x, y with
  | Ok a, Ok b => R a b
  | Err e, Err e' => e = e'
  | _, _ => False
  end.
Lemma res_rel_bind {A B C D} (R : A -> B -> Prop) (Q : C -> D -> Prop) x y k k' :
  res_rel R x y -> (forall a b, R a b -> res_rel Q (k a) (k' b)) -> res_rel Q (bind x k) (bind y k').
Proof. destruct x, y; cbn; intros; subst; auto; contradiction. Qed.
Lemma res_rel_mono {A B} (R Q : A -> B -> Prop) x y :
  res_rel R x y -> (forall a b, R a b -> Q a b) -> res_rel Q x y.
Proof. destruct x, y; cbn; auto. Qed.
Lemma res_rel_both {A B} (R : A -> B -> Prop) x y a b : x = Ok a -> y = Ok b -> R a b -> res_rel R x y.
Proof. intros -> ->. auto. Qed.

Section Rel.
Context (N : Num).
Local Notation K := (car N).
Context {U1 S1 D1 U2 S2 D2 : Type} (V1 : vops N U1) (V2 : vops N U2).
Context (f1 : S1 -> K -> K -> U1 -> res (S1 * (K * U1))) (f2 : S2 -> K -> K -> U2 -> res (S2 * (K * U2))).
(** relations on states, on time derivatives, on the other mutable state *)
Context (A Zr : U1 -> U2 -> Prop) (RS : S1 -> S2 -> Prop) (RD : D1 -> D2 -> Prop).

Definition rhs_rel (r1 : S1 * (K * U1)) (r2 : S2 * (K * U2)) : Prop :=
  RS (fst r1) (fst r2) /\ fst (snd r1) = fst (snd r2) /\ Zr (snd (snd r1)) (snd (snd r2)).
Definition step_rel (r1 : S1 * (K * U1)) (r2 : S2 * (K * U2)) : Prop :=
  RS (fst r1) (fst r2) /\ fst (snd r1) = fst (snd r2) /\ A (snd (snd r1)) (snd (snd r2)).
Record respects : Prop := {
  r_f : forall s1 s2 t t' u1 u2, RS s1 s2 -> A u1 u2 -> res_rel rhs_rel (f1 s1 t t' u1) (f2 s2 t t' u2);
  r_step : forall c u1 u2 k1 k2, A u1 u2 -> Zr k1 k2 ->
    res_rel A (vadd V1 u1 (vscale V1 c k1)) (vadd V2 u2 (vscale V2 c k2));
  r_scale : forall c k1 k2, Zr k1 k2 -> Zr (vscale V1 c k1) (vscale V2 c k2);
  r_add : forall k1 k2 m1 m2, Zr k1 k2 -> Zr m1 m2 -> res_rel Zr (vadd V1 k1 m1) (vadd V2 k2 m2);
  r_mid : forall u1 u2 v1 v2, A u1 u2 -> A v1 v2 ->
    res_rel A (vadd V1 (vscale V1 nhalf u1) (vscale V1 nhalf v1)) (vadd V2 (vscale V2 nhalf u2) (vscale V2 nhalf v2));
  r_assign : forall u1 u2 v1 v2, A u1 u2 -> A v1 v2 -> res_rel A (vassign V1 u1 v1) (vassign V2 u2 v2)
}.
Context (H : respects).

Ltac call := eapply res_rel_bind;
  [eapply (r_f H); eauto|intros [? [? ?]] [? [? ?]] (? & ? & ?); cbn [fst snd] in *; subst].
Ltac upd := eapply res_rel_bind; [eapply (r_step H); eauto|intros].
Ltac addk := eapply res_rel_bind; [eapply (r_add H); eauto using (r_scale H)|intros].

Lemma stepper_rel i s1 s2 t u1 u2 target : RS s1 s2 -> A u1 u2 ->
  res_rel step_rel (stepper_of N V1 f1 i s1 t u1 target) (stepper_of N V2 f2 i s2 t u2 target).
Proof.
  intros Hs Hu. destruct i; cbn [stepper_of].
  - unfold euler. call. upd. cbn. repeat split; auto.
  - unfold ssprk2. call. upd. call. upd.
    eapply res_rel_bind; [eapply (r_mid H); eauto|intros]. cbn. repeat split; auto.
  - unfold ssprk3. call. upd. call. upd. upd. call. addk. addk. upd. cbn. repeat split; auto.
  - unfold rk4. call. upd. call. upd. call. upd. call. addk. addk. addk. upd. cbn. repeat split; auto.
Qed.

Context (i : integrator) (h1 : S1 -> S1) (h2 : S2 -> S2).
Context (p1 : S1 -> K -> U1 -> res D1) (p2 : S2 -> K -> U2 -> res D2).
Context (Hh : forall s1 s2, RS s1 s2 -> RS (h1 s1) (h2 s2)).
Context (Hp : forall s1 s2 t u1 u2, RS s1 s2 -> A u1 u2 -> res_rel RD (p1 s1 t u1) (p2 s2 t u2)).

Definition snap_rel (x : K * D1) (y : K * D2) : Prop := fst x = fst y /\ RD (snd x) (snd y).
Record ode_rel (o1 : ode N (U := U1) (S := S1) (D := D1)) (o2 : ode N (U := U2) (S := S2) (D := D2)) : Prop := {
  or_t : o_t o1 = o_t o2; or_u : A (o_u o1) (o_u o2); or_stamps : o_stamps o1 = o_stamps o2;
  or_steps : o_steps o1 = o_steps o2; or_aux : RS (o_aux o1) (o_aux o2);
  or_snaps : Forall2 snap_rel (o_snaps o1) (o_snaps o2)
}.

Lemma take_step_rel o1 o2 target : ode_rel o1 o2 ->
  res_rel ode_rel (take_step N V1 (stepper_of N V1 f1 i) h1 o1 target)
                  (take_step N V2 (stepper_of N V2 f2 i) h2 o2 target).
Proof.
  intros [Et Hu Est Esn Ha Hs]. unfold take_step. rewrite <- Et. eapply res_rel_bind.
  - apply stepper_rel; eassumption.
  - intros [? [? ?]] [? [? ?]] (? & ? & ?); cbn [fst snd] in *; subst.
    eapply res_rel_bind; [eapply (r_assign H); eauto|intros]. cbn.
    split; cbn; auto; congruence.
Qed.
Lemma snapshot_rel o1 o2 : ode_rel o1 o2 -> res_rel ode_rel (snapshot N p1 o1) (snapshot N p2 o2).
Proof.
  intros [Et Hu Est Esn Ha Hs]. unfold snapshot. rewrite <- Et. eapply res_rel_bind; [eapply Hp; eauto|].
  intros. cbn. split; cbn; auto. apply Forall2_app; auto. constructor; [|constructor]. split; cbn; auto.
Qed.
Lemma take_n_rel n : forall o1 o2, ode_rel o1 o2 ->
  res_rel ode_rel (take_n N V1 (stepper_of N V1 f1 i) h1 n o1) (take_n N V2 (stepper_of N V2 f2 i) h2 n o2).
Proof.
  induction n; intros; cbn [take_n]; [assumption|].
  eapply res_rel_bind; [apply take_step_rel; assumption|auto].
Qed.
Lemma loop_rel T log fuel : forall o1 o2 target db, ode_rel o1 o2 ->
  res_rel ode_rel (loop N V1 (stepper_of N V1 f1 i) h1 p1 T log fuel o1 target db)
                  (loop N V2 (stepper_of N V2 f2 i) h2 p2 T log fuel o2 target db).
Proof.
  induction fuel; intros o1 o2 target db R; cbn [loop]; rewrite <- (or_t _ _ R); destruct (nltb (o_t o1) T);
    [reflexivity|assumption| |assumption].
  eapply res_rel_bind; [apply take_step_rel; assumption|]. intros a b R1. rewrite <- (or_t _ _ R1).
  destruct (eq_target N (o_t a) target || (nleb T (o_t a)) || log)%bool.
  - eapply res_rel_bind; [apply snapshot_rel; assumption|]. intros a' b' R2. rewrite <- (or_t _ _ R2).
    destruct db; auto. destruct (eq_target N (o_t a') target); auto.
  - auto.
Qed.
Theorem integrate_rel T n exact db log fuel o1 o2 : ode_rel o1 o2 ->
  res_rel ode_rel (integrate N V1 (stepper_of N V1 f1 i) h1 p1 T n exact db log fuel o1)
                  (integrate N V2 (stepper_of N V2 f2 i) h2 p2 T n exact db log fuel o2).
Proof.
  intro R. unfold integrate. destruct T as [T|]; [|destruct n as [n|]].
  - unfold integrate_T. destruct (if exact then _ else _) as [td|e]; cbn [bind]; [|reflexivity].
    eapply res_rel_bind; [apply snapshot_rel; assumption|]. intros. apply loop_rel; assumption.
  - unfold integrate_n. eapply res_rel_bind; [apply snapshot_rel; assumption|]. intros.
    eapply res_rel_bind; [apply take_n_rel; assumption|]. intros. apply snapshot_rel; assumption.
  - eapply res_rel_bind; [apply snapshot_rel; assumption|]. reflexivity.
Qed.
End Rel.
