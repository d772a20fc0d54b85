(** The integrators preserve relations that the right-hand side and the vector operations
    preserve, also when the second clock runs faster by a constant factor. *)
From Coq Require Import ZArith List Bool Lia Reals Lra.
From Verif Require Import Err Num HydroP OdeM OdeP.
Import ListNotations.
Local Open Scope R_scope.

Section Clock.
Context (tau : R) (Ht : 0 < tau).
Context {U1 S1 D1 U2 S2 D2 : Type} (V1 : vops RNum U1) (V2 : vops RNum U2).
Context (f1 : S1 -> R -> R -> U1 -> res (S1 * (R * U1))) (f2 : S2 -> R -> R -> U2 -> res (S2 * (R * U2))).
Context (A Zr : U1 -> U2 -> Prop) (RS : S1 -> S2 -> Prop) (RD : D1 -> D2 -> Prop).
Definition crhs_rel (r1 : S1 * (R * U1)) (r2 : S2 * (R * U2)) : Prop :=
  RS (fst r1) (fst r2) /\ fst (snd r2) = tau * fst (snd r1) /\ Zr (snd (snd r1)) (snd (snd r2)).
Definition cstep_rel (r1 : S1 * (R * U1)) (r2 : S2 * (R * U2)) : Prop :=
  RS (fst r1) (fst r2) /\ fst (snd r2) = tau * fst (snd r1) /\ A (snd (snd r1)) (snd (snd r2)).
Record crespects : Prop := {
  cr_f : forall s1 s2 t t' u1 u2, RS s1 s2 -> A u1 u2 -> res_rel crhs_rel (f1 s1 t t' u1) (f2 s2 (tau * t) (tau * t') u2);
  cr_step : forall c c' u1 u2 k1 k2, c' = tau * c -> A u1 u2 -> Zr k1 k2 ->
    res_rel A (vadd V1 u1 (vscale V1 c k1)) (vadd V2 u2 (vscale V2 c' k2));
  cr_scale : forall c k1 k2, Zr k1 k2 -> Zr (vscale V1 c k1) (vscale V2 c k2);
  cr_add : forall k1 k2 m1 m2, Zr k1 k2 -> Zr m1 m2 -> res_rel Zr (vadd V1 k1 m1) (vadd V2 k2 m2);
  cr_mid : forall u1 u2 v1 v2, A u1 u2 -> A v1 v2 ->
    res_rel A (vadd V1 (vscale V1 (@nhalf RNum) u1) (vscale V1 (@nhalf RNum) v1)) (vadd V2 (vscale V2 (@nhalf RNum) u2) (vscale V2 (@nhalf RNum) v2));
  cr_assign : forall u1 u2 v1 v2, A u1 u2 -> A v1 v2 -> res_rel A (vassign V1 u1 v1) (vassign V2 u2 v2)
}.
Context (H : crespects).
Definition slow (o : option R) : option R := option_map (fun x => tau * x) o.
Lemma Rltb_scaled a b : Rltb (tau * a) (tau * b) = Rltb a b.
Proof.
  destruct (Rltb a b) eqn:E.
  - apply Rltb_true. apply Rltb_true in E. nra.
  - apply Rltb_false. apply Rltb_false in E. nra.
Qed.
Lemma Rleb_scaled a b : Rleb (tau * a) (tau * b) = Rleb a b.
Proof.
  unfold Rleb. destruct (Rle_dec a b), (Rle_dec (tau * a) (tau * b)); auto; exfalso; nra.
Qed.
Lemma Reqb_scaled a b : Reqb (tau * a) (tau * b) = Reqb a b.
Proof.
  unfold Reqb. destruct (Req_EM_T a b) as [e|n], (Req_EM_T (tau * a) (tau * b)) as [e2|n2]; auto; exfalso; [apply n2; now rewrite e|apply n; exact (Rmult_eq_reg_l tau a b e2 (Rgt_not_eq _ _ Ht))].
Qed.
Lemma hit_scaled t dt target : hit_target RNum (tau * t) (tau * dt) (slow target) = tau * hit_target RNum t dt target.
Proof.
  destruct target as [T|]; cbn [slow option_map hit_target]; [|reflexivity]. cbn [nltb nsub RNum].
  replace (tau * T - tau * t) with (tau * (T - t)) by ring. rewrite Rltb_scaled. destruct (Rltb (T - t) dt); reflexivity.
Qed.
Ltac tq := repeat rewrite hit_scaled; cbn [nadd nmul RNum]; try ring.
Ltac call e := eapply res_rel_bind;
  [let X := fresh in pose proof (cr_f H) as X; match goal with |- res_rel _ (f1 ?a ?b ?c ?d) (f2 ?a' ?b' ?c' ?d') =>
     replace c' with (tau * c) by (tq; reflexivity || (cbn; lra)); apply X; assumption end
  |intros [? [? ?]] [? [? ?]] (? & e & ?); cbn [fst snd] in *; subst].
Ltac upd := eapply res_rel_bind; [apply (cr_step H); [tq; try (cbn; lra)|assumption|assumption]|intros].
Ltac addk := eapply res_rel_bind; [eapply (cr_add H); eauto using (cr_scale H)|intros].
Ltac fin := cbn [res_rel]; unfold cstep_rel; cbn [fst snd]; repeat split; auto; apply hit_scaled.
Lemma cstepper_rel i s1 s2 t u1 u2 target : RS s1 s2 -> A u1 u2 ->
  res_rel cstep_rel (stepper_of RNum V1 f1 i s1 t u1 target) (stepper_of RNum V2 f2 i s2 (tau * t) u2 (slow target)).
Proof.
  intros Hs Hu. destruct i; cbn [stepper_of].
  - unfold euler. call e. upd. fin.
  - unfold ssprk2. call e. upd. call e'. upd. eapply res_rel_bind; [eapply (cr_mid H); eauto|intros]. fin.
  - unfold ssprk3. call e. upd. call e'. upd. upd. call e''. addk. addk. upd. fin.
  - unfold rk4. call e. upd. call e'. upd. call e''. upd. call e'''. addk. addk. addk. upd. fin.
Qed.

Context (i : integrator) (h1 : S1 -> S1) (h2 : S2 -> S2).
Context (p1 : S1 -> R -> U1 -> res D1) (p2 : S2 -> R -> U2 -> res D2).
Context (Hh : forall s1 s2, RS s1 s2 -> RS (h1 s1) (h2 s2)).
Context (Hp : forall s1 s2 t u1 u2, RS s1 s2 -> A u1 u2 -> res_rel RD (p1 s1 t u1) (p2 s2 (tau * t) u2)).
Definition csnap_rel (x : R * D1) (y : R * D2) : Prop := fst y = tau * fst x /\ RD (snd x) (snd y).
Record code_rel (o1 : ode RNum (U := U1) (S := S1) (D := D1)) (o2 : ode RNum (U := U2) (S := S2) (D := D2)) : Prop := {
  cor_t : o_t o2 = tau * o_t o1; cor_u : A (o_u o1) (o_u o2); cor_stamps : o_stamps o2 = map (fun x => tau * x) (o_stamps o1);
  cor_steps : o_steps o1 = o_steps o2; cor_aux : RS (o_aux o1) (o_aux o2);
  cor_snaps : Forall2 csnap_rel (o_snaps o1) (o_snaps o2)
}.
Lemma ctake_step_rel o1 o2 target : code_rel o1 o2 ->
  res_rel code_rel (take_step RNum V1 (stepper_of RNum V1 f1 i) h1 o1 target)
                   (take_step RNum V2 (stepper_of RNum V2 f2 i) h2 o2 (slow target)).
Proof.
  intros [Et Hu Est Esn Ha Hs]. unfold take_step. eapply res_rel_bind.
  - setoid_rewrite Et. apply cstepper_rel; eassumption.
  - intros [? [? ?]] [? [? ?]] (? & ? & ?); cbn [fst snd] in *; subst.
    eapply res_rel_bind; [eapply (cr_assign H); eauto|intros]. cbn [res_rel].
    assert (Q : forall a b : R, tau * a + tau * b = tau * (a + b)) by (intros; ring).
    split; cbn [o_t o_u o_stamps o_steps o_aux o_snaps nadd RNum]; auto; try congruence; try (setoid_rewrite Et; apply Q).
    rewrite Est. setoid_rewrite map_app. cbn [map]. do 2 f_equal. setoid_rewrite Et; apply Q.
Qed.
Lemma csnapshot_rel o1 o2 : code_rel o1 o2 -> res_rel code_rel (snapshot RNum p1 o1) (snapshot RNum p2 o2).
Proof.
  intros [Et Hu Est Esn Ha Hs]. unfold snapshot. eapply res_rel_bind; [setoid_rewrite Et; eapply Hp; eauto|].
  intros. cbn [res_rel]. split; cbn [o_t o_u o_stamps o_steps o_aux o_snaps]; auto. apply Forall2_app; auto. constructor; [|constructor]. split; cbn; auto.
Qed.
Lemma ctake_n_rel n : forall o1 o2, code_rel o1 o2 ->
  res_rel code_rel (take_n RNum V1 (stepper_of RNum V1 f1 i) h1 n o1) (take_n RNum V2 (stepper_of RNum V2 f2 i) h2 n o2).
Proof.
  induction n; intros; cbn [take_n]; [assumption|].
  eapply res_rel_bind; [apply (ctake_step_rel _ _ None); assumption|auto].
Qed.
Lemma eq_target_scaled t target : eq_target RNum (tau * t) (slow target) = eq_target RNum t target.
Proof. destruct target; cbn [slow option_map eq_target]; [|reflexivity]. apply Reqb_scaled. Qed.
Lemma cloop_rel T log fuel : forall o1 o2 target db, code_rel o1 o2 ->
  res_rel code_rel (loop RNum V1 (stepper_of RNum V1 f1 i) h1 p1 T log fuel o1 target db)
                  (loop RNum V2 (stepper_of RNum V2 f2 i) h2 p2 (tau * T) log fuel o2 (slow target) (map (fun x => tau * x) db)).
Proof.
  assert (L : forall a b : R, @nltb RNum (tau * a) (tau * b) = @nltb RNum a b) by (exact Rltb_scaled).
  assert (L' : forall a b : R, @nleb RNum (tau * a) (tau * b) = @nleb RNum a b) by (exact Rleb_scaled).
  induction fuel; intros o1 o2 target db R; cbn [loop]; setoid_rewrite (cor_t _ _ R); setoid_rewrite L; destruct (nltb (o_t o1) T);
    [reflexivity|assumption| |assumption].
  eapply res_rel_bind; [apply ctake_step_rel; assumption|]. intros a b R1. setoid_rewrite (cor_t _ _ R1). rewrite eq_target_scaled. setoid_rewrite L'.
  match goal with |- res_rel _ (if ?b then _ else _) (if ?b' then _ else _) => change b' with b; destruct b end.
  - eapply res_rel_bind; [apply csnapshot_rel; assumption|]. intros a' b' R2. destruct db as [|d db]; cbn [map].
    + apply (IHfuel a' b' target []). exact R2.
    + setoid_rewrite (cor_t _ _ R2). rewrite eq_target_scaled. destruct (eq_target RNum (o_t a') target).
      * apply (IHfuel a' b' (Some d) db). exact R2.
      * apply (IHfuel a' b' target (d :: db)). exact R2.
  - apply IHfuel. exact R1.
Qed.
Lemma insert_scaled x l : insert_uniq RNum (tau * x) (map (fun x => tau * x) l) = map (fun x => tau * x) (insert_uniq RNum x l).
Proof.
  induction l as [|y l IH]; [reflexivity|]. cbn [map insert_uniq]. cbn [nltb neqb RNum]. setoid_rewrite Rltb_scaled. setoid_rewrite Reqb_scaled.
  destruct (Rltb x y); [reflexivity|]. destruct (Reqb x y); [reflexivity|]. cbn [map]. f_equal. exact IH.
Qed.
Lemma sorted_scaled l : sorted_set RNum (map (fun x => tau * x) l) = map (fun x => tau * x) (sorted_set RNum l).
Proof.
  unfold sorted_set.
  assert (G : forall acc, fold_left (fun acc x => insert_uniq RNum x acc) (map (fun x => tau * x) l) (map (fun x => tau * x) acc)
    = map (fun x => tau * x) (fold_left (fun acc x => insert_uniq RNum x acc) l acc)).
  { induction l as [|x l IH]; intro acc; [reflexivity|]. cbn [map fold_left]. setoid_rewrite insert_scaled. apply IH. }
  exact (G []).
Qed.
Theorem cintegrate_rel T n exact db log fuel o1 o2 : code_rel o1 o2 ->
  res_rel code_rel (integrate RNum V1 (stepper_of RNum V1 f1 i) h1 p1 T n exact db log fuel o1)
                   (integrate RNum V2 (stepper_of RNum V2 f2 i) h2 p2 (slow T) n exact (map (fun x => tau * x) db) log fuel o2).
Proof.
  intro R. unfold integrate. destruct T as [T|]; cbn [slow option_map]; [|destruct n as [n|]].
  - unfold integrate_T.
    assert (Q : tl (sorted_set RNum (@nofZ RNum 0 :: map (fun x => tau * x) db ++ [tau * T])) = map (fun x => tau * x) (tl (sorted_set RNum (@nofZ RNum 0 :: db ++ [T])))).
    { transitivity (tl (map (fun x => tau * x) (sorted_set RNum (@nofZ RNum 0 :: db ++ [T])))).
      - f_equal. rewrite <- sorted_scaled. f_equal. cbn [map]. setoid_rewrite map_app. cbn [map]. f_equal. cbn. ring.
      - destruct (sorted_set RNum _); reflexivity. }
    cbv zeta.
    match goal with |- res_rel _ ?a ?b =>
      match b with context [@tl ?A (sorted_set RNum ?l)] => set (ds' := @tl A (sorted_set RNum l)) end;
      match a with context [@tl ?A (sorted_set RNum ?l)] => set (ds := @tl A (sorted_set RNum l)) end end.
    change (ds' = map (fun x => tau * x) ds) in Q. clearbody ds ds'. subst ds'.
    destruct exact; [destruct ds as [|d ds]; cbn [map bind fst snd]; [exact eq_refl|]|cbn [bind fst snd]];
      (eapply res_rel_bind; [apply csnapshot_rel; assumption|]); intros a b R'.
    + exact (cloop_rel T log fuel a b (Some d) ds R').
    + exact (cloop_rel T log fuel a b None ds R').
  - unfold integrate_n. eapply res_rel_bind; [apply csnapshot_rel; assumption|]. intros.
    eapply res_rel_bind; [apply ctake_n_rel; assumption|]. intros. apply csnapshot_rel; assumption.
  - eapply res_rel_bind; [apply csnapshot_rel; assumption|]. intros; exact eq_refl.
Qed.
End Clock.
