(** Timers. *)
From Coq Require Import ZArith List Bool String Reals Lia Lra.
From Verif Require Import Err Num HydroStateM HsP TimerM SpecTimer.
Import ListNotations.
Open Scope Z_scope.

Lemma known_in {N} c (tm : timer N) : known c tm = true <-> In c (t_cats tm).
Proof.
  unfold known. rewrite existsb_exists. split.
  - intros (x & I & E). apply String.eqb_eq in E. subst. exact I.
  - intro I. exists c. split; [exact I|apply String.eqb_refl].
Qed.
Lemma status_start {N} (tm : timer N) c s x : status tm c = Some (s, x) -> dget c (t_start tm) = Some s /\ dget c (t_cum tm) = Some x.
Proof. unfold status. destruct (dget c (t_start tm)), (dget c (t_cum tm)); intro H; inversion H; auto. Qed.

Section Any.
Context {N : Num}.
Implicit Types tm : timer N.

Lemma tracked_unknown tm c : tracked tm -> status tm c = None -> known c tm = false.
Proof.
  intros [_ T] S. destruct (known c tm) eqn:E; [|reflexivity]. apply known_in in E. apply T in E. congruence.
Qed.
Lemma tracked_known tm c s : tracked tm -> status tm c = Some s -> known c tm = true.
Proof. intros [_ T] S. apply known_in, T. congruence. Qed.
Lemma start_unknown tm c now : tracked tm -> status tm c = None -> start c now tm = (tm, Some ValueError).
Proof. intros T S. unfold start. rewrite (tracked_unknown _ _ T S). reflexivity. Qed.
Lemma stop_unknown tm c now : tracked tm -> status tm c = None -> stop c now tm = (tm, Some ValueError).
Proof. intros T S. unfold stop. rewrite (tracked_unknown _ _ T S). reflexivity. Qed.
Lemma start_running tm c now t x : tracked tm -> status tm c = Some (Some t, x) -> start c now tm = (tm, Some RuntimeError).
Proof. intros T S. unfold start. rewrite (tracked_known _ _ _ T S). cbn [negb]. rewrite (proj1 (status_start _ _ _ _ S)). reflexivity. Qed.
Lemma stop_idle tm c now x : tracked tm -> status tm c = Some (None, x) -> stop c now tm = (tm, Some RuntimeError).
Proof. intros T S. unfold stop. rewrite (tracked_known _ _ _ T S). cbn [negb]. rewrite (proj1 (status_start _ _ _ _ S)). reflexivity. Qed.
Lemma start_idle tm c now x : tracked tm -> status tm c = Some (None, x) ->
  exists tm', start c now tm = (tm', None) /\ tracked tm' /\ t_cats tm' = t_cats tm /\
    forall c', status tm' c' = if String.eqb c' c then Some (Some now, x) else status tm c'.
Proof.
  intros T S. unfold start. rewrite (tracked_known _ _ _ T S). cbn [negb]. destruct (status_start _ _ _ _ S) as [A B]. rewrite A.
  eexists. split; [reflexivity|].
  assert (ST : forall c', status (mktimer (t_cats tm) (dset c (Some now) (t_start tm)) (t_cum tm)) c' = if String.eqb c' c then Some (Some now, x) else status tm c').
  { intro c'. unfold status. cbn [t_start t_cum]. rewrite dget_set. destruct (String.eqb_spec c' c); [subst; rewrite B|]; reflexivity. }
  split; [|split; [reflexivity|exact ST]].
  destruct T as [ND T]. split; [exact ND|]. intro c'. rewrite ST. cbn [t_cats t_start]. rewrite dget_set.
  destruct (String.eqb_spec c' c) as [->|]; [|apply T].
  split; [rewrite (proj1 (T c)); rewrite S; split; discriminate|split; discriminate].
Qed.
Lemma stop_running tm c now t x : tracked tm -> status tm c = Some (Some t, x) ->
  exists tm', stop c now tm = (tm', None) /\ tracked tm' /\ t_cats tm' = t_cats tm /\
    forall c', status tm' c' = if String.eqb c' c then Some (None, nadd x (nsub now t)) else status tm c'.
Proof.
  intros T S. unfold stop. rewrite (tracked_known _ _ _ T S). cbn [negb]. destruct (status_start _ _ _ _ S) as [A B]. rewrite A, B.
  eexists. split; [reflexivity|].
  match goal with |- context[mktimer ?a ?b ?d] => assert (ST : forall c', status (mktimer a b d) c' = if String.eqb c' c then Some (None, nadd x (nsub now t)) else status tm c') end.
  { intro c'. unfold status. cbn [t_start t_cum]. rewrite !dget_set. destruct (String.eqb_spec c' c); reflexivity. }
  split; [|split; [reflexivity|exact ST]].
  destruct T as [ND T]. split; [exact ND|]. intro c'. rewrite ST. cbn [t_cats t_start]. rewrite dget_set.
  destruct (String.eqb_spec c' c) as [->|]; [|apply T].
  split; [rewrite (proj1 (T c)); rewrite S; split; discriminate|split; discriminate].
Qed.

Lemma add_cats_ok l tm : tracked tm -> exists tm' e, add_cats l tm = (tm', e) /\ tracked tm' /\
  (forall c, status tm c <> None -> status tm' c = status tm c) /\
  (e = None <-> NoDup l /\ forall c, In c l -> status tm c = None) /\
  (forall x, e = Some x -> x = ValueError) /\
  (e = None -> t_cats tm' = t_cats tm ++ l /\ forall c, In c l -> status tm' c = Some (None, nofZ 0)).
Proof.
  revert tm. induction l as [|c l IH]; intros tm T; cbn [add_cats].
  - exists tm, None. split; [reflexivity|]. split; [exact T|]. split; [reflexivity|]. split; [split; [intros _; split; [constructor|intros ? []]|reflexivity]|].
    split; [discriminate|]. intros _. rewrite app_nil_r. split; [reflexivity|intros ? []].
  - destruct (known c tm) eqn:E.
    + exists tm, (Some ValueError). split; [reflexivity|]. split; [exact T|]. split; [reflexivity|].
      apply known_in in E. assert (S : status tm c <> None) by (apply T; exact E).
      split; [split; [discriminate|intros [_ H]; exfalso; apply S, H; left; reflexivity]|].
      split; [intros x X; injection X as <-; reflexivity|discriminate].
    + assert (S : status tm c = None).
      { destruct (status tm c) eqn:S; [|reflexivity]. rewrite (tracked_known _ _ _ T S) in E. discriminate. }
      set (tm1 := mktimer _ _ _).
      assert (ST : forall c', status tm1 c' = if String.eqb c' c then Some (None, nofZ 0) else status tm c').
      { intro c'. unfold status, tm1. cbn [t_start t_cum]. rewrite !dget_set. destruct (String.eqb c' c); reflexivity. }
      assert (T1 : tracked tm1).
      { destruct T as [ND T]. split.
        - cbn [t_cats tm1]. apply NoDup_rev in ND. rewrite <- (rev_involutive (t_cats tm ++ [c])). apply NoDup_rev.
          rewrite rev_app_distr. cbn [rev app]. constructor; [|exact ND]. rewrite <- in_rev. rewrite (proj1 (T c)). congruence.
        - intro c'. rewrite ST. cbn [t_cats t_start tm1]. rewrite dget_set, in_app_iff. cbn [In].
          destruct (String.eqb_spec c' c) as [->|NE]; [split; split; try discriminate; auto|].
          split; [|apply T]. rewrite <- (proj1 (T c')). split; [intros [?|[?|[]]]; [assumption|congruence]|auto]. }
      destruct (IH tm1 T1) as (tm' & e & A & B & C & D & F & G). exists tm', e. split; [exact A|]. split; [exact B|].
      split; [|split; [|split; [exact F|]]].
      * intros c' H. assert (c' <> c) by congruence. rewrite C; rewrite ST; destruct (String.eqb_spec c' c); congruence.
      * rewrite D. split.
        -- intros [ND H]. split; [constructor; [|exact ND]|].
           ++ intro I. specialize (H _ I). rewrite ST, String.eqb_refl in H. discriminate.
           ++ intros c' [<-|I]; [exact S|]. specialize (H _ I). rewrite ST in H. destruct (String.eqb c' c); [discriminate|exact H].
        -- intros [ND H]. inversion ND as [|? ? NI ND']; subst. split; [exact ND'|]. intros c' I. rewrite ST.
           destruct (String.eqb_spec c' c); [subst; tauto|]. apply H. right. exact I.
      * intro X. destruct (G X) as [G1 G2]. split; [rewrite G1; cbn [t_cats tm1]; rewrite <- app_assoc; reflexivity|].
        intros c' [<-|I]; [|apply G2, I]. rewrite C; rewrite ST, String.eqb_refl; [reflexivity|discriminate].
Qed.
Lemma empty_tracked : tracked (mktimer (N := N) [] [] []).
Proof. split; [constructor|]. intro c. cbn. split; [split; [tauto|congruence]|tauto]. Qed.

Lemma calls_app l l' tm : do_calls (l ++ l') tm = match do_calls l tm with (tm', None) => do_calls l' tm' | (tm', Some e) => (tm', Some e) end.
Proof.
  revert tm. induction l as [|[o now] l IH]; intro tm; cbn [app do_calls]; [reflexivity|].
  destruct (do_call o now tm) as [tm' [e|]]; [reflexivity|apply IH].
Qed.
Lemma calls_other l tm : tracked tm -> forall tm' e, do_calls l tm = (tm', e) -> tracked tm' /\ t_cats tm' = t_cats tm /\
  forall c, (forall o, In o (map fst l) -> category o <> c) -> status tm' c = status tm c.
Proof.
  revert tm. induction l as [|[o now] l IH]; intros tm T tm' e; cbn [do_calls]; [intro H; injection H as <- <-; auto|].
  destruct (do_call o now tm) as [tm1 e1] eqn:E.
  assert (Q : tracked tm1 /\ t_cats tm1 = t_cats tm /\ forall c, category o <> c -> status tm1 c = status tm c).
  { destruct o as [c|c]; cbn [do_call category] in *.
    - destruct (status tm c) as [[[t|] x]|] eqn:S.
      + rewrite (start_running _ _ _ _ _ T S) in E. injection E as <- <-. auto.
      + destruct (start_idle _ _ now _ T S) as (q & Q1 & Q2 & Q3 & Q4). rewrite Q1 in E. injection E as <- <-.
        split; [exact Q2|]. split; [exact Q3|]. intros c' H. rewrite Q4. destruct (String.eqb_spec c' c); congruence.
      + rewrite (start_unknown _ _ _ T S) in E. injection E as <- <-. auto.
    - destruct (status tm c) as [[[t|] x]|] eqn:S.
      + destruct (stop_running _ _ now _ _ T S) as (q & Q1 & Q2 & Q3 & Q4). rewrite Q1 in E. injection E as <- <-.
        split; [exact Q2|]. split; [exact Q3|]. intros c' H. rewrite Q4. destruct (String.eqb_spec c' c); congruence.
      + rewrite (stop_idle _ _ _ _ T S) in E. injection E as <- <-. auto.
      + rewrite (stop_unknown _ _ _ T S) in E. injection E as <- <-. auto. }
  destruct Q as (Q1 & Q2 & Q3). destruct e1 as [e1|].
  - intro H. injection H as <- <-. split; [exact Q1|]. split; [exact Q2|]. intros c H. apply Q3, H. left. reflexivity.
  - intro H. destruct (IH tm1 Q1 _ _ H) as (A & B & C). split; [exact A|]. split; [congruence|].
    intros c F. rewrite C, Q3; [reflexivity|apply F; left; reflexivity|intros o' I; apply F; right; exact I].
Qed.
Lemma nested_runs cs : nested cs -> forall l tm, map fst l = cs -> tracked tm ->
  (forall o, In o cs -> exists x, status tm (category o) = Some (None, x)) ->
  exists tm', do_calls l tm = (tm', None) /\ forall o, In o cs -> exists x, status tm' (category o) = Some (None, x).
Proof.
  intro H. induction H as [|c l1 l2 H1 IH1 NI H2 IH2]; intros l tm E T I.
  - destruct l; [|discriminate]. exists tm. split; [reflexivity|]. intros ? [].
  - destruct l as [|[o now] l]; [discriminate|]. cbn [map fst] in E. injection E as -> E.
    apply map_eq_app in E as (m1 & m2 & -> & E1 & E2). destruct m2 as [|[o2 now2] m2]; [discriminate|]. cbn [map fst] in E2. injection E2 as -> E2.
    destruct (I (Start c) (or_introl eq_refl)) as (x & S). cbn [category] in S.
    destruct (start_idle _ _ now _ T S) as (q & Q1 & Q2 & Q3 & Q4).
    cbn [do_calls do_call]. rewrite Q1.
    destruct (IH1 m1 q E1 Q2) as (r & R1 & R2).
    { intros o O. rewrite Q4. destruct (String.eqb_spec (category o) c); [exfalso; eapply NI; eassumption|].
      apply I. right. apply in_or_app. left. exact O. }
    rewrite calls_app, R1. cbn [do_calls do_call].
    destruct (calls_other m1 q Q2 _ _ R1) as (T2 & C2 & O2).
    assert (Sc : status r c = Some (Some now, x)).
    { rewrite O2 by (rewrite E1; exact NI). rewrite Q4, String.eqb_refl. reflexivity. }
    destruct (stop_running _ _ now2 _ _ T2 Sc) as (s & S1 & S2 & S3 & S4). rewrite S1.
    assert (Idle : forall o, In o (Start c :: l1 ++ Stop c :: l2) -> exists y, status s (category o) = Some (None, y)).
    { intros o O. rewrite S4. destruct (String.eqb_spec (category o) c) as [|NE]; [eauto|].
      destruct O as [<-|O]; [exfalso; apply NE; reflexivity|]. apply in_app_iff in O as [O|[<-|O]]; [apply R2, O|exfalso; apply NE; reflexivity|].
      destruct (List.in_dec string_dec (category o) (map category l1)) as [J|J].
      + apply in_map_iff in J as (o' & EO & J). rewrite <- EO. apply R2, J.
      + rewrite O2; [|intros o' J' EO; apply J; rewrite E1 in J'; rewrite <- EO; apply in_map, J'].
        rewrite Q4. destruct (String.eqb_spec (category o) c); [congruence|]. apply I. right. apply in_or_app. right. right. exact O. }
    destruct (IH2 m2 s E2 S2) as (z & Z1 & Z2).
    { intros o O. apply Idle. right. apply in_or_app. right. right. exact O. }
    exists z. split; [exact Z1|]. intros o O.
    destruct (List.in_dec string_dec (category o) (map category l2)) as [J|J].
    + apply in_map_iff in J as (o' & EO & J). rewrite <- EO. apply Z2, J.
    + destruct (calls_other m2 s S2 _ _ Z1) as (_ & _ & OZ). rewrite OZ; [apply Idle, O|].
      intros o' J' EO. apply J. rewrite E2 in J'. rewrite <- EO. apply in_map, J'.
Qed.

(** ** the calls of the solver *)
Lemma nested_app l l' : nested l -> nested l' -> nested (l ++ l').
Proof.
  intro H. revert l'. induction H as [|c l1 l2 H1 IH1 NI H2 IH2]; intros l' H'; [exact H'|].
  cbn [app]. rewrite <- app_assoc. cbn [app]. apply n_pair; auto.
Qed.
Lemma nested_wrap c l : nested l -> ~ In c (map category l) -> nested (Start c :: l ++ [Stop c]).
Proof. intros. apply n_pair; [assumption| |constructor]. intros o O E. apply H0. rewrite <- E. apply in_map, O. Qed.
Lemma nested_one c : nested [Start c; Stop c].
Proof. apply (n_pair c [] []); [constructor|intros ? []|constructor]. Qed.
Lemma nested_flat {A} (f : A -> list call) l : (forall x, In x l -> nested (f x)) -> nested (flat_map f l).
Proof. induction l as [|x l IH]; intro H; [constructor|]. cbn [flat_map]. apply nested_app; [apply H; left; reflexivity|apply IH; intros; apply H; right; assumption]. Qed.
Ltac out := cbn; intuition discriminate.
Lemma nested_primitives : nested primitives_calls.
Proof. apply nested_one. Qed.
Lemma nested_fluxes p : p = "(high-order) "%string \/ p = "(fallback scheme) "%string -> nested (fluxes_calls p).
Proof.
  intro P. unfold fluxes_calls.
  match goal with |- nested (_ ++ _ ++ ?t) => change t with (removelast t ++ [Stop (p ++ "hydrofluxes")%string]) end.
  cbn [removelast]. rewrite (app_assoc primitives_calls). apply (nested_wrap (p ++ "hydrofluxes")).
  - apply nested_app; [apply nested_primitives|]. do 2 (apply (nested_app [_; _]); [apply nested_one|]). apply nested_one.
  - destruct P; subst; out.
Qed.
Lemma nested_revise b : nested (revise_calls b).
Proof.
  assert (E : revise_calls b = Start "(fallback scheme)" :: (primitives_calls ++ primitives_calls ++
    [Start "(fallback scheme) troubled cell detection"; Stop "(fallback scheme) troubled cell detection"] ++
    (if b then fluxes_calls "(fallback scheme) " else [])) ++ [Stop "(fallback scheme)"]).
  { unfold revise_calls. rewrite <- !app_assoc. reflexivity. }
  rewrite E. apply (nested_wrap "(fallback scheme)").
  - repeat apply nested_app; try apply nested_primitives; [apply nested_one|]. destruct b; [apply nested_fluxes; auto|constructor].
  - destruct b; out.
Qed.
Lemma nested_step s : nested (step_calls s).
Proof.
  apply nested_flat. intros [b|] _; unfold stage_calls; apply nested_app; try (apply nested_fluxes; auto); [apply nested_revise|constructor].
Qed.
Lemma nested_snapshot : nested timed_snapshot_calls.
Proof. apply (nested_wrap "SNAPSHOTS"); [apply nested_primitives|out]. Qed.
Definition quiet (c : string) (l : list call) := ~ In c (map category l).
Lemma quiet_app c l l' : quiet c l -> quiet c l' -> quiet c (l ++ l').
Proof. unfold quiet. rewrite map_app, in_app_iff. tauto. Qed.
Lemma quiet_flat {A} c (f : A -> list call) l : (forall x, quiet c (f x)) -> quiet c (flat_map f l).
Proof. intro H. induction l as [|x l IH]; [intros []|]. cbn [flat_map]. apply quiet_app; auto. Qed.
Lemma quiet_step s : quiet "TOTAL" (step_calls s).
Proof. apply quiet_flat. intros [[|]|]; unfold quiet; out. Qed.
Lemma nested_count steps : nested (count_calls steps).
Proof.
  unfold count_calls. apply nested_app; [apply nested_snapshot|]. cbn [app].
  apply (n_pair "TOTAL" (flat_map step_calls steps)); [apply nested_flat; intros; apply nested_step| |apply nested_snapshot].
  intros o O E. apply (quiet_flat "TOTAL" step_calls steps quiet_step). rewrite <- E. apply in_map, O.
Qed.
Lemma nested_until steps : nested (until_calls steps).
Proof.
  unfold until_calls. apply nested_app; [apply nested_primitives|]. cbn [app]. apply (nested_wrap "TOTAL").
  - apply nested_flat. intros [s b] _. apply nested_app; [apply nested_step|]. cbn [snd]. destruct b; [apply nested_snapshot|constructor].
  - apply (quiet_flat "TOTAL"). intros [s b]. apply quiet_app; [apply quiet_step|]. cbn [snd]. destruct b; unfold quiet; out.
Qed.
Lemma used_cats l : In l [primitives_calls; timed_snapshot_calls; fluxes_calls "(high-order) "; fluxes_calls "(fallback scheme) "; revise_calls true; revise_calls false] -> incl (map category l) solver_cats.
Proof. intro H. cbn [In] in H. intros c C. repeat destruct H as [<-|H]; [..|tauto]; cbn in C |- *; tauto. Qed.
Definition usual (l : list call) := incl (map category l) solver_cats.
Lemma usual_app l l' : usual l -> usual l' -> usual (l ++ l').
Proof. unfold usual. intros A B c C. rewrite map_app, in_app_iff in C. destruct C; auto. Qed.
Lemma usual_flat {A} (f : A -> list call) l : (forall x, usual (f x)) -> usual (flat_map f l).
Proof. intro H. induction l as [|x l IH]; [intros ? []|]. cbn [flat_map]. apply usual_app; auto. Qed.
Lemma usual_step s : usual (step_calls s).
Proof.
  apply usual_flat. intros [[|]|]; apply usual_app; try solve [intros ? []]; apply used_cats; cbn [In]; tauto.
Qed.
Lemma usual_total l l' : usual l -> usual l' -> usual (Start "TOTAL" :: l ++ Stop "TOTAL" :: l').
Proof. intros A B. intros c [<-|C]; [left; reflexivity|]. rewrite map_app in C. apply in_app_iff in C as [C|[<-|C]]; [apply A, C|left; reflexivity|apply B, C]. Qed.
Lemma usual_count steps : usual (count_calls steps).
Proof.
  unfold count_calls. apply usual_app; [apply used_cats; cbn [In]; tauto|]. cbn [app].
  apply usual_total; [apply usual_flat, usual_step|apply used_cats; cbn [In]; tauto].
Qed.
Lemma usual_until steps : usual (until_calls steps).
Proof.
  unfold until_calls. apply usual_app; [apply used_cats; cbn [In]; tauto|]. cbn [app].
  apply usual_total; [|intros ? []]. apply usual_flat. intros [s b]. apply usual_app; [apply usual_step|].
  cbn [snd]. destruct b; [apply used_cats; cbn [In]; tauto|intros ? []].
Qed.
Lemma usual_runs cs l tm : nested cs -> usual cs -> map fst l = cs -> tracked tm -> all_idle tm ->
  exists tm', do_calls l tm = (tm', None) /\ tracked tm' /\ all_idle tm'.
Proof.
  intros H U E T I. destruct (nested_runs cs H l tm E T) as (tm' & A & B).
  { intros o O. apply I, U, in_map, O. }
  exists tm'. split; [exact A|]. destruct (calls_other l tm T _ _ A) as (A1 & _ & A3). split; [exact A1|].
  intros c C. destruct (List.in_dec string_dec c (map category cs)) as [J|J].
  - apply in_map_iff in J as (o & <- & J). apply B, J.
  - rewrite A3; [apply I, C|]. rewrite E. intros o O EO. apply J. rewrite <- EO. apply in_map, O.
Qed.
Lemma solver_timer_ok : exists tm, new_timer (N := N) ["TOTAL"; "SNAPSHOTS"]%string = (tm, None) /\
  snd (add_cats (skipn 2 solver_cats) tm) = None /\ tracked (solver_timer (N := N)) /\ all_idle (solver_timer (N := N)).
Proof.
  destruct (add_cats_ok (firstn 2 solver_cats) _ empty_tracked) as (tm & e & A & B & C & D & E & F).
  assert (e = None). { apply D. split; [|reflexivity]. repeat constructor; cbn; intuition discriminate. }
  subst e. exists tm. split; [exact A|].
  destruct (F eq_refl) as [F1 F2].
  destruct (add_cats_ok (skipn 2 solver_cats) tm B) as (tm2 & e2 & A2 & B2 & C2 & D2 & E2 & F3).
  assert (e2 = None).
  { apply D2. split; [cbn [skipn solver_cats]; repeat constructor; cbn; intuition discriminate|].
    intros c I. destruct (status tm c) eqn:S; [|reflexivity]. exfalso.
    assert (J : In c (t_cats tm)) by (apply B; congruence). rewrite F1 in J. cbn in I, J. intuition (subst; discriminate). }
  subst e2. rewrite A2. split; [reflexivity|].
  unfold solver_timer, new_timer. rewrite A. cbn [fst]. rewrite A2. cbn [fst]. split; [exact B2|].
  destruct (F3 eq_refl) as [_ G]. intros c I.
  rewrite <- (firstn_skipn 2 solver_cats) in I. apply in_app_iff in I as [I|I]; [|eauto].
  exists (nofZ 0). rewrite C2; [apply F2, I|rewrite F2 by exact I; discriminate].
Qed.
End Any.

(** ** times *)
Lemma elapsed_calls c (l : list (call * R)) : forall (tm : timer RNum) tm' p x, tracked tm -> status tm c = Some (p, x) ->
  do_calls (N := RNum) l tm = (tm', None) -> status tm' c = Some (pending_after c p l, (x + elapsed c p l)%R).
Proof.
  induction l as [|[o now] l IH]; intros tm tm' p x T S; cbn [do_calls elapsed pending_after].
  - intro H. injection H as <-. rewrite S. rewrite Rplus_0_r. reflexivity.
  - destruct o as [d|d]; cbn [do_call].
    + destruct (status tm d) as [[[t|] y]|] eqn:SD.
      * rewrite (start_running _ _ _ _ _ T SD). discriminate.
      * destruct (start_idle (N := RNum) _ _ now _ T SD) as (q & Q1 & Q2 & Q3 & Q4). rewrite Q1. intro H.
        specialize (Q4 c). destruct (String.eqb_spec d c) as [->|NE].
        -- rewrite String.eqb_refl in Q4. assert (x = y) by congruence. subst y. exact (IH _ _ _ _ Q2 Q4 H).
        -- destruct (String.eqb_spec c d); [congruence|]. rewrite S in Q4. exact (IH _ _ _ _ Q2 Q4 H).
      * rewrite (start_unknown _ _ _ T SD). discriminate.
    + destruct (status tm d) as [[[t|] y]|] eqn:SD.
      * destruct (stop_running (N := RNum) _ _ now _ _ T SD) as (q & Q1 & Q2 & Q3 & Q4). rewrite Q1. intro H.
        specialize (Q4 c). destruct (String.eqb_spec d c) as [->|NE].
        -- rewrite String.eqb_refl in Q4. rewrite S in SD. injection SD as -> ->.
           rewrite (IH _ _ _ _ Q2 Q4 H). do 2 f_equal. exact (Rplus_assoc _ _ _).
        -- destruct (String.eqb_spec c d); [congruence|]. rewrite S in Q4. exact (IH _ _ _ _ Q2 Q4 H).
      * rewrite (stop_idle _ _ _ _ T SD). discriminate.
      * rewrite (stop_unknown _ _ _ T SD). discriminate.
Qed.
Lemma elapsed_pos c l : forall t p, ticking t l -> (forall t0, p = Some t0 -> (t0 <= t)%R) -> (0 <= elapsed c p l)%R.
Proof.
  induction l as [|[o now] l IH]; intros t p H P; cbn [elapsed ticking] in *; [lra|]. destruct H as [H1 H2].
  destruct o as [d|d]; destruct (String.eqb d c).
  - apply (IH now); [exact H2|]. intros ? E. injection E as <-. lra.
  - apply (IH now); [exact H2|]. intros t0 E. specialize (P _ E). lra.
  - assert (Q : (0 <= elapsed c None l)%R) by (apply (IH now); [exact H2|discriminate]).
    destruct p as [t0|]; [specialize (P _ eq_refl); lra|lra].
  - apply (IH now); [exact H2|]. intros t0 E. specialize (P _ E). lra.
Qed.
Lemma interrupted : exists (l rest l2 : list (call * R)) tm, map fst (l ++ rest) = until_calls [([None], true)] /\
  do_calls (N := RNum) l solver_timer = (tm, None) /\ map fst l2 = until_calls [([None], true)] /\
  exists tm', do_calls (N := RNum) l2 tm = (tm', Some RuntimeError).
Proof.
  set (all := map (fun o => (o, 0%R)) (until_calls [([None], true)])).
  exists (firstn 3 all), (skipn 3 all), all. eexists.
  split; [rewrite firstn_skipn; reflexivity|]. split; [reflexivity|]. split; [reflexivity|]. eexists. reflexivity.
Qed.
