(** Calls of integrate. *)
From Coq Require Import ZArith List Bool String Reals Lra Lia.
From Verif Require Import Err Num HydroStateM OdeM TimerM SpecTimer TimerP HydroP CallM SpecCall.
Import ListNotations.
Local Open Scope nat_scope.

Section Any.
Context {N : Num}.
Local Notation K := (car N).
Context {U S D : Type} (V : vops N U) (helper : S -> S) (payload : S -> K -> U -> res D) (clock : nat -> K).
Local Notation ses := (@session N U S D).
Local Notation ode := (@OdeM.ode N U S D).
Implicit Types s : ses.

(** times accumulated in SNAPSHOTS between two readings of the clock *)
Inductive accum : nat -> K -> nat -> K -> Prop :=
| accum_none k x : accum k x k x
| accum_more k x k' x' : accum (Datatypes.S (Datatypes.S k)) (nadd x (nsub (clock (Datatypes.S k)) (clock k))) k' x' -> accum k x k' x'.
Lemma accum_trans k x k1 x1 k2 x2 : accum k x k1 x1 -> accum k1 x1 k2 x2 -> accum k x k2 x2.
Proof. induction 1; [auto|]. intro H'. apply accum_more. auto. Qed.

Lemma tick_start c s x : tracked (s_timer s) -> status (s_timer s) c = Some (None, x) ->
  exists tm, tick N clock (Start c) s = (mkses (s_ode s) (s_stepper s) (s_print s) tm (Datatypes.S (s_ticks s)) (s_bar s), Ok tt) /\
    tracked tm /\ forall c', status tm c' = if String.eqb c' c then Some (Some (clock (s_ticks s)), x) else status (s_timer s) c'.
Proof.
  intros T E. destruct (start_idle _ _ (clock (s_ticks s)) _ T E) as (tm & A & B & _ & C).
  exists tm. unfold tick, do_call. rewrite A. auto.
Qed.
Lemma tick_again c s t x : tracked (s_timer s) -> status (s_timer s) c = Some (Some t, x) ->
  tick N clock (Start c) s = (s, Err RuntimeError).
Proof. intros T E. unfold tick, do_call. rewrite (start_running _ _ _ _ _ T E). destruct s. reflexivity. Qed.
Lemma tick_stop c s t x : tracked (s_timer s) -> status (s_timer s) c = Some (Some t, x) ->
  exists tm, tick N clock (Stop c) s = (mkses (s_ode s) (s_stepper s) (s_print s) tm (Datatypes.S (s_ticks s)) (s_bar s), Ok tt) /\
    tracked tm /\ forall c', status tm c' = if String.eqb c' c then Some (None, nadd x (nsub (clock (s_ticks s)) t)) else status (s_timer s) c'.
Proof.
  intros T E. destruct (stop_running _ _ (clock (s_ticks s)) _ _ T E) as (tm & A & B & _ & C).
  exists tm. unfold tick, do_call. rewrite A. auto.
Qed.

Lemma timed_snap_ok s x : tracked (s_timer s) -> status (s_timer s) "SNAPSHOTS" = Some (None, x) ->
  match snapshot N payload (s_ode s) with
  | Ok o => exists tm, timed_snap N payload clock s =
        (mkses o (s_stepper s) (s_print s) tm (Datatypes.S (Datatypes.S (s_ticks s))) (s_bar s), Ok tt) /\ tracked tm /\
        forall c, status tm c = if String.eqb c "SNAPSHOTS" then Some (None, nadd x (nsub (clock (Datatypes.S (s_ticks s))) (clock (s_ticks s))))
                                else status (s_timer s) c
  | Err e => exists tm, timed_snap N payload clock s =
        (mkses (s_ode s) (s_stepper s) (s_print s) tm (Datatypes.S (s_ticks s)) (s_bar s), Err e) /\ tracked tm /\
        forall c, status tm c = if String.eqb c "SNAPSHOTS" then Some (Some (clock (s_ticks s)), x) else status (s_timer s) c
  end.
Proof.
  intros T E. destruct (tick_start _ _ _ T E) as (tm & A & T1 & S1).
  unfold timed_snap, seq. rewrite A. unfold snap, change. cbn [s_ode s_stepper s_print s_timer s_ticks s_bar].
  destruct (snapshot N payload (s_ode s)) as [o|e].
  - destruct (tick_stop "SNAPSHOTS" (mkses o (s_stepper s) (s_print s) tm (Datatypes.S (s_ticks s)) (s_bar s)) (clock (s_ticks s)) x) as (tm2 & A2 & T2 & S2).
    + exact T1.
    + cbn [s_timer]. rewrite S1. reflexivity.
    + exists tm2. rewrite A2. split; [reflexivity|]. split; [exact T2|]. intro c. rewrite S2. cbn [s_timer s_ticks].
      destruct (String.eqb_spec c "SNAPSHOTS"); [reflexivity|]. rewrite S1. destruct (String.eqb_spec c "SNAPSHOTS"); congruence.
  - exists tm. auto.
Qed.

Section Run.
Context (st : @stepper N U S).
Local Notation reach := (reaches V st helper payload).

Lemma reach_trans o o1 o2 : reach o o1 -> reach o1 o2 -> reach o o2.
Proof. induction 1; [auto| |]; intro H'; [eapply reach_step|eapply reach_snap]; eauto. Qed.

(** what the loops leave, for the result [r] of the pure computation *)
Definition left (s s' : ses) (x : K) (r : res ode) : Prop :=
  s_stepper s' = s_stepper s /\ s_print s' = s_print s /\ tracked (s_timer s') /\
  (forall c, c <> "SNAPSHOTS"%string -> status (s_timer s') c = status (s_timer s) c) /\
  reach (s_ode s) (s_ode s') /\
  exists ts, s_bar s' = s_bar s ++ (if s_print s then map Bar_at ts else []) /\
  match r with
  | Ok o => s_ode s' = o /\ o_stamps o = o_stamps (s_ode s) ++ ts /\
      exists x', status (s_timer s') "SNAPSHOTS" = Some (None, x') /\ accum (s_ticks s) x (s_ticks s') x'
  | Err _ => True
  end.
Definition answer {A} (r : res A) : res unit := match r with Ok _ => Ok tt | Err e => Err e end.

Lemma left_err s x e : tracked (s_timer s) -> left s s x (Err e).
Proof.
  intro TR. split; [reflexivity|]. split; [reflexivity|]. split; [exact TR|]. split; [reflexivity|]. split; [constructor|].
  exists []. cbn [map]. split; [destruct (s_print s); rewrite app_nil_r; reflexivity|exact I].
Qed.
Lemma left_ok s x : tracked (s_timer s) -> status (s_timer s) "SNAPSHOTS" = Some (None, x) -> left s s x (Ok (s_ode s)).
Proof.
  intros TR E. split; [reflexivity|]. split; [reflexivity|]. split; [exact TR|]. split; [reflexivity|]. split; [constructor|].
  exists []. cbn [map]. split; [destruct (s_print s); rewrite app_nil_r; reflexivity|].
  split; [reflexivity|]. split; [rewrite app_nil_r; reflexivity|]. exists x. split; [exact E|constructor].
Qed.
Lemma while_left T log fuel : forall s target ds x, s_stepper s = Some st -> tracked (s_timer s) ->
  status (s_timer s) "SNAPSHOTS" = Some (None, x) ->
  exists s', while N V helper payload clock T log fuel target ds s =
      (s', answer (loop N V st helper payload T log fuel (s_ode s) target ds)) /\
    left s s' x (loop N V st helper payload T log fuel (s_ode s) target ds).
Proof.
  induction fuel as [|fuel IH]; intros s target ds x ES TR E; cbn [while loop]; unfold now, seq at 1.
  - exists s. destruct (nltb (o_t (s_ode s)) T); cbn [raise ret answer]; (split; [reflexivity|]); [apply left_err|apply left_ok]; assumption.
  - destruct (nltb (o_t (s_ode s)) T); cbn [raise ret answer].
    2:{ exists s. split; [reflexivity|]. apply left_ok; assumption. }
    unfold step, seq at 1, change. rewrite ES.
    destruct (take_step N V st helper (s_ode s) target) as [o1|e] eqn:EO; cbn [bind answer].
    2:{ exists s. split; [reflexivity|]. apply left_err; assumption. }
    set (b1 := s_bar s ++ if s_print s then [Bar_at (o_t o1)] else []).
    set (s1 := mkses o1 (Some st) (s_print s) (s_timer s) (s_ticks s) b1).
    unfold progress, show, seq at 1. cbn [s_print s_ode s_stepper s_timer s_ticks s_bar].
    match goal with |- context[let (s', r) := ?p in _] => assert (EP : p = (s1, Ok tt)) end.
    { unfold s1, b1. destruct (s_print s); [reflexivity|]. rewrite app_nil_r. reflexivity. }
    rewrite EP. cbv beta iota zeta. clear EP.
    assert (STAMP : o_stamps o1 = o_stamps (s_ode s) ++ [o_t o1]).
    { revert EO. unfold take_step. destruct (st (o_aux (s_ode s)) (o_t (s_ode s)) (o_u (s_ode s)) target) as [[s0 [dt un]]|]; cbn [bind]; [|discriminate].
      destruct (vassign V (o_u (s_ode s)) un); cbn [bind]; [|discriminate]. intro H. injection H as <-. reflexivity. }
    assert (R1 : reach (s_ode s) o1) by (eapply reach_step; [exact EO|constructor]).
    assert (LINK : forall sa x1 s2 r, s_stepper sa = Some st -> s_print sa = s_print s ->
        (forall c, c <> "SNAPSHOTS"%string -> status (s_timer sa) c = status (s_timer s) c) ->
        reach o1 (s_ode sa) -> s_bar sa = b1 -> o_stamps (s_ode sa) = o_stamps o1 -> accum (s_ticks s) x (s_ticks sa) x1 ->
        left sa s2 x1 r -> left s s2 x r).
    { intros sa x1 s2 r P1 P2 P3 P4 P5 P6 P7 (L1 & L2 & L3 & L4 & L5 & ts & L6 & L7).
      split; [congruence|]. split; [congruence|]. split; [exact L3|]. split; [intros; rewrite L4, P3; auto|].
      split; [eapply reach_trans; [exact R1|]; eapply reach_trans; eassumption|].
      exists (o_t o1 :: ts). split.
      { rewrite L6, P5, P2. unfold b1. destruct (s_print s); rewrite <- app_assoc; reflexivity. }
      destruct r as [o|]; [|exact I]. destruct L7 as (M1 & M2 & x' & M3 & M4). split; [exact M1|].
      split; [rewrite M2, P6, STAMP, <- app_assoc; reflexivity|]. exists x'. split; [exact M3|]. eapply accum_trans; eassumption. }
    unfold seq at 1. cbv beta iota zeta. change (s_ode s1) with o1.
    destruct (eq_target N (o_t o1) target || nleb T (o_t o1) || log) eqn:EB.
    + unfold seq at 1. assert (Q := timed_snap_ok s1 x TR E). change (s_ode s1) with o1 in Q.
      destruct (snapshot N payload o1) as [o2|e] eqn:ES2; cbn [bind answer].
      2:{ destruct Q as (tm & -> & Q1 & Q2). eexists. split; [reflexivity|]. cbn [s1 s_stepper s_print s_ticks s_bar s_timer s_ode] in *.
        split; [exact (eq_sym ES)|]. split; [reflexivity|]. split; [exact Q1|].
        split; [intros c C; cbn [s_timer]; rewrite Q2; destruct (String.eqb_spec c "SNAPSHOTS"); [congruence|reflexivity]|].
        split; [exact R1|]. exists [o_t o1]. cbn [map s_bar]. split; [reflexivity|exact I]. }
      destruct Q as (tm & -> & Q1 & Q2). cbn [s1 s_stepper s_print s_ticks s_bar s_timer s_ode] in *.
      set (s2 := mkses o2 (Some st) (s_print s) tm (Datatypes.S (Datatypes.S (s_ticks s))) b1).
      fold s2. unfold seq at 1. cbv beta iota zeta. change (s_ode s2) with o2.
      assert (SF : o_stamps o2 = o_stamps o1 /\ o_t o2 = o_t o1).
      { revert ES2. unfold snapshot. destruct (payload (o_aux o1) (o_t o1) (o_u o1)); cbn [bind]; [|discriminate]. intro H. injection H as <-. auto. }
      set (x1 := nadd x (nsub (clock (Datatypes.S (s_ticks s))) (clock (s_ticks s)))) in *.
      assert (E2 : status (s_timer s2) "SNAPSHOTS" = Some (None, x1)) by (cbn [s_timer s2]; rewrite Q2; reflexivity).
      assert (G : forall tg dd, exists s', while N V helper payload clock T log fuel tg dd s2 =
          (s', answer (loop N V st helper payload T log fuel o2 tg dd)) /\ left s s' x (loop N V st helper payload T log fuel o2 tg dd)).
      { intros tg dd. destruct (IH s2 tg dd x1 eq_refl Q1 E2) as (s' & A & B). exists s'. split; [exact A|].
        apply (LINK s2 x1); try reflexivity; try assumption.
        - intros c C. cbn [s_timer s2]. rewrite Q2. destruct (String.eqb_spec c "SNAPSHOTS"); congruence.
        - eapply reach_snap; [exact ES2|constructor].
        - apply SF.
        - apply accum_more, accum_none. }
      destruct ds as [|d ds]; [apply G|]. destruct (eq_target N (o_t o2) target); apply G.
    + destruct (IH s1 target ds x eq_refl TR E) as (s' & A & B). exists s'. split; [exact A|].
      apply (LINK s1 x); try reflexivity; try assumption; constructor.
Qed.

Lemma steps_left n : forall s, s_stepper s = Some st -> exists s',
  steps N V helper n s = (s', answer (take_n N V st helper n (s_ode s))) /\
  s_stepper s' = s_stepper s /\ s_print s' = s_print s /\ s_timer s' = s_timer s /\ s_ticks s' = s_ticks s /\ s_bar s' = s_bar s /\
  reach (s_ode s) (s_ode s') /\ match take_n N V st helper n (s_ode s) with Ok o => s_ode s' = o | Err _ => True end.
Proof.
  induction n as [|n IH]; intros s ES; cbn [steps take_n].
  - exists s. cbn [ret answer]. repeat split; auto. constructor.
  - unfold step, seq at 1, change. rewrite ES. destruct (take_step N V st helper (s_ode s) None) as [o1|e] eqn:EO; cbn [bind answer].
    2:{ exists s. repeat split; auto. constructor. }
    destruct (IH (mkses o1 (Some st) (s_print s) (s_timer s) (s_ticks s) (s_bar s)) eq_refl) as (s' & A & B1 & B2 & B3 & B4 & B5 & B6 & B7).
    exists s'. cbn [s_ode s_stepper s_print s_timer s_ticks s_bar] in *. split; [exact A|]. repeat split; auto; try congruence.
    eapply reach_step; eassumption.
Qed.

Lemma call_T_done T exact b l log fuel s n : ready st s -> listed b = Some l ->
  exists s', call_integrate N V helper payload clock (Some T) n exact b log fuel s =
      (s', answer (integrate N V st helper payload (Some T) n exact l log fuel (s_ode s))) /\
    reach (s_ode s) (s_ode s') /\ s_print s' = s_print s /\ tracked (s_timer s') /\ s_stepper s' = Some st /\
    match integrate N V st helper payload (Some T) n exact l log fuel (s_ode s) with
    | Ok o => s_ode s' = o /\ (exists ts, o_stamps o = o_stamps (s_ode s) ++ ts /\
        s_bar s' = s_bar s ++ if s_print s then Bar_total T :: map Bar_at ts ++ [Bar_close] else []) /\
        exists x y x' k, status (s_timer s) "SNAPSHOTS" = Some (None, x) /\ status (s_timer s) "TOTAL" = Some (None, y) /\
          accum (Datatypes.S (s_ticks s)) x k x' /\ s_ticks s' = Datatypes.S k /\
          forall c, status (s_timer s') c = if String.eqb c "TOTAL" then Some (None, nadd y (nsub (clock k) (clock (s_ticks s))))
            else if String.eqb c "SNAPSHOTS" then Some (None, x') else status (s_timer s) c
    | Err e => (exists ts, s_bar s' = s_bar s ++ if s_print s then Bar_total T :: map Bar_at ts else []) /\
        (running (s_timer s') "TOTAL" \/ s_ode s' = s_ode s /\ s_timer s' = s_timer s)
    end.
Proof.
  intros (ES & TR & (y & EY) & (x & EX)) L. cbn [call_integrate integrate]. unfold call_T, integrate_T.
  set (b0 := s_bar s ++ if s_print s then [Bar_total T] else []).
  set (s0 := mkses (s_ode s) (Some st) (s_print s) (s_timer s) (s_ticks s) b0).
  unfold seq at 1.
  assert (EP : progress N (fun _ => Bar_total T) s = (s0, Ok tt)).
  { unfold progress, show, s0, b0. rewrite <- ES. destruct (s_print s) eqn:EQ; [reflexivity|]. rewrite app_nil_r. destruct s. cbn in *. subst. reflexivity. }
  rewrite EP. cbv beta iota zeta. clear EP.
  unfold seq at 1.
  match goal with |- context[let (s', r) := ?p in _] => assert (EB : p = (s0, Ok l)) end.
  { destruct b; cbn [listed] in L; try discriminate L; injection L as ->; reflexivity. }
  rewrite EB. cbv beta iota zeta. clear EB.
  set (db := tl (sorted_set N (nofZ 0%Z :: l ++ [T]))).
  assert (BARE : b0 = s_bar s ++ if s_print s then Bar_total T :: map Bar_at [] else []) by reflexivity.
  unfold seq at 1.
  match goal with |- context[let (s', r) := ?p s0 in _] =>
    assert (ED : p s0 = (s0, if exact then match db with [] => Err IndexError | d :: ds => Ok (Some d, ds) end else Ok (None, db))) end.
  { destruct exact; [destruct db|]; reflexivity. }
  rewrite ED. clear ED.
  destruct (if exact then match db with [] => Err IndexError | d :: ds => Ok (Some d, ds) end else Ok (None, db)) as [[tg ds]|e];
    cbn [bind answer].
  2:{ exists s0. split; [reflexivity|]. split; [constructor|]. split; [reflexivity|]. split; [exact TR|]. split; [reflexivity|].
    split; [exists []; exact BARE|]. right. split; reflexivity. }
  cbv beta iota zeta. cbn [fst snd]. unfold seq at 1, snap, change. change (s_ode s0) with (s_ode s).
  destruct (snapshot N payload (s_ode s)) as [o1|e] eqn:ES1; cbn [bind answer].
  2:{ exists s0. split; [reflexivity|]. split; [constructor|]. split; [reflexivity|]. split; [exact TR|]. split; [reflexivity|].
    split; [exists []; exact BARE|]. right. split; reflexivity. }
  cbv beta iota zeta. cbn [s0 s_stepper s_print s_timer s_ticks s_bar].
  set (s1 := mkses o1 (Some st) (s_print s) (s_timer s) (s_ticks s) b0).
  unfold seq at 1. destruct (tick_start "TOTAL" s1 y TR EY) as (tm & -> & TR2 & S2).
  cbv beta iota zeta. cbn [s1 s_ode s_stepper s_print s_timer s_ticks s_bar] in *.
  set (s2 := mkses o1 (Some st) (s_print s) tm (Datatypes.S (s_ticks s)) b0).
  assert (EX2 : status (s_timer s2) "SNAPSHOTS" = Some (None, x)) by (cbn [s2 s_timer]; rewrite S2; exact EX).
  unfold seq at 1. destruct (while_left T log fuel s2 tg ds x eq_refl TR2 EX2) as (s3 & -> & L1 & L2 & L3 & L4 & L5 & ts & L6 & L7).
  change (s_ode s2) with o1 in *. change (s_print s2) with (s_print s) in *. change (s_bar s2) with b0 in *.
  assert (ET : status (s_timer s3) "TOTAL" = Some (Some (clock (s_ticks s)), y)).
  { rewrite L4 by discriminate. cbn [s2 s_timer]. rewrite S2. reflexivity. }
  assert (R3 : reach (s_ode s) (s_ode s3)) by (eapply reach_snap; eassumption).
  assert (ST1 : o_stamps o1 = o_stamps (s_ode s)).
  { revert ES1. unfold snapshot. destruct (payload _ _ _); cbn [bind]; [|discriminate]. intro H. injection H as <-. reflexivity. }
  destruct (loop N V st helper payload T log fuel o1 tg ds) as [o|e]; cbn [answer].
  2:{ exists s3. split; [reflexivity|]. split; [exact R3|]. split; [exact L2|]. split; [exact L3|]. split; [exact L1|].
    split; [exists ts; rewrite L6; unfold b0; destruct (s_print s); rewrite <- app_assoc; reflexivity|].
    left. eexists _, _. exact ET. }
  destruct L7 as (M1 & M2 & x' & M3 & M4).
  unfold seq at 1. destruct (tick_stop "TOTAL" s3 _ _ L3 ET) as (tm4 & -> & TR4 & S4). cbv beta iota zeta.
  unfold progress, show. cbn [s_ode s_stepper s_print s_timer s_ticks s_bar]. rewrite L2. change (s_print s2) with (s_print s).
  exists (mkses (s_ode s3) (Some st) (s_print s) tm4 (Datatypes.S (s_ticks s3)) (s_bar s3 ++ if s_print s then [Bar_close] else [])).
  split; [change (s_stepper s2) with (Some st) in L1; rewrite L1; destruct (s_print s); [reflexivity|rewrite app_nil_r; reflexivity]|].
  cbn [s_ode s_stepper s_print s_timer s_ticks s_bar].
  split; [exact R3|]. split; [reflexivity|]. split; [exact TR4|]. split; [reflexivity|]. split; [exact M1|].
  split; [exists ts; split; [congruence|]|].
  { rewrite L6. unfold b0. destruct (s_print s); rewrite <- !app_assoc; reflexivity. }
  exists x, y, x', (s_ticks s3). split; [exact EX|]. split; [exact EY|]. split; [exact M4|]. split; [reflexivity|].
  intro c. rewrite S4. destruct (String.eqb_spec c "TOTAL") as [|C1]; [reflexivity|].
  destruct (String.eqb_spec c "SNAPSHOTS") as [->|C2]; [exact M3|]. rewrite L4 by exact C2. cbn [s2 s_timer]. rewrite S2.
  destruct (String.eqb_spec c "TOTAL"); [congruence|reflexivity].
Qed.

Lemma call_n_done n exact b log fuel l s : ready st s ->
  exists s', call_integrate N V helper payload clock None n exact b log fuel s =
      (s', answer (integrate N V st helper payload None n exact l log fuel (s_ode s))) /\
    reach (s_ode s) (s_ode s') /\ s_print s' = s_print s /\ tracked (s_timer s') /\ s_stepper s' = Some st /\
    match integrate N V st helper payload None n exact l log fuel (s_ode s) with
    | Ok o => s_ode s' = o /\ (exists k, n = Some k /\ s_bar s' = s_bar s ++ [Bar_range k]) /\
        exists x y, status (s_timer s) "SNAPSHOTS" = Some (None, x) /\ status (s_timer s) "TOTAL" = Some (None, y) /\
          let t k := clock (k + s_ticks s) in
          s_ticks s' = 6 + s_ticks s /\
          forall c, status (s_timer s') c = if String.eqb c "TOTAL" then Some (None, nadd y (nsub (t 3) (t 2)))
            else if String.eqb c "SNAPSHOTS" then Some (None, nadd (nadd x (nsub (t 1) (t 0))) (nsub (t 5) (t 4))) else status (s_timer s) c
    | Err e => (n = None -> snapshot N payload (s_ode s) <> Err e -> e = TypeError /\ running (s_timer s') "TOTAL") /\
        (running (s_timer s') "TOTAL" \/ running (s_timer s') "SNAPSHOTS")
    end.
Proof.
  intros (ES & TR & (y & EY) & (x & EX)).
  assert (EI : integrate N V st helper payload None n exact l log fuel (s_ode s) =
    match n with Some n => integrate_n N V st helper payload n (s_ode s) | None => do _ <- snapshot N payload (s_ode s); Err TypeError end)
    by (destruct n; reflexivity).
  rewrite EI. clear EI. cbn [call_integrate]. unfold call_n, integrate_n.
  unfold seq at 1. assert (Q := timed_snap_ok s x TR EX).
  destruct (snapshot N payload (s_ode s)) as [o1|e] eqn:E1; cbn [bind].
  2:{ destruct Q as (tm & -> & Q1 & Q2). eexists. split; [destruct n; reflexivity|]. cbn [s_ode s_stepper s_print s_timer s_ticks s_bar].
    split; [constructor|]. split; [reflexivity|]. split; [exact Q1|]. split; [exact ES|].
    assert (running tm "SNAPSHOTS") by (eexists _, _; rewrite Q2; reflexivity).
    destruct n; (split; [intros ? X|right; assumption]); [discriminate|congruence]. }
  destruct Q as (tm & -> & TR1 & S1). cbv beta iota zeta.
  set (s1 := mkses o1 (s_stepper s) (s_print s) tm (Datatypes.S (Datatypes.S (s_ticks s))) (s_bar s)).
  unfold seq at 1. destruct (tick_start "TOTAL" s1 y) as (tm2 & -> & TR2 & S2); [exact TR1|cbn [s1 s_timer]; rewrite S1; exact EY|].
  cbv beta iota zeta. cbn [s1 s_ode s_stepper s_print s_timer s_ticks s_bar] in *. rewrite ES.
  set (s2 := mkses o1 (Some st) (s_print s) tm2 (Datatypes.S (Datatypes.S (Datatypes.S (s_ticks s)))) (s_bar s)).
  assert (R1 : reach (s_ode s) o1) by (eapply reach_snap; [exact E1|constructor]).
  assert (ET : status tm2 "TOTAL" = Some (Some (clock (Datatypes.S (Datatypes.S (s_ticks s)))), y)) by (rewrite S2; reflexivity).
  destruct n as [n|].
  2:{ unfold seq at 1. cbn [raise]. exists s2. split; [reflexivity|]. split; [exact R1|]. split; [reflexivity|]. split; [exact TR2|]. split; [reflexivity|].
    cbn [bind]. assert (running tm2 "TOTAL") by (eexists _, _; exact ET). split; [split; [reflexivity|assumption]|left; assumption]. }
  unfold seq at 1. unfold seq at 1. cbn [show]. unfold show. cbn [s2 s_ode s_stepper s_print s_timer s_ticks s_bar].
  destruct (steps_left (Z.to_nat n) (mkses o1 (Some st) (s_print s) tm2 (Datatypes.S (Datatypes.S (Datatypes.S (s_ticks s)))) (s_bar s ++ [Bar_range n])) eq_refl)
    as (s3 & -> & B1 & B2 & B3 & B4 & B5 & B6 & B7).
  cbn [s_ode s_stepper s_print s_timer s_ticks s_bar] in *.
  assert (R3 : reach (s_ode s) (s_ode s3)) by (eapply reach_trans; eassumption).
  destruct (take_n N V st helper (Z.to_nat n) o1) as [o3|e]; cbn [bind answer].
  2:{ exists s3. split; [reflexivity|]. split; [exact R3|]. split; [exact B2|]. split; [rewrite B3; exact TR2|]. split; [exact B1|].
    split; [discriminate|]. left. rewrite B3. eexists _, _. exact ET. }
  unfold seq at 1. destruct (tick_stop "TOTAL" s3 (clock (Datatypes.S (Datatypes.S (s_ticks s)))) y) as (tm4 & -> & TR4 & S4); [rewrite B3; exact TR2|rewrite B3; exact ET|].
  cbv beta iota zeta. rewrite B3 in S4.
  match goal with |- context[timed_snap N payload clock ?q] => set (s4 := q) end.
  assert (EX4 : status tm4 "SNAPSHOTS" = Some (None, nadd x (nsub (clock (Datatypes.S (s_ticks s))) (clock (s_ticks s))))).
  { rewrite S4. cbn. rewrite S2. cbn. rewrite S1. reflexivity. }
  assert (Q := timed_snap_ok s4 _ TR4 EX4). change (s_ode s4) with (s_ode s3) in Q. rewrite <- B7.
  destruct (snapshot N payload (s_ode s3)) as [o5|e] eqn:E5; cbn [answer].
  2:{ destruct Q as (tm5 & -> & Q1 & Q2). eexists. split; [reflexivity|]. cbn [s_ode s_stepper s_print s_timer s_ticks s_bar].
    split; [exact R3|]. split; [exact B2|]. split; [exact Q1|]. split; [exact B1|].
    split; [discriminate|]. right. eexists _, _. rewrite Q2. reflexivity. }
  destruct Q as (tm5 & -> & TR5 & S5). eexists. split; [reflexivity|]. cbn [s_ode s_stepper s_print s_timer s_ticks s_bar s4].
  split; [eapply reach_trans; [exact R3|]; eapply reach_snap; [exact E5|constructor]|]. split; [exact B2|]. split; [exact TR5|]. split; [exact B1|].
  split; [reflexivity|]. split; [exists n; split; [reflexivity|exact B5]|].
  exists x, y. split; [exact EX|]. split; [exact EY|]. rewrite B4. split; [reflexivity|].
  intro c. rewrite S5. cbn [s_ticks s_timer s4]. rewrite B4. destruct (String.eqb_spec c "SNAPSHOTS") as [->|C1]; [reflexivity|].
  rewrite S4, B4. destruct (String.eqb_spec c "TOTAL") as [->|C2]; [reflexivity|].
  rewrite S2. destruct (String.eqb_spec c "TOTAL"); [congruence|]. rewrite S1. destruct (String.eqb_spec c "SNAPSHOTS"); [congruence|reflexivity].
Qed.
End Run.

Lemma bad_beats T exact log fuel n s : s_print s = false ->
  call_integrate N V helper payload clock (Some T) n exact Beats_other log fuel s = (s, Err TypeError).
Proof. intro P. cbn [call_integrate]. unfold call_T, seq, progress. rewrite P. reflexivity. Qed.
Lemma bad_beats_bar T exact log fuel n s :
  call_integrate N V helper payload clock (Some T) n exact Beats_other log fuel s =
  (mkses (s_ode s) (s_stepper s) (s_print s) (s_timer s) (s_ticks s) (s_bar s ++ if s_print s then [Bar_total T] else []), Err TypeError).
Proof.
  cbn [call_integrate]. unfold call_T, seq, progress, show. destruct (s_print s) eqn:P; [reflexivity|].
  rewrite app_nil_r. destruct s. cbn in *. subst. reflexivity.
Qed.

(** a running TOTAL *)
Lemma stuck T n exact b log fuel s : tracked (s_timer s) -> running (s_timer s) "TOTAL" ->
  exists s' e, call_integrate N V helper payload clock T n exact b log fuel s = (s', Err e) /\
    no_step (s_ode s) (s_ode s') /\ tracked (s_timer s') /\ running (s_timer s') "TOTAL" /\
    (idle (s_timer s) "SNAPSHOTS" -> (exists o, snapshot N payload (s_ode s) = Ok o) -> listed b <> None \/ T = None -> exact = false \/ T = None -> e = RuntimeError).
Proof.
  intros TR (t0 & y & ET).
  assert (SN : forall o o1 : ode, snapshot N payload o = Ok o1 -> no_step o o1).
  { intros o o1. unfold snapshot. destruct (payload _ _ _); cbn [bind]; [|discriminate]. intro H. injection H as <-. repeat split. }
  destruct T as [T|]; cbn [call_integrate].
  - unfold call_T.
    set (s0 := mkses (s_ode s) (s_stepper s) (s_print s) (s_timer s) (s_ticks s) (s_bar s ++ if s_print s then [Bar_total T] else [])).
    unfold seq at 1. assert (EP : progress N (fun _ => Bar_total T) s = (s0, Ok tt)).
    { unfold progress, show, s0. destruct (s_print s) eqn:EQ; [reflexivity|]. rewrite app_nil_r. destruct s. cbn in *. subst. reflexivity. }
    rewrite EP. cbv beta iota zeta. clear EP. unfold seq at 1.
    match goal with |- context[let (s', r) := ?p in _] => assert (EB : p = (s0, match listed b with Some l => Ok l | None => Err TypeError end)) by (destruct b; reflexivity) end.
    rewrite EB. clear EB. destruct (listed b) as [l|]; cbv beta iota zeta.
    2:{ exists s0, TypeError. split; [reflexivity|]. split; [repeat split|]. split; [exact TR|]. split; [exists t0, y; exact ET|].
      intros _ _ [H|H]; [congruence|discriminate]. }
    set (db := tl (sorted_set N (nofZ 0%Z :: l ++ [T]))). unfold seq at 1.
    match goal with |- context[let (s', r) := ?p s0 in _] =>
      assert (ED : p s0 = (s0, if exact then match db with [] => Err IndexError | d :: ds => Ok (Some d, ds) end else Ok (None, db))) end.
    { destruct exact; [destruct db|]; reflexivity. }
    rewrite ED. clear ED.
    destruct (if exact then match db with [] => Err IndexError | d :: ds => Ok (Some d, ds) end else Ok (None, db)) as [[tg ds]|e] eqn:EX.
    2:{ exists s0, e. split; [reflexivity|]. split; [repeat split|]. split; [exact TR|]. split; [exists t0, y; exact ET|].
      intros _ _ _ [H|H]; [subst exact; discriminate EX|discriminate]. }
    cbv beta iota zeta. unfold seq at 1, snap, change. change (s_ode s0) with (s_ode s).
    destruct (snapshot N payload (s_ode s)) as [o1|e] eqn:E1.
    2:{ exists s0, e. split; [reflexivity|]. split; [repeat split|]. split; [exact TR|]. split; [exists t0, y; exact ET|].
      intros _ (o & X). congruence. }
    cbv beta iota zeta. unfold seq at 1.
    match goal with |- context[tick N clock (Start "TOTAL") ?q] => set (s1 := q); rewrite (tick_again "TOTAL" s1 t0 y TR ET) end.
    exists s1, RuntimeError. split; [reflexivity|]. split; [exact (SN _ _ E1)|]. split; [exact TR|]. split; [exists t0, y; exact ET|reflexivity].
  - unfold call_n, seq at 1.
    destruct (status (s_timer s) "SNAPSHOTS") as [[[t1|] x]|] eqn:EX.
    + unfold timed_snap, seq at 1. rewrite (tick_again _ _ _ _ TR EX). exists s, RuntimeError. split; [reflexivity|]. split; [repeat split|].
      split; [exact TR|]. split; [exists t0, y; exact ET|]. reflexivity.
    + assert (Q := timed_snap_ok s x TR EX). destruct (snapshot N payload (s_ode s)) as [o1|e] eqn:E1.
      * destruct Q as (tm & -> & Q1 & Q2). cbv beta iota zeta.
        assert (ET1 : status tm "TOTAL" = Some (Some t0, y)) by (rewrite Q2; exact ET).
        unfold seq at 1. match goal with |- context[tick N clock (Start "TOTAL") ?q] => set (s1 := q); rewrite (tick_again "TOTAL" s1 t0 y Q1 ET1) end.
        exists s1, RuntimeError. split; [reflexivity|]. split; [exact (SN _ _ E1)|]. split; [exact Q1|]. split; [exists t0, y; exact ET1|reflexivity].
      * destruct Q as (tm & -> & Q1 & Q2). eexists _, e. split; [reflexivity|]. cbn [s_ode s_timer]. split; [repeat split|]. split; [exact Q1|].
        split; [exists t0, y; rewrite Q2; exact ET|]. intros _ (o & X). congruence.
    + unfold timed_snap, seq at 1, tick, do_call. rewrite (start_unknown _ _ _ TR EX). cbv beta iota zeta. eexists _, ValueError. split; [reflexivity|].
      cbn [s_ode s_timer]. split; [repeat split|]. split; [exact TR|]. split; [exists t0, y; exact ET|].
      intros (z & X). congruence.
Qed.
End Any.

Lemma accum_le (clock : nat -> R) k x k' x' : (forall j, (clock j <= clock (S j))%R) ->
  accum (N := RNum) clock k x k' x' -> (k <= k')%nat /\ (x <= x' /\ x' - x <= clock k' - clock k)%R.
Proof.
  intros M H. induction H as [|k x k' x' H IH]; [split; [lia|split; lra]|].
  destruct IH as (A & B & C). cbn in B, C. assert (M1 := M k). assert (M2 := M (S k)). split; [lia|].
  rn. lra.
Qed.

Section Statements.
Context {N : Num} {U S D : Type} (V : vops N U) (helper : S -> S) (payload : S -> car N -> U -> res D) (clock : nat -> car N).
Local Notation ses := (@session N U S D).

Lemma result st (s : ses) T n exact b l log fuel : ready st s -> listed b = Some l -> exists s',
  match integrate N V st helper payload T n exact l log fuel (s_ode s) with
  | Ok o => call_integrate N V helper payload clock T n exact b log fuel s = (s', Ok tt) /\ s_ode s' = o /\ ready st s'
  | Err e => call_integrate N V helper payload clock T n exact b log fuel s = (s', Err e) /\ s_stepper s' = Some st /\ tracked (s_timer s')
  end.
Proof.
  intros RD L. destruct T as [T|].
  - destruct (call_T_done V helper payload clock st T exact b l log fuel s n RD L) as (s' & A & _ & _ & TR & ST & B). exists s'.
    destruct (integrate N V st helper payload (Some T) n exact l log fuel (s_ode s)) as [o|e]; [|auto].
    split; [exact A|]. destruct B as (B1 & _ & x & y & x' & k & _ & _ & _ & _ & Q). split; [exact B1|].
    split; [exact ST|]. split; [exact TR|]. split; eexists; rewrite Q; reflexivity.
  - destruct (call_n_done V helper payload clock st n exact b log fuel l s RD) as (s' & A & _ & _ & TR & ST & B). exists s'.
    destruct (integrate N V st helper payload None n exact l log fuel (s_ode s)) as [o|e]; [|auto].
    split; [exact A|]. destruct B as (B1 & _ & x & y & _ & _ & _ & Q). split; [exact B1|].
    split; [exact ST|]. split; [exact TR|]. split; eexists; rewrite Q; reflexivity.
Qed.
Lemma whole_steps st (s s' : ses) T n exact b log fuel r : ready st s ->
  call_integrate N V helper payload clock T n exact b log fuel s = (s', r) -> reaches V st helper payload (s_ode s) (s_ode s').
Proof.
  intros RD E. destruct T as [T|].
  - destruct (listed b) as [l|] eqn:L.
    + destruct (call_T_done V helper payload clock st T exact b l log fuel s n RD L) as (s1 & A & R & _). rewrite A in E. injection E as <- _. exact R.
    + destruct b; try discriminate L. rewrite bad_beats_bar in E. injection E as <- _. constructor.
  - destruct (call_n_done V helper payload clock st n exact b log fuel [] s RD) as (s1 & A & R & _). rewrite A in E. injection E as <- _. exact R.
Qed.
Lemma no_retry st (s s' : ses) T n exact b log fuel e : ready st s ->
  call_integrate N V helper payload clock (Some T) n exact b log fuel s = (s', Err e) -> s_ode s' <> s_ode s ->
  forall st' T' n' exact' b' log' fuel', exists s'' e',
    call_with N V helper payload clock st' T' n' exact' b' log' fuel' s' = (s'', Err e') /\ no_step (s_ode s') (s_ode s'').
Proof.
  intros RD E NE st' T' n' exact' b' log' fuel'.
  assert (Q : tracked (s_timer s') /\ running (s_timer s') "TOTAL").
  { destruct (listed b) as [l|] eqn:L.
    - destruct (call_T_done V helper payload clock st T exact b l log fuel s n RD L) as (s1 & A & R & _ & TR & _ & B). rewrite A in E. apply pair_equal_spec in E as [<- E].
      revert E B. destruct (integrate N V st helper payload (Some T) n exact l log fuel (s_ode s)); intros E B; [discriminate E|].
      destruct B as (_ & [B|(B & _)]); [auto|contradiction].
    - destruct b; try discriminate L. rewrite bad_beats_bar in E. injection E as <- _. contradiction. }
  destruct Q as (TR & RU).
  destruct (stuck V helper payload clock T' n' exact' b' log' fuel' (mkses (s_ode s') (Some st') (s_print s') (s_timer s') (s_ticks s') (s_bar s')) TR RU)
    as (s'' & e' & A & B & _). exists s'', e'. auto.
Qed.
Lemma bar_T st (s s' : ses) T n exact b log fuel r : ready st s ->
  call_integrate N V helper payload clock (Some T) n exact b log fuel s = (s', r) ->
  (s_print s = false -> s_bar s' = s_bar s) /\
  (s_print s = true -> exists ts, s_bar s' = s_bar s ++ Bar_total T :: map Bar_at ts ++ match r with Ok _ => [Bar_close] | Err _ => [] end /\
     (r = Ok tt -> o_stamps (s_ode s') = o_stamps (s_ode s) ++ ts)).
Proof.
  intros RD E. destruct (listed b) as [l|] eqn:L.
  - destruct (call_T_done V helper payload clock st T exact b l log fuel s n RD L) as (s1 & A & _ & _ & _ & _ & B). rewrite A in E. apply pair_equal_spec in E as [<- <-].
    destruct (integrate N V st helper payload (Some T) n exact l log fuel (s_ode s)) as [o|e]; cbn [answer].
    + destruct B as (B1 & (ts & B2 & B3) & _). split; intro P; rewrite P in B3; [rewrite B3, app_nil_r; reflexivity|].
      exists ts. split; [exact B3|]. intros _. rewrite B1. exact B2.
    + destruct B as ((ts & B) & _). split; intro P; rewrite P in B; [rewrite B, app_nil_r; reflexivity|].
      exists ts. rewrite app_nil_r. split; [exact B|discriminate].
  - destruct b; try discriminate L. rewrite bad_beats_bar in E. injection E as <- <-. cbn [s_bar].
    split; intros ->; [apply app_nil_r|]. exists []. split; [reflexivity|discriminate].
Qed.
Lemma bar_n st (s s' : ses) n exact b log fuel : ready st s ->
  call_integrate N V helper payload clock None (Some n) exact b log fuel s = (s', Ok tt) -> s_bar s' = s_bar s ++ [Bar_range n].
Proof.
  intros RD E. destruct (call_n_done V helper payload clock st (Some n) exact b log fuel [] s RD) as (s1 & A & _ & _ & _ & _ & B).
  rewrite A in E. apply pair_equal_spec in E as [<- E]. revert E B. destruct (integrate N V st helper payload None (Some n) exact [] log fuel (s_ode s)) as [o|e]; intros E B; [|discriminate E].
  destruct B as (_ & (k & X & B) & _). injection X as <-. exact B.
Qed.
Lemma neither st (s : ses) exact b log fuel o : ready st s -> snapshot N payload (s_ode s) = Ok o ->
  exists s', call_integrate N V helper payload clock None None exact b log fuel s = (s', Err TypeError) /\ running (s_timer s') "TOTAL".
Proof.
  intros RD E. destruct (call_n_done V helper payload clock st None exact b log fuel [] s RD) as (s1 & A & _ & _ & _ & _ & B).
  cbn [integrate] in A, B. rewrite E in A, B. cbn [bind answer] in A, B. exists s1. split; [exact A|]. apply B; [reflexivity|congruence].
Qed.
Lemma no_integrator (s : ses) T o fuel : s_stepper s = None -> tracked (s_timer s) -> idle (s_timer s) "TOTAL" ->
  snapshot N payload (s_ode s) = Ok o -> nltb (o_t (s_ode s)) T = true ->
  exists s', call_integrate N V helper payload clock (Some T) None false Beats_none false (Datatypes.S fuel) s = (s', Err AttributeError) /\
    running (s_timer s') "TOTAL".
Proof.
  intros ES TR (y & EY) E LT.
  assert (OT : o_t o = o_t (s_ode s)).
  { revert E. unfold snapshot. destruct (payload _ _ _); cbn [bind]; [|discriminate]. intro H. injection H as <-. reflexivity. }
  cbn [call_integrate]. unfold call_T. unfold seq at 1.
  set (s0 := mkses (s_ode s) None (s_print s) (s_timer s) (s_ticks s) (s_bar s ++ if s_print s then [Bar_total T] else [])).
  assert (EP : progress N (fun _ => Bar_total T) s = (s0, Ok tt)).
  { unfold progress, show, s0. rewrite <- ES. destruct (s_print s) eqn:EQ; [reflexivity|]. rewrite app_nil_r. destruct s. cbn in *. subst. reflexivity. }
  rewrite EP. unfold seq, ret, snap, change. cbv beta iota zeta. change (s_ode s0) with (s_ode s). rewrite E.
  cbn [fst snd s0 s_stepper s_print s_timer s_ticks s_bar].
  match goal with |- context[tick N clock (Start "TOTAL") ?q] => set (s1 := q) end.
  destruct (tick_start clock "TOTAL" s1 y TR EY) as (tm & -> & TR1 & S1).
  cbn [s1 s_ode s_stepper s_print s_timer s_ticks s_bar] in *.
  cbn [while]. unfold seq, now, step. cbn [s_ode s_stepper]. rewrite OT, LT.
  eexists. split; [reflexivity|]. cbn [s_timer]. eexists _, _. rewrite S1. reflexivity.
Qed.
End Statements.

Lemma times_T {U S D} (V : vops RNum U) helper (payload : S -> R -> U -> res D) (clock : nat -> R) st (s s' : @session RNum U S D) T n exact b log fuel x y x' y' :
  ready st s -> call_integrate RNum V helper payload clock (Some T) n exact b log fuel s = (s', Ok tt) -> (forall k, (clock k <= clock (Datatypes.S k))%R) ->
  spent (s_timer s) "TOTAL" = Some x -> spent (s_timer s') "TOTAL" = Some x' ->
  spent (s_timer s) "SNAPSHOTS" = Some y -> spent (s_timer s') "SNAPSHOTS" = Some y' -> (0 <= y' - y <= x' - x)%R.
Proof.
  intros RD E M X X' Y Y'. destruct (listed b) as [l|] eqn:L.
  2:{ destruct b; try discriminate L. rewrite bad_beats_bar in E. discriminate. }
  destruct (call_T_done V helper payload clock st T exact b l log fuel s n RD L) as (s1 & A & _ & _ & _ & _ & B). rewrite A in E. apply pair_equal_spec in E as [-> E].
  revert E B. destruct (integrate RNum V st helper payload (Some T) n exact l log fuel (s_ode s)) as [o|e]; intros E B; [|discriminate E].
  destruct B as (_ & _ & a & c & a' & k & B1 & B2 & B3 & _ & B5).
  unfold spent in *. rewrite B5 in X', Y'. rewrite B1 in Y. rewrite B2 in X. cbn in X, X', Y, Y'.
  injection X as ->. injection X' as <-. injection Y as ->. injection Y' as <-.
  destruct (accum_le clock _ _ _ _ M B3) as (_ & P & Q). assert (M0 := M (s_ticks s)).
  match goal with |- context[Rminus ?z x] => change z with (x + (clock k - clock (s_ticks s)))%R end. lra.
Qed.
