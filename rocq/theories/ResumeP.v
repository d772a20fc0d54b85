(** Proofs about several calls of integrate on one object. *)
From Coq Require Import ZArith QArith List Bool Lia Reals Lra Sorted.
From Verif Require Import Err Num HydroP OdeM SpecOde LoopP OdeT SpecResume.
Import ListNotations.
Local Open Scope R_scope.

Section Generic.
Context {N : Num} {U S D : Type} (V : vops N U) (step : stepper N (U := U) (S := S)) (helper : S -> S)
  (payload : S -> car N -> U -> res D).
Local Notation ode := (@ode N U S D).
Local Notation take_step := (take_step N V step helper).
Local Notation snapshot := (snapshot N payload).
Local Notation loop := (loop N V step helper payload).
Local Notation integrate := (integrate N V step helper payload).
Implicit Types (o : ode).
Definition with_snaps (l : list (car N * D)) (o : ode) : ode := mkode (o_t o) (o_u o) (o_stamps o) (o_steps o) l (o_aux o).
Lemma with_t l o : o_t (with_snaps l o) = o_t o.
Proof. reflexivity. Qed.
Lemma with_snaps_are l o : o_snaps (with_snaps l o) = l.
Proof. reflexivity. Qed.
Lemma with_same l o : same_state o (with_snaps l o).
Proof. repeat split. Qed.
Lemma with_with k l o : with_snaps k (with_snaps l o) = with_snaps k o.
Proof. reflexivity. Qed.
Lemma with_own o : with_snaps (o_snaps o) o = o.
Proof. destruct o; reflexivity. Qed.
Lemma same_trans (a b c : ode) : same_state a b -> same_state b c -> same_state a c.
Proof. intros (A1 & A2 & A3 & A4 & A5) (B1 & B2 & B3 & B4 & B5). repeat split; congruence. Qed.

Lemma step_snaps o tg o1 : take_step o tg = Ok o1 -> o_snaps o1 = o_snaps o /\ forall l, take_step (with_snaps l o) tg = Ok (with_snaps l o1).
Proof.
  unfold OdeM.take_step. cbn [with_snaps o_t o_u o_stamps o_steps o_snaps o_aux].
  destruct (step (o_aux o) (o_t o) (o_u o) tg) as [[s [dt un]]|]; cbn [bind]; [|discriminate].
  destruct (vassign V (o_u o) un); cbn [bind]; [|discriminate]. intros [= <-]. split; reflexivity.
Qed.
(** a snapshot has just been taken *)
Definition fresh_shot (x : car N * D) o : Prop := fst x = o_t o /\ payload (o_aux o) (o_t o) (o_u o) = Ok (snd x).
Lemma shot_is o o1 : snapshot o = Ok o1 -> exists x, o1 = with_snaps (o_snaps o ++ [x]) o /\ fresh_shot x o1.
Proof.
  unfold OdeM.snapshot. destruct (payload (o_aux o) (o_t o) (o_u o)) as [d|] eqn:E; cbn [bind]; [|discriminate].
  intros [= <-]. exists (o_t o, d). split; [reflexivity|]. split; [reflexivity|exact E].
Qed.
Lemma shot_again x o : fresh_shot x o -> snapshot o = Ok (with_snaps (o_snaps o ++ [x]) o).
Proof. intros [E P]. unfold OdeM.snapshot. rewrite P. cbn [bind]. destruct x as [y d]. cbn in E. subst y. reflexivity. Qed.
Lemma shot_with x o l : fresh_shot x o -> fresh_shot x (with_snaps l o).
Proof. exact (fun H => H). Qed.
Lemma loop_snaps T lg fuel : forall o tg db o', loop T lg fuel o tg db = Ok o' ->
  exists l, o_snaps o' = o_snaps o ++ l /\ forall k, loop T lg fuel (with_snaps k o) tg db = Ok (with_snaps (k ++ l) o').
Proof.
  induction fuel as [|fuel IH]; intros o tg db o'; cbn [OdeM.loop].
  - destruct (nltb (o_t o) T) eqn:E; [discriminate|]. intros [= <-]. exists []. split; [symmetry; apply app_nil_r|]. intro k. rewrite app_nil_r, with_t, E. reflexivity.
  - destruct (nltb (o_t o) T) eqn:E.
    2:{ intros [= <-]. exists []. split; [symmetry; apply app_nil_r|]. intro k. rewrite app_nil_r, with_t, E. reflexivity. }
    destruct (take_step o tg) as [o1|] eqn:F; [cbn [bind]|discriminate]. destruct (step_snaps _ _ _ F) as [G1 G2].
    destruct (eq_target N (o_t o1) tg || nleb T (o_t o1) || lg) eqn:C.
    + destruct (snapshot o1) as [o2|] eqn:H; [cbn [bind]|discriminate]. destruct (shot_is _ _ H) as (x & -> & FS).
      assert (Y : forall tg' db', loop T lg fuel (with_snaps (o_snaps o1 ++ [x]) o1) tg' db' = Ok o' ->
         exists l, o_snaps o' = o_snaps o ++ l /\ forall k, loop T lg fuel (with_snaps ((k ++ [x])) o1) tg' db' = Ok (with_snaps (k ++ l) o')).
      { intros tg' db' L. destruct (IH _ _ _ _ L) as (l & L1 & L2). exists (x :: l). rewrite with_snaps_are in L1. split; [rewrite L1, <- app_assoc, G1; reflexivity|].
        intro k. specialize (L2 (k ++ [x])). rewrite <- app_assoc in L2. exact L2. }
      rewrite !with_t.
      assert (Z : forall k, snapshot (with_snaps k o1) = Ok (with_snaps (k ++ [x]) o1)) by (intro k; exact (shot_again x (with_snaps k o1) FS)).
      intro L. cut (exists l, o_snaps o' = o_snaps o ++ l /\ forall k,
        match db with
        | [] => loop T lg fuel (with_snaps (k ++ [x]) o1) tg []
        | d :: ds => if eq_target N (o_t o1) tg then loop T lg fuel (with_snaps (k ++ [x]) o1) (Some d) ds else loop T lg fuel (with_snaps (k ++ [x]) o1) tg db
        end = Ok (with_snaps (k ++ l) o')).
      { intros (l & L1 & L2). exists l. split; [exact L1|]. intro k. rewrite with_t, E, G2. cbn [bind]. rewrite with_t, C, Z. cbn [bind]. rewrite with_t. apply L2. }
      destruct db as [|d ds]; [exact (Y _ _ L)|]. destruct (eq_target N (o_t o1) tg); exact (Y _ _ L).
    + intro L. destruct (IH _ _ _ _ L) as (l & L1 & L2). exists l. split; [rewrite L1, G1; reflexivity|].
      intro k. rewrite with_t, E, G2. cbn [bind]. rewrite with_t, C. apply L2.
Qed.
Lemma loop_fuel T lg fuel : forall o tg db o' k, loop T lg fuel o tg db = Ok o' -> loop T lg (fuel + k) o tg db = Ok o'.
Proof.
  induction fuel as [|fuel IH]; intros o tg db o' k.
  - cbn [OdeM.loop plus]. destruct (nltb (o_t o) T) eqn:E; [discriminate|]. intro H. destruct k; cbn [OdeM.loop]; rewrite E; exact H.
  - cbn [OdeM.loop plus]. destruct (nltb (o_t o) T) eqn:E; [|auto].
    destruct (take_step o tg) as [o1|]; [cbn [bind]|discriminate].
    destruct (_ || _ || _); [|apply IH]. destruct (snapshot o1) as [o2|]; [cbn [bind]|discriminate].
    destruct db as [|d ds]; [apply IH|]. destruct (eq_target N (o_t o2) tg); apply IH.
Qed.

(** ** steps *)
Lemma take_n_snaps n : forall o o', take_n N V step helper n o = Ok o' -> o_snaps o' = o_snaps o /\ forall l, take_n N V step helper n (with_snaps l o) = Ok (with_snaps l o').
Proof.
  induction n as [|n IH]; intros o o'; cbn [take_n]; [intros [= <-]; split; reflexivity|].
  destruct (take_step o None) as [o1|] eqn:E; [cbn [bind]|discriminate]. destruct (step_snaps _ _ _ E) as [G1 G2]. intro H. destruct (IH _ _ H) as [A B].
  split; [congruence|]. intro l. rewrite G2. cbn [bind]. apply B.
Qed.
Lemma take_n_add n m : forall o, take_n N V step helper (n + m) o = bind (take_n N V step helper n o) (take_n N V step helper m).
Proof.
  induction n as [|n IH]; intro o; cbn [take_n plus bind]; [reflexivity|]. destruct (take_step o None) as [o1|]; cbn [bind]; [apply IH|reflexivity].
Qed.
Lemma steps_resume a b ex1 ex2 ex3 db1 db2 db3 lg1 lg2 lg3 f1 f2 f3 o o1 o2 : (0 <= a)%Z -> (0 <= b)%Z ->
  integrate None (Some a) ex1 db1 lg1 f1 o = Ok o1 -> integrate None (Some b) ex2 db2 lg2 f2 o1 = Ok o2 ->
  exists o' x y z, integrate None (Some (a + b)%Z) ex3 db3 lg3 f3 o = Ok o' /\ same_state o2 o' /\
    o_snaps o2 = o_snaps o ++ [x; y; y; z] /\ o_snaps o' = o_snaps o ++ [x; z].
Proof.
  intros PA PB. cbn [OdeM.integrate]. unfold integrate_n.
  destruct (snapshot o) as [p|] eqn:E0; [cbn [bind]|discriminate]. destruct (shot_is _ _ E0) as (x & -> & _).
  destruct (take_n N V step helper (Z.to_nat a) (with_snaps (o_snaps o ++ [x]) o)) as [p1|] eqn:E1; [cbn [bind]|discriminate].
  destruct (take_n_snaps _ _ _ E1) as [A1 _]. rewrite with_snaps_are in A1.
  intro E2. destruct (shot_is _ _ E2) as (y & -> & FY).
  rewrite (shot_again y _ FY). cbn [bind]. rewrite with_snaps_are.
  destruct (take_n N V step helper (Z.to_nat b) _) as [p2|] eqn:E3; [cbn [bind]|discriminate].
  destruct (take_n_snaps _ _ _ E3) as [A2 B2]. rewrite with_snaps_are in A2. intro E4. destruct (shot_is _ _ E4) as (z & -> & FZ).
  rewrite Z2Nat.inj_add, take_n_add, E1 by assumption. cbn [bind]. specialize (B2 (o_snaps o ++ [x])).
  replace (take_n N V step helper (Z.to_nat b) p1) with (Ok (with_snaps (o_snaps o ++ [x]) p2)).
  2:{ rewrite <- B2. f_equal. rewrite <- A1. exact (with_own p1). }
  cbn [bind]. exists (with_snaps ((o_snaps o ++ [x]) ++ [z]) p2), x, y, z. rewrite (shot_again z (with_snaps (o_snaps o ++ [x]) p2) FZ). split; [reflexivity|]. split; [repeat split|]. rewrite !with_snaps_are.
  rewrite A2, A1, <- !app_assoc. split; reflexivity.
Qed.
Lemma integrate_fuel T n ex db lg fuel k o o' : integrate T n ex db lg fuel o = Ok o' -> integrate T n ex db lg (fuel + k) o = Ok o'.
Proof.
  destruct T as [T|]; [|exact (fun H => H)]. cbn [OdeM.integrate]. unfold integrate_T. destruct (if ex then _ else _) as [td|]; [cbn [bind]|discriminate].
  destruct (snapshot o) as [o1|]; [cbn [bind]|discriminate]. apply loop_fuel.
Qed.
Lemma integrate_det T n ex db lg f1 f2 o o1 o2 : integrate T n ex db lg f1 o = Ok o1 -> integrate T n ex db lg f2 o = Ok o2 -> o1 = o2.
Proof.
  intros H1 H2. apply (integrate_fuel _ _ _ _ _ _ f2) in H1. apply (integrate_fuel _ _ _ _ _ _ f1) in H2. rewrite PeanoNat.Nat.add_comm in H2. congruence.
Qed.
End Generic.

(** ** times *)
Section Times.
Context {U S D : Type} (V : vops RNum U) (helper : S -> S) (payload : S -> R -> U -> res D).
Local Notation ode := (@ode RNum U S D).
Implicit Types (o : ode) (step : stepper RNum (U := U) (S := S)).
Local Notation loop step := (loop RNum V step helper payload).
Local Notation integrate step := (integrate RNum V step helper payload).
Lemma ltb_true (x y : R) : nltb (n := RNum) x y = true <-> x < y.
Proof. exact (Rltb_true x y). Qed.
Lemma ltb_false (x y : R) : nltb (n := RNum) x y = false <-> y <= x.
Proof. exact (Rltb_false x y). Qed.
Lemma leb_true (x y : R) : nleb (n := RNum) x y = true <-> x <= y.
Proof. exact (Rleb_true x y). Qed.
Lemma leb_false (x y : R) : nleb (n := RNum) x y = false <-> y < x.
Proof. exact (Rleb_false x y). Qed.
Lemma eqb_true (x y : R) : neqb (n := RNum) x y = true <-> x = y.
Proof. exact (Reqb_true x y). Qed.

Lemma loop_none_db step T lg f : forall o db db', loop step T lg f o None db = loop step T lg f o None db'.
Proof.
  induction f as [|f IH]; intros o db db'; cbn [OdeM.loop eq_target]; destruct (nltb (n := RNum) (o_t o) T); try reflexivity.
  destruct (take_step RNum V step helper o None) as [o1|]; [cbn [bind orb]|reflexivity].
  destruct (nleb (n := RNum) T (o_t o1) || lg); [|apply IH]. destruct (snapshot RNum payload o1) as [o2|]; [cbn [bind]|reflexivity].
  destruct db, db'; apply IH.
Qed.
(** without targets *)
Lemma loop_none step T1 T2 lg : T1 <= T2 -> forall f1 db1 db3 o o1, o_t o < T1 ->
  loop step T1 lg f1 o None db1 = Ok o1 ->
  exists A x, o_snaps o1 = A ++ [x] /\ fresh_shot (N := RNum) payload x o1 /\ (exists l, A = o_snaps o ++ l) /\
  forall f2 db2 o2, loop step T2 lg f2 (with_snaps (A ++ repeat x (if lg || nleb (n := RNum) T2 (o_t o1) then 1 else 0)) o1) None db2 = Ok o2 ->
    loop step T2 lg (f1 + f2) o None db3 = Ok o2.
Proof.
  intros LE. induction f1 as [|f1 IH]; intros db1 db3 o o1 LT; cbn [OdeM.loop plus]; rewrite (proj2 (ltb_true _ _) LT); [discriminate|].
  assert (LT2 : o_t o < T2) by lra. rewrite (proj2 (ltb_true _ _) LT2).
  destruct (take_step RNum V step helper o None) as [p|] eqn:E; [cbn [bind eq_target orb]|discriminate]. destruct (step_snaps _ _ _ _ _ _ E) as [G1 _].
  destruct (nleb (n := RNum) T1 (o_t p)) eqn:C.
  - cbn [orb]. destruct (snapshot RNum payload p) as [q|] eqn:F; [cbn [bind]|discriminate]. destruct (shot_is _ _ _ F) as (x & -> & FX).
    intro H. assert (H1 : Ok (with_snaps (o_snaps p ++ [x]) p) = Ok o1).
    { rewrite <- H. apply leb_true in C. assert (X : nltb (n := RNum) (o_t p) T1 = false) by (apply ltb_false; exact C).
      destruct db1; (destruct f1; cbn [OdeM.loop]; rewrite with_t, X; reflexivity). }
    injection H1 as <-. exists (o_snaps p), x. rewrite with_snaps_are, with_t. split; [reflexivity|]. split; [exact FX|]. split; [exists []; rewrite app_nil_r; exact G1|].
    intros f2 db2 o2 H2.
    assert (Q : forall db4, loop step T2 lg f2 (with_snaps (o_snaps p ++ repeat x (if lg || nleb (n := RNum) T2 (o_t p) then 1 else 0)) p) None db4 = Ok o2).
    { intro db4. rewrite <- H2. apply loop_none_db. }
    destruct lg; cbn [orb] in *.
    + rewrite orb_true_r. destruct db3; (apply (fun X => eq_trans (f_equal (fun n => loop step T2 true n _ None _) (PeanoNat.Nat.add_comm f1 f2)) X); apply loop_fuel, Q).
    + destruct (nleb (n := RNum) T2 (o_t p)) eqn:C2; cbn [orb].
      * destruct db3; (apply (fun X => eq_trans (f_equal (fun n => loop step T2 false n _ None _) (PeanoNat.Nat.add_comm f1 f2)) X); apply loop_fuel, Q).
      * specialize (Q db3). cbn [repeat] in Q. rewrite app_nil_r, with_own in Q.
        apply (fun X => eq_trans (f_equal (fun n => loop step T2 false n _ None _) (PeanoNat.Nat.add_comm f1 f2)) X); apply loop_fuel, Q.
  - cbn [orb]. assert (LP : o_t p < T1) by (apply leb_false; exact C). assert (C2 : nleb (n := RNum) T2 (o_t p) = false) by (apply leb_false; lra). rewrite C2. cbn [orb].
    destruct lg.
    + destruct (snapshot RNum payload p) as [q|] eqn:F; [cbn [bind]|discriminate]. destruct (shot_is _ _ _ F) as (x & -> & FX).
      intro H. assert (H' : loop step T1 true f1 (with_snaps (o_snaps p ++ [x]) p) None db1 = Ok o1) by (destruct db1; exact H).
      destruct (IH _ db3 (with_snaps (o_snaps p ++ [x]) p) _ LP H') as (A & y & B1 & B2 & (l & B3) & B4). exists A, y. split; [exact B1|]. split; [exact B2|]. split; [exists (x :: l); rewrite B3, with_snaps_are, G1, <- app_assoc; reflexivity|].
      intros f2 db2 o2 H2. specialize (B4 f2 db2 o2 H2). destruct db3; exact B4.
    + intro H. destruct (IH _ db3 p _ LP H) as (A & y & B1 & B2 & (l & B3) & B4). exists A, y. rewrite B3, G1 in *.
      split; [exact B1|]. split; [exact B2|]. split; [exists l; reflexivity|]. exact B4.
Qed.
Lemma late_resume step T1 T2 n1 n2 n3 db1 db2 db3 lg f1 f2 o o1 o2 : o_t o < T1 -> T1 <= T2 ->
  integrate step (Some T1) n1 false db1 lg f1 o = Ok o1 -> integrate step (Some T2) n2 false db2 lg f2 o1 = Ok o2 ->
  exists o', integrate step (Some T2) n3 false db3 lg (f1 + f2) o = Ok o' /\ same_state o2 o' /\
    exists A x B, repeated (if lg || nleb (n := RNum) T2 (o_t o1) then 1 else 0) (o_snaps o') (o_snaps o2) A x B /\ o_snaps o1 = A ++ [x] /\ fst x = o_t o1.
Proof.
  intros LT LE. cbn [OdeM.integrate]. unfold integrate_T. cbn [bind fst snd].
  destruct (snapshot RNum payload o) as [p|] eqn:E0; [cbn [bind]|discriminate]. destruct (shot_is _ _ _ E0) as (x0 & -> & _).
  intro H1. destruct (loop_none step T1 T2 lg LE f1 _ (tl (sorted_set RNum (nofZ 0 :: db3 ++ [T2]))) (with_snaps (o_snaps o ++ [x0]) o) _ LT H1) as (A & x & B1 & B2 & _ & B4).
  rewrite (shot_again _ _ _ B2). cbn [bind]. intro H2. destruct (loop_snaps _ _ _ _ _ _ _ _ _ _ _ H2) as (l & L1 & L2). rewrite with_snaps_are in L1.
  pose proof (B4 _ _ _ (L2 _)) as W. eexists. split; [exact W|]. split; [apply with_same|]. exists A, x, l. split; [|split; [exact B1|exact (proj1 B2)]].
  split; [rewrite with_snaps_are, <- app_assoc; reflexivity|]. rewrite L1, B1, <- !app_assoc. reflexivity.
Qed.

(** with targets *)
Lemma insert_right (x : R) (A B : list R) : List.Forall (fun y => y < x) A -> insert_uniq RNum x (A ++ B) = A ++ insert_uniq RNum x B.
Proof.
  intro F. induction F as [|y A L _ IH]; [reflexivity|]. cbn [app insert_uniq].
  assert (X : nltb (n := RNum) x y = false) by (apply ltb_false; lra). setoid_rewrite X.
  assert (Y : neqb (n := RNum) x y = false). { destruct (neqb (n := RNum) x y) eqn:E; [apply eqb_true in E; lra|reflexivity]. }
  setoid_rewrite Y. f_equal. exact IH.
Qed.
Lemma insert_in (x y : R) l : In y (insert_uniq RNum x l) -> y = x \/ In y l.
Proof.
  induction l as [|z l IH]; cbn [insert_uniq]; [intros [->|[]]; auto|].
  destruct (nltb (n := RNum) x z); [intros [->|H]; auto|]. destruct (neqb (n := RNum) x z); [auto|].
  intros [->|H]; [right; left; reflexivity|]. destruct (IH H); [auto|right; right; assumption].
Qed.
Lemma fold_in (l : list R) : forall acc y, In y (fold_left (fun acc x => insert_uniq RNum x acc) l acc) -> In y acc \/ In y l.
Proof.
  induction l as [|x l IH]; intros acc y H; cbn [fold_left] in H; [auto|]. destruct (IH _ _ H) as [I|I]; [|right; right; exact I].
  destruct (insert_in _ _ _ I) as [->|J]; [right; left; reflexivity|auto].
Qed.
Lemma fold_right_part (l : list R) : forall A B, (forall x y, In x l -> In y A -> y < x) ->
  fold_left (fun acc x => insert_uniq RNum x acc) l (A ++ B) = A ++ fold_left (fun acc x => insert_uniq RNum x acc) l B.
Proof.
  induction l as [|x l IH]; intros A B H; cbn [fold_left]; [reflexivity|]. rewrite insert_right.
  - apply IH. intros. apply H; [right|]; assumption.
  - apply Forall_forall. intros y I. apply H; [left; reflexivity|exact I].
Qed.
Lemma sorted_app (l l' : list R) : (forall x y, In x l' -> In y l -> y < x) -> sorted_set RNum (l ++ l') = sorted_set RNum l ++ sorted_set RNum l'.
Proof.
  intro H. unfold sorted_set. rewrite fold_left_app. rewrite <- (app_nil_r (fold_left _ l [])) at 1. apply fold_right_part.
  intros x y I J. destruct (fold_in _ _ _ J) as [[]|J']. exact (H x y I J').
Qed.
Lemma insert_nonempty (x : R) l : insert_uniq RNum x l <> [].
Proof. destruct l as [|y l]; cbn [insert_uniq]; [discriminate|]. destruct (nltb (n := RNum) x y); [discriminate|]. destruct (neqb (n := RNum) x y); discriminate. Qed.
Lemma sorted_last (l : list R) (T : R) : (forall x, In x l -> x < T) -> sorted_set RNum (l ++ [T]) = sorted_set RNum l ++ [T].
Proof. intro H. rewrite sorted_app; [reflexivity|]. intros x y [<-|[]] I. exact (H y I). Qed.
Lemma sorted_zero (l : list R) : (forall x, In x l -> 0 < x) -> sorted_set RNum (0 :: l) = 0 :: sorted_set RNum l.
Proof. intro H. change (0 :: l) with ([0] ++ l). rewrite sorted_app; [reflexivity|]. intros x y I [<-|[]]. exact (H x I). Qed.

(** increasing targets that end with T *)
Fixpoint targets (t : R) (l : list R) : Prop := match l with [] => True | d :: l' => t < d /\ targets d l' end.
Lemma targets_weak t t' l : t' <= t -> targets t l -> targets t' l.
Proof. destruct l; cbn; [auto|]. intros L [A B]. split; [lra|exact B]. Qed.
Lemma targets_insert (x : R) l : forall t, t < x -> targets t l -> targets t (insert_uniq RNum x l).
Proof.
  induction l as [|y l IH]; intros t L T; cbn [insert_uniq targets] in *; [auto|]. destruct T as [A B].
  destruct (nltb (n := RNum) x y) eqn:E; [apply ltb_true in E; cbn [targets]; auto|].
  destruct (neqb (n := RNum) x y) eqn:F; [cbn [targets]; auto|]. cbn [targets]. split; [exact A|]. apply IH; [|exact B].
  apply ltb_false in E. destruct (Req_dec x y) as [Q|Q]; [apply eqb_true in Q; congruence|lra].
Qed.
Lemma targets_sorted (t : R) l : (forall x, In x l -> t < x) -> targets t (sorted_set RNum l).
Proof.
  unfold sorted_set. intro H. cut (forall acc, targets t acc -> targets t (fold_left (fun acc x => insert_uniq RNum x acc) l acc)); [intro X; apply X; exact I|].
  induction l as [|x l IH]; intros acc T; cbn [fold_left]; [exact T|]. apply IH; [intros; apply H; right; assumption|].
  apply targets_insert; [apply H; left; reflexivity|exact T].
Qed.
Context (f : S -> R -> R -> U -> res (S * (R * U))) (i : integrator).
Hypothesis forward : proposes (N := RNum) f (fun dt => 0 < dt).
Local Notation step := (stepper_of RNum V f i).
Lemma step_lands o d o1 : o_t o < d -> take_step RNum V step helper o (Some d) = Ok o1 -> o_t o < o_t o1 <= d.
Proof.
  intros L. unfold take_step. destruct (step (o_aux o) (o_t o) (o_u o) (Some d)) as [[s [dt un]]|] eqn:E; cbn [bind]; [|discriminate].
  destruct (vassign V (o_u o) un); cbn [bind]; [|discriminate]. intros [= <-]. cbn [o_t].
  destruct (stepper_dt V f i _ _ _ _ _ _ _ E) as (s1 & h & k & F & ->). pose proof (forward _ _ _ _ _ _ _ F) as P. cbv beta in P.
  unfold hit_target. destruct (nltb (n := RNum) (nsub (n := RNum) d (o_t o)) h) eqn:Q.
  - apply ltb_true in Q. change (o_t o < o_t o + (d - o_t o) <= d). lra.
  - apply ltb_false in Q. change (d - o_t o >= h) in Q || change (h <= d - o_t o) in Q. change (o_t o < o_t o + h <= d). lra.
Qed.
Lemma targets_last ds : forall d, targets d ds -> d <= last (d :: ds) 0.
Proof.
  induction ds as [|y ds IH]; intros d TG; [cbn; lra|]. destruct TG as [A B]. specialize (IH y B). change (d <= last (y :: ds) 0). lra.
Qed.
Lemma loop_split T1 T2 lg e es : T1 < T2 -> forall f1 d ds o, o_t o < d -> targets d ds -> last (d :: ds) 0 = T1 ->
  (forall o1, loop step T1 lg f1 o (Some d) ds = Ok o1 -> exists A x, o_snaps o1 = A ++ [x] /\ fresh_shot (N := RNum) payload x o1 /\ o_t o1 = T1 /\
    forall f2 o2, loop step T2 lg f2 o1 (Some e) es = Ok o2 -> loop step T2 lg (f1 + f2) o (Some d) (ds ++ e :: es) = Ok o2) /\
  (forall o2, loop step T2 lg f1 o (Some d) (ds ++ e :: es) = Ok o2 -> exists o1 f2, loop step T1 lg f1 o (Some d) ds = Ok o1 /\ loop step T2 lg f2 o1 (Some e) es = Ok o2).
Proof.
  intros LT. induction f1 as [|f1 IH]; intros d ds o L TG LA.
  all: assert (DT : d <= T1) by (rewrite <- LA; exact (targets_last ds d TG)).
  all: assert (L1 : nltb (n := RNum) (o_t o) T1 = true) by (apply ltb_true; lra); assert (L2 : nltb (n := RNum) (o_t o) T2 = true) by (apply ltb_true; lra).
  - cbn [OdeM.loop plus]. rewrite L1, L2. split; intros; discriminate.
  - cbn [OdeM.loop plus]. rewrite L1, L2. destruct (take_step RNum V step helper o (Some d)) as [p|] eqn:E; [cbn [bind]|split; intros; discriminate].
    destruct (step_lands _ _ _ L E) as [P1 P2].
    assert (EQ : eq_target RNum (o_t p) (Some d) = true -> o_t p = d) by (intro Q; apply eqb_true; exact Q).
    assert (NT2 : nleb (n := RNum) T2 (o_t p) = false) by (apply leb_false; lra). rewrite NT2, orb_false_r.
    destruct (eq_target RNum (o_t p) (Some d)) eqn:Q.
    + specialize (EQ eq_refl). cbn [orb]. destruct (snapshot RNum payload p) as [q|] eqn:F; [cbn [bind]|split; intros; discriminate]. destruct (shot_is _ _ _ F) as (x & -> & FX).
      rewrite with_t, Q. destruct ds as [|y ds]; cbn [app].
      * cbn in LA. subst d. assert (ST : nltb (n := RNum) (o_t p) T1 = false) by (apply ltb_false; lra).
        assert (STOP : loop step T1 lg f1 (with_snaps (o_snaps p ++ [x]) p) (Some T1) [] = Ok (with_snaps (o_snaps p ++ [x]) p)) by (destruct f1; cbn [OdeM.loop]; rewrite with_t, ST; reflexivity).
        rewrite STOP. split.
        -- intros o1 [= <-]. exists (o_snaps p), x. rewrite with_snaps_are, with_t. split; [reflexivity|]. split; [exact FX|]. split; [exact EQ|].
           intros f2 o2 H. apply (fun X => eq_trans (f_equal (fun n => loop step T2 lg n _ _ _) (PeanoNat.Nat.add_comm f1 f2)) X). apply loop_fuel. exact H.
        -- intros o2 H. eexists _, f1. split; [reflexivity|exact H].
      * destruct TG as [T3 T4]. change (last (y :: ds) 0 = T1) in LA. assert (LY : o_t (with_snaps (o_snaps p ++ [x]) p) < y) by (rewrite with_t, EQ; exact T3). exact (IH y ds (with_snaps (o_snaps p ++ [x]) p) LY T4 LA).
    + assert (ND : o_t p < d). { destruct (Req_dec (o_t p) d) as [R|R]; [|lra]. apply eqb_true in R. unfold eq_target in Q. congruence. }
      assert (NT1 : nleb (n := RNum) T1 (o_t p) = false) by (apply leb_false; lra). rewrite NT1. cbn [orb].
      destruct lg; [|exact (IH d ds p ND TG LA)].
      destruct (snapshot RNum payload p) as [q|] eqn:F; [cbn [bind]|split; intros; discriminate]. destruct (shot_is _ _ _ F) as (x & -> & FX).
      rewrite with_t, Q. destruct ds as [|y ds]; cbn [app]; exact (IH d _ (with_snaps (o_snaps p ++ [x]) p) ND TG LA).
Qed.
Lemma plan_first (t T : R) (d : list R) : 0 <= t -> t < T -> List.Forall (fun x => t < x < T) d ->
  tl (sorted_set RNum (0 :: d ++ [T])) = sorted_set RNum d ++ [T].
Proof.
  intros P L F. rewrite Forall_forall in F. rewrite sorted_zero.
  - cbn [tl]. apply sorted_last. intros x I. exact (proj2 (F x I)).
  - intros x I. apply in_app_iff in I. destruct I as [I|[<-|[]]]; [pose proof (F x I)|]; lra.
Qed.
Lemma plan_second (T1 T2 : R) (d : list R) : 0 < T1 -> T1 < T2 -> List.Forall (fun x => T1 < x) d ->
  exists e es, tl (sorted_set RNum (0 :: d ++ [T2])) = e :: es /\ sorted_set RNum (d ++ [T2]) = e :: es.
Proof.
  intros P L F. rewrite Forall_forall in F. rewrite sorted_zero.
  - cbn [tl]. destruct (sorted_set RNum (d ++ [T2])) as [|e es] eqn:E; [|exists e, es; split; reflexivity].
    exfalso. unfold sorted_set in E. rewrite fold_left_app in E. cbn [fold_left] in E. exact (insert_nonempty _ _ E).
  - intros x I. apply in_app_iff in I. destruct I as [I|[<-|[]]]; [pose proof (F x I)|]; lra.
Qed.
Lemma plan_both (t T1 T2 : R) (d d' : list R) : 0 <= t -> t < T1 -> T1 < T2 -> List.Forall (fun x => t < x < T1) d -> List.Forall (fun x => T1 < x) d' ->
  tl (sorted_set RNum (0 :: (d ++ T1 :: d') ++ [T2])) = (sorted_set RNum d ++ [T1]) ++ sorted_set RNum (d' ++ [T2]).
Proof.
  intros P L L' F F'. rewrite Forall_forall in F, F'.
  replace ((d ++ T1 :: d') ++ [T2]) with ((d ++ [T1]) ++ (d' ++ [T2])) by (rewrite <- !app_assoc; reflexivity). rewrite sorted_zero.
  - cbn [tl]. rewrite sorted_app.
    + f_equal. apply sorted_last. intros x I. exact (proj2 (F x I)).
    + intros x y I J. apply in_app_iff in I, J. destruct I as [I|[<-|[]]], J as [J|[<-|[]]]; try pose proof (F' x I); try pose proof (F y J); lra.
  - intros x I. rewrite !in_app_iff in I. destruct I as [[I|[<-|[]]]|[I|[<-|[]]]]; try pose proof (F x I); try pose proof (F' x I); lra.
Qed.
Lemma exact_resume T1 T2 n1 n2 n3 d1 d2 lg o : 0 <= o_t o -> o_t o < T1 -> T1 < T2 ->
  List.Forall (fun x => o_t o < x < T1) d1 -> List.Forall (fun x => T1 < x) d2 ->
  (forall f1 f2 o1 o2, integrate step (Some T1) n1 true d1 lg f1 o = Ok o1 -> integrate step (Some T2) n2 true d2 lg f2 o1 = Ok o2 ->
   exists o', integrate step (Some T2) n3 true (d1 ++ T1 :: d2) lg (f1 + f2) o = Ok o' /\ same_state o2 o' /\
     exists A x B, repeated 1 (o_snaps o') (o_snaps o2) A x B /\ o_snaps o1 = A ++ [x] /\ fst x = T1) /\
  (forall fuel o', integrate step (Some T2) n3 true (d1 ++ T1 :: d2) lg fuel o = Ok o' ->
   exists f1 f2 o1 o2, integrate step (Some T1) n1 true d1 lg f1 o = Ok o1 /\ integrate step (Some T2) n2 true d2 lg f2 o1 = Ok o2).
Proof.
  intros P L L' F F'. cbn [OdeM.integrate]. unfold integrate_T.
  change (car RNum) with R. change (nofZ (n := RNum) 0) with 0. pose proof (plan_first (o_t o) T1 d1 P L F) as Q1. pose proof (plan_both (o_t o) T1 T2 d1 d2 P L L' F F') as Q2.
  change (car RNum) with R in Q1, Q2. rewrite Q1, Q2.
  destruct (plan_second T1 T2 d2 ltac:(lra) L' F') as (e & es & E1 & E2). change (car RNum) with R in E1, E2. rewrite E1, E2. cbn [bind fst snd].
  assert (TG : targets (o_t o) (sorted_set RNum d1 ++ [T1])).
  { rewrite <- sorted_last by (intros x I; rewrite Forall_forall in F; exact (proj2 (F x I))). apply targets_sorted. intros x I. rewrite Forall_forall in F.
    apply in_app_iff in I. destruct I as [I|[<-|[]]]; [exact (proj1 (F x I))|exact L]. }
  assert (LA : forall x, last (x :: sorted_set RNum d1 ++ [T1]) 0 = T1) by (intro x; change (x :: sorted_set RNum d1 ++ [T1]) with ((x :: sorted_set RNum d1) ++ [T1]); apply last_last).
  assert (LB : last (sorted_set RNum d1 ++ [T1]) 0 = T1) by apply last_last.
  destruct (sorted_set RNum d1 ++ [T1]) as [|d ds] eqn:EQ; [exfalso; exact (app_cons_not_nil _ _ _ (eq_sym EQ))|]. destruct TG as [TG1 TG2].
  change (car RNum) with R in EQ. rewrite EQ. cbn [bind fst snd app].
  destruct (snapshot RNum payload o) as [p|] eqn:E0; [cbn [bind]|split; intros; discriminate]. destruct (shot_is _ _ _ E0) as (x0 & -> & _).
  split.
  - intros f1 f2 o1 o2 H1. destruct (proj1 (loop_split T1 T2 lg e es L' f1 d ds (with_snaps (o_snaps o ++ [x0]) o) TG1 TG2 LB) _ H1) as (A & x & B1 & B2 & B3 & B4).
    rewrite (shot_again _ _ _ B2). cbn [bind]. intro H2. destruct (loop_snaps _ _ _ _ _ _ _ _ _ _ _ H2) as (l & L1 & L2). rewrite with_snaps_are in L1.
    specialize (L2 (o_snaps o1)). rewrite with_with, with_own in L2.
    pose proof (B4 _ _ (L2)) as W. eexists. split; [exact W|]. split; [apply with_same|]. exists A, x, l. split; [|split; [exact B1|rewrite <- B3; exact (proj1 B2)]].
    split; [rewrite with_snaps_are, B1, <- app_assoc; reflexivity|]. rewrite L1, B1, <- !app_assoc. reflexivity.
  - intros fuel o' H. destruct (proj2 (loop_split T1 T2 lg e es L' fuel d ds (with_snaps (o_snaps o ++ [x0]) o) TG1 TG2 LB) _ H) as (o1 & f2 & H1 & H2).
    destruct (proj1 (loop_split T1 T2 lg e es L' fuel d ds (with_snaps (o_snaps o ++ [x0]) o) TG1 TG2 LB) _ H1) as (A & x & B1 & B2 & B3 & B4).
    destruct (loop_snaps _ _ _ _ _ _ _ _ _ _ _ H2) as (l & L1 & L2).
    exists fuel, f2, o1. eexists. split; [exact H1|]. rewrite (shot_again _ _ _ B2). cbn [bind]. apply L2.
Qed.
Lemma whole_splits T1 T2 n1 n2 n3 d1 d2 lg fuel o o' : 0 <= o_t o -> o_t o < T1 -> T1 < T2 ->
  List.Forall (fun x => o_t o < x < T1) d1 -> List.Forall (fun x => T1 < x) d2 ->
  integrate step (Some T2) n3 true (d1 ++ T1 :: d2) lg fuel o = Ok o' ->
  exists f1 f2 o1 o2, integrate step (Some T1) n1 true d1 lg f1 o = Ok o1 /\ integrate step (Some T2) n2 true d2 lg f2 o1 = Ok o2 /\
    same_state o2 o' /\ exists A x B, repeated 1 (o_snaps o') (o_snaps o2) A x B /\ o_snaps o1 = A ++ [x] /\ fst x = T1.
Proof.
  intros P L L' F F' H. destruct (exact_resume T1 T2 n1 n2 n3 d1 d2 lg o P L L' F F') as [X Y].
  destruct (Y _ _ H) as (f1 & f2 & o1 & o2 & H1 & H2). exists f1, f2, o1, o2. split; [exact H1|]. split; [exact H2|].
  destruct (X _ _ _ _ H1 H2) as (o'' & H3 & H4). rewrite (integrate_det V step helper payload _ _ _ _ _ _ _ _ _ _ H H3). exact H4.
Qed.
End Times.

Local Notation h := (Qmake 1 2 : car QNum).
Local Notation one := (Qmake 1 1 : car QNum).
Local Notation two := (Qmake 2 1 : car QNum).
Local Notation zero := (Qmake 0 1 : car QNum).
Local Notation start := (ode_init QNum one tt).
Lemma declared_stop : exists o1 o2 o', growth_run one h [] start = Ok o1 /\ growth_run one two [] o1 = Ok o2 /\ growth_run one two [h] start = Ok o' /\
  seen o2 = (two, Qmake 9 2, [zero; h; Qmake 3 2; two], 3%Z, [zero; h; h; two]) /\
  seen o' = (two, Qmake 9 2, [zero; h; Qmake 3 2; two], 3%Z, [zero; h; two]).
Proof.
  assert (E1 : looked seen (growth_run one h [] start) = Some (h, Qmake 3 2, [zero; h], 1%Z, [zero; h])) by (vm_compute; reflexivity).
  assert (E2 : looked seen (do o <- growth_run one h [] start; growth_run one two [] o) = Some (two, Qmake 9 2, [zero; h; Qmake 3 2; two], 3%Z, [zero; h; h; two])) by (vm_compute; reflexivity).
  assert (E3 : looked seen (growth_run one two [h] start) = Some (two, Qmake 9 2, [zero; h; Qmake 3 2; two], 3%Z, [zero; h; two])) by (vm_compute; reflexivity).
  destruct (looked_ok _ _ _ E1) as (o1 & A1 & _). destruct (looked_ok _ _ _ E2) as (o2 & A2 & B2). destruct (looked_ok _ _ _ E3) as (o3 & A3 & B3).
  exists o1, o2, o3. rewrite A1 in A2. repeat (split; [assumption|]). exact B3.
Qed.
Lemma undeclared_stop : exists o1 o2 o', growth_run one h [] start = Ok o1 /\ growth_run one two [] o1 = Ok o2 /\ growth_run one two [] start = Ok o' /\
  o_u o2 = Qmake 9 2 /\ o_u o' = Qmake 4 1.
Proof.
  destruct declared_stop as (o1 & o2 & _ & A1 & A2 & _ & B & _).
  assert (E3 : looked o_u (growth_run one two [] start) = Some (Qmake 4 1)) by (vm_compute; reflexivity).
  destruct (looked_ok _ _ _ E3) as (o3 & A3 & B3). exists o1, o2, o3. repeat (split; [assumption|]). split; [|exact B3].
  exact (f_equal (fun p => snd (fst (fst (fst p)))) B).
Qed.
