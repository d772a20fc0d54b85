(** The integration loop with exact=True (C32-C35). *)
From Coq Require Import ZArith List Bool Lia Reals Lra Sorted.
From Verif Require Import Err Num HydroP OdeM SpecOde.
Import ListNotations.
Local Open Scope R_scope.

(** the step length is the one proposed by the first stage, truncated at the target *)
Lemma stepper_dt {N : Num} {U S} (V : vops N U) (f : S -> car N -> car N -> U -> res (S * (car N * U)))
  i s t u target s' dt un : stepper_of N V f i s t u target = Ok (s', (dt, un)) ->
  exists s1 h k, f s t t u = Ok (s1, (h, k)) /\ dt = hit_target N t h target.
Proof.
  destruct i; cbn [stepper_of]; unfold euler, ssprk2, ssprk3, rk4;
  destruct (f s t t u) as [[s1 [h k]]|]; cbn [bind]; try discriminate; intros H;
  exists s1, h, k; (split; [reflexivity|]);
  repeat (match type of H with (do _ <- ?X; _) = _ => destruct X as [?x|]; cbn [bind] in H; [|discriminate];
          try match type of H with context [let '(_, _) := ?p in _] => destruct p as [? [? ?]] end end);
  injection H; auto.
Qed.

Section Loop.
Context (N : Num) {U S D : Type} (V : vops N U) (step : stepper (U := U) (S := S) N)
  (helper : S -> S) (payload : S -> car N -> U -> res D).
Local Notation K := (car N).
Local Notation ode := (@ode N U S D).
(** numbers on which arithmetic comparisons are those of real values *)
Context (ok : K -> Prop) (val : K -> R) (J : K -> Prop) (rel : R -> R -> Prop) (dmin : R).
Context (ok_lt : forall x y, ok x -> ok y -> nltb x y = true <-> val x < val y).
Context (ok_le : forall x y, ok x -> ok y -> nleb x y = true <-> val x <= val y).
Context (ok_eq : forall x y, ok x -> ok y -> neqb x y = true <-> val x = val y).
Context (ok_inj : forall x y, ok x -> ok y -> val x = val y -> 0 < val x -> x = y).
Context (J_ok : forall t, J t -> ok t /\ 0 <= val t).
Context (rel_trans : forall x y z, rel x y -> rel y z -> rel x z).
Context (dmin_pos : 0 <= dmin).
Context (Hstep : forall (o o1 : ode) d, J (o_t o) -> ok d -> val (o_t o) < val d ->
  take_step N V step helper o (Some d) = Ok o1 ->
  J (o_t o1) /\ rel (val (o_t o)) (val (o_t o1)) /\ val (o_t o) <= val (o_t o1) <= val d /\
  (dmin <= val (o_t o1) - val (o_t o) \/ val (o_t o1) = val d)).

Lemma take_step_fields (o o1 : ode) target : take_step N V step helper o target = Ok o1 ->
  o_stamps o1 = o_stamps o ++ [o_t o1] /\ o_steps o1 = (o_steps o + 1)%Z /\ o_snaps o1 = o_snaps o.
Proof.
  unfold take_step. destruct (step (o_aux o) (o_t o) (o_u o) target) as [[s [dt un]]|]; cbn [bind]; [|discriminate].
  destruct (vassign V (o_u o) un); cbn [bind]; [|discriminate]. intros [= <-]. cbn. auto.
Qed.
Lemma snapshot_fields (o o1 : ode) : snapshot N payload o = Ok o1 ->
  o_t o1 = o_t o /\ o_stamps o1 = o_stamps o /\ o_steps o1 = o_steps o /\ times o1 = times o ++ [o_t o].
Proof.
  unfold snapshot. destruct (payload (o_aux o) (o_t o) (o_u o)); cbn [bind]; [|discriminate].
  intros [= <-]. unfold times. cbn. rewrite map_app. auto.
Qed.

Definition upto (T : K) (l : list K) : list K := filter (fun x => nleb x T) l.
Definition sorted (l : list K) : Prop := StronglySorted (fun x y => val x < val y) l.
Definition path (t : K) (ss : list K) : Prop := StronglySorted (fun x y => rel (val x) (val y)) (t :: ss).

Lemma upto_beyond T l : ok T -> Forall ok l -> Forall (fun x => val T < val x) l -> upto T l = [].
Proof.
  intros HT. induction l as [|x l IH]; intros Ho Hl; [reflexivity|]. inversion Ho; inversion Hl; subst. cbn.
  destruct (nleb x T) eqn:E; [apply ok_le in E; auto; lra|auto].
Qed.
Lemma upto_head T x l : ok T -> ok x -> val x <= val T -> upto T (x :: l) = x :: upto T l.
Proof. intros HT Hx H. cbn. destruct (nleb x T) eqn:E; auto. apply ok_le in H; auto. congruence. Qed.

Lemma path_cons t t1 ss : rel (val t) (val t1) -> path t1 ss -> path t (t1 :: ss).
Proof.
  intros H P. unfold path in *. constructor; [exact P|]. inversion P; subst. constructor; auto.
  eapply Forall_impl; [|eassumption]. cbn. intros. eapply rel_trans; eauto.
Qed.

Lemma loop_stop T log fuel (o : ode) target ds : ok T -> ok (o_t o) -> val T <= val (o_t o) ->
  loop N V step helper payload T log fuel o target ds = Ok o.
Proof.
  intros HT Ho H. destruct fuel; cbn [loop]; (destruct (nltb (o_t o) T) eqn:E; [apply ok_lt in E; auto; lra|reflexivity]).
Qed.

Lemma last_of (ss : list K) t d : last (t :: ss) d = last ss t.
Proof.
  revert t d. induction ss as [|x ss IH]; intros t d; [reflexivity|].
  change (last (t :: x :: ss) d) with (last (x :: ss) d). rewrite (IH x d), (IH x t). reflexivity.
Qed.

Lemma loop_exact T log fuel : forall (o o' : ode) d ds,
  ok T -> Forall ok (d :: ds) -> sorted (d :: ds) -> In T (d :: ds) -> J (o_t o) -> val (o_t o) < val d ->
  loop N V step helper payload T log fuel o (Some d) ds = Ok o' ->
  o_t o' = T /\ exists ss,
    o_stamps o' = o_stamps o ++ ss /\ path (o_t o) ss /\ last ss (o_t o) = T /\
    o_steps o' = (o_steps o + Z.of_nat (length ss))%Z /\
    times o' = times o ++ (if log then ss else upto T (d :: ds)) /\
    dmin * INR (length ss) <= val T - val (o_t o) + dmin * INR (length (upto T (d :: ds))).
Proof.
  induction fuel as [|fuel IH]; intros o o' d ds HT Ho Hs Hin HJ Hlt H.
  - exfalso. cbn [loop] in H. destruct (nltb (o_t o) T) eqn:E; [discriminate|].
    assert (val d <= val T). { destruct Hin as [->|Hin]; [lra|]. inversion Hs; subst. rewrite Forall_forall in H3. specialize (H3 T Hin). lra. }
    assert (nltb (o_t o) T = true) by (apply ok_lt; auto; [apply J_ok; auto|lra]). congruence.
  - inversion Ho as [|? ? Hd Hds]; subst. inversion Hs as [|? ? Hs' Hall]; subst.
    assert (HdT : val d <= val T). { destruct Hin as [->|Hin]; [lra|]. rewrite Forall_forall in Hall. specialize (Hall T Hin). lra. }
    cbn [loop] in H. assert (E : nltb (o_t o) T = true) by (apply ok_lt; auto; [apply J_ok; auto|lra]).
    rewrite E in H. destruct (take_step N V step helper o (Some d)) as [o1|] eqn:E1; cbn [bind] in H; [|discriminate].
    destruct (Hstep o o1 d HJ Hd Hlt E1) as (J1 & R1 & (B1 & B2) & B3).
    destruct (take_step_fields _ _ _ E1) as (F1 & F2 & F3).
    destruct (J_ok _ J1) as [K1 P1]. destruct (J_ok _ HJ) as [K0 P0].
    unfold eq_target in H.
    destruct (neqb (o_t o1) d) eqn:Ed.
    + apply ok_eq in Ed; auto. apply ok_inj in Ed; auto; [|lra]. cbn [orb] in H.
      destruct (snapshot N payload o1) as [o2|] eqn:E2; cbn [bind] in H; [|discriminate].
      destruct (snapshot_fields _ _ E2) as (G1 & G2 & G3 & G4).
      assert (Etimes : times o2 = times o ++ [d]). { rewrite G4. unfold times. rewrite F3, Ed. reflexivity. }
      destruct (Req_dec (val d) (val T)) as [EdT|NdT].
      * apply ok_inj in EdT; auto; [|lra]. subst T. rename d into T.
        assert (Hstop : forall t' l', loop N V step helper payload T log fuel o2 t' l' = Ok o2).
        { intros. apply loop_stop; auto; rewrite G1, Ed; auto; lra. }
        assert (o' = o2) as ->.
        { destruct ds; rewrite ?Hstop in H; [congruence|]. destruct (neqb (o_t o2) T); rewrite ?Hstop in H; congruence. }
        split; [congruence|]. exists [T]. rewrite G2, F1, Ed.
        assert (EU : upto T (T :: ds) = [T]). { rewrite upto_head by (auto; lra). rewrite upto_beyond; auto. }
        rewrite EU. split; [reflexivity|]. split.
        { unfold path. constructor; [constructor; [constructor|constructor]|]. constructor; [|constructor]. rewrite <- Ed; auto. }
        split; [reflexivity|]. split; [rewrite G3, F2; reflexivity|]. split; [destruct log; auto|].
        cbn. lra.
      * assert (Hin' : In T ds) by (destruct Hin as [->|]; [lra|auto]).
        destruct ds as [|d2 ds]; [contradiction|].
        assert (Eq2 : neqb (o_t o2) d = true) by (apply ok_eq; auto; rewrite G1, Ed; auto).
        rewrite Eq2 in H.
        inversion Hall; subst.
        destruct (IH o2 o' d2 ds HT) as (X1 & ss & X2 & X3 & X4 & X5 & X6 & X7); auto.
        { rewrite G1; auto. }
        { rewrite G1. auto. }
        split; auto. exists (o_t o1 :: ss).
        rewrite X2, G2, F1, <- app_assoc. split; [reflexivity|]. split.
        { apply path_cons; auto. rewrite <- G1; auto. }
        split; [rewrite last_of; rewrite <- G1; exact X4|].
        split; [rewrite X5, G3, F2; cbn [length]; lia|].
        rewrite upto_head by (auto; lra).
        split. { rewrite X6, Etimes, <- app_assoc. destruct log; reflexivity. }
        cbn [length]. rewrite !S_INR. rewrite G1 in X7. nra.
    + assert (Nd : val (o_t o1) <> val d). { intros Q. apply ok_eq in Q; auto. congruence. }
      assert (Hlt1 : val (o_t o1) < val d) by lra.
      assert (EgT : nleb T (o_t o1) = false).
      { destruct (nleb T (o_t o1)) eqn:Q; auto. apply ok_le in Q; auto. lra. }
      rewrite EgT in H. cbn [orb] in H.
      destruct B3 as [B3|B3]; [|contradiction].
      assert (Hgo : exists o2, o_t o2 = o_t o1 /\ o_stamps o2 = o_stamps o1 /\ o_steps o2 = o_steps o1 /\
         times o2 = times o ++ (if log then [o_t o1] else []) /\
         loop N V step helper payload T log fuel o2 (Some d) ds = Ok o').
      { destruct log.
        - destruct (snapshot N payload o1) as [o2|] eqn:E2; cbn [bind] in H; [|discriminate].
          destruct (snapshot_fields _ _ E2) as (G1 & G2 & G3 & G4). exists o2. repeat (split; [assumption|]).
          split. { rewrite G4. unfold times. rewrite F3. reflexivity. }
          destruct ds; auto. rewrite G1, Ed in H. exact H.
        - exists o1. repeat split; auto. unfold times. rewrite F3, app_nil_r. reflexivity. }
      destruct Hgo as (o2 & G1 & G2 & G3 & G4 & H').
      destruct (IH o2 o' d ds HT) as (X1 & ss & X2 & X3 & X4 & X5 & X6 & X7); auto.
      { rewrite G1; auto. }
      { rewrite G1; auto. }
      split; auto. exists (o_t o1 :: ss).
      rewrite X2, G2, F1, <- app_assoc. split; [reflexivity|]. split.
      { apply path_cons; auto. rewrite <- G1; auto. }
      split; [rewrite last_of; rewrite <- G1; exact X4|].
      split; [rewrite X5, G3, F2; cbn [length]; lia|].
      split. { rewrite X6, G4, <- app_assoc. destruct log; reflexivity. }
      cbn [length]. rewrite !S_INR. rewrite G1 in X7. nra.
Qed.

(** sorted(set(...)) *)
Lemma insert_spec x l : ok x -> Forall ok l -> sorted l ->
  sorted (insert_uniq N x l) /\ Forall ok (insert_uniq N x l) /\
  (forall y, In y (insert_uniq N x l) -> y = x \/ In y l) /\ (forall y, In y l -> In y (insert_uniq N x l)) /\
  (exists y, In y (insert_uniq N x l) /\ val y = val x) /\ (length (insert_uniq N x l) <= Datatypes.S (length l))%nat.
Proof.
  intros Hx. induction l as [|z l IH]; intros Ho Hs.
  - cbn. split; [constructor; constructor|]. split; [auto|]. split; [intuition|]. split; [intuition|]. split; [exists x; auto|lia].
  - inversion Ho as [|? ? Hz Ho']; subst. inversion Hs as [|? ? Hs' Ha]; subst. cbn [insert_uniq].
    destruct (nltb x z) eqn:E.
    + apply ok_lt in E; auto. split.
      { constructor; [exact Hs|]. constructor; auto. eapply Forall_impl; [|exact Ha]. cbn. intros. lra. }
      split; [constructor; auto|]. split; [cbn; intuition|]. split; [cbn; intuition|].
      split; [exists x; cbn; auto|cbn; lia].
    + destruct (neqb x z) eqn:E'.
      * apply ok_eq in E'; auto. split; [auto|]. split; [auto|]. split; [auto|]. split; [auto|].
        split; [exists z; cbn; auto|cbn; lia].
      * destruct (IH Ho' Hs') as (A & B & C & D' & (y & Y1 & Y2) & F).
        assert (val z < val x).
        { destruct (Rlt_dec (val x) (val z)) as [Q|Q]; [apply ok_lt in Q; auto; congruence|].
          destruct (Req_dec (val x) (val z)) as [Q'|Q']; [apply ok_eq in Q'; auto; congruence|]. lra. }
        split. { constructor; auto. rewrite Forall_forall in *. intros w Hw. destruct (C w Hw) as [->|]; auto. }
        split; [constructor; auto|]. split; [cbn; intros w [->|Hw]; auto; destruct (C w Hw); auto|].
        split; [cbn; intros w [->|Hw]; auto|]. split; [exists y; cbn; auto|cbn; lia].
Qed.
Lemma insert_head x z l : ok x -> ok z -> val z <= val x -> exists l', insert_uniq N x (z :: l) = z :: l'.
Proof.
  intros Hx Hz H. cbn. destruct (nltb x z) eqn:E; [apply ok_lt in E; auto; lra|].
  destruct (neqb x z); eauto.
Qed.
Lemma sorted_fold l : forall z acc, ok z -> Forall ok l -> Forall (fun x => val z <= val x) l ->
  Forall ok (z :: acc) -> sorted (z :: acc) ->
  exists acc', fold_left (fun a x => insert_uniq N x a) l (z :: acc) = z :: acc' /\
    sorted (z :: acc') /\ Forall ok (z :: acc') /\
    (forall y, In y (z :: acc') -> In y l \/ In y (z :: acc)) /\
    (forall y, In y (z :: acc) -> In y (z :: acc')) /\
    (forall x, In x l -> exists y, In y (z :: acc') /\ val y = val x) /\
    (length acc' <= length l + length acc)%nat.
Proof.
  induction l as [|x l IH]; intros z acc Hz Hl Hv Ha Hs.
  - exists acc. cbn [fold_left]. do 5 (split; [auto|]). split; [intros ? []|]. cbn; lia.
  - inversion Hl; inversion Hv; subst. cbn [fold_left].
    destruct (insert_spec x (z :: acc)) as (A & B & C & E & (y & Y1 & Y2) & F); auto.
    destruct (insert_head x z acc) as (l' & Hl'); auto. rewrite Hl' in *.
    destruct (IH z l') as (acc' & G1 & G2 & G3 & G4 & G5 & G6 & G7); auto.
    exists acc'. split; [auto|]. split; [auto|]. split; [auto|]. split.
    { intros w Hw. destruct (G4 w Hw) as [|Q]; [left; right; auto|]. destruct (C w Q) as [->|]; [left; left; auto|right; auto]. }
    split; [auto|]. split; [|cbn in *; lia].
    intros w [<-|Hw]; [|auto]. exists y; auto.
Qed.

Lemma targets db T : ok (nofZ 0) -> val (nofZ 0) = 0 -> Forall ok db -> Forall (fun x => 0 <= val x) db ->
  ok T -> 0 < val T ->
  exists d ds, sorted_set N (nofZ 0 :: db ++ [T]) = nofZ 0 :: d :: ds /\ sorted (d :: ds) /\ Forall ok (d :: ds) /\
    In T (d :: ds) /\ (forall x, In x (d :: ds) <-> (In x db \/ x = T) /\ 0 < val x) /\
    (length (d :: ds) <= Datatypes.S (length db))%nat.
Proof.
  intros H0 V0 Hd Hp HT PT. unfold sorted_set. cbn [fold_left insert_uniq].
  destruct (sorted_fold (db ++ [T]) (nofZ 0) []) as (acc & A & B & C & E & F & G & I); auto.
  { apply Forall_app; auto. }
  { rewrite V0. apply Forall_app. split; auto. constructor; auto. lra. }
  { constructor; [constructor|constructor]. }
  inversion B as [|? ? B' Ball]; subst. inversion C as [|? ? C0 Cacc]; subst.
  assert (HTin : In T acc).
  { destruct (G T) as (y & [<-|Y1] & Y2); [apply in_or_app; right; left; auto|rewrite V0 in Y2; lra|].
    rewrite <- (ok_inj y T); auto; [|lra]. rewrite Forall_forall in Cacc; auto. }
  assert (Hiff : forall x, In x acc <-> (In x db \/ x = T) /\ 0 < val x).
  { intros x. split.
    - intros Hx. split.
      + destruct (E x (or_intror Hx)) as [Q|[<-|[]]].
        * apply in_app_or in Q. destruct Q as [|[|[]]]; auto.
        * exfalso. rewrite Forall_forall in Ball. specialize (Ball _ Hx). lra.
      + rewrite Forall_forall in Ball. specialize (Ball _ Hx). rewrite V0 in Ball. lra.
    - intros [[Hx| ->] Hp']; [|auto].
      destruct (G x) as (y & [<-|Y1] & Y2); [apply in_or_app; auto|rewrite V0 in Y2; lra|].
      rewrite Forall_forall in Hd, Cacc. rewrite <- (ok_inj y x); auto; lra. }
  destruct acc as [|d ds]; [contradiction|]. exists d, ds. split; [exact A|]. split; [auto|]. split; [auto|].
  split; [auto|]. split; [exact Hiff|]. rewrite app_length in I. cbn in *. lia.
Qed.

Lemma integrate_exact T n db log fuel (o0 o : ode) : ok (nofZ 0) -> val (nofZ 0) = 0 -> J (o_t o0) ->
  Forall ok db -> Forall (fun x => val x = 0 \/ val (o_t o0) < val x) db -> ok T -> val (o_t o0) < val T ->
  integrate N V step helper payload (Some T) n true db log fuel o0 = Ok o ->
  o_t o = T /\ exists ss tt,
    o_stamps o = o_stamps o0 ++ ss /\ path (o_t o0) ss /\ last ss (o_t o0) = T /\
    o_steps o = (o_steps o0 + Z.of_nat (length ss))%Z /\
    times o = times o0 ++ o_t o0 :: (if log then ss else tt) /\
    sorted tt /\ (forall x, In x tt <-> (In x db /\ val (o_t o0) < val x < val T) \/ x = T) /\
    dmin * INR (length ss) <= val T - val (o_t o0) + dmin * INR (Datatypes.S (length db)).
Proof.
  intros O0 V0 J0 Hd Hp HT PT H. unfold integrate, integrate_T in H.
  destruct (J_ok _ J0) as [K0 P0].
  destruct (targets db T) as (d & ds & A & B & C & E & F & G); auto; [|lra|].
  { eapply Forall_impl; [|exact Hp]. cbn. intros a [Q|Q]; lra. }
  rewrite A in H. cbn [tl bind fst snd] in H.
  destruct (snapshot N payload o0) as [o1|] eqn:E1; cbn [bind] in H; [|discriminate].
  destruct (snapshot_fields _ _ E1) as (G1 & G2 & G3 & G4).
  assert (Fd : forall x, In x db -> 0 < val x -> val (o_t o0) < val x).
  { intros x Hx Px. rewrite Forall_forall in Hp. destruct (Hp x Hx); lra. }
  assert (Pd : val (o_t o0) < val d). { destruct (proj1 (F d) (or_introl eq_refl)) as [[Q| ->] P]; auto. }
  destruct (loop_exact T log fuel o1 o d ds) as (X1 & ss & X2 & X3 & X4 & X5 & X6 & X7); auto.
  { rewrite G1; auto. }
  { rewrite G1; auto. }
  split; [auto|]. exists ss, (upto T (d :: ds)). rewrite G1 in *.
  split; [rewrite X2, G2; reflexivity|]. split; [auto|]. split; [auto|]. split; [rewrite X5, G3; reflexivity|].
  split; [rewrite X6, G4, <- app_assoc; reflexivity|]. split.
  { unfold upto, sorted in *. revert B. generalize (d :: ds). clear. intros l. induction 1 as [|x l Hl IH Hx]; cbn; [constructor|].
    destruct (nleb x T); auto. constructor; auto. rewrite Forall_forall in *. intros y Hy. apply filter_In in Hy. apply Hx, Hy. }
  split.
  { intros x. unfold upto. rewrite filter_In, F. split.
    - intros [[[Q| ->] Px] L]; auto. assert (ok x) by (rewrite Forall_forall in Hd; auto).
      apply ok_le in L; auto. destruct (Req_dec (val x) (val T)) as [Q2|Q2]; [right; apply ok_inj; auto|left].
      split; auto. specialize (Fd x Q Px). lra.
    - intros [[Q Px]| ->].
      + assert (ok x) by (rewrite Forall_forall in Hd; auto). split; [split; auto; lra|]. apply ok_le; auto. lra.
      + split; [split; [auto|lra]|]. apply ok_le; auto. lra. }
  eapply Rle_trans; [exact X7|].
  assert (INR (length (upto T (d :: ds))) <= INR (Datatypes.S (length db))).
  { apply le_INR. etransitivity; [|exact G]. unfold upto. clear. induction (d :: ds) as [|x l IH]; cbn; [lia|]. destruct (nleb x T); cbn; lia. }
  nra.
Qed.

(** the loop ends *)
Context (Inv : ode -> Prop).
Context (Htotal : forall (o : ode) d, Inv o -> exists o1, take_step N V step helper o (Some d) = Ok o1 /\ Inv o1).
Context (Hsnap : forall (o : ode), Inv o -> exists o1, snapshot N payload o = Ok o1 /\ Inv o1).
Lemma loop_ends T log fuel : forall (o : ode) d ds, Inv o -> 0 < dmin ->
  ok T -> Forall ok (d :: ds) -> sorted (d :: ds) -> In T (d :: ds) -> J (o_t o) -> val (o_t o) < val d ->
  val T - val (o_t o) + dmin * INR (length (upto T (d :: ds))) <= dmin * INR fuel ->
  exists o', loop N V step helper payload T log fuel o (Some d) ds = Ok o'.
Proof.
  induction fuel as [|fuel IH]; intros o d ds HI Pm HT Ho Hs Hin HJ Hlt Hf;
  inversion Ho as [|? ? Hd Hds]; subst; inversion Hs as [|? ? Hs' Hall]; subst;
  assert (HdT : val d <= val T) by (destruct Hin as [->|Hin]; [lra|]; rewrite Forall_forall in Hall; specialize (Hall T Hin); lra).
  - exfalso. cbn in Hf. pose proof (pos_INR (length (upto T (d :: ds)))). cbn in H. nra.
  - cbn [loop]. assert (E : nltb (o_t o) T = true) by (apply ok_lt; auto; [apply J_ok; auto|lra]).
    rewrite E. destruct (Htotal o d HI) as (o1 & E1 & I1). rewrite E1. cbn [bind].
    destruct (Hstep o o1 d HJ Hd Hlt E1) as (J1 & R1 & (B1 & B2) & B3).
    destruct (take_step_fields _ _ _ E1) as (F1 & F2 & F3).
    destruct (J_ok _ J1) as [K1 P1]. destruct (J_ok _ HJ) as [K0 P0].
    unfold eq_target. destruct (neqb (o_t o1) d) eqn:Ed.
    + apply ok_eq in Ed; auto. apply ok_inj in Ed; auto; [|lra]. cbn [orb].
      destruct (Hsnap o1 I1) as (o2 & E2 & I2). rewrite E2. cbn [bind].
      destruct (snapshot_fields _ _ E2) as (G1 & G2 & G3 & G4).
      destruct (Req_dec (val d) (val T)) as [EdT|NdT].
      * assert (Hstop : forall t' l', loop N V step helper payload T log fuel o2 t' l' = Ok o2).
        { intros. apply loop_stop; auto; rewrite G1, Ed; auto; lra. }
        destruct ds; rewrite ?Hstop; [eauto|]. destruct (neqb (o_t o2) d); rewrite ?Hstop; eauto.
      * assert (Hin' : In T ds) by (destruct Hin as [->|]; [lra|auto]).
        destruct ds as [|d2 ds]; [contradiction|].
        assert (Eq2 : neqb (o_t o2) d = true) by (apply ok_eq; auto; rewrite G1, Ed; auto).
        rewrite Eq2. inversion Hall; subst.
        apply IH; auto; rewrite ?G1; auto.
        rewrite upto_head in Hf by (auto; lra). cbn [length] in Hf. rewrite !S_INR in Hf. lra.
    + assert (Nd : val (o_t o1) <> val d). { intros Q. apply ok_eq in Q; auto. congruence. }
      assert (Hlt1 : val (o_t o1) < val d) by lra.
      assert (EgT : nleb T (o_t o1) = false).
      { destruct (nleb T (o_t o1)) eqn:Q; auto. apply ok_le in Q; auto. lra. }
      rewrite EgT. cbn [orb]. destruct B3 as [B3|B3]; [|contradiction].
      rewrite S_INR in Hf. destruct log.
      * destruct (Hsnap o1 I1) as (o2 & E2 & I2). rewrite E2. cbn [bind].
        destruct (snapshot_fields _ _ E2) as (G1 & G2 & G3 & G4). destruct ds; [|rewrite G1, Ed]; apply IH; auto; rewrite ?G1; auto; lra.
      * apply IH; auto. lra.
Qed.
Lemma integrate_ends T n db log fuel u0 s0 : Inv (ode_init N u0 s0) -> 0 < dmin -> J (nofZ 0) -> val (nofZ 0) = 0 ->
  Forall ok db -> Forall (fun x => 0 <= val x) db -> ok T -> 0 < val T ->
  val T + dmin * INR (Datatypes.S (length db)) <= dmin * INR fuel ->
  exists o, integrate N V step helper payload (Some T) n true db log fuel (ode_init N u0 s0) = Ok o.
Proof.
  intros I0 Pm J0 V0 Hd Hp HT PT Hf. unfold integrate, integrate_T.
  destruct (targets db T) as (d & ds & A & B & C & E & F & G); auto; [apply J_ok; auto|].
  rewrite A. cbn [tl bind fst snd]. destruct (Hsnap (ode_init N u0 s0) I0) as (o1 & E1 & I1). rewrite E1. cbn [bind].
  destruct (snapshot_fields _ _ E1) as (G1 & G2 & G3 & G4). cbn in G1.
  assert (Fd := proj1 (F d) (or_introl eq_refl)). destruct Fd as [_ Pd].
  apply loop_ends; auto; rewrite ?G1, ?V0; auto.
  eapply Rle_trans; [|exact Hf].
  assert (INR (length (upto T (d :: ds))) <= INR (Datatypes.S (length db))).
  { apply le_INR. etransitivity; [|exact G]. unfold upto. clear. induction (d :: ds) as [|x l IH]; cbn; [lia|]. destruct (nleb x T); cbn; lia. }
  nra.
Qed.
End Loop.
