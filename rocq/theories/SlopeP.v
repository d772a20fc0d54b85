(** The slope limiters over the reals. *)
From Coq Require Import ZArith List Bool Lia Reals Lra Psatz.
From Verif Require Import Err Num PySlice NdArray FvM LimitM HydroP OpP.
Open Scope R_scope.
Local Ltac ringR := cbn [car RNum]; match goal with |- @eq _ ?a ?b => change (@eq R a b) end; ring.

Local Notation tny := (tiny RNum).
Lemma tiny_pos : 0 < tny.
Proof. unfold tiny. rn. apply Rdiv_lt_0_compat; [lra|]. apply IZR_lt. reflexivity. Qed.

Lemma minmod_opp (a b : R) : minmod RNum (- a) (- b) = - minmod RNum a b.
Proof.
  unfold minmod. rn. pose proof tiny_pos as TP. set (t := tny) in *.
  destruct (Rtotal_order a 0) as [H|[->|H]].
  - assert (D : (if Rltb 0 (- a) then if Rltb t (- a) then - a else t else if Rltb (- a) (- t) then - a else - t)
      = - (if Rltb 0 a then if Rltb t a then a else t else if Rltb a (- t) then a else - t)).
    { repeat match goal with |- context [Rltb ?x ?y] => destruct (Rltb x y) eqn:? end; rb; lra. }
    rewrite D. set (q := if Rltb 0 a then _ else _) in *. replace (- b / - q) with (b / q).
    2:{ assert (q <> 0). { unfold q. repeat match goal with |- context [Rltb ?x ?y] => destruct (Rltb x y) eqn:? end; rb; lra. }
        field. assumption. }
    ringR.
  - rewrite !Ropp_0. ringR.
  - assert (D : (if Rltb 0 (- a) then if Rltb t (- a) then - a else t else if Rltb (- a) (- t) then - a else - t)
      = - (if Rltb 0 a then if Rltb t a then a else t else if Rltb a (- t) then a else - t)).
    { repeat match goal with |- context [Rltb ?x ?y] => destruct (Rltb x y) eqn:? end; rb; lra. }
    rewrite D. set (q := if Rltb 0 a then _ else _) in *. replace (- b / - q) with (b / q).
    2:{ assert (q <> 0). { unfold q. repeat match goal with |- context [Rltb ?x ?y] => destruct (Rltb x y) eqn:? end; rb; lra. }
        field. assumption. }
    ringR.
Qed.
Lemma div_le a b c : 0 < b -> (a / b <= c <-> a <= c * b).
Proof.
  intro Hb. split; intro H.
  - apply (Rmult_le_compat_r b) in H; [|lra]. replace (a / b * b) with a in H by (field; lra). exact H.
  - apply (Rmult_le_reg_r b); [lra|]. replace (a / b * b) with a by (field; lra). exact H.
Qed.
Lemma div_lt a b c : 0 < b -> (a / b < c <-> a < c * b).
Proof.
  intro Hb. split; intro H.
  - apply (Rmult_lt_compat_r b) in H; [|lra]. replace (a / b * b) with a in H by (field; lra). exact H.
  - apply (Rmult_lt_reg_r b); [lra|]. replace (a / b * b) with a by (field; lra). exact H.
Qed.
Lemma minmod_pos (a b : R) : 0 < a -> minmod RNum a b = if Rltb 0 b then Rmin (Rmin a b) (a * b / tny) else 0.
Proof.
  intro Ha. unfold minmod. rn. pose proof tiny_pos as TP. set (t := tny) in *.
  replace (Rltb 0 a) with true by (symmetry; apply Rltb_true; exact Ha).
  assert (Q : forall q, 0 < q -> a <= q -> (if Rltb t a then q = a else q = t) ->
    (if Rltb 0 (if Rltb (b / q) 1 then b / q else 1) then if Rltb (b / q) 1 then b / q else 1 else 0) * a =
    (if Rltb 0 b then Rmin (Rmin a b) (a * b / t) else 0)).
  { intros q Hq Ha' EQ. destruct (Rltb 0 b) eqn:B; rb.
    - assert (0 < b / q) by (apply Rdiv_lt_0_compat; lra).
      destruct (Rltb (b / q) 1) eqn:B1; rb.
      + replace (Rltb 0 (b / q)) with true by (symmetry; apply Rltb_true; assumption).
        apply div_lt in B1; [|lra]. destruct (Rltb t a) eqn:TA; rb; subst q.
        * replace (b / a * a) with b by (field; lra). rewrite (Rmin_right a b) by lra. symmetry. apply Rmin_left.
          apply (Rmult_le_reg_r t); [lra|]. replace (a * b / t * t) with (a * b) by (field; lra). nra.
        * replace (b / t * a) with (a * b / t) by (field; lra). symmetry. apply Rmin_right.
          apply Rmin_glb; apply div_le; try lra; nra.
      + replace (Rltb 0 1) with true by (symmetry; apply Rltb_true; lra).
        assert (q <= b). { destruct (Rle_lt_dec q b); [assumption|]. exfalso. apply (Rlt_irrefl 1). apply Rle_lt_trans with (b / q); [assumption|]. apply div_lt; lra. }
        rewrite Rmin_left with (x := a) by lra. rewrite Rmult_1_l. symmetry. apply Rmin_left.
        destruct (Rltb t a) eqn:TA; rb; subst q; apply (Rmult_le_reg_r t); try lra; replace (a * b / t * t) with (a * b) by (field; lra); nra.
    - assert (X : b / q <= 0) by (apply div_le; lra).
      replace (Rltb (b / q) 1) with true by (symmetry; apply Rltb_true; lra).
      replace (Rltb 0 (b / q)) with false by (symmetry; apply Rltb_false; lra). ringR. }
  destruct (Rltb t a) eqn:TA; rb; [apply Q; try lra; reflexivity|apply Q; try lra; reflexivity].
Qed.
Lemma minmod_0l b : minmod RNum 0 b = 0.
Proof. unfold minmod. rn. apply Rmult_0_r. Qed.
Lemma minmod_sym (a b : R) : minmod RNum a b = minmod RNum b a.
Proof.
  assert (P : forall a b, 0 < a -> minmod RNum a b = minmod RNum b a).
  { clear. intros a b Ha. rewrite minmod_pos by assumption. destruct (Rltb 0 b) eqn:B; rb.
    - rewrite minmod_pos by assumption. replace (Rltb 0 a) with true by (symmetry; apply Rltb_true; exact Ha).
      rewrite (Rmin_comm a b), (Rmult_comm a b). reflexivity.
    - destruct (Req_dec b 0) as [->|N0]; [symmetry; apply minmod_0l|].
      rewrite <- (Ropp_involutive a), <- (Ropp_involutive b), minmod_opp, minmod_pos by lra.
      replace (Rltb 0 (- a)) with false by (symmetry; apply Rltb_false; lra). ringR. }
  destruct (Rtotal_order a 0) as [H|[->|H]].
  - rewrite <- (Ropp_involutive a), <- (Ropp_involutive b), (minmod_opp (- a)), (minmod_opp (- b)). f_equal. apply P. lra.
  - rewrite minmod_0l. destruct (Rtotal_order b 0) as [H|[->|H]].
    + rewrite <- (Ropp_involutive b), <- Ropp_0, minmod_opp, minmod_pos by lra. replace (Rltb 0 0) with false by (symmetry; apply Rltb_false; lra). ringR.
    + symmetry. apply minmod_0l.
    + rewrite minmod_pos by lra. replace (Rltb 0 0) with false by (symmetry; apply Rltb_false; lra). reflexivity.
  - apply P. assumption.
Qed.

Lemma nsign_opp (x : R) : @nsign RNum (- x) = - @nsign RNum x.
Proof.
  unfold nsign. rn. repeat match goal with |- context [Rltb ?x ?y] => destruct (Rltb x y) eqn:? | |- context [Reqb ?x ?y] => destruct (Reqb x y) eqn:? end; rb; lra.
Qed.
Lemma moncen_sym (a b : R) : moncen RNum a b = moncen RNum b a.
Proof. unfold moncen. rn. rewrite (Rplus_comm a b), (Rmult_comm a b), (Rmin_comm (Rabs (2 * a))). reflexivity. Qed.
Lemma moncen_opp (a b : R) : moncen RNum (- a) (- b) = - moncen RNum a b.
Proof.
  unfold moncen, nhalf. rn. replace (1 / 2 * (- a + - b)) with (- (1 / 2 * (a + b))) by ringR.
  replace (2 * - a) with (- (2 * a)) by ringR. replace (2 * - b) with (- (2 * b)) by ringR. replace (- a * - b) with (a * b) by ringR.
  rewrite nsign_opp, !Rabs_Ropp. destruct (Rleb 0 (a * b)); ringR.
Qed.
Lemma slope_sym l (a b : R) : slope_fn RNum l a b = slope_fn RNum l b a.
Proof. destruct l; cbn [slope_fn limited_slope]; [apply minmod_sym|apply moncen_sym| |reflexivity]. unfold slope_fn, limited_slope. rn. rewrite Rplus_comm. reflexivity. Qed.
Lemma slope_opp l (a b : R) : slope_fn RNum l (- a) (- b) = - slope_fn RNum l a b.
Proof.
  destruct l; cbn [slope_fn limited_slope]; [apply minmod_opp|apply moncen_opp| |].
  - unfold slope_fn, limited_slope. rn. ringR.
  - unfold slope_fn, limited_slope. rn. ringR.
Qed.

(** ** bounds *)
Lemma minmod_bounds (a b : R) : a * b <= 0 /\ minmod RNum a b = 0 \/
  0 < a * b /\ Rabs (minmod RNum a b) <= Rmin (Rabs a) (Rabs b) /\ 0 < minmod RNum a b * a.
Proof.
  assert (P : forall a b, 0 < a -> a * b <= 0 /\ minmod RNum a b = 0 \/
    0 < a * b /\ Rabs (minmod RNum a b) <= Rmin (Rabs a) (Rabs b) /\ 0 < minmod RNum a b * a).
  { clear. intros a b Ha. rewrite minmod_pos by assumption. destruct (Rltb 0 b) eqn:B; rb.
    - right. pose proof tiny_pos. assert (0 < a * b) by nra. assert (0 < a * b / tny) by (apply Rdiv_lt_0_compat; lra).
      assert (0 < Rmin (Rmin a b) (a * b / tny)) by (apply Rmin_glb_lt; [apply Rmin_glb_lt|]; assumption).
      split; [assumption|]. rewrite !Rabs_right by lra. split; [apply Rmin_l|nra].
    - left. split; [nra|reflexivity]. }
  destruct (Rtotal_order a 0) as [H|[->|H]].
  - destruct (P (- a) (- b) ltac:(lra)) as [[H1 H2]|(H1 & H2 & H3)]; rewrite minmod_opp in *.
    + left. split; lra.
    + right. rewrite !Rabs_Ropp in H2. split; [lra|]. split; [exact H2|lra].
  - left. rewrite minmod_0l. lra.
  - apply P. exact H.
Qed.
Lemma moncen_bounds (a b : R) : a * b <= 0 /\ moncen RNum a b = 0 \/
  0 < a * b /\ Rabs (moncen RNum a b) <= 2 * Rmin (Rabs a) (Rabs b) /\ 0 < moncen RNum a b * a.
Proof.
  unfold moncen, nhalf, nsign. rn. destruct (Rle_lt_dec (a * b) 0) as [H|H].
  - left. split; [exact H|]. destruct (Rleb 0 (a * b)) eqn:E; rb; [|reflexivity].
    assert (a * b = 0) by lra. assert (X : Rmin (Rmin (Rabs (2 * a)) (Rabs (2 * b))) (Rabs (1 / 2 * (a + b))) = 0).
    { apply Rmult_integral in H0. destruct H0; subst; rewrite Rmult_0_r, Rabs_R0;
        [rewrite (Rmin_left 0) by apply Rabs_pos|rewrite (Rmin_right _ 0) by apply Rabs_pos]; apply Rmin_left, Rabs_pos. }
    rewrite X. apply Rmult_0_r.
  - right. split; [exact H|]. replace (Rleb 0 (a * b)) with true by (symmetry; apply Rleb_true; lra).
    assert (C : 0 < a /\ 0 < b \/ a < 0 /\ b < 0) by (destruct (Rtotal_order a 0) as [?|[?|?]]; [right|exfalso|left]; nra).
    destruct C as [[Ha Hb]|[Ha Hb]].
    + replace (Rltb 0 (1 / 2 * (a + b))) with true by (symmetry; apply Rltb_true; lra).
      rewrite !(Rabs_right (2 * _)), (Rabs_right (1 / 2 * _)), (Rabs_right a), (Rabs_right b) by lra. rewrite Rmult_1_l.
      assert (0 < Rmin (Rmin (2 * a) (2 * b)) (1 / 2 * (a + b))) by (repeat apply Rmin_glb_lt; lra).
      split; [|nra]. rewrite Rabs_right by lra. eapply Rle_trans; [apply Rmin_l|]. unfold Rmin. repeat destruct (Rle_dec _ _); lra.
    + replace (Rltb 0 (1 / 2 * (a + b))) with false by (symmetry; apply Rltb_false; lra).
      replace (Rltb (1 / 2 * (a + b)) 0) with true by (symmetry; apply Rltb_true; lra).
      rewrite !(Rabs_left (2 * _)), (Rabs_left (1 / 2 * _)), (Rabs_left a), (Rabs_left b) by lra.
      assert (0 < Rmin (Rmin (- (2 * a)) (- (2 * b))) (- (1 / 2 * (a + b)))) by (repeat apply Rmin_glb_lt; lra).
      split; [|nra]. rewrite Rabs_left by lra. eapply Rle_trans; [|]. 2:{ instantiate (1 := Rmin (- (2 * a)) (- (2 * b))). unfold Rmin. repeat destruct (Rle_dec _ _); lra. }
      match goal with |- - (-1 * ?x) <= _ => replace (- (-1 * x)) with x by ring end. apply Rmin_l.
Qed.
