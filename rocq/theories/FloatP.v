(** Hitting target times in binary64 (C33). *)
From Coq Require Import ZArith List Bool Lia Reals Lra Psatz Sorted Floats.SpecFloat.
From Flocq Require Import Core Round Operations BinarySingleNaN Sterbenz.
From Verif Require Import Err Num NdArray OdeM SolverM SpecSolver SpecOde LoopP OdeT.
Import ListNotations.
Local Open Scope R_scope.

Local Notation prec := Num.prec.
Local Notation emax := Num.emax.
#[local] Instance Hprec : Prec_gt_0 prec := eq_refl.
#[local] Instance Hmax : Prec_lt_emax prec emax := eq_refl.
Local Notation bin := (binary_float prec emax).
Local Notation fexp := (SpecFloat.fexp prec emax).
Local Notation rnd := (round radix2 fexp ZnearestE).

Lemma nearest_even_eq s m l : round_nearest_even m l = choice_mode mode_NE s m l.
Proof.
  case l; [reflexivity|intro c]. case c; [ | reflexivity..]. now simpl; unfold Round.cond_incr; case Z.even.
Qed.
Lemma round_aux_eq sx mx ex lx :
  SpecFloat.binary_round_aux prec emax sx mx ex lx = binary_round_aux prec emax mode_NE sx mx ex lx.
Proof.
  unfold SpecFloat.binary_round_aux, binary_round_aux. set (mrse' := shr_fexp _ _ _ _ _).
  case mrse'; intros mrs' e'; simpl. now rewrite (nearest_even_eq sx).
Qed.
Lemma round_eq s m e : SpecFloat.binary_round prec emax s m e = binary_round prec emax mode_NE s m e.
Proof.
  unfold SpecFloat.binary_round, binary_round, shl_align_fexp.
  set (mez := shl_align _ _ _); case mez as [mz ez]. apply round_aux_eq.
Qed.
Lemma normalize_eq m e z : SpecFloat.binary_normalize prec emax m e z
  = B2SF (binary_normalize prec emax Hprec Hmax mode_NE m e z).
Proof.
  case m as [ | p | p]; [now simpl|..]; simpl; rewrite B2SF_SF2B; apply round_eq.
Qed.
Lemma add_eq (x y : bin) : SFadd prec emax (B2SF x) (B2SF y) = B2SF (Bplus mode_NE x y).
Proof.
  case x as [sx|sx| |sx mx ex Bx]; case y as [sy|sy| |sy my ey By];
  [now (trivial || simpl; case Bool.eqb).. | ]. apply normalize_eq.
Qed.
Lemma sub_eq (x y : bin) : SFsub prec emax (B2SF x) (B2SF y) = B2SF (Bminus mode_NE x y).
Proof.
  case x as [sx|sx| |sx mx ex Bx]; case y as [sy|sy| |sy my ey By];
  [now (trivial || simpl; case Bool.eqb).. | ]. simpl. unfold Zminus. rewrite <- cond_Zopp_negb. apply normalize_eq.
Qed.

Lemma fval_B2R (x : bin) : fval (B2SF x) = B2R x.
Proof.
  destruct x as [s|s| |s m e H]; try reflexivity. cbn. unfold F2R. cbn [Fnum Fexp].
  rewrite bpow_powerRZ. destruct s; cbn [cond_Zopp]; [change (Z.neg m) with (- Z.pos m)%Z; rewrite opp_IZR|];
  change (IZR radix2) with 2; ring.
Qed.
Lemma finite_bin x : finite64 x -> exists b : bin, x = B2SF b /\ is_finite b = true.
Proof.
  intros [V F]. exists (SF2B x V). split; [symmetry; apply B2SF_SF2B|]. destruct x; cbn in *; auto; contradiction.
Qed.
Lemma bin_finite (b : bin) : is_finite b = true -> finite64 (B2SF b).
Proof. intros H. split; [apply valid_binary_B2SF|]. destruct b; cbn in *; auto; discriminate. Qed.

Lemma fmt x : finite64 x -> generic_format radix2 fexp (fval x).
Proof. intros H. destruct (finite_bin x H) as (b & -> & _). rewrite fval_B2R. apply generic_format_B2R. Qed.
Lemma small x : finite64 x -> Rabs (fval x) < bpow radix2 emax.
Proof. intros H. destruct (finite_bin x H) as (b & -> & _). rewrite fval_B2R. apply abs_B2R_lt_emax. Qed.
Lemma rnd_fval x : finite64 x -> rnd (fval x) = fval x.
Proof. intros H. apply round_generic; [typeclasses eauto|]. apply fmt; auto. Qed.
Lemma rnd_mono x y : x <= y -> rnd x <= rnd y.
Proof. apply round_le; typeclasses eauto. Qed.

Lemma cmp_lt64 x y : finite64 x -> finite64 y -> SFltb x y = true <-> fval x < fval y.
Proof.
  intros Hx Hy. destruct (finite_bin x Hx) as (a & -> & Fa). destruct (finite_bin y Hy) as (b & -> & Fb).
  rewrite !fval_B2R. change (SFltb (B2SF a) (B2SF b)) with (Bltb a b). rewrite Bltb_correct by auto.
  destruct (Rlt_bool_spec (B2R a) (B2R b)); split; auto; intros; try discriminate; lra.
Qed.
Lemma cmp_le64 x y : finite64 x -> finite64 y -> SFleb x y = true <-> fval x <= fval y.
Proof.
  intros Hx Hy. destruct (finite_bin x Hx) as (a & -> & Fa). destruct (finite_bin y Hy) as (b & -> & Fb).
  rewrite !fval_B2R. change (SFleb (B2SF a) (B2SF b)) with (Bleb a b). rewrite Bleb_correct by auto.
  destruct (Rle_bool_spec (B2R a) (B2R b)); split; auto; intros; try discriminate; lra.
Qed.
Lemma cmp_eq64 x y : finite64 x -> finite64 y -> SFeqb x y = true <-> fval x = fval y.
Proof.
  intros Hx Hy. destruct (finite_bin x Hx) as (a & -> & Fa). destruct (finite_bin y Hy) as (b & -> & Fb).
  rewrite !fval_B2R. change (SFeqb (B2SF a) (B2SF b)) with (Beqb a b). rewrite Beqb_correct by auto.
  destruct (Req_bool_spec (B2R a) (B2R b)); split; auto; intros; try discriminate; lra.
Qed.
Lemma inj64 x y : finite64 x -> finite64 y -> fval x = fval y -> 0 < fval x -> x = y.
Proof.
  intros Hx Hy E P. destruct (finite_bin x Hx) as (a & -> & Fa). destruct (finite_bin y Hy) as (b & -> & Fb).
  rewrite !fval_B2R in *. f_equal. apply B2R_inj; auto.
  - destruct a; cbn in *; auto; lra.
  - destruct b; cbn in *; auto; lra.
Qed.

Lemma add64 x y z : finite64 x -> finite64 y -> finite64 z -> Rabs (fval x + fval y) <= fval z ->
  finite64 (SFadd prec emax x y) /\ fval (SFadd prec emax x y) = rnd (fval x + fval y).
Proof.
  intros Hx Hy Hz B. pose proof (small z Hz) as Sz.
  assert (L : Rabs (rnd (fval x + fval y)) < bpow radix2 emax).
  { eapply Rle_lt_trans; [|exact Sz]. rewrite <- (rnd_fval z Hz).
    assert (A : - fval z <= fval x + fval y <= fval z) by (split; unfold Rabs in B; destruct (Rcase_abs _) in B; lra).
    assert (Z0 : 0 <= rnd (fval z)). { rewrite rnd_fval by auto. pose proof (Rabs_pos (fval x + fval y)). lra. }
    rewrite (Rabs_right (rnd (fval z))) by lra. apply Rabs_le. split; [|apply rnd_mono; lra].
    replace (- rnd (fval z)) with (rnd (- fval z)); [apply rnd_mono; lra|]. apply round_NE_opp. }
  destruct (finite_bin x Hx) as (a & -> & Fa). destruct (finite_bin y Hy) as (b & -> & Fb).
  rewrite !fval_B2R in *. pose proof (Bplus_correct prec emax Hprec Hmax mode_NE a b Fa Fb) as H.
  cbn [round_mode] in H. rewrite Rlt_bool_true in H by exact L. destruct H as (H1 & H2 & _).
  rewrite add_eq. split; [apply bin_finite; auto|]. rewrite fval_B2R. exact H1.
Qed.
Lemma sub64 x y z : finite64 x -> finite64 y -> finite64 z -> Rabs (fval x - fval y) <= fval z ->
  finite64 (SFsub prec emax x y) /\ fval (SFsub prec emax x y) = rnd (fval x - fval y).
Proof.
  intros Hx Hy Hz B. pose proof (small z Hz) as Sz.
  assert (L : Rabs (rnd (fval x - fval y)) < bpow radix2 emax).
  { eapply Rle_lt_trans; [|exact Sz]. rewrite <- (rnd_fval z Hz).
    assert (A : - fval z <= fval x - fval y <= fval z) by (split; unfold Rabs in B; destruct (Rcase_abs _) in B; lra).
    assert (Z0 : 0 <= rnd (fval z)). { rewrite rnd_fval by auto. pose proof (Rabs_pos (fval x - fval y)). lra. }
    rewrite (Rabs_right (rnd (fval z))) by lra. apply Rabs_le. split; [|apply rnd_mono; lra].
    replace (- rnd (fval z)) with (rnd (- fval z)); [apply rnd_mono; lra|]. apply round_NE_opp. }
  destruct (finite_bin x Hx) as (a & -> & Fa). destruct (finite_bin y Hy) as (b & -> & Fb).
  rewrite !fval_B2R in *. pose proof (Bminus_correct prec emax Hprec Hmax mode_NE a b Fa Fb) as H.
  cbn [round_mode] in H. rewrite Rlt_bool_true in H by exact L. destruct H as (H1 & H2 & _).
  rewrite sub_eq. split; [apply bin_finite; auto|]. rewrite fval_B2R. exact H1.
Qed.

(** the difference is exact when t is at least half the target *)
Lemma exact_difference t T : finite64 t -> finite64 T -> fval T / 2 <= fval t <= fval T ->
  rnd (fval T - fval t) = fval T - fval t.
Proof.
  intros Ht HT [A B]. apply round_generic; [typeclasses eauto|].
  apply sterbenz; [apply (fexp_correct prec emax Hprec)|apply fexp_monotone|apply fmt; auto..|lra].
Qed.
Lemma sterbenz_step t T : finite64 t -> finite64 T -> 0 < fval T -> fval T / 2 <= fval t <= fval T ->
  nadd (n := FNum) t (nsub (n := FNum) T t) = T.
Proof.
  intros Ht HT P B. change (SFadd prec emax t (SFsub prec emax T t) = T).
  destruct (sub64 T t T) as [F1 E1]; auto. { rewrite Rabs_right; lra. }
  rewrite exact_difference in E1 by auto.
  destruct (add64 t (SFsub prec emax T t) T) as [F2 E2]; auto. { rewrite E1, Rabs_right; lra. }
  apply inj64; auto; rewrite E2, E1; replace (fval t + (fval T - fval t)) with (fval T) by ring; rewrite rnd_fval; auto.
Qed.

(** ** runs with a constant time step *)
Section Fixed.
Context {U S D : Type} (V : vops FNum U) (f : S -> f64 -> f64 -> U -> res (S * (f64 * U))) (i : integrator)
  (helper : S -> S) (payload : S -> f64 -> U -> res D) (h : f64).
Context (Hh : finite64 h) (Ph : 0 < fval h) (Hf : proposes (N := FNum) f (fun dt => dt = h)).
Local Notation step := (stepper_of FNum V f i).
Definition timely (x : f64) : Prop := finite64 x /\ (fval x = 0 \/ fval h <= fval x).
Lemma step_F (o o1 : @ode FNum U S D) (d : f64) : timely (o_t o) -> timely d -> fval (o_t o) < fval d ->
  take_step FNum V step helper o (Some d) = Ok o1 ->
  timely (o_t o1) /\ fval (o_t o) <= fval (o_t o1) /\ fval (o_t o) <= fval (o_t o1) <= fval d /\
  (0 <= fval (o_t o1) - fval (o_t o) \/ fval (o_t o1) = fval d).
Proof.
  intros [F0 L0] [Fd Ld] Hlt H. destruct (take_step_t V f i helper o o1 (Some d) H) as (s & h' & k & E & Et).
  apply Hf in E. subst h'. revert Et. generalize (o_t o1). revert F0 L0 Hlt. generalize (o_t o). clear - Hh Ph Fd Ld.
  intros t F0 L0 Hlt t1 Et.
  assert (T0 : 0 <= fval t) by (destruct L0; lra).
  destruct (sub64 d t d) as [Fr Er]; auto. { rewrite Rabs_right; lra. }
  set (r := SFsub prec emax d t) in *.
  assert (Main : exists z, (if SFltb r h then r else h) = z /\ finite64 z /\ fval t <= fval t + fval z <= fval d /\ fval h <= rnd (fval t + fval z)).
  { destruct (SFltb r h) eqn:Elt.
    - apply cmp_lt64 in Elt; auto. exists r. split; [auto|]. split; [auto|].
      destruct L0 as [L0|L0].
      + rewrite Er, L0, Rminus_0_r, rnd_fval by auto. rewrite Rplus_0_l, rnd_fval by auto. destruct Ld; lra.
      + assert (fval d - fval t <= fval t).
        { destruct (Rle_dec (fval d - fval t) (fval t)) as [|Q]; auto. exfalso.
          assert (fval t <= rnd (fval d - fval t)). { rewrite <- (rnd_fval t) at 1 by auto. apply rnd_mono. lra. }
          lra. }
        rewrite Er, exact_difference by (auto; lra).
        replace (fval t + (fval d - fval t)) with (fval d) by ring. rewrite rnd_fval by auto. destruct Ld; lra.
    - assert (Elt' : fval h <= fval r). { destruct (Rle_dec (fval h) (fval r)); auto. exfalso. assert (SFltb r h = true) by (apply cmp_lt64; auto; lra). congruence. }
      exists h. split; [auto|]. split; [auto|]. split.
      + split; [lra|]. destruct L0 as [L0|L0].
        * rewrite Er, L0, Rminus_0_r, rnd_fval in Elt' by auto. lra.
        * destruct (Rle_dec (fval d / 2) (fval t)).
          -- rewrite Er, exact_difference in Elt' by (auto; lra). lra.
          -- lra.
      + rewrite <- (rnd_fval h) at 1 by auto. apply rnd_mono. lra. }
  assert (Et' : t1 = SFadd prec emax t (if SFltb r h then r else h)) by exact Et.
  destruct Main as (z & Ez & Fz & Bz & Mz). rewrite Ez in Et'. clear Et. subst t1.
  destruct (add64 t z d) as [Fa Ea]; auto. { rewrite Rabs_right; lra. }
  assert (fval t <= rnd (fval t + fval z)). { rewrite <- (rnd_fval t) at 1 by auto. apply rnd_mono. lra. }
  assert (rnd (fval t + fval z) <= fval d). { rewrite <- (rnd_fval d) by auto. apply rnd_mono. lra. }
  rewrite Ea. split; [split; [auto|right; rewrite Ea; auto]|]. repeat split; auto. left. lra.
Qed.

Lemma timely_pos x : timely x -> timely x /\ 0 <= fval x.
Proof. intros H. split; auto. destruct H as [_ [H|H]]; lra. Qed.
Lemma timely_0 : timely (nofZ (n := FNum) 0).
Proof. split; [split; [reflexivity|exact I]|]. left. reflexivity. Qed.

Lemma fixed_run u0 s0 (o : @ode FNum U S D) T n db fuel :
  Forall timely db -> finite64 T -> fval h <= fval T ->
  integrate FNum V step helper payload (Some T) n true db false fuel (ode_init FNum u0 s0) = Ok o ->
  o_t o = T /\ exists tt, times o = nofZ (n := FNum) 0 :: tt /\ increasing (map fval tt) /\
    (forall x, In x tt <-> (In x db /\ 0 < fval x < fval T) \/ x = T) /\
    nondecreasing (map fval (o_stamps o)).
Proof.
  intros Hdb FT HT H.
  assert (Q := integrate_exact FNum V step helper payload timely fval timely Rle 0
    (fun x y a b => cmp_lt64 x y (proj1 a) (proj1 b)) (fun x y a b => cmp_le64 x y (proj1 a) (proj1 b))
    (fun x y a b => cmp_eq64 x y (proj1 a) (proj1 b)) (fun x y a b => inj64 x y (proj1 a) (proj1 b))
    timely_pos Rle_trans (Rle_refl 0) step_F T n db false fuel (ode_init FNum u0 s0) o timely_0 eq_refl timely_0 Hdb).
  destruct Q as (X1 & ss & tt & X2 & X3 & X4 & X5 & X6 & X7 & X8 & X9); auto.
  { eapply Forall_impl; [|exact Hdb]. intros a [_ [A|A]]; [left; auto|right]. change (0 < fval a). lra. }
  { split; auto. }
  { change (0 < fval T). lra. }
  split; [auto|]. exists tt. split; [rewrite X6; reflexivity|]. split.
  { clear - X7. unfold sorted in X7. unfold increasing. induction X7 as [|x l Hl IH Hx]; cbn; constructor; auto.
    apply Forall_map. exact Hx. }
  split.
  { intros x. rewrite X8. change (fval (o_t (ode_init FNum u0 s0))) with 0. reflexivity. }
  rewrite X2. change (o_stamps (ode_init FNum u0 s0) ++ ss) with (nofZ (n := FNum) 0 :: ss).
  clear - X3. unfold path in X3. change (o_t (ode_init FNum u0 s0)) with (nofZ (n := FNum) 0) in X3.
  unfold nondecreasing. revert X3. generalize (nofZ (n := FNum) 0 :: ss). intros l X3.
  induction X3 as [|x l Hl IH Hx]; cbn; constructor; auto. apply Forall_map. exact Hx.
Qed.
End Fixed.

Lemma solver_fixed_run (c : config FNum) heap i avg T n db fuel u0 (o : run FNum) h :
  c_fixed_dt c = Some h -> finite64 h -> 0 < fval h ->
  Forall (fun x => finite64 x /\ (fval x = 0 \/ fval h <= fval x)) db -> finite64 T -> fval h <= fval T ->
  simulate c heap i avg (Some T) n true db false fuel u0 = Ok o ->
  o_t o = T /\ exists tt, times o = nofZ (n := FNum) 0 :: tt /\ increasing (map fval tt) /\
    (forall x, In x tt <-> (In x db /\ 0 < fval x < fval T) \/ x = T) /\
    nondecreasing (map fval (o_stamps o)).
Proof.
  intros Hc Fh Ph Hdb FT HT H. unfold simulate, solver_integrate, solver_step in H.
  eapply (fixed_run (arr_ops FNum) (solver_f FNum c heap) i _ _ h); eauto. apply solver_fixed. exact Hc.
Qed.

(** ** misses *)
Definition fl (a b : Z) : f64 := ndiv (n := FNum) (nofZ a) (nofZ b).
(** T = 0.9 with a downbeat at 0.3: the run ends past T *)
Lemma overshoot : exists o : @ode FNum f64 unit unit,
  clock_run (N := FNum) (fl 1 1) I_euler (Some (fl 9 10)) None true [fl 3 10] false 9 (ode_init FNum (fl 0 1) tt) = Ok o /\
  (SFltb (fl 9 10) (o_t o), length (times o)) = (true, 3%nat).
Proof. apply (looked_ok (fun o : @ode FNum f64 unit unit => (SFltb (fl 9 10) (o_t o), length (times o)))). vm_compute. reflexivity. Qed.
(** with the larger end time 2 the run takes a step backwards to reach 0.9 *)
Lemma steps_back : exists (o : @ode FNum f64 unit unit),
  clock_run (N := FNum) (fl 1 1) I_euler (Some (fl 2 1)) None true [fl 3 10; fl 9 10] false 9 (ode_init FNum (fl 0 1) tt) = Ok o /\
  map (fun p => SFltb (snd p) (fst p)) (combine (o_stamps o) (tl (o_stamps o))) = [false; false; true; false; false].
Proof. apply (looked_ok (fun o : @ode FNum f64 unit unit => map (fun p => SFltb (snd p) (fst p)) (combine (o_stamps o) (tl (o_stamps o))))). vm_compute. reflexivity. Qed.
