(** Runs in which every cell is treated as troubled, moved along a periodic axis. *)
From Coq Require Import ZArith List Bool Lia Reals Lra.
From Verif Require Import Err Num PySlice NdArray HydroM RiemannM StencilsM FvM BcM SedM
  LimitM OdeM SolverM Spec SpecBc SpecLim SpecSolver SpecCons SpecScheme SpecSym NdArrayP FvP BcP BcQ OpP SolverP OdeP RelP RelS LimP RunP ConsP
  BroadP ConvexP ExistP SchemeP SymP LimExistP SymLimP ShiftP.
Import ListNotations.
Open Scope Z_scope.

Section Forced.
Context (c : config RNum) (d : axis) (k : Z) (HT : tabulated c) (HC : closed c) (HB : both_ends B_periodic c d)
  (HL : c_limit c = true) (HK : known_options c) (HV : c_convex c = false \/ flat_box c) (HF : c_force c = true).
Local Notation n := (c_n c).
(** every face has the weight 1 *)
Lemma forced_weight (fl : ix -> Prop) th a i : (forall j, fl j) -> weighs c fl th -> active RNum c a = true -> in_shape (face_shape a n) i -> wgt th a i = 1%R.
Proof.
  intros FL W A I. specialize (W a i A I).
  assert (J : exists j, touches a i j /\ in_shape n j).
  { pose proof (I a) as Ia. assert (N1 : 1 <= getc a n) by apply HT. unfold face_shape in *. rewrite getc_setc_eq in Ia.
    destruct (Z.eq_dec (getc a i) (getc a n)) as [E|E].
    - exists (moved a (-1) i). split; [right; reflexivity|]. intro b. specialize (I b). unfold moved. destruct (axis_dec a b) as [<-|NE].
      + rewrite getc_setc_eq. lia.
      + rewrite getc_setc_ne in * by assumption. exact I.
    - exists i. split; [left; reflexivity|]. intro b. specialize (I b). destruct (axis_dec a b) as [<-|NE]; [lia|]. rewrite getc_setc_ne in I by assumption. exact I. }
  destruct J as (j & T & J). unfold face_value in W. destruct (c_convex c).
  - destruct W as [U V]. assert (B : blend_weight j j = 1%R).
    { unfold blend_weight. cbv zeta. rewrite !Z.sub_diag. reflexivity. }
    specialize (U j j T J (FL j)). rewrite B in U. destruct V as [V|(x & y & _ & _ & _ & V)]; [lra|].
    assert (blend_weight x y <= 1)%R by (unfold blend_weight; cbv zeta; repeat destr_if; lra). lra.
  - apply W. exists j. auto.
Qed.
Local Notation low E := (gsum RNum c (fun a => gflux RNum c (fallback_p RNum c) (c_limiter c) a E)).
Lemma forced_balance (fl : ix -> Prop) th E v i : (forall j, fl j) -> weighs c fl th -> in_shape n i -> gsum RNum c (mixed RNum c th E) v i = low E v i.
Proof.
  intros FL W I. apply (gsum_ext RNum c _ _ n); [exact I|]. intros a A v' j Hj. rewrite mixed_wgt, (forced_weight fl th a j FL W A Hj).
  match goal with |- @eq _ ?x ?y => change (@eq R x y) end. ring.
Qed.
Lemma degs_low a : deg_ok (getc a (fallback_p RNum c)).
Proof. apply (good_deg RNum c), good_fallback, tab_good, HT. Qed.
Lemma moves_low : moves RNum (fun E => low E).
Proof.
  pose proof degs_low as D. split.
  - intros s E v i. unfold gsum. generalize (@nofZ RNum 0).
    induction (dims RNum c) as [|d' ds IH]; intro z; cbn [fold_left]; [reflexivity|].
    rewrite IH. f_equal. f_equal. unfold gterm. rewrite !(gflux_shift RNum c (fallback_p RNum c) (c_limiter c) d' E s) by exact D.
    f_equal. f_equal. f_equal. rewrite setc_shift', getc_shift'. f_equal. f_equal. lia.
  - intros E E' v i H. unfold gsum. generalize (@nofZ RNum 0). induction (dims RNum c) as [|d' ds IH]; intro z; cbn [fold_left]; [reflexivity|].
    rewrite IH. f_equal. f_equal. unfold gterm. rewrite !(proj2 (moves_gflux RNum c (fallback_p RNum c) (c_limiter c) d' D) E E' _ _ H). reflexivity.
Qed.
Local Notation rel r := (related RNum c c r (M_turn RNum c d k)).
Local Notation E1 := (around RNum c d).
Local Notation W := (shiftf RNum (along d k)).
Lemma turn_in i : in_shape n i -> in_shape n (turn RNum c d k i).
Proof.
  pose proof (nd_pos RNum c d HT) as ND. intros Hj a. specialize (Hj a). unfold turn. destruct (axis_dec d a) as [<-|E].
  - rewrite getc_setc_eq. apply Z.mod_pos_bound. lia.
  - rewrite getc_setc_ne by assumption. exact Hj.
Qed.
Lemma copied_moved r u1 u2 : rel r u1 u2 -> forall v i, in_padded n (ghost_zones3 c) i -> copied RNum (c_bc c) n u2 v i = W (E1 u1) v i.
Proof.
  intros (R1 & R2 & S1 & S2 & V) v j Hj. apply around_turn; auto.
  split; [congruence|]. split; [congruence|]. intros w j' Hj'. rewrite S1 in *. apply V, Hj'.
Qed.
Lemma padded_moved r t u1 u2 : rel r u1 u2 -> pads RNum c t u2 (W (E1 u1)).
Proof.
  apply (pads_image RNum c c r (M_turn RNum c d k) (fun _ w => E1 w) (fun _ w => copied RNum (c_bc c) n w) W).
  - intros t' w _ Sw. apply closed_pads; auto.
  - intros t' w1 w2 H. apply (copied_moved r), H.
Qed.
Lemma limited_moved heap heap' r : 2 <= r -> forall x1 x2 s t u1 u2, auxes RNum (limiting RNum c r) (limiting RNum c r) x1 x2 -> rel r u1 u2 ->
  exists x1' x2' dt k1 k2, solver_f RNum c heap x1 s t u1 = Ok (x1', (dt, k1)) /\ solver_f RNum c heap' x2 s t u2 = Ok (x2', (dt, k2)) /\
    auxes RNum (limiting RNum c r) (limiting RNum c r) x1' x2' /\ rel r k1 k2.
Proof.
  intros Hr x1 x2 s t u1 u2 [A1 A2] H. pose proof H as (R1 & R2 & S1 & S2 & V).
  pose proof (padded_moved r s u1 u2 H) as PI.
  destruct (limited_rhs c HT HL HK r Hr s HV (fun _ _ => 0%R) (closed_fillable c _ r HC) heap x1 t u1 (E1 u1) A1 R1 S1 (pads_around RNum c d HT HC HB s u1 S1))
    as (x1' & dt1 & k1 & us1 & th1 & F1 & L1 & G1 & RK1 & SK1 & RU1 & SU1 & VU1 & W1 & VK1).
  destruct (limited_rhs c HT HL HK r Hr s HV (fun _ _ => 0%R) (closed_fillable c _ r HC) heap' x2 t u2 (W (E1 u1)) A2 R2 S2 PI)
    as (x2' & dt2 & k2 & us2 & th2 & F2 & L2 & G2 & RK2 & SK2 & RU2 & SU2 & VU2 & W2 & VK2).
  assert (DT : dt2 = dt1).
  { assert (Q : gdt RNum c (c_p c) (W (E1 u1)) = gdt RNum c (c_p c) (E1 u1)).
    { unfold gdt. destruct (c_fixed_dt c); [reflexivity|]. rewrite speed_turned by exact HT. reflexivity. }
    rewrite Q in G2. rewrite G1 in G2. injection G2 as ->. reflexivity. }
  subst dt2.
  specialize (W1 _ (pads_around RNum c d HT HC HB s us1 SU1)). specialize (W2 _ (closed_pads RNum c s us2 HT HC SU2)).
  exists x1', x2', dt1, k1, k2. split; [exact F1|]. split; [exact F2|]. split; [split; assumption|].
  split; [exact RK1|]. split; [exact RK2|]. split; [exact SK1|]. split; [exact SK2|]. intros v i Hi. unfold M_turn.
  rewrite VK2 by exact Hi. rewrite VK1 by (apply turn_in, Hi).
  rewrite (forced_balance _ th2 (W (E1 u1)) v i (fun j => or_introl HF) W2 Hi), (forced_balance _ th1 (E1 u1) v _ (fun j => or_introl HF) W1 (turn_in i Hi)).
  exact (moves_around RNum c d k HT (fun E => low E) u1 v i moves_low).
Qed.
Theorem translated_forced heap heap' i av T m exact db log fuel u u' : shp u = n -> 2 <= rows u -> translated d k u u' ->
  moved_outcome (N := RNum) (translated d k) (simulate c heap i av T m exact db log fuel u) (simulate c heap' i av T m exact db log fuel u').
Proof.
  intros S R TR.
  apply (gen_moved RNum c c heap heap' (rows u) HT HT (M_turn RNum c d k)) with
    (ok1 := fun _ => true) (ok2 := fun _ => true) (E1 := fun _ w => E1 w) (E2 := fun _ w => copied RNum (c_bc c) n w)
    (W := W) (A1 := limiting RNum c (rows u)) (A2 := limiting RNum c (rows u)).
  - intros f g H v j Hj. apply H, turn_in, Hj.
  - reflexivity.
  - reflexivity.
  - intros t w _ Sw. apply pads_around; auto.
  - intros t w _ Sw. apply closed_pads; auto.
  - reflexivity.
  - intros t u1 u2 H. apply (copied_moved (rows u)), H.
  - intros t u1 u2 _ v j Hj. apply (moves_around RNum c d k HT (gprim RNum c av)), moves_gprim, HT.
  - apply limiting_helper, HL.
  - apply limiting_helper, HL.
  - apply limiting_init.
  - apply limiting_init.
  - intros x1 x2 s t u1 u2 A H _. apply limited_moved; auto.
  - destruct TR as (R' & S' & V). repeat split; auto; [congruence|]. intros v j Hj. unfold M_turn, turn. rewrite S in V. apply V, Hj.
  - intros w1 w2 (R1 & R2 & S1 & S2 & V). split; [congruence|]. split; [congruence|]. intros v j Hj. rewrite S1 in *. apply V, Hj.
Qed.
End Forced.
