(** Closed form of BoundaryCondition.apply. *)
From Coq Require Import ZArith List Bool Lia.
From Verif Require Import Err Num PySlice NdArray NdArrayP HydroM FvM BcM SpecBc SpecMesh.
Import ListNotations.
Open Scope Z_scope.

Section BcP.
Context (N : Num).
Local Notation K := (car N).

Definition in_side (n g : Z) (pos : side) (k : Z) : bool :=
  match pos with SL => (0 <=? k) && (k <? g) | SR => (n + g <=? k) && (k <? n + 2 * g) end.

Lemma outer_sl n g pos : 0 < g -> 0 <= n ->
  slice_adjust (n + 2 * g) (outer_cut g pos)
  = mkext (match pos with SL => 0 | SR => n + g end) g 1.
Proof.
  intros. destruct pos; cbn [outer_cut].
  - apply sl_lo. lia.
  - rewrite sl_hi by lia. f_equal. lia.
Qed.
Lemma outer_test n g pos k :
  (match pos with SL => 0 | SR => n + g end <=? k)
   && (k <? match pos with SL => 0 | SR => n + g end + g) = in_side n g pos k.
Proof. destruct pos; cbn [in_side]; f_equal; try reflexivity. f_equal. lia. Qed.

Lemma setc_setc' a x y (i : ix) : setc a x (setc a y i) = setc a x i.
Proof. apply setc_setc. Qed.

Lemma set_free_is (u : arr K) n g a pos :
  getc a (shp u) = n + 2 * g -> 0 < g -> 1 <= n ->
  res_is (set_free_bc N u g a pos) (rows u) (shp u)
    (fun v i => if in_side n g pos (getc a i)
                then at_ u v (setc a (match pos with SL => g | SR => n + g - 1 end) i)
                else at_ u v i).
Proof.
  intros S G Nn. unfold set_free_bc.
  eapply res_is_ext.
  - eapply assign_slice_bcast with (st := match pos with SL => 0 | SR => n + g end) (ln := g).
    + rewrite S. apply outer_sl; lia.
    + lia.
    + assert (V : slice_adjust (getc a (shp u))
         match pos with SL => cut g (g + 1) | SR => cut (- (g + 1)) (- g) end
         = mkext (match pos with SL => g | SR => n + g - 1 end) 1 1).
      { rewrite S. destruct pos.
        - rewrite sl_mid by lia. f_equal; lia.
        - rewrite sl_midneg by lia. f_equal; lia. }
      exact (view_is a _ u _ _ V).
  - intros v i. cbv beta. rewrite outer_test.
    destruct (in_side n g pos (getc a i)) eqn:E; auto.
    rewrite getc_setc_eq, setc_setc. f_equal. f_equal.
    destruct (Z.eqb_spec g 1); destruct pos; cbn [in_side] in E; zb; lia.
Qed.

Lemma set_symmetric_is (u : arr K) n g a pos neg :
  getc a (shp u) = n + 2 * g -> 0 < g <= n ->
  res_is (set_symmetric_bc N u g a pos neg) (rows u) (shp u)
    (fun v i => if in_side n g pos (getc a i)
                then let x := at_ u v (setc a (match pos with SL => 2 * g - 1 | SR => 2 * (n + g) - 1 end - getc a i) i) in
                     match neg with
                     | Some r => if v =? r then nmul x (nofZ (-1)) else x
                     | None => x
                     end
                else at_ u v i).
Proof.
  intros S G. unfold set_symmetric_bc.
  set (inner := match pos with SL => cut g (2 * g) | SR => cut (- 2 * g) (- g) end).
  assert (V : slice_adjust (getc a (shp u)) inner = mkext (match pos with SL => g | SR => n end) g 1).
  { unfold inner. rewrite S. destruct pos.
    - rewrite sl_mid by lia. f_equal; lia.
    - replace (- 2 * g) with (- (2 * g)) by lia. rewrite sl_midneg by lia. f_equal; lia. }
  pose proof (view_is a _ u _ _ V) as (Rv & Sv & Fv).
  assert (W : is_arr (view a (cut_step 0 0 (-1)) (view a inner u)) (rows u) (setc a g (shp u))
      (fun v i => at_ u v (setc a (match pos with SL => g | SR => n end + (g - 1 - getc a i)) i))).
  { repeat split.
    - unfold view at 1. cbn [shp]. rewrite Sv, getc_setc_eq, sl_flip by lia. cbn [ex_len].
      rewrite setc_setc. reflexivity.
    - intros v i. unfold view at 1. cbn [at_]. rewrite Sv, getc_setc_eq, sl_flip by lia.
      cbn [ex_start ex_step]. rewrite Fv, getc_setc_eq, setc_setc. f_equal; try (f_equal; lia). }
  pose proof (assign_slice_is a (outer_cut g pos) u _ (match pos with SL => 0 | SR => n + g end) g _
    ltac:(rewrite S; apply outer_sl; lia) W) as (c & Hc & Rc & Sc & Fc).
  rewrite Hc. cbn [bind].
  assert (Fc' : forall v i, at_ c v i = if in_side n g pos (getc a i)
     then at_ u v (setc a (match pos with SL => 2 * g - 1 | SR => 2 * (n + g) - 1 end - getc a i) i)
     else at_ u v i).
  { intros v i. rewrite Fc, outer_test. destruct (in_side n g pos (getc a i)) eqn:E; auto.
    rewrite getc_setc_eq, setc_setc. f_equal. f_equal. destruct pos; lia. }
  destruct neg as [r|].
  - eexists; split; [reflexivity|]. unfold update_row_slice. cbn [rows shp at_]. repeat split; auto.
    intros v i. cbn [at_]. rewrite Sc, S, outer_sl by lia. cbn [ex_start ex_len].
    rewrite <- andb_assoc, outer_test, Fc'.
    destruct (v =? r), (in_side n g pos (getc a i)); reflexivity.
  - eexists; split; [reflexivity|]. repeat split; auto.
Qed.

Lemma set_periodic_is (u : arr K) n g a :
  getc a (shp u) = n + 2 * g -> 0 < g <= n ->
  res_is (set_periodic_bc N u g a) (rows u) (shp u)
    (fun v i => if in_side n g SR (getc a i) then at_ u v (setc a (getc a i - n) i)
                else if in_side n g SL (getc a i) then at_ u v (setc a (getc a i + n) i)
                else at_ u v i).
Proof.
  intros S G. unfold set_periodic_bc.
  assert (V1 : slice_adjust (getc a (shp u)) (cut (- 2 * g) (- g)) = mkext n g 1).
  { rewrite S. replace (- 2 * g) with (- (2 * g)) by lia. rewrite sl_midneg by lia. f_equal; lia. }
  pose proof (view_is a _ u _ _ V1) as I1.
  pose proof (assign_slice_is a (cut 0 g) u _ 0 g _ ltac:(rewrite S; apply sl_lo; lia) I1)
    as (c & Hc & Rc & Sc & Fc).
  rewrite Hc. cbn [bind].
  assert (V2 : slice_adjust (getc a (shp c)) (cut g (2 * g)) = mkext g g 1).
  { rewrite Sc, S. rewrite sl_mid by lia. f_equal; lia. }
  pose proof (view_is a _ c _ _ V2) as I2.
  pose proof (assign_slice_is a (cut (- g) 0) c _ (n + g) g _
    ltac:(rewrite Sc, S; rewrite sl_hi by lia; f_equal; lia) I2) as (c2 & Hc2 & Rc2 & Sc2 & Fc2).
  exists c2. split; auto. repeat split; try congruence.
  intros v i. rewrite Fc2, !Fc. cbn [in_side]. rewrite !getc_setc_eq, !setc_setc.
  repeat match goal with |- context [Z.leb ?x ?y] => destruct (Z.leb_spec x y) end;
  repeat match goal with |- context [Z.ltb ?x ?y] => destruct (Z.ltb_spec x y) end;
  cbn [andb]; try lia; f_equal; f_equal; lia.
Qed.

(** ** Dirichlet values *)
Lemma trim_sl a ax pos n g B :
  0 <= g <= B -> 0 <= n -> (a = ax -> 0 < g) ->
  slice_adjust (if axis_eqb a ax then B else n + 2 * B) (trim_cut a ax pos g (B - g))
  = mkext (if axis_eqb a ax then match pos with SL => B - g | SR => 0 end else B - g)
          (if axis_eqb a ax then g else n + 2 * g) 1.
Proof.
  intros H Hn Ha. unfold trim_cut. destruct (axis_eqb a ax) eqn:E.
  - apply axis_eqb_eq in E. specialize (Ha E). destruct pos; [apply sl_hi|apply sl_lo]; lia.
  - rewrite sl_sym by lia. f_equal. lia.
Qed.

Lemma view3_is {A} (s : axis -> pyslice) (u : arr A) st ln :
  (forall a, slice_adjust (getc a (shp u)) (s a) = mkext (getc a st) (getc a ln) 1) ->
  is_arr (view3 s u) (rows u) ln (fun v i => at_ u v (shift st i)).
Proof.
  intro H. unfold view3.
  pose proof (view_is AX (s AX) u _ _ (H AX)) as I1.
  destruct I1 as (R1 & S1 & F1).
  pose proof (view_is AY (s AY) (view AX (s AX) u) (getc AY st) (getc AY ln)) as I2.
  rewrite S1 in I2. specialize (I2 (H AY)). destruct I2 as (R2 & S2 & F2).
  pose proof (view_is AZ (s AZ) (view AY (s AY) (view AX (s AX) u)) (getc AZ st) (getc AZ ln)) as I3.
  rewrite S2 in I3. specialize (I3 (H AZ)). destruct I3 as (R3 & S3 & F3).
  split; [|split].
  - congruence.
  - rewrite S3. destruct ln; reflexivity.
  - intros v i. rewrite F3, F2, F1. f_equal. unfold shift. cbn [setc getc cx cy cz].
    f_equal; lia.
Qed.

Lemma trim_is xc b nv n g a pos :
  (forall d, 0 <= getc d g) -> (forall d, 0 <= getc d n) -> 0 < getc a g ->
  dir_ok xc b nv n g a pos ->
  exists X Y Z, trim_slabs N b g a pos = Ok (X, Y, Z) /\
    shp X = setc a (getc a g) (padded n g) /\
    forall i,
      let j := fun d => slab_index a d pos (getc d n) (getc d g) (getc d i) in
      at_ X 0 i = xc AX (j AX) /\ at_ Y 0 i = xc AY (j AY) /\ at_ Z 0 i = xc AZ (j AZ).
Proof.
  intros Hg Hn Hga (_ & sl & Hsl & Hbuf & Hc). unfold trim_slabs. rewrite Hsl.
  pose proof (Hc AX) as [SX AXc]. pose proof (Hc AY) as [SY AYc]. pose proof (Hc AZ) as [SZ AZc].
  destruct (sl a pos) as [[X Y] Z] eqn:E. cbn [fst snd] in *.
  set (B := slab_buffer N sl) in *.
  pose proof (Hbuf AX) as BX. pose proof (Hbuf AY) as BY. pose proof (Hbuf AZ) as BZ.
  cbn [getc] in BX, BY, BZ.
  destruct (Z.ltb_spec (cx B - cx g) 0); [lia|]. destruct (Z.ltb_spec (cy B - cy g) 0); [lia|].
  destruct (Z.ltb_spec (cz B - cz g) 0); [lia|]. cbn [orb].
  set (cuts := fun d => trim_cut a d pos (getc d g) (getc d B - getc d g)).
  set (st := mkix (if axis_eqb a AX then match pos with SL => cx B - cx g | SR => 0 end else cx B - cx g)
                  (if axis_eqb a AY then match pos with SL => cy B - cy g | SR => 0 end else cy B - cy g)
                  (if axis_eqb a AZ then match pos with SL => cz B - cz g | SR => 0 end else cz B - cz g)).
  set (ln := mkix (if axis_eqb a AX then cx g else cx n + 2 * cx g)
                  (if axis_eqb a AY then cy g else cy n + 2 * cy g)
                  (if axis_eqb a AZ then cz g else cz n + 2 * cz g)).
  assert (T : forall (U : arr K),
    shp U = mkix (if axis_eqb a AX then cx B else cx n + 2 * cx B)
              (if axis_eqb a AY then cy B else cy n + 2 * cy B)
              (if axis_eqb a AZ then cz B else cz n + 2 * cz B) ->
    is_arr (view3 cuts U) (rows U) ln (fun v i => at_ U v (shift st i))).
  { intros U HU. apply view3_is. intro d. unfold cuts.
    pose proof (Hbuf d). pose proof (Hg d). pose proof (Hn d).
    pose proof (trim_sl a d pos (getc d n) (getc d g) (getc d B) ltac:(lia) ltac:(lia)
       ltac:(intros <-; lia)) as TT.
    rewrite HU. destruct d; cbn [getc cx cy cz] in TT |- *; rewrite TT; reflexivity. }
  exists (view3 cuts X), (view3 cuts Y), (view3 cuts Z).
  split; [reflexivity|].
  destruct (T X SX) as (_ & TX & FX). destruct (T Y SY) as (_ & TY & FY). destruct (T Z SZ) as (_ & TZ & FZ).
  split; [rewrite TX; unfold ln, padded; destruct a; reflexivity|].
  intro i. rewrite FX, FY, FZ, AXc, AYc, AZc.
  repeat split; f_equal; unfold slab_index, shift, st; cbn [getc cx cy cz];
    match goal with |- context [if ?c then _ else _] => destruct c end; destruct pos; lia.
Qed.

Lemma set_dirichlet_is xc b (u : arr K) n g a pos t xyz :
  shp u = padded n g -> (forall d, 0 <= getc d n) -> 0 < getc a g ->
  match bc_val b a pos with V_other => False | V_array len _ => len = rows u \/ len = 1 | V_func _ => True | V_mesh _ => False end ->
  (let '(X, Y, Z) := xyz in
    shp X = setc a (getc a g) (padded n g) /\
    forall i,
      let j := fun d => slab_index a d pos (getc d n) (getc d g) (getc d i) in
      at_ X 0 i = xc AX (j AX) /\ at_ Y 0 i = xc AY (j AY) /\ at_ Z 0 i = xc AZ (j AZ)) ->
  res_is (set_dirichlet_bc N (bc_cupy b) u (bc_val b a pos) (getc a g) a pos t xyz) (rows u) (shp u)
    (fun v i => if in_side (getc a n) (getc a g) pos (getc a i)
                then prescribed N xc (rows u) (bc_val b a pos) t v (mkix (cx i - cx g) (cy i - cy g) (cz i - cz g))
                else at_ u v i).
Proof.
  intros S Hn Hg Hv Hc. destruct xyz as [[X Y] Zc]. destruct Hc as [SX FX].
  assert (GA : getc a (shp u) = getc a n + 2 * getc a g) by (rewrite S; destruct a; reflexivity).
  destruct (bc_val b a pos) as [len f|f|f|] eqn:EV; [| |contradiction|contradiction].
  - unfold set_dirichlet_bc.
    pose proof (view_is a (outer_cut (getc a g) pos) u _ _
      ltac:(rewrite GA; apply outer_sl; [lia|apply Hn])) as (Rv & Sv & _).
    set (slab := view a (outer_cut (getc a g) pos) u) in *.
    assert (M : exists c, amap2 (fun one x => nmul one x) (amap (fun _ => nofZ 1) slab)
               (mkarr len (mkix 1 1 1) (fun (r : Z) (_ : ix) => f r)) = Ok c /\
               is_arr c (rows u) (setc a (getc a g) (shp u))
                 (fun v _ => nmul (nofZ 1) (f (if len =? rows u then v else 0)))).
    { unfold amap2. cbn [rows shp amap at_].
      assert (B1 : bdim (rows slab) len = Some (rows u)).
      { rewrite Rv. unfold bdim. destruct (Z.eqb_spec (rows u) len); [congruence|].
        destruct Hv as [->| ->]; [congruence|]. cbn. destruct (rows u =? 1) eqn:E1; zb; [congruence|reflexivity]. }
      assert (B2 : bshape (shp slab) (mkix 1 1 1) = Some (shp slab)).
      { unfold bshape, bdim. cbn [cx cy cz]. destruct (shp slab) as [x y z]. cbn [cx cy cz].
        destruct (Z.eqb_spec x 1), (Z.eqb_spec y 1), (Z.eqb_spec z 1); subst; reflexivity. }
      rewrite B1, B2. eexists; split; [reflexivity|]. split; [reflexivity|]. split; [exact Sv|].
      intros v i. cbn [at_]. unfold brow. reflexivity. }
    destruct M as (c & -> & Ic). cbn [bind].
    eapply res_is_ext.
    + eapply assign_slice_is; [rewrite GA; apply outer_sl; [lia|apply Hn]|exact Ic].
    + intros v i. cbv beta. rewrite outer_test. reflexivity.
  - unfold set_dirichlet_bc.
    eapply res_is_ext.
    + eapply assign_slice_is; [rewrite GA; apply outer_sl; [lia|apply Hn]|].
      split; [reflexivity|]. split; [rewrite S; exact SX|]. intros v i. cbn [at_]. reflexivity.
    + intros v i. cbv beta. rewrite outer_test.
      destruct (in_side (getc a n) (getc a g) pos (getc a i)) eqn:E; auto.
      destruct (FX (setc a (getc a i - match pos with SL => 0 | SR => getc a n + getc a g end) i)) as (-> & -> & ->).
      cbn [prescribed cx cy cz]. unfold slab_index.
      destruct a, pos; cbn [axis_eqb getc setc cx cy cz]; f_equal; f_equal; lia.
Qed.

(** ** one axis *)
Section Axis.
Context (xc : axis -> Z -> K) (b : bcond N) (nv : Z) (n g : ix) (t : K).
Hypothesis Hn : forall d, 0 <= getc d n.
Hypothesis Hg : forall d, 0 <= getc d g.

(** field in global indices *)
Definition glob (u : arr K) (v : Z) (i : ix) : K := at_ u v (shift g i).

Definition in_ghost (n g : Z) (pos : side) (k : Z) : Prop :=
  match pos with SL => - g <= k < 0 | SR => n <= k < n + g end.

Lemma getc_shift a i : getc a (shift g i) = getc a i + getc a g.
Proof. destruct a; reflexivity. Qed.
Lemma setc_shift a z i : setc a z (shift g i) = shift g (setc a (z - getc a g) i).
Proof. destruct a; unfold shift; cbn [setc getc cx cy cz]; f_equal; lia. Qed.
Lemma in_side_shift a pos i :
  in_side (getc a n) (getc a g) pos (getc a (shift g i)) = true <-> in_ghost (getc a n) (getc a g) pos (getc a i).
Proof. rewrite getc_shift. destruct pos; cbn [in_side in_ghost]; rewrite andb_true_iff, Z.leb_le, Z.ltb_lt; lia. Qed.

Lemma in_side_shift_f a pos i :
  in_side (getc a n) (getc a g) pos (getc a (shift g i)) = false -> ~ in_ghost (getc a n) (getc a g) pos (getc a i).
Proof. intros H H'. apply in_side_shift in H'. congruence. Qed.
Ltac side_hyp E := first [apply in_side_shift in E | apply in_side_shift_f in E].

Lemma apply_slab_is a pos u :
  shp u = padded n g -> rows u = nv -> 0 < getc a g -> side_ok xc b nv n g a pos ->
  exists u', apply_slab N b g t a pos u = Ok u' /\ rows u' = nv /\ shp u' = padded n g /\
    forall v i,
      (in_ghost (getc a n) (getc a g) pos (getc a i) ->
         ~ (pos = SR /\ bc_type b a pos = B_periodic) ->
         glob u' v i = ghost N xc b nv n t a pos (glob u) v i) /\
      (in_ghost (getc a n) (getc a g) SR (getc a i) -> pos = SL -> bc_type b a pos = B_periodic ->
         glob u' v i = glob u v (setc a (getc a i - getc a n) i)) /\
      (~ in_ghost (getc a n) (getc a g) pos (getc a i) ->
         ~ (in_ghost (getc a n) (getc a g) SR (getc a i) /\ pos = SL /\ bc_type b a pos = B_periodic) ->
         glob u' v i = glob u v i) /\
      (pos = SR -> bc_type b a pos = B_periodic -> glob u' v i = glob u v i).
Proof.
  intros S R G Hs.
  assert (GA : getc a (shp u) = getc a n + 2 * getc a g) by (rewrite S; destruct a; reflexivity).
  unfold apply_slab. destruct (Z.eqb_spec (getc a g) 0) as [E0|E0]; [lia|].
  assert (D : forall to, dir_ok xc b nv n g a pos ->
    exists u', (do xyz <- trim_slabs N b g a pos;
       set_dirichlet_bc N (bc_cupy b) u (bc_val b a pos) (getc a g) a pos to xyz) = Ok u' /\
       rows u' = nv /\ shp u' = padded n g /\ forall v i, glob u' v i =
         if in_side (getc a n) (getc a g) pos (getc a (shift g i))
         then prescribed N xc nv (bc_val b a pos) to v i else glob u v i).
  { intros to Hd. destruct (trim_is xc b nv n g a pos Hg Hn G Hd) as (X & Y & Z & Ht & HX & HF).
    rewrite Ht. cbn [bind]. destruct Hd as [Hv _]. rewrite <- R in Hv |- *.
    destruct (set_dirichlet_is xc b u n g a pos to (X, Y, Z) S Hn G Hv (conj HX HF)) as (c & Hc & Rc & Sc & Fc).
    exists c. repeat split; try congruence; auto.
    intros v i. unfold glob at 1. rewrite Fc.
    destruct (in_side (getc a n) (getc a g) pos (getc a (shift g i))); auto.
    f_equal. unfold shift. destruct i as [i1 i2 i3]; cbn [cx cy cz]; f_equal; lia. }
  destruct Hs as [[Hc He]|[Hc Hd]]; destruct (bc_type b a pos) eqn:ET; try contradiction.
  - (* periodic *)
    cbn [enough] in He. destruct pos.
    + destruct (set_periodic_is u _ _ a GA ltac:(lia)) as (c & Ec & Rc & Sc & Fc).
      exists c. split; auto. split; [congruence|]. split; [congruence|].
      intros v i.
      assert (F : forall i, glob c v i =
         if in_side (getc a n) (getc a g) SR (getc a (shift g i)) then glob u v (setc a (getc a i - getc a n) i)
         else if in_side (getc a n) (getc a g) SL (getc a (shift g i)) then glob u v (setc a (getc a i + getc a n) i)
         else glob u v i).
      { intro k. unfold glob. rewrite Fc, !setc_shift, getc_shift.
        destr_if; [f_equal; f_equal; f_equal; lia|]. destr_if; auto. f_equal; f_equal; f_equal; lia. }
      rewrite F. unfold ghost. rewrite ET. cbn [source].
      destruct (in_side (getc a n) (getc a g) SR (getc a (shift g i))) eqn:E1;
      destruct (in_side (getc a n) (getc a g) SL (getc a (shift g i))) eqn:E2;
      side_hyp E1; side_hyp E2;
      cbn [in_ghost] in *; repeat split; intros; try reflexivity; try lia; try discriminate; try (exfalso; tauto); try (exfalso; lia).
    + exists u. repeat split; auto; intros; try discriminate; exfalso; tauto.
  - (* free *)
    cbn [enough] in He. destruct (set_free_is u _ _ a pos GA ltac:(lia) He) as (c & Ec & Rc & Sc & Fc).
    exists c. split; auto. split; [congruence|]. split; [congruence|].
    intros v i. pose proof (Fc v (shift g i)) as GF. change (at_ c v (shift g i)) with (glob c v i) in GF.
    change (at_ u v (shift g i)) with (glob u v i) in GF. rewrite GF. unfold ghost. rewrite ET.
    destruct (in_side (getc a n) (getc a g) pos (getc a (shift g i))) eqn:E1;
      side_hyp E1;
      repeat split; intros; try congruence; try tauto; try reflexivity.
    rewrite setc_shift. unfold glob. destruct pos; cbn [source]; do 3 f_equal; lia.
  - (* outflow *)
    cbn [enough] in He. destruct (set_symmetric_is u _ _ a pos None GA ltac:(lia)) as (c & Ec & Rc & Sc & Fc).
    exists c. split; auto. split; [congruence|]. split; [congruence|].
    intros v i. pose proof (Fc v (shift g i)) as GF. change (at_ c v (shift g i)) with (glob c v i) in GF.
    change (at_ u v (shift g i)) with (glob u v i) in GF. rewrite GF. unfold ghost. rewrite ET.
    destruct (in_side (getc a n) (getc a g) pos (getc a (shift g i))) eqn:E1;
      side_hyp E1;
      repeat split; intros; try congruence; try tauto; try reflexivity.
    cbv zeta. rewrite setc_shift, getc_shift. unfold glob. destruct pos; cbn [source]; do 3 f_equal; lia.
  - (* reflective *)
    cbn [enough] in He. destruct (set_symmetric_is u _ _ a pos (Some (vrow a)) GA ltac:(lia)) as (c & Ec & Rc & Sc & Fc).
    exists c. split; auto. split; [congruence|]. split; [congruence|].
    intros v i. pose proof (Fc v (shift g i)) as GF. change (at_ c v (shift g i)) with (glob c v i) in GF.
    change (at_ u v (shift g i)) with (glob u v i) in GF. rewrite GF. unfold ghost. rewrite ET.
    destruct (in_side (getc a n) (getc a g) pos (getc a (shift g i))) eqn:E1;
      side_hyp E1;
      repeat split; intros; try congruence; try tauto; try reflexivity.
    cbv zeta. rewrite setc_shift, getc_shift. unfold glob.
    assert (I : setc a (match pos with SL => 2 * getc a g - 1 | SR => 2 * (getc a n + getc a g) - 1 end
                  - (getc a i + getc a g) - getc a g) i
        = setc a (source B_reflective pos (getc a n) (getc a i)) i)
      by (destruct pos; cbn [source]; f_equal; lia).
    rewrite I. reflexivity.
  - (* dirichlet *)
    destruct (D (Some t) Hd) as (c & Ec & Rc & Sc & Fc).
    exists c. split; auto. split; [congruence|]. split; [congruence|].
    intros v i. rewrite Fc. unfold ghost. rewrite ET.
    destruct (in_side (getc a n) (getc a g) pos (getc a (shift g i))) eqn:E1;
      side_hyp E1;
      repeat split; intros; try congruence; try tauto; try reflexivity.
  - destruct (D None Hd) as (c & Ec & Rc & Sc & Fc).
    exists c. split; auto. split; [congruence|]. split; [congruence|].
    intros v i. rewrite Fc. unfold ghost. rewrite ET.
    destruct (in_side (getc a n) (getc a g) pos (getc a (shift g i))) eqn:E1;
      side_hyp E1;
      repeat split; intros; try congruence; try tauto; try reflexivity.
Qed.

(** the source of a ghost cell lies inside the domain *)
Lemma source_in a pos k :
  side_ok xc b nv n g a pos -> copies (bc_type b a pos) -> in_ghost (getc a n) (getc a g) pos k ->
  0 <= source (bc_type b a pos) pos (getc a n) k < getc a n.
Proof.
  intros Hs Hc Hk.
  assert (He : enough (bc_type b a pos) (getc a n) (getc a g)).
  { destruct Hs as [[_ H]|[H _]]; auto. destruct (bc_type b a pos); contradiction. }
  destruct (bc_type b a pos), pos; try contradiction; cbn [source enough in_ghost] in *; lia.
Qed.
Lemma ghost_ext a pos f h v i :
  side_ok xc b nv n g a pos -> in_ghost (getc a n) (getc a g) pos (getc a i) ->
  (forall k, 0 <= k < getc a n -> f v (setc a k i) = h v (setc a k i)) ->
  ghost N xc b nv n t a pos f v i = ghost N xc b nv n t a pos h v i.
Proof.
  intros Hs Hk H. pose proof (source_in a pos (getc a i) Hs) as SI. unfold ghost.
  destruct Hs as [[Hc _]|[Hc _]]; destruct (bc_type b a pos) eqn:E; try contradiction; try reflexivity;
    rewrite H by (apply SI; [exact I|exact Hk]); reflexivity.
Qed.

Definition both_sides (a : axis) (u : arr K) : res (arr K) :=
  do u1 <- apply_slab N b g t a SL u; apply_slab N b g t a SR u1.

(** known on all cells whose coordinate along a is inside the domain -> known on all *)
Lemma axis_is a u (P : ix -> Prop) f :
  axis_ok xc b nv n g a -> shp u = padded n g -> rows u = nv ->
  (forall i k, P i -> P (setc a k i)) ->
  (forall v i, P i -> 0 <= getc a i < getc a n -> glob u v i = f v i) ->
  exists u', both_sides a u = Ok u' /\ rows u' = nv /\ shp u' = padded n g /\
    forall v i, P i -> - getc a g <= getc a i < getc a n + getc a g ->
      glob u' v i = extend N xc b nv n t a f v i.
Proof.
  intros Ha S R HP Hf. destruct (Z.eq_dec (getc a g) 0) as [G0|G0].
  - exists u. split.
    + unfold both_sides, apply_slab. rewrite G0. reflexivity.
    + repeat split; auto. intros v i Pi Hi. unfold extend.
      destruct (Z.ltb_spec (getc a i) 0); [lia|]. destruct (Z.leb_spec (getc a n) (getc a i)); [lia|].
      apply Hf; auto; lia.
  - destruct Ha as [Ha|(HL & HR & Hper)]; [contradiction|].
    pose proof (Hg a) as Hga. pose proof (Hn a) as Hna.
    destruct (apply_slab_is a SL u S R ltac:(lia) HL) as (u1 & E1 & R1 & S1 & F1).
    destruct (apply_slab_is a SR u1 S1 R1 ltac:(lia) HR) as (u2 & E2 & R2 & S2 & F2).
    exists u2. unfold both_sides. rewrite E1. cbn [bind]. split; auto. split; auto. split; auto.
    intros v i Pi Hi. unfold extend.
    assert (Int : forall j, P j -> 0 <= getc a j < getc a n -> glob u1 v j = f v j).
    { intros j Pj Hj. destruct (F1 v j) as (_ & _ & F & _). rewrite F.
      - apply Hf; auto.
      - cbn [in_ghost]; lia.
      - cbn [in_ghost]; intros [? _]; lia. }
    destruct (F2 v i) as (G1 & _ & G3 & G4).
    destruct (Z.ltb_spec (getc a i) 0) as [L|L].
    + assert (E : glob u2 v i = glob u1 v i).
      { apply G3; [cbn [in_ghost]; lia|]. intros (_ & ? & _). discriminate. }
      rewrite E. destruct (F1 v i) as (F & _ & _ & _). rewrite F.
      * apply ghost_ext; auto; [cbn [in_ghost]; lia|]. intros k Hk. apply Hf; [apply HP; auto|].
        rewrite getc_setc_eq. exact Hk.
      * cbn [in_ghost]; lia.
      * intros [? _]; discriminate.
    + destruct (Z.leb_spec (getc a n) (getc a i)) as [M|M].
      * assert (GH : in_ghost (getc a n) (getc a g) SR (getc a i)) by (cbn [in_ghost]; lia).
        assert (Dec : bc_type b a SR = B_periodic \/ bc_type b a SR <> B_periodic)
          by (destruct (bc_type b a SR); (left; reflexivity) || (right; discriminate)).
        destruct Dec as [Ep|Np].
        -- rewrite G4 by auto. destruct (F1 v i) as (_ & F & _ & _).
           rewrite F by auto. unfold ghost. rewrite Ep. cbn [source].
           pose proof (source_in a SR (getc a i) HR) as SI. rewrite Ep in SI. cbn [source] in SI.
           apply Hf; [apply HP; auto|]. rewrite getc_setc_eq. apply SI; [exact I|exact GH].
        -- rewrite G1 by tauto. apply ghost_ext; auto.
           intros k Hk. apply Int; [apply HP; auto|]. rewrite getc_setc_eq. exact Hk.
      * destruct (F2 v i) as (_ & _ & F & _). rewrite F; [apply Int; auto; lia|cbn [in_ghost]; lia|cbn [in_ghost]; intros [? _]; lia].
Qed.
End Axis.

(** ** apply *)
Lemma apply_unfold b junk u g t :
  apply N b junk u g t =
  (do out <- pad_empty junk g u;
   do o1 <- both_sides b g t AX out;
   do o2 <- both_sides b g t AY o1;
   both_sides b g t AZ o2).
Proof.
  unfold apply, both_sides, slab_order. destruct (pad_empty junk g u) as [out|e]; cbn [bind fold_left fst snd]; auto.
  destruct (apply_slab N b g t AX SL out) as [x|e]; cbn [bind]; auto.
  destruct (apply_slab N b g t AX SR x) as [x1|e]; cbn [bind]; auto.
  destruct (apply_slab N b g t AY SL x1) as [x2|e]; cbn [bind]; auto.
  destruct (apply_slab N b g t AY SR x2) as [x3|e]; cbn [bind]; auto.
Qed.

Theorem apply_is xc b junk u g t :
  (forall a, 0 <= getc a (shp u)) -> (forall a, 0 <= getc a g) ->
  (forall a, axis_ok xc b (rows u) (shp u) g a) ->
  exists out, apply N b junk u g t = Ok out /\ rows out = rows u /\ shp out = padded (shp u) g /\
    forall v i, in_padded (shp u) g i -> at_ out v (shift g i) = extended N xc b (shp u) t u v i.
Proof.
  intros Hn Hg Ha. rewrite apply_unfold.
  set (n := shp u) in *.
  assert (P0 : exists out, pad_empty junk g u = Ok out /\ rows out = rows u /\ shp out = padded n g /\
     forall v i, in_shape n i -> glob g out v i = at_ u v i).
  { unfold pad_empty. pose proof (Hg AX). pose proof (Hg AY). pose proof (Hg AZ). cbn [getc] in *.
    destruct (Z.ltb_spec (cx g) 0); [lia|]. destruct (Z.ltb_spec (cy g) 0); [lia|].
    destruct (Z.ltb_spec (cz g) 0); [lia|]. cbn [orb].
    eexists; split; [reflexivity|]. repeat split. intros v i Hi. unfold glob. cbn [at_].
    assert (J : mkix (cx (shift g i) - cx g) (cy (shift g i) - cy g) (cz (shift g i) - cz g) = i).
    { unfold shift; destruct i as [i1 i2 i3]; cbn [cx cy cz]; f_equal; lia. }
    rewrite J.
    pose proof (Hi AX) as IX. pose proof (Hi AY) as IY. pose proof (Hi AZ) as IZ. cbn [getc] in IX, IY, IZ.
    fold n. destr_if; auto. exfalso.
    repeat (apply andb_false_iff in E; destruct E as [E|E]); zb; lia. }
  destruct P0 as (o & Eo & Ro & So & Fo). rewrite Eo. cbn [bind].
  set (P1 := fun i => 0 <= cy i < cy n /\ 0 <= cz i < cz n).
  destruct (axis_is xc b (rows u) n g t Hn Hg AX o P1 (at_ u) (Ha AX) So Ro) as (o1 & E1 & R1 & S1 & F1).
  { intros i k H. exact H. }
  { intros v i [Hy Hz] Hx. apply Fo. intros []; assumption. }
  rewrite E1. cbn [bind].
  set (P2 := fun i => - cx g <= cx i < cx n + cx g /\ 0 <= cz i < cz n).
  destruct (axis_is xc b (rows u) n g t Hn Hg AY o1 P2
    (extend N xc b (rows u) n t AX (at_ u)) (Ha AY) S1 R1) as (o2 & E2 & R2 & S2 & F2).
  { intros i k H. exact H. }
  { intros v i [Hx Hz] Hy. apply F1; [split; assumption|assumption]. }
  rewrite E2. cbn [bind].
  set (P3 := fun i => - cx g <= cx i < cx n + cx g /\ - cy g <= cy i < cy n + cy g).
  destruct (axis_is xc b (rows u) n g t Hn Hg AZ o2 P3
    (extend N xc b (rows u) n t AY (extend N xc b (rows u) n t AX (at_ u))) (Ha AZ) S2 R2) as (o3 & E3 & R3 & S3 & F3).
  { intros i k H. exact H. }
  { intros v i [Hx Hy] Hz. apply F2; [split; assumption|assumption]. }
  exists o3. split; auto. split; auto. split; auto.
  intros v i Hi. apply F3; [split; [apply (Hi AX)|apply (Hi AY)]|apply (Hi AZ)].
Qed.
End BcP.
