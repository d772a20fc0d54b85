(** Convex blending weights. *)
From Coq Require Import ZArith List Bool Lia Reals Lra Psatz.
From Verif Require Import Err Num PySlice NdArray HydroM FvM SedM LimitM SpecLim HydroP NdArrayP BcP OpP RelP SedP DetectP BroadP.
Import ListNotations.
Open Scope Z_scope.

Definition inb (s i : ix) : bool :=
  (0 <=? cx i) && (cx i <? cx s) && (0 <=? cy i) && (cy i <? cy s) && (0 <=? cz i) && (cz i <? cz s).
Lemma inb_in s i : inb s i = true <-> in_shape s i.
Proof.
  unfold inb, in_shape. rewrite !andb_true_iff, !Z.leb_le, !Z.ltb_lt. split.
  - intros H a. destruct a; cbn [getc]; lia.
  - intro H. pose proof (H AX). pose proof (H AY). pose proof (H AZ). cbn [getc] in *. lia.
Qed.
(** g inside s, 0 outside *)
Definition ext (s : ix) (g : ix -> R) (i : ix) : R := if inb s i then g i else 0%R.
Lemma ext_in s g i : in_shape s i -> ext s g i = g i.
Proof. intro H. unfold ext. apply inb_in in H. rewrite H. reflexivity. Qed.
Lemma ext_out s g i : ~ in_shape s i -> ext s g i = 0%R.
Proof. intro H. unfold ext. destruct (inb s i) eqn:E; [apply inb_in in E; contradiction|reflexivity]. Qed.
Lemma ext_nonneg s g i : (forall j, 0 <= g j)%R -> (0 <= ext s g i)%R.
Proof. intro H. unfold ext. destruct (inb s i); [apply H|lra]. Qed.

(** a one-row array with the values g inside its shape *)
Definition is1 (c : arr R) (s : ix) (g : ix -> R) : Prop :=
  rows c = 1 /\ shp c = s /\ forall i, in_shape s i -> at_ c 0 i = g i.
Lemma is1_ext c s g h : is1 c s g -> (forall i, in_shape s i -> g i = h i) -> is1 c s h.
Proof. intros (R & S & F) H. split; [exact R|]. split; [exact S|]. intros i Hi. rewrite F by exact Hi. apply H, Hi. Qed.

(** slices for a shift by d *)
Definition dsl (d : Z) : pyslice := if d =? 1 then s_init else if d =? -1 then s_tail else slice_all.
Definition dst_ (d : Z) : Z := if d =? -1 then 1 else 0.
Definition dln (d n : Z) : Z := if (d =? 1) || (d =? -1) then n - 1 else n.
Lemma dsl_adj d n : 1 <= n -> slice_adjust n (dsl d) = mkext (dst_ d) (dln d n) 1.
Proof.
  intro H. unfold dsl, dst_, dln. destruct (Z.eqb_spec d 1) as [->|]; [cbn; apply sl_init, H|].
  destruct (Z.eqb_spec d (-1)); cbn [orb]; [apply sl_tail, H|apply sl_slice_all; lia].
Qed.
Definition unit3 (d : ix) : Prop := forall a, getc a d = -1 \/ getc a d = 0 \/ getc a d = 1.
Definition dlen (d s : ix) : ix := mkix (dln (cx d) (cx s)) (dln (cy d) (cy s)) (dln (cz d) (cz s)).
Definition dst3 (d : ix) : ix := mkix (dst_ (cx d)) (dst_ (cy d)) (dst_ (cz d)).
Definition opp3 (d : ix) : ix := mkix (- cx d) (- cy d) (- cz d).
Lemma dln_opp d n : dln (- d) n = dln d n.
Proof. unfold dln. destruct (Z.eqb_spec d 1), (Z.eqb_spec d (-1)), (Z.eqb_spec (- d) 1), (Z.eqb_spec (- d) (-1)); cbn [orb]; lia. Qed.
Lemma dlen_opp d s : dlen (opp3 d) s = dlen d s.
Proof. unfold dlen, opp3. cbn [cx cy cz]. rewrite !dln_opp. reflexivity. Qed.

Lemma view3_d d (c : arr R) s g : (forall a, 1 <= getc a s) -> is1 c s g ->
  rows (view3 (fun a => dsl (getc a d)) c) = 1 /\ shp (view3 (fun a => dsl (getc a d)) c) = dlen d s /\
  forall v i, at_ (view3 (fun a => dsl (getc a d)) c) v i = at_ c v (SpecBc.shift (dst3 d) i).
Proof.
  intros H1 (R & S & F). destruct (view3_is (fun a => dsl (getc a d)) c (dst3 d) (dlen d s)) as (R1 & S1 & F1).
  { intro a. rewrite S, dsl_adj by apply H1. destruct a; reflexivity. }
  split; [congruence|]. split; [exact S1|exact F1].
Qed.

Lemma max3_step d (f : R -> R) (src t : arr R) s g h : unit3 d -> (forall a, 1 <= getc a s) -> is1 src s g -> is1 t s h ->
  (f 0 = 0)%R -> (forall i, 0 <= h i)%R ->
  exists c, max_into3 RNum (fun a => dsl (getc a d)) (amap f (view3 (fun a => dsl (getc a (opp3 d))) src)) t = Ok c /\
    is1 c s (fun i => Rmax (f (ext s g (SpecBc.shift d i))) (h i)).
Proof.
  intros U H1 HS HT F0 Hh. unfold max_into3.
  destruct (view3_d (opp3 d) src s g H1 HS) as (RV & SV & FV). destruct (view3_d d t s h H1 HT) as (RW & SW & FW). rewrite dlen_opp in SV.
  destruct HS as (RS & SS & FS). destruct HT as (RT & ST & FT).
  set (V := amap f (view3 (fun a => dsl (getc a (opp3 d))) src)). set (W := view3 (fun a => dsl (getc a d)) t).
  destruct (amap2_is (@nmax RNum) V W 1 (dlen d s) (fun v i => f (at_ src v (SpecBc.shift (dst3 (opp3 d)) i))) (fun v i => at_ t v (SpecBc.shift (dst3 d) i))) as (m & Em & Rm & Sm & Fm).
  { split; [exact RV|]. split; [exact SV|]. intros v i. unfold V, amap. cbn [at_]. rewrite FV. reflexivity. }
  { split; [exact RW|]. split; [exact SW|exact FW]. }
  match goal with |- context [bind ?x _] => change x with (@amap2 R R R Rmax V W) end.
  change (@amap2 R R R Rmax V W = Ok m) in Em. rewrite Em. cbn [bind]. unfold assign3.
  assert (ST' : @shp (car RNum) t = s) by exact ST. rewrite ST'.
  pose proof (H1 AX) as Hx. pose proof (H1 AY) as Hy. pose proof (H1 AZ) as Hz. cbn [getc] in Hx, Hy, Hz |- *.
  rewrite !dsl_adj by assumption. cbn [ex_start ex_len].
  fold (dlen d s). rewrite Rm, Sm. assert (RT' : @rows (car RNum) t = 1) by exact RT. rewrite RT', bcast_ok_eq.
  eexists. split; [reflexivity|]. split; [reflexivity|]. split; [reflexivity|]. intros i Hi. cbn [at_].
  rewrite brow_eq, bix_eq, Fm.
  pose proof (Hi AX) as Ix. pose proof (Hi AY) as Iy. pose proof (Hi AZ) as Iz. cbn [getc] in Ix, Iy, Iz.
  pose proof (U AX) as Ux. pose proof (U AY) as Uy. pose proof (U AZ) as Uz. cbn [getc] in Ux, Uy, Uz.
  set (j := mkix (cx i - dst_ (cx d)) (cy i - dst_ (cy d)) (cz i - dst_ (cz d))).
  assert (J1 : SpecBc.shift (dst3 d) j = i). { unfold SpecBc.shift, dst3, j. cbn [cx cy cz]. destruct i as [i1 i2 i3]; cbn [cx cy cz]; f_equal; lia. }
  assert (J2 : SpecBc.shift (dst3 (opp3 d)) j = SpecBc.shift d i).
  { unfold SpecBc.shift, dst3, opp3, j. cbn [cx cy cz]. unfold dst_.
    destruct Ux as [-> |[-> | ->]], Uy as [-> |[-> | ->]], Uz as [-> |[-> | ->]]; cbn; f_equal; lia. }
  rewrite J1, J2.
  set (test := _ && _ && _).
  assert (TT : test = true <-> in_shape s (SpecBc.shift d i)).
  { unfold test. rewrite !andb_true_iff, !Z.leb_le, !Z.ltb_lt. unfold in_shape, SpecBc.shift. split.
    - intros H a. destruct a; cbn [getc cx cy cz]; unfold dst_, dln in H;
      [destruct Ux as [E|[E|E]]|destruct Uy as [E|[E|E]]|destruct Uz as [E|[E|E]]]; rewrite E in *; cbn [Z.eqb Pos.eqb orb] in H; lia.
    - intro H. pose proof (H AX) as A. pose proof (H AY) as B. pose proof (H AZ) as C. cbn [getc cx cy cz] in A, B, C. unfold dst_, dln.
      destruct Ux as [E|[E|E]], Uy as [E'|[E'|E']], Uz as [E''|[E''|E'']]; rewrite E in A; rewrite E' in B; rewrite E'' in C; rewrite E, E', E''; cbn [Z.eqb Pos.eqb orb]; lia. }
  destruct test.
  - transitivity (Rmax (f (at_ src 0 (SpecBc.shift d i))) (at_ t 0 i)); [reflexivity|]. rewrite FT by exact Hi.
    rewrite ext_in by (apply TT; reflexivity). rewrite FS by (apply TT; reflexivity). reflexivity.
  - transitivity (at_ t 0 i); [reflexivity|]. rewrite FT by exact Hi.
    rewrite ext_out by (rewrite <- TT; discriminate). rewrite F0. symmetry. apply Rmax_right, Hh.
Qed.

(** the same along one axis *)
Definition axis3 (a : axis) (d : Z) : ix := setc a d (mkix 0 0 0).
Lemma max1_step a d (f : R -> R) (src t : arr R) s g h : d = 1 \/ d = -1 -> (forall b, 1 <= getc b s) -> is1 src s g -> is1 t s h ->
  (f 0 = 0)%R -> (forall i, 0 <= h i)%R ->
  exists c, max_into RNum a (dsl d) (amap f (view a (dsl (- d)) src)) t = Ok c /\
    is1 c s (fun i => Rmax (f (ext s g (moved a d i))) (h i)).
Proof.
  intros U H1 (RS & SS & FS) (RT & ST & FT) F0 Hh. unfold max_into.
  pose proof (view_is a (dsl (- d)) src (dst_ (- d)) (dln d (getc a s))) as VS. rewrite SS in VS. rewrite dsl_adj in VS by apply H1.
  rewrite dln_opp in VS. specialize (VS eq_refl). destruct VS as (RV & SV & FV).
  pose proof (view_is a (dsl d) t (dst_ d) (dln d (getc a s))) as VT. rewrite ST in VT. rewrite dsl_adj in VT by apply H1. specialize (VT eq_refl). destruct VT as (RW & SW & FW).
  destruct (amap2_is (@nmax RNum) (amap f (view a (dsl (- d)) src)) (view a (dsl d) t) 1 (setc a (dln d (getc a s)) s)
    (fun v i => f (at_ src v (setc a (dst_ (- d) + getc a i) i))) (fun v i => at_ t v (setc a (dst_ d + getc a i) i))) as (m & Em & Hm).
  { split; [exact (eq_trans RV RS)|]. split; [exact SV|]. intros v i. unfold amap. cbn [at_]. rewrite FV. reflexivity. }
  { split; [exact (eq_trans RW RT)|]. split; [exact SW|exact FW]. }
  match goal with |- context [bind ?x _] => change x with (@amap2 R R R Rmax (amap f (view a (dsl (- d)) src)) (view a (dsl d) t)) end.
  change (@amap2 R R R Rmax (amap f (view a (dsl (- d)) src)) (view a (dsl d) t) = Ok m) in Em. rewrite Em. cbn [bind].
  destruct (assign_slice_is a (dsl d) t m (dst_ d) (dln d (getc a s)) (fun v i => Rmax (f (at_ src v (setc a (dst_ (- d) + getc a i) i))) (at_ t v (setc a (dst_ d + getc a i) i)))) as (c & Ec & Rc & Sc & Fc).
  { rewrite ST. apply dsl_adj, H1. } { rewrite RT, ST. exact Hm. }
  exists c. split; [exact Ec|]. split; [exact (eq_trans Rc RT)|]. split; [exact (eq_trans Sc ST)|].
  intros i Hi. rewrite Fc. rewrite getc_setc_eq, !setc_setc. replace (dst_ d + (getc a i - dst_ d)) with (getc a i) by lia. rewrite setc_getc.
  replace (setc a (dst_ (- d) + (getc a i - dst_ d)) i) with (moved a d i).
  2:{ unfold moved. f_equal. unfold dst_. destruct U as [-> | ->]; cbn [Z.eqb Z.opp Pos.eqb orb]; lia. }
  pose proof (Hi a) as Ia.
  set (test := _ && _).
  assert (TT : test = true <-> in_shape s (moved a d i)).
  { unfold test. rewrite !andb_true_iff, !Z.leb_le, !Z.ltb_lt. unfold moved. split.
    - intros H b. destruct (axis_dec a b) as [<-|Hb]; [rewrite getc_setc_eq|rewrite getc_setc_ne by exact Hb; apply Hi].
      unfold dst_, dln in H. destruct U as [-> | ->]; cbn [Z.eqb Pos.eqb orb] in H; lia.
    - intro H. specialize (H a). rewrite getc_setc_eq in H. unfold dst_, dln. destruct U as [-> | ->]; cbn [Z.eqb Z.opp Pos.eqb orb]; lia. }
  destruct test.
  - transitivity (Rmax (f (at_ src 0 (moved a d i))) (at_ t 0 i)); [reflexivity|]. rewrite FT by exact Hi.
    rewrite ext_in by (apply TT; reflexivity). rewrite FS by (apply TT; reflexivity). reflexivity.
  - transitivity (at_ t 0 i); [reflexivity|]. rewrite FT by exact Hi.
    rewrite ext_out by (rewrite <- TT; discriminate). rewrite F0. symmetry. apply Rmax_right, Hh.
Qed.

(** ** kernels on the real line and plane *)
Local Open Scope R_scope.
Definition qt (y : R) : R := @q25 RNum * b2k RNum (Rltb 0 y).
Lemma qt_pos y : 0 < y -> qt y = 1 / 4.
Proof. intro H. unfold qt, q25, b2k. rn. replace (Rltb 0 y) with true by (symmetry; apply Rltb_true, H). lra. Qed.
Lemma qt_zero y : y <= 0 -> qt y = 0.
Proof. intro H. unfold qt, q25, b2k. rn. replace (Rltb 0 y) with false by (symmetry; apply Rltb_false, H). lra. Qed.
Lemma qt_or y : y <= 0 /\ qt y = 0 \/ 0 < y /\ qt y = 1 / 4.
Proof. destruct (Rle_lt_dec y 0); [left; split; [|apply qt_zero]; assumption|right; split; [|apply qt_pos]; assumption]. Qed.
Lemma Rmax_or x y : Rmax x y = x /\ y <= x \/ Rmax x y = y /\ x <= y.
Proof. unfold Rmax. destruct (Rle_dec x y); [right|left]; split; lra. Qed.
Definition lvl (y : R) : Prop := y = 0 \/ 1 / 4 <= y.
Lemma lvl_max x y : lvl x -> lvl y -> lvl (Rmax x y).
Proof. intros Hx Hy. destruct (Rmax_or x y) as [[-> _]|[-> _]]; assumption. Qed.
Lemma lvl_qt y : lvl (qt y).
Proof. destruct (qt_or y) as [[_ ->]|[_ ->]]; [left|right]; lra. Qed.
Lemma lvl_nn y : lvl y -> 0 <= y.
Proof. intros [->|H]; lra. Qed.

Lemma pair_at S a (h : ix -> R) k : (forall i, lvl (h i)) -> in_shape S k -> in_shape S (moved a 1 k) -> in_shape S (moved a (-1) k) ->
  let h1 i := Rmax (qt (ext S h (moved a 1 i))) (h i) in
  let h2 i := Rmax (qt (ext S h1 (moved a (-1) i))) (h1 i) in
  h2 k = Rmax (h k) (Rmax (qt (h (moved a 1 k))) (qt (h (moved a (-1) k)))).
Proof.
  intros L I0 I1 I2 h1 h2. unfold h2. rewrite ext_in by exact I2. unfold h1.
  replace (moved a 1 (moved a (-1) k)) with k.
  2:{ unfold moved. rewrite getc_setc_eq, setc_setc. replace (getc a k + -1 + 1)%Z with (getc a k) by lia. symmetry. apply setc_getc. }
  rewrite !ext_in by assumption.
  pose proof (L k) as Lk. pose proof (L (moved a 1 k)) as L1. pose proof (L (moved a (-1) k)) as L2.
  set (x := h k) in *. set (y := h (moved a 1 k)) in *. set (z := h (moved a (-1) k)) in *. clearbody x y z.
  assert (Q : qt (Rmax (qt x) z) = Rmax (qt x) (qt z)).
  { pose proof (Rmax_l (qt x) z). pose proof (Rmax_r (qt x) z).
    destruct (qt_or x) as [[X EX]|[X EX]]; destruct (qt_or z) as [[Z EZ]|[Z EZ]]; rewrite EX, EZ in *.
    - rewrite qt_zero by (apply Rmax_lub; lra). symmetry. apply Rmax_left. lra.
    - rewrite qt_pos by lra. symmetry. apply Rmax_right. lra.
    - rewrite qt_pos by lra. symmetry. apply Rmax_left. lra.
    - rewrite qt_pos by lra. symmetry. apply Rmax_left. lra. }
  assert (X : qt x <= x). { destruct (qt_or x) as [[_ ->]|[H ->]]; destruct Lk; lra. }
  rewrite Q. apply Rle_antisym; repeat apply Rmax_lub.
  - eapply Rle_trans; [exact X|apply Rmax_l].
  - eapply Rle_trans; [apply Rmax_r|apply Rmax_r].
  - eapply Rle_trans; [apply Rmax_l|apply Rmax_r].
  - apply Rmax_l.
  - eapply Rle_trans; [apply Rmax_r|apply Rmax_r].
  - eapply Rle_trans; [apply Rmax_l|apply Rmax_r].
  - eapply Rle_trans; [apply Rmax_r|apply Rmax_l].
Qed.

Definition kern (m1 m2 : Z) : R :=
  let far := Z.max (Z.abs m1) (Z.abs m2) in
  if (far =? 0)%Z then 1 else if (far =? 1)%Z then (if (Z.abs m1 + Z.abs m2 =? 1)%Z then 3 / 4 else 1 / 2) else if (far =? 2)%Z then 1 / 4 else 0.
Definition bit (x : R) : Prop := x = 0 \/ x = 1.
Section Plane.
Context (x : Z -> Z -> R) (X : forall m n, bit (x m n)).
(** maximum over the 3 by 3 box, in the order of the code *)
Definition box3 (m n : Z) : R :=
  Rmax (1 / 2 * x (m + -1) (n + -1)) (Rmax (1 / 2 * x (m + -1) (n + 1)) (Rmax (1 / 2 * x (m + 1) (n + -1)) (Rmax (1 / 2 * x (m + 1) (n + 1))
  (Rmax (3 / 4 * x (m + -1) (n + 0)) (Rmax (3 / 4 * x (m + 1) (n + 0)) (Rmax (3 / 4 * x (m + 0) (n + -1)) (Rmax (3 / 4 * x (m + 0) (n + 1)) (x (m + 0) (n + 0))))))))).
Ltac up := first [apply Rle_refl | eapply Rle_trans; [|apply Rmax_l]; apply Rle_refl | eapply Rle_trans; [|apply Rmax_r]; up].
Lemma box3_ub m n d e : (-1 <= d <= 1)%Z -> (-1 <= e <= 1)%Z -> kern d e * x (m + d) (n + e) <= box3 m n.
Proof.
  intros Hd He. assert (D : d = (-1)%Z \/ d = 0%Z \/ d = 1%Z) by lia. assert (E : e = (-1)%Z \/ e = 0%Z \/ e = 1%Z) by lia. unfold box3.
  destruct D as [-> |[-> | ->]]; destruct E as [-> |[-> | ->]];
    match goal with |- context [kern ?p ?q] => let k := eval cbv [kern Z.abs Z.max Z.compare Pos.compare Pos.compare_cont Z.eqb Pos.eqb Z.add Pos.add Pos.succ] in (kern p q) in change (kern p q) with k end;
    rewrite ?Rmult_1_l; up.
Qed.
Lemma box3_att m n : box3 m n = 0 \/ exists d e, (-1 <= d <= 1)%Z /\ (-1 <= e <= 1)%Z /\ x (m + d) (n + e) = 1 /\ box3 m n = kern d e.
Proof.
  assert (T : forall c d e (r : R), (-1 <= d <= 1)%Z -> (-1 <= e <= 1)%Z -> c = kern d e -> r = c * x (m + d) (n + e) ->
    r = 0 \/ exists d e, (-1 <= d <= 1)%Z /\ (-1 <= e <= 1)%Z /\ x (m + d) (n + e) = 1 /\ r = kern d e).
  { intros c d e r Hd He -> ->. destruct (X (m + d) (n + e)) as [->| H]; [left; lra|right]. exists d, e. rewrite H. repeat split; try assumption; try lia; lra. }
  unfold box3.
  destruct (Rmax_or (1 / 2 * x (m + -1)%Z (n + -1)%Z) (Rmax (1 / 2 * x (m + -1)%Z (n + 1)%Z) (Rmax (1 / 2 * x (m + 1)%Z (n + -1)%Z) (Rmax (1 / 2 * x (m + 1)%Z (n + 1)%Z)
  (Rmax (3 / 4 * x (m + -1)%Z (n + 0)%Z) (Rmax (3 / 4 * x (m + 1)%Z (n + 0)%Z) (Rmax (3 / 4 * x (m + 0)%Z (n + -1)%Z) (Rmax (3 / 4 * x (m + 0)%Z (n + 1)%Z) (x (m + 0)%Z (n + 0)%Z))))))))) as [[-> _]|[-> _]];
  [apply (T (1/2) (-1)%Z (-1)%Z); try reflexivity; lia|].
  match goal with |- Rmax ?u ?v = 0 \/ _ => destruct (Rmax_or u v) as [[-> _]|[-> _]] end; [apply (T (1/2) (-1)%Z 1%Z); try reflexivity; lia|].
  match goal with |- Rmax ?u ?v = 0 \/ _ => destruct (Rmax_or u v) as [[-> _]|[-> _]] end; [apply (T (1/2) 1%Z (-1)%Z); try reflexivity; lia|].
  match goal with |- Rmax ?u ?v = 0 \/ _ => destruct (Rmax_or u v) as [[-> _]|[-> _]] end; [apply (T (1/2) 1%Z 1%Z); try reflexivity; lia|].
  match goal with |- Rmax ?u ?v = 0 \/ _ => destruct (Rmax_or u v) as [[-> _]|[-> _]] end; [apply (T (3/4) (-1)%Z 0%Z); try reflexivity; lia|].
  match goal with |- Rmax ?u ?v = 0 \/ _ => destruct (Rmax_or u v) as [[-> _]|[-> _]] end; [apply (T (3/4) 1%Z 0%Z); try reflexivity; lia|].
  match goal with |- Rmax ?u ?v = 0 \/ _ => destruct (Rmax_or u v) as [[-> _]|[-> _]] end; [apply (T (3/4) 0%Z (-1)%Z); try reflexivity; lia|].
  match goal with |- Rmax ?u ?v = 0 \/ _ => destruct (Rmax_or u v) as [[-> _]|[-> _]] end; [apply (T (3/4) 0%Z 1%Z); try reflexivity; lia|].
  apply (T 1 0%Z 0%Z); try reflexivity; try lia. lra.
Qed.
Lemma kern_half d e : (-1 <= d <= 1)%Z -> (-1 <= e <= 1)%Z -> 1 / 2 <= kern d e.
Proof.
  intros Hd He. assert (D : d = (-1)%Z \/ d = 0%Z \/ d = 1%Z) by lia. assert (E : e = (-1)%Z \/ e = 0%Z \/ e = 1%Z) by lia.
  destruct D as [-> |[-> | ->]]; destruct E as [-> |[-> | ->]]; unfold kern; cbn; lra.
Qed.
Lemma kern_far d e : (-2 <= d <= 2)%Z -> (-2 <= e <= 2)%Z -> ~ ((-1 <= d <= 1)%Z /\ (-1 <= e <= 1)%Z) -> kern d e = 1 / 4.
Proof.
  intros Hd He H. unfold kern. assert (M : Z.max (Z.abs d) (Z.abs e) = 2%Z) by lia. rewrite M. reflexivity.
Qed.
Lemma box3_lvl m n : box3 m n = 0 \/ 1 / 2 <= box3 m n.
Proof. destruct (box3_att m n) as [H|(d & e & Hd & He & _ & H)]; [left; exact H|right; rewrite H; apply kern_half; assumption]. Qed.
Lemma box3_pos m n : 0 < box3 m n <-> exists d e, (-1 <= d <= 1)%Z /\ (-1 <= e <= 1)%Z /\ x (m + d) (n + e) = 1.
Proof.
  split.
  - intro H. destruct (box3_att m n) as [H0|(d & e & Hd & He & H1 & _)]; [lra|]. exists d, e. auto.
  - intros (d & e & Hd & He & H). pose proof (box3_ub m n d e Hd He) as U. rewrite H in U. pose proof (kern_half d e Hd He). lra.
Qed.
(** spreading along the second axis, then along the first *)
Definition spread2 (m : Z) : R := Rmax (box3 m 0) (Rmax (qt (box3 m 1)) (qt (box3 m (-1)))).
Definition final2 : R := Rmax (spread2 0) (Rmax (qt (spread2 1)) (qt (spread2 (-1)))).
Lemma spread2_pos m : 0 < spread2 m <-> exists n, (-1 <= n <= 1)%Z /\ 0 < box3 m n.
Proof.
  unfold spread2. split.
  - intro H. destruct (Rmax_or (box3 m 0) (Rmax (qt (box3 m 1)) (qt (box3 m (-1))))) as [[E _]|[E _]]; rewrite E in H.
    + exists 0%Z. split; [lia|exact H].
    + destruct (Rmax_or (qt (box3 m 1)) (qt (box3 m (-1)))) as [[E' _]|[E' _]]; rewrite E' in H;
      [exists 1%Z; destruct (qt_or (box3 m 1)) as [[A B]|[A B]]|exists (-1)%Z; destruct (qt_or (box3 m (-1))) as [[A B]|[A B]]]; try lra; (split; [lia|exact A]).
  - intros (n & Hn & H). pose proof (Rmax_l (box3 m 0) (Rmax (qt (box3 m 1)) (qt (box3 m (-1))))). pose proof (Rmax_r (box3 m 0) (Rmax (qt (box3 m 1)) (qt (box3 m (-1))))).
    pose proof (Rmax_l (qt (box3 m 1)) (qt (box3 m (-1)))). pose proof (Rmax_r (qt (box3 m 1)) (qt (box3 m (-1)))).
    assert (n = (-1)%Z \/ n = 0%Z \/ n = 1%Z) as [-> |[-> | ->]] by lia.
    + rewrite (qt_pos (box3 m (-1))) in * by exact H. lra.
    + lra.
    + rewrite (qt_pos (box3 m 1)) in * by exact H. lra.
Qed.
Lemma final2_ub d e : (-2 <= d <= 2)%Z -> (-2 <= e <= 2)%Z -> x d e = 1 -> kern d e <= final2.
Proof.
  intros Hd He H.
  pose proof (Rmax_l (spread2 0) (Rmax (qt (spread2 1)) (qt (spread2 (-1))))) as A1. pose proof (Rmax_r (spread2 0) (Rmax (qt (spread2 1)) (qt (spread2 (-1))))) as A2.
  pose proof (Rmax_l (qt (spread2 1)) (qt (spread2 (-1)))) as A3. pose proof (Rmax_r (qt (spread2 1)) (qt (spread2 (-1)))) as A4. fold final2 in A1, A2.
  assert (C : (-1 <= d <= 1)%Z /\ (-1 <= e <= 1)%Z \/ ~ ((-1 <= d <= 1)%Z /\ (-1 <= e <= 1)%Z)) by lia. destruct C as [[C1 C2]|C].
  - pose proof (box3_ub 0 0 d e C1 C2) as U. rewrite !Z.add_0_l, H in U. pose proof (Rmax_l (box3 0 0) (Rmax (qt (box3 0 1)) (qt (box3 0 (-1))))) as B. fold (spread2 0) in B. lra.
  - rewrite (kern_far d e Hd He C). set (p := Z.max (-1) (Z.min 1 d)). set (r := Z.max (-1) (Z.min 1 e)).
    assert (P : 0 < box3 p r). { apply box3_pos. exists (d - p)%Z, (e - r)%Z. split; [lia|]. split; [lia|]. replace (p + (d - p))%Z with d by lia. replace (r + (e - r))%Z with e by lia. exact H. }
    assert (Q : 0 < spread2 p). { apply spread2_pos. exists r. split; [lia|exact P]. }
    assert (QL : 1 / 4 <= spread2 p).
    { unfold spread2 in *. destruct (box3_lvl p 0) as [E|E]; [rewrite E in *|pose proof (Rmax_l (box3 p 0) (Rmax (qt (box3 p 1)) (qt (box3 p (-1))))); lra].
      destruct (Rmax_or 0 (Rmax (qt (box3 p 1)) (qt (box3 p (-1))))) as [[F _]|[F _]]; rewrite F in *; [lra|].
      destruct (Rmax_or (qt (box3 p 1)) (qt (box3 p (-1)))) as [[G _]|[G _]]; rewrite G in *;
      [destruct (qt_or (box3 p 1)) as [[_ W]|[_ W]]|destruct (qt_or (box3 p (-1))) as [[_ W]|[_ W]]]; rewrite W in *; lra. }
    assert (p = (-1)%Z \/ p = 0%Z \/ p = 1%Z) as [W|[W|W]] by lia; rewrite W in *.
    + pose proof (qt_pos _ Q). lra.
    + lra.
    + pose proof (qt_pos _ Q). lra.
Qed.
Lemma final2_att : final2 = 0 \/ exists d e, x d e = 1 /\ final2 = kern d e.
Proof.
  assert (G : forall y, final2 = qt y -> box3 0 0 <= final2 -> (0 < y -> exists p r, (-1 <= p <= 1)%Z /\ (-1 <= r <= 1)%Z /\ 0 < box3 p r) ->
     final2 = 0 \/ exists d e, x d e = 1 /\ final2 = kern d e).
  { intros y Hy Hb Hp. destruct (qt_or y) as [[Y E]|[Y E]]; [left; congruence|]. right.
    destruct (Hp Y) as (p & r & Hpp & Hr & B). apply box3_pos in B. destruct B as (d & e & Hd & He & H).
    exists (p + d)%Z, (r + e)%Z. split; [exact H|]. rewrite Hy, E. symmetry. apply kern_far; try lia. intros [C1 C2].
    pose proof (box3_ub 0 0 (p + d) (r + e) C1 C2) as U. rewrite !Z.add_0_l, H in U. pose proof (kern_half _ _ C1 C2). lra. }
  assert (BL : box3 0 0 <= spread2 0) by apply Rmax_l. assert (SL : spread2 0 <= final2) by apply Rmax_l.
  destruct (Rmax_or (spread2 0) (Rmax (qt (spread2 1)) (qt (spread2 (-1))))) as [[E _]|[E _]]; fold final2 in E.
  - unfold spread2 in E. destruct (Rmax_or (box3 0 0) (Rmax (qt (box3 0 1)) (qt (box3 0 (-1))))) as [[F _]|[F _]]; rewrite F in E.
    + rewrite E. destruct (box3_att 0 0) as [B|(d & e & _ & _ & H & B)]; [left; exact B|right]. exists d, e. rewrite !Z.add_0_l in H. auto.
    + destruct (Rmax_or (qt (box3 0 1)) (qt (box3 0 (-1)))) as [[F' _]|[F' _]]; rewrite F' in E; (eapply G; [exact E|lra|]).
      * intro. exists 0%Z, 1%Z. repeat split; try lia; assumption.
      * intro. exists 0%Z, (-1)%Z. repeat split; try lia; assumption.
  - destruct (Rmax_or (qt (spread2 1)) (qt (spread2 (-1)))) as [[F' _]|[F' _]]; rewrite F' in E; (eapply G; [exact E|lra|]).
    + intro P. apply spread2_pos in P. destruct P as (n & Hn & P). exists 1%Z, n. repeat split; try lia; assumption.
    + intro P. apply spread2_pos in P. destruct P as (n & Hn & P). exists (-1)%Z, n. repeat split; try lia; assumption.
Qed.
End Plane.

Section Line.
Context (x : Z -> R) (X : forall m, bit (x m)).
Definition line3 (m : Z) : R := Rmax (3 / 4 * x (m + -1)) (Rmax (3 / 4 * x (m + 1)) (x (m + 0))).
Definition final1 : R := Rmax (line3 0) (Rmax (qt (line3 1)) (qt (line3 (-1)))).
Lemma kern_up d : (-1 <= d <= 1)%Z -> 3 / 4 <= kern d 0.
Proof. intro Hd. assert (D : d = (-1)%Z \/ d = 0%Z \/ d = 1%Z) by lia. destruct D as [-> |[-> | ->]]; unfold kern; cbn; lra. Qed.
Lemma line3_ub m d : (-1 <= d <= 1)%Z -> kern d 0 * x (m + d) <= line3 m.
Proof.
  intros Hd. assert (D : d = (-1)%Z \/ d = 0%Z \/ d = 1%Z) by lia. unfold line3.
  pose proof (Rmax_l (3 / 4 * x (m + -1)%Z) (Rmax (3 / 4 * x (m + 1)%Z) (x (m + 0)%Z))). pose proof (Rmax_r (3 / 4 * x (m + -1)%Z) (Rmax (3 / 4 * x (m + 1)%Z) (x (m + 0)%Z))).
  pose proof (Rmax_l (3 / 4 * x (m + 1)%Z) (x (m + 0)%Z)). pose proof (Rmax_r (3 / 4 * x (m + 1)%Z) (x (m + 0)%Z)).
  destruct D as [-> |[-> | ->]];
    match goal with |- context [kern ?p ?q] => let k := eval cbv [kern Z.abs Z.max Z.compare Pos.compare Pos.compare_cont Z.eqb Pos.eqb Z.add Pos.add Pos.succ] in (kern p q) in change (kern p q) with k end; lra.
Qed.
Lemma line3_att m : line3 m = 0 \/ exists d, (-1 <= d <= 1)%Z /\ x (m + d) = 1 /\ line3 m = kern d 0.
Proof.
  assert (T : forall c d (r : R), (-1 <= d <= 1)%Z -> c = kern d 0 -> r = c * x (m + d) -> r = 0 \/ exists d, (-1 <= d <= 1)%Z /\ x (m + d) = 1 /\ r = kern d 0).
  { intros c d r Hd -> ->. destruct (X (m + d)) as [->| H]; [left; lra|right]. exists d. rewrite H. repeat split; try assumption; try lia; lra. }
  unfold line3.
  match goal with |- Rmax ?u ?v = 0 \/ _ => destruct (Rmax_or u v) as [[-> _]|[-> _]] end; [apply (T (3/4) (-1)%Z); try reflexivity; lia|].
  match goal with |- Rmax ?u ?v = 0 \/ _ => destruct (Rmax_or u v) as [[-> _]|[-> _]] end; [apply (T (3/4) 1%Z); try reflexivity; lia|].
  apply (T 1 0%Z); try reflexivity; try lia. lra.
Qed.
Lemma line3_pos m : 0 < line3 m <-> exists d, (-1 <= d <= 1)%Z /\ x (m + d) = 1.
Proof.
  split.
  - intro H. destruct (line3_att m) as [H0|(d & Hd & H1 & _)]; [lra|]. exists d. auto.
  - intros (d & Hd & H). pose proof (line3_ub m d Hd) as U. rewrite H in U. pose proof (kern_up d Hd). lra.
Qed.
Lemma final1_ub d : (-2 <= d <= 2)%Z -> x d = 1 -> kern d 0 <= final1.
Proof.
  intros Hd H.
  pose proof (Rmax_l (line3 0) (Rmax (qt (line3 1)) (qt (line3 (-1))))) as A1. pose proof (Rmax_r (line3 0) (Rmax (qt (line3 1)) (qt (line3 (-1))))) as A2.
  pose proof (Rmax_l (qt (line3 1)) (qt (line3 (-1)))) as A3. pose proof (Rmax_r (qt (line3 1)) (qt (line3 (-1)))) as A4. fold final1 in A1, A2.
  assert (C : (-1 <= d <= 1)%Z \/ ~ (-1 <= d <= 1)%Z) by lia. destruct C as [C|C].
  - pose proof (line3_ub 0 d C) as U. rewrite !Z.add_0_l, H in U. lra.
  - rewrite (kern_far d 0) by lia. set (p := Z.max (-1) (Z.min 1 d)).
    assert (P : 0 < line3 p). { apply line3_pos. exists (d - p)%Z. split; [lia|]. replace (p + (d - p))%Z with d by lia. exact H. }
    assert (p = (-1)%Z \/ p = 1%Z) as [W|W] by lia; rewrite W in P; pose proof (qt_pos _ P); lra.
Qed.
Lemma final1_att : final1 = 0 \/ exists d, x d = 1 /\ final1 = kern d 0.
Proof.
  assert (G : forall p, (-1 <= p <= 1)%Z -> final1 = qt (line3 p) -> final1 = 0 \/ exists d, x d = 1 /\ final1 = kern d 0).
  { intros p Hp Hy. destruct (qt_or (line3 p)) as [[Y E]|[Y E]]; [left; congruence|]. right.
    apply line3_pos in Y. destruct Y as (d & Hd & H).
    exists (p + d)%Z. split; [exact H|]. rewrite Hy, E. symmetry. apply kern_far; try lia. intros [C1 C2].
    pose proof (line3_ub 0 (p + d) C1) as U. rewrite !Z.add_0_l, H in U. pose proof (kern_up _ C1). assert (line3 0 <= final1) by apply Rmax_l. lra. }
  destruct (Rmax_or (line3 0) (Rmax (qt (line3 1)) (qt (line3 (-1))))) as [[E _]|[E _]]; fold final1 in E.
  - rewrite E. destruct (line3_att 0) as [B|(d & _ & H & B)]; [left; exact B|right]. exists d. rewrite !Z.add_0_l in H. auto.
  - destruct (Rmax_or (qt (line3 1)) (qt (line3 (-1)))) as [[F' _]|[F' _]]; rewrite F' in E; (eapply G; [|exact E]); lia.
Qed.
End Line.

(** ** the padded array of troubled cells *)
Local Open Scope Z_scope.
Definition grown (ds : list axis) (s : ix) : ix :=
  let n a := if mem_axis a ds then getc a s + 4 else 1 in mkix (n AX) (n AY) (n AZ).
Definition unpad (ds : list axis) (i : ix) : ix :=
  let n a := if mem_axis a ds then getc a i - 2 else getc a i in mkix (n AX) (n AY) (n AZ).



Lemma assign3_empty (sl : axis -> pyslice) (t src : arr R) b : rows src = 1 -> rows t = 1 ->
  ex_len (slice_adjust (getc b (shp t)) (sl b)) = 0 ->
  (forall a, getc a (shp src) = ex_len (slice_adjust (getc a (shp t)) (sl a)) \/ getc a (shp src) = 1) ->
  exists c, assign3 sl t src = Ok c /\ rows c = 1 /\ shp c = shp t /\ forall v i, at_ c v i = at_ t v i.
Proof.
  intros RS RT L0 H. unfold assign3. set (region := mkix _ _ _).
  assert (B : bcast_ok (rows src) (rows t) (shp src) region = true).
  { unfold bcast_ok, region. cbn [cx cy cz]. rewrite RS, RT. cbn [Z.eqb Pos.eqb orb andb].
    rewrite !andb_true_iff, !orb_true_iff, !Z.eqb_eq. pose proof (H AX). pose proof (H AY). pose proof (H AZ). cbn [getc] in *. tauto. }
  rewrite B. eexists. split; [reflexivity|]. split; [exact RT|]. split; [reflexivity|]. intros v i. cbn [at_].
  set (test := _ && _ && _). assert (T : test = false).
  { destruct test eqn:E; [|reflexivity]. exfalso. unfold test in E. rewrite !andb_true_iff, !Z.leb_le, !Z.ltb_lt in E. destruct b; cbn [getc] in *; lia. }
  rewrite T. reflexivity.
Qed.

Definition s_lo := mkslice None (Some 2) None.
Definition s_hi := mkslice (Some (-2)) None None.
Lemma len_lo n : 1 <= n -> ex_len (slice_adjust n s_lo) = 2 \/ ex_len (slice_adjust n s_lo) = 1.
Proof.
  intro H. assert (n = 1 \/ 2 <= n) as [->|H2] by lia; [right; reflexivity|]. left.
  assert (E : slice_adjust n s_lo = mkext 0 2 1) by (unfold s_lo; slice_tac). rewrite E. reflexivity.
Qed.
Lemma len_hi n : 1 <= n -> ex_len (slice_adjust n s_hi) = 2 \/ ex_len (slice_adjust n s_hi) = 1.
Proof.
  intro H. assert (n = 1 \/ 2 <= n) as [->|H2] by lia; [right; reflexivity|]. left.
  assert (E : slice_adjust n s_hi = mkext (n - 2) 2 1) by (unfold s_hi; slice_tac). rewrite E. reflexivity.
Qed.
Lemma lo_4 n : 1 <= n -> slice_adjust (n + 4) s_lo = mkext 0 2 1.
Proof. intro. unfold s_lo. slice_tac. Qed.
Lemma hi_4 n : 1 <= n -> slice_adjust (n + 4) s_hi = mkext (n + 2) 2 1.
Proof. intro. unfold s_hi. slice_tac. Qed.
Lemma in_4 n : 1 <= n -> slice_adjust (n + 4) (s_in 2) = mkext 2 n 1.
Proof. intro. rewrite sl_in by lia. f_equal; lia. Qed.

(** the fill of one periodic axis changes nothing when some axis is inactive *)
Definition regs (a : axis) (sa : pyslice) : axis -> pyslice := fun c => if axis_eqb c a then sa else s_in 2.
Definition onlys (a : axis) (sa : pyslice) : axis -> pyslice := fun c => if axis_eqb c a then sa else slice_all.
Definition same_arr (c t : arr R) : Prop := rows c = rows t /\ shp c = shp t /\ forall v i, at_ c v i = at_ t v i.
Lemma getc_view3 (sl : axis -> pyslice) (u : arr R) a : getc a (shp (view3 sl u)) = ex_len (slice_adjust (getc a (shp u)) (sl a)).
Proof. destruct a; reflexivity. Qed.
Lemma getc_grown a ds s : getc a (grown ds s) = if mem_axis a ds then getc a s + 4 else 1.
Proof. destruct a; reflexivity. Qed.
Lemma fill_noop (t tr : arr R) ds a b (src : pyslice -> axis -> pyslice) : rows t = 1 -> rows tr = 1 -> thin ds (shp tr) -> shp t = grown ds (shp tr) ->
  mem_axis a ds = true -> mem_axis b ds = false ->
  (forall sa, src sa a = sa) ->
  (forall sa c, c <> a -> src sa c = slice_all \/ src sa c = s_in 2 /\ mem_axis c ds = false) ->
  exists t2, (do t1 <- assign3 (regs a s_lo) t (view3 (src s_hi) tr); assign3 (regs a s_hi) t1 (view3 (src s_lo) tr)) = Ok t2 /\ same_arr t2 t.
Proof.
  intros RT RS FL ST Ma Mb Sa So.
  assert (AB : a <> b) by (intros ->; congruence).
  assert (G : forall d e (t' : arr R), (d = s_lo /\ e = s_hi \/ d = s_hi /\ e = s_lo) -> rows t' = 1 -> shp t' = grown ds (shp tr) ->
    exists c, assign3 (regs a d) t' (view3 (src e) tr) = Ok c /\ rows c = 1 /\ shp c = shp t' /\ forall v i, at_ c v i = at_ t' v i).
  { intros d e t' DE RT' ST'. apply assign3_empty with (b := b).
    - exact RS. - exact RT'.
    - rewrite ST', getc_grown, Mb. unfold regs. destruct b; destruct a; try congruence; reflexivity.
    - intro c. rewrite getc_view3, ST', getc_grown. destruct (FL c) as [L1 L2]. unfold regs. destruct (axis_dec a c) as [<-|Hc].
      + rewrite Ma, Sa. replace (axis_eqb a a) with true by (destruct a; reflexivity).
        destruct DE as [[-> ->]|[-> ->]]; [rewrite lo_4 by exact L1; cbn [ex_len]; apply len_hi, L1|rewrite hi_4 by exact L1; cbn [ex_len]; apply len_lo, L1].
      + replace (axis_eqb c a) with false by (destruct a, c; try reflexivity; congruence).
        destruct (So e c (not_eq_sym Hc)) as [E|[E Mc]]; rewrite E.
        * rewrite sl_slice_all by lia. cbn [ex_len]. destruct (mem_axis c ds); [rewrite in_4 by exact L1; left; reflexivity|right; apply L2; reflexivity].
        * rewrite Mc, (L2 Mc). left. reflexivity. }
  destruct (G s_lo s_hi t (or_introl (conj eq_refl eq_refl)) RT ST) as (t1 & E1 & R1 & S1 & F1).
  destruct (G s_hi s_lo t1 (or_intror (conj eq_refl eq_refl)) R1 (eq_trans S1 ST)) as (t2 & E2 & R2 & S2 & F2).
  rewrite E1. cbn [bind]. exists t2. split; [exact E2|]. split; [congruence|]. split; [congruence|]. intros. rewrite F2. apply F1.
Qed.

(** the axes along which convex blending is implemented, and their order *)
Lemma alloc_is ds per (tr : arr R) g b : is1 tr (shp tr) g -> thin ds (shp tr) -> mem_axis b ds = false ->
  (per AZ && mem_axis AZ ds = true -> mem_axis AX ds = false /\ mem_axis AY ds = false) ->
  exists t, alloc_trouble RNum ds per tr = Ok t /\ is1 t (grown ds (shp tr)) (fun i => ext (shp tr) g (unpad ds i)).
Proof.
  intros (RT & _ & FT) FL Mb PZ. unfold alloc_trouble.
  change (mkslice None (Some 2) None) with s_lo. change (mkslice (Some (-2)) None None) with s_hi.
  set (s := shp tr) in *. set (z := zeros RNum _).
  assert (Z : shp z = grown ds s) by reflexivity.
  assert (A0 : exists t, assign3 (fun a => if mem_axis a ds then s_in 2 else slice_all) z tr = Ok t /\ rows t = 1 /\ shp t = grown ds s /\
     forall i, in_shape (grown ds s) i -> at_ t 0 i = ext s g (unpad ds i)).
  { unfold assign3.
    assert (EX : forall a, slice_adjust (getc a (shp z)) (if mem_axis a ds then s_in 2 else slice_all) = mkext (if mem_axis a ds then 2 else 0) (getc a s) 1).
    { intro a. rewrite Z, getc_grown. destruct (FL a) as [L1 L2]. destruct (mem_axis a ds); [apply in_4, L1|]. rewrite sl_slice_all by lia. rewrite L2 by reflexivity. reflexivity. }
    rewrite !EX. cbn [ex_len ex_start]. 
    change (@shp (car RNum) tr) with s. change (mkix (getc AX s) (getc AY s) (getc AZ s)) with (mkix (cx s) (cy s) (cz s)).
    replace (mkix (cx s) (cy s) (cz s)) with s by (destruct s; reflexivity).
    change (@rows (car RNum) z) with 1. assert (RT' : @rows (car RNum) tr = 1) by exact RT. rewrite RT', bcast_ok_eq.
    eexists. split; [reflexivity|]. split; [reflexivity|]. split; [exact Z|]. intros i Hi. cbn [at_]. rewrite brow_eq, bix_eq.
    set (test := _ && _ && _).
    assert (TT : test = true <-> in_shape s (unpad ds i)).
    { unfold test. rewrite !andb_true_iff, !Z.leb_le, !Z.ltb_lt. unfold in_shape, unpad. split.
      - intros H a. destruct a; cbn [getc cx cy cz] in *; destruct (mem_axis AX ds), (mem_axis AY ds), (mem_axis AZ ds); lia.
      - intro H. pose proof (H AX) as Hx. pose proof (H AY) as Hy. pose proof (H AZ) as Hz. cbn [getc cx cy cz] in *.
        destruct (mem_axis AX ds), (mem_axis AY ds), (mem_axis AZ ds); lia. }
    replace (mkix (cx i - (if mem_axis AX ds then 2 else 0)) (cy i - (if mem_axis AY ds then 2 else 0)) (cz i - (if mem_axis AZ ds then 2 else 0))) with (unpad ds i).
    2:{ unfold unpad. cbn [getc]. destruct (mem_axis AX ds), (mem_axis AY ds), (mem_axis AZ ds); f_equal; lia. }
    destruct test.
    - rewrite ext_in by (apply TT; reflexivity). apply FT, TT. reflexivity.
    - rewrite ext_out by (rewrite <- TT; discriminate). reflexivity. }
  destruct A0 as (t0 & E0 & R0 & S0 & F0).
  match goal with |- context [bind ?X _] => replace X with (Ok t0) by (symmetry; exact E0) end. cbn [bind]. clear E0 z Z.
  assert (SX : forall ax, mem_axis ax ds = true -> forall t, rows t = 1 -> shp t = grown ds s ->
     exists t2, (do t1 <- assign3 (regs ax s_lo) t (view3 (onlys ax s_hi) tr); assign3 (regs ax s_hi) t1 (view3 (onlys ax s_lo) tr)) = Ok t2 /\ same_arr t2 t).
  { intros ax M t Rt St. apply (fill_noop t tr ds ax b (onlys ax)); try assumption.
    - intro sa. unfold onlys. destruct ax; reflexivity.
    - intros sa c Hc. left. unfold onlys. destruct ax, c; try reflexivity; congruence. }
  assert (PX : forall ax, ax = AX \/ ax = AY -> forall t, rows t = 1 -> shp t = grown ds s ->
     exists t2, (if per ax && mem_axis ax ds then do t1 <- assign3 (regs ax s_lo) t (view3 (onlys ax s_hi) tr); assign3 (regs ax s_hi) t1 (view3 (onlys ax s_lo) tr) else Ok t) = Ok t2 /\ same_arr t2 t).
  { intros ax _ t Rt St. destruct (per ax && mem_axis ax ds) eqn:E.
    - apply andb_true_iff in E. apply SX; tauto.
    - exists t. split; [reflexivity|]. repeat split. }
  destruct (PX AX (or_introl eq_refl) t0 R0 S0) as (t1 & E1 & R1 & S1 & F1).
  match goal with |- context [bind ?X _] => replace X with (Ok t1) by (symmetry; exact E1) end. cbn [bind].
  destruct (PX AY (or_intror eq_refl) t1 (eq_trans R1 R0) (eq_trans S1 S0)) as (t2 & E2 & R2 & S2 & F2).
  match goal with |- context [bind ?X _] => replace X with (Ok t2) by (symmetry; exact E2) end. cbn [bind].
  assert (PZ' : exists t3, (if per AZ && mem_axis AZ ds then do t1 <- assign3 (regs AZ s_lo) t2 (view3 (regs AZ s_hi) tr); assign3 (regs AZ s_hi) t1 (view3 (regs AZ s_lo) tr) else Ok t2) = Ok t3 /\ same_arr t3 t2).
  { destruct (per AZ && mem_axis AZ ds) eqn:E; [|exists t2; split; [reflexivity|repeat split]].
    destruct (PZ eq_refl) as [MX MY]. apply andb_true_iff in E. apply (fill_noop t2 tr ds AZ AX (regs AZ)).
    - exact (eq_trans R2 (eq_trans R1 R0)).
    - exact RT.
    - exact FL.
    - exact (eq_trans S2 (eq_trans S1 S0)).
    - tauto.
    - exact MX.
    - intro sa. reflexivity.
    - intros sa c Hc. right. destruct c; try congruence; (split; [reflexivity|assumption]). }
  destruct PZ' as (t3 & E3 & R3 & S3 & F3). exists t3. split; [exact E3|]. split; [exact (eq_trans R3 (eq_trans R2 (eq_trans R1 R0)))|]. split; [exact (eq_trans S3 (eq_trans S2 (eq_trans S1 S0)))|].
  intros i Hi. rewrite F3, F2, F1. apply F0, Hi.
Qed.

(** ** one axis *)
Lemma moved_moved a m n k : moved a m (moved a n k) = moved a (n + m) k.
Proof. unfold moved. rewrite getc_setc_eq, setc_setc. f_equal. lia. Qed.
Lemma moved_0 a k : moved a 0 k = k.
Proof. unfold moved. rewrite Z.add_0_r. apply setc_getc. Qed.
Lemma q75_is : @q75 RNum = (3 / 4)%R.
Proof. unfold q75. rn. reflexivity. Qed.
Lemma bit_nn y : bit y -> (0 <= y)%R.
Proof. intros [->| ->]; lra. Qed.
Lemma bit_lvl y : bit y -> lvl y.
Proof. intros [->| ->]; [left; reflexivity|right; lra]. Qed.
Lemma bit_ext s g i : (forall j, bit (g j)) -> bit (ext s g i).
Proof. intro H. unfold ext. destruct (inb s i); [apply H|left; reflexivity]. Qed.
Lemma lvl_scaled c y : (1 / 4 <= c)%R -> bit y -> lvl (c * y).
Proof. intros H [->| ->]; [left|right]; lra. Qed.
Lemma qt_0 : qt 0 = 0%R.
Proof. apply qt_zero. lra. Qed.

Definition wt1 (S : ix) (f : ix -> R) (a : axis) (k : ix) : R := final1 (fun m => ext S f (moved a m k)).
Lemma convex_1d_is a (t : arr R) S f n : is1 t S f -> (forall i, bit (f i)) -> (forall b, 1 <= getc b S) -> getc a S = n + 4 -> 1 <= n ->
  exists c, convex_1d RNum a t = Ok c /\ is1 c (setc a (n + 1) S) (fun i => Rmax (wt1 S f a (moved a 1 i)) (wt1 S f a (moved a 2 i))).
Proof.
  intros HT B H1 HS Hn. unfold convex_1d.
  set (h1 := fun i => Rmax (@q75 RNum * ext S f (moved a 1 i)) (f i)).
  set (h2 := fun i => Rmax (@q75 RNum * ext S f (moved a (-1) i)) (h1 i)).
  set (h3 := fun i => Rmax (qt (ext S h2 (moved a 1 i))) (h2 i)).
  set (h4 := fun i => Rmax (qt (ext S h3 (moved a (-1) i))) (h3 i)).
  assert (Q0 : (@q75 RNum * 0 = 0)%R) by (rewrite q75_is; lra).
  assert (L1 : forall i, lvl (h1 i)). { intro i. apply lvl_max; [rewrite q75_is; apply lvl_scaled; [lra|apply bit_ext, B]|apply bit_lvl, B]. }
  assert (L2 : forall i, lvl (h2 i)). { intro i. apply lvl_max; [rewrite q75_is; apply lvl_scaled; [lra|apply bit_ext, B]|apply L1]. }
  assert (L3 : forall i, lvl (h3 i)). { intro i. apply lvl_max; [apply lvl_qt|apply L2]. }
  destruct (max1_step a 1 (fun x => @q75 RNum * x)%R t t S f f (or_introl eq_refl) H1 HT HT Q0 (fun i => bit_nn _ (B i))) as (t1 & E1 & I1).
  match goal with |- context [bind ?X _] => replace X with (Ok t1) by (symmetry; exact E1) end. cbn [bind].
  destruct (max1_step a (-1) (fun x => @q75 RNum * x)%R t t1 S f h1 (or_intror eq_refl) H1 HT I1 Q0 (fun i => lvl_nn _ (L1 i))) as (t2 & E2 & I2).
  match goal with |- context [bind ?X _] => replace X with (Ok t2) by (symmetry; exact E2) end. cbn [bind].
  destruct (max1_step a 1 qt t2 t2 S h2 h2 (or_introl eq_refl) H1 I2 I2 qt_0 (fun i => lvl_nn _ (L2 i))) as (t3 & E3 & I3).
  match goal with |- context [bind ?X _] => replace X with (Ok t3) by (symmetry; exact E3) end. cbn [bind].
  destruct (max1_step a (-1) qt t3 t3 S h3 h3 (or_intror eq_refl) H1 I3 I3 qt_0 (fun i => lvl_nn _ (L3 i))) as (t4 & E4 & I4).
  match goal with |- context [bind ?X _] => replace X with (Ok t4) by (symmetry; exact E4) end. cbn [bind].
  fold h4 in I4. clear E1 E2 E3 E4 t1 t2 t3 I1 I2 I3.
  destruct I4 as (R4 & S4 & F4).
  assert (SA : slice_adjust (getc a (@shp R t4)) (mkslice (Some 1) (Some (-2)) None) = mkext 1 (n + 1) 1). { rewrite S4, HS. slice_tac. }
  assert (SB : slice_adjust (getc a (@shp R t4)) (mkslice (Some 2) (Some (-1)) None) = mkext 2 (n + 1) 1). { rewrite S4, HS. slice_tac. }
  destruct (@view_is R a _ t4 1 (n + 1) SA) as (RA & HA & FA). destruct (@view_is R a _ t4 2 (n + 1) SB) as (RB & HB & FB). rewrite S4 in HA, HB.
  destruct (amap2_is (@nmax RNum) (view a (mkslice (Some 1) (Some (-2)) None) t4) (view a (mkslice (Some 2) (Some (-1)) None) t4) 1 (setc a (n + 1) S)
    (fun v i => at_ t4 v (setc a (1 + getc a i) i)) (fun v i => at_ t4 v (setc a (2 + getc a i) i))) as (m & Em & Rm & Sm & Fm).
  { split; [exact (eq_trans RA R4)|]. split; [exact HA|exact FA]. }
  { split; [exact (eq_trans RB R4)|]. split; [exact HB|exact FB]. }
  exists m. split; [exact Em|]. split; [exact Rm|]. split; [exact Sm|]. intros i Hi. rewrite Fm.
  pose proof (Hi a) as Ia. rewrite getc_setc_eq in Ia.
  assert (IN : forall m, 0 <= getc a i + m < n + 4 -> in_shape S (moved a m i)).
  { intros d Hd b. unfold moved. destruct (axis_dec a b) as [<-|Hb]; [rewrite getc_setc_eq, HS; exact Hd|rewrite getc_setc_ne by exact Hb].
    specialize (Hi b). rewrite getc_setc_ne in Hi by exact Hb. exact Hi. }
  assert (LN : forall k m, in_shape S (moved a m k) -> h2 (moved a m k) = line3 (fun m => ext S f (moved a m k)) m).
  { intros k d Hk. unfold h2, h1, line3. rewrite q75_is, !moved_moved, Z.add_0_r. rewrite (ext_in S f (moved a d k)) by exact Hk. reflexivity. }
  assert (W : forall e, e = 1 \/ e = 2 -> h4 (moved a e i) = wt1 S f a (moved a e i)).
  { intros e He. set (k := moved a e i).
    assert (K0 : in_shape S k) by (apply IN; lia).
    assert (K1 : in_shape S (moved a 1 k)) by (unfold k; rewrite moved_moved; apply IN; lia).
    assert (K2 : in_shape S (moved a (-1) k)) by (unfold k; rewrite moved_moved; apply IN; lia).
    pose proof (pair_at S a h2 k L2 K0 K1 K2) as P. cbn beta zeta in P. unfold h4, h3. rewrite P. unfold wt1, final1.
    rewrite <- (LN k 0), <- (LN k 1), <- (LN k (-1)); try assumption; rewrite moved_0; [reflexivity|exact K0]. }
  transitivity (Rmax (at_ t4 0 (setc a (1 + getc a i) i)) (at_ t4 0 (setc a (2 + getc a i) i))); [reflexivity|].
  replace (setc a (1 + getc a i) i) with (moved a 1 i) by (unfold moved; f_equal; lia).
  replace (setc a (2 + getc a i) i) with (moved a 2 i) by (unfold moved; f_equal; lia).
  rewrite !F4 by (apply IN; lia). rewrite !W by lia. reflexivity.
Qed.

(** ** two axes *)
Lemma moved_comm a b m n k : a <> b -> moved a m (moved b n k) = moved b n (moved a m k).
Proof. intro H. unfold moved. destruct k as [k1 k2 k3]. destruct a, b; try congruence; reflexivity. Qed.
Lemma moved2 a b m n d e k : a <> b -> moved a d (moved b e (moved a m (moved b n k))) = moved a (m + d) (moved b (n + e) k).
Proof. intro H. rewrite (moved_comm b a e m) by congruence. rewrite !moved_moved. f_equal. Qed.
Definition one3 (e : Z) : Prop := e = -1 \/ e = 0 \/ e = 1.
Lemma max2_step a b ea eb (f : R -> R) (src t : arr R) s g h : a <> b -> one3 ea -> one3 eb -> (forall c, 1 <= getc c s) -> is1 src s g -> is1 t s h ->
  (f 0 = 0)%R -> (forall i, 0 <= h i)%R ->
  exists c, max_into3 RNum (sl2 a b (dsl ea) (dsl eb)) (amap f (view3 (sl2 a b (dsl (- ea)) (dsl (- eb))) src)) t = Ok c /\
    is1 c s (fun i => Rmax (f (ext s g (moved a ea (moved b eb i)))) (h i)).
Proof.
  intros AB Ha Hb H1 HS HT F0 Hh. set (d := setc a ea (setc b eb (mkix 0 0 0))).
  assert (U : unit3 d). { intro c. unfold d, one3 in *. destruct a, b, c; try congruence; cbn; tauto. }
  destruct (max3_step d f src t s g h U H1 HS HT F0 Hh) as (c & E & I). exists c. split.
  - rewrite <- E. unfold d. destruct a, b; try congruence; reflexivity.
  - eapply is1_ext; [exact I|]. intros i Hi. cbn beta. do 3 f_equal. unfold d, SpecBc.shift, moved. destruct i as [i1 i2 i3]. destruct a, b; try congruence; cbn [setc getc cx cy cz]; f_equal; lia.
Qed.
Lemma view2_is a b sa sb (t : arr R) S ka la kb lb : a <> b -> shp t = S -> (forall c, 1 <= getc c S) ->
  slice_adjust (getc a S) sa = mkext ka la 1 -> slice_adjust (getc b S) sb = mkext kb lb 1 ->
  rows (view3 (sl2 a b sa sb) t) = rows t /\ shp (view3 (sl2 a b sa sb) t) = setc a la (setc b lb S) /\
  forall v i, at_ (view3 (sl2 a b sa sb) t) v i = at_ t v (moved a ka (moved b kb i)).
Proof.
  intros AB HS H1 Ea Eb.
  destruct (view3_is (sl2 a b sa sb) t (setc a ka (setc b kb (mkix 0 0 0))) (setc a la (setc b lb S))) as (R1 & S1 & F1).
  - intro c. rewrite HS. pose proof (H1 c). unfold sl2. destruct (axis_dec a c) as [<-|Hc].
    + replace (axis_eqb a a) with true by (destruct a; reflexivity). rewrite Ea, !getc_setc_eq. reflexivity.
    + replace (axis_eqb c a) with false by (destruct a, c; try reflexivity; congruence). rewrite !(getc_setc_ne a) by exact Hc. destruct (axis_dec b c) as [<-|Hd].
      * replace (axis_eqb b b) with true by (destruct b; reflexivity). rewrite Eb, !getc_setc_eq. reflexivity.
      * replace (axis_eqb c b) with false by (destruct b, c; try reflexivity; congruence). rewrite !(getc_setc_ne b) by exact Hd. rewrite sl_slice_all by lia. destruct c; reflexivity.
  - split; [exact R1|]. split; [exact S1|]. intros v i. rewrite F1. f_equal. unfold SpecBc.shift, moved. destruct i as [i1 i2 i3]. destruct a, b; try congruence; cbn [setc getc cx cy cz]; f_equal; lia.
Qed.

Definition wt2 (S : ix) (f : ix -> R) (a b : axis) (k : ix) : R := final2 (fun m n => ext S f (moved a m (moved b n k))).
Lemma half_is : @nhalf RNum = (1 / 2)%R.
Proof. unfold nhalf. rn. lra. Qed.
Lemma convex_2d_is a b (t : arr R) S f na nb : a <> b -> is1 t S f -> (forall i, bit (f i)) -> (forall c, 1 <= getc c S) ->
  getc a S = na + 4 -> 1 <= na -> getc b S = nb + 4 -> 1 <= nb ->
  exists c d, convex_2d RNum a b t = Ok (c, d) /\
    is1 c (setc a (na + 1) (setc b nb S)) (fun i => Rmax (wt2 S f a b (moved a 2 (moved b 2 i))) (wt2 S f a b (moved a 1 (moved b 2 i)))) /\
    is1 d (setc a na (setc b (nb + 1) S)) (fun i => Rmax (wt2 S f a b (moved a 2 (moved b 2 i))) (wt2 S f a b (moved a 2 (moved b 1 i)))).
Proof.
  intros AB HT B H1 HSa Hna HSb Hnb. unfold convex_2d.
  set (st := fun (c : R) ea eb (h : ix -> R) i => Rmax (c * ext S f (moved a ea (moved b eb i))) (h i)).
  set (h1 := st (@q75 RNum) 0 1 f). set (h2 := st (@q75 RNum) 0 (-1) h1). set (h3 := st (@q75 RNum) 1 0 h2). set (h4 := st (@q75 RNum) (-1) 0 h3).
  set (h5 := st (@nhalf RNum) 1 1 h4). set (h6 := st (@nhalf RNum) 1 (-1) h5). set (h7 := st (@nhalf RNum) (-1) 1 h6). set (h8 := st (@nhalf RNum) (-1) (-1) h7).
  set (h9 := fun i => Rmax (qt (ext S h8 (moved b 1 i))) (h8 i)). set (h10 := fun i => Rmax (qt (ext S h9 (moved b (-1) i))) (h9 i)).
  set (h11 := fun i => Rmax (qt (ext S h10 (moved a 1 i))) (h10 i)). set (h12 := fun i => Rmax (qt (ext S h11 (moved a (-1) i))) (h11 i)).
  assert (LS : forall c ea eb h, (1 / 4 <= c)%R -> (forall i, lvl (h i)) -> forall i, lvl (st c ea eb h i)).
  { intros c ea eb h Hc Hh i. apply lvl_max; [apply lvl_scaled; [exact Hc|apply bit_ext, B]|apply Hh]. }
  assert (C75 : (1 / 4 <= @q75 RNum)%R) by (rewrite q75_is; lra). assert (C5 : (1 / 4 <= @nhalf RNum)%R) by (rewrite half_is; lra).
  assert (L0 : forall i, lvl (f i)) by (intro; apply bit_lvl, B).
  assert (L1 := LS _ 0 1 f C75 L0). assert (L2 := LS _ 0 (-1) _ C75 L1). assert (L3 := LS _ 1 0 _ C75 L2). assert (L4 := LS _ (-1) 0 _ C75 L3).
  assert (L5 := LS _ 1 1 _ C5 L4). assert (L6 := LS _ 1 (-1) _ C5 L5). assert (L7 := LS _ (-1) 1 _ C5 L6). assert (L8 := LS _ (-1) (-1) _ C5 L7).
  fold h1 in L1, L2, L3, L4, L5, L6, L7, L8. fold h2 in L2, L3, L4, L5, L6, L7, L8. fold h3 in L3, L4, L5, L6, L7, L8. fold h4 in L4, L5, L6, L7, L8.
  fold h5 in L5, L6, L7, L8. fold h6 in L6, L7, L8. fold h7 in L7, L8. fold h8 in L8.
  assert (L9 : forall i, lvl (h9 i)) by (intro; apply lvl_max; [apply lvl_qt|apply L8]).
  assert (L10 : forall i, lvl (h10 i)) by (intro; apply lvl_max; [apply lvl_qt|apply L9]).
  assert (L11 : forall i, lvl (h11 i)) by (intro; apply lvl_max; [apply lvl_qt|apply L10]).
  assert (NEAR : forall c ea eb (h : ix -> R) t', one3 ea -> one3 eb -> (forall i, lvl (h i)) -> is1 t' S h ->
    exists t2, max_into3 RNum (sl2 a b (dsl ea) (dsl eb)) (amap (fun x => c * x)%R (view3 (sl2 a b (dsl (- ea)) (dsl (- eb))) t)) t' = Ok t2 /\ is1 t2 S (st c ea eb h)).
  { intros c ea eb h t' Oa Ob Lh It'. apply (max2_step a b ea eb (fun x => c * x)%R t t' S f h AB Oa Ob H1 HT It'); [lra|]. intro. apply lvl_nn, Lh. }
  assert (THIRD : forall ea eb (h : ix -> R) t', one3 ea -> one3 eb -> (forall i, lvl (h i)) -> is1 t' S h ->
    exists t2, max_into3 RNum (sl2 a b (dsl ea) (dsl eb)) (amap qt (view3 (sl2 a b (dsl (- ea)) (dsl (- eb))) t')) t' = Ok t2 /\ is1 t2 S (fun i => Rmax (qt (ext S h (moved a ea (moved b eb i)))) (h i))).
  { intros ea eb h t' Oa Ob Lh It'. apply (max2_step a b ea eb qt t' t' S h h AB Oa Ob H1 It' It' qt_0). intro. apply lvl_nn, Lh. }
  assert (O0 : one3 0) by (unfold one3; lia). assert (O1 : one3 1) by (unfold one3; lia). assert (Om : one3 (-1)) by (unfold one3; lia).
  destruct (NEAR (@q75 RNum) 0 1 f t O0 O1 L0 HT) as (t1 & E1 & I1). destruct (NEAR (@q75 RNum) 0 (-1) h1 t1 O0 Om L1 I1) as (t2 & E2 & I2).
  destruct (NEAR (@q75 RNum) 1 0 h2 t2 O1 O0 L2 I2) as (t3 & E3 & I3). destruct (NEAR (@q75 RNum) (-1) 0 h3 t3 Om O0 L3 I3) as (t4 & E4 & I4).
  destruct (NEAR (@nhalf RNum) 1 1 h4 t4 O1 O1 L4 I4) as (t5 & E5 & I5). destruct (NEAR (@nhalf RNum) 1 (-1) h5 t5 O1 Om L5 I5) as (t6 & E6 & I6).
  destruct (NEAR (@nhalf RNum) (-1) 1 h6 t6 Om O1 L6 I6) as (t7 & E7 & I7). destruct (NEAR (@nhalf RNum) (-1) (-1) h7 t7 Om Om L7 I7) as (t8 & E8 & I8).
  fold h8 in I8.
  destruct (THIRD 0 1 h8 t8 O0 O1 L8 I8) as (t9 & E9 & I9).
  assert (J9 : is1 t9 S h9). { eapply is1_ext; [exact I9|]. intros i Hi. cbn beta. rewrite moved_0. reflexivity. }
  destruct (THIRD 0 (-1) h9 t9 O0 Om L9 J9) as (t10 & E10 & I10).
  assert (J10 : is1 t10 S h10). { eapply is1_ext; [exact I10|]. intros i Hi. cbn beta. rewrite moved_0. reflexivity. }
  destruct (THIRD 1 0 h10 t10 O1 O0 L10 J10) as (t11 & E11 & I11).
  assert (J11 : is1 t11 S h11). { eapply is1_ext; [exact I11|]. intros i Hi. cbn beta. rewrite moved_0. reflexivity. }
  destruct (THIRD (-1) 0 h11 t11 Om O0 L11 J11) as (t12 & E12 & I12).
  assert (J12 : is1 t12 S h12). { eapply is1_ext; [exact I12|]. intros i Hi. cbn beta. rewrite moved_0. reflexivity. }
  match goal with |- context [bind ?X _] => replace X with (Ok t1) by (symmetry; exact E1) end. cbn [bind].
  match goal with |- context [bind ?X _] => replace X with (Ok t2) by (symmetry; exact E2) end. cbn [bind].
  match goal with |- context [bind ?X _] => replace X with (Ok t3) by (symmetry; exact E3) end. cbn [bind].
  match goal with |- context [bind ?X _] => replace X with (Ok t4) by (symmetry; exact E4) end. cbn [bind].
  match goal with |- context [bind ?X _] => replace X with (Ok t5) by (symmetry; exact E5) end. cbn [bind].
  match goal with |- context [bind ?X _] => replace X with (Ok t6) by (symmetry; exact E6) end. cbn [bind].
  match goal with |- context [bind ?X _] => replace X with (Ok t7) by (symmetry; exact E7) end. cbn [bind].
  match goal with |- context [bind ?X _] => replace X with (Ok t8) by (symmetry; exact E8) end. cbn [bind].
  match goal with |- context [bind ?X _] => replace X with (Ok t9) by (symmetry; exact E9) end. cbn [bind].
  match goal with |- context [bind ?X _] => replace X with (Ok t10) by (symmetry; exact E10) end. cbn [bind].
  match goal with |- context [bind ?X _] => replace X with (Ok t11) by (symmetry; exact E11) end. cbn [bind].
  match goal with |- context [bind ?X _] => replace X with (Ok t12) by (symmetry; exact E12) end. cbn [bind].
  clear E1 E2 E3 E4 E5 E6 E7 E8 E9 E10 E11 E12 I1 I2 I3 I4 I5 I6 I7 I8 I9 I10 I11 I12 J9 J10 J11 NEAR THIRD.
  destruct J12 as (R12 & S12 & F12).
  assert (IN : forall da db i, in_shape (setc a 1 (setc b 1 S)) (setc a 0 (setc b 0 i)) -> 0 <= getc a i + da < na + 4 -> 0 <= getc b i + db < nb + 4 -> in_shape S (moved a da (moved b db i))).
  { intros da db i Hi Ha Hb c. specialize (Hi c). unfold moved. destruct (axis_dec a c) as [<-|Hc].
    - rewrite getc_setc_eq. rewrite getc_setc_ne by congruence. lia.
    - rewrite !(getc_setc_ne a) in * by exact Hc. destruct (axis_dec b c) as [<-|Hd].
      + rewrite getc_setc_eq. lia.
      + rewrite !(getc_setc_ne b) in * by exact Hd. exact Hi. }
  assert (BX : forall k m n, in_shape S (moved a m (moved b n k)) -> h8 (moved a m (moved b n k)) = box3 (fun m n => ext S f (moved a m (moved b n k))) m n).
  { intros k m n Hk. unfold h8, h7, h6, h5, h4, h3, h2, h1, st, box3. rewrite q75_is, half_is, !moved2 by exact AB. rewrite !Z.add_0_r. rewrite (ext_in S f (moved a m (moved b n k))) by exact Hk. reflexivity. }
  assert (W : forall k, (forall m n, -1 <= m <= 1 -> -1 <= n <= 1 -> in_shape S (moved a m (moved b n k))) -> h12 k = wt2 S f a b k).
  { intros k K.
    assert (M : forall m, -1 <= m <= 1 -> h10 (moved a m k) = spread2 (fun m n => ext S f (moved a m (moved b n k))) m).
    { intros m Hm.
      assert (K0 : in_shape S (moved a m k)) by (rewrite <- (moved_0 b k); apply K; lia).
      assert (K1 : in_shape S (moved b 1 (moved a m k))) by (rewrite <- moved_comm by exact AB; apply K; lia).
      assert (K2 : in_shape S (moved b (-1) (moved a m k))) by (rewrite <- moved_comm by exact AB; apply K; lia).
      pose proof (pair_at S b h8 (moved a m k) L8 K0 K1 K2) as P. cbn beta zeta in P. unfold h10, h9. rewrite P. unfold spread2.
      rewrite <- (moved_comm a b m 1 k AB), <- (moved_comm a b m (-1) k AB). rewrite <- (BX k m 0), <- (BX k m 1), <- (BX k m (-1)) by (apply K; lia). rewrite (moved_0 b k). reflexivity. }
    assert (K0 : in_shape S k) by (rewrite <- (moved_0 b k), <- (moved_0 a (moved b 0 k)); apply K; lia).
    assert (K1 : in_shape S (moved a 1 k)) by (rewrite <- (moved_0 b k); apply K; lia).
    assert (K2 : in_shape S (moved a (-1) k)) by (rewrite <- (moved_0 b k); apply K; lia).
    pose proof (pair_at S a h10 k L10 K0 K1 K2) as P. cbn beta zeta in P. unfold h12, h11. rewrite P. unfold wt2, final2.
    rewrite <- (M 0), <- (M 1), <- (M (-1)) by lia. rewrite (moved_0 a k). reflexivity. }
  set (s21 := mkslice (Some 2) (Some (-1)) None). set (s12 := mkslice (Some 1) (Some (-2)) None).
  assert (A21 : slice_adjust (getc a S) s21 = mkext 2 (na + 1) 1) by (rewrite HSa; unfold s21; slice_tac).
  assert (A12 : slice_adjust (getc a S) s12 = mkext 1 (na + 1) 1) by (rewrite HSa; unfold s12; slice_tac).
  assert (A22 : slice_adjust (getc a S) (s_in 2) = mkext 2 na 1) by (rewrite HSa; apply in_4, Hna).
  assert (B21 : slice_adjust (getc b S) s21 = mkext 2 (nb + 1) 1) by (rewrite HSb; unfold s21; slice_tac).
  assert (B12 : slice_adjust (getc b S) s12 = mkext 1 (nb + 1) 1) by (rewrite HSb; unfold s12; slice_tac).
  assert (B22 : slice_adjust (getc b S) (s_in 2) = mkext 2 nb 1) by (rewrite HSb; apply in_4, Hnb).
  destruct (view2_is a b s21 (s_in 2) t12 S _ _ _ _ AB S12 H1 A21 B22) as (Ra & Sa & Fa).
  destruct (view2_is a b s12 (s_in 2) t12 S _ _ _ _ AB S12 H1 A12 B22) as (Rb & Sb & Fb).
  destruct (view2_is a b (s_in 2) s21 t12 S _ _ _ _ AB S12 H1 A22 B21) as (Rc & Sc & Fc).
  destruct (view2_is a b (s_in 2) s12 t12 S _ _ _ _ AB S12 H1 A22 B12) as (Rd & Sd & Fd).
  destruct (amap2_is (@nmax RNum) _ _ 1 _ _ _ (conj (eq_trans Ra R12) (conj Sa Fa)) (conj (eq_trans Rb R12) (conj Sb Fb))) as (fx & Ex & Rx & Sx & Fx).
  destruct (amap2_is (@nmax RNum) _ _ 1 _ _ _ (conj (eq_trans Rc R12) (conj Sc Fc)) (conj (eq_trans Rd R12) (conj Sd Fd))) as (fy & Ey & Ry & Sy & Fy).
  match goal with |- context [bind ?X _] => replace X with (Ok fx) by (symmetry; exact Ex) end. cbn [bind].
  match goal with |- context [bind ?X _] => replace X with (Ok fy) by (symmetry; exact Ey) end. cbn [bind].
  exists fx, fy. split; [reflexivity|].
  assert (FLT : forall la lb i, in_shape (setc a la (setc b lb S)) i -> in_shape (setc a 1 (setc b 1 S)) (setc a 0 (setc b 0 i)) /\ 0 <= getc a i < la /\ 0 <= getc b i < lb).
  { intros la lb i Hi. split; [|split].
    - intro c. specialize (Hi c). destruct (axis_dec a c) as [<-|Hc]; [rewrite !getc_setc_eq; lia|rewrite !(getc_setc_ne a) in * by exact Hc].
      destruct (axis_dec b c) as [<-|Hd]; [rewrite !getc_setc_eq; lia|rewrite !(getc_setc_ne b) in * by exact Hd; exact Hi].
    - specialize (Hi a). rewrite getc_setc_eq in Hi. exact Hi.
    - specialize (Hi b). rewrite getc_setc_ne, getc_setc_eq in Hi by exact AB. exact Hi. }
  split.
  - split; [exact Rx|]. split; [exact Sx|]. intros i Hi. rewrite Fx. destruct (FLT _ _ i Hi) as (G & Ga & Gb).
    transitivity (Rmax (at_ t12 0 (moved a 2 (moved b 2 i))) (at_ t12 0 (moved a 1 (moved b 2 i)))); [reflexivity|].
    rewrite !F12 by (apply IN; try exact G; lia). rewrite !W; [reflexivity| |]; intros m n Hm Hn; rewrite moved2 by exact AB; apply IN; try exact G; lia.
  - split; [exact Ry|]. split; [exact Sy|]. intros i Hi. rewrite Fy. destruct (FLT _ _ i Hi) as (G & Ga & Gb).
    transitivity (Rmax (at_ t12 0 (moved a 2 (moved b 2 i))) (at_ t12 0 (moved a 2 (moved b 1 i)))); [reflexivity|].
    rewrite !F12 by (apply IN; try exact G; lia). rewrite !W; [reflexivity| |]; intros m n Hm Hn; rewrite moved2 by exact AB; apply IN; try exact G; lia.
Qed.

(** ** weights of the faces *)
Lemma kern_nn d e : (0 <= kern d e)%R.
Proof. unfold kern. repeat match goal with |- context [if ?b then _ else _] => destruct b end; lra. Qed.
Lemma kern_0 d e : ~ (-2 <= d <= 2 /\ -2 <= e <= 2) -> kern d e = 0%R.
Proof.
  intro H. unfold kern. assert (M : 3 <= Z.max (Z.abs d) (Z.abs e)) by lia.
  rewrite (proj2 (Z.eqb_neq _ 0)) by lia. rewrite (proj2 (Z.eqb_neq _ 1)) by lia. rewrite (proj2 (Z.eqb_neq _ 2)) by lia. reflexivity.
Qed.
Lemma blend_kern a b m n c : a <> b -> blend_weight c (moved a m (moved b n c)) = kern m n.
Proof.
  intro AB. unfold blend_weight, kern.
  assert (D : forall d, Z.abs (getc d c - getc d (moved a m (moved b n c))) = if axis_eqb d a then Z.abs m else if axis_eqb d b then Z.abs n else 0).
  { intro d. unfold moved. destruct (axis_dec a d) as [<-|Hc].
    - rewrite getc_setc_eq, getc_setc_ne by congruence. replace (axis_eqb a a) with true by (destruct a; reflexivity). lia.
    - rewrite getc_setc_ne by exact Hc. replace (axis_eqb d a) with false by (destruct a, d; try reflexivity; congruence). destruct (axis_dec b d) as [<-|Hd].
      + rewrite getc_setc_eq. replace (axis_eqb b b) with true by (destruct b; reflexivity). lia.
      + rewrite getc_setc_ne by exact Hd. replace (axis_eqb d b) with false by (destruct b, d; try reflexivity; congruence). lia. }
  rewrite !D.
  assert (E : Z.max (if axis_eqb AX a then Z.abs m else if axis_eqb AX b then Z.abs n else 0)
      (Z.max (if axis_eqb AY a then Z.abs m else if axis_eqb AY b then Z.abs n else 0) (if axis_eqb AZ a then Z.abs m else if axis_eqb AZ b then Z.abs n else 0)) = Z.max (Z.abs m) (Z.abs n)).
  { destruct a, b; try congruence; cbn [axis_eqb]; lia. }
  assert (F : (if axis_eqb AX a then Z.abs m else if axis_eqb AX b then Z.abs n else 0) + (if axis_eqb AY a then Z.abs m else if axis_eqb AY b then Z.abs n else 0)
      + (if axis_eqb AZ a then Z.abs m else if axis_eqb AZ b then Z.abs n else 0) = Z.abs m + Z.abs n).
  { destruct a, b; try congruence; cbn [axis_eqb]; lia. }
  rewrite E, F. reflexivity.
Qed.
Definition flags (tr : arr bool) (i : ix) : R := b2k RNum (at_ tr 0 i).
Lemma flags_bit tr i : bit (flags tr i).
Proof. unfold flags, b2k. destruct (at_ tr 0 i); [right|left]; reflexivity. Qed.
Lemma ext_one tr i : ext (shp tr) (flags tr) i = 1%R <-> in_shape (shp tr) i /\ at_ tr 0 i = true.
Proof.
  unfold ext. destruct (inb (shp tr) i) eqn:E.
  - apply inb_in in E. unfold flags, b2k. destruct (at_ tr 0 i); split; intro H; try tauto; try (destruct H; discriminate); exfalso; cbn in H; lra.
  - split; [intro; exfalso; lra|]. intros [H _]. apply inb_in in H. congruence.
Qed.
(** w is the sup of the weights at the cell c *)
Definition cell_weight (tr : arr bool) (c : ix) (w : R) : Prop :=
  (forall j, in_shape (shp tr) j -> at_ tr 0 j = true -> blend_weight c j <= w)%R /\
  (w = 0%R \/ exists j, in_shape (shp tr) j /\ at_ tr 0 j = true /\ w = blend_weight c j).
Lemma face_of_cells a tr i w1 w2 : cell_weight tr i w1 -> cell_weight tr (moved a (-1) i) w2 -> face_weight a tr i (Rmax w1 w2).
Proof.
  intros [U1 A1] [U2 A2]. split.
  - intros c j [-> | ->] Hj Ht; [eapply Rle_trans; [apply U1; assumption|apply Rmax_l]|eapply Rle_trans; [apply U2; assumption|apply Rmax_r]].
  - destruct (Rmax_or w1 w2) as [[-> _]|[-> _]].
    + destruct A1 as [A|(j & Hj & Ht & A)]; [left; exact A|right]. exists i, j. split; [left; reflexivity|auto].
    + destruct A2 as [A|(j & Hj & Ht & A)]; [left; exact A|right]. exists (moved a (-1) i), j. split; [right; reflexivity|auto].
Qed.
Lemma other_axis (a : axis) : exists b, b <> a.
Proof. destruct a; [exists AY|exists AX|exists AX]; discriminate. Qed.
Lemma cell_1 a tr c : (forall b, b <> a -> getc b (shp tr) = 1 /\ getc b c = 0) ->
  cell_weight tr c (final1 (fun m => ext (shp tr) (flags tr) (moved a m c))).
Proof.
  intro H. destruct (other_axis a) as [b AB].
  assert (BK : forall m, blend_weight c (moved a m c) = kern m 0). { intro m. rewrite <- (blend_kern a b m 0 c) by congruence. rewrite moved_0. reflexivity. }
  set (x := fun m => ext (shp tr) (flags tr) (moved a m c)).
  assert (X : forall m, bit (x m)) by (intro m; apply bit_ext, flags_bit).
  split.
  - intros j Hj Ht. assert (J : j = moved a (getc a j - getc a c) c).
    { apply ix_ext. intro d. unfold moved. destruct (axis_dec a d) as [<-|Hd]; [rewrite getc_setc_eq; lia|rewrite getc_setc_ne by exact Hd].
      destruct (H d (not_eq_sym Hd)) as [H1 H2]. specialize (Hj d). lia. }
    set (m := getc a j - getc a c) in *. rewrite J, BK.
    destruct (Z_le_dec (-2) m) as [M1|M1]; [destruct (Z_le_dec m 2) as [M2|M2]|].
    + apply final1_ub; [exact X|lia|]. unfold x. apply ext_one. rewrite <- J. auto.
    + rewrite kern_0 by lia. destruct (final1_att x X) as [-> |(d & _ & ->)]; [lra|apply kern_nn].
    + rewrite kern_0 by lia. destruct (final1_att x X) as [-> |(d & _ & ->)]; [lra|apply kern_nn].
  - destruct (final1_att x X) as [E|(d & E & F)]; [left; exact E|right]. exists (moved a d c). unfold x in E. apply ext_one in E. rewrite BK. tauto.
Qed.
Lemma cell_2 a b tr c : a <> b -> (forall d, d <> a -> d <> b -> getc d (shp tr) = 1 /\ getc d c = 0) ->
  cell_weight tr c (final2 (fun m n => ext (shp tr) (flags tr) (moved a m (moved b n c)))).
Proof.
  intros AB H. pose proof (fun m n => blend_kern a b m n c AB) as BK.
  set (x := fun m n => ext (shp tr) (flags tr) (moved a m (moved b n c))).
  assert (X : forall m n, bit (x m n)) by (intros m n; apply bit_ext, flags_bit).
  split.
  - intros j Hj Ht. assert (J : j = moved a (getc a j - getc a c) (moved b (getc b j - getc b c) c)).
    { apply ix_ext. intro d. unfold moved. destruct (axis_dec a d) as [<-|Hd]; [rewrite getc_setc_eq, getc_setc_ne by congruence; lia|rewrite getc_setc_ne by exact Hd].
      destruct (axis_dec b d) as [<-|Hd']; [rewrite getc_setc_eq; lia|rewrite getc_setc_ne by exact Hd'].
      destruct (H d (not_eq_sym Hd) (not_eq_sym Hd')) as [H1 H2]. specialize (Hj d). lia. }
    set (m := getc a j - getc a c) in *. set (n := getc b j - getc b c) in *. rewrite J, BK.
    assert (C : (-2 <= m <= 2 /\ -2 <= n <= 2) \/ ~ (-2 <= m <= 2 /\ -2 <= n <= 2)) by lia. destruct C as [[C1 C2]|C].
    + apply final2_ub; [exact X|exact C1|exact C2|]. unfold x. apply ext_one. rewrite <- J. auto.
    + rewrite kern_0 by exact C. destruct (final2_att x X) as [-> |(d & e & _ & ->)]; [lra|apply kern_nn].
  - destruct (final2_att x X) as [E|(d & e & E & F)]; [left; exact E|right]. exists (moved a d (moved b e c)). unfold x in E. apply ext_one in E. rewrite BK. tauto.
Qed.
Lemma final1_ext x y : (forall m, x m = y m) -> final1 x = final1 y.
Proof. intro H. unfold final1, line3. rewrite !H. reflexivity. Qed.
Lemma final2_ext x y : (forall m n, x m n = y m n) -> final2 x = final2 y.
Proof. intro H. unfold final2, spread2, box3. rewrite !H. reflexivity. Qed.
Lemma getc_unpad ds i a : getc a (unpad ds i) = if mem_axis a ds then getc a i - 2 else getc a i.
Proof. destruct a; reflexivity. Qed.
Lemma ext_grown ds s g j : thin ds s -> ext (grown ds s) (fun i => ext s g (unpad ds i)) j = ext s g (unpad ds j).
Proof.
  intro T. unfold ext at 1. destruct (inb (grown ds s) j) eqn:E; [reflexivity|]. symmetry. apply ext_out. intro H.
  assert (I : in_shape (grown ds s) j); [|apply inb_in in I; congruence].
  intro a. specialize (H a). rewrite getc_unpad in H. rewrite getc_grown. destruct (T a) as [T1 T2]. destruct (mem_axis a ds); [lia|]. rewrite T2 in H by reflexivity. exact H.
Qed.
Lemma unpad1 a m e i : unpad [a] (moved a m (moved a e i)) = moved a m (moved a (e - 2) i).
Proof. rewrite !moved_moved. unfold unpad, moved. destruct i as [i1 i2 i3]. destruct a; cbn; f_equal; lia. Qed.
Lemma unpad2 a b m n ea eb i : a <> b -> unpad [a; b] (moved a m (moved b n (moved a ea (moved b eb i)))) = moved a m (moved b n (moved a (ea - 2) (moved b (eb - 2) i))).
Proof. intro H. rewrite !moved2 by exact H. unfold unpad, moved. destruct i as [i1 i2 i3]. destruct a, b; try congruence; cbn; f_equal; lia. Qed.

Lemma trouble_is1 tr : rows tr = 1 -> is1 (amap (b2k RNum) tr) (shp (amap (b2k RNum) tr)) (flags tr).
Proof. intro R. split; [exact R|]. split; reflexivity. Qed.
Lemma thin_pos ds s : thin ds s -> forall c, 1 <= getc c (grown ds s).
Proof. intros T c. rewrite getc_grown. destruct (T c). destruct (mem_axis c ds); lia. Qed.

Theorem convex_line (tr : arr bool) a per : rows tr = 1 -> thin [a] (shp tr) ->
  exists th, broadcast_to_troubled_interfaces RNum tr [a] true per = Ok th /\ blended tr [a] th.
Proof.
  intros RT T. unfold broadcast_to_troubled_interfaces. set (w := amap (b2k RNum) tr).
  assert (SW : shp w = shp tr) by reflexivity.
  destruct (other_axis a) as [b AB].
  destruct (alloc_is [a] per w (flags tr) b (trouble_is1 tr RT) T) as (t & Et & It).
  { destruct a, b; try reflexivity; congruence. }
  { destruct a; cbn; rewrite ?andb_false_r; intro H; try discriminate; split; reflexivity. }
  rewrite Et. cbn [bind]. change (shp w) with (shp tr) in *. set (s := shp tr) in *. set (f := fun i => ext s (flags tr) (unpad [a] i)) in *.
  assert (MA : mem_axis a [a] = true) by (destruct a; reflexivity).
  assert (HS : getc a (grown [a] s) = getc a s + 4) by (rewrite getc_grown, MA; reflexivity).
  assert (Bf : forall i, bit (f i)) by (intro; apply bit_ext, flags_bit).
  destruct (T a) as [Ta _].
  destruct (convex_1d_is a t (grown [a] s) f (getc a s) It Bf (thin_pos _ _ T) HS Ta) as (c & Ec & Rc & Sc & Fc).
  rewrite Ec. cbn [bind].
  assert (SF : setc a (getc a s + 1) (grown [a] s) = face_shape a s).
  { unfold face_shape. apply ix_ext. intro d. destruct (axis_dec a d) as [<-|Hd]; [rewrite !getc_setc_eq; reflexivity|]. rewrite !getc_setc_ne by exact Hd.
    rewrite getc_grown. assert (M : mem_axis d [a] = false) by (destruct a, d; try reflexivity; congruence). rewrite M. symmetry. apply T, M. }
  rewrite SF in Sc, Fc.
  destruct (assign_all_is (zeros RNum (face_shape a s)) c 1 (face_shape a s) (at_ c) eq_refl eq_refl) as (F & EF & RF & SFF & VF).
  { split; [exact Rc|]. split; [exact Sc|reflexivity]. }
  rewrite EF. cbn [bind]. eexists. split; [reflexivity|]. intro d. unfold set_face. destruct (axis_dec a d) as [<-|Hd].
  - replace (axis_eqb a a) with true by (destruct a; reflexivity). split; [exact RF|]. split; [exact SFF|].
    intros i Hi. apply (fun h => eq_ind _ (fun z => in_shape z i) h _ SFF) in Hi. split; [|intro N; exfalso; apply N; left; reflexivity]. intros _. rewrite VF, Fc by exact Hi.
    assert (W : forall e, wt1 (grown [a] s) f a (moved a e i) = final1 (fun m => ext s (flags tr) (moved a m (moved a (e - 2) i)))).
    { intro e. apply final1_ext. intro m. unfold f. rewrite ext_grown by exact T. rewrite unpad1. reflexivity. }
    rewrite !W. cbn [Z.sub Z.add Z.opp Z.pos_sub Pos.pred_double]. rewrite Rmax_comm. rewrite moved_0 || idtac.
    assert (Z0 : forall b, b <> a -> getc b s = 1 /\ getc b i = 0).
    { intros b' Hb. assert (M : mem_axis b' [a] = false) by (destruct a, b'; try reflexivity; congruence). destruct (T b') as [_ T2]. specialize (T2 M). split; [exact T2|].
      specialize (Hi b'). unfold face_shape in Hi. rewrite getc_setc_ne in Hi by congruence. lia. }
    apply face_of_cells; unfold s.
    + match goal with |- cell_weight _ _ ?x => replace x with (final1 (fun m => ext (shp tr) (flags tr) (moved a m i))) by (apply final1_ext; intro; rewrite ?moved_0; reflexivity) end. apply cell_1, Z0.
    + apply cell_1. intros b' Hb. destruct (Z0 b' Hb) as [Z1 Z2]. split; [exact Z1|]. unfold moved. rewrite getc_setc_ne by congruence. exact Z2.
  - replace (axis_eqb d a) with false by (destruct a, d; try reflexivity; congruence). split; [reflexivity|]. split; [reflexivity|].
    intros i _. split; [intros [->|[]]; congruence|reflexivity].
Qed.

Theorem convex_plane (tr : arr bool) a b per : a <> b -> rows tr = 1 -> thin [a; b] (shp tr) -> (In AZ [a; b] -> per AZ = false) ->
  exists th, broadcast_to_troubled_interfaces RNum tr [a; b] true per = Ok th /\ blended tr [a; b] th.
Proof.
  intros AB RT T PZ. unfold broadcast_to_troubled_interfaces. set (w := amap (b2k RNum) tr).
  assert (OT : exists d, d <> a /\ d <> b). { destruct a, b; try congruence; [exists AZ|exists AY|exists AZ|exists AX|exists AY|exists AX]; split; discriminate. }
  destruct OT as (d0 & D1 & D2).
  destruct (alloc_is [a; b] per w (flags tr) d0 (trouble_is1 tr RT) T) as (t & Et & It).
  { destruct a, b, d0; try reflexivity; congruence. }
  { intro H. exfalso. apply andb_true_iff in H. destruct H as [H1 H2]. assert (HI : In AZ [a; b]) by (destruct a, b; try discriminate H2; cbn; tauto). specialize (PZ HI). congruence. }
  rewrite Et. cbn [bind]. change (shp w) with (shp tr) in *. set (s := shp tr) in *. set (f := fun i => ext s (flags tr) (unpad [a; b] i)) in *.
  assert (MA : mem_axis a [a; b] = true) by (destruct a, b; reflexivity). assert (MB : mem_axis b [a; b] = true) by (destruct a, b; reflexivity).
  assert (HA : getc a (grown [a; b] s) = getc a s + 4) by (rewrite getc_grown, MA; reflexivity).
  assert (HB : getc b (grown [a; b] s) = getc b s + 4) by (rewrite getc_grown, MB; reflexivity).
  assert (Bf : forall i, bit (f i)) by (intro; apply bit_ext, flags_bit).
  destruct (T a) as [Ta _]. destruct (T b) as [Tb _].
  destruct (convex_2d_is a b t (grown [a; b] s) f (getc a s) (getc b s) AB It Bf (thin_pos _ _ T) HA Ta HB Tb) as (c & d & Ec & (Rc & Sc & Fc) & (Rd & Sd & Fd)).
  rewrite Ec. cbn [bind fst snd].
  assert (M0 : forall d, d <> a -> d <> b -> mem_axis d [a; b] = false) by (intros d' N1 N2; destruct a, b, d'; try reflexivity; congruence).
  assert (SFa : setc a (getc a s + 1) (setc b (getc b s) (grown [a; b] s)) = face_shape a s).
  { unfold face_shape. apply ix_ext. intro e. destruct (axis_dec a e) as [<-|Hd]; [rewrite !getc_setc_eq; reflexivity|]. rewrite !(getc_setc_ne a) by exact Hd.
    destruct (axis_dec b e) as [<-|He]; [rewrite getc_setc_eq; reflexivity|]. rewrite getc_setc_ne by exact He.
    rewrite getc_grown. rewrite M0 by congruence. symmetry. apply T, M0; congruence. }
  assert (SFb : setc a (getc a s) (setc b (getc b s + 1) (grown [a; b] s)) = face_shape b s).
  { unfold face_shape. apply ix_ext. intro e. destruct (axis_dec b e) as [<-|Hd]; [rewrite getc_setc_ne, !getc_setc_eq by exact AB; reflexivity|].
    rewrite (getc_setc_ne b e (getc b s + 1) s) by exact Hd.
    destruct (axis_dec a e) as [<-|He]; [rewrite getc_setc_eq; reflexivity|]. rewrite getc_setc_ne by exact He. rewrite getc_setc_ne by exact Hd.
    rewrite getc_grown. rewrite M0 by congruence. symmetry. apply T, M0; congruence. }
  rewrite SFa in Sc, Fc. rewrite SFb in Sd, Fd.
  destruct (assign_all_is (zeros RNum (face_shape a s)) c 1 (face_shape a s) (at_ c) eq_refl eq_refl) as (F & EF & RF & SFF & VF).
  { split; [exact Rc|]. split; [exact Sc|reflexivity]. }
  destruct (assign_all_is (zeros RNum (face_shape b s)) d 1 (face_shape b s) (at_ d) eq_refl eq_refl) as (G & EG & RG & SGG & VG).
  { split; [exact Rd|]. split; [exact Sd|reflexivity]. }
  rewrite EF. cbn [bind]. rewrite EG. cbn [bind]. eexists. split; [reflexivity|].
  assert (W : forall ea eb i, wt2 (grown [a; b] s) f a b (moved a ea (moved b eb i)) = final2 (fun m n => ext s (flags tr) (moved a m (moved b n (moved a (ea - 2) (moved b (eb - 2) i)))))).
  { intros ea eb i. apply final2_ext. intros m n. unfold f. rewrite ext_grown by exact T. rewrite unpad2 by exact AB. reflexivity. }
  assert (CW : forall e i c', (e = a \/ e = b) -> in_shape (face_shape e s) i -> (forall d, d <> a -> d <> b -> getc d c' = getc d i) ->
     cell_weight tr c' (final2 (fun m n => ext s (flags tr) (moved a m (moved b n c'))))).
  { intros e i c' He Hi Hc. apply cell_2; [exact AB|]. intros d' N1 N2. destruct (T d') as [_ T2]. specialize (T2 (M0 d' N1 N2)). split; [exact T2|].
    rewrite Hc by assumption. specialize (Hi d'). unfold face_shape in Hi. rewrite getc_setc_ne in Hi by (destruct He; congruence). lia. }
  intro e. unfold set_face. destruct (axis_dec b e) as [<-|Hb]; [|destruct (axis_dec a e) as [<-|Ha]].
  - replace (axis_eqb b b) with true by (destruct b; reflexivity). split; [exact RG|]. split; [exact SGG|].
    intros i Hi. apply (fun h => eq_ind _ (fun z => in_shape z i) h _ SGG) in Hi. split; [|intro N; exfalso; apply N; right; left; reflexivity]. intros _. rewrite VG, Fd by exact Hi. rewrite !W.
    change (2 - 2) with 0. change (1 - 2) with (-1).
    apply face_of_cells.
    + match goal with |- cell_weight _ _ ?x => replace x with (final2 (fun m n => ext s (flags tr) (moved a m (moved b n i)))) by (apply final2_ext; intros; rewrite !moved_0; reflexivity) end.
      apply (CW b i); auto.
    + match goal with |- cell_weight _ _ ?x => replace x with (final2 (fun m n => ext s (flags tr) (moved a m (moved b n (moved b (-1) i))))) by (apply final2_ext; intros; rewrite !moved_0; reflexivity) end.
      apply (CW b i); auto. intros d' N1 N2. unfold moved. rewrite getc_setc_ne by congruence. reflexivity.
  - replace (axis_eqb a b) with false by (destruct a, b; try reflexivity; congruence). replace (axis_eqb a a) with true by (destruct a; reflexivity).
    split; [exact RF|]. split; [exact SFF|].
    intros i Hi. apply (fun h => eq_ind _ (fun z => in_shape z i) h _ SFF) in Hi. split; [|intro N; exfalso; apply N; left; reflexivity]. intros _. rewrite VF, Fc by exact Hi. rewrite !W.
    change (2 - 2) with 0. change (1 - 2) with (-1).
    apply face_of_cells.
    + match goal with |- cell_weight _ _ ?x => replace x with (final2 (fun m n => ext s (flags tr) (moved a m (moved b n i)))) by (apply final2_ext; intros; rewrite !moved_0; reflexivity) end.
      apply (CW a i); auto.
    + match goal with |- cell_weight _ _ ?x => replace x with (final2 (fun m n => ext s (flags tr) (moved a m (moved b n (moved a (-1) i))))) by (apply final2_ext; intros; rewrite (moved_0 b i); reflexivity) end.
      apply (CW a i); auto. intros d' N1 N2. unfold moved. rewrite getc_setc_ne by congruence. reflexivity.
  - replace (axis_eqb e b) with false by (destruct b, e; try reflexivity; congruence). replace (axis_eqb e a) with false by (destruct a, e; try reflexivity; congruence).
    split; [reflexivity|]. split; [reflexivity|].
    intros i _. split; [intros [->|[->|[]]]; congruence|reflexivity].
Qed.

Lemma blend_self c : blend_weight c c = 1%R.
Proof. unfold blend_weight. rewrite !Z.sub_diag. reflexivity. Qed.
Lemma blend_bounds c j : (0 <= blend_weight c j <= 1)%R.
Proof. unfold blend_weight. repeat match goal with |- context [if ?b then _ else _] => destruct b end; lra. Qed.
Lemma blend_far c j d : 2 < Z.abs (getc d c - getc d j) -> blend_weight c j = 0%R.
Proof.
  intro H. unfold blend_weight. set (far := Z.max _ _). assert (M : 3 <= far) by (unfold far; destruct d; lia).
  rewrite (proj2 (Z.eqb_neq _ 0)) by lia. rewrite (proj2 (Z.eqb_neq _ 1)) by lia. rewrite (proj2 (Z.eqb_neq _ 2)) by lia. reflexivity.
Qed.
Theorem weight_meaning a tr i w : face_weight a tr i w ->
  (0 <= w <= 1)%R /\
  ((exists j, touches a i j /\ in_shape (shp tr) j /\ at_ tr 0 j = true) -> w = 1%R) /\
  ((forall j, in_shape (shp tr) j -> at_ tr 0 j = true -> forall c, touches a i c -> exists d, 2 < Z.abs (getc d c - getc d j)) -> w = 0%R).
Proof.
  intros [U A]. assert (W : (0 <= w <= 1)%R) by (destruct A as [->|(c & j & _ & _ & _ & ->)]; [lra|apply blend_bounds]).
  split; [exact W|]. split.
  - intros (j & Hj & Hs & Ht). specialize (U j j Hj Hs Ht). rewrite blend_self in U. lra.
  - intro H. destruct A as [->|(c & j & Hc & Hs & Ht & ->)]; [reflexivity|]. destruct (H j Hs Ht c Hc) as [d Hd]. eapply blend_far, Hd.
Qed.

(** ** where it fails *)
Theorem convex_space_raises (N : Num) (tr : arr bool) a b c per : exists e, broadcast_to_troubled_interfaces N tr [a; b; c] true per = Err e.
Proof. unfold broadcast_to_troubled_interfaces. destruct (alloc_trouble _ _ _ _) as [t|e]; cbn [bind]; eexists; reflexivity. Qed.

Theorem convex_z_raises (tr : arr bool) c per : c = AX \/ c = AY -> rows tr = 1 -> thin [c; AZ] (shp tr) -> per AZ = true -> getc c (shp tr) <> 5 ->
  broadcast_to_troubled_interfaces RNum tr [c; AZ] true per = Err ValueError.
Proof.
  intros Hc RT T PZ N5. unfold broadcast_to_troubled_interfaces. set (w := amap (b2k RNum) tr).
  set (per' := fun a => match a with AZ => false | _ => per a end).
  assert (OT : exists d, mem_axis d [c; AZ] = false) by (destruct Hc as [-> | ->]; [exists AY|exists AX]; reflexivity). destruct OT as (d0 & D0).
  destruct (alloc_is [c; AZ] per' w (flags tr) d0 (trouble_is1 tr RT) T D0) as (t & Et & Rt & St & _).
  { cbn [per' andb]. discriminate. }
  assert (Ez : alloc_trouble RNum [c; AZ] per w = do t1 <- assign3 (regs AZ s_lo) t (view3 (regs AZ s_hi) w); assign3 (regs AZ s_hi) t1 (view3 (regs AZ s_lo) w)).
  { unfold alloc_trouble in *. rewrite PZ. replace (mem_axis AZ [c; AZ]) with true in * by (destruct Hc as [-> | ->]; reflexivity).
    cbn [per'] in Et. cbn [andb] in *. destruct Hc as [-> | ->]; cbn [mem_axis existsb axis_eqb orb] in *; rewrite ?andb_true_r, ?andb_false_r in *;
    match type of Et with bind ?x _ = _ => destruct x as [y|]; [|discriminate Et] end; cbn [bind] in *.
    - match type of Et with bind ?x _ = _ => destruct x as [y2|]; [|discriminate Et] end; cbn [bind] in *. injection Et as ->. reflexivity.
    - match type of Et with bind ?x _ = _ => destruct x as [y2|]; [|discriminate Et] end; cbn [bind] in *. injection Et as ->. reflexivity. }
  rewrite Ez. assert (A : assign3 (regs AZ s_lo) t (view3 (regs AZ s_hi) w) = Err ValueError); [|rewrite A; reflexivity].
  unfold assign3. set (region := mkix _ _ _). replace (bcast_ok _ _ _ _) with false; [reflexivity|]. symmetry.
  assert (L1 : getc c (shp (view3 (regs AZ s_hi) w)) = ex_len (slice_adjust (getc c (shp tr)) (s_in 2))) by (destruct Hc as [-> | ->]; reflexivity).
  assert (L2 : getc c region = getc c (shp tr)).
  { assert (G : getc c region = ex_len (slice_adjust (getc c (@shp R t)) (s_in 2))) by (destruct Hc as [-> | ->]; reflexivity). rewrite G, St, getc_grown.
    replace (mem_axis c [c; AZ]) with true by (destruct Hc as [-> | ->]; reflexivity). rewrite in_4 by apply T. reflexivity. }
  assert (L3 : ex_len (slice_adjust (getc c (shp tr)) (s_in 2)) = Z.max 0 (getc c (shp tr) - 4)).
  { destruct (T c) as [Tc _]. set (n := getc c (shp tr)) in *. assert (n = 1 \/ n = 2 \/ n = 3 \/ 4 <= n) as [-> |[-> |[-> |H]]] by lia; try reflexivity.
    rewrite sl_in by lia. cbn [ex_len]. lia. }
  rewrite L3 in L1. destruct (T c) as [Tc _].
  destruct (bcast_ok _ _ _ _) eqn:B; [exfalso|reflexivity]. unfold bcast_ok in B. rewrite !andb_true_iff, !orb_true_iff, !Z.eqb_eq in B.
  destruct B as (((_ & BX) & BY) & _). destruct Hc as [-> | ->]; cbn [getc] in *; [clear BY|clear BX]; lia.
Qed.

(** a troubled last cell does not reach the first face of a periodic axis *)
Theorem convex_seam : exists (tr : arr bool) per th, rows tr = 1 /\ thin [AX] (shp tr) /\ per AX = true /\ at_ tr 0 (mkix (cx (shp tr) - 1) 0 0) = true /\
  broadcast_to_troubled_interfaces RNum tr [AX] true per = Ok th /\
  at_ (th AX) 0 (mkix 0 0 0) = 0%R /\ at_ (th AX) 0 (mkix (cx (shp tr)) 0 0) = 1%R.
Proof.
  set (tr := mkarr 1 (mkix 9 1 1) (fun _ i => cx i =? 8)).
  assert (T : thin [AX] (shp tr)) by (intro a; destruct a; cbn; split; [lia|discriminate|lia|reflexivity|lia|reflexivity]).
  destruct (convex_line tr AX (fun _ => true) eq_refl T) as (th & E & O). exists tr, (fun _ => true), th.
  repeat (split; [first [reflexivity|exact T|exact E]|]).
  destruct (O AX) as (_ & S & F). cbn [tr shp cx cy cz getc setc] in S. rewrite S in F. 
  assert (I : forall k, 0 <= k < 10 -> in_shape (mkix (9 + 1) 1 1) (mkix k 0 0)) by (intros k Hk a; destruct a; cbn; lia).
  split.
  - destruct (F (mkix 0 0 0) (I 0 ltac:(lia))) as [W _]. apply weight_meaning in W; [|left; reflexivity]. destruct W as (_ & _ & W). apply W.
    intros j Hj Ht c Hc. exists AX. cbn [tr at_] in Ht. apply Z.eqb_eq in Ht. unfold touches, moved in Hc. cbn [getc setc cx] in *. destruct Hc as [-> | ->]; cbn [cx]; lia.
  - cbn [tr shp cx]. destruct (F (mkix 9 0 0) (I 9 ltac:(lia))) as [W _]. apply weight_meaning in W; [|left; reflexivity]. destruct W as (_ & W & _). apply W.
    exists (mkix 8 0 0). split; [right; reflexivity|]. split; [|reflexivity]. intro a. destruct a; cbn; lia.
Qed.
