(** From troubled cells to interface weights. *)
From Coq Require Import ZArith List Bool Lia Reals Lra Psatz.
From Verif Require Import Err Num PySlice NdArray HydroM FvM SedM LimitM SpecLim HydroP NdArrayP BcP OpP RelP SedP DetectP.
Import ListNotations.
Open Scope Z_scope.

Section G.
Context (N : Num).
Local Notation K := (car N).
Lemma simple_is a (tr : arr bool) : max_of_flags N -> rows tr = 1 -> (forall b, 0 <= getc b (shp tr)) ->
  res_is (simple_broadcast N a (amap (b2k N) tr)) 1 (face_shape a (shp tr))
    (fun v i => b2k N (((1 <=? getc a i) && (getc a i <? 1 + getc a (shp tr)) && at_ tr v (moved a (-1) i)) ||
                       ((0 <=? getc a i) && (getc a i <? getc a (shp tr)) && at_ tr v i))).
Proof.
  intros HM R Hn. unfold simple_broadcast. cbn [amap shp].
  assert (T : is_arr (amap (b2k N) tr) 1 (shp tr) (fun v i => b2k N (at_ tr v i))) by (split; [exact R|split; [reflexivity|reflexivity]]).
  set (z := zeros N (face_shape a (shp tr))). pose proof (Hn a) as Ha.
  assert (Z0 : getc a (shp z) = getc a (shp tr) + 1) by (unfold z, zeros, face_shape; cbn [shp]; apply getc_setc_eq).
  destruct (assign_slice_is a s_tail z (amap (b2k N) tr) 1 (getc a (shp tr)) (fun v i => b2k N (at_ tr v i))) as (t1 & E1 & R1 & S1 & F1).
  { rewrite Z0, sl_tail by lia. f_equal. lia. }
  { replace (setc a _ (shp z)) with (shp tr); [exact T|]. unfold z, zeros, face_shape. cbn [shp]. rewrite setc_setc, setc_getc. reflexivity. }
  rewrite E1. cbn [bind].
  destruct (view_is a s_init t1 0 (getc a (shp tr))) as (R2 & S2 & F2). { rewrite S1, Z0, sl_init by lia. f_equal. lia. }
  assert (V : is_arr (view a s_init t1) 1 (shp tr) (fun v i => at_ t1 v i)).
  { split; [rewrite R2, R1; reflexivity|]. split. { rewrite S2, S1. unfold z, zeros, face_shape. cbn [shp]. rewrite setc_setc, setc_getc. reflexivity. }
    intros v i. rewrite F2. f_equal. rewrite Z.add_0_l. apply setc_getc. }
  destruct (amap2_is nmax _ _ _ _ _ _ V T) as (m & E2 & HM2). rewrite E2. cbn [bind].
  destruct (assign_slice_is a s_init t1 m 0 (getc a (shp tr)) (fun v i => nmax (at_ t1 v i) (b2k N (at_ tr v i)))) as (t2 & E3 & R3 & S3 & F3).
  { rewrite S1, Z0, sl_init by lia. f_equal. lia. }
  { rewrite R1, S1. replace (setc a _ (shp z)) with (shp tr); [exact HM2|]. unfold z, zeros, face_shape. cbn [shp]. rewrite setc_setc, setc_getc. reflexivity. }
  exists t2. split; [exact E3|]. split; [rewrite R3, R1; reflexivity|]. split; [rewrite S3, S1; reflexivity|].
  intros v i. rewrite F3, Z.add_0_l, Z.sub_0_r, setc_getc.
  assert (X1 : at_ t1 v i = b2k N ((1 <=? getc a i) && (getc a i <? 1 + getc a (shp tr)) && at_ tr v (moved a (-1) i))).
  { rewrite F1. destruct ((1 <=? getc a i) && (getc a i <? 1 + getc a (shp tr))); [|reflexivity]. cbn [andb]. reflexivity. }
  rewrite !X1. destruct ((0 <=? getc a i) && (getc a i <? getc a (shp tr))) eqn:B; cbn [andb].
  - rewrite HM. reflexivity.
  - rewrite orb_false_r. reflexivity.
Qed.
Lemma set_face_same (f : axis -> arr K) a x : set_face N f a x a = x.
Proof. unfold set_face. rewrite axis_eqb_refl. reflexivity. Qed.
Lemma set_face_other (f : axis -> arr K) a b x : a <> b -> set_face N f a x b = f b.
Proof. intro H. unfold set_face. replace (axis_eqb b a) with false by (symmetry; apply axis_eqb_neq; auto). reflexivity. Qed.
Lemma in_mem a ds : mem_axis a ds = true <-> In a ds.
Proof.
  unfold mem_axis. rewrite existsb_exists. split; [intros (x & H & E); apply axis_eqb_eq in E; subst; exact H|].
  intro H. exists a. split; [exact H|apply axis_eqb_refl].
Qed.

Theorem simple_faces (tr : arr bool) ds per : max_of_flags N -> rows tr = 1 -> (forall b, 0 <= getc b (shp tr)) ->
  exists th, broadcast_to_troubled_interfaces N tr ds false per = Ok th /\
  forall a, rows (th a) = 1 /\ shp (th a) = setc a (getc a (shp tr) + 1) (shp tr) /\
    forall i, in_shape (shp (th a)) i ->
      (In a ds /\ (exists j, touches a i j /\ in_shape (shp tr) j /\ at_ tr 0 j = true) -> at_ (th a) 0 i = nofZ 1) /\
      (~ (In a ds /\ exists j, touches a i j /\ in_shape (shp tr) j /\ at_ tr 0 j = true) -> at_ (th a) 0 i = nofZ 0).
Proof.
  intros HM R Hn. unfold broadcast_to_troubled_interfaces. cbn [amap shp].
  set (z := fun a => zeros N (face_shape a (shp tr))).
  set (val := fun a (v : Z) i => b2k N (((1 <=? getc a i) && (getc a i <? 1 + getc a (shp tr)) && at_ tr v (moved a (-1) i)) ||
                       ((0 <=? getc a i) && (getc a i <? getc a (shp tr)) && at_ tr v i))).
  assert (FL : forall l f, exists th, fold_left (fun acc a => do f <- acc; do x <- simple_broadcast N a (amap (b2k N) tr); Ok (set_face N f a x)) l (Ok f) = Ok th /\
     forall a, (In a l -> is_arr (th a) 1 (face_shape a (shp tr)) (val a)) /\ (~ In a l -> th a = f a)).
  { induction l as [|b l IH]; intro f; cbn [fold_left].
    - exists f. split; [reflexivity|]. intro a. split; [intros []|reflexivity].
    - destruct (simple_is b tr HM R Hn) as (x & Ex & Hx). cbn [bind]. rewrite Ex. cbn [bind]. destruct (IH (set_face N f b x)) as (th & Et & Ht). exists th. split; [exact Et|].
      intro a. destruct (Ht a) as [H1 H2]. split.
      + intros [<-|Ha]; [|auto]. destruct (in_dec axis_dec b l) as [Hi|Hi]; [auto|]. rewrite H2 by exact Hi. rewrite set_face_same. exact Hx.
      + intro Ha. rewrite H2 by (intro; apply Ha; right; assumption). apply set_face_other. intro; subst; apply Ha; left; reflexivity. }
  destruct (FL (filter (fun a => mem_axis a ds) [AX; AY; AZ]) z) as (th & Et & Ht). exists th. split; [exact Et|].
  intro a. destruct (Ht a) as [H1 H2].
  assert (I : In a (filter (fun a => mem_axis a ds) [AX; AY; AZ]) <-> In a ds).
  { rewrite filter_In, in_mem. split; [tauto|]. intro; split; [|assumption]. destruct a; simpl; auto. }
  destruct (mem_axis a ds) eqn:M.
  - apply in_mem in M. destruct (H1 (proj2 I M)) as (Rt & St & Ft). split; [exact Rt|]. split; [exact St|].
    intros i Hi. rewrite Ft. unfold val.
    set (b := _ || _). assert (B : b = true <-> exists j, touches a i j /\ in_shape (shp tr) j /\ at_ tr 0 j = true).
    { unfold b. rewrite orb_true_iff, !andb_true_iff, !Z.leb_le, !Z.ltb_lt. rewrite St in Hi. unfold face_shape in Hi. split.
      - intros [[[A1 A2] A3]|[[A1 A2] A3]].
        + exists (moved a (-1) i). split; [right; reflexivity|]. split; [|exact A3]. intro c. specialize (Hi c). unfold moved.
          destruct (axis_dec a c) as [<-|Hc]; [rewrite getc_setc_eq in *; lia|rewrite !getc_setc_ne in * by auto; lia].
        + exists i. split; [left; reflexivity|]. split; [|exact A3]. intro c. specialize (Hi c).
          destruct (axis_dec a c) as [<-|Hc]; [lia|rewrite !getc_setc_ne in * by auto; lia].
      - intros (j & [-> | ->] & Hj & Tj).
        + right. specialize (Hj a). auto.
        + left. specialize (Hj a). unfold moved in Hj at 1 2. rewrite getc_setc_eq in Hj. split; [lia|exact Tj]. }
    clearbody b. split; intro H.
    + destruct H as [_ H]. apply B in H. rewrite H. reflexivity.
    + destruct b; [|reflexivity]. exfalso. apply H. split; [exact M|]. apply B. reflexivity.
  - assert (NI : ~ In a ds) by (rewrite <- in_mem, M; discriminate). rewrite H2 by (rewrite I; exact NI).
    split; [reflexivity|]. split; [reflexivity|]. intros i _. split; [intros [? _]; contradiction|reflexivity].
Qed.
End G.
Lemma flags_R : max_of_flags RNum.
Proof. intros [] []; unfold b2k; cbn [nmax nofZ RNum orb]; [apply Rmax_left|apply Rmax_left|apply Rmax_right|apply Rmax_left]; lra. Qed.
Lemma flags_F : max_of_flags FNum.
Proof. intros [] []; reflexivity. Qed.
Lemma flags_Q : max_of_flags QNum.
Proof. intros [] []; reflexivity. Qed.
