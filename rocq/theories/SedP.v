(** The smooth-extrema detector in closed form. *)
From Coq Require Import ZArith List Bool Lia.
From Verif Require Import Err Num PySlice NdArray HydroM FvM SedM LimitM SpecLim NdArrayP BcP.
Import ListNotations.
Open Scope Z_scope.

Section S.
Context (N : Num).
Local Notation K := (car N).
Local Open Scope num_scope.

Definition cd (g : Z -> K) (j : Z) : K := nhalf * (g (j + 2)%Z - g j).
Definition sed_at (eps : K) (g : Z -> K) (j : Z) : K :=
  let D := cd g in
  let dv := sed_dv N eps (cd D j) in
  let l := sed_alphaL N dv (D j - D (j + 1)%Z) in
  let r := sed_alphaR N eps dv (D (j + 2)%Z - D (j + 1)%Z) in
  nmin l (if r <? l then r else l).
Definition sed_line (eps : K) (g : Z -> K) (j : Z) : K :=
  nmin (nmin (sed_at eps g (j + 2)) (sed_at eps g (j + 1))) (sed_at eps g j).

Lemma sl_y0 n : (2 <= n)%Z -> slice_adjust n y0 = mkext 0 (n - 2) 1.
Proof. intros. unfold y0, cut. slice_tac. Qed.
Lemma sl_y1 n : (2 <= n)%Z -> slice_adjust n y1 = mkext 1 (n - 2) 1.
Proof. intros. unfold y1, cut. slice_tac. Qed.
Lemma sl_y2 n : (2 <= n)%Z -> slice_adjust n y2 = mkext 2 (n - 2) 1.
Proof. intros. unfold y2, cut. slice_tac. Qed.

(** lines along axis a *)
Definition along (a : axis) (c : arr K) (v : Z) (i : ix) (k : Z) : K := at_ c v (setc a k i).
Lemma view_line a s (c : arr K) r S f st ln : is_arr c r S (fun v i => f v (setc a 0%Z i) (getc a i)) ->
  slice_adjust (getc a S) s = mkext st ln 1 ->
  is_arr (view a s c) r (setc a ln S) (fun v i => f v (setc a 0%Z i) (getc a i + st)%Z).
Proof.
  intros (R & H & F) E. rewrite <- H in E. destruct (view_is a s c st ln E) as (R1 & S1 & F1).
  split; [congruence|]. split; [congruence|]. intros v i. rewrite F1, F, getc_setc_eq, setc_setc. f_equal. lia.
Qed.
Lemma amap2_line {A B C} a (op : A -> B -> C) c d r S f g :
  is_arr c r S (fun v i => f v (setc a 0%Z i) (getc a i)) -> is_arr d r S (fun v i => g v (setc a 0%Z i) (getc a i)) ->
  res_is (amap2 op c d) r S (fun v i => (fun v i k => op (f v i k) (g v i k)) v (setc a 0%Z i) (getc a i)).
Proof. intros H H0. exact (amap2_is op c d r S _ _ H H0). Qed.

Lemma socd_is a (c : arr K) r S f : is_arr c r S (fun v i => f v (setc a 0%Z i) (getc a i)) -> (2 <= getc a S)%Z ->
  res_is (second_order_central_difference N a None c) r (setc a (getc a S - 2) S)
    (fun v i => (fun v i k => cd (f v i) k) v (setc a 0%Z i) (getc a i)).
Proof.
  intros H Hn. unfold second_order_central_difference.
  destruct (amap2_line a (fun x y => nhalf * (x - y)) _ _ _ _ (fun v i k => f v i (k + 2)%Z) (fun v i k => f v i (k + 0)%Z)
    (view_line a (cut 2 0) c r S f _ _ H (sl_y2 _ Hn)) (view_line a (cut 0 (-2)) c r S f _ _ H (sl_y0 _ Hn))) as (d & E & R & Sd & F).
  rewrite E. cbn [bind]. eexists. split; [reflexivity|]. split; [exact R|]. split; [exact Sd|].
  intros v i. rewrite F. cbn beta. unfold cd. rewrite Z.add_0_r. reflexivity.
Qed.


Lemma sed_1d_is a eps (u : arr K) : (6 <= getc a (shp u))%Z ->
  res_is (sed_1d N a eps u) (rows u) (setc a (getc a (shp u) - 6) (shp u))
    (fun v i => sed_line eps (along a u v i) (getc a i)).
Proof.
  intro Hn. unfold sed_1d.
  assert (G1 : (2 <= getc a (setc a (getc a (shp u) - 2) (shp u)))%Z) by (rewrite getc_setc_eq; lia).
  assert (G2 : (2 <= getc a (setc a (getc a (shp u) - 2 - 2) (shp u)))%Z) by (rewrite getc_setc_eq; lia).
  assert (H0 : is_arr u (rows u) (shp u) (fun v i => (fun v i k => at_ u v (setc a k i)) v (setc a 0%Z i) (getc a i))).
  { split; [reflexivity|]. split; [reflexivity|]. intros v i. cbn beta. rewrite setc_setc, setc_getc. reflexivity. }
  set (f := fun v i k => at_ u v (setc a k i)) in *.
  destruct (socd_is a u _ _ f H0) as (dU & E1 & HD); [lia|]. rewrite E1. cbn [bind].
  destruct (socd_is a dU _ _ (fun v i k => cd (f v i) k) HD) as (d2U & E2 & HD2); [rewrite getc_setc_eq; lia|]. rewrite E2. cbn [bind]. clear E1 E2.
  rewrite getc_setc_eq, setc_setc in HD2.
  pose proof (amap_is (sed_dv N eps) _ _ _ _ HD2) as HV.
  pose proof (view_line a y0 dU _ _ (fun v i k => cd (f v i) k) _ _ HD (sl_y0 _ G1)) as W0.
  pose proof (view_line a y1 dU _ _ (fun v i k => cd (f v i) k) _ _ HD (sl_y1 _ G1)) as W1.
  pose proof (view_line a y2 dU _ _ (fun v i k => cd (f v i) k) _ _ HD (sl_y2 _ G1)) as W2.
  rewrite getc_setc_eq, setc_setc in W0, W1, W2.
  destruct (amap2_is nsub _ _ _ _ _ _ W0 W1) as (vL & E & HL). rewrite E; cbn [bind]; clear E.
  destruct (amap2_is (sed_alphaL N) _ _ _ _ _ _ HV HL) as (aL & E & HaL). rewrite E; cbn [bind]; clear E.
  destruct (amap2_is nsub _ _ _ _ _ _ W2 W1) as (vR & E & HR). rewrite E; cbn [bind]; clear E.
  destruct (amap2_is (sed_alphaR N eps) _ _ _ _ _ _ HV HR) as (aR0 & E & HaR0). rewrite E; cbn [bind]; clear E.
  destruct (amap2_is (fun r l => if r <? l then r else l) _ _ _ _ _ _ HaR0 HaL) as (aR & E & HaR). rewrite E; cbn [bind]; clear E.
  destruct (amap2_is nmin _ _ _ _ _ _ HaL HaR) as (al & E & Hal). rewrite E; cbn [bind]; clear E.
  cbn beta in Hal.
  assert (HA : is_arr al (rows u) (setc a (getc a (shp u) - 2 - 2) (shp u)) (fun v i => (fun v i k => sed_at eps (f v i) k) v (setc a 0%Z i) (getc a i))).
  { destruct Hal as (R & S & F). split; [exact R|]. split; [exact S|]. intros v i. rewrite F. cbn beta. unfold sed_at. rewrite Z.add_0_r. reflexivity. }
  pose proof (view_line a y0 al _ _ (fun v i k => sed_at eps (f v i) k) _ _ HA (sl_y0 _ G2)) as A0.
  pose proof (view_line a y1 al _ _ (fun v i k => sed_at eps (f v i) k) _ _ HA (sl_y1 _ G2)) as A1.
  pose proof (view_line a y2 al _ _ (fun v i k => sed_at eps (f v i) k) _ _ HA (sl_y2 _ G2)) as A2.
  rewrite getc_setc_eq, setc_setc in A0, A1, A2.
  destruct (amap2_is nmin _ _ _ _ _ _ A2 A1) as (m & E & Hm). rewrite E; cbn [bind]; clear E.
  destruct (amap2_is nmin _ _ _ _ _ _ Hm A0) as (o & E & (R & S & F)). exists o. split; [exact E|]. split; [exact R|].
  split. { rewrite S. f_equal. lia. }
  intros v i. rewrite F. cbn beta. unfold sed_line. rewrite Z.add_0_r.
  assert (L : forall k, sed_at eps (f v (setc a 0%Z i)) k = sed_at eps (along a u v i) k).
  { intro k. unfold sed_at, cd, f, along. rewrite !setc_setc. reflexivity. }
  rewrite !L. reflexivity.
Qed.

Definition sed_value (dims : list axis) (eps : K) (u : arr K) (v : Z) (i : ix) : K :=
  let l a := sed_line eps (along a u v (inner dims i)) (getc a i) in
  match dims with
  | [a] => l a
  | [a; b] => nmin (l a) (l b)
  | _ => nmin (nmin (l AX) (l AY)) (l AZ)
  end.
Lemma cut_is {A} a (u : arr A) : (6 <= getc a (shp u))%Z ->
  is_arr (view a (cut 3 (-3)) u) (rows u) (setc a (getc a (shp u) - 6) (shp u)) (fun v i => at_ u v (setc a (3 + getc a i) i)).
Proof. intro H. apply view_is. exact (sl_sym _ 3 ltac:(lia) H). Qed.
Lemma sed_1d_on a eps (w : arr K) r S f : is_arr w r S f -> (6 <= getc a S)%Z ->
  res_is (sed_1d N a eps w) r (setc a (getc a S - 6) S) (fun v i => sed_line eps (fun k => f v (setc a k i)) (getc a i)).
Proof.
  intros (R & H & F) Hn. rewrite <- H in Hn. destruct (sed_1d_is a eps w Hn) as (o & E & Ro & So & Fo).
  exists o. split; [exact E|]. rewrite R in Ro. rewrite H in So. split; [exact Ro|]. split; [exact So|].
  intros v i. rewrite Fo. unfold sed_line, sed_at, cd, along. rewrite !F. reflexivity.
Qed.

Lemma sed_2d_on a b eps (w : arr K) r S f : a <> b -> is_arr w r S f -> (6 <= getc a S)%Z -> (6 <= getc b S)%Z ->
  res_is (sed_2d N a b eps w) r (setc a (getc a S - 6) (setc b (getc b S - 6) S))
    (fun v i => nmin (sed_line eps (fun k => f v (setc a k (setc b (3 + getc b i) i))) (getc a i))
                     (sed_line eps (fun k => f v (setc b k (setc a (3 + getc a i) i))) (getc b i)))%Z.
Proof.
  intros Hab (R & H & F) Ha Hb. rewrite <- H in Ha, Hb.
  destruct (sed_1d_on a eps _ _ _ _ (cut_is b w Hb)) as (o & E & HO). { rewrite getc_setc_ne by auto. exact Ha. }
  destruct (sed_1d_on b eps _ _ _ _ (cut_is a w Ha)) as (p & E' & HP). { rewrite getc_setc_ne by auto. exact Hb. }
  unfold sed_2d. rewrite E, E'. cbn [bind]. rewrite getc_setc_ne in HO by auto. rewrite getc_setc_ne in HP by auto.
  rewrite (setc_comm b a) in HP by auto. destruct (amap2_is nmin _ _ _ _ _ _ HO HP) as (m & EM & Rm & Sm & Fm).
  exists m. split; [exact EM|]. split; [congruence|]. split; [rewrite Sm, H; reflexivity|].
  intros v i. rewrite Fm. cbn beta.
  assert (X : forall g g' j, (forall k, g k = g' k) -> sed_line eps g j = sed_line eps g' j).
  { intros g g' j Hg. unfold sed_line, sed_at, cd. rewrite !Hg. reflexivity. }
  f_equal; apply X; intro k; rewrite F; [rewrite getc_setc_ne by auto; rewrite setc_comm by auto|rewrite getc_setc_ne by auto; rewrite setc_comm by auto]; reflexivity.
Qed.
Lemma sed_line_ext eps g g' j : (forall k, g k = g' k) -> sed_line eps g j = sed_line eps g' j.
Proof. intro H. unfold sed_line, sed_at, cd. rewrite !H. reflexivity. Qed.

Lemma sed_is dims eps (u : arr K) : NoDup dims -> dims <> [] -> (forall a, mem_axis a dims = true -> (6 <= getc a (shp u))%Z) ->
  res_is (sed N dims eps u) (rows u) (cropped dims (shp u)) (sed_value dims eps u).
Proof.
  intros ND NE H.
  assert (I0 : is_arr u (rows u) (shp u) (at_ u)) by (repeat split).
  assert (M : forall a, In a dims -> mem_axis a dims = true).
  { intros a Ha. unfold mem_axis. apply existsb_exists. exists a. split; [exact Ha|apply axis_eqb_refl]. }
  destruct dims as [|a [|b [|c [|d rest]]]].
  - congruence.
  - unfold sed. destruct (sed_1d_on a eps u _ _ _ I0) as (o & E & R & S & F); [apply H, M; simpl; auto|].
    exists o. split; [exact E|]. split; [exact R|]. split. { rewrite S. unfold cropped, mem_axis. destruct a, (shp u); reflexivity. }
    intros v i. rewrite F. unfold sed_value. apply sed_line_ext. intro k. unfold along. f_equal. unfold inner, mem_axis. destruct a, i; reflexivity.
  - inversion ND as [|? ? N1 N2]; subst. assert (a <> b) by (intro; subst; apply N1; simpl; auto).
    unfold sed. destruct (sed_2d_on a b eps u _ _ _ H0 I0) as (o & E & R & S & F); [apply H, M; simpl; auto|apply H, M; simpl; auto|].
    exists o. split; [exact E|]. split; [exact R|]. split. { rewrite S. unfold cropped, mem_axis. destruct a, b, (shp u); try congruence; reflexivity. }
    intros v i. rewrite F. unfold sed_value. f_equal; apply sed_line_ext; intro k; unfold along; f_equal; unfold inner, mem_axis; destruct i as [i1 i2 i3]; destruct a, b; try congruence; cbn [getc setc cx cy cz existsb axis_eqb orb]; f_equal; lia.
  - assert (T : forall x, mem_axis x [a; b; c] = true).
    { intro x. apply M. inversion ND as [|? ? N1 N2]; subst. inversion N2 as [|? ? N3 N4]; subst. simpl in *. destruct a, b, c, x; tauto. }
    unfold sed, sed_3d.
    destruct (sed_2d_on AX AY eps _ _ _ _ ltac:(discriminate) (cut_is AZ u (H AZ (T AZ)))) as (o & E & HO).
    { rewrite getc_setc_ne by discriminate. apply H, T. } { rewrite getc_setc_ne by discriminate. apply H, T. }
    rewrite E; cbn [bind]; clear E.
    pose proof (cut_is AX u (H AX (T AX))) as (R1 & S1 & F1).
    assert (Hy : (6 <= getc AY (shp (view AX (cut 3 (-3)) u)))%Z) by (rewrite S1, getc_setc_ne by discriminate; apply H, T).
    pose proof (cut_is AY _ Hy) as (R2 & S2 & F2).
    destruct (sed_1d_on AZ eps _ _ _ _ (conj R2 (conj S2 F2))) as (p & E & HP).
    { rewrite S1. cbn [setc getc cx cy cz]. apply (H AZ), T. }
    rewrite E; cbn [bind]; clear E. rewrite R1, S1 in HP.
    replace (setc AZ _ _) with (cropped [a; b; c] (shp u)) in HP.
    2:{ unfold cropped. rewrite !T. destruct (shp u); reflexivity. }
    replace (setc AX _ _) with (cropped [a; b; c] (shp u)) in HO.
    2:{ unfold cropped. rewrite !T. destruct (shp u); reflexivity. }
    destruct (amap2_is nmin _ _ _ _ _ _ HO HP) as (m & EM & Rm & Sm & Fm). exists m. split; [exact EM|]. split; [exact Rm|]. split; [exact Sm|].
    intros v i. rewrite Fm. unfold sed_value. f_equal; [f_equal|]; apply sed_line_ext; intro k; unfold along; rewrite ?F1; f_equal; unfold inner; rewrite !T; destruct i as [i1 i2 i3]; cbn [getc setc cx cy cz]; f_equal; lia.
  - exfalso. inversion ND as [|? ? N1 N2]; subst. inversion N2 as [|? ? N3 N4]; subst. inversion N4 as [|? ? N5 N6]; subst. simpl in *. destruct a, b, c, d; tauto.
Qed.
End S.
