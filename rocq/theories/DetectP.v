(** The troubled-cell detector in closed form. *)
From Coq Require Import ZArith QArith List Bool Lia Reals Lra Floats.SpecFloat.
From Verif Require Import Err Num PySlice NdArray HydroM FvM SedM LimitM SpecLim HydroP NdArrayP BcP OpP RelP SedP.
Import ListNotations.
Open Scope Z_scope.

Section D.
Context (N : Num).
Local Notation K := (car N).

Lemma interior_is {A} dims (w : arr A) :
  (forall a, if mem_axis a dims then 6 <= getc a (shp w) else 0 <= getc a (shp w)) ->
  is_arr (interior dims w) (rows w) (cropped dims (shp w)) (fun v i => at_ w v (inner dims i)).
Proof.
  intro H. unfold interior.
  assert (G : forall a, slice_adjust (getc a (shp w)) (if mem_axis a dims then s_in 3 else slice_all)
    = mkext (getc a (inner dims (mkix 0 0 0))) (getc a (cropped dims (shp w))) 1).
  { intro a. specialize (H a). destruct a; unfold inner, cropped; cbn [getc cx cy cz] in *;
    (destruct (mem_axis _ dims); [rewrite sl_in by lia|rewrite sl_slice_all by lia]; reflexivity). }
  destruct (view3_is _ w _ _ G) as (R & S & F). split; [exact R|]. split; [exact S|].
  intros v i. rewrite F. f_equal. unfold SpecBc.shift, inner. cbn [getc cx cy cz]. f_equal.
  all: destruct (mem_axis _ dims); lia.
Qed.

(** an operand of one cell per row is repeated over all cells *)
Lemma amap2_cell_r {A B C} (f : A -> B -> C) a b r s g h :
  is_arr a r s g -> is_arr b r (mkix 1 1 1) (fun v _ => h v) -> res_is (amap2 f a b) r s (fun v i => f (g v i) (h v)).
Proof.
  intros (Ra & Sa & Ga) (Rb & Sb & Gb). unfold amap2.
  rewrite Ra, Rb, Sa, Sb, bdim_eq. unfold bshape. cbn [cx cy cz]. rewrite !bdim_1r. eexists; split; [reflexivity|].
  split; [reflexivity|]. split; [destruct s; reflexivity|]. intros v i. cbn [at_]. rewrite !brow_eq, Gb, Ga. f_equal. f_equal. destruct s. apply bix_eq.
Qed.
Lemma amap2_cell_l {A B C} (f : A -> B -> C) a b r s g h :
  is_arr b r s g -> is_arr a r (mkix 1 1 1) (fun v _ => h v) -> res_is (amap2 f a b) r s (fun v i => f (h v) (g v i)).
Proof.
  intros (Rb & Sb & Gb) (Ra & Sa & Ga). unfold amap2.
  rewrite Ra, Rb, Sa, Sb, bdim_eq. unfold bshape. cbn [cx cy cz]. rewrite !bdim_1l. eexists; split; [reflexivity|].
  split; [reflexivity|]. split; [destruct s; reflexivity|]. intros v i. cbn [at_]. rewrite !brow_eq, Gb, Ga. f_equal. f_equal. destruct s. apply bix_eq.
Qed.

(** extrema of a row *)
Definition row_fold (op : K -> K -> K) (u : arr K) (v : Z) : K :=
  match ix_list (shp u) with [] => nofZ 0 | i :: l => fold_left (fun acc j => op acc (at_ u v j)) l (at_ u v i) end.
Lemma reduce_rows_is op (u : arr K) : (forall a, 1 <= getc a (shp u)) ->
  res_is (reduce_rows op u) (rows u) (mkix 1 1 1) (fun v _ => row_fold op u v).
Proof.
  intro H. unfold reduce_rows, row_fold. destruct (ix_list (shp u)) eqn:E.
  - exfalso. assert (I : In (mkix 0 0 0) (ix_list (shp u))). { apply in_ix_list. intro a. specialize (H a). destruct a; cbn [getc cx cy cz] in *; lia. }
    rewrite E in I. exact I.
  - eexists. split; [reflexivity|]. repeat split.
Qed.

Section Q.
Context (q : nad_params N) (ds : list axis) (u uc : arr K).
Local Notation e := (nad_eps q).
Local Open Scope num_scope.
Definition hi_ (v : Z) (j : ix) : K := at_ (rank_filter N nmax ds u) v j.
Definition lo_ (v : Z) (j : ix) : K := at_ (rank_filter N nmin ds u) v j.
Definition nad_ind (v : Z) (j : ix) : K :=
  let x := at_ uc v j in
  match nad_range_ q with
  | R_absolute =>
      match nad_mode_ q with
      | M_global => nmin (x - (#1 - e) * row_fold nmin u v) ((#1 + e) * row_fold nmax u v - x)
      | _ => nmin (x - (#1 - e) * lo_ v j) ((#1 + e) * hi_ v j - x)
      end
  | _ => nmin (x - lo_ v j) (hi_ v j - x)
  end.
Definition nad_cut (v : Z) (j : ix) : K :=
  match nad_range_ q with
  | R_absolute => #0
  | _ => nopp e * match nad_mode_ q with M_global => row_fold nmax u v - row_fold nmin u v | _ => hi_ v j - lo_ v j end
  end.
Definition nad_bad (v : Z) (j : ix) : bool := nad_ind v j <? nad_cut v j.

Lemma nad_is : detectable q ds u uc -> exists ind fl, nad_indicator N q ds u uc = Ok (ind, fl) /\
  is_arr ind (rows u) (cropped ds (shp u)) (fun v i => nad_ind v (inner ds i)) /\
  is_arr fl (rows u) (cropped ds (shp u)) (fun v i => nad_bad v (inner ds i)).
Proof.
  intros (Hr & Hm & _ & R & S & _ & _ & Hn).
  assert (H6 : forall a, if mem_axis a ds then (6 <= getc a (shp u))%Z else (0 <= getc a (shp u))%Z)
    by (intro a; specialize (Hn a); destruct (mem_axis a ds); lia).
  assert (H1 : forall a, (1 <= getc a (shp u))%Z) by (intro a; specialize (Hn a); destruct (mem_axis a ds); lia).
  assert (X : is_arr (interior ds uc) (rows u) (cropped ds (shp u)) (fun v i => at_ uc v (inner ds i))).
  { rewrite R, S. apply interior_is. rewrite <- S. exact H6. }
  assert (XM : is_arr (interior ds (rank_filter N nmax ds u)) (rows u) (cropped ds (shp u)) (fun v i => hi_ v (inner ds i))).
  { apply (interior_is ds (rank_filter N nmax ds u)). exact H6. }
  assert (Xm : is_arr (interior ds (rank_filter N nmin ds u)) (rows u) (cropped ds (shp u)) (fun v i => lo_ v (inner ds i))).
  { apply (interior_is ds (rank_filter N nmin ds u)). exact H6. }
  destruct (reduce_rows_is nmax u H1) as (gM & EM & HM). destruct (reduce_rows_is nmin u H1) as (gm & Em & Hmm).
  unfold nad_indicator, nad_bad, nad_ind, nad_cut.
  destruct (nad_range_ q); [| |congruence].
  - destruct (amap2_is nsub _ _ _ _ _ _ X Xm) as (un & EU & HU). destruct (amap2_is nsub _ _ _ _ _ _ XM X) as (ov & EO & HO).
    destruct (amap2_is nmin _ _ _ _ _ _ HU HO) as (ind & EI & HI).
    destruct (nad_mode_ q); [| |congruence].
    + destruct (amap2_is nsub _ _ _ _ _ _ HM Hmm) as (rg & ER & HR). rewrite EM, Em. cbn [bind]. rewrite ER; cbn [bind]. rewrite EU; cbn [bind]. rewrite EO; cbn [bind]. rewrite EI; cbn [bind].
      destruct (amap2_cell_r (fun i r => i <? nopp e * r) _ _ _ _ _ _ HI HR) as (fl & EF & HF). rewrite EF; cbn [bind].
      exists ind, fl. split; [reflexivity|]. split; [exact HI|exact HF].
    + destruct (amap2_is nsub _ _ _ _ _ _ XM Xm) as (rg & ER & HR). rewrite ER; cbn [bind]. rewrite EU; cbn [bind]. rewrite EO; cbn [bind]. rewrite EI; cbn [bind].
      destruct (amap2_is (fun i r => i <? nopp e * r) _ _ _ _ _ _ HI HR) as (fl & EF & HF). rewrite EF; cbn [bind].
      exists ind, fl. split; [reflexivity|]. split; [exact HI|exact HF].
  - destruct (nad_mode_ q); [| |congruence].
    + rewrite EM, Em; cbn [bind fst snd].
      pose proof (amap_is (fun x => (#1 - e) * x) _ _ _ _ Hmm) as HL. pose proof (amap_is (fun x => (#1 + e) * x) _ _ _ _ HM) as HH. cbn beta in HL, HH.
      destruct (amap2_cell_r nsub _ _ _ _ _ (fun v => (#1 - e) * row_fold nmin u v) X HL) as (p & E1 & P1). rewrite E1; cbn [bind].
      destruct (amap2_cell_l nsub _ _ _ _ _ (fun v => (#1 + e) * row_fold nmax u v) X HH) as (o & E2 & P2). rewrite E2; cbn [bind].
      destruct (amap2_is nmin _ _ _ _ _ _ P1 P2) as (ind & EI & HI). rewrite EI; cbn [bind].
      eexists ind, _. split; [reflexivity|]. split; [exact HI|]. exact (amap_is (fun i => i <? #0) _ _ _ _ HI).
    + cbn [bind fst snd].
      pose proof (amap_is (fun x => (#1 - e) * x) _ _ _ _ Xm) as HL. pose proof (amap_is (fun x => (#1 + e) * x) _ _ _ _ XM) as HH.
      destruct (amap2_is nsub _ _ _ _ _ _ X HL) as (p & E1 & P1). rewrite E1; cbn [bind].
      destruct (amap2_is nsub _ _ _ _ _ _ HH X) as (o & E2 & P2). rewrite E2; cbn [bind].
      destruct (amap2_is nmin _ _ _ _ _ _ P1 P2) as (ind & EI & HI). rewrite EI; cbn [bind].
      eexists ind, _. split; [reflexivity|]. split; [exact HI|]. exact (amap_is (fun i => i <? #0) _ _ _ _ HI).
Qed.

Definition rough (v : Z) (i : ix) : bool := if sed_on q then sed_value N ds (sed_eps q) uc v i <? #1 else true.
Definition picked (v : Z) : bool := match nad_vars q with None => true | Some vs => memZ v vs end.
Definition nad_trouble (i : ix) : bool :=
  existsb (fun v => picked v && (rough v i && nad_bad v (inner ds i))) (zrange (rows u)).
Definition pad_trouble (i : ix) : bool := pad_flag N (pad_indicator N (pad_bounds q) (fun v => at_ uc v (inner ds i))).

(** the size of the worst violation and the distance to the bounds *)
Definition worst (j : ix) : K :=
  fold_left (fun acc v => nmin acc (nad_ind v j)) (tl (zrange (rows u))) (nad_ind 0%Z j).
Definition pad_size (i : ix) : K := pad_mag N (pad_indicator N (pad_bounds q) (fun v => at_ uc v (inner ds i))).

Lemma detect_full : detectable q ds u uc -> exists det, detect_troubled_cells N q ds u uc = Ok det /\
  is_arr (d_trouble det) 1 (cropped ds (shp u)) (fun _ i => pad_trouble i || nad_trouble i) /\
  is_arr (d_nad det) 1 (cropped ds (shp u)) (fun _ i => if nad_trouble i then nopp (worst (inner ds i)) else #0) /\
  is_arr (d_pad det) 1 (cropped ds (shp u)) (fun _ i => pad_size i).
Proof.
  intro HD. destruct (nad_is HD) as (ind & fl & E & HI & HF). destruct HD as (_ & _ & Hv & R & S & ND & NE & Hn).
  unfold detect_troubled_cells. rewrite E. cbn [bind].
  assert (F1 : res_is (if sed_on q then do alpha <- sed N ds (sed_eps q) uc; do fl0 <- amap2 (fun al (f : bool) => if al <? #1 then f else false) alpha fl; assign_all fl fl0 else Ok fl)
     (rows u) (cropped ds (shp u)) (fun v i => rough v i && nad_bad v (inner ds i))).
  { unfold rough. destruct (sed_on q).
    - destruct (sed_is N ds (sed_eps q) uc ND NE) as (al & EA & HA). { intros a Ha. rewrite <- S. specialize (Hn a). rewrite Ha in Hn. exact Hn. }
      rewrite EA; cbn [bind]. rewrite <- R, <- S in HA.
      destruct (amap2_is (fun al (f : bool) => if al <? #1 then f else false) _ _ _ _ _ _ HA HF) as (f1 & E1 & H1). rewrite E1; cbn [bind].
      destruct HF as (RF & SF & _). destruct (assign_all_is fl f1 _ _ _ RF SF H1) as (f2 & E2 & H2). exists f2. split; [exact E2|].
      eapply is_arr_ext; [exact H2|]. intros v i. cbn beta. destruct (_ <? _); reflexivity.
    - exists fl. split; [reflexivity|]. exact HF. }
  destruct F1 as (f1 & E1 & (R1 & S1 & V1)). rewrite E1; cbn [bind].
  set (flag := match nad_vars q with None => Ok f1 | Some vs => _ end).
  assert (F2 : res_is flag (rows u) (cropped ds (shp u)) (fun v i => picked v && (rough v i && nad_bad v (inner ds i)))).
  { unfold flag, picked. destruct (nad_vars q) as [vs|].
    - rewrite Hv in * by discriminate. rewrite R1. cbn [Z.eqb Pos.eqb orb]. eexists. split; [reflexivity|]. split; [reflexivity|]. split; [exact S1|].
      intros v i. cbn [at_]. rewrite brow_eq, V1. destruct (memZ v vs); reflexivity.
    - exists f1. split; [reflexivity|]. split; [exact R1|]. split; [exact S1|]. exact V1. }
  destruct F2 as (f2 & E2 & (R2 & S2 & V2)). rewrite E2; cbn [bind].
  assert (X : is_arr (interior ds uc) (rows u) (cropped ds (shp u)) (fun v i => at_ uc v (inner ds i))).
  { rewrite R, S. apply interior_is. rewrite <- S. intro a; specialize (Hn a); destruct (mem_axis a ds); lia. }
  destruct X as (_ & _ & VX). destruct HI as (RI & _ & VI).
  assert (EP : forall b i, pad_indicator N b (fun v => at_ (interior ds uc) v i) = pad_indicator N b (fun v => at_ uc v (inner ds i))).
  { intros b i. unfold pad_indicator. destruct b as [l|]; [|reflexivity]. generalize (Some (nofZ (n:=N) 0)). induction l as [|x l IH]; intro acc; [reflexivity|]. cbn [fold_left]. rewrite VX. apply IH. }
  assert (EX : forall i, existsb (fun v => at_ f2 v i) (zrange (rows f2)) = nad_trouble i).
  { intro i. rewrite R2. unfold nad_trouble. apply existsb_ext_in. intros x _. apply V2. }
  eexists. split; [reflexivity|]. cbn [d_trouble d_nad d_pad]. split; [|split].
  - split; [reflexivity|]. split; [exact S2|]. intros v i. cbn [at_]. rewrite EP, EX. unfold pad_trouble. destruct (pad_flag N _); reflexivity.
  - split; [reflexivity|]. split; [exact S2|]. intros v i. cbn [at_]. rewrite EX. destruct (nad_trouble i); [|reflexivity]. f_equal. rewrite RI, VI. unfold worst.
    generalize (nad_ind 0%Z (inner ds i)). induction (tl (zrange (rows u))) as [|x l IH]; intro acc; [reflexivity|]. cbn [fold_left]. rewrite VI. apply IH.
  - split; [reflexivity|]. split; [exact S2|]. intros v i. cbn [at_]. rewrite EP. reflexivity.
Qed.
Lemma detect_is : detectable q ds u uc -> exists det, detect_troubled_cells N q ds u uc = Ok det /\
  is_arr (d_trouble det) 1 (cropped ds (shp u)) (fun _ i => pad_trouble i || nad_trouble i).
Proof. intro H. destruct (detect_full H) as (det & E & F & _). exists det. auto. Qed.
End Q.
End D.

(** ** over the reals *)
Lemma fold_ext_max {A} (l : list A) (f : A -> R) : forall a0,
  let m := fold_left (fun acc j => Rmax acc (f j)) l a0 in
  (a0 <= m /\ (forall j, In j l -> f j <= m) /\ (m = a0 \/ exists j, In j l /\ f j = m))%R.
Proof.
  induction l as [|x l IH]; intro a0; cbn [fold_left].
  - split; [lra|]. split; [intros j []|auto].
  - destruct (IH (Rmax a0 (f x))) as (H1 & H2 & H3). pose proof (Rmax_l a0 (f x)). pose proof (Rmax_r a0 (f x)).
    split; [lra|]. split.
    + intros j [<-|Hj]; [lra|auto].
    + destruct H3 as [H3|(j & Hj & H3)]; [|right; exists j; split; [right; exact Hj|exact H3]].
      rewrite H3. unfold Rmax. destruct (Rle_dec a0 (f x)); [right; exists x; split; [left|]; reflexivity|left; reflexivity].
Qed.
Lemma fold_ext_min {A} (l : list A) (f : A -> R) : forall a0,
  let m := fold_left (fun acc j => Rmin acc (f j)) l a0 in
  (m <= a0 /\ (forall j, In j l -> m <= f j) /\ (m = a0 \/ exists j, In j l /\ f j = m))%R.
Proof.
  induction l as [|x l IH]; intro a0; cbn [fold_left].
  - split; [lra|]. split; [intros j []|auto].
  - destruct (IH (Rmin a0 (f x))) as (H1 & H2 & H3). pose proof (Rmin_l a0 (f x)). pose proof (Rmin_r a0 (f x)).
    split; [lra|]. split.
    + intros j [<-|Hj]; [lra|auto].
    + destruct H3 as [H3|(j & Hj & H3)]; [|right; exists j; split; [right; exact Hj|exact H3]].
      rewrite H3. unfold Rmin. destruct (Rle_dec a0 (f x)); [left; reflexivity|right; exists x; split; [left|]; reflexivity].
Qed.
Lemma fold_greatest {A} (x : A) l (f : A -> R) : greatest (fun j => In j (x :: l)) f (fold_left (fun acc j => Rmax acc (f j)) l (f x)).
Proof.
  destruct (fold_ext_max l f (f x)) as (H1 & H2 & H3). split.
  - intros j [<-|Hj]; auto.
  - destruct H3 as [H3|(j & Hj & H3)]; [exists x|exists j]; split; [left; reflexivity|symmetry; exact H3|right; exact Hj|exact H3].
Qed.
Lemma fold_least {A} (x : A) l (f : A -> R) : least (fun j => In j (x :: l)) f (fold_left (fun acc j => Rmin acc (f j)) l (f x)).
Proof.
  destruct (fold_ext_min l f (f x)) as (H1 & H2 & H3). split.
  - intros j [<-|Hj]; auto.
  - destruct H3 as [H3|(j & Hj & H3)]; [exists x|exists j]; split; [left; reflexivity|symmetry; exact H3|right; exact Hj|exact H3].
Qed.
Lemma greatest_iff {I} (D D' : I -> Prop) f M : (forall j, D j <-> D' j) -> greatest D f M -> greatest D' f M.
Proof. intros H [H1 (j & Hj & H2)]. split; [intros k Hk; apply H1, H, Hk|exists j; split; [apply H, Hj|exact H2]]. Qed.
Lemma least_iff {I} (D D' : I -> Prop) f M : (forall j, D j <-> D' j) -> least D f M -> least D' f M.
Proof. intros H [H1 (j & Hj & H2)]. split; [intros k Hk; apply H1, H, Hk|exists j; split; [apply H, Hj|exact H2]]. Qed.
Lemma greatest_fun {I} (D : I -> Prop) f M M' : greatest D f M -> greatest D f M' -> M = M'.
Proof. intros [H1 (j & Hj & H2)] [H1' (j' & Hj' & H2')]. specialize (H1 _ Hj'). specialize (H1' _ Hj). lra. Qed.
Lemma least_fun {I} (D : I -> Prop) f M M' : least D f M -> least D f M' -> M = M'.
Proof. intros [H1 (j & Hj & H2)] [H1' (j' & Hj' & H2')]. specialize (H1 _ Hj'). specialize (H1' _ Hj). lra. Qed.

Lemma offsets_near ds i j : nearby ds i j <-> exists o, In o (offsets ds) /\ j = shift_ix i o.
Proof.
  unfold nearby, offsets. split.
  - intro H. exists (mkix (cx j - cx i) (cy j - cy i) (cz j - cz i)). split.
    + pose proof (H AX) as HX. pose proof (H AY) as HY. pose proof (H AZ) as HZ. cbn [getc] in *.
      assert (P : forall a d, (if mem_axis a ds then -1 <= d <= 1 else d = 0) -> In d (if mem_axis a ds then [-1; 0; 1] else [0])).
      { intros a d Hd. destruct (mem_axis a ds); simpl; lia. }
      apply in_flat_map. exists (cx j - cx i). split; [apply P; destruct (mem_axis AX ds); lia|].
      apply in_flat_map. exists (cy j - cy i). split; [apply P; destruct (mem_axis AY ds); lia|].
      apply in_map. apply P; destruct (mem_axis AZ ds); lia.
    + unfold shift_ix. cbn [cx cy cz]. destruct j as [j1 j2 j3]. cbn [cx cy cz]. f_equal; lia.
  - intros (o & Ho & ->) a. apply in_flat_map in Ho. destruct Ho as (x & Hx & Ho). apply in_flat_map in Ho. destruct Ho as (y & Hy & Ho).
    apply in_map_iff in Ho. destruct Ho as (z & <- & Hz).
    assert (P : forall a d, In d (if mem_axis a ds then [-1; 0; 1] else [0]) -> (if mem_axis a ds then -1 <= d <= 1 else d = 0)).
    { intros b d Hd. destruct (mem_axis b ds); simpl in Hd; lia. }
    apply P in Hx. apply P in Hy. apply P in Hz. revert Hx Hy Hz; destruct a; unfold shift_ix; cbn [getc cx cy cz]; intros Hx Hy Hz; [clear Hy Hz; revert Hx|clear Hx Hz; revert Hy|clear Hx Hy; revert Hz]; destruct (mem_axis _ ds); lia.
Qed.
Lemma offsets_cons ds : exists o l, offsets ds = o :: l.
Proof. unfold offsets. destruct (mem_axis AX ds), (mem_axis AY ds), (mem_axis AZ ds); cbn; eauto. Qed.
Lemma read_in (N : Num) (u : arr (car N)) v i : in_shape (shp u) i -> read_const N u v i = at_ u v i.
Proof.
  intro H. unfold read_const. pose proof (H AX). pose proof (H AY). pose proof (H AZ). cbn [getc] in *.
  replace (_ && _)%bool with true; [reflexivity|]. symmetry. rewrite !andb_true_iff, !Z.leb_le, !Z.ltb_lt. lia.
Qed.

Section DR.
Context (q : nad_params RNum) (ds : list axis) (u uc : arr R).
Lemma hi_greatest v j : (forall k, nearby ds j k -> in_shape (shp u) k) -> greatest (nearby ds j) (at_ u v) (hi_ RNum ds u v j).
Proof.
  intro H. unfold hi_, rank_filter. cbn [at_]. destruct (offsets_cons ds) as (o & l & E). 
  assert (G : greatest (fun o => In o (offsets ds)) (fun o => at_ u v (shift_ix j o)) (match offsets ds with [] => @nofZ RNum 0 | o :: os => fold_left (fun acc o' => @nmax RNum acc (read_const RNum u v (shift_ix j o'))) os (read_const RNum u v (shift_ix j o)) end)).
  { assert (X : forall o, In o (offsets ds) -> read_const RNum u v (shift_ix j o) = at_ u v (shift_ix j o)).
    { intros o' Ho. apply read_in. apply H, offsets_near. exists o'. auto. }
    rewrite E in *. destruct (fold_greatest o l (fun o => read_const RNum u v (shift_ix j o))) as [G1 (k & Hk & G2)].
    split; [intros k' Hk'; cbn beta; rewrite <- X by exact Hk'; apply G1, Hk'|]. exists k. split; [exact Hk|]. rewrite <- X by exact Hk. exact G2. }
  destruct G as [G1 (k & Hk & G2)]. split.
  - intros i Hi. apply offsets_near in Hi. destruct Hi as (o' & Ho & ->). apply G1, Ho.
  - exists (shift_ix j k). split; [apply offsets_near; exists k; auto|exact G2].
Qed.
Lemma lo_least v j : (forall k, nearby ds j k -> in_shape (shp u) k) -> least (nearby ds j) (at_ u v) (lo_ RNum ds u v j).
Proof.
  intro H. unfold lo_, rank_filter. cbn [at_]. destruct (offsets_cons ds) as (o & l & E). 
  assert (G : least (fun o => In o (offsets ds)) (fun o => at_ u v (shift_ix j o)) (match offsets ds with [] => @nofZ RNum 0 | o :: os => fold_left (fun acc o' => @nmin RNum acc (read_const RNum u v (shift_ix j o'))) os (read_const RNum u v (shift_ix j o)) end)).
  { assert (X : forall o, In o (offsets ds) -> read_const RNum u v (shift_ix j o) = at_ u v (shift_ix j o)).
    { intros o' Ho. apply read_in. apply H, offsets_near. exists o'. auto. }
    rewrite E in *. destruct (fold_least o l (fun o => read_const RNum u v (shift_ix j o))) as [G1 (k & Hk & G2)].
    split; [intros k' Hk'; cbn beta; rewrite <- X by exact Hk'; apply G1, Hk'|]. exists k. split; [exact Hk|]. rewrite <- X by exact Hk. exact G2. }
  destruct G as [G1 (k & Hk & G2)]. split.
  - intros i Hi. apply offsets_near in Hi. destruct Hi as (o' & Ho & ->). apply G1, Ho.
  - exists (shift_ix j k). split; [apply offsets_near; exists k; auto|exact G2].
Qed.
Lemma row_extrema v : (forall a, 1 <= getc a (shp u)) ->
  greatest (in_shape (shp u)) (at_ u v) (row_fold RNum Rmax u v) /\ least (in_shape (shp u)) (at_ u v) (row_fold RNum Rmin u v).
Proof.
  intro H. unfold row_fold. change (@shp (car RNum) u) with (@shp R u). assert (I : forall j, In j (ix_list (shp u)) <-> in_shape (shp u) j) by (intro; apply in_ix_list).
  destruct (ix_list (shp u)) as [|i l] eqn:E.
  - exfalso. apply (I (mkix 0 0 0)). intro a. specialize (H a). destruct a; cbn [getc cx cy cz] in *; lia.
  - split; [eapply greatest_iff; [exact I|apply fold_greatest]|eapply least_iff; [exact I|apply fold_least]].
Qed.

Lemma inner_in i : detectable q ds u uc -> in_shape (cropped ds (shp u)) i -> forall k, nearby ds (inner ds i) k -> in_shape (shp u) k.
Proof.
  intros (_ & _ & _ & _ & _ & _ & _ & Hn) Hi k Hk a. specialize (Hi a). specialize (Hk a). specialize (Hn a).
  unfold inner, cropped in *. destruct a; cbn [getc cx cy cz] in *; destruct (mem_axis _ ds); lia.
Qed.
Lemma Rltb_iff x y : Rltb x y = true <-> (x < y)%R.
Proof. unfold Rltb. destruct (Rlt_dec x y); split; intro; try discriminate; try lra; auto. Qed.
Lemma nad_bad_iff v i : detectable q ds u uc -> in_shape (cropped ds (shp u)) i ->
  nad_bad RNum q ds u uc v (inner ds i) = true <-> inadmissible q ds u v (inner ds i) (at_ uc v (inner ds i)).
Proof.
  intros HD Hi. pose proof (inner_in i HD Hi) as Hnr.
  assert (H1 : forall a, 1 <= getc a (shp u)). { destruct HD as (_ & _ & _ & _ & _ & _ & _ & Hn). intro a. specialize (Hn a). cbn [car RNum] in *. destruct (mem_axis a ds); lia. }
  pose proof (hi_greatest v _ Hnr) as GM. pose proof (lo_least v _ Hnr) as Gm. destruct (row_extrema v H1) as [RM Rm].
  destruct HD as (Hr & Hm & _).
  unfold nad_bad, nad_ind, nad_cut. set (j := inner ds i) in *. set (M := hi_ RNum ds u v j) in *. set (m := lo_ RNum ds u v j) in *.
  change (@nmax RNum) with Rmax in *. change (@nmin RNum) with Rmin in *. set (gM := row_fold RNum Rmax u v) in *. set (gm := row_fold RNum Rmin u v) in *.
  assert (U : inadmissible q ds u v j (at_ uc v j) <-> let e : R := nad_eps q in let x := at_ uc v j in
    match nad_range_ q, nad_mode_ q with
    | R_relative, M_local => x < m - e * (M - m) \/ M + e * (M - m) < x
    | R_relative, M_global => x < m - e * (gM - gm) \/ M + e * (gM - gm) < x
    | R_absolute, M_local => x < (1 - e) * m \/ (1 + e) * M < x
    | R_absolute, M_global => x < (1 - e) * gm \/ (1 + e) * gM < x
    | _, _ => False
    end%R).
  { split.
    - intros (m' & M' & gm' & gM' & A1 & A2 & A3 & A4 & A5). rewrite (least_fun _ _ _ _ Gm A1), (greatest_fun _ _ _ _ GM A2), (least_fun _ _ _ _ Rm A3), (greatest_fun _ _ _ _ RM A4). exact A5.
    - intro A. exists m, M, gm, gM. auto. }
  rewrite U. clear U. cbv zeta. change (@nltb RNum) with Rltb. rewrite Rltb_iff. rn.
  clearbody M m gM gm. set (e := nad_eps q). clearbody e. cbn [car RNum] in *.
  assert (MM : forall a b c : R, (Rmin a b < c <-> a < c \/ b < c)%R).
  { intros a b c. unfold Rmin. destruct (Rle_dec a b); split; intro; lra. }
  destruct (nad_range_ q); [| |congruence]; (destruct (nad_mode_ q); [| |congruence]); rewrite MM; split; (intros [Hx|Hx]; [left|right]); lra.
Qed.

Lemma pad_iff (bounds : option (list (Z * (option R * option R)))) (w : Z -> R) :
  pad_flag RNum (pad_indicator RNum bounds w) = true <-> violates_last bounds w.
Proof.
  unfold pad_indicator, violates_last. destruct bounds as [l|].
  2:{ cbn [pad_flag]. change (@nltb RNum) with Rltb. rewrite Rltb_iff. rn. split; [lra|tauto]. }
  destruct l as [|x l] using rev_ind.
  - cbn [fold_left pad_flag]. change (@nltb RNum) with Rltb. rewrite Rltb_iff. rn. split; [lra|]. intros (e & H & _). discriminate.
  - clear IHl. rewrite fold_left_app. cbn [fold_left]. rewrite removelast_last.
    assert (E : pad_flag RNum (pad_one RNum (fst (snd x)) (snd (snd x)) (w (fst x))) = true <-> out_of_bounds (snd x) (w (fst x))).
    { unfold out_of_bounds, pad_one, pad_flag. destruct x as [r [[lo|] [hi|]]]; cbn [fst snd]; try change (@nltb RNum) with Rltb; rewrite ?Rltb_iff; rn.
      - unfold Rmin. destruct (Rle_dec _ _); split; intro; lra.
      - split; intro; lra.
      - split; intro; lra.
      - split; [discriminate|tauto]. }
    rewrite E. split.
    + intro H. exists x. auto.
    + intros (e & H & H2). apply app_inv_head in H. injection H as <-. exact H2.
Qed.

Lemma existsb_rows f r : existsb f (zrange r) = true <-> exists v, 0 <= v < r /\ f v = true.
Proof. rewrite existsb_exists. split; intros (v & H & H2); exists v; [rewrite in_zrange in H|rewrite in_zrange]; auto. Qed.
Lemma memZ_in x l : memZ x l = true <-> In x l.
Proof. unfold memZ. rewrite existsb_exists. split; [intros (y & H & E); apply Z.eqb_eq in E; subst; exact H|intro H; exists x; split; [exact H|apply Z.eqb_refl]]. Qed.

(** which cells are flagged *)
Theorem detect_iff : detectable q ds u uc -> exists det alpha, detect_troubled_cells RNum q ds u uc = Ok det /\
  sed RNum ds (sed_eps q) uc = Ok alpha /\
  rows (d_trouble det) = 1 /\ shp (d_trouble det) = cropped ds (shp u) /\
  forall i, in_shape (cropped ds (shp u)) i ->
    (at_ (d_trouble det) 0 i = true <->
     violates_last (pad_bounds q) (fun v => at_ uc v (inner ds i)) \/
     exists v, selected q (rows u) v /\ inadmissible q ds u v (inner ds i) (at_ uc v (inner ds i)) /\
               (sed_on q = true -> (at_ alpha v i < 1)%R)).
Proof.
  intro HD. destruct (detect_is RNum q ds u uc HD) as (det & E & (R & S & F)). 
  destruct (sed_is RNum ds (sed_eps q) uc) as (al & EA & (_ & _ & FA)).
  { apply HD. } { apply HD. } { intros a Ha. destruct HD as (_ & _ & _ & _ & HS & _ & _ & Hn). cbn [car RNum] in *. rewrite <- HS. specialize (Hn a). rewrite Ha in Hn. exact Hn. }
  exists det, al. split; [exact E|]. split; [exact EA|]. split; [exact R|]. split; [exact S|].
  intros i Hi. rewrite F, orb_true_iff. unfold pad_trouble. rewrite pad_iff. apply or_iff_compat_l.
  unfold nad_trouble. rewrite existsb_rows. unfold selected, picked, rough.
  split; intros (v & H).
  - destruct H as [Hv H]. rewrite !andb_true_iff in H. destruct H as (H1 & H2 & H3). exists v. split; [split; [exact Hv|]|].
    + destruct (nad_vars q); [apply memZ_in, H1|exact I].
    + split; [apply nad_bad_iff; assumption|]. intro Hs. rewrite Hs in H2. apply Rltb_iff in H2. rewrite FA. exact H2.
  - destruct H as ([Hv H1] & H2 & H3). exists v. split; [exact Hv|]. rewrite !andb_true_iff. split; [|split].
    + destruct (nad_vars q); [apply memZ_in, H1|reflexivity].
    + destruct (sed_on q); [|reflexivity]. apply Rltb_iff. specialize (H3 eq_refl). rewrite FA in H3. exact H3.
    + apply nad_bad_iff; assumption.
Qed.
(** the marks tell which cells are flagged, if the tolerance is not negative *)
Lemma worst_le v j : 0 <= v < rows u -> (worst RNum q ds u uc j <= nad_ind RNum q ds u uc v j)%R.
Proof.
  intro Hv. unfold worst. change (@nmin RNum) with Rmin.
  destruct (fold_ext_min (tl (zrange (rows u))) (fun v => nad_ind RNum q ds u uc v j) (nad_ind RNum q ds u uc 0 j)) as (H1 & H2 & _).
  destruct (Z.eq_dec v 0) as [->|H0]; [exact H1|]. apply H2.
  assert (I : In v (zrange (rows u))) by (apply in_zrange; exact Hv).
  unfold zrange in *. destruct (Z.to_nat (rows u)) as [|k] eqn:E; [contradiction|].
  cbn [seq map tl] in *. destruct I as [I|I]; [lia|exact I].
Qed.
Lemma pad_size_pos (x : option R) : (0 <= pad_mag RNum x)%R /\ (pad_flag RNum x = true <-> (0 < pad_mag RNum x)%R).
Proof.
  destruct x as [v|]; unfold pad_mag, pad_flag; rn; [|split; [lra|split; [discriminate|lra]]].
  destruct (Rltb v (IZR 0)) eqn:E; [apply Rltb_iff in E|].
  - split; [lra|]. split; [lra|reflexivity].
  - split; [lra|]. split; [discriminate|lra].
Qed.
Theorem marks_agree det : detectable q ds u uc -> (0 <= nad_eps q)%R -> detect_troubled_cells RNum q ds u uc = Ok det ->
  forall i, in_shape (cropped ds (shp u)) i ->
    (0 <= at_ (d_nad det) 0 i)%R /\ (0 <= at_ (d_pad det) 0 i)%R /\
    (at_ (d_trouble det) 0 i = true <-> (0 < at_ (d_nad det) 0 i \/ 0 < at_ (d_pad det) 0 i)%R).
Proof.
  intros HD He H i Hi. destruct (detect_full RNum q ds u uc HD) as (d & E & (_ & _ & F1) & (_ & _ & F2) & (_ & _ & F3)).
  rewrite H in E. injection E as <-. rewrite F1.
  change (at_ (d_nad det) 0 i) with (@at_ (car RNum) (d_nad det) 0 i). change (at_ (d_pad det) 0 i) with (@at_ (car RNum) (d_pad det) 0 i).
  rewrite F2, F3.
  destruct (pad_size_pos (pad_indicator RNum (pad_bounds q) (fun v => at_ uc v (inner ds i)))) as [P1 P2].
  assert (W : nad_trouble RNum q ds u uc i = true -> (worst RNum q ds u uc (inner ds i) < 0)%R).
  { unfold nad_trouble. rewrite existsb_rows. intros (v & Hv & HB). rewrite !andb_true_iff in HB. destruct HB as (_ & _ & HB).
    apply (Rle_lt_trans _ _ _ (worst_le v _ Hv)). unfold nad_bad in HB. apply Rltb_iff in HB. apply (Rlt_le_trans _ _ _ HB).
    pose proof (inner_in i HD Hi) as Hnr.
    assert (H1 : forall a, 1 <= getc a (shp u)). { destruct HD as (_ & _ & _ & _ & _ & _ & _ & Hn). intro a. specialize (Hn a). cbn [car RNum] in *. destruct (mem_axis a ds); lia. }
    destruct (hi_greatest v _ Hnr) as [M1 (k & Hk & M2)]. destruct (lo_least v _ Hnr) as [L1 _]. specialize (L1 k Hk).
    destruct (row_extrema v H1) as [[_ (k' & Hk' & G2)] [L2 _]]. specialize (L2 k' Hk').
    unfold nad_cut. change (@nmax RNum) with Rmax. change (@nmin RNum) with Rmin. rn.
    assert (T : forall a b : R, (b <= a -> - nad_eps q * (a - b) <= 0)%R).
    { intros a b Hab. assert (0 <= nad_eps q * (a - b))%R by (apply Rmult_le_pos; [exact He|lra]). lra. }
    destruct (nad_range_ q); [|lra|]; (destruct (nad_mode_ q); apply T; lra). }
  split; [|split].
  - destruct (nad_trouble RNum q ds u uc i); rn; [specialize (W eq_refl)|]; lra.
  - exact P1.
  - unfold pad_trouble, pad_size. rewrite orb_true_iff, P2. destruct (nad_trouble RNum q ds u uc i); rn.
    + specialize (W eq_refl). split; [left; lra|right; reflexivity].
    + split; [intros [P|P]; [right; exact P|discriminate]|intros [P|P]; [lra|left; exact P]].
Qed.
End DR.

Theorem last_flagged (q : nad_params RNum) ds (u uc : arr R) l e i :
  detectable q ds u uc -> in_shape (cropped ds (shp u)) i ->
  pad_bounds q = Some (l ++ [e]) -> out_of_bounds (snd e) (at_ uc (fst e) (inner ds i)) ->
  exists det, detect_troubled_cells RNum q ds u uc = Ok det /\ at_ (d_trouble det) 0 i = true.
Proof.
  intros HD Hi HB HO. destruct (detect_iff q ds u uc HD) as (det & al & E & _ & _ & _ & F). exists det. split; [exact E|].
  apply F; [exact Hi|]. left. rewrite HB. exists e. rewrite removelast_last. auto.
Qed.

(** the smooth-extrema detector only removes flags, in every arithmetic *)
Theorem sed_removes (N : Num) (q : nad_params N) ds u uc det : detectable q ds u uc ->
  detect_troubled_cells N q ds u uc = Ok det ->
  exists det', detect_troubled_cells N (without_sed q) ds u uc = Ok det' /\ shp (d_trouble det) = shp (d_trouble det') /\
    forall i, at_ (d_trouble det) 0 i = true -> at_ (d_trouble det') 0 i = true.
Proof.
  intros HD H. destruct (detect_is N q ds u uc HD) as (d0 & E & (R & S & F)). rewrite H in E. injection E as <-.
  destruct (detect_is N (without_sed q) ds u uc HD) as (det' & E' & (R' & S' & F')). exists det'. split; [exact E'|]. split; [congruence|].
  intro i. rewrite F, F', !orb_true_iff. intros [P|P]; [left; exact P|right].
  unfold nad_trouble in *. rewrite existsb_exists in *. destruct P as (v & Hv & P). exists v. split; [exact Hv|].
  rewrite !andb_true_iff in *. destruct P as (P1 & P2 & P3). repeat split; assumption.
Qed.

(** a cell that is NaN in every row is never flagged *)
Lemma nan_sub x y : SFsub prec emax S754_nan x = S754_nan /\ SFsub prec emax y S754_nan = S754_nan.
Proof. split; [destruct x|destruct y]; reflexivity. Qed.
Theorem nan_unflagged (q : nad_params FNum) ds u uc det i : detectable q ds u uc ->
  detect_troubled_cells FNum q ds u uc = Ok det -> (forall v, at_ uc v (inner ds i) = S754_nan) ->
  at_ (d_trouble det) 0 i = false.
Proof.
  intros HD H Hn. destruct (detect_is FNum q ds u uc HD) as (d0 & E & (R & S & F)). rewrite H in E. injection E as <-.
  rewrite F. apply orb_false_iff. split.
  - unfold pad_trouble. assert (P : forall b, pad_flag FNum (pad_indicator FNum b (fun v => at_ uc v (inner ds i))) = false).
    { intros [l|]; [|reflexivity]. unfold pad_indicator. destruct l as [|x l] using rev_ind; [reflexivity|].
      rewrite fold_left_app. cbn [fold_left]. rewrite Hn. unfold pad_one, pad_flag.
      destruct x as [r [[lo|] [hi|]]]; cbn [fst snd nsub nmin nltb FNum]; rewrite ?(proj1 (nan_sub _ S754_nan)), ?(proj2 (nan_sub S754_nan _)); reflexivity. }
    apply P.
  - unfold nad_trouble. apply not_true_is_false. rewrite existsb_exists. intros (v & _ & P). rewrite !andb_true_iff in P. destruct P as (_ & _ & P).
    unfold nad_bad, nad_ind in P. rewrite Hn in P.
    assert (X : forall a b, @nmin FNum (@nsub FNum S754_nan a) b = S754_nan).
    { intros a b. cbn [nmin nsub FNum]. rewrite (proj1 (nan_sub a S754_nan)). reflexivity. }
    destruct (nad_range_ q), (nad_mode_ q); rewrite X in P; discriminate P.
Qed.

(** the solver's default options on a candidate with a negative density *)
Definition dip (x : Q) : arr Q := mkarr 5 (mkix 7 1 1) (fun v i => if (v =? 0) && (cx i =? 3) then x else Qmake 1 1).
Theorem negative_density_unflagged : exists (u uc : arr Q) det,
  shp u = mkix 7 1 1 /\ shp uc = mkix 7 1 1 /\ rows u = 5 /\ rows uc = 5 /\
  (forall v i, Qlt 0 (at_ u v i)) /\ Qlt (at_ uc 0 (mkix 3 0 0)) 0 /\
  detect_troubled_cells QNum default_nad [AX] u uc = Ok det /\
  shp (d_trouble det) = mkix 1 1 1 /\ at_ (d_trouble det) 0 (mkix 0 0 0) = false.
Proof.
  exists (dip (Qmake 1 1000)), (dip (Qmake (-1) 1000)).
  destruct (detect_is QNum default_nad [AX] (dip (Qmake 1 1000)) (dip (Qmake (-1) 1000))) as (det & E & R & S & F).
  { unfold detectable, default_nad. cbn [nad_range_ nad_mode_ nad_vars]. repeat split; try discriminate; [repeat constructor; intros []|intros []; vm_compute; discriminate]. }
  exists det. do 4 (split; [reflexivity|]). split. { intros v i. unfold dip. cbn [at_]. destruct (_ && _); reflexivity. }
  split; [reflexivity|]. split; [exact E|]. split; [exact S|]. rewrite F. vm_compute. reflexivity.
Qed.
