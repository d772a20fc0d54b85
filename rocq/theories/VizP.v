(** Lookup of snapshots, plot data and radial averages. *)
From Coq Require Import ZArith List Bool Lia Reals Lra String.
From Verif Require Import Err Num PySlice NdArray HydroM HydroStateM FvM BcM LimitM OdeM SolverM SpecSolver SpecMesh SpecLog SpecViz
  VizM HydroP NdArrayP MeshP.
Import ListNotations.
Open Scope Z_scope.

(** ** lookup *)
Lemma nan_R (x : R) : is_nan RNum x = false.
Proof. unfold is_nan. rn. assert (E : Reqb x x = true) by (apply Reqb_true; reflexivity). rewrite E. reflexivity. Qed.
Lemma argmin_from_is (f : Z -> R) : forall (l : list R) best ib here,
  (forall m, (m < List.length l)%nat -> nth m l 0%R = f (here + Z.of_nat m)) ->
  best = f ib -> 0 <= ib < here ->
  (forall j, 0 <= j < here -> (best <= f j)%R /\ (j < ib -> (best < f j)%R)) ->
  let k := argmin_from RNum best ib here l in
  0 <= k < here + Z.of_nat (List.length l) /\
  forall j, 0 <= j < here + Z.of_nat (List.length l) -> (f k <= f j)%R /\ (j < k -> (f k < f j)%R).
Proof.
  induction l as [|x l IH]; intros best ib here Hl Hb Hi Hj; cbn [argmin_from List.length].
  - rewrite Z.add_0_r. split; [exact Hi|]. rewrite <- Hb. exact Hj.
  - assert (Hx : x = f here) by (rewrite <- (Z.add_0_r here); apply (Hl 0%nat); cbn; lia).
    assert (Hl' : forall m, (m < List.length l)%nat -> nth m l 0%R = f (here + 1 + Z.of_nat m)).
    { intros m Hm. replace (here + 1 + Z.of_nat m) with (here + Z.of_nat (S m)) by lia. apply (Hl (S m)). cbn. lia. }
    rewrite !nan_R. cbn [negb andb orb]. change (@nltb RNum x best) with (Rltb x best).
    replace (here + Z.of_nat (S (List.length l))) with (here + 1 + Z.of_nat (List.length l)) by lia.
    destruct (Rltb x best) eqn:E.
    + apply Rltb_true in E. apply (IH x here (here + 1) Hl' Hx); [lia|].
      intros j Hj'. destruct (Z.eq_dec j here) as [->|Nj]; [split; [lra|lia]|].
      destruct (Hj j) as [H1 _]; [lia|]. split; [lra|intros _; lra].
    + apply Rltb_false in E. apply (IH best ib (here + 1) Hl' Hb); [lia|].
      intros j Hj'. destruct (Z.eq_dec j here) as [->|Nj]; [split; [lra|lia]|]. apply Hj. lia.
Qed.
Lemma nearest_is (l : list R) (x : R) : l <> [] -> exists k, nearest RNum l x = Ok k /\ closest l x k.
Proof.
  intro H. unfold nearest. destruct l as [|y l]; [contradiction|]. cbn [map argmin].
  eexists. split; [reflexivity|].
  pose proof (argmin_from_is (fun j => Rabs (entry_of (y :: l) j - x)) (map (fun y => Rabs (y - x)) l) (Rabs (y - x)) 0 1) as P.
  cbv zeta in P. rewrite map_length in P.
  assert (L : 1 + Z.of_nat (List.length l) = Z.of_nat (List.length (y :: l))) by (cbn [List.length]; lia).
  rewrite L in P. apply P; [|reflexivity|lia|].
  - intros m Hm. unfold entry_of. replace (Z.to_nat (1 + Z.of_nat m)) with (S m) by lia. cbn [nth].
    rewrite (nth_indep _ 0%R (Rabs (0 - x))) by (rewrite map_length; exact Hm).
    apply (map_nth (fun y => Rabs (y - x)) l 0%R m).
  - intros j Hj. assert (j = 0) as -> by lia. split; [apply Rle_refl|lia].
Qed.
Lemma py_item_last {A} (front : list A) s : py_item (front ++ [s]) (-1) = Ok s.
Proof.
  unfold py_item. rewrite app_length. cbn [List.length]. replace (-1 <? 0) with true by reflexivity.
  replace (-1 + Z.of_nat (List.length front + 1)) with (Z.of_nat (List.length front)) by lia.
  replace (Z.of_nat (List.length front) <? 0) with false by (symmetry; apply Z.ltb_ge; lia).
  rewrite Nat2Z.id, nth_error_app2, Nat.sub_diag by lia. reflexivity.
Qed.
Lemma py_item_nth {A} (l : list A) k s : 0 <= k -> nth_error l (Z.to_nat k) = Some s -> py_item l k = Ok s.
Proof. intros Hk H. unfold py_item. replace (k <? 0) with false by (symmetry; apply Z.ltb_ge; lia). cbv zeta. replace (k <? 0) with false by (symmetry; apply Z.ltb_ge; lia). rewrite H. reflexivity. Qed.
Lemma axis_index_is (l : list (snap RNum)) n s (coord : snap RNum -> list R) x : py_item l n = Ok s -> coord s <> [] ->
  exists i, axis_index RNum l n coord x = Ok i /\ chosen (coord s) x i.
Proof.
  intros E H. destruct x as [x|]; cbn [axis_index chosen].
  - rewrite E. cbn [bind]. destruct (nearest_is (coord s) x H) as (k & E1 & H1). rewrite E1. cbn [bind]. exists (S_at k). split; [reflexivity|]. exists k. auto.
  - exists S_all. auto.
Qed.
Lemma lookup (l : list (snap RNum)) t x y z : l <> [] -> (forall s, In s l -> has_cells s) ->
  exists n s i j k, get_indices RNum l t x y z = Ok (n, [i; j; k]) /\ picks l t n s /\ py_item l n = Ok s /\
    chosen (sn_x s) x i /\ chosen (sn_y s) y j /\ chosen (sn_z s) z k.
Proof.
  intros Hl Hc.
  assert (P : exists n s, match t with None => Ok (-1) | Some t => nearest RNum (map sn_t l) t end = Ok n /\ picks l t n s /\ py_item l n = Ok s /\ In s l).
  { destruct t as [t|]; cbn [picks].
    - destruct (nearest_is (map sn_t l) t) as (k & E & HC); [destruct l; [contradiction|discriminate]|].
      pose proof (proj1 HC) as HR. rewrite map_length in HR.
      destruct (nth_error l (Z.to_nat k)) as [s|] eqn:EN; [|apply nth_error_None in EN; lia].
      exists k, s. split; [exact E|]. split; [split; [exact HC|exact EN]|]. split; [apply py_item_nth; [lia|exact EN]|]. eapply nth_error_In, EN.
    - destruct (exists_last Hl) as (front & s & ->). exists (-1), s. split; [reflexivity|]. split; [split; [reflexivity|exists front; reflexivity]|].
      split; [apply py_item_last|apply in_or_app; right; left; reflexivity]. }
  destruct P as (n & s & E & HP & EI & Hs). destruct (Hc s Hs) as (X & Y & Z).
  destruct (axis_index_is l n s sn_x x EI X) as (i & E1 & H1). destruct (axis_index_is l n s sn_y y EI Y) as (j & E2 & H2).
  destruct (axis_index_is l n s sn_z z EI Z) as (k & E3 & H3).
  exists n, s, i, j, k. split; [|auto]. unfold get_indices.
  change (@nearest RNum (map sn_t l)) with (@nearest RNum (map sn_t l)) in *. rewrite E. cbn [bind]. rewrite E1. cbn [bind]. rewrite E2. cbn [bind]. rewrite E3. reflexivity.
Qed.
Lemma zrange_nth n k : 0 <= k < n -> nth (Z.to_nat k) (zrange n) 0 = k.
Proof.
  intro H. unfold zrange. change 0 with (Z.of_nat 0) at 1. rewrite map_nth, seq_nth by lia. lia.
Qed.
Lemma zrange_length n : 0 <= n -> Z.of_nat (List.length (zrange n)) = n.
Proof. intro H. unfold zrange. rewrite map_length, seq_length. lia. Qed.
Lemma cell_of_coordinate (lo hi x : R) n k : 1 <= n -> (lo < hi)%R -> (lo <= x <= hi)%R ->
  closest (map (midpoint RNum (lo, hi) n) (zrange n)) x k ->
  (lo + IZR k * ((hi - lo) / IZR n) <= x <= lo + (IZR k + 1) * ((hi - lo) / IZR n))%R.
Proof.
  intros Hn Hlt Hx [Hk HC]. rewrite map_length, zrange_length in * by lia.
  assert (EN : forall j, 0 <= j < n -> entry_of (map (midpoint RNum (lo, hi) n) (zrange n)) j = centre lo hi n j).
  { intros j Hj. unfold entry_of. rewrite (nth_indep _ 0%R (midpoint RNum (lo, hi) n 0)) by (rewrite map_length; pose proof (zrange_length n ltac:(lia)); lia).
    rewrite map_nth, zrange_nth by exact Hj. apply midpoint_is. exact Hn. }
  assert (NP : (0 < IZR n)%R) by (apply IZR_lt; lia).
  set (h := ((hi - lo) / IZR n)%R) in *. assert (Hh : (0 < h)%R) by (apply Rdiv_lt_0_compat; lra).
  assert (HN : (IZR n * h = hi - lo)%R) by (unfold h; field; lra).
  (* the cell that contains x *)
  assert (CJ : exists j, 0 <= j < n /\ (lo + IZR j * h <= x <= lo + (IZR j + 1) * h)%R).
  { destruct (Rlt_dec x hi) as [Hxh|Hxh].
    - set (j := Int_part ((x - lo) / h)). destruct (base_Int_part ((x - lo) / h)) as [B1 B2]. fold j in B1, B2.
      assert (Q : ((x - lo) / h * h = x - lo)%R) by (field; lra).
      exists j. split.
      + split.
        * assert (-1 < j)%Z; [|lia]. apply lt_IZR. apply Rle_lt_trans with ((x - lo) / h - 1)%R; [|lra].
          assert (0 <= (x - lo) / h)%R; [|lra]. apply Rmult_le_reg_r with h; [exact Hh|]. rewrite Q. lra.
        * apply lt_IZR. apply Rle_lt_trans with ((x - lo) / h)%R; [exact B1|]. apply Rmult_lt_reg_r with h; [exact Hh|]. rewrite Q, HN. lra.
      + split.
        * assert (IZR j * h <= (x - lo) / h * h)%R by (apply Rmult_le_compat_r; lra). lra.
        * assert ((x - lo) / h * h <= (IZR j + 1) * h)%R by (apply Rmult_le_compat_r; lra). lra.
    - exists (n - 1). split; [lia|]. rewrite minus_IZR. split; [|lra].
      assert ((IZR n - 1) * h <= hi - lo)%R by lra. lra. }
  destruct CJ as (j & Hj & J1 & J2). destruct (HC j Hj) as [D _]. rewrite !EN in D by assumption.
  unfold centre in D. fold h in D.
  assert (B : (Rabs (lo + (IZR j + 1 / 2) * h - x) <= h / 2)%R) by (apply Rabs_le; lra).
  assert (B' : (Rabs (lo + (IZR k + 1 / 2) * h - x) <= h / 2)%R) by lra.
  unfold Rabs in B'. destruct (Rcase_abs _) in B'; lra.
Qed.

(** ** radial averages *)
Definition lst (i : ix) : list Z := [cx i; cy i; cz i].
Lemma flat_map_single {A B} (f : A -> B) l : flat_map (fun x => [f x]) l = map f l.
Proof. induction l; cbn; congruence. Qed.
Lemma map_flat_map {A B C} (g : B -> C) (f : A -> list B) l : map g (flat_map f l) = flat_map (fun x => map g (f x)) l.
Proof. induction l; cbn; [reflexivity|]. rewrite map_app. congruence. Qed.
Lemma nd_list_3 a b c : nd_list [a; b; c] = map lst (ix_list (mkix a b c)).
Proof.
  unfold ix_list. cbn [cx cy cz]. rewrite map_flat_map. cbn [nd_list]. apply flat_map_ext. intro x. rewrite !map_flat_map.
  apply flat_map_ext. intro y. cbn [map]. rewrite flat_map_single, !map_map. reflexivity.
Qed.
Lemma bshape_same l : bshape_r l l = Some l.
Proof. induction l as [|x l IH]; cbn [bshape_r]; [reflexivity|]. rewrite bdim_eq, IH. reflexivity. Qed.
Lemma bix_same l : forall i, List.length i = List.length l -> bix_r l l i = i.
Proof. induction l as [|x l IH]; intros [|y i] H; try discriminate; [reflexivity|]. cbn [bix_r]. rewrite Z.eqb_refl, IH; [reflexivity|]. cbn in H. congruence. Qed.
Lemma nd_map2_same {A B C} (f : A -> B -> C) (u : nd A) (v : nd B) : nshape u = nshape v ->
  exists w, nd_map2 f u v = Ok w /\ nshape w = nshape u /\
    forall i, List.length i = List.length (nshape u) -> nval w i = f (nval u i) (nval v i).
Proof.
  intro H. unfold nd_map2. rewrite <- H, bshape_same. eexists. split; [reflexivity|]. cbn [nshape nval]. split; [apply rev_involutive|].
  intros i Hi. rewrite bix_same by (rewrite !rev_length; exact Hi). rewrite rev_involutive. reflexivity.
Qed.
Lemma sum_filter {A} (P : A -> bool) (g : A -> R) l : forall a : R,
  fold_left (fun acc i => (acc + (if P i then g i else 0))%R) l a = (a + fold_right Rplus 0 (map g (filter P l)))%R.
Proof.
  induction l as [|x l IH]; intro a; cbn [fold_left filter map fold_right]; [lra|]. rewrite IH. destruct (P x); cbn [map fold_right]; lra.
Qed.
Lemma count_filter {A} (P : A -> bool) l : forall a : Z,
  fold_left (fun acc i => if P i then acc + 1 else acc) l a = a + Z.of_nat (List.length (filter P l)).
Proof. induction l as [|x l IH]; intro a; cbn [fold_left filter List.length]; [lia|]. rewrite IH. destruct (P x); cbn [List.length]; lia. Qed.
Lemma fold_left_map {A B C} (f : A -> B -> A) (g : C -> B) l : forall a, fold_left f (map g l) a = fold_left (fun acc x => f acc (g x)) l a.
Proof. induction l; intro a0; cbn; auto. Qed.

Lemma fold_left_same {A B} (f g : A -> B -> A) l : (forall a x, f a x = g a x) -> forall a, fold_left f l a = fold_left g l a.
Proof. intro H. induction l as [|x l IH]; intro a; cbn; [reflexivity|]. rewrite H. apply IH. Qed.

Section Rings.
Context (s : snap RNum) (c : R * R * R).
Local Notation sh := [Z.of_nat (List.length (sn_x s)); Z.of_nat (List.length (sn_y s)); Z.of_nat (List.length (sn_z s))].
Lemma radius_is i : nval (distances RNum s c) (lst i) = radius s c i.
Proof.
  unfold distances, radius, lst, entry_of. destruct c as [[a b] d]. cbn [nval fst snd]. rn. f_equal. ring.
Qed.
Lemma in_bin_is lo hi i : in_bin RNum lo hi (nval (distances RNum s c) (lst i))
  = (if Rlt_dec lo (radius s c i) then if Rle_dec (radius s c i) hi then true else false else false).
Proof.
  rewrite radius_is. unfold in_bin. rn. unfold Rltb, Rleb. destruct (Rlt_dec lo (radius s c i)); destruct (Rle_dec (radius s c i) hi); reflexivity.
Qed.
Lemma shape_is : nshape (distances RNum s c) = sh.
Proof. unfold distances. destruct c as [[a b] d]. reflexivity. Qed.
Lemma ring_filter lo hi : filter (fun i => in_bin RNum lo hi (nval (distances RNum s c) (lst i))) (ix_list (grid_of s)) = ring s c lo hi.
Proof. unfold ring. apply filter_ext. intro i. apply in_bin_is. Qed.

Lemma nd_sum (u : nd R) (P : list Z -> bool) (g : list Z -> R) : nshape u = sh ->
  (forall i, List.length i = 3%nat -> nval u i = if P i then g i else 0%R) ->
  nsum RNum u = sum_over (fun i => g (lst i)) (filter (fun i => P (lst i)) (ix_list (grid_of s))).
Proof.
  intros S H. unfold nsum. change (@nshape (car RNum) u) with (@nshape R u). rewrite S, nd_list_3, fold_left_map. fold (grid_of s).
  unfold sum_over. pose proof (sum_filter (fun i => P (lst i)) (fun i => g (lst i)) (ix_list (grid_of s)) 0) as E. rewrite Rplus_0_l in E. refine (eq_trans _ E).
  apply (fold_left_same (fun (acc : R) x => (acc + nval u (lst x))%R)). intros acc x. rewrite (H (lst x) eq_refl). reflexivity.
Qed.

Definition one (trunc : option (R -> R)) (f : ix -> R) (p : R * R) : res (option R * option R) :=
  do r <- store RNum trunc (mean (radius s c) (ring s c (fst p) (snd p)));
  do b <- store RNum trunc (mean f (ring s c (fst p) (snd p)));
  Ok (b, r).
Lemma one_bin_is trunc (data : nd R) (f : ix -> R) lo hi : nshape data = sh -> (forall i, nval data (lst i) = f i) ->
  one_bin RNum trunc (distances RNum s c) data lo hi = one trunc f (lo, hi).
Proof.
  intros SD VD. unfold one_bin. set (inside := nd_map (in_bin RNum lo hi) (distances RNum s c)).
  assert (SI : nshape inside = sh) by exact shape_is.
  destruct (nd_map2_same (B := car RNum) (C := car RNum) (fun (b : bool) v => if b then v else @nofZ RNum 0) inside data) as (w & E & SW & VW); [exact (eq_trans SI (eq_sym SD))|].
  rewrite E. cbn [bind].
  assert (B1 : nsum RNum w = sum_over f (ring s c lo hi)).
  { rewrite (nd_sum w (nval inside) (nval data)).
    - rewrite <- ring_filter. unfold sum_over. f_equal. apply map_ext. exact VD.
    - exact (eq_trans SW SI).
    - intros i Hi. apply VW. rewrite SI. exact Hi. }
  assert (B2 : nsum RNum (@mknd (car RNum) (nshape (distances RNum s c)) (fun i => if nval inside i then nval (distances RNum s c) i else @nofZ RNum 0)) = sum_over (radius s c) (ring s c lo hi)).
  { rewrite (nd_sum _ (nval inside) (nval (distances RNum s c))).
    - rewrite <- ring_filter. unfold sum_over. f_equal. apply map_ext. exact radius_is.
    - exact shape_is.
    - intros i Hi. reflexivity. }
  assert (B3 : fold_left (fun acc i => if nval inside i then acc + 1 else acc) (nd_list (nshape inside)) 0 = Z.of_nat (List.length (ring s c lo hi))).
  { rewrite SI, nd_list_3, fold_left_map. fold (grid_of s). rewrite count_filter, Z.add_0_l. rewrite <- ring_filter. reflexivity. }
  rewrite B3. rewrite B1, B2. unfold one. cbn [fst snd].
  assert (M : forall g, (if 0 <? Z.of_nat (List.length (ring s c lo hi)) then Some (@ndiv RNum (sum_over g (ring s c lo hi)) (@nofZ RNum (Z.of_nat (List.length (ring s c lo hi))))) else None) = mean g (ring s c lo hi)).
  { intro g. unfold mean. destruct (ring s c lo hi) as [|x l]; [reflexivity|].
    replace (0 <? Z.of_nat (List.length (x :: l))) with true by (symmetry; apply Z.ltb_lt; cbn [List.length]; lia).
    rn. rewrite <- INR_IZR_INZ. reflexivity. }
  rewrite !M. reflexivity.
Qed.
Fixpoint each {A B} (f : A -> res B) (l : list A) : res (list B) :=
  match l with [] => Ok [] | x :: l' => do y <- f x; do ys <- each f l'; Ok (y :: ys) end.
Lemma all_bins_is trunc (data : nd R) (f : ix -> R) : nshape data = sh -> (forall i, nval data (lst i) = f i) ->
  forall radii, all_bins RNum trunc (distances RNum s c) data radii = each (one trunc f) (edges radii).
Proof.
  intros SD VD. induction radii as [|lo [|hi rest] IH]; [reflexivity|reflexivity|].
  change (edges (lo :: hi :: rest)) with ((lo, hi) :: edges (hi :: rest)). cbn [all_bins each].
  rewrite (one_bin_is trunc data f lo hi SD VD). destruct (one trunc f (lo, hi)); cbn [bind]; [|reflexivity].
  cbn [all_bins] in IH. rewrite IH. reflexivity.
Qed.
End Rings.
Lemma view_all {A} a (u : arr A) : 0 <= getc a (shp u) ->
  rows (view a slice_all u) = rows u /\ shp (view a slice_all u) = shp u /\ forall v i, at_ (view a slice_all u) v i = at_ u v i.
Proof.
  intro H. unfold view. rewrite sl_slice_all by exact H. cbn [rows shp at_ ex_len ex_start ex_step]. split; [reflexivity|].
  split; [destruct a, (shp u); reflexivity|]. intros v i. f_equal. destruct a, i; cbn [getc setc NdArray.cx NdArray.cy NdArray.cz]; f_equal; lia.
Qed.
Lemma field_is (h : hstate) param (w : arr (car RNum)) k : hs_ndim h = 4 -> dget param (hs_map h) = Some (R_one k) -> 0 <= k < rows w ->
  (forall a, 0 <= getc a (shp w)) ->
  exists d, field RNum h param w = Ok d /\ nshape d = [cx (shp w); cy (shp w); cz (shp w)] /\ forall i, nval d (lst i) = at_ w k i.
Proof.
  intros HN HD HK HS.
  assert (E : hs_call h (Q_name param) C_none C_none C_none None C_none None = Ok [E_rows (R_one k); E_slice slice_all; E_slice slice_all; E_slice slice_all]).
  { unfold hs_call. rewrite HN, HD. reflexivity. }
  unfold field. rewrite E. cbn [bind index4 select_rows].
  unfold py_row. replace (k <? 0) with false by (symmetry; apply Z.ltb_ge; lia). cbv zeta.
  replace ((0 <=? k) && (k <? rows w)) with true by (symmetry; rewrite andb_true_iff, Z.leb_le, Z.ltb_lt; lia). cbn [bind].
  set (r0 := mkarr 1 (shp w) (fun _ i => at_ w k i)).
  destruct (view_all AX r0 (HS AX)) as (_ & S1 & V1).
  destruct (view_all AY (view AX slice_all r0)) as (_ & S2 & V2); [rewrite S1; exact (HS AY)|].
  destruct (view_all AZ (view AY slice_all (view AX slice_all r0))) as (_ & S3 & V3); [rewrite S2, S1; exact (HS AZ)|].
  eexists. split; [reflexivity|]. unfold nd3. cbn [nshape nval]. rewrite S3, S2, S1. split; [reflexivity|].
  intros [x y z]. unfold lst. cbn [NdArray.cx NdArray.cy NdArray.cz ix_of]. rewrite V3, V2, V1. reflexivity.
Qed.

Lemma data_is (h : hstate) param (w : arr (car RNum)) f : hs_ndim h = 4 -> quantity h param w f -> (forall a, 0 <= getc a (shp w)) ->
  exists d, data_of RNum h param w = Ok d /\ nshape d = [cx (shp w); cy (shp w); cz (shp w)] /\ forall i, nval d (lst i) = f i.
Proof.
  intros HN HQ HS. unfold data_of. destruct HQ as [(-> & HR & HF)|(HP & k & HD & HK & HF)].
  - rewrite String.eqb_refl. unfold velocity_magnitude. cbn [select_rows]. unfold py_row. cbn [Z.ltb Z.compare Z.leb andb].
    change (@rows (car RNum) w) with (@rows R w).
    assert (L : forall k, k < 4 -> k <? @rows R w = true) by (intros; apply Z.ltb_lt; lia). rewrite !L by lia. cbn [bind].
    eexists. split; [reflexivity|]. split; [reflexivity|]. intros [x y z]. unfold nd3, lst. cbn [nval NdArray.cx NdArray.cy NdArray.cz ix_of at_]. refine (eq_trans _ (eq_sym (HF _))).
    rn. f_equal. ring.
  - assert (EP : String.eqb param "v" = false) by (apply String.eqb_neq; exact HP). rewrite EP.
    destruct (field_is h param w k HN HD HK HS) as (d & E & S & V). exists d. split; [exact E|]. split; [exact S|]. intro i. exact (eq_trans (V i) (eq_sym (HF i))).
Qed.
Definition columns {A B} (l : list (A * B)) : list A * list B := (map fst l, map snd l).
Lemma sample_is trunc (h : hstate) (l : list (snap RNum)) param t c radii n s f : hs_ndim h = 4 ->
  picks l t n s -> l <> [] -> (forall s, In s l -> has_cells s) -> fits s -> quantity h param (sn_w s) f ->
  sample_circular_average RNum trunc (V_object (Some h) (Some l)) param t (Some c) (Some radii)
  = do bs <- each (one s c trunc f) (edges radii); Ok (columns bs).
Proof.
  intros HN HP HL HC HF HQ. unfold sample_circular_average. cbn [state_of get_snapshot_list bind].
  destruct (lookup l t None None None HL HC) as (n' & s' & i & j & k & E & HP' & EI & _). rewrite E. cbn [bind fst]. rewrite EI. cbn [bind].
  assert (s' = s) as ->.
  { destruct t as [t|]; cbn [picks] in *.
    - destruct HP as [[K1 K2] N1], HP' as [[K1' K2'] N1'].
      assert (n = n').
      { destruct (Z.lt_trichotomy n n') as [Q|[Q|Q]]; [|exact Q|]; exfalso.
        - destruct (K2' n K1) as [_ B]. specialize (B Q). destruct (K2 n' K1') as [B' _]. lra.
        - destruct (K2 n' K1') as [_ B]. specialize (B Q). destruct (K2' n K1) as [B' _]. lra. }
      congruence.
    - destruct HP as [_ [f1 F1]], HP' as [_ [f2 F2]]. rewrite F1 in F2. apply app_inj_tail in F2. symmetry. apply F2. }
  destruct (data_is h param (sn_w s) f HN HQ) as (d & ED & SD & VD).
  { intro a. refine (eq_ind_r (fun q => 0 <= getc a q) _ HF). destruct a; cbn [grid_of getc NdArray.cx NdArray.cy NdArray.cz]; lia. }
  rewrite ED. cbn [bind]. 
  assert (SD' : @nshape R d = [Z.of_nat (List.length (sn_x s)); Z.of_nat (List.length (sn_y s)); Z.of_nat (List.length (sn_z s))]).
  { refine (eq_trans SD _). rewrite (HF : @shp (car RNum) (sn_w s) = grid_of s). reflexivity. }
  rewrite (all_bins_is s c trunc d f SD' VD radii). reflexivity.
Qed.

Lemma each_ok {A B} (f : A -> B) l : each (fun x => Ok (f x)) l = Ok (map f l).
Proof. induction l as [|x l IH]; [reflexivity|]. cbn [each bind map]. rewrite IH. reflexivity. Qed.
Lemma rings (h : hstate) (l : list (snap RNum)) param t (c : R * R * R) (radii : list R) n s f : hs_ndim h = 4 ->
  picks l t n s -> l <> [] -> (forall s, In s l -> has_cells s) -> fits s -> quantity h param (sn_w s) f ->
  sample_circular_average RNum None (V_object (Some h) (Some l)) param t (Some c) (Some radii)
  = Ok (map (fun p => mean f (ring s c (fst p) (snd p))) (edges radii),
        map (fun p => mean (radius s c) (ring s c (fst p) (snd p))) (edges radii)).
Proof.
  intros HN HP HL HC HF HQ. refine (eq_trans (sample_is None h l param t c radii n s f HN HP HL HC HF HQ) _).
  unfold one. cbn [store bind]. rewrite (each_ok (fun p => (mean f (ring s c (fst p) (snd p)), mean (radius s c) (ring s c (fst p) (snd p))))).
  cbn [bind]. unfold columns. rewrite !map_map. reflexivity.
Qed.
Lemma in_ring_iff s c lo hi i : In i (ring s c lo hi) <-> in_ring s c lo hi i.
Proof.
  unfold ring, in_ring. rewrite filter_In, in_ix_list. destruct (Rlt_dec lo (radius s c i)); [destruct (Rle_dec (radius s c i) hi)|]; intuition (try discriminate; try lra; auto).
Qed.
Lemma sum_bounds (f : ix -> R) l a b : (forall i, In i l -> (a <= f i <= b)%R) -> (a * INR (List.length l) <= sum_over f l <= b * INR (List.length l))%R.
Proof.
  induction l as [|x l IH]; intro H.
  - cbn. lra.
  - assert (H1 := H x (or_introl eq_refl)). assert (H2 := IH (fun i Hi => H i (or_intror Hi))). cbn [List.length]. rewrite S_INR. unfold sum_over in *. cbn [map fold_right]. lra.
Qed.
Lemma mean_bounds (f : ix -> R) l m a b : mean f l = Some m -> (forall i, In i l -> (a <= f i <= b)%R) -> (a <= m <= b)%R.
Proof.
  intros E H. pose proof (sum_bounds f l a b H) as B. unfold mean in E. destruct l as [|x l]; [discriminate|]. injection E as <-.
  set (k := INR (List.length (x :: l))) in *. assert (0 < k)%R by (apply lt_0_INR; cbn; lia).
  split.
  - apply Rmult_le_reg_r with k; [assumption|]. unfold Rdiv. rewrite Rmult_assoc, Rinv_l by lra. lra.
  - apply Rmult_le_reg_r with k; [assumption|]. unfold Rdiv. rewrite Rmult_assoc, Rinv_l by lra. lra.
Qed.
Lemma list_extreme (f : ix -> R) l : l <> [] -> exists i j, In i l /\ In j l /\ forall k, In k l -> (f i <= f k <= f j)%R.
Proof.
  induction l as [|x l IH]; intro H; [contradiction|]. destruct l as [|y l].
  - exists x, x. cbn. repeat split; auto; destruct H0 as [<-|[]]; lra.
  - destruct IH as (i & j & Hi & Hj & B); [discriminate|].
    exists (if Rle_dec (f x) (f i) then x else i), (if Rle_dec (f j) (f x) then x else j).
    split; [destruct (Rle_dec (f x) (f i)); [left; reflexivity|right; exact Hi]|].
    split; [destruct (Rle_dec (f j) (f x)); [left; reflexivity|right; exact Hj]|].
    intros k [<-|Hk].
    + destruct (Rle_dec (f x) (f i)), (Rle_dec (f j) (f x)); lra.
    + specialize (B k Hk). destruct (Rle_dec (f x) (f i)), (Rle_dec (f j) (f x)); lra.
Qed.
Lemma mean_none f l : mean f l = None <-> l = [].
Proof. unfold mean. destruct l; [tauto|]. split; discriminate. Qed.

(** the averages lie within the samples *)
Lemma averages (h : hstate) (l : list (snap RNum)) param t (c : R * R * R) (radii : list R) n s f (avg rad : list (option R)) : hs_ndim h = 4 ->
  picks l t n s -> l <> [] -> (forall s, In s l -> has_cells s) -> fits s -> quantity h param (sn_w s) f ->
  sample_circular_average RNum None (V_object (Some h) (Some l)) param t (Some c) (Some radii) = Ok (avg, rad) ->
  List.length avg = (List.length radii - 1)%nat /\ List.length rad = (List.length radii - 1)%nat /\
  forall k lo hi, nth_error radii k = Some lo -> nth_error radii (S k) = Some hi ->
    ((forall i, ~ in_ring s c lo hi i) -> nth_error avg k = Some None /\ nth_error rad k = Some None) /\
    ((exists i, in_ring s c lo hi i) -> exists m r, nth_error avg k = Some (Some m) /\ nth_error rad k = Some (Some r) /\
      (lo < r <= hi)%R /\ exists i j, in_ring s c lo hi i /\ in_ring s c lo hi j /\ (f i <= m <= f j)%R).
Proof.
  intros HN HP HL HC HF HQ E. pose proof (eq_trans (eq_sym (rings h l param t c radii n s f HN HP HL HC HF HQ)) E) as E'. injection E' as <- <-.
  rewrite !map_length. assert (LE : List.length (edges radii) = (List.length radii - 1)%nat).
  { unfold edges. rewrite combine_length. destruct radii; cbn [tl List.length]; lia. }
  split; [exact LE|]. split; [exact LE|]. intros k lo hi H1 H2.
  assert (NE : nth_error (edges radii) k = Some (lo, hi)).
  { clear - H1 H2. revert k H1 H2. induction radii as [|a [|b r] IH]; intros [|k] H1 H2; try discriminate; try (destruct k; discriminate).
    - cbn in H1, H2. injection H1 as <-. injection H2 as <-. reflexivity.
    - change (edges (a :: b :: r)) with ((a, b) :: edges (b :: r)). cbn [nth_error] in *. apply IH; assumption. }
  rewrite !(map_nth_error _ _ _ NE). cbn [fst snd]. split.
  - intro NI. assert (EL : ring s c lo hi = []). { destruct (ring s c lo hi) as [|i q] eqn:EQ; [reflexivity|]. exfalso. apply (NI i). apply in_ring_iff. rewrite EQ. left. reflexivity. }
    rewrite EL. split; reflexivity.
  - intros [i0 Hi0]. apply in_ring_iff in Hi0. assert (NL : ring s c lo hi <> []) by (intro Q; rewrite Q in Hi0; destruct Hi0).
    destruct (mean f (ring s c lo hi)) as [m|] eqn:EM; [|apply mean_none in EM; contradiction].
    destruct (mean (radius s c) (ring s c lo hi)) as [r|] eqn:ER; [|apply mean_none in ER; contradiction].
    exists m, r. split; [reflexivity|]. split; [reflexivity|]. split.
    + destruct (list_extreme (radius s c) _ NL) as (i & j & Hi & Hj & B). pose proof (mean_bounds _ _ _ _ _ ER B).
      apply in_ring_iff in Hi, Hj. destruct Hi as [_ Hi], Hj as [_ Hj]. lra.
    + destruct (list_extreme f _ NL) as (i & j & Hi & Hj & B). exists i, j. split; [apply in_ring_iff; exact Hi|]. split; [apply in_ring_iff; exact Hj|].
      exact (mean_bounds _ _ _ _ _ EM B).
Qed.

(** the rings fill the covered radii and do not overlap *)
Definition in_r s c lo hi i : bool := if Rlt_dec lo (radius s c i) then if Rle_dec (radius s c i) hi then true else false else false.
Lemma sum_over_filter (P : ix -> bool) f l : sum_over f (filter P l) = sum_over (fun i => if P i then f i else 0%R) l.
Proof. unfold sum_over. induction l as [|x l IH]; [reflexivity|]. cbn [filter map fold_right]. destruct (P x); cbn [map fold_right]; rewrite IH; lra. Qed.
Lemma sum_over_add f g l : (sum_over f l + sum_over g l = sum_over (fun i => f i + g i) l)%R.
Proof. unfold sum_over. induction l as [|x l IH]; cbn [map fold_right]; [lra|]. rewrite <- IH. lra. Qed.
Lemma sum_over_ext f g l : (forall i, f i = g i) -> sum_over f l = sum_over g l.
Proof. intro H. unfold sum_over. f_equal. apply map_ext. exact H. Qed.
Lemma rising_last lo radii : rising (lo :: radii) -> (lo <= last (lo :: radii) 0)%R.
Proof.
  revert lo. induction radii as [|hi r IH]; intros lo H; [cbn; lra|]. destruct H as [H1 H2]. specialize (IH hi H2).
  change (last (lo :: hi :: r) 0%R) with (last (hi :: r) 0%R). lra.
Qed.
Lemma covered s c f lo radii : rising (lo :: radii) ->
  fold_right Rplus 0%R (map (fun p => sum_over f (ring s c (fst p) (snd p))) (edges (lo :: radii))) = sum_over f (ring s c lo (last (lo :: radii) 0%R)).
Proof.
  revert lo. induction radii as [|hi r IH]; intros lo H.
  - cbn [edges combine tl map fold_right last]. symmetry.
    assert (E : ring s c lo lo = []).
    { destruct (ring s c lo lo) as [|i q] eqn:E; [reflexivity|]. assert (HI : In i (ring s c lo lo)) by (rewrite E; left; reflexivity).
      apply in_ring_iff in HI. destruct HI as [_ HI]. lra. }
    rewrite E. reflexivity.
  - change (edges (lo :: hi :: r)) with ((lo, hi) :: edges (hi :: r)). cbn [map fold_right fst snd]. destruct H as [H1 H2]. rewrite (IH hi H2).
    change (last (lo :: hi :: r) 0%R) with (last (hi :: r) 0%R). pose proof (rising_last hi r H2) as H3. set (top := last (hi :: r) 0%R) in *.
    unfold ring. rewrite !sum_over_filter, sum_over_add. apply sum_over_ext. intro i.
    destruct (Rlt_dec lo (radius s c i)), (Rle_dec (radius s c i) hi), (Rlt_dec hi (radius s c i)), (Rle_dec (radius s c i) top); lra.
Qed.
Lemma one_ring s c lo radii i : rising (lo :: radii) -> in_ring s c lo (last (lo :: radii) 0%R) i ->
  exists k, forall k', (exists a b, nth_error (lo :: radii) k' = Some a /\ nth_error (lo :: radii) (S k') = Some b /\ in_ring s c a b i) <-> k' = k.
Proof.
  revert lo. induction radii as [|hi r IH]; intros lo H [HS HR]; [cbn in HR; lra|]. destruct H as [H1 H2].
  change (last (lo :: hi :: r) 0%R) with (last (hi :: r) 0%R) in HR.
  destruct (Rle_dec (radius s c i) hi) as [L|L].
  - exists 0%nat. intro k'. split.
    + intros (a & b & A & B & _ & C). destruct k' as [|k']; [reflexivity|exfalso]. cbn [nth_error] in A. 
      assert (GE : forall q rr hh a, rising (hh :: rr) -> nth_error (hh :: rr) q = Some a -> (hh <= a)%R).
      { clear. induction q as [|q IHq]; intros rr hh a H E; [cbn in E; injection E as <-; lra|]. destruct rr as [|h2 rr]; [destruct q; discriminate|].
        destruct H as [H H']. specialize (IHq rr h2 a H' E). lra. }
      pose proof (GE k' r hi a H2 A). lra.
    + intros ->. exists lo, hi. cbn [nth_error]. split; [reflexivity|]. split; [reflexivity|]. split; [exact HS|lra].
  - destruct (IH hi H2) as [k HK]. { split; [exact HS|]. lra. } exists (S k). intro k'. split.
    + intros (a & b & A & B & C). destruct k' as [|k']; [cbn in A, B; injection A as <-; injection B as <-; destruct C as [_ C]; lra|].
      cbn [nth_error] in A. f_equal. apply HK. exists a, b. auto.
    + intros ->. destruct (proj2 (HK k) eq_refl) as (a & b & A & B & C). exists a, b. auto.
Qed.
