(** The data handed to matplotlib. *)
From Coq Require Import ZArith List Bool Lia Reals Lra String.
From Coq Require Import QArith.QArith_base.
From Verif Require Import Err Num PySlice NdArray HydroM HydroStateM RiemannM StencilsM FvM BcM LimitM OdeM SolverM SpecBc SpecSolver SpecCons SpecMesh SpecLog SpecSym
  VizM HydroP NdArrayP MeshP SolverP OpP OdeT SeamP LogP BroadP LoopP SpecOde LimP ExistP LimExistP SpecLog SpecViz VizP.
Import ListNotations.
Open Scope Z_scope.

Lemma truthy_off m : overlay_off m <-> truthy m = false.
Proof.
  split; [intros [-> |[-> | ->]]; reflexivity|]. unfold overlay_off. destruct m as [|[]|q]; cbn [truthy]; try discriminate; auto.
  destruct (String.eqb_spec q ""); [subst; auto|discriminate].
Qed.
Lemma truthy_on m : ~ overlay_off m -> truthy m = true.
Proof. intro H. destruct (truthy m) eqn:E; [reflexivity|]. exfalso. apply H, truthy_off, E. Qed.
Lemma picks_unique l t n s n' s' : picks l t n s -> picks l t n' s' -> n = n' /\ s = s'.
Proof.
  intros HP HP'. destruct t as [t|]; cbn [picks] in *.
  - destruct HP as [[K1 K2] N1], HP' as [[K1' K2'] N1'].
    assert (n = n').
    { destruct (Z.lt_trichotomy n n') as [Q|[Q|Q]]; [|exact Q|]; exfalso.
      - destruct (K2' n K1) as [_ B]. specialize (B Q). destruct (K2 n' K1') as [B' _]. lra.
      - destruct (K2 n' K1') as [_ B]. specialize (B Q). destruct (K2' n K1) as [B' _]. lra. }
    subst n'. split; congruence.
  - destruct HP as [E1 [f1 F1]], HP' as [E2 [f2 F2]]. rewrite F1 in F2. apply app_inj_tail in F2. split; [congruence|]. apply F2.
Qed.
Lemma lookup_at l t (p : axis -> option R) n s : l <> [] -> (forall s, In s l -> has_cells s) -> picks l t n s ->
  exists i, get_indices RNum l t (p AX) (p AY) (p AZ) = Ok (n, [i AX; i AY; i AZ]) /\ py_item l n = Ok s /\ forall a, chosen (coords s a) (p a) (i a).
Proof.
  intros HL HC HP. destruct (lookup l t (p AX) (p AY) (p AZ) HL HC) as (n' & s' & i & j & k & E & HP' & EI & H1 & H2 & H3).
  destruct (picks_unique _ _ _ _ _ _ HP HP') as [<- <-].
  exists (fun a => match a with AX => i | AY => j | AZ => k end). split; [exact E|]. split; [exact EI|]. intros []; assumption.
Qed.
Lemma py_row_in n k : 0 <= k < n -> py_row n k = Ok k.
Proof. intro H. unfold py_row. replace (k <? 0) with false by (symmetry; apply Z.ltb_ge; lia). cbv zeta. replace ((0 <=? k) && (k <? n)) with true by (symmetry; rewrite andb_true_iff, Z.leb_le, Z.ltb_lt; lia). reflexivity. Qed.
Lemma line {A} (u : nd A) (n i : ix) d : nshape u = [cx n; cy n; cz n] -> (forall a, a <> d -> 0 <= getc a i < getc a n) ->
  exists v, nd_get (map (fun e => if axis_dec d e then S_all else S_at (getc e i)) [AX; AY; AZ]) u = Ok v /\ nshape v = [getc d n] /\
    forall a, nval v [a] = nval u (lst (setc d a i)).
Proof.
  intros S H. unfold nd_get. rewrite S. destruct i as [x y z], n as [nx ny nz].
  assert (L : forall k m, 0 <= k < m -> py_row m k = Ok k) by (intros; apply py_row_in; assumption).
  assert (NN : forall k m, 0 <= k < m -> (if k <? 0 then k + m else k) = k) by (intros k m Q; replace (k <? 0) with false by (symmetry; apply Z.ltb_ge; lia); reflexivity).
  pose proof (H AX) as HX. pose proof (H AY) as HY. pose proof (H AZ) as HZ. cbn [getc NdArray.cx NdArray.cy NdArray.cz] in HX, HY, HZ.
  destruct d; cbn [map axis_dec axis_rec axis_rect sel_shape bind getc NdArray.cx NdArray.cy NdArray.cz];
  repeat match goal with |- context [py_row ?m ?k] => rewrite (L k m) by (first [apply HX|apply HY|apply HZ]; discriminate) end; cbn [bind];
  (eexists; split; [reflexivity|]; split; [reflexivity|]); intro a; cbn [nval sel_index lst setc NdArray.cx NdArray.cy NdArray.cz];
  rewrite ?NN by (first [apply HX|apply HY|apply HZ]; discriminate); reflexivity.
Qed.

Lemma axes_in d e : In e (others d) <-> e <> d.
Proof. destruct d, e; cbn; intuition (try discriminate; try congruence). Qed.
Lemma coords_grid s a : getc a (grid_of s) = Z.of_nat (List.length (coords s a)).
Proof. destruct a; reflexivity. Qed.
Lemma data_on (h : hstate) param s f : hs_ndim h = 4 -> fits s -> quantity h param (sn_w s) f ->
  exists d, data_of RNum h param (sn_w s) = Ok d /\ nshape d = [cx (grid_of s); cy (grid_of s); cz (grid_of s)] /\ forall i, nval d (lst i) = f i.
Proof.
  intros HN HF HQ. destruct (data_is h param (sn_w s) f HN HQ) as (d & ED & SD & VD).
  { intro a. refine (eq_ind_r (fun q => 0 <= getc a q) _ HF). rewrite coords_grid. lia. }
  exists d. split; [exact ED|]. split; [|exact VD]. refine (eq_trans SD _). rewrite (HF : @shp (car RNum) (sn_w s) = grid_of s). reflexivity.
Qed.
(** a cell from the choices *)
Definition cell_in (i : axis -> sel) : ix :=
  let k a := match i a with S_at k => k | S_all => 0 end in mkix (k AX) (k AY) (k AZ).
Lemma cell_aims s (p : axis -> option R) i fixed : (forall a, chosen (coords s a) (p a) (i a)) -> (forall a, In a fixed -> p a <> None) ->
  aims s p fixed (cell_in i).
Proof.
  intros H HF a Ha. specialize (H a). specialize (HF a Ha). destruct (p a) as [x|]; [|contradiction]. destruct H as (k & E & HC).
  exists x. split; [reflexivity|]. replace (getc a (cell_in i)) with k; [exact HC|]. unfold cell_in. destruct a; cbn [getc NdArray.cx NdArray.cy NdArray.cz]; rewrite E; reflexivity.
Qed.
Lemma slice_line (h : hstate) (l : list (snap RNum)) param m t (p : axis -> option R) tol n s f d : hs_ndim h = 4 -> param <> "trouble"%string ->
  picks l t n s -> l <> [] -> (forall s, In s l -> has_cells s) -> fits s -> quantity h param (sn_w s) f ->
  p d = None -> (forall a, In a (others d) -> p a <> None) ->
  exists i data, plot_1d_slice RNum (V_object (Some h) (Some l)) param m t (p AX) (p AY) (p AZ) tol = Ok (coords s d, data) /\
    aims s p (others d) i /\ nshape data = [Z.of_nat (List.length (coords s d))] /\ forall k, nval data [k] = f (setc d k i).
Proof.
  intros HN HT HP HL HC HF HQ PD PO. destruct (lookup_at l t p n s HL HC HP) as (i & EG & EI & HCH).
  destruct (data_on h param s f HN HF HQ) as (D & ED & SD & VD).
  pose proof (cell_aims s p i (others d) HCH PO) as HA.
  destruct (line D (grid_of s) (cell_in i) d SD) as (v & EV & SV & VV).
  { intros a Ha. apply axes_in in Ha. destruct (HA a Ha) as (x & _ & [B _]). rewrite coords_grid. exact B. }
  exists (cell_in i), v. split; [|split; [exact HA|split; [rewrite SV, coords_grid; reflexivity|intro k; rewrite VV; apply VD]]].
  unfold plot_1d_slice. cbn [state_of get_snapshot_list bind]. rewrite EG. cbn [bind fst snd]. rewrite EI. cbn [bind].
  assert (EX : match p AX, p AY, p AZ with None, _, _ => Ok (sn_x s) | _, None, _ => Ok (sn_y s) | _, _, None => Ok (sn_z s) | _, _, _ => Err BaseException end = Ok (coords s d)).
  { destruct d; cbn [coords]; rewrite PD.
    - reflexivity.
    - destruct (p AX) eqn:E; [reflexivity|]. exfalso. apply (PO AX); [cbn; auto|exact E].
    - destruct (p AX) eqn:E; [|exfalso; apply (PO AX); [cbn; auto|exact E]]. destruct (p AY) eqn:E'; [reflexivity|]. exfalso. apply (PO AY); [cbn; auto|exact E']. }
  match goal with |- bind ?q ?k = _ => refine (eq_trans (f_equal (fun z => bind z k) (EX : q = Ok (coords s d))) _) end. cbn [bind].
  assert (EP : String.eqb param "trouble" = false) by (apply String.eqb_neq; exact HT). rewrite EP, ED. cbn [bind].
  replace [i AX; i AY; i AZ] with (map (fun e => if axis_dec d e then S_all else S_at (getc e (cell_in i))) [AX; AY; AZ]).
  { rewrite EV. reflexivity. }
  assert (EQ : forall e, (if axis_dec d e then S_all else S_at (getc e (cell_in i))) = i e).
  { intro e. specialize (HCH e). destruct (axis_dec d e) as [<-|NE].
    - rewrite PD in HCH. symmetry. exact HCH.
    - assert (IO : In e (others d)) by (apply axes_in; congruence). specialize (PO e IO). destruct (p e) as [x|]; [|contradiction]. destruct HCH as (k & E & _).
      unfold cell_in. destruct e; cbn [getc NdArray.cx NdArray.cy NdArray.cz]; rewrite E; reflexivity. }
  cbn [map]. rewrite !EQ. reflexivity.
Qed.

Lemma plane_cut {A} (u : nd A) (n i : ix) e : nshape u = [cx n; cy n; cz n] -> 0 <= getc e i < getc e n ->
  exists v w, nd_get (map (fun a => if axis_dec e a then S_at (getc a i) else S_all) [AX; AY; AZ]) u = Ok v /\ rot90 v = Ok w /\
    nshape w = [getc (snd (plane e)) n; getc (fst (plane e)) n] /\
    forall r c, nval w [r; c] = nval u (lst (setc (snd (plane e)) (getc (snd (plane e)) n - 1 - r) (setc (fst (plane e)) c i))).
Proof.
  intros S H. unfold nd_get. rewrite S. destruct i as [x y z], n as [nx ny nz].
  assert (L : forall k m, 0 <= k < m -> py_row m k = Ok k) by (intros; apply py_row_in; assumption).
  assert (NN : forall k m, 0 <= k < m -> (if k <? 0 then k + m else k) = k) by (intros k m Q; replace (k <? 0) with false by (symmetry; apply Z.ltb_ge; lia); reflexivity).
  destruct e; cbn [getc NdArray.cx NdArray.cy NdArray.cz] in H; cbn [map axis_dec axis_rec axis_rect sel_shape bind getc NdArray.cx NdArray.cy NdArray.cz];
  rewrite (L _ _ H); cbn [bind];
  (eexists; eexists; split; [reflexivity|]; split; [reflexivity|]; split; [reflexivity|]); intros r c; cbn [nval sel_index lst plane fst snd setc getc NdArray.cx NdArray.cy NdArray.cz];
  rewrite ?(NN _ _ H); reflexivity.
Qed.
Lemma py_item_ends (l : list R) : l <> [] -> py_item l 0 = Ok (entry_of l 0) /\ py_item l (-1) = Ok (entry_of l (Z.of_nat (List.length l) - 1)).
Proof.
  intro H. destruct (exists_last H) as (front & x & ->). split.
  - destruct (front ++ [x]) as [|y q] eqn:E; [destruct front; discriminate|]. reflexivity.
  - rewrite py_item_last. f_equal. unfold entry_of. rewrite app_length. cbn [List.length].
    replace (Z.to_nat (Z.of_nat (List.length front + 1) - 1)) with (List.length front) by lia. rewrite app_nth2, Nat.sub_diag by lia. reflexivity.
Qed.
Lemma summary_axis_is (show : R -> string) (l : list R) x i : l <> [] -> chosen l x i ->
  exists text, summary_axis RNum show l i = Ok text /\ names show l x text.
Proof.
  intros NE H. destruct x as [x|]; cbn [chosen names] in *.
  - destruct H as (k & -> & C). exists (show (entry_of l k)). split; [|exists k; split; [exact C|reflexivity]].
    destruct C as [[K0 K1] _]. cbn [summary_axis].
    assert (P : @py_item R l k = Ok (entry_of l k)) by (apply py_item_nth; [exact K0|]; apply nth_error_nth'; lia).
    setoid_rewrite P. reflexivity.
  - subst i. destruct (py_item_ends l NE) as [A B]. eexists. split; [|reflexivity]. cbn [summary_axis]. setoid_rewrite A. cbn [bind]. setoid_rewrite B. reflexivity.
Qed.
Lemma summary (show : R -> string) (l : list (snap RNum)) t x y z : l <> [] -> (forall s, In s l -> has_cells s) ->
  exists n s i j k a b c, get_indices RNum l t x y z = Ok (n, [i; j; k]) /\ picks l t n s /\
    names show (sn_x s) x a /\ names show (sn_y s) y b /\ names show (sn_z s) z c /\
    xyzt_summary RNum show l n i j k = Ok ("t=" ++ show (sn_t s) ++ ", x=" ++ a ++ ", y=" ++ b ++ ", z=" ++ c)%string.
Proof.
  intros NE HC. destruct (lookup l t x y z NE HC) as (n & s & i & j & k & E & P & I & X & Y & Z).
  assert (S : has_cells s).
  { apply HC. destruct t as [t|]; cbn [picks] in P; [exact (nth_error_In _ _ (proj2 P))|]. destruct P as (_ & front & ->). apply in_or_app. right. left. reflexivity. }
  destruct S as (S1 & S2 & S3).
  destruct (summary_axis_is show (sn_x s) x i S1 X) as (a & A & A').
  destruct (summary_axis_is show (sn_y s) y j S2 Y) as (b & B & B').
  destruct (summary_axis_is show (sn_z s) z k S3 Z) as (c & C & C').
  exists n, s, i, j, k, a, b, c. split; [exact E|]. split; [exact P|]. do 3 (split; [assumption|]).
  unfold xyzt_summary. rewrite I. cbn [bind]. setoid_rewrite A. cbn [bind]. setoid_rewrite B. cbn [bind]. setoid_rewrite C. reflexivity.
Qed.
Lemma has_coords s a : has_cells s -> coords s a <> [].
Proof. intros (A & B & C). destruct a; assumption. Qed.
Lemma mesh_rot (x y : list R) b : exists w, rot90 (mesh2 RNum x y b) = Ok w /\
  nshape w = [Z.of_nat (List.length y); Z.of_nat (List.length x)] /\
  forall r c, nval w [r; c] = if b then entry_of x c else entry_of y (Z.of_nat (List.length y) - 1 - r).
Proof. unfold mesh2, rot90. cbn [nshape]. eexists. split; [reflexivity|]. split; [reflexivity|]. intros r c. reflexivity. Qed.
Lemma slice_plane (h : hstate) (l : list (snap RNum)) param t (p : axis -> option R) overlay tol n s f e : hs_ndim h = 4 ->
  ~ In param ["trouble"; "NAD"; "PAD"]%string -> overlay_off overlay ->
  picks l t n s -> l <> [] -> (forall s, In s l -> has_cells s) -> fits s -> quantity h param (sn_w s) f ->
  p e <> None -> (forall a, In a (others e) -> p a = None) ->
  exists i im, plot_2d_slice RNum (V_object (Some h) (Some l)) param t (p AX) (p AY) (p AZ) overlay tol = Ok im /\
    aims s p [e] i /\ shows s f e i im.
Proof.
  intros HN HT HO HP HL HC HF HQ PE PO. apply truthy_off in HO. destruct (lookup_at l t p n s HL HC HP) as (i & EG & EI & HCH).
  destruct (data_on h param s f HN HF HQ) as (D & ED & SD & VD).
  assert (HA : aims s p [e] (cell_in i)). { apply cell_aims; [exact HCH|]. intros a [<-|[]]. exact PE. }
  destruct (plane_cut D (grid_of s) (cell_in i) e SD) as (v & w & EV & ER & SW & VW).
  { destruct (HA e (or_introl eq_refl)) as (x & _ & [B _]). rewrite coords_grid. exact B. }
  assert (HS : has_cells s).
  { apply HC. destruct t as [t|]; cbn [picks] in HP; [eapply nth_error_In; apply HP|]. destruct HP as (_ & front & ->). apply in_or_app. right. left. reflexivity. }
  set (hx := fst (plane e)) in *. set (vx := snd (plane e)) in *.
  destruct (mesh_rot (coords s hx) (coords s vx) true) as (X & EX & SX & VX). destruct (mesh_rot (coords s hx) (coords s vx) false) as (Y & EY & SY & VY).
  destruct (py_item_ends _ (has_coords s hx HS)) as [H0 H1]. destruct (py_item_ends _ (has_coords s vx HS)) as [V0 V1].
  exists (cell_in i), (mkimage (plane e) X Y (nd_map Some w) (ends (coords s hx), ends (coords s vx))). split; [|split; [exact HA|]].
  - unfold plot_2d_slice. cbn [state_of get_snapshot_list bind]. rewrite EG. cbn [bind fst snd]. rewrite EI. cbn [bind].
    assert (EXX : match p AX, p AY, p AZ with
           | None, None, _ => Ok ((AX, AY), (sn_x s, sn_y s))
           | _, None, None => Ok ((AY, AZ), (sn_y s, sn_z s))
           | None, _, None => Ok ((AX, AZ), (sn_x s, sn_z s))
           | _, _, _ => Err BaseException
           end = Ok (plane e, (coords s hx, coords s vx))).
    { subst hx vx. destruct e; cbn [plane fst snd coords].
      - rewrite (PO AY), (PO AZ) by (cbn; auto). destruct (p AX) eqn:E; [reflexivity|contradiction].
      - rewrite (PO AX), (PO AZ) by (cbn; auto). destruct (p AY) eqn:E; [reflexivity|contradiction].
      - rewrite (PO AX), (PO AY) by (cbn; auto). reflexivity. }
    match goal with |- bind ?q ?k = _ => refine (eq_trans (f_equal (fun z => bind z k) (EXX : q = Ok (plane e, (coords s hx, coords s vx)))) _) end. cbn [bind].
    match goal with |- bind ?q ?k = _ => refine (eq_trans (f_equal (fun z => bind z k) (H0 : q = _)) _) end. cbn [bind].
    match goal with |- bind ?q ?k = _ => refine (eq_trans (f_equal (fun z => bind z k) (H1 : q = _)) _) end. cbn [bind].
    match goal with |- bind ?q ?k = _ => refine (eq_trans (f_equal (fun z => bind z k) (V0 : q = _)) _) end. cbn [bind].
    match goal with |- bind ?q ?k = _ => refine (eq_trans (f_equal (fun z => bind z k) (V1 : q = _)) _) end. cbn [bind].
    rewrite HO. cbn [bind].
    assert (E1 : String.eqb param "trouble" = false) by (apply String.eqb_neq; intros ->; apply HT; cbn; auto).
    assert (E2 : String.eqb param "NAD" = false) by (apply String.eqb_neq; intros ->; apply HT; cbn; auto).
    assert (E3 : String.eqb param "PAD" = false) by (apply String.eqb_neq; intros ->; apply HT; cbn; auto).
    rewrite E1, E2, E3, ED. cbn [bind].
    replace [i AX; i AY; i AZ] with (map (fun a => if axis_dec e a then S_at (getc a (cell_in i)) else S_all) [AX; AY; AZ]).
    { rewrite EV. cbn [bind]. 
      match goal with |- bind ?q ?k = _ => refine (eq_trans (f_equal (fun z => bind z k) (EX : q = _)) _) end. cbn [bind].
      match goal with |- bind ?q ?k = _ => refine (eq_trans (f_equal (fun z => bind z k) (EY : q = _)) _) end. cbn [bind].
      match goal with |- bind ?q ?k = _ => refine (eq_trans (f_equal (fun z => bind z k) (ER : q = _)) _) end. reflexivity. }
    assert (EQ : forall a, (if axis_dec e a then S_at (getc a (cell_in i)) else S_all) = i a).
    { intro a. specialize (HCH a). destruct (axis_dec e a) as [<-|NE].
      - destruct (p e) as [x|]; [|contradiction]. destruct HCH as (k & E & _).
        unfold cell_in. destruct e; cbn [getc NdArray.cx NdArray.cy NdArray.cz]; rewrite E; reflexivity.
      - rewrite (PO a) in HCH by (apply axes_in; congruence). symmetry. exact HCH. }
    cbn [map]. rewrite !EQ. reflexivity.
  - unfold shows. assert (PP : plane e = (hx, vx)) by (subst hx vx; destruct e; reflexivity). rewrite PP. cbn [im_axes im_X im_Y im_Z im_extent].
    split; [reflexivity|]. split; [exact SX|]. split; [exact SY|]. split; [refine (eq_trans SW _); rewrite !coords_grid; reflexivity|]. split; [reflexivity|].
    intros r c Hr Hc. set (m := Z.of_nat (List.length (coords s vx))) in *.
    assert (D1 : getc hx (setc vx (m - 1 - r) (setc hx c (cell_in i))) = c) by (subst hx vx; destruct e; reflexivity).
    assert (D2 : getc vx (setc vx (m - 1 - r) (setc hx c (cell_in i))) = m - 1 - r) by (subst hx vx; destruct e; reflexivity).
    rewrite D1, D2. split; [exact (VX r c)|]. split; [exact (VY r c)|]. unfold nd_map. cbn [nval]. f_equal. refine (eq_trans (VW r c) _). rewrite VD, coords_grid. reflexivity.
Qed.

(** ** where imshow draws the pixels *)
Lemma centre_entry (lo hi : R) n j : 1 <= n -> 0 <= j < n -> entry_of (map (midpoint RNum (lo, hi) n) (zrange n)) j = centre lo hi n j.
Proof.
  intros Hn Hj. unfold entry_of. rewrite (nth_indep _ 0%R (midpoint RNum (lo, hi) n 0)) by (rewrite map_length; pose proof (zrange_length n ltac:(lia)); lia).
  rewrite map_nth, zrange_nth by exact Hj. apply midpoint_is. exact Hn.
Qed.
Lemma line_length (lo hi : R) n : 1 <= n -> Z.of_nat (List.length (map (midpoint RNum (lo, hi) n) (zrange n))) = n.
Proof. intro H. rewrite map_length. apply zrange_length. lia. Qed.
Lemma column_offset (lo hi : R) n c : 1 <= n -> 0 <= c < n -> let x := map (midpoint RNum (lo, hi) n) (zrange n) in
  (column_middle (ends x) n c - entry_of x c = (hi - lo) / IZR n * (1 / 2 - (IZR c + 1 / 2) / IZR n))%R.
Proof.
  intros Hn Hc x. subst x. unfold ends, column_middle. cbn [fst snd]. rewrite line_length by exact Hn. rewrite !centre_entry by lia.
  unfold centre. rewrite minus_IZR. assert (0 < IZR n)%R by (apply IZR_lt; lia). field. lra.
Qed.
Lemma row_offset (lo hi : R) n r : 1 <= n -> 0 <= r < n -> let y := map (midpoint RNum (lo, hi) n) (zrange n) in
  (row_middle (ends y) n r - entry_of y (n - 1 - r) = - ((hi - lo) / IZR n * (1 / 2 - (IZR r + 1 / 2) / IZR n)))%R.
Proof.
  intros Hn Hr y. subst y. unfold ends, row_middle. cbn [fst snd]. rewrite line_length by exact Hn. rewrite !centre_entry by lia.
  unfold centre. rewrite !minus_IZR. assert (0 < IZR n)%R by (apply IZR_lt; lia). field. lra.
Qed.
Lemma offset_small n c : 1 <= n -> 0 <= c < n -> (- (1 / 2) < 1 / 2 - (IZR c + 1 / 2) / IZR n < 1 / 2)%R.
Proof.
  intros Hn Hc. assert (NP : (0 < IZR n)%R) by (apply IZR_lt; lia). assert (C0 : (0 <= IZR c)%R) by (apply IZR_le; lia).
  assert (C1 : (IZR c + 1 <= IZR n)%R) by (rewrite <- plus_IZR; apply IZR_le; lia).
  assert (0 < (IZR c + 1 / 2) / IZR n)%R by (apply Rdiv_lt_0_compat; lra).
  assert ((IZR c + 1 / 2) / IZR n < 1)%R; [|lra]. apply Rmult_lt_reg_r with (IZR n); [exact NP|]. unfold Rdiv. rewrite Rmult_assoc, Rinv_l by lra. lra.
Qed.
Lemma pixels (lo hi : R) n c : 1 <= n -> 0 <= c < n -> (lo < hi)%R -> let x := map (midpoint RNum (lo, hi) n) (zrange n) in
  (Rabs (column_middle (ends x) n c - entry_of x c) < (hi - lo) / IZR n / 2)%R /\
  (Rabs (row_middle (ends x) n c - entry_of x (n - 1 - c)) < (hi - lo) / IZR n / 2)%R.
Proof.
  intros Hn Hc H x. subst x. rewrite column_offset, row_offset by assumption. pose proof (offset_small n c Hn Hc) as B.
  set (q := (1 / 2 - (IZR c + 1 / 2) / IZR n)%R) in *. set (h := ((hi - lo) / IZR n)%R).
  assert (Hh : (0 < h)%R) by (apply Rdiv_lt_0_compat; [lra|apply IZR_lt; lia]).
  assert (h * q < h * (1 / 2))%R by (apply Rmult_lt_compat_l; lra). assert (h * (- (1 / 2)) < h * q)%R by (apply Rmult_lt_compat_l; lra).
  split; apply Rabs_def1; lra.
Qed.
Lemma pixels_off (lo hi : R) n c : 1 <= n -> 0 <= c < n -> (lo < hi)%R -> 2 * c + 1 <> n -> let x := map (midpoint RNum (lo, hi) n) (zrange n) in
  column_middle (ends x) n c <> entry_of x c /\ row_middle (ends x) n c <> entry_of x (n - 1 - c).
Proof.
  intros Hn Hc H HM x. subst x. pose proof (column_offset lo hi n c Hn Hc) as A. pose proof (row_offset lo hi n c Hn Hc) as B. cbv zeta in A, B.
  assert (NP : (0 < IZR n)%R) by (apply IZR_lt; lia).
  set (h := ((hi - lo) / IZR n)%R) in *. assert (Hh : (0 < h)%R) by (apply Rdiv_lt_0_compat; lra).
  assert (Q : (1 / 2 - (IZR c + 1 / 2) / IZR n <> 0)%R).
  { intro E. assert (E' : (IZR n = 2 * IZR c + 1)%R). { assert (((IZR c + 1 / 2) / IZR n) * IZR n = IZR c + 1 / 2)%R by (field; lra). assert ((IZR c + 1 / 2) / IZR n = 1 / 2)%R by lra. rewrite H1 in H0. lra. }
    apply HM. apply eq_IZR. rewrite plus_IZR, mult_IZR. lra. }
  assert (P : (h * (1 / 2 - (IZR c + 1 / 2) / IZR n) <> 0)%R) by (apply Rmult_integral_contrapositive_currified; lra).
  split; intro E; rewrite E in *; apply P; lra.
Qed.

(** ** the trouble log *)
Lemma sel_rank s : forall sh r, sel_shape s sh = Ok r ->
  List.length sh = (List.length r + List.length (filter (fun q => match q with S_at _ => true | S_all => false end) s))%nat.
Proof.
  induction s as [|q s IH]; intros [|n sh] r H; try discriminate.
  - injection H as <-. reflexivity.
  - injection H as <-. cbn. lia.
  - destruct q; discriminate.
  - destruct q as [k|]; cbn [sel_shape] in H.
    + destruct (py_row n k); cbn [bind] in H; [|discriminate]. apply IH in H. cbn [filter List.length]. lia.
    + destruct (sel_shape s sh) as [r'|] eqn:E; cbn [bind] in H; [|discriminate]. injection H as <-. apply IH in E. cbn [filter List.length]. lia.
Qed.
Lemma bshape_rank a : forall b r, bshape_r a b = Some r -> List.length r = Nat.max (List.length a) (List.length b).
Proof.
  induction a as [|m a IH]; intros [|n b] r H; cbn [bshape_r] in H; try (injection H as <-; cbn; lia).
  destruct (bdim m n); [|discriminate]. destruct (bshape_r a b) as [r'|] eqn:E; [|discriminate]. injection H as <-. apply IH in E. cbn [List.length]. lia.
Qed.
Lemma map2_rank {A B C} (f : A -> B -> C) u v w : nd_map2 f u v = Ok w -> List.length (nshape w) = Nat.max (List.length (nshape u)) (List.length (nshape v)).
Proof. unfold nd_map2. destruct (bshape_r _ _) as [r|] eqn:E; [|discriminate]. intro H. injection H as <-. cbn [nshape]. apply bshape_rank in E. rewrite !rev_length in *. exact E. Qed.
Lemma rot_rank {A} (u v : nd A) : rot90 u = Ok v -> List.length (nshape v) = List.length (nshape u).
Proof. unfold rot90. destruct (nshape u) as [|a [|b l]]; try discriminate. intro H. injection H as <-. reflexivity. Qed.
Lemma get_rank {A} s (u v : nd A) : nd_get s u = Ok v ->
  List.length (nshape u) = (List.length (nshape v) + List.length (filter (fun q => match q with S_at _ => true | S_all => false end) s))%nat.
Proof. unfold nd_get. destruct (sel_shape s (nshape u)) as [r|] eqn:E; cbn [bind]; [|discriminate]. intro H. injection H as <-. exact (sel_rank _ _ _ E). Qed.
Ltac ob H := match type of H with bind ?x _ = Ok _ => let E := fresh "E" in destruct x eqn:E; cbn [bind] in H; [|discriminate] end.
Lemma trouble_rank {N} (s : snap N) m tol d : plotting_trouble N s m tol = Ok d -> List.length (nshape d) = 4%nat.
Proof.
  unfold plotting_trouble. destruct (sn_log s) as [[[a b] c]|]; [|discriminate]. intro H. ob H. ob H.
  destruct (negb _); [discriminate|]. destruct m as [|?|nm]; try discriminate.
  destruct (String.eqb nm "all"). { apply map2_rank in H. exact H. }
  destruct (String.eqb nm "NAD"). { injection H as <-. reflexivity. }
  destruct (String.eqb nm "PAD"). { injection H as <-. reflexivity. } discriminate.
Qed.

Lemma axis_index_given {N} l n (co : snap N -> list (car N)) x i : axis_index N l n co x = Ok i ->
  i = S_all /\ x = None \/ (exists k, i = S_at k) /\ x <> None.
Proof.
  destruct x as [x|]; cbn [axis_index]; intro H; [|injection H as <-; left; auto]. ob H. ob H. injection H as <-. right. split; [eauto|discriminate].
Qed.
Lemma indices_given {N} l t x y z ns : get_indices N l t x y z = Ok ns ->
  List.length (filter (fun q => match q with S_at _ => true | S_all => false end) (snd ns)) = (given x + given y + given z)%nat.
Proof.
  unfold get_indices. intro H. ob H. ob H. ob H. ob H. injection H as <-. cbn [snd].
  apply axis_index_given in E0, E1, E2.
  destruct E0 as [[-> ->]|[[k0 ->] X]], E1 as [[-> ->]|[[k1 ->] Y]], E2 as [[-> ->]|[[k2 ->] Z]];
  repeat match goal with H : ?o <> None |- _ => destruct o; [clear H|contradiction] end; reflexivity.
Qed.
Lemma line_trouble_rank {N} src m t x y z tol xs d : (given x + given y + given z = 2)%nat ->
  plot_1d_slice N src "trouble" m t x y z tol = Ok (xs, d) -> List.length (nshape d) = 2%nat.
Proof.
  intros G H. unfold plot_1d_slice in H. ob H. ob H. ob H. ob H. ob H. rewrite String.eqb_refl in H. ob H. ob H. injection H as <- <-.
  ob E4. injection E4 as <-. apply trouble_rank in E6. apply get_rank in E5. apply indices_given in E1. rewrite G in E1. rewrite E1 in E5. cbn [nd_map nshape] in E5. lia.
Qed.
Lemma picture_trouble_rank {N} src param t x y z overlay tol im : (given x + given y + given z = 1)%nat ->
  ~ overlay_off overlay \/ In param ["trouble"; "NAD"; "PAD"]%string ->
  plot_2d_slice N src param t x y z overlay tol = Ok im -> (3 <= List.length (nshape (im_Z im)))%nat.
Proof.
  intros G HO H. unfold plot_2d_slice in H. ob H. ob H. ob H. ob H. ob H. destruct a3 as [ax [hs vs]]. ob H. ob H. ob H. ob H. ob H. ob H. ob H. ob H. ob H. ob H. ob H.
  injection H as <-. cbn [im_Z]. apply indices_given in E1. rewrite G in E1.
  destruct (truthy overlay) eqn:TO.
  - ob E8. ob E8. injection E8 as <-. ob E14. apply trouble_rank in E15. apply get_rank in E16. rewrite E1 in E16. apply rot_rank in E8. apply map2_rank in E14. lia.
  - injection E8 as <-. injection E14 as <-. cbn [nd_map nshape]. apply rot_rank in E13. apply get_rank in E10. rewrite E1 in E10.
    destruct HO as [HO|HO]; [apply truthy_on in HO; congruence|].
    match type of E9 with _ = Ok ?q => assert (L4 : List.length (nshape q) = 4%nat) end.
    { destruct (sn_log a2) as [q|].
      - destruct HO as [<-|[<-|[<-|[]]]]; cbn [String.eqb Ascii.eqb Bool.eqb] in E9; injection E9 as <-; reflexivity.
      - destruct HO as [<-|[<-|[<-|[]]]]; discriminate E9. }
    lia.
Qed.

(** every entry of a slice, of a rotated array, of broadcast arrays comes from the array *)
Lemma sel_inside s : forall sh sh' k, sel_shape s sh = Ok sh' -> inside sh' k -> inside sh (sel_index s sh k).
Proof.
  induction s as [|[q|] s IH]; intros [|n sh] sh' k; cbn [sel_shape sel_index]; intros H I; try discriminate; try (injection H as <-; exact I).
  - ob H. constructor; [|exact (IH _ _ _ H I)]. unfold py_row in E. cbv zeta in E. set (j := if q <? 0 then q + n else q) in *. destruct (andb _ _) eqn:B in E; [|discriminate]. apply andb_prop in B. destruct B as [B1 B2]. apply Z.leb_le in B1. apply Z.ltb_lt in B2. lia.
  - ob H. injection H as <-. inversion I; subst. constructor; [assumption|]. exact (IH _ _ _ E H3).
Qed.
Lemma bix_inside a : forall b r i, bshape_r a b = Some r -> inside r i -> inside a (bix_r a r i).
Proof.
  induction a as [|m a IH]; intros b r i H I; [constructor|]. destruct b as [|n b].
  - cbn [bshape_r] in H. injection H as <-. rewrite bix_same; [exact I|]. clear - I. induction I; cbn; congruence.
  - cbn [bshape_r] in H. destruct (bdim m n) as [k|] eqn:B; [|discriminate]. destruct (bshape_r a b) as [l|] eqn:E; [|discriminate]. injection H as <-.
    inversion I as [|? ? ? ? X Y]; subst. cbn [bix_r]. constructor; [|exact (IH _ _ _ E Y)]. unfold bdim in B. destruct (Z.eqb_spec m k) as [->|NE]; [exact X|].
    destruct (Z.eqb_spec m n); [congruence|]. destruct (Z.eqb_spec m 1); [lia|]. destruct (Z.eqb_spec n 1); congruence.
Qed.
Lemma bshape_swap a : forall b, bshape_r a b = bshape_r b a.
Proof.
  induction a as [|m a IH]; intros [|n b]; cbn [bshape_r]; try reflexivity. rewrite (IH b). replace (bdim n m) with (bdim m n); [reflexivity|].
  unfold bdim. destruct (Z.eqb_spec m n), (Z.eqb_spec n m), (Z.eqb_spec m 1), (Z.eqb_spec n 1); try congruence; reflexivity.
Qed.
Lemma inside_rev sh k : inside sh k -> inside (rev sh) (rev k).
Proof. induction 1; cbn [rev]; [constructor|]. apply Forall2_app; [assumption|]. constructor; [assumption|constructor]. Qed.
Lemma get_from {A} (s : list sel) (u w : nd A) : nd_get s u = Ok w -> forall k, inside (nshape w) k -> exists k', inside (nshape u) k' /\ nval w k = nval u k'.
Proof. unfold nd_get. intros H k I. ob H. injection H as <-. eexists. split; [|reflexivity]. exact (sel_inside _ _ _ _ E I). Qed.
Lemma rot_from {A} (u w : nd A) : rot90 u = Ok w -> forall k, inside (nshape w) k -> exists k', inside (nshape u) k' /\ nval w k = nval u k'.
Proof.
  unfold rot90. destruct (nshape u) as [|a [|b sh]]; try discriminate. intros H k I. injection H as <-. cbn [nval nshape] in *. inversion I as [|? ? ? ? X Y]; subst. inversion Y as [|? ? ? ? X' Y']; subst.
  eexists. split; [|reflexivity]. constructor; [assumption|]. constructor; [lia|assumption].
Qed.
Lemma map2_from {A B C} (f : A -> B -> C) u v w : nd_map2 f u v = Ok w -> forall k, inside (nshape w) k ->
  exists k1 k2, inside (nshape u) k1 /\ inside (nshape v) k2 /\ nval w k = f (nval u k1) (nval v k2).
Proof.
  unfold nd_map2. destruct (bshape_r _ _) as [r|] eqn:E; [|discriminate]. intros H k I. injection H as <-. cbn [nshape nval] in *.
  apply inside_rev in I. rewrite rev_involutive in I. eexists. eexists. split; [|split; [|reflexivity]].
  - rewrite <- (rev_involutive (nshape u)) at 1. apply inside_rev. exact (bix_inside _ _ _ _ E I).
  - rewrite <- (rev_involutive (nshape v)) at 1. apply inside_rev. rewrite bshape_swap in E. exact (bix_inside _ _ _ _ E I).
Qed.
Lemma picture_overlay {N} h l param t x y z overlay tol im ns s tr : ~ overlay_off overlay ->
  plot_2d_slice N (V_object (Some h) (Some l)) param t x y z overlay tol = Ok im ->
  get_indices N l t x y z = Ok ns -> py_item l (fst ns) = Ok s -> plotting_trouble N s overlay tol = Ok tr ->
  ((forall k, inside (nshape tr) k -> nval tr k <= 0) -> forall k, inside (nshape (im_Z im)) k -> nval (im_Z im) k <> None) /\
  ((forall k, inside (nshape tr) k -> 0 < nval tr k) -> forall k, inside (nshape (im_Z im)) k -> nval (im_Z im) k = None).
Proof.
  intros TO H HI HS HT. apply truthy_on in TO. unfold plot_2d_slice in H. cbn [state_of get_snapshot_list bind] in H. rewrite HI in H. cbn [bind] in H. rewrite HS in H. cbn [bind] in H.
  ob H. match goal with a : _ * _ |- _ => destruct a as [ax [hs vs]] end. rewrite TO, HT in H. cbn [bind] in H. do 11 ob H.
  injection H as <-. cbn [im_Z].
  match goal with E : bind _ (fun c0 => Ok (Some c0)) = Ok _ |- _ => ob E; injection E as <- end.
  match goal with E : bind (rot90 _) _ = Ok _ |- _ => ob E end.
  match goal with G : nd_get _ tr = Ok _, P : nd_map2 _ _ _ = Ok _ |- _ => pose proof (get_from _ _ _ G) as GF; pose proof (map2_from _ _ _ _ P) as PF end.
  match goal with P : nd_map2 _ ?q _ = Ok _, Q : rot90 _ = Ok ?q |- _ => pose proof (rot_from _ _ Q) as RF end.
  split; intros V k K; destruct (PF k K) as (k1 & k2 & K1 & _ & ->); destruct (RF k1 K1) as (k3 & K3 & ->); destruct (GF k3 K3) as (k4 & K4 & ->); specialize (V k4 K4).
  - destruct (Z.ltb_spec 0 (nval tr k4)); [lia|discriminate].
  - destruct (Z.ltb_spec 0 (nval tr k4)); [reflexivity|lia].
Qed.

Lemma trouble_shape {N} (s : snap N) n m tol : logged_by_solver s n ->
  plotting_trouble N s m tol = Err ValueError \/ exists d, plotting_trouble N s m tol = Ok d /\ nshape d = [5; cx n; cy n; cz n].
Proof.
  intros (a & b & c & E & H). unfold plotting_trouble. rewrite E.
  assert (S : forall x, In x [a; b; c] -> nshape (nd4 x) = [5; cx n; cy n; cz n]). { intros x Hx. destruct (H x Hx) as [R1 R2]. unfold nd4. cbn [nshape]. rewrite R1, R2. reflexivity. }
  assert (SA := S a). assert (SB := S b). assert (SC := S c). cbn in SA, SB, SC. specialize (SA (or_introl eq_refl)). specialize (SB (or_intror (or_introl eq_refl))). specialize (SC (or_intror (or_intror (or_introl eq_refl)))).
  cbv zeta.
  destruct (nd_map2_same (fun a b => orb (nltb (nofZ 0) a) (nltb (nofZ 0) b)) (nd4 b) (nd4 c)) as (w & EW & SW & _); [exact (eq_trans SB (eq_sym SC))|]. rewrite EW. cbn [bind].
  destruct (nd_map2_same (fun x b => Bool.eqb (nltb (nofZ 0) x) b) (nd4 a) w) as (w' & EW' & _ & _); [exact (eq_trans SA (eq_sym (eq_trans SW SB)))|]. rewrite EW'. cbn [bind].
  destruct (negb _); [left; reflexivity|]. destruct m as [|?|nm]; try (left; reflexivity).
  destruct (String.eqb nm "all").
  { right. destruct (nd_map2_same (fun p a => if nltb (nofZ 0) p then 1 else if nltb tol a then 1 else 0) (nd4 c) (nd4 b)) as (w'' & EW'' & SW'' & _); [exact (eq_trans SC (eq_sym SB))|]. exists w''. split; [exact EW''|exact (eq_trans SW'' SC)]. }
  destruct (String.eqb nm "NAD"). { right. eexists. split; [reflexivity|]. exact SB. }
  destruct (String.eqb nm "PAD"). { right. eexists. split; [reflexivity|]. exact SC. } left. reflexivity.
Qed.
Lemma overlay_fails (h : hstate) (l : list (snap RNum)) param t z overlay tol n s f : hs_ndim h = 4 ->
  ~ In param ["trouble"; "NAD"; "PAD"]%string -> ~ overlay_off overlay -> logged_by_solver s (grid_of s) ->
  picks l t n s -> l <> [] -> (forall s, In s l -> has_cells s) -> fits s -> quantity h param (sn_w s) f ->
  List.length (sn_z s) = 1%nat -> List.length (sn_y s) <> 1%nat -> List.length (sn_y s) <> 5%nat ->
  plot_2d_slice RNum (V_object (Some h) (Some l)) param t None None (Some z) overlay tol = Err ValueError.
Proof.
  intros HN HT HO LG HP HL HC HF HQ LZ LY1 LY5. apply truthy_on in HO. set (p := fun a => match a with AZ => Some z | _ => None end).
  destruct (lookup_at l t p n s HL HC HP) as (i & EG & EI & HCH).
  destruct (data_on h param s f HN HF HQ) as (D & ED & SD & VD).
  assert (HS : has_cells s).
  { apply HC. destruct t as [t|]; cbn [picks] in HP; [eapply nth_error_In; apply HP|]. destruct HP as (_ & front & ->). apply in_or_app. right. left. reflexivity. }
  destruct (py_item_ends _ (has_coords s AX HS)) as [H0 H1]. destruct (py_item_ends _ (has_coords s AY HS)) as [V0 V1].
  pose proof (HCH AX) as IX. pose proof (HCH AY) as IY. destruct (HCH AZ) as (k & IZ & [BK _]). cbn [p chosen coords] in IX, IY, BK.
  change (@List.length (car RNum) (sn_z s)) with (@List.length R (sn_z s)) in LZ. change (@List.length (car RNum) (sn_y s)) with (@List.length R (sn_y s)) in LY1, LY5.
  rewrite LZ in BK. assert (k = 0) as -> by lia.
  unfold plot_2d_slice. cbn [state_of get_snapshot_list bind]. change (get_indices RNum l t None None (Some z)) with (get_indices RNum l t (p AX) (p AY) (p AZ)). rewrite EG. cbn [bind fst snd]. rewrite EI. cbn [bind].
  match goal with |- bind ?q ?k = _ => refine (eq_trans (f_equal (fun z => bind z k) (H0 : q = _)) _) end. cbn [bind].
  match goal with |- bind ?q ?k = _ => refine (eq_trans (f_equal (fun z => bind z k) (H1 : q = _)) _) end. cbn [bind].
  match goal with |- bind ?q ?k = _ => refine (eq_trans (f_equal (fun z => bind z k) (V0 : q = _)) _) end. cbn [bind].
  match goal with |- bind ?q ?k = _ => refine (eq_trans (f_equal (fun z => bind z k) (V1 : q = _)) _) end. cbn [bind].
  rewrite HO. destruct (trouble_shape s (grid_of s) overlay tol LG) as [->|(T & -> & ST)]; [reflexivity|]. cbn [bind]. rewrite IX, IY, IZ.
  cbn [grid_of NdArray.cx NdArray.cy NdArray.cz] in ST, SD.
  assert (YP : 0 < Z.of_nat (@List.length R (sn_y s))). { destruct HS as (_ & Y & _). destruct (sn_y s); [contradiction|]. cbn [List.length]. lia. }
  assert (PY : forall m, 0 < m -> py_row m 0 = Ok 0) by (intros m Hm; apply py_row_in; lia).
  unfold nd_get at 1. rewrite ST. cbn [sel_shape]. change (@List.length (car RNum) (sn_y s)) with (@List.length R (sn_y s)). rewrite (PY _ YP). cbn [bind].
  assert (E1 : String.eqb param "trouble" = false) by (apply String.eqb_neq; intros ->; apply HT; cbn; auto).
  assert (E2 : String.eqb param "NAD" = false) by (apply String.eqb_neq; intros ->; apply HT; cbn; auto).
  assert (E3 : String.eqb param "PAD" = false) by (apply String.eqb_neq; intros ->; apply HT; cbn; auto).
  rewrite E1, E2, E3, ED. cbn [bind]. unfold nd_get. 
  rewrite SD. cbn [sel_shape]. change (@List.length (car RNum) (sn_z s)) with (@List.length R (sn_z s)). rewrite LZ. cbn [Z.of_nat Pos.of_succ_nat]. rewrite (PY 1 ltac:(lia)). cbn [bind].
  unfold rot90, mesh2. cbn [nshape bind]. unfold nd_map2. cbn [nshape rev app bshape_r].
  assert (B : bdim 5 (Z.of_nat (@List.length R (sn_y s))) = None).
  { unfold bdim. change (5 =? 1) with false. replace (5 =? Z.of_nat (@List.length R (sn_y s))) with false by (symmetry; apply Z.eqb_neq; lia).
    replace (Z.of_nat (@List.length R (sn_y s)) =? 1) with false by (symmetry; apply Z.eqb_neq; lia). reflexivity. }
  change (@List.length (car RNum) (sn_y s)) with (@List.length R (sn_y s)). rewrite B. match goal with |- context [bdim 1 ?k] => destruct (bdim 1 k) end; cbn [bind]; reflexivity.
Qed.

(** ** argument errors *)
Lemma list_fails {N} (l : list (snap N)) param m t x y z tol overlay trunc c radii :
  plot_1d_slice N (V_list l) param m t x y z tol = Err AttributeError /\
  plot_2d_slice N (V_list l) param t x y z overlay tol = Err AttributeError /\
  sample_circular_average N trunc (V_list l) param t c radii = Err AttributeError.
Proof. repeat split. Qed.
Lemma true_fails {N} (s : snap N) n b tol : logged_by_solver s n -> plotting_trouble N s (M_bool b) tol = Err ValueError.
Proof.
  intro H. destruct (trouble_shape s n (M_bool b) tol H) as [E|(d & E & _)]; [exact E|]. exfalso.
  destruct H as (a & b' & c & EL & _). unfold plotting_trouble in E. rewrite EL in E. ob E. ob E. destruct (negb _); discriminate.
Qed.

(** ** integer radii *)
Lemma each_store s c cut f l : (forall p, In p l -> ring s c (fst p) (snd p) <> []) ->
  each (one s c (Some cut) f) l = Ok (map (fun p => (option_map cut (mean f (ring s c (fst p) (snd p))), option_map cut (mean (radius s c) (ring s c (fst p) (snd p))))) l).
Proof.
  induction l as [|p l IH]; intro H; [reflexivity|]. cbn [each map]. rewrite IH by (intros q Hq; apply H; right; exact Hq).
  specialize (H p (or_introl eq_refl)). unfold one, mean. destruct (ring s c (fst p) (snd p)) as [|i r]; [contradiction|]. reflexivity.
Qed.
Lemma each_fails s c cut f l p : In p l -> ring s c (fst p) (snd p) = [] -> each (one s c (Some cut) f) l = Err ValueError.
Proof.
  induction l as [|q l IH]; intros HI HR; [destruct HI|]. cbn [each].
  assert (O : (exists v, one s c (Some cut) f q = Ok v) \/ one s c (Some cut) f q = Err ValueError).
  { unfold one, mean. destruct (ring s c (fst q) (snd q)); [right; reflexivity|left; eexists; reflexivity]. }
  destruct HI as [->|HI].
  - unfold one. rewrite HR. reflexivity.
  - destruct O as [[v ->]| ->]; [|reflexivity]. cbn [bind]. rewrite (IH HI HR). reflexivity.
Qed.
Lemma integer_rings (h : hstate) (l : list (snap RNum)) param t (c : R * R * R) (radii : list R) n s f : hs_ndim h = 4 ->
  picks l t n s -> l <> [] -> (forall s, In s l -> has_cells s) -> fits s -> quantity h param (sn_w s) f ->
  ((forall p, In p (edges radii) -> exists i, in_ring s c (fst p) (snd p) i) ->
   sample_circular_average RNum (Some toward_zero) (V_object (Some h) (Some l)) param t (Some c) (Some radii)
   = Ok (map (fun p => option_map toward_zero (mean f (ring s c (fst p) (snd p)))) (edges radii),
         map (fun p => option_map toward_zero (mean (radius s c) (ring s c (fst p) (snd p)))) (edges radii))) /\
  ((exists p, In p (edges radii) /\ forall i, ~ in_ring s c (fst p) (snd p) i) ->
   sample_circular_average RNum (Some toward_zero) (V_object (Some h) (Some l)) param t (Some c) (Some radii) = Err ValueError).
Proof.
  intros HN HP HL HC HF HQ. pose proof (sample_is (Some toward_zero) h l param t c radii n s f HN HP HL HC HF HQ) as E. split.
  - intro H. refine (eq_trans E _). rewrite each_store.
    + cbn [bind]. unfold columns. rewrite !map_map. reflexivity.
    + intros p Hp Q. destruct (H p Hp) as [i Hi]. apply in_ring_iff in Hi. rewrite Q in Hi. destruct Hi.
  - intros (p & Hp & NI). refine (eq_trans E _). rewrite (each_fails s c toward_zero f _ p Hp); [reflexivity|].
    destruct (ring s c (fst p) (snd p)) as [|i r] eqn:EQ; [reflexivity|]. exfalso. apply (NI i), in_ring_iff. rewrite EQ. left. reflexivity.
Qed.

(** ** one cell at distance 1 *)
Definition dot : snap RNum := @mksnap RNum 0%R [1%R] [0%R] [0%R] (mkarr 5 (mkix 1 1 1) (fun v _ => 1 / 2)%R) None.
Definition plain : hstate := mkhs [] 4 builtin_map false 5.
Lemma plain_is : hydro_state [] 4 = Ok plain.
Proof. reflexivity. Qed.
Definition origin : R * R * R := (0, 0, 0)%R.
Definition half (_ : ix) : R := (1 / 2)%R.
Lemma dot_quantity : quantity plain "rho" (sn_w dot) half.
Proof. right. split; [discriminate|]. exists 0. split; [reflexivity|]. split; [cbn; lia|reflexivity]. Qed.
Lemma dot_picked : picks [dot] None (-1) dot.
Proof. split; [reflexivity|]. exists []. reflexivity. Qed.
Lemma dot_cells : forall s, In s [dot] -> has_cells s.
Proof. intros s [<-|[]]. repeat split; discriminate. Qed.
Lemma dot_fits : fits dot.
Proof. reflexivity. Qed.
Lemma dot_radius : radius dot origin (mkix 0 0 0) = 1%R.
Proof. unfold radius, origin, entry_of. cbn [sn_x sn_y sn_z dot fst snd NdArray.cx NdArray.cy NdArray.cz Z.to_nat nth]. replace ((1 - 0) ^ 2 + (0 - 0) ^ 2 + (0 - 0) ^ 2)%R with 1%R by ring. apply sqrt_1. Qed.
Lemma dot_ring lo hi : (lo < 1 <= hi)%R -> ring dot origin lo hi = [mkix 0 0 0].
Proof.
  intro H. unfold ring. replace (ix_list (grid_of dot)) with [mkix 0 0 0] by reflexivity. cbn [filter]. rewrite dot_radius.
  destruct (Rlt_dec lo 1); [|lra]. destruct (Rle_dec 1 hi); [reflexivity|lra].
Qed.
Lemma dot_sample : sample_circular_average RNum None (V_object (Some plain) (Some [dot])) "rho" None (Some origin) (Some [0%R; 2%R])
  = Ok ([Some (1 / 2)%R], [Some 1%R]).
Proof.
  refine (eq_trans (rings plain [dot] "rho" None origin [0%R; 2%R] (-1) dot half eq_refl dot_picked ltac:(discriminate) dot_cells dot_fits dot_quantity) _).
  cbn [edges combine tl map fst snd]. rewrite dot_ring by lra. unfold mean, sum_over, half. cbn [map fold_right List.length INR]. rewrite dot_radius.
  replace ((1 / 2 + 0) / 1)%R with (1 / 2)%R by lra. replace ((1 + 0) / 1)%R with 1%R by lra. reflexivity.
Qed.
Lemma zero_cut : toward_zero (1 / 2) = 0%R.
Proof.
  unfold toward_zero. destruct (Rlt_dec (1 / 2) 0); [lra|]. 
  assert (E : Int_part (1 / 2) = 0%Z); [|rewrite E; reflexivity].
  destruct (base_Int_part (1 / 2)) as [A B]. 
  assert (Int_part (1 / 2) < 1)%Z by (apply lt_IZR; lra). assert (-1 < Int_part (1 / 2))%Z by (apply lt_IZR; lra). lia.
Qed.
Lemma one_cut : toward_zero 1 = 1%R.
Proof.
  unfold toward_zero. destruct (Rlt_dec 1 0); [lra|]. 
  assert (E : Int_part 1 = 1%Z); [|rewrite E; reflexivity].
  destruct (base_Int_part 1) as [A B]. 
  assert (Int_part 1 < 2)%Z by (apply lt_IZR; lra). assert (0 < Int_part 1)%Z by (apply lt_IZR; lra). lia.
Qed.
Lemma integers_cut : exists (h : hstate) l param c radii s f, hs_ndim h = 4 /\ picks l None (-1) s /\ (forall s, In s l -> has_cells s) /\ fits s /\
  quantity h param (sn_w s) f /\ (forall i, f i = (1 / 2)%R) /\
  sample_circular_average RNum (Some toward_zero) (V_object (Some h) (Some l)) param None (Some c) (Some radii) = Ok ([Some 0%R], [Some 1%R]).
Proof.
  exists plain, [dot], "rho"%string, origin, [0%R; 2%R], dot, half. split; [reflexivity|]. split; [exact dot_picked|]. split; [exact dot_cells|]. split; [exact dot_fits|].
  split; [exact dot_quantity|]. split; [reflexivity|].
  refine (eq_trans (proj1 (integer_rings plain [dot] "rho" None origin [0%R; 2%R] (-1) dot half eq_refl dot_picked ltac:(discriminate) dot_cells dot_fits dot_quantity) _) _).
  - intros p [<-|[]]. exists (mkix 0 0 0). split; [intros []; cbn; lia|]. rewrite dot_radius. cbn [fst snd]. lra.
  - cbn [edges combine tl map fst snd]. rewrite dot_ring by lra. unfold mean, sum_over, half. cbn [map fold_right List.length INR option_map]. rewrite dot_radius.
    replace ((1 / 2 + 0) / 1)%R with (1 / 2)%R by lra. replace ((1 + 0) / 1)%R with 1%R by lra. rewrite zero_cut, one_cut. reflexivity.
Qed.
Lemma centre_left_out : exists (s : snap RNum) c i, in_shape (grid_of s) i /\ radius s c i = 0%R /\ forall lo hi, (0 <= lo)%R -> ~ in_ring s c lo hi i.
Proof.
  exists dot, (1, 0, 0)%R, (mkix 0 0 0). split; [intros []; cbn; lia|].
  assert (E : radius dot (1, 0, 0)%R (mkix 0 0 0) = 0%R).
  { unfold radius, entry_of. cbn [sn_x sn_y sn_z dot fst snd NdArray.cx NdArray.cy NdArray.cz Z.to_nat nth]. replace ((1 - 1) ^ 2 + (0 - 0) ^ 2 + (0 - 0) ^ 2)%R with 0%R by ring. apply sqrt_0. }
  split; [exact E|]. intros lo hi H [_ B]. rewrite E in B. lra.
Qed.

(** ** the log of runs *)
Lemma total_nonneg (mark : detection RNum -> ix -> R) ds i : (forall d, In d ds -> (0 <= mark d i)%R) ->
  (0 <= total mark ds i)%R /\ ((0 < total mark ds i)%R <-> exists d, In d ds /\ (0 < mark d i)%R).
Proof.
  induction ds as [|d ds IH]; intro H.
  - cbn. split; [lra|]. split; [lra|]. intros (d & [] & _).
  - destruct IH as [A B]. { intros e He. apply H. right. exact He. } assert (C := H d (or_introl eq_refl)).
    unfold total in *. cbn [map fold_right]. split; [lra|]. split.
    + intro P. destruct (Rlt_dec 0 (mark d i)) as [Q|Q]; [exists d; split; [left; reflexivity|exact Q]|].
      destruct (proj1 B) as (e & He & Pe); [lra|]. exists e. split; [right; exact He|exact Pe].
    + intros (e & [<-|He] & Pe); [lra|]. assert (0 < fold_right Rplus 0 (map (fun d0 => mark d0 i) ds))%R by (apply B; eauto). lra.
Qed.
Definition sound (n : ix) (log : arr R * arr R * arr R) : Prop :=
  let '(a, b, d) := log in (forall x, In x [a; b; d] -> rows x = 5 /\ shp x = n) /\
  forall v i, 0 <= v < 5 -> in_shape n i -> ((0 < at_ a v i)%R <-> (0 < at_ b v i \/ 0 < at_ d v i)%R).
Lemma div_pos a k : 0 < k -> ((0 < a / IZR k)%R <-> (0 < a)%R).
Proof.
  intro H. assert (P : (0 < IZR k)%R) by (apply IZR_lt; exact H). split; intro Q.
  - assert (a = a / IZR k * IZR k)%R by (field; lra). rewrite H0. apply Rmult_lt_0_compat; assumption.
  - apply Rdiv_lt_0_compat; assumption.
Qed.
Lemma log_sound (c : config RNum) ds k log : c_force c = false -> (0 <= nad_eps (c_nad c))%R -> 0 < k -> List.Forall (fun d => forced c d /\ marked c d) ds ->
  log_of (c_n c) ds k log -> sound (c_n c) log.
Proof.
  intros F EPS HK HD ((R1 & S1 & V1) & (R2 & S2 & V2) & (R3 & S3 & V3)). destruct log as [[a b] d]. cbn [fst snd] in *. split.
  - intros x [<-|[<-|[<-|[]]]]; auto.
  - intros v i Hv Hi. rewrite V1, V2, V3 by assumption. rewrite !div_pos by exact HK.
    assert (M : forall q, In q ds -> (0 <= nad_mark q i)%R /\ (0 <= pad_mark q i)%R /\ (at_ (d_trouble q) 0 i = true <-> (0 < nad_mark q i \/ 0 < pad_mark q i)%R)).
    { intros q Hq. rewrite Forall_forall in HD. exact (proj2 (HD q Hq) F EPS i Hi). }
    assert (FL : forall q, In q ds -> (0 <= flagged q i)%R) by (intros q _; unfold flagged; destruct (at_ (d_trouble q) 0 i); lra).
    destruct (total_nonneg flagged ds i FL) as [_ ->].
    destruct (total_nonneg nad_mark ds i (fun q Hq => proj1 (M q Hq))) as [_ ->].
    destruct (total_nonneg pad_mark ds i (fun q Hq => proj1 (proj2 (M q Hq)))) as [_ ->].
    split.
    + intros (q & Hq & P). destruct (M q Hq) as (_ & _ & I). unfold flagged in P. destruct (at_ (d_trouble q) 0 i) eqn:E; [|lra].
      destruct (proj1 I eq_refl); [left|right]; exists q; auto.
    + intros [(q & Hq & P)|(q & Hq & P)]; exists q; (split; [exact Hq|]); destruct (M q Hq) as (_ & _ & I); unfold flagged; rewrite (proj2 I) by auto; lra.
Qed.
Lemma logged_sound (c : config RNum) i past log : c_force c = false -> (0 <= nad_eps (c_nad c))%R -> List.Forall (stage_list c i) past -> logged (c_n c) past log -> sound (c_n c) log.
Proof.
  intros F EPS HP H. unfold logged in H. apply Forall_rev in HP. destruct (rev past) as [|ds q]; [apply (log_sound c [] 1 log F EPS); auto; lia|].
  apply Forall_inv in HP. destruct HP as [L1 L2].
  assert (SP : (0 < stages i)%nat) by (destruct i; cbn; lia).
  destruct q; eapply (log_sound c ds); eauto; rewrite L1; lia.
Qed.
Lemma ix_lst l : List.length l = 3%nat -> l = lst (ix_of l).
Proof. destruct l as [|x [|y [|z [|]]]]; try discriminate. reflexivity. Qed.
Lemma nd_list_4 r n l : In l (nd_list [r; cx n; cy n; cz n]) -> exists v i, l = v :: lst i /\ 0 <= v < r /\ in_shape n i.
Proof.
  cbn [nd_list]. rewrite in_flat_map. intros (v & Hv & Hl). apply in_map_iff in Hl. destruct Hl as (q & <- & Hq).
  change (In q (nd_list [cx n; cy n; cz n])) in Hq. rewrite nd_list_3, in_map_iff in Hq. destruct Hq as (i & <- & Hi). exists v, i. split; [reflexivity|].
  apply in_ix_list in Hi. split; [|destruct n; exact Hi]. unfold zrange in Hv. apply in_map_iff in Hv. destruct Hv as (m & <- & Hm). apply in_seq in Hm. lia.
Qed.
Lemma sound_plots (s : snap RNum) n log m tol : sn_log s = Some log -> sound n log -> In m ["all"; "NAD"; "PAD"]%string ->
  exists d, plotting_trouble RNum s (M_name m) tol = Ok d /\ nshape d = [5; cx n; cy n; cz n] /\
    forall v i, 0 <= v < 5 -> in_shape n i -> (nval d (v :: lst i) = 0 \/ nval d (v :: lst i) = 1) /\
      (nval d (v :: lst i) = 1 <-> visible m tol (at_ (snd (fst log)) v i) (at_ (snd log) v i)).
Proof.
  intros E SO HM. destruct log as [[a b] c]. destruct SO as [H V]. unfold plotting_trouble. rewrite E. cbn [fst snd].
  assert (S : forall x : arr (car RNum), In x [a; b; c] -> nshape (nd4 x) = [5; cx n; cy n; cz n]). { intros x Hx. destruct (H x Hx) as [R1 R2]. unfold nd4. cbn [nshape]. change (@rows (car RNum) x) with (@rows R x). change (@shp (car RNum) x) with (@shp R x). rewrite R1, R2. reflexivity. }
  assert (SA := S a). assert (SB := S b). assert (SC := S c). cbn in SA, SB, SC. specialize (SA (or_introl eq_refl)). specialize (SB (or_intror (or_introl eq_refl))). specialize (SC (or_intror (or_intror (or_introl eq_refl)))).
  cbv zeta.
  assert (SS : @nshape (car RNum) (nd4 b) = nshape (nd4 c)) by (exact (eq_trans SB (eq_sym SC))).
  destruct (nd_map2_same (fun a b => orb (nltb (@nofZ RNum 0) a) (nltb (@nofZ RNum 0) b)) (nd4 b) (nd4 c)) as (w & EW & SW & VW); [exact SS|]. rewrite EW. cbn [bind].
  destruct (nd_map2_same (fun x b => Bool.eqb (nltb (@nofZ RNum 0) x) b) (nd4 a) w) as (w' & EW' & SW' & VW'); [exact (eq_trans SA (eq_sym (eq_trans SW SB)))|]. rewrite EW'. cbn [bind].
  assert (SWB : nshape w' = [5; cx n; cy n; cz n]) by exact (eq_trans SW' SA).
  assert (AG : forallb (nval w') (nd_list (nshape w')) = true).
  { apply forallb_forall. intros l Hl. rewrite SWB in Hl. apply nd_list_4 in Hl. destruct Hl as (v & i & -> & Hv & Hi).
    rewrite VW' by reflexivity.
    rewrite VW by reflexivity.
    unfold nd4. cbn [nval]. replace (ix_of (lst i)) with i by (destruct i; reflexivity).
    specialize (V v i Hv Hi). apply eqb_true_iff. apply eq_true_iff_eq. rewrite orb_true_iff. rn. rewrite !Rltb_true. exact V. }
  rewrite AG. cbn [negb].
  destruct HM as [<-|[<-|[<-|[]]]]; cbn [String.eqb Ascii.eqb Bool.eqb].
  - destruct (nd_map2_same (fun p a => if nltb (@nofZ RNum 0) p then 1 else if nltb tol a then 1 else 0) (nd4 c) (nd4 b)) as (w2 & EW2 & SW2 & VW2); [exact (eq_sym SS)|].
    exists w2. split; [exact EW2|]. split; [exact (eq_trans SW2 SC)|]. intros v i Hv Hi.
    rewrite VW2 by reflexivity.
    unfold nd4. cbn [nval]. replace (ix_of (lst i)) with i by (destruct i; reflexivity). unfold visible. cbn [String.eqb Ascii.eqb Bool.eqb]. rn.
    destruct (Rltb 0 (at_ c v i)) eqn:E1; [apply Rltb_true in E1; split; [auto|tauto]|apply Rltb_false in E1].
    destruct (Rltb tol (at_ b v i)) eqn:E2; [apply Rltb_true in E2; split; [auto|tauto]|apply Rltb_false in E2].
    split; [auto|]. split; [discriminate|]. intros [?|?]; lra.
  - eexists. split; [reflexivity|]. split; [exact SB|]. intros v i Hv Hi. unfold nd_map, nd4. cbn [nval]. replace (ix_of (lst i)) with i by (destruct i; reflexivity).
    unfold visible. cbn [String.eqb Ascii.eqb Bool.eqb]. rn.
    destruct (Rltb tol (at_ b v i)) eqn:E2; [apply Rltb_true in E2; split; [auto|tauto]|apply Rltb_false in E2].
    split; [auto|]. split; [discriminate|]. intro; lra.
  - eexists. split; [reflexivity|]. split; [exact SC|]. intros v i Hv Hi. unfold nd_map, nd4. cbn [nval]. replace (ix_of (lst i)) with i by (destruct i; reflexivity).
    unfold visible. cbn [String.eqb Ascii.eqb Bool.eqb]. rn.
    destruct (Rltb 0 (at_ c v i)) eqn:E2; [apply Rltb_true in E2; split; [auto|tauto]|apply Rltb_false in E2].
    split; [auto|]. split; [discriminate|]. intro; lra.
Qed.
Lemma runs_plot (c : config RNum) heap i av T nn exact db lg fuel u0 o e m tol : tabulated c -> c_limit c = true -> c_force c = false -> (0 <= nad_eps (c_nad c))%R ->
  shp u0 = c_n c -> 1 <= rows u0 -> simulate c heap i av T nn exact db lg fuel u0 = Ok o -> In e (o_snaps o) -> In m ["all"; "NAD"; "PAD"]%string ->
  exists d, plotting_trouble RNum (stored c e) (M_name m) tol = Ok d /\ nshape d = [5; cx (c_n c); cy (c_n c); cz (c_n c)] /\
    forall v j, 0 <= v < 5 -> in_shape (c_n c) j -> (nval d (v :: [cx j; cy j; cz j]) = 0 \/ nval d (v :: [cx j; cy j; cz j]) = 1) /\
      (nval d (v :: [cx j; cy j; cz j]) = 1 <-> visible m tol (at_ (snd (fst (snd (snd e)))) v j) (at_ (snd (snd (snd e))) v j)).
Proof.
  intros HT HL HF HE S0 R0 H He HM. destruct (log_is_mean c heap i av T nn exact db lg fuel u0 o HT HL S0 R0 H) as (o' & _ & SH & _ & _ & _ & SN).
  destruct SH as (_ & _ & _ & _ & _ & EM). rewrite <- EM in He. apply in_map_iff in He. destruct He as (s & <- & Hs).
  rewrite Forall_forall in SN. destruct (SN s Hs) as [A B]. apply (sound_plots _ _ (snd (fst (snd s)))); [reflexivity| |exact HM].
  exact (logged_sound c i _ _ HF HE A B).
Qed.

(** forced trouble on a uniform flow *)
Definition forced_tube : config QNum :=
  mkcfg (N := QNum) (mkix 6 1 1) (mkix 1 0 0) (fun _ => (0%Q, 6%Q)) (Qmake 1 2) (Some (Qmake 1 2)) (Qmake 7 5) 0%Q RS_upwind (uniform_bc B_periodic)
    true L_minmod true (mknad (N := QNum) (Qmake 1 10) M_local R_absolute (Some [0]) None false 0%Q) false.
Definition calm : arr Q := mkarr 5 (mkix 6 1 1) (fun v _ => if (v =? 0) || (v =? 1) then 1%Q else if v =? 4 then 40%Q else 0%Q).
Notation calm_run := (simulate forced_tube (fun _ _ _ => 0%Q) I_euler true None (Some 1) true [] false 0 calm).
Definition value_error {A} (r : res A) : bool := match r with Err ValueError => true | _ => false end.
Definition rejected (o : run QNum) : list bool :=
  map (fun e => value_error (plotting_trouble QNum (stored forced_tube e) (M_name "all") 0%Q)) (o_snaps o).
Lemma calm_value : looked rejected calm_run = Some [false; true].
Proof. vm_compute. reflexivity. Qed.
Lemma forced_plot : exists (c : config QNum) heap u0 o e, tabulated c /\ c_limit c = true /\ shp u0 = c_n c /\
  simulate c heap I_euler true None (Some 1) true [] false 0 u0 = Ok o /\ In e (o_snaps o) /\
  plotting_trouble QNum (stored c e) (M_name "all") 0%Q = Err ValueError.
Proof.
  destruct (looked_ok rejected _ _ calm_value) as (o & E & V).
  unfold rejected in V. destruct (o_snaps o) as [|e0 [|e [|]]] eqn:ES; try discriminate V. injection V as _ V.
  exists forced_tube, (fun _ _ _ => 0%Q), calm, o, e. split; [|split; [reflexivity|split; [reflexivity|split; [exact E|split; [rewrite ES; right; left; reflexivity|]]]]].
  - split; [split|].
    + intros []; cbn; lia.
    + intros []; cbn; lia.
    + exists AX. intros [H _]. discriminate.
    + exact I.
    + intros []; cbn; lia.
  - destruct (plotting_trouble QNum (stored forced_tube e) (M_name "all") 0%Q) as [|[]]; try discriminate V. reflexivity.
Qed.

(** ** plot_fields *)
Lemma panels_line (dims : string) : String.length dims = 1%nat -> plot_fields dims = Ok [("rho", ""); ("P", ""); ("v" ++ dims, "")]%string.
Proof. intro H. unfold plot_fields. rewrite H. reflexivity. Qed.
Lemma panels (dims : string) : (String.length dims = 2%nat -> plot_fields dims = Ok [("rho", "rho"); ("P", "P"); ("v", "v"); ("P", "P"); ("v", "v"); ("vx", "vx")]%string) /\
  (String.length dims <> 1%nat -> String.length dims <> 2%nat -> plot_fields dims = Err NotImplementedError).
Proof.
  unfold plot_fields. split; [intros ->; reflexivity|]. intros H1 H2. destruct (String.length dims) as [|[|[|]]]; try reflexivity; contradiction.
Qed.

(** ** snapshots of runs *)
Lemma stored_grid (c : config RNum) e : tabulated c -> grid_of (stored c e) = c_n c.
Proof.
  intro HT. assert (Hn : forall a, 1 <= getc a (c_n c)) by apply HT.
  assert (L : forall a, Z.of_nat (List.length (map (midpoint RNum (c_bounds c a) (getc a (c_n c))) (zrange (getc a (c_n c))))) = getc a (c_n c)).
  { intro a. rewrite map_length. apply zrange_length. specialize (Hn a). lia. }
  unfold grid_of, stored. cbn [sn_x sn_y sn_z]. pose proof (L AX) as LX. pose proof (L AY) as LY. pose proof (L AZ) as LZ.
  destruct (c_n c) as [nx ny nz]. cbn [getc NdArray.cx NdArray.cy NdArray.cz] in *. f_equal; assumption.
Qed.
Lemma run_snaps (c : config RNum) heap i av T nn exact db lg fuel u0 o e : tabulated c -> 
  simulate c heap i av T nn exact db lg fuel u0 = Ok o -> In e (o_snaps o) ->
  has_cells (stored c e) /\ fits (stored c e) /\ rows (sn_w (stored c e)) = rows u0.
Proof.
  intros HT H He. assert (Hn : forall a, 1 <= getc a (c_n c)) by apply HT.
  assert (KP : kept (fun _ _ (u : arr R) => rows u = rows u0) (fun d : arr R * (arr R * arr R * arr R) => rows (fst d) = rows u0 /\ shp (fst d) = c_n c) o).
  { unfold simulate, solver_integrate in H. refine (kept_integrate (arr_ops RNum) _ (step_helper RNum c) (snap_payload RNum c heap av) _ _ _ _ T nn exact db lg fuel _ o _ H).
    - intros n s t u target s' dt un u' Hu _ E. cbn [vassign arr_ops] in E. unfold assign_all in E. destruct (bcast_ok _ _ _ _); [|discriminate]. injection E as <-. exact Hu.
    - intros n s t u d Hu E. unfold snap_payload in E. ob E. ob E. injection E as <-. cbn [fst]. unfold assign_all in E1. destruct (bcast_ok _ _ _ _); [|discriminate]. injection E1 as <-. split; [exact Hu|reflexivity].
    - split; [reflexivity|constructor]. }
  destruct KP as [_ KP]. rewrite Forall_forall in KP. destruct (KP e He) as [K1 K2]. split; [|split].
  - assert (L : forall a, map (midpoint RNum (c_bounds c a) (getc a (c_n c))) (zrange (getc a (c_n c))) <> []).
    { intros a Q. apply (f_equal (@List.length _)) in Q. rewrite map_length in Q. pose proof (zrange_length (getc a (c_n c))) as Z. specialize (Hn a). rewrite Q in Z. cbn in Z. lia. }
    split; [exact (L AX)|split; [exact (L AY)|exact (L AZ)]].
  - unfold fits. rewrite stored_grid by exact HT. exact K2.
  - exact K1.
Qed.
Lemma logged_totals n past log : logged n past log -> exists ds k, log_of n ds k log.
Proof. intro B. unfold logged in B. destruct (rev past) as [|ds [|]]; eexists; eexists; exact B. Qed.
Lemma totals_shape (s : snap RNum) n ds k log : sn_log s = Some log -> log_of n ds k log -> logged_by_solver s n.
Proof.
  intros E ((A1 & A2 & _) & (B1 & B2 & _) & (C1 & C2 & _)). destruct log as [[a b] d]. exists a, b, d. split; [exact E|].
  intros x [<-|[<-|[<-|[]]]]; [exact (conj A1 A2)|exact (conj B1 B2)|exact (conj C1 C2)].
Qed.
Lemma run_logs (c : config RNum) heap i av T nn exact db lg fuel u0 o e : tabulated c -> c_limit c = true -> shp u0 = c_n c -> 1 <= rows u0 ->
  simulate c heap i av T nn exact db lg fuel u0 = Ok o -> In e (o_snaps o) -> logged_by_solver (stored c e) (c_n c).
Proof.
  intros HT HL S0 R0 H He. destruct (log_is_mean c heap i av T nn exact db lg fuel u0 o HT HL S0 R0 H) as (o' & _ & SH & _ & _ & _ & SN).
  destruct SH as (_ & _ & _ & _ & _ & EM). rewrite <- EM in He. apply in_map_iff in He. destruct He as (s & <- & Hs).
  rewrite Forall_forall in SN. destruct (SN s Hs) as [_ B]. 
  destruct (logged_totals _ _ _ B) as (ds & k & Q). refine (totals_shape _ _ ds k (snd (fst (snd s))) _ Q). reflexivity.
Qed.
Lemma last_snapshot (c : config RNum) heap i av n exact db lg fuel u0 o : simulate c heap i av None (Some n) exact db lg fuel u0 = Ok o ->
  exists e, In e (o_snaps o) /\ fst e = o_t o.
Proof.
  intro E. unfold simulate, solver_integrate in E. apply integrate_n_spec in E. destruct E as (_ & TM & _). unfold times in TM.
  assert (IN : In (o_t o) (map fst (o_snaps o))). { refine (eq_ind_r (fun q => In (o_t o) q) _ TM). apply in_or_app. right. right. left. reflexivity. }
  apply in_map_iff in IN. destruct IN as (e & Fe & Ie). exists e. auto.
Qed.
Notation open_box := (with_limiting false false (flow3d B_periodic true)) (only parsing).
Lemma open_case : exists o e, simulate open_box (fun _ _ _ => 0%R) I_rk4 true None (Some 1) true [] false 0
  (mkarr 6 (mkix 12 13 14) (fun v i => IZR (v + cx i * cy i))) = Ok o /\ o_steps o = 1 /\ In e (o_snaps o) /\ fst e = o_t o.
Proof.
  destruct (limited_runs_end RNum (fun _ _ => 0%R) open_box (fun _ _ _ => 0%R) I_rk4 true 1 true [] false 0
    (mkarr 6 (mkix 12 13 14) (fun v i => IZR (v + cx i * cy i)))) as (o & E & _ & _ & O).
  - apply with_tabulated, flow3d_tabulated.
  - apply with_fillable; [reflexivity|]. apply flow3d_fillable. exact I.
  - reflexivity.
  - repeat split; discriminate.
  - reflexivity.
  - exact flags_R.
  - reflexivity.
  - cbn. lia.
  - lia.
  - destruct (last_snapshot _ _ _ _ _ _ _ _ _ _ _ E) as (e & Ie & Fe). exists o, e. auto.
Qed.

(** a picture with overlay that is drawn: five cells along y, trouble everywhere or nowhere *)
Definition five (q : Q) : snap QNum :=
  mksnap (N := QNum) 0%Q [0%Q; 1%Q] [0%Q; 1%Q; 2%Q; 3%Q; 4%Q] [0%Q] (mkarr 5 (mkix 2 5 1) (fun _ _ => 1%Q))
    (Some (mkarr 5 (mkix 2 5 1) (fun _ _ => q), mkarr 5 (mkix 2 5 1) (fun _ _ => q), mkarr 5 (mkix 2 5 1) (fun _ _ => 0%Q))).
Lemma nd_list_in sh k : inside sh k -> In k (nd_list sh).
Proof. induction 1 as [|n x sh k H _ IH]; [left; reflexivity|]. cbn [nd_list]. apply in_flat_map. exists x. split; [apply in_zrange; exact H|]. apply in_map, IH. Qed.
Lemma overlay_case q : q = 0%Q \/ q = 1%Q -> exists im ns tr, ~ overlay_off (M_name "all") /\
  plot_2d_slice QNum (V_object (Some plain) (Some [five q])) "rho" None None None (Some 0%Q) (M_name "all") 0%Q = Ok im /\
  get_indices QNum [five q] None None None (Some 0%Q) = Ok ns /\ py_item [five q] (fst ns) = Ok (five q) /\ plotting_trouble QNum (five q) (M_name "all") 0%Q = Ok tr /\
  ((q = 0%Q /\ forall k, inside (nshape tr) k -> nval tr k <= 0) \/ (q = 1%Q /\ forall k, inside (nshape tr) k -> 0 < nval tr k)).
Proof.
  intro HQ. assert (S : logged_by_solver (five q) (mkix 2 5 1)). { eexists. eexists. eexists. split; [reflexivity|]. intros x [<-|[<-|[<-|[]]]]; split; reflexivity. }
  assert (T : exists tr, plotting_trouble QNum (five q) (M_name "all") 0%Q = Ok tr /\ nshape tr = [5; 2; 5; 1] /\
    forallb (fun k => if Qeq_bool q 0 then nval tr k <=? 0 else 0 <? nval tr k) (nd_list [5; 2; 5; 1]) = true).
  { destruct HQ as [-> | ->]; eexists; (split; [reflexivity|]); (split; [reflexivity|]); vm_compute; reflexivity. }
  destruct T as (tr & ET & ST & FT).
  assert (P : exists im, plot_2d_slice QNum (V_object (Some plain) (Some [five q])) "rho" None None None (Some 0%Q) (M_name "all") 0%Q = Ok im).
  { destruct HQ as [-> | ->]; eexists; reflexivity. }
  destruct P as (im & EP). exists im. eexists. exists tr. split; [intros [X|[X|X]]; discriminate X|]. split; [exact EP|]. split; [destruct HQ as [-> | ->]; reflexivity|]. split; [reflexivity|]. split; [exact ET|].
  rewrite forallb_forall in FT. rewrite ST.
  assert (IN : forall k, inside [5; 2; 5; 1] k -> In k (nd_list [5; 2; 5; 1])).
  { intros k K. apply nd_list_in, K. }
  destruct HQ as [-> | ->]; [left|right]; (split; [reflexivity|]); intros k K; specialize (FT k (IN k K)); cbn in FT; lia.
Qed.
