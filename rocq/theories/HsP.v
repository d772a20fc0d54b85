(** Names and index requests. *)
From Coq Require Import ZArith List Bool String Lia.
From Verif Require Import Err PySlice NdArray NdArrayP FvM HydroStateM SpecHs.
Import ListNotations.
Open Scope Z_scope.

(** ** dicts *)
Lemma dget_set {V} k k' (v : V) m : dget k (dset k' v m) = if String.eqb k k' then Some v else dget k m.
Proof.
  induction m as [|[q w] m IH]; cbn [dset dget].
  - reflexivity.
  - destruct (String.eqb_spec k' q); cbn [dget].
    + subst q. destruct (String.eqb k k'); reflexivity.
    + rewrite IH. destruct (String.eqb_spec k q); [|reflexivity]. subst q. destruct (String.eqb_spec k k'); [congruence|reflexivity].
Qed.
Lemma in_keys {V} k (m : dict V) : In k (map fst m) <-> dget k m <> None.
Proof.
  induction m as [|[q w] m IH]; cbn; [intuition congruence|]. rewrite IH.
  destruct (String.eqb_spec k q); intuition congruence.
Qed.
Lemma keys_set {V} k (v : V) m : NoDup (map fst m) -> NoDup (map fst (dset k v m)).
Proof.
  induction m as [|[q w] m IH]; cbn [dset map fst]; intro H; [constructor; [intros []|constructor]|].
  inversion H as [|? ? A B]; subst. destruct (String.eqb_spec k q); cbn [map fst]; [constructor; assumption|].
  constructor; [|apply IH; exact B]. intro X. apply A. apply in_keys. apply in_keys in X. rewrite dget_set in X.
  destruct (String.eqb_spec q k); [congruence|exact X].
Qed.

(** ** names *)
Lemma enum_other s l : forall k m, ~ In s l -> dget s (fold_left (fun m p => dset (snd p) (R_one (fst p)) m) (enumerate k l) m) = dget s m.
Proof.
  induction l as [|x l IH]; intros k m H; [reflexivity|]. cbn [enumerate fold_left fst snd]. rewrite IH by (intro; apply H; right; assumption).
  rewrite dget_set. destruct (String.eqb_spec s x); [|reflexivity]. exfalso. apply H. left. congruence.
Qed.
Lemma enum_at l : NoDup l -> forall k m j s, nth_error l j = Some s ->
  dget s (fold_left (fun m p => dset (snd p) (R_one (fst p)) m) (enumerate k l) m) = Some (R_one (k + Z.of_nat j)).
Proof.
  induction 1 as [|x l NI ND IH]; intros k m j s H; [destruct j; discriminate|]. cbn [enumerate fold_left fst snd].
  destruct j as [|j]; cbn [nth_error] in H.
  - injection H as <-. rewrite enum_other by exact NI. rewrite dget_set, String.eqb_refl. f_equal. f_equal. lia.
  - rewrite (IH _ _ _ _ H). f_equal. f_equal. lia.
Qed.
Lemma distinct_nodup l : (count l =? distinct_count l) = true <-> NoDup l.
Proof.
  unfold count, distinct_count. rewrite Z.eqb_eq, Nat2Z.inj_iff. split; intro H.
  - assert (X : NoDup (nodup string_dec l)) by apply NoDup_nodup.
    apply (NoDup_incl_NoDup X); [lia|]. intros x. apply nodup_In.
  - rewrite nodup_fixed_point by exact H. reflexivity.
Qed.
Lemma arange_is a b : arange a b = map (fun k => a + Z.of_nat k) (seq 0 (Z.to_nat (b - a))).
Proof. unfold arange, zrange. rewrite map_map. reflexivity. Qed.
Lemma builtin_keys s : In s (map fst builtin_map) -> In s reserved.
Proof. cbn. tauto. Qed.
Lemma builtin_at s r : dget s builtin_map = Some r <-> addresses [] s r.
Proof.
  split.
  - cbn [dget builtin_map]. 
    repeat match goal with |- context [String.eqb s ?x] => destruct (String.eqb_spec s x); [subst s; intro H; injection H as <-|] end; try discriminate.
    all: try (constructor; auto; fail).
  - intro H. inversion H; subst; try reflexivity; repeat match goal with H : _ \/ _ |- _ => destruct H as [->| ->] end; try reflexivity.
    + destruct k; discriminate.
    + congruence.
Qed.
Lemma addresses_mono l s r : addresses [] s r -> addresses l s r.
Proof. intro H. inversion H; subst; try (constructor; assumption). - destruct k; discriminate. - congruence. Qed.
Definition passive_map (l : list string) : dict rowsel :=
  dset "passive_scalars" (R_many (arange 5 (5 + count l)))
    (fold_left (fun m p => dset (snd p) (R_one (fst p)) m) (enumerate 5 l) builtin_map).
Lemma passive_at l s r : l <> [] -> good_names l -> dget s (passive_map l) = Some r <-> addresses l s r.
Proof.
  intros NE [ND RS]. unfold passive_map. rewrite dget_set.
  replace (arange 5 (5 + count l)) with (map (fun k => 5 + Z.of_nat k) (seq 0 (List.length l)))
    by (rewrite arange_is; unfold count; do 2 f_equal; lia).
  destruct (String.eqb_spec s "passive_scalars") as [->|NP].
  - split; intro H; [injection H as <-; constructor; exact NE|].
    inversion H; subst; repeat match goal with H : _ \/ _ |- _ => destruct H as [X|X]; try discriminate X end; try reflexivity.
    exfalso. apply (RS "passive_scalars"%string); [eapply nth_error_In; eassumption|cbn; tauto].
  - destruct (in_dec string_dec s l) as [I|I].
    + destruct (In_nth_error l s I) as (j & HJ). rewrite (enum_at l ND 5 _ j s HJ). split; intro H.
      * injection H as <-. constructor. exact HJ.
      * assert (NR := RS s I). inversion H; subst; try (exfalso; apply NR; cbn; tauto);
          repeat match goal with H : _ \/ _ |- _ => destruct H as [->| ->]; [exfalso; apply NR; cbn; tauto|exfalso; apply NR; cbn; tauto] end.
        f_equal. f_equal. f_equal. f_equal.
        eapply NoDup_nth_error; [exact ND| |congruence]. apply nth_error_Some. congruence.
    + rewrite enum_other by exact I. rewrite builtin_at. split; intro H; [apply addresses_mono, H|].
      inversion H; subst; try (constructor; assumption); try congruence.
      exfalso. apply I. eapply nth_error_In; eassumption.
Qed.
Theorem names_addressed l nd : good_names l ->
  exists h, hydro_state l nd = Ok h /\ hs_nvars h = 5 + Z.of_nat (List.length l) /\ hs_ndim h = nd /\
    forall s r, dget s (hs_map h) = Some r <-> addresses l s r.
Proof.
  intro G. pose proof G as [ND RS]. unfold hydro_state. rewrite (proj2 (distinct_nodup l) ND). cbn [negb].
  eexists. split; [reflexivity|]. split; [reflexivity|]. split; [reflexivity|]. intros s r. cbn [hs_map].
  destruct l as [|x l]; [apply builtin_at|]. apply (passive_at (x :: l)); [discriminate|exact G].
Qed.
Lemma duplicates_rejected l nd : ~ NoDup l <-> hydro_state l nd = Err ValueError.
Proof.
  unfold hydro_state. pose proof (distinct_nodup l) as Q. destruct (count l =? distinct_count l) eqn:E; cbn [negb].
  - split; intro H; [exfalso; apply H, Q; reflexivity|discriminate].
  - split; [reflexivity|]. intros _ X. apply Q in X. discriminate.
Qed.
Lemma address_range l s r k : good_names l -> addresses l s r -> In k (chosen r) -> 0 <= k < 5 + Z.of_nat (List.length l).
Proof.
  intros _ H K. inversion H; subst; cbn [chosen In] in K; repeat match goal with H : _ \/ _ |- _ => destruct H end; subst; try lia; try tauto.
  - assert (nth_error l k0 <> None) by congruence. apply nth_error_Some in H1. lia.
  - apply in_map_iff in K as (j & <- & J). apply in_seq in J. lia.
Qed.
Lemma one_row l s k : addresses l s (R_one k) ->
  (k = 0 /\ s = "rho"%string) \/ (k = 1 /\ (s = "vx"%string \/ s = "mx"%string)) \/ (k = 2 /\ (s = "vy"%string \/ s = "my"%string)) \/
  (k = 3 /\ (s = "vz"%string \/ s = "mz"%string)) \/ (k = 4 /\ (s = "P"%string \/ s = "E"%string)) \/
  exists j, nth_error l j = Some s /\ k = 5 + Z.of_nat j.
Proof.
  intro H. remember (R_one k) as r eqn:E. destruct H; try discriminate; injection E as <-; auto 10.
  do 5 right. eauto.
Qed.
Lemma address_injective l s s' k : good_names l -> addresses l s (R_one k) -> addresses l s' (R_one k) -> same_quantity s s'.
Proof.
  intros [ND _] H H'. apply one_row in H, H'. unfold same_quantity. cbn [In].
  destruct H as [[K H]|[[K H]|[[K H]|[[K H]|[[K H]|(j & H & K)]]]]]; destruct H' as [[K' H']|[[K' H']|[[K' H']|[[K' H']|[[K' H']|(j' & H' & K')]]]]];
    try lia; [..|assert (j = j') by lia; subst; left; congruence];
    repeat match goal with H : _ \/ _ |- _ => destruct H end; subst; tauto.
Qed.
Lemma call_name h s : hs_ndim h = 4 ->
  hs_call h (Q_name s) C_none C_none C_none None C_none None =
  match dget s (hs_map h) with Some r => Ok [E_rows r; E_slice slice_all; E_slice slice_all; E_slice slice_all] | None => Err ValueError end.
Proof. intro H. unfold hs_call. rewrite H. destruct (dget s (hs_map h)); reflexivity. Qed.
(** ** slices *)
Lemma slice_len n a b k : 0 <= n -> k = None \/ k = Some 1 ->
  slice_adjust n (mkslice (or_none a) (or_none b) k) = mkext (first_cell n a) (Z.max 0 (end_cell n b - first_cell n a)) 1.
Proof.
  intros Hn K. unfold slice_adjust, or_none, first_cell, end_cell. cbn [sl_start sl_stop sl_step].
  assert (ST : match k with None => 1 | Some x => x end = 1) by (destruct K; subst; reflexivity). rewrite ST.
  change (1 <? 0) with false. cbv iota.
  assert (E1 : match (if a =? 0 then None else Some a) with Some x => if x <? 0 then Z.max 0 (x + n) else Z.min n x | None => 0 end
     = if a <? 0 then Z.max 0 (n + a) else Z.min a n).
  { destruct (Z.eqb_spec a 0); [subst; cbn; lia|]. destruct (Z.ltb_spec a 0); lia. }
  assert (E2 : match (if b =? 0 then None else Some b) with Some x => if x <? 0 then Z.max 0 (x + n) else Z.min n x | None => n end
     = if b =? 0 then n else if b <? 0 then Z.max 0 (n + b) else Z.min b n).
  { destruct (Z.eqb_spec b 0); [reflexivity|]. destruct (Z.ltb_spec b 0); lia. }
  rewrite E1, E2. f_equal.
  match goal with |- (if ?x <? ?y then _ else _) = _ => destruct (Z.ltb_spec x y); [rewrite Z.div_1_r|]; lia end.
Qed.
Lemma view_all {A} a (u : arr A) : 0 <= getc a (shp u) -> shp (view a slice_all u) = shp u /\ rows (view a slice_all u) = rows u /\ forall v i, at_ (view a slice_all u) v i = at_ u v i.
Proof.
  intro H. unfold view. change slice_all with (mkslice (or_none 0) (or_none 0) None). rewrite slice_len by auto.
  cbn [ex_len ex_start ex_step shp rows at_].
  replace (first_cell (getc a (shp u)) 0) with 0 by (unfold first_cell; cbn [Z.ltb Z.compare]; lia).
  replace (Z.max 0 (end_cell (getc a (shp u)) 0 - 0)) with (getc a (shp u)) by (unfold end_cell; cbn [Z.eqb]; lia).
  split; [destruct (shp u) as [n1 n2 n3], a; reflexivity|]. split; [reflexivity|].
  intros v [i1 i2 i3]. f_equal. destruct a; cbn [getc setc cx cy cz]; f_equal; lia.
Qed.
Lemma view3_all {A} (u : arr A) : (forall a, 0 <= getc a (shp u)) ->
  exists w, Ok (view AZ slice_all (view AY slice_all (view AX slice_all u))) = Ok w /\ rows w = rows u /\ shp w = shp u /\ forall v i, at_ w v i = at_ u v i.
Proof.
  intro H. destruct (view_all AX u (H AX)) as (A1 & A2 & A3).
  destruct (view_all AY (view AX slice_all u)) as (B1 & B2 & B3); [rewrite A1; apply H|].
  destruct (view_all AZ (view AY slice_all (view AX slice_all u))) as (C1 & C2 & C3); [rewrite B1, A1; apply H|].
  eexists. split; [reflexivity|]. split; [congruence|]. split; [congruence|]. intros. rewrite C3, B3, A3. reflexivity.
Qed.
Lemma py_rows_in n ks : (forall k, In k ks -> 0 <= k < n) -> py_rows n ks = Ok ks.
Proof.
  induction ks as [|k ks IH]; intro H; [reflexivity|]. cbn [py_rows]. unfold py_row.
  assert (K := H k (or_introl eq_refl)). destruct (Z.ltb_spec k 0); [lia|].
  destruct (Z.leb_spec 0 k); [|lia]. destruct (Z.ltb_spec k n); [|lia]. cbn [andb bind].
  rewrite IH by (intros; apply H; right; assumption). reflexivity.
Qed.
Theorem ask_named l {A} (u : arr A) h : good_names l -> hydro_state l 4 = Ok h ->
  rows u = hs_nvars h -> (forall a, 0 <= getc a (shp u)) ->
  hs_nvars h = 5 + Z.of_nat (List.length l) /\
  (forall s r, addresses l s r -> exists w, ask h s u = Ok w /\ rows w = Z.of_nat (List.length (chosen r)) /\ shp w = shp u /\
     forall v i, 0 <= v < rows w -> at_ w v i = at_ u (nth (Z.to_nat v) (chosen r) 0) i) /\
  (forall s, (forall r, ~ addresses l s r) -> ask h s u = Err ValueError).
Proof.
  intros G E R S. destruct (names_addressed l 4 G) as (h' & E' & NV & ND & M). rewrite E in E'. injection E' as <-.
  split; [exact NV|]. split.
  - intros s r AD. unfold ask. rewrite call_name by exact ND. rewrite (proj2 (M s r) AD). cbn [bind index4].
    assert (RG : forall k, In k (chosen r) -> 0 <= k < rows u) by (intros k K; rewrite R, NV; eapply address_range; eassumption).
    destruct r as [k|ks|kss]; cbn [select_rows chosen] in *.
    + assert (K := RG k (or_introl eq_refl)). unfold py_row. destruct (Z.ltb_spec k 0); [lia|].
      destruct (Z.leb_spec 0 k); [|lia]. destruct (Z.ltb_spec k (rows u)); [|lia]. cbn [andb bind].
      destruct (view3_all (mkarr 1 (shp u) (fun _ i => at_ u k i)) S) as (w & EW & RW & SW & VW).
      exists w. split; [exact EW|]. split; [exact RW|]. split; [exact SW|]. intros v i Hv. rewrite VW. cbn [at_].
      cbn [rows] in RW. replace v with 0 by lia. reflexivity.
    + rewrite py_rows_in by exact RG. cbn [bind].
      destruct (view3_all (mkarr (Z.of_nat (List.length ks)) (shp u) (fun v i => at_ u (nth (Z.to_nat v) ks 0) i)) S) as (w & EW & RW & SW & VW).
      exists w. split; [exact EW|]. split; [exact RW|]. split; [exact SW|]. intros v i Hv. rewrite VW. reflexivity.
    + inversion AD.
  - intros s NA. unfold ask. rewrite call_name by exact ND. destruct (dget s (hs_map h)) eqn:D; [|reflexivity].
    exfalso. apply M in D. exact (NA _ D).
Qed.
Lemma captured_name : exists l h, NoDup l /\ hydro_state l 4 = Ok h /\ dget "rho" (hs_map h) = Some (R_one 5).
Proof. exists ["rho"%string]. eexists. split; [repeat constructor; intros []|]. split; reflexivity. Qed.

Lemma slice_back n : 0 <= n -> slice_adjust n (mkslice (or_none 0) (or_none 0) (Some (-1))) = mkext (n - 1) n (-1).
Proof.
  intro H. unfold slice_adjust. cbn [or_none Z.eqb sl_start sl_stop sl_step]. change (-1 <? 0) with true. cbv iota. f_equal.
  destruct (Z.ltb_spec (-1) (n - 1)); [|lia]. change (- -1) with 1. rewrite Z.div_1_r. lia.
Qed.
Lemma call_cut h d a b k : hs_ndim h = 4 ->
  hs_call h Q_none C_none C_none C_none (Some (axis_number d)) (C_tuple [Some a; Some b]) k =
  Ok (E_slice slice_all :: map (fun e => E_slice (if axis_eqb e d then mkslice (or_none a) (or_none b) k else slice_all)) [AX; AY; AZ]).
Proof. intro H. unfold hs_call. rewrite H. destruct d; reflexivity. Qed.
Lemma rows_all {A} (u : arr A) : 0 <= rows u -> exists w, select_rows (E_slice slice_all) u = Ok w /\ rows w = rows u /\ shp w = shp u /\ forall v i, at_ w v i = at_ u v i.
Proof.
  intro H. unfold select_rows. eexists. split; [reflexivity|].
  change slice_all with (mkslice (or_none 0) (or_none 0) None). rewrite slice_len by (auto; lia). cbn [ex_len ex_start ex_step rows shp at_].
  unfold first_cell, end_cell. cbn [Z.ltb Z.eqb Z.compare]. split; [lia|]. split; [reflexivity|]. intros. f_equal. lia.
Qed.
Theorem cut_selects {A} h d a b k (u : arr A) : hs_ndim h = 4 -> 0 <= rows u -> (forall c, 0 <= getc c (shp u)) -> k = None \/ k = Some 1 ->
  exists w, cut_cells h (Some (axis_number d)) a b k u = Ok w /\ rows w = rows u /\
    (forall c, getc c (shp w) = if axis_eqb c d then Z.max 0 (end_cell (getc d (shp u)) b - first_cell (getc d (shp u)) a) else getc c (shp u)) /\
    forall v i, at_ w v i = at_ u v (setc d (first_cell (getc d (shp u)) a + getc d i) i).
Proof.
  intros H R S K. unfold cut_cells. rewrite call_cut by exact H. cbn [map bind index4].
  destruct (rows_all u R) as (r & ER & RR & RS & RV). rewrite ER. cbn [bind]. eexists. split; [reflexivity|].
  unfold view.
  destruct d; cbn [axis_eqb getc setc shp rows at_ cx cy cz]; rewrite RS; cbn [axis_eqb getc setc shp rows at_ cx cy cz];
    change slice_all with (mkslice (or_none 0) (or_none 0) None); pose proof (S AX) as SX; pose proof (S AY) as SY; pose proof (S AZ) as SZ;
    cbn [getc] in SX, SY, SZ; rewrite !slice_len by (auto; try apply Z.le_max_l; lia); cbn [ex_len ex_start ex_step];
    (split; [exact RR|]); (split; [intros []; cbn [axis_eqb getc setc cx cy cz]; unfold first_cell, end_cell; cbn [Z.ltb Z.eqb Z.compare]; lia|]);
    intros v [i1 i2 i3]; rewrite RV; cbn [getc setc cx cy cz]; f_equal; f_equal; unfold first_cell; cbn [Z.ltb Z.compare]; lia.
Qed.
Theorem cut_reverses {A} h d (u : arr A) : hs_ndim h = 4 -> 0 <= rows u -> (forall c, 0 <= getc c (shp u)) ->
  exists w, cut_cells h (Some (axis_number d)) 0 0 (Some (-1)) u = Ok w /\ rows w = rows u /\ shp w = shp u /\
    forall v i, at_ w v i = at_ u v (setc d (getc d (shp u) - 1 - getc d i) i).
Proof.
  intros H R S. unfold cut_cells. rewrite call_cut by exact H. cbn [map bind index4].
  destruct (rows_all u R) as (r & ER & RR & RS & RV). rewrite ER. cbn [bind]. eexists. split; [reflexivity|].
  unfold view. pose proof (S AX) as SX; pose proof (S AY) as SY; pose proof (S AZ) as SZ; cbn [getc] in SX, SY, SZ.
  destruct d; cbn [axis_eqb getc setc shp rows at_ cx cy cz]; rewrite RS; cbn [axis_eqb getc setc shp rows at_ cx cy cz];
    rewrite slice_back by lia;
    change slice_all with (mkslice (or_none 0) (or_none 0) None);
    rewrite !slice_len by (auto; lia); cbn [ex_len ex_start ex_step];
    (split; [exact RR|]); (split; [destruct (shp u) as [n1 n2 n3]; unfold first_cell, end_cell; cbn [Z.ltb Z.eqb Z.compare cx cy cz] in *; f_equal; lia|]);
    intros v [i1 i2 i3]; rewrite RV; cbn [getc setc cx cy cz]; f_equal; f_equal; unfold first_cell; cbn [Z.ltb Z.compare]; lia.
Qed.
Theorem cut_out_of_range {A} h n a b k (u : arr A) : hs_ndim h = 4 ->
  (4 <= n -> cut_cells h (Some n) a b k u = Err ValueError) /\
  (n < -4 -> cut_cells h (Some n) a b k u = Err IndexError) /\
  cut_cells h None a b k u = Err TypeError.
Proof.
  intro H. unfold cut_cells, hs_call. rewrite H. cbn [Z.to_nat Pos.to_nat Pos.iter_op Nat.add repeat bind cut_axis].
  split; [|split; [|reflexivity]]; intro L.
  - destruct (Z.leb_spec 4 n); [reflexivity|lia].
  - destruct (Z.leb_spec 4 n); [lia|]. unfold list_set. rewrite repeat_length. destruct (Z.ltb_spec n 0); [|lia].
    change (Z.of_nat (Pos.to_nat 4)) with 4. destruct (Z.leb_spec 0 (n + 4)); [lia|]. reflexivity.
Qed.
Lemma end_window n k j : 1 <= k <= n -> 0 <= j < k -> end_cell n (- (k - 1) + j) = n - k + 1 + j.
Proof. intros. unfold end_cell. destruct (Z.eqb_spec (- (k - 1) + j) 0); [lia|]. destruct (Z.ltb_spec (- (k - 1) + j) 0); lia. Qed.
Theorem windows {A} a k (u : arr A) : 1 <= k <= getc a (shp u) ->
  exists l, get_symmetric_slices k = Ok l /\ Z.of_nat (List.length l) = k /\
    forall j s, 0 <= j < k -> nth_error l (Z.to_nat j) = Some s ->
      rows (view a s u) = rows u /\ shp (view a s u) = setc a (getc a (shp u) - k + 1) (shp u) /\
      forall v i, at_ (view a s u) v i = at_ u v (setc a (getc a i + j) i).
Proof.
  intro H. unfold get_symmetric_slices. destruct (Z.ltb_spec k 1); [lia|]. eexists. split; [reflexivity|].
  split; [rewrite map_length; unfold zrange; rewrite map_length, seq_length; lia|].
  intros j s J E. rewrite nth_error_map in E. unfold zrange in E. rewrite nth_error_map in E.
  rewrite (nth_error_nth' _ 0%nat) in E by (rewrite seq_length; lia). rewrite seq_nth in E by lia. cbn [option_map plus] in E. injection E as <-.
  rewrite Z2Nat.id by lia. unfold view, cut. rewrite slice_len by (auto; lia). cbn [ex_len ex_start ex_step rows shp at_].
  split; [reflexivity|]. rewrite end_window by lia. unfold first_cell. destruct (Z.ltb_spec j 0); [lia|]. rewrite Z.min_l by lia.
  split; [f_equal; lia|]. intros. f_equal. f_equal. lia.
Qed.
