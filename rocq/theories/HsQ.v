(** Boxes of cells selected through a HydroState. *)
From Coq Require Import ZArith List Bool String Lia.
From Verif Require Import Err PySlice NdArray HydroStateM SpecHs HsP.
Import ListNotations.
Local Open Scope Z_scope.

Definition box_slice (q : axis -> option (Z * Z)) d c (k : option Z) (e : axis) : pyslice :=
  match bounds_of q d c e with
  | Some (a, b) => mkslice (or_none a) (or_none b) (match d with Some x => if axis_eqb x e then k else None | None => None end)
  | None => slice_all
  end.
Lemma call_box h var q d c k e : hs_ndim h = 4 -> (d = None -> c = None) ->
  hs_call h var C_none C_none C_none None C_none None = Ok e ->
  exists r, e = [r; E_slice slice_all; E_slice slice_all; E_slice slice_all] /\
  hs_call h var (pair_req (q AX)) (pair_req (q AY)) (pair_req (q AZ)) (option_map axis_number d) (pair_req c) k
  = Ok [r; E_slice (box_slice q d c k AX); E_slice (box_slice q d c k AY); E_slice (box_slice q d c k AZ)].
Proof.
  intros H DC. unfold hs_call. rewrite H. change (repeat (E_slice slice_all) (Z.to_nat 4)) with [E_slice slice_all; E_slice slice_all; E_slice slice_all; E_slice slice_all].
  assert (X : forall m, (exists r, m = Ok [r; E_slice slice_all; E_slice slice_all; E_slice slice_all]) \/ (exists e, m = Err e) ->
    bind m (fun slices => bind (cut_axis 4 None None slices (Some 1) C_none) (fun s1 => bind (cut_axis 4 None None s1 (Some 2) C_none) (fun s2 => bind (cut_axis 4 None None s2 (Some 3) C_none) (fun s3 => cut_axis 4 None None s3 None C_none)))) = Ok e ->
    exists r, e = [r; E_slice slice_all; E_slice slice_all; E_slice slice_all] /\
    bind m (fun slices => bind (cut_axis 4 (option_map axis_number d) k slices (Some 1) (pair_req (q AX))) (fun s1 => bind (cut_axis 4 (option_map axis_number d) k s1 (Some 2) (pair_req (q AY))) (fun s2 => bind (cut_axis 4 (option_map axis_number d) k s2 (Some 3) (pair_req (q AZ))) (fun s3 => cut_axis 4 (option_map axis_number d) k s3 (option_map axis_number d) (pair_req c)))))
    = Ok [r; E_slice (box_slice q d c k AX); E_slice (box_slice q d c k AY); E_slice (box_slice q d c k AZ)]).
  { intros m [(r & ->)|(x & ->)]; [|discriminate]. cbn [bind cut_axis]. intros [= <-]. exists r. split; [reflexivity|].
    unfold box_slice, bounds_of. destruct (q AX) as [[]|], (q AY) as [[]|], (q AZ) as [[]|], d as [[]|], c as [[]|]; try (discriminate (DC eq_refl)); reflexivity. }
  apply X. clear X. destruct var as [|s|l|]; [left; eexists; reflexivity| | |right; eexists; reflexivity].
  - destruct (dget s (hs_map h)) as [r|]; [left|right]; eexists; reflexivity.
  - destruct (lookup_all (hs_map h) l) as [rs|]; cbn [bind]; [|right; eexists; reflexivity].
    destruct (np_array rs) as [r|]; cbn [bind]; [left|right]; eexists; reflexivity.
Qed.
Lemma slice_step n a b k : 0 <= n -> 0 < k ->
  slice_adjust n (mkslice (or_none a) (or_none b) (Some k)) =
  mkext (first_cell n a) (if first_cell n a <? end_cell n b then (end_cell n b - first_cell n a - 1) / k + 1 else 0) k.
Proof.
  intros Hn K. unfold slice_adjust, or_none, first_cell, end_cell. cbn [sl_start sl_stop sl_step].
  destruct (Z.ltb_spec k 0) as [|_]; [lia|].
  assert (E1 : match (if a =? 0 then None else Some a) with Some x => if x <? 0 then Z.max 0 (x + n) else Z.min n x | None => 0 end
     = if a <? 0 then Z.max 0 (n + a) else Z.min a n).
  { destruct (Z.eqb_spec a 0); [subst; cbn; lia|]. destruct (Z.ltb_spec a 0); lia. }
  assert (E2 : match (if b =? 0 then None else Some b) with Some x => if x <? 0 then Z.max 0 (x + n) else Z.min n x | None => n end
     = if b =? 0 then n else if b <? 0 then Z.max 0 (n + b) else Z.min b n).
  { destruct (Z.eqb_spec b 0); [reflexivity|]. destruct (Z.ltb_spec b 0); lia. }
  rewrite E1, E2. reflexivity.
Qed.
Lemma count_cells f e k j : 0 < k -> 0 <= j -> (j < (if f <? e then (e - f - 1) / k + 1 else 0) <-> f + k * j < e).
Proof.
  intros K J. destruct (Z.ltb_spec f e) as [L|L].
  - split; intro H.
    + assert (X : j <= (e - f - 1) / k) by lia. pose proof (Z.mul_div_le (e - f - 1) k K). nia.
    + assert (X : j <= (e - f - 1) / k) by (apply Z.div_le_lower_bound; nia). lia.
  - split; intro H; [lia|]. nia.
Qed.
Lemma box_adjust q d c k (n : ix) e : 0 <= getc e n -> match k with Some s => 0 < s | None => True end ->
  let x := slice_adjust (getc e n) (box_slice q d c k e) in
  ex_start x = box_first q d c n e /\ ex_step x = box_step q d c k e /\ 0 <= ex_len x /\
  forall j, 0 <= j -> (j < ex_len x <-> box_first q d c n e + box_step q d c k e * j < box_end q d c n e).
Proof.
  intros Hn K. cbv zeta. unfold box_slice, box_first, box_end, box_step.
  assert (G : forall a b s, (0 < s) -> let x := slice_adjust (getc e n) (mkslice (or_none a) (or_none b) (Some s)) in
    ex_start x = first_cell (getc e n) a /\ ex_step x = s /\ 0 <= ex_len x /\ forall j, 0 <= j -> (j < ex_len x <-> first_cell (getc e n) a + s * j < end_cell (getc e n) b)).
  { intros a b s P. cbv zeta. rewrite slice_step by assumption. cbn [ex_start ex_step ex_len]. split; [reflexivity|]. split; [reflexivity|].
    split; [destruct (Z.ltb_spec (first_cell (getc e n) a) (end_cell (getc e n) b)) as [L|L]; [|lia]; pose proof (Z.div_pos (end_cell (getc e n) b - first_cell (getc e n) a - 1) s); lia|].
    intros j J. apply count_cells; assumption. }
  assert (G1 : forall a b, let x := slice_adjust (getc e n) (mkslice (or_none a) (or_none b) None) in
    ex_start x = first_cell (getc e n) a /\ ex_step x = 1 /\ 0 <= ex_len x /\ forall j, 0 <= j -> (j < ex_len x <-> first_cell (getc e n) a + 1 * j < end_cell (getc e n) b)).
  { intros a b. exact (G a b 1 ltac:(lia)). }
  destruct (bounds_of q d c e) as [[a b]|].
  - destruct d as [x|]; [|exact (G1 a b)]. destruct k as [s|]; destruct (axis_eqb x e); try exact (G1 a b). exact (G a b s K).
  - destruct (G1 0 0) as (A & B & C & D). unfold slice_all. change (mkslice None None None) with (mkslice (or_none 0) (or_none 0) None).
    assert (F0 : first_cell (getc e n) 0 = 0) by (unfold first_cell; cbn; lia). rewrite F0 in A, D.
    split; [exact A|]. split; [exact B|]. split; [exact C|]. exact D.
Qed.
Theorem box_selects {A} h var q d c k (u w0 : arr A) : hs_ndim h = 4 -> (forall e, 0 <= getc e (shp u)) -> (d = None -> c = None) ->
  match k with Some s => 0 < s | None => True end ->
  box_cells h var (fun _ => None) None None None u = Ok w0 ->
  exists w, box_cells h var q d c k u = Ok w /\ rows w = rows w0 /\
   (forall e, 0 <= getc e (shp w) /\ forall j, 0 <= j -> (j < getc e (shp w) <->
      box_first q d c (shp u) e + box_step q d c k e * j < box_end q d c (shp u) e)) /\
   forall v i, at_ w v i = at_ w0 v (mkix (box_first q d c (shp u) AX + box_step q d c k AX * cx i)
      (box_first q d c (shp u) AY + box_step q d c k AY * cy i) (box_first q d c (shp u) AZ + box_step q d c k AZ * cz i)).
Proof.
  intros H S DC K. unfold box_cells. cbn [pair_req option_map]. intro E.
  destruct (hs_call h var C_none C_none C_none None C_none None) as [e|] eqn:EC; [cbn [bind] in E|discriminate].
  destruct (call_box h var q d c k e H DC EC) as (r & -> & X). rewrite X. cbn [bind index4] in E |- *.
  destruct (select_rows r u) as [s|] eqn:ES; [cbn [bind] in E|discriminate]. injection E as <-. cbn [bind].
  assert (SH : shp s = shp u).
  { unfold select_rows in ES. destruct r as [[z|l|l]|sl].
    - destruct (py_row (rows u) z); [|discriminate]. injection ES as <-. reflexivity.
    - destruct (py_rows (rows u) l); [|discriminate]. injection ES as <-. reflexivity.
    - discriminate.
    - injection ES as <-. reflexivity. }
  eexists. split; [reflexivity|]. split; [reflexivity|].
  destruct (box_adjust q d c k (shp u) AX (S AX) K) as (A1 & A2 & A3 & A4).
  destruct (box_adjust q d c k (shp u) AY (S AY) K) as (B1 & B2 & B3 & B4).
  destruct (box_adjust q d c k (shp u) AZ (S AZ) K) as (C1 & C2 & C3 & C4).
  unfold view. cbn [rows shp at_ getc setc cx cy cz] in *. rewrite SH. split.
  - intros []; cbn [getc cx cy cz]; split; assumption.
  - intros v i. rewrite A1, A2, B1, B2, C1, C2.
    assert (Z0 : forall n, 0 <= n -> ex_start (slice_adjust n slice_all) = 0 /\ ex_step (slice_adjust n slice_all) = 1).
    { intros n P. split; reflexivity. }
    pose proof (S AX) as SX. pose proof (S AY) as SY. pose proof (S AZ) as SZ. cbn [getc] in SX, SY, SZ.
    destruct (Z0 _ SX) as [-> ->]. destruct (Z0 _ SY) as [-> ->]. destruct (Z0 _ SZ) as [-> ->]. f_equal. f_equal; lia.
Qed.
Lemma box_needs_axis {A} h var q c k (u w0 : arr A) : hs_ndim h = 4 -> box_cells h var (fun _ => None) None None None u = Ok w0 ->
  c <> None -> box_cells h var q None c k u = Err TypeError.
Proof.
  intros H E C. unfold box_cells in *. cbn [pair_req option_map] in *.
  destruct (hs_call h var C_none C_none C_none None C_none None) as [e|] eqn:EC; [|discriminate].
  destruct (call_box h var q None None k e H (fun _ => eq_refl) EC) as (r & -> & X). cbn [option_map pair_req] in X.
  unfold hs_call in *. rewrite H in *.
  destruct (match var with Q_none => _ | _ => _ end) as [sl|] in *; [cbn [bind] in *|discriminate].
  destruct (cut_axis 4 None k sl (Some 1) (pair_req (q AX))) as [s1|]; [cbn [bind] in *|discriminate].
  destruct (cut_axis 4 None k s1 (Some 2) (pair_req (q AY))) as [s2|]; [cbn [bind] in *|discriminate].
  destruct (cut_axis 4 None k s2 (Some 3) (pair_req (q AZ))) as [s3|]; [cbn [bind] in *|discriminate].
  destruct c as [[a b]|]; [reflexivity|congruence].
Qed.
