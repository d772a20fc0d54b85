(** Consequences of the closed form of BoundaryCondition.apply. *)
From Coq Require Import ZArith List Bool Lia Reals.
From Verif Require Import Err Num PySlice NdArray NdArrayP HydroM FvM BcM SpecBc SpecMesh BcP MeshP.
Import ListNotations.
Open Scope Z_scope.

Section BcQ.
Context (N : Num).
Local Notation K := (car N).

(** ** copying boundaries *)
Lemma copy_axis_ok xc (b : bcond N) nv n g a : copy_axis b n g a -> axis_ok xc b nv n g a.
Proof.
  intros [H|[H Hp]]; [left; auto|right]. repeat split; auto; left; apply H.
Qed.

Lemma extend_copy xc b nv n g t a f v i :
  copy_axis b n g a -> - getc a g <= getc a i < getc a n + getc a g ->
  extend N xc b nv n t a f v i =
  let x := f v (setc a (folded (bc_type b a SL) (bc_type b a SR) (getc a n) (getc a i)) i) in
  if (v =? vrow a) && negated (bc_type b a SL) (bc_type b a SR) (getc a n) (getc a i)
  then nmul x (nofZ (-1)) else x.
Proof.
  intros Hc Hi. unfold extend, folded, negated.
  assert (G : forall pos, getc a g <> 0 ->
     ghost N xc b nv n t a pos f v i =
     let x := f v (setc a (source (bc_type b a pos) pos (getc a n) (getc a i)) i) in
     if (v =? vrow a) && is_reflective (bc_type b a pos) then nmul x (nofZ (-1)) else x).
  { intros pos Hg. destruct Hc as [?|[Hc _]]; [contradiction|].
    destruct (Hc pos) as [C _]. unfold ghost. cbv zeta.
    destruct (bc_type b a pos); try contradiction; cbn [is_reflective];
      rewrite ?andb_false_r, ?andb_true_r; reflexivity. }
  destruct (Z.ltb_spec (getc a i) 0); [apply G; lia|].
  destruct (Z.leb_spec (getc a n) (getc a i)); [apply G; lia|].
  rewrite setc_getc, andb_false_r. reflexivity.
Qed.

Lemma folded_in b n g a k : (forall a, 0 <= getc a n) ->
  @copy_axis N b n g a -> - getc a g <= k < getc a n + getc a g ->
  0 <= folded (bc_type b a SL) (bc_type b a SR) (getc a n) k < getc a n.
Proof.
  intros Hn Hc Hk. unfold folded.
  assert (G : forall pos, getc a g <> 0 -> in_ghost (getc a n) (getc a g) pos k ->
     0 <= source (bc_type b a pos) pos (getc a n) k < getc a n).
  { intros pos Hg Hp. destruct Hc as [?|[Hc _]]; [contradiction|]. destruct (Hc pos) as [C E].
    destruct (bc_type b a pos), pos; try contradiction; cbn [source enough in_ghost] in *; lia. }
  destruct (Z.ltb_spec k 0); [apply (G SL); cbn [in_ghost]; lia|].
  destruct (Z.leb_spec (getc a n) k); [apply (G SR); cbn [in_ghost]; lia|]. lia.
Qed.

Theorem apply_copies b junk u g t :
  (forall a, 0 <= getc a (shp u)) -> (forall a, 0 <= getc a g) ->
  (forall a, copy_axis b (shp u) g a) ->
  exists out, apply N b junk u g t = Ok out /\ rows out = rows u /\ shp out = padded (shp u) g /\
    forall v i, in_padded (shp u) g i ->
      in_shape (shp u) (folded3 b (shp u) i) /\
      at_ out v (shift g i) =
      let x := at_ u v (folded3 b (shp u) i) in
      if negated3 b (shp u) i v then nmul x (nofZ (-1)) else x.
Proof.
  intros Hn Hg Hc.
  destruct (apply_is N (fun _ _ => nofZ 0) b junk u g t Hn Hg) as (out & E & R & S & F).
  { intro a. apply copy_axis_ok, Hc. }
  exists out. split; auto. split; auto. split; auto. intros v i Hi. split.
  - intro a. pose proof (folded_in b (shp u) g a (getc a i) Hn (Hc a) (Hi a)).
    destruct a; exact H.
  - rewrite (F v i Hi). unfold extended. set (n := shp u) in *.
    rewrite (extend_copy _ _ _ n g) by (auto; apply Hi).
    rewrite (extend_copy _ _ _ n g) by (auto; apply (Hi AY)).
    rewrite (extend_copy _ _ _ n g) by (auto; apply (Hi AX)).
    cbv zeta. unfold negated3, folded3. cbn [setc getc cx cy cz vrow].
    destruct (Z.eqb_spec v 1); destruct (Z.eqb_spec v 2); destruct (Z.eqb_spec v 3); try lia;
      cbn [andb orb]; rewrite ?orb_false_r; reflexivity.
Qed.

(** ** periodic *)
Lemma folded_periodic n k g : 0 <= g <= n -> - g <= k < n + g -> 0 < n ->
  folded B_periodic B_periodic n k = k mod n.
Proof.
  intros. unfold folded. cbn [source].
  destruct (Z.ltb_spec k 0).
  - apply (Z.mod_unique_pos k n (-1)); lia.
  - destruct (Z.leb_spec n k).
    + apply (Z.mod_unique_pos k n 1); lia.
    + symmetry. apply Z.mod_small. lia.
Qed.
Lemma folded_inside tl tr n k : 0 <= k < n -> folded tl tr n k = k.
Proof. intro. unfold folded. destruct (Z.ltb_spec k 0); [lia|]. destruct (Z.leb_spec n k); [lia|auto]. Qed.
Lemma negated_inside tl tr n k : 0 <= k < n -> negated tl tr n k = false.
Proof. intro. unfold negated. destruct (Z.ltb_spec k 0); [lia|]. destruct (Z.leb_spec n k); [lia|auto]. Qed.
Lemma negated_periodic n k : negated B_periodic B_periodic n k = false.
Proof. unfold negated. destr_if; auto. destr_if; auto. Qed.

Theorem apply_periodic b junk u g t :
  (forall a, 1 <= getc a (shp u)) ->
  (forall a, 0 <= getc a g <= getc a (shp u)) ->
  (forall a, getc a g <> 0 -> bc_type b a SL = B_periodic /\ bc_type b a SR = B_periodic) ->
  exists out, apply N b junk u g t = Ok out /\ rows out = rows u /\ shp out = padded (shp u) g /\
    forall v i, in_shape (padded (shp u) g) i ->
      at_ out v i = at_ u v (mkix ((cx i - cx g) mod cx (shp u)) ((cy i - cy g) mod cy (shp u))
                                  ((cz i - cz g) mod cz (shp u))).
Proof.
  intros Hn Hg Hp.
  assert (Hc : forall a, copy_axis b (shp u) g a).
  { intro a. destruct (Z.eq_dec (getc a g) 0) as [E|E]; [left; auto|right].
    destruct (Hp a E) as [E1 E2]. split; [|auto].
    intro pos. destruct pos; rewrite ?E1, ?E2; cbn; split; auto; apply Hg. }
  assert (Hn0 : forall a, 0 <= getc a (shp u)) by (intro a; specialize (Hn a); lia).
  assert (Hg0 : forall a, 0 <= getc a g) by (intro a; apply Hg).
  destruct (apply_copies b junk u g t Hn0 Hg0 Hc) as (out & E & R & S & F).
  exists out. split; auto. split; auto. split; auto. intros v i Hi.
  set (j := mkix (cx i - cx g) (cy i - cy g) (cz i - cz g)).
  assert (Ji : i = shift g j) by (unfold j, shift; destruct i as [i1 i2 i3]; cbn [cx cy cz]; f_equal; lia).
  assert (Pj : in_padded (shp u) g j).
  { intro a. specialize (Hi a). destruct a; unfold j; cbn [getc padded cx cy cz] in *; lia. }
  rewrite Ji at 1. destruct (F v j Pj) as [_ ->].
  assert (Fo : forall a, folded (bc_type b a SL) (bc_type b a SR) (getc a (shp u)) (getc a j)
        = getc a j mod getc a (shp u) /\
        negated (bc_type b a SL) (bc_type b a SR) (getc a (shp u)) (getc a j) = false).
  { intro a. specialize (Hn a). specialize (Hg a). specialize (Pj a).
    destruct (Z.eq_dec (getc a g) 0) as [G0|G0].
    - rewrite folded_inside, negated_inside, Z.mod_small by lia. auto.
    - destruct (Hp a G0) as [-> ->]. split; [apply (folded_periodic _ _ (getc a g)); lia|apply negated_periodic]. }
  unfold folded3, negated3. pose proof (Fo AX) as [FX NX]. pose proof (Fo AY) as [FY NY]. pose proof (Fo AZ) as [FZ NZ].
  cbn [getc] in *. rewrite FX, FY, FZ, NX, NY, NZ, !andb_false_r. reflexivity.
Qed.

(** ** the interior, whatever the boundary types *)
Definition keeps (n g : ix) (u u' : arr K) : Prop :=
  rows u' = rows u /\ shp u' = shp u /\
  forall v i, in_shape n i -> glob N g u' v i = glob N g u v i.
Lemma keeps_trans n g u1 u2 u3 : keeps n g u1 u2 -> keeps n g u2 u3 -> keeps n g u1 u3.
Proof.
  intros (R1 & S1 & F1) (R2 & S2 & F2). repeat split; try congruence.
  intros. rewrite F2, F1; auto.
Qed.
Lemma assign_outer_keeps n g a pos u src u' :
  (forall d, 0 <= getc d n) -> 0 < getc a g -> shp u = padded n g ->
  assign_slice a (outer_cut (getc a g) pos) u src = Ok u' -> keeps n g u u'.
Proof.
  intros Hn Hg S E. unfold assign_slice in E.
  assert (GA : getc a (shp u) = getc a n + 2 * getc a g) by (rewrite S; destruct a; reflexivity).
  specialize (Hn a). rewrite GA, outer_sl in E by lia. cbn [ex_start ex_len] in E.
  destruct (bcast_ok _ _ _ _); [|discriminate]. injection E as <-.
  repeat split. intros v i Hi. unfold glob. cbn [at_]. rewrite outer_test.
  specialize (Hi a). destruct (in_side _ _ _ _) eqn:E; auto.
  apply in_side_shift in E. destruct pos; cbn [in_ghost] in E; lia.
Qed.
Lemma update_keeps n g a pos u row f :
  (forall d, 0 <= getc d n) -> 0 < getc a g -> shp u = padded n g ->
  keeps n g u (update_row_slice a (outer_cut (getc a g) pos) row f u).
Proof.
  intros Hn Hg S.
  assert (GA : getc a (shp u) = getc a n + 2 * getc a g) by (rewrite S; destruct a; reflexivity).
  specialize (Hn a). unfold update_row_slice. rewrite GA, outer_sl by lia. cbn [ex_start ex_len].
  repeat split. intros v i Hi. unfold glob. cbn [at_]. rewrite <- andb_assoc, outer_test.
  specialize (Hi a). destruct (in_side _ _ _ _) eqn:E; [|rewrite andb_false_r; auto].
  apply in_side_shift in E. destruct pos; cbn [in_ghost] in E; lia.
Qed.
Lemma apply_slab_keeps b n g t a pos u u' :
  (forall d, 0 <= getc d n) -> (forall d, 0 <= getc d g) -> shp u = padded n g ->
  apply_slab N b g t a pos u = Ok u' -> keeps n g u u'.
Proof.
  intros Hn Hg S E. unfold apply_slab in E.
  assert (Refl : keeps n g u u) by (repeat split; auto).
  destruct (Z.eqb_spec (getc a g) 0) as [G0|G0]; [injection E as <-; auto|].
  assert (G : 0 < getc a g) by (specialize (Hg a); lia).
  assert (D : forall to, (do xyz <- trim_slabs N b g a pos;
       set_dirichlet_bc N (bc_cupy b) u (bc_val b a pos) (getc a g) a pos to xyz) = Ok u' -> keeps n g u u').
  { intros to E'. destruct (trim_slabs N b g a pos) as [[[X Y] Zc]|]; [|discriminate]. cbn [bind] in E'.
    unfold set_dirichlet_bc in E'. destruct (bc_val b a pos) as [len f|f|f|]; [|eapply assign_outer_keeps; eauto| |discriminate].
    - destruct (amap2 _ _ _); [|discriminate]. cbn [bind] in E'. eapply assign_outer_keeps; eauto.
    - destruct (f _ _); [|discriminate]. cbn [bind] in E'. eapply assign_outer_keeps; eauto. }
  assert (Sy : forall neg, set_symmetric_bc N u (getc a g) a pos neg = Ok u' -> keeps n g u u').
  { intros neg E'. unfold set_symmetric_bc in E'.
    destruct (assign_slice a (outer_cut (getc a g) pos) u _) as [u1|] eqn:E1; [|discriminate].
    cbn [bind] in E'. pose proof (assign_outer_keeps _ _ _ _ _ _ _ Hn G S E1) as K1.
    destruct neg; injection E' as <-; auto.
    eapply keeps_trans; [exact K1|]. apply update_keeps; auto. destruct K1 as (_ & -> & _). auto. }
  destruct (bc_type b a pos); eauto.
  - destruct pos; [|injection E as <-; auto]. unfold set_periodic_bc in E.
    change (cut 0 (getc a g)) with (outer_cut (getc a g) SL) in E.
    change (cut (- getc a g) 0) with (outer_cut (getc a g) SR) in E.
    destruct (assign_slice a (outer_cut (getc a g) SL) u _) as [u1|] eqn:E1; [|discriminate].
    cbn [bind] in E. pose proof (assign_outer_keeps _ _ _ _ _ _ _ Hn G S E1) as K1.
    eapply keeps_trans; [exact K1|]. eapply assign_outer_keeps; eauto. destruct K1 as (_ & -> & _). auto.
  - eapply assign_outer_keeps; eauto.
  - destruct (trim_slabs N b g AY SL); discriminate.
  - injection E as <-; auto.
  - discriminate.
Qed.
Theorem apply_keeps b junk u g t out :
  (forall a, 0 <= getc a (shp u)) -> apply N b junk u g t = Ok out ->
  rows out = rows u /\ shp out = padded (shp u) g /\ (forall a, 0 <= getc a g) /\
  forall v i, in_shape (shp u) i -> at_ out v (shift g i) = at_ u v i.
Proof.
  intros Hn E. rewrite apply_unfold in E. set (n := shp u) in *.
  destruct (pad_empty junk g u) as [o|] eqn:Ep; [|discriminate]. cbn [bind] in E.
  assert (Hg : forall a, 0 <= getc a g).
  { unfold pad_empty in Ep. destruct (_ || _) eqn:Eb in Ep; [discriminate|]. zb. intros []; cbn [getc]; lia. }
  assert (P0 : rows o = rows u /\ shp o = padded n g /\ forall v i, in_shape n i -> glob N g o v i = at_ u v i).
  { unfold pad_empty in Ep. destruct (_ || _) eqn:Eb in Ep; [discriminate|]. injection Ep as <-.
    repeat split. intros v i Hi. unfold glob. cbn [at_].
    assert (J : mkix (cx (shift g i) - cx g) (cy (shift g i) - cy g) (cz (shift g i) - cz g) = i).
    { unfold shift; destruct i as [i1 i2 i3]; cbn [cx cy cz]; f_equal; lia. }
    rewrite J.
    pose proof (Hi AX) as IX. pose proof (Hi AY) as IY. pose proof (Hi AZ) as IZ. cbn [getc] in IX, IY, IZ.
    fold n. destr_if; auto. exfalso.
    unfold shift in E0; cbn [cx cy cz] in E0.
    repeat (apply andb_false_iff in E0; destruct E0 as [E0|E0]); zb; lia. }
  destruct P0 as (R0 & S0 & F0).
  assert (B : forall a w w', shp w = padded n g -> both_sides N b g t a w = Ok w' -> keeps n g w w').
  { intros a w w' Sw Ew. unfold both_sides in Ew.
    destruct (apply_slab N b g t a SL w) as [w1|] eqn:E1; [|discriminate]. cbn [bind] in Ew.
    pose proof (apply_slab_keeps _ _ _ _ _ _ _ _ Hn Hg Sw E1) as K1.
    eapply keeps_trans; [exact K1|]. eapply apply_slab_keeps; eauto. destruct K1 as (_ & -> & _). auto. }
  destruct (both_sides N b g t AX o) as [o1|] eqn:E1; [|discriminate]. cbn [bind] in E.
  destruct (both_sides N b g t AY o1) as [o2|] eqn:E2; [|discriminate]. cbn [bind] in E.
  pose proof (B _ _ _ S0 E1) as K1. destruct K1 as (R1 & S1 & F1).
  pose proof (B _ _ _ (eq_trans S1 S0) E2) as (R2 & S2 & F2).
  pose proof (B _ _ _ (eq_trans S2 (eq_trans S1 S0)) E) as (R3 & S3 & F3).
  split; [congruence|]. split; [congruence|]. split; auto.
  intros v i Hi. change (glob N g out v i = at_ u v i). rewrite F3, F2, F1, F0; auto.
Qed.

(** the boundary type of an axis without ghost cells plays no role *)
Theorem apply_inconsequential b b' junk u g t :
  bc_slabs b = bc_slabs b' -> bc_cupy b = bc_cupy b' ->
  (forall a, getc a g <> 0 -> forall pos, bc_type b a pos = bc_type b' a pos /\ bc_val b a pos = bc_val b' a pos) ->
  apply N b junk u g t = apply N b' junk u g t.
Proof.
  intros E1 E2 E3. unfold apply. destruct (pad_empty junk g u) as [o|]; auto. cbn [bind].
  assert (A : forall a pos w, apply_slab N b g t a pos w = apply_slab N b' g t a pos w).
  { intros a pos w. unfold apply_slab. destruct (Z.eqb_spec (getc a g) 0); auto.
    destruct (E3 a n pos) as [-> ->]. rewrite E2.
    assert (T : forall a pos, trim_slabs N b g a pos = trim_slabs N b' g a pos)
      by (intros; unfold trim_slabs; rewrite E1; reflexivity).
    rewrite !T. reflexivity. }
  generalize (Ok o). induction slab_order as [|[a pos] l IH]; intros r; cbn [fold_left]; auto.
  rewrite IH. f_equal. destruct r; cbn [bind]; auto.
Qed.

(** ** independence from uninitialised memory *)
Theorem apply_junk xc b junk junk' u g t :
  (forall a, 0 <= getc a (shp u)) -> (forall a, 0 <= getc a g) ->
  (forall a, axis_ok xc b (rows u) (shp u) g a) ->
  exists out out', apply N b junk u g t = Ok out /\ apply N b junk' u g t = Ok out' /\
    forall v i, in_shape (padded (shp u) g) i -> at_ out v i = at_ out' v i.
Proof.
  intros Hn Hg Ha.
  destruct (apply_is N xc b junk u g t Hn Hg Ha) as (o & E & R & S & F).
  destruct (apply_is N xc b junk' u g t Hn Hg Ha) as (o' & E' & R' & S' & F').
  exists o, o'. split; auto. split; auto. intros v i Hi.
  set (j := mkix (cx i - cx g) (cy i - cy g) (cz i - cz g)).
  assert (Ji : i = shift g j) by (unfold j, shift; destruct i as [i1 i2 i3]; cbn [cx cy cz]; f_equal; lia).
  assert (Pj : in_padded (shp u) g j).
  { intro a. specialize (Hi a). destruct a; unfold j; cbn [getc padded cx cy cz] in *; lia. }
  rewrite Ji, F, F'; auto.
Qed.

(** ** Dirichlet *)
(** the last of x, y, z along which the cell is a ghost cell *)
Lemma extended_last xc b n t u a pos v i :
  (match pos with SL => getc a i < 0 | SR => 0 <= getc a n <= getc a i end) ->
  (forall d, (match a, d with AX, (AY | AZ) => True | AY, AZ => True | _, _ => False end) ->
     0 <= getc d i < getc d n) ->
  prescribes (bc_type b a pos) ->
  extended N xc b n t u v i
  = prescribed N xc (rows u) (bc_val b a pos)
      (match bc_type b a pos with B_dirichlet => Some t | _ => None end) v i.
Proof.
  intros Hi Hd Hp.
  assert (In : forall d f, 0 <= getc d i < getc d n -> extend N xc b (rows u) n t d f v i = f v i).
  { intros d f H. unfold extend. destruct (Z.ltb_spec (getc d i) 0); [lia|].
    destruct (Z.leb_spec (getc d n) (getc d i)); [lia|auto]. }
  assert (Gh : forall f, extend N xc b (rows u) n t a f v i = ghost N xc b (rows u) n t a pos f v i).
  { intro f. unfold extend. destruct pos.
    - destruct (Z.ltb_spec (getc a i) 0); [auto|lia].
    - destruct (Z.ltb_spec (getc a i) 0); [lia|]. destruct (Z.leb_spec (getc a n) (getc a i)); [auto|lia]. }
  assert (G : forall f, ghost N xc b (rows u) n t a pos f v i = prescribed N xc (rows u) (bc_val b a pos)
      (match bc_type b a pos with B_dirichlet => Some t | _ => None end) v i).
  { intro f. unfold ghost. destruct (bc_type b a pos); try contradiction; reflexivity. }
  unfold extended. destruct a.
  - rewrite !In by (apply Hd; exact I). rewrite Gh. apply G.
  - rewrite In by (apply Hd; exact I). rewrite Gh. apply G.
  - rewrite Gh. apply G.
Qed.

Theorem apply_too_wide b junk u g t a pos out sl :
  prescribes (bc_type b a pos) -> getc a g <> 0 -> bc_slabs b = Some sl ->
  (exists d, getc d (slab_buffer N sl) < getc d g) -> apply N b junk u g t <> Ok out.
Proof.
  intros Hp G0 Hs [d Hd] E.
  assert (T : forall a pos, trim_slabs N b g a pos = Err ValueError).
  { intros a' pos'. unfold trim_slabs. rewrite Hs. destruct (sl a' pos') as [[X Y] Zc].
    destr_if; auto. exfalso. zb. destruct d; cbn [getc] in Hd; lia. }
  assert (A : forall w, exists e, apply_slab N b g t a pos w = Err e).
  { intro w. unfold apply_slab. destruct (Z.eqb_spec (getc a g) 0); [contradiction|].
    destruct (bc_type b a pos); try contradiction; rewrite T; eexists; reflexivity. }
  unfold apply in E. destruct (pad_empty junk g u) as [o|]; [|discriminate]. cbn [bind] in E.
  assert (Fe : forall l e, fold_left (fun acc (ap : axis * side) => do o <- acc; apply_slab N b g t (fst ap) (snd ap) o) l (Err e) = Err e)
    by (induction l; intros; cbn [fold_left bind]; auto).
  assert (Fl : forall l r, In (a, pos) l -> fold_left (fun acc (ap : axis * side) => do o <- acc; apply_slab N b g t (fst ap) (snd ap) o) l r <> Ok out).
  { induction l as [|[a' pos'] l IH]; intros r Hin; [contradiction|]. cbn [fold_left].
    destruct Hin as [Hin|Hin]; [|apply IH; auto].
    injection Hin as -> ->. destruct r as [w|e]; cbn [bind fst snd].
    - destruct (A w) as [e ->]. rewrite Fe. discriminate.
    - rewrite Fe. discriminate. }
  eapply Fl; [|exact E]. destruct a, pos; cbn; tauto.
Qed.
Theorem apply_dmr b junk u g t a pos out :
  bc_type b a pos = B_dmr -> getc a g <> 0 -> apply N b junk u g t <> Ok out.
Proof.
  intros Hp G0 E.
  assert (A : forall w, exists e, apply_slab N b g t a pos w = Err e).
  { intro w. unfold apply_slab. destruct (Z.eqb_spec (getc a g) 0); [contradiction|].
    rewrite Hp. destruct (trim_slabs N b g AY SL); eexists; reflexivity. }
  unfold apply in E. destruct (pad_empty junk g u) as [o|]; [|discriminate]. cbn [bind] in E.
  assert (Fe : forall l e, fold_left (fun acc (ap : axis * side) => do o <- acc; apply_slab N b g t (fst ap) (snd ap) o) l (Err e) = Err e)
    by (induction l; intros; cbn [fold_left bind]; auto).
  assert (Fl : forall l r, In (a, pos) l -> fold_left (fun acc (ap : axis * side) => do o <- acc; apply_slab N b g t (fst ap) (snd ap) o) l r <> Ok out).
  { induction l as [|[a' pos'] l IH]; intros r Hin; [contradiction|]. cbn [fold_left].
    destruct Hin as [Hin|Hin]; [|apply IH; auto].
    injection Hin as -> ->. destruct r as [w|e]; cbn [bind fst snd].
    - destruct (A w) as [e ->]. rewrite Fe. discriminate.
    - rewrite Fe. discriminate. }
  eapply Fl; [|exact E]. destruct a, pos; cbn; tauto.
Qed.
End BcQ.

(** ** coordinates of the solver's own slabs *)
Lemma mesh_dir_ok b nv n bx by_ bz buf g a pos :
  (forall d, 1 <= getc d n) -> (forall d, 0 <= getc d buf) -> 1 <= getc a buf ->
  (forall d, getc d g <= getc d buf) ->
  bc_slabs b = Some (slab_mesh RNum n bx by_ bz buf) ->
  match bc_val b a pos with V_other => False | V_array len _ => len = nv \/ len = 1 | V_func _ => True | V_mesh _ => False end ->
  @dir_ok RNum (fun d k => centre (fst (bnd bx by_ bz d)) (snd (bnd bx by_ bz d)) (getc d n) k)
    b nv n g a pos.
Proof.
  intros Hn Hb Hba Hg Hs Hv. split; [exact Hv|].
  exists (slab_mesh RNum n bx by_ bz buf). split; [exact Hs|].
  assert (Bu : slab_buffer RNum (slab_mesh RNum n bx by_ bz buf) = buf) by (destruct buf; reflexivity).
  rewrite Bu. split; [exact Hg|]. intro d.
  split.
  - destruct a, d; reflexivity.
  - intro i. pose proof (slab_coords n bx by_ bz buf a pos d i Hn Hb Hba) as [_ C].
    cbv zeta in C. etransitivity; [|exact C]. destruct d; reflexivity.
Qed.

Theorem apply_dirichlet b junk u g t bx by_ bz buf a pos f :
  (forall d, 1 <= getc d (shp u)) -> (forall d, 0 <= getc d g <= getc d buf) -> 
  bc_slabs b = Some (slab_mesh RNum (shp u) bx by_ bz buf) ->
  (forall d p, getc d g <> 0 ->
     (copies (bc_type b d p) /\ enough (bc_type b d p) (getc d (shp u)) (getc d g)) \/
     (prescribes (bc_type b d p) /\
      match bc_val b d p with V_other => False | V_array len _ => len = rows u \/ len = 1 | V_func _ => True | V_mesh _ => False end)) ->
  (forall d, getc d g <> 0 -> bc_type b d SR = B_periodic -> bc_type b d SL = B_periodic) ->
  prescribes (bc_type b a pos) -> bc_val b a pos = V_func f ->
  exists out, apply RNum b junk u g t = Ok out /\ shp out = padded (shp u) g /\
    forall v i, in_padded (shp u) g i ->
      (match pos with SL => getc a i < 0 | SR => getc a (shp u) <= getc a i end) ->
      (forall d, (match a, d with AX, (AY | AZ) => True | AY, AZ => True | _, _ => False end) ->
         0 <= getc d i < getc d (shp u)) ->
      at_ out v (shift g i)
      = f (match bc_type b a pos with B_dirichlet => Some t | _ => None end)
          (centre (fst bx) (snd bx) (cx (shp u)) (cx i))
          (centre (fst by_) (snd by_) (cy (shp u)) (cy i))
          (centre (fst bz) (snd bz) (cz (shp u)) (cz i)) v.
Proof.
  intros Hn Hg Hs Hty Hper Hp Hf.
  set (xc := fun d k => centre (fst (bnd bx by_ bz d)) (snd (bnd bx by_ bz d)) (getc d (shp u)) k).
  assert (Hn0 : forall d, 0 <= getc d (shp u)) by (intro d; specialize (Hn d); lia).
  assert (Hg0 : forall d, 0 <= getc d g) by (intro d; apply Hg).
  destruct (apply_is RNum xc b junk u g t Hn0 Hg0) as (o & E & R & S & F).
  { intro d. destruct (Z.eq_dec (getc d g) 0) as [G|G]; [left; auto|right].
    assert (SO : forall p, @side_ok RNum xc b (rows u) (shp u) g d p).
    { intro p. destruct (Hty d p G) as [H|[H1 H2]]; [left; auto|right; split; auto].
      apply (mesh_dir_ok b (rows u) (shp u) bx by_ bz buf g d p); auto.
      - intro k. specialize (Hg k). lia.
      - specialize (Hg d). lia.
      - intro k. apply Hg. }
    repeat split; auto. }
  exists o. split; auto. split; auto. intros v i Hi Hpos Hd.
  pose proof (F v i Hi) as Fv. cbn [car RNum] in *. rewrite Fv.
  pose proof (extended_last RNum xc b (shp u) t u a pos v i) as X. rewrite X; auto.
  - rewrite Hf. reflexivity.
  - destruct pos; auto.
Qed.

(** ** ghost cells that stay uninitialised *)
Definition row_array {N : Num} (n : Z) : arr (car N) := mkarr 1 (mkix n 1 1) (fun _ _ => nofZ 0).
Definition plain_bc (N : Num) (l r : bct) : bcond N :=
  mkbc (fun _ p => match p with SL => l | SR => r end) (fun _ _ => V_other) None false.
Lemma uninit_wide (N : Num) junk t :
  exists out, apply N (plain_bc N B_periodic B_periodic) junk (row_array 1) (mkix 2 0 0) t = Ok out /\
    shp out = mkix 5 1 1 /\ at_ out 0 (mkix 0 0 0) = junk 0 (mkix 1 0 0).
Proof. eexists. split; [reflexivity|]. split; reflexivity. Qed.
Lemma uninit_symmetric (N : Num) junk t :
  exists out, apply N (plain_bc N B_outflow B_outflow) junk (row_array 1) (mkix 2 0 0) t = Ok out /\
    shp out = mkix 5 1 1 /\ at_ out 0 (mkix 0 0 0) = junk 0 (mkix 3 0 0).
Proof. eexists. split; [reflexivity|]. split; reflexivity. Qed.
Lemma uninit_mixed (N : Num) junk t :
  exists out, apply N (plain_bc N B_free B_periodic) junk (row_array 8) (mkix 1 0 0) t = Ok out /\
    shp out = mkix 10 1 1 /\ at_ out 0 (mkix 9 0 0) = junk 0 (mkix 9 0 0).
Proof. eexists. split; [reflexivity|]. split; reflexivity. Qed.
Lemma uninit_none (N : Num) junk t :
  exists out, apply N (plain_bc N B_none B_none) junk (row_array 8) (mkix 1 0 0) t = Ok out /\
    shp out = mkix 10 1 1 /\ at_ out 0 (mkix 0 0 0) = junk 0 (mkix 0 0 0).
Proof. eexists. split; [reflexivity|]. split; reflexivity. Qed.
Lemma wide_ghosts : forall (N : Num) (x y : car N) t,
  exists junk junk' out out',
    apply N (plain_bc N B_periodic B_periodic) junk (row_array 1) (mkix 2 0 0) t = Ok out /\
    apply N (plain_bc N B_periodic B_periodic) junk' (row_array 1) (mkix 2 0 0) t = Ok out' /\
    in_shape (shp out) (mkix 0 0 0) /\
    at_ out 0 (mkix 0 0 0) = x /\ at_ out' 0 (mkix 0 0 0) = y.
Proof.
  intros. exists (fun _ _ => x), (fun _ _ => y).
  destruct (uninit_wide N (fun _ _ => x) t) as (o & E & S & F).
  destruct (uninit_wide N (fun _ _ => y) t) as (o' & E' & S' & F').
  exists o, o'. split; [exact E|]. split; [exact E'|].
  split; [intro a; rewrite S; destruct a; cbn; lia|]. split; [exact F|exact F'].
Qed.
Lemma folded_meaning : forall n k,
  (k < 0 -> forall r, folded B_free r n k = 0 /\ folded B_outflow r n k = -1 - k /\
     folded B_reflective r n k = -1 - k /\ folded B_periodic r n k = k + n /\
     negated B_reflective r n k = true /\ negated B_outflow r n k = false) /\
  (0 <= n <= k -> forall l, folded l B_free n k = n - 1 /\ folded l B_outflow n k = 2 * n - 1 - k /\
     folded l B_reflective n k = 2 * n - 1 - k /\ folded l B_periodic n k = k - n /\
     negated l B_reflective n k = true /\ negated l B_free n k = false).
Proof.
  intros n k. unfold folded, negated. split; intros H x.
  - destruct (Z.ltb_spec k 0); [|lia]. repeat split.
  - destruct (Z.ltb_spec k 0); [lia|]. destruct (Z.leb_spec n k); [|lia]. repeat split.
Qed.
Definition dirichlet_example : bcond RNum :=
  mkbc (fun a p => match a, p with AX, SL => B_dirichlet | AX, SR => B_free | _, _ => B_periodic end)
       (fun a p => match a, p with
                   | AX, SL => @V_func RNum (fun t x y z v => (match t with Some t => x - t | None => x end)%R)
                   | _, _ => V_other end)
       (Some (slab_mesh RNum (mkix 4 4 1) (0, 1)%R (0, 1)%R (0, 1)%R (mkix 3 3 3))) false.
Lemma dirichlet_example_ok : let b := dirichlet_example in
  let s := mkix 4 4 1 in let g := mkix 2 2 0 in
  (forall d, 0 <= getc d g <= getc d (mkix 3 3 3)) /\
  (forall d p, getc d g <> 0 ->
     (copies (bc_type b d p) /\ enough (bc_type b d p) (getc d s) (getc d g)) \/
     (prescribes (bc_type b d p) /\
      match bc_val b d p with V_other => False | V_array len _ => len = 5 \/ len = 1 | V_func _ => True | V_mesh _ => False end)) /\
  (forall d, getc d g <> 0 -> bc_type b d SR = B_periodic -> bc_type b d SL = B_periodic) /\
  prescribes (bc_type b AX SL) /\ exists f, bc_val b AX SL = V_func f.
Proof.
  cbv zeta. repeat split; try (destruct d; cbn; lia).
  - intros [] [] H; cbn in *; try (exfalso; lia); try (left; split; [exact I|lia]); right; split; exact I.
  - intros [] H; cbn; intros; congruence.
  - eexists. reflexivity.
Qed.
Lemma dmr_error : forall (N : Num) junk t sl,
  apply N (mkbc (fun a p => match a, p with AY, SL => B_dmr | _, _ => B_free end)
                (fun _ _ => V_other) (Some (fun _ _ => (sl, sl, sl))) false)
    junk (mkarr 5 (mkix 4 4 1) (fun _ _ => nofZ 0)) (mkix 0 1 0) t
  = if (cx (shp sl) <? 0) || (cy (shp sl) - 1 <? 0) || (cz (shp sl) <? 0) then Err ValueError else Err TypeError.
Proof.
  intros. rewrite apply_unfold. unfold pad_empty, both_sides, apply_slab. cbn [cx cy cz Z.ltb Z.compare orb bind getc Z.eqb bc_type].
  unfold trim_slabs. cbn [bc_slabs]. unfold slab_buffer. cbn [fst snd cx cy cz].
  rewrite !Z.sub_0_r. destr_if; reflexivity.
Qed.
