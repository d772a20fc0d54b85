(** A reflecting wall is a plane of symmetry of a larger domain also with slope limiting. *)
From Coq Require Import ZArith List Bool Lia Reals Lra FunctionalExtensionality.
From Verif Require Import Err Num PySlice NdArray HydroM RiemannM StencilsM FvM BcM SedM
  LimitM OdeM SolverM Spec SpecBc SpecLim SpecSolver SpecCons SpecScheme SpecSym SpecMirLim SpecFold SpecQuiet NdArrayP FvP BcP BcQ OpP SolverP OdeP RelP RelS LimP RunP ConsP
  RiemannP HydroP SlopeP WallP BroadP DetectP ConvexP ExistP SchemeP SymP SeamP ShiftP WatchP UniformP LimExistP MirrorP SymLimP MirLimP BoostP FoldP QuietP ShiftLimP.
Import ListNotations.
Local Open Scope Z_scope.

Local Notation wi := (wts_i RNum).
Local Notation wt := (wts_t RNum).
(** ** moved grids *)
Lemma trace_slide_s p sl a pos d k w : trace wi p sl a pos (slide d k w) = slide d k (trace wi p sl a pos w).
Proof.
  destruct sl as [s|]; [|apply trace_slide]. pose proof (trace_slide p a pos d k w) as TR. unfold trace in *. cbv zeta in *. rewrite across_slide in *.
  apply grid_eq. intros v i. unfold slide at 6. destruct (getc a p =? 1); [|exact (f_equal (fun f : grid => f v i) TR)].
  unfold slide. rewrite !(up_up a d). reflexivity.
Qed.
Lemma flux_slide_s c p sl a d k E : face_flux wi wt c p sl a (slide d k E) = slide d k (face_flux wi wt c p sl a E).
Proof.
  unfold face_flux. cbv zeta. rewrite primitives_slide, !trace_slide_s, <- across_slide. f_equal. apply grid_eq. intros v i. unfold slide. rewrite up_up. reflexivity.
Qed.
Lemma up_back d k i : up d k (up d (- k) i) = i.
Proof. unfold up. rewrite getc_setc_eq, setc_setc. replace (getc d i + - k + k) with (getc d i) by lia. apply setc_getc. Qed.
Lemma back_up d k i : up d (- k) (up d k i) = i.
Proof. unfold up. rewrite getc_setc_eq, setc_setc. replace (getc d i + k + - k) with (getc d i) by lia. apply setc_getc. Qed.
(** ** extrema over boxes *)
Lemma box_extrema (n g : ix) (f : ix -> R) : (forall a, 1 <= getc a n) -> (forall a, 0 <= getc a g) ->
  exists lo hi, least (in_padded n g) f lo /\ greatest (in_padded n g) f hi.
Proof.
  intros Hn Hg. set (u := mkarr 1 (padded n g) (fun _ j => f (mkix (cx j - cx g) (cy j - cy g) (cz j - cz g)))).
  destruct (row_extrema u 0) as [A B].
  { intro a. cbn [u shp]. rewrite getc_padded. specialize (Hn a). specialize (Hg a). lia. }
  exists (row_fold RNum Rmin u 0), (row_fold RNum Rmax u 0).
  assert (C1 : covers (in_shape (shp u)) (in_padded n g) (at_ u 0) f).
  { intros j Hj. exists (mkix (cx j - cx g) (cy j - cy g) (cz j - cz g)). split; [|reflexivity].
    intro a. specialize (Hj a). cbn [u shp] in Hj. rewrite getc_padded in Hj. destruct a; cbn [getc cx cy cz] in *; lia. }
  assert (C2 : covers (in_padded n g) (in_shape (shp u)) f (at_ u 0)).
  { intros j Hj. exists (mkix (cx j + cx g) (cy j + cy g) (cz j + cz g)). split.
    - intro a. specialize (Hj a). cbn [u shp]. rewrite getc_padded. destruct a; cbn [getc cx cy cz] in *; lia.
    - cbn [u at_ cx cy cz]. f_equal. destruct j as [x y z]. cbn [cx cy cz]. f_equal; lia. }
  split; [eapply least_map; [exact C1|exact C2|exact B]|eapply greatest_map; [exact C1|exact C2|exact A]].
Qed.
Lemma strays_local q D Z1 Z2 f x : nad_mode_ q = M_local -> (exists lo hi, least Z2 f lo /\ greatest Z2 f hi) -> strays q D Z1 f x -> strays q D Z2 f x.
Proof.
  intros M (lo & hi & A & B) (l & h & g1 & g2 & Q1 & Q2 & Q3 & Q4 & Q). exists l, h, lo, hi. repeat (split; [assumption|]). cbv zeta in *. rewrite M in *. exact Q.
Qed.
(** ** flags *)
Section Runs.
Context (c : config RNum) (b' : bcond RNum) (d : axis) (HT : tabulated c) (HC : closed c)
  (X : upper_at_both_ends d (c_bc c) b') (WL : bc_type (c_bc c) d SL = B_reflective) (HA : ~ inactive c d).
Local Notation n := (c_n c).
Local Notation m := (getc d (c_n c)).
Local Notation c' := (doubled d b' c).
Local Notation n' := (setc d (2 * getc d (c_n c)) (c_n c)).
Local Notation back i := (up d (- m) i).
Local Notation mir i := (setc d (-1 - getc d i) i).
Definition half (i : ix) : ix := if 0 <=? getc d i then i else mir i.
Lemma active_double a : active RNum c' a = active RNum c a.
Proof. rewrite !active_inactive, (inactive_double c b' d HT HA). reflexivity. Qed.
Lemma dims_double : dims RNum c' = dims RNum c.
Proof. unfold dims. apply filter_ext. intro a. apply active_double. Qed.
Lemma aw_double k : active_width RNum c' k = active_width RNum c k.
Proof. unfold active_width. rewrite !active_double. reflexivity. Qed.
Lemma act_d : active RNum c d = true. Proof. apply active_spec, HA. Qed.
Lemma getc_back_d i : getc d (back i) = getc d i - m. Proof. unfold up. rewrite getc_setc_eq. lia. Qed.
Lemma getc_back a i : a <> d -> getc a (back i) = getc a i. Proof. intro NE. unfold up. apply getc_setc_ne. auto. Qed.
Lemma getc_half_d i : getc d (half i) = if 0 <=? getc d i then getc d i else -1 - getc d i.
Proof. unfold half. destruct (_ <=? _); [reflexivity|apply getc_setc_eq]. Qed.
Lemma getc_half a i : a <> d -> getc a (half i) = getc a i.
Proof. intro NE. unfold half. destruct (_ <=? _); [reflexivity|apply getc_setc_ne; auto]. Qed.
Lemma half_shape i : in_shape n' i -> in_shape n (half (back i)).
Proof.
  intros H a. specialize (H a). destruct (axis_dec a d) as [->|NE].
  - rewrite getc_setc_eq in H. rewrite getc_half_d, getc_back_d. destruct (Z.leb_spec 0 (getc d i - m)); lia.
  - rewrite getc_setc_ne in H by auto. rewrite getc_half, getc_back by auto. exact H.
Qed.
Context (HF : c_force c = true \/ wall_fair d (c_nad c)).
Local Notation sym f := (refl d (sg d) (-1) f = f).
Lemma sym_at (f : grid) v i : sym f -> f v i = (sg d v * f v (mir i))%R.
Proof. intro H. exact (eq_sym (f_equal (fun g : grid => g v i) H)). Qed.
Lemma sg_ne v : v <> comp d -> sg d v = 1%R.
Proof. intro H. unfold sg. change (vrow d) with (comp d). rewrite (proj2 (Z.eqb_neq _ _) H). reflexivity. Qed.
Lemma sg_comp : sg d (comp d) = (-1)%R.
Proof. unfold sg. change (vrow d) with (comp d). rewrite Z.eqb_refl. reflexivity. Qed.
Lemma at_half (f : grid) v i : sym f -> v <> comp d -> f v (half i) = f v i.
Proof. intros S NE. unfold half. destruct (_ <=? _); [reflexivity|]. rewrite (sym_at f v i S), (sg_ne v NE). ring. Qed.
Lemma near_back i j : nearby (dims RNum c') i j -> nearby (dims RNum c) (back i) (back j).
Proof.
  rewrite dims_double. intros H a. specialize (H a). destruct (axis_dec a d) as [->|NE]; [rewrite !getc_back_d|rewrite !getc_back by exact NE]; destruct (mem_axis _ _); lia.
Qed.
Lemma near_up i j : nearby (dims RNum c) (back i) j -> nearby (dims RNum c') i (up d m j).
Proof.
  rewrite dims_double. intros H a. specialize (H a). destruct (axis_dec a d) as [->|NE].
  - rewrite getc_back_d in H. unfold up. rewrite getc_setc_eq. destruct (mem_axis _ _); lia.
  - rewrite getc_back in H by exact NE. unfold up. rewrite getc_setc_ne by auto. exact H.
Qed.
Lemma near_mir i j : nearby (dims RNum c) i j -> nearby (dims RNum c) (mir i) (mir j).
Proof. intros H a. specialize (H a). destruct (axis_dec d a) as [<-|E]; co; destruct (mem_axis _ _); lia. Qed.
Lemma mir2 i : mir (mir i) = i.
Proof. rewrite getc_setc_eq, setc_setc. replace (-1 - (-1 - getc d i)) with (getc d i) by lia. apply setc_getc. Qed.
Local Notation aw := (active_width RNum c 3).
Lemma aw_pos a : 0 <= getc a aw. Proof. rewrite getc_active_width. destruct (active RNum c a); lia. Qed.
Lemma zone_half j : in_padded n' aw j -> in_padded n aw (half (back j)).
Proof.
  intros H a. specialize (H a). pose proof (aw_pos a). destruct (axis_dec a d) as [->|NE].
  - rewrite getc_setc_eq in H. rewrite getc_half_d, getc_back_d. destruct (Z.leb_spec 0 (getc d j - m)); lia.
  - rewrite getc_setc_ne in H by auto. rewrite getc_half, getc_back by auto. exact H.
Qed.
Lemma zone_up j : in_padded n aw j -> in_padded n' aw (up d m j).
Proof.
  intros H a. specialize (H a). destruct (axis_dec a d) as [->|NE].
  - unfold up. rewrite !getc_setc_eq. pose proof (m_pos c d HT). lia.
  - unfold up. rewrite !getc_setc_ne by auto. exact H.
Qed.
Lemma strays_half (w : grid) v i x : sym w -> v <> comp d ->
  strays (c_nad c) (nearby (dims RNum c') i) (in_padded n' (active_width RNum c' 3)) (slide d (- m) w v) x <->
  strays (c_nad c) (nearby (dims RNum c) (half (back i))) (in_padded n aw) (w v) x.
Proof.
  intros S NE. rewrite aw_double. apply strays_map.
  - intros j Hj. apply near_back in Hj. unfold half. destruct (0 <=? getc d (back i)).
    + exists (back j). split; [exact Hj|reflexivity].
    + exists (mir (back j)). split; [apply near_mir, Hj|]. unfold slide. rewrite (sym_at w v (back j) S), (sg_ne v NE). ring.
  - intros j Hj. unfold half in Hj. destruct (0 <=? getc d (back i)).
    + exists (up d m j). split; [apply near_up, Hj|]. unfold slide. rewrite back_up. reflexivity.
    + exists (up d m (mir j)). split; [apply near_up; rewrite <- (mir2 (back i)); apply near_mir, Hj|].
      unfold slide. rewrite back_up, (sym_at w v j S), (sg_ne v NE). ring.
  - intros j Hj. exists (half (back j)). split; [apply zone_half, Hj|]. exact (at_half w v (back j) S NE).
  - intros j Hj. exists (up d m j). split; [apply zone_up, Hj|]. unfold slide. rewrite back_up. reflexivity.
Qed.
Lemma strays_normal (w ws : grid) i : sym w -> sym ws -> nad_range_ (c_nad c) = R_relative -> nad_mode_ (c_nad c) = M_local ->
  strays (c_nad c) (nearby (dims RNum c') i) (in_padded n' (active_width RNum c' 3)) (slide d (- m) w (comp d)) (slide d (- m) ws (comp d) i) <->
  strays (c_nad c) (nearby (dims RNum c) (half (back i))) (in_padded n aw) (w (comp d)) (ws (comp d) (half (back i))).
Proof.
  intros S SS Q1 Q2. rewrite aw_double. set (f := w (comp d)).
  assert (EX : exists lo hi, least (in_padded n aw) f lo /\ greatest (in_padded n aw) f hi) by (apply box_extrema; [apply HT|apply aw_pos]).
  assert (EX' : exists lo hi, least (in_padded n' aw) (slide d (- m) w (comp d)) lo /\ greatest (in_padded n' aw) (slide d (- m) w (comp d)) hi).
  { apply box_extrema; [|apply aw_pos]. intro a. destruct (double_tab c b' d HT) as [[Sn _ _ _] _]. exact (Sn a). }
  (* any domain that exists will do *)
  assert (L : forall D Z1 Z2 g y, (exists lo hi, least Z1 g lo /\ greatest Z1 g hi) -> (exists lo hi, least Z2 g lo /\ greatest Z2 g hi) -> (strays (c_nad c) D Z1 g y <-> strays (c_nad c) D Z2 g y)).
  { intros D Z1 Z2 g y E1 E2. split; apply strays_local; assumption. }
  set (Zb := fun j => in_padded n aw (back j)).
  assert (EB : exists lo hi, least Zb (slide d (- m) w (comp d)) lo /\ greatest Zb (slide d (- m) w (comp d)) hi).
  { destruct EX as (lo & hi & A & B). exists lo, hi. 
    assert (C1 : covers (in_padded n aw) Zb f (slide d (- m) w (comp d))) by (intros j Hj; exists (up d m j); unfold Zb, slide; rewrite back_up; auto).
    assert (C2 : covers Zb (in_padded n aw) (slide d (- m) w (comp d)) f) by (intros j Hj; exists (back j); auto).
    split; [eapply least_map; [exact C1|exact C2|exact A]|eapply greatest_map; [exact C1|exact C2|exact B]]. }
  rewrite (L _ _ Zb _ _ EX' EB).
  assert (U : forall y, strays (c_nad c) (nearby (dims RNum c') i) Zb (slide d (- m) w (comp d)) y <-> strays (c_nad c) (nearby (dims RNum c) (back i)) (in_padded n aw) f y).
  { intro y. apply strays_map.
    - intros j Hj. exists (back j). split; [apply near_back, Hj|reflexivity].
    - intros j Hj. exists (up d m j). split; [apply near_up, Hj|unfold slide; rewrite back_up; reflexivity].
    - intros j Hj. exists (back j). split; [exact Hj|reflexivity].
    - intros j Hj. exists (up d m j). unfold Zb, slide. rewrite back_up. auto. }
  rewrite U. unfold half. destruct (0 <=? getc d (back i)); [reflexivity|].
  rewrite <- (strays_opp (c_nad c) (nearby (dims RNum c) (mir (back i)))) by exact Q1.
  replace (- ws (comp d) (mir (back i)))%R with (slide d (- m) ws (comp d) i) by (unfold slide; rewrite (sym_at ws (comp d) (back i) SS), sg_comp; ring).
  set (Zm := fun j => in_padded n aw (mir j)).
  assert (EM : exists lo hi, least (in_padded n aw) (fun j => - f j)%R lo /\ greatest (in_padded n aw) (fun j => - f j)%R hi) by (apply box_extrema; [apply HT|apply aw_pos]).
  assert (FM : forall j, f j = (- f (mir j))%R) by (intro j; unfold f; rewrite (sym_at w (comp d) j S), sg_comp; ring).
  assert (EZ : exists lo hi, least Zm f lo /\ greatest Zm f hi).
  { destruct EM as (lo & hi & A & B). exists lo, hi.
    assert (C1 : covers (in_padded n aw) Zm (fun j => - f j)%R f) by (intros j Hj; exists (mir j); unfold Zm; rewrite mir2; split; [exact Hj|rewrite FM, mir2; reflexivity]).
    assert (C2 : covers Zm (in_padded n aw) f (fun j => - f j)%R) by (intros j Hj; exists (mir j); split; [exact Hj|rewrite (FM j); reflexivity]).
    split; [eapply least_map; [exact C1|exact C2|exact A]|eapply greatest_map; [exact C1|exact C2|exact B]]. }
  rewrite (L _ _ Zm _ _ EX EZ). apply strays_map.
  - intros j Hj. exists (mir j). split; [apply near_mir, Hj|rewrite (FM j); reflexivity].
  - intros j Hj. exists (mir j). split; [rewrite <- (mir2 (back i)); apply near_mir, Hj|rewrite FM, mir2; reflexivity].
  - intros j Hj. exists (mir j). split; [exact Hj|rewrite (FM j); reflexivity].
  - intros j Hj. exists (mir j). unfold Zm. rewrite mir2. split; [exact Hj|rewrite FM, mir2; reflexivity].
Qed.
Lemma flag_half (w ws : grid) i : sym w -> sym ws -> flag c' (slide d (- m) w) (slide d (- m) ws) i <-> flag c w ws (half (back i)).
Proof.
  intros S SS. unfold flag. cbn [doubled c_force c_nad]. destruct HF as [FO|(Q1 & Q2 & Q3)]; [rewrite FO; tauto|].
  apply or_iff_compat_l. assert (A : violates_last (pad_bounds (c_nad c)) (fun v => slide d (- m) ws v i) <-> violates_last (pad_bounds (c_nad c)) (fun v => ws v (half (back i)))).
  { unfold violates_last. destruct (pad_bounds (c_nad c)) as [l|] eqn:PB; [|tauto].
    assert (Y : forall e, l = removelast l ++ [e] -> slide d (- m) ws (fst e) i = ws (fst e) (half (back i))).
    { intros e He. assert (NE : fst e <> comp d) by (apply (Q3 (removelast l) e); rewrite <- He; reflexivity). symmetry. exact (at_half ws (fst e) (back i) SS NE). }
    split; intros (e & He & H); exists e; (split; [exact He|]); [exact (eq_ind _ (fun x => out_of_bounds (snd e) x) H _ (Y e He))|exact (eq_ind_r (fun x => out_of_bounds (snd e) x) H (Y e He))]. }
  rewrite A. apply or_iff_compat_l.
  assert (SR0 : forall v, selected (c_nad c) 5 v ->
    strays (c_nad c) (nearby (dims RNum c') i) (in_padded n' (active_width RNum c' 3)) (slide d (- m) w v) (slide d (- m) ws v i) <->
    strays (c_nad c) (nearby (dims RNum c) (half (back i))) (in_padded n aw) (w v) (ws v (half (back i)))).
  { intros v SV. destruct (Z.eq_dec v (comp d)) as [->|NE].
    - destruct Q2 as [[Q2 Q4]|Q2]; [|contradiction]. apply strays_normal; assumption.
    - rewrite (at_half ws v (back i) SS NE). apply strays_half; assumption. }
  split; intros (v & SV & H & _); exists v; (split; [exact SV|]); (split; [apply (SR0 v SV), H|congruence]).
Qed.
(** ** weights *)
Lemma blend_le i j i' j' : (forall a, Z.abs (getc a i' - getc a j') <= Z.abs (getc a i - getc a j)) -> (blend_weight i j <= blend_weight i' j')%R.
Proof.
  intro H. unfold blend_weight. cbv zeta. pose proof (H AX) as HX. pose proof (H AY) as HY. pose proof (H AZ) as HZ.
  set (x := Z.abs (getc AX i - getc AX j)) in *. set (y := Z.abs (getc AY i - getc AY j)) in *. set (z := Z.abs (getc AZ i - getc AZ j)) in *.
  set (x' := Z.abs (getc AX i' - getc AX j')) in *. set (y' := Z.abs (getc AY i' - getc AY j')) in *. set (z' := Z.abs (getc AZ i' - getc AZ j')) in *.
  assert (0 <= x') by (unfold x'; lia). assert (0 <= y') by (unfold y'; lia). assert (0 <= z') by (unfold z'; lia). clearbody x y z x' y' z'.
  repeat destr_if; zb; try lra; exfalso; lia.
Qed.
Lemma face_value_dom2 cv k k' fl fl' a i a' i' w w' : face_value cv k fl a i w ->
  (bordering k fl a i <-> bordering k' fl' a' i') ->
  (cv = true -> forall cc j, touches a i cc -> in_shape k j -> fl j -> exists cc' j', touches a' i' cc' /\ in_shape k' j' /\ fl' j' /\ (blend_weight cc j <= blend_weight cc' j')%R) ->
  (cv = true -> forall cc j, touches a' i' cc -> in_shape k' j -> fl' j -> exists cc' j', touches a i cc' /\ in_shape k j' /\ fl j' /\ (blend_weight cc j <= blend_weight cc' j')%R) ->
  face_value cv k' fl' a' i' w' -> w = w'.
Proof.
  intros H BB W1 W2 H'. destruct cv; cbn [face_value] in *.
  - specialize (W1 eq_refl). specialize (W2 eq_refl).
    assert (P : forall n fl a i w, weighed n fl a i w -> (0 <= w)%R).
    { intros n0 fl0 a0 i0 w0 [_ [->|(cc & j & _ & _ & _ & ->)]]; [lra|apply blend_nonneg]. }
    pose proof (P _ _ _ _ _ H) as P1. pose proof (P _ _ _ _ _ H') as P2. destruct H as [U V], H' as [U' V']. apply Rle_antisym.
    + destruct V as [->|(cc & j & T & J & F & ->)]; [exact P2|]. destruct (W1 cc j T J F) as (cc' & j' & T' & J' & F' & LE). eapply Rle_trans; [exact LE|]. apply U'; assumption.
    + destruct V' as [->|(cc & j & T & J & F & ->)]; [exact P1|]. destruct (W2 cc j T J F) as (cc' & j' & T' & J' & F' & LE). eapply Rle_trans; [exact LE|]. apply U; assumption.
  - destruct H as [A1 A2], H' as [B1 B2]. destruct (Classical_Prop.classic (bordering k fl a i)) as [B|B].
    + rewrite A1, B1 by tauto. reflexivity.
    + rewrite A2, B2 by tauto. reflexivity.
Qed.
Lemma touches_up a i j : touches a i j -> touches a (up d m i) (up d m j).
Proof. intros [-> | ->]; [left; reflexivity|right]. change (moved a (-1)) with (up a (-1)). rewrite up_up. reflexivity. Qed.
Lemma touches_back a i j : touches a (up d m i) j -> touches a i (back j).
Proof. intros [-> | ->]; [left; apply back_up|right]. change (moved a (-1)) with (up a (-1)). rewrite up_up, back_up. reflexivity. Qed.
Lemma shape_up i : in_shape n i -> in_shape n' (up d m i).
Proof. intros H a. specialize (H a). destruct (axis_dec a d) as [->|NE]; unfold up; [rewrite !getc_setc_eq; lia|rewrite !getc_setc_ne by auto; exact H]. Qed.
(** a cell next to a face of the half domain, or its mirror image, is next to it and not behind the wall *)
Lemma touches_half a i j : in_shape (face_shape a n) i -> touches a i j -> touches a i (half j) /\ (getc d j = -1 \/ 0 <= getc d j).
Proof.
  intros I T. pose proof (I d) as Id. assert (I0 : 0 <= getc d i) by lia. destruct T as [-> | ->].
  - split; [|right; exact I0]. left. unfold half. rewrite (proj2 (Z.leb_le _ _) I0). reflexivity.
  - change (moved a (-1)) with (up a (-1)). destruct (axis_dec a d) as [->|NE].
    + assert (E : getc d (up d (-1) i) = getc d i - 1) by (unfold up; rewrite getc_setc_eq; lia). split; [|rewrite E; lia].
      unfold half. rewrite E. destruct (Z.leb_spec 0 (getc d i - 1)); [right; reflexivity|]. left. unfold up. rewrite setc_setc.
      replace (-1 - (getc d i - 1)) with (getc d i) by lia. apply setc_getc.
    + assert (E : getc d (up a (-1) i) = getc d i) by (unfold up; apply getc_setc_ne; auto). rewrite E. split; [|right; exact I0].
      right. unfold half. rewrite E, (proj2 (Z.leb_le _ _) I0). reflexivity.
Qed.
Lemma half_up_id i : 0 <= getc d i -> half (back (up d m i)) = i.
Proof. intro H. rewrite back_up. unfold half. rewrite (proj2 (Z.leb_le _ _) H). reflexivity. Qed.
Lemma weights_upper fl fl' th th' a i : (forall i, in_shape n' i -> fl' i <-> fl (half (back i))) ->
  weighs c fl th -> weighs c' fl' th' -> active RNum c a = true -> in_shape (face_shape a n) i -> wgt th' a (up d m i) = wgt th a i.
Proof.
  intros HFl W W' A I. symmetry.
  assert (I' : in_shape (face_shape a n') (up d m i)).
  { intro b. specialize (I b). revert I. unfold face_shape, up. destruct (axis_dec a d) as [->|NA]; (destruct (axis_dec d b) as [<-|E]; [co; lia|]); [co; lia|]. destruct (axis_dec a b) as [<-|E']; co; lia. }
  assert (FU : forall j, in_shape n j -> fl' (up d m j) <-> fl j).
  { intros j Hj. rewrite (HFl _ (shape_up j Hj)), half_up_id by apply Hj. reflexivity. }
  eapply face_value_dom2; [exact (W a i A I)| | | |apply (W' a (up d m i)); [rewrite active_double; exact A|exact I']].
  - split.
    + intros (j & T & J & F). exists (up d m j). split; [apply touches_up, T|]. split; [apply shape_up, J|apply FU; assumption].
    + intros (j & T & J & F). exists (half (back j)). split; [apply (touches_half a i (back j) I), touches_back, T|]. split; [apply half_shape, J|apply HFl; assumption].
  - intros _ cc j T J F. exists (up d m cc), (up d m j). split; [apply touches_up, T|]. split; [apply shape_up, J|]. split; [apply FU; assumption|].
    apply blend_le. intro b. unfold up. destruct (axis_dec d b) as [<-|E]; co; lia.
  - intros _ cc j T J F. apply touches_back in T. destruct (touches_half a i (back cc) I T) as [T2 TD].
    exists (if 0 <=? getc d (back j) then back cc else half (back cc)), (half (back j)).
    split; [destruct (_ <=? _); assumption|]. split; [apply half_shape, J|]. split; [apply HFl; assumption|].
    apply blend_le. intro b. destruct (axis_dec b d) as [->|E].
    + rewrite getc_half_d. rewrite !getc_back_d in *. destruct (Z.leb_spec 0 (getc d j - m)); [rewrite getc_back_d; lia|]. rewrite getc_half_d, getc_back_d. destruct (Z.leb_spec 0 (getc d cc - m)); lia.
    + rewrite (getc_half b (back j)), !(getc_back b) by exact E. destruct (_ <=? _); [|rewrite (getc_half b) by exact E]; rewrite (getc_back b) by exact E; lia.
Qed.
Lemma weights_lower fl fl' th th' a i : (forall i, in_shape n' i -> fl' i <-> fl (half (back i))) ->
  weighs c fl th -> weighs c' fl' th' -> active RNum c a = true -> in_shape (face_shape a n) i ->
  wgt th' a (setc d ((if axis_eqb a d then m else m - 1) - getc d i) i) = wgt th a i.
Proof.
  intros HFl W W' A I. set (j := setc d _ i).
  assert (J : in_shape (face_shape a n') j).
  { intro b. specialize (I b). revert I. unfold j, face_shape. destruct (axis_dec a d) as [->|NA].
    - rewrite axis_eqb_refl. destruct (axis_dec d b) as [<-|E]; co; lia.
    - axf. destruct (axis_dec d b) as [<-|E]; [co; lia|]. destruct (axis_dec a b) as [<-|E']; co; lia. }
  rewrite <- (weights_upper fl fl' th th' a i HFl W W' A I).
  replace (up d m i) with (flip_face c' d a j).
  - apply (weights_refl c' d fl' fl' th' th' a j); auto; [|rewrite active_double; exact A].
    intros q Hq. cbn [doubled c_n] in *. rewrite getc_setc_eq.
    assert (Hq' : in_shape n' (setc d (2 * m - 1 - getc d q) q)).
    { intro b. specialize (Hq b). revert Hq. destruct (axis_dec d b) as [<-|E]; co; lia. }
    rewrite (HFl _ Hq), (HFl _ Hq'). assert (EQ : half (back (setc d (2 * m - 1 - getc d q) q)) = half (back q)); [|rewrite EQ; reflexivity].
    apply ix_ext. intro b. destruct (axis_dec b d) as [->|E].
    + rewrite !getc_half_d, !getc_back_d, getc_setc_eq. destruct (Z.leb_spec 0 (2 * m - 1 - getc d q - m)), (Z.leb_spec 0 (getc d q - m)); lia.
    + rewrite !getc_half, !getc_back, getc_setc_ne by auto. reflexivity.
  - unfold flip_face, j, up. cbn [doubled c_n]. rewrite !getc_setc_eq, setc_setc. f_equal. destruct (axis_eqb a d); lia.
Qed.
(** ** rates of change *)
Context (HL : c_limit c = true) (HK : known_options c).
Context (ok : arr R -> bool).
Context (G : c_rs c = RS_llf \/ (c_rs c = RS_hllc /\ (0 < c_csq_floor c)%R /\ (1 <= c_gamma c)%R /\
  forall u, shp u = n -> ok u = true -> (c_force c = true \/ physical_traces wi wt c (filled c u)) /\ physical_low_traces wi wt c (slope_of (c_limiter c)) (filled c u))).
Lemma zones_behind i k j : in_shape n' i -> getc d (back i) < 0 -> k = 0 \/ k = 1 -> getc d j = getc d (up d k (back i)) ->
  (forall a, a <> d -> Z.abs (getc a j - getc a (up d k (back i))) <= stencil_right (getc a (c_p c))) ->
  face_zone c d (setc d (-1 + 1 - getc d j) j) /\ face_zone c d (up d (-1) (setc d (-1 + 1 - getc d j) j)).
Proof.
  intros Hi K Hk J1 J2. set (q := setc d (-1 + 1 - getc d j) j).
  assert (J1' : getc d j = getc d i - m + k) by (rewrite J1; unfold up at 1; rewrite getc_setc_eq, getc_back_d; reflexivity).
  rewrite getc_back_d in K.
  assert (Qd : getc d q = - getc d j) by (unfold q; rewrite getc_setc_eq; lia).
  assert (Qa : forall a, a <> d -> getc a q = getc a j) by (intros a NE; unfold q; apply getc_setc_ne; auto).
  assert (ID : inactive_b c d = false) by (pose proof act_d as A; rewrite active_inactive in A; apply negb_true_iff in A; exact A).
  assert (Z0 : forall a, a <> d -> - (if inactive_b c a then 0 else half_up (getc a (c_p c))) <= getc a j < getc a n + (if inactive_b c a then 0 else half_up (getc a (c_p c)))).
  { intros a Na. specialize (J2 a Na). unfold up at 1 in J2. rewrite getc_setc_ne, getc_back in J2 by auto. specialize (Hi a). rewrite getc_setc_ne in Hi by auto. rewrite half_up_sr. destruct (inactive_b c a) eqn:I; [|lia].
    pose proof (proj2 (proj2 (tab_good RNum c HT a)) ltac:(rewrite active_inactive, I; reflexivity)) as P0. rewrite P0 in J2. cbn in J2. lia. }
  specialize (Hi d). rewrite getc_setc_eq in Hi. split; intro a; cbv zeta; (destruct (axis_dec a d) as [->|E0]; [rewrite ID, axis_eqb_refl; unfold up; rewrite ?getc_setc_eq, Qd; destruct Hk; lia|]);
      axf; unfold up; rewrite ?getc_setc_ne by auto; rewrite Qa by exact E0; apply Z0, E0.
Qed.
Local Notation lo := (low (c_p c)).
Lemma sr_low a : stencil_right (getc a lo) <= stencil_right (getc a (c_p c)).
Proof.
  pose proof (degs c HT a) as Da. replace (getc a lo) with (Z.min 1 (getc a (c_p c))) by (destruct a; reflexivity).
  rewrite <- !half_up_sr. unfold half_up. unfold deg_ok in Da. apply Z.div_le_mono; lia.
Qed.
Lemma linear_tab' : tabulated (linear c).
Proof.
  destruct HT as [[Sn Sp (a & Sa) Pd] P8]. assert (LG : forall b, getc b lo = Z.min 1 (getc b (c_p c))) by (intros []; reflexivity). split; [split|].
  - exact Sn.
  - intro b. cbn [linear c_p]. rewrite LG. specialize (Sp b). lia.
  - exists a. intros [I1 I2]. apply Sa. split; [exact I1|]. cbn [linear c_p] in I2. rewrite LG in I2. specialize (Sp a). lia.
  - exact Pd.
  - intro b. cbn [linear c_p]. rewrite LG. specialize (P8 b). specialize (Sp b). lia.
Qed.
Lemma traces_even_low sl u d0 pos r i : shp u = n -> ~ inactive c d0 -> face_zone c d0 i -> lr_pos pos ->
  trace wi lo sl d0 pos (primitives wi wt lo (c_gamma c) (even d (filled c u))) r i
  = trace wi lo sl d0 pos (primitives wi wt lo (c_gamma c) (filled c u)) r i.
Proof.
  intros Su A Z P. pose proof linear_tab' as HT1.
  assert (LK : looks (fun E => trace wi lo sl d0 pos (primitives wi wt lo (c_gamma c) E)) (fun b => 3 * stencil_right (getc b lo)) (fun b => 3 * stencil_right (getc b lo))).
  { eapply looks_le with (lo := fun b => stencil_right (getc b lo) + 2 * stencil_right (getc b lo)) (hi := fun b => stencil_right (getc b lo) + 2 * stencil_right (getc b lo)); [|intro b; cbv beta; lia|intro b; cbv beta; lia].
    refine (looks_comp (trace wi lo sl d0 pos) _ (fun b => stencil_right (getc b lo)) (fun b => stencil_right (getc b lo)) _ _ _ (looks_prims (linear c) HT1)).
    destruct sl as [s|]; [|exact (looks_trace (linear c) HT1 d0 pos P)].
    intros f g v j H. pose proof (looks_trace (linear c) HT1 d0 pos P f g v j H) as TR. unfold trace in *. cbv zeta in *. cbn [linear c_p] in TR. destruct (Z.eqb_spec (getc d0 lo) 1) as [E1|E1]; [|exact TR].
    assert (AC : forall k, -1 <= k <= 1 -> across d0 (fun b => wi (getc b lo) P_c) f v (up d0 k j) = across d0 (fun b => wi (getc b lo) P_c) g v (up d0 k j)).
    { intros k Hk. apply (looks_across (linear c) d0 (fun b => wi (getc b lo) P_c) (fun b => wi_len _ P_c (degs (linear c) HT1 b) lr_c)). intros w q Hq. apply H. intro b. specialize (Hq b).
      cbn [linear c_p] in Hq. unfold side_of in Hq. destruct (axis_dec b d0) as [->|NE].
      - rewrite axis_eqb_refl in Hq. unfold up in Hq. rewrite getc_setc_eq in Hq. rewrite E1. change (stencil_right 1) with 1. lia.
      - revert Hq. axf. unfold up. rewrite getc_setc_ne by auto. lia. }
    rewrite (AC 1), (AC (-1)) by lia. pose proof (AC 0 ltac:(lia)) as A0. rewrite !up_0 in A0. rewrite A0. reflexivity. }
  apply LK. intros w j Hj. apply even_filled; auto. apply (face_reach c HT d0 i j Z A). intro b. specialize (Hj b). pose proof (sr_low b). cbv beta in *. lia.
Qed.
Local Notation ev u := (even d (filled c u)).
Lemma behind_hi u i k j : c_force c = false -> shp u = n -> ok u = true -> in_shape n' i -> getc d (back i) < 0 -> k = 0 \/ k = 1 -> getc d j = getc d (up d k (back i)) ->
  (forall a, a <> d -> Z.abs (getc a j - getc a (up d k (back i))) <= stencil_right (getc a (c_p c))) ->
  good_faces_s (c_p c) (slope_of L_none) c d (ev u) (setc d (-1 + 1 - getc d j) j).
Proof.
  intros HF0 Su O Hi K Hk J1 J2. destruct G as [G1|(G1 & G2 & G3 & G4)]; [left; exact G1|right]. destruct (G4 u Su O) as [[P|P] _]; [congruence|].
  destruct (zones_behind i k j Hi K Hk J1 J2) as [Za Zb].
  destruct (P d _ P_r HA Zb (or_intror eq_refl)) as [A1 A2]. destruct (P d _ P_l HA Za (or_introl eq_refl)) as [B1 B2].
  split; [exact G1|]. split; [exact G2|]. split; [exact G3|]. change (slope_of L_none) with (@None (R -> R -> R)).
  split; split; unfold rho, press in *; rewrite (traces_even c d HT HC WL HA); auto; unfold lr_pos; auto.
Qed.
Lemma behind_lo u i k j : shp u = n -> ok u = true -> in_shape n' i -> getc d (back i) < 0 -> k = 0 \/ k = 1 -> getc d j = getc d (up d k (back i)) ->
  (forall a, a <> d -> Z.abs (getc a j - getc a (up d k (back i))) <= stencil_right (getc a (fallback_p RNum c))) ->
  good_faces_s (fallback_p RNum c) (slope_of (c_limiter c)) c d (ev u) (setc d (-1 + 1 - getc d j) j).
Proof.
  intros Su O Hi K Hk J1 J2. destruct G as [G1|(G1 & G2 & G3 & G4)]; [left; exact G1|right]. destruct (G4 u Su O) as [_ P].
  pose proof (low_is c HT) as LI. destruct (zones_behind i k j Hi K Hk J1) as [Za Zb].
  { intros a Na. specialize (J2 a Na). rewrite LI in J2. pose proof (sr_low a). lia. }
  destruct (P d _ P_r HA Zb (or_intror eq_refl)) as [A1 A2]. destruct (P d _ P_l HA Za (or_introl eq_refl)) as [B1 B2].
  split; [exact G1|]. split; [exact G2|]. split; [exact G3|]. rewrite LI.
  split; split; unfold rho, press in *; rewrite traces_even_low; auto; unfold lr_pos; auto.
Qed.
Context (HB : c_convex c = false \/ (flat_box c /\ flat_box c')).
Lemma mixed_half (fl fl' : ix -> Prop) th th' u v i : (c_force c = true -> forall j, fl j) -> shp u = n -> ok u = true -> (forall i, in_shape n' i -> fl' i <-> fl (half (back i))) ->
  weighs c fl th -> weighs c' fl' th' -> in_shape n' i ->
  gsum RNum c' (mixed RNum c' th' (slide d (- m) (ev u))) v i = unfolding c d (gsum RNum c (mixed RNum c th (ev u))) v i.
Proof.
  intros HA1 Su O HFl W W' I. set (E := ev u). pose proof (proj1 HK) as HU.
  assert (FG : forall (k : config RNum) p l a E' v' j, (forall b, deg_ok (getc b p)) -> gflux RNum k p l a E' v' j = face_flux wi wt k p (slope_of l) a E' v' j)
    by (intros; apply (gflux_is wi wt tables_are); assumption).
  assert (FB : fallback_p RNum c' = fallback_p RNum c) by reflexivity.
  set (H := fun (a : axis) v' j => mixed RNum c' th' (slide d (- m) E) a v' (up d m j)).
  assert (B1 : gsum RNum c' (mixed RNum c' th' (slide d (- m) E)) v i = balance c H v (back i)).
  { rewrite balance_is. unfold balance. cbv zeta. rewrite !(inactive_double c b' d HT HA), !(width_double c b' d HT). unfold H.
    rewrite !(up_up d _ m 1), up_back. reflexivity. }
  assert (MX : forall a v' j, active RNum c a = true -> in_shape (face_shape a n') (up d m j) -> H a v' j =
    ((1 - wgt th' a (up d m j)) * face_flux wi wt c (c_p c) (slope_of L_none) a E v' j + wgt th' a (up d m j) * face_flux wi wt c (fallback_p RNum c) (slope_of (c_limiter c)) a E v' j)%R).
  { intros a v' j A J. unfold H. rewrite mixed_wgt, FB. rewrite !FG by (apply (degs c HT) || apply (degs_low c HT)).
    rewrite !flux_slide_s. unfold slide. rewrite back_up. reflexivity. }
  rewrite B1. clear B1. unfold unfolding, slide at 1, even at 1.
  assert (SH : forall a k, k = 0 \/ k = 1 -> in_shape (face_shape a n') (up d m (up a k (back i)))).
  { intros a k Hk. rewrite up_up, up_back. intro b. specialize (I b). revert I. unfold face_shape, up. destruct (axis_dec a d) as [->|NA]; (destruct (axis_dec d b) as [<-|Eb]; [co; lia|]).
    - co; lia.
    - destruct (axis_dec a b) as [<-|E']; co; lia. }
  destruct (Z.leb_spec 0 (getc d (back i))) as [K|K].
  - rewrite balance_is. unfold balance. cbv zeta.
    assert (Q : forall a k, inactive_b c a = false -> k = 0 \/ k = 1 -> H a v (up a k (back i)) = mixed RNum c th E a v (up a k (back i))).
    { intros a k IA Hk. assert (A : active RNum c a = true) by (rewrite active_inactive, IA; reflexivity). rewrite (MX a v _ A (SH a k Hk)).
      assert (FS : in_shape (face_shape a n) (up a k (back i))).
      { intro b. specialize (SH a k Hk b). rewrite getc_back_d in K. revert SH. unfold face_shape, up. destruct (axis_dec a d) as [->|NA]; (destruct (axis_dec d b) as [<-|Eb]; [co; lia|]).
        - co; lia.
        - destruct (axis_dec a b) as [<-|E']; co; lia. }
      rewrite (weights_upper fl fl' th th' a _ HFl W W' A FS), mixed_wgt. rewrite !FG by (apply (degs c HT) || apply (degs_low c HT)). reflexivity. }
    assert (QQ : forall a, (if inactive_b c a then 0 else (H a v (up a 1 (back i)) - H a v (back i)) / width c a)%R = (if inactive_b c a then 0 else (mixed RNum c th E a v (up a 1 (back i)) - mixed RNum c th E a v (back i)) / width c a)%R).
    { intro a. destruct (inactive_b c a) eqn:IA; [reflexivity|]. rewrite (Q a 1 IA) by auto. pose proof (Q a 0 IA (or_introl eq_refl)) as Q0. rewrite !up_0 in Q0. rewrite Q0. reflexivity. }
    rewrite !QQ. reflexivity.
  - rewrite balance_is. set (i' := setc d (-1 - getc d (back i)) (back i)).
    assert (SY : refl d (sg d) (-1) E = E) by apply even_refl.
    apply (balance_image c (mixed RNum c th E) H d (-1) v (back i)); fold i'.
    + intros a A NE k Hk. rewrite (MX a v _ A (SH a k Hk)).
      set (j := up a k i').
      assert (J : in_shape (face_shape a n) j).
      { intro b. specialize (SH a k Hk b). rewrite getc_back_d in K. revert SH. unfold j, i', face_shape, up. destruct (axis_dec d b) as [<-|Eb]; [co; lia|]. destruct (axis_dec a b) as [<-|E']; co; lia. }
      replace (wgt th' a (up d m (up a k (back i)))) with (wgt th a j).
      2:{ rewrite <- (weights_lower fl fl' th th' a j HFl W W' A J). f_equal. axf. unfold j, i', up. apply ix_ext. intro b.
          destruct (axis_dec d b) as [<-|Eb]; [co; lia|]. destruct (axis_dec a b) as [<-|E']; co; reflexivity. }
      rewrite mixed_wgt. rewrite !FG by (apply (degs c HT) || apply (degs_low c HT)). rewrite <- SY at 1 2.
      rewrite (flux_other_s (c_p c) (degs c HT) (slope_of L_none) Logic.I c a d (-1) E NE).
      rewrite (flux_other_s (fallback_p RNum c) (degs_low c HT) (slope_of (c_limiter c)) (slope_fair _ HU) c a d (-1) E NE).
      unfold refl. replace (setc d (-1 - getc d (up a k (back i))) (up a k (back i))) with j
        by (unfold j, i', up; rewrite (getc_setc_ne a d), (getc_setc_ne d a) by auto; apply setc_comm; auto).
      ring.
    + intros A k Hk. rewrite (MX d v _ A (SH d k Hk)).
      set (j := up d (1 - k) i').
      assert (J : in_shape (face_shape d n) j).
      { intro b. specialize (SH d k Hk b). rewrite getc_back_d in K. revert SH. unfold j, i', face_shape, up. destruct (axis_dec d b) as [<-|Eb]; co; lia. }
      replace (wgt th' d (up d m (up d k (back i)))) with (wgt th d j).
      2:{ rewrite <- (weights_lower fl fl' th th' d j HFl W W' A J). f_equal. rewrite axis_eqb_refl. unfold j, i', up. apply ix_ext. intro b.
          destruct (axis_dec d b) as [<-|Eb]; [co; lia|]. co; reflexivity. }
      rewrite mixed_wgt. rewrite !FG by (apply (degs c HT) || apply (degs_low c HT)).
      assert (PJ : setc d (-1 + 1 - getc d (up d k (back i))) (up d k (back i)) = j) by (unfold j, i', up; rewrite !getc_setc_eq, !setc_setc; f_equal; lia).
      assert (HI : ((1 - wgt th d j) * face_flux wi wt c (c_p c) (slope_of L_none) d E v (up d k (back i))
        = (1 - wgt th d j) * (- sg d v * face_flux wi wt c (c_p c) (slope_of L_none) d E v j))%R).
      { destruct (bool_dec (c_force c) true) as [FO|FO]; [rewrite (forced_weight c HT ltac:(destruct HB; tauto) fl th d j (HA1 FO) W A J); ring|]. apply not_true_is_false in FO. f_equal. rewrite <- SY at 1.
        rewrite (flux_refl_s (c_p c) (degs c HT) (slope_of L_none) Logic.I c d (-1) E v (up d k (back i)))
          by (intros q J1 J2; apply (behind_hi u i k q FO Su O I K Hk J1 J2)).
        unfold refl. rewrite mirror_sign_sg, PJ. reflexivity. }
      rewrite HI. rewrite <- SY at 2.
      rewrite (flux_refl_s (fallback_p RNum c) (degs_low c HT) (slope_of (c_limiter c)) (slope_fair _ HU) c d (-1) E v (up d k (back i)))
        by (intros q J1 J2; apply (behind_lo u i k q Su O I K Hk J1 J2)).
      unfold refl. rewrite mirror_sign_sg, PJ. ring.
Qed.
(** ** runs *)
Local Notation rel r := (related RNum c c' r (unfolding c d)).
Lemma half_pads t (w : arr R) : shp w = n -> pads RNum c t w (ev w).
Proof.
  intro Sw. eapply pads_ext; [exact Sw|apply closed_pads; auto|]. intros v j Hj. rewrite copied_filled. symmetry. apply even_filled; auto.
Qed.
Lemma full_pads t (w : arr R) : shp w = n' -> pads RNum c' t w (filled c' w).
Proof.
  intro Sw. rewrite <- copied_filled. apply closed_pads; auto; [apply double_tab, HT|apply double_closed; auto].
Qed.
Lemma image_pads r t u1 u2 : rel r u1 u2 -> pads RNum c' t u2 (slide d (- m) (ev u1)).
Proof.
  intros (R1 & R2 & S1 & S2 & V2). eapply pads_ext; [exact S2|apply full_pads, S2|]. intros v j Hj. exact (ghosts c b' d HT HC X WL HA u1 u2 v j S1 V2 Hj).
Qed.
Lemma mext f g : (forall v i, in_shape n i -> f v i = g v i) -> forall v i, in_shape (c_n c') i -> unfolding c d f v i = unfolding c d g v i.
Proof.
  intros H v j Hj. unfold unfolding, slide. apply even_ext. intros w q Q0 Qa Qd. apply H. intro a. destruct (axis_dec a d) as [->|NE].
  - specialize (Hj d). cbn [doubled c_n] in Hj. rewrite getc_setc_eq in Hj. unfold up in Qd. rewrite getc_setc_eq in Qd. lia.
  - specialize (Hj a). cbn [doubled c_n] in Hj. rewrite Qa by exact NE. unfold up. rewrite getc_setc_ne in * by auto. exact Hj.
Qed.
Lemma prims_sym u : sym (primitives wi wt (c_p c) (c_gamma c) (ev u)).
Proof. rewrite <- (primitives_refl (c_p c) (degs c HT)), even_refl. reflexivity. Qed.
Lemma limited_half heap heap' r : 2 <= r -> forall x1 x2 s t u1 u2, auxes RNum (limiting RNum c r) (limiting RNum c' r) x1 x2 -> rel r u1 u2 -> ok u1 = true ->
  exists x1' x2' dt k1 k2, solver_f RNum c heap x1 s t u1 = Ok (x1', (dt, k1)) /\ solver_f RNum c' heap' x2 s t u2 = Ok (x2', (dt, k2)) /\
    auxes RNum (limiting RNum c r) (limiting RNum c' r) x1' x2' /\ rel r k1 k2.
Proof.
  intros Hr x1 x2 s t u1 u2 [A1 A2] H O. pose proof H as (R1 & R2 & S1 & S2 & V).
  pose proof (image_pads r s u1 u2 H) as PI. pose proof (double_tab c b' d HT) as HT'. pose proof (double_closed c b' d HT HC X WL HA) as HC'.
  destruct (limited_rhs c HT HL HK r Hr s ltac:(destruct HB; tauto) (fun _ _ => 0%R) (closed_fillable c _ r HC) heap x1 t u1 (ev u1) A1 R1 S1 (half_pads s u1 S1))
    as (x1' & dt1 & k1 & us1 & th1 & F1 & L1 & G1 & RK1 & SK1 & RU1 & SU1 & VU1 & W1 & VK1).
  destruct (limited_rhs c' HT' HL HK r Hr s ltac:(destruct HB; tauto) (fun _ _ => 0%R) (closed_fillable c' _ r HC') heap' x2 t u2 (slide d (- m) (ev u1)) A2 R2 S2 PI)
    as (x2' & dt2 & k2 & us2 & th2 & F2 & L2 & G2 & RK2 & SK2 & RU2 & SU2 & VU2 & W2 & VK2).
  assert (DT : dt2 = dt1).
  { rewrite (dt_even c b' d HT HA) in G2. rewrite G1 in G2. injection G2 as ->. reflexivity. }
  subst dt2.
  change (c_p c') with (c_p c) in *. change (c_gamma c') with (c_gamma c) in *.
  assert (FW : exists fl fl' : ix -> Prop, (c_force c = true -> forall j, fl j) /\ (forall i, in_shape n' i -> fl' i <-> fl (half (back i))) /\ weighs c fl th1 /\ weighs c' fl' th2).
  { destruct (bool_dec (c_force c) true) as [FO|FO]; [|apply not_true_is_false in FO].
    - exists (flag c (primitives wi wt (c_p c) (c_gamma c) (ev u1)) (primitives wi wt (c_p c) (c_gamma c) (ev us1))),
        (flag c' (primitives wi wt (c_p c) (c_gamma c) (slide d (- m) (ev u1))) (primitives wi wt (c_p c) (c_gamma c) (filled c' us2))).
      split; [intros _ j; left; exact FO|]. split; [intros j _; split; intros _; left; exact FO|]. split; [exact (W1 _ (half_pads s us1 SU1))|exact (W2 _ (full_pads s us2 SU2))].
    - assert (DU : forall v i, in_shape n' i -> gdudt RNum c' (c_p c) L_none (slide d (- m) (ev u1)) v i = unfolding c d (gdudt RNum c (c_p c) L_none (ev u1)) v i).
      { intros v i Hi. apply (rate_even c b' d HT HC WL HA ok); auto. destruct G as [Q1|(Q1 & Q2 & Q3 & Q4)]; [left; exact Q1|right].
        split; [exact Q1|]. split; [exact Q2|]. split; [exact Q3|]. intros w Sw Ow. destruct (Q4 w Sw Ow) as [[Q5|Q5] _]; [congruence|exact Q5]. }
      assert (US : rel r us1 us2).
      { split; [exact RU1|]. split; [exact RU2|]. split; [exact SU1|]. split; [exact SU2|]. intros v i Hi.
        rewrite VU2 by exact Hi. rewrite (DU v i Hi), (V v i Hi).
        transitivity (unfolding c d (fun v i => at_ u1 v i + dt1 * gdudt RNum c (c_p c) L_none (ev u1) v i)%R v i).
        - unfold unfolding, slide, even. cbn [nadd nmul RNum]. destruct (_ <=? _); eqR; ring.
        - apply mext; [|exact Hi]. intros w q Hq. symmetry. apply VU1, Hq. }
      specialize (W1 _ (half_pads s us1 SU1)). specialize (W2 _ (image_pads r s us1 us2 US)). rewrite !primitives_slide in W2.
      eexists _, _. split; [|split; [|split; [exact W1|exact W2]]]; [intro FO'; congruence|]. intros j Hj. apply flag_half; apply prims_sym. }
  destruct FW as (fl & fl' & FA & FI & WW1 & WW2).
  exists x1', x2', dt1, k1, k2. split; [exact F1|]. split; [exact F2|]. split; [split; assumption|].
  split; [exact RK1|]. split; [exact RK2|]. split; [exact SK1|]. split; [exact SK2|]. intros v i Hi.
  rewrite VK2 by exact Hi.
  refine (eq_trans (mixed_half fl fl' th1 th2 u1 v i FA S1 O FI WW1 WW2 Hi) _).
  apply mext; [|exact Hi]. intros w q Hq. symmetry. apply VK1, Hq.
Qed.
Context (ok' : arr R -> bool) (Hok : forall u u', shp u = n -> unfolded (N := RNum) d u u' -> ok' u' = ok u).
Theorem fold_limited_checked heap heap' i av T k exact db log fuel u u' : shp u = n -> 2 <= rows u -> unfolded (N := RNum) d u u' ->
  moved_outcome (N := RNum) (unfolded (N := RNum) d) (simulate_checked (N := RNum) ok c heap i av T k exact db log fuel u)
    (simulate_checked (N := RNum) ok' c' heap' i av T k exact db log fuel u').
Proof.
  intros Su Ru MI. pose proof (proj1 (unfolded_is c d u u' Su) MI) as (Ru' & Su' & V).
  apply (gen_moved RNum c c' heap heap' (rows u) HT (double_tab c b' d HT) (unfolding c d)) with
    (ok1 := ok) (ok2 := ok') (E1 := fun _ w => ev w) (E2 := fun _ w => filled c' w)
    (W := slide d (- m)) (A1 := limiting RNum c (rows u)) (A2 := limiting RNum c' (rows u)).
  - apply mext.
  - intros f g v j. unfold unfolding, slide, even. cbn [nadd RNum]. destruct (_ <=? _); [reflexivity|]. apply Rmult_plus_distr_l.
  - intros x f v j. unfold unfolding, slide, even. cbn [nmul RNum]. destruct (_ <=? _); [reflexivity|]. eqR. ring.
  - intros t w _ Sw. apply half_pads, Sw.
  - intros t w _ Sw. apply full_pads, Sw.
  - intros u1 u2 (R1 & R2 & S1 & S2 & V2). symmetry. apply Hok; [exact S1|]. apply (unfolded_is c d u1 u2 S1). split; [exact (eq_trans R2 (eq_sym R1))|]. split; [exact S2|exact V2].
  - intros t u1 u2 (R1 & R2 & S1 & S2 & V2) v j Hj. exact (ghosts c b' d HT HC X WL HA u1 u2 v j S1 V2 Hj).
  - intros t u1 u2 _ v j Hj. apply prim_even, HT.
  - apply limiting_helper, HL.
  - apply limiting_helper, HL.
  - apply limiting_init.
  - apply limiting_init.
  - intros x1 x2 s t u1 u2 A H O. apply limited_half; auto.
  - repeat split; auto.
  - intros w1 w2 (R1 & R2 & S1 & S2 & V2). apply (unfolded_is c d w1 w2 S1). split; [exact (eq_trans R2 (eq_sym R1))|]. split; [exact S2|exact V2].
Qed.
End Runs.
Theorem fold_limited_llf (c : config RNum) b' d : tabulated c -> closed c -> upper_at_both_ends d (c_bc c) b' ->
  bc_type (c_bc c) d SL = B_reflective -> ~ inactive c d -> c_limit c = true -> known_options c ->
  (c_convex c = false \/ (flat_box c /\ flat_box (doubled d b' c))) -> c_rs c = RS_llf -> (c_force c = true \/ wall_fair d (c_nad c)) ->
  forall heap heap' i av T k exact db log fuel u u', shp u = c_n c -> 2 <= rows u -> unfolded (N := RNum) d u u' ->
  moved_outcome (N := RNum) (unfolded (N := RNum) d) (simulate c heap i av T k exact db log fuel u) (simulate (doubled d b' c) heap' i av T k exact db log fuel u').
Proof.
  intros HT HC X WL HA HL HK HB G HF heap heap' i av T k exact db log fuel u u' Su Ru M.
  exact (fold_limited_checked c b' d HT HC X WL HA HF HL HK (fun _ => true) (or_introl G) HB (fun _ => true) (fun _ _ _ _ => eq_refl) heap heap' i av T k exact db log fuel u u' Su Ru M).
Qed.
Theorem fold_limited_hllc xi xt ok sl (c : config RNum) b' d : tables xi xt -> tabulated c -> closed c -> upper_at_both_ends d (c_bc c) b' ->
  bc_type (c_bc c) d SL = B_reflective -> ~ inactive c d -> c_limit c = true -> known_options c ->
  (c_convex c = false \/ (flat_box c /\ flat_box (doubled d b' c))) ->
  c_rs c = RS_hllc -> (0 < c_csq_floor c)%R -> (1 <= c_gamma c)%R -> (c_force c = true \/ wall_fair d (c_nad c)) ->
  fallback_slope c sl -> test_of_cells ok ->
  (forall w, shp w = c_n c -> ok w = true -> (c_force c = true \/ physical_traces xi xt c (filled c w)) /\ physical_low_traces xi xt c sl (filled c w)) ->
  forall heap heap' i av T k exact db log fuel u u' o, shp u = c_n c -> 2 <= rows u -> unfolded (N := RNum) d u u' ->
  simulate_checked (N := RNum) ok c heap i av T k exact db log fuel u = Ok o ->
  simulate c heap i av T k exact db log fuel u = Ok o /\
  exists o', simulate (doubled d b' c) heap' i av T k exact db log fuel u' = Ok o' /\ moved_run (N := RNum) (unfolded (N := RNum) d) o o'.
Proof.
  intros HW HT HC X WL HA HL HK HB G1 G2 G3 HF FS Hok Hph heap heap' i av T k exact db log fuel u u' o Su Ru M HS.
  split; [exact (unchecked RNum ok c heap i av T k exact db log fuel u o HS)|].
  pose proof (eq_sym (proj1 (slope_is c sl FS))) as SL0.
  assert (H0 : forall w w' : arr R, shp w = c_n c -> unfolded (N := RNum) d w w' -> ok (upper_half d (c_n c) w') = ok w).
  { intros w w' Sw MW. destruct (upper_half_of d (c_n c) w w' Sw (m_pos c d HT) MW) as [A B]. apply Hok; [exact A|symmetry; exact Sw|exact B]. }
  pose proof (fold_limited_checked c b' d HT HC X WL HA HF HL HK ok
    (or_intror (conj G1 (conj G2 (conj G3 (fun w Sw O => let H := Hph w Sw O in conj (match proj1 H with or_introl A => or_introl A | or_intror A => or_intror (physical_tables xi xt HW c _ HT A) end) (physical_low_tables xi xt HW c _ _ HT (eq_ind _ (fun s => physical_low_traces xi xt c s _) (proj2 H) _ SL0)))))))
    HB (fun w => ok (upper_half d (c_n c) w)) H0 heap heap' i av T k exact db log fuel u u' Su Ru M) as Q.
  rewrite HS in Q. revert Q. destruct (simulate_checked _ (doubled d b' c) _ _ _ _ _ _ _ _ _ _) as [o'|] eqn:E; [|intros []].
  intro Q. exists o'. split; [exact (unchecked RNum _ _ _ _ _ _ _ _ _ _ _ _ _ E)|exact Q].
Qed.
