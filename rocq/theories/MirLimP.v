(** Mirror images of runs with slope limiting. *)
From Coq Require Import ZArith List Bool Lia Reals Lra FunctionalExtensionality.
From Verif Require Import Err Num PySlice NdArray HydroM RiemannM StencilsM FvM BcM SedM
  LimitM OdeM SolverM Spec SpecBc SpecLim SpecSolver SpecCons SpecScheme SpecSym SpecMirLim NdArrayP FvP BcP BcQ OpP SolverP OdeP RelP RelS LimP RunP ConsP
  RiemannP HydroP SlopeP WallP BroadP DetectP ConvexP ExistP SchemeP SymP SeamP ShiftP WatchP UniformP LimExistP MirrorP SymLimP ShiftLimP.
Import ListNotations.
Open Scope Z_scope.

Local Notation wi := (wts_i RNum).
Local Notation wt := (wts_t RNum).
(** ** limited slopes *)
Definition fair (sl : option (R -> R -> R)) : Prop :=
  match sl with None => True | Some s => (forall a b, s b a = s a b) /\ (forall a b, s (- a) (- b) = - s a b)%R end.
Lemma slope_fair l : l <> L_unknown -> fair (slope_of l).
Proof.
  unfold slope_of. destruct l; cbn [limits fair]; intro H; try exact I; try congruence; unfold slope_fn; cbn [limited_slope].
  - split; [intros a b; apply minmod_sym|apply minmod_opp].
  - split; [intros a b; apply moncen_sym|apply moncen_opp].
Qed.
Section Traces.
Context (p : ix) (D : forall a, deg_ok (getc a p)) (sl : option (R -> R -> R)) (FS : fair sl).
Lemma sg_cases d v : sg d v = 1%R \/ sg d v = (-1)%R.
Proof. unfold sg. destruct (v =? _); [right|left]; reflexivity. Qed.
Lemma trace_refl_s d m pos w : pos = P_l \/ pos = P_r ->
  trace wi p sl d pos (refl d (sg d) m w) = refl d (sg d) m (trace wi p sl d (other_pos pos) w).
Proof.
  intro Hp. pose proof (trace_refl p D d (sg d) m pos w Hp) as TR. destruct sl as [s|]; [|exact TR].
  destruct FS as [SY OP]. unfold trace in *. cbv zeta in *. rewrite across_refl in * by (intros; apply even_c, D).
  set (g := across d (fun a => wi (getc a p) P_c) w) in *. apply grid_eq. intros v i.
  unfold refl at 8. destruct (getc d p =? 1) eqn:E1.
  2:{ exact (f_equal (fun f : grid => f v i) TR). }
  unfold refl. set (i' := setc d (m - getc d i) i).
  replace (setc d (m - getc d (up d (-1) i)) (up d (-1) i)) with (up d 1 i') by (unfold i', up; rewrite !getc_setc_eq, !setc_setc; f_equal; lia).
  replace (setc d (m - getc d (up d 1 i)) (up d 1 i)) with (up d (-1) i') by (unfold i', up; rewrite !getc_setc_eq, !setc_setc; f_equal; lia).
  set (x := g v i'). set (y := g v (up d 1 i')). set (z := g v (up d (-1) i')).
  assert (Q : s (sg d v * x - sg d v * y)%R (sg d v * z - sg d v * x)%R = (- (sg d v * s (x - z) (y - x)))%R).
  { destruct (sg_cases d v) as [-> | ->].
    - replace (1 * x - 1 * y)%R with (- (y - x))%R by ring. replace (1 * z - 1 * x)%R with (- (x - z))%R by ring. rewrite OP, SY. ring.
    - replace (-1 * x - -1 * y)%R with (y - x)%R by ring. replace (-1 * z - -1 * x)%R with (x - z)%R by ring. rewrite SY. ring. }
  rewrite Q. destruct Hp as [-> | ->]; cbn [other_pos]; ring.
Qed.
Lemma trace_refl_other_s a d m pos w : a <> d -> trace wi p sl a pos (refl d (sg d) m w) = refl d (sg d) m (trace wi p sl a pos w).
Proof.
  intro NE. pose proof (trace_refl_other p D a d (sg d) m pos w NE) as TR. destruct sl as [s|]; [|exact TR].
  destruct FS as [SY OP]. unfold trace in *. cbv zeta in *. rewrite across_refl in * by (intros; apply even_c, D).
  set (g := across a (fun b => wi (getc b p) P_c) w) in *. apply grid_eq. intros v i.
  unfold refl at 8. destruct (getc a p =? 1) eqn:E1.
  2:{ exact (f_equal (fun f : grid => f v i) TR). }
  unfold refl. set (i' := setc d (m - getc d i) i).
  assert (U : forall k, setc d (m - getc d (up a k i)) (up a k i) = up a k i').
  { intro k. unfold i', up. rewrite (getc_setc_ne a d), (getc_setc_ne d a) by auto. apply setc_comm. auto. }
  rewrite !U. set (x := g v i'). set (y := g v (up a 1 i')). set (z := g v (up a (-1) i')).
  assert (Q : s (sg d v * x - sg d v * z)%R (sg d v * y - sg d v * x)%R = (sg d v * s (x - z) (y - x))%R).
  { destruct (sg_cases d v) as [-> | ->].
    - rewrite !Rmult_1_l. reflexivity.
    - replace (-1 * x - -1 * z)%R with (- (x - z))%R by ring. replace (-1 * y - -1 * x)%R with (- (y - x))%R by ring. rewrite OP. ring. }
  rewrite Q. destruct pos; ring.
Qed.
Context (c : config RNum).
Local Notation tr d pos E := (trace wi p sl d pos (primitives wi wt p (c_gamma c) E)).
Definition good_faces_s (d : axis) (E : grid) (j : ix) : Prop := c_rs c = RS_llf \/
  (c_rs c = RS_hllc /\ (0 < c_csq_floor c)%R /\ (1 <= c_gamma c)%R /\
   physical (fun r => tr d P_r E r (up d (-1) j)) /\ physical (fun r => tr d P_l E r j)).
Lemma flux_refl_s d m E v i :
  (forall j, getc d j = getc d i -> (forall a, a <> d -> Z.abs (getc a j - getc a i) <= stencil_right (getc a p)) ->
     good_faces_s d E (setc d (m + 1 - getc d j) j)) ->
  face_flux wi wt c p sl d (refl d (sg d) m E) v i = refl d (mirror_sign d) (m + 1) (face_flux wi wt c p sl d E) v i.
Proof.
  intro H. unfold face_flux. cbv zeta. rewrite <- across_refl by (intros; apply even_t, D).
  apply across_local; [intro; apply even_t, D|]. intros j J1 J2.
  assert (G : good_faces_s d E (setc d (m + 1 - getc d j) j)).
  { apply H; [exact J1|]. intros a Na. specialize (J2 a Na). pose proof (len_t (getc a p) (D a)) as L.
    assert (Q : (Z.of_nat (@length R (wt (getc a p))) - 1) / 2 = stencil_right (getc a p)).
    { change (@length R (wt (getc a p))) with (@length (car RNum) (wt (getc a p))). rewrite L, Z.mul_comm. apply Z.div_mul. lia. }
    rewrite <- Q. exact J2. }
  clear H J1 J2 i. rename j into i.
  rewrite (primitives_refl p D), !trace_refl_s by auto. cbn [other_pos]. unfold refl.
  rewrite <- (flux_mirror (c_rs c) (c_gamma c) (c_csq_floor c) d) by (destruct G as [G|(G1 & G2 & G3 & G4 & G5)]; [left; exact G|right; auto]).
  rewrite <- !sg_is_mirror.
  assert (X : forall r, tr d P_l E r (setc d (m - getc d (up d (-1) i)) (up d (-1) i)) = tr d P_l E r (setc d (m + 1 - getc d i) i)).
  { intro r. f_equal. unfold up. rewrite getc_setc_eq, setc_setc. f_equal. lia. }
  assert (Y : forall r, tr d P_r E r (setc d (m - getc d i) i) = tr d P_r E r (up d (-1) (setc d (m + 1 - getc d i) i))).
  { intro r. f_equal. unfold up. rewrite getc_setc_eq, setc_setc. f_equal. lia. }
  f_equal; extensionality r; [rewrite X|rewrite Y]; reflexivity.
Qed.
Lemma flux_other_s a d m E : a <> d -> face_flux wi wt c p sl a (refl d (sg d) m E) = refl d (sg d) m (face_flux wi wt c p sl a E).
Proof.
  intro NE. unfold face_flux. cbv zeta. rewrite <- across_refl by (intros; apply even_t, D). f_equal. apply grid_eq. intros v i.
  rewrite (primitives_refl p D), !trace_refl_other_s by exact NE. unfold refl.
  rewrite <- (flux_other _ _ a d NE). rewrite <- !sg_is_mirror.
  f_equal. extensionality r. f_equal. f_equal. unfold up. rewrite (getc_setc_ne a d), (getc_setc_ne d a) by auto. apply setc_comm. auto.
Qed.
End Traces.
Lemma balance_image (c : config RNum) (F G : axis -> grid) d m v i : let i' := setc d (m - getc d i) i in
  (forall a, active RNum c a = true -> a <> d -> forall k, k = 0 \/ k = 1 -> G a v (up a k i) = (sg d v * F a v (up a k i'))%R) ->
  (active RNum c d = true -> forall k, k = 0 \/ k = 1 -> G d v (up d k i) = Ropp (sg d v * F d v (up d (1 - k)%Z i'))%R) ->
  balance c G v i = (sg d v * balance c F v i')%R.
Proof.
  cbv zeta. set (i' := setc d (m - getc d i) i). intros HO HD. unfold balance. cbv zeta.
  assert (U0 : forall a j, up a 0 j = j) by (intros; apply up_0).
  assert (X : forall a, (if inactive_b c a then 0 else (G a v (up a 1 i) - G a v i) / width c a)%R
    = (sg d v * (if inactive_b c a then 0 else (F a v (up a 1 i') - F a v i') / width c a))%R).
  { intro a. destruct (inactive_b c a) eqn:IA; [ring|].
    assert (A : active RNum c a = true) by (rewrite active_inactive, IA; reflexivity).
    destruct (axis_dec a d) as [->|NE].
    - pose proof (HD A 0 (or_introl eq_refl)) as Q0. pose proof (HD A 1 (or_intror eq_refl)) as Q1. rewrite U0 in Q0.
      change (1 - 0) with 1 in Q0. change (1 - 1) with 0 in Q1. rewrite U0 in Q1. rewrite Q0, Q1. unfold Rdiv. ring.
    - pose proof (HO a A NE 0 (or_introl eq_refl)) as Q0. pose proof (HO a A NE 1 (or_intror eq_refl)) as Q1. rewrite !U0 in Q0.
      rewrite Q0, Q1. unfold Rdiv. ring. }
  rewrite !X. ring.
Qed.

(** ** flags and weights *)
Section Runs.
Context (c : config RNum) (b' : bcond RNum) (d : axis) (HT : tabulated c) (HC : closed c) (HC' : closed (replace_bc c b'))
  (X : ends_exchanged d (c_bc c) b') (HL : c_limit c = true) (HK : known_options c).
Local Notation n := (c_n c).
Local Notation c' := (replace_bc c b').
Local Notation m := (getc d n - 1).
Local Notation flip i := (setc d (m - getc d i) i).
Context (ok : arr R -> bool) (Hok : test_of_cells ok).
Context (G : c_rs c = RS_llf \/ (c_rs c = RS_hllc /\ (0 < c_csq_floor c)%R /\ (1 <= c_gamma c)%R /\
  forall u, shp u = n -> ok u = true -> (c_force c = true \/ physical_traces wi wt c (filled c u)) /\ physical_low_traces wi wt c (slope_of (c_limiter c)) (filled c u))).
Context (HB : c_convex c = false \/ (flat_box c /\ flat_box c')) (HF : c_force c = true \/ mirror_fair d (c_nad c)).
Lemma flip2 i : flip (flip i) = i.
Proof. rewrite getc_setc_eq, setc_setc. replace (m - (m - getc d i)) with (getc d i) by lia. apply setc_getc. Qed.
Lemma flip_shape i : in_shape n i -> in_shape n (flip i).
Proof. intros H a. specialize (H a). destruct (axis_dec d a) as [<-|E]; co; lia. Qed.
Lemma flip_padded g i : in_padded n g i -> in_padded n g (flip i).
Proof. intros H a. specialize (H a). destruct (axis_dec d a) as [<-|E]; co; lia. Qed.
Lemma flip_near ds i j : nearby ds i j -> nearby ds (flip i) (flip j).
Proof. intros H a. specialize (H a). destruct (axis_dec d a) as [<-|E]; co; destruct (mem_axis _ ds); lia. Qed.
Lemma flag_refl w ws i : flag c (refl d (sg d) m w) (refl d (sg d) m ws) i <-> flag c w ws (flip i).
Proof.
  unfold flag. destruct HF as [FO|(Q1 & Q2 & Q3)]; [rewrite FO; tauto|].
  apply or_iff_compat_l. assert (A : violates_last (pad_bounds (c_nad c)) (fun v => refl d (sg d) m ws v i) <-> violates_last (pad_bounds (c_nad c)) (fun v => ws v (flip i))).
  { unfold violates_last. destruct (pad_bounds (c_nad c)) as [l|] eqn:PB; [|tauto].
    assert (Y : forall e, l = removelast l ++ [e] -> refl d (sg d) m ws (fst e) i = ws (fst e) (flip i)).
    { intros e He. assert (NE : fst e <> comp d) by (apply (Q3 (removelast l) e); rewrite <- He; reflexivity).
      unfold refl, sg. change (vrow d) with (comp d). replace (fst e =? comp d) with false by (symmetry; apply Z.eqb_neq; exact NE). ring. }
    split; intros (e & He & H); exists e; (split; [exact He|]); [exact (eq_ind _ (fun x => out_of_bounds (snd e) x) H _ (Y e He))|exact (eq_ind_r (fun x => out_of_bounds (snd e) x) H (Y e He))]. }
  rewrite A. apply or_iff_compat_l.
  assert (S : forall v, selected (c_nad c) 5 v ->
    strays (c_nad c) (nearby (dims RNum c) i) (in_padded n (active_width RNum c 3)) (refl d (sg d) m w v) (refl d (sg d) m ws v i) <->
    strays (c_nad c) (nearby (dims RNum c) (flip i)) (in_padded n (active_width RNum c 3)) (w v) (ws v (flip i))).
  { intros v SV. 
    assert (MP : forall f x, strays (c_nad c) (nearby (dims RNum c) i) (in_padded n (active_width RNum c 3)) (fun j => f (flip j)) x <->
       strays (c_nad c) (nearby (dims RNum c) (flip i)) (in_padded n (active_width RNum c 3)) f x).
    { intros f x. apply strays_map.
      - intros j Hj. exists (flip j). split; [apply flip_near, Hj|reflexivity].
      - intros j Hj. exists (flip j). split; [rewrite <- (flip2 i); apply flip_near, Hj|rewrite flip2; reflexivity].
      - intros j Hj. exists (flip j). split; [apply flip_padded, Hj|reflexivity].
      - intros j Hj. exists (flip j). split; [apply flip_padded, Hj|rewrite flip2; reflexivity]. }
    rewrite <- (MP (w v)). unfold refl, sg. change (vrow d) with (comp d). destruct (Z.eqb_spec v (comp d)) as [->|NE].
    - destruct Q2 as [Q2|Q2]; [|contradiction]. rewrite <- (strays_opp (c_nad c) _ _ (fun j => w (comp d) (flip j))) by exact Q2.
      replace (-1 * ws (comp d) (flip i))%R with (- ws (comp d) (flip i))%R by ring.
      apply strays_map; intros j Hj; exists j; (split; [exact Hj|ring]).
    - rewrite Rmult_1_l. apply strays_map; intros j Hj; exists j; (split; [exact Hj|ring]). }
  split; intros (v & SV & H & _); exists v; (split; [exact SV|]); (split; [apply (S v SV), H|congruence]).
Qed.
(** faces *)
Definition flip_face (a : axis) (i : ix) : ix := setc d ((if axis_eqb a d then m + 1 else m) - getc d i) i.
Lemma touches_flip a i j : touches a i j -> touches a (flip_face a i) (flip j).
Proof.
  unfold touches, moved, flip_face. destruct (axis_dec a d) as [->|NE].
  - rewrite axis_eqb_refl. intros [-> | ->].
    + right. rewrite getc_setc_eq, !setc_setc. f_equal. lia.
    + left. rewrite getc_setc_eq, !setc_setc. f_equal. lia.
  - axf. intros [-> | ->]; [left; reflexivity|right]. rewrite (getc_setc_ne a d), (getc_setc_ne d a) by auto. apply setc_comm. auto.
Qed.
Lemma flip_face2 a i : flip_face a (flip_face a i) = i.
Proof. unfold flip_face. rewrite getc_setc_eq, setc_setc. match goal with |- setc d (?k - (?k - ?x)) i = i => replace (k - (k - x)) with x by lia end. apply setc_getc. Qed.
Lemma flip_face_in a i : in_shape (face_shape a n) i -> in_shape (face_shape a n) (flip_face a i).
Proof.
  intros H b. specialize (H b). revert H. unfold flip_face, face_shape. destruct (axis_dec a d) as [->|NE].
  - rewrite axis_eqb_refl. destruct (axis_dec d b) as [<-|E]; co; lia.
  - axf. destruct (axis_dec d b) as [<-|E]; co; [lia|]. destruct (axis_dec a b) as [<-|E']; co; lia.
Qed.
Lemma blend_flip x j : blend_weight (flip x) (flip j) = blend_weight x j.
Proof.
  unfold blend_weight. cbv zeta.
  assert (A : forall a, Z.abs (getc a (flip x) - getc a (flip j)) = Z.abs (getc a x - getc a j)).
  { intro a. destruct (axis_dec d a) as [<-|E]; co; lia. }
  rewrite !A. reflexivity.
Qed.
Lemma weights_refl fl fl' th th' a i : (forall i, in_shape n i -> fl' i <-> fl (flip i)) ->
  weighs c fl th -> weighs c fl' th' -> active RNum c a = true -> in_shape (face_shape a n) i -> wgt th' a i = wgt th a (flip_face a i).
Proof.
  intros HFl W W' A I. eapply face_value_fun; [apply (W' a i A I)| | |apply (W a (flip_face a i) A), flip_face_in, I].
  - unfold bordering. split; intros (j & T & J & F); exists (flip j).
    + split; [apply touches_flip, T|]. split; [apply flip_shape, J|apply HFl; assumption].
    + split; [rewrite <- (flip_face2 a i); apply touches_flip, T|]. split; [apply flip_shape, J|]. apply HFl; [apply flip_shape, J|]. rewrite flip2. exact F.
  - intros _ x. split; intros (cc & j & T & J & F & ->); exists (flip cc), (flip j); rewrite blend_flip.
    + split; [apply touches_flip, T|]. split; [apply flip_shape, J|]. split; [apply HFl; assumption|reflexivity].
    + split; [rewrite <- (flip_face2 a i); apply touches_flip, T|]. split; [apply flip_shape, J|]. split; [|reflexivity]. apply HFl; [apply flip_shape, J|]. rewrite flip2. exact F.
Qed.
Lemma degs_low a : deg_ok (getc a (fallback_p RNum c)).
Proof. apply (good_deg RNum c), good_fallback, tab_good, HT. Qed.
Lemma face_zones j i k : in_shape n i -> active RNum c d = true -> k = 0 \/ k = 1 -> getc d j = getc d (up d k i) ->
  (forall a, a <> d -> Z.abs (getc a j - getc a (up d k i)) <= stencil_right (getc a (c_p c))) ->
  face_zone c d (setc d (m + 1 - getc d j) j) /\ face_zone c d (up d (-1) (setc d (m + 1 - getc d j) j)).
Proof.
  intros Hi A Hk J1 J2. rewrite active_inactive in A. apply negb_true_iff in A.
  assert (J1' : getc d j = getc d i + k) by (rewrite J1; unfold up; rewrite getc_setc_eq; reflexivity).
  assert (Z0 : forall a, d <> a -> - (if inactive_b c a then 0 else half_up (getc a (c_p c))) <= getc a j < getc a n + (if inactive_b c a then 0 else half_up (getc a (c_p c)))).
  { intros a Na. assert (Na' : a <> d) by auto. specialize (J2 a Na'). unfold up in J2. rewrite (getc_setc_ne d a) in J2 by exact Na. specialize (Hi a). rewrite half_up_sr. destruct (inactive_b c a) eqn:IA; [|lia].
    pose proof (proj2 (proj2 (tab_good RNum c HT a)) ltac:(rewrite active_inactive, IA; reflexivity)) as P0. rewrite P0 in J2. cbn in J2. lia. }
  specialize (Hi d). split; intro a; cbv zeta; (destruct (axis_dec d a) as [<-|E]; [rewrite A, axis_eqb_refl; unfold up; co; destruct Hk; lia|]);
    axf; unfold up; co; apply Z0, E.
Qed.
Lemma faces_hi u j i k : c_force c = false -> shp u = n -> ok u = true -> in_shape n i -> active RNum c d = true -> k = 0 \/ k = 1 -> getc d j = getc d (up d k i) ->
  (forall a, a <> d -> Z.abs (getc a j - getc a (up d k i)) <= stencil_right (getc a (c_p c))) ->
  good_faces_s (c_p c) (slope_of L_none) c d (filled c u) (setc d (m + 1 - getc d j) j).
Proof.
  intros HF0 Su O Hi A Hk J1 J2. destruct G as [G1|(G1 & G2 & G3 & G4)]; [left; exact G1|right]. destruct (G4 u Su O) as [[P|P] _]; [congruence|].
  destruct (face_zones j i k Hi A Hk J1 J2) as [Za Zb]. pose proof (proj1 (active_spec RNum c d) A) as A'.
  split; [exact G1|]. split; [exact G2|]. split; [exact G3|]. split; [apply (P d _ P_r A' Zb); auto|apply (P d _ P_l A' Za); auto].
Qed.
Lemma faces_lo u j i k : shp u = n -> ok u = true -> in_shape n i -> active RNum c d = true -> k = 0 \/ k = 1 -> getc d j = getc d (up d k i) ->
  (forall a, a <> d -> Z.abs (getc a j - getc a (up d k i)) <= stencil_right (getc a (fallback_p RNum c))) ->
  good_faces_s (fallback_p RNum c) (slope_of (c_limiter c)) c d (filled c u) (setc d (m + 1 - getc d j) j).
Proof.
  intros Su O Hi A Hk J1 J2. destruct G as [G1|(G1 & G2 & G3 & G4)]; [left; exact G1|right]. destruct (G4 u Su O) as [_ P].
  pose proof (low_is c HT) as LI. destruct (face_zones j i k Hi A Hk J1) as [Za Zb].
  { intros a Na. specialize (J2 a Na). pose proof (degs c HT a) as Da. revert J2. 
    assert (Q : stencil_right (getc a (fallback_p RNum c)) <= stencil_right (getc a (c_p c))).
    { rewrite (low_is c HT). replace (getc a (low (c_p c))) with (Z.min 1 (getc a (c_p c))) by (destruct a; reflexivity).
      rewrite <- !half_up_sr. unfold half_up. unfold deg_ok in Da. apply Z.div_le_mono; lia. }
    lia. }
  pose proof (proj1 (active_spec RNum c d) A) as A'. unfold good_faces_s. rewrite LI.
  split; [exact G1|]. split; [exact G2|]. split; [exact G3|]. split; [apply (P d _ P_r A' Zb); auto|apply (P d _ P_l A' Za); auto].
Qed.
Lemma mixed_refl (fl fl' : ix -> Prop) th th' u v i : (c_force c = true -> forall j, fl j) -> shp u = n -> ok u = true -> (forall i, in_shape n i -> fl' i <-> fl (flip i)) ->
  weighs c fl th -> weighs c fl' th' -> in_shape n i ->
  gsum RNum c (mixed RNum c th' (refl d (sg d) m (filled c u))) v i = refl d (sg d) m (gsum RNum c (mixed RNum c th (filled c u))) v i.
Proof.
  intros HA1 Su O HFl W W' I. set (E := filled c u). unfold refl at 2. rewrite !balance_is. 
  assert (FV : forall a k, k = 0 \/ k = 1 -> in_shape (face_shape a n) (up a k i)).
  { intros a k Hk b. specialize (I b). unfold face_shape, up. destruct (axis_dec a b) as [<-|E']; co; lia. }
  assert (FG : forall p l a E' v' j, (forall b, deg_ok (getc b p)) -> gflux RNum c p l a E' v' j = face_flux wi wt c p (slope_of l) a E' v' j)
    by (intros; apply (gflux_is wi wt tables_are c); assumption).
  pose proof (proj1 HK) as HU.
  apply (balance_image c (mixed RNum c th E) (mixed RNum c th' (refl d (sg d) m E)) d m v i).
  - intros a A NE k Hk. rewrite !mixed_wgt. rewrite !FG by (apply (degs c HT) || apply degs_low).
    rewrite (weights_refl fl fl' th th' a (up a k i) HFl W W' A (FV a k Hk)).
    rewrite (flux_other_s (c_p c) (degs c HT) (slope_of L_none) Logic.I c a d m E NE).
    rewrite (flux_other_s (fallback_p RNum c) degs_low (slope_of (c_limiter c)) (slope_fair _ HU) c a d m E NE).
    unfold refl, flip_face. axf.
    replace (setc d (m - getc d (up a k i)) (up a k i)) with (up a k (flip i)) by (unfold up; rewrite (getc_setc_ne a d), (getc_setc_ne d a) by auto; apply setc_comm; auto).
    ring.
  - intros A k Hk. rewrite !mixed_wgt. rewrite !FG by (apply (degs c HT) || apply degs_low).
    rewrite (weights_refl fl fl' th th' d (up d k i) HFl W W' A (FV d k Hk)).
    assert (HI : ((1 - wgt th d (flip_face d (up d k i))) * face_flux wi wt c (c_p c) (slope_of L_none) d (refl d (sg d) m E) v (up d k i)
      = (1 - wgt th d (flip_face d (up d k i))) * (- sg d v * face_flux wi wt c (c_p c) (slope_of L_none) d E v (setc d (m + 1 - getc d (up d k i)) (up d k i))))%R).
    { destruct (bool_dec (c_force c) true) as [FO|FO].
      - rewrite (forced_weight c HT ltac:(destruct HB; tauto) fl th d _ (HA1 FO) W A (flip_face_in d _ (FV d k Hk))). ring.
      - apply not_true_is_false in FO. f_equal.
        rewrite (flux_refl_s (c_p c) (degs c HT) (slope_of L_none) Logic.I c d m E v (up d k i))
          by (intros j J1 J2; apply (faces_hi u j i k FO Su O I A Hk J1 J2)).
        unfold refl. rewrite mirror_sign_sg. reflexivity. }
    rewrite HI. clear HI.
    rewrite (flux_refl_s (fallback_p RNum c) degs_low (slope_of (c_limiter c)) (slope_fair _ HU) c d m E v (up d k i))
      by (intros j J1 J2; apply (faces_lo u j i k Su O I A Hk J1 J2)).
    unfold refl, flip_face. rewrite axis_eqb_refl, mirror_sign_sg.
    replace (setc d (m + 1 - getc d (up d k i)) (up d k i)) with (up d (1 - k) (flip i)) by (unfold up; rewrite !getc_setc_eq, !setc_setc; f_equal; lia).
    ring.
Qed.

Lemma copied_refl t w : shp w = n -> pads RNum c t w (filled c w).
Proof. intro S. rewrite <- copied_filled. apply closed_pads; auto. Qed.
Local Notation rel r := (related RNum c c' r (refl d (sg d) m)).
Lemma mext f g : (forall v i, in_shape n i -> f v i = g v i) -> forall v i, in_shape (c_n c') i -> refl d (sg d) m f v i = refl d (sg d) m g v i.
Proof. intros H v j Hj. unfold refl. rewrite H; [reflexivity|]. apply flip_shape, Hj. Qed.
Lemma padded_image r t u1 u2 : rel r u1 u2 -> pads RNum c' t u2 (refl d (sg d) m (filled c u1)).
Proof.
  apply (pads_image RNum c c' r (refl d (sg d) m) (fun _ w => filled c w) (fun _ w => copied RNum b' n w) (refl d (sg d) m)).
  - intros t' w _ Sw. exact (closed_pads RNum c' t' w (tabulated_bc c b' HT) HC' Sw).
  - intros t' w1 w2 (R1 & R2 & S1 & S2 & V2) v j Hj. apply copied_x; auto; [apply HT|].
    exact (folded_in RNum c' (tabulated_bc c b' HT) HC' j Hj).
Qed.
Lemma limited_image heap heap' r : 2 <= r -> forall x1 x2 s t u1 u2, auxes RNum (limiting RNum c r) (limiting RNum c' r) x1 x2 -> rel r u1 u2 -> ok u1 = true ->
  exists x1' x2' dt k1 k2, solver_f RNum c heap x1 s t u1 = Ok (x1', (dt, k1)) /\ solver_f RNum c' heap' x2 s t u2 = Ok (x2', (dt, k2)) /\
    auxes RNum (limiting RNum c r) (limiting RNum c' r) x1' x2' /\ rel r k1 k2.
Proof.
  intros Hr x1 x2 s t u1 u2 [A1 A2] H O. pose proof H as (R1 & R2 & S1 & S2 & V).
  pose proof (padded_image r s u1 u2 H) as PI.
  destruct (limited_rhs c HT HL HK r Hr s ltac:(destruct HB; tauto) (fun _ _ => 0%R) (closed_fillable c _ r HC) heap x1 t u1 (filled c u1) A1 R1 S1 (copied_refl s u1 S1))
    as (x1' & dt1 & k1 & us1 & th1 & F1 & L1 & G1 & RK1 & SK1 & RU1 & SU1 & VU1 & W1 & VK1).
  destruct (limited_rhs c' (tabulated_bc c b' HT) HL HK r Hr s ltac:(destruct HB; tauto) (fun _ _ => 0%R) (closed_fillable c' _ r HC') heap' x2 t u2 (refl d (sg d) m (filled c u1)) A2 R2 S2 PI)
    as (x2' & dt2 & k2 & us2 & th2 & F2 & L2 & G2 & RK2 & SK2 & RU2 & SU2 & VU2 & W2 & VK2).
  assert (DT : dt2 = dt1).
  { change (c_p c') with (c_p c) in G2. rewrite (dt_same c b' d HT) in G2. rewrite G1 in G2. injection G2 as ->. reflexivity. }
  subst dt2.
  change (c_n c') with n in *. change (c_p c') with (c_p c) in *. change (c_gamma c') with (c_gamma c) in *.
  assert (FW : exists fl fl' : ix -> Prop, (c_force c = true -> forall j, fl j) /\ (forall i, in_shape n i -> fl' i <-> fl (flip i)) /\ weighs c fl th1 /\ weighs c fl' th2).
  { destruct (bool_dec (c_force c) true) as [FO|FO]; [|apply not_true_is_false in FO].
    - eexists _, _. split; [|split; [|split; [exact (W1 _ (copied_refl s us1 SU1))|exact (W2 _ (closed_pads RNum c' s us2 (tabulated_bc c b' HT) HC' SU2))]]].
      + intros _ j. left. exact FO.
      + intros j _. split; intros _; left; exact FO.
    - assert (DU : forall v i, in_shape n i -> gdudt RNum c' (c_p c) L_none (refl d (sg d) m (filled c u1)) v i = refl d (sg d) m (gdudt RNum c (c_p c) L_none (filled c u1)) v i).
      { intros v i Hi. apply (faces_good c b' d HT ok); auto. destruct G as [Q1|(Q1 & Q2 & Q3 & Q4)]; [left; exact Q1|right].
        split; [exact Q1|]. split; [exact Q2|]. split; [exact Q3|]. intros w Sw Ow. destruct (Q4 w Sw Ow) as [[Q5|Q5] _]; [congruence|exact Q5]. }
      assert (US : rel r us1 us2).
      { split; [exact RU1|]. split; [exact RU2|]. split; [exact SU1|]. split; [exact SU2|]. intros v i Hi.
        change (c_n c') with n in *. rewrite VU2 by exact Hi. rewrite (DU v i Hi), (V v i Hi). unfold refl.
        rewrite VU1 by (apply flip_shape, Hi). cbn [nadd nmul RNum]. eqR. ring. }
      specialize (W1 _ (copied_refl s us1 SU1)). specialize (W2 _ (padded_image r s us1 us2 US)).
      rewrite !(primitives_refl (c_p c) (degs c HT)) in W2.
      eexists _, _. split; [|split; [|split; [exact W1|exact W2]]]; [intro FO'; congruence|]. intros j Hj. apply flag_refl. }
  destruct FW as (fl & fl' & FA & FI & WW1 & WW2).
  exists x1', x2', dt1, k1, k2. split; [exact F1|]. split; [exact F2|]. split; [split; assumption|].
  split; [exact RK1|]. split; [exact RK2|]. split; [exact SK1|]. split; [exact SK2|]. intros v i Hi.
  change (c_n c') with n in *. rewrite VK2 by exact Hi.
  transitivity (refl d (sg d) m (gsum RNum c (mixed RNum c th1 (filled c u1))) v i).
  - exact (mixed_refl fl fl' th1 th2 u1 v i FA S1 O FI WW1 WW2 Hi).
  - unfold refl. f_equal. symmetry. apply VK1, flip_shape, Hi.
Qed.
Theorem mirror_limited_checked heap heap' i av T k exact db log fuel u u' : shp u = n -> 2 <= rows u -> mirrored d u u' ->
  moved_outcome (N := RNum) (mirrored d) (simulate_checked (N := RNum) ok c heap i av T k exact db log fuel u)
    (simulate_checked (N := RNum) (fun w => ok (image c d w)) c' heap' i av T k exact db log fuel u').
Proof.
  intros Su Ru MI. pose proof (proj1 (mirrored_refl d u u' n Su) MI) as (Ru' & Su' & V).
  apply (gen_moved RNum c c' heap heap' (rows u) HT (tabulated_bc c b' HT) (refl d (sg d) m)) with
    (ok1 := ok) (ok2 := fun w => ok (image c d w)) (E1 := fun _ w => filled c w) (E2 := fun _ w => copied RNum b' n w)
    (W := refl d (sg d) m) (A1 := limiting RNum c (rows u)) (A2 := limiting RNum c' (rows u)).
  - apply mext.
  - intros f g v j. unfold refl. cbn [nadd RNum]. apply Rmult_plus_distr_l.
  - intros f g v j. unfold refl. cbn [nmul RNum]. eqR. ring.
  - intros t w _ Sw. apply copied_refl, Sw.
  - intros t w _ Sw. exact (closed_pads RNum c' t w (tabulated_bc c b' HT) HC' Sw).
  - intros u1 u2 (R1 & R2 & S1 & S2 & V2). apply Hok; cbn [image rows shp at_]; [exact (eq_trans R1 (eq_sym R2))|exact (eq_trans S1 (eq_sym S2))|].
    intros v j Hj. assert (Hj' : in_shape n j) by (rewrite <- S1; exact Hj).
    exact (eq_trans (eq_sym (refl_refl c d (at_ u1) v j)) (eq_sym (f_equal (Rmult (sg d v)) (V2 v (setc d (m - getc d j) j) (flip_shape j Hj'))))).
  - intros t u1 u2 (R1 & R2 & S1 & S2 & V2) v j Hj. apply copied_x; auto; [apply HT|]. exact (folded_in RNum c' (tabulated_bc c b' HT) HC' j Hj).
  - intros t u1 u2 _ v j Hj. apply prim_same, HT.
  - apply limiting_helper, HL.
  - apply limiting_helper, HL.
  - apply limiting_init.
  - apply limiting_init.
  - intros x1 x2 s t u1 u2 A H O. apply limited_image; auto.
  - repeat split; auto.
  - intros w1 w2 (R1 & R2 & S1 & S2 & V2). apply (mirrored_refl d w1 w2 n S1). split; [exact (eq_trans R2 (eq_sym R1))|]. split; [exact S2|exact V2].
Qed.
End Runs.
Theorem mirror_limited (c : config RNum) b' d : tabulated c -> closed c -> closed (replace_bc c b') -> ends_exchanged d (c_bc c) b' ->
  c_limit c = true -> known_options c -> (c_convex c = false \/ (flat_box c /\ flat_box (replace_bc c b'))) -> c_rs c = RS_llf ->
  (c_force c = true \/ mirror_fair d (c_nad c)) -> forall heap heap' i av T k exact db log fuel u u', shp u = c_n c -> 2 <= rows u -> mirrored d u u' ->
  moved_outcome (N := RNum) (mirrored d) (simulate c heap i av T k exact db log fuel u) (simulate (replace_bc c b') heap' i av T k exact db log fuel u').
Proof.
  intros HT HC HC' X HL HK HB LLF HF heap heap' i av T k exact db log fuel u u' Su Ru M.
  exact (mirror_limited_checked c b' d HT HC HC' X HL HK (fun _ => true) (fun _ _ _ _ _ => eq_refl) (or_introl LLF) HB HF heap heap' i av T k exact db log fuel u u' Su Ru M).
Qed.
Theorem symmetric_limited (c : config RNum) d heap i av T k exact db log fuel u o :
  tabulated c -> closed c -> bc_type (c_bc c) d SL = bc_type (c_bc c) d SR -> c_limit c = true -> known_options c ->
  c_convex c = false \/ flat_box c -> c_rs c = RS_llf -> c_force c = true \/ mirror_fair d (c_nad c) ->
  shp u = c_n c -> 2 <= rows u -> mirrored d u u ->
  simulate c heap i av T k exact db log fuel u = Ok o ->
  mirrored d (o_u o) (o_u o) /\ List.Forall (fun s => mirrored d (fst (snd s)) (fst (snd s))) (o_snaps o).
Proof.
  intros HT HC HE HL HK HB G HF Su Ru M HS.
  pose proof (mirror_limited c (c_bc c) d) as Q. rewrite same_bc in Q.
  specialize (Q HT HC HC (same_ends c d HE) HL HK ltac:(tauto) G HF heap heap i av T k exact db log fuel u u Su Ru M). rewrite HS in Q.
  apply (moved_self d o o); [exact Q|reflexivity].
Qed.

(** ** the HLLC solver *)
Section Weights.
Context (xi : Z -> ipos -> list R) (xt : Z -> list R) (HW : tables xi xt).
Lemma physical_low_tables (c : config RNum) sl E : tabulated c -> physical_low_traces xi xt c sl E -> physical_low_traces wi wt c sl E.
Proof.
  intros HT H d i pos A Z P. specialize (H d i pos A Z P). pose proof (degs_low c HT) as D. rewrite (low_is c HT) in D.
  assert (EC : (fun a => xi (getc a (low (c_p c))) P_c) = (fun a => wi (getc a (low (c_p c))) P_c)) by (extensionality a; symmetry; apply (wi_is xi xt HW (low (c_p c)) D), lr_c).
  assert (ET : (fun a => xt (getc a (low (c_p c)))) = (fun a => wt (getc a (low (c_p c))))) by (extensionality a; symmetry; apply (wt_is xi xt HW (low (c_p c)) D)).
  unfold trace, primitives in *. cbv zeta in *. rewrite EC, ET in H.
  rewrite <- (wi_is xi xt HW (low (c_p c)) D d pos) in H by (unfold lr_pos; tauto). exact H.
Qed.
Theorem mirror_limited_hllc ok sl (c : config RNum) b' d : tabulated c -> closed c -> closed (replace_bc c b') -> ends_exchanged d (c_bc c) b' ->
  c_limit c = true -> known_options c -> (c_convex c = false \/ (flat_box c /\ flat_box (replace_bc c b'))) ->
  c_rs c = RS_hllc -> (0 < c_csq_floor c)%R -> (1 <= c_gamma c)%R -> (c_force c = true \/ mirror_fair d (c_nad c)) ->
  fallback_slope c sl -> test_of_cells ok ->
  (forall w, shp w = c_n c -> ok w = true -> (c_force c = true \/ physical_traces xi xt c (filled c w)) /\ physical_low_traces xi xt c sl (filled c w)) ->
  forall heap heap' i av T k exact db log fuel u u' o, shp u = c_n c -> 2 <= rows u -> mirrored d u u' ->
  simulate_checked (N := RNum) ok c heap i av T k exact db log fuel u = Ok o ->
  simulate c heap i av T k exact db log fuel u = Ok o /\
  exists o', simulate (replace_bc c b') heap' i av T k exact db log fuel u' = Ok o' /\ moved_run (N := RNum) (mirrored d) o o'.
Proof.
  intros HT HC HC' X HL HK HB G1 G2 G3 HF FS Hok Hph heap heap' i av T k exact db log fuel u u' o Su Ru M HS.
  split; [exact (unchecked RNum ok c heap i av T k exact db log fuel u o HS)|].
  pose proof (eq_sym (proj1 (slope_is c sl FS))) as SL0.
  pose proof (mirror_limited_checked c b' d HT HC HC' X HL HK ok Hok) as Q.
  specialize (Q (or_intror (conj G1 (conj G2 (conj G3 (fun w Sw O => let H := Hph w Sw O in conj (match proj1 H with or_introl A => or_introl A | or_intror A => or_intror (physical_tables xi xt HW c _ HT A) end) (physical_low_tables c _ _ HT (eq_ind _ (fun s => physical_low_traces xi xt c s _) (proj2 H) _ SL0)))))))
    HB HF heap heap' i av T k exact db log fuel u u' Su Ru M).
  rewrite HS in Q. revert Q. destruct (simulate_checked _ (replace_bc c b') _ _ _ _ _ _ _ _ _ _) as [o'|] eqn:E; [|intros []].
  intro Q. exists o'. split; [exact (unchecked RNum _ _ _ _ _ _ _ _ _ _ _ _ _ E)|exact Q].
Qed.
Theorem symmetric_limited_hllc ok sl (c : config RNum) d heap i av T k exact db log fuel u o :
  tabulated c -> closed c -> bc_type (c_bc c) d SL = bc_type (c_bc c) d SR -> c_limit c = true -> known_options c ->
  c_convex c = false \/ flat_box c -> c_rs c = RS_hllc -> (0 < c_csq_floor c)%R -> (1 <= c_gamma c)%R -> c_force c = true \/ mirror_fair d (c_nad c) ->
  fallback_slope c sl -> test_of_cells ok ->
  (forall w, shp w = c_n c -> ok w = true -> (c_force c = true \/ physical_traces xi xt c (filled c w)) /\ physical_low_traces xi xt c sl (filled c w)) ->
  shp u = c_n c -> 2 <= rows u -> mirrored d u u ->
  simulate_checked (N := RNum) ok c heap i av T k exact db log fuel u = Ok o ->
  mirrored d (o_u o) (o_u o) /\ List.Forall (fun s => mirrored d (fst (snd s)) (fst (snd s))) (o_snaps o).
Proof.
  intros HT HC HE HL HK HB G1 G2 G3 HF FS Hok Hph Su Ru M HS.
  pose proof (mirror_limited_hllc ok sl c (c_bc c) d) as Q. rewrite same_bc in Q.
  destruct (Q HT HC HC (same_ends c d HE) HL HK ltac:(tauto) G1 G2 G3 HF FS Hok Hph heap heap i av T k exact db log fuel u u o Su Ru M HS) as (S1 & o' & S2 & MR).
  apply (moved_self d o o' MR). congruence.
Qed.
End Weights.
