(** Several walls as planes of symmetry. *)
From Coq Require Import ZArith List Bool Lia Reals Lra FunctionalExtensionality.
From Verif Require Import Err Num NdArray FvM RiemannM StencilsM BcM SpecBc LimitM OdeM SolverM Spec SpecLim SpecSolver SpecCons SpecScheme SpecSym SpecMirLim SpecFold SpecCorner SpecIdle IdleP
  NdArrayP FvP OpP SolverP ExistP SchemeP ShiftP WatchP UniformP SymP SymLimP MirLimP MirrorP DriftP FoldP FoldLimP.
Import ListNotations.
Local Open Scope Z_scope.

Lemma listed_in a l : listed_axis a l = true <-> In a l.
Proof.
  unfold listed_axis. rewrite existsb_exists. split.
  - intros (b & I & E). destruct a, b; try discriminate; exact I.
  - intro I. exists a. split; [exact I|apply axis_eqb_refl].
Qed.
Lemma listed_out a l : ~ In a l -> listed_axis a l = false.
Proof. intro H. apply not_true_is_false. intro E. apply H, listed_in, E. Qed.
Lemma getc_twice l n a : getc a (twice_along l n) = if listed_axis a l then 2 * getc a n else getc a n.
Proof. destruct a; reflexivity. Qed.
Lemma getc_original l n i a : getc a (original l n i) = if listed_axis a l then (if getc a n <=? getc a i then getc a i - getc a n else getc a n - 1 - getc a i) else getc a i.
Proof. destruct a; reflexivity. Qed.
Lemma ix_eq (i j : ix) : (forall a, getc a i = getc a j) -> i = j.
Proof. intro H. destruct i, j. pose proof (H AX). pose proof (H AY). pose proof (H AZ). cbn in *. congruence. Qed.
Lemma listed_cons a d l : listed_axis a (d :: l) = (axis_eqb a d || listed_axis a l)%bool. Proof. reflexivity. Qed.
Lemma twice_cons d l n : ~ In d l -> twice_along (d :: l) n = setc d (2 * getc d (twice_along l n)) (twice_along l n).
Proof.
  intro H. apply ix_eq. intro a. rewrite getc_twice, listed_cons. destruct (axis_dec a d) as [->|NE].
  - rewrite axis_eqb_refl, getc_setc_eq, getc_twice, (listed_out d l H). reflexivity.
  - axf. rewrite getc_setc_ne, getc_twice by auto. reflexivity.
Qed.
(** the boundary conditions of the domain continued along the rest of the list *)
Definition upper_everywhere (l : list axis) (b b' : bcond RNum) : Prop :=
  forall a pos, bc_type b' a pos = bc_type b a (if listed_axis a l then SR else pos).
Definition between_bc (l : list axis) (b : bcond RNum) : bcond RNum :=
  mkbc (fun a pos => bc_type b a (if listed_axis a l then SR else pos)) (bc_val b) (bc_slabs b) (bc_cupy b).
Lemma continued_cons d l (b' : bcond RNum) (c : config RNum) b'' : ~ In d l -> continued (d :: l) b' c = doubled d b' (continued l b'' c).
Proof.
  intro H. unfold continued, doubled. cbn [c_n c_p c_bounds c_CFL c_fixed_dt c_gamma c_csq_floor c_rs c_bc c_limit c_limiter c_force c_nad c_convex].
  rewrite (twice_cons d l _ H). f_equal. apply functional_extensionality. intro a. rewrite listed_cons. destruct (axis_dec a d) as [->|NE].
  - rewrite axis_eqb_refl, (listed_out d l H). reflexivity.
  - axf. reflexivity.
Qed.
Lemma continued_nil (c : config RNum) b' : doubled AX b' c = doubled AX b' (continued [] (c_bc c) c).
Proof. unfold continued, doubled. destruct c as [[] ? ? ? ? ? ? ? ? ? ? ? ? ?]. reflexivity. Qed.
Lemma continued_none (c : config RNum) : continued [] (c_bc c) c = c.
Proof. destruct c as [[] ? ? ? ? ? ? ? ? ? ? ? ? ?]. reflexivity. Qed.
Lemma opened_none (u : arr R) : opened (N := RNum) [] u u.
Proof.
  split; [reflexivity|]. split; [apply ix_eq; intro a; rewrite getc_twice; reflexivity|]. intros v i _. cbn [existsb]. cbv zeta. f_equal.
  apply ix_eq. intro a. rewrite getc_original. reflexivity.
Qed.
Lemma comp_inj a b : comp a = comp b -> a = b. Proof. destruct a, b; cbn; intro; congruence. Qed.
Lemma original_upper d l n i : ~ In d l -> getc d n <= getc d i -> original (d :: l) n i = original l n (setc d (getc d i - getc d n) i).
Proof.
  intros H K. apply ix_eq. intro a. rewrite !getc_original, listed_cons. destruct (axis_dec a d) as [->|NE].
  - rewrite axis_eqb_refl, (listed_out d l H), getc_setc_eq. cbn [orb]. destruct (Z.leb_spec (getc d n) (getc d i)); lia.
  - axf. rewrite getc_setc_ne by auto. reflexivity.
Qed.
Lemma original_lower d l n i : ~ In d l -> getc d i < getc d n -> original (d :: l) n i = original l n (setc d (getc d n - 1 - getc d i) i).
Proof.
  intros H K. apply ix_eq. intro a. rewrite !getc_original, listed_cons. destruct (axis_dec a d) as [->|NE].
  - rewrite axis_eqb_refl, (listed_out d l H), getc_setc_eq. cbn [orb]. destruct (Z.leb_spec (getc d n) (getc d i)); lia.
  - axf. rewrite getc_setc_ne by auto. reflexivity.
Qed.
Lemma signs_other d l v (n i j : ix) : ~ In d l -> (forall a, a <> d -> getc a j = getc a i) ->
  existsb (fun a => (v =? comp a) && (getc a j <? getc a n)) l = existsb (fun a => (v =? comp a) && (getc a i <? getc a n)) l.
Proof.
  intros H K. induction l as [|b l IH]; [reflexivity|]. cbn [existsb]. rewrite IH; [|intro I; apply H; right; exact I].
  rewrite K; [reflexivity|]. intros ->. apply H. left. reflexivity.
Qed.
Lemma signs_own d l (n i : ix) : ~ In d l -> existsb (fun a => (comp d =? comp a) && (getc a i <? getc a n)) l = false.
Proof.
  intro H. apply not_true_is_false. rewrite existsb_exists. intros (a & I & E). apply andb_prop in E. destruct E as [E _]. apply Z.eqb_eq, comp_inj in E. subst. exact (H I).
Qed.
(** the value the relation prescribes *)
Definition image (l : list axis) (u : arr R) (v : Z) (i : ix) : R :=
  let x := at_ u v (original l (shp u) i) in
  if existsb (fun a => (v =? comp a) && (getc a i <? getc a (shp u))) l then (- x)%R else x.
Lemma opened_is l (u u' : arr R) : opened (N := RNum) l u u' <-> rows u' = rows u /\ shp u' = twice_along l (shp u) /\
  forall v i, in_shape (shp u') i -> at_ u' v i = image l u v i.
Proof. reflexivity. Qed.
Lemma image_cons d l (u : arr R) v i : ~ In d l -> image (d :: l) u v i =
  if getc d (shp u) <=? getc d i then image l u v (setc d (getc d i - getc d (shp u)) i)
  else let x := image l u v (setc d (getc d (shp u) - 1 - getc d i) i) in if v =? comp d then (- x)%R else x.
Proof.
  intro H. unfold image. cbv zeta. cbn [existsb]. destruct (Z.leb_spec (getc d (shp u)) (getc d i)) as [L|L].
  - rewrite (original_upper d l _ i H L). destruct (Z.ltb_spec (getc d i) (getc d (shp u))); [lia|]. rewrite andb_false_r. cbn [orb].
    rewrite (signs_other d l v (shp u) i (setc d (getc d i - getc d (shp u)) i)) by (auto; intros; apply getc_setc_ne; auto). reflexivity.
  - rewrite (original_lower d l _ i H L). destruct (Z.ltb_spec (getc d i) (getc d (shp u))); [|lia]. rewrite andb_true_r.
    rewrite (signs_other d l v (shp u) i (setc d (getc d (shp u) - 1 - getc d i) i)) by (auto; intros; apply getc_setc_ne; auto).
    destruct (Z.eqb_spec v (comp d)) as [->|]; cbn [orb]; [|reflexivity]. rewrite (signs_own d l _ _ H). reflexivity.
Qed.
Lemma twice_out d l n : ~ In d l -> getc d (twice_along l n) = getc d n.
Proof. intro H. rewrite getc_twice, (listed_out d l H). reflexivity. Qed.
(** opening along one axis more *)
Lemma opened_cons d l (u w u' : arr R) : ~ In d l -> opened (N := RNum) l u w ->
  (opened (N := RNum) (d :: l) u u' <-> unfolded (N := RNum) d w u').
Proof.
  intro H. rewrite !opened_is. intros (Rw & Sw & Vw). unfold unfolded. cbv zeta. change (car RNum) with R. rewrite Rw.
  assert (M : getc d (shp w) = getc d (shp u)) by (rewrite Sw; apply twice_out, H).
  assert (S0 : twice_along (d :: l) (shp u) = setc d (2 * getc d (shp w)) (shp w)) by (rewrite (twice_cons d l _ H), Sw; reflexivity).
  rewrite S0.
  assert (Q : forall v i, in_shape (setc d (2 * getc d (shp w)) (shp w)) i -> image (d :: l) u v i =
    if getc d (shp w) <=? getc d i then at_ w v (setc d (getc d i - getc d (shp w)) i)
    else let x := at_ w v (setc d (getc d (shp w) - 1 - getc d i) i) in if v =? comp d then nopp (n := RNum) x else x).
  { intros v i Hi. rewrite (image_cons d l u v i H), M. pose proof (Hi d) as Hd. rewrite getc_setc_eq, M in Hd.
    assert (K : forall x, 0 <= x < getc d (shp u) -> in_shape (shp w) (setc d x i)).
    { intros x Hx a. specialize (Hi a). destruct (axis_dec a d) as [->|NE]; [rewrite getc_setc_eq, M; lia|rewrite getc_setc_ne in * by auto; exact Hi]. }
    destruct (Z.leb_spec (getc d (shp u)) (getc d i)); (rewrite Vw by (apply K; lia)); reflexivity. }
  split; intros (A & B & C); (split; [exact A|split; [exact B|]]); intros v i Hi; rewrite B in Hi.
  - refine (eq_trans _ (Q v i Hi)). apply C. rewrite B. exact Hi.
  - refine (eq_trans _ (eq_sym (Q v i Hi))). apply C. rewrite B. exact Hi.
Qed.
Lemma opened_exists l (u : arr R) : exists w, opened (N := RNum) l u w /\ rows w = rows u /\ shp w = twice_along l (shp u).
Proof. exists (mkarr (rows u) (twice_along l (shp u)) (image l u)). split; [|split; reflexivity]. apply opened_is. split; [reflexivity|]. split; reflexivity. Qed.
(** composing relations between runs *)
Lemma moved_trans (P Q S : arr R -> arr R -> Prop) x y z : (forall u v w, P u v -> Q v w -> S u w) ->
  moved_outcome (N := RNum) P x y -> moved_outcome (N := RNum) Q y z -> moved_outcome (N := RNum) S x z.
Proof.
  intros H. destruct x as [x|e], y as [y|e']; try (intros []; fail); destruct z as [z|e'']; try (intros ? []; fail); cbn [moved_outcome].
  - intros [A1 A2 A3 A4 A5] [B1 B2 B3 B4 B5]. split; try congruence; [exact (H _ _ _ A4 B4)|].
    clear - H A5 B5. revert B5. generalize (o_snaps z) as zs. induction A5 as [|a b xs ys [E1 E2] _ IH]; intros zs B; inversion B; subst; constructor.
    + destruct H2 as [F1 F2]. split; [congruence|exact (H _ _ _ E2 F2)].
    + apply IH. assumption.
  - congruence.
Qed.
Lemma moved_with (P Q : arr R -> arr R -> Prop) x y : (forall u w, P u w -> Q u w) -> moved_outcome (N := RNum) P x y -> moved_outcome (N := RNum) Q x y.
Proof.
  intros H. destruct x, y; cbn [moved_outcome]; auto. intros [A1 A2 A3 A4 A5]. split; auto.
  clear - H A5. induction A5 as [|s1 s2 xs ys [E1 E2] _ IH]; constructor; auto.
Qed.

Section Walls.
Context (c : config RNum) (HT : tabulated c) (HC : closed c).
Lemma upper_next d l (b' : bcond RNum) : ~ In d l -> upper_everywhere (d :: l) (c_bc c) b' -> upper_at_both_ends d (between_bc l (c_bc c)) b'.
Proof.
  intros H U a pos. rewrite U, listed_cons. cbn [between_bc bc_type]. destruct (axis_dec a d) as [->|NE].
  - rewrite axis_eqb_refl, (listed_out d l H). reflexivity.
  - axf. reflexivity.
Qed.
Lemma upper_between l : upper_everywhere l (c_bc c) (between_bc l (c_bc c)).
Proof. intros a pos. reflexivity. Qed.
Definition walled (l : list axis) : Prop := forall a, In a l -> bc_type (c_bc c) a SL = B_reflective /\ ~ inactive c a.
Lemma continued_active l b' a : walled l -> (inactive (continued l b' c) a <-> inactive c a).
Proof.
  intro W. unfold inactive. cbn [continued c_n c_p]. rewrite getc_twice. destruct (listed_axis a l) eqn:E; [|tauto].
  apply listed_in in E. destruct (W a E) as [_ A]. unfold inactive in A. destruct HT as [[Sn _ _ _] _]. specialize (Sn a). split; intros [I1 I2]; [lia|]. exfalso. apply A. auto.
Qed.
Local Notation part l := (continued l (between_bc l (c_bc c)) c).
Lemma part_nil : part [] = c.
Proof. assert (X : between_bc [] (c_bc c) = c_bc c) by (destruct (c_bc c); reflexivity). rewrite X. apply continued_none. Qed.
Lemma part_wall d l : ~ In d l -> walled (d :: l) -> bc_type (c_bc (part l)) d SL = B_reflective /\ ~ inactive (part l) d.
Proof.
  intros NI W. destruct (W d (or_introl eq_refl)) as [WL HA]. split.
  - cbn [continued c_bc between_bc bc_type]. rewrite (listed_out d l NI). exact WL.
  - rewrite continued_active; [exact HA|]. intros a I. apply W. right. exact I.
Qed.
(** what is left is a domain with a wall along the axes left *)
Lemma part_good l : NoDup l -> walled l -> tabulated (part l) /\ closed (part l).
Proof.
  induction l as [|d l IH]; intros ND W; [rewrite part_nil; auto|]. inversion ND as [|? ? NI ND']; subst.
  destruct IH as [T C]; [exact ND'|intros a I; apply W; right; exact I|]. destruct (part_wall d l NI W) as [WL HA].
  rewrite (continued_cons d l _ c (between_bc l (c_bc c)) NI). split; [apply double_tab; auto|]. apply double_closed; auto.
  exact (upper_next d l _ NI (upper_between (d :: l))).
Qed.
Lemma part_flat l : NoDup l -> walled l -> flat_box c -> forall b', upper_everywhere l (c_bc c) b' -> flat_box (continued l b' c).
Proof.
  intros ND W [(a & A & O)|(a & A & O & Z)] b' U.
  - left. exists a. rewrite continued_active by auto. split; [exact A|]. intros b NE. apply continued_active; auto.
  - right. exists a. rewrite continued_active by auto. split; [exact A|]. split; [intros b NE; rewrite continued_active; auto|].
    intro NE. destruct (Z NE) as (pos & P). cbn [continued c_bc]. exists pos. rewrite U. destruct (listed_axis AZ l) eqn:E; [|exact P].
    apply listed_in in E. destruct (W AZ E) as [WL HA]. apply upper_end; auto.
Qed.
(** ** a step of the unfolding applies to every part *)
Context (ok : arr R -> bool) (L : list axis) (G : forall l, NoDup l -> walled l -> forall d b', ~ In d l -> In d L -> walled (d :: l) -> upper_at_both_ends d (c_bc (part l)) b' ->
  forall heap heap' i av T k exact db log fuel u u', shp u = c_n (part l) -> 2 <= rows u -> unfolded (N := RNum) d u u' ->
  moved_outcome (N := RNum) (unfolded (N := RNum) d) (simulate_checked (N := RNum) ok (part l) heap i av T k exact db log fuel u)
    (simulate_checked (N := RNum) ok (doubled d b' (part l)) heap' i av T k exact db log fuel u')).
Theorem walls_checked l : l <> [] -> incl l L -> NoDup l -> walled l -> forall b', upper_everywhere l (c_bc c) b' ->
  forall heap heap' i av T k exact db log fuel u u', shp u = c_n c -> 2 <= rows u -> opened (N := RNum) l u u' ->
  moved_outcome (N := RNum) (opened (N := RNum) l) (simulate_checked (N := RNum) ok c heap i av T k exact db log fuel u)
    (simulate_checked (N := RNum) ok (continued l b' c) heap' i av T k exact db log fuel u').
Proof.
  induction l as [|d l IH]; intros NE IL ND W b' U heap heap' i av T k exact db log fuel u u' Su Ru M; [congruence|].
  assert (IL' : incl l L) by (intros a I; apply IL; right; exact I). pose proof (IL d (or_introl eq_refl)) as ID.
  inversion ND as [|? ? NI ND']; subst. assert (W' : walled l) by (intros a I; apply W; right; exact I).
  rewrite (continued_cons d l b' c (between_bc l (c_bc c)) NI). pose proof (upper_next d l b' NI U) as X.
  destruct l as [|e l].
  - pose proof (opened_cons d [] u u u' NI (opened_none u)) as O.
    eapply moved_with; [|rewrite <- part_nil at 1; apply (G [] ND' W' d b' NI ID W X)].
    + intros w w' UW. apply (opened_cons d [] w w w' NI (opened_none w)), UW.
    + rewrite part_nil. exact Su.
    + exact Ru.
    + apply O, M.
  - destruct (opened_exists (e :: l) u) as (w & OW & Rw & Sw).
    eapply moved_trans; [|apply (IH ltac:(discriminate) IL' ND' W' _ (upper_between (e :: l)) heap heap i av T k exact db log fuel u w Su Ru OW)|apply (G (e :: l) ND' W' d b' NI ID W X)].
    + intros x y z OX UY. apply (opened_cons d (e :: l) x y z NI OX), UY.
    + change (car RNum) with R in *. rewrite Sw, Su. reflexivity.
    + change (car RNum) with R in *. rewrite Rw. exact Ru.
    + apply (opened_cons d (e :: l) u w u' NI OW), M.
Qed.
End Walls.

(** ** without and with slope limiting *)
Lemma flat_step (c : config RNum) m d b'' : tabulated c -> closed c -> NoDup m -> ~ In d m -> walled c m -> walled c (d :: m) ->
  upper_at_both_ends d (c_bc (continued m (between_bc m (c_bc c)) c)) b'' -> c_convex c = false \/ flat_box c ->
  c_convex c = false \/ (flat_box (continued m (between_bc m (c_bc c)) c) /\ flat_box (doubled d b'' (continued m (between_bc m (c_bc c)) c))).
Proof.
  intros HT HC ND NI Wm Wd X [B|B]; [left; exact B|right]. split; [apply part_flat; auto using upper_between|].
  pose proof (part_flat c HT HC (d :: m) ltac:(constructor; auto) Wd B b'') as Q. rewrite (continued_cons d m b'' c (between_bc m (c_bc c)) NI) in Q. apply Q.
  intros a pos. rewrite X, listed_cons. cbn [continued c_bc between_bc bc_type]. destruct (axis_dec a d) as [->|NE'].
  - rewrite axis_eqb_refl, (listed_out d m NI). reflexivity.
  - axf. reflexivity.
Qed.
Lemma walls_llf_everywhere l (c : config RNum) b' : tabulated c -> closed c -> l <> [] -> NoDup l -> upper_everywhere l (c_bc c) b' ->
  (forall a, In a l -> bc_type (c_bc c) a SL = B_reflective /\ ~ inactive c a) -> c_rs c = RS_llf ->
  (c_limit c = true -> limiting_fair l c) ->
  forall heap heap' i av T k exact db log fuel u u', shp u = c_n c -> 2 <= rows u -> opened (N := RNum) l u u' ->
  moved_outcome (N := RNum) (opened (N := RNum) l) (simulate c heap i av T k exact db log fuel u)
    (simulate (continued l b' c) heap' i av T k exact db log fuel u').
Proof.
  intros HT HC NE ND U W G HL.
  apply (walls_checked c (fun _ => true) l) with (l := l); auto using incl_refl.
  intros m NDm Wm d b'' NI ID Wd X heap heap' i av T k exact db log fuel u u' Su Ru M.
  destruct (part_good c HT HC m NDm Wm) as [T1 C1]. destruct (part_wall c HT d m NI Wd) as [WL HA].
  destruct (c_limit c) eqn:EL.
  - destruct (HL eq_refl) as (K & B & F).
    apply (fold_limited_llf (continued m (between_bc m (c_bc c)) c) b'' d T1 C1 X WL HA EL K); auto.
    + apply (flat_step c); auto.
    + destruct F as [F|F]; [left; exact F|right; exact (F d ID)].
  - apply (fold_llf (continued m (between_bc m (c_bc c)) c) b'' d); auto. lia.
Qed.
(** HLLC, of degree zero *)
Lemma physical_opens d (u u' : arr R) : unfolded (N := RNum) d u u' -> (forall a, 1 <= getc a (shp u)) -> physical_b u' = physical_b u.
Proof.
  intros (A & B & C) Pos. change (car RNum) with R in *. cbn [nopp RNum] in C. cbv zeta in C. apply eq_true_iff_eq. rewrite !physical_b_spec. unfold all_physical. rewrite B.
  split; intros H i Hi.
  - specialize (H (setc d (getc d i + getc d (shp u)) i)).
    assert (I : in_shape (setc d (2 * getc d (shp u)) (shp u)) (setc d (getc d i + getc d (shp u)) i)).
    { intro a. specialize (Hi a). destruct (axis_dec a d) as [->|NE]; [rewrite !getc_setc_eq; lia|rewrite !getc_setc_ne by auto; exact Hi]. }
    specialize (H I). rewrite <- B in I. rewrite !C in H by exact I. rewrite getc_setc_eq, setc_setc in H. pose proof (Hi d).
    destruct (Z.leb_spec (getc d (shp u)) (getc d i + getc d (shp u))); [|lia]. replace (getc d i + getc d (shp u) - getc d (shp u)) with (getc d i) in H by lia.
    rewrite setc_getc in H. exact H.
  - pose proof Hi as Hi'. rewrite <- B in Hi'. rewrite !C by exact Hi'. pose proof (Hi d) as Hd. rewrite getc_setc_eq in Hd.
    assert (K : forall x, 0 <= x < getc d (shp u) -> in_shape (shp u) (setc d x i)).
    { intros x Hx a. specialize (Hi a). destruct (axis_dec a d) as [->|NE]; [rewrite getc_setc_eq; lia|rewrite getc_setc_ne in * by auto; exact Hi]. }
    destruct (Z.leb_spec (getc d (shp u)) (getc d i)); [apply H, K; lia|]. specialize (H _ (K (getc d (shp u) - 1 - getc d i) ltac:(lia))).
    destruct d; cbn [comp] in *; cbn [Z.eqb Pos.eqb] in *;
    (split; [apply H|]); destruct H as [_ H]; match type of H with (0 <= ?x)%R => match goal with |- (0 <= ?y)%R => replace y with x by (unfold Rdiv; ring); exact H end end.
Qed.
(** the traces of limited slopes lie between the cells *)
Lemma low_physical (c : config RNum) u l : tabulated c -> closed c -> (1 < c_gamma c)%R -> l = L_minmod \/ l = L_moncen -> shp u = c_n c -> all_physical u ->
  physical_low_traces (wts_i RNum) (wts_t RNum) c (slope_of l) (filled c u).
Proof.
  intros HT HC HG HLim Su HP d i pos A Z P. destruct (limiter_bound l HLim) as (s & k & Es & K & LB & _). rewrite Es.
  assert (Hp : forall a, getc a (low (c_p c)) = 0 \/ getc a (low (c_p c)) = 1).
  { intro a. replace (getc a (low (c_p c))) with (Z.min 1 (getc a (c_p c))) by (destruct a; reflexivity). pose proof (proj1 (degs c HT a)). lia. }
  rewrite (low_prim c (low (c_p c)) Hp). set (w := fun v i => primitive (c_gamma c) (fun r => filled c u r i) v).
  assert (Q : forall j, in_padded (c_n c) (ghost_zones3 c) j -> (0 < w 0%Z j)%R /\ (0 <= w 4%Z j)%R).
  { intros j Hj. assert (IN : in_shape (c_n c) (folded3 (c_bc c) (c_n c) j)) by (apply (folded_in RNum c HT HC), Hj).
    destruct (HP _ ltac:(rewrite Su; exact IN)) as [P0 P1].
    assert (SQ : forall v, (filled c u v j * filled c u v j = at_ u v (folded3 (c_bc c) (c_n c) j) * at_ u v (folded3 (c_bc c) (c_n c) j))%R)
      by (intro v; unfold filled; destruct (negated3 _ _ _ _); ring).
    unfold w. cbn [primitive]. split; [exact P0|]. rewrite !SQ. apply Rmult_le_pos; [lra|exact P1]. }
  assert (B : forall v x, (forall y, -1 <= y <= 1 -> (y = 0 \/ getc d (low (c_p c)) = 1) -> (x <= w v (up d y i))%R) ->
    (x <= trace (wts_i RNum) (low (c_p c)) (Some s) d pos w v i)%R).
  { intros v x H. destruct (low_trace (low (c_p c)) Hp s w d v i) as [TR TL].
    pose proof (H 0 ltac:(lia) (or_introl eq_refl)) as H0. rewrite up_0 in H0.
    assert (T : (x <= w v i - tiltd (low (c_p c)) s d (w v) i /\ x <= w v i + tiltd (low (c_p c)) s d (w v) i)%R).
    { unfold tiltd. destruct (Z.eqb_spec (getc d (low (c_p c))) 1) as [E|E]; [|lra].
      pose proof (H 1 ltac:(lia) (or_intror E)) as H1. pose proof (H (-1) ltac:(lia) (or_intror E)) as H2.
      set (a := (w v i - w v (up d (-1) i))%R). set (b := (w v (up d 1 i) - w v i)%R). destruct (LB a b) as [L1 L2].
      destruct (Rle_lt_dec (a * b) 0) as [N0|P0]; [rewrite (L1 N0); lra|]. destruct (L2 P0) as [S1 S2].
      pose proof (Rmin_l (Rabs a) (Rabs b)) as M1. pose proof (Rmin_r (Rabs a) (Rabs b)) as M2. pose proof (Rabs_pos a). pose proof (Rabs_pos b).
      assert (M0 : (0 <= Rmin (Rabs a) (Rabs b))%R) by (apply Rmin_glb; assumption).
      assert (X1 : (Rabs (s a b) <= 2 * Rabs a)%R) by nra. assert (X2 : (Rabs (s a b) <= 2 * Rabs b)%R) by nra.
      assert (SG : (0 < a /\ 0 < b /\ 0 < s a b \/ a < 0 /\ b < 0 /\ s a b < 0)%R).
      { destruct (Rtotal_order a 0) as [A0|[A0|A0]]; [right|rewrite A0 in P0; lra|left]; repeat split; nra. }
      unfold a, b in *. destruct SG as [(G1 & G2 & G3)|(G1 & G2 & G3)].
      - rewrite (Rabs_right (s _ _)), (Rabs_right (_ - _)) in X1 by lra. rewrite (Rabs_right (s _ _)), (Rabs_right (_ - _)) in X2 by lra. lra.
      - rewrite (Rabs_left (s _ _)), (Rabs_left (_ - _)) in X1 by lra. rewrite (Rabs_left (s _ _)), (Rabs_left (_ - _)) in X2 by lra. lra. }
    destruct P as [-> | ->]; [rewrite TL|rewrite TR]; apply T. }
  assert (ZN : forall y, -1 <= y <= 1 -> (y = 0 \/ getc d (low (c_p c)) = 1) -> in_padded (c_n c) (ghost_zones3 c) (up d y i)).
  { intros y Hy E. apply (face_reach c HT d i (up d y i) Z A). intro b. pose proof (sr_pos _ (degs c HT b)). destruct (axis_dec b d) as [->|NE].
    - unfold up. rewrite getc_setc_eq. destruct E as [-> |E]; [lia|]. assert (1 <= stencil_right (getc d (c_p c))); [|lia].
      pose proof (FoldLimP.sr_low c HT d) as SL. rewrite E in SL. cbn in SL. lia.
    - unfold up. rewrite getc_setc_ne by auto. lia. }
  split; [unfold rho|unfold press].
  - (* strictly positive: the least of the three *)
    set (e := Rmin (w 0%Z i) (Rmin (if getc d (low (c_p c)) =? 1 then w 0%Z (up d 1 i) else w 0%Z i) (if getc d (low (c_p c)) =? 1 then w 0%Z (up d (-1)%Z i) else w 0%Z i))).
    assert (E0 : (0 < e)%R).
    { unfold e. assert (W0 : (0 < w 0%Z i)%R) by (pose proof (proj1 (Q _ (ZN 0 ltac:(lia) (or_introl eq_refl)))) as H; rewrite up_0 in H; exact H).
      destruct (Z.eqb_spec (getc d (low (c_p c))) 1) as [E|E]; repeat apply Rmin_glb_lt; try exact W0; apply Q, ZN; auto; lia. }
    eapply Rlt_le_trans; [exact E0|]. apply B. intros y Hy E. unfold e.
    pose proof (Rmin_l (w 0%Z i) (Rmin (if getc d (low (c_p c)) =? 1 then w 0%Z (up d 1 i) else w 0%Z i) (if getc d (low (c_p c)) =? 1 then w 0%Z (up d (-1)%Z i) else w 0%Z i))) as M1.
    pose proof (Rmin_r (w 0%Z i) (Rmin (if getc d (low (c_p c)) =? 1 then w 0%Z (up d 1 i) else w 0%Z i) (if getc d (low (c_p c)) =? 1 then w 0%Z (up d (-1)%Z i) else w 0%Z i))) as M2.
    pose proof (Rmin_l (if getc d (low (c_p c)) =? 1 then w 0%Z (up d 1 i) else w 0%Z i) (if getc d (low (c_p c)) =? 1 then w 0%Z (up d (-1)%Z i) else w 0%Z i)) as M3.
    pose proof (Rmin_r (if getc d (low (c_p c)) =? 1 then w 0%Z (up d 1 i) else w 0%Z i) (if getc d (low (c_p c)) =? 1 then w 0%Z (up d (-1)%Z i) else w 0%Z i)) as M4.
    destruct (Z.eq_dec y 0) as [->|NY]; [rewrite up_0; exact M1|]. destruct E as [E|E]; [contradiction|]. rewrite E in *. cbn [Z.eqb Pos.eqb] in *.
    assert (Y : y = 1 \/ y = -1) by lia. destruct Y as [-> | ->]; lra.
  - apply B. intros y Hy E. apply Q, ZN; assumption.
Qed.
Lemma walls_hllc_everywhere l (c : config RNum) b' : tabulated c -> closed c -> l <> [] -> NoDup l -> upper_everywhere l (c_bc c) b' ->
  (forall a, In a l -> bc_type (c_bc c) a SL = B_reflective /\ ~ inactive c a) -> c_rs c = RS_hllc -> low_order c ->
  (0 < c_csq_floor c)%R -> (1 < c_gamma c)%R ->
  forall heap heap' i av T k exact db log fuel u u' o, shp u = c_n c -> 2 <= rows u -> opened (N := RNum) l u u' ->
  simulate_checked (N := RNum) physical_b c heap i av T k exact db log fuel u = Ok o ->
  simulate c heap i av T k exact db log fuel u = Ok o /\
  exists o', simulate (continued l b' c) heap' i av T k exact db log fuel u' = Ok o' /\ moved_run (N := RNum) (opened (N := RNum) l) o o'.
Proof.
  intros HT HC NE ND U W G LO HF HG heap heap' i av T k exact db log fuel u u' o Su Ru M HS.
  split; [exact (unchecked RNum physical_b c heap i av T k exact db log fuel u o HS)|].
  assert (Q : moved_outcome (N := RNum) (opened (N := RNum) l) (simulate_checked (N := RNum) physical_b c heap i av T k exact db log fuel u)
    (simulate_checked (N := RNum) physical_b (continued l b' c) heap' i av T k exact db log fuel u')).
  { apply (walls_checked c physical_b l) with (l := l); auto using incl_refl.
    clear - HT HC LO G HF HG. intros m NDm Wm d b'' NI ID Wd X heap heap' i av T k exact db log fuel u u' Su Ru M.
    destruct (part_good c HT HC m NDm Wm) as [T1 C1]. destruct (part_wall c HT d m NI Wd) as [WL HA].
    assert (HO : forall w w' : arr R, shp w = c_n (continued m (between_bc m (c_bc c)) c) -> unfolded (N := RNum) d w w' -> physical_b w' = physical_b w).
    { intros w w' Sw UW. apply (physical_opens d); [exact UW|]. intro a. change (car RNum) with R in *. rewrite Sw. apply T1. }
    destruct LO as [(HL & P0)|(HL & FO & K & B & LM)].
    - apply (fold_checked (continued m (between_bc m (c_bc c)) c) b'' d T1 C1 X WL HA HL physical_b); auto; [|lia].
      right. split; [exact G|]. split; [exact HF|]. split; [cbn [continued c_gamma]; lra|]. intros w Sw O. apply physical_degree0; auto. apply physical_b_spec, O.
    - apply (fold_limited_checked (continued m (between_bc m (c_bc c)) c) b'' d T1 C1 X WL HA (or_introl FO) HL K physical_b); auto.
      + right. split; [exact G|]. split; [exact HF|]. split; [cbn [continued c_gamma]; lra|]. intros w Sw O. split; [left; exact FO|].
        apply low_physical; auto. apply physical_b_spec, O.
      + apply (flat_step c); auto. }
  rewrite HS in Q. destruct (simulate_checked _ (continued l b' c) _ _ _ _ _ _ _ _ _ _) as [o'|] eqn:E; [|destruct Q].
  exists o'. split; [exact (unchecked RNum _ _ _ _ _ _ _ _ _ _ _ _ _ E)|exact Q].
Qed.
Lemma test_is_physical (ok : arr R -> bool) : (forall w, ok w = true <-> all_physical w) -> ok = physical_b.
Proof. intro H. apply functional_extensionality. intro w. apply eq_true_iff_eq. rewrite H, physical_b_spec. reflexivity. Qed.
(** the conditions on idle axes do not matter *)
Lemma ghosts_somewhere (c : config RNum) : tabulated c -> forall a, ~ inactive c a -> 0 < ghost_zones c a.
Proof.
  intros HT a Ha. unfold ghost_zones. assert (E : inactive_b c a = false).
  { apply not_true_is_false. unfold inactive_b. rewrite andb_true_iff, !Z.eqb_eq. exact Ha. }
  rewrite E. destruct HT as [[_ P _ _] _]. pose proof (P AX). pose proof (P AY). pose proof (P AZ). pose proof (P a). cbn [getc] in *.
  assert (0 <= half_up (getc a (c_p c))) by (apply Z.div_pos; lia).
  assert (0 <= half_up (top_degree (c_p c))) by (apply Z.div_pos; unfold top_degree; lia).
  cbv zeta. destruct (c_limit c); lia.
Qed.
Lemma idle_between l (c : config RNum) b' : tabulated c -> closed c -> (forall a, In a l -> ~ inactive c a) -> upper_at_all_ends l c b' ->
  forall heap i av T k exact db log fuel u,
  simulate (continued l b' c) heap i av T k exact db log fuel u = simulate (continued l (between_bc l (c_bc c)) c) heap i av T k exact db log fuel u.
Proof.
  intros HT HC W U heap i av T k exact db log fuel u.
  refine (idle_ends RNum (continued l (between_bc l (c_bc c)) c) b' _ heap i av T k exact db log fuel u).
  intros a Ha pos.
  assert (Hc : ~ inactive c a).
  { destruct (listed_axis a l) eqn:E; [apply W; apply existsb_exists in E; destruct E as (x & I & Q); destruct a, x; try discriminate; exact I|].
    intros [I1 I2]. apply Ha. split; [|exact I2]. destruct a; cbn; rewrite E; exact I1. }
  split; [rewrite (U a pos Hc); reflexivity|]. intro P. exfalso.
  change (bc_type (c_bc (continued l (between_bc l (c_bc c)) c)) a pos) with (bc_type (c_bc c) a (if listed_axis a l then SR else pos)) in P.
  destruct (HC a) as [Z0|[Q _]].
  - assert (G : 0 < ghost_zones c a) by (apply (ghosts_somewhere c HT), Hc). destruct a; cbn in Z0; lia.
  - destruct (Q (if listed_axis a l then SR else pos)) as [C _]. destruct P as [P|[P|P]]; rewrite P in C; exact C.
Qed.
Theorem walls_llf l (c : config RNum) b' : tabulated c -> closed c -> l <> [] -> NoDup l -> upper_at_all_ends l c b' ->
  (forall a, In a l -> bc_type (c_bc c) a SL = B_reflective /\ ~ inactive c a) -> c_rs c = RS_llf ->
  (c_limit c = true -> limiting_fair l c) ->
  forall heap heap' i av T k exact db log fuel u u', shp u = c_n c -> 2 <= rows u -> opened (N := RNum) l u u' ->
  moved_outcome (N := RNum) (opened (N := RNum) l) (simulate c heap i av T k exact db log fuel u)
    (simulate (continued l b' c) heap' i av T k exact db log fuel u').
Proof.
  intros HT HC NE ND U W G HL heap heap' i av T k exact db log fuel u u' Su Ru M.
  rewrite (idle_between l c b' HT HC (fun a I => proj2 (W a I)) U). apply walls_llf_everywhere; auto. apply upper_between.
Qed.
Theorem walls_hllc l (c : config RNum) b' : tabulated c -> closed c -> l <> [] -> NoDup l -> upper_at_all_ends l c b' ->
  (forall a, In a l -> bc_type (c_bc c) a SL = B_reflective /\ ~ inactive c a) -> c_rs c = RS_hllc -> low_order c ->
  (0 < c_csq_floor c)%R -> (1 < c_gamma c)%R ->
  forall heap heap' i av T k exact db log fuel u u' o, shp u = c_n c -> 2 <= rows u -> opened (N := RNum) l u u' ->
  simulate_checked (N := RNum) physical_b c heap i av T k exact db log fuel u = Ok o ->
  simulate c heap i av T k exact db log fuel u = Ok o /\
  exists o', simulate (continued l b' c) heap' i av T k exact db log fuel u' = Ok o' /\ moved_run (N := RNum) (opened (N := RNum) l) o o'.
Proof.
  intros HT HC NE ND U W G LO HF HG heap heap' i av T k exact db log fuel u u' o Su Ru M HS.
  rewrite (idle_between l c b' HT HC (fun a I => proj2 (W a I)) U). apply walls_hllc_everywhere; auto. apply upper_between.
Qed.
