(** Data that do not vary along an axis, with slope limiting. *)
From Coq Require Import ZArith List Bool Lia Reals Lra FunctionalExtensionality Classical_Prop.
From Verif Require Import Err Num PySlice NdArray HydroM RiemannM StencilsM FvM BcM SedM
  LimitM OdeM SolverM Spec SpecBc SpecLim SpecSolver SpecCons SpecScheme SpecSym SpecMirLim NdArrayP FvP BcP BcQ OpP SolverP OdeP RelP RelS LimP RunP ConsP
  RiemannP HydroP SlopeP WallP BroadP SedP DetectP ConvexP ExistP SchemeP SymP SeamP ShiftP WatchP UniformP LimExistP MirrorP SymLimP SedR SpecThin ThinP.
Import ListNotations.
Local Open Scope Z_scope.

Local Notation wi := (wts_i RNum).
Local Notation wt := (wts_t RNum).
(** ** traces and fluxes of any degrees and slopes *)
Section Degrees.
Context (c c' : config RNum) (e : axis) (p : ix) (D : forall a, deg_ok (getc a p)) (sl : option (R -> R -> R)).
Context (EG : c_gamma c' = c_gamma c) (ER : c_rs c' = c_rs c) (EF : c_csq_floor c' = c_csq_floor c).
Local Notation p' := (setc e 0 p).
Lemma st_p b : lsum (wt (getc b p)) = 1%R. Proof. apply lsum_t, D. Qed.
Lemma si_p pos b : lr_pos pos -> lsum (wi (getc b p) pos) = 1%R. Proof. apply lsum_i, D. Qed.
Lemma primitives_ext_p g E : primitives wi wt p g (ext e E) = ext e (primitives wi wt p' g E).
Proof.
  unfold primitives. cbv zeta. rewrite (block_ext e (fun d => wi d P_c)); [|apply w_i, lr_c|intro; apply si_p, lr_c].
  change (fun v i => primitive g (fun r => ext e (block (fun b => wi (getc b p') P_c) E) r i) v) with (ext e (fun v i => primitive g (fun r => block (fun b => wi (getc b p') P_c) E r i) v)).
  apply (block_ext e wt); [apply w0_t|apply st_p].
Qed.
Lemma trace_ext_p d pos w : lr_pos pos -> exists T, trace wi p sl d pos (ext e w) = ext e T /\ (d <> e -> T = trace wi p' sl d pos w).
Proof.
  intro H. unfold trace. cbv zeta. rewrite (across_ext e d (fun d => wi d P_c)); [|apply w_i, lr_c|intro; apply si_p, lr_c].
  set (g := across d (fun b => wi (getc b p') P_c) w).
  assert (PL : line d (wi (getc d p) pos) (ext e g) = ext e (line d (wi (getc d p') pos) g)).
  { rewrite line_ext by (apply si_p, H). rewrite <- (line_thin e d (fun d => wi d pos) p) by (apply w_i, H). reflexivity. }
  destruct sl as [s|]; [|eexists; split; [exact PL|reflexivity]]. rewrite PL.
  destruct (axis_dec d e) as [->|NE].
  - exists (fun v i => if getc e p =? 1 then let half := (1/2 * s (g v i - g v i) (g v i - g v i))%R in match pos with P_l => (g v i - half)%R | _ => (g v i + half)%R end
      else line e (wi (getc e p') pos) g v i). split; [|congruence].
    apply grid_eq. intros v i. unfold ext. cbv zeta. rewrite !setc_up_e. reflexivity.
  - exists (fun v i => if getc d p' =? 1 then let half := (1/2 * s (g v i - g v (up d (-1) i)) (g v (up d 1 i) - g v i))%R in match pos with P_l => (g v i - half)%R | _ => (g v i + half)%R end
      else line d (wi (getc d p') pos) g v i). split; [|reflexivity].
    apply grid_eq. intros v i. unfold ext. cbv zeta. rewrite !setc_up by exact NE. rewrite !(getc_setc_ne e d) by auto. reflexivity.
Qed.
Lemma flux_ext_p d E : exists G, face_flux wi wt c p sl d (ext e E) = ext e G /\ (d <> e -> G = face_flux wi wt c' p' sl d E).
Proof.
  unfold face_flux. cbv zeta. rewrite primitives_ext_p, EG, ER, EF.
  set (w := primitives wi wt p' (c_gamma c) E).
  destruct (trace_ext_p d P_r w) as (Tr & TR1 & TR2); [unfold lr_pos; auto|]. destruct (trace_ext_p d P_l w) as (Tl & TL1 & TL2); [unfold lr_pos; auto|].
  rewrite TR1, TL1.
  set (F := fun k : Z => (fun v i => numerical_flux (c_rs c) (c_gamma c) (c_csq_floor c) d
      (fun r => Tr r (up d k i)) (fun r => Tl r i) v) : grid).
  destruct (axis_dec d e) as [->|NE].
  - exists (across e (fun b => wt (getc b p')) (F 0)). split; [|congruence].
    rewrite <- (across_ext e e wt); [|apply w0_t|apply st_p]. f_equal. apply grid_eq. intros v i. unfold ext, F. rewrite setc_up_e, up_0. reflexivity.
  - exists (across d (fun b => wt (getc b p')) (F (-1))). split; [|intros _; unfold F; rewrite (TR2 NE), (TL2 NE); reflexivity].
    rewrite <- (across_ext e d wt); [|apply w0_t|apply st_p]. f_equal. apply grid_eq. intros v i. unfold ext, F. rewrite setc_up by exact NE. reflexivity.
Qed.
End Degrees.

(** ** weights *)
Lemma blend_mono x j x' j' : (forall a, Z.abs (getc a x' - getc a j') <= Z.abs (getc a x - getc a j)) -> (blend_weight x j <= blend_weight x' j')%R.
Proof.
  intro H. pose proof (H AX) as HX. pose proof (H AY) as HY. pose proof (H AZ) as HZ. clear H. unfold blend_weight. cbv zeta.
  generalize dependent (Z.abs (getc AX x - getc AX j)). generalize dependent (Z.abs (getc AY x - getc AY j)). generalize dependent (Z.abs (getc AZ x - getc AZ j)).
  pose proof (Z.abs_nonneg (getc AX x' - getc AX j')) as PX. pose proof (Z.abs_nonneg (getc AY x' - getc AY j')) as PY. pose proof (Z.abs_nonneg (getc AZ x' - getc AZ j')) as PZ.
  revert PX PY PZ. generalize (Z.abs (getc AX x' - getc AX j')) (Z.abs (getc AY x' - getc AY j')) (Z.abs (getc AZ x' - getc AZ j')).
  intros. repeat match goal with |- context [?x =? ?y] => destruct (Z.eqb_spec x y) end; try lra; exfalso; lia.
Qed.
Lemma face_value_dom cv n1 fl1 a1 i1 w1 n2 fl2 a2 i2 w2 : face_value cv n1 fl1 a1 i1 w1 -> face_value cv n2 fl2 a2 i2 w2 ->
  (bordering n1 fl1 a1 i1 <-> bordering n2 fl2 a2 i2) ->
  (forall x j, touches a1 i1 x -> in_shape n1 j -> fl1 j -> exists x' j', touches a2 i2 x' /\ in_shape n2 j' /\ fl2 j' /\ forall a, Z.abs (getc a x' - getc a j') <= Z.abs (getc a x - getc a j)) ->
  (forall x j, touches a2 i2 x -> in_shape n2 j -> fl2 j -> exists x' j', touches a1 i1 x' /\ in_shape n1 j' /\ fl1 j' /\ forall a, Z.abs (getc a x' - getc a j') <= Z.abs (getc a x - getc a j)) ->
  w1 = w2.
Proof.
  intros H1 H2 BB D12 D21. destruct cv; cbn [face_value] in *.
  - assert (L : forall n1 fl1 a1 i1 w1 n2 fl2 a2 i2 w2, weighed n1 fl1 a1 i1 w1 -> weighed n2 fl2 a2 i2 w2 ->
      (forall x j, touches a1 i1 x -> in_shape n1 j -> fl1 j -> exists x' j', touches a2 i2 x' /\ in_shape n2 j' /\ fl2 j' /\ forall a, Z.abs (getc a x' - getc a j') <= Z.abs (getc a x - getc a j)) ->
      (w1 <= w2)%R).
    { intros m1 g1 b1 k1 y1 m2 g2 b2 k2 y2 [_ V1] [U2 V2] X. destruct V1 as [->|(x & j & A & B & C & ->)].
      - destruct V2 as [->|(x & j & _ & _ & _ & ->)]; [lra|apply blend_nonneg].
      - destruct (X x j A B C) as (x' & j' & A' & B' & C' & M). specialize (U2 x' j' A' B' C'). pose proof (blend_mono x j x' j' M). lra. }
    apply Rle_antisym; eapply L; eauto.
  - destruct H1 as [P1 Q1], H2 as [P2 Q2]. destruct (classic (bordering n1 fl1 a1 i1)) as [B|B].
    + rewrite P1, P2 by tauto. reflexivity.
    + rewrite Q1, Q2 by tauto. reflexivity.
Qed.
Lemma sed_const eps x : (0 < eps)%R -> (sed_line RNum eps (fun _ => x) (-3) < 1)%R.
Proof.
  intro H. rewrite (sed_line_parabola eps (fun _ => x) x 0 0) by (intros; lra || exact H).
  rewrite Rabs_R0. unfold Rdiv. rewrite Rmult_0_r, Rmult_0_l. rewrite Rmin_right by lra. lra.
Qed.

(** ** runs *)
(** ** outcomes *)
Lemma moved_mono (P Q : arr R -> arr R -> Prop) (x y : res (run RNum)) : (forall a b, P a b -> Q a b) ->
  moved_outcome (N := RNum) P x y -> moved_outcome (N := RNum) Q x y.
Proof.
  intros H. destruct x as [o|], y as [o'|]; cbn; auto. intros [M1 M2 M3 M4 M5]. split; auto.
  clear - H M5. induction M5 as [|a b l l' [Q1 Q2] _ IH]; constructor; auto.
Qed.
Lemma moved_back (P P' Q : arr R -> arr R -> Prop) (x y z : res (run RNum)) : (forall a b d, P a b -> P' a d -> Q b d) ->
  moved_outcome (N := RNum) P x y -> moved_outcome (N := RNum) P' x z -> moved_outcome (N := RNum) Q y z.
Proof.
  intros H. destruct x as [o|], y as [o'|], z as [o''|]; cbn; try tauto; [|intros -> ->; reflexivity].
  intros [M1 M2 M3 M4 M5] [K1 K2 K3 K4 K5]. split; [congruence|congruence|congruence|eapply H; eassumption|].
  clear - H M5 K5. revert K5. generalize (o_snaps o''). induction M5 as [|a b l l' [Q1 Q2] _ IH]; intros l2 K; inversion K as [|a' d l3 l4 [R1 R2] K2]; subst; constructor; [|apply IH; assumption].
  split; [congruence|eapply H; eassumption].
Qed.
Section Runs.
Context (c : config RNum) (HT : tabulated c) (HC : closed c) (HL : c_limit c = true) (HK : known_options c) (e : axis).
Context (HB : c_convex c = false \/ flat_box c).
Context (HA : exists a, a <> e /\ ~ inactive c a) (HW : forall pos, bc_type (c_bc c) e pos <> B_reflective).
Context (dt : R) (FD : c_fixed_dt c = Some dt).
Context (SD : sed_on (c_nad c) = false \/ ((0 < sed_eps (c_nad c))%R /\ ~ inactive c e)).
Local Notation c0 := (without_sed c).
Local Notation c' := (SpecThin.thin e c0).
Local Notation n := (c_n c).
Local Notation n' := (setc e 1 (c_n c)).
Lemma tab0 : tabulated c0. Proof. destruct HT as [[A B C D] P]. split; [split|]; assumption. Qed.
Lemma closed0 : closed c0. Proof. exact HC. Qed.
Local Notation tab' := (thin_tab c0 tab0 e HA).
Local Notation closed' := (thin_closed c0 tab0 closed0 e HA HW).
Lemma options' : known_options c'. Proof. exact HK. Qed.
Lemma flat' : c_convex c' = false \/ flat_box c'.
Proof.
  destruct HB as [H|H]; [left; exact H|right].
  assert (IE : inactive c' e) by (split; cbn [SpecThin.thin c_n c_p]; rewrite getc_setc_eq; reflexivity).
  assert (IO : forall a, a <> e -> (inactive c' a <-> inactive c a)).
  { intros a NE. unfold inactive. cbn [SpecThin.thin without_sed with_nad c_n c_p]. rewrite !getc_setc_ne by auto. tauto. }
  assert (L : (forall a b, a <> b -> a <> e -> b <> e -> ~ inactive c a -> inactive c b) -> flat_box c').
  { intro L. left. destruct HA as (a & NE & Na). exists a. split; [rewrite IO by exact NE; exact Na|].
    intros b NB. destruct (axis_dec b e) as [->|Ne]; [exact IE|]. apply IO; [exact Ne|]. apply (L a b); auto. }
  destruct H as [(x & Nx & Ix)|(x & Ix & Nx & P)].
  - apply L. intros a b NB NE Ne Na. apply Ix. intros ->. apply Na, Ix. exact NB.
  - destruct (axis_dec x e) as [->|Q].
    + right. exists e. split; [exact IE|]. split; [intros b Hb; rewrite IO by exact Hb; apply Nx, Hb|exact P].
    + apply L. intros a b NB NE Ne Na. destruct (axis_dec b x) as [->|Q1]; [exact Ix|]. exfalso.
      destruct (axis_dec a x) as [->|Q2]; [exact (Na Ix)|]. destruct a, b, e, x; congruence.
Qed.
(** flags *)
Lemma active_thin a : a <> e -> active RNum c' a = active RNum c a.
Proof. intro NE. rewrite !active_inactive. f_equal. exact (inactive_thin c0 e a NE). Qed.
Lemma active_e : active RNum c' e = false.
Proof. rewrite active_inactive, inactive_e. reflexivity. Qed.
Lemma shape_thin i : in_shape n i -> in_shape n' (setc e 0 i).
Proof. intros H a. specialize (H a). destruct (axis_dec e a) as [<-|NE]; co; lia. Qed.
Lemma shape_thick i j : in_shape n i -> in_shape n' j -> in_shape n (setc e (getc e i) j).
Proof. intros H J a. specialize (H a). specialize (J a). revert J. destruct (axis_dec e a) as [<-|NE]; co; lia. Qed.
Lemma near_thin i j : nearby (dims RNum c) i j -> nearby (dims RNum c') (setc e 0 i) (setc e 0 j).
Proof.
  intros H a. specialize (H a). rewrite mem_dims in *. destruct (axis_dec e a) as [<-|NE]; [rewrite !getc_setc_eq, active_e; reflexivity|].
  rewrite !getc_setc_ne by auto. rewrite active_thin by auto. exact H.
Qed.
Lemma near_thick i j : nearby (dims RNum c') (setc e 0 i) j -> nearby (dims RNum c) i (setc e (getc e i) j) /\ setc e 0 j = j.
Proof.
  intro H. split.
  - intro a. specialize (H a). rewrite mem_dims in *. destruct (axis_dec e a) as [<-|NE]; [rewrite !getc_setc_eq; destruct (active RNum c e); lia|].
    revert H. rewrite !getc_setc_ne by auto. rewrite active_thin by auto. auto.
  - specialize (H e). rewrite mem_dims, active_e, getc_setc_eq in H. apply ix_ext. intro a. destruct (axis_dec e a) as [<-|NE]; [rewrite getc_setc_eq; lia|apply getc_setc_ne; auto].
Qed.
Lemma pad_thin j : in_padded n (active_width RNum c 3) j -> in_padded n' (active_width RNum c' 3) (setc e 0 j).
Proof.
  intros H a. specialize (H a). rewrite getc_active_width in *. destruct (axis_dec e a) as [<-|NE]; [rewrite !getc_setc_eq, active_e; lia|].
  rewrite !getc_setc_ne by auto. rewrite active_thin by auto. exact H.
Qed.
Lemma pad_thick j : in_padded n' (active_width RNum c' 3) j -> in_padded n (active_width RNum c 3) j /\ setc e 0 j = j.
Proof.
  intro H. assert (Ne : 1 <= getc e n) by apply HT. split.
  - intro a. specialize (H a). rewrite getc_active_width in *. destruct (axis_dec e a) as [<-|NE].
    + rewrite active_e, getc_setc_eq in H. destruct (active RNum c e); lia.
    + revert H. rewrite !getc_setc_ne by auto. rewrite active_thin by auto. auto.
  - specialize (H e). rewrite getc_active_width, active_e, getc_setc_eq in H. apply ix_ext. intro a. destruct (axis_dec e a) as [<-|NE]; [rewrite getc_setc_eq; lia|apply getc_setc_ne; auto].
Qed.
Lemma flag_ext (w ws : grid) i : in_shape n i -> flag c (ext e w) (ext e ws) i <-> flag c' w ws (setc e 0 i).
Proof.
  intro Hi. unfold flag. cbn [SpecThin.thin without_sed with_nad c_force c_nad pad_bounds sed_on].
  apply or_iff_compat_l, or_iff_compat_l.
  assert (S : forall v, strays (c_nad c) (nearby (dims RNum c) i) (in_padded n (active_width RNum c 3)) (ext e w v) (ext e ws v i) <->
    strays (c_nad c') (nearby (dims RNum c') (setc e 0 i)) (in_padded n' (active_width RNum c' 3)) (w v) (ws v (setc e 0 i))).
  { intro v. change (strays (c_nad c) (nearby (dims RNum c) i) (in_padded n (active_width RNum c 3)) (ext e w v) (ws v (setc e 0 i)) <->
    strays (c_nad c) (nearby (dims RNum c') (setc e 0 i)) (in_padded n' (active_width RNum c' 3)) (w v) (ws v (setc e 0 i))).
    apply strays_map; intros j Hj; unfold ext.
    - exists (setc e 0 j). split; [apply near_thin, Hj|reflexivity].
    - destruct (near_thick i j Hj) as [A B]. eexists. split; [exact A|]. rewrite setc_setc, B. reflexivity.
    - exists (setc e 0 j). split; [apply pad_thin, Hj|reflexivity].
    - destruct (pad_thick j Hj) as [A B]. exists j. split; [exact A|]. rewrite B. reflexivity. }
  split; intros (v & SV & H & HH); exists v; (split; [exact SV|]); (split; [apply S, H|]); [discriminate|].
  intro SO. destruct SD as [Q|[Q1 Q2]]; [congruence|]. exists e. split.
  - apply (proj2 (active_spec RNum c e)), Q2.
  - refine (eq_ind _ (fun x => (x < 1)%R) (sed_const _ (ws v (setc e 0 i)) Q1) _ _). apply (sed_line_ext RNum). intro k. unfold ext. rewrite setc_up_e. reflexivity.
Qed.
(** weights *)
Section Weigh.
Context (fl fl' : ix -> Prop) (HFl : forall i, in_shape n i -> fl i <-> fl' (setc e 0 i)).
Context (th th' : option (axis -> ix -> R)) (V : weighs c fl th) (V' : weighs c' fl' th').
Lemma weight_other a i : a <> e -> active RNum c a = true -> in_shape (face_shape a n) i -> wgt th a i = wgt th' a (setc e 0 i).
Proof.
  intros NE A I.
  assert (I' : in_shape (face_shape a n') (setc e 0 i)).
  { intro b. specialize (I b). revert I. unfold face_shape. destruct (axis_dec e b) as [<-|N1]; co; [lia|]. destruct (axis_dec a b) as [<-|N2]; co; lia. }
  assert (Ie : 0 <= getc e i < getc e n) by (specialize (I e); revert I; unfold face_shape; co; auto).
  assert (TH : forall j, touches a i j -> touches a (setc e 0 i) (setc e 0 j)).
  { unfold touches. intros j [-> | ->]; [left; reflexivity|right]. exact (setc_up e a (-1) i NE). }
  assert (TK : forall j, touches a (setc e 0 i) j -> touches a i (setc e (getc e i) j)).
  { unfold touches, moved. intros j [-> | ->]; [left|right]; apply ix_ext; intro b; destruct (axis_dec e b) as [<-|N1]; co; auto; destruct (axis_dec a b) as [<-|N2]; co; auto. }
  assert (TE : forall j, touches a (setc e 0 i) j -> getc e j = 0).
  { unfold touches, moved. intros j [-> | ->]; co; reflexivity. }
  assert (SK : forall j, in_shape n' j -> in_shape n (setc e (getc e i) j)).
  { intros j J b. specialize (J b). revert J. destruct (axis_dec e b) as [<-|N1]; co; auto. }
  assert (FK : forall j, in_shape n' j -> fl' j -> fl (setc e (getc e i) j)).
  { intros j J F. apply HFl; [apply SK, J|]. rewrite setc_setc. replace (setc e 0 j) with j; [exact F|].
    specialize (J e). rewrite getc_setc_eq in J. apply ix_ext. intro b. destruct (axis_dec e b) as [<-|N1]; co; auto. lia. }
  eapply (face_value_dom (c_convex c) n fl a i _ n' fl' a (setc e 0 i)); [apply V; assumption|apply V'; [rewrite active_thin by exact NE; exact A|exact I']| | |].
  - unfold bordering. split; intros (j & T & J & F); [exists (setc e 0 j)|exists (setc e (getc e i) j)].
    + split; [apply TH, T|]. split; [apply shape_thin, J|apply HFl; assumption].
    + split; [apply TK, T|]. split; [apply SK, J|apply FK; assumption].
  - intros x j T J F. exists (setc e 0 x), (setc e 0 j). split; [apply TH, T|]. split; [apply shape_thin, J|]. split; [apply HFl; assumption|].
    intro b. destruct (axis_dec e b) as [<-|N1]; co; lia.
  - intros x j T J F. exists (setc e (getc e i) x), (setc e (getc e i) j). split; [apply TK, T|]. split; [apply SK, J|]. split; [apply FK; assumption|].
    intro b. destruct (axis_dec e b) as [<-|N1]; co; lia.
Qed.
Lemma weight_along i : active RNum c e = true -> in_shape n i -> wgt th e (up e 1 i) = wgt th e i.
Proof.
  intros A I.
  assert (F0 : in_shape (face_shape e n) i) by (intro b; specialize (I b); unfold face_shape; destruct (axis_dec e b) as [<-|N1]; co; lia).
  assert (F1 : in_shape (face_shape e n) (up e 1 i)) by (intro b; specialize (I b); unfold face_shape, up; destruct (axis_dec e b) as [<-|N1]; co; lia).
  assert (T0 : touches e i i) by (left; reflexivity).
  assert (T1 : touches e (up e 1 i) i).
  { right. unfold moved, up. rewrite getc_setc_eq, setc_setc. replace (getc e i + 1 + -1) with (getc e i) by lia. symmetry. apply setc_getc. }
  assert (FE : forall j k, in_shape n j -> 0 <= k < getc e n -> fl j -> fl (setc e k j)).
  { intros j k J K F. apply HFl; [|rewrite setc_setc; apply HFl; assumption]. intro b. specialize (J b). destruct (axis_dec e b) as [<-|N1]; co; lia. }
  assert (TT : forall k x, touches e (up e k i) x -> forall b, e <> b -> getc b x = getc b i).
  { unfold touches, moved, up. intros k x [-> | ->] b NB; co; reflexivity. }
  assert (SK : forall j k, in_shape n j -> 0 <= k < getc e n -> in_shape n (setc e k j)).
  { intros j k J K b. specialize (J b). destruct (axis_dec e b) as [<-|N1]; co; lia. }
  assert (IE : 0 <= getc e i < getc e n) by apply I.
  assert (M : forall k j, touches e (up e k i) j -> in_shape n j -> fl j -> fl i).
  { intros k j T J F. replace i with (setc e (getc e i) j); [apply FE; assumption|]. apply ix_ext. intro b. destruct (axis_dec e b) as [<-|N1]; co; [reflexivity|]. apply (TT k); assumption. }
  assert (Q : forall k x j, touches e (up e k i) x -> in_shape n j -> fl j -> in_shape n (setc e (getc e i) j) /\ fl (setc e (getc e i) j) /\
    forall b, Z.abs (getc b i - getc b (setc e (getc e i) j)) <= Z.abs (getc b x - getc b j)).
  { intros k x j T J F. split; [apply SK; assumption|]. split; [apply FE; assumption|]. intro b. destruct (axis_dec e b) as [<-|N1]; co; [lia|].
    rewrite (TT k x T b N1). lia. }
  eapply (face_value_dom (c_convex c) n fl e (up e 1 i) _ n fl e i); [apply V; assumption|apply V; assumption| | |].
  - unfold bordering. split; intros (j & T & J & F); exists i; (split; [assumption|]); (split; [exact I|]); [exact (M 1 j T J F)|].
    apply (M 0 j); [rewrite up_0; exact T|exact J|exact F].
  - intros x j T J F. exists i, (setc e (getc e i) j). split; [exact T0|]. exact (Q 1 x j T J F).
  - intros x j T J F. exists i, (setc e (getc e i) j). split; [exact T1|]. apply (Q 0 x j); auto. rewrite up_0. exact T.
Qed.
Lemma fallback_thin : fallback_p RNum c' = setc e 0 (fallback_p RNum c).
Proof. unfold fallback_p. cbn [SpecThin.thin without_sed with_nad c_p]. destruct e; reflexivity. Qed.
Lemma degs_fall (q : config RNum) a : tabulated q -> deg_ok (getc a (fallback_p RNum q)).
Proof. intro H. apply (good_deg RNum q), good_fallback, tab_good, H. Qed.
Lemma mixed_ext E v i : in_shape n i ->
  gsum RNum c (mixed RNum c th (ext e E)) v i = gsum RNum c' (mixed RNum c' th' E) v (setc e 0 i).
Proof.
  intro I. rewrite !balance_is.
  assert (FV : forall a k, k = 0 \/ k = 1 -> in_shape (face_shape a n) (up a k i)).
  { intros a k Hk b. specialize (I b). unfold face_shape, up. destruct (axis_dec a b) as [<-|E']; co; lia. }
  assert (FG : forall (q : config RNum) p l a E' v' j, (forall b, deg_ok (getc b p)) -> gflux RNum q p l a E' v' j = face_flux wi wt q p (slope_of l) a E' v' j)
    by (intros; apply (gflux_is wi wt tables_are); assumption).
  unfold balance. cbv zeta.
  assert (Q : forall d, (if inactive_b c d then 0 else (mixed RNum c th (ext e E) d v (up d 1 i) - mixed RNum c th (ext e E) d v i) / width c d)%R
    = (if inactive_b c' d then 0 else (mixed RNum c' th' E d v (up d 1 (setc e 0%Z i)) - mixed RNum c' th' E d v (setc e 0%Z i)) / width c' d)%R).
  { intro d. rewrite !mixed_wgt.
    rewrite !FG by (intro; first [apply (degs c HT)|apply (degs c' tab')|apply degs_fall; first [exact HT|exact tab']]).
    destruct (flux_ext_p c c' e (c_p c) (degs c HT) (slope_of L_none) eq_refl eq_refl eq_refl d E) as (G1 & EG1 & HG1).
    destruct (flux_ext_p c c' e (fallback_p RNum c) (fun a => degs_fall c a HT) (slope_of (c_limiter c)) eq_refl eq_refl eq_refl d E) as (G2 & EG2 & HG2).
    rewrite EG1, EG2. unfold ext. destruct (axis_dec d e) as [->|NE].
    - rewrite inactive_e, setc_up_e. destruct (inactive_b c e) eqn:IA; [reflexivity|].
      assert (A : active RNum c e = true) by (rewrite active_inactive, IA; reflexivity). rewrite (weight_along i A I). unfold Rdiv. ring.
    - assert (II : inactive_b c' d = inactive_b c d) by exact (inactive_thin c0 e d NE). rewrite II. destruct (inactive_b c d) eqn:IA; [reflexivity|].
      assert (A : active RNum c d = true) by (rewrite active_inactive, IA; reflexivity).
      assert (WW : width c' d = width c d) by exact (width_thin c0 e d NE). rewrite WW.
      pose proof (weight_other d (up d 0 i) NE A (FV d 0 (or_introl eq_refl))) as W0. pose proof (weight_other d (up d 1 i) NE A (FV d 1 (or_intror eq_refl))) as W1.
      rewrite up_0 in W0. rewrite W0, W1, (HG1 NE), (HG2 NE), fallback_thin, !setc_up by exact NE. reflexivity. }
  rewrite !Q. reflexivity.
Qed.
End Weigh.
Local Notation rel r := (related RNum c' c r (ext e)).
Lemma mext_thin (f g : grid) : (forall v i, in_shape n' i -> f v i = g v i) -> forall v i, in_shape n i -> ext e f v i = ext e g v i.
Proof. intros H v j Hj. unfold ext. apply H, shape_thin, Hj. Qed.
Lemma filled_thin u u' v i : shp u' = n -> shp u = n' -> (forall v i, in_shape n i -> at_ u' v i = ext e (at_ u) v i) ->
  in_padded n (ghost_zones3 c) i -> filled c u' v i = ext e (filled c' u) v i.
Proof. exact (filled_ext c0 tab0 closed0 e HW u u' v i). Qed.
Lemma pads_thick t w : shp w = n -> pads RNum c t w (filled c w).
Proof. intro S. rewrite <- copied_filled. apply closed_pads; auto. Qed.
Lemma pads_thin t w : shp w = n' -> pads RNum c' t w (filled c' w).
Proof. intro S. rewrite <- copied_filled. exact (closed_pads RNum c' t w tab' closed' S). Qed.
Lemma padded_ext r t u1 u2 : rel r u1 u2 -> pads RNum c t u2 (ext e (filled c' u1)).
Proof.
  apply (pads_image RNum c' c r (ext e) (fun _ w => filled c' w) (fun _ w => filled c w) (ext e)).
  - intros t' w _ Sw. apply pads_thick, Sw.
  - intros t' w1 w2 (R1 & R2 & S1 & S2 & V2) v j Hj. apply filled_thin; auto.
Qed.
Lemma limited_ext heap heap' r : 2 <= r -> forall x1 x2 s t u1 u2, auxes RNum (limiting RNum c' r) (limiting RNum c r) x1 x2 -> rel r u1 u2 ->
  exists x1' x2' dt k1 k2, solver_f RNum c' heap x1 s t u1 = Ok (x1', (dt, k1)) /\ solver_f RNum c heap' x2 s t u2 = Ok (x2', (dt, k2)) /\
    auxes RNum (limiting RNum c' r) (limiting RNum c r) x1' x2' /\ rel r k1 k2.
Proof.
  intros Hr x1 x2 s t u1 u2 [A1 A2] H. pose proof H as (R1 & R2 & S1 & S2 & V).
  pose proof (padded_ext r s u1 u2 H) as PI.
  destruct (limited_rhs c' tab' HL options' r Hr s flat' (fun _ _ => 0%R) (closed_fillable c' _ r closed') heap x1 t u1 (filled c' u1) A1 R1 S1 (pads_thin s u1 S1))
    as (x1' & dt1 & k1 & us1 & th1 & F1 & L1 & G1 & RK1 & SK1 & RU1 & SU1 & VU1 & W1 & VK1).
  destruct (limited_rhs c HT HL HK r Hr s HB (fun _ _ => 0%R) (closed_fillable c _ r HC) heap' x2 t u2 (ext e (filled c' u1)) A2 R2 S2 PI)
    as (x2' & dt2 & k2 & us2 & th2 & F2 & L2 & G2 & RK2 & SK2 & RU2 & SU2 & VU2 & W2 & VK2).
  assert (DT : dt2 = dt1).
  { pose proof (thin_gdt c0 tab0 e HA dt FD (ext e (filled c' u1)) (filled c' u1)) as Q.
    pose proof (eq_trans (eq_sym G2) (eq_trans Q G1)) as Q2. injection Q2 as ->. reflexivity. }
  subst dt2.
  assert (DU : forall v i, gdudt RNum c (c_p c) L_none (ext e (filled c' u1)) v i = gdudt RNum c' (c_p c') L_none (filled c' u1) v (setc e 0 i)).
  { intros v i. rewrite (gdudt_is c HT). refine (eq_trans (balance_ext c0 tab0 e _ v i) _). symmetry. apply (gdudt_is c' tab'). }
  assert (US : rel r us1 us2).
  { split; [exact RU1|]. split; [exact RU2|]. split; [exact SU1|]. split; [exact SU2|]. intros v i Hi.
    rewrite VU2 by exact Hi. rewrite (DU v i), (V v i Hi). unfold ext. rewrite VU1 by (apply shape_thin, Hi). reflexivity. }
  exists x1', x2', dt1, k1, k2. split; [exact F1|]. split; [exact F2|]. split; [split; assumption|].
  split; [exact RK1|]. split; [exact RK2|]. split; [exact SK1|]. split; [exact SK2|]. intros v i Hi.
  rewrite VK2 by exact Hi.
  specialize (W1 _ (pads_thin s us1 SU1)). specialize (W2 _ (padded_ext r s us1 us2 US)).
  rewrite !(primitives_ext_p e (c_p c) (degs c HT)) in W2.
  refine (eq_trans (mixed_ext _ _ _ th2 th1 W2 W1 (filled c' u1) v i Hi) _).
  - intros j Hj. apply flag_ext, Hj.
  - unfold ext. symmetry. apply VK1, shape_thin, Hi.
Qed.
Theorem thin_limited_n heap heap' i av T k exact db log fuel u u' : shp u' = n -> 2 <= rows u -> extruded e u u' ->
  moved_outcome (N := RNum) (fun w w' => extruded e w w' /\ shp w' = n) (simulate c' heap i av T k exact db log fuel u) (simulate c heap' i av T k exact db log fuel u').
Proof.
  intros Su' Ru (R' & S' & V).
  assert (RE : rel (rows u) u u').
  { split; [reflexivity|]. split; [exact R'|]. split; [rewrite <- S', Su'; reflexivity|]. split; [exact Su'|].
    intros v j Hj. apply V. rewrite Su'. exact Hj. }
  apply (gen_moved RNum c' c heap heap' (rows u) tab' HT (ext e)) with (ok1 := fun _ => true) (ok2 := fun _ => true)
      (E1 := fun _ w => filled c' w) (E2 := fun _ w => filled c w) (W := ext e) (A1 := limiting RNum c' (rows u)) (A2 := limiting RNum c (rows u)).
  - exact mext_thin.
  - reflexivity.
  - reflexivity.
  - intros t w _ Sw. apply pads_thin, Sw.
  - intros t w _ Sw. apply pads_thick, Sw.
  - reflexivity.
  - intros t u1 u2 (R1 & R2 & S1 & S2 & V2) v j Hj. apply filled_thin; auto.
  - intros t u1 u2 _ v j Hj. rewrite (gprim_is c HT). refine (eq_trans _ (eq_sym (gprim_is c' tab' av _ v (setc e 0 j)))).
    destruct av; [|exact (centre_ext c0 tab0 e _ v j)]. rewrite (primitives_ext_p e (c_p c) (degs c HT)). reflexivity.
  - apply limiting_helper, HL.
  - apply limiting_helper, HL.
  - apply limiting_init.
  - apply limiting_init.
  - intros x1 x2 s t u1 u2 A H _. apply limited_ext; auto.
  - exact RE.
  - intros w1 w2 (R1 & R2 & S1 & S2 & V2). split; [|exact S2]. split; [exact (eq_trans R2 (eq_sym R1))|]. split; [rewrite S1, S2; reflexivity|].
    intros v j Hj. refine (V2 v j _). rewrite <- S2. exact Hj.
Qed.
Theorem thin_limited heap heap' i av T k exact db log fuel u u' : shp u' = n -> 2 <= rows u -> extruded e u u' ->
  moved_outcome (N := RNum) (extruded e) (simulate c' heap i av T k exact db log fuel u) (simulate c heap' i av T k exact db log fuel u').
Proof.
  intros A1 A2 A3. apply (moved_mono (fun w w' => extruded e w w' /\ shp w' = n)); [tauto|]. apply thin_limited_n; assumption.
Qed.
End Runs.
(** ** the smooth-extrema detector on such data *)
Theorem detector_idle (c : config RNum) (e : axis) dt heap heap' i av T k exact db log fuel u :
  tabulated c -> closed c -> c_limit c = true -> known_options c -> c_convex c = false \/ flat_box c ->
  (exists a, a <> e /\ ~ inactive c a) -> (forall pos, bc_type (c_bc c) e pos <> B_reflective) -> c_fixed_dt c = Some dt ->
  ~ inactive c e -> (0 < sed_eps (c_nad c))%R -> shp u = c_n c -> 2 <= rows u ->
  (forall v i, in_shape (c_n c) i -> at_ u v i = at_ u v (setc e 0 i)) ->
  moved_outcome (N := RNum) (fun w w' => rows w = rows w' /\ agree (fun _ => True) (c_n c) w w' /\ (forall v i, in_shape (c_n c) i -> at_ w v i = at_ w v (setc e 0 i)))
    (simulate (without_sed c) heap i av T k exact db log fuel u) (simulate c heap' i av T k exact db log fuel u).
Proof.
  intros HT HC HL HK HB HA HW FD AE SE Su Ru Cu.
  pose (u1 := mkarr (rows u) (setc e 1 (c_n c)) (at_ u)).
  assert (EX : extruded e u1 u). { split; [reflexivity|]. split; [rewrite Su; reflexivity|]. intros v j Hj. rewrite Su in Hj. apply Cu, Hj. }
  pose proof (thin_limited_n c HT HC HL HK e HB HA HW dt FD (or_intror (conj SE AE)) heap heap' i av T k exact db log fuel u1 u Su Ru EX) as A.
  pose proof (thin_limited_n (without_sed c) (tab0 c HT) (closed0 c HC) HL HK e HB HA HW dt FD (or_introl eq_refl) heap heap i av T k exact db log fuel u1 u Su Ru EX) as B.
  change (without_sed (without_sed c)) with (without_sed c) in B.
  refine (moved_back _ _ _ _ _ _ _ B A). intros w a b [(Q1 & Q2 & Q3) SA] [(P1 & P2 & P3) SB].
  change (c_n (without_sed c)) with (c_n c) in *. split; [congruence|]. split.
  - split; [exact SA|]. split; [exact SB|]. intros v j _ Hj. rewrite Q3 by (rewrite SA; exact Hj). rewrite P3 by (rewrite SB; exact Hj). reflexivity.
  - intros v j Hj. rewrite !Q3; [rewrite setc_setc; reflexivity| |]; rewrite SA; [|exact Hj].
    intro b'. specialize (Hj b'). destruct (axis_dec e b') as [<-|NE]; co; lia.
Qed.
