(** Slope limiting on periodic boxes: when conservation and translations survive it. *)
From Coq Require Import ZArith QArith.QArith_base QArith.Qreduction List Bool Lia Reals Lra.
From Verif Require Import Err Num PySlice NdArray HydroM RiemannM StencilsM FvM BcM SedM
  LimitM OdeM SolverM SpecBc SpecSolver SpecCons SpecLim NdArrayP FvP BcP BcQ OpP SolverP OdeP RelP RelS LimP RunP ConsP ExistP WatchP BroadP OdeT SpecSym.
Import ListNotations.
Open Scope Z_scope.

Ltac ob H := match type of H with bind ?x _ = Ok _ => let E := fresh "E" in destruct x eqn:E; cbn [bind] in H; [|discriminate] end.
Section Seam.
Local Notation N := RNum.
(** weights of the first and last face of a line of cells *)
Lemma seam_weights (tr : arr bool) ds per f d i : rows tr = 1 -> (forall b, 1 <= getc b (shp tr)) -> In d ds -> in_shape (shp tr) i ->
  broadcast_to_troubled_interfaces N tr ds false per = Ok f ->
  at_ tr 0 (setc d 0 i) = at_ tr 0 (setc d (getc d (shp tr) - 1) i) ->
  at_ (f d) 0 (setc d (getc d (shp tr)) i) = at_ (f d) 0 (setc d 0 i).
Proof.
  intros R Hn Hd Hi E A. destruct (simple_faces N tr ds per flags_R R) as (th & E' & H). { intro b. specialize (Hn b). lia. }
  rewrite E in E'. injection E' as <-. destruct (H d) as (_ & S & V). specialize (Hn d).
  assert (I0 : in_shape (shp (f d)) (setc d 0 i)).
  { rewrite S. intro a. specialize (Hi a). destruct (axis_dec d a) as [<-|]; co; lia. }
  assert (I1 : in_shape (shp (f d)) (setc d (getc d (shp tr)) i)).
  { rewrite S. intro a. specialize (Hi a). destruct (axis_dec d a) as [<-|]; co; lia. }
  destruct (V _ I0) as [P0 Q0]. destruct (V _ I1) as [P1 Q1].
  assert (C0 : in_shape (shp tr) (setc d 0 i)).
  { intro a. specialize (Hi a). destruct (axis_dec d a) as [<-|]; co; lia. }
  assert (C1 : in_shape (shp tr) (setc d (getc d (shp tr) - 1) i)).
  { intro a. specialize (Hi a). destruct (axis_dec d a) as [<-|]; co; lia. }
  assert (M1 : moved d (-1) (setc d (getc d (shp tr)) i) = setc d (getc d (shp tr) - 1) i).
  { unfold moved. destruct d; cbn [setc getc cx cy cz]; f_equal. }
  destruct (at_ tr 0 (setc d 0 i)) eqn:B.
  - rewrite P0, P1; [reflexivity| |]; (split; [exact Hd|]).
    + exists (setc d (getc d (shp tr) - 1) i). split; [right; rewrite M1; reflexivity|auto].
    + exists (setc d 0 i). split; [left; reflexivity|auto].
  - rewrite Q0, Q1; [reflexivity| |]; intros (_ & j & [-> | ->] & Hj & T).
    + specialize (Hj d). rewrite getc_setc_eq in Hj. lia.
    + rewrite M1 in T. congruence.
    + congruence.
    + specialize (Hj d). unfold moved in Hj. rewrite !getc_setc_eq in Hj. lia.
Qed.

Theorem seams_conserve ok (c : config N) heap i av T n exact db log fuel u0 o :
  tabulated c -> all_ends B_periodic c -> c_convex c = false -> (c_limit c = true -> c_limiter c <> L_unknown) ->
  shp u0 = c_n c -> 2 <= rows u0 ->
  (forall u, ok u = true -> seams_agree c u) ->
  simulate_checked ok c heap i av T n exact db log fuel u0 = Ok o ->
  simulate c heap i av T n exact db log fuel u0 = Ok o /\ rows (o_u o) = rows u0 /\ shp (o_u o) = c_n c /\
  forall v, total (c_n c) (at_ (o_u o) v) = total (c_n c) (at_ u0 v).
Proof.
  intros HT HE CV HL S0 R0 HOK HS.
  pose proof (all_closed B_periodic c (proj1 HT) I HE) as HC.
  assert (Hn : forall a, 1 <= getc a (c_n c)) by apply HT.
  destruct (checked_invariant N c heap (rows u0) ok
    (fun f => forall v : Z, total (c_n c) (f v) = total (c_n c) (at_ u0 v))
    (fun f => forall v : Z, total (c_n c) (f v) = 0%R)) with (i := i) (av := av) (T := T) (n := n) (exact := exact) (db := db) (log := log) (fuel := fuel) (u0 := u0) (o := o) as (A & B); auto.
  - intros f g H E v. rewrite <- (H v). apply total_ext. intros j Hj. symmetry. apply E. exact Hj.
  - intros f g H E v. rewrite <- (H v). apply total_ext. intros j Hj. symmetry. apply E. exact Hj.
  - intros k f g Hf Hg v. cbn [nadd nmul RNum]. rewrite total_add, total_scale, Hf, Hg. lra.
  - intros k g Hg v. cbn [nadd nmul RNum]. rewrite total_scale, Hg. lra.
  - intros f g Hf Hg v. cbn [nadd nmul RNum]. rewrite total_add, Hf, Hg. lra.
  - intros f g Hf Hg v. cbn [nadd nmul RNum]. rewrite total_add, !total_scale, Hf, Hg. unfold nhalf. cbn [ndiv nofZ RNum]. lra.
  - intros x t u x' dt k OK FO (Ru & Su & _) H. rewrite <- Ru in *.
    destruct (rhs_copies N c heap x t u x' dt k HT HC HL Su ltac:(lia) FO H) as (EDT & RK & SK & FO' & _ & F & theta & FF & VF & MO & VK).
    split; [exact FO'|]. split; [exact RK|]. split; [exact SK|]. intro v.
    rewrite (total_ext _ _ (gsum N c (mixed N c theta (copied N (c_bc c) (c_n c) u)) v)) by (intros j Hj; apply VK; exact Hj).
    apply gsum_total; [exact Hn|]. intros d Ad j Hj.
    pose proof (tab_good N c HT) as G. pose proof (good_fallback N c G) as GF.
    assert (HB : both_ends B_periodic c d) by (apply HE, active_spec, Ad).
    assert (WM : getc d (solver_width N c (c_p c)) <= ghost_zones c d) by (pose proof (width_main N c HT d) as [_ W]; destruct d; exact W).
    assert (WF : getc d (solver_width N c (fallback_p N c)) <= ghost_zones c d) by (pose proof (width_fall N c HT d) as [_ W]; destruct d; exact W).
    unfold mixed. rewrite (flux_periodic N c (c_p c) L_none d u v j) by auto.
    destruct theta as [th|]; [|reflexivity]. rewrite (flux_periodic N c (fallback_p N c) (c_limiter c) d u v j) by auto.
    destruct MO as (_ & det & f & ED & RD & SD & _ & EB & VT). rewrite !VT. rewrite CV in EB.
    assert (W : at_ (f d) 0 (setc d (getc d (c_n c)) j) = at_ (f d) 0 (setc d 0 j)); [|rewrite W; reflexivity].
    rewrite <- SD. eapply seam_weights; eauto.
    + rewrite SD. exact Hn.
    + unfold dims. apply filter_In. split; [destruct d; cbn; auto|exact Ad].
    + rewrite SD. exact Hj.
    + rewrite SD.
      destruct (hydrofluxes_is N c (heap (4 * (x_evals x + 1) + 0)) t F u (c_p c) L_none (copied N (c_bc c) (c_n c) u) G (or_introl eq_refl) Su) as (dt1 & G1 & EG & EDT1 & VG).
      { apply (padding_copies N c); auto. apply width_main; assumption. }
      rewrite EDT in EDT1. injection EDT1 as <-.
      eapply (HOK u OK (fun j => heap (4 * (x_evals x + 1) + j)) t F dt G1 det); eauto.
      intros d' w l Hl. destruct (VG d') as [VA VI]. destruct (active N c d') eqn:A'.
      * destruct (VA eq_refl) as (_ & _ & VV). rewrite (VV w l Hl). apply VF; auto.
      * rewrite (VI eq_refl). reflexivity.
      * apply active_spec, Ad.
  - split; [reflexivity|]. split; [exact S0|]. reflexivity.
Qed.
(** forced trouble marks every cell *)
Lemma forced_agree (c : config N) u : c_force c = true -> seams_agree c u.
Proof.
  intros HF junk t F dt G det _ _ _ H d i _ _. unfold detect in H. ob H. ob H. rewrite HF in H. injection H as <-. reflexivity.
Qed.
Lemma unchecked (c : config N) heap i av T n exact db log fuel u0 :
  simulate_checked (fun _ => true) c heap i av T n exact db log fuel u0 = simulate c heap i av T n exact db log fuel u0.
Proof. reflexivity. Qed.
Lemma forced_conserve (c : config N) heap i av T n exact db log fuel u0 o :
  tabulated c -> all_ends B_periodic c -> c_convex c = false -> c_limiter c <> L_unknown -> c_force c = true ->
  shp u0 = c_n c -> 2 <= rows u0 ->
  simulate c heap i av T n exact db log fuel u0 = Ok o ->
  forall v, total (c_n c) (at_ (o_u o) v) = total (c_n c) (at_ u0 v).
Proof.
  intros HT HE CV HL HF S0 R0 HS.
  apply (seams_conserve (fun _ => true) c heap i av T n exact db log fuel u0 o HT HE CV (fun _ => HL) S0 R0); [|exact HS].
  intros u _. apply forced_agree, HF.
Qed.
End Seam.

(** ** a periodic box that loses mass *)
Definition seam_box : config QNum :=
  mkcfg (N := QNum) (mkix 6 1 1) (mkix 1 0 0) (fun _ => (0%Q, 6%Q)) (Qmake 1 2) (Some (Qmake 1 2)) (Qmake 7 5) 0%Q RS_upwind (uniform_bc B_periodic)
    true L_minmod false (mknad (N := QNum) (Qmake 1 10) M_local R_absolute (Some [0]) None false 0%Q) false.
(** a ramp moving at speed 1, shifted by k cells *)
Definition ramp (k : Z) : arr Q := mkarr 5 (mkix 6 1 1) (fun v i =>
  if (v =? 0) || (v =? 1) then inject_Z (nth (Z.to_nat ((cx i + k) mod 6)) [1; 1; 4; 8; 8; 8] 0) else if v =? 4 then 40%Q else 0%Q).
Notation ramp_run k := (simulate seam_box (fun _ _ _ => 0%Q) I_euler true None (Some 1) true [] false 0 (ramp k)).
Definition first_row (u : arr Q) : list Q := map (fun i => at_ u 0 i) (ix_list (shp u)).
Definition seen (o : run QNum) := (shp (o_u o), map Qred (first_row (o_u o))).
Lemma seam_box_tabulated : tabulated seam_box.
Proof.
  split; [split|].
  - intros []; cbn; lia.
  - intros []; cbn; lia.
  - exists AX. intros [H _]. discriminate.
  - exact I.
  - intros []; cbn; lia.
Qed.
Lemma seam_box_periodic : all_ends B_periodic seam_box.
Proof. intros a _. split; [reflexivity|]. destruct a; vm_compute; discriminate. Qed.
Lemma ramp_value_0 : looked seen (ramp_run 0) = Some (mkix 6 1 1, [Qmake 29 8; 1%Q; Qmake 13 8; Qmake 51 8; Qmake 17 2; 8%Q]).
Proof. vm_compute. reflexivity. Qed.
Lemma ramp_step_0 : exists o, ramp_run 0 = Ok o /\ seen o = (mkix 6 1 1, [Qmake 29 8; 1%Q; Qmake 13 8; Qmake 51 8; Qmake 17 2; 8%Q]).
Proof. exact (looked_ok seen _ _ ramp_value_0). Qed.
Lemma ramp_value_3 : looked seen (ramp_run 3) = Some (mkix 6 1 1, [Qmake 51 8; Qmake 17 2; 8%Q; Qmake 9 2; 1%Q; Qmake 13 8]).
Proof. vm_compute. reflexivity. Qed.
Lemma ramp_step_3 : exists o, ramp_run 3 = Ok o /\ seen o = (mkix 6 1 1, [Qmake 51 8; Qmake 17 2; 8%Q; Qmake 9 2; 1%Q; Qmake 13 8]).
Proof. exact (looked_ok seen _ _ ramp_value_3). Qed.

Lemma row_total (u : arr Q) n l : shp u = n -> map Qred (first_row u) = l ->
  Qeq (rational_total n (at_ u 0)) (fold_right Qplus 0%Q l).
Proof.
  intros <- <-. unfold rational_total, first_row. induction (ix_list (shp u)) as [|i l IH]; cbn [fold_right map]; [reflexivity|].
  rewrite IH, Qred_correct. reflexivity.
Qed.
Theorem limited_box_leaks : exists (c : config QNum) heap u0 o,
  tabulated c /\ all_ends B_periodic c /\ c_limit c = true /\ shp u0 = c_n c /\
  simulate c heap I_euler true None (Some 1) true [] false 0 u0 = Ok o /\
  Qeq (rational_total (c_n c) (at_ u0 0)) 30 /\ Qeq (rational_total (c_n c) (at_ (o_u o) 0)) (Qmake 233 8).
Proof.
  destruct ramp_step_0 as (o & E & V). unfold seen in V; injection V as S V.
  exists seam_box, (fun _ _ _ => 0%Q), (ramp 0), o. split; [apply seam_box_tabulated|]. split; [apply seam_box_periodic|].
  do 2 (split; [reflexivity|]). split; [exact E|]. split; [reflexivity|].
  apply (Qeq_trans _ _ _ (row_total _ _ _ S V)). reflexivity.
Qed.
Theorem limited_box_not_translated : exists (c : config QNum) heap u u' o o',
  tabulated c /\ all_ends B_periodic c /\ c_limit c = true /\ shp u = c_n c /\ translated AX 3 u u' /\
  simulate c heap I_euler true None (Some 1) true [] false 0 u = Ok o /\
  simulate c heap I_euler true None (Some 1) true [] false 0 u' = Ok o' /\
  ~ Qeq (at_ (o_u o') 0 (mkix 3 0 0)) (at_ (o_u o) 0 (mkix 0 0 0)).
Proof.
  destruct ramp_step_0 as (o & E & V). destruct ramp_step_3 as (o' & E' & V'). unfold seen in V; injection V as S V. unfold seen in V'; injection V' as S' V'.
  exists seam_box, (fun _ _ _ => 0%Q), (ramp 0), (ramp 3), o, o'. split; [apply seam_box_tabulated|]. split; [apply seam_box_periodic|].
  do 2 (split; [reflexivity|]). split.
  { split; [reflexivity|]. split; [reflexivity|]. intros v [i1 i2 i3] Hi. unfold ramp. cbn [at_ shp setc getc cx cy cz].
    rewrite Z.add_0_r, Zmod_mod. reflexivity. }
  split; [exact E|]. split; [exact E'|]. clear E E'. unfold first_row in V, V'. rewrite S in V. rewrite S' in V'.
  injection V as V _ _ _ _ _. injection V' as _ _ _ V' _ _.
  intro X. apply Qred_complete in X. pose proof (eq_trans (eq_sym V') (eq_trans X V)) as Y. discriminate Y.
Qed.
