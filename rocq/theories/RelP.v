(** Every array operation of the model maps arrays that agree inside their shapes to arrays
    that agree inside their shapes; hence so does the whole right-hand side, once the
    boundary conditions do. [P] selects the rows on which agreement is required; the two
    arrays may have different numbers of rows. *)
From Coq Require Import ZArith List Bool Lia.
From Verif Require Import Err Num PySlice NdArray NdArrayP HydroM RiemannM StencilsM FvM FvP
  BcM SedM LimitM OdeM SolverM OdeP.
Import ListNotations.
Open Scope Z_scope.

Section Par.
Context (P : Z -> Prop) (H0 : forall v, P v -> P 0).

Definition aeq {A} (r r' : Z) (u u' : arr A) : Prop :=
  rows u = r /\ rows u' = r' /\ shp u = shp u' /\ (forall a, 0 <= getc a (shp u)) /\
  forall v i, P v -> in_shape (shp u) i -> at_ u v i = at_ u' v i.
(** classes of row counts: equal, or both at least 5 *)
Definition cls (r r' : Z) : Prop := r = r' \/ (5 <= r /\ 5 <= r').

Lemma brow_P r t v : P v -> P (brow r t v).
Proof. intro. unfold brow. destr_if; [assumption|eapply H0; eassumption]. Qed.

(** ** slices with step 1 stay inside the array *)
Lemma slice_bounds n s : 0 <= n -> sl_step s = None ->
  let e := slice_adjust n s in ex_step e = 1 /\ 0 <= ex_len e /\ (0 < ex_len e -> 0 <= ex_start e /\ ex_start e + ex_len e <= n).
Proof.
  intros Hn Hs. unfold slice_adjust. rewrite Hs. cbn [ex_step ex_len ex_start]. split; [reflexivity|].
  destruct (sl_start s), (sl_stop s); repeat destr_if; zb; rewrite ?Z.div_1_r; lia.
Qed.
Definition plain (s : pyslice) : Prop := sl_step s = None.
Lemma plain_cut a b : plain (cut a b). Proof. reflexivity. Qed.
Lemma plain_in k : plain (s_in k). Proof. reflexivity. Qed.

Lemma view_aeq {A} a s r r' (u u' : arr A) : plain s -> aeq r r' u u' -> aeq r r' (view a s u) (view a s u').
Proof.
  intros Hp (R & R' & S & Nn & V). unfold view. rewrite <- S.
  pose proof (slice_bounds (getc a (shp u)) s (Nn a) Hp) as B. cbv zeta in B. destruct B as (B1 & B2 & B3).
  split; [assumption|]. split; [assumption|]. split; [reflexivity|]. cbn [shp at_]. split.
  - intro b. destruct (axis_dec a b) as [<-|E]; [rewrite getc_setc_eq; lia|rewrite getc_setc_ne by auto; apply Nn].
  - intros v i Pv Hi. apply V; [assumption|]. intro b. specialize (Hi b).
    destruct (axis_dec a b) as [<-|E].
    + rewrite getc_setc_eq in *. rewrite B1. lia.
    + rewrite getc_setc_ne in * by auto. exact Hi.
Qed.
Lemma view3_aeq {A} s r r' (u u' : arr A) : (forall a, plain (s a)) -> aeq r r' u u' -> aeq r r' (view3 s u) (view3 s u').
Proof. intros Hp H. unfold view3. apply view_aeq; auto. apply view_aeq; auto. apply view_aeq; auto. Qed.
Lemma amap_aeq {A B} (f : A -> B) r r' u u' : aeq r r' u u' -> aeq r r' (amap f u) (amap f u').
Proof.
  intros (R & R' & S & Nn & V). split; [assumption|]. split; [assumption|]. split; [assumption|].
  split; [assumption|]. intros. cbn [amap at_]. rewrite V; auto.
Qed.
Lemma cmap_aeq {A B} (f : (Z -> A) -> Z -> B) r r' u u' :
  (forall x y v, P v -> (forall w, P w -> x w = y w) -> f x v = f y v) ->
  aeq r r' u u' -> aeq r r' (cmap f u) (cmap f u').
Proof.
  intros HF (R & R' & S & Nn & V). split; [assumption|]. split; [assumption|]. split; [assumption|].
  split; [assumption|]. intros. cbn [cmap at_]. apply HF; auto.
Qed.

(** ** broadcasting *)
Lemma bdim_bounds m n k : bdim m n = Some k -> (m = k \/ m = 1) /\ (n = k \/ n = 1) /\ (0 <= m -> 0 <= n -> 0 <= k).
Proof. unfold bdim. repeat destr_if; zb; intro H; inversion H; subst; lia. Qed.
Lemma bshape_in s t k : bshape s t = Some k -> (forall a, 0 <= getc a s) -> (forall a, 0 <= getc a t) ->
  (forall a, 0 <= getc a k) /\
  forall i, in_shape k i -> in_shape s (bix s k i) /\ in_shape t (bix t k i).
Proof.
  unfold bshape. intros H Hs Ht.
  destruct (bdim (cx s) (cx t)) as [x|] eqn:Ex; [|discriminate].
  destruct (bdim (cy s) (cy t)) as [y|] eqn:Ey; [|discriminate].
  destruct (bdim (cz s) (cz t)) as [z|] eqn:Ez; [|discriminate]. injection H as <-.
  apply bdim_bounds in Ex, Ey, Ez.
  pose proof (Hs AX); pose proof (Hs AY); pose proof (Hs AZ).
  pose proof (Ht AX); pose proof (Ht AY); pose proof (Ht AZ). cbn [getc] in *.
  split; [intros []; cbn [getc cx cy cz]; lia|].
  intros i Hi. pose proof (Hi AX); pose proof (Hi AY); pose proof (Hi AZ). cbn [getc cx cy cz] in *.
  split; intros []; unfold bix; cbn [getc cx cy cz]; destr_if; zb; lia.
Qed.
(** row classes that broadcast together *)
Definition mix (r1 r1' r2 r2' r r' : Z) : Prop :=
  (r1 = r /\ r1' = r' /\ r2 = r /\ r2' = r') \/
  (r1 = 1 /\ r1' = 1 /\ r2 = r /\ r2' = r' /\ cls r r') \/
  (r2 = 1 /\ r2' = 1 /\ r1 = r /\ r1' = r' /\ cls r r').
Lemma mix_same r r' : mix r r' r r' r r'. Proof. left; auto. Qed.
Lemma mix_l r r' : cls r r' -> mix 1 1 r r' r r'. Proof. right; left; auto. Qed.
Lemma mix_r r r' : cls r r' -> mix r r' 1 1 r r'. Proof. right; right; auto. Qed.
Lemma bdim_1l n : bdim 1 n = Some n.
Proof. unfold bdim. repeat destr_if; zb; subst; reflexivity || lia. Qed.
Lemma bdim_1r n : bdim n 1 = Some n.
Proof. unfold bdim. repeat destr_if; zb; subst; reflexivity || lia. Qed.
Lemma brow_cls r r' v : cls r r' -> brow 1 r v = brow 1 r' v.
Proof. intros [->|[H H']]; [reflexivity|]. unfold brow. repeat destr_if; zb; lia. Qed.
Lemma mix_bdim r1 r1' r2 r2' r r' : mix r1 r1' r2 r2' r r' ->
  bdim r1 r2 = Some r /\ bdim r1' r2' = Some r' /\
  forall v, brow r1 r v = brow r1' r' v /\ brow r2 r v = brow r2' r' v.
Proof.
  intros [(-> & -> & -> & ->)|[(-> & -> & -> & -> & C)|(-> & -> & -> & -> & C)]].
  - rewrite !bdim_eq. split; [reflexivity|]. split; [reflexivity|]. intro; rewrite !brow_eq; auto.
  - rewrite !bdim_1l. split; [reflexivity|]. split; [reflexivity|]. intro; rewrite !brow_eq, (brow_cls r r' v C); auto.
  - rewrite !bdim_1r. split; [reflexivity|]. split; [reflexivity|]. intro; rewrite !brow_eq, (brow_cls r r' v C); auto.
Qed.

Lemma amap2_aeq {A B C} (f : A -> B -> C) r1 r1' r2 r2' r r' a a' b b' :
  mix r1 r1' r2 r2' r r' -> aeq r1 r1' a a' -> aeq r2 r2' b b' ->
  res_rel (aeq r r') (amap2 f a b) (amap2 f a' b').
Proof.
  intros M (Ra & Ra' & Sa & Na & Va) (Rb & Rb' & Sb & Nb & Vb). unfold amap2.
  destruct (mix_bdim _ _ _ _ _ _ M) as (E & E' & HB).
  rewrite Ra, Ra', Rb, Rb', E, E', <- Sa, <- Sb.
  destruct (bshape (shp a) (shp b)) as [s|] eqn:Es; [|reflexivity].
  destruct (bshape_in _ _ _ Es Na Nb) as [Ns HI]. cbn [res_rel].
  split; [reflexivity|]. split; [reflexivity|]. split; [reflexivity|]. split; [exact Ns|].
  intros v i Pv Hi. cbn [at_ shp] in *. destruct (HB v) as [B1 B2]. rewrite <- B1, <- B2.
  rewrite Va, Vb; auto using brow_P; apply HI; assumption.
Qed.
Lemma cmap2_aeq {A B C} (f : (Z -> A) -> (Z -> B) -> Z -> C) r r' a a' b b' :
  (forall x y x' y' v, P v -> (forall w, P w -> x w = x' w) -> (forall w, P w -> y w = y' w) -> f x y v = f x' y' v) ->
  aeq r r' a a' -> aeq r r' b b' ->
  res_rel (aeq r r') (cmap2 f a b) (cmap2 f a' b').
Proof.
  intros HF (Ra & Ra' & Sa & Na & Va) (Rb & Rb' & Sb & Nb & Vb). unfold cmap2.
  rewrite Ra, Ra', Rb, Rb', !bdim_eq, <- Sa, <- Sb.
  destruct (bshape (shp a) (shp b)) as [s|] eqn:Es; [|reflexivity].
  destruct (bshape_in _ _ _ Es Na Nb) as [Ns HI]. cbn [res_rel].
  split; [reflexivity|]. split; [reflexivity|]. split; [reflexivity|]. split; [exact Ns|].
  intros v i Pv Hi. cbn [at_ shp] in *. apply HF; [assumption|..]; intros w Pw; rewrite !brow_eq.
  - apply Va; auto; apply HI; assumption.
  - apply Vb; auto; apply HI; assumption.
Qed.

(** ** assignment *)
Lemma bcast_in rs rt s t : bcast_ok rs rt s t = true -> forall i, in_shape t i -> in_shape s (bix s t i).
Proof.
  unfold bcast_ok. intros H i Hi. zb. pose proof (Hi AX); pose proof (Hi AY); pose proof (Hi AZ). cbn [getc] in *.
  intros []; unfold bix; cbn [getc cx cy cz]; destr_if; zb;
    repeat match goal with H : _ = true \/ _ = true |- _ => destruct H end; zb; lia.
Qed.
(** source and destination row classes *)
Definition fits (s s' d d' : Z) : Prop := (s = d /\ s' = d') \/ (s = 1 /\ s' = 1 /\ cls d d').
Lemma fits_same r r' : fits r r' r r'. Proof. left; auto. Qed.
Lemma fits_1 r r' : cls r r' -> fits 1 1 r r'. Proof. right; auto. Qed.
Lemma fits_ok s s' d d' : fits s s' d d' ->
  (forall x y, bcast_ok s d x y = bcast_ok s' d' x y) /\ forall v, brow s d v = brow s' d' v.
Proof.
  intros [(-> & ->)|(-> & -> & C)].
  - unfold bcast_ok. split; [intros; rewrite !Z.eqb_refl; reflexivity|intro; rewrite !brow_eq; reflexivity].
  - split; [|intro; apply brow_cls; assumption]. intros. unfold bcast_ok. rewrite !Z.eqb_refl, !orb_true_r. reflexivity.
Qed.
Lemma assign_all_aeq {A} s s' d d' (x x' y y' : arr A) : fits s s' d d' ->
  aeq d d' x x' -> aeq s s' y y' -> res_rel (aeq d d') (assign_all x y) (assign_all x' y').
Proof.
  intros F (Ra & Ra' & Sa & Na & Va) (Rb & Rb' & Sb & Nb & Vb). unfold assign_all.
  destruct (fits_ok _ _ _ _ F) as [FB FR]. rewrite Ra, Ra', Rb, Rb', <- Sa, <- Sb, <- FB.
  destruct (bcast_ok s d (shp y) (shp x)) eqn:E; [|reflexivity]. cbn [res_rel].
  split; [reflexivity|]. split; [reflexivity|]. split; [reflexivity|]. split; [exact Na|].
  intros v i Pv Hi. cbn [at_ shp] in *. rewrite <- FR. apply Vb; [apply brow_P; assumption|].
  eapply bcast_in; eassumption.
Qed.
Lemma assign_slice_aeq {A} a sl s s' d d' (x x' y y' : arr A) : plain sl -> fits s s' d d' ->
  aeq d d' x x' -> aeq s s' y y' -> res_rel (aeq d d') (assign_slice a sl x y) (assign_slice a sl x' y').
Proof.
  intros Hp F (Ra & Ra' & Sa & Na & Va) (Rb & Rb' & Sb & Nb & Vb). unfold assign_slice.
  destruct (fits_ok _ _ _ _ F) as [FB FR]. rewrite Ra, Ra', Rb, Rb', <- Sa, <- Sb, <- FB.
  set (e := slice_adjust (getc a (shp x)) sl).
  destruct (bcast_ok s d (shp y) _) eqn:E; [|reflexivity]. cbn [res_rel].
  split; [reflexivity|]. split; [reflexivity|]. split; [reflexivity|]. split; [exact Na|].
  intros v i Pv Hi. cbn [at_ shp] in *. rewrite <- FR. destr_if; [|auto].
  apply Vb; [apply brow_P; assumption|]. eapply bcast_in; [eassumption|].
  zb. intro b. specialize (Hi b). destruct (axis_dec a b) as [<-|]; [rewrite !getc_setc_eq; lia|].
  rewrite !getc_setc_ne by auto. assumption.
Qed.
Lemma assign3_aeq {A} sl s s' d d' (x x' y y' : arr A) : (forall a, plain (sl a)) -> fits s s' d d' ->
  aeq d d' x x' -> aeq s s' y y' -> res_rel (aeq d d') (assign3 sl x y) (assign3 sl x' y').
Proof.
  intros Hp F (Ra & Ra' & Sa & Na & Va) (Rb & Rb' & Sb & Nb & Vb). unfold assign3.
  destruct (fits_ok _ _ _ _ F) as [FB FR]. rewrite Ra, Ra', Rb, Rb', <- Sa, <- Sb, <- FB.
  destruct (bcast_ok s d (shp y) _) eqn:E; [|reflexivity]. cbn [res_rel].
  split; [reflexivity|]. split; [reflexivity|]. split; [reflexivity|]. split; [exact Na|].
  intros v i Pv Hi. cbn [at_ shp] in *. rewrite <- FR. destr_if; [|auto].
  apply Vb; [apply brow_P; assumption|]. eapply bcast_in; [eassumption|].
  zb. pose proof (Hi AX); pose proof (Hi AY); pose proof (Hi AZ). cbn [getc] in *.
  intros []; cbn [getc cx cy cz]; lia.
Qed.

(** ** reductions *)
Lemma fold_left_ext_in {A B} (f g : A -> B -> A) l : (forall x y, In y l -> f x y = g x y) ->
  forall a, fold_left f l a = fold_left g l a.
Proof.
  induction l as [|y l IH]; intros H a; [reflexivity|]. cbn [fold_left]. rewrite H by (left; reflexivity).
  apply IH. intros; apply H; right; assumption.
Qed.
Lemma reduce_rows_aeq {A} (op : A -> A -> A) r r' u u' : aeq r r' u u' ->
  res_rel (aeq r r') (reduce_rows op u) (reduce_rows op u').
Proof.
  intros (R & R' & S & Nn & V). unfold reduce_rows. rewrite <- S.
  pose proof (fun i => proj1 (in_ix_list (shp u) i)) as M.
  destruct (ix_list (shp u)) as [|i0 l]; [reflexivity|]. cbn [res_rel].
  split; [assumption|]. split; [assumption|]. split; [reflexivity|]. split; [intros []; cbn; lia|].
  intros v i Pv _. cbn [at_]. rewrite V by (auto; apply M; left; reflexivity).
  apply fold_left_ext_in. intros x j Hj. rewrite V by (auto; apply M; right; assumption). reflexivity.
Qed.
Lemma reduce_cells_eq {A} (op : A -> A -> A) s f g :
  (forall i, in_shape s i -> f i = g i) -> reduce_cells op s f = reduce_cells op s g.
Proof.
  intro H. unfold reduce_cells. pose proof (fun i => proj1 (in_ix_list s i)) as M.
  destruct (ix_list s) as [|i0 l]; [reflexivity|].
  rewrite (H i0) by (apply M; left; reflexivity). f_equal. apply fold_left_ext_in. intros x y Hy.
  rewrite H by (apply M; right; assumption). reflexivity.
Qed.

Section WithN.
Context (N : Num).
Local Notation K := (car N).
Local Notation arr := (arr K).
Context (r r' : Z) (Hr : 5 <= r) (Hr' : 5 <= r').
Lemma Hcls : cls r r'. Proof. right; auto. Qed.

(** ** cell functions *)
Context (HP : forall v, 0 <= v <= 4 -> P v).
Lemma P0 : P 0. Proof. apply HP; lia. Qed.
Lemma PR : P rRho. Proof. apply HP; unfold rRho; lia. Qed.
Lemma PE : P rE. Proof. apply HP; unfold rE; lia. Qed.
Lemma PV d : P (vrow d). Proof. apply HP; destruct d; cbn; lia. Qed.
Lemma P1 : P 1. Proof. apply HP; lia. Qed.
Lemma P2 : P 2. Proof. apply HP; lia. Qed.
Lemma P3 : P 3. Proof. apply HP; lia. Qed.
Hint Resolve PR PE PV P1 P2 P3 : core.
Definition ceq (x y : Z -> K) : Prop := forall w, P w -> x w = y w.
Lemma prim_P g x y v : P v -> ceq x y -> compute_primitives N g x v = compute_primitives N g y v.
Proof.
  intros Pv H. unfold compute_primitives, sum3.
  rewrite (H rRho), (H rE), (H 1), (H 2), (H 3), (H v) by auto. reflexivity.
Qed.
Lemma cons_P g x y v : P v -> ceq x y -> compute_conservatives N g x v = compute_conservatives N g y v.
Proof.
  intros Pv H. unfold compute_conservatives, sum3.
  rewrite (H rRho), (H rE), (H 1), (H 2), (H 3), (H v) by auto. reflexivity.
Qed.
Lemma sound_P g c x y : ceq x y -> compute_sound_speed N g c x = compute_sound_speed N g c y.
Proof. intro H. unfold compute_sound_speed. rewrite !H by auto. reflexivity. Qed.
Lemma flux_P d ip x y x' y' v : P v -> ceq x x' -> ceq y y' ->
  compute_fluxes N d ip x y v = compute_fluxes N d ip x' y' v.
Proof.
  intros Pv H H'. unfold compute_fluxes.
  rewrite (H (vrow d)), (H rRho), (H rE), (H' rE), (H' v) by auto. reflexivity.
Qed.
Lemma riemann_P rs g c d x y x' y' v : P v -> ceq x x' -> ceq y y' ->
  riemann N rs g c d x y v = riemann N rs g c d x' y' v.
Proof.
  intros Pv H H'.
  assert (F : forall ip, compute_fluxes N d ip x (compute_conservatives N g x) v
                       = compute_fluxes N d ip x' (compute_conservatives N g x') v)
    by (intro; apply flux_P; auto; intros w Pw; apply cons_P; auto).
  assert (F' : forall ip, compute_fluxes N d ip y (compute_conservatives N g y) v
                        = compute_fluxes N d ip y' (compute_conservatives N g y') v)
    by (intro; apply flux_P; auto; intros w Pw; apply cons_P; auto).
  destruct rs; unfold riemann.
  - unfold advection_upwind. rewrite F, F', (H (vrow d)) by auto. reflexivity.
  - unfold llf, llf_smax.
    rewrite F, F', (sound_P g c x x' H), (sound_P g c y y' H').
    rewrite (cons_P g x x' v Pv H), (cons_P g y y' v Pv H'), (H (vrow d)), (H' (vrow d)) by auto. reflexivity.
  - unfold hllc.
    assert (E : hllc_compute N g c d x y = hllc_compute N g c d x' y').
    { unfold hllc_compute. rewrite (sound_P g c x x' H), (sound_P g c y y' H').
      rewrite (cons_P g x x' rE PE H), (cons_P g y y' rE PE H'), !(H (vrow d)), !(H' (vrow d)),
        !(H rRho), !(H rE), !(H' rRho), !(H' rE) by auto. reflexivity. }
    rewrite E, (H v), (H' v) by auto. reflexivity.
Qed.

Ltac grow := first [apply mix_same | apply mix_l; apply Hcls | apply mix_r; apply Hcls
                   | apply mix_l; left; reflexivity | apply mix_r; left; reflexivity].
Ltac rb := eapply res_rel_bind.

(** ** sweeps *)
Lemma acc_add_aeq q q' x x' y y' : aeq q q' x x' -> aeq q q' y y' ->
  res_rel (aeq q q') (acc_add N x y) (acc_add N x' y').
Proof.
  intros (Ra & Ra' & Sa & Na & Va) (Rb & Rb' & Sb & Nb & Vb). unfold acc_add.
  destruct (fits_ok _ _ _ _ (fits_same q q')) as [FB FR]. rewrite Ra, Ra', Rb, Rb', <- Sa, <- Sb, <- FB.
  destruct (bcast_ok q q (shp y) (shp x)) eqn:E; [|reflexivity]. cbn [res_rel].
  split; [reflexivity|]. split; [reflexivity|]. split; [reflexivity|]. split; [exact Na|].
  intros v i Pv Hi. cbn [at_ shp] in *. rewrite <- FR, Va by assumption. f_equal. apply Vb; [apply brow_P; assumption|].
  eapply bcast_in; eassumption.
Qed.
Lemma sweep_loop_aeq a q q' u u' : aeq q q' u u' -> forall ws,
  (forall w s, In (w, s) ws -> plain s) -> forall o o', aeq q q' o o' ->
  res_rel (aeq q q') (sweep_loop N a u ws o) (sweep_loop N a u' ws o').
Proof.
  intro H. induction ws as [|[w s] ws IH]; intros Hs o o' Ho; cbn [sweep_loop]; [assumption|].
  rb; [apply acc_add_aeq; [eassumption|]|].
  - apply amap_aeq. apply view_aeq; [|eassumption]. eapply Hs. left; reflexivity.
  - intros. apply IH; [|assumption]. intros; eapply Hs; right; eassumption.
Qed.
Lemma weighted_sweep_aeq a ws q q' u u' : aeq q q' u u' ->
  res_rel (aeq q q') (weighted_sweep N a ws u) (weighted_sweep N a ws u').
Proof.
  intro H. unfold weighted_sweep, get_symmetric_slices. destr_if; [reflexivity|]. cbn [bind].
  assert (HS : forall s, In s (map (fun i => cut i (- (Z.of_nat (length ws) - 1) + i)) (zrange (Z.of_nat (length ws)))) -> plain s).
  { intros s Hin. apply in_map_iff in Hin. destruct Hin as (k & <- & _). reflexivity. }
  destruct (map _ _) as [|s0 sl]; [reflexivity|].
  apply sweep_loop_aeq; [assumption|..].
  - intros w s Hin. apply in_combine_r in Hin. auto.
  - pose proof (view_aeq a s0 q q' u u' (HS s0 (or_introl eq_refl)) H) as (R & R' & S & Nn & V).
    split; [apply H|]. split; [apply H|]. split; [exact S|]. split; [exact Nn|]. reflexivity.
Qed.
Lemma ci_aeq p a pos q q' u u' : aeq q q' u u' ->
  res_rel (aeq q q') (conservative_interpolation N p a pos u) (conservative_interpolation N p a pos u').
Proof.
  intro H. unfold conservative_interpolation. destruct (interpolation_weights N p pos); [|reflexivity].
  cbn [bind]. apply weighted_sweep_aeq; assumption.
Qed.
Lemma tr_aeq p a q q' u u' : aeq q q' u u' ->
  res_rel (aeq q q') (transverse_reconstruction N p a u) (transverse_reconstruction N p a u').
Proof.
  intro H. unfold transverse_reconstruction. destruct (transverse_weights N p); [|reflexivity].
  cbn [bind]. apply weighted_sweep_aeq; assumption.
Qed.
Lemma icc_aeq p q q' u u' : aeq q q' u u' ->
  res_rel (aeq q q') (interpolate_cell_centers N p u) (interpolate_cell_centers N p u').
Proof.
  intro H. unfold interpolate_cell_centers. rb; [apply ci_aeq; eassumption|intros].
  rb; [apply ci_aeq; eassumption|intros]. apply ci_aeq; assumption.
Qed.
Lemma ifa_aeq p q q' u u' : aeq q q' u u' ->
  res_rel (aeq q q') (interpolate_fv_averages N p u) (interpolate_fv_averages N p u').
Proof.
  intro H. unfold interpolate_fv_averages. rb; [apply tr_aeq; eassumption|intros].
  rb; [apply tr_aeq; eassumption|intros]. apply tr_aeq; assumption.
Qed.
Ltac am := lazymatch goal with
  | |- res_rel _ (bind _ _) _ => rb; [eapply amap2_aeq; [|eassumption|eassumption]; grow|intros]
  | |- _ => eapply amap2_aeq; [|eassumption|eassumption]; grow end.
Ltac vw := repeat match goal with
  | |- aeq _ _ (view _ _ _) (view _ _ _) => apply view_aeq; [reflexivity|]
  | |- aeq _ _ (amap _ _) (amap _ _) => apply amap_aeq
  end; try eassumption.
Ltac am' := lazymatch goal with
  | |- res_rel _ (bind _ _) _ => rb; [eapply amap2_aeq; [|solve [vw]|solve [vw]]; grow|intros]
  | |- _ => eapply amap2_aeq; [|solve [vw]|solve [vw]]; grow end.

Lemma MUSCL_aeq a l q q' u u' : aeq q q' u u' ->
  res_rel (fun x y => aeq q q' (fst x) (fst y) /\ aeq q q' (snd x) (snd y))
    (MUSCL_interpolations N a l u) (MUSCL_interpolations N a l u').
Proof.
  intro H. unfold MUSCL_interpolations. am'. am'.
  destruct (limited_slope N l); [|reflexivity]. cbn [bind]. am'. am'. am'. cbn. auto.
Qed.

(** ** detection *)
Lemma read_const_aeq q q' u u' v i : aeq q q' u u' -> P v -> read_const N u v i = read_const N u' v i.
Proof.
  intros (R & R' & S & Nn & V) Pv. unfold read_const. rewrite <- S. destr_if; [|reflexivity].
  apply V; [assumption|]. zb. intros []; cbn [getc]; lia.
Qed.
Lemma rank_filter_aeq op dims q q' u u' : aeq q q' u u' ->
  aeq q q' (rank_filter N op dims u) (rank_filter N op dims u').
Proof.
  intro H. pose proof H as (R & R' & S & Nn & V). unfold rank_filter.
  split; [assumption|]. split; [assumption|]. split; [assumption|]. split; [assumption|].
  intros v i Pv Hi. cbn [at_]. destruct (offsets dims) as [|o os]; [reflexivity|].
  rewrite (read_const_aeq q q' u u' v _ H Pv). apply fold_left_ext_in. intros x y _.
  rewrite (read_const_aeq q q' u u' v _ H Pv). reflexivity.
Qed.
Lemma interior_aeq {A} dims q q' (u u' : NdArray.arr A) : aeq q q' u u' -> aeq q q' (interior dims u) (interior dims u').
Proof. intro H. apply view3_aeq; [|assumption]. intro a. destruct (mem_axis a dims); reflexivity. Qed.

Lemma nad_aeq q0 dims q u u' uc uc' : aeq q q u u' -> aeq q q uc uc' ->
  res_rel (fun x y => aeq q q (fst x) (fst y) /\ aeq q q (snd x) (snd y))
    (nad_indicator N q0 dims u uc) (nad_indicator N q0 dims u' uc').
Proof.
  intros H H'. unfold nad_indicator.
  pose proof (interior_aeq dims q q _ _ H') as HI.
  pose proof (interior_aeq dims q q _ _ (rank_filter_aeq nmax dims q q _ _ H)) as HM.
  pose proof (interior_aeq dims q q _ _ (rank_filter_aeq nmin dims q q _ _ H)) as Hm.
  revert HI HM Hm.
  generalize (interior dims uc), (interior dims uc'), (interior dims (rank_filter N nmax dims u)),
    (interior dims (rank_filter N nmax dims u')), (interior dims (rank_filter N nmin dims u)),
    (interior dims (rank_filter N nmin dims u')). intros A1 A2 A3 A4 A5 A6 HI HM Hm.
  destruct (nad_range_ q0); [| |reflexivity].
  - rb.
    + instantiate (1 := aeq q q). destruct (nad_mode_ q0); [| |reflexivity].
      * rb; [apply reduce_rows_aeq; eassumption|intros]. rb; [apply reduce_rows_aeq; eassumption|intros]. am.
      * am.
    + intros. am. am. am. am. cbn. auto.
  - rb.
    + instantiate (1 := fun x y => aeq q q (fst x) (fst y) /\ aeq q q (snd x) (snd y)).
      destruct (nad_mode_ q0); [| |reflexivity].
      * rb; [apply reduce_rows_aeq; eassumption|intros]. rb; [apply reduce_rows_aeq; eassumption|intros].
        cbn. split; apply amap_aeq; assumption.
      * cbn. split; apply amap_aeq; assumption.
    + intros x y [Hx Hy]. am. am. am. cbn. split; [assumption|]. apply amap_aeq; assumption.
Qed.

Lemma socd_aeq a h q q' u u' : aeq q q' u u' ->
  res_rel (aeq q q') (second_order_central_difference N a h u) (second_order_central_difference N a h u').
Proof.
  intro H. unfold second_order_central_difference. am'. destruct h; cbn; [apply amap_aeq|]; assumption.
Qed.
Lemma sed_1d_aeq a eps q q' u u' : aeq q q' u u' -> res_rel (aeq q q') (sed_1d N a eps u) (sed_1d N a eps u').
Proof.
  intro H. unfold sed_1d. rb; [apply socd_aeq; eassumption|intros]. rb; [apply socd_aeq; eassumption|intros].
  am'. am'. am'. am'. am'. am'. am'. am'.
Qed.
Lemma sed_2d_aeq a b eps q q' u u' : aeq q q' u u' -> res_rel (aeq q q') (sed_2d N a b eps u) (sed_2d N a b eps u').
Proof.
  intro H. unfold sed_2d. rb; [apply sed_1d_aeq; vw|intros]. rb; [apply sed_1d_aeq; vw|intros]. am.
Qed.
Lemma sed_aeq dims eps q q' u u' : aeq q q' u u' -> res_rel (aeq q q') (sed N dims eps u) (sed N dims eps u').
Proof.
  intro H. unfold sed. destruct dims as [|a [|b [|c [|]]]]; try reflexivity.
  - apply sed_1d_aeq; assumption.
  - apply sed_2d_aeq; assumption.
  - unfold sed_3d. rb; [apply sed_2d_aeq; vw|intros]. rb; [apply sed_1d_aeq; vw|intros]. am.
Qed.

Definition det_eq (d d' : detection N) : Prop :=
  aeq 1 1 (d_trouble d) (d_trouble d') /\ aeq 1 1 (d_nad d) (d_nad d') /\ aeq 1 1 (d_pad d) (d_pad d').
(** the names in PAD_bounds and NAD_vars are those of a HydroState without passive scalars *)
Definition pad_rows_ok (q0 : nad_params N) : Prop :=
  match pad_bounds q0 with None => True | Some l => forall e, In e l -> 0 <= fst e <= 4 end.
Lemma existsb_ext_in {A} (f g : A -> bool) l : (forall x, In x l -> f x = g x) -> existsb f l = existsb g l.
Proof.
  induction l as [|y l IH]; intro H; [reflexivity|]. cbn [existsb]. rewrite H by (left; reflexivity).
  f_equal. apply IH. intros; apply H; right; assumption.
Qed.

Lemma amap2_shape {A B C} (f : A -> B -> C) a b c s : amap2 f a b = Ok c -> shp a = s ->
  shp b = s \/ shp b = mkix 1 1 1 -> shp c = s.
Proof.
  unfold amap2. intros H Ha Hb. destruct (bdim (rows a) (rows b)); [|discriminate].
  destruct (bshape (shp a) (shp b)) eqn:E; [|discriminate]. injection H as <-. cbn [shp].
  rewrite Ha in E. destruct Hb as [Hb|Hb]; rewrite Hb in E.
  - rewrite bshape_eq in E. congruence.
  - unfold bshape in E. cbn [cx cy cz] in E. rewrite !bdim_1r in E. destruct s; cbn in E; congruence.
Qed.
Lemma assign_all_shape {A} (x y c : NdArray.arr A) : assign_all x y = Ok c -> shp c = shp x.
Proof. unfold assign_all. destr_if; [|discriminate]. intro H. injection H as <-. reflexivity. Qed.
Lemma view_shape {A} a s (u u' : NdArray.arr A) : shp u = shp u' -> shp (view a s u) = shp (view a s u').
Proof. intro H. unfold view. cbn [shp]. rewrite H. reflexivity. Qed.
Lemma interior_shape {A B} dims (u : NdArray.arr A) (u' : NdArray.arr B) : shp u = shp u' -> shp (interior dims u) = shp (interior dims u').
Proof.
  intro H. unfold interior, view3, view. cbn [shp]. rewrite H. reflexivity.
Qed.
Lemma reduce_rows_shape {A} (op : A -> A -> A) u c : reduce_rows op u = Ok c -> shp c = mkix 1 1 1.
Proof. unfold reduce_rows. destruct (ix_list (shp u)); [discriminate|]. intro H. injection H as <-. reflexivity. Qed.
Ltac ob H := match type of H with bind ?x _ = Ok _ => let E := fresh "E" in destruct x eqn:E; cbn [bind] in H; [|discriminate] end.
Lemma nad_shapes q0 dims u uc ind fl : shp u = shp uc -> nad_indicator N q0 dims u uc = Ok (ind, fl) ->
  shp ind = shp (interior dims uc) /\ shp fl = shp (interior dims uc).
Proof.
  intros Hs H. unfold nad_indicator in H.
  assert (SM : forall op, shp (interior dims (rank_filter N op dims u)) = shp (interior dims uc))
    by (intro; apply interior_shape; exact Hs).
  cbv zeta in H.
  repeat match type of H with context [interior dims (rank_filter N ?op dims u)] =>
    let E := fresh "SM" in let M := fresh "M" in pose proof (SM op) as E;
    generalize dependent (interior dims (rank_filter N op dims u)); intros M; intros end.
  clear SM. generalize dependent (interior dims uc). intro X. intros.
  set (s := shp X) in *. destruct (nad_range_ q0); [| |discriminate].
  - ob H. rename a into rg. assert (SR : shp rg = s \/ shp rg = mkix 1 1 1).
    { destruct (nad_mode_ q0); [| |discriminate].
      - ob E. ob E. right. eapply amap2_shape; [exact E|eapply reduce_rows_shape; eassumption|left; eapply reduce_rows_shape; eassumption].
      - left. eapply amap2_shape; [exact E|assumption|left; assumption]. }
    ob H. assert (S1 : shp a = s) by (eapply amap2_shape; [exact E0|reflexivity|left; assumption]).
    ob H. assert (S2 : shp a0 = s) by (eapply amap2_shape; [exact E1|assumption|left; reflexivity]).
    ob H. assert (S3 : shp a1 = s) by (eapply amap2_shape; [exact E2|exact S1|left; exact S2]).
    ob H. injection H as <- <-. split; [exact S3|]. eapply amap2_shape; [exact E3|exact S3|exact SR].
  - ob H. rename a into lu.
    assert (SR : (shp (fst lu) = s \/ shp (fst lu) = mkix 1 1 1) /\ (shp (snd lu) = s \/ shp (snd lu) = mkix 1 1 1)).
    { destruct (nad_mode_ q0); [| |discriminate].
      - ob E. ob E. injection E as <-. cbn [fst snd amap shp]. split; right; eapply reduce_rows_shape; eassumption.
      - injection E as <-. cbn [fst snd amap shp]. split; left; assumption. }
    destruct SR as [SL SU].
    ob H. assert (S1 : shp a = s) by (eapply amap2_shape; [exact E0|reflexivity|exact SL]).
    ob H. assert (S2 : shp a0 = s).
    { destruct SU as [SU|SU]; [eapply amap2_shape; [exact E1|exact SU|left; reflexivity]|].
      unfold amap2 in E1. destruct (bdim _ _) in E1; [|discriminate].
      rewrite SU in E1. fold s in E1. unfold bshape in E1. cbn [cx cy cz] in E1. rewrite !bdim_1l in E1.
      injection E1 as <-. cbn [shp]. unfold s. destruct (shp X); reflexivity. }
    ob H. assert (S3 : shp a1 = s) by (eapply amap2_shape; [exact E2|exact S1|left; exact S2]).
    injection H as <- <-. split; exact S3.
Qed.

Lemma pad_indicator_eq bounds (c c' : Z -> K) :
  match bounds with None => True | Some l => forall e, In e l -> c (fst e) = c' (fst e) end ->
  pad_indicator N bounds c = pad_indicator N bounds c'.
Proof.
  destruct bounds as [l|]; [|reflexivity]. intro H. unfold pad_indicator. apply fold_left_ext_in.
  intros x y Hy. rewrite H by assumption. reflexivity.
Qed.

Lemma detect_aeq q0 dims u u' uc uc' : pad_rows_ok q0 -> shp u = shp uc -> aeq 5 5 u u' -> aeq 5 5 uc uc' ->
  res_rel det_eq (detect_troubled_cells N q0 dims u uc) (detect_troubled_cells N q0 dims u' uc').
Proof.
  intros HQ Hsh H H'. unfold detect_troubled_cells.
  pose proof (nad_aeq q0 dims 5 u u' uc uc' H H') as HN.
  pose proof (fun ind fl => nad_shapes q0 dims u uc ind fl Hsh) as HSh.
  destruct (nad_indicator N q0 dims u uc) as [[ind fl0]|], (nad_indicator N q0 dims u' uc') as [[ind' fl0']|];
    try contradiction; [|exact HN].
  destruct HN as [Hi Hf]. destruct (HSh _ _ eq_refl) as [S1 S2]. clear HSh. cbn [fst snd bind] in *.
  set (SI := shp (interior dims uc)) in *.
  eapply (res_rel_bind (fun x y => aeq 5 5 x y /\ shp x = SI)).
  - destruct (sed_on q0); [|split; assumption].
    rb; [apply sed_aeq; eassumption|intros]. am.
    pose proof (assign_all_aeq 5 5 5 5 fl0 fl0' a0 b0 (fits_same 5 5) Hf ltac:(assumption)) as HA.
    destruct (assign_all fl0 a0) eqn:E1, (assign_all fl0' b0) eqn:E2; try contradiction; [|exact HA].
    split; [exact HA|]. rewrite (assign_all_shape _ _ _ E1). exact S2.
  - intros fl1 fl1' [H1 S3].
    eapply (res_rel_bind (fun x y => aeq 5 5 x y /\ shp x = SI)).
    { destruct (nad_vars q0); [|split; assumption]. destruct H1 as (R & R' & S & Nn & V). rewrite R, R'. cbn [Z.eqb orb Pos.eqb res_rel].
      split; [|exact S3].
      split; [reflexivity|]. split; [reflexivity|]. split; [assumption|]. split; [assumption|].
      intros v i Pv Hv. cbn [at_]. rewrite brow_eq, V by assumption. reflexivity. }
    intros flag flag' [HF S4]. pose proof HF as (Rf & Rf' & Sf & Nf & Vf).
    pose proof Hi as (Ri & Ri' & Si & Ni & Vi).
    pose proof (interior_aeq dims 5 5 _ _ H') as (Ru & Ru' & Su & Nu & Vu).
    cbn [res_rel]. rewrite Rf, Rf', Ri, Ri'. rewrite <- Sf, S4.
    assert (Z5 : forall v, In v (zrange 5) -> P v) by (intros v Hv; apply in_zrange in Hv; apply HP; lia).
    assert (T : forall i, in_shape SI i ->
       existsb (fun v => at_ flag v i) (zrange 5) = existsb (fun v => at_ flag' v i) (zrange 5))
      by (intros i Hin; apply existsb_ext_in; intros; apply Vf; [auto|rewrite S4; assumption]).
    assert (T2 : forall i, in_shape SI i ->
       fold_left (fun acc v => nmin acc (at_ ind v i)) (tl (zrange 5)) (at_ ind 0 i)
       = fold_left (fun acc v => nmin acc (at_ ind' v i)) (tl (zrange 5)) (at_ ind' 0 i)).
    { intros i Hin. rewrite Vi by (first [apply P0|rewrite S1; assumption]).
      apply fold_left_ext_in. intros x y Hy. rewrite Vi; [reflexivity|apply Z5; right; exact Hy|rewrite S1; assumption]. }
    assert (T3 : forall i, in_shape SI i ->
       pad_indicator N (pad_bounds q0) (fun v => at_ (interior dims uc) v i)
       = pad_indicator N (pad_bounds q0) (fun v => at_ (interior dims uc') v i)).
    { intros i Hin. apply pad_indicator_eq. unfold pad_rows_ok in HQ. destruct (pad_bounds q0); [|exact I].
      intros e He. apply Vu; [apply HP, HQ, He|exact Hin]. }
    assert (NS : forall a, 0 <= getc a SI) by exact Nu.
    split; [|split]; (split; [reflexivity|split; [reflexivity|split; [reflexivity|split; [exact NS|]]]]);
      intros v i Pv Hin; cbn [d_trouble d_nad d_pad at_ shp] in *; rewrite ?T, ?T2, ?T3 by assumption; reflexivity.
Qed.

(** ** interfaces *)
Lemma fullslice a : plain (if mem_axis a [] then s_in 3 else slice_all). Proof. reflexivity. Qed.
Lemma zeros_aeq s : (forall a, 0 <= getc a s) -> aeq 1 1 (zeros N s) (zeros N s).
Proof. intro H. split; [reflexivity|]. split; [reflexivity|]. split; [reflexivity|]. split; [exact H|reflexivity]. Qed.
Lemma face_nonneg a s : (forall b, 0 <= getc b s) -> forall b, 0 <= getc b (face_shape a s).
Proof.
  intros H b. unfold face_shape. pose proof (H a). pose proof (H b).
  destruct (axis_dec a b) as [<-|]; [rewrite getc_setc_eq; lia|rewrite getc_setc_ne by auto; lia].
Qed.
Lemma max_into_aeq a d s s' t t' : plain d -> aeq 1 1 s s' -> aeq 1 1 t t' ->
  res_rel (aeq 1 1) (max_into N a d s t) (max_into N a d s' t').
Proof.
  intros Hp H H'. unfold max_into. eapply (res_rel_bind (aeq 1 1)).
  - eapply amap2_aeq; [apply mix_same|eassumption|]. apply view_aeq; assumption.
  - intros. eapply assign_slice_aeq; [assumption|apply fits_same|assumption|assumption].
Qed.
Lemma convex_1d_aeq a t t' : aeq 1 1 t t' -> res_rel (aeq 1 1) (convex_1d N a t) (convex_1d N a t').
Proof.
  intro H. unfold convex_1d.
  do 4 (eapply (res_rel_bind (aeq 1 1)); [apply max_into_aeq; [reflexivity|solve [vw]|solve [vw]]|intros]).
  am'.
Qed.
Lemma sl2_plain a b sa sb c : plain sa -> plain sb -> plain (sl2 a b sa sb c).
Proof. intros. unfold sl2. repeat destr_if; try assumption. reflexivity. Qed.
Lemma max_into3_aeq d s s' t t' : (forall a, plain (d a)) -> aeq 1 1 s s' -> aeq 1 1 t t' ->
  res_rel (aeq 1 1) (max_into3 N d s t) (max_into3 N d s' t').
Proof.
  intros Hp H H'. unfold max_into3. eapply (res_rel_bind (aeq 1 1)).
  - eapply amap2_aeq; [apply mix_same|eassumption|]. apply view3_aeq; assumption.
  - intros. eapply assign3_aeq; [assumption|apply fits_same|assumption|assumption].
Qed.
Lemma convex_2d_aeq a b t t' : aeq 1 1 t t' ->
  res_rel (fun x y => aeq 1 1 (fst x) (fst y) /\ aeq 1 1 (snd x) (snd y)) (convex_2d N a b t) (convex_2d N a b t').
Proof.
  intro H. unfold convex_2d.
  do 12 (eapply (res_rel_bind (aeq 1 1));
    [apply max_into3_aeq; [intro; apply sl2_plain; reflexivity|apply amap_aeq, view3_aeq; [intro; apply sl2_plain; reflexivity|assumption]|assumption]|intros]).
  do 2 (eapply (res_rel_bind (aeq 1 1));
    [eapply amap2_aeq; [apply mix_same| |]; (apply view3_aeq; [intro; apply sl2_plain; reflexivity|eassumption])|intros]).
  cbn. auto.
Qed.
Lemma alloc_aeq dims per t t' : aeq 1 1 t t' -> res_rel (aeq 1 1) (alloc_trouble N dims per t) (alloc_trouble N dims per t').
Proof.
  intro H. pose proof H as (R & R' & S & Nn & V). unfold alloc_trouble. rewrite <- S.
  assert (PL : forall a b x, plain x -> plain (if axis_eqb b a then x else s_in 2)) by (intros; destr_if; [assumption|reflexivity]).
  assert (PA : forall a b x, plain x -> plain (if axis_eqb b a then x else slice_all)) by (intros; destr_if; [assumption|reflexivity]).
  eapply (res_rel_bind (aeq 1 1)).
  { eapply assign3_aeq; [|apply fits_same| |eassumption].
    - intro a. destr_if; reflexivity.
    - apply zeros_aeq. pose proof (Nn AX); pose proof (Nn AY); pose proof (Nn AZ). cbn [getc] in *.
      intros []; cbn; destr_if; lia. }
  intros.
  do 2 (eapply (res_rel_bind (aeq 1 1)); [destr_if; [|assumption];
    eapply (res_rel_bind (aeq 1 1));
      [eapply assign3_aeq; [intro; apply PL; reflexivity|apply fits_same|eassumption|apply view3_aeq; [intro; apply PA; reflexivity|eassumption]]
      |intros; eapply assign3_aeq; [intro; apply PL; reflexivity|apply fits_same|eassumption|apply view3_aeq; [intro; apply PA; reflexivity|eassumption]]]|intros]).
  destr_if; [|assumption]. eapply (res_rel_bind (aeq 1 1)).
  - eapply assign3_aeq; [intro; apply PL; reflexivity|apply fits_same|eassumption|apply view3_aeq; [intro; apply PL; reflexivity|eassumption]].
  - intros. eapply assign3_aeq; [intro; apply PL; reflexivity|apply fits_same|eassumption|apply view3_aeq; [intro; apply PL; reflexivity|eassumption]].
Qed.
Definition faces_eq q q' (f f' : axis -> arr) : Prop := forall a, aeq q q' (f a) (f' a).
Lemma set_face_eq f f' a x x' : faces_eq 1 1 f f' -> aeq 1 1 x x' -> faces_eq 1 1 (set_face N f a x) (set_face N f' a x').
Proof. intros H H' c. unfold set_face. destr_if; auto. Qed.
Lemma simple_broadcast_aeq a t t' : aeq 1 1 t t' -> res_rel (aeq 1 1) (simple_broadcast N a t) (simple_broadcast N a t').
Proof.
  intro H. pose proof H as (R & R' & S & Nn & V). unfold simple_broadcast. rewrite <- S.
  eapply (res_rel_bind (aeq 1 1)).
  - eapply assign_slice_aeq; [reflexivity|apply fits_same|apply zeros_aeq, face_nonneg, Nn|assumption].
  - intros. am'. eapply assign_slice_aeq; [reflexivity|apply fits_same|assumption|assumption].
Qed.
Lemma broadcast_aeq t t' dims convex per : aeq 1 1 t t' ->
  res_rel (faces_eq 1 1) (broadcast_to_troubled_interfaces N t dims convex per)
                         (broadcast_to_troubled_interfaces N t' dims convex per).
Proof.
  intro H. unfold broadcast_to_troubled_interfaces.
  pose proof (amap_aeq (b2k N) 1 1 t t' H) as HB. pose proof HB as (R & R' & S & Nn & V).
  revert HB R R' S Nn V. generalize (amap (b2k N) t) (amap (b2k N) t'). intros tr tr' HB R R' S Nn V.
  rewrite <- S.
  assert (HZ : faces_eq 1 1 (fun a => zeros N (face_shape a (shp tr))) (fun a => zeros N (face_shape a (shp tr))))
    by (intro a; apply zeros_aeq, face_nonneg, Nn).
  destruct convex.
  - eapply (res_rel_bind (aeq 1 1)); [apply alloc_aeq; assumption|]. intros al al' HA.
    destruct dims as [|d1 [|d2 [|d3 [|]]]]; try exact HZ; [| |reflexivity].
    + eapply (res_rel_bind (aeq 1 1)); [apply convex_1d_aeq; assumption|]. intros.
      eapply (res_rel_bind (aeq 1 1)); [eapply assign_all_aeq; [apply fits_same|apply HZ|eassumption]|]. intros.
      cbn [res_rel]. apply set_face_eq; assumption.
    + rb; [apply convex_2d_aeq; eassumption|]. intros x y [Hx Hy].
      eapply (res_rel_bind (aeq 1 1)); [eapply assign_all_aeq; [apply fits_same|apply HZ|eassumption]|]. intros.
      eapply (res_rel_bind (aeq 1 1)); [eapply assign_all_aeq; [apply fits_same|apply HZ|eassumption]|]. intros.
      cbn [res_rel]. apply set_face_eq; [|assumption]. apply set_face_eq; assumption.
  - generalize (filter (fun a => mem_axis a dims) [AX; AY; AZ]). intro l.
    assert (HO : res_rel (faces_eq 1 1) (Ok (fun a => zeros N (face_shape a (shp tr)))) (Ok (fun a => zeros N (face_shape a (shp tr))))) by exact HZ.
    revert HO. generalize (Ok (fun a => zeros N (face_shape a (shp tr)))) at 1 3.
    generalize (Ok (fun a => zeros N (face_shape a (shp tr)))).
    induction l as [|a l IH]; intros x y HO; cbn [fold_left]; [exact HO|]. apply IH.
    rb; [exact HO|]. intros. eapply (res_rel_bind (aeq 1 1)); [apply simple_broadcast_aeq; assumption|].
    intros. cbn [res_rel]. apply set_face_eq; assumption.
Qed.
Lemma blend_aeq th th' F F' G G' : aeq 1 1 th th' -> aeq r r' F F' -> aeq r r' G G' ->
  res_rel (aeq r r') (blend N th F G) (blend N th' F' G').
Proof.
  intros H1 H2 H3. unfold blend.
  do 3 (eapply (res_rel_bind (aeq r r')); [eapply amap2_aeq; [|eassumption|eassumption]; grow|intros]).
  eapply assign_all_aeq; [apply fits_same|assumption|assumption].
Qed.
End WithN.
End Par.
