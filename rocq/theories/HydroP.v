(** Facts about hydro.py over the reals. *)
From Coq Require Import ZArith List Bool Lia Reals Lra Psatz.
From Verif Require Import Err Num NdArray NdArrayP HydroM.
Import ListNotations.
Open Scope Z_scope.

(** unfold the real operations *)
Ltac rn := cbn [car nofZ nadd nsub nmul ndiv nopp nabs nsqrt nmin nmax nltb nleb neqb RNum] in *.

Lemma Rltb_true x y : Rltb x y = true <-> (x < y)%R.
Proof. unfold Rltb. destruct (Rlt_dec x y); split; auto; discriminate. Qed.
Lemma Rltb_false x y : Rltb x y = false <-> (y <= x)%R.
Proof. unfold Rltb. destruct (Rlt_dec x y); split; intros; auto; try discriminate; lra. Qed.
Lemma Rleb_true x y : Rleb x y = true <-> (x <= y)%R.
Proof. unfold Rleb. destruct (Rle_dec x y); split; auto; discriminate. Qed.
Lemma Rleb_false x y : Rleb x y = false <-> (y < x)%R.
Proof. unfold Rleb. destruct (Rle_dec x y); split; intros; auto; try discriminate; lra. Qed.
Lemma Reqb_true x y : Reqb x y = true <-> x = y.
Proof. unfold Reqb. destruct (Req_EM_T x y); split; auto; discriminate. Qed.
Lemma Reqb_false x y : Reqb x y = false <-> x <> y.
Proof. unfold Reqb. destruct (Req_EM_T x y); split; auto; try discriminate; congruence. Qed.
Ltac rb :=
  repeat match goal with
  | H : Rltb _ _ = true |- _ => apply Rltb_true in H
  | H : Rltb _ _ = false |- _ => apply Rltb_false in H
  | H : Rleb _ _ = true |- _ => apply Rleb_true in H
  | H : Rleb _ _ = false |- _ => apply Rleb_false in H
  | H : Reqb _ _ = true |- _ => apply Reqb_true in H
  | H : Reqb _ _ = false |- _ => apply Reqb_false in H
  end.

Lemma nhalf_R : @nhalf RNum = (1/2)%R.
Proof. reflexivity. Qed.

(** rows: density, one of the three vector rows, energy, or a passive scalar *)
Lemma is_vel_cases r : is_vel r = true -> r = 1 \/ r = 2 \/ r = 3.
Proof. unfold is_vel. intro H. zb. lia. Qed.
Lemma vrow_inj a b : vrow a = vrow b -> a = b.
Proof. destruct a, b; simpl; congruence. Qed.
Lemma is_vel_vrow d : is_vel (vrow d) = true.
Proof. destruct d; reflexivity. Qed.

Section RT.
Local Open Scope R_scope.

Lemma prim_of_cons gamma (w : Z -> R) r :
  gamma <> 1 -> w 0%Z <> 0 ->
  compute_primitives RNum gamma (compute_conservatives RNum gamma w) r = w r.
Proof.
  intros Hg Hr.
  assert (gamma - 1 <> 0) by lra.
  unfold compute_primitives, compute_conservatives, sum3, rRho, rE.
  destruct (r =? 0)%Z eqn:E0; [zb; subst; reflexivity|].
  destruct (is_vel r) eqn:Ev.
  { destruct (is_vel_cases r Ev) as [->|[->| ->]]; cbn; field; auto. }
  destruct (r =? 4)%Z eqn:E4.
  { zb; subst. cbn. field. auto. }
  cbn. field. auto.
Qed.

Lemma cons_of_prim gamma (u : Z -> R) r :
  gamma <> 1 -> u 0%Z <> 0 ->
  compute_conservatives RNum gamma (compute_primitives RNum gamma u) r = u r.
Proof.
  intros Hg Hr.
  assert (gamma - 1 <> 0) by lra.
  unfold compute_primitives, compute_conservatives, sum3, rRho, rE.
  destruct (r =? 0)%Z eqn:E0; [zb; subst; reflexivity|].
  destruct (is_vel r) eqn:Ev.
  { destruct (is_vel_cases r Ev) as [->|[->| ->]]; cbn; field; auto. }
  destruct (r =? 4)%Z eqn:E4.
  { zb; subst. cbn. field. auto. }
  cbn. field. auto.
Qed.

(** ** sound speed *)
Lemma sound_speed_sq gamma fl (w : Z -> R) :
  let c := compute_sound_speed RNum gamma fl w in
  0 < fl -> 0 < c /\ fl <= c * c /\ gamma * w 4%Z / w 0%Z <= c * c.
Proof.
  intros c Hf. unfold c, compute_sound_speed, rE, rRho. rn.
  set (q := gamma * w 4%Z / w 0%Z).
  destruct (Rltb fl q) eqn:E; rb.
  - assert (0 < q) by lra. repeat split.
    + apply sqrt_lt_R0; lra.
    + rewrite sqrt_sqrt by lra. lra.
    + rewrite sqrt_sqrt by lra. lra.
  - repeat split.
    + apply sqrt_lt_R0; lra.
    + rewrite sqrt_sqrt by lra. lra.
    + rewrite sqrt_sqrt by lra. lra.
Qed.

Lemma sound_speed_pos gamma fl w : 0 < fl -> 0 < compute_sound_speed RNum gamma fl w.
Proof. intro H. apply (sound_speed_sq gamma fl w H). Qed.

Lemma sound_speed_exact gamma fl (w : Z -> R) :
  fl < gamma * w 4%Z / w 0%Z ->
  compute_sound_speed RNum gamma fl w = sqrt (gamma * w 4%Z / w 0%Z).
Proof.
  intro H. unfold compute_sound_speed, rE, rRho. rn.
  apply Rltb_true in H. rewrite H. reflexivity.
Qed.

(** ** maximum over all cells *)
Lemma fold_max_ge (l : list ix) (f : ix -> R) acc :
  acc <= fold_left (fun a j => Rmax a (f j)) l acc /\
  forall i, In i l -> f i <= fold_left (fun a j => Rmax a (f j)) l acc.
Proof.
  revert acc. induction l as [|x l IH]; intro acc; simpl.
  - split; [lra|tauto].
  - destruct (IH (Rmax acc (f x))) as [H1 H2]. split.
    + eapply Rle_trans; [apply Rmax_l|exact H1].
    + intros i [->|Hi]; auto. eapply Rle_trans; [apply Rmax_r|exact H1].
Qed.
Lemma fold_max_in (l : list ix) (f : ix -> R) acc :
  fold_left (fun a j => Rmax a (f j)) l acc = acc \/
  exists i, In i l /\ fold_left (fun a j => Rmax a (f j)) l acc = f i.
Proof.
  revert acc. induction l as [|x l IH]; intro acc; simpl; auto.
  destruct (IH (Rmax acc (f x))) as [H|(i & Hi & H)].
  - rewrite H. unfold Rmax. destruct (Rle_dec acc (f x)); eauto.
  - right. exists i. auto.
Qed.

Lemma reduce_max (s : ix) (f : ix -> R) m :
  reduce_cells Rmax s f = Ok m ->
  (forall i, in_shape s i -> f i <= m) /\ exists i, in_shape s i /\ f i = m.
Proof.
  unfold reduce_cells. destruct (ix_list s) as [|i0 l] eqn:E; [discriminate|].
  intro H; injection H as <-.
  assert (M : forall i, in_shape s i <-> In i (i0 :: l)) by (intro; rewrite <- E; symmetry; apply in_ix_list).
  split.
  - intros i Hi. apply M in Hi. destruct (fold_max_ge l f (f i0)) as [H1 H2].
    destruct Hi as [->|Hi]; auto.
  - destruct (fold_max_in l f (f i0)) as [H|(i & Hi & H)].
    + exists i0. split; [apply M; left; auto|auto].
    + exists i. split; [apply M; right; auto|auto].
Qed.

Lemma reduce_cells_ok {A} (op : A -> A -> A) s f :
  (forall a, (1 <= getc a s)%Z) -> exists m, reduce_cells op s f = Ok m.
Proof.
  intro H. unfold reduce_cells.
  destruct (ix_list s) as [|i0 l] eqn:E; eauto.
  exfalso. assert (In (mkix 0 0 0) (ix_list s)).
  { apply in_ix_list. intro a. specialize (H a). destruct a; simpl in *; lia. }
  rewrite E in H0. destruct H0.
Qed.

(** ** time step *)
Lemma cell_speed_bound nd gamma fl (w : Z -> R) :
  (1 <= nd)%Z -> 0 < fl ->
  let c := compute_sound_speed RNum gamma fl w in
  0 < cell_speed RNum nd gamma fl w /\
  cell_speed RNum nd gamma fl w = Rabs (w 1%Z) + Rabs (w 2%Z) + Rabs (w 3%Z) + IZR nd * c /\
  forall d, Rabs (w (vrow d)) + c <= cell_speed RNum nd gamma fl w.
Proof.
  intros Hn Hf c. pose proof (sound_speed_pos gamma fl w Hf) as Hc. fold c in Hc.
  assert (Hn' : 1 <= IZR nd) by (apply IZR_le; auto).
  assert (Hcn : c <= IZR nd * c) by nra.
  unfold cell_speed, sum3. rn. fold c.
  pose proof (Rabs_pos (w 1%Z)). pose proof (Rabs_pos (w 2%Z)). pose proof (Rabs_pos (w 3%Z)).
  split; [lra|]. split; [reflexivity|]. intros [| |]; simpl; lra.
Qed.

Lemma hydro_dt_spec (w : arr R) h nd CFL gamma fl dt :
  (1 <= nd)%Z -> 0 < fl -> 0 < h -> 0 < CFL ->
  hydro_dt RNum w h nd CFL gamma fl = Ok dt ->
  0 < dt /\
  (forall i, in_shape (shp w) i ->
     dt * cell_speed RNum nd gamma fl (fun r => at_ w r i) <= CFL * h) /\
  (exists i, in_shape (shp w) i /\
     dt * cell_speed RNum nd gamma fl (fun r => at_ w r i) = CFL * h).
Proof.
  intros Hn Hf Hh HC H. unfold hydro_dt in H.
  destruct (reduce_cells _ _ _) as [m|] eqn:E; [|discriminate].
  simpl in H. injection H as <-.
  destruct (reduce_max _ _ _ E) as (M1 & i & Hi & M2).
  assert (Hm : 0 < m).
  { rewrite <- M2. apply (cell_speed_bound nd gamma fl (fun r => at_ w r i) Hn Hf). }
  assert (D : 0 < CFL * h / m).
  { apply Rdiv_lt_0_compat; auto. nra. }
  assert (Em : CFL * h / m * m = CFL * h) by (field; lra).
  split; [exact D|]. split.
  - intros j Hj. eapply Rle_trans; [|apply Req_le, Em].
    apply Rmult_le_compat_l; [lra|]. apply M1. auto.
  - exists i. split; auto. etransitivity; [|exact Em]. f_equal. exact M2.
Qed.
End RT.

(** ** advection_dt *)
Theorem advection_dt_full : forall h vx vy vz CFL, (0 < h -> 0 < CFL -> 0 <= vx -> 0 <= vy -> 0 <= vz -> 0 < vx + vy + vz ->
  exists dt, advection_dt RNum h vx vy vz CFL = Ok dt /\ 0 < dt /\ dt * (vx + vy + vz) / h = CFL /\
    dt * vx / h <= CFL /\ dt * vy / h <= CFL /\ dt * vz / h <= CFL)%R.
Proof.
  intros h vx vy vz CFL Hh HC Hx Hy Hz HS. unfold advection_dt. cbv zeta. cbn [neqb nadd nofZ RNum].
  destruct (Reqb (vx + vy + vz) 0)%R eqn:E; [apply Reqb_true in E; lra|]. cbn [ndiv nmul RNum].
  exists (CFL * h / (vx + vy + vz))%R. split; [reflexivity|].
  assert (P : (0 < CFL * h / (vx + vy + vz))%R) by (apply Rdiv_lt_0_compat; [apply Rmult_lt_0_compat; assumption|assumption]).
  assert (Q : (CFL * h / (vx + vy + vz) * (vx + vy + vz) / h = CFL)%R) by (field; lra).
  assert (M : forall v, (v <= vx + vy + vz -> CFL * h / (vx + vy + vz) * v / h <= CFL)%R).
  { intros v Hv. rewrite <- Q at 2. unfold Rdiv at 1 3. apply Rmult_le_compat_r; [apply Rlt_le, Rinv_0_lt_compat, Hh|]. apply Rmult_le_compat_l; lra. }
  split; [exact P|]. split; [exact Q|]. repeat split; apply M; lra.
Qed.
Lemma advection_default : forall h CFL, advection_dt RNum h 0%R 0%R 0%R CFL = Err ZeroDivisionError.
Proof. intros h CFL. unfold advection_dt. cbv zeta. cbn [neqb nadd nofZ RNum]. destruct (Reqb (0 + 0 + 0) 0)%R eqn:E; [reflexivity|]. apply Reqb_false in E. lra. Qed.
Lemma advection_signed : forall h CFL, (0 < h -> 0 < CFL -> exists dt, advection_dt RNum h 2 (-1) 0 CFL = Ok dt /\ dt * Rabs 2 / h = 2 * CFL)%R.
Proof.
  intros h CFL Hh HC. unfold advection_dt. cbv zeta. cbn [neqb nadd nofZ RNum]. destruct (Reqb (2 + -1 + 0) 0)%R eqn:E; [apply Reqb_true in E; lra|].
  cbn [ndiv nmul RNum]. eexists. split; [reflexivity|]. rewrite Rabs_right by lra. field. lra.
Qed.
