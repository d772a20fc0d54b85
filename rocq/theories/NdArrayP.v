(** Facts about slices, views, broadcasting and stencil sweeps. *)
From Coq Require Import ZArith List Bool Lia.
From Verif Require Import Err Num PySlice NdArray.
Import ListNotations.
Open Scope Z_scope.

Ltac destr_if :=
  match goal with
  | |- context [if ?b then _ else _] =>
      lazymatch b with
      | context [if _ then _ else _] => fail
      | _ => let E := fresh "E" in destruct b eqn:E
      end
  end.
Ltac zb :=
  repeat match goal with
  | H : (_ <? _) = true |- _ => apply Z.ltb_lt in H
  | H : (_ <? _) = false |- _ => apply Z.ltb_ge in H
  | H : (_ <=? _) = true |- _ => apply Z.leb_le in H
  | H : (_ <=? _) = false |- _ => apply Z.leb_gt in H
  | H : (_ =? _) = true |- _ => apply Z.eqb_eq in H
  | H : (_ =? _) = false |- _ => apply Z.eqb_neq in H
  | H : (_ && _)%bool = true |- _ => apply andb_prop in H; destruct H
  | H : (_ && _)%bool = false |- _ => apply andb_false_iff in H
  | H : (_ || _)%bool = false |- _ => apply orb_false_iff in H; destruct H
  | H : (_ || _)%bool = true |- _ => apply orb_prop in H
  | H : negb _ = true |- _ => apply negb_true_iff in H
  | H : negb _ = false |- _ => apply negb_false_iff in H
  end.

(** ** coordinates *)
Lemma getc_setc_eq a z i : getc a (setc a z i) = z.
Proof. destruct a; reflexivity. Qed.
Lemma getc_setc_ne a b z i : a <> b -> getc b (setc a z i) = getc b i.
Proof. destruct a, b; intros; try reflexivity; congruence. Qed.
Lemma setc_getc a i : setc a (getc a i) i = i.
Proof. destruct a, i; reflexivity. Qed.
Lemma setc_setc a x y i : setc a x (setc a y i) = setc a x i.
Proof. destruct a; reflexivity. Qed.
Lemma setc_comm a b x y i : a <> b -> setc a x (setc b y i) = setc b y (setc a x i).
Proof. destruct a, b; intros; try reflexivity; congruence. Qed.
Lemma axis_eqb_eq a b : axis_eqb a b = true <-> a = b.
Proof. destruct a, b; simpl; split; congruence. Qed.
Lemma axis_eqb_neq a b : axis_eqb a b = false <-> a <> b.
Proof. destruct a, b; simpl; split; congruence. Qed.
Lemma axis_eqb_refl a : axis_eqb a a = true.
Proof. destruct a; reflexivity. Qed.
Lemma axis_dec (a b : axis) : {a = b} + {a <> b}.
Proof. decide equality. Defined.
Lemma ix_ext i j : (forall a, getc a i = getc a j) -> i = j.
Proof.
  intro H. pose proof (H AX). pose proof (H AY). pose proof (H AZ). simpl in *.
  destruct i, j; simpl in *; congruence.
Qed.
Lemma ix_eqb_eq i j : ix_eqb i j = true <-> i = j.
Proof.
  unfold ix_eqb. destruct i, j; simpl. rewrite !andb_true_iff, !Z.eqb_eq. split.
  - intros [[-> ->] ->]; reflexivity.
  - intro H; injection H as -> -> ->; auto.
Qed.

(** ** arrays given by rows, shape and an element formula valid at all indices *)
Definition is_arr {A} (c : arr A) (r : Z) (s : ix) (f : Z -> ix -> A) : Prop :=
  rows c = r /\ shp c = s /\ forall v i, at_ c v i = f v i.
Definition res_is {A} (x : res (arr A)) r s f : Prop := exists c, x = Ok c /\ is_arr c r s f.

Lemma is_arr_ext {A} (c : arr A) r s f g :
  is_arr c r s f -> (forall v i, f v i = g v i) -> is_arr c r s g.
Proof. intros (H1 & H2 & H3) E. repeat split; auto. intros; rewrite H3; auto. Qed.
Lemma res_is_ext {A} (x : res (arr A)) r s f g :
  res_is x r s f -> (forall v i, f v i = g v i) -> res_is x r s g.
Proof. intros (c & H & H1) E. exists c; split; auto. eapply is_arr_ext; eauto. Qed.
Lemma res_is_bind {A B} (x : res (arr A)) (k : arr A -> res B) r s f (Q : res B -> Prop) :
  res_is x r s f -> (forall c, is_arr c r s f -> Q (k c)) -> Q (bind x k).
Proof. intros (c & -> & Hc) H. simpl. auto. Qed.

(** ** slices *)
Ltac slice_tac :=
  unfold slice_adjust, cut, cut_step, or_none, s_tail, s_init, s_in, slice_all;
  cbn [sl_start sl_stop sl_step];
  repeat (destr_if; cbn [sl_start sl_stop sl_step]); zb; try lia;
  rewrite ?Z.div_1_r; f_equal; try lia.

Lemma sl_win n k i :
  1 <= k -> 0 <= i < k -> k - 1 <= n ->
  slice_adjust n (cut i (- (k - 1) + i)) = mkext i (n - k + 1) 1.
Proof. intros. slice_tac. Qed.
Lemma sl_lo n st : 0 < st <= n -> slice_adjust n (cut 0 st) = mkext 0 st 1.
Proof. intros. slice_tac. Qed.
Lemma sl_hi n st : 0 < st <= n -> slice_adjust n (cut (- st) 0) = mkext (n - st) st 1.
Proof. intros. slice_tac. Qed.
Lemma sl_mid n a b : 0 < a < b -> b <= n -> slice_adjust n (cut a b) = mkext a (b - a) 1.
Proof. intros. slice_tac. Qed.
Lemma sl_midneg n a b :
  0 < b < a -> a <= n -> slice_adjust n (cut (- a) (- b)) = mkext (n - a) (a - b) 1.
Proof. intros. slice_tac. Qed.
Lemma sl_sym n e : 0 <= e -> 2 * e <= n -> slice_adjust n (cut e (- e)) = mkext e (n - 2 * e) 1.
Proof. intros. slice_tac. Qed.
Lemma sl_all n : 0 <= n -> slice_adjust n (cut 0 0) = mkext 0 n 1.
Proof. intros. slice_tac. Qed.
Lemma sl_slice_all n : 0 <= n -> slice_adjust n slice_all = mkext 0 n 1.
Proof. intros. slice_tac. Qed.
Lemma sl_tail n : 1 <= n -> slice_adjust n s_tail = mkext 1 (n - 1) 1.
Proof. intros. slice_tac. Qed.
Lemma sl_init n : 1 <= n -> slice_adjust n s_init = mkext 0 (n - 1) 1.
Proof. intros. slice_tac. Qed.
Lemma sl_in n k : 0 < k -> 2 * k <= n -> slice_adjust n (s_in k) = mkext k (n - 2 * k) 1.
Proof. intros. slice_tac. Qed.
Lemma sl_flip n : 0 <= n -> slice_adjust n (cut_step 0 0 (-1)) = mkext (n - 1) n (-1).
Proof.
  intros. slice_tac.
Qed.

(** ** views *)
Lemma view_is {A} a s (u : arr A) st ln :
  slice_adjust (getc a (shp u)) s = mkext st ln 1 ->
  is_arr (view a s u) (rows u) (setc a ln (shp u))
         (fun v i => at_ u v (setc a (st + getc a i) i)).
Proof.
  intro E. unfold view. rewrite E. repeat split. intros v i.
  cbn [at_ ex_start ex_step]. rewrite Z.mul_1_l. reflexivity.
Qed.

(** ** broadcasting with equal shapes *)
Lemma bdim_eq n : bdim n n = Some n.
Proof. unfold bdim. rewrite Z.eqb_refl. reflexivity. Qed.
Lemma bshape_eq s : bshape s s = Some s.
Proof. unfold bshape. rewrite !bdim_eq. destruct s; reflexivity. Qed.
Lemma bix_eq s i : bix s s i = i.
Proof. unfold bix. rewrite !Z.eqb_refl. destruct i; reflexivity. Qed.
Lemma brow_eq r v : brow r r v = v.
Proof. unfold brow. rewrite Z.eqb_refl. reflexivity. Qed.
Lemma bcast_ok_eq r s : bcast_ok r r s s = true.
Proof. unfold bcast_ok. rewrite !Z.eqb_refl. reflexivity. Qed.

Lemma amap2_is {A B C} (f : A -> B -> C) a b r s g h :
  is_arr a r s g -> is_arr b r s h ->
  res_is (amap2 f a b) r s (fun v i => f (g v i) (h v i)).
Proof.
  intros (Ra & Sa & Ga) (Rb & Sb & Gb). unfold amap2.
  rewrite Ra, Rb, Sa, Sb, bdim_eq, bshape_eq. eexists; split; [reflexivity|].
  repeat split. intros; simpl. rewrite !brow_eq, !bix_eq, Ga, Gb. reflexivity.
Qed.
Lemma amap_is {A B} (f : A -> B) a r s g :
  is_arr a r s g -> is_arr (amap f a) r s (fun v i => f (g v i)).
Proof. intros (Ra & Sa & Ga). repeat split; auto. intros; simpl. rewrite Ga; reflexivity. Qed.
Lemma assign_all_is {A} (d x : arr A) r s g :
  rows d = r -> shp d = s -> is_arr x r s g -> res_is (assign_all d x) r s g.
Proof.
  intros Rd Sd (Rx & Sx & Gx). unfold assign_all. rewrite Rd, Sd, Rx, Sx, bcast_ok_eq.
  eexists; split; [reflexivity|]. repeat split. intros; simpl.
  rewrite brow_eq, bix_eq; auto.
Qed.
Lemma assign_slice_is {A} a s (d x : arr A) st ln g :
  slice_adjust (getc a (shp d)) s = mkext st ln 1 ->
  is_arr x (rows d) (setc a ln (shp d)) g ->
  res_is (assign_slice a s d x) (rows d) (shp d)
    (fun v i => if (st <=? getc a i) && (getc a i <? st + ln)
                then g v (setc a (getc a i - st) i) else at_ d v i).
Proof.
  intros E (Rx & Sx & Gx). unfold assign_slice. rewrite E. simpl.
  rewrite Rx, Sx, bcast_ok_eq. eexists; split; [reflexivity|]. repeat split.
  intros; simpl. rewrite brow_eq, bix_eq, Gx. reflexivity.
Qed.
(** a one-cell-thick source is repeated along the axis *)
Lemma assign_slice_bcast {A} a s (d x : arr A) st ln g :
  slice_adjust (getc a (shp d)) s = mkext st ln 1 -> 1 <= ln ->
  is_arr x (rows d) (setc a 1 (shp d)) g ->
  res_is (assign_slice a s d x) (rows d) (shp d)
    (fun v i => if (st <=? getc a i) && (getc a i <? st + ln)
                then g v (setc a (if ln =? 1 then getc a i - st else 0) i) else at_ d v i).
Proof.
  intros E L (Rx & Sx & Gx). unfold assign_slice. rewrite E. simpl.
  rewrite Rx, Sx.
  assert (B : bcast_ok (rows d) (rows d) (setc a 1 (shp d)) (setc a ln (shp d)) = true).
  { unfold bcast_ok. destruct a; simpl; rewrite !Z.eqb_refl; rewrite ?orb_true_r; reflexivity. }
  rewrite B. eexists; split; [reflexivity|]. repeat split.
  intros v i. cbn [at_]. rewrite brow_eq, Gx. destr_if; auto. f_equal.
  unfold bix. destruct a; cbn [setc getc cx cy cz]; rewrite ?Z.eqb_refl, ?(Z.eqb_sym 1 ln);
    destruct (ln =? 1); reflexivity.
Qed.

(** ** indices *)
Lemma in_zrange n z : In z (zrange n) <-> 0 <= z < n.
Proof.
  unfold zrange. rewrite in_map_iff. split.
  - intros (k & <- & H). apply in_seq in H. lia.
  - intro H. exists (Z.to_nat z). rewrite in_seq. lia.
Qed.
Lemma in_ix_list s i : In i (ix_list s) <-> in_shape s i.
Proof.
  unfold ix_list, in_shape. rewrite in_flat_map. split.
  - intros (x & Hx & H). apply in_flat_map in H. destruct H as (y & Hy & H).
    apply in_map_iff in H. destruct H as (z & <- & Hz).
    apply in_zrange in Hx, Hy, Hz. intros [| |]; simpl; auto.
  - intro H. exists (cx i). split; [apply in_zrange; apply (H AX)|].
    apply in_flat_map. exists (cy i). split; [apply in_zrange; apply (H AY)|].
    apply in_map_iff. exists (cz i). split; [destruct i; reflexivity|].
    apply in_zrange, (H AZ).
Qed.

(** ** weighted sums over consecutive cells *)
Section W.
Context (N : Num).
Local Notation K := (car N).
(** acc + w_0 g(j) + w_1 g(j+1) + ..., added from the left *)
Fixpoint wsum_from (ws : list K) (j : Z) (g : Z -> K) (acc : K) : K :=
  match ws with
  | [] => acc
  | w :: ws' => wsum_from ws' (j + 1) g (nadd acc (nmul w (g j)))
  end.
Definition wsum (ws : list K) (g : Z -> K) : K := wsum_from ws 0 g (nofZ 0).

Lemma wsum_from_ext ws : forall j g g' acc,
  (forall k, j <= k < j + Z.of_nat (length ws) -> g k = g' k) ->
  wsum_from ws j g acc = wsum_from ws j g' acc.
Proof.
  induction ws as [|w ws IH]; intros j g g' acc H; simpl; auto.
  rewrite H by (simpl; lia). apply IH. intros k Hk. apply H. simpl; lia.
Qed.
Lemma wsum_ext ws g g' :
  (forall k, 0 <= k < Z.of_nat (length ws) -> g k = g' k) -> wsum ws g = wsum ws g'.
Proof. intro H. apply wsum_from_ext. intros; apply H; lia. Qed.
Lemma wsum_from_shift ws : forall j d g acc,
  wsum_from ws (j + d) g acc = wsum_from ws j (fun k => g (k + d)) acc.
Proof.
  induction ws as [|w ws IH]; intros; simpl; auto.
  rewrite <- IH. f_equal; lia.
Qed.
End W.
