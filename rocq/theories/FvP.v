(** Closed forms of stencil sweeps and of the interpolation pipelines. *)
From Coq Require Import ZArith List Bool Lia.
From Verif Require Import Err Num PySlice NdArray NdArrayP HydroM StencilsM FvM.
Import ListNotations.
Open Scope Z_scope.

Section FvP.
Context (N : Num).
Local Notation K := (car N).

(** sweep of a total field: what [stencil_sweep] computes, without shapes *)
Definition psweep (a : axis) (ws : list K) (f : Z -> ix -> K) : Z -> ix -> K :=
  fun v i => wsum N ws (fun j => f v (setc a (getc a i + j) i)).

Lemma acc_add_is out x r s g h :
  is_arr out r s g -> is_arr x r s h ->
  res_is (acc_add N out x) r s (fun v i => nadd (g v i) (h v i)).
Proof.
  intros (Ro & So & Go) (Rx & Sx & Hx). unfold acc_add. rewrite Ro, So, Rx, Sx, bcast_ok_eq.
  eexists; split; [reflexivity|]. repeat split. intros; simpl.
  rewrite brow_eq, bix_eq, Go, Hx. reflexivity.
Qed.

Lemma sweep_loop_is a u k : 1 <= k -> k - 1 <= getc a (shp u) ->
  forall ws j out g,
  Z.of_nat j + Z.of_nat (length ws) <= k ->
  is_arr out (rows u) (setc a (getc a (shp u) - k + 1) (shp u)) g ->
  res_is (sweep_loop N a u
            (combine ws (map (fun i => cut i (- (k - 1) + i)) (map Z.of_nat (seq j (length ws)))))
            out)
    (rows u) (setc a (getc a (shp u) - k + 1) (shp u))
    (fun v i => wsum_from N ws (Z.of_nat j)
                  (fun d => at_ u v (setc a (getc a i + d) i)) (g v i)).
Proof.
  intros Hk Hn ws. induction ws as [|w ws IH]; intros j out g Hj Ho.
  - simpl. exists out. split; auto.
  - cbn [length seq map combine sweep_loop].
    assert (V : is_arr (amap (fun x => nmul w x) (view a (cut (Z.of_nat j) (- (k - 1) + Z.of_nat j)) u))
                  (rows u) (setc a (getc a (shp u) - k + 1) (shp u))
                  (fun v i => nmul w (at_ u v (setc a (Z.of_nat j + getc a i) i)))).
    { apply amap_is. apply view_is. apply sl_win; try lia. simpl length in Hj. lia. }
    destruct (acc_add_is _ _ _ _ _ _ Ho V) as (o1 & -> & H1). simpl bind.
    destruct (IH (S j) o1 _ ltac:(simpl length in Hj; lia) H1) as (o2 & -> & H2).
    exists o2; split; auto. eapply is_arr_ext; [exact H2|].
    intros v i. cbn [wsum_from]. replace (Z.of_nat (S j)) with (Z.of_nat j + 1) by lia.
    rewrite (Z.add_comm (Z.of_nat j) (getc a i)). reflexivity.
Qed.

Lemma weighted_sweep_is a ws (u : arr K) :
  ws <> [] -> Z.of_nat (length ws) - 1 <= getc a (shp u) ->
  res_is (weighted_sweep N a ws u) (rows u)
    (setc a (getc a (shp u) - Z.of_nat (length ws) + 1) (shp u))
    (psweep a ws (at_ u)).
Proof.
  intros Hw Hn. unfold weighted_sweep, get_symmetric_slices.
  assert (L : 1 <= Z.of_nat (length ws)) by (destruct ws; [congruence|simpl length; lia]).
  destruct (Z.of_nat (length ws) <? 1) eqn:E; zb; [lia|].
  unfold bind at 1. unfold zrange. rewrite Nat2Z.id.
  destruct ws as [|w0 ws0] eqn:Ews; [congruence|]. rewrite <- Ews in *.
  set (k := Z.of_nat (length ws)) in *.
  destruct (map (fun i => cut i (- (k - 1) + i)) (map Z.of_nat (seq 0 (length ws))))
    as [|s0 sl] eqn:Es.
  { rewrite Ews in Es; discriminate. }
  assert (Hs0 : s0 = cut 0 (- (k - 1) + 0)).
  { rewrite Ews in Es. cbn [length seq map] in Es. injection Es as <- _. reflexivity. }
  rewrite <- Es. clear Es sl.
  pose proof (sweep_loop_is a u k L Hn ws 0%nat
                (mkarr (rows u) (shp (view a s0 u)) (fun _ _ => nofZ 0))
                (fun _ _ => nofZ 0) ltac:(lia)) as H.
  destruct H as (c & Hc & Hi).
  { repeat split. subst s0. unfold view. cbn [shp].
    assert (V : slice_adjust (getc a (shp u)) (cut 0 (- (k - 1) + 0)) = mkext 0 (getc a (shp u) - k + 1) 1)
      by (apply sl_win; lia).
    rewrite V. reflexivity. }
  exists c. split; [exact Hc|]. eapply is_arr_ext; [exact Hi|]. reflexivity.
Qed.

(** ** the weight tables *)
Definition deg_ok (p : Z) : Prop := 0 <= p <= 8.

Lemma deg_cases p : deg_ok p ->
  p = 0 \/ p = 1 \/ p = 2 \/ p = 3 \/ p = 4 \/ p = 5 \/ p = 6 \/ p = 7 \/ p = 8.
Proof. unfold deg_ok. lia. Qed.

Ltac deg H := destruct (deg_cases _ H) as [->|[->|[->|[->|[->|[->|[->|[->| ->]]]]]]]].

Definition lr_pos (pos : ipos) : Prop := pos = P_l \/ pos = P_c \/ pos = P_r.

(** the weights used for a valid degree and position, by definition of the table *)
Definition wts_i (p : Z) (pos : ipos) : list K :=
  match interpolation_weights N p pos with Ok l => l | Err _ => [] end.
Definition wts_t (p : Z) : list K :=
  match transverse_weights N p with Ok l => l | Err _ => [] end.

Lemma interpolation_weights_ok p pos :
  deg_ok p -> lr_pos pos ->
  interpolation_weights N p pos = Ok (wts_i p pos)
  /\ Z.of_nat (length (wts_i p pos)) = 2 * stencil_right p + 1.
Proof. intros H [->|[->| ->]]; deg H; split; reflexivity. Qed.
Lemma transverse_weights_ok p :
  deg_ok p ->
  transverse_weights N p = Ok (wts_t p)
  /\ Z.of_nat (length (wts_t p)) = 2 * stencil_right p + 1.
Proof. intros H; deg H; split; reflexivity. Qed.
Lemma interpolation_weights_bad p pos :
  ~ deg_ok p -> lr_pos pos -> interpolation_weights N p pos = Err NotImplementedError.
Proof.
  intros H [->|[->| ->]]; unfold deg_ok in H; destruct p as [|q|q]; try lia; try reflexivity;
    do 4 (destruct q as [q|q|]; try reflexivity; try lia).
Qed.
Lemma stencil_right_spec p : 0 <= p -> 2 * stencil_right p = p + p mod 2.
Proof.
  intros. unfold stencil_right.
  pose proof (Z.div_mod (- p) 2 ltac:(lia)).
  pose proof (Z.mod_pos_bound (- p) 2 ltac:(lia)).
  pose proof (Z.div_mod p 2 ltac:(lia)). pose proof (Z.mod_pos_bound p 2 ltac:(lia)). lia.
Qed.
Lemma stencil_right_nonneg p : 0 <= p -> 0 <= stencil_right p.
Proof. intros. pose proof (stencil_right_spec p H). pose proof (Z.mod_pos_bound p 2 ltac:(lia)). lia. Qed.

Lemma conservative_interpolation_is p a pos u :
  deg_ok p -> lr_pos pos -> 2 * stencil_right p <= getc a (shp u) ->
  res_is (conservative_interpolation N p a pos u) (rows u)
    (setc a (getc a (shp u) - 2 * stencil_right p) (shp u))
    (psweep a (wts_i p pos) (at_ u)).
Proof.
  intros Hp Hpos Hn. unfold conservative_interpolation.
  destruct (interpolation_weights_ok p pos Hp Hpos) as [-> L]. simpl bind.
  assert (wts_i p pos <> []) by (intro E; rewrite E in L; cbn [length Z.of_nat] in L;
    unfold deg_ok in Hp; pose proof (stencil_right_nonneg p ltac:(lia)); lia).
  pose proof (weighted_sweep_is a (wts_i p pos) u H ltac:(lia)) as W.
  rewrite L in W. replace (getc a (shp u) - (2 * stencil_right p + 1) + 1)
    with (getc a (shp u) - 2 * stencil_right p) in W by lia. exact W.
Qed.
Lemma transverse_reconstruction_is p a u :
  deg_ok p -> 2 * stencil_right p <= getc a (shp u) ->
  res_is (transverse_reconstruction N p a u) (rows u)
    (setc a (getc a (shp u) - 2 * stencil_right p) (shp u))
    (psweep a (wts_t p) (at_ u)).
Proof.
  intros Hp Hn. unfold transverse_reconstruction.
  destruct (transverse_weights_ok p Hp) as [-> L]. simpl bind.
  assert (wts_t p <> []) by (intro E; rewrite E in L; cbn [length Z.of_nat] in L;
    unfold deg_ok in Hp; pose proof (stencil_right_nonneg p ltac:(lia)); lia).
  pose proof (weighted_sweep_is a (wts_t p) u H ltac:(lia)) as W.
  rewrite L in W. replace (getc a (shp u) - (2 * stencil_right p + 1) + 1)
    with (getc a (shp u) - 2 * stencil_right p) in W by lia. exact W.
Qed.

Lemma psweep_ext a ws f g v i :
  (forall j, 0 <= j < Z.of_nat (length ws) ->
     f v (setc a (getc a i + j) i) = g v (setc a (getc a i + j) i)) ->
  psweep a ws f v i = psweep a ws g v i.
Proof. intro H. unfold psweep. apply wsum_ext. exact H. Qed.
End FvP.
