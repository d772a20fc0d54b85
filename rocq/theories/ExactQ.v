(** A whole time step is exact for polynomial densities carried by a uniform flow. *)
From Coq Require Import ZArith List Bool Reals Lra Lia.
From Coquelicot Require Import Coquelicot.
From Verif Require Import Err Num PySlice NdArray NdArrayP HydroM HydroP StencilsM FvM FvP RiemannM RiemannP
  BcM LimitM OdeM SolverM Spec SpecBc SpecSolver SpecCons SpecPoly PolyP StencilP SpecScheme SchemeP ExistP RunP RkP SpecOde OdeP OdeT ConsP SpecExact ExactP.
Import ListNotations.
Local Open Scope R_scope.

Section Along.
Context (V : axis -> R).
Definition DV (l : list mono) : list mono :=
  scaled (- V AX) (map (dmono AX) l) ++ scaled (- V AY) (map (dmono AY) l) ++ scaled (- V AZ) (map (dmono AZ) l).
Lemma mono_along k a b c x y z t :
  is_derive (fun t => k * (x - t * V AX) ^ a * (y - t * V AY) ^ b * (z - t * V AZ) ^ c) t
   (- V AX * (INR a * k * (x - t * V AX) ^ pred a * (y - t * V AY) ^ b * (z - t * V AZ) ^ c)
    + (- V AY * (INR b * k * (x - t * V AX) ^ a * (y - t * V AY) ^ pred b * (z - t * V AZ) ^ c)
    + - V AZ * (INR c * k * (x - t * V AX) ^ a * (y - t * V AY) ^ b * (z - t * V AZ) ^ pred c))).
Proof.
  auto_derive; [exact I|]. eqR. unfold Rminus.
  generalize ((x + - (t * V AX)) ^ a) ((x + - (t * V AX)) ^ pred a) ((y + - (t * V AY)) ^ b) ((y + - (t * V AY)) ^ pred b)
    ((z + - (t * V AZ)) ^ c) ((z + - (t * V AZ)) ^ pred c). intros. ring.
Qed.
Lemma along l x y z t : is_derive (fun t => carried V t (peval3 l) x y z) t (carried V t (peval3 (DV l)) x y z).
Proof.
  unfold carried, DV. rewrite !peval_app, !peval_scaled.
  induction l as [|[k [[a b] c]] l IH].
  - cbn [map peval3]. replace (- V AX * 0 + (- V AY * 0 + - V AZ * 0)) with 0 by ring. exact (is_derive_const (K := R_AbsRing) (V := R_NormedModule) 0 t).
  - cbn [map peval3]. pose proof (is_derive_plus (K := R_AbsRing) (V := R_NormedModule) _ _ _ _ _ (mono_along k a b c x y z t) IH) as D.
    cbn [tval dmono]. match type of D with is_derive _ _ ?d => match goal with |- is_derive _ _ ?e => replace e with d; [exact D|unfold plus; simpl; ring] end end.
Qed.
Lemma carried_0 f x y z : carried V 0 f x y z = f x y z.
Proof. unfold carried. rewrite !Rmult_0_l, !Rminus_0_r. reflexivity. Qed.
Lemma DV_unique l l' : (forall x y z, peval3 l x y z = peval3 l' x y z) -> forall x y z, peval3 (DV l) x y z = peval3 (DV l') x y z.
Proof.
  intros H x y z. rewrite <- (carried_0 (peval3 (DV l))), <- (carried_0 (peval3 (DV l'))).
  rewrite <- (is_derive_unique _ _ _ (along l x y z 0)), <- (is_derive_unique _ _ _ (along l' x y z 0)).
  apply Derive_ext. intro t. apply H.
Qed.
Fixpoint DVn (k : nat) (l : list mono) : list mono := match k with O => l | S k => DV (DVn k l) end.
Lemma derive_n_is k l x y z t : Derive_n (fun t => carried V t (peval3 l) x y z) k t = carried V t (peval3 (DVn k l)) x y z.
Proof.
  revert t. induction k as [|k IH]; intro t; [reflexivity|]. cbn [Derive_n DVn].
  rewrite (Derive_ext _ _ t IH). apply is_derive_unique, along.
Qed.

(** degrees *)
Lemma degree_scaled nx ny nz be l : degree3 nx ny nz l -> degree3 nx ny nz (scaled be l).
Proof. induction 1 as [|[k [[a b] c]] l H _ IH]; constructor; assumption. Qed.
Lemma degree_dmono nx ny nz a l : degree3 nx ny nz l -> degree3 nx ny nz (map (dmono a) l).
Proof. induction 1 as [|[k [[x y] z]] l H _ IH]; constructor; [|assumption]. destruct a; cbn; lia. Qed.
Lemma degree_app nx ny nz l l' : degree3 nx ny nz l -> degree3 nx ny nz l' -> degree3 nx ny nz (l ++ l').
Proof. intros. apply Forall_app. split; assumption. Qed.
Lemma degree_DV nx ny nz l : degree3 nx ny nz l -> degree3 nx ny nz (DV l).
Proof. intro H. unfold DV. repeat apply degree_app; apply degree_scaled, degree_dmono, H. Qed.
Lemma degree_DVn nx ny nz k l : degree3 nx ny nz l -> degree3 nx ny nz (DVn k l).
Proof. intro H. induction k; [exact H|]. apply degree_DV. assumption. Qed.

Definition below (m : nat) (t : mono) : Prop := fst t = 0 \/ let '(_, (a, b, c)) := t in (a + b + c < m)%nat.
Lemma below_scaled m be l : List.Forall (below m) l -> List.Forall (below m) (scaled be l).
Proof.
  induction 1 as [|[k [[a b] c]] l H _ IH]; constructor; [|assumption].
  destruct H as [H|H]; [left; cbn in *; rewrite H; ring|right; exact H].
Qed.
Lemma below_dmono m a l : List.Forall (below (S m)) l -> List.Forall (below m) (map (dmono a) l).
Proof.
  induction 1 as [|[k [[x y] z]] l H _ IH]; constructor; [|assumption].
  unfold below in *. cbn [fst] in H. destruct H as [->|H].
  - left. destruct a; cbn; ring.
  - destruct a; cbn [dmono fst].
    + destruct x; [left; cbn; ring|right; cbn; lia].
    + destruct y; [left; cbn; ring|right; cbn; lia].
    + destruct z; [left; cbn; ring|right; cbn; lia].
Qed.
Lemma below_DV m l : List.Forall (below (S m)) l -> List.Forall (below m) (DV l).
Proof. intro H. unfold DV. repeat (apply Forall_app; split); apply below_scaled, below_dmono, H. Qed.
Lemma below_0 l x y z : List.Forall (below 0) l -> peval3 l x y z = 0.
Proof.
  induction 1 as [|[k [[a b] c]] l H _ IH]; [reflexivity|]. cbn [peval3]. rewrite IH.
  destruct H as [H|H]; [cbn in *; rewrite H; ring|lia].
Qed.

(** Taylor *)
Lemma same_derivative (F G d : R -> R) : F 0 = G 0 -> (forall t, is_derive F t (d t)) -> (forall t, is_derive G t (d t)) -> forall t, F t = G t.
Proof.
  intros H HF HG.
  assert (C : forall t, (fun t => F t - G t) t = F 0 - G 0).
  { intro t. cbv beta.
    destruct (MVT_gen (fun t => F t - G t) 0 t (fun _ => 0)) as (c & _ & E).
    - intros u _. pose proof (is_derive_minus (K := R_AbsRing) (V := R_NormedModule) F G u (d u) (d u) (HF u) (HG u)) as D.
      replace 0 with (minus (d u) (d u)); [exact D|unfold minus, plus, opp; simpl; ring].
    - intros u _. apply continuity_pt_filterlim. apply (ex_derive_continuous (fun t => F t - G t)). eexists.
      exact (is_derive_minus (K := R_AbsRing) (V := R_NormedModule) F G u (d u) (d u) (HF u) (HG u)).
    - cbv beta in E. lra. }
  intro t. specialize (C t). cbv beta in C. lra.
Qed.
Lemma quartic a0 a1 a2 a3 a4 (u : R) :
  is_derive (fun t => a0 + t * a1 + t^2 / 2 * a2 + t^3 / 6 * a3 + t^4 / 24 * a4) u (a1 + u * a2 + u^2 / 2 * a3 + u^3 / 6 * a4).
Proof. auto_derive; [exact I|]. eqR. cbn. field. Qed.
Ltac quart a0 a1 a2 a3 a4 u := let D := fresh in pose proof (quartic a0 a1 a2 a3 a4 u) as D;
  match goal with |- is_derive _ _ ?e => match type of D with is_derive _ _ ?d => replace e with d by (eqR; field) end end;
  eapply is_derive_ext; [|exact D]; intro; eqR; cbn; field.
Section Taylor.
Context (x y z : R).
Local Notation v l := (peval3 l x y z).
Lemma taylor0 l t : List.Forall (below 1) l -> v l = carried V t (peval3 l) x y z.
Proof.
  intro H. apply (same_derivative (fun _ => v l) (fun t => carried V t (peval3 l) x y z) (fun _ => 0)).
  - rewrite carried_0. reflexivity.
  - intro. exact (is_derive_const (K := R_AbsRing) (V := R_NormedModule) _ _).
  - intro u. pose proof (along l x y z u) as D. unfold carried in D at 2. rewrite below_0 in D by (apply below_DV, H). exact D.
Qed.
Lemma taylor1 l t : List.Forall (below 2) l -> v l + t * v (DVn 1 l) = carried V t (peval3 l) x y z.
Proof.
  intro H. apply (same_derivative (fun t => v l + t * v (DVn 1 l)) (fun t => carried V t (peval3 l) x y z) (fun t => v (DVn 1 l))).
  - rewrite carried_0. ring.
  - intro u. quart (v l) (v (DVn 1 l)) 0 0 0 u.
  - intro u. pose proof (along l x y z u) as D. rewrite <- (taylor0 (DV l)) in D by (apply below_DV, H). exact D.
Qed.
Lemma taylor2 l t : List.Forall (below 3) l -> v l + t * v (DVn 1 l) + t^2 / 2 * v (DVn 2 l) = carried V t (peval3 l) x y z.
Proof.
  intro H. apply (same_derivative (fun t => v l + t * v (DVn 1 l) + t^2 / 2 * v (DVn 2 l)) (fun t => carried V t (peval3 l) x y z)
    (fun t => v (DVn 1 l) + t * v (DVn 2 l))).
  - rewrite carried_0. cbn [pow]. lra.
  - intro u. quart (v l) (v (DVn 1 l)) (v (DVn 2 l)) 0 0 u.
  - intro u. pose proof (along l x y z u) as D. rewrite <- (taylor1 (DV l)) in D by (apply below_DV, H). exact D.
Qed.
Lemma taylor3 l t : List.Forall (below 4) l ->
  v l + t * v (DVn 1 l) + t^2 / 2 * v (DVn 2 l) + t^3 / 6 * v (DVn 3 l) = carried V t (peval3 l) x y z.
Proof.
  intro H. apply (same_derivative (fun t => v l + t * v (DVn 1 l) + t^2 / 2 * v (DVn 2 l) + t^3 / 6 * v (DVn 3 l)) (fun t => carried V t (peval3 l) x y z)
    (fun t => v (DVn 1 l) + t * v (DVn 2 l) + t^2 / 2 * v (DVn 3 l))).
  - rewrite carried_0. cbn [pow]. lra.
  - intro u. quart (v l) (v (DVn 1 l)) (v (DVn 2 l)) (v (DVn 3 l)) 0 u.
  - intro u. pose proof (along l x y z u) as D. rewrite <- (taylor2 (DV l)) in D by (apply below_DV, H). exact D.
Qed.
Lemma taylor4 l t : List.Forall (below 5) l ->
  v l + t * v (DVn 1 l) + t^2 / 2 * v (DVn 2 l) + t^3 / 6 * v (DVn 3 l) + t^4 / 24 * v (DVn 4 l) = carried V t (peval3 l) x y z.
Proof.
  intro H. apply (same_derivative (fun t => v l + t * v (DVn 1 l) + t^2 / 2 * v (DVn 2 l) + t^3 / 6 * v (DVn 3 l) + t^4 / 24 * v (DVn 4 l)) (fun t => carried V t (peval3 l) x y z)
    (fun t => v (DVn 1 l) + t * v (DVn 2 l) + t^2 / 2 * v (DVn 3 l) + t^3 / 6 * v (DVn 4 l))).
  - rewrite carried_0. cbn [pow]. lra.
  - intro u. quart (v l) (v (DVn 1 l)) (v (DVn 2 l)) (v (DVn 3 l)) (v (DVn 4 l)) u.
  - intro u. pose proof (along l x y z u) as D. rewrite <- (taylor3 (DV l)) in D by (apply below_DV, H). exact D.
Qed.
End Taylor.
End Along.

Lemma peval_dmono_app a l l' x y z : peval3 (map (dmono a) (l ++ l')) x y z = peval3 (map (dmono a) l) x y z + peval3 (map (dmono a) l') x y z.
Proof. rewrite map_app, peval_app. reflexivity. Qed.
Lemma ten_dmono_scaled xo h ks a be l i : ten xo h ks (map (dmono a) (scaled be l)) i = be * ten xo h ks (map (dmono a) l) i.
Proof.
  induction l as [|[k [[x y] z]] l IH]; [cbn; ring|]. cbn [scaled map ten] in *. fold (scaled be l). rewrite IH.
  unfold ten1. destruct a; cbn [dmono fst snd expo]; ring.
Qed.

Section Step.
Context (c : config RNum) (xc : axis -> Z -> car RNum) (nr : Z) (HT : tabulated c) (HA : fillable xc c nr) (HL : c_limit c = false).
Context (Hf : 0 < c_csq_floor c) (Hg : 1 < c_gamma c) (HB : forall a, fst (c_bounds c a) < snd (c_bounds c a)).
Context (V : axis -> R) (P : R) (s : Z -> R) (HP : 0 <= P) (Hnr : (5 <= nr)%Z) (heap : Z -> Z -> ix -> car RNum) (i : ix).
Context (l : list mono) (Dl : degree3 (Z.to_nat (cx (c_p c))) (Z.to_nat (cy (c_p c))) (Z.to_nat (cz (c_p c))) l).
Local Notation g := (c_gamma c).
Local Notation fluid := (drifting V P s).
Let xo (a : axis) : R := middle_of c a 0.
Let h (a : axis) : R := width c a.
Local Notation tn := (ten xo h (fun _ => KA)).
Local Notation t k j := (tn (DVn V k l) j).
Local Notation A r := (ca c V P s r).
Local Notation B r := (cb c V P s r).
Definition comb (c0 c1 c2 c3 c4 : R) : list mono :=
  scaled c0 l ++ scaled c1 (DVn V 1 l) ++ scaled c2 (DVn V 2 l) ++ scaled c3 (DVn V 3 l) ++ scaled c4 (DVn V 4 l).
Lemma comb_degree c0 c1 c2 c3 c4 : degree3 (Z.to_nat (cx (c_p c))) (Z.to_nat (cy (c_p c))) (Z.to_nat (cz (c_p c))) (comb c0 c1 c2 c3 c4).
Proof. unfold comb. repeat apply degree_app; apply degree_scaled; try apply degree_DVn; exact Dl. Qed.
Lemma comb_eval c0 c1 c2 c3 c4 x y z : peval3 (comb c0 c1 c2 c3 c4) x y z =
  c0 * peval3 l x y z + c1 * peval3 (DVn V 1 l) x y z + c2 * peval3 (DVn V 2 l) x y z + c3 * peval3 (DVn V 3 l) x y z + c4 * peval3 (DVn V 4 l) x y z.
Proof. unfold comb. rewrite !peval_app, !peval_scaled. ring. Qed.
Lemma comb_ten c0 c1 c2 c3 c4 j : tn (comb c0 c1 c2 c3 c4) j = c0 * t 0 j + c1 * t 1 j + c2 * t 2 j + c3 * t 3 j + c4 * t 4 j.
Proof. unfold comb. rewrite !ten_app, !ten_scaled. cbn [DVn]. ring. Qed.
Lemma DV_ten L j : tn (DV V L) j = - V AX * tn (map (dmono AX) L) j + (- V AY * tn (map (dmono AY) L) j + - V AZ * tn (map (dmono AZ) L) j).
Proof. unfold DV. rewrite !ten_app, !ten_scaled. reflexivity. Qed.
Lemma comb_along c0 c1 c2 c3 j : tn (DV V (comb c0 c1 c2 c3 0)) j = c0 * t 1 j + c1 * t 2 j + c2 * t 3 j + c3 * t 4 j.
Proof.
  assert (E : forall k, t (S k) j = - V AX * tn (map (dmono AX) (DVn V k l)) j + (- V AY * tn (map (dmono AY) (DVn V k l)) j + - V AZ * tn (map (dmono AZ) (DVn V k l)) j))
    by (intro k; apply DV_ten).
  rewrite !E, DV_ten. unfold comb. rewrite !map_app, !ten_app, !ten_dmono_scaled. change (DVn V 0 l) with l. ring.
Qed.

Definition around (m : Z) (j : ix) : Prop := seen_in m c i j.
Definition holds (m : Z) (c0 c1 c2 c3 : R) (u : arr R) : Prop :=
  rows u = nr /\ shp u = c_n c /\ forall j, around m j -> in_shape (c_n c) j /\
    forall r, (0 <= r < nr)%Z -> at_ u r j = A r + B r * (c0 * t 0 j + c1 * t 1 j + c2 * t 2 j + c3 * t 3 j).
Definition slope_is (m : Z) (c1 c2 c3 c4 : R) (k : arr R) : Prop :=
  rows k = nr /\ shp k = c_n c /\ forall j, around m j -> 
    forall r, (0 <= r < nr)%Z -> at_ k r j = B r * (c1 * t 1 j + c2 * t 2 j + c3 * t 3 j + c4 * t 4 j).
Definition positive (m : Z) (c0 c1 c2 c3 : R) : Prop := forall j, around m j -> forall x y z, in_cell c j x y z ->
  0 < c0 * peval3 l x y z + c1 * peval3 (DVn V 1 l) x y z + c2 * peval3 (DVn V 2 l) x y z + c3 * peval3 (DVn V 3 l) x y z.
Lemma mean_list L j : cell_mean c (peval3 L) j = tn L j.
Proof.
  unfold cell_mean. rewrite (at_centre c AX (cx j)), (at_centre c AY (cy j)), (at_centre c AZ (cz j)). fold (xo AX) (xo AY) (xo AZ) (h AX) (h AY) (h AZ). apply mean_is. reflexivity.
Qed.
Lemma mean_cons L r j : cell_mean c (fun x y z => conserved g (fluid (peval3 L x y z)) r) j = A r + B r * tn L j.
Proof.
  unfold cell_mean. rewrite (at_centre c AX (cx j)), (at_centre c AY (cy j)), (at_centre c AZ (cz j)). fold (xo AX) (xo AY) (xo AZ) (h AX) (h AY) (h AZ). rewrite (mean_is xo h _ (affine (A r) (B r) L)).
  - apply ten_affine. exact (h_ne c HT HB).
  - intros x y z. rewrite peval_affine. apply cons_affine.
Qed.
Lemma reach_nonneg a : (0 <= reach c a)%Z.
Proof.
  unfold reach. destruct (inactive_b c a); [lia|]. pose proof (half_up_sr (getc a (c_p c))). pose proof (sane_p c (proj1 HT) a) as Q.
  pose proof (stencil_right_nonneg _ Q). lia.
Qed.
Lemma rhs m c0 c1 c2 c3 x st tt u x' dt k : (1 <= m)%Z ->
  holds m c0 c1 c2 c3 u -> positive m c0 c1 c2 c3 -> fluxed RNum c nr x ->
  solver_f RNum c heap x st tt u = Ok (x', (dt, k)) ->
  fluxed RNum c nr x' /\ slope_is (m - 1) c0 c1 c2 c3 k.
Proof.
  intros Hm (Ru & Su & Hu) Hpos FX E.
  destruct (f_ok RNum xc c heap nr HT HA ltac:(lia) HL x st tt u FX (conj Ru Su)) as (x1 & dt1 & k1 & E1 & FX1 & RK & SK).
  assert (Q : Ok (x1, (dt1, k1)) = Ok (x', (dt, k))) by (exact (eq_trans (eq_sym E1) E)). injection Q as <- <- <-.
  split; [exact FX1|]. split; [exact RK|]. split; [exact SK|]. intros j Hj r Hr.
  assert (FX' : interface_arrays (c_n c) (rows u) (x_flux x)) by (rewrite Ru; exact FX).
  assert (HA' : fillable xc c (rows u)) by (rewrite Ru; exact HA).
  rewrite (transport_exact_inside c xc heap x st tt u x1 dt1 k1 (comb c0 c1 c2 c3 0) V P s j HT HA' HL Hf Hg HB Su ltac:(rewrite Ru; exact Hnr) FX'
    (comb_degree _ _ _ _ _) HP).
  - unfold cell_mean. rewrite (at_centre c AX (cx j)), (at_centre c AY (cy j)), (at_centre c AZ (cz j)). fold (xo AX) (xo AY) (xo AZ) (h AX) (h AY) (h AZ).
    rewrite (mean_is xo h _ (dlist c (comb c0 c1 c2 c3 0) V P s r)) by (intros; apply divergence_is).
    unfold dlist. rewrite !ten_app, !ten_scaled.
    rewrite <- comb_along, DV_ten. ring.
  - intros q Hq.
    assert (Hq' : around m q).
    { intro a. specialize (Hq a). specialize (Hj a). pose proof (reach_nonneg a). nia. }
    destruct (Hu q Hq') as [Hin Hval]. split; [exact Hin|]. split.
    + intros X Y Z Hc. rewrite comb_eval. pose proof (Hpos q Hq' X Y Z Hc). lra.
    + intros r' Hr'. rewrite Ru in Hr'. rewrite Hval by exact Hr'. rewrite mean_cons, comb_ten. ring.
  - exact E1.
  - rewrite Ru. exact Hr.
Qed.
Lemma around_le m m' j : (m <= m')%Z -> around m j -> around m' j.
Proof. intros H Hj a. specialize (Hj a). pose proof (reach_nonneg a). nia. Qed.
Lemma add_holds m m' a c0 c1 c2 c3 d1 d2 d3 (u k z : arr R) : (m' <= m)%Z -> holds m c0 c1 c2 c3 u -> slope_is m' d1 d2 d3 0 k ->
  rows z = nr -> shp z = c_n c -> (forall v j, at_ z v j = at_ u v j + a * at_ k v j) ->
  holds m' c0 (c1 + a * d1) (c2 + a * d2) (c3 + a * d3) z.
Proof.
  intros Hm (_ & _ & Hu) (_ & _ & Hk) Rz Sz Hz. split; [exact Rz|]. split; [exact Sz|]. intros j Hj.
  destruct (Hu j (around_le m' m j Hm Hj)) as [Hin Hv]. split; [exact Hin|]. intros r Hr. rewrite Hz, Hv, (Hk j Hj r Hr) by exact Hr. ring.
Qed.
Lemma holds_less m m' c0 c1 c2 c3 u : (m' <= m)%Z -> holds m c0 c1 c2 c3 u -> holds m' c0 c1 c2 c3 u.
Proof. intros Hm (A1 & A2 & H). split; [exact A1|]. split; [exact A2|]. intros j Hj. apply H. apply (around_le m' m); assumption. Qed.
Lemma positive_less m m' c0 c1 c2 c3 : (m' <= m)%Z -> positive m c0 c1 c2 c3 -> positive m' c0 c1 c2 c3.
Proof. intros Hm H j Hj. apply H. apply (around_le m' m); assumption. Qed.

Context (dt : R).
Definition calm (m : Z) : Prop := forall j, around m j -> forall x y z, in_cell c j x y z -> changes_little V dt (peval3 l) x y z.
Lemma scaled_abs e b v : 0 <= e <= 1 -> - Rabs (b * v) <= e * b * v.
Proof.
  intro H. rewrite Rmult_assoc. set (w := b * v). pose proof (Rabs_pos w). pose proof (Rle_abs w). pose proof (Rle_abs (- w)). rewrite Rabs_Ropp in H2. nra.
Qed.
Lemma calm_positive m e1 e2 e3 : calm m -> 0 <= e1 <= 1 -> 0 <= e2 <= 1 -> 0 <= e3 <= 1 -> positive m 1 (e1 * dt) (e2 * dt ^ 2) (e3 * dt ^ 3).
Proof.
  intros H H1 H2 H3 j Hj x y z Hc. specialize (H j Hj x y z Hc). unfold changes_little in H. cbv zeta in H.
  rewrite !derive_n_is, !carried_0 in H.
  pose proof (scaled_abs e1 dt (peval3 (DVn V 1 l) x y z) H1). pose proof (scaled_abs e2 (dt^2) (peval3 (DVn V 2 l) x y z) H2).
  pose proof (scaled_abs e3 (dt^3) (peval3 (DVn V 3 l) x y z) H3). lra.
Qed.
Lemma coef_positive m c1 c2 c3 e1 e2 e3 : calm m -> 0 <= e1 <= 1 -> 0 <= e2 <= 1 -> 0 <= e3 <= 1 ->
  c1 = e1 * dt -> c2 = e2 * dt ^ 2 -> c3 = e3 * dt ^ 3 -> positive m 1 c1 c2 c3.
Proof. intros H H1 H2 H3 -> -> ->. apply calm_positive; assumption. Qed.
Lemma holds_coef m c0 c1 c2 c3 d0 d1 d2 d3 u : holds m c0 c1 c2 c3 u -> c0 = d0 -> c1 = d1 -> c2 = d2 -> c3 = d3 -> holds m d0 d1 d2 d3 u.
Proof. intros H -> -> -> ->. exact H. Qed.
(** after a step *)
Definition ends (m : Z) (un : arr R) (d1 d2 d3 d4 : R) : Prop :=
  rows un = nr /\ shp un = c_n c /\ forall j, around m j -> in_shape (c_n c) j /\ forall r, (0 <= r < nr)%Z ->
    at_ un r j = A r + B r * (t 0 j + d1 * t 1 j + d2 * t 2 j + d3 * t 3 j + d4 * t 4 j).
Definition coefficient (i : integrator) (k : nat) : R := if (k <=? order i)%nat then dt ^ k / INR (fact k) else 0.

Ltac fcall x st tt u FX HU x1 h1 k1 E1 FX1 SK1 :=
  destruct (f_ok RNum xc c heap nr HT HA ltac:(lia) HL x st tt u FX HU) as (x1 & h1 & k1 & E1 & FX1 & SK1);
  setb (Ok (x1, (h1, k1))) E1.
Ltac axpy a u w HU HW z Hz Gz :=
  let E := fresh "E" in
  destruct (axpy_ok nr (c_n c) a u w HU HW) as (z & E & Hz & Gz); setb (Ok z) E; clear E.
Ltac pos HC e1 e2 e3 := apply (coef_positive _ _ _ _ e1 e2 e3 HC); [lra|lra|lra|eqR; field|eqR; field|eqR; field].

Lemma half_is (x : R) : @nhalf RNum * x = x / 2. Proof. rewrite nhalf_R. field. Qed.
Lemma calm_less m m' : (m' <= m)%Z -> calm m -> calm m'.
Proof. intros Hm H j Hj. apply H. apply (around_le m' m); assumption. Qed.
Lemma step_ends ig m x st u target x' un : (0 <= m)%Z ->
  holds (m + Z.of_nat (order ig)) 1 0 0 0 u -> calm (m + Z.of_nat (order ig)) -> fluxed RNum c nr x ->
  solver_step RNum c heap ig x st u target = Ok (x', (dt, un)) ->
  fluxed RNum c nr x' /\ ends m un (coefficient ig 1) (coefficient ig 2) (coefficient ig 3) (coefficient ig 4).
Proof.
  intros Hm HU HC FX. pose proof HU as (Ru & Su & _). assert (SU : SpecOde.shaped nr (c_n c) u) by (split; assumption).
  unfold coefficient. destruct ig; cbn [order] in *; cbn [Nat.leb fact INR pow Nat.mul Nat.add]; unfold solver_step; cbn [stepper_of].
  - unfold euler. fcall x st st u FX SU x1 h1 k1 qE1 FX1 SK1. cbv zeta. set (d := hit_target RNum st h1 target).
    axpy d u k1 SU SK1 z Hz Gz. intros [= <- Ed <-]. rewrite Ed in *. split; [exact FX1|].
    destruct (rhs (m + Z.of_nat 1) 1 0 0 0 _ _ _ _ _ _ _ ltac:(lia) HU ltac:(pos HC 0 0 0) FX qE1) as [_ (_ & _ & K1)].
    destruct HU as (_ & _ & VU). destruct Hz as [Rz Sz]. split; [exact Rz|]. split; [exact Sz|]. intros j Hj.
    destruct (VU j) as [Hin HV]; [apply (around_le m); [lia|exact Hj]|]. split; [exact Hin|]. intros r Hr.
    rewrite Gz, HV, (K1 j) by (first [exact Hr | apply (around_le m); [lia|exact Hj]]). field.
  - unfold ssprk2. fcall x st st u FX SU x1 h1 k1 qE1 FX1 SK1. cbv zeta. set (d := hit_target RNum st h1 target).
    axpy d u k1 SU SK1 z Hz Gz. fcall x1 st st z FX1 Hz x2 h2 k2 qE2 FX2 SK2.
    axpy d z k2 Hz SK2 z2 Hz2 Gz2. destruct (mid_ok nr (c_n c) u z2 SU Hz2) as (w & EW & HW & GW). setb (Ok w) EW.
    intros [= <- Ed <-]. rewrite Ed in *. split; [exact FX2|].
    destruct (rhs (m + Z.of_nat 2) 1 0 0 0 _ _ _ _ _ _ _ ltac:(lia) HU ltac:(pos HC 0 0 0) FX qE1) as [_ K1].
    pose proof (add_holds (m + Z.of_nat 2) (m + 1) _ _ _ _ _ _ _ _ u k1 z ltac:(lia) HU ltac:(replace (m + 1)%Z with (m + Z.of_nat 2 - 1)%Z by lia; exact K1) (proj1 Hz) (proj2 Hz) Gz) as HZ.
    destruct (rhs (m + 1) _ _ _ _ _ _ _ _ _ _ _ ltac:(lia) HZ ltac:(pos (calm_less (m + Z.of_nat 2) (m + 1) ltac:(lia) HC) 1 0 0) FX1 qE2) as [_ (_ & _ & K2)].
    destruct HU as (_ & _ & VU). destruct HZ as (_ & _ & VZ). destruct HW as [Rz Sz]. split; [exact Rz|]. split; [exact Sz|]. intros j Hj.
    destruct (VU j) as [Hin HV]; [apply (around_le m); [lia|exact Hj]|]. split; [exact Hin|]. intros r Hr.
    destruct (VZ j) as [_ HV2]; [apply (around_le m); [lia|exact Hj]|].
    rewrite GW, Gz2, HV, HV2, (K2 j) by (first [exact Hr | apply (around_le m); [lia|exact Hj]]). field.
  - unfold ssprk3. fcall x st st u FX SU x1 h1 k1 qE1 FX1 SK1. cbv zeta. set (d := hit_target RNum st h1 target).
    axpy d u k1 SU SK1 z Hz Gz. fcall x1 st (st + d) z FX1 Hz x2 h2 k2 qE2 FX2 SK2.
    axpy (1 / 4 * d) u k1 SU SK1 y Hy Gy. axpy (1 / 4 * d) y k2 Hy SK2 y2 Hy2 Gy2.
    fcall x2 st (st + @nhalf RNum * d) y2 FX2 Hy2 x3 h3 k3 qE3 FX3 SK3.
    destruct (add_ok nr (c_n c) k1 k2 SK1 SK2) as (w2 & EW2 & HW2 & GW2). setb (Ok w2) EW2.
    axpy 4 w2 k3 HW2 SK3 w3 HW3 GW3. axpy (1 / 6 * d) u w3 SU HW3 w HW GW.
    intros [= <- Ed <-]. rewrite Ed in *. split; [exact FX3|].
    destruct (rhs (m + Z.of_nat 3) 1 0 0 0 _ _ _ _ _ _ _ ltac:(lia) HU ltac:(pos HC 0 0 0) FX qE1) as [_ K1].
    pose proof (add_holds (m + Z.of_nat 3) (m + 2) _ _ _ _ _ _ _ _ u k1 z ltac:(lia) HU ltac:(replace (m + 2)%Z with (m + Z.of_nat 3 - 1)%Z by lia; exact K1) (proj1 Hz) (proj2 Hz) Gz) as HZ.
    destruct (rhs (m + 2) _ _ _ _ _ _ _ _ _ _ _ ltac:(lia) HZ ltac:(pos (calm_less (m + Z.of_nat 3) (m + 2) ltac:(lia) HC) 1 0 0) FX1 qE2) as [_ K2].
    pose proof (add_holds (m + Z.of_nat 3) (m + 2) _ _ _ _ _ _ _ _ u k1 y ltac:(lia) HU ltac:(replace (m + 2)%Z with (m + Z.of_nat 3 - 1)%Z by lia; exact K1) (proj1 Hy) (proj2 Hy) Gy) as HY.
    replace (m + 2 - 1)%Z with (m + 1)%Z in K2 by lia.
    assert (K2' : slope_is (m + 1) 1 dt 0 0 k2).
    { destruct K2 as (Q1 & Q2 & Q3). split; [exact Q1|]. split; [exact Q2|]. intros j Hj r Hr. rewrite Q3 by assumption. field. }
    pose proof (add_holds (m + 2) (m + 1) _ _ _ _ _ _ _ _ y k2 y2 ltac:(lia) HY K2' (proj1 Hy2) (proj2 Hy2) Gy2) as HY2.
    destruct (rhs (m + 1) _ _ _ _ _ _ _ _ _ _ _ ltac:(lia) HY2 ltac:(pos (calm_less (m + Z.of_nat 3) (m + 1) ltac:(lia) HC) (1/2) (1/4) 0) FX2 qE3) as [_ (_ & _ & K3)].
    destruct HU as (_ & _ & VU). destruct K1 as (_ & _ & K1). destruct K2 as (_ & _ & K2). destruct HW as [Rz Sz]. split; [exact Rz|]. split; [exact Sz|]. intros j Hj.
    destruct (VU j) as [Hin HV]; [apply (around_le m); [lia|exact Hj]|]. split; [exact Hin|]. intros r Hr.
    rewrite GW, GW3, GW2, HV, (K1 j), (K2 j), (K3 j) by (first [exact Hr | apply (around_le m); [lia|exact Hj]]). field.
  - unfold rk4. fcall x st st u FX SU x1 h1 k1 qE1 FX1 SK1. cbv zeta. set (d := hit_target RNum st h1 target).
    axpy (@nhalf RNum * d) u k1 SU SK1 z Hz Gz. fcall x1 st (st + @nhalf RNum * d) z FX1 Hz x2 h2 k2 qE2 FX2 SK2.
    axpy (@nhalf RNum * d) u k2 SU SK2 y Hy Gy. fcall x2 st (st + @nhalf RNum * d) y FX2 Hy x3 h3 k3 qE3 FX3 SK3.
    axpy d u k3 SU SK3 y2 Hy2 Gy2. fcall x3 st (st + d) y2 FX3 Hy2 x4 h4 k4 qE4 FX4 SK4.
    axpy 2 k1 k2 SK1 SK2 w1 HW1 GW1. axpy 2 w1 k3 HW1 SK3 w2 HW2 GW2.
    destruct (add_ok nr (c_n c) w2 k4 HW2 SK4) as (w3 & EW3 & HW3 & GW3). setb (Ok w3) EW3.
    axpy (1 / 6 * d) u w3 SU HW3 w HW GW.
    intros [= <- Ed <-]. rewrite Ed in *. rewrite half_is in Gz, Gy. split; [exact FX4|].
    destruct (rhs (m + Z.of_nat 4) 1 0 0 0 _ _ _ _ _ _ _ ltac:(lia) HU ltac:(pos HC 0 0 0) FX qE1) as [_ K1].
    replace (m + Z.of_nat 4 - 1)%Z with (m + 3)%Z in K1 by lia.
    pose proof (add_holds (m + Z.of_nat 4) (m + 3) _ _ _ _ _ _ _ _ u k1 z ltac:(lia) HU K1 (proj1 Hz) (proj2 Hz) Gz) as HZ.
    destruct (rhs (m + 3) _ _ _ _ _ _ _ _ _ _ _ ltac:(lia) HZ ltac:(pos (calm_less (m + Z.of_nat 4) (m + 3) ltac:(lia) HC) (1/2) 0 0) FX1 qE2) as [_ K2].
    replace (m + 3 - 1)%Z with (m + 2)%Z in K2 by lia.
    assert (K2' : slope_is (m + 2) 1 (dt / 2) 0 0 k2).
    { destruct K2 as (Q1 & Q2 & Q3). split; [exact Q1|]. split; [exact Q2|]. intros j Hj r Hr. rewrite Q3 by assumption. field. }
    pose proof (add_holds (m + Z.of_nat 4) (m + 2) _ _ _ _ _ _ _ _ u k2 y ltac:(lia) HU K2' (proj1 Hy) (proj2 Hy) Gy) as HY.
    destruct (rhs (m + 2) _ _ _ _ _ _ _ _ _ _ _ ltac:(lia) HY ltac:(pos (calm_less (m + Z.of_nat 4) (m + 2) ltac:(lia) HC) (1/2) (1/4) 0) FX2 qE3) as [_ K3].
    replace (m + 2 - 1)%Z with (m + 1)%Z in K3 by lia.
    assert (K3' : slope_is (m + 1) 1 (dt / 2) (dt ^ 2 / 4) 0 k3).
    { destruct K3 as (Q1 & Q2 & Q3). split; [exact Q1|]. split; [exact Q2|]. intros j Hj r Hr. rewrite Q3 by assumption. field. }
    pose proof (add_holds (m + Z.of_nat 4) (m + 1) _ _ _ _ _ _ _ _ u k3 y2 ltac:(lia) HU K3' (proj1 Hy2) (proj2 Hy2) Gy2) as HY2.
    destruct (rhs (m + 1) _ _ _ _ _ _ _ _ _ _ _ ltac:(lia) HY2 ltac:(pos (calm_less (m + Z.of_nat 4) (m + 1) ltac:(lia) HC) 1 (1/2) (1/4)) FX3 qE4) as [_ (_ & _ & K4)].
    destruct HU as (_ & _ & VU). destruct K1 as (_ & _ & K1). destruct K2' as (_ & _ & K2'). destruct K3' as (_ & _ & K3').
    destruct HW as [Rz Sz]. split; [exact Rz|]. split; [exact Sz|]. intros j Hj.
    destruct (VU j) as [Hin HV]; [apply (around_le m); [lia|exact Hj]|]. split; [exact Hin|]. intros r Hr.
    rewrite GW, GW3, GW2, GW1, HV, (K1 j), (K2' j), (K3' j), (K4 j) by (first [exact Hr | apply (around_le m); [lia|exact Hj]]). field.
Qed.
End Step.

Lemma taylor_all V dt ig l x y z : List.Forall (below (S (order ig))) l ->
  peval3 l x y z + coefficient dt ig 1 * peval3 (DVn V 1 l) x y z + coefficient dt ig 2 * peval3 (DVn V 2 l) x y z
   + coefficient dt ig 3 * peval3 (DVn V 3 l) x y z + coefficient dt ig 4 * peval3 (DVn V 4 l) x y z = carried V dt (peval3 l) x y z.
Proof.
  intro H. unfold coefficient. destruct ig; cbn [order] in *; cbn [Nat.leb fact INR Nat.mul Nat.add].
  - rewrite <- (taylor1 V x y z l dt H). cbn [pow]. field.
  - rewrite <- (taylor2 V x y z l dt H). cbn [pow]. field.
  - rewrite <- (taylor3 V x y z l dt H). cbn [pow]. field.
  - rewrite <- (taylor4 V x y z l dt H). cbn [pow]. field.
Qed.
Lemma below_up m l : List.Forall (below m) l -> List.Forall (below (S m)) l.
Proof. apply Forall_impl. intros [k [[a b] c]] [H|H]; [left; exact H|right; lia]. Qed.
Lemma below_DVn V m k l : List.Forall (below (S m)) l -> List.Forall (below (S m)) (DVn V k l).
Proof. intro H. induction k; [exact H|]. cbn [DVn]. apply below_up, below_DV, IHk. Qed.
Lemma total_below n l : total_degree n l -> List.Forall (below (S n)) l.
Proof. apply Forall_impl. intros [k [[a b] c]] H. right. lia. Qed.
Lemma carried_twice V a b f x y z : carried V a (carried V b f) x y z = carried V (b + a) f x y z.
Proof. unfold carried. f_equal; ring. Qed.
Lemma carried_ext V t f f' x y z : (forall x y z, f x y z = f' x y z) -> carried V t f x y z = carried V t f' x y z.
Proof. intro H. unfold carried. apply H. Qed.
Lemma little_ext V dt f f' x y z : (forall x y z, f x y z = f' x y z) -> changes_little V dt f x y z -> changes_little V dt f' x y z.
Proof.
  intros H. unfold changes_little. cbv zeta. rewrite <- H.
  rewrite !(Derive_n_ext (fun t => carried V t f' x y z) (fun t => carried V t f x y z)) by (intro; apply carried_ext; auto). auto.
Qed.
Lemma mean_ext c f f' i : (forall x y z, f x y z = f' x y z) -> cell_mean c f i = cell_mean c f' i.
Proof. intro H. unfold cell_mean, average3. repeat (apply average_ext; intro). apply H. Qed.

Section Run.
Context (c : config RNum) (xc : axis -> Z -> car RNum) (nr : Z) (HT : tabulated c) (HA : fillable xc c nr) (HL : c_limit c = false).
Context (Hf : 0 < c_csq_floor c) (Hg : 1 < c_gamma c) (HB : forall a, fst (c_bounds c a) < snd (c_bounds c a)).
Context (V : axis -> R) (P : R) (s : Z -> R) (HP : 0 <= P) (Hnr : (5 <= nr)%Z) (heap : Z -> Z -> ix -> car RNum) (i : ix).
Context (ig : integrator).
Local Notation dg := (degree3 (Z.to_nat (cx (c_p c))) (Z.to_nat (cy (c_p c))) (Z.to_nat (cz (c_p c)))).
Local Notation bl := (List.Forall (below (S (order ig)))).
Local Notation od := (Z.of_nat (order ig)).
Definition shows_mean (m : Z) (f : R -> R -> R -> R) (u : arr R) : Prop :=
  rows u = nr /\ shp u = c_n c /\ forall j, seen_in m c i j -> in_shape (c_n c) j /\ forall r, (0 <= r < nr)%Z ->
    at_ u r j = cell_mean c (fun x y z => conserved (c_gamma c) (drifting V P s (f x y z)) r) j.
Definition stays_calm (m : Z) (dt : R) (f : R -> R -> R -> R) : Prop :=
  forall j, seen_in m c i j -> forall x y z, in_cell c j x y z -> changes_little V dt f x y z.
Lemma one_step m f l x st u target x' dt un : (0 <= m)%Z -> (forall x y z, f x y z = peval3 l x y z) -> dg l -> bl l ->
  shows_mean (m + od) f u -> stays_calm (m + od) dt f -> fluxed RNum c nr x ->
  solver_step RNum c heap ig x st u target = Ok (x', (dt, un)) ->
  fluxed RNum c nr x' /\ shows_mean m (carried V dt f) un /\
  exists l', (forall x y z, carried V dt f x y z = peval3 l' x y z) /\ dg l' /\ bl l'.
Proof.
  intros Hm Hl Dl Bl (Ru & Su & Hu) HC FX E.
  destruct (step_ends c xc nr HT HA HL Hf Hg HB V P s HP Hnr heap i l Dl dt ig m x st u target x' un Hm) as (FX' & R1 & S1 & Hun); auto.
  - split; [exact Ru|]. split; [exact Su|]. intros j Hj. destruct (Hu j Hj) as [Hin Hv]. split; [exact Hin|]. intros r Hr.
    rewrite Hv by exact Hr. rewrite (mean_ext c _ (fun x y z => conserved (c_gamma c) (drifting V P s (peval3 l x y z)) r)) by (intros; rewrite Hl; reflexivity).
    rewrite (mean_cons c HT HB). cbn [DVn]. ring.
  - intros j Hj X Y Z Hc. apply (little_ext V dt f); [exact Hl|]. exact (HC j Hj X Y Z Hc).
  - split; [exact FX'|].
    assert (EV : forall x y z, carried V dt f x y z =
       peval3 (comb V l 1 (coefficient dt ig 1) (coefficient dt ig 2) (coefficient dt ig 3) (coefficient dt ig 4)) x y z).
    { intros X Y Z. rewrite comb_eval. rewrite (carried_ext V dt f (peval3 l)) by exact Hl.
      rewrite <- (taylor_all V dt ig l) by exact Bl. ring. }
    split.
    + split; [exact R1|]. split; [exact S1|]. intros j Hj. destruct (Hun j Hj) as [Hin Hv]. split; [exact Hin|].
      intros r Hr. rewrite Hv by exact Hr.
      rewrite (mean_ext c _ (fun x y z => conserved (c_gamma c) (drifting V P s (peval3 (comb V l 1 (coefficient dt ig 1) (coefficient dt ig 2) (coefficient dt ig 3) (coefficient dt ig 4)) x y z)) r))
        by (intros; rewrite EV; reflexivity).
      rewrite (mean_cons c HT HB), comb_ten. ring.
    + eexists. split; [exact EV|]. split; [apply comb_degree; exact Dl|].
      unfold comb. repeat (apply Forall_app; split); apply below_scaled; try apply below_DVn; exact Bl.
Qed.
End Run.

Theorem step_exact : forall (c : config RNum) xc heap ig x t u target x' dt un l V P s i,
  tabulated c -> fillable xc c (rows u) -> c_limit c = false ->
  0 < c_csq_floor c -> 1 < c_gamma c -> (forall a, fst (c_bounds c a) < snd (c_bounds c a)) ->
  shp u = c_n c -> (5 <= rows u)%Z -> interface_arrays (c_n c) (rows u) (x_flux x) ->
  degree3 (Z.to_nat (cx (c_p c))) (Z.to_nat (cy (c_p c))) (Z.to_nat (cz (c_p c))) l ->
  total_degree (order ig) l -> 0 <= P ->
  solver_step RNum c heap ig x t u target = Ok (x', (dt, un)) ->
  (forall j, seen_in (Z.of_nat (order ig)) c i j -> in_shape (c_n c) j /\
    (forall x y z, in_cell c j x y z -> changes_little V dt (peval3 l) x y z) /\
    forall r, (0 <= r < rows u)%Z ->
      at_ u r j = cell_mean c (fun x y z => conserved (c_gamma c) (drifting V P s (peval3 l x y z)) r) j) ->
  rows un = rows u /\ shp un = c_n c /\
  forall r, (0 <= r < rows u)%Z ->
    at_ un r i = cell_mean c (fun x y z => conserved (c_gamma c) (drifting V P s (carried V dt (peval3 l) x y z)) r) i.
Proof.
  intros c xc heap ig x t u target x' dt un l V P s i HT HA HL Hf Hg HB Su Ru FO Dl Tl HP E H.
  destruct (one_step c xc (rows u) HT HA HL Hf Hg HB V P s HP Ru heap i ig 0 (peval3 l) l x t u target x' dt un) as (_ & (R1 & S1 & Hun) & _).
  - lia.
  - reflexivity.
  - exact Dl.
  - apply total_below, Tl.
  - split; [reflexivity|]. split; [exact Su|]. intros j Hj. split; [apply H; exact Hj|]. apply (H j Hj).
  - intros j Hj. apply (H j Hj).
  - exact FO.
  - exact E.
  - split; [exact R1|]. split; [exact S1|]. apply (Hun i). intro a. rewrite Z.sub_diag. cbn. lia.
Qed.

Lemma step_fixed (c : config RNum) heap h ig x t u x' dt un : c_fixed_dt c = Some h ->
  solver_step RNum c heap ig x t u None = Ok (x', (dt, un)) -> dt = h.
Proof.
  intros Hc H. pose proof (solver_fixed c heap h Hc) as F.
  unfold solver_step in H.
  destruct ig; cbn [stepper_of] in H; unfold euler, ssprk2, ssprk3, rk4 in H;
   (match type of H with (bind ?X _ = _) => destruct X as [[x1 [d1 k1]]|] eqn:Q; cbn [bind] in H; [|discriminate] end);
   pose proof (F _ _ _ _ _ _ _ Q : d1 = h) as Qd;
   repeat (match type of H with (bind ?X _ = _) => destruct X as [[? [? ?]]|] eqn:?; cbn [bind] in H; [|discriminate]
     | (bind ?X _ = _) => destruct X as [?|] eqn:?; cbn [bind] in H; [|discriminate] end);
   injection H; intros _ <- _; exact Qd.
Qed.
Section RunN.
Context (c : config RNum) (xc : axis -> Z -> car RNum) (nr : Z) (HT : tabulated c) (HA : fillable xc c nr) (HL : c_limit c = false).
Context (Hf : 0 < c_csq_floor c) (Hg : 1 < c_gamma c) (HB : forall a, fst (c_bounds c a) < snd (c_bounds c a)).
Context (V : axis -> R) (P : R) (s : Z -> R) (HP : 0 <= P) (Hnr : (5 <= nr)%Z) (heap : Z -> Z -> ix -> car RNum) (i : ix).
Context (ig : integrator) (h : R) (HH : c_fixed_dt c = Some h) (l : list mono) (n : nat).
Local Notation dg := (degree3 (Z.to_nat (cx (c_p c))) (Z.to_nat (cy (c_p c))) (Z.to_nat (cz (c_p c)))).
Local Notation bl := (List.Forall (below (S (order ig)))).
Local Notation od := (Z.of_nat (order ig)).
Context (Dl : dg l) (Bl : bl l).
Local Notation f k := (carried V (INR k * h) (peval3 l)).
Context (HC : forall k, (k < n)%nat -> stays_calm c V i (Z.of_nat (n - k) * od) h (f k)).
Definition there (k : nat) (o : run RNum) : Prop :=
  fluxed RNum c nr (o_aux o) /\ shows_mean c nr V P s i (Z.of_nat (n - k) * od) (f k) (o_u o) /\ o_t o = INR k * h /\
  exists l', (forall x y z, f k x y z = peval3 l' x y z) /\ dg l' /\ bl l'.
Lemma there_step k (o o' : run RNum) : (k < n)%nat -> there k o ->
  take_step RNum (arr_ops RNum) (solver_step RNum c heap ig) (step_helper RNum c) o None = Ok o' -> there (S k) o'.
Proof.
  intros Hk (FX & SM & Ot & l' & El & Dl' & Bl') H. unfold take_step in H.
  match type of H with (bind ?X _ = _) => destruct X as [[x' [dt un]]|] eqn:E; cbn [bind] in H; [|discriminate] end.
  match type of H with (bind ?X _ = _) => destruct X as [u'|] eqn:EA; cbn [bind] in H; [|discriminate] end.
  injection H as <-. pose proof (step_fixed c heap h ig _ _ _ _ _ _ HH E) as ->.
  replace (Z.of_nat (n - k) * od)%Z with (Z.of_nat (n - S k) * od + od)%Z in SM by nia.
  destruct (one_step c xc nr HT HA HL Hf Hg HB V P s HP Hnr heap i ig (Z.of_nat (n - S k) * od) (f k) l' (o_aux o) (o_t o) (o_u o) None x' h un
     ltac:(nia) El Dl' Bl' SM) as (FX' & SM' & l2 & El2 & D2 & B2); [|exact FX|exact E|].
  { replace (Z.of_nat (n - S k) * od + od)%Z with (Z.of_nat (n - k) * od)%Z by nia. apply HC, Hk. }
  assert (EF : forall x y z, f (S k) x y z = carried V h (f k) x y z).
  { intros x y z. rewrite carried_twice, S_INR. f_equal. ring. }
  destruct SM' as (R1 & S1 & Hun). destruct SM as (R0 & S0 & _).
  cbn [vassign arr_ops] in EA.
  destruct (assign_all_is (o_u o) un nr (c_n c) (at_ un) R0 S0) as (z & EZ & RZ & SZ & GZ).
  { split; [exact R1|]. split; [exact S1|]. reflexivity. }
  rewrite EZ in EA. injection EA as <-.
  split; [cbn [o_aux]; unfold fluxed; rewrite helper_flux; exact FX'|]. split; [|split; [|exists l2; split; [|split; assumption]]].
  - cbn [o_u]. split; [exact RZ|]. split; [exact SZ|]. intros j Hj. destruct (Hun j Hj) as [Hin Hv]. split; [exact Hin|].
    intros r Hr. rewrite GZ by (split; [exact Hr|exact Hin]). rewrite Hv by exact Hr.
    apply mean_ext. intros. rewrite EF. reflexivity.
  - assert (Q : INR k * h + h = INR (S k) * h) by (rewrite S_INR; ring).
    exact (eq_trans (f_equal (fun q => Rplus q h) Ot) Q).
  - intros. rewrite EF. apply El2.
Qed.
Lemma there_n m : forall k (o o' : run RNum), (k + m = n)%nat -> there k o ->
  take_n RNum (arr_ops RNum) (solver_step RNum c heap ig) (step_helper RNum c) m o = Ok o' -> there n o'.
Proof.
  induction m; intros k o o' Hk I H; cbn [take_n] in H.
  - injection H as <-. replace n with k by lia. exact I.
  - match type of H with (bind ?X _ = _) => destruct X as [o1|] eqn:E; cbn [bind] in H; [|discriminate] end.
    apply (IHm (S k) o1); [lia| |exact H]. apply (there_step k o); [lia|exact I|exact E].
Qed.
Lemma there_snap k (o o' : run RNum) payload : there k o -> snapshot RNum payload o = Ok o' -> there k o'.
Proof.
  intros I H. unfold snapshot in H.
  match type of H with (bind ?X _ = _) => destruct X as [d|] eqn:E; cbn [bind] in H; [|discriminate] end.
  injection H as <-. exact I.
Qed.
End RunN.

Theorem run_exact : forall (c : config RNum) xc heap ig as_averages exact downbeats log fuel u0 o n h l V P s i,
  tabulated c -> fillable xc c (rows u0) -> c_limit c = false -> c_fixed_dt c = Some h ->
  0 < c_csq_floor c -> 1 < c_gamma c -> (forall a, fst (c_bounds c a) < snd (c_bounds c a)) ->
  shp u0 = c_n c -> (5 <= rows u0)%Z ->
  degree3 (Z.to_nat (cx (c_p c))) (Z.to_nat (cy (c_p c))) (Z.to_nat (cz (c_p c))) l ->
  total_degree (order ig) l -> 0 <= P ->
  (forall j, seen_in (Z.of_nat n * Z.of_nat (order ig)) c i j -> in_shape (c_n c) j /\
    (forall k, (k < n)%nat -> forall x y z, in_cell c j x y z -> changes_little V h (carried V (INR k * h) (peval3 l)) x y z) /\
    forall r, (0 <= r < rows u0)%Z ->
      at_ u0 r j = cell_mean c (fun x y z => conserved (c_gamma c) (drifting V P s (peval3 l x y z)) r) j) ->
  simulate c heap ig as_averages None (Some (Z.of_nat n)) exact downbeats log fuel u0 = Ok o ->
  o_t o = INR n * h /\
  forall r, (0 <= r < rows u0)%Z ->
    at_ (o_u o) r i = cell_mean c (fun x y z => conserved (c_gamma c) (drifting V P s (carried V (o_t o) (peval3 l) x y z)) r) i.
Proof.
  intros c xc heap ig av ex db log fuel u0 o n h l V P s i HT HA HL HH Hf Hg HB Su Ru Dl Tl HP H E.
  unfold simulate, solver_integrate, integrate, integrate_n in E.
  match type of E with (bind ?X _ = _) => destruct X as [o1|] eqn:E1; cbn [bind] in E; [|discriminate] end.
  match type of E with (bind ?X _ = _) => destruct X as [o2|] eqn:E2; cbn [bind] in E; [|discriminate] end.
  rewrite Nat2Z.id in E2.
  assert (HC : forall k, (k < n)%nat -> stays_calm c V i (Z.of_nat (n - k) * Z.of_nat (order ig)) h (carried V (INR k * h) (peval3 l))).
  { intros k Hk j Hj. apply (H j); [|exact Hk]. intro a. specialize (Hj a).
    assert (0 <= reach c a)%Z.
    { unfold reach. destruct (inactive_b c a); [lia|]. cbv zeta.
      pose proof (half_up_sr (getc a (c_p c))). pose proof (sane_p c (proj1 HT) a). pose proof (stencil_right_nonneg _ H1). lia. }
    assert (Z.of_nat (n - k) * Z.of_nat (order ig) <= Z.of_nat n * Z.of_nat (order ig))%Z by nia. nia. }
  assert (I0 : there c (rows u0) V P s i ig h l n 0 (ode_init RNum u0 (aux_init RNum c heap (rows u0)))).
  { split; [|split; [|split]].
    - intro d. cbn. auto.
    - cbn [o_u ode_init]. split; [reflexivity|]. split; [exact Su|]. rewrite Nat.sub_0_r. intros j Hj. split; [apply (H j Hj)|].
      intros r Hr. destruct (H j Hj) as (_ & _ & Hv). rewrite (Hv r Hr). apply mean_ext. intros. unfold carried. cbn [INR]. do 3 f_equal; ring.
    - cbn. ring.
    - exists l. split; [|split; [exact Dl|apply total_below, Tl]]. intros. unfold carried. cbn [INR]. f_equal; ring. }
  pose proof (there_snap c (rows u0) V P s i ig h l n 0 _ _ _ I0 E1) as I1.
  pose proof (there_n c xc (rows u0) HT HA HL Hf Hg HB V P s HP Ru heap i ig h HH l n HC n 0 _ _ ltac:(lia) I1 E2) as I2.
  pose proof (there_snap c (rows u0) V P s i ig h l n n _ _ _ I2 E) as (_ & (_ & _ & Hv) & Ot & _).
  split; [exact Ot|]. intros r Hr. destruct (Hv i) as [_ Hvi]; [|rewrite Hvi by exact Hr; rewrite Ot; reflexivity].
  intro a. rewrite Z.sub_diag, Nat.sub_diag. cbn. lia.
Qed.

(** a case: two steps of rk4 for a cubic density *)
Definition tube140 : config RNum :=
  mkcfg (N := RNum) (mkix 140 1 1) (mkix 3 0 0) (fun _ => (0, 1)) (1/2) (Some (1/1000)) (7/5) (1/1000) RS_llf (uniform_bc B_periodic) false
    L_none false (mknad (N := RNum) 1 M_global R_absolute None None false 1) false.
Definition cubic : list mono := [(2, (0, 0, 0)%nat); (1, (3, 0, 0)%nat)].
Definition rightward (a : axis) : R := match a with AX => 1 | _ => 0 end.
Definition cubic_gas : arr (car RNum) := mkarr 5 (c_n tube140) (fun r j =>
  cell_mean tube140 (fun x y z => conserved (c_gamma tube140) (drifting rightward 1 (fun _ => 0) (peval3 cubic x y z)) r) j).
Lemma cubic_val x y z : peval3 cubic x y z = 2 + x * x * x.
Proof. cbn [cubic peval3 tval pow]. ring. Qed.
Lemma cubic_little a x y z : 0 <= x <= 1 -> 0 <= a <= 1/10 -> changes_little rightward (1/1000) (carried rightward a (peval3 cubic)) x y z.
Proof.
  intros Hx Ha. unfold changes_little. cbv zeta.
  set (g := fun t => carried rightward t (carried rightward a (peval3 cubic)) x y z).
  assert (Eg : forall t, g t = 2 + (x - a - t) * (x - a - t) * (x - a - t)).
  { intro t. unfold g, carried. rewrite cubic_val. cbn [rightward]. ring. }
  assert (D1 : forall t, Derive_n g 1 t = -3 * ((x - a - t) * (x - a - t))).
  { intro t. change (Derive_n g 1 t) with (Derive (fun t => g t) t). rewrite (Derive_ext (fun t => g t) _ t Eg). apply is_derive_unique. auto_derive; [exact I|]. ring. }
  assert (D2 : forall t, Derive_n g 2 t = 6 * (x - a - t)).
  { intro t. change (Derive_n g 2 t) with (Derive (Derive_n g 1) t). rewrite (Derive_ext _ _ t D1). apply is_derive_unique. auto_derive; [exact I|]. ring. }
  assert (D3 : forall t, Derive_n g 3 t = -6).
  { intro t. change (Derive_n g 3 t) with (Derive (Derive_n g 2) t). rewrite (Derive_ext _ _ t D2). apply is_derive_unique. auto_derive; [exact I|]. ring. }
  rewrite D1, D2, D3. unfold carried. rewrite cubic_val. cbn [rightward].
  assert (B : -1/10 <= x - a - 0 <= 1) by lra.
  replace (x - a * 1) with (x - a - 0) by ring. generalize dependent (x - a - 0). intros w B.
  assert (0 <= w * w <= 1) by nra.
  assert (-1 <= w * w * w) by nra.
  assert (Rabs (1 / 1000 * (-3 * (w * w))) <= 3/1000) by (apply Rabs_le; lra).
  assert (Rabs ((1 / 1000) ^ 2 * (6 * w)) <= 6/1000) by (apply Rabs_le; lra).
  assert (Rabs ((1 / 1000) ^ 3 * -6) <= 6/1000) by (apply Rabs_le; lra). lra.
Qed.
Lemma tube140_case : forall xc heap, let c := tube140 in let i := mkix 70 0 0 in
  tabulated c /\ fillable xc c 5 /\ c_limit c = false /\ c_fixed_dt c = Some (1/1000) /\ 0 < c_csq_floor c /\ 1 < c_gamma c /\
  (forall a, fst (c_bounds c a) < snd (c_bounds c a)) /\
  degree3 (Z.to_nat (cx (c_p c))) (Z.to_nat (cy (c_p c))) (Z.to_nat (cz (c_p c))) cubic /\ total_degree (order I_rk4) cubic /\
  (forall j, seen_in (Z.of_nat 2 * Z.of_nat (order I_rk4)) c i j -> in_shape (c_n c) j /\
    forall k, (k < 2)%nat -> forall x y z, in_cell c j x y z -> changes_little rightward (1/1000) (carried rightward (INR k * (1/1000)) (peval3 cubic)) x y z) /\
  (exists o, simulate c heap I_rk4 false None (Some (Z.of_nat 2)) true [] false 0 cubic_gas = Ok o) /\
  exists x' un, solver_step RNum c heap I_rk4 (aux_init RNum c heap 5) 0 cubic_gas None = Ok (x', (1/1000, un)).
Proof.
  intros xc heap c i.
  assert (HT : tabulated c).
  { split; [split|].
    - intros []; cbn; lia.
    - intros []; cbn; lia.
    - exists AX. intros [H _]. discriminate.
    - exact I.
    - intros []; cbn; lia. }
  assert (HA : fillable xc c 5).
  { intros a. destruct a.
    - right. split; [left; split; [exact I|vm_compute; discriminate]|split; [left; split; [exact I|vm_compute; discriminate]|intro X; exact X]].
    - left. reflexivity.
    - left. reflexivity. }
  assert (HB : forall a, c_bounds c a = (0, 1)) by (intros []; reflexivity).
  split; [exact HT|]. split; [exact HA|]. split; [reflexivity|]. split; [reflexivity|].
  split; [cbn; try lra|]. split; [cbn; try lra|]. split; [intro a; rewrite HB; cbn; lra|].
  split; [unfold cubic; repeat constructor; cbn; lia|]. split; [unfold cubic; repeat constructor; cbn; lia|].
  split.
  - intros j Hj. assert (J : in_shape (c_n c) j).
    { intro a. specialize (Hj a). destruct a; vm_compute (reach _ _) in Hj; cbn [order Z.of_nat Pos.of_succ_nat Pos.succ getc i NdArray.cx NdArray.cy NdArray.cz c tube140 c_n] in *; lia. }
    split; [exact J|]. intros k Hk x y z (Hx & Hy & Hz). apply cubic_little.
    + assert (E : middle_of c AX (cx j) = (IZR (cx j) + 1/2) / 140).
      { unfold middle_of, width. rewrite HB. cbn [fst snd]. change (getc AX (c_n c)) with 140%Z. field. }
      assert (E2 : width c AX = / 140).
      { unfold width. rewrite HB. cbn [fst snd]. change (getc AX (c_n c)) with 140%Z. field. }
      rewrite E, E2 in Hx. pose proof (J AX) as [Q1 Q2]. cbn [getc] in Q1, Q2. change (cx (c_n c)) with 140%Z in Q2.
      apply IZR_le in Q1. assert (Q3 : (cx j + 1 <= 140)%Z) by lia. apply IZR_le in Q3. rewrite plus_IZR in Q3.
      apply Rabs_le_between in Hx. lra.
    + destruct k as [|[|k]]; [cbn [INR]; lra|cbn [INR]; lra|lia].
  - split.
    + destruct (runs_end RNum xc c heap I_rk4 false (Z.of_nat 2) true [] false 0 cubic_gas HT HA eq_refl eq_refl) as (o & E & _); [cbn; lia|cbn; lia|].
      exists o. exact E.
    + destruct (ExistP.step_ok RNum c heap 5 (fluxed RNum c 5) (f_ok RNum xc c heap 5 HT HA ltac:(lia) eq_refl) I_rk4 (aux_init RNum c heap 5) 0 cubic_gas None) as (x' & dt & un & E & _).
      * intro d. cbn. auto.
      * split; reflexivity.
      * exists x', un. assert (D : dt = 1/1000) by (apply (step_fixed c heap (1/1000) _ _ _ _ _ _ _ eq_refl E)). rewrite <- D. exact E.
Qed.
