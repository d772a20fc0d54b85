(** Images of runs with slope limiting. *)
From Coq Require Import ZArith List Bool Lia Reals Lra Classical.
From Verif Require Import Err Num PySlice NdArray HydroM RiemannM StencilsM FvM BcM SedM
  LimitM OdeM SolverM Spec SpecBc SpecLim SpecSolver SpecCons SpecScheme SpecSym NdArrayP FvP BcP BcQ OpP SolverP OdeP RelP RelS LimP RunP ConsP
  HydroP BroadP SedP DetectP ConvexP ExistP SchemeP SymP ShiftP UniformP MirrorP LimExistP.
Import ListNotations.
Open Scope Z_scope.

(** ** runs of two solvers with related right-hand sides *)
Section Gen.
Context (N : Num).
Local Notation K := (car N).
Context (c1 c2 : config N) (heap1 heap2 : Z -> Z -> ix -> K) (r : Z) (T1 : tabulated c1) (T2 : tabulated c2).
Context (M : field N -> field N).
Context (Mext : forall f g, (forall v i, in_shape (c_n c1) i -> f v i = g v i) ->
  forall v i, in_shape (c_n c2) i -> M f v i = M g v i).
Context (Madd : forall f g v i, M (fun v i => nadd (f v i) (g v i)) v i = nadd (M f v i) (M g v i)).
Context (Mmul : forall k f v i, M (fun v i => nmul k (f v i)) v i = nmul k (M f v i)).
Local Notation related := (related N c1 c2 r M).
Context (ok1 ok2 : arr K -> bool) (E1 E2 : K -> arr K -> field N) (W : field N -> field N).
Context (P1 : forall t u, rows u = r -> shp u = c_n c1 -> pads N c1 t u (E1 t u)).
Context (P2 : forall t u, rows u = r -> shp u = c_n c2 -> pads N c2 t u (E2 t u)).
Context (HO : forall u1 u2, related u1 u2 -> ok1 u1 = ok2 u2).
Context (HE : forall t u1 u2, related u1 u2 -> forall v i, in_padded (c_n c2) (ghost_zones3 c2) i -> E2 t u2 v i = W (E1 t u1) v i).
Context (av : bool).
Context (Hpr : forall t u1 u2, related u1 u2 -> forall v i, in_shape (c_n c2) i ->
  gprim N c2 av (W (E1 t u1)) v i = M (gprim N c1 av (E1 t u1)) v i).
Context (A1 A2 : aux N -> Prop) (H1 : forall x, A1 x -> A1 (step_helper N c1 x)) (H2 : forall x, A2 x -> A2 (step_helper N c2 x))
  (I1 : A1 (aux_init N c1 heap1 r)) (I2 : A2 (aux_init N c2 heap2 r)).
Definition auxes (x1 x2 : aux N) : Prop := A1 x1 /\ A2 x2.
Context (Hf : forall x1 x2 s t u1 u2, auxes x1 x2 -> related u1 u2 -> ok1 u1 = true ->
  exists x1' x2' dt k1 k2, solver_f N c1 heap1 x1 s t u1 = Ok (x1', (dt, k1)) /\ solver_f N c2 heap2 x2 s t u2 = Ok (x2', (dt, k2)) /\
    auxes x1' x2' /\ related k1 k2).
Lemma gen_respects : respects N (arr_ops N) (arr_ops N) (checked ok1 (solver_f N c1 heap1)) (checked ok2 (solver_f N c2 heap2))
  related related auxes.
Proof.
  split; cbn [vadd vscale vassign arr_ops].
  - intros x1 x2 t t' u1 u2 A H. unfold checked. rewrite <- (HO u1 u2 H). destruct (ok1 u1) eqn:O; [|reflexivity].
    destruct (Hf x1 x2 t t' u1 u2 A H O) as (x1' & x2' & dt & k1 & k2 & -> & -> & B & C). cbn [res_rel]. split; [exact B|]. split; [reflexivity|exact C].
  - intros k u1 u2 k1 k2 H H'. apply (add_related N c1 c2 r M Mext Madd); [exact H|]. apply (scale_related N c1 c2 r M Mext Mmul), H'.
  - intros k k1 k2 H. apply (scale_related N c1 c2 r M Mext Mmul), H.
  - intros. apply (add_related N c1 c2 r M Mext Madd); assumption.
  - intros. apply (add_related N c1 c2 r M Mext Madd); apply (scale_related N c1 c2 r M Mext Mmul); assumption.
  - intros u1 u2 v1 v2 (R1 & R2 & S1 & S2 & V) (R1' & R2' & S1' & S2' & V').
    destruct (assign_all_is u1 v1 r (c_n c1) (at_ v1) R1 S1) as (z1 & Z1 & RZ1 & SZ1 & VZ1).
    { split; [exact R1'|]. split; [exact S1'|]. reflexivity. }
    destruct (assign_all_is u2 v2 r (c_n c2) (at_ v2) R2 S2) as (z2 & Z2 & RZ2 & SZ2 & VZ2).
    { split; [exact R2'|]. split; [exact S2'|]. reflexivity. }
    rewrite Z1, Z2. cbn [res_rel]. apply (related_ext N c1 c2 r M Mext z1 z2 (at_ v1) (at_ v2)); auto.
Qed.
Theorem gen_moved i T n exact db log fuel u1 u2 (Q : arr K -> arr K -> Prop) : related u1 u2 ->
  (forall w1 w2, related w1 w2 -> Q w1 w2) ->
  moved_outcome Q (simulate_checked ok1 c1 heap1 i av T n exact db log fuel u1)
                (simulate_checked ok2 c2 heap2 i av T n exact db log fuel u2).
Proof.
  intros H HQ. pose proof H as (R1 & R2 & S1 & S2 & V).
  assert (X : res_rel (ode_rel N related auxes (prims N c1 c2 r M))
    (simulate_checked ok1 c1 heap1 i av T n exact db log fuel u1)
    (simulate_checked ok2 c2 heap2 i av T n exact db log fuel u2)).
  { unfold simulate_checked.
    apply (integrate_rel N (arr_ops N) (arr_ops N) _ _ related related auxes (prims N c1 c2 r M) gen_respects).
    - intros x1 x2 [F1 F2]. split; auto.
    - intros x1 x2 t w1 w2 _ Hw. pose proof Hw as (RW1 & RW2 & SW1 & SW2 & VW).
      destruct (payload_is N c1 heap1 av x1 t w1 (E1 t w1) T1 SW1 (P1 t w1 RW1 SW1)) as (d1 & B1 & C1 & D1 & G1).
      destruct (payload_is N c2 heap2 av x2 t w2 (W (E1 t w1)) T2 SW2 (pads_image N c1 c2 r M E1 E2 W P2 HE t w1 w2 Hw)) as (d2 & B2 & C2 & D2 & G2).
      rewrite B1, B2. cbn [res_rel]. unfold prims. cbn [fst]. eapply (related_ext N c1 c2 r M Mext); [congruence|congruence|assumption|assumption|exact G1|exact G2|].
      intros v j Hj. apply (Hpr t w1 w2 Hw v j Hj).
    - split; cbn; auto. rewrite R1, R2. split; assumption. }
  revert X. destruct (simulate_checked ok1 _ _ _ _ _ _ _ _ _ _ _) as [o1|e1], (simulate_checked ok2 _ _ _ _ _ _ _ _ _ _ _) as [o2|e2]; cbn; auto.
  intros [Et Hu Est Esn Ha Hs]. split; auto.
  clear -Hs HQ. induction Hs as [|[t1 d1] [t2 d2] l1 l2 [A B] Hs IH]; constructor; [|exact IH]. split; [exact A|apply HQ, B].
Qed.
End Gen.

(** ** which cells are flagged, and the weights of the faces *)
(** [inadmissible], for any set of neighbours and any domain *)
Definition strays (q : nad_params RNum) (D Zn : ix -> Prop) (f : ix -> R) (x : R) : Prop :=
  exists m M gm gM, least D f m /\ greatest D f M /\ least Zn f gm /\ greatest Zn f gM /\
    let e : R := nad_eps q in
    match nad_range_ q, nad_mode_ q with
    | R_relative, M_local => x < m - e * (M - m) \/ M + e * (M - m) < x
    | R_relative, M_global => x < m - e * (gM - gm) \/ M + e * (gM - gm) < x
    | R_absolute, M_local => x < (1 - e) * m \/ (1 + e) * M < x
    | R_absolute, M_global => x < (1 - e) * gm \/ (1 + e) * gM < x
    | _, _ => False
    end%R.
Definition covers (D1 D2 : ix -> Prop) (f1 f2 : ix -> R) : Prop := forall j, D1 j -> exists j', D2 j' /\ f2 j' = f1 j.
Lemma greatest_map D1 D2 f1 f2 M : covers D1 D2 f1 f2 -> covers D2 D1 f2 f1 -> greatest D1 f1 M -> greatest D2 f2 M.
Proof.
  intros A B [U (j & J & E)]. split.
  - intros k Hk. destruct (B k Hk) as (k' & K1 & <-). apply U, K1.
  - destruct (A j J) as (j' & J' & E'). exists j'. split; [exact J'|congruence].
Qed.
Lemma least_map D1 D2 f1 f2 M : covers D1 D2 f1 f2 -> covers D2 D1 f2 f1 -> least D1 f1 M -> least D2 f2 M.
Proof.
  intros A B [U (j & J & E)]. split.
  - intros k Hk. destruct (B k Hk) as (k' & K1 & <-). apply U, K1.
  - destruct (A j J) as (j' & J' & E'). exists j'. split; [exact J'|congruence].
Qed.
Lemma strays_map q D1 D2 Z1 Z2 f1 f2 x : covers D1 D2 f1 f2 -> covers D2 D1 f2 f1 -> covers Z1 Z2 f1 f2 -> covers Z2 Z1 f2 f1 ->
  strays q D1 Z1 f1 x <-> strays q D2 Z2 f2 x.
Proof.
  intros A B C D. split; intros (m & M & gm & gM & Q1 & Q2 & Q3 & Q4 & Q5); exists m, M, gm, gM;
   (split; [eapply least_map; [| |exact Q1]; assumption|]; split; [eapply greatest_map; [| |exact Q2]; assumption|];
    split; [eapply least_map; [| |exact Q3]; assumption|]; split; [eapply greatest_map; [| |exact Q4]; assumption|exact Q5]).
Qed.
Lemma least_opp (D : ix -> Prop) f m : least D f m -> greatest D (fun j => - f j)%R (- m)%R.
Proof. intros [U (j & J & E)]. split; [intros k Hk; specialize (U k Hk); lra|]. exists j. split; [exact J|lra]. Qed.
Lemma greatest_opp (D : ix -> Prop) f m : greatest D f m -> least D (fun j => - f j)%R (- m)%R.
Proof. intros [U (j & J & E)]. split; [intros k Hk; specialize (U k Hk); lra|]. exists j. split; [exact J|lra]. Qed.
Lemma strays_opp1 q D Zn f x : nad_range_ q = R_relative -> strays q D Zn f x -> strays q D Zn (fun j => - f j)%R (- x)%R.
Proof.
  intros HR (m & M & gm & gM & Q1 & Q2 & Q3 & Q4 & Q5). exists (- M)%R, (- m)%R, (- gM)%R, (- gm)%R.
  split; [apply greatest_opp, Q2|]. split; [apply least_opp, Q1|]. split; [apply greatest_opp, Q4|]. split; [apply least_opp, Q3|].
  cbv zeta in *. rewrite HR in *. set (e := nad_eps q) in *. change (car RNum) with R in *. clearbody e. destruct (nad_mode_ q); [| |exact Q5].
  - destruct Q5 as [Q5|Q5]; [right|left]; replace (- m - - M)%R with (M - m)%R by ring; lra.
  - destruct Q5 as [Q5|Q5]; [right|left]; replace (- gm - - gM)%R with (gM - gm)%R by ring; lra.
Qed.
Lemma strays_opp q D Zn f x : nad_range_ q = R_relative -> strays q D Zn (fun j => - f j)%R (- x)%R <-> strays q D Zn f x.
Proof.
  intro HR. split; [|apply strays_opp1, HR]. intro H. apply strays_opp1 in H; [|exact HR]. rewrite Ropp_involutive in H.
  eapply strays_map; [| | | |exact H]; intros j Hj; exists j; (split; [exact Hj|ring]).
Qed.
(** some line through cell i is not smooth there *)
Definition bumpy (c : config RNum) (ws : grid) (v : Z) (i : ix) : Prop :=
  exists a, active RNum c a = true /\ (sed_line RNum (sed_eps (c_nad c)) (fun k => ws v (up a k i)) (-3) < 1)%R.
Definition flag (c : config RNum) (w ws : grid) (i : ix) : Prop :=
  c_force c = true \/ violates_last (pad_bounds (c_nad c)) (fun v => ws v i) \/
  exists v, selected (c_nad c) 5 v /\
    strays (c_nad c) (nearby (dims RNum c) i) (in_padded (c_n c) (active_width RNum c 3)) (w v) (ws v i) /\
    (sed_on (c_nad c) = true -> bumpy c ws v i).
Lemma sed_line_moved eps (g : Z -> R) j : sed_line RNum eps g j = sed_line RNum eps (fun k => g (j + k)) 0.
Proof.
  unfold sed_line, sed_at, cd. rewrite <- !Z.add_assoc. cbn [Z.add Pos.add Pos.succ]. rewrite !Z.add_0_r. reflexivity.
Qed.
Lemma sed_line_same eps (g g' : Z -> R) : (forall k, 0 <= k <= 6 -> g k = g' k) -> sed_line RNum eps g 0 = sed_line RNum eps g' 0.
Proof.
  intro H. unfold sed_line, sed_at, cd. cbn [Z.add Pos.add Pos.succ].
  rewrite (H 0), (H 1), (H 2), (H 3), (H 4), (H 5), (H 6) by lia. reflexivity.
Qed.
Lemma sed_value_lt ds eps (u : arr R) v i : NoDup ds -> ds <> [] ->
  ((sed_value RNum ds eps u v i < 1)%R <-> exists a, In a ds /\ (sed_line RNum eps (SedP.along RNum a u v (inner ds i)) (getc a i) < 1)%R).
Proof.
  intros ND NE. unfold sed_value. set (l := fun a => sed_line RNum eps (SedP.along RNum a u v (inner ds i)) (getc a i)).
  change (@nmin RNum) with Rmin. change (car RNum) with R in *.
  assert (M : forall x y, (Rmin x y < 1 <-> x < 1 \/ y < 1)%R).
  { intros x y. unfold Rmin. destruct (Rle_dec x y); split; try tauto; lra. }
  destruct ds as [|a [|b [|e [|f rest]]]].
  - congruence.
  - split; [intro H; exists a; split; [left; reflexivity|exact H]|]. intros (x & [<-|[]] & H). exact H.
  - change ((Rmin (l a) (l b) < 1)%R <-> exists x, In x [a; b] /\ (l x < 1)%R). rewrite M. split.
    + intros [H|H]; [exists a|exists b]; (split; [cbn; tauto|exact H]).
    + intros (x & [<-|[<-|[]]] & H); tauto.
  - change ((Rmin (Rmin (l AX) (l AY)) (l AZ) < 1)%R <-> exists x, In x [a; b; e] /\ (l x < 1)%R). rewrite !M.
    inversion ND as [|? ? N1 N2]; subst. inversion N2 as [|? ? N3 N4]; subst.
    assert (T : forall x, In x [a; b; e]) by (intro x; simpl in *; destruct a, b, e, x; tauto).
    split.
    + intros [[H|H]|H]; eexists; (split; [apply T|exact H]).
    + intros ([] & _ & H); tauto.
  - exfalso. inversion ND as [|? ? N1 N2]; subst. inversion N2 as [|? ? N3 N4]; subst. inversion N4 as [|? ? N5 N6]; subst. simpl in *. destruct a, b, e, f; tauto.
Qed.
(** the weight a face gets from flagged cells *)
Definition weighed (n : ix) (fl : ix -> Prop) (a : axis) (i : ix) (w : R) : Prop :=
  ((forall c j, touches a i c -> in_shape n j -> fl j -> blend_weight c j <= w) /\
   (w = 0 \/ exists c j, touches a i c /\ in_shape n j /\ fl j /\ w = blend_weight c j))%R.
Definition bordering (n : ix) (fl : ix -> Prop) (a : axis) (i : ix) : Prop := exists j, touches a i j /\ in_shape n j /\ fl j.
Definition face_value (convex : bool) (n : ix) (fl : ix -> Prop) (a : axis) (i : ix) (w : R) : Prop :=
  if convex then weighed n fl a i w else ((bordering n fl a i -> w = 1) /\ (~ bordering n fl a i -> w = 0))%R.
Definition wgt (theta : option (axis -> ix -> R)) (a : axis) (i : ix) : R := match theta with None => 0%R | Some th => th a i end.
Definition weighs (c : config RNum) (fl : ix -> Prop) (theta : option (axis -> ix -> R)) : Prop :=
  forall a i, active RNum c a = true -> in_shape (face_shape a (c_n c)) i -> face_value (c_convex c) (c_n c) fl a i (wgt theta a i).
Lemma blend_nonneg c j : (0 <= blend_weight c j)%R.
Proof. unfold blend_weight. cbv zeta. repeat destr_if; lra. Qed.
Lemma face_value_fun cv n n' fl fl' a i a' i' w w' : face_value cv n fl a i w ->
  (bordering n fl a i <-> bordering n' fl' a' i') ->
  (cv = true -> forall x, (exists c j, touches a i c /\ in_shape n j /\ fl j /\ x = blend_weight c j) <->
              (exists c j, touches a' i' c /\ in_shape n' j /\ fl' j /\ x = blend_weight c j)) ->
  face_value cv n' fl' a' i' w' -> w = w'.
Proof.
  intros H BB WW H'. destruct cv; cbn [face_value] in *.
  - specialize (WW eq_refl).
    assert (L : forall n1 fl1 a1 i1 w1 n2 fl2 a2 i2 w2, weighed n1 fl1 a1 i1 w1 -> weighed n2 fl2 a2 i2 w2 ->
      (forall x, (exists c j, touches a1 i1 c /\ in_shape n1 j /\ fl1 j /\ x = blend_weight c j) -> (exists c j, touches a2 i2 c /\ in_shape n2 j /\ fl2 j /\ x = blend_weight c j)) ->
      (0 <= w2)%R -> (w1 <= w2)%R).
    { intros n1 fl1 a1 i1 w1 n2 fl2 a2 i2 w2 [_ V1] [U2 _] X P. destruct V1 as [->|V1]; [exact P|].
      destruct (X w1 V1) as (cc & j & A & B & C & ->). apply U2; assumption. }
    assert (P : forall n fl a i w, weighed n fl a i w -> (0 <= w)%R).
    { intros n0 fl0 a0 i0 w0 [_ [->|(cc & j & _ & _ & _ & ->)]]; [lra|apply blend_nonneg]. }
    apply Rle_antisym; eapply L; eauto; intros x Hx; apply (WW x), Hx.
  - destruct H as [H1 H2], H' as [H1' H2']. destruct (classic (bordering n fl a i)) as [B|B].
    + rewrite H1, H1' by tauto. reflexivity.
    + rewrite H2, H2' by tauto. reflexivity.
Qed.
Lemma face_value_none cv n fl a i w : (forall j, in_shape n j -> ~ fl j) -> face_value cv n fl a i w <-> w = 0%R.
Proof.
  intro H. destruct cv; cbn [face_value].
  - split.
    + intros [_ [E|(cc & j & _ & I & F & _)]]; [exact E|]. exfalso. exact (H j I F).
    + intros ->. split; [|left; reflexivity]. intros cc j _ I F. exfalso. exact (H j I F).
  - assert (NB : ~ bordering n fl a i) by (intros (j & _ & I & F); exact (H j I F)). tauto.
Qed.
Lemma any_spec (t : arr bool) : any_trouble t = true <-> exists i, in_shape (shp t) i /\ at_ t 0 i = true.
Proof.
  unfold any_trouble. rewrite existsb_exists. split; intros (i & A & B); exists i; (split; [|exact B]); apply in_ix_list; exact A.
Qed.

Section Flags.
Context (c : config RNum) (HT : tabulated c) (HL : c_limit c = true) (HK : known_options c).
Local Notation wi := (wts_i RNum).
Local Notation wt := (wts_t RNum).
Local Notation n := (c_n c).
Local Notation aw := (active_width RNum c 3).
Lemma wide_is junk t u E : shp u = n -> pads RNum c t u E ->
  exists w, interpolate_primitives RNum c junk t u (c_p c) aw true = Ok w /\ rows w = rows u /\ shp w = padded n aw /\
    forall v i, in_padded n aw i -> at_ w v (shift aw i) = primitives wi wt (c_p c) (c_gamma c) E v i.
Proof.
  intros S HP. pose proof (tab_good RNum c HT) as G. pose proof (good_deg RNum c _ G) as D.
  destruct (HP junk _ (width_detect RNum c HT HL)) as (o & E0 & R & SH & V).
  assert (A0 : forall a, 0 <= getc a aw) by (intro a; rewrite getc_active_width; destruct (active RNum c a); lia).
  destruct (interpolate_primitives_is RNum c junk t u (c_p c) aw o E D E0 R SH V) as (w & E' & R' & S' & V').
  { intro a. rewrite S. destruct (G a). lia. } { exact A0. }
  exists w. split; [exact E'|]. split; [exact R'|]. split; [rewrite S', S; reflexivity|].
  intros v i Hi. rewrite V'.
  - rewrite <- (c_prim wi wt tables_are (c_p c) D). f_equal; try (apply ix_ext; intro a;
     rewrite !getc_shift', !getc_neg, getc_prim_width, getc_scale3, getc_sr3; unfold interp_cost; destruct a; cbn [getc cx cy cz]; lia).
  - rewrite S'. intro a. specialize (Hi a). rewrite getc_shift', getc_padded, S. lia.
Qed.
Lemma inner_shift i : inner (dims RNum c) i = shift aw i.
Proof. apply ix_ext. intro a. rewrite getc_shift', getc_active_width. unfold inner. destruct a; cbn [getc cx cy cz]; rewrite mem_dims; destruct (active RNum c _); lia. Qed.
Lemma cropped_padded : cropped (dims RNum c) (padded n aw) = n.
Proof. apply ix_ext. intro a. unfold cropped. destruct a; cbn [getc cx cy cz padded active_width]; rewrite mem_dims; destruct (active RNum c _); lia. Qed.
Context (r : Z) (Hr : 2 <= r) (t : R).
Lemma flags_are junk u E F dt det : rows u = r -> shp u = n -> pads RNum c t u E -> flux_arrays_ok RNum c r F ->
  (forall d, active RNum c d = true -> forall v i, in_shape (face_shape d n) i -> at_ (F d) v i = gflux RNum c (c_p c) L_none d E v i) ->
  detect RNum c junk t u F dt = Ok det ->
  exists us, rows us = r /\ shp us = n /\ (forall v i, in_shape n i -> at_ us v i = (at_ u v i + dt * gdudt RNum c (c_p c) L_none E v i)%R) /\
    forall Es, pads RNum c t us Es -> forall i, in_shape n i -> (at_ (d_trouble det) 0 i = true <-> flag c (primitives wi wt (c_p c) (c_gamma c) E) (primitives wi wt (c_p c) (c_gamma c) Es) i).
Proof.
  intros R S HP FO VF H. pose proof (tab_good RNum c HT) as G.
  assert (N1 : forall d, 1 <= getc d n) by (intro d; apply (G d)).
  assert (HD : dims RNum c <> []) by (apply sane_dims, HT).
  unfold detect, candidate_primitives in H.
  destruct (euler_equation_is RNum c F r n N1 ltac:(lia) HD (fun d _ => FO d)) as (k & EK & RK & SK & VK).
  rewrite EK in H. cbn [bind] in H.
  destruct (amap2_is (fun x y => @nadd RNum x (nmul dt y)) u k r n (at_ u) (at_ k)) as (us & EU & RU & SU & VU).
  { split; [exact R|]. split; [exact S|]. reflexivity. } { split; [exact RK|]. split; [exact SK|]. reflexivity. }
  rewrite EU in H. cbn [bind] in H.
  destruct (wide_is (junk 1) t u E S HP) as (w & EW & RW & SW & VW). rewrite EW in H. cbn [bind] in H.
  destruct (interpolate_primitives RNum c (junk 2) t us (c_p c) aw true) as [ws|] eqn:EX; cbn [bind] in H; [|discriminate].
  exists us. split; [exact RU|]. split; [exact SU|]. split.
  { intros v i Hi. rewrite VU. cbn [nadd nmul RNum]. f_equal. f_equal. unfold gdudt. rewrite VK. apply (gsum_ext RNum c _ _ n); [exact Hi|].
    intros d A v' j Hj. apply VF; assumption. }
  intros Es HPs i Hi.
  destruct (wide_is (junk 2) t us Es SU HPs) as (ws' & EX' & RX & SX & VX). rewrite EX in EX'. injection EX' as <-. cbn [bind fst snd] in H.
  destruct (detect_iff (c_nad c) (dims RNum c) (active_rows RNum w) (active_rows RNum ws)) as (d0 & al & ED & EA & RD & SD & FD).
  { destruct HK as (K1 & K2 & K3). split; [exact K2|]. split; [exact K3|]. split; [reflexivity|]. split; [reflexivity|].
    split; [cbn [active_rows shp]; exact (eq_trans SW (eq_sym SX))|].
    split; [apply dims_nodup|]. split; [exact HD|]. intro a. rewrite mem_dims. cbn [active_rows shp]. rewrite SW.
    specialize (N1 a). destruct a; cbn [padded active_width getc cx cy cz] in *; destruct (active RNum c _); lia. }
  rewrite ED in H. cbn [bind] in H.
  destruct (c_force c) eqn:EF.
  { injection H as <-. cbn [d_trouble amap at_]. unfold flag. rewrite EF. tauto. }
  injection H as <-. cbn [active_rows shp] in *.
  assert (Hc : in_shape (cropped (dims RNum c) (shp w)) i) by (rewrite SW, cropped_padded; exact Hi).
  assert (IP : in_padded n aw i) by (intro a; specialize (Hi a); rewrite getc_active_width; destruct (active RNum c a); lia).
  rewrite (FD i Hc). unfold flag. rewrite EF, inner_shift.
  assert (VL : forall b f g, (forall v, f v = g v) -> violates_last b f <-> violates_last b g).
  { intros b f g EQ. unfold violates_last. destruct b as [l|]; [|tauto]. split; intros (e & A & B); exists e; (split; [exact A|]); [rewrite <- EQ|rewrite EQ]; exact B. }
  rewrite (VL _ (fun v => at_ (active_rows RNum ws) v (shift aw i)) (fun v => primitives wi wt (c_p c) (c_gamma c) Es v i)) by (intro v; apply VX, IP).
  assert (IN : forall v x, inadmissible (c_nad c) (dims RNum c) (active_rows RNum w) v (shift aw i) x <->
     strays (c_nad c) (nearby (dims RNum c) i) (in_padded n aw) (primitives wi wt (c_p c) (c_gamma c) E v) x).
  { intros v x. change (strays (c_nad c) (nearby (dims RNum c) (shift aw i)) (in_shape (shp w)) (at_ w v) x <->
     strays (c_nad c) (nearby (dims RNum c) i) (in_padded n aw) (primitives wi wt (c_p c) (c_gamma c) E v) x).
    assert (NI : forall j, nearby (dims RNum c) i j -> in_padded n aw j).
    { intros j Hj a. specialize (Hj a). specialize (Hi a). rewrite mem_dims in Hj. rewrite getc_active_width. destruct (active RNum c a); lia. }
    assert (NS : forall j, nearby (dims RNum c) (shift aw i) (shift aw j) <-> nearby (dims RNum c) i j).
    { intro j. split; intros Hj a; specialize (Hj a); rewrite !getc_shift' in *; destruct (mem_axis a _); lia. }
    assert (SS : forall j, shift aw (shift (neg3 aw) j) = j) by (intro j; apply ix_ext; intro a; rewrite !getc_shift', getc_neg; lia).
    assert (ZS : forall j, in_shape (shp w) (shift aw j) <-> in_padded n aw j).
    { intro j. rewrite SW. split; intros Hj a; specialize (Hj a); rewrite getc_shift', getc_padded in *; lia. }
    apply strays_map.
    - intros j Hj. exists (shift (neg3 aw) j). rewrite <- (SS j) in Hj at 1. apply NS in Hj. split; [exact Hj|]. rewrite <- VW by (apply NI, Hj). rewrite SS. reflexivity.
    - intros j Hj. exists (shift aw j). split; [apply NS, Hj|]. apply VW, NI, Hj.
    - intros j Hj. exists (shift (neg3 aw) j). rewrite <- (SS j) in Hj at 1. apply ZS in Hj. split; [exact Hj|]. rewrite <- VW by exact Hj. rewrite SS. reflexivity.
    - intros j Hj. exists (shift aw j). split; [apply ZS, Hj|]. apply VW, Hj. }
  assert (AL : forall v, ((at_ al v i < 1)%R <-> bumpy c (primitives wi wt (c_p c) (c_gamma c) Es) v i)).
  { intro v. destruct (sed_is RNum (dims RNum c) (sed_eps (c_nad c)) (active_rows RNum ws)) as (al' & EA' & _ & _ & FA).
    { apply dims_nodup. } { exact HD. }
    { intros a Ha. rewrite mem_dims in Ha. cbn [active_rows shp]. rewrite SX, getc_padded, getc_active_width, Ha. specialize (N1 a). lia. }
    rewrite EA in EA'. injection EA' as <-. rewrite (FA v i). rewrite sed_value_lt by (first [apply dims_nodup|exact HD]). rewrite inner_shift.
    unfold bumpy. split; intros (a & Ha & H); exists a.
    - assert (Aa : active RNum c a = true) by (rewrite <- mem_dims; apply in_mem; exact Ha). split; [exact Aa|].
      rewrite sed_line_moved in H |- *. refine (eq_ind _ (fun x => (x < 1)%R) H _ _). apply sed_line_same. intros q Hq. unfold SedP.along.
      change (at_ (active_rows RNum ws) v) with (at_ ws v). rewrite <- VX.
      + f_equal. apply ix_ext. intro b. unfold up. rewrite !getc_shift'. destruct (axis_dec a b) as [<-|NE]; rewrite ?getc_setc_eq, ?(getc_setc_ne a b) by assumption; [|rewrite getc_shift'; reflexivity].
        rewrite getc_active_width, Aa. lia.
      + intro b. specialize (Hi b). unfold up. rewrite getc_active_width. destruct (axis_dec a b) as [<-|NE]; rewrite ?getc_setc_eq, ?(getc_setc_ne a b) by assumption; [rewrite Aa; lia|]. destruct (active RNum c b); lia.
    - assert (Ia : In a (dims RNum c)) by (apply in_mem; rewrite mem_dims; exact Ha). split; [exact Ia|].
      rewrite sed_line_moved in H |- *. refine (eq_ind_r (fun x => (x < 1)%R) H _). apply sed_line_same. intros q Hq. unfold SedP.along.
      change (at_ (active_rows RNum ws) v) with (at_ ws v). rewrite <- VX.
      + f_equal. apply ix_ext. intro b. unfold up. rewrite !getc_shift'. destruct (axis_dec a b) as [<-|NE]; rewrite ?getc_setc_eq, ?(getc_setc_ne a b) by assumption; [|rewrite getc_shift'; reflexivity].
        rewrite getc_active_width, Ha. lia.
      + intro b. specialize (Hi b). unfold up. rewrite getc_active_width. destruct (axis_dec a b) as [<-|NE]; rewrite ?getc_setc_eq, ?(getc_setc_ne a b) by assumption; [rewrite Ha; lia|]. destruct (active RNum c b); lia. }
  split.
  - intros [A|(v & A & B & B')]; [right; left; exact A|]. right. right. exists v. split; [exact A|].
    change (at_ (active_rows RNum ws) v (shift aw i)) with (at_ ws v (shift aw i)) in B. rewrite VX in B by exact IP.
    split; [apply IN, B|]. intro SO. apply AL, B', SO.
  - intros [A|[A|(v & A & B & B')]]; [discriminate|left; exact A|]. right. exists v. split; [exact A|].
    change (at_ (active_rows RNum ws) v (shift aw i)) with (at_ ws v (shift aw i)). rewrite VX by exact IP. split; [apply IN, B|].
    intro SO. apply AL, B', SO.
Qed.
Context (HB : c_convex c = false \/ flat_box c).
Lemma broad (tr : arr bool) : rows tr = 1 -> shp tr = n ->
  exists th, broadcast_to_troubled_interfaces RNum tr (dims RNum c) (c_convex c) (is_periodic RNum c) = Ok th /\
    forall a i, active RNum c a = true -> in_shape (face_shape a n) i -> face_value (c_convex c) n (fun j => at_ tr 0 j = true) a i (at_ (th a) 0 i).
Proof.
  intros RT ST. assert (IA : forall a, active RNum c a = true -> In a (dims RNum c)) by (intros a Ha; apply in_mem; rewrite mem_dims; exact Ha).
  destruct (c_convex c) eqn:CV.
  - destruct HB as [HB'|HB']; [discriminate|].
    assert (T : thin (dims RNum c) (shp tr)).
    { intro a. rewrite ST. split; [apply (tab_good RNum c HT a)|]. rewrite mem_dims. intro H.
      unfold active in H. apply negb_false_iff, andb_true_iff in H. lia. }
    assert (X : exists th, broadcast_to_troubled_interfaces RNum tr (dims RNum c) true (is_periodic RNum c) = Ok th /\ SpecLim.blended tr (dims RNum c) th).
    { destruct (flat_dims c HT HB') as [(a & D)|(a & b & AB & D & PZ)]; rewrite D in *.
      - exact (convex_line tr a (is_periodic RNum c) RT T).
      - exact (convex_plane tr a b (is_periodic RNum c) AB RT T PZ). }
    destruct X as (th & E & B). exists th. split; [exact E|]. intros a i Ha Hi. destruct (B a) as (_ & S & V). rewrite ST in S.
    destruct (V i ltac:(rewrite S; exact Hi)) as [V1 _]. specialize (V1 (IA a Ha)). unfold face_weight in V1. rewrite ST in V1. exact V1.
  - destruct (simple_faces RNum tr (dims RNum c) (is_periodic RNum c) flags_R RT) as (th & E & B).
    { intro b. rewrite ST. destruct (tab_good RNum c HT b). lia. }
    exists th. split; [exact E|]. intros a i Ha Hi. destruct (B a) as (_ & S & V). rewrite ST in S.
    destruct (V i ltac:(rewrite S; exact Hi)) as [V1 V2]. rewrite ST in V1, V2. cbn [face_value]. split.
    + intro X. apply V1. split; [apply IA, Ha|exact X].
    + intro X. apply V2. intros [_ Y]. exact (X Y).
Qed.
Context (xc : axis -> Z -> R) (HA : fillable (N := RNum) xc c r) (heap : Z -> Z -> ix -> R).
Local Notation P f := (primitives wi wt (c_p c) (c_gamma c) f).
Lemma limited_rhs x t' u E : limiting RNum c r x -> rows u = r -> shp u = n -> pads RNum c t u E ->
  exists x' dt k us theta, solver_f RNum c heap x t t' u = Ok (x', (dt, k)) /\ limiting RNum c r x' /\
    gdt RNum c (c_p c) E = Ok dt /\ rows k = r /\ shp k = n /\
    rows us = r /\ shp us = n /\ (forall v i, in_shape n i -> at_ us v i = (at_ u v i + dt * gdudt RNum c (c_p c) L_none E v i)%R) /\
    (forall Es, pads RNum c t us Es -> weighs c (flag c (P E) (P Es)) theta) /\
    forall v i, in_shape n i -> at_ k v i = gsum RNum c (mixed RNum c theta E) v i.
Proof.
  intros LX R S HP. destruct HK as (K1 & K2 & K3).
  assert (HB2 : forall tr : arr bool, rows tr = 1 -> shp tr = n ->
     exists th, broadcast_to_troubled_interfaces RNum tr (dims RNum c) (c_convex c) (is_periodic RNum c) = Ok th)
    by (intros tr A B; destruct (broad tr A B) as (th & EQ & _); exists th; exact EQ).
  destruct (limited_f_ok RNum xc c heap r HT HA Hr HL K1 K2 K3 HB2 x t t' u LX (conj R S)) as (x' & dt & k & E0 & LX' & RK & SK).
  pose proof E0 as E'. unfold solver_f in E'.
  apply hydrodynamics_lim with (E := E) in E'; auto.
  2:{ apply tab_good, HT. } 2:{ lia. } 2:{ apply sane_dims, HT. } 2:{ rewrite R. apply LX. }
  2:{ unfold padding. apply HP; auto. apply width_main, HT. }
  2:{ intros _. split; [exact K1|]. unfold padding. apply HP; auto. apply width_fall, HT. }
  destruct E' as (ED & _ & _ & _ & _ & F & theta & FO & VF & MO & VK). rewrite R in FO.
  assert (W : forall det, detect RNum c (fun j => heap (4 * (x_evals x + 1) + j)) t u F dt = Ok det -> exists us, rows us = r /\ shp us = n /\
    (forall v i, in_shape n i -> at_ us v i = (at_ u v i + dt * gdudt RNum c (c_p c) L_none E v i)%R) /\
    forall Es, pads RNum c t us Es -> forall i, in_shape n i -> (at_ (d_trouble det) 0 i = true <-> flag c (P E) (P Es) i)).
  { intros det HDt. exact (flags_are _ u E F dt det R S HP FO VF HDt). }
  assert (FV : forall cv fl fl' a i w, (forall j, in_shape n j -> fl j <-> fl' j) -> face_value cv n fl a i w -> face_value cv n fl' a i w).
  { intros cv fl fl' a i w HF. destruct cv; cbn [face_value].
    - intros [A B]. split; [intros cc j H1 H2 H3; apply A; auto; apply HF; auto|]. destruct B as [B|(cc & j & B1 & B2 & B3 & B4)]; [left; exact B|right].
      exists cc, j. repeat (split; auto). apply HF; auto.
    - assert (B : bordering n fl a i <-> bordering n fl' a i) by (split; intros (j & B1 & B2 & B3); exists j; (split; [exact B1|split; [exact B2|apply HF; auto]])). tauto. }
  destruct theta as [th|]; cbn [mask_of] in MO.
  - destruct MO as (_ & det & f & HDt & RT & ST & AT & BT & VT). destruct (W det HDt) as (us & RU & SU & VU & FL).
    destruct (broad _ RT ST) as (f' & BT' & VF'). rewrite BT in BT'. injection BT' as <-.
    exists x', dt, k, us, (Some th). repeat (split; [assumption|]). split; [|exact VK].
    intros Es HPs a i Ha Hi. cbn [wgt]. rewrite VT. eapply FV; [exact (FL Es HPs)|]. apply VF'; assumption.
  - destruct MO as [MO|(det & HDt & AT)]; [congruence|]. destruct (W det HDt) as (us & RU & SU & VU & FL).
    destruct (detect_ok RNum xc c r HT HA Hr HL K2 K3 (fun j => heap (4 * (x_evals x + 1) + j)) t u F dt (conj R S) FO) as (det' & HDt' & _ & ST & _).
    rewrite HDt in HDt'. injection HDt' as <-.
    exists x', dt, k, us, None. repeat (split; [assumption|]). split; [|exact VK].
    intros Es HPs a i Ha Hi. apply face_value_none; [|reflexivity]. intros j Hj Hfl. apply (FL Es HPs) in Hfl; [|exact Hj].
    assert (X : any_trouble (d_trouble det) = true) by (apply any_spec; exists j; rewrite ST; auto). congruence.
Qed.
End Flags.
Lemma mixed_wgt (c : config RNum) theta (E : grid) d v j : mixed RNum c theta E d v j =
  ((1 - wgt theta d j) * gflux RNum c (c_p c) L_none d E v j + wgt theta d j * gflux RNum c (fallback_p RNum c) (c_limiter c) d E v j)%R.
Proof. unfold mixed, wgt. destruct theta as [th|]; [reflexivity|]. generalize (gflux RNum c (c_p c) L_none d E v j), (gflux RNum c (fallback_p RNum c) (c_limiter c) d E v j). change (car RNum) with R. intros x y. change (@eq R x ((1 - 0) * x + 0 * y)%R). ring. Qed.
Lemma closed_fillable {N} (c : config N) xc q : closed c -> fillable xc c q.
Proof. intros H a. destruct (H a) as [H0|[H1 H2]]; [left; exact H0|right]. split; [left; apply H1|]. split; [left; apply H1|exact H2]. Qed.
