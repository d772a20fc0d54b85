(** Runs of two solvers whose right-hand sides are images of each other. *)
From Coq Require Import ZArith List Bool Lia.
From Verif Require Import Err Num PySlice NdArray HydroM RiemannM StencilsM FvM BcM SedM
  LimitM OdeM SolverM SpecBc SpecSolver SpecCons NdArrayP FvP BcP BcQ OpP SolverP OdeP RelP RelS LimP RunP ConsP ExistP SpecSym.
Import ListNotations.
Open Scope Z_scope.

Section Pad.
Context (N : Num).
Local Notation K := (car N).
(** E is what any sufficiently narrow padding of u shows *)
Definition pads (c : config N) (t : K) (u : arr K) (E : field N) : Prop :=
  forall junk g, (forall a, 0 <= getc a g <= getc a (ghost_zones3 c)) ->
  exists o, apply N (c_bc c) junk u g t = Ok o /\ rows o = rows u /\ shp o = padded (shp u) g /\ shows N o (shp u) g E.
Lemma closed_pads (c : config N) t u : tabulated c -> closed c -> shp u = c_n c ->
  pads c t u (copied N (c_bc c) (c_n c) u).
Proof.
  intros [[Sn _ _ _] _] HC S junk g HW.
  destruct (apply_copies N (c_bc c) junk u g t) as (o & E & R & SH & V).
  - intro a. rewrite S. specialize (Sn a). lia.
  - intro a. apply HW.
  - intro a. rewrite S. eapply copy_axis_narrow; [apply HC|apply HW].
  - exists o. split; [exact E|]. split; [exact R|]. split; [exact SH|]. intros v i Hi.
    destruct (V v i Hi) as [_ ->]. rewrite S. reflexivity.
Qed.
Lemma pads_ext (c : config N) t u E E' : shp u = c_n c -> pads c t u E ->
  (forall v i, in_padded (c_n c) (ghost_zones3 c) i -> E v i = E' v i) -> pads c t u E'.
Proof.
  intros S H X junk g HG. destruct (H junk g HG) as (o & A & R & SH & V). exists o. repeat (split; [assumption|]).
  intros v i Hi. rewrite V by exact Hi. apply X. intro a. specialize (Hi a). specialize (HG a). rewrite S in Hi. lia.
Qed.

(** the primitive variables of a snapshot *)
Definition gprim (c : config N) (av : bool) (E : field N) : field N := fun v i =>
  let s := neg3 (prim_width (c_p c) (mkix 0 0 0) av) in
  if av then pprim N (c_p c) (c_gamma c) E v (shift s i)
  else pcell N (compute_primitives N (c_gamma c)) (pcentre N (c_p c) E) v (shift s i).
Lemma snap_prim (c : config N) junk t u av E : tabulated c -> shp u = c_n c -> pads c t u E ->
  exists w, interpolate_primitives N c junk t u (c_p c) (mkix 0 0 0) av = Ok w /\ rows w = rows u /\ shp w = c_n c /\
    forall v i, in_shape (c_n c) i -> at_ w v i = gprim c av E v i.
Proof.
  intros T S HP. pose proof (tab_good N c T) as G.
  assert (D : forall a, deg_ok (getc a (c_p c))) by apply (good_deg N c _ G).
  assert (Z0 : forall a, getc a (mkix 0 0 0) = 0) by (intros []; reflexivity).
  assert (N0 : forall a, 0 <= getc a (shp u)) by (intro a; rewrite S; destruct (G a); lia).
  assert (HW : forall a, 0 <= getc a (prim_width (c_p c) (mkix 0 0 0) av) <= getc a (ghost_zones3 c)).
  { intro a. pose proof (width_main N c T a) as W. unfold solver_width in W. rewrite getc_prim_width in *.
    rewrite getc_active_width in W. rewrite Z0. pose proof (sr_pos _ (D a)).
    pose proof (ghost_width_pos (c_p c) D). unfold interp_cost in *. destruct (active N c a), av; lia. }
  destruct (HP junk _ HW) as (o & E0 & R & SH & V).
  destruct av.
  - destruct (interpolate_primitives_is N c junk t u (c_p c) (mkix 0 0 0) o E D E0 R SH V N0) as (w & E' & R' & S' & V').
    { intro a. rewrite Z0. lia. }
    assert (S2 : shp w = c_n c) by (rewrite S', S; apply ix_ext; intro a; rewrite getc_padded, Z0; lia).
    exists w. split; [exact E'|]. split; [exact R'|]. split; [exact S2|].
    intros v i Hi. rewrite V' by (rewrite S2; exact Hi). reflexivity.
  - unfold interpolate_primitives. change (mkix _ _ _) with (prim_width (c_p c) (mkix 0 0 0) false). rewrite E0. cbn [bind].
    assert (Sh : forall a, getc a (shp o) = getc a (c_n c) + 2 * stencil_right (getc a (c_p c))).
    { intro a. rewrite SH, getc_padded, getc_prim_width, Z0, S. unfold interp_cost. lia. }
    destruct (cell_centers_is N (c_p c) o D) as (cc & E1 & R1 & S1 & V1).
    { intro a. rewrite Sh. specialize (N0 a). rewrite S in N0. lia. }
    rewrite E1. cbn [bind]. eexists. split; [reflexivity|]. cbn [cmap rows shp at_]. split; [congruence|].
    split. { apply ix_ext. intro a. rewrite S1, Sh. lia. }
    intros v i Hi. unfold gprim, pcell. apply cellwise_prim. intro w. rewrite V1.
    rewrite <- (op_shift N _ _ (op_pcentre N (c_p c) D)).
    apply (op_local N _ _ (op_pcentre N (c_p c) D)). intros x j Hj. unfold shiftf. rewrite <- V.
    + rewrite shift_pos. reflexivity.
    + intro a. specialize (Hj a). specialize (Hi a). rewrite S.
      rewrite getc_shift', getc_neg, getc_prim_width, Z0. rewrite getc_scale3, getc_sr3 in Hj. unfold interp_cost. lia.
Qed.
Lemma payload_is (c : config N) heap av x t u E : tabulated c -> shp u = c_n c -> pads c t u E ->
  exists w, snap_payload N c heap av x t u = Ok (w, (x_trouble x, x_nad x, x_pad x)) /\ rows w = rows u /\ shp w = c_n c /\
    forall v i, in_shape (c_n c) i -> at_ w v i = gprim c av E v i.
Proof.
  intros T S HP. unfold snap_payload. destruct (snap_prim c (heap 0) t u av E T S HP) as (w & E1 & R & SW & VW).
  rewrite E1. cbn [bind].
  destruct (assign_all_is (mkarr (rows u) (c_n c) (fun _ _ => nofZ 0)) w (rows u) (c_n c) (at_ w)) as (z & EZ & RZ & SZ & VZ); try reflexivity.
  { split; [exact R|]. split; [exact SW|]. reflexivity. }
  rewrite EZ. cbn [bind]. eexists. split; [reflexivity|]. split; [exact RZ|]. split; [exact SZ|].
  intros v i Hi. rewrite VZ. apply VW, Hi.
Qed.
End Pad.

Section SymRun.
Context (N : Num).
Local Notation K := (car N).
Context (c1 c2 : config N) (heap1 heap2 : Z -> Z -> ix -> K) (r : Z).
Context (T1 : tabulated c1) (T2 : tabulated c2) (L1 : c_limit c1 = false) (L2 : c_limit c2 = false) (Hr : 1 <= r).
(** the map between states *)
Context (M : field N -> field N).
Context (Mext : forall f g, (forall v i, in_shape (c_n c1) i -> f v i = g v i) ->
  forall v i, in_shape (c_n c2) i -> M f v i = M g v i).
Context (Madd : forall f g v i, M (fun v i => nadd (f v i) (g v i)) v i = nadd (M f v i) (M g v i)).
Context (Mmul : forall k f v i, M (fun v i => nmul k (f v i)) v i = nmul k (M f v i)).
Definition related (u1 u2 : arr K) : Prop :=
  rows u1 = r /\ rows u2 = r /\ shp u1 = c_n c1 /\ shp u2 = c_n c2 /\
  forall v i, in_shape (c_n c2) i -> at_ u2 v i = M (at_ u1) v i.
(** the map between padded fields *)
Context (ok1 ok2 : arr K -> bool) (E1 E2 : K -> arr K -> field N) (W : field N -> field N).
Context (P1 : forall t u, rows u = r -> shp u = c_n c1 -> pads N c1 t u (E1 t u)).
Context (P2 : forall t u, rows u = r -> shp u = c_n c2 -> pads N c2 t u (E2 t u)).
Context (HO : forall u1 u2, related u1 u2 -> ok1 u1 = ok2 u2).
Context (HE : forall t u1 u2, related u1 u2 -> forall v i, in_padded (c_n c2) (ghost_zones3 c2) i -> E2 t u2 v i = W (E1 t u1) v i).
Context (Hdt : forall t u1 u2, related u1 u2 -> ok1 u1 = true -> gdt N c2 (c_p c2) (W (E1 t u1)) = gdt N c1 (c_p c1) (E1 t u1)).
Context (Hdu : forall t u1 u2, related u1 u2 -> ok1 u1 = true -> forall v i, in_shape (c_n c2) i ->
  gdudt N c2 (c_p c2) L_none (W (E1 t u1)) v i = M (gdudt N c1 (c_p c1) L_none (E1 t u1)) v i).
Context (av : bool).
Context (Hpr : forall t u1 u2, related u1 u2 -> forall v i, in_shape (c_n c2) i ->
  gprim N c2 av (W (E1 t u1)) v i = M (gprim N c1 av (E1 t u1)) v i).

Lemma pads_image t u1 u2 : related u1 u2 -> pads N c2 t u2 (W (E1 t u1)).
Proof.
  intro H. pose proof H as (R1 & R2 & S1 & S2 & V). eapply pads_ext; [exact S2|apply P2; auto|].
  intros v i Hi. apply (HE t u1 u2 H v i Hi).
Qed.
Definition aux_related (x1 x2 : aux N) : Prop :=
  flux_arrays_ok N c1 r (x_flux x1) /\ flux_arrays_ok N c2 r (x_flux x2).
Definition prims (d1 d2 : payload N) : Prop := related (fst d1) (fst d2).
Lemma related_ext u1 u2 f1 f2 : rows u1 = r -> rows u2 = r -> shp u1 = c_n c1 -> shp u2 = c_n c2 ->
  (forall v i, in_shape (c_n c1) i -> at_ u1 v i = f1 v i) -> (forall v i, in_shape (c_n c2) i -> at_ u2 v i = f2 v i) ->
  (forall v i, in_shape (c_n c2) i -> f2 v i = M f1 v i) -> related u1 u2.
Proof.
  intros R1 R2 S1 S2 V1 V2 H. repeat (split; [assumption|]). intros v i Hi. rewrite V2, H by exact Hi.
  apply Mext; [|exact Hi]. intros. symmetry. auto.
Qed.
Lemma add_related x1 x2 y1 y2 : related x1 x2 -> related y1 y2 -> res_rel related (amap2 nadd x1 y1) (amap2 nadd x2 y2).
Proof.
  intros (R1 & R2 & S1 & S2 & V) (R1' & R2' & S1' & S2' & V').
  destruct (amap2_is nadd x1 y1 r (c_n c1) (at_ x1) (at_ y1)) as (z1 & Z1 & RZ1 & SZ1 & VZ1); try (split; auto).
  destruct (amap2_is nadd x2 y2 r (c_n c2) (at_ x2) (at_ y2)) as (z2 & Z2 & RZ2 & SZ2 & VZ2); try (split; auto).
  rewrite Z1, Z2. cbn [res_rel].
  apply (related_ext z1 z2 (fun v i => nadd (at_ x1 v i) (at_ y1 v i)) (fun v i => nadd (at_ x2 v i) (at_ y2 v i))); auto.
  intros v i Hi. cbn beta. rewrite Madd, V, V' by exact Hi. reflexivity.
Qed.
Lemma scale_related k x1 x2 : related x1 x2 -> related (amap (fun x => nmul k x) x1) (amap (fun x => nmul k x) x2).
Proof.
  intros (R1 & R2 & S1 & S2 & V). apply (related_ext (amap (fun x => nmul k x) x1) (amap (fun x => nmul k x) x2) (fun v i => nmul k (at_ x1 v i)) (fun v i => nmul k (at_ x2 v i))); auto.
  intros v i Hi. cbn beta. etransitivity; [|symmetry; apply (Mmul k (at_ x1) v i)].
  exact (f_equal (nmul k) (V v i Hi)).
Qed.

Lemma sym_respects : respects N (arr_ops N) (arr_ops N) (checked ok1 (solver_f N c1 heap1)) (checked ok2 (solver_f N c2 heap2))
  related related aux_related.
Proof.
  split; cbn [vadd vscale vassign arr_ops].
  - intros x1 x2 t t' u1 u2 [F1 F2] H. pose proof H as (R1 & R2 & S1 & S2 & V). unfold checked.
    rewrite <- (HO u1 u2 H). destruct (ok1 u1) eqn:O; [|reflexivity]. unfold solver_f.
    destruct (hydrodynamics_is N c1 heap1 x1 t u1 (E1 t u1)) as (x1' & dt1 & k1 & A1 & B1 & RK1 & SK1 & VK1 & FO1 & EV1); auto.
    { apply tab_good; assumption. } { lia. } { apply sane_dims, T1. } { rewrite R1. exact F1. }
    { unfold padding. apply P1; auto. apply width_main; assumption. }
    destruct (hydrodynamics_is N c2 heap2 x2 t u2 (W (E1 t u1))) as (x2' & dt2 & k2 & A2 & B2 & RK2 & SK2 & VK2 & FO2 & EV2); auto.
    { apply tab_good; assumption. } { lia. } { apply sane_dims, T2. } { rewrite R2. exact F2. }
    { unfold padding. apply (pads_image t u1 u2 H). apply width_main; assumption. }
    rewrite A1, A2. cbn [res_rel]. split; [|split].
    + rewrite R1 in FO1. rewrite R2 in FO2. split; assumption.
    + rewrite (Hdt t u1 u2 H O), B1 in B2. cbn. congruence.
    + cbn. eapply related_ext; [congruence|congruence|assumption|assumption|exact VK1|exact VK2|].
      intros v i Hi. apply (Hdu t u1 u2 H O v i Hi).
  - intros k u1 u2 k1 k2 H H'. apply add_related; [exact H|]. apply scale_related, H'.
  - intros k k1 k2 H. apply scale_related, H.
  - intros. apply add_related; assumption.
  - intros. apply add_related; apply scale_related; assumption.
  - intros u1 u2 v1 v2 (R1 & R2 & S1 & S2 & V) (R1' & R2' & S1' & S2' & V').
    destruct (assign_all_is u1 v1 r (c_n c1) (at_ v1) R1 S1) as (z1 & Z1 & RZ1 & SZ1 & VZ1).
    { split; [exact R1'|]. split; [exact S1'|]. reflexivity. }
    destruct (assign_all_is u2 v2 r (c_n c2) (at_ v2) R2 S2) as (z2 & Z2 & RZ2 & SZ2 & VZ2).
    { split; [exact R2'|]. split; [exact S2'|]. reflexivity. }
    rewrite Z1, Z2. cbn [res_rel]. apply (related_ext z1 z2 (at_ v1) (at_ v2)); auto.
Qed.
Theorem sym_run i T n exact db log fuel u1 u2 : related u1 u2 ->
  res_rel (ode_rel N related aux_related prims)
    (simulate_checked ok1 c1 heap1 i av T n exact db log fuel u1)
    (simulate_checked ok2 c2 heap2 i av T n exact db log fuel u2).
Proof.
  intro H. pose proof H as (R1 & R2 & S1 & S2 & V). unfold simulate_checked.
  apply (integrate_rel N (arr_ops N) (arr_ops N) _ _ related related aux_related prims sym_respects).
  - intros x1 x2 [F1 F2]. split; rewrite helper_flux; assumption.
  - intros x1 x2 t w1 w2 _ Hw. pose proof Hw as (RW1 & RW2 & SW1 & SW2 & VW).
    destruct (payload_is N c1 heap1 av x1 t w1 (E1 t w1) T1 SW1 (P1 t w1 RW1 SW1)) as (d1 & A1 & B1 & C1 & D1).
    destruct (payload_is N c2 heap2 av x2 t w2 (W (E1 t w1)) T2 SW2 (pads_image t w1 w2 Hw)) as (d2 & A2 & B2 & C2 & D2).
    rewrite A1, A2. cbn [res_rel]. unfold prims. cbn [fst]. eapply related_ext; [congruence|congruence|assumption|assumption|exact D1|exact D2|].
    intros v j Hj. apply (Hpr t w1 w2 Hw v j Hj).
  - split; cbn; auto. split; intro d; cbn; rewrite ?R1, ?R2; auto.
Qed.
(** what can be seen of the two runs *)
Theorem sym_moved i T n exact db log fuel u1 u2 (Q : arr K -> arr K -> Prop) : related u1 u2 ->
  (forall w1 w2, related w1 w2 -> Q w1 w2) ->
  moved_outcome Q (simulate_checked ok1 c1 heap1 i av T n exact db log fuel u1)
                (simulate_checked ok2 c2 heap2 i av T n exact db log fuel u2).
Proof.
  intros H HQ. pose proof (sym_run i T n exact db log fuel u1 u2 H) as X. revert X.
  destruct (simulate_checked ok1 _ _ _ _ _ _ _ _ _ _ _) as [o1|e1], (simulate_checked ok2 _ _ _ _ _ _ _ _ _ _ _) as [o2|e2]; cbn; auto.
  intros [Et Hu Est Esn Ha Hs]. split; auto.
  clear -Hs HQ. induction Hs as [|[t1 d1] [t2 d2] l1 l2 [A B] Hs IH]; constructor; [|exact IH]. split; [exact A|apply HQ, B].
Qed.
End SymRun.
