(** Runs with the axes exchanged. *)
From Coq Require Import ZArith List Bool Lia Reals Lra FunctionalExtensionality.
From Verif Require Import Err Num PySlice NdArray HydroM RiemannM StencilsM FvM BcM SedM
  LimitM OdeM SolverM Spec SpecBc SpecSolver SpecCons SpecScheme SpecSym NdArrayP FvP BcP BcQ OpP SolverP OdeP RelP RelS LimP RunP ConsP
  RiemannP HydroP SlopeP WallP ExistP SchemeP SymP SeamP ShiftP WatchP UniformP MirrorP ConvexP LimExistP.
Import ListNotations.
Open Scope Z_scope.

Local Notation wi := (wts_i RNum).
Local Notation wt := (wts_t RNum).
Section Perm.
Context (s t : axis -> axis) (ST : forall a, s (t a) = a) (TS : forall a, t (s a) = a).
Lemma s_inj a b : s a = s b -> a = b.
Proof. intro H. rewrite <- (TS a), <- (TS b), H. reflexivity. Qed.
Lemma getc_turned q a i : getc a (turned q i) = getc (q a) i.
Proof. destruct a; reflexivity. Qed.
Lemma turned_ts i : turned t (turned s i) = i.
Proof. apply ix_ext. intro a. rewrite !getc_turned, ST. reflexivity. Qed.
Lemma turned_st i : turned s (turned t i) = i.
Proof. apply ix_ext. intro a. rewrite !getc_turned, TS. reflexivity. Qed.
Lemma turned_setc a x i : turned t (setc a x i) = setc (s a) x (turned t i).
Proof.
  apply ix_ext. intro b. rewrite getc_turned. destruct (axis_dec (s a) b) as [E|E].
  - subst b. rewrite TS, !getc_setc_eq. reflexivity.
  - rewrite !getc_setc_ne, getc_turned; auto. intro Q. apply E. rewrite Q. apply ST.
Qed.
Lemma turned_up a k i : turned t (up a k i) = up (s a) k (turned t i).
Proof. unfold up. rewrite turned_setc, getc_turned, TS. reflexivity. Qed.
Lemma turned_in n i : in_shape (turned s n) i <-> in_shape n (turned t i).
Proof.
  split; intros H a.
  - specialize (H (t a)). rewrite getc_turned, ST in H. rewrite getc_turned. exact H.
  - specialize (H (s a)). rewrite getc_turned, TS in H. rewrite getc_turned. exact H.
Qed.
(** rows *)
Definition prow (v : Z) : Z := match v with 1 => comp (s AX) | 2 => comp (s AY) | 3 => comp (s AZ) | _ => v end.
Lemma permute_row (w : state) v : permute s w v = w (prow v).
Proof. unfold permute, prow. destruct v as [|[[p|p|]|[p|p|]|]|]; reflexivity. Qed.
Lemma prow_comp a : prow (comp a) = comp (s a).
Proof. destruct a; reflexivity. Qed.
Lemma prow_other v : (forall a, v <> comp a) -> prow v = v.
Proof. intro H. pose proof (H AX). pose proof (H AY). pose proof (H AZ). unfold prow. destruct v as [|[[p|p|]|[p|p|]|]|]; try reflexivity; cbn [comp] in *; congruence. Qed.
Definition turn_grid (f : grid) : grid := fun v i => f (prow v) (turned t i).
Local Notation W := turn_grid.
Lemma line_turn a ws f : line a ws (W f) = W (line (s a) ws f).
Proof. apply grid_eq. intros v i. unfold turn_grid, line. apply sum_ext. intros k _. rewrite turned_up. reflexivity. Qed.
Lemma line_swap a b ws ws' f : a <> b -> line a ws (line b ws' f) = line b ws' (line a ws f).
Proof. intro H. apply grid_eq. intros. apply line_comm, H. Qed.
Ltac six := pose proof (s_inj AX AY) as I1; pose proof (s_inj AX AZ) as I2; pose proof (s_inj AY AZ) as I3;
  destruct (s AX) eqn:SX, (s AY) eqn:SY, (s AZ) eqn:SZ;
  try (exfalso; first [discriminate (I1 eq_refl)|discriminate (I2 eq_refl)|discriminate (I3 eq_refl)]); clear I1 I2 I3.
Lemma block_turn ws ws' f : (forall a, ws' a = ws (s a)) -> block ws' (W f) = W (block ws f).
Proof.
  intro H. unfold block. rewrite !H, !line_turn. f_equal. six; try reflexivity;
  repeat first [rewrite (line_swap AZ AX) by discriminate|rewrite (line_swap AZ AY) by discriminate|rewrite (line_swap AY AX) by discriminate]; reflexivity.
Qed.
Lemma across_turn a ws ws' f : (forall a, ws' a = ws (s a)) -> across a ws' (W f) = W (across (s a) ws f).
Proof.
  intro H. destruct a; unfold across; rewrite !H, !line_turn; f_equal; six; try reflexivity;
  repeat first [rewrite (line_swap AZ AX) by discriminate|rewrite (line_swap AZ AY) by discriminate|rewrite (line_swap AY AX) by discriminate]; reflexivity.
Qed.
Lemma primitive_turn g (u : state) v : primitive g (permute s u) v = permute s (primitive g u) v.
Proof.
  rewrite permute_row. 
  assert (Q : forall r, permute s u r = u (prow r)) by (intro; apply permute_row).
  assert (K : (permute s u 1%Z * permute s u 1%Z + permute s u 2%Z * permute s u 2%Z + permute s u 3%Z * permute s u 3%Z = u 1%Z * u 1%Z + u 2%Z * u 2%Z + u 3%Z * u 3%Z)%R).
  { rewrite !Q. cbn [prow]. six; cbn [comp]; ring. }
  destruct v as [|[[q|q|]|[[q|q|]|[q|q|]|]|]|q]; try reflexivity; cbn [prow].
  all: try (unfold primitive; rewrite K; reflexivity).
  all: unfold primitive; rewrite Q; cbn [prow]; destruct (s AX), (s AY), (s AZ); reflexivity.
Qed.
Section Conf.
Context (c c' : config RNum) (X : axes_exchanged s c c') (HT : tabulated c).
Lemma ex_rest : c_CFL c' = c_CFL c /\ c_fixed_dt c' = c_fixed_dt c /\ c_gamma c' = c_gamma c /\ c_csq_floor c' = c_csq_floor c /\ c_rs c' = c_rs c /\ c_limit c' = c_limit c /\ c_nad c' = c_nad c.
Proof. destruct X as [_ _ _ _ H]. injection H. intros. repeat split; assumption. Qed.
Lemma ex_n a : getc a (c_n c') = getc (s a) (c_n c).
Proof. rewrite (ae_n _ _ _ X). apply getc_turned. Qed.
Lemma ex_p a : getc a (c_p c') = getc (s a) (c_p c).
Proof. rewrite (ae_p _ _ _ X). apply getc_turned. Qed.
Lemma ex_inactive a : inactive_b c' a = inactive_b c (s a).
Proof. unfold inactive_b. rewrite ex_n, ex_p. reflexivity. Qed.
Lemma ex_width a : width c' a = width c (s a).
Proof. unfold width. rewrite ex_n, (ae_bounds _ _ _ X). reflexivity. Qed.
Lemma ex_top : top_degree (c_p c') = top_degree (c_p c).
Proof. unfold top_degree. change (cx (c_p c')) with (getc AX (c_p c')). change (cy (c_p c')) with (getc AY (c_p c')). change (cz (c_p c')) with (getc AZ (c_p c')).
  rewrite !ex_p. six; cbn [getc]; lia. Qed.
Lemma ex_tab : tabulated c'.
Proof.
  destruct HT as [[A B C D] E]. destruct ex_rest as (_ & _ & _ & _ & _ & _ & EN). split; [split|].
  - intro a. rewrite ex_n. apply A.
  - intro a. rewrite ex_p. apply B.
  - destruct C as [a Ha]. exists (t a). intros [P1 P2]. apply Ha. rewrite ex_n, ex_p, ST in *. split; assumption.
  - rewrite EN. exact D.
  - intro a. rewrite ex_p. apply E.
Qed.
Lemma ex_ghost a : ghost_zones c' a = ghost_zones c (s a).
Proof. unfold ghost_zones. destruct ex_rest as (_ & _ & _ & _ & _ & EL & _). rewrite ex_inactive, ex_top, EL, ex_p. reflexivity. Qed.
Lemma gz3 (d : config RNum) a : getc a (ghost_zones3 d) = ghost_zones d a.
Proof. destruct a; reflexivity. Qed.
Lemma ex_closed : closed c -> closed c'.
Proof.
  intros HC a. specialize (HC (s a)). unfold copy_axis in *. rewrite gz3 in *. rewrite ex_ghost, ex_n, !(ae_bc _ _ _ X).
  destruct HC as [H|[H1 H2]]; [left; exact H|right; split; [intro pos; rewrite (ae_bc _ _ _ X); apply H1|exact H2]].
Qed.
Local Notation g := (c_gamma c).
Lemma centre_turn (f : grid) : (fun v i => primitive g (fun r => block (fun a => wi (getc a (c_p c')) P_c) (W f) r i) v)
  = W (fun v i => primitive g (fun r => block (fun a => wi (getc a (c_p c)) P_c) f r i) v).
Proof.
  rewrite (block_turn (fun a => wi (getc a (c_p c)) P_c)) by (intro a; rewrite ex_p; reflexivity).
  apply grid_eq. intros v i. unfold turn_grid at 2. rewrite <- permute_row, <- primitive_turn.
  f_equal. extensionality r. rewrite permute_row. reflexivity.
Qed.
Lemma primitives_turn (f : grid) : primitives wi wt (c_p c') g (W f) = W (primitives wi wt (c_p c) g f).
Proof.
  unfold primitives. cbv zeta. rewrite centre_turn.
  apply (block_turn (fun a => wt (getc a (c_p c)))). intro a. rewrite ex_p. reflexivity.
Qed.
Lemma trace_turn a pos w : trace wi (c_p c') None a pos (W w) = W (trace wi (c_p c) None (s a) pos w).
Proof.
  unfold trace. cbv zeta. rewrite (across_turn a (fun a => wi (getc a (c_p c)) P_c)) by (intro b; rewrite ex_p; reflexivity).
  rewrite ex_p. apply line_turn.
Qed.
Lemma flux_turn a f : face_flux wi wt c' (c_p c') None a (W f) = W (face_flux wi wt c (c_p c) None (s a) f).
Proof.
  destruct ex_rest as (_ & _ & EG & EF & ER & _ & _). unfold face_flux. cbv zeta. rewrite EG, EF, ER, primitives_turn, !trace_turn.
  rewrite <- (across_turn a (fun a => wt (getc a (c_p c))) (fun a => wt (getc a (c_p c')))) by (intro b; rewrite ex_p; reflexivity). f_equal.
  apply grid_eq. intros v i. unfold turn_grid at 3. rewrite <- permute_row.
  pose proof (riemann_permute g (c_csq_floor c) s s_inj (c_rs c) a (fun r => trace wi (c_p c) None (s a) P_r (primitives wi wt (c_p c) g f) r (up (s a) (-1) (turned t i)))
    (fun r => trace wi (c_p c) None (s a) P_l (primitives wi wt (c_p c) g f) r (turned t i)) v) as Q.
  rewrite riemann_is in Q. etransitivity; [etransitivity; [|exact Q]|].
  - f_equal; extensionality r; rewrite permute_row; unfold turn_grid; rewrite ?turned_up; reflexivity.
  - rewrite !permute_row. apply riemann_is.
Qed.
Lemma balance_turn (F F' : axis -> grid) : (forall a, F' a = W (F (s a))) -> balance c' F' = W (balance c F).
Proof.
  intro H. apply grid_eq. intros v i. unfold turn_grid, balance. cbv zeta. rewrite !H, !ex_inactive, !ex_width. unfold turn_grid. rewrite !turned_up.
  six; ring.
Qed.
Lemma dudt_turn f v i : gdudt RNum c' (c_p c') L_none (W f) v i = W (gdudt RNum c (c_p c) L_none f) v i.
Proof.
  rewrite (gdudt_is c' ex_tab). unfold turn_grid at 2. rewrite (gdudt_is c HT).
  exact (f_equal (fun h : grid => h v i) (balance_turn (fun d => face_flux wi wt c (c_p c) None d f) (fun d => face_flux wi wt c' (c_p c') None d (W f)) (fun a => flux_turn a f))).
Qed.
Lemma prim_turn av f v i : gprim RNum c' av (W f) v i = W (gprim RNum c av f) v i.
Proof.
  destruct ex_rest as (_ & _ & EG & _).
  unfold turn_grid at 2. rewrite (gprim_is c' ex_tab), (gprim_is c HT). destruct av.
  - rewrite EG, primitives_turn. reflexivity.
  - unfold centre_prim. rewrite EG. exact (f_equal (fun h : grid => h v i) (centre_turn f)).
Qed.
Lemma signal_turn (w : state) : signal_speed c' (permute s w) = signal_speed c w.
Proof.
  destruct ex_rest as (_ & _ & EG & EF & _). unfold signal_speed. rewrite EG, EF, p_sound, !p_vel, !ex_inactive. 
  replace (Rabs (vel (s AX) w) + Rabs (vel (s AY) w) + Rabs (vel (s AZ) w))%R with (Rabs (vel AX w) + Rabs (vel AY w) + Rabs (vel AZ w))%R by (six; ring).
  do 3 f_equal. six; ring.
Qed.
Lemma zone_turn i : flux_zone c' i <-> flux_zone c (turned t i).
Proof.
  split; intros H a; cbv zeta.
  - specialize (H (t a)). cbv zeta in H. rewrite ex_inactive, ex_top, ex_n, ST in H. rewrite getc_turned. exact H.
  - specialize (H (s a)). cbv zeta in H. rewrite getc_turned, TS in H. rewrite ex_inactive, ex_top, ex_n. exact H.
Qed.
Lemma min_turn : Rmin (width c' AX) (Rmin (width c' AY) (width c' AZ)) = Rmin (width c AX) (Rmin (width c AY) (width c AZ)).
Proof.
  rewrite !ex_width. six; unfold Rmin; repeat destruct (Rle_dec _ _); lra.
Qed.
Lemma dt_turn f : gdt RNum c' (c_p c') (W f) = gdt RNum c (c_p c) f.
Proof.
  destruct ex_rest as (EC & ED & EG & _). apply gdt_same; auto using ex_tab, min_turn.
  - intros i Hi. exists (turned s i). split; [apply zone_turn; rewrite turned_ts; exact Hi|].
    rewrite EG, primitives_turn. etransitivity; [|apply signal_turn]. f_equal. extensionality r. rewrite permute_row. unfold turn_grid. rewrite turned_ts. reflexivity.
  - intros j Hj. exists (turned t j). split; [apply zone_turn; exact Hj|].
    rewrite EG, primitives_turn. symmetry. etransitivity; [|apply signal_turn]. f_equal. extensionality r. rewrite permute_row. reflexivity.
Qed.
Lemma folded_turn i : turned t (folded3 (c_bc c') (c_n c') i) = folded3 (c_bc c) (c_n c) (turned t i).
Proof. apply ix_ext. intro a. rewrite getc_turned, !getc_folded3, ex_n, !(ae_bc _ _ _ X), ST, getc_turned. reflexivity. Qed.
Lemma negated_turn i v : negated3 (c_bc c') (c_n c') i v = negated3 (c_bc c) (c_n c) (turned t i) (prow v).
Proof.
  unfold negated3. rewrite !(ae_bc _ _ _ X), !ex_n.
  assert (N0 : forall v, (forall a, v <> comp a) -> forall x y z, (v =? vrow AX) && x || (v =? vrow AY) && y || (v =? vrow AZ) && z = false).
  { intros w H x y z. pose proof (H AX). pose proof (H AY). pose proof (H AZ). cbn [vrow comp] in *.
    destruct (Z.eqb_spec w 1), (Z.eqb_spec w 2), (Z.eqb_spec w 3); try congruence; reflexivity. }
  assert (D : (exists a, v = comp a) \/ forall a, v <> comp a).
  { destruct (Z.eq_dec v 1) as [->|]; [left; exists AX; reflexivity|]. destruct (Z.eq_dec v 2) as [->|]; [left; exists AY; reflexivity|].
    destruct (Z.eq_dec v 3) as [->|]; [left; exists AZ; reflexivity|]. right. intros []; cbn [comp]; assumption. }
  destruct D as [[a ->]|D].
  - rewrite prow_comp. assert (G : forall b, getc b (turned t i) = getc (t b) i) by (intro; apply getc_turned).
    assert (S1 : forall q, (comp q =? vrow AX) && negated (bc_type (c_bc c) AX SL) (bc_type (c_bc c) AX SR) (getc AX (c_n c)) (getc AX (turned t i))
       || (comp q =? vrow AY) && negated (bc_type (c_bc c) AY SL) (bc_type (c_bc c) AY SR) (getc AY (c_n c)) (getc AY (turned t i))
       || (comp q =? vrow AZ) && negated (bc_type (c_bc c) AZ SL) (bc_type (c_bc c) AZ SR) (getc AZ (c_n c)) (getc AZ (turned t i))
       = negated (bc_type (c_bc c) q SL) (bc_type (c_bc c) q SR) (getc q (c_n c)) (getc q (turned t i))).
    { intros []; cbn [comp vrow Z.eqb Pos.eqb andb orb]; rewrite ?orb_false_r; reflexivity. }
    rewrite S1, G, TS. destruct a; cbn [comp vrow Z.eqb Pos.eqb andb orb]; rewrite ?orb_false_r; reflexivity.
  - rewrite (prow_other v D), !N0 by exact D. reflexivity.
Qed.
Lemma copied_turn u u' v i : (forall v i, in_shape (c_n c') i -> at_ u' v i = W (at_ u) v i) ->
  in_shape (c_n c') (folded3 (c_bc c') (c_n c') i) ->
  copied RNum (c_bc c') (c_n c') u' v i = W (copied RNum (c_bc c) (c_n c) u) v i.
Proof.
  intros V I. unfold copied, turn_grid. rewrite V by exact I. rewrite negated_turn. unfold turn_grid. rewrite folded_turn. reflexivity.
Qed.
Lemma permuted_is u u' : shp u = c_n c -> (permuted s u u' <-> rows u' = rows u /\ shp u' = c_n c' /\
  forall v i, in_shape (c_n c') i -> at_ u' v i = W (at_ u) v i).
Proof.
  intro Su. unfold permuted. rewrite Su, (ae_n _ _ _ X). split; intros (A & B & C); (split; [exact A|split; [exact B|]]).
  - intros v i Hi. apply turned_in in Hi. specialize (C v _ Hi). rewrite turned_st, permute_row in C. exact C.
  - intros v i Hi. rewrite C by (apply turned_in; rewrite turned_ts; exact Hi). unfold turn_grid. rewrite turned_ts, permute_row. reflexivity.
Qed.
Theorem permuted_run heap heap' i av T k exact db log fuel u u' : closed c -> c_limit c = false -> shp u = c_n c -> 1 <= rows u -> permuted s u u' ->
  moved_outcome (N := RNum) (permuted s) (simulate c heap i av T k exact db log fuel u) (simulate c' heap' i av T k exact db log fuel u').
Proof.
  intros HC HL Su Ru PU. pose proof (proj1 (permuted_is u u' Su) PU) as (Ru' & Su' & V).
  assert (HL' : c_limit c' = false) by (destruct ex_rest as (_ & _ & _ & _ & _ & EL & _); congruence).
  apply (sym_moved RNum c c' heap heap' (rows u) HT ex_tab HL HL' Ru turn_grid) with
    (ok1 := fun _ => true) (ok2 := fun _ => true) (E1 := fun _ w => copied RNum (c_bc c) (c_n c) w) (E2 := fun _ w => copied RNum (c_bc c') (c_n c') w)
    (W := turn_grid).
  - intros f h H v j Hj. apply H. rewrite (ae_n _ _ _ X) in Hj. apply turned_in, Hj.
  - reflexivity.
  - reflexivity.
  - intros q w _ Sw. apply closed_pads; auto.
  - intros q w _ Sw. apply closed_pads; auto using ex_tab, ex_closed.
  - reflexivity.
  - intros q u1 u2 (R1 & R2 & S1 & S2 & V2) v j Hj. apply copied_turn; auto. exact (folded_in RNum c' ex_tab (ex_closed HC) j Hj).
  - intros q u1 u2 _ _. apply dt_turn.
  - intros q u1 u2 _ _ v j Hj. apply dudt_turn.
  - intros q u1 u2 _ v j Hj. apply prim_turn.
  - repeat split; auto.
  - intros w1 w2 (R1 & R2 & S1 & S2 & V2). apply (permuted_is w1 w2 S1). split; [exact (eq_trans R2 (eq_sym R1))|]. split; [exact S2|exact V2].
Qed.
End Conf.
End Perm.

Lemma inverse_exists (s : axis -> axis) : (forall a b, s a = s b -> a = b) -> exists t, (forall a, s (t a) = a) /\ (forall a, t (s a) = a).
Proof.
  intro H. exists (fun a => if axis_eqb (s AX) a then AX else if axis_eqb (s AY) a then AY else AZ).
  pose proof (H AX AY) as I1. pose proof (H AX AZ) as I2. pose proof (H AY AZ) as I3.
  destruct (s AX) eqn:SX, (s AY) eqn:SY, (s AZ) eqn:SZ;
  try (exfalso; first [discriminate (I1 eq_refl)|discriminate (I2 eq_refl)|discriminate (I3 eq_refl)]);
  (split; intros []; cbn [axis_eqb]; rewrite ?SX, ?SY, ?SZ; reflexivity).
Qed.
Theorem axes_equivalent s (c c' : config RNum) heap heap' i av T k exact db log fuel u u' :
  (forall a b, s a = s b -> a = b) -> axes_exchanged s c c' -> tabulated c -> closed c -> c_limit c = false ->
  shp u = c_n c -> 1 <= rows u -> permuted s u u' ->
  moved_outcome (N := RNum) (permuted s) (simulate c heap i av T k exact db log fuel u) (simulate c' heap' i av T k exact db log fuel u').
Proof.
  intros HS X HT HC HL Su Ru P. destruct (inverse_exists s HS) as (t & ST & TS).
  exact (permuted_run s t ST TS c c' X HT heap heap' i av T k exact db log fuel u u' HC HL Su Ru P).
Qed.

(** ** examples *)
Definition cycle (a : axis) : axis := match a with AX => AY | AY => AZ | AZ => AX end.
Definition swap_yz (a : axis) : axis := match a with AX => AX | AY => AZ | AZ => AY end.
Definition turned_config (s : axis -> axis) (c : config RNum) : config RNum :=
  mkcfg (N := RNum) (turned s (c_n c)) (turned s (c_p c)) (fun a => c_bounds c (s a)) (c_CFL c) (c_fixed_dt c) (c_gamma c) (c_csq_floor c)
    (c_rs c) (mkbc (fun a pos => bc_type (c_bc c) (s a) pos) (fun _ _ => V_other) None false) (c_limit c) (c_limiter c) (c_force c) (c_nad c) (c_convex c).
Lemma turned_config_ok s c : axes_exchanged s c (turned_config s c).
Proof. split; reflexivity. Qed.
Lemma permuted_exists s u : (forall a b, s a = s b -> a = b) -> exists u', permuted s u u'.
Proof.
  intro H. destruct (inverse_exists s H) as (t & ST & TS).
  exists (mkarr (rows u) (turned s (shp u)) (fun v i => permute s (fun r => at_ u r (turned t i)) v)).
  split; [reflexivity|]. split; [reflexivity|]. intros v i _. cbn [at_]. rewrite (turned_ts s t ST). reflexivity.
Qed.
(** ** the directions are not equivalent for convex blending *)
Lemma blended_directions : exists (s : axis -> axis) (c c' : config RNum),
  (forall a b, s a = s b -> a = b) /\ axes_exchanged s c c' /\ tabulated c /\ closed c /\ c_limit c = true /\ c_convex c = true /\
  forall heap i as_averages k exact downbeats log fuel u u', shp u = c_n c -> 2 <= rows u -> 1 <= k -> permuted s u u' ->
  (exists o, simulate c heap i as_averages None (Some k) exact downbeats log fuel u = Ok o) /\
  (forall o, simulate c' heap i as_averages None (Some k) exact downbeats log fuel u' <> Ok o).
Proof.
  set (c := with_limiting true true sheet).
  assert (INJ : forall a b, swap_yz a = swap_yz b -> a = b) by (intros [] []; cbn; congruence).
  assert (X := turned_config_ok swap_yz c).
  assert (T : tabulated c) by apply with_tabulated, sheet_tabulated.
  assert (T' : tabulated (turned_config swap_yz c)) by exact (ex_tab swap_yz swap_yz ltac:(intros []; reflexivity) c _ X T).
  exists swap_yz, c, (turned_config swap_yz c). split; [exact INJ|]. split; [exact X|]. split; [exact T|]. split.
  { intro a. right. split; [|intro Q; exact Q]. intro pos. split; [exact I|]. destruct a; vm_compute; try discriminate; reflexivity. }
  split; [reflexivity|]. split; [reflexivity|]. intros heap i av k ex db log fuel u u' S R K (R' & S' & _). split.
  - destruct (convex_runs_end (fun _ _ => 0%R) c heap i av k ex db log fuel u) as (o & E & _); auto; [| |apply sheet_flat|lia|eauto].
    + apply with_fillable; [reflexivity|apply sheet_fillable].
    + repeat split; discriminate.
  - intro o. apply force_raises; auto; [etransitivity; [exact S'|rewrite S; reflexivity]|exact (Z.le_trans _ _ _ R (Z.eq_le_incl _ _ (eq_sym R')))|].
    intros tr RT ST. exists ValueError. change (dims RNum (turned_config swap_yz c)) with [AX; AZ]. apply convex_z_raises; auto.
    + rewrite ST. intros []; cbn; split; try lia; try discriminate; reflexivity.
    + rewrite ST. cbn. lia.
Qed.
