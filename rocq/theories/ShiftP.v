(** Translations along a periodic axis. *)
From Coq Require Import ZArith List Bool Lia Reals Lra.
From Verif Require Import Err Num PySlice NdArray HydroM RiemannM StencilsM FvM BcM SedM
  LimitM OdeM SolverM SpecBc SpecSolver SpecCons NdArrayP FvP BcP BcQ OpP SolverP OdeP RelP RelS LimP RunP ConsP ExistP SpecSym SymP HydroP.
Import ListNotations.
Open Scope Z_scope.

Ltac axf := match goal with |- context [axis_eqb ?a ?b] => replace (axis_eqb a b) with false by (symmetry; apply axis_eqb_neq; auto) end.
(** ** maxima over cells depend only on the set of values *)
Lemma reduce_same s s' (f f' : ix -> R) : (forall a, 1 <= getc a s) -> (forall a, 1 <= getc a s') ->
  (forall i, in_shape s i -> exists j, in_shape s' j /\ f i = f' j) ->
  (forall j, in_shape s' j -> exists i, in_shape s i /\ f' j = f i) ->
  reduce_cells Rmax s f = reduce_cells Rmax s' f'.
Proof.
  intros P P' H H'. destruct (reduce_cells_ok Rmax s f P) as (m & E), (reduce_cells_ok Rmax s' f' P') as (m' & E').
  rewrite E, E'. f_equal. destruct (reduce_max _ _ _ E) as (U & i & Hi & Ei). destruct (reduce_max _ _ _ E') as (U' & j & Hj & Ej).
  destruct (H i Hi) as (j' & Hj' & A). destruct (H' j Hj) as (i' & Hi' & B).
  specialize (U i' Hi'). specialize (U' j' Hj'). lra.
Qed.

Section Shift.
Context (N : Num).
Local Notation K := (car N).
Context (c : config N) (d : axis) (k : Z).
Local Notation n := (c_n c).
Definition turn (i : ix) : ix := setc d ((getc d i + k) mod getc d n) i.
Definition M_turn (f : field N) : field N := fun v i => f v (turn i).
(** the periodic continuation *)
Definition around (u : arr K) : field N := fun v i =>
  copied N (c_bc c) n u v (setc d (getc d i mod getc d n) i).

Context (HT : tabulated c) (HC : closed c) (HB : both_ends B_periodic c d).
Lemma nd_pos : 1 <= getc d n. Proof. apply HT. Qed.
Lemma gz : getc d (ghost_zones3 c) = ghost_zones c d.
Proof. destruct d; reflexivity. Qed.
Lemma getc_folded3 (b : bcond N) m i a : getc a (folded3 b m i) = folded (bc_type b a SL) (bc_type b a SR) (getc a m) (getc a i).
Proof. destruct a; reflexivity. Qed.
Lemma folded_wrap i : - getc d n <= getc d i < 2 * getc d n ->
  folded3 (c_bc c) n i = setc d (getc d i mod getc d n) (folded3 (c_bc c) n i).
Proof.
  intro H. pose proof nd_pos. destruct HB as [Ty _]. apply ix_ext. intro a. destruct (axis_dec d a) as [<-|E]; co; [|reflexivity].
  rewrite getc_folded3, !Ty. apply (folded_periodic _ _ (getc d n)); lia.
Qed.
Lemma copied_wrap u v i : - getc d n <= getc d i < 2 * getc d n ->
  copied N (c_bc c) n u v i = around u v i.
Proof.
  intro H. pose proof nd_pos. destruct HB as [Ty _]. unfold around, copied.
  assert (F : folded3 (c_bc c) n (setc d (getc d i mod getc d n) i) = folded3 (c_bc c) n i).
  { apply ix_ext. intro a. rewrite !getc_folded3. destruct (axis_dec d a) as [<-|E]; co; [|reflexivity].
    rewrite !Ty. rewrite !(folded_periodic _ _ (getc d n)); try lia; [apply Z.mod_mod; lia|].
    pose proof (Z.mod_pos_bound (getc d i) (getc d n)). lia. }
  assert (G : negated3 (c_bc c) n (setc d (getc d i mod getc d n) i) v = negated3 (c_bc c) n i v).
  { unfold negated3. pose proof (Ty SL) as HL. pose proof (Ty SR) as HR.
    destruct d; cbn [setc getc cx cy cz] in *; rewrite ?HL, ?HR, ?negated_periodic; reflexivity. }
  rewrite F, G. reflexivity.
Qed.
Lemma in_pad_d i : in_padded n (ghost_zones3 c) i -> - getc d n <= getc d i < 2 * getc d n.
Proof. intro H. specialize (H d). rewrite gz in H. destruct HB. lia. Qed.
Lemma pads_around t u : shp u = n -> pads N c t u (around u).
Proof.
  intro S. eapply pads_ext; [exact S|apply closed_pads; auto|]. intros v i Hi. apply copied_wrap, in_pad_d, Hi.
Qed.
(** sources of padded cells are cells *)
Lemma folded_in i : in_padded n (ghost_zones3 c) i -> in_shape n (folded3 (c_bc c) n i).
Proof.
  intros Hi. destruct (apply_copies N (c_bc c) (fun _ _ => nofZ 0) (mkarr 1 n (fun _ _ => nofZ 0)) (ghost_zones3 c) (nofZ 0)) as (o & _ & _ & _ & V).
  - intro a. destruct HT as [[Sn _ _ _] _]. specialize (Sn a). cbn [shp]. lia.
  - intro a. pose proof (width_main N c HT a). lia.
  - exact HC.
  - exact (proj1 (V 0 i Hi)).
Qed.

Lemma around_turn u u' v i : translated d k u u' -> shp u = n -> in_padded n (ghost_zones3 c) i ->
  copied N (c_bc c) n u' v i = shiftf N (along d k) (around u) v i.
Proof.
  intros (_ & _ & V) S Hi. rewrite S in V. pose proof nd_pos. pose proof (in_pad_d i Hi) as Hd. destruct HB as [Ty _].
  unfold shiftf, around, copied.
  set (i2 := setc d (getc d (shift (along d k) i) mod getc d n) (shift (along d k) i)).
  assert (E2 : i2 = setc d ((getc d i + k) mod getc d n) i).
  { unfold i2. apply ix_ext. intro a. destruct (axis_dec d a) as [<-|E]; co;
      rewrite getc_shift', getc_along; [rewrite axis_eqb_refl; reflexivity|]. axf. lia. }
  rewrite E2. rewrite V by (apply folded_in, Hi).
  assert (F : folded3 (c_bc c) n (setc d ((getc d i + k) mod getc d n) i)
            = setc d ((getc d (folded3 (c_bc c) n i) + k) mod getc d n) (folded3 (c_bc c) n i)).
  { apply ix_ext. intro a. rewrite getc_folded3. destruct (axis_dec d a) as [<-|E]; co; [|rewrite getc_folded3; reflexivity].
    rewrite getc_folded3, !Ty. pose proof (Z.mod_pos_bound (getc d i + k) (getc d n)).
    rewrite !(folded_periodic _ _ (getc d n)) by lia. rewrite Zmod_mod, Zplus_mod_idemp_l. reflexivity. }
  assert (G : negated3 (c_bc c) n (setc d ((getc d i + k) mod getc d n) i) v = negated3 (c_bc c) n i v).
  { unfold negated3. pose proof (Ty SL) as HL. pose proof (Ty SR) as HR.
    destruct d; cbn [setc getc cx cy cz] in *; rewrite ?HL, ?HR, ?negated_periodic; reflexivity. }
  rewrite F, G. reflexivity.
Qed.

(** ** operators that commute with shifts *)
Definition moves (G : field N -> field N) : Prop :=
  (forall s E v i, G (shiftf N s E) v i = G E v (shift s i)) /\
  (forall E E' v i, (forall v i, E v i = E' v i) -> G E v i = G E' v i).
Lemma around_period u m v i : around u v (shift (along d (m * getc d n)) i) = around u v i.
Proof.
  unfold around. f_equal. apply ix_ext. intro a. destruct (axis_dec d a) as [<-|E]; co; rewrite getc_shift', getc_along.
  - rewrite axis_eqb_refl. apply Z_mod_plus_full.
  - axf. lia.
Qed.
Lemma moves_around G u v i : moves G ->
  G (shiftf N (along d k) (around u)) v i = G (around u) v (turn i).
Proof.
  intros [Gs Ge]. rewrite Gs.
  set (m := (getc d i + k) / getc d n).
  transitivity (G (shiftf N (along d (m * getc d n)) (around u)) v (turn i)).
  - rewrite Gs. f_equal. apply ix_ext. intro a. unfold turn. rewrite !getc_shift', !getc_along.
    destruct (axis_dec d a) as [<-|E]; co.
    + rewrite !axis_eqb_refl. pose proof nd_pos. pose proof (Z.div_mod (getc d i + k) (getc d n)). unfold m. lia.
    + axf; reflexivity.
  - apply Ge. intros. apply around_period.
Qed.
Lemma moves_op G r : op_ok N G r -> moves G.
Proof. intros [L S _]. split; [exact S|]. intros E E' v i H. apply L. intros; apply H. Qed.
Lemma moves_sh G s : moves G -> moves (fun E v i => G E v (shift s i)).
Proof.
  intros [A B]. split; [|intros; apply B; assumption]. intros s' E v i. rewrite A. f_equal. rewrite !shift_shift. f_equal. apply shift_comm.
Qed.
Lemma moves_gflux p l d' : (forall a, deg_ok (getc a p)) -> moves (gflux N c p l d').
Proof.
  intro D. split; [intros; apply gflux_shift, D|]. intros E E' v i H. apply gflux_local; [exact D|]. intros; apply H.
Qed.
Lemma moves_gdudt l : moves (gdudt N c (c_p c) l).
Proof.
  assert (D : forall a, deg_ok (getc a (c_p c))) by (apply (good_deg N c), tab_good, HT).
  split.
  - intros s E v i. unfold gdudt, gsum. generalize (@nofZ N 0).
    induction (dims N c) as [|d' ds IH]; intro z; cbn [fold_left]; [reflexivity|].
    rewrite IH. f_equal. f_equal. unfold gterm. rewrite !(gflux_shift N c (c_p c) l d' E s) by exact D.
    f_equal. f_equal. f_equal. rewrite setc_shift', getc_shift'. f_equal. f_equal. lia.
  - intros E E' v i H.
    unfold gdudt, gsum. generalize (@nofZ N 0). induction (dims N c) as [|d' ds IH]; intro z; cbn [fold_left]; [reflexivity|].
    rewrite IH. f_equal. f_equal. unfold gterm. rewrite !(proj2 (moves_gflux (c_p c) l d' D) E E' _ _ H). reflexivity.
Qed.
Lemma moves_gprim av : moves (gprim N c av).
Proof.
  assert (D : forall a, deg_ok (getc a (c_p c))) by (apply (good_deg N c), tab_good, HT).
  unfold gprim. destruct av.
  - apply (moves_sh (pprim N (c_p c) (c_gamma c))). eapply moves_op, op_pprim, D.
  - apply (moves_sh (fun E => pcell N (compute_primitives N (c_gamma c)) (pcentre N (c_p c) E))). eapply moves_op.
    apply (op_comp N _ _ _ _ (op_pcell N _ (cellwise_prim N _)) (op_pcentre N (c_p c) D)).
Qed.

Theorem turned_run (Hdt : forall u, gdt N c (c_p c) (shiftf N (along d k) (around u)) = gdt N c (c_p c) (around u))
  heap heap' i av T m exact db log fuel u u' :
  c_limit c = false -> shp u = n -> 1 <= rows u -> translated d k u u' ->
  moved_outcome (translated d k) (simulate c heap i av T m exact db log fuel u) (simulate c heap' i av T m exact db log fuel u').
Proof.
  intros HL S R TR. pose proof nd_pos as ND.
  assert (TN : forall i, in_shape n i -> in_shape n (turn i)).
  { intros j Hj a. specialize (Hj a). unfold turn. destruct (axis_dec d a) as [<-|E]; co; [|exact Hj]. apply Z.mod_pos_bound. lia. }
  apply (sym_moved N c c heap heap' (rows u) HT HT HL HL R M_turn) with
    (ok1 := fun _ => true) (ok2 := fun _ => true) (E1 := fun _ w => around w) (E2 := fun _ w => copied N (c_bc c) n w)
    (W := shiftf N (along d k)).
  - intros f g H v j Hj. apply H, TN, Hj.
  - reflexivity.
  - reflexivity.
  - intros t w _ Sw. apply pads_around, Sw.
  - intros t w _ Sw. apply closed_pads; auto.
  - reflexivity.
  - intros t u1 u2 (R1 & R2 & S1 & S2 & V) v j Hj. apply around_turn; auto.
    split; [congruence|]. split; [congruence|]. intros w j' Hj'. rewrite S1 in *. apply V, Hj'.
  - intros t u1 u2 _ _. apply Hdt.
  - intros t u1 u2 _ _ v j Hj. apply (moves_around (gdudt N c (c_p c) L_none)), moves_gdudt.
  - intros t u1 u2 _ v j Hj. apply (moves_around (gprim N c av)), moves_gprim.
  - destruct TR as (R' & S' & V). repeat split; auto; [congruence|]. intros v j Hj. unfold M_turn, turn. rewrite S in V. apply V, Hj.
  - intros w1 w2 (R1 & R2 & S1 & S2 & V). split; [congruence|]. split; [congruence|]. intros v j Hj. rewrite S1 in *. apply V, Hj.
Qed.
End Shift.

(** ** the time step in exact arithmetic *)
Section Dt.
Local Notation N := RNum.
Context (c : config N) (d : axis) (HT : tabulated c).
Local Notation n := (c_n c).
Lemma moves_mod k G u v i j m : moves N G -> j = shift (along d (k + m * getc d n)) i ->
  G (shiftf N (along d k) (around N c d u)) v i = G (around N c d u) v j.
Proof.
  intros [Gs Ge] ->. rewrite Gs.
  transitivity (G (shiftf N (along d (m * getc d n)) (around N c d u)) v (shift (along d k) i)).
  - symmetry. apply Ge. intros. apply around_period.
  - rewrite Gs. f_equal. apply ix_ext. intro a. rewrite !getc_shift', !getc_along. destruct (axis_eqb a d); lia.
Qed.
Lemma speed_turned k u : gspeed N c (c_p c) (shiftf N (along d k) (around N c d u)) = gspeed N c (c_p c) (around N c d u).
Proof.
  assert (G : good N c (c_p c)) by (apply tab_good, HT).
  assert (D : forall a, deg_ok (getc a (c_p c))) by apply (good_deg N c _ G).
  pose proof (ghost_width_pos (c_p c) D) as GP.
  assert (AW0 : forall a, 0 <= getc a (active_width N c (ghost_width (c_p c))))
    by (intro a; rewrite getc_active_width; destruct (active N c a); lia).
  assert (Np : forall a, 1 <= getc a (padded n (active_width N c (ghost_width (c_p c))))).
  { intro a. rewrite getc_padded. specialize (AW0 a). destruct (G a). lia. }
  pose proof (moves_op N _ _ (op_pprim N (c_p c) D (c_gamma c))) as MP.
  assert (nd : 1 <= getc d n) by apply G.
  unfold gspeed. apply reduce_same; auto.
  - intros i Hi. exists (setc d ((getc d i + k) mod getc d n) i). split.
    + intro a. specialize (Hi a). specialize (AW0 a). rewrite getc_padded in *. destruct (axis_dec d a) as [<-|E]; co; [|lia].
      pose proof (Z.mod_pos_bound (getc d i + k) (getc d n)). lia.
    + assert (X : forall r, pprim N (c_p c) (c_gamma c) (shiftf N (along d k) (around N c d u)) r
          (shift (neg3 (prim_width (c_p c) (active_width N c (ghost_width (c_p c))) true)) i)
        = pprim N (c_p c) (c_gamma c) (around N c d u) r
          (shift (neg3 (prim_width (c_p c) (active_width N c (ghost_width (c_p c))) true)) (setc d ((getc d i + k) mod getc d n) i))).
      { intro r. apply moves_mod with (m := - ((getc d i + k) / getc d n)); [exact MP|].
        apply ix_ext. intro a. rewrite !getc_shift', !getc_neg, !getc_along. destruct (axis_dec d a) as [<-|E]; co.
        - rewrite axis_eqb_refl. pose proof (Z.div_mod (getc d i + k) (getc d n)). lia.
        - axf. lia. }
      unfold cell_speed, sum3. rewrite !X. f_equal. f_equal. apply sound_ext. exact X.
  - intros i Hi. exists (setc d ((getc d i - k) mod getc d n) i). split.
    + intro a. specialize (Hi a). specialize (AW0 a). rewrite getc_padded in *. destruct (axis_dec d a) as [<-|E]; co; [|lia].
      pose proof (Z.mod_pos_bound (getc d i - k) (getc d n)). lia.
    + assert (X : forall r, pprim N (c_p c) (c_gamma c) (around N c d u) r
          (shift (neg3 (prim_width (c_p c) (active_width N c (ghost_width (c_p c))) true)) i)
        = pprim N (c_p c) (c_gamma c) (shiftf N (along d k) (around N c d u)) r
          (shift (neg3 (prim_width (c_p c) (active_width N c (ghost_width (c_p c))) true)) (setc d ((getc d i - k) mod getc d n) i))).
      { intro r. symmetry. apply moves_mod with (m := (getc d i - k) / getc d n); [exact MP|].
        apply ix_ext. intro a. rewrite !getc_shift', !getc_neg, !getc_along. destruct (axis_dec d a) as [<-|E]; co.
        - rewrite axis_eqb_refl. pose proof (Z.div_mod (getc d i - k) (getc d n)). lia.
        - axf. lia. }
      unfold cell_speed, sum3. rewrite !X. f_equal. f_equal. apply sound_ext. exact X.
Qed.
End Dt.

Theorem translation_fixed N (c : config N) d k heap heap' i av T m exact db log fuel u u' :
  tabulated c -> closed c -> both_ends B_periodic c d -> c_limit c = false -> c_fixed_dt c <> None ->
  shp u = c_n c -> 1 <= rows u -> translated d k u u' ->
  moved_outcome (translated d k) (simulate c heap i av T m exact db log fuel u) (simulate c heap' i av T m exact db log fuel u').
Proof.
  intros HT HC HB HL HF S R TR. apply turned_run; auto.
  intro w. unfold gdt. destruct (c_fixed_dt c); [reflexivity|congruence].
Qed.
Theorem translation_real (c : config RNum) d k heap heap' i av T m exact db log fuel u u' :
  tabulated c -> closed c -> both_ends B_periodic c d -> c_limit c = false ->
  shp u = c_n c -> 1 <= rows u -> translated d k u u' ->
  moved_outcome (translated d k) (simulate c heap i av T m exact db log fuel u) (simulate c heap' i av T m exact db log fuel u').
Proof.
  intros HT HC HB HL S R TR. apply turned_run; auto.
  intro w. unfold gdt. destruct (c_fixed_dt c); [reflexivity|]. rewrite speed_turned by exact HT. reflexivity.
Qed.
