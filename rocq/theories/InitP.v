(** The constructor of EulerSolver. *)
From Coq Require Import ZArith List Bool Lia Reals Lra String FunctionalExtensionality.
From Coq Require Import QArith.QArith_base QArith.Qreduction.
From Verif Require Import Err Num PySlice NdArray HydroM HydroStateM RiemannM StencilsM FvM BcM LimitM OdeM SolverM ICM InitM
  SpecMesh SpecBc SpecSolver SpecCons SpecHs SpecIC SpecInit HydroP NdArrayP BcP BcQ OpP SolverP HsP ICP OdeT.
Import ListNotations.
Open Scope Z_scope.

Section Init.
Context (N : Num).
Local Notation K := (car N).

Lemma init_mesh_ok n : (exists u, init_mesh n = Ok u) <-> forall d, 1 <= getc d n.
Proof.
  unfold init_mesh. destruct n as [x y z]. cbn [cx cy cz]. split.
  - intros [u H] d. destruct ((x =? 0) || (y =? 0) || (z =? 0)) eqn:A; [discriminate|].
    destruct ((x <? -1) || (y <? -1) || (z <? -1)); [discriminate|].
    destruct ((x <? 0) || (y <? 0) || (z <? 0)) eqn:C; [discriminate|].
    rewrite !orb_false_iff, ?Z.eqb_neq, ?Z.ltb_ge in *. destruct d; cbn [getc cx cy cz]; lia.
  - intro H. pose proof (H AX) as HX. pose proof (H AY) as HY. pose proof (H AZ) as HZ. cbn [getc cx cy cz] in *.
    exists tt.
    replace ((x =? 0) || (y =? 0) || (z =? 0)) with false by (symmetry; rewrite !orb_false_iff, !Z.eqb_neq; lia).
    replace ((x <? -1) || (y <? -1) || (z <? -1)) with false by (symmetry; rewrite !orb_false_iff, !Z.ltb_ge; lia).
    replace ((x <? 0) || (y <? 0) || (z <? 0)) with false by (symmetry; rewrite !orb_false_iff, !Z.ltb_ge; lia). reflexivity.
Qed.
Lemma riemann_known s rs : riemann_of s = Ok rs <-> In (s, rs) known_solvers.
Proof.
  unfold riemann_of. cbn [known_solvers In]. split.
  - destruct (String.eqb_spec s "advection_upwind") as [->|_]; [intros [= <-]; auto|].
    destruct (String.eqb_spec s "llf") as [->|_]; [intros [= <-]; auto|].
    destruct (String.eqb_spec s "hllc") as [->|_]; [intros [= <-]; auto|]. discriminate.
  - intros [E|[E|[E|[]]]]; injection E as <- <-; reflexivity.
Qed.
Lemma quads_exist p : quadratures_exist p = true <-> forall d, 0 <= getc d p.
Proof.
  unfold quadratures_exist. rewrite !andb_true_iff, !Z.leb_le. split; [intros [[A B] C] []; assumption|].
  intro H. split; [split|]; [apply (H AX)|apply (H AY)|apply (H AZ)].
Qed.
Lemma initial_mesh lg (a : args N) (c c' : config N) core fs cons fv : on_mesh a c -> on_mesh a c' ->
  initial_state N lg c core fs cons fv = initial_state N lg c' core fs cons fv.
Proof.
  intros (A1 & A2 & A3 & A4) (B1 & B2 & B3 & B4). unfold initial_state, spacing. rewrite A1, A2, A3, A4, B1, B2, B3, B4. reflexivity.
Qed.
Lemma config_on_mesh (a : args N) b rs : on_mesh a (config_of N a b rs).
Proof. repeat split. Qed.

(** the slabs *)
Lemma active_is (c : config N) d : active N c d = negb ((getc d (c_n c) =? 1) && (getc d (c_p c) =? 0)).
Proof. reflexivity. Qed.
Lemma width_is (a : args N) b rs : active_width N (config_of N a b rs) (a_slab_buffer N a) = slab_width a.
Proof. unfold active_width, slab_width. rewrite !active_is. cbn [config_of c_n c_p]. repeat match goal with |- context [negb (?x && ?y)] => destruct (x && y) end; reflexivity. Qed.
Lemma width_zero (a : args N) : ix_eqb (slab_width a) (mkix 0 0 0) = true <-> ~ (some_axis (a_n N a) (a_p N a) /\ a_slab_buffer N a <> 0).
Proof.
  unfold ix_eqb, slab_width. cbn [cx cy cz].
  assert (O : forall d, (if (getc d (a_n N a) =? 1) && (getc d (a_p N a) =? 0) then 0 else a_slab_buffer N a) = 0 <->
     ((getc d (a_n N a) = 1 /\ getc d (a_p N a) = 0) \/ a_slab_buffer N a = 0)).
  { intro d. destruct ((getc d (a_n N a) =? 1) && (getc d (a_p N a) =? 0)) eqn:E.
    - rewrite andb_true_iff, !Z.eqb_eq in E. tauto.
    - rewrite andb_false_iff, !Z.eqb_neq in E. intuition. }
  rewrite !andb_true_iff, !Z.eqb_eq, !O. split.
  - intros [[HX HY] HZ] [[d Hd] Hb]. destruct d; tauto.
  - intro H. destruct (Z.eq_dec (a_slab_buffer N a) 0) as [Z0|NZ]; [tauto|].
    assert (Q : forall d, getc d (a_n N a) = 1 /\ getc d (a_p N a) = 0).
    { intro d. destruct (Z.eq_dec (getc d (a_n N a)) 1), (Z.eq_dec (getc d (a_p N a)) 0); try (split; assumption);
      exfalso; apply H; (split; [exists d; tauto|exact NZ]). }
    split; [split|]; left; apply Q.
Qed.

Definition final_bc (a : args N) (cupy : bool) (w0 : ic N) : bcond N :=
  match a_bc N a with
  | None => mkbc (fun _ _ => B_periodic) (fun _ _ => V_other) None cupy
  | Some u => mkbc (bc_type u) (fun d s => match bc_type u d s with B_ic => u0_value N a w0 | _ => bc_val u d s end)
     (Some (slab_mesh N (a_n N a) (a_bounds N a AX) (a_bounds N a AY) (a_bounds N a AZ) (slab_width a))) cupy
  end.
Lemma init_bc_is cupy a b rs w0 : some_axis (a_n N a) (a_p N a) -> a_slab_buffer N a <> 0 -> -1 <= a_slab_buffer N a ->
  init_bc N cupy a (config_of N a b rs) w0 = Ok (final_bc a cupy w0).
Proof.
  intros HA H0 H1. unfold init_bc. cbv zeta. rewrite width_is. unfold fv_uniform_meshgen.
  destruct (ix_eqb (slab_width a) (mkix 0 0 0)) eqn:E; [apply width_zero in E; tauto|].
  replace (a_slab_buffer N a <? -1) with false by (symmetry; apply Z.ltb_ge; lia). cbn [bind].
  unfold final_bc. destruct (a_bc N a) as [u|].
  - cbn [boundary_condition normalize_arg bind bc_type bc_val bc_slabs bc_cupy]. f_equal.
    assert (T : (fun (d : axis) (s : side) => pick s (match d with AX => (bc_type u AX SL, bc_type u AX SR)
       | AY => (bc_type u AY SL, bc_type u AY SR) | AZ => (bc_type u AZ SL, bc_type u AZ SR) end)) = bc_type u).
    { apply functional_extensionality. intro d. apply functional_extensionality. intros []; destruct d; reflexivity. }
    rewrite T. f_equal. apply functional_extensionality. intro d. apply functional_extensionality. intro s.
    pose proof (f_equal (fun f => f d s) T) as Q. cbn beta in Q. rewrite Q. destruct (bc_type u d s); destruct d, s; reflexivity.
  - cbn [periodic_bc boundary_condition normalize_arg bind bc_type bc_val bc_slabs bc_cupy]. f_equal. f_equal.
    + apply functional_extensionality. intro d. apply functional_extensionality. intros []; destruct d; reflexivity.
    + apply functional_extensionality. intro d. apply functional_extensionality. intros []; destruct d; reflexivity.
Qed.
Lemma init_bc_inv cupy a b rs w0 bc : init_bc N cupy a (config_of N a b rs) w0 = Ok bc ->
  some_axis (a_n N a) (a_p N a) /\ a_slab_buffer N a <> 0 /\ -1 <= a_slab_buffer N a.
Proof.
  unfold init_bc. cbv zeta. rewrite width_is. unfold fv_uniform_meshgen.
  destruct (ix_eqb (slab_width a) (mkix 0 0 0)) eqn:E; [discriminate|]. cbn [bind].
  destruct (Z.ltb_spec (a_slab_buffer N a) (-1)); [discriminate|]. intros _.
  assert (Q : ~ ~ (some_axis (a_n N a) (a_p N a) /\ a_slab_buffer N a <> 0)) by (intro H'; apply width_zero in H'; congruence).
  assert (D : some_axis (a_n N a) (a_p N a) \/ ~ some_axis (a_n N a) (a_p N a)).
  { unfold some_axis.
    assert (O : forall d, (getc d (a_n N a) = 1 /\ getc d (a_p N a) = 0) \/ ~ (getc d (a_n N a) = 1 /\ getc d (a_p N a) = 0)) by (intro d; lia).
    destruct (O AX), (O AY), (O AZ); try (left; eexists; eassumption). right. intros [[] ?]; tauto. }
  destruct (Z.eq_dec (a_slab_buffer N a) 0); tauto.
Qed.

(** the constructor, step by step *)
Lemma construct_inv lg cupy a s : construct N lg cupy a = Ok s ->
  exists h w0 u rs,
    (forall d, 1 <= getc d (a_n N a)) /\
    hydro_state (match a_passives N a with None => [] | Some fs => map fst fs end) 4 = Ok h /\
    build_ic N (a_w0 N a) h (a_passives N a) = Ok w0 /\
    (a_fv N a = false -> forall d, 0 <= getc d (a_p N a)) /\
    (forall c, on_mesh a c -> initial_state N lg c (a_w0 N a) (a_passives N a) (a_conservative N a) (a_fv N a) = Ok u) /\
    (some_axis (a_n N a) (a_p N a) /\ a_slab_buffer N a <> 0 /\ -1 <= a_slab_buffer N a) /\
    In (a_riemann N a, rs) known_solvers /\
    s = mksolver N (config_of N a (final_bc a cupy w0) rs) h u (a_averages N a) (a_density_floor N a) (a_pressure_floor N a).
Proof.
  unfold construct. cbv zeta. set (b0 := mkbc _ _ _ _). intro H.
  destruct (init_mesh (a_n N a)) as [x|] eqn:E1; cbn [bind] in H; [|discriminate].
  pose proof (proj1 (init_mesh_ok _) (ex_intro _ x E1)) as Hn.
  unfold init_ic in H. destruct (hydro_state _ 4) as [h|] eqn:E2; cbn [bind] in H; [|discriminate].
  destruct (build_ic N _ h _) as [w0|] eqn:E3; cbn [bind] in H; [|discriminate].
  destruct (if a_fv N a then Ok tt else if quadratures_exist (a_p N a) then Ok tt else Err ValueError) as [y|] eqn:E4; cbn [bind] in H; [|discriminate].
  destruct (initial_state N lg _ _ _ _ _) as [u|] eqn:E5; cbn [bind] in H; [|discriminate].
  destruct (init_bc N cupy a _ w0) as [bc|] eqn:E6; cbn [bind] in H; [|discriminate].
  destruct (riemann_of (a_riemann N a)) as [rs|] eqn:E7; cbn [bind] in H; [|discriminate]. injection H as <-.
  pose proof (init_bc_inv _ _ _ _ _ _ E6) as HB. destruct HB as (B1 & B2 & B3).
  rewrite (init_bc_is cupy a b0 RS_hllc w0 B1 B2 B3) in E6. injection E6 as <-.
  exists h, w0, u, rs. repeat (split; [first [assumption|tauto]|]).
  split. { intro F. rewrite F in E4. destruct (quadratures_exist (a_p N a)) eqn:Q; [|discriminate]. apply quads_exist. exact Q. }
  split. { intros c Hc. rewrite <- E5. exact (initial_mesh lg a c _ _ _ _ _ Hc (config_on_mesh a b0 RS_hllc)). }
  split; [tauto|]. split; [apply riemann_known; exact E7|]. reflexivity.
Qed.
Lemma initial_builds lg (c : config N) core fs cons fv u : initial_state N lg c core fs cons fv = Ok u ->
  exists h w0, hydro_state (match fs with None => [] | Some fs => map fst fs end) 4 = Ok h /\ build_ic N core h fs = Ok w0.
Proof.
  unfold initial_state. destruct (hydro_state _ 4) as [h|]; cbn [bind]; [|discriminate].
  destruct (build_ic N core h fs) as [w0|] eqn:E; cbn [bind]; [|discriminate]. intros _. exists h, w0. split; [reflexivity|exact E].
Qed.
Theorem accepts lg cupy a c : on_mesh a c ->
  ((exists s, construct N lg cupy a = Ok s) <->
   (forall d, 1 <= getc d (a_n N a)) /\
   (a_fv N a = false -> forall d, 0 <= getc d (a_p N a)) /\
   (exists u, initial_state N lg c (a_w0 N a) (a_passives N a) (a_conservative N a) (a_fv N a) = Ok u) /\
   some_axis (a_n N a) (a_p N a) /\ a_slab_buffer N a <> 0 /\ -1 <= a_slab_buffer N a /\
   exists rs, In (a_riemann N a, rs) known_solvers).
Proof.
  intro HC. split.
  - intros [s H]. destruct (construct_inv _ _ _ _ H) as (h & w0 & u & rs & H1 & H2 & H3 & H4 & H5 & H6 & H7 & H8).
    split; [exact H1|]. split; [exact H4|]. split; [exists u; apply H5; exact HC|]. repeat (split; [apply H6|]). exists rs. exact H7.
  - intros (H1 & H4 & [u H5] & H6 & H7 & H8 & [rs H9]).
    destruct (initial_builds _ _ _ _ _ _ _ H5) as (h & w0 & E2 & E3).
    unfold construct. cbv zeta. set (b0 := mkbc _ _ _ _). destruct (proj2 (init_mesh_ok (a_n N a)) H1) as [x E1]. rewrite E1. cbn [bind].
    unfold init_ic. rewrite E2. cbn [bind]. rewrite E3. cbn [bind].
    assert (E4 : (if a_fv N a then Ok tt else if quadratures_exist (a_p N a) then Ok tt else Err ValueError) = Ok tt).
    { destruct (a_fv N a) eqn:F; [reflexivity|]. rewrite (proj2 (quads_exist _) (H4 eq_refl)). reflexivity. }
    rewrite E4. cbn [bind]. rewrite (initial_mesh lg a (config_of N a b0 RS_hllc) c _ _ _ _ (config_on_mesh a _ _) HC), H5. cbn [bind].
    rewrite (init_bc_is cupy a b0 RS_hllc w0 H6 H7 H8). cbn [bind]. rewrite (proj2 (riemann_known _ rs) H9). cbn [bind]. eexists. reflexivity.
Qed.
Theorem constructed lg cupy a s : construct N lg cupy a = Ok s ->
  settings_kept a (s_cfg N s) /\ sides_kept a (c_bc (s_cfg N s)) /\
  initial_state N lg (s_cfg N s) (a_w0 N a) (a_passives N a) (a_conservative N a) (a_fv N a) = Ok (s_u0 N s) /\
  s_averages N s = a_averages N a.
Proof.
  intro H. destruct (construct_inv _ _ _ _ H) as (h & w0 & u & rs & H1 & H2 & H3 & H4 & H5 & H6 & H7 & ->). cbn [s_cfg s_u0 s_averages].
  split; [|split; [|split; [apply H5; apply config_on_mesh|reflexivity]]].
  - unfold settings_kept. split; [apply config_on_mesh|]. repeat (split; [first [reflexivity|exact H7]|]). cbn [config_of c_nad pad_bounds]. destruct (a_PAD N a); reflexivity.
  - unfold sides_kept, final_bc. cbn [config_of c_bc]. destruct (a_bc N a) as [b|]; [|split; reflexivity].
    cbn [bc_type bc_val bc_slabs]. split; [reflexivity|]. split; [|reflexivity]. intros d p E. destruct (bc_type b d p); try reflexivity. congruence.
Qed.
Theorem floors_unread lg cupy a dens pres fixed : same_solver (construct N lg cupy a) (construct N lg cupy (other_floors a dens pres fixed)).
Proof.
  unfold construct, other_floors, same_solver, init_ic. cbn [a_n a_passives a_w0 a_p a_conservative a_fv a_riemann a_averages a_density_floor a_pressure_floor]. cbv zeta.
  destruct (init_mesh _); cbn [bind]; [|reflexivity]. destruct (hydro_state _ _); cbn [bind]; [|reflexivity].
  destruct (build_ic _ _ _ _) as [w0|]; cbn [bind]; [|reflexivity].
  destruct (if a_fv N a then _ else _); cbn [bind]; [|reflexivity].
  destruct (initial_state _ _ _ _ _ _ _) as [u|]; cbn [bind]; [|reflexivity].
  change (init_bc N cupy (mkargs _ _ _ _ _ _ _ _ _ _ _ _ _ _ _ _ _ _ _ _ _ _ _ _ _ _ _ _ _ _) _ w0)
    with (init_bc N cupy a (config_of N a (mkbc (fun _ _ => B_none) (fun _ _ => V_other) None cupy) RS_hllc) w0).
  destruct (init_bc _ _ _ _ _) as [b|]; cbn [bind]; [|reflexivity]. destruct (riemann_of _); cbn [bind]; [|reflexivity]. repeat split.
Qed.
End Init.
