(** Boundary values that move with the flow: cases. *)
From Coq Require Import ZArith QArith.QArith_base QArith.Qreduction List Bool Lia Reals Lra FunctionalExtensionality.
From Coquelicot Require Rcomplements.
From Verif Require Import Err Num PySlice NdArray NdArrayP HydroM RiemannM StencilsM FvM BcM SedM
  LimitM OdeM SolverM Spec SpecBc SpecSolver SpecCons SpecMesh BcQ ExistP OdeT SpecOde SpecScheme SpecPoly SpecExact SpecStage.
Import ListNotations.
Local Open Scope Z_scope.

(** ** stages that do not see the moving boundary *)
Definition ramp_duct : config QNum :=
  mkcfg (N := QNum) (mkix 2 1 1) (mkix 1 0 0) (fun _ => (0%Q, 2%Q)) (Qmake 1 2) (Some (Qmake 1 4)) 2%Q (Qmake 1 1000) RS_upwind
    (mkbc (N := QNum) (fun a _ => match a with AX => B_dirichlet | _ => B_periodic end)
       (fun _ _ => @V_func QNum (fun t x _ _ v => match t with Some t => falling_ramp t x v | None => 0%Q end))
       (Some (slab_mesh QNum (mkix 2 1 1) (0%Q, 2%Q) (0%Q, 2%Q) (0%Q, 2%Q) (mkix 4 4 4))) false)
    false L_none false (mknad (N := QNum) (Qmake 1 10) M_local R_absolute (Some [0]) None false 0%Q) false.
Definition ramp_gas : arr Q := mkarr 5 (mkix 2 1 1) (fun v i => falling_ramp 0%Q (inject_Z (cx i) + Qmake 1 2)%Q v).
Definition two_cells (u : arr Q) : list Q := map (fun k => at_ u 0 (mkix k 0 0)) [0; 1].
Definition seen (o : run QNum) := map Qred (two_cells (o_u o)).
Notation duct_run ig := (simulate ramp_duct (fun _ _ _ => 0%Q) ig true None (Some 1) true [] false 0 ramp_gas).
Lemma duct_euler : looked seen (duct_run I_euler) = Some [Qmake 39 4; Qmake 35 4].
Proof. vm_compute. reflexivity. Qed.
Lemma duct_ssprk2 : looked seen (duct_run I_ssprk2) = Some [Qmake 311 32; Qmake 561 64].
Proof. vm_compute. reflexivity. Qed.
Lemma duct_tabulated : tabulated ramp_duct.
Proof.
  split; [split|].
  - intros []; cbn; lia.
  - intros []; cbn; lia.
  - exists AX. intros [H _]. discriminate.
  - exact I.
  - intros []; cbn; lia.
Qed.
Lemma red_eq (a b : Q) : Qred a = b -> Qeq a b.
Proof. intros <-. symmetry. apply Qred_correct. Qed.
Theorem stages_miss_boundary : exists (c : config QNum) heap u0 o o', tabulated c /\ c_limit c = false /\ shp u0 = c_n c /\
  (forall a, inactive_b c a = negb (axis_eqb a AX)) /\
  (forall a, c_bounds c a = (0%Q, 2%Q)) /\ c_fixed_dt c = Some (Qmake 1 4) /\
  (forall pos, bc_type (c_bc c) AX pos = B_dirichlet /\ exists q, bc_val (c_bc c) AX pos = V_func q /\
    forall t x y z v, q (Some t) x y z v = falling_ramp t x v) /\
  (forall v i, at_ u0 v i = falling_ramp 0%Q (inject_Z (cx i) + Qmake 1 2)%Q v) /\
  simulate c heap I_euler true None (Some 1) true [] false 0 u0 = Ok o /\
  simulate c heap I_ssprk2 true None (Some 1) true [] false 0 u0 = Ok o' /\
  forall k, 0 <= k < 2 ->
    Qeq (at_ (o_u o) 0 (mkix k 0 0)) (falling_ramp (Qmake 1 4) (inject_Z k + Qmake 1 2)%Q 0) /\
    ~ Qeq (at_ (o_u o') 0 (mkix k 0 0)) (falling_ramp (Qmake 1 4) (inject_Z k + Qmake 1 2)%Q 0).
Proof.
  destruct (looked_ok seen _ _ duct_euler) as (o & E & V). destruct (looked_ok seen _ _ duct_ssprk2) as (o' & E' & V').
  unfold seen, two_cells in V, V'. cbn [map] in V, V'. injection V as V0 V1. injection V' as V0' V1'.
  apply red_eq in V0, V1, V0', V1'.
  exists ramp_duct, (fun _ _ _ => 0%Q), ramp_gas, o, o'. split; [exact duct_tabulated|]. do 2 (split; [reflexivity|]).
  split; [intros []; reflexivity|]. split; [reflexivity|]. split; [reflexivity|].
  split; [intro pos; split; [reflexivity|]; eexists; split; reflexivity|]. split; [reflexivity|]. split; [exact E|]. split; [exact E'|].
  intros k Hk. assert (k = 0 \/ k = 1) as [-> | ->] by lia.
  - split; [rewrite V0; reflexivity|]. intro Q. rewrite V0' in Q. discriminate Q.
  - split; [rewrite V1; reflexivity|]. intro Q. rewrite V1' in Q. discriminate Q.
Qed.

(** ** a channel with exact moving values on its four sides *)
Local Open Scope R_scope.
Definition fall : list mono := [(10, (0, 0, 0)%nat); (-1, (1, 0, 0)%nat); (-1, (0, 1, 0)%nat)].
Definition drift (a : axis) : R := match a with AX => 1 | AY => 2 | AZ => -3 end.
Definition channel : config RNum :=
  mkcfg (N := RNum) (mkix 8 8 1) (mkix 1 1 0) (fun _ => (0, 1)) (1/2) (Some (1/100)) (7/5) (1/1000) RS_hllc
    (mkbc (N := RNum) (fun a _ => match a with AZ => B_periodic | _ => B_dirichlet end)
       (fun _ _ => @V_func RNum (fun o x y z r => match o with
          | Some t => average3 (fun x y z => conserved (7/5) (drifting drift 1 (fun _ => 0) (carried drift t (peval3 fall) x y z)) r) x y z
                        ((1 - 0) / IZR 8) ((1 - 0) / IZR 8) ((1 - 0) / IZR 1)
          | None => 0 end))
       (Some (slab_mesh RNum (mkix 8 8 1) (0, 1) (0, 1) (0, 1) (mkix 9 9 9))) false)
    false L_none false (mknad (N := RNum) 1 M_global R_absolute None None false 1) false.
Definition channel_gas : arr R := mkarr 5 (mkix 8 8 1) (fun r j =>
  cell_mean channel (fun x y z => conserved (7/5) (drifting drift 1 (fun _ => 0) (carried drift 0 (peval3 fall) x y z)) r) j).
Lemma channel_case : forall heap, let c := channel in let s := fun _ : Z => 0 in
  tabulated c /\ fillable (N := RNum) (middle_of c) c 5 /\ c_limit c = false /\ steps_forward c /\ 0 < c_csq_floor c /\ 1 < c_gamma c /\
  (forall a, fst (c_bounds c a) < snd (c_bounds c a)) /\
  degree3 (Z.to_nat (cx (c_p c))) (Z.to_nat (cy (c_p c))) (Z.to_nat (cz (c_p c))) fall /\ total_degree 1 fall /\
  exact_sides c drift 1 s (peval3 fall) /\ exact_means c drift 1 s (peval3 fall) 0 channel_gas /\
  (forall t j x y z, 0 <= t -> neighbourhood c j -> in_cell c j x y z -> 0 < carried drift t (peval3 fall) x y z) /\
  (exists o, simulate c heap I_euler false None (Some (Z.of_nat 2)) true [] false 0 channel_gas = Ok o) /\
  exists y, solver_f RNum c heap (aux_init RNum c heap 5) 0 0 channel_gas = Ok y.
Proof.
  intros heap c s.
  assert (HT : tabulated c).
  { split; [split|].
    - intros []; cbn; lia.
    - intros []; cbn; lia.
    - exists AX. intros [H _]. discriminate.
    - exact I.
    - intros []; cbn; lia. }
  assert (HB : forall a, c_bounds c a = (0, 1)) by (intros []; reflexivity).
  assert (HA : fillable (N := RNum) (middle_of c) c 5).
  { assert (D : forall a pos, dir_ok (N := RNum) (middle_of c) (c_bc c) 5 (c_n c) (ghost_zones3 c) a pos).
    { intros a pos.
      assert (M : middle_of c = fun d k => centre (fst (bnd (0, 1) (0, 1) (0, 1) d)) (snd (bnd (0, 1) (0, 1) (0, 1) d)) (getc d (mkix 8 8 1)) k).
      { extensionality d. extensionality k. destruct d; reflexivity. }
      rewrite M. apply (mesh_dir_ok (c_bc c) 5 (mkix 8 8 1) (0, 1) (0, 1) (0, 1) (mkix 9 9 9) (ghost_zones3 c) a pos).
      - intros []; cbn; lia.
      - intros []; cbn; lia.
      - destruct a; cbn; lia.
      - intros []; vm_compute; discriminate.
      - reflexivity.
      - exact I. }
    intros a. destruct a; [right|right|left; reflexivity].
    - split; [right; split; [exact I|apply D]|]. split; [right; split; [exact I|apply D]|]. intro X; discriminate X.
    - split; [right; split; [exact I|apply D]|]. split; [right; split; [exact I|apply D]|]. intro X; discriminate X. }
  split; [exact HT|]. split; [exact HA|]. split; [reflexivity|]. split; [cbn; lra|].
  split; [cbn; try lra|]. split; [cbn; try lra|]. split; [intro a; rewrite HB; cbn; lra|].
  split; [unfold fall; repeat constructor; cbn; lia|]. split; [unfold fall; repeat constructor; cbn; lia|].
  split.
  { intros a pos Ha. split; [destruct a; [reflexivity|reflexivity|discriminate Ha]|]. eexists. split; [destruct a, pos; reflexivity|]. reflexivity. }
  split; [intros i r _ _; reflexivity|].
  split.
  { intros t j x y z Ht Hj (Hx & Hy & _).
    assert (U : forall a, a <> AZ -> forall w, Rabs (w - middle_of c a (getc a j)) <= width c a / 2 -> w <= 4).
    { intros a Ha w Hw.
      assert (E2 : width c a = / 8) by (unfold width; rewrite HB; destruct a; [| |congruence]; cbn [fst snd getc c channel c_n NdArray.cx NdArray.cy]; lra).
      unfold middle_of in Hw. rewrite HB, E2 in Hw. cbn [fst] in Hw.
      assert (Q : (getc a j <= 20)%Z).
      { specialize (Hj a). assert (reach c a <= 8)%Z by (destruct a; vm_compute; discriminate). destruct a; cbn [getc c channel c_n NdArray.cx NdArray.cy NdArray.cz] in *; lia. }
      apply IZR_le in Q. apply Coquelicot.Rcomplements.Rabs_le_between in Hw. lra. }
    pose proof (U AX ltac:(discriminate) x Hx). pose proof (U AY ltac:(discriminate) y Hy).
    unfold carried, fall, drift. cbn [peval3 tval pow]. lra. }
  split.
  - destruct (runs_end RNum (middle_of c) c heap I_euler false (Z.of_nat 2) true [] false 0 channel_gas HT HA eq_refl eq_refl) as (o & E & _); [cbn; lia|cbn; lia|].
    exists o. exact E.
  - destruct (f_ok RNum (middle_of c) c heap 5 HT HA ltac:(lia) eq_refl (aux_init RNum c heap 5) 0 0 channel_gas) as (x' & dt & k & E & _).
    + intro d. cbn. auto.
    + split; reflexivity.
    + eexists. exact E.
Qed.
