(** Blasts in a corner and in the middle of the continued domain. *)
From Coq Require Import ZArith List Bool Lia Reals Lra String FunctionalExtensionality.
From Verif Require Import Err Num NdArray HydroM FvM RiemannM StencilsM BcM SpecBc LimitM OdeM SolverM ICM Spec SpecLim SpecSolver SpecCons SpecScheme SpecSym SpecMirLim SpecFold SpecIC SpecCorner
  NdArrayP FvP OpP SolverP ExistP SchemeP ShiftP WatchP MirrorP PermP PermLimP FoldP FoldLimP CornerP.
From Verif Require Import BroadP LimExistP SymLimP.
From Verif Require Import SpecHs SpecIC ICP.
Import ListNotations.
Local Open Scope R_scope.

(** what the initial state is made of, cell by cell *)
Definition begun (cons fv : bool) (g : R) (s : Z -> R) (v : Z) : R :=
  if (v <? 5)%Z then (if fv then s v else to_state cons g s v)
  else (if fv then 0 else to_state cons g (fun w => if (w <? 5)%Z then s w else 0) v).
Lemma begun_ext cons fv g s s' v : (forall w, s w = s' w) -> begun cons fv g s v = begun cons fv g s' v.
Proof.
  intro H. assert (E : s = s') by (apply functional_extensionality; exact H). rewrite E. reflexivity.
Qed.
Lemma blast_initial lg (cen : bool) dims rho0 E0 E1 (c : config RNum) cons fv : blast_size c dims -> (forall a, 0 <= getc a (c_p c))%Z -> unit_rules lg ->
  fv = false \/ cons = true ->
  res_is (initial_state RNum lg c (sedov_blast RNum (if cen then "center" else "corner")%string dims rho0 E0 E1) None cons fv) 5 (c_n c)
    (fun v i => begun cons fv (c_gamma c) (fun w => blast_value cen dims rho0 E0 E1 c w i) v).
Proof.
  intros H P U O. destruct fv.
  - destruct O as [O| ->]; [discriminate|]. assert (G : good_names (map fst (listed None))) by (split; [constructor|intros s []]).
    destruct (initial_fv lg c (sedov_blast RNum (if cen then "center" else "corner")%string dims rho0 E0 E1) None G) as [_ B].
    eapply res_is_ext; [apply (B _ (sedov_mesh cen dims rho0 E0 E1 c H))|]. intros v i. unfold filled, listed, begun. cbn [List.length firstn].
    destruct (v <? 5)%Z; [reflexivity|]. destruct (Z.to_nat (v - 5)); reflexivity.
  - eapply res_is_ext; [apply (sedov_initial lg cen dims rho0 E0 E1 c cons H P U)|]. intros v i. reflexivity.
Qed.
Lemma begun_still cons fv g dims (cen : bool) rho0 E0 E1 (c : config RNum) i v : (1 <= v <= 3)%Z ->
  begun cons fv g (fun w => blast_value cen dims rho0 E0 E1 c w i) v = 0.
Proof.
  intro V. unfold begun, to_state. assert (V' : v = 1%Z \/ v = 2%Z \/ v = 3%Z) by lia.
  destruct V' as [-> |[-> | ->]]; cbn [Z.ltb Z.compare Pos.compare Pos.compare_cont]; unfold compute_conservatives, blast_value, vec5, sum3; cbv zeta; cbn; destruct fv, cons; try reflexivity; apply Rmult_0_r || apply Rmult_0_l.
Qed.

(** ** the two blasts *)
Lemma named_in a dims : In a (named_axes dims) <-> in_dims a dims = true.
Proof. unfold named_axes. rewrite filter_In. split; [tauto|]. intro H. split; [destruct a; cbn; tauto|exact H]. Qed.
Lemma listed_named a dims : listed_axis a (named_axes dims) = in_dims a dims.
Proof. apply eq_true_iff_eq. rewrite listed_in. apply named_in. Qed.
Lemma named_nodup dims : NoDup (named_axes dims).
Proof. apply NoDup_filter. repeat constructor; cbn; intuition discriminate. Qed.
Section Blast.
Context (dims : string) (c : config RNum) (b' : bcond RNum) (HB : blast_corner dims c) (HW : forall a, in_dims a dims = true -> 0 < spacing RNum c a).
Local Notation l := (named_axes dims).
Local Notation c' := (continued (named_axes dims) b' c).
Lemma corner_size : blast_size c dims.
Proof.
  intro a. destruct HB as [_ _ C1 C2]. destruct (in_dims a dims) eqn:E.
  - specialize (C1 a E). split; [lia|]. intros _. split; [exact C1|exact (HW a E)].
  - specialize (C2 a E). split; [lia|]. discriminate.
Qed.
Lemma spacing_continued a : in_dims a dims = true -> spacing RNum c' a = spacing RNum c a.
Proof.
  intro E. unfold spacing. cbn [continued c_n c_bounds]. rewrite getc_twice, listed_named, E. cbn [fst snd nsub nmul ndiv nofZ RNum]. rewrite mult_IZR.
  destruct HB as [_ _ C1 _]. specialize (C1 a E). assert (K : IZR (getc a (c_n c)) <> 0) by (apply not_0_IZR; lia).
  assert (X : forall lo hi m : R, m <> 0 -> (hi - (2 * lo - hi)) / (2 * m) = (hi - lo) / m) by (intros; field; auto). apply X, K.
Qed.
Lemma center_size : blast_size c' dims.
Proof.
  intro a. destruct (corner_size a) as [S1 S2]. cbn [continued c_n]. rewrite getc_twice, listed_named. destruct (in_dims a dims) eqn:E.
  - split; [lia|]. intros _. destruct (S2 eq_refl). split; [lia|]. rewrite (spacing_continued a E). assumption.
  - split; [exact S1|discriminate].
Qed.
Lemma middle_is_corner i : in_shape (c_n c') i -> middle_cell dims (c_n c') i = corner_cell (original l (c_n c) i).
Proof.
  intro Hi. assert (Q : forall a, (negb (in_dims a dims) || SpecIC.middle (getc a (c_n c')) (getc a i))%bool = (getc a (original l (c_n c) i) =? 0)%Z).
  { intro a. specialize (Hi a). cbn [continued c_n] in *. rewrite getc_twice, getc_original, listed_named in *. destruct HB as [_ _ C1 C2]. destruct (in_dims a dims) eqn:E; cbn [negb orb].
    - specialize (C1 a E). unfold SpecIC.middle. replace (2 * getc a (c_n c) / 2)%Z with (getc a (c_n c)) by (rewrite Z.mul_comm, Z.div_mul; lia).
      destruct (Z.leb_spec (getc a (c_n c)) (getc a i)); apply eq_true_iff_eq; rewrite orb_true_iff, !Z.eqb_eq; lia.
    - specialize (C2 a E). symmetry. apply Z.eqb_eq. lia. }
  unfold middle_cell, corner_cell. cbn [forallb]. rewrite !Q. reflexivity.
Qed.
Lemma over_same f g : (forall a, in_dims a dims = true -> f a = g a) -> over_named dims f = over_named dims g.
Proof. intro H. unfold over_named. destruct (in_dims AX dims) eqn:X, (in_dims AY dims) eqn:Y, (in_dims AZ dims) eqn:Z0; rewrite ?(H AX), ?(H AY), ?(H AZ) by assumption; reflexivity. Qed.
Lemma blast_image rho0 E0 E1 v i : in_shape (c_n c') i -> blast_value true dims rho0 E0 E1 c' v i = blast_value false dims rho0 E0 E1 c v (original l (c_n c) i).
Proof.
  intro Hi. unfold blast_value. rewrite (middle_is_corner i Hi), (over_same (fun a => 2 * spacing RNum c' a) (fun a => 2 * spacing RNum c a)); [reflexivity|].
  intros a E. f_equal. exact (spacing_continued a E).
Qed.
Lemma blasts_opened lg rho0 E0 E1 cons fv : (forall a, 0 <= getc a (c_p c))%Z -> unit_rules lg -> fv = false \/ cons = true ->
  exists u0 u1, initial_state RNum lg c (sedov_blast RNum "corner" dims rho0 E0 E1) None cons fv = Ok u0 /\
    initial_state RNum lg c' (sedov_blast RNum "center" dims rho0 E0 E1) None cons fv = Ok u1 /\
    rows u0 = 5%Z /\ shp u0 = c_n c /\ opened (N := RNum) l u0 u1.
Proof.
  intros P U O. destruct (blast_initial lg false dims rho0 E0 E1 c cons fv corner_size P U O) as (u0 & X0 & A0 & B0 & V0).
  destruct (blast_initial lg true dims rho0 E0 E1 c' cons fv center_size P U O) as (u1 & X1 & A1 & B1 & V1).
  exists u0, u1. split; [exact X0|]. split; [exact X1|]. split; [exact A0|]. split; [exact B0|]. change (car RNum) with R in *. apply opened_is.
  split; [congruence|]. split; [rewrite B0, B1; reflexivity|]. intros v i Hi. rewrite B1 in Hi. unfold image. cbv zeta. rewrite B0, V0, V1.
  change (c_gamma c') with (c_gamma c).
  rewrite (begun_ext cons fv (c_gamma c) _ (fun w => blast_value false dims rho0 E0 E1 c w (original l (c_n c) i)) v (fun w => blast_image rho0 E0 E1 w i Hi)).
  destruct (existsb _ l) eqn:E; [|reflexivity]. apply existsb_exists in E. destruct E as (a & _ & E). apply andb_prop in E. destruct E as [E _]. apply Z.eqb_eq in E.
  rewrite begun_still by (destruct a; cbn in E; lia). ring.
Qed.
End Blast.

Theorem blast_llf dims lg rho0 E0 E1 cons fv (c : config RNum) b' : tabulated c -> closed c -> blast_corner dims c ->
  (forall a, in_dims a dims = true -> 0 < spacing RNum c a) -> upper_at_all_ends (named_axes dims) c b' -> unit_rules lg -> fv = false \/ cons = true ->
  c_rs c = RS_llf -> (c_limit c = true -> limiting_fair (named_axes dims) c) ->
  exists u0 u1, initial_state RNum lg c (sedov_blast RNum "corner" dims rho0 E0 E1) None cons fv = Ok u0 /\
    initial_state RNum lg (continued (named_axes dims) b' c) (sedov_blast RNum "center" dims rho0 E0 E1) None cons fv = Ok u1 /\
    forall heap heap' i av T k exact db log fuel,
    moved_outcome (N := RNum) (opened (N := RNum) (named_axes dims)) (simulate c heap i av T k exact db log fuel u0)
      (simulate (continued (named_axes dims) b' c) heap' i av T k exact db log fuel u1).
Proof.
  intros HT HC HB HW U HR O G HL. pose proof (degs c HT) as DG.
  destruct (blasts_opened dims c b' HB HW lg rho0 E0 E1 cons fv (fun a => proj1 (DG a)) HR O) as (u0 & u1 & X0 & X1 & R0 & S0 & M).
  exists u0, u1. split; [exact X0|]. split; [exact X1|]. intros. apply walls_llf; auto.
  - apply HB.
  - apply named_nodup.
  - intros a I. apply named_in in I. split; [apply HB, I|]. intros [I1 _]. destruct HB as [_ _ C1 _]. specialize (C1 a I). lia.
  - change (car RNum) with R in *. lia.
Qed.
Theorem blast_hllc dims lg rho0 E0 E1 cons fv (c : config RNum) b' : tabulated c -> closed c -> blast_corner dims c ->
  (forall a, in_dims a dims = true -> 0 < spacing RNum c a) -> upper_at_all_ends (named_axes dims) c b' -> unit_rules lg -> fv = false \/ cons = true ->
  c_rs c = RS_hllc -> low_order c -> 0 < c_csq_floor c -> 1 < c_gamma c ->
  exists u0 u1, initial_state RNum lg c (sedov_blast RNum "corner" dims rho0 E0 E1) None cons fv = Ok u0 /\
    initial_state RNum lg (continued (named_axes dims) b' c) (sedov_blast RNum "center" dims rho0 E0 E1) None cons fv = Ok u1 /\
    forall heap heap' i av T k exact db log fuel o,
    simulate_checked (N := RNum) physical_b c heap i av T k exact db log fuel u0 = Ok o ->
    simulate c heap i av T k exact db log fuel u0 = Ok o /\
    exists o', simulate (continued (named_axes dims) b' c) heap' i av T k exact db log fuel u1 = Ok o' /\
      moved_run (N := RNum) (opened (N := RNum) (named_axes dims)) o o'.
Proof.
  intros HT HC HB HW U HR O G LO HF HG. pose proof (degs c HT) as DG.
  destruct (blasts_opened dims c b' HB HW lg rho0 E0 E1 cons fv (fun a => proj1 (DG a)) HR O) as (u0 & u1 & X0 & X1 & R0 & S0 & M).
  exists u0, u1. split; [exact X0|]. split; [exact X1|]. intros. apply walls_hllc; auto.
  - apply HB.
  - apply named_nodup.
  - intros a I. apply named_in in I. split; [apply HB, I|]. intros [I1 _]. destruct HB as [_ _ C1 _]. specialize (C1 a I). lia.
  - change (car RNum) with R in *. lia.
Qed.
(** ** symmetric data *)
Theorem symmetric_stays s (c : config RNum) : (forall a b, s a = s b -> a = b) -> axes_exchanged s c c -> tabulated c -> closed c ->
  (c_limit c = true -> known_options c /\ (c_convex c = false \/ flat_box c) /\ (c_force c = true \/ axes_fair s (c_nad c))) ->
  forall heap i av T k exact db log fuel u o, shp u = c_n c -> (2 <= rows u)%Z -> permuted s u u ->
  simulate c heap i av T k exact db log fuel u = Ok o ->
  permuted s (o_u o) (o_u o) /\ List.Forall (fun x => permuted s (fst (snd x)) (fst (snd x))) (o_snaps o).
Proof.
  intros HS X HT HC HL heap i av T k exact db log fuel u o Su Ru P E.
  assert (Q : moved_outcome (N := RNum) (permuted s) (simulate c heap i av T k exact db log fuel u) (simulate c heap i av T k exact db log fuel u)).
  { destruct (c_limit c) eqn:EL.
    - destruct (HL eq_refl) as (K & B & F). apply axes_equivalent_limited; auto. destruct B; auto.
    - apply axes_equivalent; auto. lia. }
  rewrite E in Q. destruct Q as [_ _ _ Q1 Q2]. split; [exact Q1|]. clear - Q2. revert Q2. generalize (o_snaps o). intros l.
  induction l as [|x l IH]; intro H; [constructor|]. inversion H; subst. constructor; [tauto|]. apply IH. assumption.
Qed.
Lemma corner_turned s i : (forall a b, s a = s b -> a = b) -> corner_cell (turned s i) = corner_cell i.
Proof.
  intro H. unfold corner_cell, turned. cbn [forallb getc cx cy cz]. apply eq_true_iff_eq. rewrite !andb_true_iff, !Z.eqb_eq.
  pose proof (H AX AY) as H1. pose proof (H AX AZ) as H2. pose proof (H AY AZ) as H3.
  destruct (s AX), (s AY), (s AZ); cbn [getc]; try tauto; exfalso; (discriminate (H1 eq_refl) || discriminate (H2 eq_refl) || discriminate (H3 eq_refl)).
Qed.
Theorem blast_symmetric dims lg rho0 E0 E1 cons fv s (c : config RNum) : tabulated c -> closed c -> blast_corner dims c ->
  (forall a, in_dims a dims = true -> 0 < spacing RNum c a) -> unit_rules lg -> fv = false \/ cons = true ->
  (forall a b, s a = s b -> a = b) -> axes_exchanged s c c ->
  (c_limit c = true -> known_options c /\ (c_convex c = false \/ flat_box c) /\ (c_force c = true \/ axes_fair s (c_nad c))) ->
  exists u0, initial_state RNum lg c (sedov_blast RNum "corner" dims rho0 E0 E1) None cons fv = Ok u0 /\
  forall heap i av T k exact db log fuel o, simulate c heap i av T k exact db log fuel u0 = Ok o ->
  permuted s (o_u o) (o_u o) /\ List.Forall (fun x => permuted s (fst (snd x)) (fst (snd x))) (o_snaps o).
Proof.
  intros HT HC HB HW HR O HS X HL. pose proof (degs c HT) as DG.
  destruct (blast_initial lg false dims rho0 E0 E1 c cons fv (corner_size dims c HB HW) (fun a => proj1 (DG a)) HR O) as (u0 & X0 & A0 & B0 & V0).
  exists u0. split; [exact X0|]. intros heap i av T k exact db log fuel o E. change (car RNum) with R in *.
  apply (symmetric_stays s c HS X HT HC HL heap i av T k exact db log fuel u0 o); auto; [lia|].
  split; [reflexivity|]. split; [rewrite B0; apply X|]. intros v j Hj.
  assert (Q : forall v, at_ u0 v (turned s j) = at_ u0 v j).
  { intro w. rewrite !V0. apply begun_ext. intro q. unfold blast_value. rewrite (corner_turned s j HS). reflexivity. }
  assert (Z0 : forall a j, at_ u0 (comp a) j = 0) by (intros a q; rewrite V0; apply begun_still; destruct a; cbn; lia).
  rewrite Q. unfold permute.
  destruct (Z.eq_dec v 1) as [->|N1]; [rewrite Z0; exact (Z0 AX j)|]. destruct (Z.eq_dec v 2) as [->|N2]; [rewrite Z0; exact (Z0 AY j)|].
  destruct (Z.eq_dec v 3) as [->|N3]; [rewrite Z0; exact (Z0 AZ j)|].
  destruct v as [|[[]|[]|]|]; try reflexivity; congruence.
Qed.
(** ** the configuration of the test of the repository *)
Local Open Scope Z_scope.
Definition side_bc (dims : string) : bcond RNum :=
  mkbc (fun a pos => if in_dims a dims then match pos with SL => B_reflective | SR => B_outflow end else B_none) (fun _ _ => V_other) None false.
Definition sedov_nad : nad_params RNum := mknad (N := RNum) (1/100)%R M_global R_relative None (Some [(0, (Some (1/10^16)%R, None)); (4, (Some (1/10^16)%R, None))]) false (1/10^10)%R.
Definition sedov_box (rs : rsolver) (p : Z) : config RNum :=
  mkcfg (N := RNum) (mkix 16 16 1) (mkix p p 0) (fun _ => (0, 1)%R) (4/5)%R None (7/5)%R (1/10^16)%R rs (side_bc "xy") (1 <=? p) L_minmod (1 <=? p) sedov_nad false.
Lemma sedov_ok rs p : p = 0 \/ p = 1 -> let c := sedov_box rs p in tabulated c /\ closed c /\ blast_corner "xy" c /\
  (forall a, in_dims a "xy" = true -> (0 < spacing RNum c a)%R) /\ upper_at_all_ends (named_axes "xy") c (uniform_bc B_outflow) /\
  limiting_fair (named_axes "xy") (sedov_box rs 1).
Proof.
  intros P c.
  assert (E : forall a, a = AZ \/ (forall ty, copies ty -> enough ty (getc a (c_n c)) (getc a (ghost_zones3 c)))).
  { intros []; [right|right|left; reflexivity]; intros []; intros []; destruct P as [-> | ->]; vm_compute; try discriminate; reflexivity. }
  split; [|split; [|split; [|split; [|split]]]].
  - split; [split|].
    + intros []; cbn; lia.
    + intros []; cbn; lia.
    + exists AX. intros [H _]. discriminate.
    + intros e [<-|[<-|[]]]; cbn; lia.
    + intros []; cbn; lia.
  - intro a. destruct (E a) as [-> |F]; [left; destruct P as [-> | ->]; reflexivity|]. destruct a.
    + right. split; [|intro H; discriminate H]. intro pos. assert (C1 : copies (bc_type (c_bc c) AX pos)) by (destruct pos; exact I). split; [exact C1|]. apply F, C1.
    + right. split; [|intro H; discriminate H]. intro pos. assert (C1 : copies (bc_type (c_bc c) AY pos)) by (destruct pos; exact I). split; [exact C1|]. apply F, C1.
    + left. destruct P as [-> | ->]; reflexivity.
  - split.
    + discriminate.
    + intros [] H; [reflexivity|reflexivity|discriminate].
    + intros [] H; cbn; [lia|lia|discriminate].
    + intros [] H; [discriminate|discriminate|reflexivity].
  - intros [] H; [| |discriminate]; cbn; lra.
  - intros [] pos H; [destruct pos; reflexivity|destruct pos; reflexivity|]. exfalso. apply H. split; reflexivity.
  - split; [split; [discriminate|split; discriminate]|]. split; [left; reflexivity|left; reflexivity].
Qed.
Lemma sedov_low rs p : p = 0 \/ p = 1 -> low_order (sedov_box rs p).
Proof.
  intros [-> | ->]; [left; split; [reflexivity|intros []; reflexivity]|right]. destruct (sedov_ok rs 1 (or_intror eq_refl)) as (_ & _ & _ & _ & _ & K & B & _).
  split; [reflexivity|]. split; [reflexivity|]. split; [exact K|]. split; [exact B|left; reflexivity].
Qed.
Lemma sedov_runs rs heap i k u : shp u = mkix 16 16 1 -> 2 <= rows u -> 1 <= k -> exists o, simulate (sedov_box rs 1) heap i true None (Some k) true [] false 0 u = Ok o.
Proof.
  intros Su Ru K. destruct (sedov_ok rs 1 (or_intror eq_refl)) as (T & C & _ & _ & _ & O & _).
  assert (FI : fillable (N := RNum) (fun _ _ => 0%R) (sedov_box rs 1) (rows u)) by (apply SymLimP.closed_fillable, C).
  assert (EX : forall c : config RNum, tabulated c -> fillable (N := RNum) (fun _ _ => 0%R) c (rows u) -> c_limit c = true -> known_options c -> c_convex c = false -> shp u = c_n c ->
    exists o, simulate c heap i true None (Some k) true [] false 0 u = Ok o).
  { intros c T' FI' L' O' F' S'. destruct (limited_runs_end RNum (fun _ _ => 0%R) c heap i true k true [] false 0%nat u) as (o & E & _); auto; try apply flags_R; try lia. exists o. exact E. }
  apply EX; auto.
Qed.
Definition swap (a : axis) : axis := match a with AX => AY | AY => AX | AZ => AZ end.
Lemma sedov_swaps rs p : (forall a b, swap a = swap b -> a = b) /\ axes_exchanged swap (sedov_box rs p) (sedov_box rs p).
Proof. split; [intros [] []; cbn; congruence|]. split; try reflexivity. intros [] []; reflexivity. Qed.
Lemma twisted_case : permuted swap (mkarr 5 (mkix 16 16 1) (fun v i => if v =? 0 then IZR (cx i * cy i) else if v =? 1 then IZR (cx i) else if v =? 2 then IZR (cy i) else 1%R))
    (mkarr 5 (mkix 16 16 1) (fun v i => if v =? 0 then IZR (cx i * cy i) else if v =? 1 then IZR (cx i) else if v =? 2 then IZR (cy i) else 1%R)).
Proof.
  split; [reflexivity|]. split; [reflexivity|]. intros v i _. unfold permute. cbn [at_ turned getc swap comp cx cy].
  destruct (Z.eq_dec v 0) as [->|N0]; [cbn [Z.eqb]; rewrite Z.mul_comm; reflexivity|].
  destruct (Z.eq_dec v 1) as [->|N1]; [reflexivity|]. destruct (Z.eq_dec v 2) as [->|N2]; [reflexivity|]. destruct (Z.eq_dec v 3) as [->|N3]; [reflexivity|].
  destruct v as [|[[]|[]|]|]; try reflexivity; congruence.
Qed.
Lemma sedov_checked heap i k : 1 <= k -> exists o, simulate_checked (N := RNum) physical_b (sedov_box RS_hllc 0) heap i true None (Some k) true [] false 0
    (mkarr 5 (mkix 16 16 1) (fun v _ => if (v =? 0) || (v =? 4) then 1%R else 0%R)) = Ok o.
Proof.
  intro K. destruct (sedov_ok RS_hllc 0 (or_introl eq_refl)) as (T & C & _).
  set (u := mkarr 5 (mkix 16 16 1) (fun v (_ : ix) => if (v =? 0) || (v =? 4) then 1%R else 0%R)).
  assert (FI : fillable (N := RNum) (fun _ _ => 0%R) (sedov_box RS_hllc 0) (rows u)) by (apply SymLimP.closed_fillable, C).
  destruct (runs_end RNum (fun _ _ => 0%R) (sedov_box RS_hllc 0) heap i true k true [] false 0 u) as (o & E & _); auto; try (cbn; lia); try reflexivity. exists o.
  apply (uniform_physical (sedov_box RS_hllc 0) heap i true None (Some k) true [] false 0%nat u (fun v => if (v =? 0) || (v =? 4) then 1%R else 0%R)); auto.
  - intros [] pos _ _; reflexivity.
  - cbn; lia.
  - intros v j _. reflexivity.
  - cbn. lra.
  - change (0 <= 1 - 1/2 * (0 * 0 + 0 * 0 + 0 * 0) / 1)%R. lra.
Qed.
