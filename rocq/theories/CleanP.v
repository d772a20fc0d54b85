(** Steps in which no trouble is logged. *)
From Coq Require Import ZArith List Bool Lia Reals Lra FunctionalExtensionality.
From Verif Require Import Err Num PySlice NdArray HydroM RiemannM StencilsM FvM BcM SedM
  LimitM OdeM SolverM Spec SpecBc SpecLim SpecSolver SpecCons SpecScheme SpecSym SpecLimRhs SpecLog NdArrayP FvP BcP BcQ OpP SolverP OdeP RelP RelS LimP RunP ConsP
  HydroP BroadP SedP DetectP ConvexP ExistP SchemeP SymP ShiftP WatchP UniformP MirrorP LimExistP SymLimP LimRhsP LogP.
From Verif Require PosP QuietP.
Import ListNotations.
Local Open Scope Z_scope.

Section Clean.
Context (c : config RNum) (heap : Z -> Z -> ix -> R) (r : Z) (HT : tabulated c) (HC : closed c) (HL : c_limit c = true) (HK : known_options c) (Hr : 2 <= r).
Local Notation n := (c_n c).
Local Notation W g := (primitives (wts_i RNum) (wts_t RNum) (c_p c) (c_gamma c) g).
Local Notation G u := (filled c u).
Local Notation cand u dt := (euler_candidate c u dt (gdudt RNum c (c_p c) L_none (filled c u))).
Local Notation fluxed x := (flux_arrays_ok RNum c r (x_flux x)).
Lemma pads_E t u : shp u = n -> pads RNum c t u (G u).
Proof. intro Su. exact (PosP.padding_filled c HT HC t u Su). Qed.
Lemma clean_rhs past now x t t' u x' dt k : fluxed x -> ledger c past now x -> rows u = r -> shp u = n ->
  solver_f RNum c heap x t t' u = Ok (x', (dt, k)) ->
  exists det, fluxed x' /\ ledger c past (now ++ [det]) x' /\ rows k = r /\ shp k = n /\ gdt RNum c (c_p c) (G u) = Ok dt /\
  (forall i, in_shape n i -> (at_ (d_trouble det) 0 i = true <-> flag c (W (G u)) (W (G (cand u dt))) i)) /\
  ((forall i, in_shape n i -> at_ (d_trouble det) 0 i = false) ->
    (forall v i, in_shape n i -> at_ k v i = gdudt RNum c (c_p c) L_none (G u) v i) /\
    forall z, shp z = n -> (forall v i, in_shape n i -> at_ z v i = (at_ u v i + dt * at_ k v i)%R) ->
    forall i, in_shape n i -> ~ flag c (W (G u)) (W (G z)) i).
Proof.
  intros FO L RU SU H.
  pose proof (tab_good RNum c HT) as GD. pose proof (sane_dims RNum c (proj1 HT)) as ND.
  assert (N1 : forall d, 1 <= getc d n) by (intro d; apply (GD d)).
  pose proof (pads_E t u SU) as HP.
  unfold solver_f, hydrodynamics in H.
  destruct (hydrofluxes_is RNum c (heap (4 * (x_evals x + 1) + 0)) t (x_flux x) u (c_p c) L_none (G u) GD (or_introl eq_refl) SU) as (dt0 & F & EF & EDT & HF).
  { unfold padding. apply HP. apply width_main, HT. }
  rewrite EF in H. cbn [bind] in H.
  assert (AF : forall d, exists F', assign_all (x_flux x d) (F d) = Ok F' /\ rows F' = r /\ shp F' = face_shape d n /\
     (active RNum c d = true -> forall v i, in_shape (face_shape d n) i -> at_ F' v i = gflux RNum c (c_p c) L_none d (G u) v i)).
  { intro d. destruct (FO d) as [R1 S1]. destruct (HF d) as [HA HI].
    assert (RS : rows (F d) = r /\ shp (F d) = face_shape d n).
    { destruct (active RNum c d); [destruct HA as (A1 & A2 & _); [reflexivity|split; [exact (eq_trans A1 RU)|exact A2]]|]. rewrite HI by reflexivity. auto. }
    destruct RS as [R2 S2].
    destruct (assign_all_is (x_flux x d) (F d) r (face_shape d n) (at_ (F d)) R1 S1) as (F' & E' & R' & S' & V').
    { split; [exact R2|]. split; [exact S2|]. reflexivity. }
    exists F'. split; [exact E'|]. split; [exact R'|]. split; [exact S'|].
    intros Ad v i Hi. refine (eq_trans (V' v i) _). apply HA; assumption. }
  destruct (AF AX) as (F1 & E1 & R1 & S1 & V1). destruct (AF AY) as (F2 & E2 & R2 & S2 & V2).
  destruct (AF AZ) as (F3 & E3 & R3 & S3 & V3). rewrite E1, E2, E3 in H. cbn [bind] in H.
  set (FF := fun d => match d with AX => F1 | AY => F2 | AZ => F3 end) in H.
  assert (FO1 : flux_arrays_ok RNum c r FF) by (intros [| |]; split; assumption).
  assert (VF : forall d, active RNum c d = true -> forall v i, in_shape (face_shape d n) i -> at_ (FF d) v i = gflux RNum c (c_p c) L_none d (G u) v i)
    by (intros [| |]; assumption).
  clearbody FF. clear F1 E1 R1 S1 V1 F2 E2 R2 S2 V2 F3 E3 R3 S3 V3 AF.
  rewrite HL in H. ob H. rename a into x2. rename E into E0. ob H. rename a into dd. rename E into E1. injection H as <- <- <-.
  unfold revise_fluxes in E0. cbn [x_flux set_flux] in E0. ob E0. rename a into det. rename E into ED. ob E0. rename a into x3. rename E into EL.
  destruct (detect_domains RNum c _ _ _ _ _ _ GD ND SU ltac:(lia) ltac:(intros d _; rewrite RU; apply FO1) ED) as (D1 & D2 & D3).
  assert (L3 : ledger c past (now ++ [det]) x3) by (eapply (log_ledger c heap r); [exact D1|exact D2|exact D3| |exact EL]; exact L).
  apply log_flux in EL. destruct EL as [EX _]. cbn [x_flux set_flux] in EX.
  exists det.
  assert (X2 : (fluxed x2 /\ ledger c past (now ++ [det]) x2) /\ (any_trouble (d_trouble det) = false -> x_flux x2 = FF)).
  { destruct (any_trouble (d_trouble det)).
    - ob E0. clear E. ob E0. clear E. ob E0. rename E into E4. ob E0. rename E into E5. ob E0. rename E into E6. injection E0 as <-. split; [split; [|exact L3]|discriminate].
      intros []; cbn [x_flux]; [exact (blend_kept _ _ _ _ _ _ E4 (FO1 AX))|exact (blend_kept _ _ _ _ _ _ E5 (FO1 AY))|exact (blend_kept _ _ _ _ _ _ E6 (FO1 AZ))].
    - injection E0 as <-. split; [split; [|exact L3]|intros _; exact EX]. intro d. rewrite EX. apply FO1. }
  destruct X2 as [[F2 L2] FE]. split; [exact F2|]. split; [exact L2|].
  destruct (euler_equation_is RNum c (x_flux x2) r n N1 ltac:(lia) ND (fun d _ => F2 d)) as (k2 & EK & RK & SK & VK).
  rewrite E1 in EK. injection EK as <-. split; [exact RK|]. split; [exact SK|]. split; [exact EDT|].
  destruct (flags_are c HT HL HK r Hr t _ u (G u) FF dt0 det RU SU HP FO1 VF ED) as (us & RS & SS & VS & IFF).
  assert (PZ : forall z, (forall v i, in_shape n i -> at_ z v i = (at_ u v i + dt0 * gdudt RNum c (c_p c) L_none (G u) v i)%R) -> pads RNum c t us (G z)).
  { intros z VZ. eapply pads_ext; [exact SS|apply pads_E, SS|]. intros v j Hj. unfold filled. cbv zeta.
    assert (Q : at_ us v (folded3 (c_bc c) n j) = at_ z v (folded3 (c_bc c) n j)).
    { pose proof (ShiftP.folded_in RNum c HT HC j Hj) as IN. etransitivity; [apply VS, IN|]. symmetry. apply VZ, IN. }
    rewrite Q. reflexivity. }
  split. { intros i Hi. apply IFF; [apply PZ; reflexivity|exact Hi]. }
  intro CL. assert (AT : any_trouble (d_trouble det) = false).
  { unfold any_trouble. apply not_true_is_false. intro X. apply existsb_exists in X. destruct X as (j & Hj & Q). apply in_ix_list in Hj.
    rewrite (proj2 D1) in Hj. rewrite (CL j Hj) in Q. discriminate. }
  specialize (FE AT).
  assert (VG : forall v i, in_shape n i -> at_ dd v i = gdudt RNum c (c_p c) L_none (G u) v i).
  { intros v i Hi. refine (eq_trans (VK v i) _). unfold gdudt. apply (gsum_ext RNum c _ _ n); [exact Hi|]. intros d A v' j Hj. rewrite FE. apply VF; assumption. }
  split; [exact VG|]. intros z SZ VZ i Hi FL.
  apply (IFF (G z)) in FL; [rewrite (CL i Hi) in FL; discriminate| |exact Hi].
  apply PZ. intros v j Hj. etransitivity; [apply VZ, Hj|]. rewrite (VG v j Hj). reflexivity.
Qed.
Lemma helper_clean past det x : ledger c past [det] x ->
  ledger c (past ++ [[det]]) [] (step_helper RNum c x) /\
  forall i, in_shape n i -> if at_ (d_trouble det) 0 i then (0 < at_ (x_trouble (step_helper RNum c x)) 0 i)%R else at_ (x_trouble (step_helper RNum c x)) 0 i = 0%R.
Proof.
  intros (C & L & V). cbn [List.length] in C.
  assert (P : 0 < x_counter x) by (rewrite C; destruct past; lia).
  assert (ST : step_helper RNum c x = mkaux_s (x_flux x) (x_evals x) 0 (amap (fun v : R => v / IZR (x_counter x))%R (x_trouble x)) (amap (fun v : R => v / IZR (x_counter x))%R (x_nad x)) (amap (fun v : R => v / IZR (x_counter x))%R (x_pad x))).
  { unfold step_helper, reset_troubles. rewrite HL. rewrite (proj2 (Z.ltb_lt _ _) P). reflexivity. }
  split.
  - rewrite ST. split; [cbn; destruct past; reflexivity|]. split; [|left; reflexivity].
    intros y [<-|[<-|[<-|[]]]]; cbn [amap rows shp x_trouble x_nad x_pad]; apply L; cbn; auto.
  - intros i Hi. rewrite ST. cbn [x_trouble amap at_]. destruct V as [V|(V & _)]; [lia|]. destruct V as (_ & _ & V).
    specialize (V 0 i ltac:(lia) Hi). cbn [fst snd] in V. unfold total in V. cbn [map fold_right] in V. unfold flagged in V.
    apply (IZR_lt 0) in P. pose proof (Rinv_0_lt_compat _ P) as P'. destruct (at_ (d_trouble det) 0 i).
    + assert (X : at_ (x_trouble x) 0 i = 1%R) by (refine (eq_trans V _); field).
      refine (eq_ind_r (fun q : R => (0 < q / IZR (x_counter x))%R) _ X). unfold Rdiv. change (car RNum) with R in *. lra.
    + assert (X : at_ (x_trouble x) 0 i = 0%R) by (refine (eq_trans V _); field).
      refine (eq_trans (f_equal (fun q : R => (q / IZR (x_counter x))%R) X) _). unfold Rdiv. apply Rmult_0_l.
Qed.
(** the states a run goes through *)
Definition sound (o : run RNum) : Prop := exists past, ledger c past [] (o_aux o) /\ fluxed (o_aux o) /\ rows (o_u o) = r /\ shp (o_u o) = n.
Local Notation step := (solver_step RNum c heap I_euler).
Local Notation tstep := (take_step RNum (arr_ops RNum) step (step_helper RNum c)).
Lemma clean_step o o' : sound o -> tstep o None = Ok o' -> sound o' /\ o_snaps o' = o_snaps o /\
  exists dt, gdt RNum c (c_p c) (G (o_u o)) = Ok dt /\ o_t o' = (o_t o + dt)%R /\
  (forall i, in_shape n i -> (flag c (W (G (o_u o))) (W (G (cand (o_u o) dt))) i /\ 0 < at_ (x_trouble (o_aux o')) 0 i)%R \/
     ~ flag c (W (G (o_u o))) (W (G (cand (o_u o) dt))) i /\ at_ (x_trouble (o_aux o')) 0 i = 0%R) /\
  ((forall i, in_shape n i -> at_ (x_trouble (o_aux o')) 0 i = 0%R) ->
   (forall v i, in_shape n i -> at_ (o_u o') v i = (at_ (o_u o) v i + dt * gdudt RNum c (c_p c) L_none (G (o_u o)) v i)%R) /\
   forall i, in_shape n i -> ~ flag c (W (G (o_u o))) (W (G (o_u o'))) i).
Proof.
  intros (past & LX & FO & RU & SU) H. unfold take_step in H. ob H. destruct a as [s [dt un]]. ob H. rename a into u'. injection H as <-.
  cbn [o_aux o_u o_t o_snaps]. unfold solver_step in E. cbn [stepper_of] in E. unfold euler in E. ob E. destruct a as [s1 [dt1 k]]. ob E. rename a into un'.
  injection E as <- <- <-. cbn [hit_target].
  destruct (clean_rhs past [] _ _ _ _ _ _ _ FO LX RU SU E1) as (det & FX & LX' & RK & SK & GD & FL & CL). cbn [app] in LX'.
  destruct (helper_clean past det _ LX') as [LH ZH].
  cbn [vadd vscale arr_ops] in E2.
  destruct (amap2_is (@nadd RNum) (o_u o) (amap (fun x => nmul dt1 x) k) r n (at_ (o_u o)) (fun v i => (dt1 * at_ k v i)%R)) as (y & EY & RY & SY & VY).
  { split; [exact RU|]. split; [exact SU|]. reflexivity. } { split; [exact RK|]. split; [exact SK|]. reflexivity. }
  assert (Y : Ok un' = Ok y) by exact (eq_trans (eq_sym E2) EY). injection Y as ->.
  destruct (assign_all_is (o_u o) y r n (at_ y) RU SU) as (z & EZ & RZ & SZ & VZ). { split; [exact RY|]. split; [exact SY|]. reflexivity. }
  cbn [vassign arr_ops] in E0. assert (Z1 : Ok u' = Ok z) by exact (eq_trans (eq_sym E0) EZ). injection Z1 as ->.
  assert (VV : forall v i, at_ z v i = (at_ (o_u o) v i + dt1 * at_ k v i)%R) by (intros v i; exact (eq_trans (VZ v i) (VY v i))).
  split. { exists (past ++ [[det]]). cbn [o_aux o_u]. split; [exact LH|]. split; [rewrite helper_flux; exact FX|]. split; assumption. }
  split; [reflexivity|]. exists dt1. split; [exact GD|]. split; [reflexivity|].
  split. { intros i Hi. pose proof (FL i Hi) as F1. pose proof (ZH i Hi) as Z1. destruct (at_ (d_trouble det) 0 i); [left; split; [apply F1; reflexivity|exact Z1]|right].
    split; [intro F2; apply F1 in F2; discriminate|exact Z1]. }
  intro ZZ. destruct CL as [C1 C2]. { intros i Hi. pose proof (ZH i Hi) as Z1. destruct (at_ (d_trouble det) 0 i); [|reflexivity]. specialize (ZZ i Hi). cbn [o_aux] in ZZ. exfalso. apply (Rlt_irrefl 0). exact (eq_ind _ (fun q => (0 < q)%R) Z1 _ ZZ). }
  split; [intros v i Hi; rewrite VV, (C1 v i Hi); reflexivity|]. intros i Hi. apply (C2 z SZ); [|exact Hi]. intros v j _. apply VV.
Qed.
Local Notation taken := (take_n RNum (arr_ops RNum) step (step_helper RNum c)).
Lemma sound_n m : forall o o', sound o -> taken m o = Ok o' -> sound o'.
Proof.
  induction m as [|m IH]; intros o o' S H; cbn [take_n] in H; [injection H as <-; exact S|]. ob H. exact (IH _ _ (proj1 (clean_step _ _ S E)) H).
Qed.
End Clean.
Lemma last_step {N U S D} (V : vops N U) st h m : forall (o o' : @ode N U S D), take_n N V st h (Datatypes.S m) o = Ok o' ->
  exists o1, take_n N V st h m o = Ok o1 /\ take_step N V st h o1 None = Ok o'.
Proof.
  induction m as [|m IH]; intros o o' H.
  - cbn [take_n] in H. ob H. injection H as <-. exists o. split; [reflexivity|exact E].
  - change (take_n N V st h (Datatypes.S (Datatypes.S m)) o) with (bind (take_step N V st h o None) (fun o1 => take_n N V st h (Datatypes.S m) o1)) in H. ob H.
    destruct (IH _ _ H) as (o1 & A & B). exists o1. split; [|exact B]. cbn [take_n]. rewrite E. exact A.
Qed.
Lemma snapshot_ok {N U S D} (pay : S -> car N -> U -> res D) (o o' : @ode N U S D) : snapshot N pay o = Ok o' ->
  o_u o' = o_u o /\ o_t o' = o_t o /\ o_aux o' = o_aux o /\ exists d, pay (o_aux o) (o_t o) (o_u o) = Ok d /\ o_snaps o' = o_snaps o ++ [(o_t o, d)].
Proof. unfold snapshot. intro H. ob H. injection H as <-. cbn. repeat (split; [reflexivity|]). exists a. split; [reflexivity|reflexivity]. Qed.
Theorem clean_runs : forall wi wt, tables wi wt -> forall (c : config RNum) heap k exact downbeats log fuel u0 o,
  tabulated c -> closed c -> c_limit c = true -> known_options c -> (sed_on (c_nad c) = true -> (0 < sed_eps (c_nad c))%R) ->
  shp u0 = c_n c -> 2 <= rows u0 -> 1 <= k ->
  simulate c heap I_euler true None (Some k) exact downbeats log fuel u0 = Ok o ->
  let W u := primitives wi wt (c_p c) (c_gamma c) (filled c u) in
  exists o1 dt, simulate c heap I_euler true None (Some (k - 1)) exact downbeats log fuel u0 = Ok o1 /\
    SpecScheme.time_step c (W (o_u o1)) dt /\ o_t o = (o_t o1 + dt)%R /\
    let u' := euler_candidate c (o_u o1) dt (balance c (fun d => face_flux wi wt c (c_p c) None d (filled c (o_u o1)))) in
    (forall i, in_shape (c_n c) i -> (troubled c (W (o_u o1)) (W u') i /\ 0 < at_ (x_trouble (o_aux o)) 0 i)%R \/
       ~ troubled c (W (o_u o1)) (W u') i /\ at_ (x_trouble (o_aux o)) 0 i = 0%R) /\
    ((forall i, in_shape (c_n c) i -> at_ (x_trouble (o_aux o)) 0 i = 0%R) ->
       (forall v i, in_shape (c_n c) i -> at_ (o_u o) v i = at_ u' v i) /\
       forall i, in_shape (c_n c) i -> ~ troubled c (W (o_u o1)) (W (o_u o)) i) /\
    exists l w, o_snaps o = l ++ [(o_t o, (w, (x_trouble (o_aux o), x_nad (o_aux o), x_pad (o_aux o))))] /\
      forall v i, in_shape (c_n c) i -> at_ w v i = W (o_u o) v i.
Proof.
  intros wi wt HW c heap k ex db lg fuel u0 o HT HC HL HK He Su Ru Hk H W.
  unfold simulate, solver_integrate, integrate, integrate_n in H |- *. ob H. rename a into oa. ob H. rename a into ob0.
  destruct (snapshot_ok _ _ _ E) as (A1 & A2 & A3 & _). destruct (snapshot_ok _ _ _ H) as (B1 & B2 & B3 & d & BD & BS).
  assert (S0 : sound c (rows u0) oa).
  { clear E0. destruct oa as [ta ua sa na la xa]. cbn [ode_init o_aux o_u o_t] in A1, A2, A3. subst ta ua xa. exists []. cbn [ode_init o_aux o_u]. split.
    - split; [reflexivity|]. split; [apply (limiting_init RNum c heap (rows u0))|]. right.
      repeat split; cbn; intros; unfold total; cbn [map fold_right]; lra.
    - split; [apply (limiting_init RNum c heap (rows u0))|]. split; [reflexivity|exact Su]. }
  replace (Z.to_nat k) with (Datatypes.S (Z.to_nat (k - 1))) in E0 by lia.
  destruct (last_step _ _ _ _ _ _ E0) as (o1 & T1 & T2).
  pose proof (sound_n c heap (rows u0) HT HC HL HK Ru _ _ _ S0 T1) as S1.
  destruct (clean_step c heap (rows u0) HT HC HL HK Ru _ _ S1 T2) as (S2 & _ & dt & GD & TT & LG & CL).
  destruct S1 as (p1 & _ & _ & R1 & SH1). destruct S2 as (p2 & _ & _ & R2 & SH2).
  destruct (payload_is RNum c heap true (o_aux o1) (o_t o1) (o_u o1) (filled c (o_u o1)) HT SH1 (PosP.padding_filled c HT HC _ _ SH1)) as (w1 & P1 & _).
  destruct (payload_is RNum c heap true (o_aux ob0) (o_t ob0) (o_u ob0) (filled c (o_u ob0)) HT SH2 (PosP.padding_filled c HT HC _ _ SH2)) as (w2 & P2 & _ & _ & V2).
  assert (D2 : Ok d = Ok (w2, (x_trouble (o_aux ob0), x_nad (o_aux ob0), x_pad (o_aux ob0)))) by exact (eq_trans (eq_sym BD) P2). injection D2 as ->.
  cbn [bind]. rewrite T1. cbn [bind]. unfold snapshot at 1. rewrite P1. cbn [bind].
  eexists. exists dt. split; [reflexivity|]. cbn [o_u o_t]. rewrite B1, B2, B3.
  split; [apply (gdt_is wi wt HW c HT), GD|]. split; [exact TT|].
  assert (BG : forall v i, gdudt RNum c (c_p c) L_none (filled c (o_u o1)) v i = balance c (fun d => face_flux wi wt c (c_p c) None d (filled c (o_u o1))) v i)
    by (intros v i; exact (QuietP.balance_gd wi wt HW c _ HT v i)).
  assert (CE : euler_candidate c (o_u o1) dt (gdudt RNum c (c_p c) L_none (filled c (o_u o1))) =
     euler_candidate c (o_u o1) dt (balance c (fun d => face_flux wi wt c (c_p c) None d (filled c (o_u o1))))).
  { unfold euler_candidate. f_equal. apply functional_extensionality. intro v. apply functional_extensionality. intro i. rewrite BG. reflexivity. }
  assert (FT : forall u1 u2 i, flag c (primitives (wts_i RNum) (wts_t RNum) (c_p c) (c_gamma c) (filled c u1)) (primitives (wts_i RNum) (wts_t RNum) (c_p c) (c_gamma c) (filled c u2)) i <->
     troubled c (W u1) (W u2) i).
  { intros u1 u2 i. apply (flag_is c _ (W u1) _ (W u2) i He); intros v j; apply (primitives_tab wi wt HW c HT). }
  cbv zeta. rewrite <- CE. split. { intros i Hi. rewrite <- FT. apply LG, Hi. }
  split. { intros Q. destruct (CL Q) as [C1 C2]. split; [intros v i Hi; exact (C1 v i Hi)|]. intros i Hi. rewrite <- FT. apply C2, Hi. }
  exists (o_snaps ob0), w2. split; [exact BS|]. intros v i Hi. etransitivity; [apply V2, Hi|].
  rewrite (gprim_is c HT). apply (primitives_tab wi wt HW c HT).
Qed.
