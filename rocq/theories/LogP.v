(** The trouble log is the mean of the detections over the stages of a step. *)
From Coq Require Import ZArith List Bool Lia Reals Lra.
From Verif Require Import Err Num PySlice NdArray HydroM RiemannM StencilsM FvM BcM SedM
  LimitM OdeM SolverM SpecBc SpecLim SpecSolver SpecCons SpecLog NdArrayP FvP BcP BcQ OpP SolverP OdeP RelP LimP RunP ConsP ExistP LimExistP BroadP SpecSym SeamP DetectP.
Import ListNotations.
Open Scope Z_scope.
Ltac ob H := match type of H with bind ?x _ = Ok _ => let E := fresh "E" in destruct x eqn:E; cbn [bind] in H; [|discriminate] end.

(** a unary invariant of the steps of a run *)
Section Stepwise.
Context {N : Num} {U S D : Type} (V : vops N U) (step : stepper (U := U) (S := S) N) (helper : S -> S) (payload : S -> car N -> U -> res D).
Context (Inv : Z -> S -> U -> Prop) (PD : D -> Prop).
Context (Hstep : forall n s t u target s' dt un u', Inv n s u ->
  step s t u target = Ok (s', (dt, un)) -> vassign V u un = Ok u' -> Inv (n + 1) (helper s') u').
Context (Hsnap : forall n s t u d, Inv n s u -> payload s t u = Ok d -> PD d).
Local Notation ode := (@ode N U S D).
Definition kept (o : ode) : Prop := Inv (o_steps o) (o_aux o) (o_u o) /\ Forall (fun x => PD (snd x)) (o_snaps o).
Lemma kept_snapshot (o o' : ode) : kept o -> snapshot N payload o = Ok o' -> kept o'.
Proof.
  intros [I F] H. unfold snapshot in H. ob H. injection H as <-. split; cbn [o_aux o_u o_snaps o_steps]; [exact I|].
  apply Forall_app. split; [exact F|]. constructor; [|constructor]. exact (Hsnap _ _ _ _ _ I E).
Qed.
Lemma kept_step (o o' : ode) target : kept o -> take_step N V step helper o target = Ok o' -> kept o'.
Proof.
  intros [I F] H. unfold take_step in H. ob H. destruct a as [s [dt un]]. ob H. injection H as <-.
  split; [exact (Hstep _ _ _ _ _ _ _ _ _ I E E0)|exact F].
Qed.
Lemma kept_n n : forall (o o' : ode), kept o -> take_n N V step helper n o = Ok o' -> kept o'.
Proof.
  induction n as [|n IH]; intros o o' F H; cbn [take_n] in H; [injection H as <-; exact F|].
  ob H. exact (IH _ _ (kept_step _ _ _ F E) H).
Qed.
Lemma kept_loop T log fuel : forall (o o' : ode) target ds, kept o ->
  loop N V step helper payload T log fuel o target ds = Ok o' -> kept o'.
Proof.
  induction fuel as [|fuel IH]; intros o o' target ds F H; cbn [loop] in H;
   (destruct (nltb (o_t o) T) eqn:E; [|injection H as <-; exact F]); [discriminate|].
  ob H. pose proof (kept_step _ _ _ F E0) as F1.
  match type of H with (if ?b then _ else _) = _ => destruct b eqn:EB end.
  - ob H. pose proof (kept_snapshot _ _ F1 E1) as F2. destruct ds; [|match type of H with (if ?b then _ else _) = _ => destruct b end]; eapply IH; eauto.
  - eapply IH; eauto.
Qed.
Theorem kept_integrate T n exact db log fuel (o0 o : ode) : kept o0 ->
  integrate N V step helper payload T n exact db log fuel o0 = Ok o -> kept o.
Proof.
  intros I H. unfold integrate in H. destruct T as [T|].
  - unfold integrate_T in H. ob H. destruct a as [tg ds]. ob H. cbn [fst snd] in H.
    eapply kept_loop; [|exact H]. eapply kept_snapshot; eassumption.
  - destruct n as [n|].
    + unfold integrate_n in H. ob H. ob H. eapply kept_snapshot; [|exact H]. eapply kept_n; [|exact E0]. eapply kept_snapshot; eassumption.
    + ob H. discriminate.
Qed.
End Stepwise.

(** the spied run is the run *)
Section Spy.
Context {N : Num} (c : config N) (heap : Z -> Z -> ix -> car N) (HL : c_limit c = true).
Local Notation K := (car N).
Lemma detection_made x s t u r : solver_f N c heap x s t u = Ok r -> exists det, stage_detection c heap x s u = Ok det.
Proof.
  intro H. unfold solver_f, hydrodynamics in H. unfold stage_detection. ob H. destruct a as [dt F]. cbn [bind fst snd].
  ob H. ob H. ob H. cbn [bind]. rewrite HL in H. ob H. unfold revise_fluxes in E3. ob E3. cbn [x_flux set_flux] in E4.
  rewrite E4. eauto.
Qed.
Lemma spied_respects : respects N (arr_ops N) (arr_ops N) (solver_f N c heap) (spied_f c heap) eq eq (fun x s => x = fst s).
Proof.
  split.
  - intros x [y d] s t u1 u2 E <-. cbn [fst] in E. subst y. unfold spied_f. cbn [fst snd].
    destruct (solver_f N c heap x s t u1) as [[x' [dt k]]|] eqn:E; cbn [bind].
    + destruct (detection_made _ _ _ _ _ E) as (det & ->). cbn. unfold rhs_rel. cbn. auto.
    + reflexivity.
  - intros; subst. destruct (vadd _ _ _); cbn; reflexivity.
  - intros; subst. reflexivity.
  - intros; subst. destruct (vadd _ _ _); cbn; reflexivity.
  - intros; subst. destruct (vadd _ _ _); cbn; reflexivity.
  - intros; subst. destruct (vassign _ _ _); cbn; reflexivity.
Qed.
Lemma snaps_fst {A B E : Type} (l1 : list (A * B)) (l2 : list (A * (B * E))) :
  Forall2 (fun x y => fst x = fst y /\ snd x = fst (snd y)) l1 l2 -> map (fun s => (fst s, fst (snd s))) l2 = l1.
Proof. intro F. induction F as [|[a d] [b [e f]] m1 m2 [P Q] F IH]; [reflexivity|]. cbn in P, Q |- *. rewrite IH, P, Q. reflexivity. Qed.
Lemma spied_is i av T n exact db log fuel u0 o : simulate c heap i av T n exact db log fuel u0 = Ok o ->
  exists o', spied_run c heap i av T n exact db log fuel u0 = Ok o' /\ shadowed o o'.
Proof.
  intro H.
  pose proof (integrate_rel N (arr_ops N) (arr_ops N) _ _ _ _ _ (fun d e => d = fst e) spied_respects i (step_helper N c) (spied_helper c)
    (snap_payload N c heap av) (spied_payload c heap av)) as IR.
  assert (Hh : forall s1 s2, s1 = fst s2 -> step_helper N c s1 = fst (spied_helper c s2)) by (intros; subst; reflexivity).
  assert (Hp : forall s1 s2 t u1 u2, s1 = fst s2 -> u1 = u2 -> res_rel (fun d e => d = fst e) (snap_payload N c heap av s1 t u1) (spied_payload c heap av s2 t u2)).
  { intros s1 s2 t u1 u2 -> ->. unfold spied_payload. destruct (snap_payload _ _ _ _ _ _ _); cbn; reflexivity. }
  specialize (IR Hh Hp T n exact db log fuel (ode_init N u0 (aux_init N c heap (rows u0))) (ode_init N u0 (aux_init N c heap (rows u0), mkdiary [] []))).
  match type of IR with ?A -> _ => assert (HA : A) end.
  { split; cbn; auto. }
  specialize (IR HA). unfold simulate, solver_integrate, solver_step in H. rewrite H in IR.
  match type of IR with res_rel _ _ ?y => change y with (spied_run c heap i av T n exact db log fuel u0) in IR end.
  destruct (spied_run c heap i av T n exact db log fuel u0) as [o'|]; cbn [res_rel] in IR; [|contradiction].
  exists o'. split; [reflexivity|]. destruct IR as [A B C D E F]. repeat split; auto.
  exact (snaps_fst _ _ F).
Qed.
End Spy.

(** the log during a step *)
Section Ledger.
Context (c : config RNum) (heap : Z -> Z -> ix -> R) (r : Z).
Context (HT : tabulated c) (HL : c_limit c = true) (Hr : 1 <= r).
Local Notation n := (c_n c).
Local Notation fluxed x := (flux_arrays_ok RNum c r (x_flux x)).
Local Notation log x := (x_trouble x, x_nad x, x_pad x).

Lemma total_snoc mark ds d i : total mark (ds ++ [d]) i = (total mark ds i + mark d i)%R.
Proof. unfold total. rewrite map_app. induction ds as [|e ds IH]; cbn; [lra|]. cbn in IH. rewrite IH. lra. Qed.
Lemma over_one x : (x / IZR 1 = x)%R.
Proof. lra. Qed.

Lemma put_is (cnt : Z) (dst src y : arr (car RNum)) mark ds d : rows dst = 5 -> shp dst = n -> rows src = 1 -> shp src = n ->
  (forall i, in_shape n i -> at_ src 0 i = mark d i) ->
  (cnt = 0 /\ ds = [] \/ cnt <> 0 /\ holds_totals n dst mark ds 1) ->
  (if cnt =? 0 then assign_all dst src else do s <- amap2 (@nadd RNum) dst src; assign_all dst s) = Ok y ->
  holds_totals n y mark (ds ++ [d]) 1.
Proof.
  intros R1 S1 R2 S2 M HC H.
  destruct HC as [[-> ->]|[HC (_ & _ & HD)]]; [|apply Z.eqb_neq in HC; rewrite HC in H; clear HC].
  - cbn [Z.eqb] in H. unfold assign_all in H. rewrite R1, S1, R2, S2 in H. unfold bcast_ok in H. rewrite !Z.eqb_refl in H.
    cbn [orb andb Z.eqb Pos.eqb] in H. injection H as <-. split; [reflexivity|]. split; [reflexivity|].
    intros v i Hv Hi. cbn [at_]. rewrite bix_eq. unfold brow. cbn [Z.eqb Pos.eqb]. rewrite over_one, total_snoc.
    refine (eq_trans (M i Hi) _). unfold total. cbn [map fold_right]. symmetry. apply Rplus_0_l.
  - ob H. unfold amap2 in E. rewrite R1, S1, R2, S2, bshape_eq in E. unfold bdim in E. cbn [Z.eqb Pos.eqb] in E. injection E as <-.
    unfold assign_all in H. cbn [rows shp] in H. rewrite R1, S1, bcast_ok_eq in H. injection H as <-.
    split; [reflexivity|]. split; [reflexivity|]. intros v i Hv Hi. cbn [at_]. rewrite !bix_eq, !brow_eq. unfold brow. cbn [Z.eqb Pos.eqb].
    rewrite over_one, total_snoc. specialize (HD v i Hv Hi). rewrite over_one in HD. exact (f_equal2 Rplus HD (M i Hi)).
Qed.

Definition ledger (past : list (list (detection RNum))) (now : list (detection RNum)) (x : aux RNum) : Prop :=
  x_counter x = (if past then 1 else 0) + Z.of_nat (List.length now) /\ logs RNum c x /\ (x_counter x = 0 \/ log_of n now 1 (log x)).
Lemma log_ledger past now x det x' :
  (rows (d_trouble det) = 1 /\ shp (d_trouble det) = n) -> (rows (d_nad det) = 1 /\ shp (d_nad det) = n) -> (rows (d_pad det) = 1 /\ shp (d_pad det) = n) ->
  ledger past now x -> log_troubles RNum x (amap (b2k RNum) (d_trouble det)) (d_nad det) (d_pad det) = Ok x' ->
  ledger past (now ++ [det]) x'.
Proof.
  intros [T1 T2] [N1 N2] [P1 P2] (C & L & V) H.
  destruct (log_ok RNum c x (amap (b2k RNum) (d_trouble det)) (d_nad det) (d_pad det) L T1 T2 N1 N2 P1 P2) as (x1 & E1 & L1).
  rewrite H in E1. injection E1 as <-. unfold log_troubles in H. ob H. ob H. ob H. injection H as <-.
  split; [cbn [x_counter]; rewrite app_length, C; cbn [List.length]; lia|]. split; [exact L1|]. right.
  assert (Z0 : x_counter x = 0 -> now = []).
  { intro Z0. rewrite Z0 in C. destruct now; [reflexivity|]. cbn [List.length] in C. destruct past; lia. }
  assert (W : forall (dst : arr R) mark, (log_of n now 1 (log x) -> holds_totals n dst mark now 1) ->
     x_counter x = 0 /\ now = [] \/ x_counter x <> 0 /\ holds_totals n dst mark now 1).
  { intros dst mark D. destruct (Z.eq_dec (x_counter x) 0) as [Z|Z]; [left; auto|right]. split; [exact Z|]. apply D. tauto. }
  destruct (L (x_trouble x)) as [A1 B1]; [cbn; auto|]. destruct (L (x_nad x)) as [A2 B2]; [cbn; auto|]. destruct (L (x_pad x)) as [A3 B3]; [cbn; auto|].
  cbn [x_trouble x_nad x_pad]. split; [|split]; cbn [fst snd].
  - exact (put_is (x_counter x) (x_trouble x) (amap (b2k RNum) (d_trouble det)) _ flagged now det A1 B1 T1 T2 (fun i _ => eq_refl) (W _ _ (fun D => proj1 D)) E).
  - exact (put_is (x_counter x) (x_nad x) (d_nad det) _ nad_mark now det A2 B2 N1 N2 (fun i _ => eq_refl) (W _ _ (fun D => proj1 (proj2 D))) E0).
  - exact (put_is (x_counter x) (x_pad x) (d_pad det) _ pad_mark now det A3 B3 P1 P2 (fun i _ => eq_refl) (W _ _ (fun D => proj2 (proj2 D))) E1).
Qed.

Local Notation shaped u := (rows u = r /\ shp u = n).
Lemma stage_forced x t u det : stage_detection c heap x t u = Ok det -> forced c det.
Proof.
  unfold stage_detection, detect. intros H HF. ob H. ob H. ob H. ob H. ob H. ob H. rewrite HF in H. injection H as <-. reflexivity.
Qed.
(** the detection of a stage sees arrays it can handle *)
Lemma stage_marked junk t (u : arr (car RNum)) F dt det : rows u = r /\ shp u = n ->
  (forall d, active RNum c d = true -> rows (F d) = r /\ shp (F d) = face_shape d n) ->
  detect RNum c junk t u F dt = Ok det -> marked c det.
Proof.
  intros [HR S] HF H NF He i Hi.
  pose proof (tab_good RNum c HT) as G. pose proof (sane_dims RNum c (proj1 HT)) as HD.
  assert (N1 : forall d, 1 <= getc d (c_n c)) by (intro d; apply (G d)).
  assert (N0 : forall d, 0 <= getc d (c_n c)) by (intro d; specialize (N1 d); lia).
  destruct (detect_inputs RNum c junk t u F dt det G HD S ltac:(rewrite HR; exact Hr) ltac:(rewrite HR; exact HF) H) as (w & ws & d0 & [RW SW] & [RS SS] & ED & ->).
  rewrite NF.
  assert (MA : forall a, mem_axis a (dims RNum c) = active RNum c a).
  { intro a. unfold dims, axes. destruct a; cbn [filter]; destruct (active RNum c AX), (active RNum c AY), (active RNum c AZ); reflexivity. }
  assert (PS : forall a, getc a (padded (c_n c) (active_width RNum c 3)) = getc a (c_n c) + 2 * (if active RNum c a then 3 else 0)) by (intros []; reflexivity).
  assert (DT : detectable (c_nad c) (dims RNum c) w ws).
  { split; [intro Q; unfold detect_troubled_cells, nad_indicator in ED; rewrite Q in ED; discriminate|].
    split; [intro Q; unfold detect_troubled_cells, nad_indicator in ED; rewrite Q in ED; destruct (nad_range_ (c_nad c)); discriminate|].
    split; [intros _; exact RW|]. split; [congruence|]. split; [congruence|]. split; [apply dims_nodup|]. split; [exact HD|].
    intro a. rewrite MA, SW, PS. specialize (N1 a). destruct (active RNum c a); lia. }
  assert (CR : cropped (dims RNum c) (shp w) = c_n c).
  { apply ix_ext. intro a. rewrite SW. unfold cropped. pose proof (PS a) as P. destruct a; cbn [getc cx cy cz] in *; rewrite MA, P; destruct (active RNum c _); lia. }
  apply (marks_agree (c_nad c) (dims RNum c) w ws d0 DT He ED). cbn [car RNum] in *. rewrite CR. exact Hi.
Qed.
Definition mid past now (s : aux RNum * diary RNum) : Prop :=
  (snd s = mkdiary now past /\ List.Forall (fun d => forced c d /\ marked c d) now) /\ fluxed (fst s) /\ ledger past now (fst s).
Lemma assign_kept {A} (x y z : arr A) q m : assign_all x y = Ok z -> rows x = q /\ shp x = m -> rows z = q /\ shp z = m.
Proof. unfold assign_all. destruct (bcast_ok _ _ _ _); [|discriminate]. intro H. injection H as <-. auto. Qed.
Lemma blend_kept th F G y q m : blend RNum th F G = Ok y -> rows F = q /\ shp F = m -> rows y = q /\ shp y = m.
Proof. unfold blend. intro H. ob H. ob H. ob H. exact (assign_kept _ _ _ _ _ H). Qed.
Lemma spied_f_ok past now s st t u s' dt k : mid past now s -> shaped u -> spied_f c heap s st t u = Ok (s', (dt, k)) ->
  exists det, mid past (now ++ [det]) s' /\ shaped k.
Proof.
  destruct s as [x dy]. intros ([D FC] & FO & L) [RU SU] H. cbn [fst snd] in *. subst dy.
  pose proof (tab_good RNum c HT) as G. pose proof (sane_dims RNum c (proj1 HT)) as ND.
  assert (N1 : forall d, 1 <= getc d n) by (intro d; apply (G d)).
  unfold spied_f in H. cbn [fst snd dy_now dy_past] in H. ob H. destruct a as [x' [dt' k']]. cbn [fst snd] in H. ob H. rename a into det.
  injection H as <- <- <-. exists det.
  unfold solver_f, hydrodynamics in E. ob E. destruct a as [dt0 F]. ob E. rename a into nF. ob E. rename a into nG. ob E. rename a into nH. rewrite HL in E. ob E. rename a into x2. ob E.
  injection E as <- <- <-.
  pose proof (stage_forced _ _ _ _ E0) as SF. unfold stage_detection in E0. rewrite E1 in E0. cbn [bind fst snd] in E0. rewrite E2, E3, E4 in E0. cbn [bind] in E0.
  set (FF := fun d => match d with AX => nF | AY => nG | AZ => nH end) in *.
  assert (FO1 : flux_arrays_ok RNum c r FF).
  { intros []; cbn [FF]; [exact (assign_kept _ _ _ _ _ E2 (FO AX))|exact (assign_kept _ _ _ _ _ E3 (FO AY))|exact (assign_kept _ _ _ _ _ E4 (FO AZ))]. }
  unfold revise_fluxes in E5. cbn [x_flux set_flux] in E5. rewrite E0 in E5. cbn [bind] in E5. ob E5. rename a0 into x3.
  destruct (detect_domains RNum c _ _ _ _ _ _ G ND SU ltac:(rewrite RU; exact Hr) ltac:(intros d _; rewrite RU; apply FO1) E0) as (D1 & D2 & D3).
  assert (L3 : ledger past (now ++ [det]) x3).
  { eapply log_ledger; [exact D1|exact D2|exact D3| |exact E]. exact L. }
  apply log_flux in E. destruct E as [EF _]. cbn [x_flux set_flux] in EF.
  assert (R2 : fluxed x2 /\ ledger past (now ++ [det]) x2).
  { destruct (any_trouble (d_trouble det)).
    - ob E5. ob E5. ob E5. ob E5. ob E5. injection E5 as <-. split; [|exact L3].
      intros []; cbn [x_flux]; [exact (blend_kept _ _ _ _ _ _ E8 (FO1 AX))|exact (blend_kept _ _ _ _ _ _ E9 (FO1 AY))|exact (blend_kept _ _ _ _ _ _ E10 (FO1 AZ))].
    - injection E5 as <-. split; [|exact L3]. intro d. rewrite EF. apply FO1. }
  destruct R2 as [F2 L2]. split; [split; [split; [reflexivity|]|split; assumption]|].
  { apply Forall_app. split; [exact FC|]. constructor; [|constructor]. split; [exact SF|]. exact (stage_marked _ _ _ _ _ _ (conj RU SU) (fun d _ => FO1 d) E0). }
  destruct (euler_equation_is RNum c (x_flux x2) r n N1 Hr ND (fun d _ => F2 d)) as (k2 & EK & RK & SK & _).
  rewrite E6 in EK. injection EK as <-. split; assumption.
Qed.

Lemma add_kept u w z : vadd (arr_ops RNum) u w = Ok z -> shaped u -> shaped w -> shaped z.
Proof.
  cbn [vadd arr_ops]. intros H [R1 S1] [R2 S2].
  destruct (amap2_is (@nadd RNum) u w r n (at_ u) (at_ w)) as (y & E & RY & SY & _).
  { split; [exact R1|]. split; [exact S1|]. reflexivity. } { split; [exact R2|]. split; [exact S2|]. reflexivity. }
  rewrite H in E. injection E as <-. auto.
Qed.
Lemma scale_kept k (u : arr (car RNum)) : shaped u -> shaped (vscale (arr_ops RNum) k u).
Proof. auto. Qed.
Local Hint Resolve add_kept scale_kept : kept.
Ltac fcall H := let E := fresh "E" in let M := fresh "M" in let K := fresh "K" in let det := fresh "det" in
  match type of H with bind ?x _ = Ok _ => destruct x as [[? [? ?]]|] eqn:E; cbn [bind] in H; [|discriminate] end;
  eapply spied_f_ok in E; [|eassumption|eauto 6 with kept]; destruct E as (det & M & K).
Ltac vcall H := let E := fresh "E" in ob H; eapply add_kept in E; [|eauto 6 with kept|eauto 6 with kept].
Lemma spied_step_ok i past s t u tg s' dt un : mid past [] s -> shaped u ->
  stepper_of RNum (arr_ops RNum) (spied_f c heap) i s t u tg = Ok (s', (dt, un)) ->
  exists now, List.length now = stages i /\ mid past now s'.
Proof.
  intros M U H. destruct i; cbn [stepper_of stages] in *.
  - unfold euler in H. fcall H. vcall H. injection H as <- _ _. eexists. split; [|exact M0]. reflexivity.
  - unfold ssprk2 in H. fcall H. vcall H. fcall H. vcall H. vcall H. injection H as <- _ _. eexists. split; [|exact M1]. reflexivity.
  - unfold ssprk3 in H. fcall H. vcall H. fcall H. vcall H. vcall H. fcall H. vcall H. vcall H. vcall H. injection H as <- _ _. eexists. split; [|eassumption]. reflexivity.
  - unfold rk4 in H. fcall H. vcall H. fcall H. vcall H. fcall H. vcall H. fcall H. vcall H. vcall H. vcall H. vcall H. injection H as <- _ _. eexists. split; [|eassumption]. reflexivity.
Qed.
Lemma divided (a : arr (car RNum)) mark ds k : holds_totals n a mark ds 1 ->
  holds_totals n (amap (fun v : car RNum => ndiv v (nofZ k)) a) mark ds k.
Proof.
  intros (R1 & S1 & V). split; [exact R1|]. split; [exact S1|]. intros v i Hv Hi. specialize (V v i Hv Hi). rewrite over_one in V.
  cbn [amap at_]. rewrite <- V. reflexivity.
Qed.
Lemma helper_ok past now s : mid past now s -> now <> [] ->
  mid (past ++ [now]) [] (spied_helper c s) /\ logged n (past ++ [now]) (log (fst (spied_helper c s))).
Proof.
  destruct s as [x dy]. intros ([D FC] & FO & C & L & V) HN. cbn [fst snd] in *. subst dy.
  assert (P : 0 < x_counter x). { rewrite C. destruct now; [congruence|]. cbn [List.length]. destruct past; lia. }
  destruct V as [V|(V1 & V2 & V3)]; [lia|]. cbn [fst snd] in V1, V2, V3.
  unfold spied_helper. cbn [fst snd dy_now dy_past]. split.
  - split; [split; [reflexivity|constructor]|]. cbn [fst snd]. split; [rewrite helper_flux; exact FO|].
    split; [|split; [apply (limiting_helper RNum c r HL x (conj FO L))|left]];
    unfold step_helper, reset_troubles; rewrite HL; apply Z.ltb_lt in P; rewrite P; cbn [x_counter List.length]; destruct past; reflexivity.
  - assert (LL : log_of n now (x_counter x) (log (step_helper RNum c x))).
    { unfold step_helper, reset_troubles. rewrite HL. apply Z.ltb_lt in P. rewrite P. cbn [x_trouble x_nad x_pad].
      split; [|split]; cbn [fst snd]; apply divided; assumption. }
    unfold logged. rewrite rev_app_distr. cbn [rev app]. destruct past as [|q past].
    + cbn [rev]. rewrite C in LL. rewrite Z.add_comm. exact LL.
    + rewrite C in LL. cbn [Z.add] in LL. destruct (rev (q :: past)) eqn:E; [|exact LL].
      apply (f_equal (@List.length _)) in E. rewrite rev_length in E. discriminate.
Qed.
End Ledger.

Lemma log_kept (c : config RNum) heap i av T nn exact db lg fuel u0 o' : tabulated c -> c_limit c = true -> shp u0 = c_n c -> 1 <= rows u0 ->
  spied_run c heap i av T nn exact db lg fuel u0 = Ok o' ->
  exists past, dy_past (snd (o_aux o')) = past /\ Z.of_nat (List.length past) = o_steps o' /\
    List.Forall (stage_list c i) past /\
    logged (c_n c) past (x_trouble (fst (o_aux o')), x_nad (fst (o_aux o')), x_pad (fst (o_aux o'))) /\
    List.Forall (fun s => List.Forall (stage_list c i) (snd (snd s)) /\ logged (c_n c) (snd (snd s)) (snd (fst (snd s)))) (o_snaps o').
Proof.
  intros HT HL S R H.
  assert (KI := kept_integrate (arr_ops RNum) (stepper_of RNum (arr_ops RNum) (spied_f c heap) i) (spied_helper c) (spied_payload c heap av)
    (fun k s u => exists past, mid c (rows u0) past [] s /\ (rows u = rows u0 /\ shp u = c_n c) /\
       logged (c_n c) past (x_trouble (fst s), x_nad (fst s), x_pad (fst s)) /\ Z.of_nat (List.length past) = k /\
       List.Forall (stage_list c i) past)
    (fun d => List.Forall (stage_list c i) (snd d) /\ logged (c_n c) (snd d) (snd (fst d)))).
  match type of KI with ?A -> _ => assert (HA : A) end.
  { intros k s t u tg s' dt un u' (past & M & U & L & K & F) HS HV.
    destruct (spied_step_ok c heap (rows u0) HT HL R i past s t u tg s' dt un M U HS) as (now & LN & M').
    assert (NE : now <> []) by (intros ->; destruct i; discriminate).
    destruct (helper_ok c (rows u0) HL past now s' M' NE) as [M2 L2].
    exists (past ++ [now]). split; [exact M2|]. split; [exact (assign_kept _ _ _ _ _ HV U)|]. split; [exact L2|].
    split; [rewrite app_length; cbn [List.length]; lia|]. apply Forall_app. split; [exact F|]. constructor; [split; [exact LN|apply M']|constructor]. }
  specialize (KI HA). clear HA.
  match type of KI with ?A -> _ => assert (HA : A) end.
  { intros k s t u d (past & ([M _] & _) & U & L & K & F) HP. unfold spied_payload in HP. ob HP. injection HP as <-. cbn [fst snd].
    rewrite M. cbn [dy_past]. split; [exact F|]. unfold snap_payload in E. ob E. ob E. injection E as <-. exact L. }
  specialize (KI HA T nn exact db lg fuel (ode_init RNum u0 (aux_init RNum c heap (rows u0), mkdiary [] [])) o'). clear HA. unfold spied_run in H.
  match type of KI with ?A -> _ => assert (HA : A) end.
  { split; [|constructor]. exists []. cbn [o_aux ode_init fst snd o_u o_steps].
    assert (Z0 : forall mark, holds_totals (c_n c) (mkarr 5 (c_n c) (fun _ _ => 0%R)) mark [] 1).
    { intro mark. split; [reflexivity|]. split; [reflexivity|]. intros v j _ _. cbn [at_]. unfold total. cbn [map fold_right]. lra. }
    split; [|split; [auto|split; [|split; [reflexivity|constructor]]]].
    - split; [split; [reflexivity|constructor]|]. cbn [fst snd]. destruct (limiting_init RNum c heap (rows u0)) as [A B]. split; [exact A|].
      split; [reflexivity|]. split; [exact B|]. right. split; [|split]; apply Z0.
    - split; [|split]; apply Z0. }
  destruct (KI HA H) as [(past & ([M _] & _) & U & L & K & F) FS].
  exists past. rewrite M. cbn [dy_past]. auto.
Qed.

Lemma log_is_mean (c : config RNum) heap i av T nn exact db lg fuel u0 o : tabulated c -> c_limit c = true -> shp u0 = c_n c -> 1 <= rows u0 ->
  simulate c heap i av T nn exact db lg fuel u0 = Ok o ->
  exists o' : spied RNum, spied_run c heap i av T nn exact db lg fuel u0 = Ok o' /\ shadowed o o' /\
    Z.of_nat (List.length (dy_past (snd (o_aux o')))) = o_steps o /\
    List.Forall (stage_list c i) (dy_past (snd (o_aux o'))) /\
    logged (c_n c) (dy_past (snd (o_aux o'))) (x_trouble (o_aux o), x_nad (o_aux o), x_pad (o_aux o)) /\
    List.Forall (fun s => List.Forall (stage_list c i) (snd (snd s)) /\ logged (c_n c) (snd (snd s)) (snd (fst (snd s)))) (o_snaps o').
Proof.
  intros HT HL S R H. destruct (spied_is c heap HL _ _ _ _ _ _ _ _ _ _ H) as (o' & E & SH).
  exists o'. split; [exact E|]. split; [exact SH|]. destruct (log_kept c heap i av T nn exact db lg fuel u0 o' HT HL S R E) as (past & <- & A & B & C & D).
  destruct SH as (_ & _ & _ & S4 & S5 & _). rewrite S4 in A. rewrite S5 in C. auto.
Qed.

(** after the first step the log is too small *)
Lemma first_step (c : config RNum) heap i av exact db lg fuel u0 o : tabulated c -> c_limit c = true -> c_force c = true -> shp u0 = c_n c -> 1 <= rows u0 ->
  simulate c heap i av None (Some 1) exact db lg fuel u0 = Ok o -> o_steps o = 1 ->
  exists (o' : spied RNum) ds, spied_run c heap i av None (Some 1) exact db lg fuel u0 = Ok o' /\
    dy_past (snd (o_aux o')) = [ds] /\ (forall d j, In d ds -> flagged d j = 1%R) /\
  forall v j, 0 <= v < 5 -> in_shape (c_n c) j -> at_ (x_trouble (o_aux o)) v j = (INR (stages i) / (INR (stages i) + 1))%R.
Proof.
  intros HT HL HF S R H H1. destruct (log_is_mean c heap i av None (Some 1) exact db lg fuel u0 o HT HL S R H) as (o' & E & _ & LN & ST & LG & _).
  exists o'. rewrite H1 in LN. destruct (dy_past (snd (o_aux o'))) as [|ds [|? ?]]; try (cbn [List.length] in LN; lia).
  exists ds. split; [exact E|]. split; [reflexivity|].
  apply Forall_inv in ST. destruct ST as [SL SF]. split.
  { intros d j Hd. rewrite Forall_forall in SF. unfold flagged. rewrite (proj1 (SF d Hd) HF 0 j). reflexivity. }
  intros v j Hv Hj. destruct LG as [(_ & _ & V) _]. cbn [fst snd] in V. refine (eq_trans (V v j Hv Hj) _).
  assert (TT : total flagged ds j = INR (List.length ds)).
  { clear - SF HF. induction SF as [|d ds F _ IH]; [reflexivity|]. unfold total in *. cbn [map fold_right]. rewrite IH.
    unfold flagged at 1. rewrite (proj1 F HF 0 j). cbn [List.length]. rewrite S_INR. lra. }
  rewrite TT, SL, plus_IZR, <- INR_IZR_INZ. reflexivity.
Qed.
Notation forced_box := (with_limiting false true (flow3d B_periodic true)) (only parsing).
Lemma box_case i : exists o, simulate forced_box (fun _ _ _ => 0%R) i true None (Some 1) true [] false 0
  (mkarr 6 (mkix 12 13 14) (fun v i => IZR (v + cx i * cy i))) = Ok o /\ o_steps o = 1.
Proof.
  destruct (limited_runs_end RNum (fun _ _ => 0%R) forced_box (fun _ _ _ => 0%R) i true 1 true [] false 0
    (mkarr 6 (mkix 12 13 14) (fun v i => IZR (v + cx i * cy i)))) as (o & E & _ & _ & O).
  - apply with_tabulated, flow3d_tabulated.
  - apply with_fillable; [reflexivity|]. apply flow3d_fillable. exact I.
  - reflexivity.
  - repeat split; discriminate.
  - reflexivity.
  - exact flags_R.
  - reflexivity.
  - cbn. lia.
  - lia.
  - exists o. auto.
Qed.
Lemma first_log i : exists (c : config RNum) heap u0 o (o' : spied RNum) ds,
  tabulated c /\ c_limit c = true /\ shp u0 = c_n c /\ 1 <= rows u0 /\
  simulate c heap i true None (Some 1) true [] false 0 u0 = Ok o /\
  spied_run c heap i true None (Some 1) true [] false 0 u0 = Ok o' /\ dy_past (snd (o_aux o')) = [ds] /\
  (forall d j, In d ds -> flagged d j = 1%R) /\
  forall v j, 0 <= v < 5 -> in_shape (c_n c) j -> (at_ (x_trouble (o_aux o)) v j < 1)%R.
Proof.
  destruct (box_case i) as (o & E & H1).
  destruct (first_step forced_box (fun _ _ _ => 0%R) i true true [] false 0 (mkarr 6 (mkix 12 13 14) (fun v i => IZR (v + cx i * cy i))) o (with_tabulated _ _ _ (flow3d_tabulated B_periodic true)) eq_refl eq_refl eq_refl ltac:(cbn; lia) E H1) as (o' & ds & A & B & C & D).
  exists forced_box, (fun _ _ _ => 0%R), (mkarr 6 (mkix 12 13 14) (fun v i => IZR (v + cx i * cy i))), o, o', ds.
  split; [apply with_tabulated, (flow3d_tabulated B_periodic true)|].
  split; [reflexivity|]. split; [reflexivity|]. split; [cbn; lia|]. split; [exact E|]. split; [exact A|]. split; [exact B|]. split; [exact C|].
  intros v j Hv Hj. apply (eq_ind_r (fun q => q < 1)%R (x := (INR (stages i) / (INR (stages i) + 1))%R)); [|exact (D v j Hv Hj)].
  assert (P : (0 <= INR (stages i))%R) by apply pos_INR. apply (Rmult_lt_reg_r (INR (stages i) + 1)); [lra|]. unfold Rdiv. rewrite Rmult_assoc, Rinv_l by lra. lra.
Qed.
