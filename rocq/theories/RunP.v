(** Runs: independence of uninitialised memory and of passive scalars. *)
From Coq Require Import ZArith List Bool Lia.
From Verif Require Import Err Num PySlice NdArray HydroM RiemannM StencilsM FvM BcM SedM
  LimitM OdeM SolverM SpecBc SpecSolver NdArrayP FvP BcP BcQ OpP SolverP OdeP RelP RelS.
Import ListNotations.
Open Scope Z_scope.

Section Bc.
Context (N : Num).
Local Notation K := (car N).
Context (P : Z -> Prop) (xc : axis -> Z -> K).

Lemma source_range ty n g pos k : copies ty -> enough ty n g -> in_ghost n g pos k -> 0 <= source ty pos n k < n.
Proof. intros. destruct ty, pos; try contradiction; cbn [source enough in_ghost] in *; lia. Qed.


Lemma extend_agree b b' q q' n g t a f f' (R R' : ix -> Prop) :
  same_sides P xc b b' q q' -> axis_ok xc b q n g a ->
  (forall v i, P v -> R i -> f v i = f' v i) ->
  (forall i, R' i -> - getc a g <= getc a i < getc a n + getc a g) ->
  (forall i k, R' i -> 0 <= k < getc a n -> R (setc a k i)) ->
  forall v i, P v -> R' i -> extend N xc b q n t a f v i = extend N xc b' q' n t a f' v i.
Proof.
  intros HB HA HF H1 H2 v i Pv Hi. specialize (H1 i Hi). unfold extend.
  assert (G : forall pos, in_ghost (getc a n) (getc a g) pos (getc a i) -> getc a g <> 0 ->
     ghost N xc b q n t a pos f v i = ghost N xc b' q' n t a pos f' v i).
  { intros pos Hg Hz. unfold ghost. destruct (HB a pos) as [<- HPR].
    assert (SO : side_ok xc b q n g a pos).
    { destruct HA as [?|(A1 & A2 & _)]; [contradiction|]. destruct pos; assumption. }
    destruct SO as [[C E]|[C _]].
    - assert (EF : f v (setc a (source (bc_type b a pos) pos (getc a n) (getc a i)) i)
                 = f' v (setc a (source (bc_type b a pos) pos (getc a n) (getc a i)) i)).
      { apply HF; [assumption|]. apply H2; [assumption|]. eapply source_range; eassumption. }
      rewrite EF. destruct (bc_type b a pos); try contradiction; reflexivity.
    - destruct (bc_type b a pos); try contradiction; apply HPR; try exact I; assumption. }
  destruct (Z.ltb_spec (getc a i) 0); [apply G; cbn [in_ghost]; lia|].
  destruct (Z.leb_spec (getc a n) (getc a i)); [apply G; cbn [in_ghost]; lia|].
  apply HF; [assumption|]. rewrite <- (setc_getc a i). apply H2; [assumption|lia].
Qed.

Lemma extended_agree b b' n g t u u' : same_sides P xc b b' (rows u) (rows u') ->
  (forall a, axis_ok xc b (rows u) n g a) -> (forall a, 0 <= getc a g) ->
  (forall v i, P v -> in_shape n i -> at_ u v i = at_ u' v i) ->
  forall v i, P v -> in_padded n g i -> extended N xc b n t u v i = extended N xc b' n t u' v i.
Proof.
  intros HB HA Hg HU. unfold extended.
  pose (rng := fun a (i : ix) => - getc a g <= getc a i < getc a n + getc a g).
  pose (ins := fun a (i : ix) => 0 <= getc a i < getc a n).
  assert (E1 : forall v i, P v -> (rng AX i /\ ins AY i /\ ins AZ i) ->
     extend N xc b (rows u) n t AX (at_ u) v i = extend N xc b' (rows u') n t AX (at_ u') v i).
  { apply (extend_agree b b' _ _ n g t AX _ _ (in_shape n)); auto.
    - intros i H. apply H.
    - intros [i1 i2 i3] k (? & ? & ?) ?. intros []; cbn in *; lia || assumption. }
  assert (E2 : forall v i, P v -> (rng AX i /\ rng AY i /\ ins AZ i) ->
     extend N xc b (rows u) n t AY (extend N xc b (rows u) n t AX (at_ u)) v i
     = extend N xc b' (rows u') n t AY (extend N xc b' (rows u') n t AX (at_ u')) v i).
  { apply (extend_agree b b' _ _ n g t AY _ _ (fun i => rng AX i /\ ins AY i /\ ins AZ i)); auto.
    - intros i H. apply H.
    - intros [i1 i2 i3] k (? & ? & ?) ?. unfold rng, ins in *. cbn in *. auto. }
  intros v i Pv Hi.
  apply (extend_agree b b' _ _ n g t AZ _ _ (fun i => rng AX i /\ rng AY i /\ ins AZ i) (fun i => rng AX i /\ rng AY i /\ rng AZ i)); auto.
  - intros j H. apply H.
  - intros [i1 i2 i3] k (? & ? & ?) ?. unfold rng, ins in *. cbn in *. auto.
  - split; [apply Hi|]. split; apply Hi.
Qed.

Lemma axis_ok_narrow b q n g g' a : axis_ok xc b q n g a -> (forall d, 0 <= getc d g' <= getc d g) -> @axis_ok N xc b q n g' a.
Proof.
  intros HA HG. destruct (Z.eq_dec (getc a g') 0) as [E|E]; [left; exact E|].
  pose proof (HG a) as HGa.
  destruct HA as [HA|(A1 & A2 & A3)]; [exfalso; lia|]. right.
  assert (S : forall pos, side_ok xc b q n g a pos -> side_ok xc b q n g' a pos).
  { intros pos [[C H]|[C (V & sl & S1 & S2 & S3)]].
    - left. split; [exact C|]. destruct (bc_type b a pos); cbn [enough] in *; lia.
    - right. split; [exact C|]. split; [exact V|]. exists sl. split; [exact S1|]. split; [|exact S3].
      intro d. specialize (S2 d). specialize (HG d). lia. }
  auto.
Qed.

Lemma apply_rel b b' n g gm t junk junk' u u' :
  same_sides P xc b b' (rows u) (rows u') -> (forall a, axis_ok xc b (rows u) n gm a) -> (forall a, axis_ok xc b' (rows u') n gm a) ->
  (forall a, 0 <= getc a g <= getc a gm) -> shp u = n -> aeq P (rows u) (rows u') u u' ->
  res_rel (aeq P (rows u) (rows u')) (apply N b junk u g t) (apply N b' junk' u' g t).
Proof.
  intros HB HA HA' HG S (_ & _ & S' & Nn & V). subst n.
  assert (G0 : forall a, 0 <= getc a g) by (intro a; apply HG).
  assert (GA : forall a, axis_ok xc b (rows u) (shp u) g a) by (intro a; eapply axis_ok_narrow; eauto).
  assert (GA' : forall a, axis_ok xc b' (rows u') (shp u') g a) by (intro a; rewrite <- S'; eapply axis_ok_narrow; eauto).
  destruct (apply_is N xc b junk u g t Nn G0 GA) as (o & E & R & SH & VV).
  destruct (apply_is N xc b' junk' u' g t ltac:(rewrite <- S'; exact Nn) G0 GA') as (o' & E' & R' & SH' & VV').
  rewrite E, E'. cbn [res_rel]. split; [exact R|]. split; [exact R'|]. split; [congruence|].
  split. { intro a. rewrite SH. pose proof (Nn a). pose proof (G0 a). destruct a; cbn [padded getc cx cy cz] in *; lia. }
  intros v i Pv Hi. rewrite SH in Hi.
  assert (HI : in_padded (shp u) g (shift (neg3 g) i)).
  { intro a. specialize (Hi a). rewrite getc_shift, getc_neg. destruct a; cbn [padded getc cx cy cz] in *; lia. }
  rewrite <- (shift_pos g i). rewrite VV by exact HI. rewrite VV' by (rewrite <- S'; exact HI). rewrite <- S'.
  eapply extended_agree; try eassumption.
Qed.
End Bc.

Lemma Forall2_mono {X Y} (R Q : X -> Y -> Prop) l m : Forall2 R l m -> (forall a b, R a b -> Q a b) -> Forall2 Q l m.
Proof. intros H HR. induction H; constructor; auto. Qed.

Section Run.
Context (N : Num).
Local Notation K := (car N).

Lemma half_up_sr p : half_up p = stencil_right p.
Proof.
  unfold half_up, stencil_right.
  pose proof (Z.div_mod (-p) 2 ltac:(lia)). pose proof (Z.mod_pos_bound (-p) 2 ltac:(lia)).
  pose proof (Z.div_mod (p+1) 2 ltac:(lia)). pose proof (Z.mod_pos_bound (p+1) 2 ltac:(lia)). lia.
Qed.
Lemma widest_zones (c : config N) : (forall a, 0 <= getc a (c_p c)) -> widest N c = ghost_zones3 c.
Proof.
  intro Hp. unfold widest, ghost_zones3, ghost_zones, ghost_width, active, inactive_b.
  rewrite !half_up_sr. replace (top_degree (c_p c)) with (pmax (c_p c)) by (unfold top_degree, pmax; lia).
  assert (0 <= stencil_right (pmax (c_p c))) by (apply sr_nonneg; unfold pmax; pose proof (Hp AX); cbn in *; lia).
  f_equal; (destruct (_ && _)%bool; cbn [negb]; [reflexivity|]); destruct (c_limit c); lia.
Qed.

Lemma zeros5_aeq (P : Z -> Prop) n : (forall a, 0 <= getc a n) ->
  aeq P 5 5 (mkarr 5 n (fun _ _ => @nofZ N 0)) (mkarr 5 n (fun _ _ => nofZ 0)).
Proof. intro H. split; [reflexivity|]. split; [reflexivity|]. split; [reflexivity|]. split; [exact H|reflexivity]. Qed.

Theorem simulate_rel (P : Z -> Prop) xc (c : config N) b' heap heap' i av T n exact db log fuel u0 u0' :
  (forall v, 0 <= v <= 4 -> P v) -> sane c -> shp u0 = c_n c -> 5 <= rows u0 -> 5 <= rows u0' ->
  agree P (c_n c) u0 u0' ->
  same_sides P xc (c_bc c) b' (rows u0) (rows u0') ->
  (forall a, axis_ok xc (c_bc c) (rows u0) (c_n c) (ghost_zones3 c) a) ->
  (forall a, axis_ok xc b' (rows u0') (c_n c) (ghost_zones3 c) a) ->
  same_outcome P (c_n c) (simulate c heap i av T n exact db log fuel u0)
                         (simulate (replace_bc c b') heap' i av T n exact db log fuel u0').
Proof.
  intros HP [Sn Sp Sd Sq] S0 R0 R0' (_ & Sh' & V) HB HA HA'.
  assert (Hn : forall a, 0 <= getc a (c_n c)) by (intro a; pose proof (Sn a); lia).
  assert (Hd : dims N c <> []).
  { destruct Sd as [a Ha]. intro E. apply Ha.
    assert (I : ~ In a (dims N c)) by (rewrite E; auto). unfold dims in I. rewrite filter_In in I.
    assert (active N c a = false).
    { destruct (active N c a); [|reflexivity]. exfalso. apply I. split; [destruct a; cbn; auto|reflexivity]. }
    unfold active in H. apply negb_false_iff, andb_true_iff in H. unfold inactive. lia. }
  assert (Hbc : forall junk junk' u u' g t, aeq P (rows u0) (rows u0') u u' -> shp u = c_n c ->
     (forall a, 0 <= getc a g <= getc a (widest N c)) ->
     res_rel (aeq P (rows u0) (rows u0')) (apply N (c_bc c) junk u g t) (apply N b' junk' u' g t)).
  { intros junk junk' u u' g t Hu Su Hg. pose proof Hu as (Ru & Ru' & _). rewrite <- Ru, <- Ru' in *.
    rewrite (widest_zones c Sp) in Hg.
    eapply (apply_rel N P xc (c_bc c) b' (c_n c) g (ghost_zones3 c)); auto. }
  pose proof (run_rel N P HP (rows u0) (rows u0') R0 R0' c b' Hn Sp Hd (fun a pos => proj1 (HB a pos)) (fun _ => Sq) Hbc
     heap heap' i av T n exact db log fuel (ode_init N u0 (aux_init N c heap (rows u0)))
     (ode_init N u0' (aux_init N (with_bc N c b') heap' (rows u0')))) as H.
  assert (I : ode_rel N (A N P (rows u0) (rows u0') c) (RS N P (rows u0) (rows u0') c (fun _ => false))
     (payload_rel N P (rows u0) (rows u0') c) (ode_init N u0 (aux_init N c heap (rows u0)))
     (ode_init N u0' (aux_init N (with_bc N c b') heap' (rows u0')))).
  { split; cbn [ode_init o_t o_u o_stamps o_steps o_aux o_snaps]; auto.
    - split; [|exact S0]. split; [reflexivity|]. split; [reflexivity|]. split; [congruence|].
      split; [rewrite S0; exact Hn|]. rewrite S0. exact V.
    - split.
      + intro a. cbn [aux_init x_flux]. split; [|reflexivity].
        split; [reflexivity|]. split; [reflexivity|]. split; [reflexivity|]. split; [|contradiction].
        cbn [shp]. apply face_nonneg. exact Hn.
      + split; [reflexivity|]. split; [reflexivity|]. cbn. split; [|split]; (split; [apply zeros5_aeq; exact Hn|reflexivity]). }
  specialize (H I). unfold simulate. change (replace_bc c b') with (with_bc N c b').
  destruct (solver_integrate N c heap i av T n exact db log fuel (ode_init N u0 (aux_init N c heap (rows u0)))) as [o|e],
    (solver_integrate N (with_bc N c b') heap' i av T n exact db log fuel (ode_init N u0' (aux_init N (with_bc N c b') heap' (rows u0')))) as [o'|e'];
    try contradiction; [|exact H].
  cbn [res_rel same_outcome] in *. destruct H as [E1 [E2 E2'] E3 E4 [_ (E5 & E6 & E7 & E8 & E9)] E10].
  assert (AG : forall q q' (x x' : arr K), aeq P q q' x x' -> shp x = c_n c -> agree P (c_n c) x x').
  { intros q q' x x' (R & R' & S & Nn & W) Sx. split; [exact Sx|]. split; [congruence|]. rewrite <- Sx. exact W. }
  split; auto.
  - eapply AG; eassumption.
  - intros f [<-|[<-|[<-|[]]]]; eapply AG; (apply E7 || apply E8 || apply E9).
  - apply (Forall2_mono _ _ _ _ E10). intros [t1 d] [t2 d'] [F1 ([F2 F3] & F4 & F5 & F6)]. cbn [fst snd] in *.
    split; [exact F1|]. split; [eapply AG; eassumption|].
    intros f [<-|[<-|[<-|[]]]]; cbn [fst snd]; eapply AG; (apply F4 || apply F5 || apply F6).
Qed.

Theorem scalars_passive (xc : axis -> Z -> K) (c : config N) (b' : bcond N)
    heap heap' i av T n exact db log fuel u0 u0' :
  sane c -> shp u0 = c_n c -> 5 <= rows u0 -> 5 <= rows u0' ->
  agree gas_row (c_n c) u0 u0' ->
  same_sides gas_row xc (c_bc c) b' (rows u0) (rows u0') ->
  (forall a, axis_ok xc (c_bc c) (rows u0) (c_n c) (ghost_zones3 c) a) ->
  (forall a, axis_ok xc b' (rows u0') (c_n c) (ghost_zones3 c) a) ->
  same_outcome gas_row (c_n c) (simulate c heap i av T n exact db log fuel u0)
    (simulate (replace_bc c b') heap' i av T n exact db log fuel u0').
Proof. intros. apply (simulate_rel gas_row xc); auto. Qed.

(** the same boundary conditions describe the same field *)
Lemma same_sides_refl P xc b q : same_sides (N := N) P xc b b q q.
Proof. intros a pos. split; auto. Qed.

Theorem memory_independent xc (c : config N) heap heap' i av T n exact db log fuel u0 :
  sane c -> shp u0 = c_n c -> 5 <= rows u0 ->
  (forall a, axis_ok xc (c_bc c) (rows u0) (c_n c) (ghost_zones3 c) a) ->
  same_outcome (fun _ => True) (c_n c) (simulate c heap i av T n exact db log fuel u0)
                         (simulate c heap' i av T n exact db log fuel u0).
Proof.
  intros Hs S R HA. pose proof (simulate_rel (fun _ => True) xc c (c_bc c) heap heap' i av T n exact db log fuel u0 u0) as H.
  replace (replace_bc c (c_bc c)) with c in H by (destruct c; reflexivity).
  apply H; auto. - split; [exact S|]. split; [exact S|reflexivity].
  - apply same_sides_refl.
Qed.
End Run.

(** ** a grid with fewer cells than ghost zones *)
Definition small := demo (N := FNum) (mkix 1 1 1) (mkix 1 0 0) (uniform_bc B_periodic) false.
Definition density_after (x : res (run FNum)) : option f64 :=
  match x with Ok o => Some (at_ (o_u o) 0 (mkix 0 0 0)) | Err _ => None end.
Lemma density_ok x y : density_after x = Some y -> exists o, x = Ok o /\ at_ (o_u o) 0 (mkix 0 0 0) = y.
Proof. destruct x as [o|]; [|discriminate]. intro H. injection H as H. exists o. auto. Qed.
Lemma small_sane : sane small.
Proof.
  split.
  - intros []; cbn; lia.
  - intros []; cbn; lia.
  - exists AX. intros [_ H]. discriminate.
  - exact I.
Qed.
Lemma small_grid : exists (c : config FNum) (u0 : arr f64) heap heap' o o',
  sane c /\ shp u0 = c_n c /\ 5 <= rows u0 /\
  simulate c heap I_euler true None (Some 1) true [] false 0 u0 = Ok o /\
  simulate c heap' I_euler true None (Some 1) true [] false 0 u0 = Ok o' /\
  at_ (o_u o) 0 (mkix 0 0 0) <> at_ (o_u o') 0 (mkix 0 0 0).
Proof.
  exists small, (mkarr 5 (mkix 1 1 1) (demo_cell (N := FNum) 1)), (fun _ => demo_cell (N := FNum) 2), (fun _ => demo_cell (N := FNum) 3).
  match goal with |- exists o o', _ /\ _ /\ _ /\ ?a = _ /\ ?b = _ /\ _ =>
    assert (EA : density_after a = Some (SpecFloat.S754_finite false 6910218012661570 (-53))) by (vm_compute; reflexivity);
    assert (EB : density_after b = Some (SpecFloat.S754_finite false 4694985404165114 (-53))) by (vm_compute; reflexivity) end.
  destruct (density_ok _ _ EA) as (o & OA & VA). destruct (density_ok _ _ EB) as (o' & OB & VB).
  exists o, o'. split; [apply small_sane|]. split; [reflexivity|]. split; [cbn; lia|]. split; [exact OA|]. split; [exact OB|].
  rewrite VA, VB. discriminate.
Qed.

Lemma example_2d : forall (N : Num) (xc : axis -> Z -> car N),
  let c := demo (N := N) (mkix 12 11 1) (mkix 3 2 0) (uniform_bc B_periodic) true in
  let u0 := mkarr 5 (mkix 12 11 1) (demo_cell (N := N) 1) in
  let u0' := mkarr 8 (mkix 12 11 1) (fun v i => if v <? 5 then demo_cell (N := N) 1 v i else nofZ (cx i)) in
  sane c /\ shp u0 = c_n c /\ 5 <= rows u0 /\ 5 <= rows u0' /\ agree gas_row (c_n c) u0 u0' /\
  same_sides gas_row xc (c_bc c) (c_bc c) (rows u0) (rows u0') /\
  (forall a, axis_ok xc (c_bc c) (rows u0) (c_n c) (ghost_zones3 c) a) /\
  (forall a, axis_ok xc (c_bc c) (rows u0') (c_n c) (ghost_zones3 c) a).
Proof.
  intros N xc. cbv zeta.
  assert (AX_ : forall q a, axis_ok (N := N) xc (uniform_bc B_periodic) q (mkix 12 11 1)
     (ghost_zones3 (demo (N := N) (mkix 12 11 1) (mkix 3 2 0) (uniform_bc B_periodic) true)) a).
  { intros q [| |]; [right|right|left; reflexivity];
      (split; [left; split; [exact I|vm_compute; discriminate]|split; [left; split; [exact I|vm_compute; discriminate]|intros _; reflexivity]]). }
  split; [|split; [reflexivity|split; [cbn; lia|split; [cbn; lia|split; [|split; [|split; apply AX_]]]]]].
  - split.
    + intros []; cbn; lia.
    + intros []; cbn; lia.
    + exists AX. intros [H _]. discriminate.
    + exact I.
  - split; [reflexivity|]. split; [reflexivity|]. intros v i Hv _. cbn [at_]. unfold gas_row in Hv.
    destruct (Z.ltb_spec v 5); [reflexivity|lia].
  - intros a pos. split; [reflexivity|]. intros [].
Qed.
