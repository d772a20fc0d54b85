(** The one-dimensional reference solver: whole runs, accepted arguments, initial data. *)
From Coq Require Import ZArith List Bool Lia Reals Lra Psatz String FunctionalExtensionality Floats.SpecFloat.
From Verif Require Import Err Num NdArray NdArrayP HydroM HydroP StencilsM FvM RiemannM RiemannP Spec SpecCons SpecScheme SchemeP
  RomainM SpecRomain ConsP RomainP RomainQ.
Import ListNotations.
Open Scope R_scope.
Local Notation N := RNum.

(** ** traces for any markers *)
Lemma traces_any space (u alpha : mat N) : (1 <= space <= 5)%Z -> exists l r, trace N u alpha space = Ok (l, r) /\
  forall v i, let k := (i + 3)%Z in let f := u v in
    (space = 1%Z \/ 1 <= alpha v (k - 1)%Z /\ 1 <= alpha v k /\ 1 <= alpha v (k + 1)%Z ->
       at_pos space P_r f k (l v i) /\ at_pos space P_l f k (r v i)) /\
    (space <> 1%Z -> alpha v (k - 1)%Z < 1 \/ alpha v k < 1 \/ alpha v (k + 1)%Z < 1 ->
       lo3 (f (k - 1)%Z) (f k) (f (k + 1)%Z) <= l v i <= hi3 (f (k - 1)%Z) (f k) (f (k + 1)%Z) /\
       lo3 (f (k - 1)%Z) (f k) (f (k + 1)%Z) <= r v i <= hi3 (f (k - 1)%Z) (f k) (f (k + 1)%Z)).
Proof.
  intro Hs. unfold trace. destruct (Z.leb_spec 1 space); [|lia]. destruct (Z.leb_spec space 5); [|lia]. cbn [andb].
  do 2 eexists. split; [reflexivity|]. intros v i. pose (k := (i + 3)%Z). pose (f := u v). cbv zeta. fold k. fold f. unfold limited. cbv zeta.
  replace (i + 1)%Z with (k - 2)%Z by lia. replace (i + 2)%Z with (k - 1)%Z by lia. replace (i + 3)%Z with k by lia.
  replace (i + 4)%Z with (k + 1)%Z by lia. replace (i + 5)%Z with (k + 2)%Z by lia. fold f.
  destruct (traces N space (f (k - 2)%Z) (f (k - 1)%Z) (f k) (f (k + 1)%Z) (f (k + 2)%Z)) as [[[p q] m]|] eqn:T;
    [|destruct (traces_ok space (f (k - 2)%Z) (f (k - 1)%Z) (f k) (f (k + 1)%Z) (f (k + 2)%Z) Hs) as (? & ? & ? & X); rewrite X in T; discriminate].
  apply traces_weights in T; [|exact Hs]. destruct T as (Tp & Tq & Tm).
  destruct (Z.ltb_spec 1 space) as [S1|S1]; cbn [pick fst snd].
  2:{ split; [intros _; split; assumption|]. intro X. lia. }
  unfold theta_of. cbv zeta. rn. split.
  - intros [X|(A & B & C)]; [lia|]. destruct (Rltb _ 1) eqn:X; [rb; apply min3_below in X; lra|].
    replace (1 * (p - f k) + f k) with p by lra. replace (1 * (q - f k) + f k) with q by lra. split; assumption.
  - intros _ X. assert (Y : Rltb (Rmin (Rmin (alpha v (k - 1)%Z) (alpha v (k + 1)%Z)) (alpha v k)) 1 = true) by (apply Rltb_true; apply min3_below; exact X).
    rewrite Y. clear Y X. unfold lit. rn.
    assert (C : lo3 (f (k - 1)%Z) (f k) (f (k + 1)%Z) <= f k <= hi3 (f (k - 1)%Z) (f k) (f (k + 1)%Z)).
    { unfold lo3, hi3. split; [eapply Rle_trans; [apply Rmin_r|apply Rmin_l]|eapply Rle_trans; [apply Rmax_l|apply Rmax_r]]. }
    fold (hi3 (f (k - 1)%Z) (f k) (f (k + 1)%Z)). fold (lo3 (f (k - 1)%Z) (f k) (f (k + 1)%Z)).
    rewrite (theta_abs (hi3 _ _ _)) by apply C. rewrite (theta_abs' (lo3 _ _ _)) by apply C.
    replace (1 / 1000000000000000) with (/ 10 ^ 15) by (field_simplify; lra).
    set (th := Rmin 1 _). rewrite (Rplus_comm (th * (p - f k))), (Rplus_comm (th * (q - f k))).
    split; (eapply theta_bound; [exact C| | |reflexivity]);
      (destruct m as [x|]; [eapply Rle_trans; [|apply Rmax_r]||(eapply Rle_trans; [apply Rmin_r|])|]); first [apply Rmax_l|apply Rmax_r|apply Rmin_l|apply Rmin_r].
Qed.
Lemma bc_cases L bc : (bc = "periodic" \/ bc = "free" \/ set_bc N L bc = fun u => u)%string.
Proof.
  unfold set_bc. destruct (String.eqb_spec bc "periodic"); [tauto|]. destruct (String.eqb_spec bc "free"); [tauto|]. right. right. reflexivity.
Qed.
Lemma marker_at L bc (u : mat N) v j : (5 <= j <= L - 6)%Z -> (smooth_extrema N L bc u v j < 1 <-> ~ smooth_at (u v) j).
Proof. intro H. rewrite (marker_inside L bc u v j (bc_cases L bc) H). apply marker_is. Qed.

(** ** the loop *)
Lemma loop_chain (step : work N -> mat N -> res (work N * mat N * R)) tend (St : mat N -> mat N -> R -> Prop) :
  (forall x u, exists x' u' dt, step x u = Ok (x', u', dt) /\ St u u' dt) -> forall fuel x t u, exists us t' dts,
  weno_loop N step tend fuel x t u = Ok (us, t') /\ chain St (u :: us) dts /\ t' = t + ssum dts /\
  (forall k, (k < List.length dts)%nat -> t + ssum (firstn k dts) < tend) /\ (tend <= t' \/ List.length dts = fuel).
Proof.
  intros Hstep fuel. induction fuel as [|m IH]; intros x t u; cbn [weno_loop].
  - exists [], t, []. split; [reflexivity|]. split; [split; [reflexivity|intros j Hj; cbn in Hj; lia]|].
    split; [cbn; lra|]. split; [intros k Hk; cbn in Hk; lia|right; reflexivity].
  - rn. destruct (Rltb t tend) eqn:E; rb.
    + destruct (Hstep x u) as (x' & u' & dt & S & Q). rewrite S. cbn [bind].
      destruct (IH x' (t + dt) u') as (us & t' & dts & L & (Cl & Cs) & T & P & F). rewrite L. cbn [bind fst snd].
      exists (u' :: us), t', (dt :: dts). split; [reflexivity|]. split; [|split; [rewrite T; unfold ssum; cbn [fold_right]; rn; lra|split]].
      * split; [cbn in *; lia|]. intros [|j] Hj; [exact Q|]. cbn [List.length] in Hj. apply (Cs j). lia.
      * intros [|k] Hk; [cbn; lra|]. cbn [List.length] in Hk. specialize (P k ltac:(lia)). cbn [firstn ssum fold_right]. unfold ssum in P. lra.
      * destruct F as [F|F]; [left; exact F|right; cbn; lia].
    + exists [], t, []. split; [reflexivity|]. split; [split; [reflexivity|intros j Hj; cbn in Hj; lia]|].
      split; [cbn; lra|]. split; [intros k Hk; cbn in Hk; lia|left; exact E].
Qed.

(** ** initial data *)
Lemma cells_is n i : (1 <= n)%Z -> (0 <= i < n)%Z -> cells N n i = (IZR i + 1/2) / IZR n.
Proof.
  intros Hn Hi. assert (P : IZR n <> 0) by (apply not_0_IZR; lia). unfold cells, linspace. rn. rewrite nhalf_R.
  destruct (Z.ltb_spec 0 n); [|lia]. rewrite !andb_true_r.
  destruct (Z.eqb_spec i n); [lia|]. destruct (Z.eqb_spec (i + 1) n) as [Q|].
  - assert (Q' : IZR n = IZR i + 1) by (rewrite <- Q; apply plus_IZR). rewrite Q' in *. field. exact P.
  - rewrite plus_IZR. field. exact P.
Qed.
Lemma set_ic_ok n x ic : (In ic known_ics -> ic = "sedov"%string -> (3 <= n)%Z) ->
  (ic = "sedov"%string -> (n / 2 + 1 < n)%Z) -> exists u0, set_ic N sin n x ic = Ok u0.
Proof.
  intros _ H. unfold set_ic, ic_prim. cbv zeta.
  repeat match goal with |- context [String.eqb ic ?s] => destruct (String.eqb_spec ic s); [try (eexists; reflexivity)|] end; [|eexists; reflexivity].
  destruct (Z.ltb_spec (n / 2 + 1) n); [eexists; reflexivity|]. specialize (H e). lia.
Qed.
Lemma half_room n : (1 <= n)%Z -> ((n / 2 + 1 < n)%Z <-> (3 <= n)%Z).
Proof. intro H. pose proof (Z.div_mod n 2 ltac:(lia)). pose proof (Z.mod_pos_bound n 2 ltac:(lia)). split; intro; lia. Qed.
Lemma prim_back (w : Z -> R) v : w 0%Z <> 0 -> (0 <= v <= 2)%Z -> gas (prim_to_cons N w) v = w v.
Proof.
  intros H Hv. assert (C : (v = 0 \/ v = 1 \/ v = 2)%Z) by lia. unfold gas, prim_to_cons, vec3. rewrite gam_R, nhalf_R. rn.
  destruct C as [-> |[-> | ->]]; cbn [Z.eqb Pos.eqb]; [reflexivity|field; exact H|field; exact H].
Qed.
Lemma start_is ic n (u0 : mat N) : (1 <= n)%Z -> In ic known_ics -> set_ic N sin n (cells N n) ic = Ok u0 ->
  forall i, (0 <= i < n)%Z -> let '(d, v, p) := start ic n i in
  0 < d /\ 0 < p /\ gas (fun r => u0 r i) 0 = d /\ gas (fun r => u0 r i) 1 = v /\ gas (fun r => u0 r i) 2 = p.
Proof.
  intros Hn Hin E i Hi. assert (Pn : 0 < IZR n) by (apply IZR_lt; lia).
  assert (K : forall (w : Z -> Z -> R) d v p, w i = vec3 N d v p -> u0 = (fun r i => prim_to_cons N (w i) r) -> 0 < d -> 0 < p ->
    0 < d /\ 0 < p /\ gas (fun r => u0 r i) 0 = d /\ gas (fun r => u0 r i) 1 = v /\ gas (fun r => u0 r i) 2 = p).
  { intros w d v p Hw -> Hd Hp. cbv beta. rewrite Hw. split; [exact Hd|]. split; [exact Hp|].
    assert (D : vec3 N d v p 0%Z <> 0) by (cbn; lra).
    change (fun r : Z => prim_to_cons N (vec3 N d v p) r) with (prim_to_cons N (vec3 N d v p)).
    rewrite !prim_back by (try exact D; lia). repeat split. }
  assert (Sn : forall x, 0 < 1 + 1 / 5 * sin x) by (intro x; pose proof (SIN_bound x); lra).
  unfold set_ic, ic_prim in E. cbv zeta in E. unfold start. cbv zeta. rewrite <- (cells_is n i Hn Hi).
  set (x := cells N n) in *. change (x i) with (x i).
  unfold known_ics in Hin. cbn [In] in Hin.
  destruct Hin as [<-|[<-|[<-|[<-|[<-|[<-|[<-|[]]]]]]]]; cbn [String.eqb Ascii.eqb Bool.eqb] in E; cbn [String.eqb Ascii.eqb Bool.eqb];
    unfold lit in E; rewrite ?nhalf_R, ?gam_R in E; rn.
  7:{ destruct (Z.ltb_spec (n / 2 + 1) n); [|discriminate]. injection E as E. eapply K; [|symmetry; exact E| |]; [cbv beta; f_equal| |].
      - destruct ((i =? n / 2) || (i =? n / 2 + 1))%Z; lra.
      - lra.
      - destruct ((i =? n / 2) || (i =? n / 2 + 1))%Z; lra. }
  all: injection E as E.
  - destruct (Rlt_dec (x i) (1/2)); (eapply K; [|symmetry; exact E| |]; try lra); cbv beta;
      (destruct (Rltb (x i) (5 / 10)) eqn:Q; rb; try lra; f_equal; lra).
  - destruct (Rlt_dec (x i) (3/10)); (eapply K; [|symmetry; exact E| |]; try lra); cbv beta;
      (destruct (Rltb (x i) (3 / 10)) eqn:Q; rb; try lra; f_equal; lra).
  - destruct (Rlt_dec (x i) (1/2)); (eapply K; [|symmetry; exact E| |]; try lra); cbv beta;
      (destruct (Rltb (x i) (5 / 10)) eqn:Q; rb; try lra; f_equal; lra).
  - destruct (Rlt_dec (x i) (1/2)); (eapply K; [|symmetry; exact E| |]; try lra); cbv beta;
      (destruct (Rltb (x i) (5 / 10)) eqn:Q; rb; try lra; f_equal; lra).
  - destruct (Rlt_dec (x i) (1/10)); (eapply K; [|symmetry; exact E| |]; try lra; try apply Sn); cbv beta;
      (destruct (Rltb (x i) (1 / 10)) eqn:Q; rb; try lra; f_equal; try lra).
    replace (5 * (x i * 10 - 5)) with (5 * (10 * x i - 5)) by lra. lra.
  - destruct (Rlt_dec (2/5) (x i)); [destruct (Rlt_dec (x i) (3/5))|]; (eapply K; [|symmetry; exact E| |]; try lra); cbv beta;
      (destruct (Rltb (4 / 10) (x i)) eqn:Q; destruct (Rltb (x i) (6 / 10)) eqn:Q'; rb; try lra; cbn [andb]; f_equal; lra).
Qed.

(** ** periodic runs *)
Lemma chain_content (St : mat N -> mat N -> R -> Prop) n us dts : (forall u u' dt, St u u' dt -> forall v, content n u' v = content n u v) ->
  forall u, chain St (u :: us) dts -> forall y, In y (u :: us) -> forall v, content n y v = content n u v.
Proof.
  intros H. revert dts. induction us as [|u' us IH]; intros dts u (L & Cs) y Hy v.
  - destruct Hy as [<-|[]]. reflexivity.
  - destruct dts as [|dt dts]; [cbn in L; lia|]. pose proof (Cs 0%nat ltac:(cbn; lia)) as S0. cbn [nth] in S0.
    destruct Hy as [<-|Hy]; [reflexivity|]. rewrite <- (H _ _ _ S0 v). refine (IH dts u' _ y Hy v). split; [cbn in *; lia|].
    intros j Hj. apply (Cs (S j)). cbn. lia.
Qed.
Lemma periodic_run tend n cfl ic rs r time space : (4 <= n)%Z -> (1 <= space <= 5)%Z -> (1 <= time <= 4)%Z -> solver_named rs = Some r ->
  exists us t dts, weno N sin tend n cfl ic "periodic" rs time space = Ok (us, t) /\
    chain (fun u u' dt => exists s, top_speed n u s /\ dt = cfl * (1 / IZR n) / s /\ runge_kutta r space n dt (tableau time) u u') us dts /\
    (forall u u', In u us -> In u' us -> forall v, content n u' v = content n u v) /\
    t = ssum dts /\ (forall k, (k < List.length dts)%nat -> ssum (firstn k dts) < tend) /\
    (tend <= t \/ Z.of_nat (List.length dts) = 100000%Z).
Proof.
  intros Hn Hs Ht E. unfold weno. destruct (Z.eqb_spec n 0); [lia|]. destruct (Z.ltb_spec n 0); [lia|]. cbv zeta.
  destruct (set_ic_ok n (cells N n) ic ltac:(intros; lia) ltac:(intros _; apply half_room; lia)) as (u0 & ->). cbn [bind].
  set (St := fun u u' dt => (exists s, top_speed n u s /\ dt = cfl * (1 / IZR n) / s /\ runge_kutta r space n dt (tableau time) u u')
     /\ forall v, content n u' v = content n u v).
  destruct (loop_chain (advance N n (1 / IZR n) cfl "periodic" rs time space) tend St) with (fuel := nitermax) (x := mkwork (zeros N) (zeros N) (zeros N) (zeros N)) (t := 0) (u := u0)
    as (us & t & dts & L & Ch & T & P & F).
  { intros x u. destruct (step_periodic rs r space n time cfl x u Hn Hs Ht E) as (x' & u' & dt & s & A & B & D & Rk & Cn).
    exists x', u', dt. split; [exact A|]. split; [exists s; auto|exact Cn]. }
  exists (u0 :: us), t, dts. split.
  { exact (eq_trans (f_equal (fun q => bind q _) L) eq_refl). }
  split; [destruct Ch as (Cl & Cs); split; [exact Cl|intros j Hj; apply (Cs j Hj)]|]. split.
  { intros u u' Hu Hu' v. pose proof (chain_content St n us dts (fun _ _ _ S => proj2 S) u0 Ch) as Q. rewrite (Q u Hu v). apply Q. exact Hu'. }
  split; [lra|]. split; [intros k Hk; specialize (P k Hk); lra|]. destruct F as [F|F]; [left; exact F|right]. rewrite F. unfold nitermax. apply Z2Nat.id. lia.
Qed.
Lemma orders time : (1 <= time <= 4)%Z -> order_conditions (tableau time) time.
Proof.
  intro H. assert (C : (time = 1 \/ time = 2 \/ time = 3 \/ time = 4)%Z) by lia.
  destruct C as [-> |[-> |[-> | ->]]]; unfold order_conditions; cbn; repeat split; intros; try lia; repeat split; lra.
Qed.

(** ** accepted arguments *)
Lemma stage_ok n h bc rs solve space b y : (1 <= space <= 5)%Z -> solver_of N rs = Ok solve -> exists f, stage N n h bc rs space b y = Ok f.
Proof.
  intros Hs S. unfold stage, cmp_flux, trace. cbv zeta. destruct (Z.leb_spec 1 space); [|lia]. destruct (Z.leb_spec space 5); [|lia].
  cbn [andb bind]. rewrite S. cbn [bind]. eexists. reflexivity.
Qed.
Lemma advance_ok n h cfl bc rs solve time space x u : (1 <= space <= 5)%Z -> (1 <= time <= 4)%Z -> solver_of N rs = Ok solve ->
  exists r, advance N n h cfl bc rs time space x u = Ok r.
Proof.
  intros Hs Ht S. unfold advance.
  destruct (stage_ok n h bc rs solve space (b1 x) u Hs S) as (s1 & ->). cbn [bind]. cbv zeta.
  assert (C : (time = 1 \/ time = 2 \/ time = 3 \/ time = 4)%Z) by lia.
  destruct C as [-> |[-> |[-> | ->]]]; cbv iota;
  repeat (match goal with |- context [stage N n h bc rs space ?b ?y] => destruct (stage_ok n h bc rs solve space b y Hs S) as (? & ->); cbn [bind] end);
  eexists; reflexivity.
Qed.
Lemma solver_names rs : (exists solve, solver_of N rs = Ok solve) <-> (exists r, solver_named rs = Some r).
Proof.
  unfold solver_of, solver_named. destruct (String.eqb_spec rs "llf"); [split; intros _; eexists; reflexivity|].
  destruct (String.eqb_spec rs "hll") as [-> |]; [split; intros [? X]; discriminate|].
  destruct (String.eqb_spec rs "hllc"); [split; intros _; eexists; reflexivity|].
  destruct (String.eqb rs "exact"); split; intros [? X]; discriminate.
Qed.
Lemma advance_inv n h cfl bc rs time space x u r : advance N n h cfl bc rs time space x u = Ok r ->
  (1 <= space <= 5)%Z /\ (1 <= time <= 4)%Z /\ exists s, solver_named rs = Some s.
Proof.
  unfold advance. destruct (stage N n h bc rs space (b1 x) u) as [s1|] eqn:E; [|discriminate]. cbn [bind]. cbv zeta. intro H.
  unfold stage, cmp_flux, trace in E. cbv zeta in E.
  destruct (Z.leb_spec 1 space); [|discriminate]. destruct (Z.leb_spec space 5); [|discriminate]. cbn [andb bind] in E.
  destruct (solver_of N rs) eqn:S; [|discriminate]. split; [lia|]. split; [|apply solver_names; eexists; exact S].
  destruct time as [|p|p]; try discriminate. destruct p as [p|p|]; try lia; destruct p as [p|p|]; try discriminate; try lia; destruct p; try discriminate; lia.
Qed.
Lemma accepts tend n cfl ic bc rs time space : 0 < tend ->
  ((exists us t, weno N sin tend n cfl ic bc rs time space = Ok (us, t)) <->
   (1 <= n)%Z /\ (ic = "sedov"%string -> (3 <= n)%Z) /\ (1 <= space <= 5)%Z /\ (1 <= time <= 4)%Z /\ exists r, solver_named rs = Some r).
Proof.
  intro Ht. split.
  - intros (us & t & E). unfold weno in E. destruct (Z.eqb_spec n 0); [discriminate|]. destruct (Z.ltb_spec n 0); [discriminate|].
    split; [lia|]. cbv zeta in E. destruct (set_ic N sin n (cells N n) ic) as [u0|] eqn:Ei; [|discriminate]. cbn [bind] in E. split.
    + intros ->. unfold set_ic, ic_prim in Ei. cbn [String.eqb Ascii.eqb Bool.eqb] in Ei. cbv zeta in Ei.
      destruct (Z.ltb_spec (n / 2 + 1) n); [apply half_room; lia|discriminate].
    + change nitermax with (S (pred (Z.to_nat 100000))) in E || (assert (X : nitermax = S (pred nitermax)) by (unfold nitermax; lia); rewrite X in E).
      cbn [weno_loop] in E. rn. assert (Q : Rltb 0 tend = true) by (apply Rltb_true; exact Ht). rewrite Q in E.
      match type of E with context [advance ?a ?b ?c ?d ?e ?f ?g ?h ?i ?j] => destruct (advance a b c d e f g h i j) as [r|] eqn:A; [|discriminate] end.
      apply advance_inv in A. exact A.
  - intros (Hn & Hi & Hs & Htm & Hr). unfold weno. destruct (Z.eqb_spec n 0); [lia|]. destruct (Z.ltb_spec n 0); [lia|]. cbv zeta.
    destruct (set_ic_ok n (cells N n) ic ltac:(auto) ltac:(intro X; apply half_room; auto)) as (u0 & ->). cbn [bind].
    apply solver_names in Hr. destruct Hr as (solve & S).
    destruct (loop_chain (advance N n (1 / IZR n) cfl bc rs time space) tend (fun _ _ _ => True)) with (fuel := nitermax) (x := mkwork (zeros N) (zeros N) (zeros N) (zeros N)) (t := 0) (u := u0)
      as (us & t & dts & L & _).
    { intros x u. destruct (advance_ok n (1 / IZR n) cfl bc rs solve time space x u Hs Htm S) as ([[x' u'] dt] & A). eauto. }
    exists (u0 :: us), t. exact (eq_trans (f_equal (fun q => bind q _) L) eq_refl).
Qed.

(** ** the end of a run *)
Lemma rest_step cfl x (u : mat N) (c : Z -> R) : (forall v, u v 0%Z = c v) ->
  exists x' u', advance N 1 1 cfl "free" "llf" 1 1 x u = Ok (x', u', cfl * 1 / signal (gas c)) /\ forall v, u' v 0%Z = c v.
Proof.
  intro Hu. unfold advance, stage, cmp_flux. cbv zeta. unfold trace. cbn [Z.leb Z.compare Pos.compare Pos.compare_cont andb bind solver_of String.eqb Ascii.eqb Bool.eqb].
  cbn [fst snd f_u f_flux f_w f_cs].
  set (b := set_bc N (1 + 8) "free" (fill N 1 (b1 x) u)).
  assert (B : forall v i, (0 <= i < 9)%Z -> b v i = c v).
  { intros v i Hi. rewrite <- Hu. assert (C : (i = 0 \/ i = 1 \/ i = 2 \/ i = 3 \/ i = 4 \/ i = 5 \/ i = 6 \/ i = 7 \/ i = 8)%Z) by lia.
    repeat (destruct C as [-> |C]; [reflexivity|]). subst. reflexivity. }
  set (w := fun v i => cons_to_prim N (column N b i) v).
  assert (W : forall v i, (0 <= i < 9)%Z -> w v i = gas c v).
  { intros v i Hi. unfold w. rewrite gas_is. f_equal. apply functional_extensionality. intro r. apply B. exact Hi. }
  assert (F : fastest N (1 + 8) w (fun i => r_sound N (column N w i)) = signal (gas c)).
  { assert (Q : forall i, (0 <= i < 9)%Z -> (Rabs (w 1%Z i) + r_sound N (column N w i))%R = signal (gas c)).
    { intros i Hi. unfold r_sound, column, signal. rewrite gam_R, !W by exact Hi. reflexivity. }
    unfold fastest. cbv zeta. rn. destruct (fold_max (fun i => (Rabs (w 1%Z i) + r_sound N (column N w i))%R) (map Z.of_nat (seq 1 (Z.to_nat (1 + 8) - 1))) (Rabs (w 1%Z 0%Z) + r_sound N (column N w 0%Z))) as (_ & _ & D).
    destruct D as [D|(k & Hk & D)].
    - etransitivity; [exact D|]. apply Q. lia.
    - etransitivity; [exact D|]. apply in_map_iff in Hk. destruct Hk as (j & <- & Hj). apply in_seq in Hj. apply Q. change (Z.to_nat (1 + 8)) with 9%nat in Hj. lia. }
  rewrite F. do 2 eexists. split; [reflexivity|]. intro v. unfold inner, limited. cbn [traces]. cbv zeta. cbn [pick fst snd Z.ltb Z.compare Pos.compare Pos.compare_cont Z.add Pos.add Pos.succ].
  rewrite B by lia.
  assert (Cl : forall i, (0 <= i < 9)%Z -> column N w i = gas c) by (intros i Hi; apply functional_extensionality; intro r; apply W; exact Hi).
  assert (Ck : forall k, (0 <= k <= 2)%Z -> column N (fun v0 i => w v0 (i + 3)%Z) k = gas c) by (intros k Hk; apply (Cl (k + 3)%Z); lia).
  unfold column at 1 2 3 4. cbn [Z.add Pos.add Pos.succ].
  change (fun v0 : Z => w v0 3%Z) with (column N w 3). change (fun v0 : Z => w v0 4%Z) with (column N w 4). change (fun v0 : Z => w v0 5%Z) with (column N w 5).
  rewrite !Cl by lia. rn. unfold Rdiv. set (q := r_llf N (gas c) (gas c) v). replace (q - q) with 0 by lra. lra.
Qed.
Lemma rest_loop cfl tend (c : Z -> R) : let dt := cfl * 1 / signal (gas c) in forall j fuel x t (u : mat N), (j <= fuel)%nat ->
  (forall v, u v 0%Z = c v) -> (forall i, (i < j)%nat -> t + INR i * dt < tend) -> (j = fuel \/ tend <= t + INR j * dt) ->
  exists us, weno_loop N (advance N 1 1 cfl "free" "llf" 1 1) tend fuel x t u = Ok (us, t + INR j * dt) /\ List.length us = j.
Proof.
  intro dt. induction j as [|j IH]; intros fuel x t u Hj Hu Hlt Hend.
  - exists []. split; [|reflexivity]. replace (t + INR 0 * dt) with t in * by (cbn; lra). destruct fuel; [reflexivity|]. cbn [weno_loop]. rn.
    replace (Rltb t tend) with false; [reflexivity|]. symmetry. apply Rltb_false. destruct Hend; [lia|assumption].
  - destruct fuel as [|fuel]; [lia|]. cbn [weno_loop]. rn.
    replace (Rltb t tend) with true by (symmetry; apply Rltb_true; specialize (Hlt 0%nat ltac:(lia)); cbn in Hlt; lra).
    destruct (rest_step cfl x u c Hu) as (x' & u' & -> & Hu'). cbn [bind]. fold dt.
    destruct (IH fuel x' (t + dt) u') as (us & L & Ln); [lia|exact Hu'| | |].
    + intros i Hi. specialize (Hlt (S i) ltac:(lia)). rewrite S_INR in Hlt. lra.
    + rewrite S_INR in Hend. destruct Hend as [Hend|Hend]; [left; lia|right; lra].
    + rewrite L. cbn [bind fst snd]. exists (u' :: us). split; [rewrite S_INR; do 2 f_equal; lra|cbn; lia].
Qed.
Lemma rest_weno tend j : (j <= nitermax)%nat -> (forall i, (i < j)%nat -> INR i * (8/10 / sqrt (28/25)) < tend) ->
  (j = nitermax \/ tend <= INR j * (8/10 / sqrt (28/25))) ->
  exists us, weno N sin tend 1 (8/10) "sod test" "free" "llf" 1 1 = Ok (us, INR j * (8/10 / sqrt (28/25))) /\ List.length us = S j.
Proof.
  intros Hj Hlt Hend. unfold weno. cbn [Z.eqb Z.ltb Z.compare]. cbv zeta.
  destruct (set_ic N sin 1 (cells N 1) "sod test") as [u0|] eqn:E; [|discriminate]. cbn [bind].
  pose proof (start_is "sod test" 1 u0 ltac:(lia) ltac:(left; reflexivity) E 0%Z ltac:(lia)) as S.
  unfold start in S. cbn [String.eqb Ascii.eqb Bool.eqb] in S. cbv zeta in S. destruct (Rlt_dec ((0 + 1 / 2) / 1) (1 / 2)) as [X|X]; [lra|].
  destruct S as (_ & _ & S0 & S1 & S2). clear X.
  assert (D : (8/10 * 1 / signal (gas (fun r => u0 r 0%Z)))%R = (8/10 / sqrt (28/25))%R).
  { unfold signal. rewrite S0, S1, S2, Rabs_R0, Rplus_0_l, Rmult_1_r. do 2 f_equal. lra. }
  destruct (rest_loop (8/10) tend (fun r => u0 r 0%Z) j nitermax (mkwork (zeros N) (zeros N) (zeros N) (zeros N)) 0 u0) as (us & L & Ln);
    [exact Hj|reflexivity|intros i Hi; rewrite D, Rplus_0_l; apply Hlt; exact Hi|rewrite D, Rplus_0_l; exact Hend|].
  exists (u0 :: us). rn. replace (1 / 1) with 1 by lra. rewrite L. cbn [bind fst snd]. rewrite D, Rplus_0_l. split; [reflexivity|cbn; lia].
Qed.
Lemma dt_bounds : 3/4 < 8/10 / sqrt (28/25) < 4/5.
Proof.
  assert (A : 1 < sqrt (28/25)) by (rewrite <- sqrt_1 at 1; apply sqrt_lt_1; lra).
  assert (B : sqrt (28/25) < 16/15).
  { replace (16/15) with (sqrt ((16/15) * (16/15))) by (apply sqrt_square; lra). apply sqrt_lt_1; lra. }
  assert (P : 8/10 / sqrt (28/25) * sqrt (28/25) = 8/10) by (field; lra). split; nra.
Qed.
Lemma overshoots : exists us t, weno N sin 1 1 (8/10) "sod test" "free" "llf" 1 1 = Ok (us, t) /\ 3/2 < t /\ List.length us = 3%nat.
Proof.
  pose proof dt_bounds as [A B].
  assert (Nm : nitermax = S (S (pred (pred nitermax)))) by (unfold nitermax; lia).
  destruct (rest_weno 1 2) as (us & E & L).
  - rewrite Nm. lia.
  - intros [|[|i]] Hi; [cbn; lra|cbn; lra|lia].
  - right. cbn. lra.
  - exists us, (INR 2 * (8/10 / sqrt (28/25))). split; [exact E|]. split; [cbn; lra|exact L].
Qed.
Lemma stops_early : exists us t, weno N sin 1000000 1 (8/10) "sod test" "free" "llf" 1 1 = Ok (us, t) /\ t < 80001.
Proof.
  pose proof dt_bounds as [A B].
  assert (Nm : INR nitermax = 100000) by (rewrite INR_IZR_INZ; f_equal; unfold nitermax; apply Z2Nat.id; lia).
  destruct (rest_weno 1000000 nitermax) as (us & E & L).
  - apply le_n.
  - intros i Hi. apply lt_INR in Hi. rewrite Nm in Hi. pose proof (pos_INR i). nra.
  - left. reflexivity.
  - exists us, (INR nitermax * (8/10 / sqrt (28/25))). split; [exact E|]. rewrite Nm. lra.
Qed.
Lemma vacuum n x ic : ~ In ic known_ics -> exists u0, set_ic N sin n x ic = Ok u0 /\ forall v i, u0 v i = 0.
Proof.
  intro H. unfold set_ic, ic_prim. cbv zeta. unfold known_ics in H. cbn [In] in H.
  repeat match goal with |- context [String.eqb ic ?s] => destruct (String.eqb_spec ic s); [subst; tauto|] end.
  eexists. split; [reflexivity|]. intros v i. cbv beta. unfold prim_to_cons, vec3. rewrite gam_R, nhalf_R. rn.
  cbn [Z.eqb Pos.eqb]. destruct (v =? 0)%Z; [reflexivity|]. destruct (v =? 1)%Z; lra.
Qed.
Lemma conversions (w u : Z -> R) v : (0 <= v <= 2)%Z ->
  (w 0%Z <> 0 -> cons_to_prim N (prim_to_cons N w) v = w v) /\
  (u 0%Z <> 0 -> prim_to_cons N (cons_to_prim N u) v = u v).
Proof.
  intro Hv. split; intro H; [rewrite gas_is; apply prim_back; assumption|].
  assert (C : (v = 0 \/ v = 1 \/ v = 2)%Z) by lia. unfold prim_to_cons, cons_to_prim, vec3. cbv zeta. rewrite gam_R, nhalf_R. rn.
  destruct C as [-> |[-> | ->]]; cbn [Z.eqb Pos.eqb]; [reflexivity|field; exact H|field; exact H].
Qed.

(** ** binary64 *)
Definition ended {N : Num} (r : res (list (mat N) * car N)) : option (nat * car N) :=
  match r with Ok (us, t) => Some (List.length us, t) | Err _ => None end.
Lemma ended_runs {N : Num} (r : res (list (mat N) * car N)) k t : ended r = Some (k, t) -> runs_to r k t.
Proof. destruct r as [[us t']|]; [|discriminate]. cbn. intro E. injection E as <- <-. exists us. split; reflexivity. Qed.
Lemma nan_runs nsin :
  runs_to (weno FNum nsin (fof 1) 8 (SFdiv 53 1024 (fof 8) (fof 10)) "sod test" "reflective" "llf" 1 1) 2 S754_nan /\
  runs_to (weno FNum nsin (fof 1) 3 (SFdiv 53 1024 (fof 8) (fof 10)) "sod test" "periodic" "llf" 1 1) 2 S754_nan.
Proof. split; refine (ended_runs _ _ _ _); vm_compute; reflexivity. Qed.
