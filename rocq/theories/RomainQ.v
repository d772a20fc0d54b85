(** The one-dimensional reference solver: periodic runs. *)
From Coq Require Import ZArith List Bool Lia Reals Lra Psatz String FunctionalExtensionality.
From Verif Require Import Err Num NdArray NdArrayP HydroM HydroP StencilsM FvM RiemannM RiemannP Spec SpecCons SpecScheme SchemeP
  RomainM SpecRomain ConsP RomainP.
Import ListNotations.
Open Scope R_scope.
Local Notation N := RNum.

Lemma gas_is (u : Z -> R) v : cons_to_prim N u v = gas u v.
Proof.
  unfold cons_to_prim, gas, vec3. cbv zeta. rewrite gam_R, nhalf_R. rn. destruct (v =? 0)%Z; [reflexivity|]. destruct (v =? 1)%Z; [reflexivity|]. lra.
Qed.

(** the scheme on the unbounded line *)
Definition gtr (space : Z) (W : Z -> Z -> R) (v k : Z) : option (R * R) :=
  limited N space W (fun r j => marker (W r) j) v (k - 3).
Definition gup space W v k := pick N fst (gtr space W v k).
Definition glo space W v k := pick N snd (gtr space W v k).
Definition gflux (solve : (Z -> R) -> (Z -> R) -> Z -> R) space W v k : R :=
  solve (fun r => gup space W r (k - 1)%Z) (fun r => glo space W r k) v.

Lemma gtr_traced space W v k : (1 <= space <= 5)%Z -> traced space (W v) k (gup space W v k) (glo space W v k).
Proof.
  intro H. unfold gup, glo. destruct (limited_ok space W (fun r j => marker (W r) j) v (k - 3) H) as (l & r & E). unfold gtr.
  rewrite E. cbn [pick fst snd]. refine (limited_traced space (W v) k W (fun r j => marker (W r) j) v (k - 3) l r H _ _ E); intros j Hj;
    replace (k - 3 + 3 + j)%Z with (k + j)%Z by lia; reflexivity.
Qed.
Lemma solver_known rs r : solver_named rs = Some r -> exists solve, solver_of N rs = Ok solve /\
  forall wl wr v, (0 <= v <= 2)%Z -> solve wl wr v = numerical_flux r (7/5) 0 AX (as_cell wl) (as_cell wr) (row_of v).
Proof.
  unfold solver_named, solver_of. destruct (String.eqb_spec rs "llf") as [-> |].
  - intro E. injection E as <-. eexists. split; [reflexivity|]. intros wl wr v Hv. rewrite <- riemann_is. symmetry. apply llf3; [exact Hv|right; reflexivity|right; reflexivity].
  - destruct (String.eqb_spec rs "hllc") as [-> |]; [|discriminate].
    intro E. injection E as <-. eexists. split; [reflexivity|]. intros wl wr v Hv. rewrite <- riemann_is. symmetry. apply hllc3; [exact Hv|right; reflexivity|right; reflexivity].
Qed.
Lemma gflux_faces rs r solve space W : (1 <= space <= 5)%Z -> solver_named rs = Some r -> solver_of N rs = Ok solve ->
  face_fluxes r space W (gflux solve space W).
Proof.
  intros H E S. destruct (solver_known rs r E) as (s & S' & F). rewrite S in S'. injection S' as <-.
  exists (gup space W), (glo space W). split; [intros; apply gtr_traced; exact H|]. intros v k Hv. apply F. exact Hv.
Qed.

(** ** periodic data *)
Lemma around_shift n (u : Z -> Z -> R) v k : (0 < n)%Z -> around n u v (k + n)%Z = around n u v k.
Proof. intro H. unfold around. f_equal. replace (k + n)%Z with (k + 1 * n)%Z by lia. apply Z_mod_plus_full. Qed.
Lemma gas_shift n u v k : (0 < n)%Z -> gas_line n u v (k + n)%Z = gas_line n u v k.
Proof. intro H. unfold gas_line. f_equal. apply functional_extensionality. intro r. apply around_shift. exact H. Qed.
Lemma gas_mod n u v k : (0 < n)%Z -> gas_line n u v (k mod n)%Z = gas_line n u v k.
Proof. intro H. unfold gas_line, around. f_equal. apply functional_extensionality. intro r. rewrite Z.mod_mod by lia. reflexivity. Qed.
Lemma shift_mod n (f : Z -> R) : (0 < n)%Z -> (forall k, f (k + n)%Z = f k) -> forall k, f (k mod n)%Z = f k.
Proof.
  intros H P k. assert (M : forall m x, f (x + Z.of_nat m * n)%Z = f x).
  { induction m; intro x; [f_equal; lia|]. replace (x + Z.of_nat (S m) * n)%Z with (x + Z.of_nat m * n + n)%Z by lia. rewrite P. apply IHm. }
  pose proof (Z.div_mod k n ltac:(lia)) as D. destruct (Z.le_gt_cases 0 (k / n)) as [Q|Q].
  - rewrite D at 2. replace (n * (k / n) + k mod n)%Z with (k mod n + Z.of_nat (Z.to_nat (k / n)) * n)%Z by lia. rewrite M. reflexivity.
  - replace (k mod n)%Z with (k + Z.of_nat (Z.to_nat (- (k / n))) * n)%Z by lia. apply M.
Qed.
Lemma slope_shift n f k : (forall k, f (k + n)%Z = f k) -> slope f (k + n)%Z = slope f k.
Proof. intro P. unfold slope. rewrite <- (P (k + 1)%Z), <- (P (k - 1)%Z). do 3 f_equal; lia. Qed.
Lemma marker_shift n f k : (forall k, f (k + n)%Z = f k) -> marker f (k + n)%Z = marker f k.
Proof.
  intro P. unfold marker. replace (k + n - 1)%Z with (k - 1 + n)%Z by lia. replace (k + n + 1)%Z with (k + 1 + n)%Z by lia.
  rewrite !slope_shift by exact P. reflexivity.
Qed.
Lemma gtr_shift n space W v k : (forall v k, W v (k + n)%Z = W v k) -> gtr space W v (k + n)%Z = gtr space W v k.
Proof.
  intro P. unfold gtr, limited. cbv zeta.
  replace (k + n - 3 + 1)%Z with (k - 3 + 1 + n)%Z by lia. replace (k + n - 3 + 2)%Z with (k - 3 + 2 + n)%Z by lia.
  replace (k + n - 3 + 3)%Z with (k - 3 + 3 + n)%Z by lia. replace (k + n - 3 + 4)%Z with (k - 3 + 4 + n)%Z by lia.
  replace (k + n - 3 + 5)%Z with (k - 3 + 5 + n)%Z by lia. rewrite !P, !(marker_shift n (W v)) by apply P. reflexivity.
Qed.
Lemma gflux_shift solve n space W v k : (forall v k, W v (k + n)%Z = W v k) -> gflux solve space W v (k + n)%Z = gflux solve space W v k.
Proof.
  intro P. unfold gflux, gup, glo. f_equal; apply functional_extensionality; intro r; replace (k + n - 1)%Z with (k - 1 + n)%Z by lia;
    rewrite (gtr_shift n) by exact P; reflexivity.
Qed.

(** ** one evaluation of the right-hand side *)
Lemma pad_periodic n (d : mat N) v i : (4 <= n)%Z -> (0 <= i < n + 8)%Z ->
  set_bc N (n + 8) "periodic" (pad1 N (n + 8) d) v i = d v (3 + (i - 4) mod n)%Z.
Proof.
  intros Hn Hi. rewrite set_bc_periodic by assumption. pose proof (Z.mod_pos_bound (i - 4) n ltac:(lia)) as B. unfold pad1.
  destruct (Z.leb_spec 1 (4 + (i - 4) mod n)); [|lia]. destruct (Z.ltb_spec (4 + (i - 4) mod n) (n + 8 - 1)); [|lia]. cbn [andb]. f_equal. lia.
Qed.
Lemma marker_periodic n (u : mat N) f v i : (4 <= n)%Z -> (0 <= i < n + 8)%Z -> (forall k, f (k + n)%Z = f k) ->
  (forall i, (0 <= i < n + 8)%Z -> u v i = f (i - 4)%Z) -> smooth_extrema N (n + 8) "periodic" u v i = marker f (i - 4)%Z.
Proof.
  intros Hn Hi P U. unfold smooth_extrema. cbv zeta. rewrite pad_periodic by assumption.
  assert (D : forall j, (0 <= j < n + 8)%Z ->
    set_bc N (n + 8) "periodic" (pad1 N (n + 8) (fun v i => nmul nhalf (nsub (u v (i + 2)%Z) (u v i)))) v j = slope f (j - 4)%Z).
  { intros j Hj. rewrite pad_periodic by assumption. pose proof (Z.mod_pos_bound (j - 4) n ltac:(lia)) as B. rewrite !U by lia.
    rewrite <- (shift_mod n (slope f) ltac:(lia) (fun k => slope_shift n f k P) (j - 4)%Z). unfold slope. rewrite nhalf_R. rn.
    replace (3 + (j - 4) mod n + 2 - 4)%Z with ((j - 4) mod n + 1)%Z by lia. replace (3 + (j - 4) mod n - 4)%Z with ((j - 4) mod n - 1)%Z by lia.
    apply slope_half. }
  rewrite <- (shift_mod n (marker f) ltac:(lia) (fun k => marker_shift n f k P) (i - 4)%Z).
  pose proof (Z.mod_pos_bound (i - 4) n ltac:(lia)) as B. set (q := ((i - 4) mod n)%Z) in *. clearbody q.
  rewrite !D by lia. unfold marker. rewrite nhalf_R. rn.
  replace (3 + q + 1 - 4)%Z with q by lia. replace (3 + q - 4)%Z with (q - 1)%Z by lia. replace (3 + q + 2 - 4)%Z with (q + 1)%Z by lia. reflexivity.
Qed.

Definition prate solve space n h (y : Z -> Z -> R) v i : R :=
  - (gflux solve space (gas_line n y) v (i + 1)%Z - gflux solve space (gas_line n y) v i) / h.

Lemma stage_periodic n h rs solve space b y : (4 <= n)%Z -> (1 <= space <= 5)%Z -> solver_of N rs = Ok solve ->
  exists f k, stage N n h "periodic" rs space b y = Ok (f, k) /\
    (forall v i, (0 <= i < n)%Z -> inner N (f_u f) v i = y v i) /\
    (forall v i, (0 <= i < n)%Z -> k v i = prate solve space n h y v i) /\
    (forall v i, (0 <= i < n + 8)%Z -> f_w f v i = gas_line n y v (i - 4)%Z) /\
    (forall i, f_cs f i = r_sound N (column N (f_w f) i)).
Proof.
  intros Hn Hs S. unfold stage, cmp_flux. cbv zeta. unfold trace.
  destruct (Z.leb_spec 1 space); [|lia]. destruct (Z.leb_spec space 5); [|lia]. cbn [andb bind]. rewrite S. cbn [bind].
  set (u := set_bc N (n + 8) "periodic" (fill N n b y)).
  assert (U : forall v i, (0 <= i < n + 8)%Z -> u v i = around n y v (i - 4)%Z).
  { intros v i Hi. unfold u. rewrite set_bc_periodic by assumption. pose proof (Z.mod_pos_bound (i - 4) n ltac:(lia)) as B. unfold fill.
    destruct (Z.leb_spec 4 (4 + (i - 4) mod n)); [|lia]. destruct (Z.ltb_spec (4 + (i - 4) mod n) (n + 4)); [|lia]. cbn [andb].
    unfold around. f_equal. lia. }
  set (w := fun v i => cons_to_prim N (column N u i) v).
  assert (W : forall v i, (0 <= i < n + 8)%Z -> w v i = gas_line n y v (i - 4)%Z).
  { intros v i Hi. unfold w, gas_line. rewrite gas_is. f_equal. apply functional_extensionality. intro r. unfold column. apply U. exact Hi. }
  set (alpha := smooth_extrema N (n + 8) "periodic" w).
  assert (A : forall v i, (0 <= i < n + 8)%Z -> alpha v i = marker (gas_line n y v) (i - 4)%Z).
  { intros v i Hi. apply marker_periodic; try assumption; [intro k; apply gas_shift; lia|intros; apply W; assumption]. }
  assert (T : forall v i, (0 <= i <= n + 1)%Z -> limited N space w alpha v i = gtr space (gas_line n y) v (i - 1)%Z).
  { intros v i Hi. unfold gtr, limited. cbv zeta. rewrite !W, !A by lia.
    replace (i - 1 - 3 + 1)%Z with (i + 1 - 4)%Z by lia. replace (i - 1 - 3 + 2)%Z with (i + 2 - 4)%Z by lia. replace (i - 1 - 3 + 3)%Z with (i + 3 - 4)%Z by lia.
    replace (i - 1 - 3 + 4)%Z with (i + 4 - 4)%Z by lia. replace (i - 1 - 3 + 5)%Z with (i + 5 - 4)%Z by lia. reflexivity. }
  assert (F : forall v i, (0 <= i <= n)%Z ->
    solve (column N (fun v i => pick N fst (limited N space w alpha v i)) i) (column N (fun v i => pick N snd (limited N space w alpha v i)) (i + 1)%Z) v
    = gflux solve space (gas_line n y) v i).
  { intros v i Hi. unfold gflux, gup, glo. f_equal; apply functional_extensionality; intro r; unfold column; rewrite T by lia; [reflexivity|].
    replace (i + 1 - 1)%Z with i by lia. reflexivity. }
  do 2 eexists. split; [reflexivity|]. cbn [f_u f_flux f_w f_cs fst snd]. repeat split.
  - intros v i Hi. unfold inner. rewrite U by lia. unfold around. f_equal. rewrite Z.mod_small; lia.
  - intros v i Hi. unfold prate. rewrite !F by lia. reflexivity.
  - intros v i Hi. apply W. exact Hi.
Qed.
Lemma gas_line_ext n y y' : (0 < n)%Z -> (forall v i, (0 <= i < n)%Z -> y v i = y' v i) -> gas_line n y = gas_line n y'.
Proof.
  intros Hn E. apply functional_extensionality. intro v. apply functional_extensionality. intro k. unfold gas_line. f_equal.
  apply functional_extensionality. intro r. unfold around. apply E. apply Z.mod_pos_bound. exact Hn.
Qed.
Lemma prate_sum solve space n h y v : (0 < n)%Z -> sum_to (Z.to_nat n) (prate solve space n h y v) = 0.
Proof.
  intro Hn. rewrite (sum_ext _ _ (fun i => (- / h) * (gflux solve space (gas_line n y) v (i + 1)%Z - gflux solve space (gas_line n y) v i))%R)
    by (intros; unfold prate, Rdiv; lra).
  rewrite sum_scale, sum_telescope, Z2Nat.id by lia. replace n with (0 + n)%Z at 2 by lia.
  rewrite (gflux_shift solve n) by (intros; apply gas_shift; exact Hn). lra.
Qed.

(** ** the time step *)
Lemma fold_max (s : Z -> R) l m0 : let m := fold_left (fun m k => if Rltb m (s k) then s k else m) l m0 in
  m0 <= m /\ (forall k, In k l -> s k <= m) /\ (m = m0 \/ exists k, In k l /\ m = s k).
Proof.
  revert m0. induction l as [|k l IH]; intro m0; cbn [fold_left].
  - split; [apply Rle_refl|]. split; [intros ? []|left; reflexivity].
  - destruct (Rltb m0 (s k)) eqn:E; rb.
    + destruct (IH (s k)) as (A & B & C). split; [lra|]. split; [intros j [<-|Hj]; [exact A|apply B; exact Hj]|].
      right. destruct C as [C|(j & Hj & C)]; [exists k; split; [left; reflexivity|exact C]|exists j; split; [right; exact Hj|exact C]].
    + destruct (IH m0) as (A & B & C). split; [exact A|]. split; [intros j [<-|Hj]; [lra|apply B; exact Hj]|].
      destruct C as [C|(j & Hj & C)]; [left; exact C|right; exists j; split; [right; exact Hj|exact C]].
Qed.
Lemma fastest_periodic n (w : mat N) cs y : (4 <= n)%Z -> (forall v i, (0 <= i < n + 8)%Z -> w v i = gas_line n y v (i - 4)%Z) ->
  (forall i, cs i = r_sound N (column N w i)) -> top_speed n y (fastest N (n + 8) w cs).
Proof.
  intros Hn W C. unfold fastest. cbv zeta. rn.
  set (s := fun i => Rabs (w 1%Z i) + cs i).
  assert (Sg : forall i, (0 <= i < n + 8)%Z -> s i = signal (gas (fun r => y r ((i - 4) mod n)%Z))).
  { intros i Hi. unfold s, signal. rewrite C. unfold r_sound, column. rewrite gam_R, !W by exact Hi. reflexivity. }
  destruct (fold_max s (map Z.of_nat (seq 1 (Z.to_nat (n + 8) - 1))) (s 0%Z)) as (A & B & D). split.
  - intros i Hi. rewrite <- (Z.mod_small i n) by lia. replace i with (i + 4 - 4)%Z by lia. rewrite <- Sg by lia.
    apply B. apply in_map_iff. exists (Z.to_nat (i + 4)). split; [lia|]. apply in_seq. lia.
  - destruct D as [D|(k & Hk & D)].
    + exists ((0 - 4) mod n)%Z. split; [apply Z.mod_pos_bound; lia|]. rewrite <- Sg by lia. exact D.
    + apply in_map_iff in Hk. destruct Hk as (j & <- & Hj). apply in_seq in Hj. exists ((Z.of_nat j - 4) mod n)%Z. split; [apply Z.mod_pos_bound; lia|].
      rewrite <- Sg by lia. exact D.
Qed.

(** ** one step *)
Lemma prate_balance rs r solve space n y : (1 <= space <= 5)%Z -> solver_named rs = Some r -> solver_of N rs = Ok solve ->
  balance r space n y (prate solve space n (1 / IZR n) y).
Proof. intros H E S. exists (gflux solve space (gas_line n y)). split; [eapply gflux_faces; eassumption|reflexivity]. Qed.

Definition step_facts rs r space n time cfl (x : work N) (u : mat N) : Prop :=
  exists x' u' dt s, advance N n (1 / IZR n) cfl "periodic" rs time space x u = Ok (x', u', dt) /\
    top_speed n u s /\ dt = cfl * (1 / IZR n) / s /\ runge_kutta r space n dt (tableau time) u u' /\
    forall v, content n u' v = content n u v.
Lemma content_mix n (u u' : Z -> Z -> R) v (dt : R) (g : Z -> R) : (0 <= n)%Z -> (forall i, (0 <= i < n)%Z -> u' v i = u v i + dt * g i) ->
  sum_to (Z.to_nat n) g = 0 -> content n u' v = content n u v.
Proof.
  intros Hn E G. unfold content. rewrite (sum_ext _ _ (fun i => u v i + dt * g i)%R) by (intros; apply E; lia).
  rewrite sum_add, sum_scale, G. lra.
Qed.
Ltac stg n rs solve space b y Hn Hs S f k I K W C :=
  let E := fresh in
  destruct (stage_periodic n (1 / IZR n) rs solve space b y Hn Hs S) as (f & k & E & I & K & W & C);
  rewrite E; clear E; cbn [bind fst snd].
Ltac tab := rn; rewrite ?nhalf_R in *; cbn [tableau fst snd mix dot map nth List.length]; lra.

Lemma step_periodic rs r space n time cfl x u : (4 <= n)%Z -> (1 <= space <= 5)%Z -> (1 <= time <= 4)%Z -> solver_named rs = Some r ->
  step_facts rs r space n time cfl x u.
Proof.
  intros Hn Hs Ht E. destruct (solver_known rs r E) as (solve & S & _).
  pose proof (fun y => prate_balance rs r solve space n y Hs E S) as Bal.
  pose proof (fun y v => prate_sum solve space n (1 / IZR n) y v ltac:(lia)) as Sum.
  assert (C : (time = 1 \/ time = 2 \/ time = 3 \/ time = 4)%Z) by lia.
  unfold step_facts, advance.
  stg n rs solve space (b1 x) u Hn Hs S f1 k1 I1 K1 W1 Qc1.
  pose proof (fastest_periodic n (f_w f1) (f_cs f1) u Hn W1 Qc1) as Top.
  set (sp := fastest N (n + 8) (f_w f1) (f_cs f1)) in *. clearbody sp.
  set (dt := (cfl * (1 / IZR n) / sp)%R). change (ndiv (nmul cfl (1 / IZR n)) sp) with dt. clear W1 Qc1.
  destruct C as [-> |[-> |[-> | ->]]]; cbn [bind fst snd].
  - do 3 eexists. exists sp. split; [reflexivity|]. split; [exact Top|]. split; [reflexivity|]. split.
    + exists [prate solve space n (1 / IZR n) u]. split; [reflexivity|]. split.
      * intros [|j] Hj; [|cbn in Hj; lia]. exists u. split; [|apply Bal]. intros. tab.
      * intros v i Hv Hi. rewrite I1, K1 by lia. tab.
    + intro v. apply (content_mix n u _ v dt (fun i => prate solve space n (1 / IZR n) u v i)); [lia| |apply Sum].
      intros i Hi. rewrite I1, K1 by lia. tab.
  - set (y2 := fun v i => nadd (inner N (f_u f1) v i) (ndiv (nmul (k1 v i) dt) (nofZ 2))).
    stg n rs solve space (b2 x) y2 Hn Hs S f2 k2 I2 K2 W2 Qc2. clear W2 Qc2.
    do 3 eexists. exists sp. split; [reflexivity|]. split; [exact Top|]. split; [reflexivity|]. split.
    + exists [prate solve space n (1 / IZR n) u; prate solve space n (1 / IZR n) y2]. split; [reflexivity|]. split.
      * intros [|[|j]] Hj; [| |cbn in Hj; lia].
        -- exists u. split; [|apply Bal]. intros. tab.
        -- exists y2. split; [|apply Bal]. intros v i Hv Hi. unfold y2 at 1. rewrite I1, K1 by lia. tab.
      * intros v i Hv Hi. rewrite I1, K2 by lia. tab.
    + intro v. apply (content_mix n u _ v dt (fun i => prate solve space n (1 / IZR n) y2 v i)); [lia| |apply Sum].
      intros i Hi. rewrite I1, K2 by lia. tab.
  - set (y2 := fun v i => nadd (inner N (f_u f1) v i) (ndiv (nmul (k1 v i) dt) (nofZ 3))).
    stg n rs solve space (b2 x) y2 Hn Hs S f2 k2 I2 K2 W2 Qc2. clear W2 Qc2.
    set (y3 := fun v i => nadd (inner N (f_u f1) v i) (ndiv (nmul (nmul (k2 v i) (nofZ 2)) dt) (nofZ 3))).
    stg n rs solve space (b3 x) y3 Hn Hs S f3 k3 I3 K3 W3 Qc3. clear W3 Qc3.
    do 3 eexists. exists sp. split; [reflexivity|]. split; [exact Top|]. split; [reflexivity|]. split.
    + exists [prate solve space n (1 / IZR n) u; prate solve space n (1 / IZR n) y2; prate solve space n (1 / IZR n) y3]. split; [reflexivity|]. split.
      * intros [|[|[|j]]] Hj; [| | |cbn in Hj; lia].
        -- exists u. split; [|apply Bal]. intros. tab.
        -- exists y2. split; [|apply Bal]. intros v i Hv Hi. unfold y2 at 1. rewrite I1, K1 by lia. tab.
        -- exists y3. split; [|apply Bal]. intros v i Hv Hi. unfold y3 at 1. rewrite I1, K2 by lia. tab.
      * intros v i Hv Hi. rewrite I1, K1, K3 by lia. tab.
    + intro v. apply (content_mix n u _ v dt (fun i => 1/4 * prate solve space n (1 / IZR n) u v i + 3/4 * prate solve space n (1 / IZR n) y3 v i)%R); [lia| |].
      * intros i Hi. rewrite I1, K1, K3 by lia. tab.
      * rewrite sum_add, !sum_scale, !Sum. lra.
  - set (y2 := fun v i => nadd (inner N (f_u f1) v i) (ndiv (nmul (k1 v i) dt) (nofZ 2))).
    stg n rs solve space (b2 x) y2 Hn Hs S f2 k2 I2 K2 W2 Qc2. clear W2 Qc2.
    set (y3 := fun v i => nadd (inner N (f_u f1) v i) (ndiv (nmul (k2 v i) dt) (nofZ 2))).
    stg n rs solve space (b3 x) y3 Hn Hs S f3 k3 I3 K3 W3 Qc3. clear W3 Qc3.
    set (y4 := fun v i => nadd (inner N (f_u f1) v i) (nmul (k3 v i) dt)).
    stg n rs solve space (b4 x) y4 Hn Hs S f4 k4 I4 K4 W4 Qc4. clear W4 Qc4.
    do 3 eexists. exists sp. split; [reflexivity|]. split; [exact Top|]. split; [reflexivity|]. split.
    + exists [prate solve space n (1 / IZR n) u; prate solve space n (1 / IZR n) y2; prate solve space n (1 / IZR n) y3; prate solve space n (1 / IZR n) y4].
      split; [reflexivity|]. split.
      * intros [|[|[|[|j]]]] Hj; [| | | |cbn in Hj; lia].
        -- exists u. split; [|apply Bal]. intros. tab.
        -- exists y2. split; [|apply Bal]. intros v i Hv Hi. unfold y2 at 1. rewrite I1, K1 by lia. tab.
        -- exists y3. split; [|apply Bal]. intros v i Hv Hi. unfold y3 at 1. rewrite I1, K2 by lia. tab.
        -- exists y4. split; [|apply Bal]. intros v i Hv Hi. unfold y4 at 1. rewrite I1, K3 by lia. tab.
      * intros v i Hv Hi. rewrite I1, K1, K2, K3, K4 by lia. tab.
    + intro v. apply (content_mix n u _ v dt (fun i => 1/6 * prate solve space n (1 / IZR n) u v i + (1/3 * prate solve space n (1 / IZR n) y2 v i
        + (1/3 * prate solve space n (1 / IZR n) y3 v i + 1/6 * prate solve space n (1 / IZR n) y4 v i)))%R); [lia| |].
      * intros i Hi. rewrite I1, K1, K2, K3, K4 by lia. tab.
      * rewrite !sum_add, !sum_scale, !Sum. lra.
Qed.
