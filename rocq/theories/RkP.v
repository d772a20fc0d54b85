(** Order of the Runge-Kutta steps and convex sets (C30, C31). *)
From Coq Require Import ZArith List Bool Lia Reals Lra.
From Coquelicot Require Import Coquelicot.
From Verif Require Import Err Num NdArray NdArrayP HydroP OdeM SolverM SpecPoly SpecOde PolyP.
Import ListNotations.
Local Open Scope R_scope.

Ltac setb r E :=
  match goal with |- context [bind ?X _] => replace X with r by (symmetry; exact E); cbn [bind] end.
Ltac dsb E :=
  match goal with |- context [bind ?X _] => destruct X as [?x|] eqn:E; cbn [bind]; [|discriminate] end.
Ltac same E E' := let Q := fresh in pose proof (eq_trans (eq_sym E) E') as Q; injection Q as <-.

Section Rk.
Context (q : Z) (n : ix).
Local Notation V := (arr_ops RNum).
Local Notation inb := (inside q n).
Local Notation sh := (shaped q n).

Lemma scale_ok c (u : arr R) : sh u -> sh (vscale V c u) /\ forall v i, at_ (vscale V c u) v i = c * at_ u v i.
Proof. intros [A B]. repeat split; auto. Qed.
Lemma add_ok (u w : arr R) : sh u -> sh w ->
  exists z, vadd V u w = Ok z /\ sh z /\ forall v i, at_ z v i = at_ u v i + at_ w v i.
Proof.
  intros [A B] [A' B'].
  destruct (amap2_is Rplus u w q n (at_ u) (at_ w)) as (z & E & R & S & G); [repeat split; auto..|].
  exists z. repeat split; auto.
Qed.
Lemma axpy_ok c (u w : arr R) : sh u -> sh w ->
  exists z, vadd V u (vscale V c w) = Ok z /\ sh z /\ forall v i, at_ z v i = at_ u v i + c * at_ w v i.
Proof.
  intros A B. destruct (scale_ok c w B) as [S G]. destruct (add_ok u (vscale V c w) A S) as (z & E & Z & H).
  exists z. split; [exact E|split; [exact Z|]]. intros. rewrite H, G. reflexivity.
Qed.
Lemma mid_ok (u w : arr R) : sh u -> sh w ->
  exists z, vadd V (vscale V nhalf u) (vscale V nhalf w) = Ok z /\ sh z /\
    forall v i, at_ z v i = 1/2 * at_ u v i + 1/2 * at_ w v i.
Proof.
  intros A B. destruct (scale_ok nhalf u A) as [S G]. destruct (scale_ok nhalf w B) as [S' G'].
  destruct (add_ok _ _ S S') as (z & E & Z & H). exists z. split; [exact E|split; [exact Z|]].
  intros. rewrite H, G, G'. rewrite nhalf_R. reflexivity.
Qed.

Section Steps.
Context {S : Type} (f : S -> R -> R -> arr R -> res (S * (R * arr R))) (g : R -> state -> state).
Context (Hf : computes q n g f).
Context (Hext : forall t x y, (forall w j, inb w j -> x w j = y w j) -> forall v i, inb v i -> g t x v i = g t y v i).

Ltac fcall s t t' u :=
  let s1 := fresh "s" in let h := fresh "h" in let k := fresh "k" in
  let E := fresh "E" in let Hk := fresh "Hk" in let Gk := fresh "Gk" in
  destruct (Hf s t t' u ltac:(assumption)) as (s1 & h & k & E & Hk & Gk);
  setb (Ok (s1, (h, k))) E; try rewrite E.
Ltac axpy c u w :=
  let z := fresh "z" in let E := fresh "E" in let Hz := fresh "Hz" in let Gz := fresh "Gz" in
  destruct (axpy_ok c u w ltac:(assumption) ltac:(assumption)) as (z & E & Hz & Gz);
  setb (Ok z) E; clear E.

(** what each step computes, in terms of slopes *)
Definition step_is (t dt : R) (u un : state) (i : integrator) : Prop :=
  match i with
  | I_euler => exists k0,
      (forall v j, inb v j -> k0 v j = g t u v j) /\
      (forall v j, inb v j -> un v j = u v j + dt * k0 v j)
  | I_ssprk2 => exists k0 k1,
      (forall v j, inb v j -> k0 v j = g t u v j) /\
      (forall v j, inb v j -> k1 v j = g t (fun w l => u w l + dt * k0 w l) v j) /\
      (forall v j, inb v j -> un v j = u v j + dt / 2 * (k0 v j + k1 v j))
  | I_ssprk3 => exists k0 k1 k2,
      (forall v j, inb v j -> k0 v j = g t u v j) /\
      (forall v j, inb v j -> k1 v j = g (t + dt) (fun w l => u w l + dt * k0 w l) v j) /\
      (forall v j, inb v j -> k2 v j = g (t + dt / 2) (fun w l => u w l + dt / 4 * (k0 w l + k1 w l)) v j) /\
      (forall v j, inb v j -> un v j = u v j + dt / 6 * (k0 v j + k1 v j + 4 * k2 v j))
  | I_rk4 => exists k0 k1 k2 k3,
      (forall v j, inb v j -> k0 v j = g t u v j) /\
      (forall v j, inb v j -> k1 v j = g (t + dt / 2) (fun w l => u w l + dt / 2 * k0 w l) v j) /\
      (forall v j, inb v j -> k2 v j = g (t + dt / 2) (fun w l => u w l + dt / 2 * k1 w l) v j) /\
      (forall v j, inb v j -> k3 v j = g (t + dt) (fun w l => u w l + dt * k2 w l) v j) /\
      (forall v j, inb v j -> un v j = u v j + dt / 6 * (k0 v j + 2 * k1 v j + 2 * k2 v j + k3 v j))
  end.

Lemma half_dt (x : R) : @nhalf RNum * x = x / 2. Proof. rewrite nhalf_R. field. Qed.

Lemma step_ok i s t u target : sh u -> exists s1 h k s' dt un,
  f s t t u = Ok (s1, (h, k)) /\ dt = hit_target RNum t h target /\
  stepper_of RNum V f i s t u target = Ok (s', (dt, un)) /\ sh un /\ step_is t dt (at_ u) (at_ un) i.
Proof.
  intros Hu. destruct i; cbn [stepper_of].
  - unfold euler. fcall s t t u. set (dt := hit_target RNum t h target). axpy dt u k.
    exists s0, h, k, s0, dt, z. repeat split; try apply Hz; auto. exists (at_ k). split; auto.
  - unfold ssprk2. fcall s t t u. set (dt := hit_target RNum t h target). axpy dt u k.
    fcall s0 t t z. axpy dt z k0. destruct (mid_ok u z0 Hu Hz0) as (un & E1 & Hn & Gn).
    setb (Ok un) E1. exists s0, h, k, s1, dt, un. split; [reflexivity|]. split; [reflexivity|].
    split; [reflexivity|]. split; [exact Hn|]. exists (at_ k), (at_ k0). split; [auto|]. split.
    + intros v j Hj. rewrite Gk0 by auto. apply Hext; auto.
    + intros. rewrite Gn, Gz0, Gz. field.
  - unfold ssprk3. fcall s t t u. set (dt := hit_target RNum t h target). axpy dt u k.
    fcall s0 t (t + dt) z. axpy (1 / 4 * dt) u k. axpy (1 / 4 * dt) z0 k0. fcall s1 t (t + @nhalf RNum * dt) z1. destruct (add_ok k k0 Hk Hk0) as (z2 & E2 & Hz2 & Gz2). setb (Ok z2) E2.
    axpy 4 z2 k1. axpy (1 / 6 * dt) u z3.
    exists s0, h, k, s2, dt, z4. split; [reflexivity|]. split; [reflexivity|]. split; [reflexivity|].
    split; [exact Hz4|]. exists (at_ k), (at_ k0), (at_ k1). split; [auto|]. split; [|split].
    + intros v j Hj. rewrite Gk0 by auto. apply Hext; auto.
    + intros v j Hj. rewrite Gk1, half_dt by auto. apply Hext; auto. intros. rewrite Gz1, Gz0. field.
    + intros. rewrite Gz4, Gz3, Gz2. field.
  - unfold rk4. fcall s t t u. set (dt := hit_target RNum t h target).
    axpy (@nhalf RNum * dt) u k. fcall s0 t (t + @nhalf RNum * dt) z. axpy (@nhalf RNum * dt) u k0.
    fcall s1 t (t + @nhalf RNum * dt) z0. axpy dt u k1. fcall s2 t (t + dt) z1.
    axpy 2 k k0. axpy 2 z2 k1. destruct (add_ok z3 k2 ltac:(assumption) ltac:(assumption)) as (z4 & E4 & Hz4 & Gz4).
    setb (Ok z4) E4. axpy (1 / 6 * dt) u z4.
    exists s0, h, k, s3, dt, z5. split; [reflexivity|]. split; [reflexivity|]. split; [reflexivity|].
    split; [exact Hz5|]. exists (at_ k), (at_ k0), (at_ k1), (at_ k2). split; [auto|]. repeat split.
    + intros v j Hj. rewrite Gk0, half_dt by auto. apply Hext; auto. intros. rewrite Gz, half_dt. reflexivity.
    + intros v j Hj. rewrite Gk1, half_dt by auto. apply Hext; auto. intros. rewrite Gz0, half_dt. reflexivity.
    + intros v j Hj. rewrite Gk2 by auto. apply Hext; auto.
    + intros. rewrite Gz5, Gz4, Gz3, Gz2. field.
Qed.
End Steps.

(** ** linear systems *)
Section Linear.
Context (L : state -> state) (HL : linear_map q n L).
Lemma lin x y z a b : (forall w j, inb w j -> z w j = a * x w j + b * y w j) ->
  forall v i, inb v i -> L z v i = a * L x v i + b * L y v i.
Proof. intros H v i Hi. rewrite <- (proj2 HL) by auto. apply (proj1 HL); auto. Qed.
Lemma linx x y z : (forall w j, inb w j -> x w j = y w j) -> (forall w j, inb w j -> z w j = L y w j) ->
  forall v i, inb v i -> L x v i = z v i.
Proof. intros H G v i Hi. rewrite G by auto. apply (proj1 HL); auto. Qed.
Lemma lin1 u k b : forall v i, inb v i ->
  L (fun w j => u w j + b * k w j) v i = L u v i + b * L k v i.
Proof. intros v i Hi. rewrite (lin u k _ 1 b); auto; intros; ring. Qed.

Lemma step_linear i t dt u un : step_is (fun _ => L) t dt u un i ->
  forall v j, inb v j -> un v j = taylor (order i) L dt u v j.
Proof.
  assert (X : forall k c0 c1 c2 c3, (forall w j, inb w j -> k w j =
     c0 * power L 0 u w j + c1 * power L 1 u w j + c2 * power L 2 u w j + c3 * power L 3 u w j) ->
     forall w j, inb w j -> L k w j = c0 * power L 1 u w j + c1 * power L 2 u w j + c2 * power L 3 u w j + c3 * power L 4 u w j).
  { intros k c0 c1 c2 c3 Hk w j Hj.
    rewrite (lin (fun w j => c0 * power L 0 u w j + c1 * power L 1 u w j)
                 (fun w j => c2 * power L 2 u w j + c3 * power L 3 u w j) k 1 1); auto.
    2: { intros. rewrite Hk by auto. ring. }
    rewrite (proj2 HL) by auto. rewrite (proj2 HL) by auto. cbn [power]. ring. }
  destruct i; cbn [step_is order]; unfold taylor.
  - intros (k0 & K0 & Hu) v j Hj. rewrite Hu, K0 by auto. cbn. field.
  - intros (k0 & k1 & K0 & K1 & Hu) v j Hj. rewrite Hu, K0, K1 by auto.
    rewrite (X (fun w l => u w l + dt * k0 w l) 1 dt 0 0); auto. 2: { intros. cbv beta. rewrite K0 by auto. cbn. ring. }
    cbn. field.
  - intros (k0 & k1 & k2 & K0 & K1 & K2 & Hu) v j Hj.
    assert (K1' : forall v j, inb v j -> k1 v j = power L 1 u v j + dt * power L 2 u v j).
    { intros w l Hl. rewrite K1 by auto. rewrite (X _ 1 dt 0 0); auto; [ring|]. intros. cbv beta. rewrite K0 by auto. cbn. ring. }
    rewrite Hu, K0, K1', K2 by auto.
    rewrite (X (fun w l => u w l + dt / 4 * (k0 w l + k1 w l)) 1 (dt/2) (dt*dt/4) 0); auto. 2: { intros. cbv beta. rewrite K0, K1' by auto. cbn. field. }
    cbn. field.
  - intros (k0 & k1 & k2 & k3 & K0 & K1 & K2 & K3 & Hu) v j Hj.
    assert (K1' : forall v j, inb v j -> k1 v j = power L 1 u v j + dt/2 * power L 2 u v j).
    { intros w l Hl. rewrite K1 by auto. rewrite (X _ 1 (dt/2) 0 0); auto; [ring|]. intros. cbv beta. rewrite K0 by auto. cbn. field. }
    assert (K2' : forall v j, inb v j -> k2 v j = power L 1 u v j + dt/2 * power L 2 u v j + dt*dt/4 * power L 3 u v j).
    { intros w l Hl. rewrite K2 by auto. rewrite (X _ 1 (dt/2) (dt*dt/4) 0); auto; [ring|]. intros. cbv beta. rewrite K1' by auto. cbn. field. }
    rewrite Hu, K0, K1', K2', K3 by auto.
    rewrite (X (fun w l => u w l + dt * k2 w l) 1 dt (dt*dt/2) (dt*dt*dt/4)); auto. 2: { intros. cbv beta. rewrite K2' by auto. cbn. field. }
    cbn. field.
Qed.
End Linear.

Lemma linear_step {S} (f : S -> R -> R -> arr R -> res (S * (R * arr R))) L i s t u target :
  linear_map q n L -> computes q n (fun _ => L) f -> sh u ->
  exists s1 h k s' dt un, f s t t u = Ok (s1, (h, k)) /\ dt = hit_target RNum t h target /\
    stepper_of RNum V f i s t u target = Ok (s', (dt, un)) /\ sh un /\
    forall v j, inb v j -> at_ un v j = taylor (order i) L dt (at_ u) v j.
Proof.
  intros HL Hf Hu.
  destruct (step_ok f _ Hf (fun _ => proj1 HL) i s t u target Hu) as (s1 & h & k & s' & dt & un & A & B & C & D & E).
  exists s1, h, k, s', dt, un. repeat (split; [assumption|]). eapply step_linear; eauto.
Qed.

(** ** slopes depending on time only *)
Lemma simpson c a h : (length c <= 4)%nat ->
  RInt (peval c) a (a + h) = h / 6 * (peval c a + 4 * peval c (a + h / 2) + peval c (a + h)).
Proof.
  intros Hc. rewrite (is_RInt_unique _ _ _ _ (peval_int c a (a + h))).
  destruct c as [|c0 [|c1 [|c2 [|c3 [|]]]]]; cbn in Hc; try lia; unfold panti; cbn; field.
Qed.
Lemma constant_int c a h : (length c <= 1)%nat -> RInt (peval c) a (a + h) = h * peval c a.
Proof.
  intros Hc. rewrite (is_RInt_unique _ _ _ _ (peval_int c a (a + h))).
  destruct c as [|c0 [|]]; cbn in Hc; try lia; unfold panti; cbn; field.
Qed.
Lemma RInt_poly (f : R -> R) c a b : (forall x, f x = peval c x) -> RInt f a b = RInt (peval c) a b.
Proof. intros. apply RInt_ext. auto. Qed.

Lemma time_step {S} (f : S -> R -> R -> arr R -> res (S * (R * arr R))) g i s t u target :
  (forall v j, is_poly (time_degree i) (fun t => g t v j)) ->
  computes q n (fun t _ => g t) f -> sh u ->
  exists s1 h k s' dt un, f s t t u = Ok (s1, (h, k)) /\ dt = hit_target RNum t h target /\
    stepper_of RNum V f i s t u target = Ok (s', (dt, un)) /\ sh un /\
    forall v j, inb v j -> at_ un v j = at_ u v j + RInt (fun t => g t v j) t (t + dt).
Proof.
  intros HP Hf Hu.
  destruct (step_ok f _ Hf (fun _ _ _ _ _ _ _ => eq_refl) i s t u target Hu) as (s1 & h & k & s' & dt & un & A & B & C & D & E).
  exists s1, h, k, s', dt, un. repeat (split; [assumption|]). intros v j Hj.
  destruct (HP v j) as (c & Hc & Gc). rewrite (RInt_poly _ c) by auto.
  destruct i; cbn [step_is time_degree] in *.
  - destruct E as (k0 & K0 & Hn). rewrite Hn, K0, Gc, constant_int by auto. rn; ring.
  - destruct E as (k0 & k1 & K0 & K1 & Hn). rewrite Hn, K0, K1, Gc, constant_int by auto. rn; field.
  - destruct E as (k0 & k1 & k2 & K0 & K1 & K2 & Hn). rewrite Hn, K0, K1, K2, !Gc, simpson by auto. rn; field.
  - destruct E as (k0 & k1 & k2 & k3 & K0 & K1 & K2 & K3 & Hn). rewrite Hn, K0, K1, K2, K3, !Gc, simpson by auto. rn; field.
Qed.

(** ** convex sets *)
Section Convex.
Context {S : Type} (f : S -> R -> R -> arr R -> res (S * (R * arr R))) (C : arr R -> Prop) (dt : R).
Context (A : S -> Prop) (HC : convex_set q n C).
Context (HE : forall s t t' u s' h k, A s -> C u -> f s t t' u = Ok (s', (h, k)) ->
  A s' /\ sh k /\ forall z, sh z -> (forall v i, inb v i -> at_ z v i = at_ u v i + dt * at_ k v i) -> C z).

Lemma step_convex_inv i s t u target s' un : i = I_euler \/ i = I_ssprk2 \/ i = I_ssprk3 ->
  A s -> C u -> stepper_of RNum V f i s t u target = Ok (s', (dt, un)) -> A s' /\ C un.
Proof.
  intros Hi As Cu. pose proof (proj1 HC u Cu) as Hu.
  assert (Hone : forall z (z' : arr R), C z -> sh z' -> (forall v i, inb v i -> at_ z' v i = at_ z v i) -> C z').
  { intros z z' Cz Sz G. apply (proj2 HC z z z' 1); auto; [lra|]. intros. rewrite G by auto. ring. }
  destruct Hi as [->|[->| ->]]; cbn [stepper_of].
  - unfold euler. destruct (f s t t u) as [[s1 [h k]]|] eqn:E; cbn [bind]; [|discriminate].
    destruct (HE _ _ _ _ _ _ _ As Cu E) as (As1 & Hk & St).
    destruct (axpy_ok (hit_target RNum t h target) u k Hu Hk) as (z & Ez & Hz & Gz). rewrite Ez. cbn [bind].
    intros [= <- Ed <-]. rewrite Ed in Gz. split; [exact As1|]. apply St; auto.
  - unfold ssprk2. destruct (f s t t u) as [[s1 [h k]]|] eqn:E; cbn [bind]; [|discriminate].
    destruct (HE _ _ _ _ _ _ _ As Cu E) as (As1 & Hk & St).
    set (d := hit_target RNum t h target).
    destruct (axpy_ok d u k Hu Hk) as (z & Ez & Hz & Gz). rewrite Ez. cbn [bind].
    destruct (f s1 t t z) as [[s2 [h2 k2]]|] eqn:E2; cbn [bind]; [|discriminate].
    destruct (vadd V z (vscale V d k2)) as [a|] eqn:Ea; cbn [bind]; [|discriminate].
    destruct (vadd V (vscale V nhalf u) (vscale V nhalf a)) as [un'|] eqn:Eu; cbn [bind]; [|discriminate].
    intros [= <- Ed <-]. rewrite Ed in *.
    assert (Cz : C z) by (apply St; auto).
    destruct (HE _ _ _ _ _ _ _ As1 Cz E2) as (As2 & Hk2 & St2).
    destruct (axpy_ok dt z k2 Hz Hk2) as (a' & Ea' & Ha & Ga). rewrite Ea' in Ea. injection Ea as ->.
    assert (Ca : C a) by (apply St2; auto).
    destruct (mid_ok u a Hu Ha) as (w & Ew & Hw & Gw). rewrite Ew in Eu. injection Eu as ->.
    split; [exact As2|]. apply (proj2 HC u a un' (1/2)); auto; [lra|]. intros. rewrite Gw. field.
  - unfold ssprk3. destruct (f s t t u) as [[s1 [h k]]|] eqn:E; cbn [bind]; [|discriminate].
    destruct (HE _ _ _ _ _ _ _ As Cu E) as (As1 & Hk & St).
    set (d := hit_target RNum t h target).
    destruct (axpy_ok d u k Hu Hk) as (z & Ez & Hz & Gz). setb (Ok z) Ez.
    dsb E2. destruct x as [s2 [h2 k2]].
    destruct (axpy_ok (1/4*d) u k Hu Hk) as (b & Eb & Hb & Gb). setb (Ok b) Eb.
    dsb Eb'. dsb E3. destruct x0 as [s3 [h3 k3]]. dsb Em. dsb Em'. dsb Eu.
    intros [= <- Ed <-].
    assert (Cz : C z). { apply St; auto. intros. rewrite Gz, Ed. reflexivity. }
    destruct (HE _ _ _ _ _ _ _ As1 Cz E2) as (As2 & Hk2 & St2).
    destruct (axpy_ok dt z k2 Hz Hk2) as (e1 & _ & He1 & Ge1).
    assert (C1 : C e1) by (apply St2; auto).
    destruct (axpy_ok (1/4*d) b k2 Hb Hk2) as (b2 & Eb2 & Hb2 & Gb2). same Eb2 Eb'.
    assert (Cb : C b2). { apply (proj2 HC u e1 b2 (3/4)); auto; [lra|]. intros. rewrite Gb2, Gb, Ge1, Gz, Ed. field. }
    destruct (HE _ _ _ _ _ _ _ As2 Cb E3) as (As3 & Hk3 & St3).
    destruct (axpy_ok dt b2 k3 Hb2 Hk3) as (e2 & _ & He2 & Ge2).
    assert (C2 : C e2) by (apply St3; auto).
    destruct (add_ok k k2 Hk Hk2) as (m2 & Em2 & Hm2 & Gm2). same Em2 Em.
    destruct (axpy_ok 4 m2 k3 Hm2 Hk3) as (m3 & Em3 & Hm3 & Gm3). same Em3 Em'.
    destruct (axpy_ok (1/6*d) u m3 Hu Hm3) as (w & Ew & Hw & Gw). same Ew Eu.
    split; [exact As3|]. apply (proj2 HC u e2 w (1/3)); auto; [lra|].
    intros. rewrite Gw, Gm3, Gm2, Ge2, Gb2, Gb, Ed. field.
Qed.
End Convex.
Lemma step_convex {S : Type} (f : S -> R -> R -> arr R -> res (S * (R * arr R))) (C : arr R -> Prop) (dt : R) :
  convex_set q n C -> euler_stays q n C dt f ->
  forall i s t u target s' un, i = I_euler \/ i = I_ssprk2 \/ i = I_ssprk3 ->
  C u -> stepper_of RNum V f i s t u target = Ok (s', (dt, un)) -> C un.
Proof.
  intros HC HE i s t u target s' un Hi Cu H.
  apply (step_convex_inv f C dt (fun _ => True) HC) in H; auto; [apply H|].
  intros s0 t0 t0' u0 s0' h k _ Cu0 E. split; [exact Logic.I|]. exact (HE _ _ _ _ _ _ _ Cu0 E).
Qed.
End Rk.

(** ** ssprk2 with a slope depending on time; examples *)
Definition slope_t (s : unit) (_ t : R) (u : arr R) : res (unit * (R * arr R)) :=
  Ok (s, (1, mkarr 1 (mkix 1 1 1) (fun _ _ => t))).
Lemma slope_t_computes : computes 1 (mkix 1 1 1) (fun t _ _ _ => t) slope_t.
Proof. intros s t t' u [R S]. exists s, 1. eexists. split; [reflexivity|]. split; [split; reflexivity|]. reflexivity. Qed.
Lemma ssprk2_misses : exists s' un,
  stepper_of RNum (arr_ops RNum) slope_t I_ssprk2 tt 0 (mkarr 1 (mkix 1 1 1) (fun _ _ => 0)) None = Ok (s', (1, un)) /\
  at_ un 0%Z (mkix 0 0 0) = 0 /\ 0 + RInt (fun t => t) 0 (0 + 1) = 1 / 2.
Proof.
  assert (H := step_ok 1 (mkix 1 1 1) slope_t _ slope_t_computes (fun _ _ _ _ _ _ _ => eq_refl) I_ssprk2 tt 0
     (mkarr 1 (mkix 1 1 1) (fun _ _ => 0)) None (conj eq_refl eq_refl)).
  destruct H as (s1 & h & k & s' & dt & un & A & B & C & D & (k0 & k1 & K0 & K1 & Hu)).
  injection A as _ <- _. cbn [hit_target] in B. subst dt. exists s', un. split; [exact C|].
  assert (I0 : inside 1 (mkix 1 1 1) 0 (mkix 0 0 0)) by (split; [lia|intros []; cbn; lia]). split.
  - rewrite Hu, K0, K1 by auto. cbn. field.
  - rewrite (RInt_poly _ [0; 1] 0 (0 + 1)) by (intros; cbn; ring). rewrite simpson by (cbn; lia). cbn. field.
Qed.

Definition swap (x : state) : state := fun v i => x (1 - v)%Z i.
Lemma swap_linear n : linear_map 2 n swap.
Proof.
  split; [|reflexivity]. intros x y H v i [Hv Hi]. unfold swap. apply H. split; [lia|auto].
Qed.
Definition swap_f (s : unit) (_ _ : R) (u : arr R) : res (unit * (R * arr R)) :=
  Ok (s, (1 / 2, mkarr (rows u) (shp u) (swap (at_ u)))).
Lemma swap_computes n : computes 2 n (fun _ => swap) swap_f.
Proof. intros s t t' u [R S]. exists s, (1/2). eexists. split; [reflexivity|]. split; [split; assumption|]. reflexivity. Qed.

(** du/dt = -u stays between 0 and 1 *)
Definition decay (s : unit) (_ _ : R) (u : arr R) : res (unit * (R * arr R)) :=
  Ok (s, (1 / 2, mkarr (rows u) (shp u) (fun v i => - at_ u v i))).
Definition unit_box (q : Z) (n : ix) (u : arr R) : Prop :=
  shaped q n u /\ forall v i, inside q n v i -> 0 <= at_ u v i <= 1.
Lemma unit_box_convex q n : convex_set q n (unit_box q n).
Proof.
  split; [intros u [H _]; exact H|]. intros u w z a [_ U] [_ W] A S G. split; auto.
  intros v i Hi. rewrite G by auto. specialize (U v i Hi). specialize (W v i Hi). nra.
Qed.
Lemma decay_stays q n : euler_stays q n (unit_box q n) (1 / 2) decay.
Proof.
  intros s t t' u s' h k [[R S] U] [= <- <- <-]. split; [split; assumption|].
  intros z Sz G. split; auto. intros v i Hi. rewrite G by auto. cbn. specialize (U v i Hi). lra.
Qed.
