(** Polynomials and their averages. *)
From Coq Require Import ZArith List Reals Lra Lia.
From Coquelicot Require Import Coquelicot.
From Verif Require Import SpecPoly.
Import ListNotations.
Local Open Scope R_scope.

Ltac eqR := match goal with |- @eq _ ?a ?b => change (@eq R a b) end.

(** ** coefficient arithmetic *)
Fixpoint padd (c d : list R) : list R :=
  match c, d with
  | [], _ => d
  | _, [] => c
  | a :: c', b :: d' => (a + b) :: padd c' d'
  end.
Lemma padd_eval c : forall d x, peval (padd c d) x = peval c x + peval d x.
Proof. induction c as [|a c IH]; intros [|b d] x; simpl; try lra. rewrite IH. lra. Qed.
Lemma padd_len c : forall d n, (length c <= n)%nat -> (length d <= n)%nat -> (length (padd c d) <= n)%nat.
Proof.
  induction c as [|a c IH]; intros [|b d] n; simpl; auto.
  destruct n as [|n]; [lia|]. intros. specialize (IH d n). lia.
Qed.
Lemma pscale_eval k c x : peval (map (Rmult k) c) x = k * peval c x.
Proof. induction c as [|a c IH]; simpl; [lra|]. rewrite IH. lra. Qed.

(** P (X + h s) as a polynomial in s *)
Fixpoint pcomp (X h : R) (c : list R) : list R :=
  match c with
  | [] => []
  | a :: c' => let d := pcomp X h c' in padd [a] (padd (map (Rmult X) d) (0 :: map (Rmult h) d))
  end.
Lemma pcomp_eval X h c s : peval (pcomp X h c) s = peval c (X + h * s).
Proof.
  induction c as [|a c IH]; [reflexivity|].
  cbn [pcomp peval]. cbv zeta. rewrite !padd_eval. cbn [peval]. rewrite !pscale_eval, IH. ring.
Qed.
Lemma pcomp_len X h c : (length (pcomp X h c) <= length c)%nat.
Proof.
  induction c as [|a c IH]; auto. cbn [pcomp length]. apply padd_len; [simpl; lia|].
  apply padd_len; simpl; rewrite map_length; lia.
Qed.

(** ** antiderivative *)
Fixpoint pint_from (n : nat) (c : list R) : list R :=
  match c with [] => [] | a :: c' => (a / INR (S n)) :: pint_from (S n) c' end.
Definition panti (c : list R) (x : R) : R := x * peval (pint_from 0 c) x.

Lemma pint_from_derive c : forall n x,
  is_derive (fun x => x ^ (S n) * peval (pint_from n c) x) x (x ^ n * peval c x).
Proof.
  induction c as [|a c IH]; intros n x.
  - cbn [pint_from peval]. apply (is_derive_ext (fun _ => 0)). intros; eqR; lra.
    rewrite Rmult_0_r. apply @is_derive_const.
  - cbn [pint_from peval].
    apply (is_derive_ext (fun t => a / INR (S n) * t ^ (S n) + t ^ (S (S n)) * peval (pint_from (S n) c) t)).
    { intros t. cbn [pow]. eqR. ring. }
    replace (x ^ n * (a + x * peval c x)) with (a * x ^ n + x ^ (S n) * peval c x) by (cbn [pow]; ring).
    apply @is_derive_plus; [|apply IH].
    assert (H : INR (S n) <> 0) by (apply not_0_INR; lia).
    replace (a * x ^ n) with (a / INR (S n) * (INR (S n) * 1 * x ^ n)) by (field; auto).
    apply (is_derive_scal (fun t => t ^ (S n))).
    apply (is_derive_pow (fun t => t) (S n) x 1). apply @is_derive_id.
Qed.
Lemma panti_derive c x : is_derive (panti c) x (peval c x).
Proof.
  pose proof (pint_from_derive c 0 x) as H. rewrite pow_O, Rmult_1_l in H.
  eapply is_derive_ext; [|exact H]. intro t. unfold panti. simpl. eqR. ring.
Qed.
Lemma peval_continuous c x : continuous (peval c) x.
Proof.
  induction c as [|a c IH]; [apply continuous_const|].
  apply (continuous_plus (fun _ => a) (fun x => x * peval c x)); [apply continuous_const|].
  apply (continuous_mult (fun x => x) (peval c)); [apply continuous_id|exact IH].
Qed.
Lemma peval_int c a b : is_RInt (peval c) a b (panti c b - panti c a).
Proof.
  apply (is_RInt_derive (panti c) (peval c)).
  - intros x _. apply panti_derive.
  - intros x _. apply peval_continuous.
Qed.

(** average over a cell of unit width centred at k *)
Definition uavg (c : list R) (k : R) : R := panti c (k + 1/2) - panti c (k - 1/2).

Lemma average_poly c X h k : h <> 0 ->
  average (peval c) (X + h * k) h = uavg (pcomp X h c) k.
Proof.
  intro Hh. unfold average, uavg.
  assert (E : is_RInt (peval c) (X + h * k - h / 2) (X + h * k + h / 2)
               (h * (panti (pcomp X h c) (k + 1/2) - panti (pcomp X h c) (k - 1/2)))).
  { set (d := pcomp X h c).
    pose proof (peval_int d (k - 1/2) (k + 1/2)) as I.
    pose proof (is_RInt_comp_lin (peval c) h X (k - 1/2) (k + 1/2)) as L.
    replace (h * (k - 1/2) + X) with (X + h * k - h / 2) in L by field.
    replace (h * (k + 1/2) + X) with (X + h * k + h / 2) in L by field.
    pose proof (peval_int c (X + h * k - h / 2) (X + h * k + h / 2)) as J.
    specialize (L _ J).
    assert (I' : is_RInt (fun y => scal h (peval c (h * y + X))) (k - 1/2) (k + 1/2)
                   (h * (panti d (k + 1/2) - panti d (k - 1/2)))).
    { apply (is_RInt_ext (fun y => scal h (peval d y))).
      - intros y _. unfold d. rewrite pcomp_eval. f_equal. f_equal. ring.
      - apply (is_RInt_scal (peval d) _ _ h _ I). }
    pose proof (is_RInt_unique _ _ _ _ I') as U1. pose proof (is_RInt_unique _ _ _ _ L) as U2.
    assert (Q : panti c (X + h * k + h / 2) - panti c (X + h * k - h / 2)
                = h * (panti d (k + 1/2) - panti d (k - 1/2)))
      by (etransitivity; [symmetry; exact U2|exact U1]).
    rewrite <- Q. exact J. }
  rewrite (is_RInt_unique _ _ _ _ E). field. exact Hh.
Qed.

(** ** closure properties *)
Lemma is_poly_const n k : is_poly n (fun _ => k).
Proof. exists [k]. split; [simpl; lia|]. intro; simpl; lra. Qed.
Lemma is_poly_plus n f g : is_poly n f -> is_poly n g -> is_poly n (fun x => f x + g x).
Proof.
  intros (c & Hc & Ec) (d & Hd & Ed). exists (padd c d). split; [apply padd_len; auto|].
  intro x. rewrite padd_eval, Ec, Ed. reflexivity.
Qed.
Lemma is_poly_scal n k f : is_poly n f -> is_poly n (fun x => k * f x).
Proof.
  intros (c & Hc & Ec). exists (map (Rmult k) c). split; [rewrite map_length; auto|].
  intro x. rewrite pscale_eval, Ec. reflexivity.
Qed.
Lemma is_poly_ext n f g : (forall x, f x = g x) -> is_poly n f -> is_poly n g.
Proof. intros H (c & Hc & Ec). exists c. split; auto. intro; rewrite <- H; auto. Qed.
Lemma is_poly_pow n a : (a <= n)%nat -> is_poly n (fun x => x ^ a).
Proof.
  intro H. exists (repeat 0 a ++ [1]). split; [rewrite app_length, repeat_length; simpl; lia|].
  intro x. clear H. induction a as [|a IH]; simpl; [lra|]. rewrite <- IH. lra.
Qed.

Lemma average_ext f g x h : (forall t, f t = g t) -> average f x h = average g x h.
Proof. intro H. unfold average. f_equal. apply RInt_ext. intros; apply H. Qed.

(** ** three variables *)
Lemma poly3_x nx ny nz l y z : degree3 nx ny nz l -> is_poly nx (fun x => peval3 l x y z).
Proof.
  induction 1 as [|t l Ht _ IH]; [exact (is_poly_const _ 0)|].
  cbn [peval3]. apply is_poly_plus; auto. destruct t as (k & (a & b) & c). destruct Ht as (Ha & _).
  cbn [tval]. apply (is_poly_ext _ (fun x => (k * y ^ b * z ^ c) * x ^ a)); [intro; cbv beta; first [reflexivity|ring]|].
  apply is_poly_scal, is_poly_pow; auto.
Qed.
Lemma poly3_y nx ny nz l x z : degree3 nx ny nz l -> is_poly ny (fun y => peval3 l x y z).
Proof.
  induction 1 as [|t l Ht _ IH]; [exact (is_poly_const _ 0)|].
  cbn [peval3]. apply is_poly_plus; auto. destruct t as (k & (a & b) & c). destruct Ht as (_ & Ha & _).
  cbn [tval]. apply (is_poly_ext _ (fun y => (k * x ^ a * z ^ c) * y ^ b)); [intro; cbv beta; first [reflexivity|ring]|].
  apply is_poly_scal, is_poly_pow; auto.
Qed.
Lemma poly3_z nx ny nz l x y : degree3 nx ny nz l -> is_poly nz (fun z => peval3 l x y z).
Proof.
  induction 1 as [|t l Ht _ IH]; [exact (is_poly_const _ 0)|].
  cbn [peval3]. apply is_poly_plus; auto. destruct t as (k & (a & b) & c). destruct Ht as (_ & _ & Ha).
  cbn [tval]. apply (is_poly_ext _ (fun z => (k * x ^ a * y ^ b) * z ^ c)); [intro; cbv beta; first [reflexivity|ring]|].
  apply is_poly_scal, is_poly_pow; auto.
Qed.

(** averages of the monomials *)
Definition mavg (e : nat) (x h : R) : R := average (fun t => t ^ e) x h.

Lemma pow_integrable e a b : ex_RInt (fun t => t ^ e) a b.
Proof.
  apply (ex_RInt_continuous (V := R_CompleteNormedModule)). intros z _.
  apply continuity_pt_filterlim, derivable_continuous_pt, derivable_pt_pow.
Qed.
Lemma average_plus f g x h :
  ex_RInt f (x - h/2) (x + h/2) -> ex_RInt g (x - h/2) (x + h/2) ->
  average (fun t => f t + g t) x h = average f x h + average g x h.
Proof.
  intros Hf Hg. unfold average.
  rewrite (RInt_plus f g) by auto. unfold plus; simpl. unfold Rdiv. ring.
Qed.
Lemma average_scal k f x h :
  ex_RInt f (x - h/2) (x + h/2) -> average (fun t => k * f t) x h = k * average f x h.
Proof.
  intros Hf. unfold average. rewrite (RInt_scal f) by auto. unfold scal; simpl; unfold mult; simpl.
  unfold Rdiv. ring.
Qed.
Lemma poly_integrable n f a b : is_poly n f -> ex_RInt f a b.
Proof.
  intros (c & _ & E). apply (ex_RInt_ext (peval c)); [intros; symmetry; apply E|].
  eexists. apply peval_int.
Qed.

Definition avg_z (z h : R) (t : mono) : mono :=
  let '(k, (a, b, c)) := t in (k * mavg c z h, (a, b, 0%nat)).
Definition avg_y (y h : R) (t : mono) : mono :=
  let '(k, (a, b, c)) := t in (k * mavg b y h, (a, 0%nat, c)).
Definition avg_x (x h : R) (t : mono) : mono :=
  let '(k, (a, b, c)) := t in (k * mavg a x h, (0%nat, b, c)).

Lemma degree3_max l : exists n, degree3 n n n l.
Proof.
  induction l as [|[k [[a b] c]] l [n IH]]; [exists 0%nat; constructor|].
  exists (n + a + b + c)%nat. constructor; [lia|].
  eapply Forall_impl; [|exact IH]. intros [? [[? ?] ?]]. lia.
Qed.

Lemma average_z l x y z h z0 :
  average (fun t => peval3 l x y t) z h = peval3 (map (avg_z z h) l) x y z0.
Proof.
  induction l as [|t l IH].
  - cbn. unfold average. rewrite RInt_const. unfold scal; simpl; unfold mult; simpl. unfold Rdiv; ring.
  - destruct (degree3_max (t :: l)) as [n D]. inversion D as [|? ? Dt Dl]; subst.
    cbn [peval3 map].
    rewrite (average_plus (fun t0 => tval t x y t0) (fun t0 => peval3 l x y t0)); [rewrite IH|..].
    + f_equal. destruct t as (k & (a & b) & c). cbn [tval avg_z].
      etransitivity; [apply (average_ext _ (fun t => (k * x ^ a * y ^ b) * t ^ c)); intro; cbv beta; first [reflexivity|ring]|].
      rewrite average_scal by apply pow_integrable. unfold mavg. cbn [pow]. ring.
    + pose proof (poly3_z n n n [t] x y ltac:(constructor; auto; constructor)) as P.
      apply (poly_integrable n). eapply is_poly_ext; [|exact P]. intro; simpl; ring.
    + apply (poly_integrable n), (poly3_z n n n); auto.
Qed.
Lemma average_y l x y z h y0 :
  average (fun t => peval3 l x t z) y h = peval3 (map (avg_y y h) l) x y0 z.
Proof.
  induction l as [|t l IH].
  - cbn. unfold average. rewrite RInt_const. unfold scal; simpl; unfold mult; simpl. unfold Rdiv; ring.
  - destruct (degree3_max (t :: l)) as [n D]. inversion D as [|? ? Dt Dl]; subst.
    cbn [peval3 map].
    rewrite (average_plus (fun t0 => tval t x t0 z) (fun t0 => peval3 l x t0 z)); [rewrite IH|..].
    + f_equal. destruct t as (k & (a & b) & c). cbn [tval avg_y].
      etransitivity; [apply (average_ext _ (fun t => (k * x ^ a * z ^ c) * t ^ b)); intro; cbv beta; first [reflexivity|ring]|].
      rewrite average_scal by apply pow_integrable. unfold mavg. cbn [pow]. ring.
    + pose proof (poly3_y n n n [t] x z ltac:(constructor; auto; constructor)) as P.
      apply (poly_integrable n). eapply is_poly_ext; [|exact P]. intro; simpl; ring.
    + apply (poly_integrable n), (poly3_y n n n); auto.
Qed.
Lemma average_x l x y z h x0 :
  average (fun t => peval3 l t y z) x h = peval3 (map (avg_x x h) l) x0 y z.
Proof.
  induction l as [|t l IH].
  - cbn. unfold average. rewrite RInt_const. unfold scal; simpl; unfold mult; simpl. unfold Rdiv; ring.
  - destruct (degree3_max (t :: l)) as [n D]. inversion D as [|? ? Dt Dl]; subst.
    cbn [peval3 map].
    rewrite (average_plus (fun t0 => tval t t0 y z) (fun t0 => peval3 l t0 y z)); [rewrite IH|..].
    + f_equal. destruct t as (k & (a & b) & c). cbn [tval avg_x].
      etransitivity; [apply (average_ext _ (fun t => (k * y ^ b * z ^ c) * t ^ a)); intro; cbv beta; first [reflexivity|ring]|].
      rewrite average_scal by apply pow_integrable. unfold mavg. cbn [pow]. ring.
    + pose proof (poly3_x n n n [t] y z ltac:(constructor; auto; constructor)) as P.
      apply (poly_integrable n). eapply is_poly_ext; [|exact P]. intro; simpl; ring.
    + apply (poly_integrable n), (poly3_x n n n); auto.
Qed.
Lemma degree3_avg_z nx ny nz l z h : degree3 nx ny nz l -> degree3 nx ny 0 (map (avg_z z h) l).
Proof.
  induction 1 as [|t l Ht _ IH]; constructor; auto. destruct t as (k & (a & b) & c). cbn in *. lia.
Qed.
Lemma degree3_avg_y nx ny nz l z h : degree3 nx ny nz l -> degree3 nx 0 nz (map (avg_y z h) l).
Proof.
  induction 1 as [|t l Ht _ IH]; constructor; auto. destruct t as (k & (a & b) & c). cbn in *. lia.
Qed.
Lemma degree3_avg_x nx ny nz l z h : degree3 nx ny nz l -> degree3 0 ny nz (map (avg_x z h) l).
Proof.
  induction 1 as [|t l Ht _ IH]; constructor; auto. destruct t as (k & (a & b) & c). cbn in *. lia.
Qed.
Lemma degree3_weaken nx ny nz mx my mz l :
  (nx <= mx)%nat -> (ny <= my)%nat -> (nz <= mz)%nat -> degree3 nx ny nz l -> degree3 mx my mz l.
Proof.
  intros Hx Hy Hz. apply Forall_impl. intros [k [[a b] c]]. lia.
Qed.
