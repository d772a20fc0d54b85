(** Local, translation-equivariant operators on fields, and the solver's stages as such
    operators. *)
From Coq Require Import ZArith List Bool Lia.
From Verif Require Import Err Num PySlice NdArray NdArrayP HydroM RiemannM StencilsM FvM FvP
  SedM LimitM SolverM SpecBc.
Import ListNotations.
Open Scope Z_scope.

Section Op.
Context (N : Num).
Local Notation K := (car N).
Definition field := Z -> ix -> K.

Definition zero3 : ix := mkix 0 0 0.
Definition unit3 (a : axis) : ix := setc a 1 zero3.
Definition neg3 (s : ix) : ix := mkix (- cx s) (- cy s) (- cz s).
Definition shiftf (s : ix) (f : field) : field := fun v i => f v (shift s i).

Lemma shift_shift s t i : shift s (shift t i) = shift (shift s t) i.
Proof. unfold shift. cbn [cx cy cz]. f_equal; lia. Qed.
Lemma shift_comm s t : shift s t = shift t s.
Proof. unfold shift. f_equal; lia. Qed.
Lemma shift_zero i : shift zero3 i = i.
Proof. unfold shift, zero3. destruct i; cbn [NdArray.cx NdArray.cy NdArray.cz]; f_equal; lia. Qed.
Lemma shift_neg s i : shift (neg3 s) (shift s i) = i.
Proof. unfold shift, neg3. destruct i; cbn [NdArray.cx NdArray.cy NdArray.cz]; f_equal; lia. Qed.
Lemma shift_pos s i : shift s (shift (neg3 s) i) = i.
Proof. unfold shift, neg3. destruct i; cbn [NdArray.cx NdArray.cy NdArray.cz]; f_equal; lia. Qed.
Lemma getc_shift' a s i : getc a (shift s i) = getc a i + getc a s.
Proof. destruct a; reflexivity. Qed.
Lemma setc_shift' a z s i : setc a z (shift s i) = shift s (setc a (z - getc a s) i).
Proof. destruct a; unfold shift; cbn [setc getc cx cy cz]; f_equal; lia. Qed.
Lemma getc_zero a : getc a zero3 = 0.
Proof. destruct a; reflexivity. Qed.
Lemma getc_unit a b : getc a (unit3 b) = if axis_eqb a b then 1 else 0.
Proof. destruct a, b; reflexivity. Qed.
Lemma getc_neg a s : getc a (neg3 s) = - getc a s.
Proof. destruct a; reflexivity. Qed.

(** [T] reads at most [r] cells upwards of the output index, and commutes with shifts *)
Definition near (r i j : ix) : Prop := forall a, getc a i <= getc a j <= getc a i + getc a r.
Record op_ok (T : field -> field) (r : ix) : Prop := {
  op_local : forall f g v i,
    (forall w j, near r i j -> f w j = g w j) -> T f v i = T g v i;
  op_shift : forall s f v i, T (shiftf s f) v i = T f v (shift s i);
  op_reach : forall a, 0 <= getc a r
}.

Lemma op_weaken T r r' : op_ok T r -> (forall a, getc a r <= getc a r') -> op_ok T r'.
Proof.
  intros [L S R] H. split; auto.
  - intros f g v i E. apply L. intros w j Hj. apply E. intro a. specialize (Hj a). specialize (H a). lia.
  - intro a. specialize (R a). specialize (H a). lia.
Qed.
Lemma op_comp T r S s : op_ok T r -> op_ok S s -> op_ok (fun f => T (S f)) (shift r s).
Proof.
  intros [LT ST RT] [LS SS RS]. split.
  - intros f g v i H. apply LT. intros w j Hj. apply LS. intros w' j' Hj'. apply H.
    intro a. specialize (Hj a). specialize (Hj' a). rewrite getc_shift'. lia.
  - intros d f v i. rewrite <- ST. apply LT. intros w j _. unfold shiftf. apply SS.
  - intro a. rewrite getc_shift'. specialize (RT a). specialize (RS a). lia.
Qed.
Lemma op_id : op_ok (fun f => f) zero3.
Proof.
  split; [|reflexivity|intro; rewrite getc_zero; lia].
  intros f g v i H. apply H. intro a. rewrite getc_zero. lia.
Qed.
Lemma op_psweep a ws k : Z.of_nat (length ws) = k + 1 -> 0 <= k -> op_ok (psweep N a ws) (setc a k zero3).
Proof.
  intros L K0. split.
  - intros f g v i H. apply psweep_ext. intros j Hj. apply H. intro b.
    destruct (axis_dec a b) as [<-|E].
    + rewrite !getc_setc_eq. lia.
    + rewrite !getc_setc_ne, getc_zero by auto. lia.
  - intros s f v i. unfold psweep, shiftf. apply wsum_ext. intros j _.
    rewrite setc_shift'. rewrite getc_shift'. do 3 f_equal. lia.
  - intro b. destruct (axis_dec a b) as [<-|E].
    + rewrite getc_setc_eq. lia.
    + rewrite getc_setc_ne, getc_zero by auto. lia.
Qed.
(** transformation of whole cells *)
Definition pcell (F : (Z -> K) -> Z -> K) (f : field) : field := fun v i => F (fun w => f w i) v.
(** the cell function looks at finitely many values only through the function it is given *)
Definition cellwise (F : (Z -> K) -> Z -> K) : Prop :=
  forall x y v, (forall w, x w = y w) -> F x v = F y v.
Lemma op_pcell F : cellwise F -> op_ok (pcell F) zero3.
Proof.
  intro C. split.
  - intros f g v i H. apply C. intro w. apply H. intro a. rewrite getc_zero. lia.
  - reflexivity.
  - intro; rewrite getc_zero; lia.
Qed.
(** Riemann solver between the two traces at each face *)
Definition cellwise2 (F : (Z -> K) -> (Z -> K) -> Z -> K) : Prop :=
  forall x y x' y' v, (forall w, x w = x' w) -> (forall w, y w = y' w) -> F x y v = F x' y' v.
Definition pface (d : axis) (F : (Z -> K) -> (Z -> K) -> Z -> K) (R L : field) : field :=
  fun v i => F (fun w => R w i) (fun w => L w (setc d (getc d i + 1) i)) v.
Lemma op_pface d F R L r : cellwise2 F -> op_ok R r -> op_ok L r ->
  op_ok (fun f => pface d F (R f) (L f)) (shift r (unit3 d)).
Proof.
  intros C [LR SR RR] [LL SL RL]. split.
  - intros f g v i H. apply C; intro w.
    + apply LR. intros w' j Hj. apply H. intro a. specialize (Hj a).
      rewrite getc_shift', getc_unit. destruct (axis_eqb a d); lia.
    + apply LL. intros w' j Hj. apply H. intro a. specialize (Hj a).
      rewrite getc_shift', getc_unit. destruct (axis_dec d a) as [<-|E].
      * rewrite getc_setc_eq in Hj. rewrite axis_eqb_refl. lia.
      * rewrite getc_setc_ne in Hj by auto.
        replace (axis_eqb a d) with false by (symmetry; apply axis_eqb_neq; auto). lia.
  - intros s f v i. apply C; intro w.
    + apply SR.
    + rewrite SL. f_equal. rewrite setc_shift', getc_shift'. f_equal. f_equal. lia.
  - intro a. rewrite getc_shift', getc_unit. specialize (RR a). destruct (axis_eqb a d); lia.
Qed.
(** pointwise combination of three consecutive cells *)
Definition p3 (d : axis) (F : K -> K -> K -> K) (f : field) : field :=
  fun v i => F (f v i) (f v (setc d (getc d i + 1) i)) (f v (setc d (getc d i + 2) i)).
Lemma op_p3 d F : op_ok (p3 d F) (setc d 2 zero3).
Proof.
  split.
  - intros f g v i H. unfold p3.
    f_equal; apply H; intro a; (destruct (axis_dec d a) as [<-|E];
      [rewrite ?getc_setc_eq; lia|rewrite ?getc_setc_ne, ?getc_zero by auto; lia]).
  - intros s f v i. unfold p3, shiftf. rewrite !setc_shift', !getc_shift'.
    do 3 f_equal; f_equal; lia.
  - intro a. destruct (axis_dec d a) as [<-|E];
      [rewrite ?getc_setc_eq; lia|rewrite ?getc_setc_ne, ?getc_zero by auto; lia].
Qed.

(** ** cell functions of the model *)
Lemma cellwise_prim g : cellwise (compute_primitives N g).
Proof.
  intros x y v H. unfold compute_primitives, sum3.
  repeat rewrite H. reflexivity.
Qed.
Lemma cellwise_cons g : cellwise (compute_conservatives N g).
Proof.
  intros x y v H. unfold compute_conservatives, sum3.
  repeat rewrite H. reflexivity.
Qed.
Lemma sound_ext g c x y : (forall w, x w = y w) -> compute_sound_speed N g c x = compute_sound_speed N g c y.
Proof. intro H. unfold compute_sound_speed. rewrite !H. reflexivity. Qed.
Lemma flux_ext d ip x y x' y' v : (forall w, x w = x' w) -> (forall w, y w = y' w) ->
  compute_fluxes N d ip x y v = compute_fluxes N d ip x' y' v.
Proof. intros H H'. unfold compute_fluxes. rewrite !H, !H'. reflexivity. Qed.
Lemma cellwise_riemann rs g c d : cellwise2 (riemann N rs g c d).
Proof.
  intros x y x' y' v H H'.
  assert (F : forall ip, compute_fluxes N d ip x (compute_conservatives N g x) v
                       = compute_fluxes N d ip x' (compute_conservatives N g x') v)
    by (intro; apply flux_ext; auto; intro; apply cellwise_cons; auto).
  assert (F' : forall ip, compute_fluxes N d ip y (compute_conservatives N g y) v
                        = compute_fluxes N d ip y' (compute_conservatives N g y') v)
    by (intro; apply flux_ext; auto; intro; apply cellwise_cons; auto).
  destruct rs; unfold riemann.
  - unfold advection_upwind. rewrite F, F', H. reflexivity.
  - unfold llf, llf_smax.
    rewrite F, F', (sound_ext g c x x' H), (sound_ext g c y y' H').
    rewrite (cellwise_cons g x x' v H), (cellwise_cons g y y' v H'), H, H'. reflexivity.
  - unfold hllc.
    assert (E : hllc_compute N g c d x y = hllc_compute N g c d x' y').
    { unfold hllc_compute. rewrite (sound_ext g c x x' H), (sound_ext g c y y' H').
      rewrite !(cellwise_cons g x x' _ H), !(cellwise_cons g y y' _ H'), !H, !H'. reflexivity. }
    rewrite E, H, H'. reflexivity.
Qed.

(** ** the stages *)
Definition pcentre (p : ix) (f : field) : field :=
  psweep N AZ (wts_i N (cz p) P_c) (psweep N AY (wts_i N (cy p) P_c) (psweep N AX (wts_i N (cx p) P_c) f)).
Definition paverage (p : ix) (f : field) : field :=
  psweep N AZ (wts_t N (cz p)) (psweep N AY (wts_t N (cy p)) (psweep N AX (wts_t N (cx p)) f)).
Definition pprim (p : ix) (g : K) (f : field) : field :=
  paverage p (pcell (compute_primitives N g) (pcentre p f)).

Definition slope_fn (l : limiter) : K -> K -> K :=
  match limited_slope N l with Ok s => s | Err _ => fun _ _ => nofZ 0 end.
Definition muscl_l (l : limiter) (x y z : K) : K :=
  nsub y (nmul nhalf (slope_fn l (nsub y x) (nsub z y))).
Definition muscl_r (l : limiter) (x y z : K) : K :=
  nadd y (nmul nhalf (slope_fn l (nsub y x) (nsub z y))).

Definition ptrans (p : ix) (d : axis) (f : field) : field :=
  let '(a1, a2) := interp_axes d in
  psweep N a2 (wts_i N (getc a2 p) P_c) (psweep N a1 (wts_i N (getc a1 p) P_c) f).
Definition ptrace (p : ix) (limit : bool) (l : limiter) (d : axis) (pos : ipos) (f : field) : field :=
  let f2 := ptrans p d f in
  if limit && (getc d p =? 1)
  then p3 d (match pos with P_l => muscl_l l | _ => muscl_r l end) f2
  else psweep N d (wts_i N (getc d p) pos) f2.
Definition pintegral (p : ix) (d : axis) (f : field) : field :=
  let '(a1, a2) := recon_axes d in
  psweep N a2 (wts_t N (getc a2 p)) (psweep N a1 (wts_t N (getc a1 p)) f).
Definition pflux (p : ix) (limit : bool) (l : limiter) (rs : rsolver) (g csq : K) (d : axis) (f : field) : field :=
  pintegral p d (pface d (riemann N rs g csq d) (ptrace p limit l d P_r f) (ptrace p limit l d P_l f)).

(** reaches *)
Definition sr3 (p : ix) : ix := mkix (stencil_right (cx p)) (stencil_right (cy p)) (stencil_right (cz p)).
Definition scale3 (k : Z) (i : ix) : ix := mkix (k * cx i) (k * cy i) (k * cz i).
Lemma getc_sr3 a p : getc a (sr3 p) = stencil_right (getc a p).
Proof. destruct a; reflexivity. Qed.
Lemma getc_scale3 a k i : getc a (scale3 k i) = k * getc a i.
Proof. destruct a; reflexivity. Qed.

Section Reach.
Context (p : ix) (Hp : forall a, deg_ok (getc a p)).
Lemma op_i a pos : lr_pos pos -> op_ok (psweep N a (wts_i N (getc a p) pos)) (setc a (2 * stencil_right (getc a p)) zero3).
Proof.
  intro H. apply op_psweep.
  - destruct (interpolation_weights_ok N (getc a p) pos (Hp a) H) as [_ ->]. reflexivity.
  - specialize (Hp a). unfold deg_ok in Hp. pose proof (stencil_right_nonneg (getc a p)). lia.
Qed.
Lemma op_t a : op_ok (psweep N a (wts_t N (getc a p))) (setc a (2 * stencil_right (getc a p)) zero3).
Proof.
  apply op_psweep.
  - destruct (transverse_weights_ok N (getc a p) (Hp a)) as [_ ->]. reflexivity.
  - specialize (Hp a). unfold deg_ok in Hp. pose proof (stencil_right_nonneg (getc a p)). lia.
Qed.
Lemma lr_c : lr_pos P_c. Proof. right; left; reflexivity. Qed.
Lemma op_eq T r r' : op_ok T r -> (forall a, getc a r = getc a r') -> op_ok T r'.
Proof. intros H E. eapply op_weaken; [exact H|]. intro a. rewrite E. lia. Qed.
Ltac reach := let a := fresh in intro a; rewrite ?getc_shift', ?getc_scale3, ?getc_sr3; destruct a; cbn [setc getc cx cy cz zero3 unit3 scale3 sr3 shift]; lia.
Lemma op_pcentre : op_ok (pcentre p) (scale3 2 (sr3 p)).
Proof.
  eapply op_eq. { unfold pcentre. eapply op_comp; [apply (op_i AZ), lr_c|]. eapply op_comp; [apply (op_i AY), lr_c|apply (op_i AX), lr_c]. }
  reach.
Qed.
Lemma op_paverage : op_ok (paverage p) (scale3 2 (sr3 p)).
Proof.
  eapply op_eq. { unfold paverage. eapply op_comp; [apply (op_t AZ)|]. eapply op_comp; [apply (op_t AY)|apply (op_t AX)]. }
  reach.
Qed.
Lemma op_pprim g : op_ok (pprim p g) (scale3 4 (sr3 p)).
Proof.
  eapply op_eq. { unfold pprim. eapply op_comp; [apply op_paverage|]. eapply op_comp; [apply op_pcell, cellwise_prim|apply op_pcentre]. }
  reach.
Qed.
Lemma op_ptrans d : op_ok (ptrans p d) (setc d 0 (scale3 2 (sr3 p))).
Proof.
  destruct d; unfold ptrans, interp_axes; (eapply op_eq; [eapply op_comp; [apply op_i, lr_c|apply op_i, lr_c]|reach]).
Qed.
Lemma op_ptrace limit l d pos : pos = P_l \/ pos = P_r ->
  op_ok (ptrace p limit l d pos) (scale3 2 (sr3 p)).
Proof.
  intro Hpos. unfold ptrace. destruct (limit && (getc d p =? 1)) eqn:E.
  - eapply op_eq; [eapply op_comp; [apply op_p3|apply op_ptrans]|].
    assert (S1 : stencil_right (getc d p) = 1) by (zb; replace (getc d p) with 1; reflexivity).
    destruct d; cbn [getc] in S1; intro a; rewrite ?getc_shift', ?getc_scale3, ?getc_sr3;
      destruct a; cbn [setc getc cx cy cz zero3 unit3 scale3 sr3 shift]; lia.
  - eapply op_eq; [eapply op_comp; [apply op_i; unfold lr_pos; tauto|apply op_ptrans]|].
    destruct d; reach.
Qed.
Lemma op_pintegral d : op_ok (pintegral p d) (setc d 0 (scale3 2 (sr3 p))).
Proof.
  destruct d; unfold pintegral, recon_axes; (eapply op_eq; [eapply op_comp; [apply op_t|apply op_t]|reach]).
Qed.
Definition flux_reach (d : axis) : ix := setc d (2 * stencil_right (getc d p) + 1) (scale3 4 (sr3 p)).
Lemma op_pflux limit l rs g csq d : op_ok (pflux p limit l rs g csq d) (flux_reach d).
Proof.
  unfold pflux. eapply op_eq.
  - eapply op_comp; [apply op_pintegral|].
    apply op_pface; [apply cellwise_riemann|apply op_ptrace; auto|apply op_ptrace; auto].
  - unfold flux_reach. destruct d; reach.
Qed.
End Reach.
End Op.
