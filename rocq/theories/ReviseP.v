(** revise_fluxes replaces the fluxes of troubled faces. *)
From Coq Require Import ZArith List Bool Lia Reals Lra Floats.SpecFloat.
From Verif Require Import Err Num PySlice NdArray HydroM RiemannM StencilsM FvM BcM SedM
  LimitM OdeM SolverM SpecLim SpecBc SpecSolver SpecCons HydroP NdArrayP FvP BcP BcQ OpP SolverP OdeP RelP RelS LimP ConsP BroadP ConvexP.
Import ListNotations.
Open Scope Z_scope.

Section ReviseP.
Context (N : Num).
Local Notation K := (car N).
Ltac ob H := match type of H with bind ?x _ = Ok _ => let E := fresh "E" in destruct x eqn:E; cbn [bind] in H; [|discriminate] end.

Lemma hydrofluxes_shape (c : config N) junk t F u p l dt G : good N c p -> lim_ok l p -> shp u = c_n c ->
  hydrofluxes N c junk t F u p l = Ok (dt, G) -> flux_arrays_ok N c (rows u) F -> flux_arrays_ok N c (rows u) G.
Proof.
  intros GD LO HS H FO.
  assert (N0 : forall a, 0 <= getc a (shp u)) by (intro a; rewrite HS; destruct (GD a); lia).
  destruct (apply N (c_bc c) junk u (solver_width N c p) t) as [o|] eqn:E.
  - pose proof (apply_keeps N _ _ _ _ _ _ N0 E) as (KR & KS & _).
    set (E0 := fun v i => at_ o v (shift (solver_width N c p) i)).
    assert (HP : padding N c p junk t u E0).
    { exists o. split; [exact E|]. split; [exact KR|]. split; [exact KS|].
      unfold shows. intros v i Hi. reflexivity. }
    destruct (hydrofluxes_is N c junk t F u p l E0 GD LO HS HP) as (dt' & F' & E' & _ & V). rewrite H in E'. injection E' as _ <-.
    intro d. destruct (V d) as [VA VI]. destruct (active N c d); [destruct VA as (? & ? & _); auto|]. rewrite VI by reflexivity. apply FO.
  - exfalso. unfold hydrofluxes in H. ob H. ob H. unfold interpolate_primitives in E1.
    change (mkix _ _ _) with (solver_width N c p) in E1. rewrite E in E1. discriminate.
Qed.

Theorem revise_spec (c : config N) junk t x u dt x' : good N c (c_p c) -> dims N c <> [] -> shp u = c_n c -> 2 <= rows u ->
  flux_arrays_ok N c (rows u) (x_flux x) -> c_limiter c <> L_unknown ->
  revise_fluxes N c junk t x u dt = Ok x' ->
  exists det, detect N c junk t u (x_flux x) dt = Ok det /\
   (any_trouble (d_trouble det) = false -> x_flux x' = x_flux x) /\
   (any_trouble (d_trouble det) = true -> rows (d_trouble det) = 1 /\ shp (d_trouble det) = c_n c /\
     exists dt' G th, hydrofluxes N c (junk 3) t (x_flux x) u (fallback_p N c) (c_limiter c) = Ok (dt', G) /\
       broadcast_to_troubled_interfaces N (d_trouble det) (dims N c) (c_convex c) (is_periodic N c) = Ok th /\
       forall d v i, at_ (x_flux x' d) v i =
         nadd (nmul (nsub (nofZ 1) (at_ (th d) 0 i)) (at_ (x_flux x d) v i)) (nmul (at_ (th d) 0 i) (at_ (G d) v i))).
Proof.
  intros GD HD HS HR FO HL H.
  assert (N1 : forall d, 1 <= getc d (c_n c)) by (intro d; apply (GD d)).
  unfold revise_fluxes in H. ob H. exists a. split; [reflexivity|].
  assert (R1 : 1 <= rows u) by lia.
  pose proof (detect_domain N c _ t u (x_flux x) dt _ GD HD HS R1 (fun d _ => FO d) E) as [RT ST].
  ob H. apply log_flux in E0 as [LF LE].
  destruct (any_trouble (d_trouble a)) eqn:AT; (split; [intro D; try discriminate D|intro D; try discriminate D]).
  2:{ injection H as <-. exact LF. }
  split; [exact RT|]. split; [exact ST|].
  ob H. destruct a1 as [dt' G]. ob H. cbn [snd] in H. exists dt', G, a1. split; [reflexivity|]. split; [reflexivity|].
  assert (LO : lim_ok (c_limiter c) (fallback_p N c)) by (right; split; [apply pmax_fallback|exact HL]).
  pose proof (hydrofluxes_shape c _ _ _ _ _ _ _ _ (good_fallback N c GD) LO HS E0 FO) as FG.
  pose proof (broadcast_shape N _ _ _ _ _ E1 RT) as BS. rewrite ST in BS. assert (N0 : forall b, 0 <= getc b (c_n c)) by (intro b; specialize (N1 b); lia). specialize (BS N0).
  assert (BL : forall d, res_is (blend N (a1 d) (x_flux x d) (G d)) (rows u) (face_shape d (c_n c))
       (fun v i => nadd (nmul (nsub (nofZ 1) (at_ (a1 d) 0 i)) (at_ (x_flux x d) v i)) (nmul (at_ (a1 d) 0 i) (at_ (G d) v i)))).
  { intro d. destruct (BS d) as [B1 B2]. apply blend_is; [exact HR|exact B1|exact B2| |].
    - destruct (FO d) as [? ?]. split; [assumption|]. split; [assumption|reflexivity].
    - destruct (FG d) as [? ?]. split; [assumption|]. split; [assumption|reflexivity]. }
  destruct (BL AX) as (y1 & Y1 & RY1 & SY1 & VY1). destruct (BL AY) as (y2 & Y2 & RY2 & SY2 & VY2).
  destruct (BL AZ) as (y3 & Y3 & RY3 & SY3 & VY3). rewrite Y1, Y2, Y3 in H. cbn [bind] in H. injection H as <-. cbn [x_flux].
  intros [| |] v i; [apply VY1|apply VY2|apply VY3].
Qed.
End ReviseP.

Local Open Scope R_scope.
Lemma mix_between (w y z : R) : (w = 0 -> (1 - w) * y + w * z = y) /\ (w = 1 -> (1 - w) * y + w * z = z) /\
  (0 <= w <= 1 -> between y z ((1 - w) * y + w * z)).
Proof.
  split; [intros ->; ring|]. split; [intros ->; ring|]. intro Hw. unfold between.
  destruct (Rle_lt_dec y z).
  - rewrite Rmin_left, Rmax_right by lra. split; nra.
  - rewrite Rmin_right, Rmax_left by lra. split; nra.
Qed.
Theorem revised_between (c : config RNum) junk t x u dt x' : good RNum c (c_p c) -> dims RNum c <> [] -> shp u = c_n c -> (2 <= rows u)%Z ->
  flux_arrays_ok RNum c (rows u) (x_flux x) -> c_limiter c <> L_unknown ->
  revise_fluxes RNum c junk t x u dt = Ok x' ->
  exists det, detect RNum c junk t u (x_flux x) dt = Ok det /\
   (any_trouble (d_trouble det) = false -> x_flux x' = x_flux x) /\
   (any_trouble (d_trouble det) = true ->
     exists dt' G th, hydrofluxes RNum c (junk 3%Z) t (x_flux x) u (fallback_p RNum c) (c_limiter c) = Ok (dt', G) /\
       broadcast_to_troubled_interfaces RNum (d_trouble det) (dims RNum c) (c_convex c) (is_periodic RNum c) = Ok th /\
       forall d v i,
         (at_ (th d) 0 i = 0 -> at_ (x_flux x' d) v i = at_ (x_flux x d) v i) /\
         (at_ (th d) 0 i = 1 -> at_ (x_flux x' d) v i = at_ (G d) v i) /\
         (0 <= at_ (th d) 0 i <= 1 -> between (at_ (x_flux x d) v i) (at_ (G d) v i) (at_ (x_flux x' d) v i))).
Proof.
  intros GD HD HS HR FO HL H. destruct (revise_spec RNum c junk t x u dt x' GD HD HS HR FO HL H) as (det & ED & V0 & V1).
  exists det. split; [exact ED|]. split; [exact V0|]. intro AT. destruct (V1 AT) as (_ & _ & dt' & G & th & EG & EB & V).
  exists dt', G, th. split; [exact EG|]. split; [exact EB|]. intros d v i. rewrite V. rn.
  apply mix_between.
Qed.
Theorem revised_simple (c : config RNum) junk t x u dt x' : good RNum c (c_p c) -> dims RNum c <> [] -> shp u = c_n c -> (2 <= rows u)%Z ->
  flux_arrays_ok RNum c (rows u) (x_flux x) -> c_limiter c <> L_unknown -> c_convex c = false ->
  revise_fluxes RNum c junk t x u dt = Ok x' ->
  exists det, detect RNum c junk t u (x_flux x) dt = Ok det /\
   (any_trouble (d_trouble det) = false -> x_flux x' = x_flux x) /\
   (any_trouble (d_trouble det) = true ->
     exists dt' G, hydrofluxes RNum c (junk 3%Z) t (x_flux x) u (fallback_p RNum c) (c_limiter c) = Ok (dt', G) /\
       forall d v i, in_shape (setc d (getc d (c_n c) + 1) (c_n c))%Z i ->
         (In d (dims RNum c) /\ (exists j, touches d i j /\ in_shape (c_n c) j /\ at_ (d_trouble det) 0 j = true) -> at_ (x_flux x' d) v i = at_ (G d) v i) /\
         (~ (In d (dims RNum c) /\ exists j, touches d i j /\ in_shape (c_n c) j /\ at_ (d_trouble det) 0 j = true) -> at_ (x_flux x' d) v i = at_ (x_flux x d) v i)).
Proof.
  intros GD HD HS HR FO HL HC H. destruct (revise_spec RNum c junk t x u dt x' GD HD HS HR FO HL H) as (det & ED & V0 & V1).
  destruct (revised_between c junk t x u dt x' GD HD HS HR FO HL H) as (det' & ED' & _ & V2). rewrite ED in ED'. injection ED' as <-.
  exists det. split; [exact ED|]. split; [exact V0|]. intro AT. destruct (V1 AT) as (RT & ST & _). destruct (V2 AT) as (dt' & G & th & EG & EB & V).
  exists dt', G. split; [exact EG|]. rewrite HC in EB.
  assert (N0 : forall b, (0 <= getc b (shp (d_trouble det)))%Z) by (intro b; rewrite ST; destruct (GD b); lia).
  destruct (simple_faces RNum (d_trouble det) (dims RNum c) (is_periodic RNum c) flags_R RT N0) as (th' & EB' & W).
  rewrite EB in EB'. injection EB' as <-. rewrite ST in W. intros d v i Hi. destruct (W d) as (_ & SW & FW).
  assert (Hi' : in_shape (shp (th d)) i) by (rewrite SW; exact Hi). destruct (FW i Hi') as [W1 W0]. destruct (V d v i) as (B0 & B1 & _).
  split; intro C; [apply B1, W1, C|apply B0, W0, C].
Qed.
Lemma nan_mul_r (x : f64) : nmul (n := FNum) x S754_nan = S754_nan. Proof. destruct x as [[]|[]| |[] ? ?]; reflexivity. Qed.
Lemma nan_add_l (x : f64) : nadd (n := FNum) S754_nan x = S754_nan. Proof. destruct x as [[]|[]| |[] ? ?]; reflexivity. Qed.
Lemma nan_add_r (x : f64) : nadd (n := FNum) x S754_nan = S754_nan. Proof. destruct x as [[]|[]| |[] ? ?]; reflexivity. Qed.
Theorem revised_nan (c : config FNum) junk t x u dt x' : good FNum c (c_p c) -> dims FNum c <> [] -> shp u = c_n c -> (2 <= rows u)%Z ->
  flux_arrays_ok FNum c (rows u) (x_flux x) -> c_limiter c <> L_unknown ->
  revise_fluxes FNum c junk t x u dt = Ok x' ->
  exists det, detect FNum c junk t u (x_flux x) dt = Ok det /\
   (any_trouble (d_trouble det) = true ->
     exists dt' G, hydrofluxes FNum c (junk 3%Z) t (x_flux x) u (fallback_p FNum c) (c_limiter c) = Ok (dt', G) /\
       forall d v i, (at_ (x_flux x d) v i = S754_nan \/ at_ (G d) v i = S754_nan) -> at_ (x_flux x' d) v i = S754_nan).
Proof.
  intros GD HD HS HR FO HL H. destruct (revise_spec FNum c junk t x u dt x' GD HD HS HR FO HL H) as (det & ED & _ & V1).
  exists det. split; [exact ED|]. intro AT. destruct (V1 AT) as (_ & _ & dt' & G & th & EG & _ & V).
  exists dt', G. split; [exact EG|]. intros d v i C. rewrite V.
  destruct C as [C|C]; rewrite C, nan_mul_r; [apply nan_add_l|apply nan_add_r].
Qed.

(** ** in terms of the specification's notions *)
Lemma ifaces {N} (c : config N) q F : interface_arrays (c_n c) q F -> flux_arrays_ok N c q F.
Proof. exact (fun H => H). Qed.
Lemma fluxes_revised : forall (c : config RNum) junk t x u dt x',
  tabulated c -> shp u = c_n c -> (2 <= rows u)%Z -> interface_arrays (c_n c) (rows u) (x_flux x) -> c_limiter c <> L_unknown ->
  revise_fluxes RNum c junk t x u dt = Ok x' ->
  exists det, detect RNum c junk t u (x_flux x) dt = Ok det /\
   (any_trouble (d_trouble det) = false -> x_flux x' = x_flux x) /\
   (any_trouble (d_trouble det) = true ->
     exists dt' G th, hydrofluxes RNum c (junk 3%Z) t (x_flux x) u (fallback_p RNum c) (c_limiter c) = Ok (dt', G) /\
       broadcast_to_troubled_interfaces RNum (d_trouble det) (dims RNum c) (c_convex c) (is_periodic RNum c) = Ok th /\
       forall d v i,
         (at_ (th d) 0 i = 0 -> at_ (x_flux x' d) v i = at_ (x_flux x d) v i) /\
         (at_ (th d) 0 i = 1 -> at_ (x_flux x' d) v i = at_ (G d) v i) /\
         (0 <= at_ (th d) 0 i <= 1 -> between (at_ (x_flux x d) v i) (at_ (G d) v i) (at_ (x_flux x' d) v i))).
Proof.
  intros c junk t x u dt x' T HS HR FO HL H. eapply revised_between; try eassumption; [apply tab_good, T|apply sane_dims, T].
Qed.
Lemma fluxes_replaced : forall (c : config RNum) junk t x u dt x',
  tabulated c -> shp u = c_n c -> (2 <= rows u)%Z -> interface_arrays (c_n c) (rows u) (x_flux x) -> c_limiter c <> L_unknown ->
  c_convex c = false -> revise_fluxes RNum c junk t x u dt = Ok x' ->
  exists det, detect RNum c junk t u (x_flux x) dt = Ok det /\
   (any_trouble (d_trouble det) = false -> x_flux x' = x_flux x) /\
   (any_trouble (d_trouble det) = true ->
     exists dt' G, hydrofluxes RNum c (junk 3%Z) t (x_flux x) u (fallback_p RNum c) (c_limiter c) = Ok (dt', G) /\
       forall d v i, in_shape (interface_shape d (c_n c)) i ->
         (In d (dims RNum c) /\ (exists j, touches d i j /\ in_shape (c_n c) j /\ at_ (d_trouble det) 0 j = true) -> at_ (x_flux x' d) v i = at_ (G d) v i) /\
         (~ (In d (dims RNum c) /\ exists j, touches d i j /\ in_shape (c_n c) j /\ at_ (d_trouble det) 0 j = true) -> at_ (x_flux x' d) v i = at_ (x_flux x d) v i)).
Proof.
  intros c junk t x u dt x' T HS HR FO HL HC H. eapply revised_simple; try eassumption; [apply tab_good, T|apply sane_dims, T].
Qed.
Lemma nan_fluxes : forall (c : config FNum) junk t x u dt x',
  tabulated c -> shp u = c_n c -> (2 <= rows u)%Z -> interface_arrays (c_n c) (rows u) (x_flux x) -> c_limiter c <> L_unknown ->
  revise_fluxes FNum c junk t x u dt = Ok x' ->
  exists det, detect FNum c junk t u (x_flux x) dt = Ok det /\
   (any_trouble (d_trouble det) = true ->
     exists dt' G, hydrofluxes FNum c (junk 3%Z) t (x_flux x) u (fallback_p FNum c) (c_limiter c) = Ok (dt', G) /\
       forall d v i, (at_ (x_flux x d) v i = S754_nan \/ at_ (G d) v i = S754_nan) -> at_ (x_flux x' d) v i = S754_nan).
Proof.
  intros c junk t x u dt x' T HS HR FO HL H. eapply revised_nan; try eassumption; [apply tab_good, T|apply sane_dims, T].
Qed.

(** a call on a 1-D box in which trouble is found *)
Definition box1d : config FNum := demo (mkix 5 1 1) (mkix 0 0 0) (uniform_bc B_periodic) true.
Definition spike (v : Z) (i : ix) : f64 :=
  if (v =? 0)%Z && (cx i =? 2)%Z then fof 9 else demo_cell (N := FNum) 1 v i.
Definition spike_call := 
  revise_fluxes FNum box1d (fun _ _ _ => fof 0) (fof 0)
    (mkaux_s (N := FNum) (fun d => mkarr 5 (interface_shape d (c_n box1d)) (fun v i => fof (v + cx i))) 0 1
       (mkarr 5 (c_n box1d) (fun _ _ => fof 0)) (mkarr 5 (c_n box1d) (fun _ _ => fof 0)) (mkarr 5 (c_n box1d) (fun _ _ => fof 0)))
    (mkarr 5 (c_n box1d) spike) (fof 1).
Definition changed_faces (x : res (aux FNum)) : option Z :=
  match x with
  | Ok y => Some (Z.of_nat (length (filter (fun i => negb (neqb (n := FNum) (at_ (x_flux y AX) 0 i) (fof (cx i)))) (ix_list (interface_shape AX (c_n box1d))))))
  | Err _ => None end.
Lemma changed_ok x k : changed_faces x = Some k -> exists y, x = Ok y.
Proof. destruct x as [y|]; [|discriminate]. intros _. exists y. reflexivity. Qed.
Lemma spike_works : tabulated box1d /\ c_limiter box1d <> L_unknown /\ c_convex box1d = false /\
  changed_faces spike_call = Some 5%Z /\ exists y, spike_call = Ok y.
Proof.
  assert (E : changed_faces spike_call = Some 5%Z) by (vm_compute; reflexivity).
  split; [|split; [discriminate|split; [reflexivity|split; [exact E|exact (changed_ok _ _ E)]]]].
  split; [split|].
  - intros []; cbn; lia.
  - intros []; cbn; lia.
  - exists AX. intros [H _]. discriminate.
  - exact I.
  - intros []; cbn; lia.
Qed.
