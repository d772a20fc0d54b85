(** Facts about the construction of boundary conditions. *)
From Coq Require Import ZArith List Bool String Lia.
From Verif Require Import Err HydroStateM NdArray FvM BcM ArrMgrM SpecTimer ArrMgrP HsP BcObjM SpecBcObj.
Import ListNotations.
Local Open Scope nat_scope.
Local Open Scope string_scope.

Lemma dget_app {W} k (d e : dict W) : dget k (d ++ e)%list = match dget k d with Some x => Some x | None => dget k e end.
Proof. induction d as [|[k' v] d IH]; cbn; [reflexivity|]. destruct (String.eqb k k'); [reflexivity|exact IH]. Qed.
Lemma dset_new {W} k (v : W) d : dget k d = None -> dset k v d = (d ++ [(k, v)])%list.
Proof.
  induction d as [|[k' v'] d IH]; cbn; [reflexivity|]. destruct (String.eqb k k'); [discriminate|]. intro H. rewrite (IH H). reflexivity.
Qed.
Lemma load_in {V} a (h : heap V) : a < List.length h -> exists v, load a h = Some v.
Proof. intro H. unfold load. destruct (nth_error h a) eqn:E; [eauto|]. apply nth_error_None in E. lia. Qed.
Lemma load_more {V} a (h new : heap V) v : load a h = Some v -> load a (h ++ new)%list = Some v.
Proof. unfold load. intro H. rewrite nth_error_app1; [exact H|]. apply nth_error_Some. congruence. Qed.

Section Facts.
Context {T V : Type} (extent : V -> nat -> res Z).
Local Notation state := (state V).

Lemma seq_ok {A B} (p : prog A) (k : A -> prog B) (s s' : state) y : seq p k s = (s', Ok y) -> exists s1 x, p s = (s1, Ok x) /\ k x s1 = (s', Ok y).
Proof. unfold seq. destruct (p s) as [s1 [x|e]]; [eauto|discriminate]. Qed.
Lemma lift_ok {A} (r : res A) (s s' : state) y : lift r s = (s', Ok y) -> s' = s /\ r = Ok y.
Proof. unfold lift. intros [= -> ->]. auto. Qed.
Lemma grown_refl (s : state) : grown s s [].
Proof.
  split; [reflexivity|]. split; [reflexivity|]. split; [exists []; split; [reflexivity|]; rewrite app_nil_r; reflexivity|].
  split; [intros n []|]. exists []. rewrite app_nil_r. reflexivity.
Qed.
Lemma grown_trans (s s1 s2 : state) n1 n2 : grown s s1 n1 -> grown s1 s2 n2 -> grown s s2 (n1 ++ n2)%list.
Proof.
  intros (A1 & A2 & (m1 & A3 & A4) & A6 & (h1 & A5)) (B1 & B2 & (m2 & B3 & B4) & B6 & (h2 & B5)).
  split; [congruence|]. split; [congruence|]. split; [|split].
  - exists (m1 ++ m2)%list. split; [rewrite map_app; congruence|]. rewrite B4, A4, app_assoc. reflexivity.
  - intros n Hn. apply in_app_or in Hn as [Hn|Hn]; [exact (A6 n Hn)|]. specialize (B6 n Hn). rewrite A4, dget_app in B6.
    destruct (dget n (m_arrays (fst s))); [discriminate|reflexivity].
  - exists (h1 ++ h2)%list. rewrite B5, A5, app_assoc. reflexivity.
Qed.
Lemma grown_get (s s' : state) names n o : grown s s' names -> dget n (m_arrays (fst s)) = Some o -> dget n (m_arrays (fst s')) = Some o.
Proof. intros (_ & _ & (m & _ & ->) & _ & _) H. rewrite dget_app, H. reflexivity. Qed.
Lemma grown_len (s s' : state) names : grown s s' names -> List.length (snd s) <= List.length (snd s').
Proof. intros (_ & _ & _ & _ & (h & ->)). rewrite app_length. lia. Qed.
Lemma grown_load (s s' : state) names a v : grown s s' names -> load a (snd s) = Some v -> load a (snd s') = Some v.
Proof. intros (_ & _ & _ & _ & (h & ->)) H. apply load_more, H. Qed.

Lemma add_ok name o (s0 s s' : state) names u : grown s0 s names -> add name o s = (s', Ok u) ->
  exists a o', o = Arr NumPy a /\ dget name (m_arrays (fst s)) = None /\ grown s s' [name] /\
    dget name (m_arrays (fst s')) = Some o' /\
    (a < List.length (snd s0) -> registered s0 s' name a o').
Proof.
  intros G H. unfold add, am_add in H. unfold dmem in H. destruct (dget name (m_arrays (fst s))) eqn:D; cbn [bind] in H; [discriminate|].
  destruct o as [[|] a|]; cbn [is_numpy negb] in H; try discriminate.
  destruct s as [m h]; cbn [fst snd] in *.
  destruct (m_using m) eqn:U.
  - unfold cp_asarray in H. destruct (negb (m_cupy m)); cbn [bind] in H; [discriminate|]. destruct (load a h) as [v|] eqn:L; cbn [bind alloc fst snd] in H; [|discriminate].
    injection H as <- _. exists a, (Arr CuPy (List.length h)). split; [reflexivity|]. split; [reflexivity|]. split.
    { split; [reflexivity|]. split; [cbn; congruence|]. split; [|split]; cbn [fst snd m_arrays]; [|intros n [<-|[]]; exact D|eauto].
      rewrite (dset_new _ _ _ D). exists [(name, Arr CuPy (List.length h))]. auto. }
    cbn [fst snd m_arrays]. assert (E : dget name (dset name (Arr CuPy (List.length h)) (m_arrays m)) = Some (Arr CuPy (List.length h))) by (rewrite dget_set, String.eqb_refl; reflexivity).
    split; [exact E|]. intro La. split; [exact E|]. split.
    + cbn [snd contents]. unfold load at 1. rewrite nth_error_app2, Nat.sub_diag by lia. cbn [nth_error].
      destruct (load_in a (snd s0) La) as [w Hw]. pose proof (grown_load _ _ _ _ _ G Hw) as Q. cbn [snd] in Q. congruence.
    + destruct G as (_ & GU & _ & _ & (new & GN)). cbn [fst snd] in GU, GN. rewrite <- GU, U. exists (List.length h). split; [reflexivity|]. rewrite GN, app_length. lia.
  - cbn [bind fst snd] in H. injection H as <- _. exists a, (Arr NumPy a). split; [reflexivity|]. split; [reflexivity|]. split.
    { split; [reflexivity|]. split; [cbn; congruence|]. split; [|split]; cbn [fst snd m_arrays]; [|intros n [<-|[]]; exact D|].
      - rewrite (dset_new _ _ _ D). exists [(name, Arr NumPy a)]. auto.
      - exists []. rewrite app_nil_r. reflexivity. }
    cbn [fst snd m_arrays]. assert (E : dget name (dset name (Arr NumPy a) (m_arrays m)) = Some (Arr NumPy a)) by (rewrite dget_set, String.eqb_refl; reflexivity).
    split; [exact E|]. intro La. split; [exact E|]. split.
    + cbn [snd contents]. destruct (load_in a (snd s0) La) as [w Hw]. rewrite Hw. exact (grown_load _ _ _ _ _ G Hw).
    + destruct G as (_ & GU & _). cbn [fst] in GU. rewrite <- GU, U. reflexivity.
Qed.
Lemma registered_later (s0 s s' : state) names name a o : a < List.length (snd s0) -> registered s0 s name a o -> grown s s' names -> registered s0 s' name a o.
Proof.
  intros La (A & B & C) G. split; [exact (grown_get _ _ _ _ _ G A)|]. split; [|exact C].
  destruct (load_in a (snd s0) La) as [w Hw]. rewrite Hw in *. destruct o as [l b|]; [|discriminate]. exact (grown_load _ _ _ _ _ G B).
Qed.

(** one value *)
Definition own_name (name : string) (v : value) : list string := if is_host v then [name] else [].
Lemma register_value_ok a sd v (s0 s s' : state) names v' : grown s0 s names -> register_value a sd v s = (s', Ok v') ->
  grown s s' (own_name (value_name a sd) v) /\ holds_value s0 s' (value_name a sd) v v'.
Proof.
  intros G H. unfold own_name. destruct v as [[|] x|k]; cbn [register_value is_host] in *.
  - apply seq_ok in H as (s1 & u & H1 & H2). destruct (add_ok _ _ _ _ _ _ _ G H1) as (x' & o & E & _ & G1 & D & R). injection E as <-.
    apply seq_ok in H2 as (s2 & o2 & H2 & H3). unfold fetch, am_call in H2. rewrite D in H2. injection H2 as <- <-.
    injection H3 as <- <-. split; [exact G1|]. split; [|discriminate]. intros (x2 & E & L). injection E as <-. exists x, o. auto.
  - injection H as <- <-. split; [apply grown_refl|]. split; [intros (? & ? & _); discriminate|reflexivity].
  - injection H as <- <-. split; [apply grown_refl|]. split; [intros (? & ? & _); discriminate|reflexivity].
Qed.
Lemma holds_later (s0 s s' : state) names name v v' : holds_value s0 s name v v' -> grown s s' names -> holds_value s0 s' name v v'.
Proof.
  intros [A B] G. split; [|exact B]. intro H. destruct (A H) as (a & o & E & R & O). exists a, o. split; [exact E|]. split; [|exact O].
  apply (registered_later _ s s' names); auto. destruct H as (a' & E' & L). congruence.
Qed.
Lemma register_values_ok a lr (s0 s s' : state) names lr' : grown s0 s names -> register_values a lr s = (s', Ok lr') ->
  grown s s' (own_name (value_name a SL) (fst lr) ++ own_name (value_name a SR) (snd lr))%list /\
  forall sd, holds_value s0 s' (value_name a sd) (at_end sd lr) (at_end sd lr').
Proof.
  intros G H. unfold register_values in H. apply seq_ok in H as (s1 & l & H1 & H). apply seq_ok in H as (s2 & r & H2 & H). injection H as <- <-.
  destruct (register_value_ok _ _ _ _ _ _ _ _ G H1) as [G1 L1].
  destruct (register_value_ok _ _ _ _ _ _ _ _ (grown_trans _ _ _ _ _ G G1) H2) as [G2 L2].
  split; [exact (grown_trans _ _ _ _ _ G1 G2)|]. intros []; cbn [at_end fst snd]; [exact (holds_later _ _ _ _ _ _ _ L1 G2)|exact L2].
Qed.
(** one slab *)
Lemma slab_later (s0 s s' : state) names d a sd : slab_held s0 s d a sd -> grown s s' names -> slab_held s0 s' d a sd.
Proof.
  intros (ad & E & H) G. exists ad. split; [exact E|]. intros k Hk. destruct (H k Hk) as [o R]. exists o. exact (registered_later _ _ _ _ _ _ _ Hk R G).
Qed.
Lemma register_slab_ok d a sd (s0 s s' : state) names u : grown s0 s names -> register_slab d a sd s = (s', Ok u) ->
  grown s s' (map (slab_name a sd) [AX; AY; AZ]) /\ slab_held s0 s' d a sd.
Proof.
  intros G H. unfold register_slab in H. apply seq_ok in H as (s1 & objs & H1 & H). apply lift_ok in H1 as [-> H1].
  destruct (dget (dim_name a ++ pos_name sd) d) as [l|] eqn:D; [|discriminate]. injection H1 as ->.
  destruct objs as [|X [|Y [|Z [|]]]]; try (apply lift_ok in H as [_ H]; discriminate).
  apply seq_ok in H as (s2 & u1 & HX & H). apply seq_ok in H as (s3 & u2 & HY & HZ).
  destruct (add_ok _ _ _ _ _ _ _ G HX) as (x & ox & -> & _ & GX & DX & RX).
  pose proof (grown_trans _ _ _ _ _ G GX) as G1.
  destruct (add_ok _ _ _ _ _ _ _ G1 HY) as (y & oy & -> & _ & GY & DY & RY).
  pose proof (grown_trans _ _ _ _ _ G1 GY) as G2.
  destruct (add_ok _ _ _ _ _ _ _ G2 HZ) as (z & oz & -> & _ & GZ & DZ & RZ).
  split; [exact (grown_trans _ _ _ _ _ GX (grown_trans _ _ _ _ _ GY GZ))|].
  exists (fun k => match k with AX => x | AY => y | AZ => z end). split; [exact D|].
  intros []; intro L.
  - exists ox. apply (registered_later _ s2 s' ([slab_name a sd AY] ++ [slab_name a sd AZ])); [exact L|exact (RX L)|exact (grown_trans _ _ _ _ _ GY GZ)].
  - exists oy. apply (registered_later _ s3 s' [slab_name a sd AZ]); [exact L|exact (RY L)|exact GZ].
  - exists oz. exact (RZ L).
Qed.
Lemma each_ok d l : forall (s0 s s' : state) names u, grown s0 s names -> each l (fun ap => register_slab d (fst ap) (snd ap)) s = (s', Ok u) ->
  grown s s' (flat_map (fun e => map (slab_name (fst e) (snd e)) [AX; AY; AZ]) l) /\ forall e, In e l -> slab_held s0 s' d (fst e) (snd e).
Proof.
  induction l as [|e l IH]; intros s0 s s' names u G H; cbn [each] in H.
  - injection H as <- _. split; [apply grown_refl|]. intros e [].
  - apply seq_ok in H as (s1 & u1 & H1 & H2). destruct (register_slab_ok _ _ _ _ _ _ _ _ G H1) as [G1 S1].
    destruct (IH s0 s1 s' _ u (grown_trans _ _ _ _ _ G G1) H2) as [G2 S2].
    split; [exact (grown_trans _ _ _ _ _ G1 G2)|]. intros e' [<-|He]; [exact (slab_later _ _ _ _ _ _ _ S1 G2)|exact (S2 e' He)].
Qed.
Lemma slab_extent_ok d key k (s s' : state) n : slab_extent extent d key k s = (s', Ok n) -> s' = s /\
  exists l o objs v, dget key d = Some (Arr l o :: objs) /\ load o (snd s) = Some v /\ extent v k = Ok n.
Proof.
  intro H. unfold slab_extent in H. apply seq_ok in H as (s1 & objs & H1 & H). apply lift_ok in H1 as [-> H1].
  destruct (dget key d) as [l|] eqn:D; [|discriminate]. injection H1 as ->.
  apply seq_ok in H as (s1 & o & H1 & H). apply lift_ok in H1 as [-> H1]. destruct objs as [|o' objs]; [discriminate|]. injection H1 as ->.
  destruct o as [l a|]; [|discriminate]. destruct (load a (snd s)) as [v|] eqn:L; [|discriminate]. injection H as <- E. split; [reflexivity|].
  exists l, a, objs, v. auto.
Qed.
Lemma normal_ok {A} (x : bc_arg A) lr : normalize_arg x = Ok lr -> stands_for x lr.
Proof.
  destruct x as [[|l [|r [|]]]|l|v]; cbn; try discriminate; intros [= <-]; [left; reflexivity|right; auto].
Qed.

Theorem constructed (f : fields T) (s s' : state) b : post_init extent f s = (s', Ok b) ->
  (forall a, stands_for (f_type f a) (b_type b a)) /\
  exists val, (forall a, stands_for (f_value f a) (val a)) /\
    (forall a sd, holds_value s s' (value_name a sd) (at_end sd (val a)) (at_end sd (b_value b a))) /\
    grown s s' (taken_names val (match f_slabs f with Some _ => true | None => false end)) /\
    b_slabs b = f_slabs f /\
    match f_slabs f with
    | None => b_buffer b = (0, 0, 0)%Z
    | Some d => (forall a sd, slab_held s s' d a sd) /\
        exists nx ny nz, b_buffer b = (nx, ny, nz) /\
          slab_extent_is extent (snd s') d "xl" 0 nx /\ slab_extent_is extent (snd s') d "yl" 1 ny /\ slab_extent_is extent (snd s') d "zl" 2 nz
    end.
Proof.
  intro H. unfold post_init in H.
  apply seq_ok in H as (s1 & x & H1 & H). apply lift_ok in H1 as [-> HX].
  apply seq_ok in H as (s1 & xv & H1 & H). apply lift_ok in H1 as [-> HXV].
  apply seq_ok in H as (s1 & y & H1 & H). apply lift_ok in H1 as [-> HY].
  apply seq_ok in H as (s1 & yv & H1 & H). apply lift_ok in H1 as [-> HYV].
  apply seq_ok in H as (s1 & z & H1 & H). apply lift_ok in H1 as [-> HZ].
  apply seq_ok in H as (s1 & zv & H1 & H). apply lift_ok in H1 as [-> HZV].
  apply seq_ok in H as (s1 & xv' & H1 & H). apply seq_ok in H as (s2 & yv' & H2 & H). apply seq_ok in H as (s3 & zv' & H3 & H).
  destruct (register_values_ok _ _ _ _ _ _ _ (grown_refl s) H1) as [G1 L1]. pose proof G1 as G1'.
  destruct (register_values_ok _ _ _ _ _ _ _ G1 H2) as [G2 L2]. pose proof (grown_trans _ _ _ _ _ G1 G2) as G12.
  destruct (register_values_ok _ _ _ _ _ _ _ G12 H3) as [G3 L3]. pose proof (grown_trans _ _ _ _ _ G12 G3) as G13.
  apply normal_ok in HX, HXV, HY, HYV, HZ, HZV.
  set (val := fun a => match a with AX => xv | AY => yv | AZ => zv end).
  assert (HV : forall s4 names, grown s3 s4 names -> forall a sd, holds_value s s4 (value_name a sd) (at_end sd (val a))
      (at_end sd (match a with AX => xv' | AY => yv' | AZ => zv' end))).
  { intros s4 names G []; cbn [val]; intro sd.
    - exact (holds_later _ _ _ _ _ _ _ (holds_later _ _ _ _ _ _ _ (holds_later _ _ _ _ _ _ _ (L1 sd) G2) G3) G).
    - exact (holds_later _ _ _ _ _ _ _ (holds_later _ _ _ _ _ _ _ (L2 sd) G3) G).
    - exact (holds_later _ _ _ _ _ _ _ (L3 sd) G). }
  assert (GN : grown s s3 (flat_map (fun e => if is_host (at_end (snd e) (val (fst e))) then [value_name (fst e) (snd e)] else []) ends)).
  { cbn [flat_map ends fst snd at_end val]. rewrite app_nil_r. unfold own_name in G13. rewrite <- !app_assoc in G13. exact G13. }
  destruct (f_slabs f) as [d|].
  - apply seq_ok in H as (s4 & nx & H4 & H). apply slab_extent_ok in H4 as [-> (lx & ax & rx & vx & X1 & X2 & X3)].
    apply seq_ok in H as (s4 & ny & H4 & H). apply slab_extent_ok in H4 as [-> (ly & ay & ry & vy & Y1 & Y2 & Y3)].
    apply seq_ok in H as (s4 & nz & H4 & H). apply slab_extent_ok in H4 as [-> (lz & az & rz & vz & Z1 & Z2 & Z3)].
    apply seq_ok in H as (s4 & u & H4 & H). injection H as <- <-.
    destruct (each_ok d slab_order s s3 s4 _ u GN H4) as [G4 S4].
    split; [intros []; assumption|]. exists val. split; [intros []; assumption|]. split; [exact (HV _ _ G4)|].
    split; [exact (grown_trans _ _ _ _ _ GN G4)|]. split; [reflexivity|]. split.
    + intros a sd. apply (S4 (a, sd)). destruct a, sd; cbn; tauto.
    + exists nx, ny, nz. split; [reflexivity|].
      split; [exists lx, ax, rx, vx|split; [exists ly, ay, ry, vy|exists lz, az, rz, vz]]; (split; [assumption|]); (split; [|assumption]);
       eapply grown_load; eassumption.
  - injection H as <- <-. split; [intros []; assumption|]. exists val. split; [intros []; assumption|]. split; [exact (HV _ _ (grown_refl s3))|].
    unfold taken_names. rewrite app_nil_r. auto.
Qed.

(** consequences *)
Lemma grown_taken (s s' : state) names n : grown s s' names -> In n names -> dget n (m_arrays (fst s')) <> None.
Proof.
  intros (_ & _ & (more & E & ->) & A & _) H. rewrite dget_app, (A n H). rewrite <- E in H. clear -H.
  induction more as [|[k o] more IH]; [destruct H|]. cbn. destruct (String.eqb_spec n k) as [->|NE]; [discriminate|].
  destruct H as [H|H]; [cbn in H; congruence|exact (IH H)].
Qed.
Definition has_slabs (f : fields T) : bool := match f_slabs f with Some _ => true | None => false end.
Lemma stands_unique {A} (x : bc_arg A) u w : stands_for x u -> stands_for x w -> u = w.
Proof. intros [E1|[E1 F1]] [E2|[E2 F2]]; destruct u, w; cbn in *; congruence. Qed.
Lemma taken_ext v w sl : (forall a, v a = w a) -> taken_names v sl = taken_names w sl.
Proof. intro H. unfold taken_names. f_equal. cbn [flat_map ends fst snd]. rewrite !H. reflexivity. Qed.
Theorem same_manager (f g : fields T) (s s1 s2 : state) b c vf vg n : post_init extent f s = (s1, Ok b) ->
  (forall a, stands_for (f_value f a) (vf a)) -> (forall a, stands_for (f_value g a) (vg a)) ->
  In n (taken_names vf (has_slabs f)) -> In n (taken_names vg (has_slabs g)) -> post_init extent g s1 <> (s2, Ok c).
Proof.
  intros Hf Vf Vg If Ig Hg.
  destruct (constructed f s s1 b Hf) as (_ & v1 & W1 & _ & G1 & _). destruct (constructed g s1 s2 c Hg) as (_ & v2 & W2 & _ & G2 & _).
  rewrite (taken_ext vf v1) in If by (intro a; exact (stands_unique _ _ _ (Vf a) (W1 a))).
  rewrite (taken_ext vg v2) in Ig by (intro a; exact (stands_unique _ _ _ (Vg a) (W2 a))).
  apply (grown_taken _ _ _ n G1 If). apply G2. exact Ig.
Qed.
Theorem shared (f : fields T) (s s' : state) b a p : post_init extent f s = (s', Ok b) -> m_using (fst s) = false ->
  p < List.length (snd s) -> f_value f a = Arg_one (Array NumPy p) ->
  b_value b a = (Array NumPy p, Array NumPy p) /\ forall w, contents (Arr NumPy p) (store p w (snd s')) = Some w.
Proof.
  intros H U L E. destruct (constructed f s s' b H) as (_ & v & W & HV & G & _). specialize (W a). rewrite E in W.
  assert (Ev : v a = (Array NumPy p, Array NumPy p)).
  { destruct W as [Q|[Q R]]; [discriminate|]. injection Q as Q. destruct (v a) as [l r]; cbn in *; congruence. }
  assert (Q : forall sd, at_end sd (b_value b a) = Array NumPy p).
  { intro sd. destruct (HV a sd) as [A _]. rewrite Ev in A. destruct A as (x & o & Ex & R & ->); [exists p; destruct sd; auto|].
    destruct R as (_ & _ & R). rewrite U in R. subst o. destruct sd; cbn in *; congruence. }
  split; [pose proof (Q SL); pose proof (Q SR); destruct (b_value b a); cbn in *; congruence|].
  intro w. assert (L' : p < List.length (snd s')) by (pose proof (grown_len _ _ _ G); lia). cbn [contents].
  revert L'. generalize (snd s'). clear. induction p as [|p IH]; intros [|x h] L; cbn in *; try lia; [reflexivity|]. apply IH. lia.
Qed.
End Facts.
Lemma reset_ok {T} a pos v (b : bcobj T) :
  (pos = "l" \/ pos = "r" -> exists b' sd, reset_value a pos v b = Ok b' /\ pos_name sd = pos /\
     b_type b' = b_type b /\ b_slabs b' = b_slabs b /\ b_buffer b' = b_buffer b /\
     forall a' sd', at_end sd' (b_value b' a') = if (axis_eqb a' a && String.eqb (pos_name sd') pos)%bool then v else at_end sd' (b_value b a')) /\
  (pos <> "l" -> pos <> "r" -> reset_value a pos v b = Err ValueError).
Proof.
  unfold reset_value. destruct (b_value b a) as [l r] eqn:E. split.
  - intros [->| ->]; cbn [String.eqb Ascii.eqb Bool.eqb bind]; eexists; [exists SL|exists SR]; (split; [reflexivity|]); cbn; (repeat (split; [reflexivity|]));
     intros a' sd'; cbn [b_value]; (destruct a, a'); cbn; rewrite ?E; destruct sd'; reflexivity.
  - intros H1 H2. apply String.eqb_neq in H1, H2. rewrite H1, H2. reflexivity.
Qed.

(** examples *)
Definition case_slabs : dict (list obj) :=
  map (fun e => (dim_name (fst e) ++ pos_name (snd e), [Arr NumPy 2; Arr NumPy 2; Arr NumPy 2])) ends.
Definition case_fields : fields nat :=
  mkfields (fun a => Arg_one 0) (fun a => match a with AX => Arg_tuple [Array NumPy 0; Array NumPy 1] | AY => Arg_one (Thing 5) | AZ => Arg_one (Thing 0) end)
    (Some case_slabs).
Lemma case_built : exists s' b, post_init (fun (v : nat) _ => Ok 3%Z) case_fields (mkam true true [], [7; 8; 9]) = (s', Ok b) /\
  b_value b AX = (Array CuPy 3, Array CuPy 4) /\ b_value b AY = (Thing 5, Thing 5) /\ b_buffer b = (3, 3, 3)%Z /\
  contents (Arr CuPy 3) (snd s') = Some 7 /\ contents (Arr CuPy 4) (snd s') = Some 8 /\
  List.length (m_arrays (fst s')) = 20.
Proof. eexists _, _. split; [vm_compute; reflexivity|]. repeat split. Qed.
Lemma case_again : exists s1 b s2, post_init (fun (v : nat) _ => Ok 3%Z) case_fields (mkam false false [], [7; 8; 9]) = (s1, Ok b) /\
  post_init (fun (v : nat) _ => Ok 3%Z) case_fields s1 = (s2, Err KeyError).
Proof. eexists _, _, _. split; [vm_compute; reflexivity|]. vm_compute. reflexivity. Qed.
Lemma left_behind : exists (f : fields nat) (s s1 : state nat) e, post_init (fun _ _ => Ok 3%Z) f s = (s1, Err e) /\ s1 <> s /\
  let m := fst s1 in let freed := mkam (m_cupy m) (m_using m) (ddel "bc_yl_value" (m_arrays m)) in
  exists s2, post_init (fun _ _ => Ok 3%Z) f (freed, snd s1) = (s2, Err KeyError).
Proof.
  exists (mkfields (fun a => Arg_one 0) (fun a => match a with AZ => Arg_one (Thing 0) | _ => Arg_one (Array NumPy 0) end) None),
    (mkam false false [("bc_yl_value", Arr NumPy 0)], [7]). eexists _, _. split; [vm_compute; reflexivity|]. split; [discriminate|].
  eexists. vm_compute. reflexivity.
Qed.
Lemma dict_forgets : exists b c : bcobj nat, bc_to_dict b = bc_to_dict c /\ b_value b AX <> b_value c AX.
Proof.
  exists (mkbcobj (fun _ => (0, 0)) (fun _ => (Thing 1, Thing 1)) None (0, 0, 0)%Z), (mkbcobj (fun _ => (0, 0)) (fun _ => (Thing 2, Thing 2)) None (0, 0, 0)%Z).
  split; [reflexivity|discriminate].
Qed.
