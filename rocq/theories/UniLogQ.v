(** Uniform flow and the trouble detector: cases. *)
From Coq Require Import ZArith List Bool Lia Reals Lra.
From Verif Require Import Err Num NdArray HydroM FvM RiemannM StencilsM BcM LimitM OdeM SolverM Spec SpecBc SpecLim SpecSolver SpecCons SpecScheme SpecSym SpecLimRhs SpecMirLim SpecUniLog
  NdArrayP SchemeP ExistP BroadP ConvexP LimExistP SymLimP MirLimQ ThinLimQ QuietQ UniformP UniLogP.
From Verif Require BoostP.
Import ListNotations.
Local Open Scope Z_scope.

(** the plank with the default tolerance on all variables and the given kind of range *)
Definition ranged (g : nad_range) : config RNum := with_nad (mknad (N := RNum) (1/100000)%R M_global g None None true (1/100)%R) (plank true false B_periodic).
(** gas of density 1 and pressure 1 flowing with speed V along x *)
Definition flow (V : R) (v : Z) : R := if v =? 0 then 1%R else if v =? 1 then V else if v =? 4 then (5/2 + 1/2 * (V * V))%R else 0%R.
Lemma flow_prim V v : primitive (7/5) (flow V) v = if v =? 0 then 1%R else if v =? 1 then V else if v =? 4 then 1%R else 0%R.
Proof.
  destruct (Z.eq_dec v 0) as [->|N0]; [reflexivity|]. destruct (Z.eq_dec v 4) as [->|N4].
  - unfold primitive, flow. cbn [Z.eqb Pos.eqb]. field.
  - refine (eq_trans (BoostP.primitive_other _ _ _ N0 N4) _). unfold flow. cbn [Z.eqb]. rewrite (proj2 (Z.eqb_neq v 0) N0), (proj2 (Z.eqb_neq v 4) N4). destruct (v =? 1); field.
Qed.
Lemma flow_logs g V heap k : g <> R_unknown -> 1 <= k -> let c := ranged g in let u := mkarr 5 (c_n c) (fun v _ => flow V v) in
  tabulated c /\ closed c /\ along_walls c (flow V) /\ c_limit c = true /\ known_options c /\ (sed_on (c_nad c) = true -> (0 < sed_eps (c_nad c))%R) /\ uniform u (flow V) /\
  exists o, simulate c heap I_euler true None (Some k) true [] false 0 u = Ok o /\
    forall i, in_shape (c_n c) i -> (g = R_absolute /\ V < 0 /\ 0 < at_ (x_trouble (o_aux o)) 0 i)%R \/
      ~ (g = R_absolute /\ V < 0)%R /\ at_ (x_trouble (o_aux o)) 0 i = 0%R.
Proof.
  intros G K c u. destruct (plank_ok true false B_periodic I) as ([[A B D E] P] & C & O & F).
  assert (T : tabulated c). { split; [split|]; try assumption. exact I. }
  assert (O' : known_options c) by (split; [discriminate|split; [exact G|discriminate]]).
  assert (AW : along_walls c (flow V)) by (intros a pos _ X; discriminate X).
  assert (SE : sed_on (c_nad c) = true -> (0 < sed_eps (c_nad c))%R) by (intros _; cbn; lra).
  assert (UU : uniform u (flow V)) by (intros v i _; reflexivity).
  destruct (runs_of c heap I_euler k u T C eq_refl O' F eq_refl ltac:(cbn; lia) K) as (o & X).
  do 7 (split; [first [assumption|reflexivity]|]). exists o. split; [exact X|]. intros i Hi.
  assert (BAD : (c_force c = true \/ faulted (c_nad c) (primitive (c_gamma c) (flow V))) <-> g = R_absolute /\ (V < 0)%R).
  { split.
    - intros [H|[[]|(H & v & S & L)]]; [discriminate H|]. split; [exact H|]. change (c_gamma c) with (7/5)%R in L. rewrite flow_prim in L. cbn [c ranged with_nad c_nad nad_eps] in L.
      destruct (v =? 0); [exfalso; lra|]. destruct (v =? 1); [lra|]. destruct (v =? 4); exfalso; lra.
    - intros [H L]. right. right. split; [exact H|]. exists 1. split; [split; [lia|exact I]|]. change (c_gamma c) with (7/5)%R. rewrite flow_prim. cbn. lra. }
  destruct (uniform_logged c heap k true [] false 0%nat u (flow V) o T C AW eq_refl O' SE eq_refl ltac:(cbn; lia) UU K X i Hi) as [[Y Z]|[Y Z]].
  - left. apply BAD in Y. destruct Y. auto.
  - right. split; [|exact Z]. intro Q. apply Y, BAD, Q.
Qed.
