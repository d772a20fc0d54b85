(** Data that do not vary along an axis, with slope limiting: an example. *)
From Coq Require Import ZArith List Bool Lia Reals Lra.
From Verif Require Import Err Num NdArray FvM RiemannM StencilsM BcM LimitM OdeM SolverM Spec SpecBc SpecLim SpecSolver SpecCons SpecScheme SpecSym SpecMirLim SpecThin
  ExistP BroadP ConvexP LimExistP SymLimP MirLimQ.
Import ListNotations.
Local Open Scope Z_scope.

(** the plate of the mirror images with a fixed time step *)
Definition plank (b cv : bool) (ty : bct) : config RNum :=
  mkcfg (N := RNum) (mkix 12 13 1) (mkix 3 2 0) (fun _ => (0, 1)%R) (1/2)%R (Some (1/1000)%R) (7/5)%R (1/100)%R RS_hllc (uniform_bc ty) true L_moncen false (usual_sed b) cv.
Lemma plank_ok b cv ty : copies ty ->
  tabulated (plank b cv ty) /\ closed (plank b cv ty) /\ known_options (plank b cv ty) /\ flat_box (plank b cv ty).
Proof. intro H. destruct (plate_ok b cv ty H) as ([[A B C D] P] & Q & K & F). split; [|split; [exact Q|split; [exact K|exact F]]]. split; [split|]; assumption. Qed.
Definition ridge (v : Z) (i : ix) : R := if (v =? 0) || (v =? 4) then (2 + IZR (cx i mod 3))%R else 1%R.
Lemma plank_example cv ty heap i k : copies ty -> ty <> B_reflective -> 1 <= k -> let c := plank true cv ty in
  tabulated c /\ closed c /\ c_limit c = true /\ known_options c /\ flat_box c /\ (exists a, a <> AY /\ ~ inactive c a) /\ ~ inactive c AY /\
  (forall pos, bc_type (c_bc c) AY pos <> B_reflective) /\ sed_on (c_nad c) = true /\ (0 < sed_eps (c_nad c))%R /\
  extruded AY (mkarr 5 (mkix 12 1 1) ridge) (mkarr 5 (c_n c) ridge) /\
  exists o, simulate c heap i true None (Some k) true [] false 0 (mkarr 5 (c_n c) ridge) = Ok o.
Proof.
  intros H NR K c. destruct (plank_ok true cv ty H) as (T & C & O & F). split; [exact T|]. split; [exact C|]. split; [reflexivity|]. split; [exact O|]. split; [exact F|].
  split; [exists AX; split; [discriminate|intros [Q _]; discriminate]|]. split; [intros [Q _]; discriminate|]. split; [intros pos; exact NR|].
  split; [reflexivity|]. split; [unfold c, plank; cbn [c_nad usual_sed sed_eps]; lra|].
  split; [split; [reflexivity|split; [reflexivity|intros v j Hj; reflexivity]]|].
  assert (EX : forall (q : config RNum) u, tabulated q -> closed q -> c_limit q = true -> known_options q -> flat_box q -> shp u = c_n q -> 2 <= rows u ->
    exists o, simulate q heap i true None (Some k) true [] false 0 u = Ok o).
  { intros q u T' C' L' O' F' S' R'. assert (FI' : fillable (N := RNum) (fun _ _ => 0%R) q (rows u)) by (apply SymLimP.closed_fillable, C'). destruct (c_convex q) eqn:CV.
    - destruct (convex_runs_end (fun _ _ => 0%R) q heap i true k true [] false 0%nat u) as (o & E & _); auto; [lia|]. exists o. exact E.
    - destruct (limited_runs_end RNum (fun _ _ => 0%R) q heap i true k true [] false 0%nat u) as (o & E & _); auto; [apply flags_R|lia|]. exists o. exact E. }
  apply EX; auto. cbn. lia.
Qed.
