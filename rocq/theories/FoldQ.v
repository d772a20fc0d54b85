(** A wall as a plane of symmetry: examples, and the upwind solver. *)
From Coq Require Import ZArith QArith List Bool Lia Reals Lra.
From Verif Require Import Err Num NdArray FvM RiemannM StencilsM BcM SpecBc LimitM OdeM SolverM Spec SpecSolver SpecCons SpecScheme SpecSym SpecFold
  FvP BcQ OpP SolverP ExistP SchemeP UniformP MirrorP FoldP.
From Verif Require OdeT.
Import ListNotations.
Local Open Scope Z_scope.

(** gas at rest in a closed box *)
Definition rest (v : Z) : R := if (v =? 0) || (v =? 4) then 1%R else 0%R.
Lemma rest_example heap : let c := box RS_hllc (mkix 0 0 0) B_reflective in let u := mkarr 5 (c_n c) (fun v _ => rest v) in
  tabulated c /\ closed c /\ test_of_cells physical_b /\
  (forall w, shp w = c_n c -> physical_b w = true -> physical_traces (wts_i RNum) (wts_t RNum) c (filled c w)) /\
  exists o, simulate_checked (N := RNum) physical_b c heap I_ssprk3 true None (Some 7) true [] false 0 u = Ok o.
Proof.
  cbv zeta. set (c := box _ _ _). destruct (box_ok RS_hllc (mkix 0 0 0) B_reflective) as (T & C & F); [right; left; reflexivity|exact I|].
  split; [exact T|]. split; [exact C|]. split; [exact physical_b_cells|]. split.
  - intros w Sw O. apply physical_degree0; auto; [cbn; lra|intros []; reflexivity|]. apply physical_b_spec, O.
  - destruct (box_runs RS_hllc (mkix 0 0 0) B_reflective heap I_ssprk3 7 (mkarr 5 (c_n c) (fun v _ => rest v))) as (o & E).
    { right; left; reflexivity. } { exact I. } { reflexivity. } { cbn; lia. } { lia. }
    exists o. apply (uniform_physical c heap I_ssprk3 true None (Some 7) true [] false 0%nat (mkarr 5 (c_n c) (fun v _ => rest v)) rest); auto.
    + intros [] pos _ _; reflexivity.
    + cbn. lia.
    + intros v j _. reflexivity.
    + change (0 < 1)%R. lra.
    + change (0 <= 1 - 1/2 * (0 * 0 + 0 * 0 + 0 * 0) / 1)%R. lra.
Qed.

(** ** the upwind solver *)
Definition half_tube : config QNum :=
  mkcfg (N := QNum) (mkix 2 1 1) (mkix 0 0 0) (fun _ => (Qmake 0 1, Qmake 1 1)) (Qmake 1 1) (Some (Qmake 1 4)) (Qmake 5 3)
    (Qmake 1 100) RS_upwind (mkbc (fun a p => match a, p with AX, SL => B_reflective | _, _ => B_outflow end) (fun _ _ => V_other) None false) false L_minmod false
    (mknad (N := QNum) (Qmake 1 1) M_global R_absolute None None false (Qmake 1 1)) false.
(** gas leaving the wall *)
Definition leaving (v : Z) (i : ix) : Q := if (v =? 0) || (v =? 1) then Qmake 1 1 else if v =? 4 then Qmake 2 1 else Qmake 0 1.
Definition parting (v : Z) (i : ix) : Q := if 2 <=? cx i then leaving v i else if v =? 1 then nopp (n := QNum) (leaving v i) else leaving v i.
Notation half_run := (simulate half_tube (fun _ _ _ => Qmake 0 1) I_euler true None (Some 1) true [] false 0 (mkarr 5 (mkix 2 1 1) leaving)).
Notation full_run := (simulate (doubled AX (plain_bc QNum B_outflow B_outflow) half_tube) (fun _ _ _ => Qmake 0 1) I_euler true None (Some 1) true [] false 0 (mkarr 5 (mkix 4 1 1) parting)).
Lemma half_value : OdeT.looked (fun o : run QNum => shp (o_u o)) half_run = Some (mkix 2 1 1).
Proof. vm_compute. reflexivity. Qed.
Lemma full_value : OdeT.looked (fun o : run QNum => (at_ (o_u o) 0 (mkix 1 0 0), at_ (o_u o) 0 (mkix 2 0 0))) full_run = Some (Qmake 0 1, Qmake 1 1).
Proof. vm_compute. reflexivity. Qed.
Lemma half_tab : tabulated half_tube.
Proof.
  split; [split|].
  - intros []; cbn; lia.
  - intros []; cbn; lia.
  - exists AX. intros [H _]. discriminate.
  - exact I.
  - intros []; cbn; lia.
Qed.
Lemma half_closed : closed half_tube.
Proof.
  intros []; [right|left; reflexivity|left; reflexivity]. split; [|discriminate]. intros []; split; try exact I; vm_compute; discriminate.
Qed.
Theorem upwind_torn : exists (c : config QNum) b' heap u u' o o',
  tabulated c /\ closed c /\ upper_at_both_ends AX (c_bc c) b' /\ bc_type (c_bc c) AX SL = B_reflective /\ ~ inactive c AX /\
  c_limit c = false /\ c_rs c = RS_upwind /\ shp u = c_n c /\ rows u = 5 /\ unfolded AX u u' /\
  simulate c heap I_euler true None (Some 1) true [] false 0 u = Ok o /\
  simulate (doubled AX b' c) heap I_euler true None (Some 1) true [] false 0 u' = Ok o' /\
  ~ unfolded AX (o_u o) (o_u o').
Proof.
  destruct (OdeT.looked_ok _ _ _ half_value) as (o & E & V). destruct (OdeT.looked_ok _ _ _ full_value) as (o' & E' & V').
  exists half_tube, (plain_bc QNum B_outflow B_outflow), (fun _ _ _ => Qmake 0 1), (mkarr 5 (mkix 2 1 1) leaving), (mkarr 5 (mkix 4 1 1) parting), o, o'.
  split; [exact half_tab|]. split; [exact half_closed|]. split; [intros [] []; reflexivity|]. split; [reflexivity|].
  split; [intros [H _]; discriminate|]. split; [reflexivity|]. split; [reflexivity|]. split; [reflexivity|]. split; [reflexivity|].
  split.
  { split; [reflexivity|]. split; [reflexivity|]. intros v i Hi. reflexivity. }
  split; [exact E|]. split; [exact E'|]. cbv beta in V, V'. intros (_ & S & U). cbv beta zeta in S, U. rewrite S, V in U. rewrite V in S.
  apply pair_equal_spec in V' as [V1 V2].
  pose proof (U 0 (mkix 1 0 0) ltac:(intros []; cbn; lia)) as U1. pose proof (U 0 (mkix 2 0 0) ltac:(intros []; cbn; lia)) as U2.
  rewrite V1 in U1. rewrite V2 in U2. cbn in U1, U2. rewrite <- U2 in U1. discriminate.
Qed.
