(** Data that do not vary along an axis: an example, and what the CFL condition does. *)
From Coq Require Import ZArith List Bool Lia Reals Lra.
From Verif Require Import Err Num NdArray FvM RiemannM StencilsM BcM SpecBc LimitM OdeM SolverM Spec SpecSolver SpecCons SpecScheme SpecSym SpecThin
  FvP OpP SolverP ExistP SchemeP UniformP MirrorP ThinP.
From Verif Require OdeT.
Import ListNotations.
Local Open Scope Z_scope.

(** a sheet of 12 by 9 cells, of degrees 3 and 4, and what is left of it with a single cell along y *)
Definition sheet : config RNum :=
  mkcfg (N := RNum) (mkix 12 9 1) (mkix 3 4 0) (fun _ => (0, 1)%R) (1/4)%R (Some (1/1000)%R) (5/3)%R (1/10000000000)%R RS_hllc
    (uniform_bc B_periodic) false L_minmod false (mknad (N := RNum) 1%R M_global R_absolute None None false 1%R) false.
Lemma sheet_tab : tabulated sheet.
Proof.
  split; [split|].
  - intros []; cbn; lia.
  - intros []; cbn; lia.
  - exists AX. intros [H _]. discriminate.
  - exact I.
  - intros []; cbn; lia.
Qed.
Lemma sheet_fills : closed sheet /\ (forall xc q, fillable xc sheet q).
Proof.
  assert (E : forall a, enough B_periodic (getc a (c_n sheet)) (getc a (ghost_zones3 sheet)) \/ getc a (ghost_zones3 sheet) = 0).
  { intros []; [left|left|right]; vm_compute; congruence || discriminate. }
  split.
  - intro a. destruct (E a) as [K|K]; [right|left; exact K]. split; [|auto]. intro pos. split; [exact I|exact K].
  - intros xc q a. destruct (E a) as [K|K]; [right|left; exact K]. split; [left; split; [exact I|exact K]|split; [left; split; [exact I|exact K]|auto]].
Qed.
(** a wave along x *)
Definition swell (v : Z) (i : ix) : R := if (v =? 0) || (v =? 4) then (2 + IZR (cx i mod 3))%R else 1%R.
Lemma sheet_case heap :
  tabulated sheet /\ closed sheet /\ (exists a, a <> AY /\ ~ inactive sheet a) /\ (forall pos, bc_type (c_bc sheet) AY pos <> B_reflective) /\
  extruded AY (mkarr 5 (mkix 12 1 1) swell) (mkarr 5 (c_n sheet) swell) /\
  exists o, simulate sheet heap I_ssprk3 true None (Some 5) true [] false 0 (mkarr 5 (c_n sheet) swell) = Ok o.
Proof.
  destruct sheet_fills as [C F]. split; [exact sheet_tab|]. split; [exact C|]. split; [exists AX; split; [discriminate|intros [H _]; discriminate]|].
  split; [intros pos; discriminate|]. split; [split; [reflexivity|split; [reflexivity|intros v i Hi; reflexivity]]|].
  destruct (runs_end RNum (fun _ _ => 0%R) sheet heap I_ssprk3 true 5 true [] false 0 (mkarr 5 (c_n sheet) swell)) as (o & E & _); auto; try (cbn; lia); try lia.
  - exact sheet_tab.
  - exists o. exact E.
Qed.

(** ** time steps from the CFL condition *)
Definition calm : config FNum :=
  mkcfg (N := FNum) (mkix 3 3 1) (mkix 0 0 0) (fun _ => (fof 0, fof 1)) (ndiv (nofZ 4) (nofZ 5)) None (ndiv (nofZ 5) (nofZ 3))
    (ndiv (nofZ 1) (nofZ 10000000000)) RS_hllc (uniform_bc B_periodic) false L_minmod false
    (mknad (N := FNum) (fof 1) M_global R_absolute None None false (fof 1)) false.
Definition calm_gas (v : Z) (i : ix) : f64 := if (v =? 0) || (v =? 4) then fof 1 else fof 0.
Notation calm_run := (simulate calm (fun _ _ _ => fof 0) I_euler true None (Some 1) true [] false 0 (mkarr 5 (mkix 3 3 1) calm_gas)).
Notation row_run := (simulate (thin AY calm) (fun _ _ _ => fof 0) I_euler true None (Some 1) true [] false 0 (mkarr 5 (mkix 3 1 1) calm_gas)).
Lemma calm_value : OdeT.looked (fun o : run FNum => o_t o) calm_run = Some (SpecFloat.S754_finite false 4557322397432434 (-55)).
Proof. vm_compute. reflexivity. Qed.
Lemma row_value : OdeT.looked (fun o : run FNum => o_t o) row_run = Some (SpecFloat.S754_finite false 4557322397432434 (-54)).
Proof. vm_compute. reflexivity. Qed.
Lemma calm_tab : tabulated calm.
Proof.
  split; [split|].
  - intros []; cbn; lia.
  - intros []; cbn; lia.
  - exists AX. intros [H _]. discriminate.
  - exact I.
  - intros []; cbn; lia.
Qed.
Lemma calm_closed : closed calm.
Proof. intro a. right. split; [|auto]. intro pos. split; [exact I|]. destruct a; vm_compute; discriminate. Qed.
Theorem half_step : exists (c : config FNum) heap e u u' o o',
  tabulated c /\ closed c /\ c_limit c = false /\ (exists a, a <> e /\ ~ inactive c a) /\ (forall pos, bc_type (c_bc c) e pos = B_periodic) /\
  c_fixed_dt c = None /\ shp u' = c_n c /\ rows u = 5 /\ extruded e u u' /\
  simulate (thin e c) heap I_euler true None (Some 1) true [] false 0 u = Ok o /\
  simulate c heap I_euler true None (Some 1) true [] false 0 u' = Ok o' /\
  o_t o = nmul (n := FNum) (nofZ (n := FNum) 2) (o_t o').
Proof.
  destruct (OdeT.looked_ok _ _ _ row_value) as (o & E & V). destruct (OdeT.looked_ok _ _ _ calm_value) as (o' & E' & V').
  exists calm, (fun _ _ _ => fof 0), AY, (mkarr 5 (mkix 3 1 1) calm_gas), (mkarr 5 (mkix 3 3 1) calm_gas), o, o'.
  split; [exact calm_tab|]. split; [exact calm_closed|]. split; [reflexivity|]. split; [exists AX; split; [discriminate|intros [H _]; discriminate]|].
  split; [reflexivity|]. split; [reflexivity|]. split; [reflexivity|]. split; [reflexivity|].
  split; [split; [reflexivity|split; [reflexivity|intros v i Hi; reflexivity]]|]. split; [exact E|]. split; [exact E'|].
  rewrite V, V'. vm_compute. reflexivity.
Qed.
