(** A frame that moves along an ignorable axis: an example, and what the CFL condition does. *)
From Coq Require Import ZArith List Bool Lia Reals Lra.
From Verif Require Import Err Num NdArray FvM RiemannM StencilsM BcM SpecBc LimitM OdeM SolverM Spec SpecSolver SpecCons SpecScheme SpecSym SpecBoost
  FvP OpP SolverP ExistP SchemeP UniformP MirrorP BoostP.
From Verif Require OdeT.
Import ListNotations.
Local Open Scope R_scope.

(** an open tube of twelve cells *)
Definition tube : config RNum :=
  mkcfg (N := RNum) (mkix 12 1 1) (mkix 0 0 0) (fun _ => (0, 1)) (1/4) (Some (1/100)) (5/3) (1/10000000000) RS_hllc (uniform_bc B_outflow) false L_minmod false
    (mknad (N := RNum) 1 M_global R_absolute None None false 1) false.
Lemma tube_ok : tabulated tube /\ closed tube /\ (forall xc q, fillable xc tube q).
Proof.
  assert (T : tabulated tube).
  { split; [split|].
    - intros []; cbn; lia.
    - intros []; cbn; lia.
    - exists AX. intros [H _]. discriminate.
    - exact I.
    - intros []; cbn; lia. }
  assert (E : forall a, enough B_outflow (getc a (c_n tube)) (getc a (ghost_zones3 tube))).
  { intros []; vm_compute; discriminate. }
  split; [exact T|]. split.
  - intro a. right. split; [|auto]. intro pos. split; [exact I|apply E].
  - intros xc q a. right. split; [left; split; [exact I|apply E]|split; [left; split; [exact I|apply E]|auto]].
Qed.
Lemma tube_case heap : let c := tube in let u := mkarr 5 (c_n c) (fun v _ => wind v) in
  tabulated c /\ closed c /\ inactive c AY /\ test_of_cells physical_b /\
  (forall w, shp w = c_n c -> physical_b w = true -> dense_centres (wts_i RNum) c (filled c w)) /\
  (exists u', boosted (N := RNum) 7 AY u u' /\ at_ u' 2 (mkix 0 0 0) = 5) /\
  exists o, simulate_checked (N := RNum) physical_b c heap I_ssprk3 false None (Some 7%Z) true [] false 0 u = Ok o.
Proof.
  cbv zeta. destruct tube_ok as (T & C & F).
  split; [exact T|]. split; [exact C|]. split; [split; reflexivity|]. split; [exact physical_b_cells|]. split; [|split].
  - intros w Sw O. apply dense_degree0; auto; [intros []; reflexivity|]. apply physical_b_spec, O.
  - exists (mkarr 5 (c_n tube) (fun v i => boost (N := RNum) 7 AY wind v)). split.
    + split; [reflexivity|]. split; [reflexivity|]. intros v j _. reflexivity.
    + change (-2 + 7 * 1 = 5). lra.
  - destruct (runs_end RNum (fun _ _ => 0) tube heap I_ssprk3 false 7 true [] false 0 (mkarr 5 (c_n tube) (fun v _ => wind v))) as (o & E & _); auto; try (cbn; lia); try lia.
    exists o. apply (uniform_physical tube heap I_ssprk3 false None (Some 7%Z) true [] false 0%nat (mkarr 5 (c_n tube) (fun v _ => wind v)) wind); auto.
    + intros a pos _. discriminate.
    + cbn. lia.
    + intros v j _. reflexivity.
    + change (0 < 1). lra.
    + change (0 <= 5 - 1/2 * (1 * 1 + -2 * -2 + 1/2 * (1/2)) / 1). lra.
Qed.

(** ** time steps from the CFL condition *)
Local Open Scope Z_scope.
Definition still : config FNum :=
  mkcfg (N := FNum) (mkix 3 1 1) (mkix 0 0 0) (fun _ => (fof 0, fof 1)) (ndiv (nofZ 4) (nofZ 5)) None (ndiv (nofZ 5) (nofZ 3))
    (ndiv (nofZ 1) (nofZ 10000000000)) RS_hllc (uniform_bc B_periodic) false L_minmod false
    (mknad (N := FNum) (fof 1) M_global R_absolute None None false (fof 1)) false.
Definition still_gas (v : Z) (i : ix) : f64 := if (v =? 0) || (v =? 4) then fof 1 else fof 0.
Definition sliding_gas (v : Z) (i : ix) : f64 := boost (N := FNum) (fof 2) AY (fun r => still_gas r i) v.
Notation still_run := (simulate still (fun _ _ _ => fof 0) I_euler true None (Some 1) true [] false 0 (mkarr 5 (mkix 3 1 1) still_gas)).
Notation sliding_run := (simulate still (fun _ _ _ => fof 0) I_euler true None (Some 1) true [] false 0 (mkarr 5 (mkix 3 1 1) sliding_gas)).
Lemma still_value : OdeT.looked (fun o : run FNum => o_t o) still_run = Some (SpecFloat.S754_finite false 4557322397432434 (-54)).
Proof. vm_compute. reflexivity. Qed.
Lemma sliding_value : OdeT.looked (fun o : run FNum => o_t o) sliding_run = Some (SpecFloat.S754_finite false 6291675210952181 (-56)).
Proof. vm_compute. reflexivity. Qed.
Lemma still_tab : tabulated still.
Proof.
  split; [split|].
  - intros []; cbn; lia.
  - intros []; cbn; lia.
  - exists AX. intros [H _]. discriminate.
  - exact I.
  - intros []; cbn; lia.
Qed.
Lemma still_closed : closed still.
Proof.
  intro a. right. split; [|auto]. intro pos. split; [exact I|]. destruct a; vm_compute; discriminate.
Qed.
Theorem slower_clock : exists (c : config FNum) heap a W u u' o o',
  tabulated c /\ closed c /\ c_limit c = false /\ inactive c a /\ c_fixed_dt c = None /\ shp u = c_n c /\ rows u = 5 /\
  (forall i, at_ u 0 i = nofZ (n := FNum) 1) /\ boosted W a u u' /\
  simulate c heap I_euler true None (Some 1) true [] false 0 u = Ok o /\
  simulate c heap I_euler true None (Some 1) true [] false 0 u' = Ok o' /\
  nltb (n := FNum) (nmul (n := FNum) (nofZ (n := FNum) 2) (o_t o')) (o_t o) = true.
Proof.
  destruct (OdeT.looked_ok (fun o : run FNum => o_t o) _ _ still_value) as (o & E & V).
  destruct (OdeT.looked_ok (fun o : run FNum => o_t o) _ _ sliding_value) as (o' & E' & V').
  exists still, (fun _ _ _ => fof 0), AY, (fof 2), (mkarr 5 (mkix 3 1 1) still_gas), (mkarr 5 (mkix 3 1 1) sliding_gas), o, o'.
  split; [exact still_tab|]. split; [exact still_closed|]. split; [reflexivity|]. split; [split; reflexivity|]. split; [reflexivity|].
  split; [reflexivity|]. split; [reflexivity|]. split; [reflexivity|]. split; [split; [reflexivity|]; split; [reflexivity|]; intros; reflexivity|].
  split; [exact E|]. split; [exact E'|]. cbv beta in V, V'. rewrite V, V'. vm_compute. reflexivity.
Qed.
