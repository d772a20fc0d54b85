(** Passive scalars: an example of a bounded run, and an unbounded one of higher order. *)
From Coq Require Import ZArith List Bool Lia Reals Lra.
From Verif Require Import Err Num NdArray FvM RiemannM StencilsM BcM SpecBc LimitM OdeM SolverM Spec SpecSolver SpecCons SpecScheme SpecSym SpecPos SpecMix
  FvP OpP SolverP ExistP SchemeP MirrorP PosP HllcPosP HllcPosQ.
From Verif Require OdeT.
Import ListNotations.
Open Scope R_scope.

(** the two streams, one of them dyed *)
Definition dyed (v : Z) (i : ix) : R := if (v =? 5)%Z then if (cx i <? 6)%Z then 1 else 0 else streams v i.
Lemma dyed_gas : gas_everywhere (mkarr 6 (mkix 12 1 1) dyed).
Proof.
  pose proof streams_gas as G. intros i Hi. specialize (G i Hi). exact G.
Qed.
Lemma dyed_mixed : mixed_within 0 1 5 (mkarr 6 (mkix 12 1 1) dyed).
Proof. intros i Hi. unfold dyed, streams. cbn [at_ Z.eqb Pos.eqb]. destruct (cx i <? 6)%Z; lra. Qed.
Lemma dyed_runs heap k f : (1 <= k)%Z -> exists o, simulate pipe heap I_euler true None (Some k) true [] false 0 (mkarr 6 (mkix 12 1 1) f) = Ok o.
Proof.
  intro K. destruct pipe_ok as (T & _ & F).
  destruct (runs_end RNum (fun _ _ => 0%R) pipe heap I_euler true k true [] false 0 (mkarr 6 (mkix 12 1 1) f)) as (o & E & _); auto; try (cbn; lia); try lia.
  exists o. exact E.
Qed.

(** ** third order *)
Open Scope Z_scope.
Definition ink : config FNum :=
  mkcfg (N := FNum) (mkix 6 1 1) (mkix 2 0 0) (fun _ => (fof 0, fof 1)) (ndiv (nofZ 1) (nofZ 4)) None (ndiv (nofZ 5) (nofZ 3))
    (ndiv (nofZ 1) (nofZ 10000000000)) RS_hllc (uniform_bc B_periodic) false L_minmod false
    (mknad (N := FNum) (fof 1) M_global R_absolute None None false (fof 1)) false.
(** gas of density 1 and pressure 1 moving with speed 1, dyed in two cells *)
Definition ink_gas (v : Z) (i : ix) : f64 :=
  if v =? 0 then fof 1 else if v =? 1 then fof 1 else if v =? 4 then fof 2
  else if v =? 5 then if (cx i =? 2) || (cx i =? 3) then fof 1 else fof 0 else fof 0.
Definition spilt (o : run FNum) : bool :=
  (nltb (at_ (o_u o) 5 (mkix 1 0 0)) (fof 0) && nltb (nofZ (n := FNum) 1) (at_ (o_u o) 5 (mkix 3 0 0)))%bool.
Notation ink_run := (simulate ink (fun _ _ _ => fof 0) I_euler true None (Some 1) true [] false 0 (mkarr 6 (mkix 6 1 1) ink_gas)).
Lemma ink_value : OdeT.looked spilt ink_run = Some true.
Proof. vm_compute. reflexivity. Qed.
Lemma ink_spilt : exists o, ink_run = Ok o /\ spilt o = true.
Proof. exact (OdeT.looked_ok spilt _ _ ink_value). Qed.
Lemma ink_ok : gas_test (N := FNum) (mkarr 6 (mkix 6 1 1) ink_gas) = true.
Proof. vm_compute. reflexivity. Qed.
Lemma ink_unbounded : exists (c : config FNum) heap u0 o,
  c_rs c = RS_hllc /\ c_fixed_dt c = None /\ c_limit c = false /\ c_p c = mkix 2 0 0 /\ c_n c = mkix 6 1 1 /\ shp u0 = c_n c /\
  gas_test (N := FNum) u0 = true /\
  (forall i, at_ u0 0 i = nofZ 1 /\ (at_ u0 5 i = nofZ 0 \/ at_ u0 5 i = nofZ 1)) /\
  simulate c heap I_euler true None (Some 1) true [] false 0 u0 = Ok o /\
  nltb (at_ (o_u o) 5 (mkix 1 0 0)) (nofZ 0) = true /\ nltb (nofZ 1) (at_ (o_u o) 5 (mkix 3 0 0)) = true.
Proof.
  destruct ink_spilt as (o & E & V). apply andb_true_iff in V. destruct V as [V1 V2].
  exists ink, (fun _ _ _ => fof 0), (mkarr 6 (mkix 6 1 1) ink_gas), o.
  split; [reflexivity|]. split; [reflexivity|]. split; [reflexivity|]. split; [reflexivity|]. split; [reflexivity|]. split; [reflexivity|].
  split; [exact ink_ok|]. split; [|split; [exact E|split; [exact V1|exact V2]]].
  intro i. cbn [at_]. unfold ink_gas. cbn [Z.eqb Pos.eqb]. split; [reflexivity|]. destruct ((cx i =? 2) || (cx i =? 3))%bool; [right|left]; reflexivity.
Qed.
