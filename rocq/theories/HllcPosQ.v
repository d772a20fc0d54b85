(** First-order HLLC: an example of a run that stays positive and one that does not. *)
From Coq Require Import ZArith List Bool Lia Reals Lra.
From Verif Require Import Err Num NdArray FvM RiemannM StencilsM BcM SpecBc LimitM OdeM SolverM Spec SpecSolver SpecCons SpecScheme SpecSym SpecPos
  FvP OpP SolverP ExistP SchemeP MirrorP PosP HllcPosP.
From Verif Require OdeT.
Import ListNotations.
Open Scope R_scope.

(** ** between walls, with a CFL number of 1/4 *)
Definition pipe : config RNum :=
  mkcfg (N := RNum) (mkix 12 1 1) (mkix 0 0 0) (fun _ => (0, 1)) (1/4) None (5/3) (1/10000000000) RS_hllc (uniform_bc B_reflective) false L_minmod false
    (mknad (N := RNum) 1 M_global R_absolute None None false 1) false.
Lemma pipe_ok : tabulated pipe /\ closed pipe /\ (forall xc q, fillable xc pipe q).
Proof.
  assert (T : tabulated pipe).
  { split; [split|].
    - intros []; cbn; lia.
    - intros []; cbn; lia.
    - exists AX. intros [H _]. discriminate.
    - exact I.
    - intros []; cbn; lia. }
  assert (E : forall a, enough B_reflective (getc a (c_n pipe)) (getc a (ghost_zones3 pipe))).
  { intros []; vm_compute; discriminate. }
  split; [exact T|]. split.
  - intro a. right. split; [|auto]. intro pos. split; [exact I|apply E].
  - intros xc q a. right. split; [left; split; [exact I|apply E]|split; [left; split; [exact I|apply E]|auto]].
Qed.
Lemma pipe_runs heap k f : (1 <= k)%Z -> exists o, simulate pipe heap I_euler true None (Some k) true [] false 0 (mkarr 5 (mkix 12 1 1) f) = Ok o.
Proof.
  intro K. destruct pipe_ok as (T & _ & F).
  destruct (runs_end RNum (fun _ _ => 0%R) pipe heap I_euler true k true [] false 0 (mkarr 5 (mkix 12 1 1) f)) as (o & E & _); auto; try (cbn; lia); try lia.
  exists o. exact E.
Qed.

(** ** the defaults of the constructor in one dimension *)
Open Scope Z_scope.
Definition slug : config FNum :=
  mkcfg (N := FNum) (mkix 3 1 1) (mkix 0 0 0) (fun _ => (fof 0, fof 1)) (ndiv (nofZ 4) (nofZ 5)) None (ndiv (nofZ 5) (nofZ 3))
    (ndiv (nofZ 1) (nofZ 10000000000)) RS_hllc (uniform_bc B_periodic) false L_minmod false
    (mknad (N := FNum) (fof 1) M_global R_absolute None None false (fof 1)) false.
(** cold gas, five times denser in the middle, where it runs into hot gas *)
Definition slug_gas (v : Z) (i : ix) : f64 :=
  if v =? 0 then if cx i =? 1 then fof 5 else fof 1 else if v =? 1 then if cx i =? 1 then fof 500 else fof 0
  else if v =? 4 then if cx i =? 0 then fof 1 else if cx i =? 1 then fof 25001 else fof 9000
  else fof 0.
Definition cold (o : run FNum) : bool :=
  (nltb (nofZ (n := FNum) 0) (at_ (o_u o) 0 (mkix 1 0 0)) && negb (gas_test (N := FNum) (o_u o))
   && match rev (o_snaps o) with s :: _ => nltb (at_ (fst (snd s)) 4 (mkix 1 0 0)) (fof 0) | [] => false end)%bool.
Notation slug_run := (simulate slug (fun _ _ _ => fof 0) I_euler true None (Some 1) true [] false 0 (mkarr 5 (mkix 3 1 1) slug_gas)).
Lemma slug_value : OdeT.looked cold slug_run = Some true.
Proof. vm_compute. reflexivity. Qed.
Lemma slug_cold : exists o, slug_run = Ok o /\ cold o = true.
Proof. exact (OdeT.looked_ok cold _ _ slug_value). Qed.
Lemma slug_gas_ok : gas_test (N := FNum) (mkarr 5 (mkix 3 1 1) slug_gas) = true.
Proof. vm_compute. reflexivity. Qed.
Lemma slug_drained : exists (c : config FNum) heap u0 o s,
  first_order c /\ c_rs c = RS_hllc /\ c_fixed_dt c = None /\ c_CFL c = ndiv (nofZ 4) (nofZ 5) /\ c_gamma c = ndiv (nofZ 5) (nofZ 3) /\
  c_n c = mkix 3 1 1 /\ shp u0 = c_n c /\ gas_test (N := FNum) u0 = true /\
  simulate c heap I_euler true None (Some 1) true [] false 0 u0 = Ok o /\
  In s (o_snaps o) /\ nltb (at_ (fst (snd s)) 4 (mkix 1 0 0)) (nofZ 0) = true.
Proof.
  destruct slug_cold as (o & E & M). unfold cold in M. apply andb_true_iff in M. destruct M as [_ M].
  destruct (rev (o_snaps o)) as [|s l] eqn:ER; [discriminate|].
  exists slug, (fun _ _ _ => fof 0), (mkarr 5 (mkix 3 1 1) slug_gas), o, s.
  split; [intros []; reflexivity|]. split; [reflexivity|]. split; [reflexivity|]. split; [reflexivity|]. split; [reflexivity|]. split; [reflexivity|].
  split; [reflexivity|]. split; [exact slug_gas_ok|]. split; [exact E|]. split; [|exact M].
  apply in_rev. rewrite ER. left. reflexivity.
Qed.
