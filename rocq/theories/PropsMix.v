(** C72: concentrations of passive scalars. Stated here, proved elsewhere. *)
From Coq Require Import ZArith List Bool Lia Reals Lra.
From Verif Require Import Err Num NdArray FvM RiemannM StencilsM BcM SpecBc LimitM OdeM SolverM Spec SpecSolver SpecCons SpecScheme SpecSym SpecPos SpecMix
  FvP OpP SolverP ExistP SchemeP MirrorP PosP HllcPosP HllcPosQ MixP MixQ.
Import ListNotations.
Open Scope R_scope.

(** C72. In a first-order run with forward Euler steps the concentration of a passive scalar stays
    between any bounds it satisfies at the start, in every cell and in every snapshot: with the LLF
    flux if the CFL number times the number of active axes is at most 1, with the HLLC flux if it
    is at most 1/4. *)
Theorem C72_scalar_bounds : forall lo hi v (c : config RNum) heap as_averages T n exact downbeats log fuel u0 o,
  ~ (0 <= v <= 4)%Z -> tabulated c -> closed c -> c_limit c = false -> first_order c -> c_fixed_dt c = None ->
  1 < c_gamma c -> (forall a, 0 < width c a) -> 0 < c_CFL c ->
  (c_rs c = RS_llf /\ c_CFL c * active_axes c <= 1 \/ c_rs c = RS_hllc /\ 0 < c_csq_floor c /\ c_CFL c * active_axes c <= 1/4) ->
  shp u0 = c_n c -> (1 <= rows u0)%Z -> gas_everywhere u0 -> mixed_within lo hi v u0 -> Forall (fun x => 0 <= x) downbeats ->
  simulate c heap I_euler as_averages T n exact downbeats log fuel u0 = Ok o ->
  mixed_within lo hi v (o_u o) /\ Forall (fun s => concentration_within lo hi v (fst (snd s))) (o_snaps o).
Proof. exact mixed_runs. Qed.
Print Assumptions C72_scalar_bounds.
(** two streams leaving each other between walls, one of them dyed *)
Example C72_case : forall heap, tabulated pipe /\ closed pipe /\ first_order pipe /\ (forall a, 0 < width pipe a) /\
  0 < c_csq_floor pipe /\ c_CFL pipe * active_axes pipe <= 1/4 /\ gas_everywhere (mkarr 6 (mkix 12 1 1) dyed) /\
  mixed_within 0 1 5 (mkarr 6 (mkix 12 1 1) dyed) /\
  exists o, simulate pipe heap I_euler true None (Some 20%Z) true [] false 0 (mkarr 6 (mkix 12 1 1) dyed) = Ok o.
Proof.
  intro heap. destruct pipe_ok as (T & C & _). split; [exact T|]. split; [exact C|]. split; [intros []; reflexivity|].
  split; [intros []; unfold width; cbn; lra|]. split; [cbn; lra|]. split; [unfold active_axes; cbn; lra|]. split; [exact dyed_gas|].
  split; [exact dyed_mixed|apply dyed_runs; lia].
Qed.

(** The mass of the dye that crosses a face with the HLLC flux is the mass of gas that crosses it
    times the concentration on the side it comes from. *)
Theorem C72_upwind : forall gamma floor d v (ul ur : state), ~ (0 <= v <= 4)%Z -> 1 < gamma -> 0 < floor -> gas ul -> gas ur ->
  let flux := hllc RNum gamma floor d (primitive gamma ul) (primitive gamma ur) in
  (0 <= flux 0%Z /\ flux v = flux 0%Z * (ul v / ul 0%Z)) \/ (flux 0%Z <= 0 /\ flux v = flux 0%Z * (ur v / ur 0%Z)).
Proof. exact hllc_carried. Qed.
Print Assumptions C72_upwind.
Example C72_upwind_case : let w p v r := if (r =? 0)%Z then 1 else if (r =? 1)%Z then v else if (r =? 4)%Z then p else 0 in
  gas (w 1 1) /\ gas (w 2 (-1)).
Proof. cbv zeta. unfold gas. cbn. lra. Qed.

(** With quadratic reconstruction and no slope limiting (the default) this fails: in a uniform flow
    with concentrations 0 and 1, one step leaves a cell below 0 and a cell above 1 (binary64). *)
Theorem C72_higher_order_refuted : exists (c : config FNum) heap u0 o,
  c_rs c = RS_hllc /\ c_fixed_dt c = None /\ c_limit c = false /\ c_p c = mkix 2 0 0 /\ c_n c = mkix 6 1 1 /\ shp u0 = c_n c /\
  gas_test (N := FNum) u0 = true /\
  (forall i, at_ u0 0%Z i = nofZ 1 /\ (at_ u0 5%Z i = nofZ 0 \/ at_ u0 5%Z i = nofZ 1)) /\
  simulate c heap I_euler true None (Some 1%Z) true [] false 0 u0 = Ok o /\
  nltb (at_ (o_u o) 5%Z (mkix 1 0 0)) (nofZ 0) = true /\ nltb (nofZ 1) (at_ (o_u o) 5%Z (mkix 3 0 0)) = true.
Proof. exact ink_unbounded. Qed.
Print Assumptions C72_higher_order_refuted.
