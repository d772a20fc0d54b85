(** Property C65: constructing a BoundaryCondition. *)
From Coq Require Import ZArith List Bool String.
From Verif Require Import Err HydroStateM NdArray FvM BcM ArrMgrM SpecTimer BcObjM SpecBcObj BcObjP.
Import ListNotations.
Local Open Scope nat_scope.
Local Open Scope string_scope.

(** C65: when the construction succeeds, types and values stand for the fields given (a pair as
    it is, a single one for both ends); every NumPy array among the values and every slab
    coordinate is in the array manager under its own name, which was free, with the contents it
    had; the object refers to the manager's array; nothing else changes in the manager. *)
Theorem C65_constructed : forall T V (extent : V -> nat -> res Z) (f : fields T) (s s' : state V) b, post_init extent f s = (s', Ok b) ->
  (forall a, stands_for (f_type f a) (b_type b a)) /\
  exists val, (forall a, stands_for (f_value f a) (val a)) /\
    (forall a sd, holds_value s s' (value_name a sd) (at_end sd (val a)) (at_end sd (b_value b a))) /\
    grown s s' (taken_names val (match f_slabs f with Some _ => true | None => false end)) /\
    b_slabs b = f_slabs f /\
    match f_slabs f with
    | None => b_buffer b = (0, 0, 0)%Z
    | Some d => (forall a sd, slab_held s s' d a sd) /\
        exists nx ny nz, b_buffer b = (nx, ny, nz) /\
          slab_extent_is extent (snd s') d "xl" 0 nx /\ slab_extent_is extent (snd s') d "yl" 1 ny /\ slab_extent_is extent (snd s') d "zl" 2 nz
    end.
Proof. exact (@constructed). Qed.
Print Assumptions C65_constructed.
(** arrays at both ends of x on a device, a function at both ends of y, slabs of three cells *)
Example C65_case : exists s' b, post_init (fun (v : nat) _ => Ok 3%Z) case_fields (mkam true true [], [7; 8; 9]) = (s', Ok b) /\
  b_value b AX = (Array CuPy 3, Array CuPy 4) /\ b_value b AY = (Thing 5, Thing 5) /\ b_buffer b = (3, 3, 3)%Z /\
  contents (Arr CuPy 3) (snd s') = Some 7 /\ contents (Arr CuPy 4) (snd s') = Some 8 /\
  List.length (m_arrays (fst s')) = 20.
Proof. exact case_built. Qed.
(** Two boundary conditions cannot share a manager if both put an array at the same end, or if
    both have slabs: the second construction raises. *)
Theorem C65_same_manager_refuted : forall T V (extent : V -> nat -> res Z) (f g : fields T) (s s1 s2 : state V) b c vf vg n,
  post_init extent f s = (s1, Ok b) ->
  (forall a, stands_for (f_value f a) (vf a)) -> (forall a, stands_for (f_value g a) (vg a)) ->
  In n (taken_names vf (match f_slabs f with Some _ => true | None => false end)) ->
  In n (taken_names vg (match f_slabs g with Some _ => true | None => false end)) -> post_init extent g s1 <> (s2, Ok c).
Proof. intros T V extent f g s s1 s2 b c vf vg n. exact (same_manager extent f g s s1 s2 b c vf vg n). Qed.
Print Assumptions C65_same_manager_refuted.
Example C65_same_manager_case : exists s1 b s2, post_init (fun (v : nat) _ => Ok 3%Z) case_fields (mkam false false [], [7; 8; 9]) = (s1, Ok b) /\
  post_init (fun (v : nat) _ => Ok 3%Z) case_fields s1 = (s2, Err KeyError).
Proof. exact case_again. Qed.
(** Without CuPy the boundary condition does not copy: it shares the buffer of the caller, and
    one array given for both ends serves both. *)
Theorem C65_copy_refuted : forall T V (extent : V -> nat -> res Z) (f : fields T) (s s' : state V) b a p,
  post_init extent f s = (s', Ok b) -> m_using (fst s) = false ->
  p < List.length (snd s) -> f_value f a = Arg_one (Array NumPy p) ->
  b_value b a = (Array NumPy p, Array NumPy p) /\ forall w, contents (Arr NumPy p) (store p w (snd s')) = Some w.
Proof. exact (@shared). Qed.
Print Assumptions C65_copy_refuted.
(** A construction that raises can leave names behind, so that trying again raises too. *)
Theorem C65_undone_refuted : exists (f : fields nat) (s s1 : state nat) e, post_init (fun _ _ => Ok 3%Z) f s = (s1, Err e) /\ s1 <> s /\
  let m := fst s1 in let freed := mkam (m_cupy m) (m_using m) (ddel "bc_yl_value" (m_arrays m)) in
  exists s2, post_init (fun _ _ => Ok 3%Z) f (freed, snd s1) = (s2, Err KeyError).
Proof. exact left_behind. Qed.
Print Assumptions C65_undone_refuted.
(** reset_value replaces the value at one end and nothing else. *)
Theorem C65_reset : forall T a pos v (b : bcobj T),
  (pos = "l" \/ pos = "r" -> exists b' sd, reset_value a pos v b = Ok b' /\ pos_name sd = pos /\
     b_type b' = b_type b /\ b_slabs b' = b_slabs b /\ b_buffer b' = b_buffer b /\
     forall a' sd', at_end sd' (b_value b' a') = if (axis_eqb a' a && String.eqb (pos_name sd') pos)%bool then v else at_end sd' (b_value b a')) /\
  (pos <> "l" -> pos <> "r" -> reset_value a pos v b = Err ValueError).
Proof. exact (@reset_ok). Qed.
Print Assumptions C65_reset.
(** The dictionary written beside the snapshots tells the types; it does not tell the values. *)
Theorem C65_to_dict : forall T (b : bcobj T) a, dget (dim_name a) (bc_to_dict b) = Some (b_type b a).
Proof. intros T b []; reflexivity. Qed.
Print Assumptions C65_to_dict.
Theorem C65_to_dict_refuted : exists b c : bcobj nat, bc_to_dict b = bc_to_dict c /\ b_value b AX <> b_value c AX.
Proof. exact dict_forgets. Qed.
Print Assumptions C65_to_dict_refuted.
