(** Theorems on boundary conditions (C17-C21, C57). Valid for every arithmetic unless the
    statement mentions RNum. Cells are addressed by global index: cell i of the domain is
    entry i + g of the padded array. *)
From Coq Require Import ZArith List Bool Reals Lia.
From Verif Require Import Err Num NdArray HydroM FvM BcM SpecBc SpecMesh BcP BcQ.
Import ListNotations.
Open Scope Z_scope.

(** C17. *)
Theorem C17_interior_unchanged : forall (N : Num) b junk u g t out,
  (forall a, 0 <= getc a (shp u)) -> apply N b junk u g t = Ok out ->
  rows out = rows u /\ shp out = padded (shp u) g /\ (forall a, 0 <= getc a g) /\
  forall v i, in_shape (shp u) i -> at_ out v (shift g i) = at_ u v i.
Proof. exact apply_keeps. Qed.
Print Assumptions C17_interior_unchanged.
Theorem C17_inactive_axis : forall (N : Num) (b b' : bcond N) junk u g t,
  bc_slabs b = bc_slabs b' -> bc_cupy b = bc_cupy b' ->
  (forall a, getc a g <> 0 -> forall pos, bc_type b a pos = bc_type b' a pos /\ bc_val b a pos = bc_val b' a pos) ->
  apply N b junk u g t = apply N b' junk u g t.
Proof. exact apply_inconsequential. Qed.
Print Assumptions C17_inactive_axis.
Example C17_hypotheses : forall (N : Num) junk t, exists out,
  apply N (plain_bc N B_reflective B_outflow) junk (row_array 8) (mkix 3 0 0) t = Ok out.
Proof. intros. eexists. reflexivity. Qed.

(** C18. *)
Theorem C18_periodic : forall (N : Num) b junk u g t,
  (forall a, 1 <= getc a (shp u)) ->
  (forall a, 0 <= getc a g <= getc a (shp u)) ->
  (forall a, getc a g <> 0 -> bc_type b a SL = B_periodic /\ bc_type b a SR = B_periodic) ->
  exists out, apply N b junk u g t = Ok out /\ rows out = rows u /\ shp out = padded (shp u) g /\
    forall v i, in_shape (padded (shp u) g) i ->
      at_ out v i = at_ u v (mkix ((cx i - cx g) mod cx (shp u)) ((cy i - cy g) mod cy (shp u))
                                  ((cz i - cz g) mod cz (shp u))).
Proof. exact apply_periodic. Qed.
Print Assumptions C18_periodic.
Example C18_hypotheses : let s := mkix 4 5 1 in let g := mkix 3 5 0 in
  (forall a, 1 <= getc a s) /\ (forall a, 0 <= getc a g <= getc a s).
Proof. cbv zeta. split; intros []; cbn; lia. Qed.
(** With more ghost cells than cells a periodic or symmetric boundary copies uninitialised
    memory: whatever two values the allocator could have left behind reach the result. *)
Theorem C18_wide_ghosts_refuted : forall (N : Num) (x y : car N) t,
  exists junk junk' out out',
    apply N (plain_bc N B_periodic B_periodic) junk (row_array 1) (mkix 2 0 0) t = Ok out /\
    apply N (plain_bc N B_periodic B_periodic) junk' (row_array 1) (mkix 2 0 0) t = Ok out' /\
    in_shape (shp out) (mkix 0 0 0) /\
    at_ out 0 (mkix 0 0 0) = x /\ at_ out' 0 (mkix 0 0 0) = y.
Proof. exact wide_ghosts. Qed.
Print Assumptions C18_wide_ghosts_refuted.

(** C19. Any mixture of periodic, free, outflow and reflective sides: every padded cell,
    corners included, copies the cell of the domain given by [folded3]; [negated3] holds
    exactly for the momentum normal to a reflecting side behind which the cell lies. *)
Theorem C19_copying_boundaries : forall (N : Num) b junk u g t,
  (forall a, 0 <= getc a (shp u)) -> (forall a, 0 <= getc a g) ->
  (forall a, copy_axis b (shp u) g a) ->
  exists out, apply N b junk u g t = Ok out /\ rows out = rows u /\ shp out = padded (shp u) g /\
    forall v i, in_padded (shp u) g i ->
      in_shape (shp u) (folded3 b (shp u) i) /\
      at_ out v (shift g i) =
      let x := at_ u v (folded3 b (shp u) i) in
      if negated3 b (shp u) i v then nmul x (nofZ (-1)) else x.
Proof. exact apply_copies. Qed.
Print Assumptions C19_copying_boundaries.
Example C19_hypotheses : forall N a, copy_axis (plain_bc N B_reflective B_free) (mkix 4 4 4) (mkix 3 2 0) a.
Proof.
  intros N [| |]; [right|right|left; reflexivity]; (split; [intros []; cbn; lia|discriminate]).
Qed.
(** what [folded] and [negated] mean for each kind of side *)
Example C19_meaning : forall n k,
  (k < 0 -> forall r, folded B_free r n k = 0 /\ folded B_outflow r n k = -1 - k /\
     folded B_reflective r n k = -1 - k /\ folded B_periodic r n k = k + n /\
     negated B_reflective r n k = true /\ negated B_outflow r n k = false) /\
  (0 <= n <= k -> forall l, folded l B_free n k = n - 1 /\ folded l B_outflow n k = 2 * n - 1 - k /\
     folded l B_reflective n k = 2 * n - 1 - k /\ folded l B_periodic n k = k - n /\
     negated l B_reflective n k = true /\ negated l B_free n k = false).
Proof. exact folded_meaning. Qed.

(** C20. Exact arithmetic for the coordinates. The cell is a ghost cell of side (a, pos) and
    inside the domain along the axes treated after a. *)
Theorem C20_dirichlet_function : forall b junk u g t bx by_ bz buf a pos f,
  (forall d, 1 <= getc d (shp u)) -> (forall d, 0 <= getc d g <= getc d buf) ->
  bc_slabs b = Some (slab_mesh RNum (shp u) bx by_ bz buf) ->
  (forall d p, getc d g <> 0 ->
     (copies (bc_type b d p) /\ enough (bc_type b d p) (getc d (shp u)) (getc d g)) \/
     (prescribes (bc_type b d p) /\
      match bc_val b d p with V_other => False | V_array len _ => len = rows u \/ len = 1 | V_func _ => True | V_mesh _ => False end)) ->
  (forall d, getc d g <> 0 -> bc_type b d SR = B_periodic -> bc_type b d SL = B_periodic) ->
  prescribes (bc_type b a pos) -> bc_val b a pos = V_func f ->
  exists out, apply RNum b junk u g t = Ok out /\ shp out = padded (shp u) g /\
    forall v i, in_padded (shp u) g i ->
      (match pos with SL => getc a i < 0 | SR => getc a (shp u) <= getc a i end) ->
      (forall d, (match a, d with AX, (AY | AZ) => True | AY, AZ => True | _, _ => False end) ->
         0 <= getc d i < getc d (shp u)) ->
      at_ out v (shift g i)
      = f (match bc_type b a pos with B_dirichlet => Some t | _ => None end)
          (centre (fst bx) (snd bx) (cx (shp u)) (cx i))
          (centre (fst by_) (snd by_) (cy (shp u)) (cy i))
          (centre (fst bz) (snd bz) (cz (shp u)) (cz i)) v.
Proof. exact apply_dirichlet. Qed.
Print Assumptions C20_dirichlet_function.
(** general closed form, including array values and cells behind several sides *)
Theorem C20_all_cells : forall (N : Num) xc b junk u g t,
  (forall a, 0 <= getc a (shp u)) -> (forall a, 0 <= getc a g) ->
  (forall a, axis_ok xc b (rows u) (shp u) g a) ->
  exists out, apply N b junk u g t = Ok out /\ rows out = rows u /\ shp out = padded (shp u) g /\
    forall v i, in_padded (shp u) g i -> at_ out v (shift g i) = extended N xc b (shp u) t u v i.
Proof. exact apply_is. Qed.
Print Assumptions C20_all_cells.
Theorem C20_too_wide : forall (N : Num) b junk u g t a pos out sl,
  prescribes (bc_type b a pos) -> getc a g <> 0 -> bc_slabs b = Some sl ->
  (exists d, getc d (slab_buffer N sl) < getc d g) -> apply N b junk u g t <> Ok out.
Proof. exact apply_too_wide. Qed.
Print Assumptions C20_too_wide.
Example C20_hypotheses : let b := dirichlet_example in
  let s := mkix 4 4 1 in let g := mkix 2 2 0 in
  (forall d, 0 <= getc d g <= getc d (mkix 3 3 3)) /\
  (forall d p, getc d g <> 0 ->
     (copies (bc_type b d p) /\ enough (bc_type b d p) (getc d s) (getc d g)) \/
     (prescribes (bc_type b d p) /\
      match bc_val b d p with V_other => False | V_array len _ => len = 5 \/ len = 1 | V_func _ => True | V_mesh _ => False end)) /\
  (forall d, getc d g <> 0 -> bc_type b d SR = B_periodic -> bc_type b d SL = B_periodic) /\
  prescribes (bc_type b AX SL) /\ exists f, bc_val b AX SL = V_func f.
Proof. exact dirichlet_example_ok. Qed.

(** C21. *)
Theorem C21_dmr_refuted : forall (N : Num) b junk u g t a pos out,
  bc_type b a pos = B_dmr -> getc a g <> 0 -> apply N b junk u g t <> Ok out.
Proof. exact apply_dmr. Qed.
Print Assumptions C21_dmr_refuted.
Example C21_error : forall (N : Num) junk t sl,
  apply N (mkbc (fun a p => match a, p with AY, SL => B_dmr | _, _ => B_free end)
                (fun _ _ => V_other) (Some (fun _ _ => (sl, sl, sl))) false)
    junk (mkarr 5 (mkix 4 4 1) (fun _ _ => nofZ 0)) (mkix 0 1 0) t
  = if (cx (shp sl) <? 0) || (cy (shp sl) - 1 <? 0) || (cz (shp sl) <? 0) then Err ValueError else Err TypeError.
Proof. exact dmr_error. Qed.

(** C57. *)
Theorem C57_ghosts_defined : forall (N : Num) xc b junk junk' u g t,
  (forall a, 0 <= getc a (shp u)) -> (forall a, 0 <= getc a g) ->
  (forall a, axis_ok xc b (rows u) (shp u) g a) ->
  exists out out', apply N b junk u g t = Ok out /\ apply N b junk' u g t = Ok out' /\
    forall v i, in_shape (padded (shp u) g) i -> at_ out v i = at_ out' v i.
Proof. exact apply_junk. Qed.
Print Assumptions C57_ghosts_defined.
Theorem C57_mixed_periodic_refuted : forall (N : Num) junk t,
  exists out, apply N (plain_bc N B_free B_periodic) junk (row_array 8) (mkix 1 0 0) t = Ok out /\
    shp out = mkix 10 1 1 /\ at_ out 0 (mkix 9 0 0) = junk 0 (mkix 9 0 0).
Proof. exact uninit_mixed. Qed.
Print Assumptions C57_mixed_periodic_refuted.
Theorem C57_none_refuted : forall (N : Num) junk t,
  exists out, apply N (plain_bc N B_none B_none) junk (row_array 8) (mkix 1 0 0) t = Ok out /\
    shp out = mkix 10 1 1 /\ at_ out 0 (mkix 0 0 0) = junk 0 (mkix 0 0 0).
Proof. exact uninit_none. Qed.
Print Assumptions C57_none_refuted.
Theorem C57_wide_symmetric_refuted : forall (N : Num) junk t,
  exists out, apply N (plain_bc N B_outflow B_outflow) junk (row_array 1) (mkix 2 0 0) t = Ok out /\
    shp out = mkix 5 1 1 /\ at_ out 0 (mkix 0 0 0) = junk 0 (mkix 3 0 0).
Proof. exact uninit_symmetric. Qed.
Print Assumptions C57_wide_symmetric_refuted.
