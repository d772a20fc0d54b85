(** Theorems on names, slices, the array manager and the timer (C02, C03, C49-C51). *)
From Coq Require Import ZArith List Bool String Reals Lra Lia.
From Verif Require Import Err Num PySlice NdArray FvM HydroStateM SpecHs HsP HsQ TimerM ArrMgrM SpecTimer SpecNames TimerP ArrMgrP ArrMgrQ.
Import ListNotations.
Open Scope Z_scope.

(** C02. For distinct passive names that are not built in, a name selects exactly the rows the
    documentation gives it; any other name raises ValueError. *)
Theorem C02_names : forall l A (u : arr A) h, good_names l -> hydro_state l 4 = Ok h ->
  rows u = hs_nvars h -> (forall a, 0 <= getc a (shp u)) ->
  hs_nvars h = 5 + Z.of_nat (List.length l) /\
  (forall s r, addresses l s r -> exists w, ask h s u = Ok w /\ rows w = Z.of_nat (List.length (chosen r)) /\ shp w = shp u /\
     forall v i, 0 <= v < rows w -> at_ w v i = at_ u (nth (Z.to_nat v) (chosen r) 0) i) /\
  (forall s, (forall r, ~ addresses l s r) -> ask h s u = Err ValueError).
Proof. intros. apply ask_named; assumption. Qed.
Print Assumptions C02_names.
(** Such a state exists for every such list; the rows are those of the array; two names of one
    row are the primitive and conservative names of one quantity. *)
Theorem C02_distinct_rows : forall l nd, good_names l -> (exists h, hydro_state l nd = Ok h) /\
  (forall s r k, addresses l s r -> In k (chosen r) -> 0 <= k < 5 + Z.of_nat (List.length l)) /\
  (forall s s' k, addresses l s (R_one k) -> addresses l s' (R_one k) -> same_quantity s s').
Proof.
  intros l nd G. split; [destruct (names_addressed l nd G) as (h & E & _); exists h; exact E|].
  split; [intros s r k; apply address_range, G|intros s s' k; apply address_injective, G].
Qed.
Print Assumptions C02_distinct_rows.
Theorem C02_duplicates : forall l nd, ~ NoDup l <-> hydro_state l nd = Err ValueError.
Proof. exact duplicates_rejected. Qed.
Print Assumptions C02_duplicates.
Example C02_hypotheses : good_names ["dye"; "smoke"]%string /\ addresses ["dye"; "smoke"]%string "smoke" (R_one 6) /\
  exists h, hydro_state ["dye"; "smoke"]%string 4 = Ok h /\ rows (mkarr 7 (mkix 3 2 1) (fun v _ => v)) = hs_nvars h.
Proof.
  split; [|split; [exact (a_pas ["dye"; "smoke"]%string 1 "smoke" eq_refl)|eexists; split; reflexivity]].
  split; [repeat constructor; cbn; intuition discriminate|]. cbn. intros s [<-|[<-|[]]] H; intuition discriminate.
Qed.
(** A passive scalar called rho is accepted and captures the name of the density. *)
Theorem C02_collision_refuted : exists l h, NoDup l /\ hydro_state l 4 = Ok h /\ dget "rho" (hs_map h) = Some (R_one 5).
Proof. exact captured_name. Qed.
Print Assumptions C02_collision_refuted.

(** C03. u[hs(axis=d, cut=(a, b))] are the cells from a up to b, where negative bounds count from
    the end and 0 stands for no bound. *)
Theorem C03_cut : forall A h d a b k (u : arr A), hs_ndim h = 4 -> 0 <= rows u -> (forall c, 0 <= getc c (shp u)) -> k = None \/ k = Some 1 ->
  exists w, cut_cells h (Some (axis_number d)) a b k u = Ok w /\ rows w = rows u /\
    (forall c, getc c (shp w) = if axis_eqb c d then Z.max 0 (end_cell (getc d (shp u)) b - first_cell (getc d (shp u)) a) else getc c (shp u)) /\
    forall v i, at_ w v i = at_ u v (setc d (first_cell (getc d (shp u)) a + getc d i) i).
Proof. intros. apply cut_selects; assumption. Qed.
Print Assumptions C03_cut.
Theorem C03_reverse : forall A h d (u : arr A), hs_ndim h = 4 -> 0 <= rows u -> (forall c, 0 <= getc c (shp u)) ->
  exists w, cut_cells h (Some (axis_number d)) 0 0 (Some (-1)) u = Ok w /\ rows w = rows u /\ shp w = shp u /\
    forall v i, at_ w v i = at_ u v (setc d (getc d (shp u) - 1 - getc d i) i).
Proof. intros. apply cut_reverses; assumption. Qed.
Print Assumptions C03_reverse.
(** Axes from 4 raise ValueError, a cut without axis TypeError. *)
Theorem C03_bad_axis : forall A h n a b k (u : arr A), hs_ndim h = 4 ->
  (4 <= n -> cut_cells h (Some n) a b k u = Err ValueError) /\ cut_cells h None a b k u = Err TypeError.
Proof. intros A h n a b k u H. destruct (cut_out_of_range h n a b k u H) as (P & _ & Q). split; assumption. Qed.
Print Assumptions C03_bad_axis.
(** Axes below -4 raise IndexError instead of ValueError. *)
Theorem C03_negative_axis_refuted : exists h : hstate, hs_ndim h = 4 /\ forall A n a b k (u : arr A), n < -4 ->
  cut_cells h (Some n) a b k u = Err IndexError /\ ValueError <> IndexError.
Proof.
  exists (mkhs [] 4 builtin_map false 5). split; [reflexivity|]. intros A n a b k u L.
  split; [apply cut_out_of_range; [reflexivity|exact L]|discriminate].
Qed.
Print Assumptions C03_negative_axis_refuted.
(** u[hs(var, x=..., y=..., z=..., axis=d, cut=c, step=k)] are the cells of u[hs(var)] in the box of
    the bounds; cut replaces the bounds of its axis; the step is that of the axis d, if there are
    bounds for it, and 1 along the others. *)
Theorem C03_box : forall A h var q d c k (u w0 : arr A), hs_ndim h = 4 -> (forall e, 0 <= getc e (shp u)) -> (d = None -> c = None) ->
  match k with Some s => 0 < s | None => True end ->
  box_cells h var (fun _ => None) None None None u = Ok w0 ->
  exists w, box_cells h var q d c k u = Ok w /\ rows w = rows w0 /\
   (forall e, 0 <= getc e (shp w) /\ forall j, 0 <= j -> (j < getc e (shp w) <->
      box_first q d c (shp u) e + box_step q d c k e * j < box_end q d c (shp u) e)) /\
   forall v i, at_ w v i = at_ w0 v (mkix (box_first q d c (shp u) AX + box_step q d c k AX * cx i)
      (box_first q d c (shp u) AY + box_step q d c k AY * cy i) (box_first q d c (shp u) AZ + box_step q d c k AZ * cz i)).
Proof. exact @box_selects. Qed.
Print Assumptions C03_box.
Theorem C03_cut_needs_axis : forall A h var q c k (u w0 : arr A), hs_ndim h = 4 ->
  box_cells h var (fun _ => None) None None None u = Ok w0 -> c <> None -> box_cells h var q None c k u = Err TypeError.
Proof. exact @box_needs_axis. Qed.
Print Assumptions C03_cut_needs_axis.
Example C03_box_case : exists h w0 w, hydro_state ["dye"]%string 4 = Ok h /\ hs_ndim h = 4 /\
  let u := mkarr 6 (mkix 7 5 3) (fun v i => v + 10 * cx i + 100 * cy i + 1000 * cz i) in
  let q a := match a with AX => Some (1, -2) | AY => Some (0, 0) | AZ => None end in
  box_cells h (Q_name "dye") (fun _ => None) None None None u = Ok w0 /\
  box_cells h (Q_name "dye") q (Some AY) (Some (1, 0)) (Some 2) u = Ok w /\ rows w = 1 /\ shp w = mkix 4 2 3 /\
  map (fun j => at_ w 0 (mkix 0 j 0)) [0; 1] = [115; 315].
Proof. eexists _, _, _. split; [reflexivity|]. split; [reflexivity|]. cbv zeta. split; [reflexivity|]. split; [reflexivity|]. repeat split. Qed.
(** The k windows of get_symmetric_slices(k) on n cells have n - k + 1 cells and start one cell
    apart. *)
Theorem C03_windows : forall A a k (u : arr A), 1 <= k <= getc a (shp u) ->
  exists l, get_symmetric_slices k = Ok l /\ Z.of_nat (List.length l) = k /\
    forall j s, 0 <= j < k -> nth_error l (Z.to_nat j) = Some s ->
      rows (view a s u) = rows u /\ shp (view a s u) = setc a (getc a (shp u) - k + 1) (shp u) /\
      forall v i, at_ (view a s u) v i = at_ u v (setc a (getc a i + j) i).
Proof. intros. apply windows. assumption. Qed.
Print Assumptions C03_windows.
Example C03_hypotheses : exists h, hydro_state ["dye"]%string 4 = Ok h /\ hs_ndim h = 4 /\
  (forall c, 0 <= getc c (shp (mkarr 6 (mkix 5 4 3) (fun v _ => v)))) /\ end_cell 5 (-2) - first_cell 5 1 = 2.
Proof. eexists. split; [reflexivity|]. split; [reflexivity|]. split; [intros []; cbn; lia|reflexivity]. Qed.

(** C49. What get_numpy hands out keeps the contents the array had then, whatever is done with
    the manager afterwards (adding, removing, writing, reading). *)
Theorem C49_isolated : forall V n (m : manager) (h : heap V) o h1 later m2 h2, tidy m h -> am_get_numpy n m h = Ok (o, h1) ->
  Forall steady later -> acts later m h1 = Ok (m2, h2) ->
  contents o h1 = table m h n /\ contents o h2 = table m h n.
Proof. intros. eapply isolated; eassumption. Qed.
Print Assumptions C49_isolated.
(** Calling the manager gives the live array: later writes are seen in it. *)
Theorem C49_live : forall V n (m : manager) (h : heap V) o, tidy m h -> am_call n m = Ok o -> forall v m' h',
  act (A_write n v) m h = Ok (m', h') -> am_call n m' = Ok o /\ contents o h' = Some v.
Proof. intros V n m h o. apply live. Qed.
Print Assumptions C49_live.
(** An array added before CuPy is enabled is handed out itself, and changes later. *)
Theorem C49_alias_refuted : exists m h o h' m2 h2, acts [A_add "u"%string 1%nat; A_enable] (mkam true false []) [] = Ok (m, h) /\
  am_get_numpy "u" m h = Ok (o, h') /\ act (A_write "u"%string 2%nat) m h' = Ok (m2, h2) /\ contents o h' = Some 1%nat /\ contents o h2 = Some 2%nat.
Proof. exact alias_handed_out. Qed.
Print Assumptions C49_alias_refuted.
(** Without CuPy, add keeps the array of the caller itself: writes by either are seen by both. *)
Theorem C49_add_shares_refuted : forall V (m : manager) (h : heap V) n a m' h', m_using m = false ->
  am_add n (Arr NumPy a) m h = Ok (m', h') -> am_call n m' = Ok (Arr NumPy a).
Proof. exact caller_array_kept. Qed.
Print Assumptions C49_add_shares_refuted.

(** C50. The manager behaves as a finite map from names to values, and stays tidy. *)
Theorem C50_finite_map : forall V (a : action V) m h, tidy m h -> steady a ->
  match act a m h with
  | Ok (m', h') => tidy m' h' /\ m_using m' = m_using m /\ exists f, on_table a (table m h) = Ok f /\ forall n, table m' h' n = f n
  | Err e => on_table a (table m h) = Err e
  end.
Proof. intros. apply act_table; assumption. Qed.
Print Assumptions C50_finite_map.
(** get_numpy gives a NumPy array with the contents, at a new address. *)
Theorem C50_get_numpy : forall V n m (h : heap V), tidy m h -> match table m h n with
  | None => am_get_numpy n m h = Err KeyError
  | Some v => exists o h', am_get_numpy n m h = Ok (o, h') /\ is_numpy o = true /\ contents o h' = Some v /\ private o m /\
      (forall a, (a < List.length h)%nat -> forall l, o <> Arr l a) /\ (forall k, table m h' k = table m h k) end.
Proof. intros. apply get_numpy_copy. assumption. Qed.
Print Assumptions C50_get_numpy.
(** Only NumPy arrays can be added. *)
Theorem C50_add_type : forall V n o m (h : heap V), is_numpy o = false ->
  am_add n o m h = Err (if dmem n (m_arrays m) then KeyError else TypeError).
Proof. intros V n o m h H. unfold am_add. rewrite H. destruct (dmem n (m_arrays m)); reflexivity. Qed.
Print Assumptions C50_add_type.
(** After disable_cupy, get_numpy may give an array of the device. *)
Theorem C50_device_refuted : exists m h o h', acts [A_enable; A_add "u"%string 1%nat; A_disable] (mkam true false []) [] = Ok (m, h) /\
  am_get_numpy "u" m h = Ok (o, h') /\ is_numpy o = false.
Proof. exact device_array_handed_out. Qed.
Print Assumptions C50_device_refuted.
(** Whether CuPy is in use is what the last switch says, and enable_cupy has no effect on a
    machine without CuPy. *)
Theorem C50_switch : forall V (l : list (action V)) m h m' h', acts l m h = Ok (m', h') ->
  m_cupy m' = m_cupy m /\ m_using m' = switched (m_cupy m) l (m_using m).
Proof. exact @acts_switch. Qed.
Print Assumptions C50_switch.
(** On a machine without CuPy the manager is a finite map whatever is done with it, switches
    included: no call raises anything but the KeyError of a finite map. *)
Theorem C50_no_cupy : forall V (l : list (action V)) m h, tidy m h -> m_cupy m = false ->
  match acts l m h with
  | Ok (m', h') => tidy m' h' /\ m_using m' = false /\ exists f, all_on_table l (table m h) = Ok f /\ forall n, table m' h' n = f n
  | Err e => all_on_table l (table m h) = Err e
  end.
Proof. exact @acts_no_cupy. Qed.
Print Assumptions C50_no_cupy.
Example C50_no_cupy_case : tidy (mkam false false []) ([] : heap nat) /\ exists m h,
  acts [A_enable; A_add "u"%string 1%nat; A_disable; A_enable; A_get "u"%string] (mkam false false []) [] = Ok (m, h) /\ table m h "u" = Some 1%nat /\
  acts [A_enable; A_add "u"%string 1%nat; A_add "u"%string 1%nat] (mkam false false []) [] = Err KeyError.
Proof. split; [apply empty_tidy|]. do 2 eexists. repeat split; reflexivity. Qed.
(** to_dict lists the names in the order in which they were added, each once, and whether CuPy
    is in use. *)
Theorem C50_to_dict : forall V (l : list (action V)) m h m' h', NoDup (map fst (m_arrays m)) -> acts l m h = Ok (m', h') ->
  am_to_dict m' = (listed l (map fst (m_arrays m)), switched (m_cupy m) l (m_using m)) /\ NoDup (fst (am_to_dict m')).
Proof. exact @acts_names. Qed.
Print Assumptions C50_to_dict.
Example C50_to_dict_case : exists m h,
  acts [A_enable; A_add "u"%string 1%nat; A_add "w"%string 2%nat; A_remove "u"%string; A_add "u"%string 3%nat] (mkam true false []) [] = Ok (m, h) /\
  am_to_dict m = (["w"; "u"]%string, true).
Proof. do 2 eexists. split; reflexivity. Qed.
Example C50_hypotheses : tidy (mkam true true []) ([] : heap nat) /\ exists m h,
  acts [A_add "u"%string 1%nat; A_add "w"%string 2%nat; A_write "u"%string 3%nat] (mkam true true []) [] = Ok (m, h) /\ table m h "u" = Some 3%nat.
Proof. split; [apply enabled_tidy|]. do 2 eexists. split; reflexivity. Qed.

(** C51. start and stop. *)
Theorem C51_start : forall N c now (tm : timer N), tracked tm -> match status tm c with
  | None => start c now tm = (tm, Some ValueError)
  | Some (Some _, _) => start c now tm = (tm, Some RuntimeError)
  | Some (None, x) => exists tm', start c now tm = (tm', None) /\ tracked tm' /\
      forall c', status tm' c' = if String.eqb c' c then Some (Some now, x) else status tm c'
  end.
Proof.
  intros N c now tm T. destruct (status tm c) as [[[t|] x]|] eqn:S.
  - exact (start_running tm c now t x T S).
  - destruct (start_idle tm c now x T S) as (tm' & A & B & _ & D). exists tm'. auto.
  - exact (start_unknown tm c now T S).
Qed.
Print Assumptions C51_start.
Theorem C51_stop : forall N c now (tm : timer N), tracked tm -> match status tm c with
  | None => stop c now tm = (tm, Some ValueError)
  | Some (None, _) => stop c now tm = (tm, Some RuntimeError)
  | Some (Some t0, x) => exists tm', stop c now tm = (tm', None) /\ tracked tm' /\
      forall c', status tm' c' = if String.eqb c' c then Some (None, nadd x (nsub now t0)) else status tm c'
  end.
Proof.
  intros N c now tm T. destruct (status tm c) as [[[t|] x]|] eqn:S.
  - destruct (stop_running tm c now t x T S) as (tm' & A & B & _ & D). exists tm'. auto.
  - exact (stop_idle tm c now x T S).
  - exact (stop_unknown tm c now T S).
Qed.
Print Assumptions C51_stop.
(** add_cat: known categories are untouched; it raises exactly for duplicates, and otherwise
    the new categories are idle at zero. *)
Theorem C51_add : forall N l (tm : timer N), tracked tm -> exists tm' e, add_cats l tm = (tm', e) /\ tracked tm' /\
  (forall c, status tm c <> None -> status tm' c = status tm c) /\
  (e = None <-> NoDup l /\ forall c, In c l -> status tm c = None) /\
  (forall x, e = Some x -> x = ValueError) /\
  (e = None -> t_cats tm' = t_cats tm ++ l /\ forall c, In c l -> status tm' c = Some (None, nofZ 0)).
Proof. intros. apply add_cats_ok. assumption. Qed.
Print Assumptions C51_add.
(** The accumulated time is the sum of the intervals, and never decreases when the clock does not. *)
Theorem C51_sum : forall c l (tm tm' : timer RNum) p x, tracked tm -> status tm c = Some (p, x) ->
  do_calls (N := RNum) l tm = (tm', None) -> status tm' c = Some (pending_after c p l, (x + elapsed c p l)%R) /\
  forall t, ticking t l -> (forall t0, p = Some t0 -> (t0 <= t)%R) -> (x <= x + elapsed c p l)%R.
Proof.
  intros c l tm tm' p x T S H. split; [exact (elapsed_calls c l tm tm' p x T S H)|].
  intros t K P. assert (Q := elapsed_pos c l t p K P). lra.
Qed.
Print Assumptions C51_sum.
(** The calls of the solver, in steps with any number of stages, with or without slope limiting
    and troubled cells, in both ways of integrating, never raise and leave every category idle. *)
Theorem C51_solver : forall N cs l (tm : timer N),
  (exists s, cs = step_calls s) \/ (exists s, cs = count_calls s) \/ (exists s, cs = until_calls s) ->
  map fst l = cs -> tracked tm -> all_idle tm ->
  exists tm', do_calls l tm = (tm', None) /\ tracked tm' /\ all_idle tm'.
Proof.
  intros N cs l tm [(s & ->)|[(s & ->)|(s & ->)]] E T I; eapply usual_runs; try eassumption.
  - apply nested_step.
  - apply usual_step.
  - apply nested_count.
  - apply usual_count.
  - apply nested_until.
  - apply usual_until.
Qed.
Print Assumptions C51_solver.
Example C51_hypotheses : exists tm, new_timer (N := RNum) ["TOTAL"; "SNAPSHOTS"]%string = (tm, None) /\
  snd (add_cats (skipn 2 solver_cats) tm) = None /\ tracked (solver_timer (N := RNum)) /\ all_idle (solver_timer (N := RNum)) /\
  List.length (until_calls [([Some true; Some false], true); ([None; None], false)]) = 74%nat.
Proof.
  destruct (solver_timer_ok (N := RNum)) as (tm & A & B & C & D). exists tm.
  exact (conj A (conj B (conj C (conj D eq_refl)))).
Qed.
(** If an exception ends a run between two calls, the next run raises RuntimeError. *)
Theorem C51_interrupted_refuted : exists (l rest l2 : list (call * R)) tm, map fst (l ++ rest) = until_calls [([None], true)] /\
  do_calls (N := RNum) l solver_timer = (tm, None) /\ map fst l2 = until_calls [([None], true)] /\
  exists tm', do_calls (N := RNum) l2 tm = (tm', Some RuntimeError).
Proof. exact interrupted. Qed.
Print Assumptions C51_interrupted_refuted.
(** hydrofluxes with its default timer_prefix raises. *)
Theorem C51_default_prefix_refuted : exists tm', do_calls (N := RNum) (map (fun o => (o, 0%R)) (fluxes_calls "")) solver_timer = (tm', Some ValueError).
Proof. eexists. reflexivity. Qed.
Print Assumptions C51_default_prefix_refuted.
