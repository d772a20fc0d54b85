(** Properties of the scripting wrapper. *)
From Coq Require Import ZArith QArith List Bool String Ascii Permutation Reals.
From Verif Require Import Err Num HydroStateM ArrMgrM OdeM SnapM SpecOde SpecSnap ScriptM SpecScript SnapP ScriptP.
Import ListNotations.
Local Open Scope Z_scope.

(** C54. The order of the keyword arguments does not matter for the directory. *)
Theorem C54_order_irrelevant : forall parent pref kwargs kwargs' T i n, NoDup (map fst kwargs) -> Permutation kwargs kwargs' ->
  snapshot_dir (mkcall parent pref kwargs T i n) = snapshot_dir (mkcall parent pref kwargs' T i n).
Proof. exact order_irrelevant. Qed.
Print Assumptions C54_order_irrelevant.
(** With the same parent directory and prefix, and values printed without underscores,
    different arguments have different directories. *)
Theorem C54_dirs_distinct : forall c c', k_parent c = k_parent c' -> k_pref c = k_pref c' ->
  plain_kwargs (k_kwargs c) -> plain_kwargs (k_kwargs c') ->
  free_of "_" (k_T c) -> free_of "_" (k_T c') -> free_of "_" (k_integrator c) -> free_of "_" (k_integrator c') ->
  snapshot_dir c = snapshot_dir c' ->
  Permutation (k_kwargs c) (k_kwargs c') /\ k_T c = k_T c' /\ k_integrator c = k_integrator c' /\ k_n c = k_n c'.
Proof. exact dirs_distinct. Qed.
Print Assumptions C54_dirs_distinct.
Example C54_case : let l := [("p", "3"); ("nx", "64"); ("NAD", "0.1"); ("riemann_solver", "hllc")]%string in
  plain_kwargs l /\ free_of "_" "1.0" /\
  snapshot_dir (mkcall "out" "kh" l "1.0" "-1" "2") = "out/kh_nx=64_NAD=0.1_p=3_riemann_solver=hllc_T=1.0_integrator=-1_n_snapshots=2"%string.
Proof.
  cbv zeta. split; [|split; [cbn; repeat split; discriminate|vm_compute; reflexivity]].
  split; [repeat constructor; cbn; intuition discriminate|]. repeat constructor; cbn; repeat split; discriminate.
Qed.
(** A new result of the wrapper, from a fresh solver with positive time steps, holds
    n_snapshots snapshots at equidistant times from 0 to T. *)
Theorem C54_snapshot_times : forall D (enc : list D -> bytes) dec text report U S IC BC (V : vops RNum U)
  (solver : IC -> BC -> res (saver D RNum U S)) f run helper payload ic bc u0 s0 T i n ow c fuel attrs s s' ops b',
  solver ic bc = Ok (mksaver (ode_init RNum u0 s0) []) -> proposes (N := RNum) (f ic bc) (fun dt => 0 < dt)%R -> 2 <= n -> (0 < T)%R ->
  (ow = true \/ s (snapshot_dir c) = None) ->
  wrapper enc dec text report V solver f run helper payload ic bc T i n ow c fuel attrs s s' = (ops, Ok b') ->
  o_t (b_ode b') = T /\ times (b_ode b') = map (fun j => IZR (Z.of_nat j) * (T / IZR (n - 1)))%R (seq 0 (Z.to_nat n)) /\
  Z.of_nat (List.length (b_shots b')) = n.
Proof. intros. eapply script_snapshots; eauto. Qed.
Print Assumptions C54_snapshot_times.
Example C54_times_case : forall c fuel, (6 <= fuel)%nat -> exists ops b',
  wrapper (N := RNum) toy_enc toy_dec (fun _ => []) [] num_ops count_solver (fun _ _ => clock (N := RNum) (1/2)%R) I_rk4 (fun s => s) (fun _ _ _ => Ok 7)
    0%R tt 1%R (-1) 3 false c fuel (euler_attrs false true true) no_files no_files = (ops, Ok b').
Proof. exact script_case. Qed.

(** Initial and boundary conditions are not part of the name: after a saved run, the wrapper
    with any other initial and boundary conditions returns the snapshots of that run. *)
Theorem C54_conditions_refuted : forall D (enc : list D -> bytes) dec text report N U S IC BC (V : vops N U)
  (solver : IC -> BC -> res (saver D N U S)) f run helper payload ic bc T i n ow c fuel attrs s s' ops b',
  round_trip enc dec -> clean_dir (snapshot_dir c) s' -> (s (snapshot_dir c) <> None -> ow = true) ->
  wrapper enc dec text report V solver f run helper payload ic bc T i n ow c fuel attrs s s' = (ops, Ok b') ->
  forall ic2 bc2 b2 fuel2 attrs2 s2, solver ic2 bc2 = Ok b2 ->
  wrapper enc dec text report V solver f run helper payload ic2 bc2 T i n false c fuel2 attrs2 (execs ops s') s2
    = ([], Ok (mksaver (b_ode b2) (b_shots b'))).
Proof. intros. eapply ignored; eauto. Qed.
Print Assumptions C54_conditions_refuted.
Example C54_conditions_case : let run ic s := wrapper (N := QNum) toy_enc toy_dec (fun _ => []) [] num_ops count_solver
    (fun _ _ => clock (N := QNum) (1 : car QNum)%Q) I_euler (fun s => s) (fun _ _ u => Ok (Qnum u)) (ic : car QNum) tt (2 : car QNum)%Q 1 3 false
    (mkcall "out" "test" [("nx", "64")]%string "2" "1" "3") 5 (euler_attrs false true true) s s in
  exists b b' b'', snd (run 0%Q no_files) = Ok b /\ snd (run 5%Q no_files) = Ok b' /\
  snd (run 5%Q (execs (fst (run 0%Q no_files)) no_files)) = Ok b'' /\
  b_shots b = [0; 0; 0] /\ b_shots b' = [5; 5; 5] /\ b_shots b'' = [0; 0; 0].
Proof. eexists _, _, _. cbv zeta. split; [vm_compute; reflexivity|]. split; [vm_compute; reflexivity|]. split; [vm_compute; reflexivity|]. repeat split. Qed.
(** With underscores in prefixes or values different arguments share a directory. *)
Theorem C54_prefix_refuted : exists c c', k_parent c = k_parent c' /\ k_T c = k_T c' /\ plain_kwargs (k_kwargs c) /\ plain_kwargs (k_kwargs c') /\
  snapshot_dir c = snapshot_dir c' /\ k_pref c <> k_pref c' /\ List.length (k_kwargs c) <> List.length (k_kwargs c').
Proof.
  exists (mkcall "out" "kh" [("nx", "64"); ("p", "3")]%string "1" "1" "2"), (mkcall "out" "kh_nx=64" [("p", "3")]%string "1" "1" "2").
  split; [reflexivity|]. split; [reflexivity|]. split; [split; [repeat constructor; cbn; intuition discriminate|]; repeat constructor; cbn; repeat split; discriminate|].
  split; [split; [repeat constructor; cbn; intuition discriminate|]; repeat constructor; cbn; repeat split; discriminate|].
  split; [vm_compute; reflexivity|]. split; discriminate.
Qed.
Print Assumptions C54_prefix_refuted.
(** Importing the module raises: initial_conditions.py has no kelvin_helmholtz_2d. *)
Theorem C54_import_refuted : import_scripting = Err ImportError.
Proof. reflexivity. Qed.
Print Assumptions C54_import_refuted.
