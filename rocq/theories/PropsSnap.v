(** Properties of saved snapshots. *)
From Coq Require Import ZArith QArith List Bool String Lia.
From Verif Require Import Err Num HydroStateM ArrMgrM OdeM SnapM SpecSnap SnapP SnapQ.
Import ListNotations.
Local Open Scope nat_scope.

(** C47. After a run that was saved has ended without an exception, every later call with
    overwrite=False and the same directory, by any solver object with any arguments, takes no
    step, leaves the files alone and sets the snapshots to those of the first run. pickle is
    assumed to read what it wrote. *)
Theorem C47_saved_then_read : forall D (enc : list D -> bytes) dec text report N U S (V : vops N U)
  step helper (payload : S -> car N -> U -> res D) T n exact db lg fuel d ow attrs s s' b b' ops,
  round_trip enc dec -> clean_dir d s' -> (s d <> None -> ow = true) ->
  integrate_saved enc dec text report V step helper payload (Some T) n exact db lg fuel (Some d) ow attrs s s' b = (ops, Ok b') ->
  forall step2 helper2 payload2 T2 n2 exact2 db2 lg2 fuel2 attrs2 s2 (b2 : saver D N U S),
  integrate_saved enc dec text report V step2 helper2 payload2 (Some T2) n2 exact2 db2 lg2 fuel2 (Some d) false attrs2
    (execs ops s') s2 b2 = ([], Ok (mksaver (b_ode b2) (b_shots b'))).
Proof. intros. eapply saved_then_read; eauto. Qed.
Print Assumptions C47_saved_then_read.
(** Every run whose attributes json accepts is saved, and its result is the one of the run that
    saves nothing; the attributes of an EulerSolver without fv_ic are accepted. *)
Theorem C47_runs_are_saved : forall D (enc : list D -> bytes) dec text report N U S (V : vops N U)
  step helper (payload : S -> car N -> U -> res D) T n exact db lg fuel d ow attrs s s' b b',
  serialisable attrs -> (ow = true \/ s d = None) -> clean_dir d s' -> (ow = true \/ s' d = None) ->
  run_saver V step helper payload (Some T) n exact db lg fuel b = Ok b' ->
  exists ops, integrate_saved enc dec text report V step helper payload (Some T) n exact db lg fuel (Some d) ow attrs s s' b = (ops, Ok b').
Proof. intros. apply saves_ok; assumption. Qed.
Print Assumptions C47_runs_are_saved.
Theorem C47_attributes : forall helper progress, serialisable (euler_attrs false helper progress).
Proof. exact euler_serialisable. Qed.
Print Assumptions C47_attributes.
Example C47_case : round_trip toy_enc toy_dec /\ clean_dir "out" no_files /\ exists ops b',
  integrate_saved toy_enc toy_dec (fun _ => []) [] toy_ops toy_step (fun s => s) toy_payload (Some (2 : car QNum)%Q) None true [] true 5
    (Some "out"%string) false (euler_attrs false true true) no_files no_files toy_saver = (ops, Ok b') /\
  b_shots b' = [0%Z; 1%Z; 2%Z] /\ read_snapshots toy_dec "out" (execs ops no_files) = Ok (Some [0%Z; 1%Z; 2%Z]).
Proof. split; [exact toy_round_trip|]. split; [left; reflexivity|]. eexists _, _. split; [vm_compute; reflexivity|]. split; vm_compute; reflexivity. Qed.

(** What is in the directory after writing depends only on what is written: overwriting
    replaces whatever was there, and touches no other path. *)
Theorem C47_overwrite_replaces : forall D (enc : list D -> bytes) text report ow ow' d shots attrs s s' ops ops' e e',
  clean_dir d s -> clean_dir d s' -> (ow = true \/ s d = None) -> (ow' = true \/ s' d = None) ->
  write_snapshots enc text report ow d shots attrs s = (ops, e) ->
  write_snapshots enc text report ow' d shots attrs s' = (ops', e') ->
  e = e' /\ execs ops s d = execs ops' s' d /\ forall x, x <> d -> execs ops s x = s x.
Proof. intros. eapply replaces; eauto. Qed.
Print Assumptions C47_overwrite_replaces.
Example C47_overwrite_case : let s := fs_put "out" (Some (N_dir [("arrs.pkl", [0%Z]); ("stale.png", [1%Z])]%string)) no_files in
  clean_dir "out" s /\
  execs (fst (write_snapshots toy_enc (fun _ => [3%Z]) [4%Z] true "out" [7%Z] [("T"%string, js)] s)) s "out"%string
    = Some (N_dir [("arrs.pkl", [1%Z; 7%Z]); ("attrs.json", [3%Z]); ("timing.txt", [4%Z])]%string).
Proof.
  split; [right; eexists; split; [reflexivity|]; repeat constructor; cbn; intuition discriminate|]. vm_compute. reflexivity.
Qed.

(** A call that writes without an exception leaves three files: the pickled snapshots, the
    attributes by name without regard to case, and the timing report. *)
Theorem C47_files : forall D (enc : list D -> bytes) text report ow d shots hf progress s ops,
  write_snapshots enc text report ow d shots (euler_attrs false hf progress) s = (ops, None) ->
  execs ops s d = Some (N_dir [("arrs.pkl", enc shots); ("attrs.json", flat_map text (saved_names hf)); ("timing.txt", report)]%string).
Proof. exact @euler_files. Qed.
Print Assumptions C47_files.
Example C47_files_case : exists ops,
  write_snapshots toy_enc (fun k => [Z.of_nat (String.length k)]) [4%Z] false "out" [7%Z] (euler_attrs false true true) no_files = (ops, None) /\
  List.length (flat_map (fun k => [Z.of_nat (String.length k)]) (saved_names true)) = 47.
Proof. eexists. split; vm_compute; reflexivity. Qed.
(** As long as nothing is read, self.snapshots and self.snapshot_times stay in step over any
    number of calls of integrate on the same object: every call appends the snapshots it took,
    at the times it took them. *)
Theorem C47_runs_append : forall D N U S (V : vops N U) step helper (payload : S -> car N -> U -> res D)
  T n exact db lg fuel (b b' : saver D N U S), in_step b ->
  run_saver V step helper payload T n exact db lg fuel b = Ok b' ->
  in_step b' /\ exists l, o_snaps (b_ode b') = o_snaps (b_ode b) ++ l /\ b_shots b' = b_shots b ++ map snd l.
Proof. intros *. exact (run_in_step V step helper payload T n exact db lg fuel b b'). Qed.
Print Assumptions C47_runs_append.
Theorem C47_in_step : forall D (enc : list D -> bytes) dec text report N U S (V : vops N U)
  step helper (payload : S -> car N -> U -> res D) T n exact db lg fuel dir ow attrs s s' b b' ops, in_step b ->
  (ow = false -> forall d, dir = Some d -> s d = None) ->
  integrate_saved enc dec text report V step helper payload T n exact db lg fuel dir ow attrs s s' b = (ops, Ok b') -> in_step b'.
Proof. intros *. exact (session_in_step V step helper payload enc dec text report T n exact db lg fuel dir ow attrs s s' b b' ops). Qed.
Print Assumptions C47_in_step.
Example C47_session_case : in_step toy_saver /\ exists b1 b2,
  let run T b := run_saver toy_ops toy_step (fun s => s) toy_payload (Some (T : car QNum)) None true [] true 5 b in
  run 2%Q toy_saver = Ok b1 /\ run 3%Q b1 = Ok b2 /\ b_shots b2 = [0%Z; 1%Z; 2%Z; 2%Z; 3%Z] /\
  map fst (o_snaps (b_ode b2)) = [0%Q; 1%Q; 2%Q; 2%Q; 3%Q].
Proof. split; [reflexivity|]. eexists _, _. split; [vm_compute; reflexivity|]. split; [vm_compute; reflexivity|]. split; vm_compute; reflexivity. Qed.

(** Reading restores only the snapshots: neither the time and the state nor the snapshot times. *)
Theorem C47_state_refuted : exists ops b' ops2 b2,
  let run ow := integrate_saved toy_enc toy_dec (fun _ => []) [] toy_ops toy_step (fun s => s) toy_payload (Some (2 : car QNum)%Q) None true [] true 5
    (Some "out"%string) ow (euler_attrs false true true) in
  run false no_files no_files toy_saver = (ops, Ok b') /\
  run false (execs ops no_files) (execs ops no_files) toy_saver = (ops2, Ok b2) /\
  b_shots b2 = b_shots b' /\ List.length (b_shots b2) = 3 /\ o_snaps (b_ode b2) = [] /\
  o_t (b_ode b') = 2%Q /\ o_t (b_ode b2) = 0%Q /\ o_u (b_ode b') = 2%Q /\ o_u (b_ode b2) = 0%Q.
Proof. eexists _, _, _, _. cbv zeta. split; [vm_compute; reflexivity|]. split; [vm_compute; reflexivity|]. repeat split. Qed.
Print Assumptions C47_state_refuted.
(** With finite-volume initial conditions no saved run ends normally, since json refuses
    u0 = NotImplemented. *)
Theorem C47_fv_ic_refuted : forall hf progress D (enc : list D -> bytes) dec text report N U S (V : vops N U)
  step helper (payload : S -> car N -> U -> res D) T n exact db lg fuel d ow s s' b,
  (ow = true \/ s d = None) -> clean_dir d s' -> (ow = true \/ s' d = None) -> forall ops b',
  integrate_saved enc dec text report V step helper payload (Some T) n exact db lg fuel (Some d) ow (euler_attrs true hf progress) s s' b <> (ops, Ok b').
Proof. intros hf progress * O C O'. destruct (euler_fv_refused hf progress) as (k & v & I & F). exact (refused_raises enc dec text report V step helper payload T n exact db lg fuel d ow _ s s' b k v I F O C O'). Qed.
Print Assumptions C47_fv_ic_refuted.
(** If the directory appears while the run takes its steps, the result is lost. *)
Theorem C47_meanwhile_refuted : forall D (enc : list D -> bytes) dec text report N U S (V : vops N U)
  step helper (payload : S -> car N -> U -> res D) T n exact db lg fuel d attrs s s' b b',
  s d = None -> s' d <> None ->
  run_saver V step helper payload (Some T) n exact db lg fuel b = Ok b' ->
  integrate_saved enc dec text report V step helper payload (Some T) n exact db lg fuel (Some d) false attrs s s' b = ([], Err FileExistsError).
Proof. intros. apply (meanwhile enc dec text report V) with (b' := b'); assumption. Qed.
Print Assumptions C47_meanwhile_refuted.
(** A run with a number of steps is never saved. *)
Theorem C47_step_count_refuted : forall D (enc : list D -> bytes) dec text report N U S (V : vops N U)
  step helper (payload : S -> car N -> U -> res D) n exact db lg fuel dir ow attrs s s' b,
  fst (integrate_saved enc dec text report V step helper payload None n exact db lg fuel dir ow attrs s s' b) = [].
Proof. intros. apply count_not_saved. Qed.
Print Assumptions C47_step_count_refuted.

(** C48. What reading finds after a crash that let k effects of write_snapshots happen: as long
    as old files are removed, the old result or FileNotFoundError; when they are gone and until
    the directory is made, nothing; until the last byte of arrs.pkl is written, an exception;
    then the new result. In particular it never finds anything but the old or the new result.
    pickle is assumed to read what it wrote and to raise on a truncated file. *)
Theorem C48_crash_points : forall D (enc : list D -> bytes) dec text report ow d shots attrs s ops e,
  round_trip enc dec -> truncation_fails enc dec -> clean_dir d s -> (ow = true \/ s d = None) ->
  write_snapshots enc text report ow d shots attrs s = (ops, e) -> forall k,
  let r := read_snapshots dec d (crash k ops s) in let old := removal d s in let L := List.length (enc shots) in
  (k < old -> r = read_snapshots dec d s \/ r = Err FileNotFoundError) /\
  (k = old -> r = Ok None) /\
  (old < k < old + 2 + L -> exists x, r = Err x) /\
  (old + 2 + L <= k -> r = Ok (Some shots)).
Proof. intros. eapply crash_points; eauto. Qed.
Print Assumptions C48_crash_points.
Theorem C48_elsewhere : forall D (enc : list D -> bytes) text report ow d shots attrs s k x, x <> d ->
  crash k (fst (write_snapshots enc text report ow d shots attrs s)) s x = s x.
Proof. intros. apply nothing_else. assumption. Qed.
Print Assumptions C48_elsewhere.
(** Writing with overwrite=True after a crash has the same result as without the crash. *)
Theorem C48_recovery : forall D (enc : list D -> bytes) text report ow d shots attrs s k shots' attrs' ops e,
  clean_dir d s -> write_snapshots enc text report true d shots' attrs' s = (ops, e) ->
  let s1 := crash k (fst (write_snapshots enc text report ow d shots attrs s)) s in
  exists ops', write_snapshots enc text report true d shots' attrs' s1 = (ops', e) /\ forall x, execs ops' s1 x = execs ops s x.
Proof. intros *. exact (recovery enc (fun _ => Ok []) text report ow d shots attrs s k shots' attrs' ops e). Qed.
Print Assumptions C48_recovery.
Example C48_case : round_trip toy_enc toy_dec /\ truncation_fails toy_enc toy_dec /\
  let s := fs_put "out" (Some (N_dir [("arrs.pkl", [1%Z; 5%Z])]%string)) no_files in
  clean_dir "out" s /\ read_snapshots toy_dec "out" s = Ok (Some [5%Z]) /\
  map (fun k => read_snapshots toy_dec "out" (crash k (fst (write_snapshots toy_enc (fun _ => []) [] true "out" [7%Z] [("T"%string, js)] s)) s)) (seq 0 7)
  = [Ok (Some [5%Z]); Err FileNotFoundError; Ok None; Err FileNotFoundError; Err EOFError; Err EOFError; Ok (Some [7%Z])].
Proof.
  split; [exact toy_round_trip|]. split; [exact toy_truncation|]. cbv zeta.
  split; [right; eexists; split; [reflexivity|]; repeat constructor; cbn; intuition discriminate|]. split; vm_compute; reflexivity.
Qed.

(** After a crash between making the directory and the last byte of arrs.pkl, every later call
    with overwrite=False raises without computing or changing anything, and there are such
    crashes in every call of write_snapshots that reaches the directory. *)
Theorem C48_stuck_refuted : forall D (enc : list D -> bytes) dec text report ow d shots attrs s ops e,
  round_trip enc dec -> truncation_fails enc dec -> clean_dir d s -> (ow = true \/ s d = None) ->
  write_snapshots enc text report ow d shots attrs s = (ops, e) ->
  removal d s + 2 + List.length (enc shots) <= List.length ops /\
  forall k, removal d s < k < removal d s + 2 + List.length (enc shots) ->
  exists x, forall N U S (V : vops N U) step helper (payload : S -> car N -> U -> res D) T n exact db lg fuel attrs' s' b,
  integrate_saved enc dec text report V step helper payload (Some T) n exact db lg fuel (Some d) false attrs' (crash k ops s) s' b = ([], Err x).
Proof.
  intros * RT TF C O H. split; [eapply done_is_late; eauto|]. intros k K.
  destruct (crash_points enc dec text report ow d shots attrs s ops e RT TF C O H k) as (_ & _ & X & _). destruct (X K) as (x & E).
  exists x. intros. apply stuck_after. exact E.
Qed.
Print Assumptions C48_stuck_refuted.
(** Overwriting removes the old result before there is a new one. *)
Theorem C48_old_result_refuted : forall D (enc : list D -> bytes) dec text report d shots attrs s ops e old,
  round_trip enc dec -> truncation_fails enc dec -> clean_dir d s -> read_snapshots dec d s = Ok (Some old) ->
  write_snapshots enc text report true d shots attrs s = (ops, e) ->
  removal d s < List.length ops /\ read_snapshots dec d (crash (removal d s) ops s) = Ok None.
Proof.
  intros * RT TF C R H. split; [pose proof (done_is_late enc text report true d shots attrs s ops e C (or_introl eq_refl) H); lia|].
  exact (proj1 (proj2 (crash_points enc dec text report true d shots attrs s ops e RT TF C (or_introl eq_refl) H (removal d s))) eq_refl).
Qed.
Print Assumptions C48_old_result_refuted.
