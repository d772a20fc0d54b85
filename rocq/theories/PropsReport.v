(** Properties C63 and C64: the report of the timer and the recorded commit. *)
From Coq Require Import ZArith List Bool String Ascii.
From Verif Require Import Err Num HydroStateM SpecScript TimerM SpecTimer ReportM SpecReport ReportP.
Import ListNotations.
Local Open Scope nat_scope.
Local Open Scope string_scope.

(** C63: the report of any timer, after any calls, has a heading, a rule and one line per
    category in the order they were added. Rule and lines are as wide as the two columns need.
    The heading fits if some category has at least eight letters, and is too wide otherwise. *)
Theorem C63_report : forall N (fixed : car N -> string) cats calls,
  let tm := fst (do_calls calls (fst (new_timer cats))) in
  exists names values header rule rows,
    report fixed tm = unlines (header :: rule :: rows) /\
    (t_cats tm = [] -> names = 8) /\ (t_cats tm <> [] -> longest names (t_cats tm)) /\
    longest values ("Time (s)" :: map (fun ct => fixed (snd ct)) (t_cum tm)) /\
    String.length rule = S (names + values) /\ all_chars "-" rule /\
    List.length rows = List.length (t_cats tm) /\
    Forall2 (fun ct line => row_of (S (names + values)) (fst ct) (fixed (snd ct)) line) (t_cum tm) rows /\
    map fst (t_cum tm) = t_cats tm /\
    (8 <= names -> heading (S (names + values)) names values header) /\
    (names < 8 -> S (names + values) < String.length header).
Proof. intros N fixed cats calls tm. exact (report_lines fixed tm (listed_calls calls _ (listed_new cats))). Qed.
Print Assumptions C63_report.
(** the solver's report is aligned throughout *)
Theorem C63_solver_report : forall N (fixed : car N -> string) calls,
  let tm := fst (do_calls calls solver_timer) in
  exists names values header rule rows,
    report fixed tm = unlines (header :: rule :: rows) /\
    heading (S (names + values)) names values header /\
    String.length rule = S (names + values) /\ all_chars "-" rule /\
    Forall2 (fun ct line => row_of (S (names + values)) (fst ct) (fixed (snd ct)) line) (t_cum tm) rows /\
    map fst (t_cum tm) = solver_cats.
Proof. exact (@solver_report). Qed.
Print Assumptions C63_solver_report.
Example C63_case : report (N := FNum) (fun _ => "0.25") (fst (new_timer ["TOTAL"; "SNAPSHOTS"])) =
  unlines ["Category  Time (s)"; "------------------"; "TOTAL         0.25"; "SNAPSHOTS     0.25"].
Proof. reflexivity. Qed.
(** A timer with short names only: the headings are not over their columns and stick out. *)
Theorem C63_header_refuted : exists header rule rows, forall N (fixed : car N -> string), (forall t, fixed t = "0.25") ->
  report fixed (fst (new_timer ["io"])) = unlines (header :: rule :: rows) /\
  header = "Category Time (s)" /\ rule = "-----------" /\ rows = ["io     0.25"].
Proof. exact short_names. Qed.
Print Assumptions C63_header_refuted.
(** to_dict: the same categories in the same order, each time rounded *)
Theorem C63_to_dict : forall N (round : car N -> car N) cats calls c,
  let tm := fst (do_calls calls (fst (new_timer cats))) in
  map fst (timer_dict round tm) = t_cats tm /\
  dget c (timer_dict round tm) = option_map round (dget c (t_cum tm)).
Proof. exact (@to_dict_is). Qed.
Print Assumptions C63_to_dict.

(** C64: the commit is recorded as git prints it when the author's name has no bar and the
    branch neither bar nor comma; a detached HEAD is recorded as a branch called HEAD. *)
Theorem C64_details : forall hash author date branch others,
  hexadecimal hash -> hash <> "" -> free_of "|" author -> free_of "|" date ->
  (forall b, branch = Some b -> plain_ref b) ->
  get_commit_details (Printed (git_log hash author date (ref_names branch others)))
  = Ok (Commit hash author date (Some (match branch with Some b => b | None => "HEAD" end))).
Proof. exact details_read. Qed.
Print Assumptions C64_details.
Example C64_case : hexadecimal "652022e" /\ free_of "|" "A. U. Thor" /\ free_of "|" "2024-10-01 12:00:00 +0200" /\ plain_ref "main" /\
  get_commit_details (Printed "652022e|A. U. Thor|2024-10-01 12:00:00 +0200|HEAD -> main, origin/main")
  = Ok (Commit "652022e" "A. U. Thor" "2024-10-01 12:00:00 +0200" (Some "main")).
Proof. exact details_case. Qed.
(** outside a repository the message of git is recorded *)
Theorem C64_no_repository : forall message, get_commit_details (Failed message) = Ok (Problem ("An error occurred: " ++ strip message)).
Proof. reflexivity. Qed.
Print Assumptions C64_no_repository.
(** A bar in the author's name moves every later field. *)
Theorem C64_bar_refuted : exists hash author date b, hexadecimal hash /\ plain_ref b /\ free_of "|" date /\
  get_commit_details (Printed (git_log hash author date (ref_names (Some b) []))) = Ok (Commit hash "R" "D" (Some "+0000")) /\
  author <> "R" /\ date <> "D" /\ b <> "+0000".
Proof. exact barred_author. Qed.
Print Assumptions C64_bar_refuted.
(** A comma in the name of the branch cuts it. *)
Theorem C64_comma_refuted : exists b hash author date, b <> "" /\ (forall k, nat_of_ascii k <= 32 -> free_of k b) /\
  get_commit_details (Printed (git_log hash author date (ref_names (Some b) []))) = Ok (Commit hash author date (Some "fix")) /\ b <> "fix".
Proof. exact comma_branch. Qed.
Print Assumptions C64_comma_refuted.
(** Without git, and when git prints no ref names, the constructor raises. *)
Theorem C64_git_missing_refuted : get_commit_details Missing = Err FileNotFoundError.
Proof. reflexivity. Qed.
Print Assumptions C64_git_missing_refuted.
Theorem C64_no_refs_refuted : forall hash author date, hexadecimal hash -> hash <> "" -> free_of "|" author -> free_of "|" date ->
  get_commit_details (Printed (git_log hash author date "")) = Err IndexError.
Proof. exact no_refs. Qed.
Print Assumptions C64_no_refs_refuted.
