(** Facts about the report of the timer and the recorded commit. *)
From Coq Require Import ZArith List Bool String Ascii Lia.
From Verif Require Import Err Num HydroStateM SpecScript TimerM SpecTimer ReportM SpecReport.
Import ListNotations.
Local Open Scope nat_scope.
Local Open Scope string_scope.

(** strings *)
Lemma app_nil (s : string) : s ++ "" = s.
Proof. induction s; cbn; congruence. Qed.
Lemma app_assoc (a b c : string) : (a ++ b) ++ c = a ++ b ++ c.
Proof. induction a; cbn; congruence. Qed.
Lemma len_app (a b : string) : String.length (a ++ b) = (String.length a + String.length b)%nat.
Proof. induction a; cbn; congruence. Qed.
Lemma len_times n ch : String.length (times_char n ch) = n.
Proof. induction n; cbn; congruence. Qed.
Lemma all_times n ch : all_chars ch (times_char n ch).
Proof. induction n; cbn; auto. Qed.
Lemma all_app a s t : all_chars a s -> all_chars a t -> all_chars a (s ++ t).
Proof. induction s; cbn; [auto|]. intros [H1 H2] H3. auto. Qed.

(** the order of the categories *)
Section Order.
Context {N : Num}.
Definition listed (tm : timer N) : Prop := map fst (t_cum tm) = t_cats tm.
Lemma dset_keys {V} k (v : V) d : map fst (dset k v d) = if existsb (String.eqb k) (map fst d) then map fst d else List.app (map fst d) [k].
Proof.
  induction d as [|[k' v'] d IH]; cbn; [reflexivity|]. destruct (String.eqb_spec k k') as [->|H]; cbn; [reflexivity|].
  rewrite IH. destruct (existsb (String.eqb k) (map fst d)); reflexivity.
Qed.
Lemma dget_in {V} k (d : dict V) x : dget k d = Some x -> existsb (String.eqb k) (map fst d) = true.
Proof.
  induction d as [|[k' v'] d IH]; cbn; [discriminate|]. destruct (String.eqb k k'); cbn; auto.
Qed.
Lemma listed_add l : forall tm, listed tm -> listed (fst (add_cats l tm)).
Proof.
  induction l as [|c l IH]; intros tm H; cbn; [exact H|]. destruct (known c tm) eqn:E; [exact H|].
  apply IH. unfold listed in *. cbn [t_cum t_cats]. rewrite dset_keys, H. unfold known in E. rewrite E. reflexivity.
Qed.
Lemma listed_call o now tm : listed tm -> listed (fst (do_call o now tm)).
Proof.
  intro H. destruct o as [c|c]; cbn [do_call]; [unfold start|unfold stop];
   (destruct (negb (known c tm)); [exact H|]); destruct (dget c (t_start tm)) as [[t|]|]; try exact H.
  destruct (dget c (t_cum tm)) eqn:E; [|exact H]. unfold listed in *. cbn [fst t_cum t_cats].
  rewrite dset_keys, (dget_in _ _ _ E). exact H.
Qed.
Lemma listed_calls l : forall tm, listed tm -> listed (fst (do_calls l tm)).
Proof.
  induction l as [|[o now] l IH]; intros tm H; cbn [do_calls]; [exact H|].
  pose proof (listed_call o now tm H) as Q. destruct (do_call o now tm) as [tm' [e|]]; cbn [fst] in Q; [exact Q|]. apply IH, Q.
Qed.
Lemma listed_new l : listed (fst (new_timer l)).
Proof. apply listed_add. reflexivity. Qed.
End Order.

(** widths *)
Lemma max_len_longest l : l <> [] -> longest (max_len l) l.
Proof.
  unfold max_len. induction l as [|s l IH]; [congruence|]. intros _. cbn [map fold_right].
  destruct l as [|s' l'].
  - split; [intros x [<-|[]]; cbn; lia|]. exists s. split; [left; reflexivity|]. cbn. lia.
  - destruct (IH ltac:(discriminate)) as [H1 (x & H2 & H3)]. set (m := fold_right Nat.max O _) in *.
    split.
    + intros y [<-|Hy]; [lia|]. specialize (H1 y Hy). lia.
    + destruct (Nat.le_ge_cases (String.length s) m) as [L|L].
      * exists x. split; [right; exact H2|]. lia.
      * exists s. split; [left; reflexivity|]. lia.
Qed.
Lemma ljust_len w s : String.length s <= w -> String.length (ljust w s) = w.
Proof. intro H. unfold ljust. rewrite len_app, len_times. lia. Qed.
Lemma rjust_len w s : String.length s <= w -> String.length (rjust w s) = w.
Proof. intro H. unfold rjust. rewrite len_app, len_times. lia. Qed.

Section Lines.
Context {N : Num} (fixed : car N -> string).
Lemma fold_lines (f : string * car N -> string) l : forall acc,
  fold_left (fun acc ct => acc ++ f ct ++ nl) l acc = acc ++ unlines (map f l).
Proof.
  induction l as [|ct l IH]; intro acc; cbn [fold_left map unlines]; [rewrite app_nil; reflexivity|].
  rewrite IH. unfold nl. rewrite !app_assoc. reflexivity.
Qed.
Lemma report_lines (tm : timer N) : listed tm ->
  exists names values header rule rows,
    report fixed tm = unlines (header :: rule :: rows) /\
    (t_cats tm = [] -> names = 8) /\ (t_cats tm <> [] -> longest names (t_cats tm)) /\
    longest values ("Time (s)" :: map (fun ct => fixed (snd ct)) (t_cum tm)) /\
    String.length rule = S (names + values) /\ all_chars "-" rule /\
    List.length rows = List.length (t_cats tm) /\
    Forall2 (fun ct line => row_of (S (names + values)) (fst ct) (fixed (snd ct)) line) (t_cum tm) rows /\
    map fst (t_cum tm) = t_cats tm /\
    (8 <= names -> heading (S (names + values)) names values header) /\
    (names < 8 -> S (names + values) < String.length header).
Proof.
  intro HL. set (names := match t_cats tm with [] => 8 | cats => max_len cats end).
  set (values := Nat.max (match t_cum tm with [] => 8 | d => max_len (map (fun ct => fixed (snd ct)) d) end) 8).
  exists names, values, (ljust names "Category" ++ " " ++ ljust values "Time (s)"), (times_char (names + values + 1) "-"),
    (map (fun ct => ljust names (fst ct) ++ " " ++ rjust values (fixed (snd ct))) (t_cum tm)).
  assert (HN : t_cats tm <> [] -> longest names (t_cats tm)).
  { intro H. unfold names. destruct (t_cats tm) eqn:E; [congruence|]. apply max_len_longest. discriminate. }
  assert (HV : longest values ("Time (s)" :: map (fun ct => fixed (snd ct)) (t_cum tm))).
  { unfold values. destruct (t_cum tm) as [|ct d].
    - split; [intros s [<-|[]]; cbn; lia|]. exists "Time (s)". split; [left; reflexivity|reflexivity].
    - destruct (max_len_longest (map (fun ct => fixed (snd ct)) (ct :: d)) ltac:(discriminate)) as [H1 (x & H2 & H3)].
      set (m := max_len _) in *. split.
      + intros s [<-|Hs]; [cbn; lia|]. specialize (H1 s Hs). lia.
      + destruct (Nat.le_ge_cases 8 m) as [L|L].
        * exists x. split; [right; exact H2|]. lia.
        * exists "Time (s)". split; [left; reflexivity|]. change (String.length "Time (s)") with 8. lia. }
  assert (HV8 : 8 <= values) by (unfold values; lia).
  split.
  { unfold report. fold names. change (String.length "Time (s)") with 8. change (String.length "Category") with 8. fold names. fold values.
    assert (Q : forall l acc, fold_left (fun acc ct => acc ++ ljust names (fst ct) ++ " " ++ rjust values (fixed (snd ct)) ++ nl) l acc
      = fold_left (fun acc ct => acc ++ (ljust names (fst ct) ++ " " ++ rjust values (fixed (snd ct))) ++ nl) l acc).
    { induction l as [|ct l IH]; intro acc; [reflexivity|]. cbn [fold_left]. rewrite IH. rewrite !app_assoc. reflexivity. }
    rewrite Q, fold_lines. cbn [unlines]. unfold nl. rewrite !app_assoc. cbn [append]. reflexivity. }
  split; [intro E; unfold names; rewrite E; reflexivity|].
  split; [exact HN|]. split; [exact HV|]. split; [rewrite len_times; lia|]. split; [apply all_times|].
  split; [rewrite map_length, <- HL, map_length; reflexivity|].
  split.
  { assert (Q : forall ct, In ct (t_cum tm) -> String.length (fst ct) <= names /\ String.length (fixed (snd ct)) <= values).
    { intros ct Hct. split.
      - assert (I : In (fst ct) (t_cats tm)) by (rewrite <- HL; apply in_map; exact Hct). apply HN; [|exact I]. intro E. rewrite E in I. destruct I.
      - apply HV. right. apply (in_map (fun ct => fixed (snd ct))), Hct. }
    revert Q. generalize (t_cum tm). induction d as [|ct d IH]; intro Q; cbn [map]; constructor.
    - destruct (Q ct (or_introl eq_refl)) as [Q1 Q2]. split.
      + rewrite !len_app, ljust_len, rjust_len by assumption. cbn. lia.
      + unfold ljust, rjust. exists (times_char (names - String.length (fst ct)) " " ++ " " ++ times_char (values - String.length (fixed (snd ct))) " ").
        split; [rewrite !app_assoc; reflexivity|]. split.
        * destruct (names - String.length (fst ct)); discriminate.
        * apply all_app; [apply all_times|]. apply (all_app " " " "); [cbn; auto|apply all_times].
    - apply IH. intros x Hx. apply Q. right. exact Hx. }
  split; [exact HL|]. split.
  - intro H8. unfold heading, ljust. change (String.length "Category") with 8. change (String.length "Time (s)") with 8.
    exists (times_char (names - 8) " " ++ " "), (times_char (values - 8) " ").
    split; [rewrite !app_assoc; reflexivity|]. split; [destruct (names - 8); discriminate|].
    split; [apply all_app; [apply all_times|cbn; auto]|]. split; [apply all_times|].
    split; [rewrite !len_app, len_times; cbn; lia|]. split; [reflexivity|].
    rewrite !len_app, !len_times. cbn. lia.
  - intro H8. unfold ljust. rewrite !len_app, !len_times. cbn [String.length]. lia.
Qed.
End Lines.

(** ** commits *)
Lemma split_free sep x : forall t h tl, free_of sep x -> split_at sep t = h :: tl -> split_at sep (x ++ t) = (x ++ h) :: tl.
Proof.
  induction x as [|a x IH]; intros t h tl F E; cbn [append]; [exact E|]. destruct F as [F1 F2].
  cbn [split_at]. destruct (Ascii.eqb_spec a sep) as [->|_]; [congruence|]. rewrite (IH t h tl F2 E). reflexivity.
Qed.
Lemma split_sep sep t : split_at sep (String sep t) = "" :: split_at sep t.
Proof. cbn [split_at]. rewrite Ascii.eqb_refl. reflexivity. Qed.
Lemma split_cut sep x t : free_of sep x -> split_at sep (x ++ String sep t) = x :: split_at sep t.
Proof. intro F. rewrite (split_free sep x _ "" (split_at sep t) F (split_sep sep t)), app_nil. reflexivity. Qed.
Lemma split_some sep t : exists h tl, split_at sep t = h :: tl.
Proof. destruct t as [|a t]; cbn [split_at]; [eauto|]. destruct (Ascii.eqb a sep); [eauto|]. destruct (split_at sep t); eauto. Qed.
Lemma rstrip_app x y : rstrip (x ++ y) = match rstrip y with "" => rstrip x | y' => x ++ y' end.
Proof.
  induction x as [|a x IH]; cbn [append rstrip]; [destruct (rstrip y); reflexivity|]. rewrite IH.
  destruct (rstrip y) as [|b y'] eqn:E; [reflexivity|]. destruct (x ++ String b y') eqn:Q; [|reflexivity].
  destruct x; discriminate.
Qed.
(** nothing to strip at the end *)
Lemma rstrip_keep x y : rstrip x = x -> rstrip (x ++ y) = x ++ rstrip y.
Proof. intro H. rewrite rstrip_app. destruct (rstrip y); [rewrite app_nil; exact H|reflexivity]. Qed.
Fixpoint unspaced (s : string) : Prop := match s with EmptyString => True | String a t => is_space a = false /\ unspaced t end.
Lemma rstrip_unspaced s : unspaced s -> rstrip s = s.
Proof. induction s as [|a s IH]; [reflexivity|]. intros [H1 H2]. cbn [rstrip]. rewrite (IH H2), H1. destruct s; reflexivity. Qed.
Lemma plain_unspaced s : (forall k, nat_of_ascii k <= 32 -> free_of k s) -> unspaced s.
Proof.
  intro H. induction s as [|a s IH]; [exact I|]. split.
  - destruct (is_space a) eqn:E; [|reflexivity]. exfalso. assert (L : nat_of_ascii a <= 32).
    { unfold is_space in E. apply orb_true_iff in E. rewrite !andb_true_iff in E. rewrite !Nat.leb_le in E. lia. }
    destruct (H a L) as [Q _]. apply Q. reflexivity.
  - apply IH. intros k Hk. apply (H k Hk).
Qed.
Lemma hex_unspaced s : hexadecimal s -> unspaced s /\ free_of "|" s.
Proof.
  induction s as [|a s IH]; [split; exact I|]. intros [H1 H2]. destruct (IH H2) as [A B].
  assert (L : (48 <= nat_of_ascii a <= 57) \/ (97 <= nat_of_ascii a <= 102)).
  { unfold hex_digit in H1. apply orb_true_iff in H1. rewrite !andb_true_iff in H1. rewrite !Nat.leb_le in H1. lia. }
  split; split; auto.
  - unfold is_space. apply orb_false_iff. rewrite !andb_false_iff, !Nat.leb_gt. lia.
  - intro E. rewrite <- E in L. cbn in L. lia.
Qed.
Definition go_words := fix go (cur : string) (s : string) : list string :=
     match s with
     | EmptyString => match cur with EmptyString => [] | _ => [cur] end
     | String a t => if is_space a then match cur with EmptyString => go "" t | _ => cur :: go "" t end
                     else go (cur ++ String a "") t
     end.
Lemma words_unspaced s : forall cur, unspaced s -> (cur <> "" \/ s <> "") -> go_words cur s = [cur ++ s].
Proof.
  induction s as [|a s IH]; intros cur U H; cbn [go_words].
  - rewrite app_nil. destruct cur; [destruct H; congruence|reflexivity].
  - destruct U as [U1 U2]. rewrite U1, (IH _ U2).
    + rewrite app_assoc. reflexivity.
    + left. destruct cur; discriminate.
Qed.
Lemma words_head b : unspaced b -> b <> "" -> words ("HEAD -> " ++ b) = ["HEAD"; "->"; b].
Proof.
  intros U H. change (words ("HEAD -> " ++ b)) with ("HEAD" :: "->" :: go_words "" b).
  rewrite (words_unspaced b "" U (or_intror H)). reflexivity.
Qed.

Definition first_ref (branch : option string) : string := match branch with Some b => "HEAD -> " ++ b | None => "HEAD" end.
Lemma first_ref_ok branch : (forall b, branch = Some b -> plain_ref b) ->
  free_of "|" (first_ref branch) /\ free_of "," (first_ref branch) /\ rstrip (first_ref branch) = first_ref branch /\
  lstrip (first_ref branch) = first_ref branch /\
  last_item (words (first_ref branch)) = Ok (match branch with Some b => b | None => "HEAD" end).
Proof.
  intro H. destruct branch as [b|]; cbn [first_ref].
  - destruct (H b eq_refl) as (NE & F1 & F2 & F3). apply plain_unspaced in F3.
    split; [cbn; repeat split; try discriminate; exact F1|]. split; [cbn; repeat split; try discriminate; exact F2|].
    split; [|split; [reflexivity|rewrite (words_head b F3 NE); reflexivity]].
    rewrite rstrip_app, (rstrip_unspaced b F3). destruct b; [congruence|reflexivity].
  - split; [cbn; repeat split; discriminate|]. split; [cbn; repeat split; discriminate|]. repeat split.
Qed.
Lemma rest_refs others : rstrip (String.concat "" (map (fun o => ", " ++ o) others)) = "" \/
  exists t, rstrip (String.concat "" (map (fun o => ", " ++ o) others)) = String "," t.
Proof.
  destruct others as [|o l]; [left; reflexivity|right]. cbn [map].
  assert (Q : exists t, String.concat "" ((", " ++ o) :: map (fun o => ", " ++ o) l) = String "," t).
  { destruct l; cbn; eauto. }
  destruct Q as [t ->]. cbn [rstrip]. destruct (rstrip t) as [|b s]; [exists ""; reflexivity|exists (String b s); reflexivity].
Qed.
Lemma details_read hash author date branch others :
  hexadecimal hash -> hash <> "" -> free_of "|" author -> free_of "|" date ->
  (forall b, branch = Some b -> plain_ref b) ->
  get_commit_details (Printed (git_log hash author date (ref_names branch others)))
  = Ok (Commit hash author date (Some (match branch with Some b => b | None => "HEAD" end))).
Proof.
  intros HH NE FA FD HB. destruct (first_ref_ok branch HB) as (B1 & B2 & B3 & B4 & B5).
  destruct (hex_unspaced hash HH) as [U FH].
  set (rest := String.concat "" (map (fun o => ", " ++ o) others)).
  assert (ES : strip (git_log hash author date (ref_names branch others))
    = hash ++ String "|" (author ++ String "|" (date ++ String "|" (first_ref branch ++ rstrip rest)))).
  { unfold strip, git_log, ref_names. fold rest.
    assert (L : forall t, lstrip (hash ++ t) = hash ++ t).
    { intro t. destruct hash as [|a h]; [congruence|]. cbn [append lstrip]. destruct U as [-> _]. reflexivity. }
    rewrite L. fold (first_ref branch).
    assert (P : forall x, rstrip (x ++ first_ref branch ++ rest) = x ++ first_ref branch ++ rstrip rest).
    { intro x. rewrite rstrip_app, (rstrip_keep _ _ B3). destruct (first_ref branch ++ rstrip rest) eqn:Q; [|reflexivity].
      destruct branch; discriminate. }
    specialize (P (hash ++ "|" ++ author ++ "|" ++ date ++ "|")). rewrite !app_assoc in P. rewrite P. reflexivity. }
  unfold get_commit_details. rewrite ES.
  rewrite (split_cut _ _ _ FH), (split_cut _ _ _ FA), (split_cut _ _ _ FD).
  assert (R : exists p tl, split_at "|" (first_ref branch ++ rstrip rest) = (first_ref branch ++ p) :: tl /\ (p = "" \/ exists t, p = String "," t)).
  { destruct (rest_refs others) as [E|[t E]]; fold rest in E; rewrite E.
    - exists "", []. split; [|left; reflexivity]. apply split_free; [exact B1|reflexivity].
    - destruct (split_some "|" t) as (h & tl & Et). exists (String "," h), tl. split; [|right; eauto].
      apply split_free; [exact B1|]. cbn [split_at]. rewrite Et. reflexivity. }
  destruct R as (p & tl & ER & HP). rewrite ER. cbn [item nth_error bind Nat.ltb Nat.leb List.length].
  assert (EF : exists tl', split_at "," (first_ref branch ++ p) = first_ref branch :: tl').
  { destruct HP as [->|[t ->]].
    - exists []. rewrite (split_free "," _ "" "" [] B2 eq_refl), app_nil. reflexivity.
    - eexists. apply split_cut, B2. }
  destruct EF as [tl' EF]. rewrite EF. cbn [item nth_error bind]. unfold strip. rewrite B4, B3, B5. reflexivity.
Qed.
Lemma no_refs hash author date : hexadecimal hash -> hash <> "" -> free_of "|" author -> free_of "|" date ->
  get_commit_details (Printed (git_log hash author date "")) = Err IndexError.
Proof.
  intros HH NE FA FD. destruct (hex_unspaced hash HH) as [U FH].
  assert (ES : strip (git_log hash author date "") = hash ++ String "|" (author ++ String "|" (date ++ String "|" ""))).
  { unfold strip, git_log.
    assert (L : forall t, lstrip (hash ++ t) = hash ++ t).
    { intro t. destruct hash as [|a h]; [congruence|]. cbn [append lstrip]. destruct U as [-> _]. reflexivity. }
    rewrite L. pose proof (rstrip_app (hash ++ "|" ++ author ++ "|" ++ date) "|") as P. cbn [rstrip] in P.
    change (is_space "|") with false in P. cbv iota in P. rewrite !app_assoc in P. exact P. }
  unfold get_commit_details. rewrite ES, (split_cut _ _ _ FH), (split_cut _ _ _ FA), (split_cut _ _ _ FD). reflexivity.
Qed.
(** the solver's categories, a short one, and the dictionary *)
Lemma solver_timer_listed {N : Num} : listed (@solver_timer N).
Proof. unfold solver_timer. apply listed_add, listed_new. Qed.
Lemma cats_call {N : Num} o now (tm : timer N) : t_cats (fst (do_call o now tm)) = t_cats tm.
Proof.
  destruct o as [c|c]; cbn [do_call]; [unfold start|unfold stop];
   (destruct (negb (known c tm)); [reflexivity|]); destruct (dget c (t_start tm)) as [[t|]|]; try reflexivity.
  destruct (dget c (t_cum tm)); reflexivity.
Qed.
Lemma cats_calls {N : Num} l : forall tm : timer N, t_cats (fst (do_calls l tm)) = t_cats tm.
Proof.
  induction l as [|[o now] l IH]; intro tm; cbn [do_calls]; [reflexivity|].
  pose proof (cats_call o now tm) as Q. destruct (do_call o now tm) as [tm' [e|]]; cbn [fst] in Q; [exact Q|]. rewrite IH. exact Q.
Qed.
Lemma solver_report {N : Num} (fixed : car N -> string) calls :
  let tm := fst (do_calls calls solver_timer) in
  exists names values header rule rows,
    report fixed tm = unlines (header :: rule :: rows) /\
    heading (S (names + values)) names values header /\
    String.length rule = S (names + values) /\ all_chars "-" rule /\
    Forall2 (fun ct line => row_of (S (names + values)) (fst ct) (fixed (snd ct)) line) (t_cum tm) rows /\
    map fst (t_cum tm) = solver_cats.
Proof.
  intro tm. assert (EC : t_cats tm = solver_cats) by (unfold tm; rewrite cats_calls; reflexivity).
  destruct (report_lines fixed tm (listed_calls calls _ solver_timer_listed)) as (n & v & h & ru & rows & A & _ & B & _ & C & D & _ & E & F & G & _).
  exists n, v, h, ru, rows. split; [exact A|]. split.
  - apply G. destruct B as [B _]; [rewrite EC; discriminate|]. assert (Q := B "SNAPSHOTS"). cbn in Q.
    enough (9 <= n) by lia. apply Q. rewrite EC. right. left. reflexivity.
  - split; [exact C|]. split; [exact D|]. split; [exact E|]. rewrite F. exact EC.
Qed.
Lemma short_names : exists header rule rows, forall N (fixed : car N -> string), (forall t, fixed t = "0.25") ->
  report fixed (fst (new_timer ["io"])) = unlines (header :: rule :: rows) /\
  header = "Category Time (s)" /\ rule = "-----------" /\ rows = ["io     0.25"].
Proof.
  eexists _, _, _. intros N fixed H. split; [|repeat split; reflexivity].
  unfold report. cbn [new_timer add_cats known existsb fst t_cats t_cum dset List.app fold_left snd map]. rewrite H. reflexivity.
Qed.
Lemma dget_map {V W} (f : V -> W) k (d : dict V) : dget k (map (fun ct => (fst ct, f (snd ct))) d) = option_map f (dget k d).
Proof. induction d as [|[k' v] d IH]; cbn; [reflexivity|]. destruct (String.eqb k k'); [reflexivity|exact IH]. Qed.
Lemma to_dict_is {N : Num} (round : car N -> car N) cats calls c :
  let tm := fst (do_calls calls (fst (new_timer cats))) in
  map fst (timer_dict round tm) = t_cats tm /\
  dget c (timer_dict round tm) = option_map round (dget c (t_cum tm)).
Proof.
  intro tm. split; [|apply dget_map]. unfold timer_dict. rewrite map_map. cbn [fst].
  exact (listed_calls calls _ (listed_new cats)).
Qed.
Lemma low_not (k : ascii) a : nat_of_ascii k <= 32 -> 32 < nat_of_ascii a -> k <> a.
Proof. intros H1 H2 E. rewrite E in H1. lia. Qed.
Ltac plainly := repeat (split; [first [discriminate | apply low_not; [assumption|cbn; lia]]|]); exact I.
Lemma details_case : hexadecimal "652022e" /\ free_of "|" "A. U. Thor" /\ free_of "|" "2024-10-01 12:00:00 +0200" /\ plain_ref "main" /\
  get_commit_details (Printed "652022e|A. U. Thor|2024-10-01 12:00:00 +0200|HEAD -> main, origin/main")
  = Ok (Commit "652022e" "A. U. Thor" "2024-10-01 12:00:00 +0200" (Some "main")).
Proof.
  split; [repeat split|]. split; [cbn; repeat split; discriminate|]. split; [cbn; repeat split; discriminate|].
  split; [|reflexivity]. split; [discriminate|]. split; [plainly|]. split; [plainly|]. intros k Hk. plainly.
Qed.
Lemma barred_author : exists hash author date b, hexadecimal hash /\ plain_ref b /\ free_of "|" date /\
  get_commit_details (Printed (git_log hash author date (ref_names (Some b) []))) = Ok (Commit hash "R" "D" (Some "+0000")) /\
  author <> "R" /\ date <> "D" /\ b <> "+0000".
Proof.
  exists "652022e", "R|D", "2024-10-01 12:00:00 +0000", "main".
  split; [repeat split|]. split.
  - split; [discriminate|]. split; [plainly|]. split; [plainly|]. intros k Hk. plainly.
  - split; [cbn; repeat split; discriminate|]. repeat split; discriminate.
Qed.
Lemma comma_branch : exists b hash author date, b <> "" /\ (forall k, nat_of_ascii k <= 32 -> free_of k b) /\
  get_commit_details (Printed (git_log hash author date (ref_names (Some b) []))) = Ok (Commit hash author date (Some "fix")) /\ b <> "fix".
Proof.
  exists "fix,tidy", "652022e", "A", "2024". split; [discriminate|]. split; [intros k Hk; plainly|]. split; [reflexivity|discriminate].
Qed.
