(** Vocabulary for the printed report and the recorded commit. *)
From Coq Require Import List Bool String Ascii.
From Verif Require Import Num HydroStateM TimerM SpecScript.
Import ListNotations.
Local Open Scope string_scope.

(** lines, each followed by a newline *)
Fixpoint unlines (l : list string) : string :=
  match l with [] => "" | x :: l' => x ++ String (ascii_of_nat 10) (unlines l') end.
Fixpoint all_chars (a : ascii) (s : string) : Prop :=
  match s with EmptyString => True | String b t => b = a /\ all_chars a t end.
(** a line of the given width: a name on the left, a value on the right, blanks in between *)
Definition row_of (width : nat) (name value line : string) : Prop :=
  String.length line = width /\
  exists gap, line = name ++ gap ++ value /\ gap <> "" /\ all_chars " " gap.
(** the two headings, each where its column starts: the second one stands over the first
    character a value can have *)
Definition heading (width : nat) (names values : nat) (line : string) : Prop :=
  exists gap rest, line = "Category" ++ gap ++ "Time (s)" ++ rest /\ gap <> "" /\ all_chars " " gap /\ all_chars " " rest /\
    String.length ("Category" ++ gap) = S names /\ width = S (names + values) /\ String.length line = width.
Definition longest (n : nat) (l : list string) : Prop :=
  (forall s, In s l -> String.length s <= n) /\ exists s, In s l /\ String.length s = n.

(** the ref names git prints for %D: the branch HEAD points to, or a detached HEAD, then the
    other names *)
Definition ref_names (branch : option string) (others : list string) : string :=
  (match branch with Some b => "HEAD -> " ++ b | None => "HEAD" end) ++ String.concat "" (map (fun o => ", " ++ o) others).
(** git log --pretty=format:%H|%an|%ai|%D *)
Definition git_log (hash author date refs : string) : string := hash ++ "|" ++ author ++ "|" ++ date ++ "|" ++ refs.
Definition hex_digit (a : ascii) : bool :=
  let n := nat_of_ascii a in (Nat.leb 48 n && Nat.leb n 57 || Nat.leb 97 n && Nat.leb n 102)%bool.
Fixpoint hexadecimal (s : string) : Prop :=
  match s with EmptyString => True | String a t => hex_digit a = true /\ hexadecimal t end.
(** no character that the reading of the ref names treats specially; git forbids blanks in
    branch names, but neither commas nor bars *)
Definition plain_ref (s : string) : Prop :=
  s <> "" /\ free_of "|" s /\ free_of "," s /\
  forall k, nat_of_ascii k <= 32 -> free_of k s.
