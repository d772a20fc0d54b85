(** Model of the printed side of the tools: Timer.to_dict and Timer.report,
    /repo/fvhoe/timer.py:74-109, and ODE.get_commit_details, /repo/fvhoe/ode.py:61-92.
    Strings are ASCII. *)
From Coq Require Import ZArith List Bool String Ascii.
From Verif Require Import Err Num HydroStateM TimerM.
Import ListNotations.
Local Open Scope string_scope.

(** ch * n *)
Fixpoint times_char (n : nat) (ch : ascii) : string :=
  match n with O => "" | S k => String ch (times_char k ch) end.
(** f"{s:<{w}}" and f"{s:>{w}}" *)
Definition ljust (w : nat) (s : string) : string := s ++ times_char (w - String.length s) " ".
Definition rjust (w : nat) (s : string) : string := times_char (w - String.length s) " " ++ s.
Definition nl : string := String (ascii_of_nat 10) "".
(** max(len(s) for s in l), l not empty *)
Definition max_len (l : list string) : nat := fold_right Nat.max O (map String.length l).

Section Report.
Context {N : Num}.
Local Notation K := (car N).
(** f"{t:.{precision}f}" and np.round(t, precision) are parameters *)
Context (fixed : K -> string) (round : K -> K).

(** to_dict, timer.py:74-76 *)
Definition timer_dict (tm : timer N) : dict K := map (fun ct => (fst ct, round (snd ct))) (t_cum tm).

(** report, timer.py:78-109 *)
Definition report (tm : timer N) : string :=
  let cat_header := "Category" in
  let time_header := "Time (s)" in
  let max_cat_len := match t_cats tm with [] => String.length cat_header | cats => max_len cats end in
  let max_time_len := Nat.max (match t_cum tm with
                               | [] => String.length time_header
                               | d => max_len (map (fun ct => fixed (snd ct)) d)
                               end) (String.length time_header) in
  ljust max_cat_len cat_header ++ " " ++ ljust max_time_len time_header ++ nl ++
  times_char (max_cat_len + max_time_len + 1) "-" ++ nl ++
  fold_left (fun acc ct => acc ++ ljust max_cat_len (fst ct) ++ " " ++ rjust max_time_len (fixed (snd ct)) ++ nl)
    (t_cum tm) "".
End Report.

(** str.isspace for one ASCII character *)
Definition is_space (a : ascii) : bool :=
  let n := nat_of_ascii a in
  ((Nat.leb 9 n && Nat.leb n 13) || (Nat.leb 28 n && Nat.leb n 32))%bool.
(** str.lstrip(), str.rstrip() and str.strip() *)
Fixpoint lstrip (s : string) : string :=
  match s with String a t => if is_space a then lstrip t else s | EmptyString => "" end.
Fixpoint rstrip (s : string) : string :=
  match s with
  | EmptyString => ""
  | String a t => match rstrip t with
                  | EmptyString => if is_space a then "" else String a ""
                  | t' => String a t'
                  end
  end.
Definition strip (s : string) : string := rstrip (lstrip s).
(** str.split(sep) for one character *)
Fixpoint split_at (sep : ascii) (s : string) : list string :=
  match s with
  | EmptyString => [""]
  | String a t => if Ascii.eqb a sep then "" :: split_at sep t
                  else match split_at sep t with
                       | x :: l => String a x :: l
                       | [] => [String a ""]
                       end
  end.
(** str.split() *)
Definition words (s : string) : list string :=
  (fix go (cur : string) (s : string) : list string :=
     match s with
     | EmptyString => match cur with EmptyString => [] | _ => [cur] end
     | String a t => if is_space a then match cur with EmptyString => go "" t | _ => cur :: go "" t end
                     else go (cur ++ String a "") t
     end) "" s.
(** l[k] and l[-1] *)
Definition item {A} (l : list A) (k : nat) : res A :=
  match nth_error l k with Some x => Ok x | None => Err IndexError end.
Definition last_item {A} (l : list A) : res A := item (rev l) 0.

(** what subprocess.run with check=True does: the program printed something, it failed
    (CalledProcessError), or it is not there (FileNotFoundError) *)
Inductive git := Printed (stdout : string) | Failed (stderr : string) | Missing.
Inductive details :=
| Commit (hash author date : string) (branch : option string)
| Problem (error : string).
(** get_commit_details, ode.py:61-92 *)
Definition get_commit_details (g : git) : res details :=
  match g with
  | Missing => Err FileNotFoundError
  | Failed stderr => Ok (Problem ("An error occurred: " ++ strip stderr))
  | Printed stdout =>
      let commit_info := split_at "|" (strip stdout) in
      do commit_hash <- item commit_info 0;
      do author_name <- item commit_info 1;
      do commit_date <- item commit_info 2;
      do branch_name <- (if Nat.ltb 3 (List.length commit_info)
                         then do refs <- item commit_info 3;
                              do first <- item (split_at "," refs) 0;
                              do name <- last_item (words (strip first));
                              Ok (Some name)
                         else Ok None);
      Ok (Commit commit_hash author_name commit_date branch_name)
  end.
