(** The names an array manager has after a sequence of actions. *)
From Coq Require Import ZArith List Bool String.
From Verif Require Import Err HydroStateM ArrMgrM.
Import ListNotations.

(** in the order in which they were added; a removed name that is added again comes last *)
Fixpoint listed {V} (l : list (action V)) (names : list string) : list string :=
  match l with
  | [] => names
  | A_add n _ :: l' => listed l' (names ++ [n])
  | A_remove n :: l' => listed l' (filter (fun k => negb (String.eqb n k)) names)
  | _ :: l' => listed l' names
  end.
