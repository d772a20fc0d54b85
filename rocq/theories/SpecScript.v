(** Definitions for the statements about result directories. *)
From Coq Require Import ZArith List Bool String Ascii.
From Verif Require Import Err Num OdeM SpecOde SnapM ScriptM.
Import ListNotations.

(** the character does not occur *)
Fixpoint free_of (a : ascii) (s : string) : Prop :=
  match s with EmptyString => True | String b t => a <> b /\ free_of a t end.
(** keyword arguments: different names without "=", none of them T or _T, and values printed
    without "_" *)
Definition plain_kwargs (l : list (string * string)) : Prop :=
  NoDup (map fst l) /\
  Forall (fun kv => free_of "=" (fst kv) /\ fst kv <> "T"%string /\ fst kv <> "_T"%string /\ free_of "_" (snd kv)) l.

(** a solver whose initial condition is its initial state, for the examples *)
Definition count_solver {N : Num} (ic : car N) (bc : unit) : res (saver Z N (car N) unit) := Ok (mksaver (ode_init N ic tt) []).
