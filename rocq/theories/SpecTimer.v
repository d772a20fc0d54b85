(** Vocabulary for the timer and the array manager. *)
From Coq Require Import ZArith List Bool String Reals.
From Verif Require Import Err Num HydroStateM TimerM ArrMgrM.
Import ListNotations.
Open Scope Z_scope.

(** what a timer knows of a category: start time if running, and accumulated time *)
Definition status {N} (tm : timer N) (c : string) : option (option (car N) * car N) :=
  match dget c (t_start tm), dget c (t_cum tm) with
  | Some s, Some x => Some (s, x)
  | _, _ => None
  end.
(** a timer as built by __init__ and add_cat: all three attributes list the same categories *)
Definition tracked {N} (tm : timer N) : Prop :=
  NoDup (t_cats tm) /\
  forall c, (In c (t_cats tm) <-> status tm c <> None) /\
            (dget c (t_start tm) = None <-> status tm c = None).

Definition category (o : call) : string := match o with Start c => c | Stop c => c end.
(** time between the starts and stops of [c]; [pending] is the start of a running interval *)
Fixpoint elapsed (c : string) (pending : option R) (l : list (call * R)) : R :=
  match l with
  | [] => 0%R
  | (Start c', now) :: l' => if String.eqb c' c then elapsed c (Some now) l' else elapsed c pending l'
  | (Stop c', now) :: l' =>
      if String.eqb c' c
      then (match pending with Some t0 => now - t0 | None => 0 end + elapsed c None l')%R
      else elapsed c pending l'
  end.
(** start time of [c] after the calls *)
Fixpoint pending_after (c : string) (pending : option R) (l : list (call * R)) : option R :=
  match l with
  | [] => pending
  | (Start c', now) :: l' => pending_after c (if String.eqb c' c then Some now else pending) l'
  | (Stop c', now) :: l' => pending_after c (if String.eqb c' c then None else pending) l'
  end.
(** properly nested intervals, no category inside itself *)
Inductive nested : list call -> Prop :=
| n_nil : nested []
| n_pair c l l' : nested l -> (forall o, In o l -> category o <> c) -> nested l' ->
    nested (Start c :: l ++ Stop c :: l').
(** the clock never goes back *)
Fixpoint ticking (t : R) (l : list (call * R)) : Prop :=
  match l with [] => True | (_, now) :: l' => (t <= now)%R /\ ticking now l' end.
(** every category of the solver is idle *)
Definition all_idle {N} (tm : timer N) : Prop := forall c, In c solver_cats -> exists x, status tm c = Some (None, x).

(** ** arrays *)
(** contents of an array *)
Definition contents {V} (o : obj) (h : heap V) : option V :=
  match o with Arr _ a => load a h | Other => None end.
(** every array of the manager is a buffer of the library in use, and no two share a buffer *)
Definition tidy {V} (m : manager) (h : heap V) : Prop :=
  (m_using m = true -> m_cupy m = true) /\ NoDup (map fst (m_arrays m)) /\
  (forall n o, dget n (m_arrays m) = Some o ->
     exists a, o = Arr (if m_using m then CuPy else NumPy) a /\ (a < List.length h)%nat) /\
  (forall n n' o, dget n (m_arrays m) = Some o -> dget n' (m_arrays m) = Some o -> n = n').
(** the manager does not refer to a buffer *)
Definition private (o : obj) (m : manager) : Prop :=
  forall n l a l', dget n (m_arrays m) = Some (Arr l a) -> o <> Arr l' a.
(** names and contents *)
Definition table {V} (m : manager) (h : heap V) (n : string) : option V :=
  match dget n (m_arrays m) with Some o => contents o h | None => None end.
(** actions that leave the library in use alone *)
Definition steady {V} (a : action V) : Prop := match a with A_enable | A_disable => False | _ => True end.
(** the same actions on a finite map *)
Definition on_table {V} (a : action V) (f : string -> option V) : res (string -> option V) :=
  match a with
  | A_add n v => match f n with Some _ => Err KeyError | None => Ok (fun k => if String.eqb k n then Some v else f k) end
  | A_remove n => match f n with None => Err KeyError | Some _ => Ok (fun k => if String.eqb k n then None else f k) end
  | A_write n v => match f n with None => Err KeyError | Some _ => Ok (fun k => if String.eqb k n then Some v else f k) end
  | A_get n => match f n with None => Err KeyError | Some _ => Ok f end
  | A_enable | A_disable => Ok f
  end.
Fixpoint all_on_table {V} (l : list (action V)) (f : string -> option V) : res (string -> option V) :=
  match l with [] => Ok f | a :: l' => do g <- on_table a f; all_on_table l' g end.
(** whether CuPy is in use after some actions, on a machine with or without it *)
Fixpoint switched {V} (avail : bool) (l : list (action V)) (b : bool) : bool :=
  match l with
  | [] => b
  | A_enable :: l' => switched avail l' (avail || b)
  | A_disable :: l' => switched avail l' false
  | _ :: l' => switched avail l' b
  end.
