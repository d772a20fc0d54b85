(** Model of Timer, /repo/fvhoe/timer.py:6-74 (to_dict and report: ReportM), and
    of the sequence of timer calls the solver makes. *)
From Coq Require Import ZArith List Bool String.
From Verif Require Import Err Num HydroStateM.
Import ListNotations.
Open Scope Z_scope.

Section Timer.
Context {N : Num}.
Notation K := (car N).

(** the attributes cats, _start_time and cum_time *)
Record timer := mktimer {
  t_cats : list string;
  t_start : dict (option K);
  t_cum : dict K
}.

(** [cat in self.cats] *)
Definition known (c : string) (tm : timer) : bool := existsb (String.eqb c) (t_cats tm).

(** the loop of add_cat, timer.py:31-36; on an exception the categories already added stay *)
Fixpoint add_cats (l : list string) (tm : timer) : timer * option exn :=
  match l with
  | [] => (tm, None)
  | c :: l' =>
      if known c tm then (tm, Some ValueError)
      else add_cats l' (mktimer (t_cats tm ++ [c]) (dset c None (t_start tm))
                                (dset c (nofZ 0) (t_cum tm)))
  end.
(** __init__, timer.py:11-21 *)
Definition new_timer (l : list string) : timer * option exn := add_cats l (mktimer [] [] []).

(** start, timer.py:47-58; [now] is the value of time.time(). The KeyError of a category
    without entry in _start_time cannot occur for a timer built by __init__ and add_cat. *)
Definition start (c : string) (now : K) (tm : timer) : timer * option exn :=
  if negb (known c tm) then (tm, Some ValueError)
  else match dget c (t_start tm) with
       | None => (tm, Some KeyError)
       | Some (Some _) => (tm, Some RuntimeError)
       | Some None => (mktimer (t_cats tm) (dset c (Some now) (t_start tm)) (t_cum tm), None)
       end.
(** stop, timer.py:60-72 *)
Definition stop (c : string) (now : K) (tm : timer) : timer * option exn :=
  if negb (known c tm) then (tm, Some ValueError)
  else match dget c (t_start tm) with
       | None => (tm, Some KeyError)
       | Some None => (tm, Some RuntimeError)
       | Some (Some t0) =>
           match dget c (t_cum tm) with
           | None => (tm, Some KeyError)
           | Some x => (mktimer (t_cats tm) (dset c None (t_start tm))
                                (dset c (nadd x (nsub now t0)) (t_cum tm)), None)
           end
       end.

(** A program's calls to the timer, each with the clock it reads; the first exception ends it. *)
Inductive call := Start (c : string) | Stop (c : string).
Definition do_call (o : call) (now : K) (tm : timer) : timer * option exn :=
  match o with Start c => start c now tm | Stop c => stop c now tm end.
Fixpoint do_calls (l : list (call * K)) (tm : timer) : timer * option exn :=
  match l with
  | [] => (tm, None)
  | (o, now) :: l' =>
      match do_call o now tm with
      | (tm', None) => do_calls l' tm'
      | (tm', Some e) => (tm', Some e)
      end
  end.
End Timer.
Arguments timer N : clear implicits.

(** ** The calls of the solver. Branches on data are taken from boolean arguments. *)
(** interpolate_primitives_from_conservatives, solver.py:783-785 *)
Definition primitives_calls : list call := [Start "boundary conditions"; Stop "boundary conditions"].
(** hydrofluxes, solver.py:478-650 *)
Definition fluxes_calls (prefix : string) : list call :=
  [Start (String.append prefix "hydrofluxes")] ++ primitives_calls ++
  [Start (String.append prefix "conservative interpolation"); Stop (String.append prefix "conservative interpolation");
   Start (String.append prefix "riemann solver"); Stop (String.append prefix "riemann solver");
   Start (String.append prefix "transverse reconstruction"); Stop (String.append prefix "transverse reconstruction");
   Stop (String.append prefix "hydrofluxes")].
(** revise_fluxes, solver.py:674-732; [troubled]: some cell is troubled *)
Definition revise_calls (troubled : bool) : list call :=
  [Start "(fallback scheme)"] ++ primitives_calls ++ primitives_calls ++
  [Start "(fallback scheme) troubled cell detection"; Stop "(fallback scheme) troubled cell detection"] ++
  (if troubled then fluxes_calls "(fallback scheme) " else []) ++
  [Stop "(fallback scheme)"].
(** f, solver.py:437-454; [None] without slope limiting *)
Definition stage_calls (limited : option bool) : list call :=
  fluxes_calls "(high-order) " ++ match limited with Some b => revise_calls b | None => [] end.
(** take_step, ode.py:187-197: one call of f per stage *)
Definition step_calls (stages : list (option bool)) : list call := flat_map stage_calls stages.
(** snapshot, solver.py:840-850 *)
Definition snapshot_calls : list call := primitives_calls.
Definition timed_snapshot_calls : list call := [Start "SNAPSHOTS"] ++ snapshot_calls ++ [Stop "SNAPSHOTS"].
(** integrate, ode.py:117-128, with a number of steps *)
Definition count_calls (steps : list (list (option bool))) : list call :=
  timed_snapshot_calls ++ [Start "TOTAL"] ++ flat_map step_calls steps ++ [Stop "TOTAL"] ++ timed_snapshot_calls.
(** integrate, ode.py:130-174, until a time; each step with the test of line 161 *)
Definition until_calls (steps : list (list (option bool) * bool)) : list call :=
  snapshot_calls ++ [Start "TOTAL"] ++
  flat_map (fun s => step_calls (fst s) ++ if snd s : bool then timed_snapshot_calls else []) steps ++
  [Stop "TOTAL"].
(** Timer(cats=["TOTAL", "SNAPSHOTS"]), ode.py:49, then add_cat, solver.py:204-218 *)
Definition solver_cats : list string :=
  ["TOTAL"; "SNAPSHOTS"; "boundary conditions"; "(high-order) hydrofluxes"; "(high-order) riemann solver";
   "(high-order) conservative interpolation"; "(high-order) transverse reconstruction"; "(fallback scheme)";
   "(fallback scheme) troubled cell detection"; "(fallback scheme) hydrofluxes"; "(fallback scheme) riemann solver";
   "(fallback scheme) conservative interpolation"; "(fallback scheme) transverse reconstruction"]%string.
Definition solver_timer {N : Num} : timer N :=
  fst (add_cats (skipn 2 solver_cats) (fst (new_timer (firstn 2 solver_cats)))).
