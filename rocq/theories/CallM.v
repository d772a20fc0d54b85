(** Model of one call of ODE.integrate, /repo/fvhoe/ode.py:94-174, with what it does on the way
    to the object, its timer and its progress bar (:201-216), also when it raises. The result
    of the integration alone is OdeM.integrate; snapshot directories are in SnapM.

    An exception inside a step or a snapshot leaves the time, the state and the logs as they
    were before it; what it leaves of the auxiliary arrays of f is not modelled. The timer calls
    inside steps and snapshots are in TimerM. *)
From Coq Require Import ZArith List Bool String.
From Verif Require Import Err Num HydroStateM OdeM TimerM.
Import ListNotations.
Open Scope Z_scope.

(** the argument downbeats: None, a list, an array (tolist gives its list), or anything else
    (a tuple, a number), which cannot be added to a list *)
Inductive beats (K : Type) := Beats_none | Beats_list (l : list K) | Beats_array (l : list K) | Beats_other.
Arguments Beats_none {K}. Arguments Beats_list {K}. Arguments Beats_array {K}. Arguments Beats_other {K}.

(** what is done with progress bars: tqdm(total=T), tqdm(range(n)), n = t with refresh(), close() *)
Inductive bar (K : Type) := Bar_total (T : K) | Bar_range (n : Z) | Bar_at (t : K) | Bar_close.
Arguments Bar_total {K}. Arguments Bar_range {K}. Arguments Bar_at {K}. Arguments Bar_close {K}.

Section Call.
Context (N : Num).
Local Notation K := (car N).
Local Open Scope num_scope.
Context {U S D : Type} (V : vops N U) (helper : S -> S) (payload : S -> K -> U -> res D).
(** the k-th value of time.time() that the timer stores *)
Context (clock : nat -> K).

Record session := mkses {
  s_ode : @ode N U S D;
  s_stepper : option (@stepper N U S); (* self.stepper, unset before the first euler, ssprk2, ... *)
  s_print : bool;                      (* self.print_progress_bar *)
  s_timer : timer N;
  s_ticks : nat;                       (* values of time.time() used so far *)
  s_bar : list (bar K)
}.

Definition prog (A : Type) : Type := session -> session * res A.
Definition ret {A} (x : A) : prog A := fun s => (s, Ok x).
Definition raise {A} (e : exn) : prog A := fun s => (s, Err e).
Definition seq {A B} (p : prog A) (k : A -> prog B) : prog B := fun s =>
  let (s', r) := p s in match r with Ok x => k x s' | Err e => (s', Err e) end.
Local Notation "'let!' x := p 'in' q" := (seq p (fun x => q)) (at level 200, x pattern, right associativity).

(** self.timer.start(c) and self.timer.stop(c) *)
Definition tick (o : call) : prog unit := fun s =>
  match do_call o (clock (s_ticks s)) (s_timer s) with
  | (tm, None) => (mkses (s_ode s) (s_stepper s) (s_print s) tm (Datatypes.S (s_ticks s)) (s_bar s), Ok tt)
  | (tm, Some e) => (mkses (s_ode s) (s_stepper s) (s_print s) tm (s_ticks s) (s_bar s), Err e)
  end.
Definition show (b : bar K) : prog unit := fun s =>
  (mkses (s_ode s) (s_stepper s) (s_print s) (s_timer s) (s_ticks s) (s_bar s ++ [b]), Ok tt).
(** progress_bar_action, ode.py:201-216 *)
Definition progress (b : session -> bar K) : prog unit := fun s =>
  if s_print s then show (b s) s else (s, Ok tt).
Definition change (f : @ode N U S D -> res (@ode N U S D)) : prog unit := fun s =>
  match f (s_ode s) with
  | Ok o => (mkses o (s_stepper s) (s_print s) (s_timer s) (s_ticks s) (s_bar s), Ok tt)
  | Err e => (s, Err e)
  end.
Definition snap : prog unit := change (snapshot N payload).
(** take_step, ode.py:183-193; without integrator, self.stepper raises AttributeError *)
Definition step (target : option K) : prog unit := fun s =>
  match s_stepper s with
  | Some st => change (fun o => take_step N V st helper o target) s
  | None => (s, Err AttributeError)
  end.
Definition now : prog (@ode N U S D) := fun s => (s, Ok (s_ode s)).

Definition timed_snap : prog unit :=
  let! _ := tick (Start "SNAPSHOTS") in let! _ := snap in tick (Stop "SNAPSHOTS").

Fixpoint steps (n : nat) : prog unit :=
  match n with O => ret tt | Datatypes.S m => let! _ := step None in steps m end.
(** ode.py:117-128; range(None) raises TypeError *)
Definition call_n (n : option Z) : prog unit :=
  let! _ := timed_snap in
  let! _ := tick (Start "TOTAL") in
  let! _ := (match n with
             | None => raise TypeError
             | Some n => let! _ := show (Bar_range n) in steps (Z.to_nat n)
             end) in
  let! _ := tick (Stop "TOTAL") in
  timed_snap.

(** ode.py:157-166 *)
Fixpoint while (T : K) (log_every_step : bool) (fuel : nat) (target : option K) (downbeats : list K) : prog unit :=
  let! o := now in
  if o_t o <? T then
    match fuel with
    | O => raise OutOfFuel
    | Datatypes.S fuel =>
        let! _ := step target in
        let! _ := progress (fun s => Bar_at (o_t (s_ode s))) in
        let! o := now in
        if eq_target N (o_t o) target || (o_t o >=? T) || log_every_step then
          let! _ := timed_snap in
          let! o := now in
          match downbeats with
          | d :: ds => if eq_target N (o_t o) target then while T log_every_step fuel (Some d) ds
                       else while T log_every_step fuel target downbeats
          | [] => while T log_every_step fuel target []
          end
        else while T log_every_step fuel target downbeats
    end
  else ret tt.

(** ode.py:138-170 *)
Definition call_T (T : K) (exact : bool) (downbeats : beats K) (log_every_step : bool) (fuel : nat) : prog unit :=
  let! _ := progress (fun _ => Bar_total T) in
  let! l := (match downbeats with
             | Beats_none => ret []
             | Beats_list l | Beats_array l => ret l
             | Beats_other => raise TypeError
             end) in
  let db := tl (sorted_set N (#0 :: l ++ [T])) in
  let! td := (if exact then match db with [] => raise IndexError | d :: ds => ret (Some d, ds) end
              else ret (None, db)) in
  let! _ := snap in
  let! _ := tick (Start "TOTAL") in
  let! _ := while T log_every_step fuel (fst td) (snd td) in
  let! _ := tick (Stop "TOTAL") in
  progress (fun _ => Bar_close).

(** integrate, ode.py:94-174, without a snapshot directory *)
Definition call_integrate (T : option K) (n : option Z) (exact : bool) (downbeats : beats K)
  (log_every_step : bool) (fuel : nat) : prog unit :=
  match T with
  | Some T => call_T T exact downbeats log_every_step fuel
  | None => call_n n
  end.
(** euler, ssprk2, ssprk3 and rk4, ode.py:245-298: choose the stepper, then integrate *)
Definition call_with (st : @stepper N U S) (T : option K) (n : option Z) (exact : bool) (downbeats : beats K)
  (log_every_step : bool) (fuel : nat) : prog unit := fun s =>
  call_integrate T n exact downbeats log_every_step fuel
    (mkses (s_ode s) (Some st) (s_print s) (s_timer s) (s_ticks s) (s_bar s)).
End Call.
Arguments mkses {N U S D}. Arguments s_ode {N U S D}. Arguments s_stepper {N U S D}. Arguments s_print {N U S D}.
Arguments s_timer {N U S D}. Arguments s_ticks {N U S D}. Arguments s_bar {N U S D}.
