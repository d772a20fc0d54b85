(** Python exceptions as values, and the error monad used by the whole model. *)
From Coq Require Import ZArith List.
Import ListNotations.

(** The exception classes the modelled code can raise. *)
Inductive exn : Type :=
| ValueError | TypeError | KeyError | IndexError | NotImplementedError
| RuntimeError | NameError | UnboundLocalError | FileExistsError | FileNotFoundError
| ImportError | ZeroDivisionError | OSError | EOFError | AttributeError | BaseException
| OutOfFuel. (* not a Python exception: the fuel of a loop model ran out *)

Inductive res (A : Type) : Type := Ok (a : A) | Err (e : exn).
Arguments Ok {A} a.
Arguments Err {A} e.

Definition bind {A B} (x : res A) (f : A -> res B) : res B :=
  match x with Ok a => f a | Err e => Err e end.

Notation "'do' x <- e ; k" := (bind e (fun x => k))
  (at level 200, x pattern, e at level 100, k at level 200, right associativity).

Definition is_ok {A} (x : res A) : bool := match x with Ok _ => true | Err _ => false end.
