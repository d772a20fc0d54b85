(** Specification vocabulary for accuracy: polynomials, averages over a cell. *)
From Coq Require Import ZArith List Reals.
From Coquelicot Require Import Coquelicot.
From Verif Require Import StencilsM.
Import ListNotations.
Local Open Scope R_scope.

(** value of the polynomial c_0 + c_1 x + c_2 x^2 + ... *)
Fixpoint peval (c : list R) (x : R) : R :=
  match c with [] => 0 | a :: c' => a + x * peval c' x end.

(** f is a polynomial function of degree at most n *)
Definition is_poly (n : nat) (f : R -> R) : Prop :=
  exists c, (length c <= S n)%nat /\ forall x, f x = peval c x.

(** average of f over the cell of width h centred at x *)
Definition average (f : R -> R) (x h : R) : R := RInt f (x - h / 2) (x + h / 2) / h.

(** average over a box *)
Definition average3 (f : R -> R -> R -> R) (x y z hx hy hz : R) : R :=
  average (fun x' => average (fun y' => average (fun z' => f x' y' z') z hz) y hy) x hx.

(** polynomials in three variables: sums of terms k x^a y^b z^c *)
Definition mono := (R * (nat * nat * nat))%type.
Definition tval (t : mono) (x y z : R) : R :=
  let '(k, (a, b, c)) := t in k * x ^ a * y ^ b * z ^ c.
Fixpoint peval3 (l : list mono) (x y z : R) : R :=
  match l with [] => 0 | t :: l' => tval t x y z + peval3 l' x y z end.
(** degree at most nx in x, ny in y, nz in z *)
Definition degree3 (nx ny nz : nat) (l : list mono) : Prop :=
  List.Forall (fun t : mono => let '(_, (a, b, c)) := t in (a <= nx)%nat /\ (b <= ny)%nat /\ (c <= nz)%nat) l.

(** a quadrature rule on [-1,1] (node, weight) exact for polynomials of degree d *)
Fixpoint quad (l : list (R * R)) (f : R -> R) : R :=
  match l with [] => 0 | (q, w) :: l' => w * f q + quad l' f end.
Definition exact_rule (d : nat) (l : list (R * R)) : Prop :=
  forall f, is_poly d f -> quad l f = RInt f (-1) 1.

(** position of the interpolation point in units of the cell width *)
Definition offset (pos : ipos) : R :=
  match pos with P_l => - (1/2) | P_r => 1/2 | _ => 0 end.

