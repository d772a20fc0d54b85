(** Cases for the boundary conditions of idle axes. *)
From Coq Require Import ZArith List Bool Lia.
From Verif Require Import Err Num NdArray FvM StencilsM BcM LimitM RiemannM OdeM SolverM Spec SpecSolver SpecSym SpecIdle IdleP.
Import ListNotations.
Local Open Scope Z_scope.

Definition odd_bc (N : Num) : bcond N :=
  mkbc (fun a pos => match a with AZ => match pos with SL => B_unknown | SR => B_dmr end | _ => B_periodic end) (fun _ _ => V_other) None true.
Definition flat (N : Num) : config N :=
  mkcfg (mkix 8 8 1) (mkix 3 3 0) (fun _ => (nofZ 0, nofZ 1)) (nofZ 1) None (ndiv (nofZ 7) (nofZ 5)) (nofZ 0) RS_hllc (uniform_bc B_periodic) true
    L_minmod false (mknad (nofZ 1) M_global R_relative None None true (nofZ 1)) true.
Lemma flat_case N : same_where_active (flat N) (odd_bc N) /\
  bc_type (c_bc (flat N)) AZ SL = B_periodic /\ bc_type (odd_bc N) AZ SL = B_unknown /\ bc_type (odd_bc N) AZ SR = B_dmr /\
  c_limit (flat N) = true /\ c_convex (flat N) = true.
Proof.
  split; [|repeat split; reflexivity]. intros a Ha pos. destruct a; [| |exfalso; apply Ha; split; reflexivity];
  (split; [reflexivity|]; intros [H|[H|H]]; discriminate H).
Qed.
Definition tall : config QNum :=
  mkcfg (N := QNum) (mkix 1 1 2) (mkix 0 0 0) (fun _ => (nofZ 0, nofZ 1)) (ndiv (nofZ (n:=QNum) 1) (nofZ 1)) (Some (ndiv (nofZ (n:=QNum) 1) (nofZ 2))) (ndiv (nofZ (n:=QNum) 7) (nofZ 5)) (ndiv (nofZ (n:=QNum) 1) (nofZ 1)) RS_upwind (uniform_bc B_periodic) false
    L_minmod false (mknad (N := QNum) (ndiv (nofZ (n:=QNum) 1) (nofZ 1)) M_global R_relative None None true (ndiv (nofZ (n:=QNum) 1) (nofZ 1))) false.
Lemma active_ends : exists (c : config QNum) b' heap i u,
  (forall a, a <> AZ -> same_ends (c_bc c) b' a) /\ getc AZ (c_n c) = 2 /\
  simulate (N := QNum) (replace_bc c b') heap i true None (Some 1) true [] false 0 u <>
  simulate (N := QNum) c heap i true None (Some 1) true [] false 0 u.
Proof.
  exists tall, (odd_bc QNum), (fun _ _ _ => nofZ 0), I_euler, (mkarr 5 (mkix 1 1 2) (fun _ _ => nofZ 1)).
  split; [|split; [reflexivity|]].
  - intros a NE pos. destruct a; [| |congruence]; (split; [reflexivity|]; intros [H|[H|H]]; discriminate H).
  - assert (A : forall x y : res (run QNum), (match x with Ok _ => true | Err _ => false end) <> (match y with Ok _ => true | Err _ => false end) -> x <> y) by (intros x y H E; apply H; rewrite E; reflexivity).
    apply A. vm_compute. discriminate.
Qed.
