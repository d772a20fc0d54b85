(** Vocabulary for the statements about ode.py (C30-C35). *)
From Coq Require Import ZArith List Bool Reals Sorted Floats.SpecFloat.
From Verif Require Import Err Num NdArray OdeM SolverM.
Import ListNotations.
Local Open Scope R_scope.

(** recorded snapshot times, oldest first *)
Definition times {N U S D} (o : @ode N U S D) : list (car N) := map fst (o_snaps o).

Definition increasing (l : list R) : Prop := StronglySorted Rlt l.
Definition nondecreasing (l : list R) : Prop := StronglySorted Rle l.

(** every time step the right-hand side proposes satisfies P *)
Definition proposes {N : Num} {U S} (f : S -> car N -> car N -> U -> res (S * (car N * U)))
  (P : car N -> Prop) : Prop :=
  forall s t t' u s' dt k, f s t t' u = Ok (s', (dt, k)) -> P dt.

(** nothing raises *)
Definition never_raises {N : Num} {U S D} (V : vops N U)
  (f : S -> car N -> car N -> U -> res (S * (car N * U))) (payload : S -> car N -> U -> res D) : Prop :=
  (forall s t t' u, exists r, f s t t' u = Ok r) /\
  (forall u w, exists z, vadd V u w = Ok z) /\ (forall u w, exists z, vassign V u w = Ok z) /\
  (forall s t u, exists d, payload s t u = Ok d).

(** the wanted snapshot times: 0, T and the downbeats strictly between *)
Definition wanted (T : R) (downbeats : list R) (x : R) : Prop :=
  x = 0 \/ x = T \/ (In x downbeats /\ 0 < x < T).

(** real value of a binary64 number; 0 for infinities and NaN *)
Definition fval (x : f64) : R :=
  match x with
  | S754_finite s m e => (if s then -1 else 1) * IZR (Zpos m) * powerRZ 2 e
  | _ => 0
  end.
(** a finite binary64 number *)
Definition finite64 (x : f64) : Prop :=
  valid_binary prec emax x = true /\ match x with S754_zero _ | S754_finite _ _ _ => True | _ => False end.

(** ** right-hand sides, on arrays with q rows and shape n *)
Definition state := Z -> ix -> R.
Definition inside (q : Z) (n : ix) (v : Z) (i : ix) : Prop := (0 <= v < q)%Z /\ in_shape n i.
Definition shaped (q : Z) (n : ix) (u : arr R) : Prop := rows u = q /\ shp u = n.
(** a linear operator on states; only the entries inside matter *)
Definition linear_map (q : Z) (n : ix) (L : state -> state) : Prop :=
  (forall x y, (forall w j, inside q n w j -> x w j = y w j) -> forall v i, inside q n v i -> L x v i = L y v i) /\
  (forall a b x y v i, inside q n v i ->
    L (fun w j => a * x w j + b * y w j) v i = a * L x v i + b * L y v i).
(** f(t, u) = g(t, u), proposing some time step *)
Definition computes {S} (q : Z) (n : ix) (g : R -> state -> state)
  (f : S -> R -> R -> arr R -> res (S * (R * arr R))) : Prop :=
  forall s t t' u, shaped q n u -> exists s' dt k,
    f s t t' u = Ok (s', (dt, k)) /\ shaped q n k /\
    forall v i, inside q n v i -> at_ k v i = g t' (at_ u) v i.
(** sum over k <= m of dt^k / k! L^k u: the first terms of exp(dt L) u *)
Fixpoint power (L : state -> state) (k : nat) (u : state) : state :=
  match k with O => u | S k => L (power L k u) end.
Definition taylor (m : nat) (L : state -> state) (dt : R) (u : state) : state :=
  fun v i => sum_f_R0 (fun k => dt ^ k / INR (fact k) * power L k u v i) m.
(** order of accuracy of each integrator on linear systems *)
Definition order (i : integrator) : nat :=
  match i with I_euler => 1 | I_ssprk2 => 2 | I_ssprk3 => 3 | I_rk4 => 4 end.
(** the degree of the polynomials in t whose integral each integrator gets right *)
Definition time_degree (i : integrator) : nat :=
  match i with I_euler => 0 | I_ssprk2 => 0 | I_ssprk3 => 3 | I_rk4 => 3 end.

(** convex sets of arrays with q rows and shape n; membership depends on the entries only *)
Definition convex_set (q : Z) (n : ix) (C : arr R -> Prop) : Prop :=
  (forall u, C u -> shaped q n u) /\
  (forall u w z a, C u -> C w -> 0 <= a <= 1 -> shaped q n z ->
    (forall v i, inside q n v i -> at_ z v i = a * at_ u v i + (1 - a) * at_ w v i) -> C z).
(** f returns arrays with q rows and shape n; a forward Euler step of length dt with f
    from any member of C, at any time, stays in C *)
Definition euler_stays {S} (q : Z) (n : ix) (C : arr R -> Prop) (dt : R)
  (f : S -> R -> R -> arr R -> res (S * (R * arr R))) : Prop :=
  forall s t t' u s' h k, C u -> f s t t' u = Ok (s', (h, k)) ->
    shaped q n k /\
    forall z, shaped q n z -> (forall v i, inside q n v i -> at_ z v i = at_ u v i + dt * at_ k v i) -> C z.

(** scalar arithmetic as state operations, and the equation du/dt = 0 with constant time step h *)
Definition num_ops {N : Num} : vops N (car N) := mkvops (fun x y => Ok (nadd x y)) nmul (fun _ y => Ok y).
Definition clock {N : Num} (h : car N) (s : unit) (_ _ _ : car N) : res (unit * (car N * car N)) :=
  Ok (s, (h, nofZ 0)).
Definition clock_run {N : Num} (h : car N) (i : integrator) :=
  integrate N (D := unit) num_ops (stepper_of N num_ops (clock h) i) (fun s => s) (fun _ _ _ => Ok tt).

(** a configuration whose time steps are positive: a fixed positive step, or a positive CFL
    number, sound speed floor and cell sizes *)
Definition steps_forward (c : SolverM.config RNum) : Prop :=
  match SolverM.c_fixed_dt c with
  | Some dt => 0 < dt
  | None => 0 < SolverM.c_CFL c /\ 0 < SolverM.c_csq_floor c /\ (1 <= SolverM.ndim RNum c)%Z /\
      forall a, (0 < getc a (SolverM.c_n c))%Z /\ fst (SolverM.c_bounds c a) < snd (SolverM.c_bounds c a)
  end.

(** timestamps has one entry more than steps were taken, and ends with the current time *)
Definition logged {N U S D} (o : @ode N U S D) : Prop :=
  Z.of_nat (length (o_stamps o)) = (o_steps o + 1)%Z /\ last (o_stamps o) (nofZ 0) = o_t o.
