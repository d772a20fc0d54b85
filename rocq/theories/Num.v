(** The arithmetic the Python code performs, as a dictionary of operations, and its
    three interpretations: real numbers, rationals, IEEE binary64. *)
From Coq Require Import ZArith QArith Reals Floats.SpecFloat Bool List.

(** Operations used by fvhoe on array elements and scalar parameters. *)
Record Num : Type := mkNum {
  car : Type;
  nofZ : Z -> car;                      (* integer literals *)
  nadd : car -> car -> car;
  nsub : car -> car -> car;
  nmul : car -> car -> car;
  ndiv : car -> car -> car;
  nopp : car -> car;
  nabs : car -> car;                    (* np.abs *)
  nsqrt : car -> car;                   (* np.sqrt *)
  nmin : car -> car -> car;             (* np.minimum *)
  nmax : car -> car -> car;             (* np.maximum *)
  nltb : car -> car -> bool;            (* <  *)
  nleb : car -> car -> bool;            (* <= *)
  neqb : car -> car -> bool             (* == *)
}.

Declare Scope num_scope.
Delimit Scope num_scope with N_.
Arguments nofZ {n} _.
Arguments nadd {n} _ _.
Arguments nsub {n} _ _.
Arguments nmul {n} _ _.
Arguments ndiv {n} _ _.
Arguments nopp {n} _.
Arguments nabs {n} _.
Arguments nsqrt {n} _.
Arguments nmin {n} _ _.
Arguments nmax {n} _ _.
Arguments nltb {n} _ _.
Arguments nleb {n} _ _.
Arguments neqb {n} _ _.
Infix "+" := nadd : num_scope.
Infix "-" := nsub : num_scope.
Infix "*" := nmul : num_scope.
Infix "/" := ndiv : num_scope.
Notation "- x" := (nopp x) : num_scope.
Notation "# z" := (nofZ z%Z) (at level 5, z at level 0) : num_scope.
Notation "x <? y" := (nltb x y) : num_scope.
Notation "x >? y" := (nltb y x) : num_scope.
Notation "x <=? y" := (nleb x y) : num_scope.
Notation "x >=? y" := (nleb y x) : num_scope.

(** Python literal 0.5 *)
Definition nhalf {N : Num} : car N := ndiv (nofZ 1) (nofZ 2).

(** np.sign on a non-NaN argument: 1, 0 or -1. A NaN argument gives NaN in NumPy;
    here it gives [x] itself, which is NaN. *)
Definition nsign {N : Num} (x : car N) : car N :=
  if nltb (nofZ 0) x then nofZ 1
  else if nltb x (nofZ 0) then nofZ (-1)
  else if neqb x (nofZ 0) then nofZ 0 else x.

(** ** Exact real arithmetic *)
Definition Rltb (x y : R) : bool := if Rlt_dec x y then true else false.
Definition Rleb (x y : R) : bool := if Rle_dec x y then true else false.
Definition Reqb (x y : R) : bool := if Req_EM_T x y then true else false.

Definition RNum : Num := {|
  car := R; nofZ := IZR; nadd := Rplus; nsub := Rminus; nmul := Rmult; ndiv := Rdiv;
  nopp := Ropp; nabs := Rabs; nsqrt := sqrt; nmin := Rmin; nmax := Rmax;
  nltb := Rltb; nleb := Rleb; neqb := Reqb |}.

(** ** Exact rational arithmetic, to compute witnesses. There is no square root in Q:
    [nsqrt] is the floor of the square root of numerator and denominator, and no theorem
    about [QNum] runs code that takes a square root. *)
Definition Qltb (x y : Q) : bool := negb (Qle_bool y x).
Definition Qminb (x y : Q) : Q := if Qle_bool x y then x else y.
Definition Qmaxb (x y : Q) : Q := if Qle_bool x y then y else x.
Definition Qabsb (x : Q) : Q := if Qle_bool 0 x then x else Qopp x.
Definition QNum : Num := {|
  car := Q; nofZ := inject_Z; nadd := fun x y => Qred (x + y);
  nsub := fun x y => Qred (x - y); nmul := fun x y => Qred (x * y);
  ndiv := fun x y => Qred (x / y); nopp := Qopp; nabs := Qabsb;
  nsqrt := fun x => Qmake (Z.sqrt (Qnum x)) (Pos.sqrt (Qden x));
  nmin := Qminb; nmax := Qmaxb;
  nltb := Qltb; nleb := Qle_bool; neqb := Qeq_bool |}.

(** ** IEEE binary64: standard library's executable specification, round to nearest even *)
Definition prec := 53%Z.
Definition emax := 1024%Z.
Definition f64 := spec_float.
Definition fof (z : Z) : f64 := binary_normalize prec emax z 0 false.
Definition isnan (x : f64) : bool := match x with S754_nan => true | _ => false end.
(** np.minimum / np.maximum: NaN if either argument is NaN *)
Definition fmin (x y : f64) : f64 :=
  if isnan x then x else if isnan y then y else if SFltb y x then y else x.
Definition fmax (x y : f64) : f64 :=
  if isnan x then x else if isnan y then y else if SFltb x y then y else x.
Definition FNum : Num := {|
  car := f64; nofZ := fof; nadd := SFadd prec emax; nsub := SFsub prec emax;
  nmul := SFmul prec emax; ndiv := SFdiv prec emax; nopp := SFopp; nabs := SFabs;
  nsqrt := SFsqrt prec emax; nmin := fmin; nmax := fmax;
  nltb := SFltb; nleb := SFleb; neqb := SFeqb |}.
