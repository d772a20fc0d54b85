(** Model of /repo/fvhoe/romain_solver.py: the stand-alone one-dimensional solver used as a
    reference in the notebooks. An array of shape (3, width) is a function of the row and the
    column; its width is kept beside it. np.sin is a parameter. The printed messages are not
    modelled. *)
From Coq Require Import ZArith List Bool String.
From Verif Require Import Err Num FvM.
Import ListNotations.
Open Scope Z_scope.

Section Romain.
Context (N : Num) (nsin : car N -> car N).
Local Notation K := (car N).
Local Open Scope num_scope.

Definition mat := Z -> Z -> K.
(** the three values of one column *)
Definition col := Z -> K.
Definition vec3 (a b c : K) : col := fun v => if (v =? 0)%Z then a else if (v =? 1)%Z then b else c.
Definition column (u : mat) (i : Z) : col := fun v => u v i.

(** gamma = 1.4, romain_solver.py:3 *)
Definition gam : K := #14 / #10.

(** prim_to_cons, romain_solver.py:6-14; [x ** 2] is [x * x] *)
Definition prim_to_cons (w : col) : col :=
  vec3 (w 0%Z) (w 0%Z * w 1%Z) (nhalf * w 0%Z * (w 1%Z * w 1%Z) + w 2%Z / (gam - #1)).

(** prim_to_flux, romain_solver.py:17-25 *)
Definition prim_to_flux (w : col) : col :=
  vec3 (w 0%Z * w 1%Z) (w 0%Z * (w 1%Z * w 1%Z) + w 2%Z)
    ((nhalf * w 0%Z * (w 1%Z * w 1%Z) + gam * w 2%Z / (gam - #1)) * w 1%Z).

(** cons_to_prim, romain_solver.py:28-36 *)
Definition cons_to_prim (u : col) : col :=
  let v := u 1%Z / u 0%Z in
  vec3 (u 0%Z) v ((gam - #1) * (u 2%Z - nhalf * u 0%Z * (v * v))).

(** set_ic, romain_solver.py:39-118: primitive values per cell, then converted *)
Definition lit (a b : Z) : K := nofZ a / nofZ b.
Definition ic_prim (n : Z) (x : Z -> K) (ic : string) : res (Z -> col) :=
  let two (edge : K) (l r : col) : Z -> col := fun i => if x i <? edge then l else r in
  if String.eqb ic "sod test" then Ok (two (lit 5 10) (vec3 #1 #0 #1) (vec3 (lit 125 1000) #0 (lit 1 10)))
  else if String.eqb ic "toro test1" then
    Ok (two (lit 3 10) (vec3 #1 (lit 75 100) #1) (vec3 (lit 125 1000) #0 (lit 1 10)))
  else if String.eqb ic "toro test2" then
    Ok (two (lit 5 10) (vec3 #1 #(-2) (lit 4 10)) (vec3 #1 #2 (lit 4 10)))
  else if String.eqb ic "toro test3" then
    Ok (two (lit 5 10) (vec3 #1 #0 #1000) (vec3 #1 #0 (lit 1 100)))
  else if String.eqb ic "shu osher" then
    Ok (fun i => if x i <? lit 1 10 then vec3 (lit 3857143 1000000) (lit 2629369 1000000) (lit 1033333 100000)
                 else vec3 (#1 + lit 2 10 * nsin (#5 * (x i * #10 - #5))) #0 #1)
  else if String.eqb ic "supersonic blob" then
    Ok (fun i => if (x i >? lit 4 10) && (x i <? lit 6 10) then vec3 #10 (#3 * nsqrt (#50 / #3)) #1
                 else vec3 (lit 1 10) #0 #1)
  else if String.eqb ic "sedov" then
    (* lines 105-111: p[N // 2] and p[N // 2 + 1] are assigned by index *)
    if (n / 2 + 1 <? n)%Z then
      let big := nhalf * nofZ n * (gam - #1) in
      Ok (fun i => vec3 #1 #0 (if ((i =? n / 2) || (i =? n / 2 + 1))%Z then big else lit 1 100000))
    else Err IndexError
  else (* "Unknown IC type" is printed and the zeros are kept, lines 113-114 *)
    Ok (fun _ => vec3 #0 #0 #0).
Definition set_ic (n : Z) (x : Z -> K) (ic : string) : res mat :=
  do w <- ic_prim n x ic; Ok (fun v i => prim_to_cons (w i) v).

(** u[:, k] = u[:, j] *)
Definition set_col (u : mat) (kj : Z * Z) : mat :=
  fun v i => if (i =? fst kj)%Z then u v (snd kj) else u v i.
(** set_bc, romain_solver.py:121-141, on an array of width [L]: the assignments one after the
    other; a negative index counts from the end. An unknown type only prints. *)
Definition set_bc (L : Z) (bc : string) (u : mat) : mat :=
  if String.eqb bc "periodic" then
    fold_left set_col [(0, L - 8); (1, L - 7); (2, L - 6); (3, L - 5);
                       (L - 1, 7); (L - 2, 6); (L - 3, 5); (L - 4, 4)]%Z u
  else if String.eqb bc "free" then
    fold_left set_col [(0, 4); (1, 4); (2, 4); (3, 4);
                       (L - 1, L - 5); (L - 2, L - 5); (L - 3, L - 5); (L - 4, L - 5)]%Z u
  else u.

(** np.pad(d, [(0, 0), (1, 1)]) to width [L] *)
Definition pad1 (L : Z) (d : mat) : mat :=
  fun v i => if ((1 <=? i) && (i <? L - 1))%Z then d v (i - 1)%Z else #0.

(** smooth_extrema, romain_solver.py:144-174. [side d m] is one of the two markers,
    lines 156-160 and 163-167. *)
Definition side (d m : K) : K :=
  let alf := if m >? #0 then nmin #1 (nmax (#2 * d) #0 / m) else nmin #1 (nmin (#2 * d) #0 / m) in
  if neqb m #0 then #1 else alf.
Definition smooth_extrema (L : Z) (bc : string) (u : mat) : mat :=
  let du : mat := fun v i => nhalf * (u v (i + 2)%Z - u v i) in
  let uprime := set_bc L bc (pad1 L du) in
  let dlft : mat := fun v i => uprime v (i + 1)%Z - uprime v i in
  let drgt : mat := fun v i => uprime v (i + 2)%Z - uprime v (i + 1)%Z in
  let dmid : mat := fun v i => nhalf * (dlft v i + drgt v i) in
  let alf : mat := fun v i => nmin (side (dlft v i) (dmid v i)) (side (drgt v i) (dmid v i)) in
  set_bc L bc (pad1 L alf).

(** The three unlimited traces of trace, romain_solver.py:178-225, from the five values
    around a cell. [None] is an unbound local; [umiddle] is unbound (and unused) for
    space = 1, 2. *)
Definition traces (space : Z) (a b c d e : K) : option (K * K * option K) :=
  match space with
  | 1 => Some (c, c, None)
  | 2 => Some ((- b + #4 * c + d) / #4, (b + #4 * c - d) / #4, None)
  | 3 => Some ((- b + #5 * c + #2 * d) / #6, (#2 * b + #5 * c - d) / #6, Some ((- b + #26 * c - d) / #24))
  | 4 => Some ((a - #6 * b + #20 * c + #10 * d - e) / #24, (- a + #10 * b + #20 * c - #6 * d + e) / #24,
               Some ((- b + #26 * c - d) / #24))
  | 5 => Some ((#2 * a - #13 * b + #47 * c + #27 * d - #3 * e) / #60,
               (#(-3) * a + #27 * b + #47 * c - #13 * d + #2 * e) / #60,
               Some ((#27 * a - #348 * b + #6402 * c - #348 * d + #27 * e) / #5760))
  | _ => None
  end.
(** the limiter, romain_solver.py:227-248 *)
Definition theta_of (b c d l r : K) (m : option K) (alfm alf0 alfp : K) : K :=
  let bigm := nmax b (nmax c d) in
  let smallm := nmin b (nmin c d) in
  let bigmj := (match m with Some m => nmax m (nmax l r) | None => nmax l r end) - c in
  let smallmj := (match m with Some m => nmin m (nmin l r) | None => nmin l r end) - c in
  let theta := nmin #1 (nmin (nabs (bigm - c) / (nabs bigmj + lit 1 1000000000000000))
                             (nabs (smallm - c) / (nabs smallmj + lit 1 1000000000000000))) in
  let aslp := nmin (nmin alfm alfp) alf0 in
  if aslp <? #1 then theta else #1.
(** trace, romain_solver.py:177-253; the results have width L - 6 and column i belongs to
    column i + 3 of u *)
Definition limited (space : Z) (u alpha : mat) (v i : Z) : option (K * K) :=
  let s := fun k => u v (i + k)%Z in
  match traces space (s 1%Z) (s 2%Z) (s 3%Z) (s 4%Z) (s 5%Z) with
  | None => None
  | Some (l, r, m) =>
      if (1 <? space)%Z then
        let theta := theta_of (s 2%Z) (s 3%Z) (s 4%Z) l r m
                       (alpha v (i + 2)%Z) (alpha v (i + 3)%Z) (alpha v (i + 4)%Z) in
        Some (theta * (l - s 3%Z) + s 3%Z, theta * (r - s 3%Z) + s 3%Z)
      else Some (l, r)
  end.
Definition pick (f : K * K -> K) (o : option (K * K)) : K := match o with Some p => f p | None => #0 end.
Definition trace (u alpha : mat) (space : Z) : res (mat * mat) :=
  if ((1 <=? space) && (space <=? 5))%Z then
    Ok (fun v i => pick fst (limited space u alpha v i), fun v i => pick snd (limited space u alpha v i))
  else Err UnboundLocalError.

(** llf, romain_solver.py:259-268 *)
Definition r_sound (w : col) : K := nsqrt (gam * w 2%Z / w 0%Z).
Definition r_llf (wl wr : col) : col := fun v =>
  let smax := nmax (nabs (wl 1%Z) + r_sound wl) (nabs (wr 1%Z) + r_sound wr) in
  nhalf * (prim_to_flux wl v + prim_to_flux wr v) - nhalf * smax * (prim_to_cons wr v - prim_to_cons wl v).

(** hllc, romain_solver.py:271-310 *)
Definition r_hllc (wl wr : col) : col :=
  let dl := wl 0%Z in let vl := wl 1%Z in let pl := wl 2%Z in let el := prim_to_cons wl 2%Z in
  let dr := wr 0%Z in let vr := wr 1%Z in let pr := wr 2%Z in let er := prim_to_cons wr 2%Z in
  let cl := nsqrt (gam * pl / dl) in
  let cr := nsqrt (gam * pr / dr) in
  let sl := nmin vl vr - nmax cl cr in
  let sr := nmax vl vr + nmax cl cr in
  let dcl := dl * (vl - sl) in
  let dcr := dr * (sr - vr) in
  let vstar := (dcl * vl + dcr * vr + pl - pr) / (dcl + dcr) in
  let pstar := (dcl * pr + dcr * pl + dcl * dcr * (vl - vr)) / (dcl + dcr) in
  let dstarl := dl * (sl - vl) / (sl - vstar) in
  let dstarr := dr * (sr - vr) / (sr - vstar) in
  let estarl := ((sl - vl) * el - pl * vl + pstar * vstar) / (sl - vstar) in
  let estarr := ((sr - vr) * er - pr * vr + pstar * vstar) / (sr - vstar) in
  let sample (a b c d : K) : K :=
    if sl >? #0 then a else if vstar >? #0 then b else if sr >? #0 then c else d in
  let dg := sample dl dstarl dstarr dr in
  let vg := sample vl vstar vstar vr in
  let pg := sample pl pstar pstar pr in
  let eg := sample el estarl estarr er in
  vec3 (dg * vg) (dg * vg * vg + pg) ((eg + pg) * vg).

(** the choice of the solver in cmp_flux, romain_solver.py:332-342 *)
Definition solver_of (rs : string) : res (col -> col -> col) :=
  if String.eqb rs "llf" then Ok r_llf
  else if String.eqb rs "hll" then Err NotImplementedError
  else if String.eqb rs "hllc" then Ok r_hllc
  else if String.eqb rs "exact" then Err NotImplementedError
  else Err UnboundLocalError.

(** cmp_flux, romain_solver.py:316-344, on an array of width [L]; set_bc changes the argument
    in place, so the changed array is returned too *)
Record fluxes := mkfluxes { f_u : mat; f_flux : mat; f_w : mat; f_cs : Z -> K }.
Definition cmp_flux (L : Z) (bc rs : string) (space : Z) (u : mat) : res fluxes :=
  let u := set_bc L bc u in
  let w : mat := fun v i => cons_to_prim (column u i) v in
  let cs := fun i => r_sound (column w i) in
  let alpha := smooth_extrema L bc w in
  do tr <- trace w alpha space;
  do solve <- solver_of rs;
  Ok (mkfluxes u (fun v i => solve (column (fst tr) i) (column (snd tr) (i + 1)%Z) v) w cs).

(** The work arrays u1 .. u4, romain_solver.py:372-376, which keep their ghost cells from one
    iteration to the next *)
Record work := mkwork { b1 : mat; b2 : mat; b3 : mat; b4 : mat }.
Definition zeros : mat := fun _ _ => #0.
(** b[:, 4:-4] = u *)
Definition fill (n : Z) (b u : mat) : mat :=
  fun v i => if ((4 <=? i) && (i <? n + 4))%Z then u v (i - 4)%Z else b v i.
(** b[:, 4:-4] *)
Definition inner (b : mat) : mat := fun v i => b v (i + 4)%Z.

(** one evaluation of the right-hand side: -(flux[:, 1:] - flux[:, :-1]) / h *)
Definition stage (n : Z) (h : K) (bc rs : string) (space : Z) (b u : mat) : res (fluxes * mat) :=
  do f <- cmp_flux (n + 8) bc rs space (fill n b u);
  Ok (f, fun v i => - (f_flux f v (i + 1)%Z - f_flux f v i) / h).

(** max(abs(w[1]) + cs): the built-in max over the n + 8 columns, ghosts included *)
Definition fastest (L : Z) (w : mat) (cs : Z -> K) : K :=
  let s := fun i => nabs (w 1%Z i) + cs i in
  fold_left (fun m k => if s k >? m then s k else m) (map Z.of_nat (seq 1 (Z.to_nat L - 1))) (s 0%Z).

(** one pass of the loop body, romain_solver.py:384-440: the work arrays, the new solution and
    the time step *)
Definition advance (n : Z) (h cfl : K) (bc rs : string) (time space : Z) (x : work) (u : mat)
  : res (work * mat * K) :=
  do s1 <- stage n h bc rs space (b1 x) u;
  let u1 := inner (f_u (fst s1)) in
  let k1 := snd s1 in
  let dt := cfl * h / fastest (n + 8) (f_w (fst s1)) (f_cs (fst s1)) in
  match time with
  | 1 => Ok (mkwork (f_u (fst s1)) (b2 x) (b3 x) (b4 x), fun v i => u1 v i + k1 v i * dt, dt)
  | 2 =>
      do s2 <- stage n h bc rs space (b2 x) (fun v i => u1 v i + k1 v i * dt / #2);
      let k2 := snd s2 in
      Ok (mkwork (f_u (fst s1)) (f_u (fst s2)) (b3 x) (b4 x), fun v i => u1 v i + k2 v i * dt, dt)
  | 3 =>
      do s2 <- stage n h bc rs space (b2 x) (fun v i => u1 v i + k1 v i * dt / #3);
      let k2 := snd s2 in
      do s3 <- stage n h bc rs space (b3 x) (fun v i => u1 v i + k2 v i * #2 * dt / #3);
      let k3 := snd s3 in
      Ok (mkwork (f_u (fst s1)) (f_u (fst s2)) (f_u (fst s3)) (b4 x),
          fun v i => u1 v i + (k1 v i + #3 * k3 v i) * dt / #4, dt)
  | 4 =>
      do s2 <- stage n h bc rs space (b2 x) (fun v i => u1 v i + k1 v i * dt / #2);
      let k2 := snd s2 in
      do s3 <- stage n h bc rs space (b3 x) (fun v i => u1 v i + k2 v i * dt / #2);
      let k3 := snd s3 in
      do s4 <- stage n h bc rs space (b4 x) (fun v i => u1 v i + k3 v i * dt);
      let k4 := snd s4 in
      Ok (mkwork (f_u (fst s1)) (f_u (fst s2)) (f_u (fst s3)) (f_u (fst s4)),
          fun v i => u1 v i + (k1 v i + #2 * k2 v i + #2 * k3 v i + k4 v i) * dt / #6, dt)
  | _ => Err UnboundLocalError (* unew, line 439 *)
  end.

(** the loop, romain_solver.py:383-442. The fuel is nitermax + 1 - niter: the loop leaves
    silently when it is used up. The result is u[0:niter] after the present entry, and t. *)
Fixpoint weno_loop (step : work -> mat -> res (work * mat * K)) (tend : K) (fuel : nat)
    (x : work) (t : K) (u : mat) : res (list mat * K) :=
  match fuel with
  | O => Ok ([], t)
  | S m =>
      if t <? tend then
        do r <- step x u;
        let '(x', u', dt) := r in
        do rest <- weno_loop step tend m x' (t + dt) u';
        Ok (u' :: fst rest, snd rest)
      else Ok ([], t)
  end.

(** weno, romain_solver.py:347-445: the stored solutions u[0:niter], and the last value of t
    (which is only printed). A negative n is refused by NumPy, n = 0 by the division. *)
Definition nitermax : nat := Z.to_nat 100000.
Definition cells (n i : Z) : K := nhalf * (linspace N #0 #1 n (i + 1) + linspace N #0 #1 n i).
Definition weno (tend : K) (n : Z) (cfl : K) (ic bc rs : string) (time space : Z) : res (list mat * K) :=
  if (n =? 0)%Z then Err ZeroDivisionError
  else if (n <? 0)%Z then Err ValueError
  else
    let h := #1 / nofZ n in
    do u0 <- set_ic n (cells n) ic;
    do r <- weno_loop (advance n h cfl bc rs time space) tend nitermax (mkwork zeros zeros zeros zeros) #0 u0;
    Ok (u0 :: fst r, snd r).
End Romain.
Arguments mkfluxes {N}. Arguments f_u {N}. Arguments f_flux {N}. Arguments f_w {N}. Arguments f_cs {N}.
Arguments mkwork {N}. Arguments b1 {N}. Arguments b2 {N}. Arguments b3 {N}. Arguments b4 {N}.
