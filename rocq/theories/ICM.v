(** Model of /repo/fvhoe/initial_conditions.py and of the part of the constructor that turns an
    initial condition into the initial state, /repo/fvhoe/solver.py:256-310.

    Parameters are explicit; passive scalars are pointwise functions of the coordinates. sin,
    exp, tan and pi, which are NumPy's, are parameters. A decimal literal is the quotient of two
    integers, which rounds to the same binary64 number. *)
From Coq Require Import ZArith List Bool String Ascii.
From Verif Require Import Err Num PySlice NdArray HydroM HydroStateM FvM BcM OdeM SolverM.
Import ListNotations.
Open Scope Z_scope.

(** "x", "y", "z" *)
Definition letter (a : axis) : ascii := match a with AX => "x" | AY => "y" | AZ => "z" end%char.
(** [dim in dims] for one letter *)
Fixpoint has (c : ascii) (s : string) : bool :=
  match s with EmptyString => false | String b t => Ascii.eqb c b || has c t end.
Definition with_axis (a : axis) (dims : string) : bool := has (letter a) dims.
(** {"x": x, "y": y, "z": z}[dim] *)
Definition axis_of (s : string) : option axis :=
  if String.eqb s "x" then Some AX else if String.eqb s "y" then Some AY else if String.eqb s "z" then Some AZ else None.
(** "xyz".index(dim) *)
Definition axis_index (c : ascii) : option axis :=
  if Ascii.eqb c "x" then Some AX else if Ascii.eqb c "y" then Some AY else if Ascii.eqb c "z" then Some AZ else None.
(** [dim in "xyz"] for a string of any length *)
Definition in_xyz (s : string) : bool := existsb (String.eqb s) [""; "x"; "y"; "z"; "xy"; "yz"; "xyz"]%string.

Section IC.
Context (N : Num).
Local Notation K := (car N).
Local Open Scope num_scope.
Record elem := mkelem { e_sin : K -> K; e_exp : K -> K; e_tan : K -> K; e_pi : K }.
Context (el : elem).

Definition meshes := (arr K * arr K * arr K)%type.
Definition ic := meshes -> res (arr K).
Definition along (a : axis) (x y z : K) : K := match a with AX => x | AY => y | AZ => z end.
(** the rows that _hs assigns, hydro.py:36-49 *)
Definition vec5 (rho vx vy vz P : K) (v : Z) : K :=
  if (v =? 0)%Z then rho else if (v =? 1)%Z then vx else if (v =? 2)%Z then vy else if (v =? 3)%Z then vz else P.
Definition pointwise (f : K -> K -> K -> Z -> K) : ic := fun m =>
  let '(x, y, z) := m in Ok (mkarr 5 (shp x) (fun v i => f (at_ x 0%Z i) (at_ y 0%Z i) (at_ z 0%Z i) v)).
Definition square (x : K) : K := x * x.

(** Sinus, initial_conditions.py:84-125 *)
Definition sinus_rho (dims : string) (lo hi x y z : K) : K :=
  let pick a c := if with_axis a dims then c else #0 in
  let r := #0 + pick AX x + pick AY y + pick AZ z in
  (hi - lo) * (nhalf * e_sin el (#2 * e_pi el * r) + nhalf) + lo.
Definition sinus (dims : string) (lo hi P vx vy vz : K) : ic :=
  pointwise (fun x y z => vec5 (sinus_rho dims lo hi x y z) vx vy vz P).

(** Square, initial_conditions.py:128-170 *)
Definition in_square (dims : string) (x y z : K) : bool :=
  forallb (fun a => if with_axis a dims then (#1 / #4 <? along a x y z) && (along a x y z <? #3 / #4) else true) axes.
Definition square_ic (dims : string) (lo hi P vx vy vz : K) : ic :=
  pointwise (fun x y z => vec5 (if in_square dims x y z then hi else lo) vx vy vz P).

(** SlottedDisk, initial_conditions.py:173-206 *)
Definition in_disk (x y : K) : bool :=
  let xc := x - nhalf in
  (square xc + square (y - #3 / #4) <? square (#15 / #100)) &&
  negb ((nabs xc <? #25 / #1000) && (y <? #85 / #100)).
Definition slotted_disk (lo hi P : K) : ic :=
  pointwise (fun x y z => vec5 (if in_disk x y then hi else lo) (- (y - nhalf)) (x - nhalf) #0 P).

(** the velocity along one axis *)
Definition vec5_along (a : axis) (rho v P : K) : Z -> K :=
  vec5 rho (if axis_eqb a AX then v else #0) (if axis_eqb a AY then v else #0) (if axis_eqb a AZ then v else #0) P.
(** Shock1D, initial_conditions.py:209-250 *)
Definition shock_1d (dim : string) (position : K) (rho P v : K * K) : ic := fun m =>
  if negb (in_xyz dim) then Err ValueError
  else match axis_of dim with
       | None => Err KeyError
       | Some a => pointwise (fun x y z =>
           let pick q := if along a x y z <? position then fst q else snd q in
           vec5_along a (pick rho) (pick v) (pick P)) m
       end.
(** DoubleShock1D, initial_conditions.py:253-296 *)
Definition double_shock_1d (dim : string) (positions : K * K) (rhos vs Ps : K * K * K) : ic := fun m =>
  match axis_of dim with
  | None => Err KeyError
  | Some a => pointwise (fun x y z =>
      let r := along a x y z in
      let pick q := if r <? fst positions then fst (fst q) else if r <? snd positions then snd (fst q) else snd q in
      vec5_along a (pick rhos) (pick vs) (pick Ps)) m
  end.
(** ShuOsher1D, initial_conditions.py:299-328 *)
Definition shu_osher_1d (dim : string) : ic := fun m =>
  match axis_of dim with
  | None => Err KeyError
  | Some a => pointwise (fun x y z =>
      let r := along a x y z - #5 in
      let pick q q' := if r <? - #4 then q else q' in
      vec5_along a (pick (#3857143 / #1000000) (#1 + #2 / #10 * e_sin el (#5 * r))) (pick (#2629369 / #1000000) #0)
        (pick (#1033333 / #100000) #1)) m
  end.
(** KelvinHelmholtz2D, initial_conditions.py:331-366 *)
Definition kelvin_helmholtz (sigma w0 : K) : ic :=
  pointwise (fun x y z =>
    let inner := (#1 / #4 <? y) && (y <? #3 / #4) in
    let bump c := e_exp el (- square (y - c) / (#2 * sigma * sigma)) in
    vec5 (if inner then #2 else #1) (if inner then nhalf else - nhalf)
      (w0 * e_sin el (#4 * e_pi el * x) * (bump (#1 / #4) + bump (#3 / #4))) #0 (#25 / #10)).
(** DoubleMachReflection2D, initial_conditions.py:369-399 *)
Definition double_mach (gamma : K) : ic :=
  pointwise (fun x y z =>
    let post := x - y / e_tan el (e_pi el / #3) <? #1 / #6 in
    vec5 (if post then #8 else gamma) (if post then #7145 / #1000 else #0) (if post then - (#825 / #100) / #2 else #0) #0
      (if post then #1165 / #10 else #1)).
(** AthenaBlast, initial_conditions.py:541-574 *)
Definition athena_blast : ic :=
  pointwise (fun x y z => vec5 #1 #0 #0 #0 (if nsqrt (square x + square y) <? #1 / #10 then #10 else #1 / #10)).

(** ShockTube, initial_conditions.py:402-481: [inside] and [outside] are the values of the five
    rows *)
Fixpoint place_center (dims : string) (center : list K) (acc : axis -> K) : res (axis -> K) :=
  match dims, center with
  | String c dims', v :: center' =>
      match axis_index c with
      | None => Err ValueError
      | Some a => place_center dims' center' (fun b => if axis_eqb a b then v else acc b)
      end
  | _, _ => Ok acc
  end.
Definition in_cube (cube : axis -> option (K * K)) (x y z : K) : bool :=
  forallb (fun a => match cube a with None => true | Some q => (fst q <=? along a x y z) && (along a x y z <=? snd q) end) axes.
Definition shock_tube (dims : string) (center : list K) (radius : K) (inside outside : Z -> K) (mode : string)
  (cube : axis -> option (K * K)) : ic := fun m =>
  if String.eqb mode "tube" then
    if negb (Nat.eqb (List.length center) (String.length dims)) then Err ValueError
    else
      do c <- place_center dims center (fun _ => #0);
      let off a x := if with_axis a dims then square (x - c a) else #0 in
      pointwise (fun x y z => if off AX x + off AY y + off AZ z <=? square radius then inside else outside) m
  else if String.eqb mode "cube" then
    match cube AX, cube AY, cube AZ with
    | None, None, None => Err ValueError
    | _, _, _ => pointwise (fun x y z => if in_cube cube x y z then inside else outside) m
    end
  else Err UnboundLocalError.

(** SedovBlast, initial_conditions.py:484-538 *)
(** np.mean(x[1:] - x[:-1]) along an axis; 0 / 0 when there are no differences *)
Definition mean_step (a : axis) (u : arr K) : res K :=
  do d <- amap2 nsub (view a (cut 1 0) u) (view a (cut 0 (-1)) u);
  let l := ix_list (shp d) in
  Ok (fold_left (fun s i => s + at_ d 0%Z i) l #0 / nofZ (Z.of_nat (List.length l))).
Definition peak_energy (dims : string) (E1 hx hy hz : K) : K :=
  let div a h e := e / (if with_axis a dims then #2 * h else #1) in
  div AZ hz (div AY hy (div AX hx E1)).
Definition in_slice (n : Z) (s : pyslice) (j : Z) : bool :=
  let e := slice_adjust n s in (ex_start e <=? j)%Z && (j <? ex_start e + ex_len e)%Z.
Definition in_peak (center : bool) (dims : string) (n i : ix) : bool :=
  forallb (fun a =>
    if center then
      if with_axis a dims then in_slice (getc a n) (mkslice (Some (getc a n / 2 - 1)%Z) (Some (getc a n / 2 + 1)%Z) None) (getc a i)
      else true
    else (getc a i =? 0)%Z) axes.
Definition sedov_blast (mode dims : string) (rho0 E0 E1 : K) : ic := fun m =>
  let '(x, y, z) := m in
  do hx <- mean_step AX x; do hy <- mean_step AY y; do hz <- mean_step AZ z;
  let E := peak_energy dims E1 hx hy hz in
  do center <- (if String.eqb mode "corner" then Ok false else if String.eqb mode "center" then Ok true else Err UnboundLocalError);
  Ok (mkarr 5 (shp x) (fun v i => vec5 rho0 #0 #0 #0 (if in_peak center dims (shp x) i then E else E0) v)).

(** ** build_ic, initial_conditions.py:30-81 *)
Definition passives := dict (K -> K -> K -> K).
Definition chosen_rows (r : rowsel) : list Z :=
  match r with R_one k => [k] | R_many ks => ks | R_grid kss => List.concat kss end.
(** one assignment out[hs.variable_map[scalar], ...] = f(x, y, z) *)
Definition fill_rows (ks : list Z) (f : ix -> K) (out : arr K) : arr K :=
  mkarr (rows out) (shp out) (fun v i => if existsb (Z.eqb v) ks then f i else at_ out v i).
Fixpoint fill_passives (h : hstate) (fs : passives) (names : list string) (m : meshes) (out : arr K) : res (arr K) :=
  match names with
  | [] => Ok out
  | s :: names' =>
      let '(x, y, z) := m in
      match dget s (hs_map h), dget s fs with
      | Some r, Some f => fill_passives h fs names' m (fill_rows (chosen_rows r) (fun i => f (at_ x 0%Z i) (at_ y 0%Z i) (at_ z 0%Z i)) out)
      | _, _ => Err KeyError
      end
  end.
Definition build_ic (core : ic) (h : hstate) (fs : option passives) : res ic :=
  do fs <- (if hs_includes h then
              match fs with
              | None => Err AttributeError
              | Some fs => if forallb (fun s => dmem s fs) (hs_passives h) then Ok fs else Err ValueError
              end
            else Ok []);
  Ok (fun m =>
    do w <- core m;
    fill_passives h fs (hs_passives h) m (mkarr (5 + count (hs_passives h)) (shp w) (fun v i => if (v <? 5)%Z then at_ w v i else #0))).

(** ** The initial state *)
(** fv_average, fv.py:243-277, of a function of whole meshes *)
Definition shift (m : meshes) (dx dy dz : K) : meshes :=
  let '(x, y, z) := m in (amap (fun c => c + dx) x, amap (fun c => c + dy) y, amap (fun c => c + dz) z).
Definition fv_average_mesh (leggauss : Z -> list (K * K)) (f : ic) (h : K * K * K) (p : ix) (m : meshes) : res (arr K) :=
  let '(hx, hy, hz) := h in
  do o <- f m;
  fold_left (fun acc xq =>
    fold_left (fun acc yq =>
      fold_left (fun acc zq =>
          do out <- acc;
          let weight := snd xq * snd yq * snd zq in
          do r <- f (shift m (fst xq * hx) (fst yq * hy) (fst zq * hz));
          do s <- amap2 nadd out (amap (fun x => weight * x) r);
          assign_all out s)
        (get_legendre_quadrature N leggauss (cz p)) acc)
      (get_legendre_quadrature N leggauss (cy p)) acc)
    (get_legendre_quadrature N leggauss (cx p)) (Ok (amap (fun _ => #0) o)).
(** compute_conservatives of an array *)
Definition conservatives (gamma : K) (w : arr K) : arr K :=
  cmap (compute_conservatives N gamma) w.
(** _init_initial_conditions, solver.py:256-310. The contents of np.empty, which are assigned
    before they are read, are zeros in [build_ic]. *)
Definition initial_state (leggauss : Z -> list (K * K)) (c : config N) (core : ic) (fs : option passives)
  (conservative_ic fv_ic : bool) : res (arr K) :=
  do h <- hydro_state (match fs with None => [] | Some fs => map fst fs end) 4;
  do w0 <- build_ic core h fs;
  let m := mesh N (c_n c) (c_bounds c AX) (c_bounds c AY) (c_bounds c AZ) in
  let u0 := if conservative_ic then w0 else fun m => do w <- w0 m; Ok (conservatives (c_gamma c) w) in
  if conservative_ic && fv_ic then w0 m
  else if fv_ic then Err ValueError
  else fv_average_mesh leggauss u0 (spacing N c AX, spacing N c AY, spacing N c AZ) (c_p c) m.
End IC.
Arguments mkelem {N}. Arguments e_sin {N}. Arguments e_exp {N}. Arguments e_tan {N}. Arguments e_pi {N}.
