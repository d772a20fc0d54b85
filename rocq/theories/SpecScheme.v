(** The finite-volume scheme as a text book would write it, over the reals: stencils centred
    on the cell they belong to, text-book numerical fluxes, and the balance of the fluxes
    through the faces of a cell. Nothing here refers to array shapes, padding or slices. *)
From Coq Require Import ZArith List Bool Reals.
From Verif Require Import Err Num NdArray StencilsM FvM RiemannM LimitM SedM OdeM SolverM Spec SpecBc SpecSolver SpecCons.
Import ListNotations.
Open Scope R_scope.

(** a quantity per row and cell of the unbounded grid *)
Definition grid := Z -> ix -> R.
(** the cell k places up axis a *)
Definition up (a : axis) (k : Z) (i : ix) : ix := setc a (getc a i + k)%Z i.

(** ** stencils *)
(** weighted sum along an axis; the weights are centred on the cell *)
Definition line (a : axis) (ws : list R) (f : grid) : grid := fun v i =>
  sum_to (length ws) (fun k =>
    nth (Z.to_nat k) ws 0 * f v (up a (k - (Z.of_nat (length ws) - 1) / 2) i)).
(** along all three axes, and along the two axes normal to d *)
Definition block (ws : axis -> list R) (f : grid) : grid :=
  line AX (ws AX) (line AY (ws AY) (line AZ (ws AZ) f)).
Definition across (d : axis) (ws : axis -> list R) (f : grid) : grid :=
  match d with
  | AX => line AY (ws AY) (line AZ (ws AZ) f)
  | AY => line AX (ws AX) (line AZ (ws AZ) f)
  | AZ => line AX (ws AX) (line AY (ws AY) f)
  end.

(** the published weights: value at a point of the cell from cell averages, and cell average
    from point values (their exactness on polynomials is stated separately) *)
Record tables (wi : Z -> ipos -> list R) (wt : Z -> list R) : Prop := {
  tab_i : forall p pos, (0 <= p <= 8)%Z -> In pos [P_l; P_c; P_r] -> interpolation_weights RNum p pos = Ok (wi p pos);
  tab_t : forall p, (0 <= p <= 8)%Z -> transverse_weights RNum p = Ok (wt p)
}.

(** ** gas dynamics *)
(** density, velocity, pressure and passive concentration of a conserved state *)
Definition primitive (gamma : R) (u : state) (r : Z) : R :=
  match r with
  | 0%Z => u 0%Z
  | 4%Z => (gamma - 1) * (u 4%Z - 1/2 * (u 1%Z * u 1%Z + u 2%Z * u 2%Z + u 3%Z * u 3%Z) / u 0%Z)
  | _ => u r / u 0%Z
  end.

(** Local Lax-Friedrichs (Rusanov) flux *)
Definition rusanov (gamma floor : R) (d : axis) (wl wr : state) (r : Z) : R :=
  1/2 * (euler_flux gamma d wl r + euler_flux gamma d wr r)
  - 1/2 * Rmax (Rabs (vel d wl) + sound gamma floor wl) (Rabs (vel d wr) + sound gamma floor wr)
    * (conserved gamma wr r - conserved gamma wl r).
(** transport by the velocity found on the left of the face *)
Definition donor (gamma : R) (d : axis) (wl wr : state) (r : Z) : R :=
  if Rlt_dec 0 (vel d wl) then transport_flux gamma d wl r
  else if Rlt_dec (vel d wl) 0 then transport_flux gamma d wr r else 0.
(** HLLC, with Davis' wave speeds S_L, S_R, Toro's contact speed S_M and pressure P_M *)
Section Toro.
Context (gamma floor : R) (d : axis) (wl wr : state).
Definition wave_left := Rmin (vel d wl) (vel d wr) - Rmax (sound gamma floor wl) (sound gamma floor wr).
Definition wave_right := Rmax (vel d wl) (vel d wr) + Rmax (sound gamma floor wl) (sound gamma floor wr).
Definition impedance_left := rho wl * (vel d wl - wave_left).
Definition impedance_right := rho wr * (wave_right - vel d wr).
Definition contact_speed :=
  (impedance_left * vel d wl + impedance_right * vel d wr + press wl - press wr)
  / (impedance_left + impedance_right).
Definition contact_pressure :=
  (impedance_left * press wr + impedance_right * press wl
   + impedance_left * impedance_right * (vel d wl - vel d wr)) / (impedance_left + impedance_right).
(** conserved state between the wave of speed S and the contact *)
Definition star (S : R) (w : state) (r : Z) : R :=
  let ratio := (S - vel d w) / (S - contact_speed) in
  if (r =? 0)%Z then rho w * ratio
  else if (r =? 4)%Z then
    ((S - vel d w) * total_energy gamma w - press w * vel d w + contact_pressure * contact_speed)
    / (S - contact_speed)
  else if (r =? comp d)%Z then rho w * ratio * contact_speed
  else rho w * ratio * w r.
Definition toro (r : Z) : R :=
  if Rlt_dec 0 wave_left then euler_flux gamma d wl r
  else if Rlt_dec 0 contact_speed then star_flux d contact_speed contact_pressure (star wave_left wl) r
  else if Rlt_dec 0 wave_right then star_flux d contact_speed contact_pressure (star wave_right wr) r
  else euler_flux gamma d wr r.
End Toro.
Definition numerical_flux (rs : rsolver) (gamma floor : R) (d : axis) (wl wr : state) (r : Z) : R :=
  match rs with
  | RS_upwind => donor gamma d wl wr r
  | RS_llf => rusanov gamma floor d wl wr r
  | RS_hllc => toro gamma floor d wl wr r
  end.

(** ** the scheme *)
Section Scheme.
Context (wi : Z -> ipos -> list R) (wt : Z -> list R).
(** averages of the primitive variables, from averages of the conserved ones *)
Definition primitives (p : ix) (gamma : R) (f : grid) : grid :=
  let centre := block (fun a => wi (getc a p) P_c) f in
  block (fun a => wt (getc a p)) (fun v i => primitive gamma (fun r => centre r i) v).
(** value on the lower (P_l) or upper (P_r) face of a cell normal to d, at the middle of the
    face; with a slope function, directions of degree 1 are linear with that slope *)
Definition trace (p : ix) (slope : option (R -> R -> R)) (d : axis) (pos : ipos) (w : grid) : grid :=
  let g := across d (fun a => wi (getc a p) P_c) w in
  let plain := line d (wi (getc d p) pos) g in
  match slope with
  | None => plain
  | Some s => fun v i =>
      if (getc d p =? 1)%Z then
        let half := 1/2 * s (g v i - g v (up d (-1) i)) (g v (up d 1 i) - g v i) in
        match pos with P_l => g v i - half | _ => g v i + half end
      else plain v i
  end.
(** flux through the lower face of cell i normal to d: numerical flux between the upper trace
    of the cell below and the lower trace of the cell itself, averaged over the face *)
Definition face_flux (c : config RNum) (p : ix) (slope : option (R -> R -> R)) (d : axis) (f : grid) : grid :=
  let w := primitives p (c_gamma c) f in
  across d (fun a => wt (getc a p)) (fun v i =>
    numerical_flux (c_rs c) (c_gamma c) (c_csq_floor c) d
      (fun r => trace p slope d P_r w r (up d (-1) i)) (fun r => trace p slope d P_l w r i) v).
End Scheme.

(** cell size *)
Definition width (c : config RNum) (a : axis) : R :=
  (snd (c_bounds c a) - fst (c_bounds c a)) / IZR (getc a (c_n c)).
(** what leaves cell i through its faces, per unit volume, with the sign of a rate of change *)
Definition balance (c : config RNum) (F : axis -> grid) (v : Z) (i : ix) : R :=
  let out a := if inactive_b c a then 0 else (F a v (up a 1 i) - F a v i) / width c a in
  - (out AX + out AY + out AZ).
(** fluxes of high degree, or a mixture with the limited low-degree ones *)
Definition blended (theta : option (axis -> ix -> R)) (hi lo : axis -> grid) (d : axis) : grid := fun v i =>
  match theta with
  | None => hi d v i
  | Some th => (1 - th d i) * hi d v i + th d i * lo d v i
  end.
(** degree 1 wherever the scheme has a positive degree *)
Definition low (p : ix) : ix := mkix (Z.min 1 (cx p)) (Z.min 1 (cy p)) (Z.min 1 (cz p)).

(** ** the time step *)
(** sum of the speeds at which signals cross the cell, over the active axes for sound *)
Definition signal_speed (c : config RNum) (w : state) : R :=
  Rabs (vel AX w) + Rabs (vel AY w) + Rabs (vel AZ w)
  + IZR ((if inactive_b c AX then 0 else 1) + (if inactive_b c AY then 0 else 1) + (if inactive_b c AZ then 0 else 1))
    * sound (c_gamma c) (c_csq_floor c) w.
(** the cells, ghost cells included, the fluxes of the active axes can reach *)
Definition flux_zone (c : config RNum) (i : ix) : Prop :=
  forall a, let q := half_up (top_degree (c_p c)) in
    let g := if inactive_b c a then 0%Z else Z.max (q + 1) (2 * q) in
    (- g <= getc a i < getc a (c_n c) + g)%Z.
Definition largest {A} (zone : A -> Prop) (f : A -> R) (m : R) : Prop :=
  (exists i, zone i /\ f i = m) /\ forall i, zone i -> f i <= m.
(** dt is the prescribed step, or the CFL number times the smallest cell size over the
    largest signal speed of the averaged primitive variables w *)
Definition time_step (c : config RNum) (w : grid) (dt : R) : Prop :=
  match c_fixed_dt c with
  | Some x => dt = x
  | None => exists m, largest (flux_zone c) (fun i => signal_speed c (fun r => w r i)) m /\
      dt = c_CFL c * Rmin (width c AX) (Rmin (width c AY) (width c AZ)) / m
  end.

(** ** where the mixing weights come from *)
(** [theta] is absent when limiting is off or no cell is troubled, and else the weights the
    troubled cells give to the faces (both are characterised separately) *)
Definition weights_from (c : config RNum) (junk : Z -> Z -> ix -> R) (t : R) (u : arr R) (F : axis -> arr R) (dt : R)
  (theta : option (axis -> ix -> R)) : Prop :=
  match theta with
  | None => c_limit c = false \/ exists det, detect RNum c junk t u F dt = Ok det /\ any_trouble (d_trouble det) = false
  | Some th => c_limit c = true /\ exists det f, detect RNum c junk t u F dt = Ok det /\ any_trouble (d_trouble det) = true /\
      broadcast_to_troubled_interfaces RNum (d_trouble det) (dims RNum c) (c_convex c) (is_periodic RNum c) = Ok f /\
      forall d i, th d i = at_ (f d) 0 i
  end.
(** the slope of the fall-back scheme *)
Definition fallback_slope (c : config RNum) (slope : option (R -> R -> R)) : Prop :=
  match c_limiter c with
  | L_none => slope = None
  | l => exists s, limited_slope RNum l = Ok s /\ slope = Some s
  end.
