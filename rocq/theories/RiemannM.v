(** Model of /repo/fvhoe/riemann_solvers.py. All operations are elementwise, so each
    solver is a function of the two cells adjacent to an interface; [NdArray.cmap2]
    lifts it to arrays. *)
From Coq Require Import ZArith Bool.
From Verif Require Import Err Num NdArray HydroM.
Open Scope Z_scope.

Section Riemann.
Context (N : Num).
Local Notation K := (car N).
Local Notation cell := (cell N).
Local Open Scope num_scope.

(** advection_upwind, riemann_solvers.py:13-45 *)
Definition advection_upwind (gamma csq_floor : K) (d : axis) (wl wr : cell) : cell :=
  fun r =>
  let ul := compute_conservatives N gamma wl in
  let ur := compute_conservatives N gamma wr in
  let Fl := compute_fluxes N d false wl ul in
  let Fr := compute_fluxes N d false wr ur in
  let v := wl (vrow d) in
  if v >? #0 then Fl r else if v <? #0 then Fr r else #0.

(** llf, riemann_solvers.py:48-88 *)
Definition llf_smax (gamma csq_floor : K) (d : axis) (wl wr : cell) : K :=
  let sl := nabs (wl (vrow d)) + compute_sound_speed N gamma csq_floor wl in
  let sr := nabs (wr (vrow d)) + compute_sound_speed N gamma csq_floor wr in
  nmax sl sr.
Definition llf (gamma csq_floor : K) (d : axis) (wl wr : cell) : cell :=
  fun r =>
  let ul := compute_conservatives N gamma wl in
  let ur := compute_conservatives N gamma wr in
  let Fl := compute_fluxes N d true wl ul in
  let Fr := compute_fluxes N d true wr ur in
  let smax := llf_smax gamma csq_floor d wl wr in
  nhalf * (Fl r + Fr r) - nhalf * smax * (ur r - ul r).

(** Intermediate quantities of hllc, riemann_solvers.py:109-157 *)
Record hllc_aux := mkaux {
  q_Sl : K; q_Sr : K; q_vstar : K; q_Pstar : K;
  q_rL : K; q_EL : K; q_rR : K; q_ER : K;
  q_r : K; q_v : K; q_P : K; q_E : K (* sampled Godunov state *)
}.

Definition hllc_compute (gamma csq_floor : K) (d : axis) (wl wr : cell) : hllc_aux :=
  let ul := compute_conservatives N gamma wl in
  let ur := compute_conservatives N gamma wr in
  let cl := compute_sound_speed N gamma csq_floor wl in
  let cr := compute_sound_speed N gamma csq_floor wr in
  let cmax := nmax cl cr in
  let vl := wl (vrow d) in let vr := wr (vrow d) in
  let rhol := wl rRho in let rhor := wr rRho in
  let Pl := wl rE in let Pr := wr rE in
  let El := ul rE in let Er := ur rE in
  let Sl := nmin vl vr - cmax in
  let Sr := nmax vl vr + cmax in
  let rc_L := rhol * (vl - Sl) in
  let rc_R := rhor * (Sr - vr) in
  let v_star := (rc_L * vl + rc_R * vr + Pl - Pr) / (rc_L + rc_R) in
  let P_star := (rc_L * Pr + rc_R * Pl + rc_L * rc_R * (vl - vr)) / (rc_L + rc_R) in
  let r_starL := rhol * (Sl - vl) / (Sl - v_star) in
  let E_starL := ((Sl - vl) * El - Pl * vl + P_star * v_star) / (Sl - v_star) in
  let r_starR := rhor * (Sr - vr) / (Sr - v_star) in
  let E_starR := ((Sr - vr) * Er - Pr * vr + P_star * v_star) / (Sr - v_star) in
  let sample (a b c e : K) : K :=
    if Sl >? #0 then a else if v_star >? #0 then b else if Sr >? #0 then c else e in
  mkaux Sl Sr v_star P_star r_starL E_starL r_starR E_starR
    (sample rhol r_starL r_starR rhor)
    (sample vl v_star v_star vr)
    (sample Pl P_star P_star Pr)
    (sample El E_starL E_starR Er).

(** hllc, riemann_solvers.py:91-197 *)
Definition hllc (gamma csq_floor : K) (d : axis) (wl wr : cell) : cell :=
  let q := hllc_compute gamma csq_floor d wl wr in
  fun r =>
  let r_gdv := q_r q in let v_gdv := q_v q in
  let P_gdv := q_P q in let E_gdv := q_E q in
  let upw := if v_gdv >? #0 then wl r else if v_gdv <? #0 then wr r else #0 in
  if (r =? rRho)%Z then r_gdv * v_gdv
  else if is_vel r then
    if (r =? vrow d)%Z then r_gdv * v_gdv * v_gdv + P_gdv
    else r_gdv * v_gdv * upw
  else if (r =? rE)%Z then v_gdv * (E_gdv + P_gdv)
  else r_gdv * v_gdv * upw.

(** The solver names accepted by EulerSolver, solver.py:185-193 *)
Inductive rsolver := RS_upwind | RS_llf | RS_hllc.
Definition riemann (rs : rsolver) (gamma csq_floor : K) (d : axis) (wl wr : cell) : cell :=
  match rs with
  | RS_upwind => advection_upwind gamma csq_floor d wl wr
  | RS_llf => llf gamma csq_floor d wl wr
  | RS_hllc => hllc gamma csq_floor d wl wr
  end.
End Riemann.
Arguments mkaux {N}.
Arguments q_Sl {N}. Arguments q_Sr {N}. Arguments q_vstar {N}. Arguments q_Pstar {N}.
Arguments q_rL {N}. Arguments q_EL {N}. Arguments q_rR {N}. Arguments q_ER {N}.
Arguments q_r {N}. Arguments q_v {N}. Arguments q_P {N}. Arguments q_E {N}.
