(** Model of /repo/fvhoe/smooth_extrema_detection.py. *)
From Coq Require Import ZArith List Bool.
From Verif Require Import Err Num PySlice NdArray HydroM FvM.
Import ListNotations.
Open Scope Z_scope.

Section Sed.
Context (N : Num).
Local Notation K := (car N).
Local Open Scope num_scope.

(** smooth_extrema_detection.py:28-31 *)
Definition sed_dv (eps d2u : K) : K :=
  let dv := nhalf * d2u in
  if nabs dv <=? eps then (if dv >=? #0 then eps else nopp eps) else dv.

(** smooth_extrema_detection.py:35-39 *)
Definition sed_alphaL (dv vL : K) : K :=
  let a := nopp (if dv <? #0 then (if vL >? #0 then vL else #0)
                 else (if vL <? #0 then vL else #0)) / dv in
  if a <? #1 then a else #1.

(** smooth_extrema_detection.py:43-44 *)
Definition sed_alphaR (eps dv vR : K) : K :=
  let a := (if dv >? #0 then (if vR >? #0 then vR else #0)
            else (if vR <? #0 then vR else #0)) / dv in
  if nabs dv <=? eps then #1 else a.

Definition y0 := cut 0 (-2).   (* get_symmetric_slices(_, 3, _)[0] *)
Definition y1 := cut 1 (-1).
Definition y2 := cut 2 0.

(** compute_1d_smooth_extrema_detector, smooth_extrema_detection.py:8-50 *)
Definition sed_1d (a : axis) (eps : K) (u : arr K) : res (arr K) :=
  do dU <- second_order_central_difference N a None u;
  do d2U <- second_order_central_difference N a None dU;
  let dv := amap (sed_dv eps) d2U in
  do vL <- amap2 nsub (view a y0 dU) (view a y1 dU);
  do alphaL <- amap2 sed_alphaL dv vL;
  do vR <- amap2 nsub (view a y2 dU) (view a y1 dU);
  do alphaR0 <- amap2 (sed_alphaR eps) dv vR;
  do alphaR <- amap2 (fun r l => if r <? l then r else l) alphaR0 alphaL;
  do alpha <- amap2 nmin alphaL alphaR;
  do m21 <- amap2 nmin (view a y2 alpha) (view a y1 alpha);
  amap2 nmin m21 (view a y0 alpha).

(** compute_2d_smooth_extrema_detector, smooth_extrema_detection.py:53-74 *)
Definition sed_2d (a1 a2 : axis) (eps : K) (u : arr K) : res (arr K) :=
  do alpha1 <- sed_1d a1 eps (view a2 (cut 3 (-3)) u);
  do alpha2 <- sed_1d a2 eps (view a1 (cut 3 (-3)) u);
  amap2 nmin alpha1 alpha2.

(** compute_3d_smooth_extrema_detector, smooth_extrema_detection.py:77-95 *)
Definition sed_3d (eps : K) (u : arr K) : res (arr K) :=
  do alpha_xy <- sed_2d AX AY eps (view AZ (cut 3 (-3)) u);
  do alpha_z <- sed_1d AZ eps (view AY (cut 3 (-3)) (view AX (cut 3 (-3)) u));
  amap2 nmin alpha_xy alpha_z.

(** the dispatch in detect_troubled_cells, slope_limiting.py:200-214 *)
Definition sed (dims : list axis) (eps : K) (u : arr K) : res (arr K) :=
  match dims with
  | [a] => sed_1d a eps u
  | [a; b] => sed_2d a b eps u
  | [_; _; _] => sed_3d eps u
  | _ => Err ValueError
  end.
End Sed.
