(** Model of /repo/fvhoe/stencils.py. Weights are written as the quotients in the source. *)
From Coq Require Import ZArith List.
From Verif Require Import Err Num.
Import ListNotations.
Open Scope Z_scope.

(** get_stencil_size, stencils.py:6-22 (the two valid modes; any other mode string raises
    ValueError). Python's // is floor division, Coq's [Z.div]. *)
Definition stencil_total (p : Z) : Z := -2 * ((- p) / 2) + 1.
Definition stencil_right (p : Z) : Z := - ((- p) / 2).

(** Interpolation positions. The check [pos not in "lcr"] (stencils.py:38) is a substring
    test: it also lets through "", "lc", "cr" and "lcr" ([P_other_substring]); any other
    string ([P_invalid]) raises ValueError. *)
Inductive ipos := P_l | P_c | P_r | P_other_substring | P_invalid.

Section W.
Context (N : Num).
Local Notation K := (car N).
Definition fr (ab : Z * Z) : K :=
  (* a literal a / b of the source; b = 1 for plain integers *)
  if snd ab =? 1 then nofZ (fst ab) else ndiv (nofZ (fst ab)) (nofZ (snd ab)).

(** left-face weights, stencils.py:45-176, branch pos == "l" *)
Definition left_table (p : Z) : option (list (Z * Z)) :=
  match p with
  | 0 => Some [(1,1)]
  | 1 => Some [(1,4); (1,1); (-1,4)]
  | 2 => Some [(2,6); (5,6); (-1,6)]
  | 3 => Some [(-1,24); (10,24); (20,24); (-6,24); (1,24)]
  | 4 => Some [(-3,60); (27,60); (47,60); (-13,60); (2,60)]
  | 5 => Some [(1,120); (-1,12); (59,120); (47,60); (-31,120); (1,15); (-1,120)]
  | 6 => Some [(1,105); (-19,210); (107,210); (319,420); (-101,420); (5,84); (-1,140)]
  | 7 => Some [(-1,560); (17,840); (-97,840); (449,840); (319,420); (-223,840); (71,840);
               (-1,56); (1,560)]
  | 8 => Some [(-1,504); (11,504); (-61,504); (275,504); (1879,2520); (-641,2520);
               (199,2520); (-41,2520); (1,630)]
  | _ => None
  end.

(** centre weights, stencils.py:45-176, branch pos == "c" *)
Definition center_table (p : Z) : option (list (Z * Z)) :=
  match p with
  | 0 => Some [(1,1)]
  | 1 => Some [(0,1); (1,1); (0,1)]
  | 2 => Some [(-1,24); (26,24); (-1,24)]
  | 3 => Some [(0,1); (-1,24); (26,24); (-1,24); (0,1)]
  | 4 => Some [(9,1920); (-116,1920); (2134,1920); (-116,1920); (9,1920)]
  | 5 => Some [(0,1); (3,640); (-29,480); (1067,960); (-29,480); (3,640); (0,1)]
  | 6 => Some [(-5,7168); (159,17920); (-7621,107520); (30251,26880); (-7621,107520);
               (159,17920); (-5,7168)]
  | 7 => Some [(0,1); (-5,7168); (159,17920); (-7621,107520); (30251,26880); (-7621,107520);
               (159,17920); (-5,7168); (0,1)]
  | 8 => Some [(35,294912); (-425,258048); (31471,2580480); (-100027,1290240);
               (5851067,5160960); (-100027,1290240); (31471,2580480); (-425,258048);
               (35,294912)]
  | _ => None
  end.

(** transverse reconstruction weights, stencils.py:190-253 *)
Definition transverse_table (p : Z) : option (list (Z * Z)) :=
  match p with
  | 0 => Some [(1,1)]
  | 1 => Some [(0,1); (1,1); (0,1)]
  | 2 => Some [(1,24); (22,24); (1,24)]
  | 3 => Some [(0,1); (1,24); (22,24); (1,24); (0,1)]
  | 4 => Some [(-17,5760); (308,5760); (5178,5760); (308,5760); (-17,5760)]
  | 5 => Some [(0,1); (-17,5760); (308,5760); (5178,5760); (308,5760); (-17,5760); (0,1)]
  | 6 => Some [(367,967680); (-281,53760); (6361,107520); (215641,241920); (6361,107520);
               (-281,53760); (367,967680)]
  | 7 => Some [(0,1); (367,967680); (-281,53760); (6361,107520); (215641,241920);
               (6361,107520); (-281,53760); (367,967680); (0,1)]
  | 8 => Some [(-27859,464486400); (49879,58060800); (-801973,116121600);
               (3629953,58060800); (41208059,46448640); (3629953,58060800);
               (-801973,116121600); (49879,58060800); (-27859,464486400)]
  | _ => None
  end.

Definition of_table (t : option (list (Z * Z))) : res (list K) :=
  match t with Some l => Ok (map fr l) | None => Err NotImplementedError end.

(** get_conservative_interpolation_stencil_weights, stencils.py:26-178. For the substrings
    let through by the position check, [out] is unbound when 1 <= p <= 8. *)
Definition interpolation_weights (p : Z) (pos : ipos) : res (list K) :=
  match pos with
  | P_invalid => Err ValueError
  | P_r => do l <- of_table (left_table p); Ok (rev l)
  | P_l => of_table (left_table p)
  | P_c => of_table (center_table p)
  | P_other_substring =>
      if p =? 0 then of_table (left_table 0)
      else match left_table p with
           | Some _ => Err UnboundLocalError
           | None => Err NotImplementedError
           end
  end.

(** get_transverse_reconstruction_stencil_weights, stencils.py:182-255 *)
Definition transverse_weights (p : Z) : res (list K) := of_table (transverse_table p).
End W.
