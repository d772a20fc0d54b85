(** Definitions for the statements about saved snapshots. *)
From Coq Require Import ZArith QArith List Bool String.
From Verif Require Import Err Num HydroStateM ArrMgrM OdeM SnapM.
Import ListNotations.
Local Open Scope nat_scope.

(** pickle.load is the inverse of pickle.dump, and fails on a truncated file *)
Definition round_trip {D} (enc : list D -> bytes) (dec : bytes -> res (list D)) : Prop := forall l, dec (enc l) = Ok l.
Definition truncation_fails {D} (enc : list D -> bytes) (dec : bytes -> res (list D)) : Prop :=
  forall l b b', enc l = b ++ b' -> b' <> [] -> exists e, dec b = Err e.
(** json accepts all attributes that are to be saved *)
Definition serialisable (attrs : dict value) : Prop := forall k v, In (k, v) attrs -> attr_fate k v <> Refused.
(** the files after a crash that let [k] effects happen *)
Definition crash (k : nat) (ops : list fsop) (s : fs) : fs := execs (firstn k ops) s.
(** there is no directory of that name, or one with files of different names *)
Definition clean_dir (d : string) (s : fs) : Prop :=
  s d = None \/ exists files, s d = Some (N_dir files) /\ NoDup (map fst files).
(** how many effects it takes to remove what is there *)
Definition removal (d : string) (s : fs) : nat :=
  match s d with Some (N_dir files) => S (List.length files) | _ => 0 end.
(** a pickle for lists of numbers, for the examples: the length, then the numbers *)
Definition toy_enc (l : list Z) : bytes := Z.of_nat (List.length l) :: l.
Definition toy_dec (b : bytes) : res (list Z) :=
  match b with
  | [] => Err EOFError
  | n :: l => if Z.eqb n (Z.of_nat (List.length l)) then Ok l else Err EOFError
  end.

(** a solver that counts its steps of length 1, for the examples *)
Definition toy_ops : vops QNum (car QNum) := mkvops (fun a b => Ok (nadd a b)) nmul (fun _ b => Ok b).
Definition toy_step : @stepper QNum (car QNum) unit := fun s _ u _ => Ok (s, (nofZ 1, nadd u (nofZ 1))).
Definition toy_payload : unit -> car QNum -> car QNum -> res Z := fun _ _ u => Ok (Qnum u).
Definition toy_saver : saver Z QNum (car QNum) unit := mksaver (ode_init QNum (nofZ 0) tt) [].
Definition no_files : fs := fun _ => None.

(** the attributes of an EulerSolver that attrs.json is to hold, in order *)
Definition saved_names (helper : bool) : list string :=
  (["a_posteriori_slope_limiting"; "am"; "bc"; "CFL"; "commit_details"; "conservative_ic"; "convex"; "csq_floor";
    "density_floor"; "dims"; "f_evaluation_count"; "fixed_dt"; "force_trouble"; "fv_ic"; "gamma"; "h"; "integrator";
    "n"; "NAD"; "NAD_mode"; "NAD_range"; "NAD_vars"; "ndim"; "nvars"; "p"; "PAD"; "pressure_floor";
    "print_progress_bar"; "riemann_solver_name"; "SED"; "SED_tolerance"; "slab_buffer_size"; "slope_limiter";
    "snapshot_dir"]%string ++ (if helper then [] else ["snapshot_helper_function"]%string) ++
   ["snapshot_times"; "snapshots_as_fv_averages"; "step_count"; "t"; "timer"; "trouble_counter"; "w0"; "x_domain";
    "xdim"; "y_domain"; "ydim"; "z_domain"; "zdim"]%string).
(** self.snapshots has one entry for every entry of self.snapshot_times, the one taken at that time *)
Definition in_step {D N U S} (b : saver D N U S) : Prop := b_shots b = map snd (o_snaps (b_ode b)).
