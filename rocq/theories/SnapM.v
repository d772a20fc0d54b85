(** Model of saving and reading snapshots: read_snapshots and write_snapshots,
    /repo/fvhoe/solver.py:876-953, and the part of ODE.integrate that calls them,
    /repo/fvhoe/ode.py:111-174, with the files they work on.

    Paths are normalised and their parent directory exists; a snapshot directory holds plain
    files only. Python writes files front to back, so a process that is killed leaves a prefix
    of what it was to write: a file is written byte by byte here. pickle is a pair of functions
    [enc] and [dec]; the text of an attribute in attrs.json and the timing report are
    arbitrary. snapshot_helper_function is not modelled. *)
From Coq Require Import ZArith List Bool String Ascii.
From Verif Require Import Err Num HydroStateM ArrMgrM OdeM.
Import ListNotations.
Open Scope Z_scope.

Definition bytes := list Z.
Inductive node := N_file (b : bytes) | N_dir (files : dict bytes).
Definition fs := string -> option node.

(** one effect on the file system *)
Inductive fsop :=
| Op_unlink (d f : string) | Op_rmdir (d : string) | Op_mkdir (d : string)
| Op_create (d f : string) | Op_append (d f : string) (b : Z).
Definition fs_put (d : string) (n : option node) (s : fs) : fs := fun x => if String.eqb x d then n else s x.
Definition in_dir (d : string) (g : dict bytes -> dict bytes) (s : fs) : fs :=
  match s d with Some (N_dir fl) => fs_put d (Some (N_dir (g fl))) s | _ => s end.
Definition exec (o : fsop) (s : fs) : fs :=
  match o with
  | Op_unlink d f => in_dir d (ddel f) s
  | Op_rmdir d => fs_put d None s
  | Op_mkdir d => fs_put d (Some (N_dir [])) s
  | Op_create d f => in_dir d (dset f []) s
  | Op_append d f b => in_dir d (fun fl => dset f (match dget f fl with Some l => l | None => [] end ++ [b]) fl) s
  end.
Fixpoint execs (l : list fsop) (s : fs) : fs :=
  match l with [] => s | o :: l' => execs l' (exec o s) end.

(** open(f, "w").write(b) *)
Definition write_file (d f : string) (b : bytes) : list fsop := Op_create d f :: map (Op_append d f) b.

(** ** The attributes of the solver, solver.py:912-946 *)
(** what write_snapshots asks of a value: callable, an array (NumPy or CuPy), accepted by json *)
Record value := mkvalue { v_callable : bool; v_array : bool; v_json : bool }.
Inductive fate := Skipped | Written | Refused.
Definition attr_fate (k : string) (v : value) : fate :=
  let is := String.eqb k in
  if is "w0"%string then Written
  else if (v_callable v && negb (is "am"%string)) || v_array v ||
          (is "progress_bar" || is "timestamps" || is "snapshots" || is "w0_cell_centers_cache")%string
  then Skipped
  else if (is "am" || is "bc" || is "timer")%string then Written
  else if v_json v then Written else Refused.

(** str.lower, for ASCII *)
Definition lower_char (a : ascii) : ascii :=
  let n := nat_of_ascii a in
  if ((65 <=? n) && (n <=? 90))%nat then ascii_of_nat (n + 32) else a.
Fixpoint lower (s : string) : string :=
  match s with EmptyString => EmptyString | String a t => String (lower_char a) (lower t) end.
(** sorted(keys, key=lambda x: (x.lower(), x)): a stable insertion sort *)
Fixpoint insert_by {A} (le : A -> A -> bool) (x : A) (l : list A) : list A :=
  match l with [] => [x] | y :: l' => if le x y then x :: l else y :: insert_by le x l' end.
Definition sort_by {A} (le : A -> A -> bool) (l : list A) : list A := fold_right (insert_by le) [] l.
Definition attr_le (x y : string) : bool :=
  match String.compare (lower x) (lower y) with
  | Lt => true | Gt => false
  | Eq => match String.compare x y with Gt => false | _ => true end
  end.

Section Snap.
Context {D : Type}.
Context (enc : list D -> bytes) (dec : bytes -> res (list D)) (text : string -> bytes) (report : bytes).

(** json.dump, solver.py:944-946: the items before the first refused value are written *)
Fixpoint write_items (d : string) (items : list (string * fate)) : list fsop * option exn :=
  match items with
  | [] => ([], None)
  | (_, Skipped) :: l => write_items d l
  | (_, Refused) :: _ => ([], Some TypeError)
  | (k, Written) :: l =>
      let (ops, e) := write_items d l in (map (Op_append d "attrs.json") (text k) ++ ops, e)
  end.
Definition sorted_fates (attrs : dict value) : list (string * fate) :=
  sort_by (fun x y => attr_le (fst x) (fst y)) (map (fun kv => (fst kv, attr_fate (fst kv) (snd kv))) attrs).

(** shutil.rmtree of a directory of files *)
Definition rmtree (d : string) (files : dict bytes) : list fsop :=
  map (fun f => Op_unlink d (fst f)) files ++ [Op_rmdir d].
(** solver.py:905-951, from os.makedirs on *)
Definition fill (d : string) (shots : list D) (attrs : dict value) : list fsop * option exn :=
  let (items, e) := write_items d (sorted_fates attrs) in
  ([Op_mkdir d] ++ write_file d "arrs.pkl" (enc shots) ++ [Op_create d "attrs.json"] ++ items ++
   match e with None => write_file d "timing.txt" report | Some _ => [] end, e).
(** write_snapshots: what it does to the files, and the exception that ends it *)
Definition write_snapshots (overwrite : bool) (d : string) (shots : list D) (attrs : dict value) (s : fs)
  : list fsop * option exn :=
  match s d, overwrite with
  | Some _, false => ([], Some FileExistsError)
  | Some (N_file _), true => ([], Some OSError)
  | Some (N_dir files), true =>
      let (ops, e) := fill d shots attrs in (rmtree d files ++ ops, e)
  | None, _ => fill d shots attrs
  end.
(** read_snapshots: [None] when there is nothing to read *)
Definition read_snapshots (d : string) (s : fs) : res (option (list D)) :=
  match s d with
  | None => Ok None
  | Some (N_file _) => Err OSError
  | Some (N_dir files) =>
      match dget "arrs.pkl" files with
      | None => Err FileNotFoundError
      | Some b => do l <- dec b; Ok (Some l)
      end
  end.

(** ** integrate with a snapshot directory *)
Section Integrate.
Context {N : Num} {U S : Type}.
(** A solver object: [b_shots] is self.snapshots, whereas self.snapshot_times and all else
    belong to [b_ode]. *)
Record saver := mksaver { b_ode : @ode N U S D; b_shots : list D }.
Context (V : vops N U) (step : stepper N (U := U) (S := S)) (helper : S -> S) (payload : S -> car N -> U -> res D).
(** what a run appends to self.snapshots *)
Definition new_shots (o o' : @ode N U S D) : list D := skipn (List.length (o_snaps o)) (map snd (o_snaps o')).
Definition run_saver (T : option (car N)) (n : option Z) (exact : bool) (downbeats : list (car N))
  (log_every_step : bool) (fuel : nat) (b : saver) : res saver :=
  do o <- integrate N V step helper payload T n exact downbeats log_every_step fuel (b_ode b);
  Ok (mksaver o (b_shots b ++ new_shots (b_ode b) o)).
(** integrate, ode.py:94-174: the effects on the files and the outcome. [s] are the files when
    it is called, [s'] those when the time loop has ended. *)
Definition integrate_saved (T : option (car N)) (n : option Z) (exact : bool) (downbeats : list (car N))
  (log_every_step : bool) (fuel : nat) (dir : option string) (overwrite : bool) (attrs : dict value)
  (s s' : fs) (b : saver) : list fsop * res saver :=
  let go := run_saver T n exact downbeats log_every_step fuel b in
  match T, dir with
  | None, _ | _, None => ([], go)
  | Some _, Some d =>
      match (if overwrite then Ok None else read_snapshots d s) with
      | Err e => ([], Err e)
      | Ok (Some l) => ([], Ok (mksaver (b_ode b) l))
      | Ok None =>
          match go with
          | Err e => ([], Err e)
          | Ok b' =>
              let (ops, e) := write_snapshots overwrite d (b_shots b') attrs s' in
              (ops, match e with None => Ok b' | Some e => Err e end)
          end
      end
  end.
End Integrate.
End Snap.
Arguments saver D N U S : clear implicits.
Arguments mksaver {D N U S}. Arguments b_ode {D N U S}. Arguments b_shots {D N U S}.

(** ** The attributes of an EulerSolver when it saves, in the order of their creation:
    solver.py:142-420, ode.py:37-58, 133, 201, 246-257. With conservative finite-volume
    initial conditions u0 is NotImplemented, solver.py:287-289. Arguments of the constructor
    are taken to be plain numbers, strings and tuples of them. *)
Definition fn : value := mkvalue true false false.
Definition nd : value := mkvalue false true false.
Definition js : value := mkvalue false false true.
Definition ob : value := mkvalue false false false.
Definition euler_attrs (fv_ic helper progress : bool) : dict value :=
  (app [("csq_floor", js); ("density_floor", js); ("gamma", js); ("pressure_floor", js); ("riemann_solver_name", js);
    ("snapshot_helper_function", if helper then fn else js); ("snapshots_as_fv_averages", js); ("CFL", js);
    ("fixed_dt", js); ("x_domain", js); ("y_domain", js); ("z_domain", js); ("h", js); ("n", js); ("p", js);
    ("X", nd); ("Y", nd); ("Z", nd); ("x", nd); ("y", nd); ("z", nd); ("xdim", js); ("ydim", js); ("zdim", js);
    ("dims", js); ("ndim", js); ("conservative_ic", js); ("fv_ic", js); ("hydro_state", fn); ("nvars", js);
    ("w0", if fv_ic then ob else fn); ("u0", if fv_ic then ob else fn); ("u0_fv", fn); ("t", js); ("timestamps", js);
    ("step_count", js); ("am", fn); ("timer", ob); ("snapshots", ob); ("snapshot_times", js);
    ("print_progress_bar", js); ("commit_details", js); ("f_evaluation_count", js); ("slab_buffer_size", js); ("bc", ob);
    ("a_posteriori_slope_limiting", js); ("slope_limiter", js); ("force_trouble", js); ("NAD", js); ("NAD_mode", js);
    ("NAD_range", js); ("NAD_vars", js); ("PAD", js); ("SED", js); ("SED_tolerance", js); ("convex", js);
    ("trouble_counter", js); ("riemann_solver", fn); ("plot_1d_slice", fn); ("plot_2d_slice", fn); ("integrator", js);
    ("stepper", fn); ("snapshot_dir", js)] (if progress then [("progress_bar", ob)] else []))%string.
