(** Model of /repo/fvhoe/scripting.py: the name of the result directory and the calls made by
    EulerSolver_wrapper. Values enter the name in printed form and are strings here; names and
    values are ASCII. The plots of the snapshot helper are not modelled. *)
From Coq Require Import ZArith List Bool String Ascii.
From Verif Require Import Err Num HydroStateM ArrMgrM FvM OdeM SnapM.
Import ListNotations.
Open Scope Z_scope.

(** the sort key [(c.lower(), c.isupper()) for c in x], scripting.py:44-46, one number for each
    character; lists are compared lexicographically *)
Definition is_upper (a : ascii) : bool := let n := nat_of_ascii a in ((65 <=? n) && (n <=? 90))%nat.
Definition char_key (a : ascii) : nat := (2 * nat_of_ascii (lower_char a) + if is_upper a then 1 else 0)%nat.
Fixpoint name_le (x y : string) : bool :=
  match x, y with
  | EmptyString, _ => true
  | String _ _, EmptyString => false
  | String a x', String b y' =>
      if (char_key a <? char_key b)%nat then true else if (char_key b <? char_key a)%nat then false else name_le x' y'
  end.

(** the arguments of EulerSolver_wrapper that enter the name, as they are printed *)
Record call := mkcall {
  k_parent : string; k_pref : string; k_kwargs : list (string * string);
  k_T : string; k_integrator : string; k_n : string
}.
Local Open Scope string_scope.
(** project_name, scripting.py:41-50 *)
Definition project_name (c : call) : string :=
  k_pref c ++ "_" ++
  String.concat "_" (map (fun kv => fst kv ++ "=" ++ snd kv) (sort_by (fun x y => name_le (fst x) (fst y)) (k_kwargs c))) ++
  "_T=" ++ k_T c ++ "_integrator=" ++ k_integrator c ++ "_n_snapshots=" ++ k_n c.
(** os.path.join *)
Definition starts_slash (s : string) : bool := match s with String a _ => Ascii.eqb a "/" | _ => false end.
Fixpoint ends_slash (s : string) : bool :=
  match s with EmptyString => false | String a EmptyString => Ascii.eqb a "/" | String _ t => ends_slash t end.
Definition path_join (a b : string) : string :=
  if starts_slash b then b else if String.eqb a "" || ends_slash a then a ++ b else a ++ "/" ++ b.
(** snapshot_dir, scripting.py:51; it is normalised later *)
Definition snapshot_dir (c : call) : string := path_join (k_parent c) (project_name c).
Local Close Scope string_scope.

(** np.linspace(0, T, n), scripting.py:85. For n = 1 NumPy gives [0]. *)
Definition script_downbeats (N : Num) (T : car N) (n : Z) : res (list (car N)) :=
  if n <? 0 then Err ValueError
  else if n =? 1 then Ok [nofZ 0]
  else Ok (map (fun i => linspace N (nofZ 0) T (n - 1) (Z.of_nat i)) (seq 0 (Z.to_nat n))).
(** the choice of the method, scripting.py:90-103; [run] is what run() chooses *)
Definition script_integrator (run : integrator) (i : Z) : res integrator :=
  if i =? -1 then Ok run else if i =? 1 then Ok I_euler else if i =? 2 then Ok I_ssprk2
  else if i =? 3 then Ok I_ssprk3 else if i =? 4 then Ok I_rk4 else Err ValueError.

(** EulerSolver_wrapper, scripting.py:9-105. [solver ic bc] is the object that the constructor
    builds from the initial and boundary conditions and the keyword arguments, [run] what its
    run() chooses; [f ic bc] its right-hand side. *)
Section Wrapper.
Context {D : Type} (enc : list D -> bytes) (dec : bytes -> res (list D)) (text : string -> bytes) (report : bytes).
Context {N : Num} {U S IC BC : Type} (V : vops N U).
Context (solver : IC -> BC -> res (saver D N U S)) (f : IC -> BC -> S -> car N -> car N -> U -> res (S * (car N * U)))
  (run : integrator) (helper : S -> S) (payload : S -> car N -> U -> res D).
Definition wrapper (ic : IC) (bc : BC) (T : car N) (integrator n : Z) (overwrite : bool) (c : call)
  (fuel : nat) (attrs : dict value) (s s' : fs) : list fsop * res (saver D N U S) :=
  match (do b <- solver ic bc; do db <- script_downbeats N T n; do i <- script_integrator run integrator; Ok (b, (db, i))) with
  | Err e => ([], Err e)
  | Ok (b, (db, i)) =>
      integrate_saved enc dec text report V (stepper_of N V (f ic bc) i) helper payload (Some T) None true db false fuel
        (Some (snapshot_dir c)) overwrite attrs s s' b
  end.
End Wrapper.

(** ** The import statements *)
(** the names initial_conditions.py binds at its top level *)
Definition ic_names : list string :=
  ["ABC"; "abstractmethod"; "HydroState"; "np"; "Number"; "Callable"; "Dict"; "Tuple"; "Union"; "_hs";
   "InitialCondition"; "Sinus"; "Square"; "SlottedDisk"; "Shock1D"; "DoubleShock1D"; "ShuOsher1D"; "KelvinHelmholtz2D";
   "DoubleMachReflection2D"; "ShockTube"; "SedovBlast"; "AthenaBlast"]%string.
(** from module import name *)
Definition import_from (names : list string) (name : string) : res unit :=
  if existsb (String.eqb name) names then Ok tt else Err ImportError.
(** scripting.py:2 *)
Definition import_scripting : res unit := import_from ic_names "kelvin_helmholtz_2d"%string.
