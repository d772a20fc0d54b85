(** Model of ArrayManager, /repo/fvhoe/array_management.py:12-61, with the memory it refers to. *)
From Coq Require Import ZArith List Bool String.
From Verif Require Import Err HydroStateM.
Import ListNotations.
Open Scope Z_scope.

(** Array objects: the library they belong to and the address of their buffer. [Other] is any
    object that is not an array. *)
Inductive lib := NumPy | CuPy.
Inductive obj := Arr (l : lib) (addr : nat) | Other.

Section Manager.
Context {V : Type}.

(** buffers, addressed by their index; fresh buffers are appended *)
Definition heap := list V.
Definition alloc (v : V) (m : heap) : heap * nat := (m ++ [v], List.length m).
Definition load (a : nat) (m : heap) : option V := nth_error m a.
(** array[...] = v *)
Fixpoint store (a : nat) (v : V) (m : heap) : heap :=
  match m, a with
  | [], _ => []
  | _ :: m', O => v :: m'
  | x :: m', S a' => x :: store a' v m'
  end.

(** arrays and using_cupy, array_management.py:18-19; [m_cupy] is CUPY_AVAILABLE, :4-9 *)
Record manager := mkam { m_cupy : bool; m_using : bool; m_arrays : dict obj }.

(** enable_cupy and disable_cupy, array_management.py:24-31 *)
Definition enable_cupy (m : manager) : manager :=
  if m_cupy m then mkam true true (m_arrays m) else m.
Definition disable_cupy (m : manager) : manager := mkam (m_cupy m) false (m_arrays m).

(** cp.asarray: the array itself if it is on the device, else a copy there. Without CuPy the
    name cp does not exist. *)
Definition cp_asarray (avail : bool) (o : obj) (h : heap) : res (obj * heap) :=
  if negb avail then Err NameError
  else match o with
       | Arr CuPy a => Ok (o, h)
       | Arr NumPy a =>
           match load a h with
           | Some v => let (h', a') := alloc v h in Ok (Arr CuPy a', h')
           | None => Err RuntimeError
           end
       | Other => Err TypeError
       end.
(** cp.asnumpy: a copy on the host of a device array; a host array is returned as it is *)
Definition cp_asnumpy (avail : bool) (o : obj) (h : heap) : res (obj * heap) :=
  if negb avail then Err NameError
  else match o with
       | Arr NumPy a => Ok (o, h)
       | Arr CuPy a =>
           match load a h with
           | Some v => let (h', a') := alloc v h in Ok (Arr NumPy a', h')
           | None => Err RuntimeError
           end
       | Other => Err TypeError
       end.
(** array.copy() *)
Definition obj_copy (o : obj) (h : heap) : res (obj * heap) :=
  match o with
  | Arr l a =>
      match load a h with
      | Some v => let (h', a') := alloc v h in Ok (Arr l a', h')
      | None => Err RuntimeError
      end
  | Other => Err TypeError
  end.
(** isinstance(array, np.ndarray) *)
Definition is_numpy (o : obj) : bool := match o with Arr NumPy _ => true | _ => false end.

(** add, array_management.py:33-40 *)
Definition am_add (name : string) (o : obj) (m : manager) (h : heap) : res (manager * heap) :=
  if dmem name (m_arrays m) then Err KeyError
  else if negb (is_numpy o) then Err TypeError
  else do oh <- (if m_using m then cp_asarray (m_cupy m) o h else Ok (o, h));
       Ok (mkam (m_cupy m) (m_using m) (dset name (fst oh) (m_arrays m)), snd oh).
(** [del d[k]] *)
Fixpoint ddel {W} (k : string) (d : dict W) : dict W :=
  match d with [] => [] | (k', v) :: d' => if String.eqb k k' then d' else (k', v) :: ddel k d' end.
(** remove, array_management.py:46-48 *)
Definition am_remove (name : string) (m : manager) : res manager :=
  if dmem name (m_arrays m) then Ok (mkam (m_cupy m) (m_using m) (ddel name (m_arrays m))) else Err KeyError.
(** get_numpy, array_management.py:50-54 *)
Definition am_get_numpy (name : string) (m : manager) (h : heap) : res (obj * heap) :=
  match dget name (m_arrays m) with
  | None => Err KeyError
  | Some o => if m_using m then cp_asnumpy (m_cupy m) o h else obj_copy o h
  end.
(** __call__, array_management.py:56-58 *)
Definition am_call (name : string) (m : manager) : res obj :=
  match dget name (m_arrays m) with None => Err KeyError | Some o => Ok o end.
(** to_dict, array_management.py:60-61 *)
Definition am_to_dict (m : manager) : list string * bool := (map fst (m_arrays m), m_using m).

(** What a program does with a manager. *)
Inductive action :=
| A_add (name : string) (v : V)       (* am.add(name, np.array(v)) *)
| A_remove (name : string)
| A_write (name : string) (v : V)     (* am(name)[...] = v *)
| A_get (name : string)               (* am.get_numpy(name) *)
| A_enable | A_disable.
Definition act (a : action) (m : manager) (h : heap) : res (manager * heap) :=
  match a with
  | A_add name v => let (h', p) := alloc v h in am_add name (Arr NumPy p) m h'
  | A_remove name => do m' <- am_remove name m; Ok (m', h)
  | A_write name v =>
      do o <- am_call name m;
      match o with Arr _ p => Ok (m, store p v h) | Other => Err TypeError end
  | A_get name => do oh <- am_get_numpy name m h; Ok (m, snd oh)
  | A_enable => Ok (enable_cupy m, h)
  | A_disable => Ok (disable_cupy m, h)
  end.
Fixpoint acts (l : list action) (m : manager) (h : heap) : res (manager * heap) :=
  match l with [] => Ok (m, h) | a :: l' => do mh <- act a m h; acts l' (fst mh) (snd mh) end.
End Manager.
Arguments heap V : clear implicits.
Arguments action V : clear implicits.
