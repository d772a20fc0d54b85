(** Vocabulary for the construction of boundary conditions. *)
From Coq Require Import ZArith List Bool String.
From Verif Require Import Err HydroStateM NdArray FvM BcM ArrMgrM SpecTimer BcObjM.
Import ListNotations.
Local Open Scope nat_scope.
Local Open Scope string_scope.

(** what a field of the constructor means for the two ends of an axis *)
Definition stands_for {A} (x : bc_arg A) (lr : A * A) : Prop :=
  x = Arg_tuple [fst lr; snd lr] \/ x = Arg_one (fst lr) /\ snd lr = fst lr.
Definition at_end {A} (s : side) (lr : A * A) : A := match s with SL => fst lr | SR => snd lr end.
Definition ends : list (axis * side) := [(AX, SL); (AX, SR); (AY, SL); (AY, SR); (AZ, SL); (AZ, SR)].

(** the array belongs to NumPy and has a buffer *)
Definition host_array {V} (h : heap V) (v : value) : Prop := exists a, v = Array NumPy a /\ (a < List.length h)%nat.
Definition is_host (v : value) : bool := match v with Array NumPy _ => true | _ => false end.
(** names the construction puts into the manager *)
Definition taken_names (val : axis -> value * value) (slabs : bool) : list string :=
  (flat_map (fun e => if is_host (at_end (snd e) (val (fst e))) then [value_name (fst e) (snd e)] else []) ends ++
   if slabs then flat_map (fun e => map (slab_name (fst e) (snd e)) [AX; AY; AZ]) ends else [])%list.
(** the manager has exactly these new entries, in this order, under names it did not have
    before; old entries and old buffers are as they were *)
Definition grown {V} (s s' : state V) (names : list string) : Prop :=
  m_cupy (fst s') = m_cupy (fst s) /\ m_using (fst s') = m_using (fst s) /\
  (exists more, map fst more = names /\ m_arrays (fst s') = m_arrays (fst s) ++ more)%list /\
  (forall n, In n names -> dget n (m_arrays (fst s)) = None) /\
  (exists new, snd s' = snd s ++ new)%list.
(** under its name the manager has an array with the contents of the array given: the very
    same array, or a copy in a new buffer on the device *)
Definition registered {V} (s s' : state V) (name : string) (a : nat) (o : obj) : Prop :=
  dget name (m_arrays (fst s')) = Some o /\ contents o (snd s') = load a (snd s) /\
  if m_using (fst s) then exists b, o = Arr CuPy b /\ (List.length (snd s) <= b)%nat else o = Arr NumPy a.
(** a value given as a NumPy array is replaced by the manager's array; other values stay *)
Definition holds_value {V} (s0 s' : state V) (name : string) (v v' : value) : Prop :=
  (host_array (snd s0) v -> exists a o, v = Array NumPy a /\ registered s0 s' name a o /\ v' = as_value o) /\
  (is_host v = false -> v' = v).
(** the three coordinate arrays of a slab are NumPy arrays and have been registered *)
Definition slab_held {V} (s0 s' : state V) (d : dict (list obj)) (a : axis) (sd : side) : Prop :=
  exists ad, dget (dim_name a ++ pos_name sd) d = Some (map (fun k => Arr NumPy (ad k)) [AX; AY; AZ]) /\
    forall k, (ad k < List.length (snd s0))%nat -> exists o, registered s0 s' (slab_name a sd k) (ad k) o.
(** the first array under the key has this extent along axis k *)
Definition slab_extent_is {V} (extent : V -> nat -> res Z) (h : heap V) (d : dict (list obj)) (key : string) (k : nat) (n : Z) : Prop :=
  exists l a rest v, dget key d = Some (Arr l a :: rest) /\ load a h = Some v /\ extent v k = Ok n.
