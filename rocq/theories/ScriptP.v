(** Proofs about result directories. *)
From Coq Require Import ZArith List Bool String Ascii Lia Permutation Sorted Reals Lra.
From Verif Require Import Err Num HydroStateM ArrMgrM FvM OdeM SnapM SpecOde SpecSnap SnapP OdeT HydroP MeshP ScriptM SpecScript.
Import ListNotations.

(** the order of names *)
Lemma char_key_inj a b : char_key a = char_key b -> a = b.
Proof.
  assert (H : forall c, (if Nat.odd (char_key c) then ascii_of_nat (Nat.div2 (char_key c) - 32) else ascii_of_nat (Nat.div2 (char_key c))) = c).
  { intros [[] [] [] [] [] [] [] []]; vm_compute; reflexivity. }
  intro E. rewrite <- (H a), <- (H b), E. reflexivity.
Qed.
Lemma name_le_antisym x y : name_le x y = true -> name_le y x = true -> x = y.
Proof.
  revert y. induction x as [|a x IH]; intros [|b y]; cbn [name_le]; intros H1 H2; try discriminate; [reflexivity|].
  destruct (Nat.ltb_spec (char_key a) (char_key b)), (Nat.ltb_spec (char_key b) (char_key a)); try discriminate; try lia.
  rewrite (char_key_inj a b) by lia. rewrite (IH y H1 H2). reflexivity.
Qed.
Lemma name_le_total x y : name_le x y = true \/ name_le y x = true.
Proof.
  revert y. induction x as [|a x IH]; intros [|b y]; cbn [name_le]; auto.
  destruct (Nat.ltb_spec (char_key a) (char_key b)), (Nat.ltb_spec (char_key b) (char_key a)); auto.
Qed.
Lemma name_le_trans x y z : name_le x y = true -> name_le y z = true -> name_le x z = true.
Proof.
  revert y z. induction x as [|a x IH]; intros [|b y] [|c z]; cbn [name_le]; intros H1 H2; try discriminate; auto.
  destruct (Nat.ltb_spec (char_key a) (char_key b)), (Nat.ltb_spec (char_key b) (char_key a)), (Nat.ltb_spec (char_key b) (char_key c)),
    (Nat.ltb_spec (char_key c) (char_key b)), (Nat.ltb_spec (char_key a) (char_key c)), (Nat.ltb_spec (char_key c) (char_key a)); try discriminate; try lia; auto.
  eapply IH; eauto.
Qed.

(** sorting *)
Section Sort.
Context {A : Type} (le : A -> A -> bool) (tot : forall x y, le x y = true \/ le y x = true)
  (tr : forall x y z, le x y = true -> le y z = true -> le x z = true).
Local Notation R := (fun x y => le x y = true).
Lemma insert_sorted x l : StronglySorted R l -> StronglySorted R (insert_by le x l).
Proof.
  induction l as [|y l IH]; cbn; intro H; [repeat constructor|]. inversion H as [|? ? SS F]; subst. destruct (le x y) eqn:E.
  - constructor; [exact H|]. constructor; [exact E|]. eapply Forall_impl; [|exact F]. cbn. intros z Hz. exact (tr _ _ _ E Hz).
  - constructor; [apply IH, SS|]. rewrite <- (insert_perm le x l). constructor; [|exact F]. destruct (tot x y); congruence.
Qed.
Lemma sort_sorted l : StronglySorted R (sort_by le l).
Proof. induction l as [|x l IH]; cbn; [constructor|apply insert_sorted, IH]. Qed.
Lemma sorted_unique l : forall l', StronglySorted R l -> StronglySorted R l' -> Permutation l l' ->
  (forall x y, In x l -> In y l -> le x y = true -> le y x = true -> x = y) -> l = l'.
Proof.
  induction l as [|x l IH]; intros [|y l'] S1 S2 P AS.
  - reflexivity.
  - apply Permutation_nil in P. discriminate.
  - symmetry in P. apply Permutation_nil in P. discriminate.
  - inversion S1 as [|? ? S1' F1]; inversion S2 as [|? ? S2' F2]; subst.
    assert (E : x = y).
    { assert (Ix : In x (y :: l')) by (rewrite <- P; left; reflexivity). assert (Iy : In y (x :: l)) by (rewrite P; left; reflexivity).
      destruct Ix as [->|Ix]; [reflexivity|]. destruct Iy as [->|Iy]; [reflexivity|]. rewrite Forall_forall in F1, F2. apply AS; [left; reflexivity|right; exact Iy|auto|auto]. }
    subst y. f_equal. apply IH; auto; [exact (Permutation_cons_inv P)|]. intros a b Ia Ib. apply AS; right; assumption.
Qed.
End Sort.
Lemma same_key {B} (l : list (string * B)) x y : NoDup (map fst l) -> In x l -> In y l -> fst x = fst y -> x = y.
Proof.
  intros ND. induction l as [|z l IH]; intros Ix Iy E; [destruct Ix|]. inversion ND as [|? ? NI ND']; subst.
  destruct Ix as [->|Ix], Iy as [->|Iy]; auto; exfalso; apply NI.
  - rewrite E. apply in_map, Iy.
  - rewrite <- E. apply in_map, Ix.
Qed.
Definition by_name {B} (x y : string * B) : bool := name_le (fst x) (fst y).
Lemma sort_names_perm {B} (l l' : list (string * B)) : NoDup (map fst l) -> Permutation l l' -> sort_by by_name l = sort_by by_name l'.
Proof.
  intros ND P. pose proof (fun x y => name_le_total (fst x) (fst y) : by_name (B := B) x y = true \/ by_name y x = true) as tot.
  pose proof (fun x y z => name_le_trans (fst x) (fst y) (fst z) : by_name (B := B) x y = true -> by_name y z = true -> by_name x z = true) as tr.
  apply (sorted_unique by_name); [apply sort_sorted; assumption|apply sort_sorted; assumption| |].
  - rewrite <- (sort_perm by_name l), <- (sort_perm by_name l'). exact P.
  - intros x y Ix Iy H1 H2. rewrite <- (sort_perm by_name l) in Ix, Iy. apply (same_key l); auto. apply name_le_antisym; assumption.
Qed.
Theorem order_irrelevant p q kw kw' T i n : NoDup (map fst kw) -> Permutation kw kw' ->
  snapshot_dir (mkcall p q kw T i n) = snapshot_dir (mkcall p q kw' T i n).
Proof.
  intros ND P. unfold snapshot_dir, project_name. cbn [k_parent k_pref k_kwargs k_T k_integrator k_n].
  pose proof (sort_names_perm kw kw' ND P) as E. unfold by_name in E. rewrite E. reflexivity.
Qed.

(** parsing names *)
Local Open Scope string_scope.
Lemma split_at a x y r r' : free_of a x -> free_of a y -> x ++ String a r = y ++ String a r' -> x = y /\ r = r'.
Proof.
  revert y. induction x as [|b x IH]; intros [|c y]; cbn [free_of append]; intros F1 F2 E.
  - injection E as ->. auto.
  - injection E as E _. tauto.
  - injection E as E _. symmetry in E. tauto.
  - injection E as -> E. destruct (IH y) as [-> ->]; tauto.
Qed.
Lemma append_cancel a b c : a ++ b = a ++ c -> b = c.
Proof. induction a; cbn; intro E; [exact E|]. injection E as E. auto. Qed.
Lemma append_assoc a b c : (a ++ b) ++ c = a ++ (b ++ c).
Proof. induction a; cbn; congruence. Qed.
Definition tail_of (T i n : string) : string := T ++ String "_" ("integrator=" ++ i ++ String "_" ("n_snapshots=" ++ n)).
Fixpoint parts (l : list (string * string)) (X : string) : string :=
  match l with [] => "T" ++ String "=" X | (k, v) :: r => k ++ String "=" (v ++ String "_" (parts r X)) end.
Lemma parts_are l X : l <> [] -> String.concat "_" (map (fun kv => fst kv ++ "=" ++ snd kv) l) ++ "_T=" ++ X = parts l X.
Proof.
  induction l as [|[k v] l IH]; [congruence|]. intros _. destruct l as [|kv l].
  - cbn. rewrite !append_assoc. cbn. reflexivity.
  - specialize (IH ltac:(discriminate)). cbn [parts] in *. rewrite <- IH. cbn [map String.concat fst snd].
    rewrite !append_assoc. cbn [append]. rewrite ?append_assoc. reflexivity.
Qed.
Lemma tail_inj T i n T' i' n' : free_of "_" T -> free_of "_" T' -> free_of "_" i -> free_of "_" i' ->
  tail_of T i n = tail_of T' i' n' -> T = T' /\ i = i' /\ n = n'.
Proof.
  intros A B C D E. unfold tail_of in E. destruct (split_at _ _ _ _ _ A B E) as [-> E1]. apply append_cancel in E1.
  destruct (split_at _ _ _ _ _ C D E1) as [-> E2]. apply append_cancel in E2. auto.
Qed.
Definition plain_arg (kv : string * string) : Prop := free_of "=" (fst kv) /\ fst kv <> "T" /\ fst kv <> "_T" /\ free_of "_" (snd kv).
Lemma parts_inj l : forall l' X X', Forall plain_arg l -> Forall plain_arg l' -> parts l X = parts l' X' -> l = l' /\ X = X'.
Proof.
  assert (FT : free_of "=" "T") by (cbn; split; [discriminate|exact I]).
  induction l as [|[k v] l IH]; intros [|[k' v'] l'] X X' F F' E; cbn [parts] in E.
  - destruct (split_at _ _ _ _ _ FT FT E) as [_ ->]. auto.
  - inversion F' as [|? ? P' F1']; subst. destruct P' as (A & B & _). cbn [fst] in *. destruct (split_at _ _ _ _ _ FT A E) as [EQ _]. congruence.
  - inversion F as [|? ? P F1]; subst. destruct P as (A & B & _). cbn [fst] in *. destruct (split_at _ _ _ _ _ A FT E) as [EQ _]. congruence.
  - inversion F as [|? ? P F1]; inversion F' as [|? ? P' F1']; subst. destruct P as (A & _ & _ & B), P' as (A' & _ & _ & B'). cbn [fst snd] in *.
    destruct (split_at _ _ _ _ _ A A' E) as [-> E1]. destruct (split_at _ _ _ _ _ B B' E1) as [-> E2].
    destruct (IH _ _ _ F1 F1' E2) as [-> ->]. auto.
Qed.
Lemma sort_nil {A} le (l : list A) : sort_by le l = [] -> l = [].
Proof. intro H. pose proof (sort_perm le l) as P. rewrite H in P. symmetry in P. exact (Permutation_nil P). Qed.
Lemma sort_plain {A} le (P : A -> Prop) l : Forall P l -> Forall P (sort_by le l).
Proof. intro H. rewrite <- (sort_perm le l). exact H. Qed.
Lemma name_inj c c' : k_pref c = k_pref c' -> plain_kwargs (k_kwargs c) -> plain_kwargs (k_kwargs c') ->
  free_of "_" (k_T c) -> free_of "_" (k_T c') -> free_of "_" (k_integrator c) -> free_of "_" (k_integrator c') ->
  project_name c = project_name c' ->
  Permutation (k_kwargs c) (k_kwargs c') /\ k_T c = k_T c' /\ k_integrator c = k_integrator c' /\ k_n c = k_n c'.
Proof.
  intros EP [_ F] [_ F'] T1 T2 I1 I2 E. unfold project_name in E. rewrite EP in E. apply append_cancel in E. apply append_cancel in E.
  change ("_T=" ++ k_T c ++ "_integrator=" ++ k_integrator c ++ "_n_snapshots=" ++ k_n c) with ("_T=" ++ tail_of (k_T c) (k_integrator c) (k_n c)) in E.
  change ("_T=" ++ k_T c' ++ "_integrator=" ++ k_integrator c' ++ "_n_snapshots=" ++ k_n c') with ("_T=" ++ tail_of (k_T c') (k_integrator c') (k_n c')) in E.
  set (le := fun x y : string * string => name_le (fst x) (fst y)) in *.
  apply (sort_plain le plain_arg) in F. apply (sort_plain le plain_arg) in F'.
  rewrite (sort_perm le (k_kwargs c)), (sort_perm le (k_kwargs c')).
  set (l := sort_by le (k_kwargs c)) in *. set (l' := sort_by le (k_kwargs c')) in *. clearbody l l'.
  set (X := tail_of (k_T c) (k_integrator c) (k_n c)) in *. set (X' := tail_of (k_T c') (k_integrator c') (k_n c')) in *.
  assert (Q : l = l' /\ X = X').
  { assert (FT : free_of "=" "_T") by (cbn; repeat split; discriminate).
    destruct l as [|[k v] l], l' as [|[k' v'] l'].
    - cbn in E. injection E as E. auto.
    - rewrite (parts_are ((k', v') :: l')) in E by discriminate. exfalso. inversion F' as [|? ? (A & _ & B & _) _]; subst. cbn [fst] in *.
      cbn [parts map String.concat] in E. change ("" ++ "_T=" ++ X) with ("_T" ++ String "=" X) in E. destruct (split_at _ _ _ _ _ FT A E) as [EQ _]. congruence.
    - rewrite (parts_are ((k, v) :: l)) in E by discriminate. exfalso. inversion F as [|? ? (A & _ & B & _) _]; subst. cbn [fst] in *.
      cbn [parts map String.concat] in E. change ("" ++ "_T=" ++ X') with ("_T" ++ String "=" X') in E. destruct (split_at _ _ _ _ _ A FT E) as [EQ _]. congruence.
    - rewrite !parts_are in E by discriminate. apply parts_inj; assumption. }
  destruct Q as [-> Q]. split; [reflexivity|]. exact (tail_inj _ _ _ _ _ _ T1 T2 I1 I2 Q).
Qed.
Lemma path_join_inj a b b' : starts_slash b = starts_slash b' -> path_join a b = path_join a b' -> b = b'.
Proof.
  unfold path_join. intros <- E. destruct (starts_slash b); [exact E|]. destruct (String.eqb a "" || ends_slash a); apply append_cancel in E; [exact E|].
  injection E as E. exact E.
Qed.
Theorem dirs_distinct c c' : k_parent c = k_parent c' -> k_pref c = k_pref c' -> plain_kwargs (k_kwargs c) -> plain_kwargs (k_kwargs c') ->
  free_of "_" (k_T c) -> free_of "_" (k_T c') -> free_of "_" (k_integrator c) -> free_of "_" (k_integrator c') ->
  snapshot_dir c = snapshot_dir c' ->
  Permutation (k_kwargs c) (k_kwargs c') /\ k_T c = k_T c' /\ k_integrator c = k_integrator c' /\ k_n c = k_n c'.
Proof.
  intros PA PR K K' T1 T2 I1 I2 E. unfold snapshot_dir in E. rewrite PA in E. apply name_inj; auto. apply (path_join_inj (k_parent c')); [|exact E].
  unfold project_name. rewrite PR. destruct (k_pref c'); reflexivity.
Qed.
Local Close Scope string_scope.

(** the wrapper *)
Section Wrapper.
Context {D : Type} (enc : list D -> bytes) (dec : bytes -> res (list D)) (text : string -> bytes) (report : bytes).
Context {N : Num} {U S IC BC : Type} (V : vops N U).
Context (solver : IC -> BC -> res (saver D N U S)) (f : IC -> BC -> S -> car N -> car N -> U -> res (S * (car N * U)))
  (run : integrator) (helper : S -> S) (payload : S -> car N -> U -> res D).
Notation wrapper := (wrapper enc dec text report V solver f run helper payload).
Theorem ignored ic bc T i n ow c fuel attrs s s' ops b' : round_trip enc dec -> clean_dir (snapshot_dir c) s' ->
  (s (snapshot_dir c) <> None -> ow = true) ->
  wrapper ic bc T i n ow c fuel attrs s s' = (ops, Ok b') ->
  forall ic2 bc2 b2 fuel2 attrs2 s2, solver ic2 bc2 = Ok b2 ->
  wrapper ic2 bc2 T i n false c fuel2 attrs2 (execs ops s') s2 = ([], Ok (mksaver (b_ode b2) (b_shots b'))).
Proof.
  intros RT C O H ic2 bc2 b2 fuel2 attrs2 s2 E. unfold ScriptM.wrapper in *. rewrite E. destruct (solver ic bc) as [b|]; cbn [bind] in *; [|discriminate].
  destruct (script_downbeats N T n) as [db|]; cbn [bind] in *; [|discriminate]. destruct (script_integrator run i) as [j|]; cbn [bind] in *; [|discriminate].
  exact (saved_then_read enc dec text report V _ _ _ _ _ _ _ _ _ _ _ _ _ _ _ _ _ RT C H O _ _ _ _ _ _ _ _ _ _ _ _).
Qed.
End Wrapper.

(** the snapshots of the wrapper *)
Local Open Scope R_scope.
Lemma sorted_same (l : list R) : forall l', StronglySorted Rlt l -> StronglySorted Rlt l' -> (forall x, In x l <-> In x l') -> l = l'.
Proof.
  induction l as [|x l IH]; intros [|y l'] S1 S2 E; [reflexivity| | |].
  - destruct (proj2 (E y) (or_introl eq_refl)).
  - destruct (proj1 (E x) (or_introl eq_refl)).
  - inversion S1 as [|? ? S1' F1]; inversion S2 as [|? ? S2' F2]; subst. rewrite List.Forall_forall in F1, F2.
    assert (x = y). { destruct (proj1 (E x) (or_introl eq_refl)) as [->|Ix]; [reflexivity|]. destruct (proj2 (E y) (or_introl eq_refl)) as [->|Iy]; [reflexivity|].
      pose proof (F1 y Iy). pose proof (F2 x Ix). lra. }
    subst y. f_equal. apply IH; auto. intro z. split; intro I.
    + destruct (proj1 (E z) (or_intror I)) as [<-|J]; [pose proof (F1 _ I); lra|exact J].
    + destruct (proj2 (E z) (or_intror I)) as [<-|J]; [pose proof (F2 _ I); lra|exact J].
Qed.
Definition even_time (T : R) (n : Z) (i : nat) : R := IZR (Z.of_nat i) * (T / IZR (n - 1)).
Lemma sorted_even T n m : forall k, 0 < T / IZR (n - 1) -> StronglySorted Rlt (map (even_time T n) (seq k m)).
Proof.
  induction m as [|m IH]; intros k H; cbn [seq map]; constructor; [apply IH, H|].
  apply List.Forall_forall. intros x I. apply in_map_iff in I. destruct I as (j & <- & J). apply in_seq in J. unfold even_time.
  apply Rmult_lt_compat_r; [exact H|]. apply IZR_lt. lia.
Qed.
Lemma script_times {U S D} (V : vops RNum U) f i helper (payload : S -> R -> U -> res D) u0 s0 (o : @ode RNum U S D) T n m db fuel :
  proposes (N := RNum) f (fun dt => 0 < dt) -> (2 <= n)%Z -> 0 < T -> script_downbeats RNum T n = Ok db ->
  integrate RNum V (stepper_of RNum V f i) helper payload (Some T) m true db false fuel (ode_init RNum u0 s0) = Ok o ->
  o_t o = T /\ times o = map (even_time T n) (seq 0 (Z.to_nat n)).
Proof.
  intros Hf Hn HT Hd H. unfold script_downbeats in Hd. destruct (Z.ltb_spec n 0); [lia|]. destruct (Z.eqb_spec n 1); [lia|]. injection Hd as Hd.
  assert (P : 0 < T / IZR (n - 1)). { apply Rdiv_lt_0_compat; [exact HT|]. apply IZR_lt. lia. }
  assert (DB : db = map (even_time T n) (seq 0 (Z.to_nat n))).
  { rewrite <- Hd. apply map_ext_in. intros j J. pose proof (linspace_is 0 T (n - 1) (Z.of_nat j) ltac:(lia)) as E. refine (eq_trans E _).
    unfold even_time. rewrite Rminus_0_r, Rplus_0_l. reflexivity. }
  assert (IN : forall j, (j < Z.to_nat n)%nat -> In (even_time T n j) db). { intros j J. rewrite DB. apply in_map, in_seq. lia. }
  assert (EN : even_time T n (Z.to_nat (n - 1)) = T).
  { unfold even_time. rewrite Z2Nat.id by lia. field. intro Z. apply eq_IZR in Z. lia. }
  assert (BD : forall x, In x db -> 0 <= x <= T).
  { intros x I. rewrite DB in I. apply in_map_iff in I. destruct I as (j & <- & J). apply in_seq in J. split.
    - unfold even_time. apply Rmult_le_pos; [apply IZR_le; lia|lra].
    - rewrite <- EN at 2. unfold even_time. apply Rmult_le_compat_r; [lra|]. apply IZR_le. lia. }
  assert (F0 : List.Forall (fun x => 0 <= x) db). { apply List.Forall_forall. intros x I. apply BD, I. }
  destruct (fresh_run V f i helper payload 0 (Rle_refl 0) (proposes_weaken f _ _ (fun dt H => conj H (Rlt_le _ _ H)) Hf) u0 s0 o T m db fuel F0 HT H)
    as (Et & Inc & W & _). split; [exact Et|].
  apply sorted_same; [exact Inc|apply sorted_even, P|]. intro x. rewrite <- DB. rewrite W. unfold wanted. split.
  - intros [->|[->|[I _]]]; [|rewrite <- EN; apply IN; lia|exact I]. replace 0 with (even_time T n 0) by (unfold even_time; cbn; ring). apply IN. lia.
  - intro I. destruct (BD x I) as [[A|A] [B|B]]; auto.
Qed.
Theorem script_snapshots {D} (enc : list D -> bytes) dec text report {U S IC BC} (V : vops RNum U)
  (solver : IC -> BC -> res (saver D RNum U S)) f run helper payload ic bc u0 s0 T i n ow c fuel attrs s s' ops b' :
  solver ic bc = Ok (mksaver (ode_init RNum u0 s0) []) -> proposes (N := RNum) (f ic bc) (fun dt => 0 < dt) -> (2 <= n)%Z -> 0 < T ->
  (ow = true \/ s (snapshot_dir c) = None) ->
  wrapper enc dec text report V solver f run helper payload ic bc T i n ow c fuel attrs s s' = (ops, Ok b') ->
  o_t (b_ode b') = T /\ times (b_ode b') = map (fun j => IZR (Z.of_nat j) * (T / IZR (n - 1))) (seq 0 (Z.to_nat n)) /\ Z.of_nat (List.length (b_shots b')) = n.
Proof.
  intros ES Hf Hn HT O H. unfold wrapper in H. rewrite ES in H. cbn [bind] in H.
  destruct (script_downbeats RNum T n) as [db|] eqn:ED; cbn [bind] in H; [|discriminate]. destruct (script_integrator run i) as [j|]; cbn [bind] in H; [|discriminate].
  unfold integrate_saved in H.
  assert (RR : (if ow then Ok None else read_snapshots dec (snapshot_dir c) s) = Ok None).
  { destruct ow; [reflexivity|]. destruct O as [O|O]; [discriminate|]. unfold SnapM.read_snapshots. rewrite O. reflexivity. }
  rewrite RR in H. destruct (run_saver _ _ _ _ _ _ _ _ _ _ _) as [b1|] eqn:ER; [|discriminate].
  assert (b1 = b') by (destruct (write_snapshots enc text report ow (snapshot_dir c) (b_shots b1) attrs s') as [q [e|]]; [discriminate|]; injection H; auto). subst b1. clear H.
  unfold run_saver in ER. cbn [b_ode b_shots] in ER. destruct (integrate _ _ _ _ _ _ _ _ _ _ _ _) as [o|] eqn:EI; cbn [bind] in ER; [|discriminate]. injection ER as <-. cbn [b_ode b_shots].
  destruct (script_times V _ _ _ _ _ _ _ _ _ _ _ _ Hf Hn HT ED EI) as [A B]. split; [exact A|]. split; [exact B|].
  unfold new_shots. cbn [o_snaps ode_init List.length skipn app]. rewrite map_length.
  apply (f_equal (@List.length R)) in B. unfold times in B. rewrite !map_length, seq_length in B. rewrite B. lia.
Qed.

Lemma script_case (c : call) (fuel : nat) : (6 <= fuel)%nat ->
  exists ops b', wrapper (N := RNum) toy_enc toy_dec (fun _ => []) [] num_ops count_solver (fun _ _ => clock (N := RNum) (1/2)) I_rk4 (fun s => s) (fun _ _ _ => Ok 7%Z)
    0 tt 1 (-1) 3 false c fuel (euler_attrs false true true) no_files no_files = (ops, Ok b').
Proof.
  intro Hf. unfold wrapper, count_solver. cbn [bind].
  destruct (script_downbeats RNum 1 3) as [db|] eqn:ED; [|discriminate]. cbn [bind].
  change (script_integrator I_rk4 (-1)) with (@Ok integrator I_rk4). cbn [bind].
  assert (F0 : List.Forall (fun x : R => 0 <= x) db /\ List.length db = 3%nat).
  { change (script_downbeats RNum 1 3) with (@Ok (list R) (map (fun i => linspace RNum 0 1 (3 - 1) (Z.of_nat i)) (seq 0 3))) in ED. injection ED as <-. split; [|reflexivity].
    repeat (apply List.Forall_cons; [rewrite linspace_is by lia; cbn; lra|]). apply List.Forall_nil. }
  destruct F0 as [F0 L].
  destruct (run_terminates (D := Z) (num_ops (N := RNum)) (clock (N := RNum) (1/2)) I_rk4 (fun s => s) (fun _ _ _ => Ok 7%Z) (1/2) ltac:(lra)
     ltac:(intros s t t' u s' dt k [= <- <- <-]; lra) 0 tt 1 None db false fuel ltac:(lra)) as (o & E); auto; try lra.
  - split; [intros; eexists; reflexivity|]. split; [intros; eexists; reflexivity|]. split; intros; eexists; reflexivity.
  - replace (@List.length R db) with 3%nat by (symmetry; exact L). replace (1 / (1 / 2)) with 2 by field. apply Rle_trans with 6; [cbn; lra|]. apply (IZR_le 6). lia.
  - destruct (saves_ok toy_enc toy_dec (fun _ => []) [] (num_ops (N := RNum)) (stepper_of RNum num_ops (clock (N := RNum) (1/2)) I_rk4) (fun s => s) (fun _ _ _ => Ok 7%Z) 1 None true db false fuel (snapshot_dir c) false
      (euler_attrs false true true) no_files no_files (mksaver (ode_init RNum 0 tt) []) (mksaver o (map snd (o_snaps o)))) as (ops & Q);
      [apply euler_serialisable|right; reflexivity|left; reflexivity|right; reflexivity| |exists ops, (mksaver o (map snd (o_snaps o))); exact Q].
    unfold run_saver. refine (eq_trans (f_equal (fun r => bind r _) E) _). reflexivity.
Qed.
