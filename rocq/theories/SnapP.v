(** Proofs about saved snapshots. *)
From Coq Require Import ZArith List Bool String Ascii Lia Permutation.
From Verif Require Import Err Num HydroStateM ArrMgrM OdeM SnapM SpecSnap.
Import ListNotations.

(** the file system *)
Lemma execs_app l l' s : execs (l ++ l') s = execs l' (execs l s).
Proof. revert s. induction l as [|o l IH]; intro s; [reflexivity|]. cbn. apply IH. Qed.
Lemma put_same d n s : fs_put d n s d = n.
Proof. unfold fs_put. rewrite String.eqb_refl. reflexivity. Qed.
Lemma put_other d n s x : x <> d -> fs_put d n s x = s x.
Proof. intro H. unfold fs_put. apply String.eqb_neq in H. rewrite H. reflexivity. Qed.
Lemma in_dir_same d g s fl : s d = Some (N_dir fl) -> in_dir d g s d = Some (N_dir (g fl)).
Proof. intro H. unfold in_dir. rewrite H. apply put_same. Qed.
Lemma in_dir_other d g s x : x <> d -> in_dir d g s x = s x.
Proof. intro H. unfold in_dir. destruct (s d) as [[]|]; auto. apply put_other, H. Qed.
Definition about (d : string) (o : fsop) : Prop :=
  match o with Op_unlink d' _ | Op_rmdir d' | Op_mkdir d' | Op_create d' _ | Op_append d' _ _ => d' = d end.
Lemma exec_other d o s x : about d o -> x <> d -> exec o s x = s x.
Proof. destruct o; cbn; intros -> H; auto using put_other, in_dir_other. Qed.
Lemma execs_other d l s x : Forall (about d) l -> x <> d -> execs l s x = s x.
Proof.
  intros F H. revert s. induction F as [|o l A _ IH]; intro s; [reflexivity|]. cbn. rewrite IH. exact (exec_other d o s x A H).
Qed.

(** dictionaries *)
Lemma dget_dset {V} k k' (v : V) m : dget k (dset k' v m) = if String.eqb k k' then Some v else dget k m.
Proof.
  induction m as [|[k0 v0] m IH]; cbn; [reflexivity|].
  destruct (String.eqb k' k0) eqn:E; cbn.
  - apply String.eqb_eq in E. subst. destruct (String.eqb k k0); reflexivity.
  - rewrite IH. destruct (String.eqb k k0) eqn:E2; [|reflexivity].
    apply String.eqb_eq in E2. subst. rewrite String.eqb_sym in E. rewrite E. reflexivity.
Qed.

(** writing a file *)
Lemma write_bytes d f b : forall s fl, s d = Some (N_dir fl) ->
  exists fl', execs (map (Op_append d f) b) s d = Some (N_dir fl') /\
   forall x, dget x fl' = if String.eqb x f then (match b with [] => dget f fl | _ => Some (match dget f fl with Some l => l | None => [] end ++ b) end) else dget x fl.
Proof.
  induction b as [|y b IH]; intros s fl H; cbn [map execs].
  - exists fl. split; [exact H|]. intro x. destruct (String.eqb x f) eqn:E; [apply String.eqb_eq in E; subst|]; reflexivity.
  - cbn [exec]. destruct (IH _ _ (in_dir_same d (fun fl0 => dset f (match dget f fl0 with Some l => l | None => [] end ++ [y]) fl0) s fl H)) as (fl' & E & P).
    exists fl'. split; [exact E|]. intro x. rewrite P. rewrite !dget_dset, String.eqb_refl. destruct (String.eqb x f); [|reflexivity].
    rewrite <- app_assoc. destruct b; reflexivity.
Qed.
Lemma write_whole d f b s fl : s d = Some (N_dir fl) ->
  exists fl', execs (write_file d f b) s d = Some (N_dir fl') /\ forall x, dget x fl' = if String.eqb x f then Some b else dget x fl.
Proof.
  intro H. unfold write_file. cbn [execs exec].
  destruct (write_bytes d f b _ _ (in_dir_same d (dset f []) s fl H)) as (fl' & E & P). exists fl'. split; [exact E|].
  intro x. rewrite P, !dget_dset, String.eqb_refl. destruct (String.eqb x f); [|reflexivity]. destruct b; reflexivity.
Qed.
Lemma append_other d f b s x fl : s d = Some (N_dir fl) -> x <> f ->
  exists fl', execs (map (Op_append d f) b) s d = Some (N_dir fl') /\ dget x fl' = dget x fl.
Proof.
  intros H N. destruct (write_bytes d f b s fl H) as (fl' & E & P). exists fl'. split; [exact E|]. rewrite P.
  apply String.eqb_neq in N. rewrite N. reflexivity.
Qed.

Local Notation arrs := "arrs.pkl"%string.
(** what is written after arrs.pkl leaves it alone *)
Definition harmless (d : string) (o : fsop) : Prop :=
  match o with Op_create d' f | Op_append d' f _ => d' = d /\ f <> arrs | _ => False end.
Lemma harmless_about d o : harmless d o -> about d o.
Proof. destruct o; cbn; tauto. Qed.
Lemma harmless_execs d l : Forall (harmless d) l -> forall s fl, s d = Some (N_dir fl) ->
  exists fl', execs l s d = Some (N_dir fl') /\ dget arrs fl' = dget arrs fl.
Proof.
  intro F. induction F as [|o l A _ IH]; intros s fl H; cbn [execs]; [eauto|].
  assert (X : exists fl1, exec o s d = Some (N_dir fl1) /\ dget arrs fl1 = dget arrs fl).
  { destruct o; cbn in A; try contradiction; destruct A as [-> A]; cbn [exec]; rewrite (in_dir_same _ _ _ _ H); eexists; (split; [reflexivity|]);
     rewrite dget_dset; destruct (String.eqb arrs f) eqn:E; try reflexivity; apply String.eqb_eq in E; congruence. }
  destruct X as (fl1 & X1 & X2). destruct (IH _ _ X1) as (fl2 & Y1 & Y2). exists fl2. rewrite Y2. auto.
Qed.
Lemma Forall_firstn {A} (P : A -> Prop) k l : Forall P l -> Forall P (firstn k l).
Proof. intro F. revert k. induction F; intros [|k]; cbn; constructor; auto. Qed.
Lemma agree_exec d o s s' : about d o -> s d = s' d -> exec o s d = exec o s' d.
Proof.
  destruct o; cbn; intros -> H; try (rewrite !put_same; reflexivity); unfold in_dir; destruct (s d) as [[]|] eqn:E; rewrite <- H; try (rewrite !put_same; reflexivity); rewrite E; exact H.
Qed.
Lemma agree_execs d l : Forall (about d) l -> forall s s', s d = s' d -> execs l s d = execs l s' d.
Proof. intro F. induction F as [|o l A _ IH]; intros s s' H; cbn [execs]; [exact H|]. apply IH, agree_exec; assumption. Qed.

Lemma insert_perm {A} le (x : A) l : Permutation (x :: l) (insert_by le x l).
Proof. induction l as [|y l IH]; cbn; [auto|]. destruct (le x y); [auto|]. rewrite perm_swap. auto. Qed.
Lemma sort_perm {A} le (l : list A) : Permutation l (sort_by le l).
Proof. induction l as [|x l IH]; cbn; [auto|]. rewrite IH at 1. apply insert_perm. Qed.

Section SnapP.
Context {D : Type} (enc : list D -> bytes) (dec : bytes -> res (list D)) (text : string -> bytes) (report : bytes).
Notation fill := (fill enc text report).
Notation write_snapshots := (write_snapshots enc text report).
Notation read_snapshots := (read_snapshots dec).

Lemma items_harmless d l : Forall (harmless d) (fst (write_items text d l)).
Proof.
  induction l as [|[k []] l IH]; cbn; [constructor|exact IH| |constructor].
  destruct (write_items text d l) as [ops e]. cbn in *. apply Forall_app. split; [|exact IH].
  apply Forall_forall. intros o H. apply in_map_iff in H. destruct H as (b & <- & _). cbn. split; [reflexivity|discriminate].
Qed.
Lemma items_raise d l : snd (write_items text d l) = if existsb (fun kf => match snd kf with Refused => true | _ => false end) l then Some TypeError else None.
Proof.
  induction l as [|[k []] l IH]; cbn; [reflexivity|exact IH| |reflexivity].
  destruct (write_items text d l) as [ops e]. exact IH.
Qed.
Lemma existsb_perm {A} f (l l' : list A) : Permutation l l' -> existsb f l = existsb f l'.
Proof. intro P. induction P; cbn; try congruence. destruct (f x), (f y); reflexivity. Qed.
Definition refused (attrs : dict value) : bool :=
  existsb (fun kv => match attr_fate (fst kv) (snd kv) with Refused => true | _ => false end) attrs.
Lemma fill_raises d shots attrs : snd (fill d shots attrs) = if refused attrs then Some TypeError else None.
Proof.
  unfold SnapM.fill. pose proof (items_raise d (sorted_fates attrs)) as E. destruct (write_items text d (sorted_fates attrs)) as [items e]. cbn [snd] in *.
  rewrite E. unfold sorted_fates, refused. rewrite <- (existsb_perm _ _ _ (sort_perm _ _)).
  clear. induction attrs as [|[k v] l IH]; cbn; [reflexivity|]. destruct (attr_fate k v); cbn; auto.
Qed.
Lemma refused_not attrs : serialisable attrs -> refused attrs = false.
Proof.
  intro H. unfold refused. apply not_true_is_false. intro E. apply existsb_exists in E. destruct E as ([k v] & I & E). cbn in E.
  specialize (H k v I). destruct (attr_fate k v); congruence.
Qed.
Lemma fill_shape d shots attrs : exists rest, fst (fill d shots attrs) = [Op_mkdir d] ++ write_file d arrs (enc shots) ++ rest /\ Forall (harmless d) rest.
Proof.
  unfold SnapM.fill. pose proof (items_harmless d (sorted_fates attrs)) as H. destruct (write_items text d (sorted_fates attrs)) as [items e]. cbn [fst] in *.
  eexists. split; [reflexivity|]. apply Forall_app. split; [constructor; [cbn; split; [reflexivity|discriminate]|constructor]|].
  apply Forall_app. split; [exact H|]. destruct e; [constructor|]. unfold write_file. constructor; [cbn; split; [reflexivity|discriminate]|].
  apply Forall_forall. intros o I. apply in_map_iff in I. destruct I as (b & <- & _). cbn. split; [reflexivity|discriminate].
Qed.
Lemma fill_about d shots attrs : Forall (about d) (fst (fill d shots attrs)).
Proof.
  destruct (fill_shape d shots attrs) as (rest & -> & H). constructor; [reflexivity|]. constructor; [reflexivity|].
  apply Forall_app. split; [|eapply Forall_impl; [exact (harmless_about d)|exact H]].
  apply Forall_forall. intros o I. apply in_map_iff in I. destruct I as (b & <- & _). reflexivity.
Qed.
Lemma rmtree_about d fl : Forall (about d) (rmtree d fl).
Proof.
  unfold rmtree. apply Forall_app. split; [|repeat constructor].
  apply Forall_forall. intros o I. apply in_map_iff in I. destruct I as (b & <- & _). reflexivity.
Qed.
Lemma write_about ow d shots attrs s : Forall (about d) (fst (write_snapshots ow d shots attrs s)).
Proof.
  unfold SnapM.write_snapshots. pose proof (fill_about d shots attrs). destruct (s d) as [[]|], ow; try constructor; auto.
  destruct (fill d shots attrs). cbn [fst] in *. apply Forall_app. split; [apply rmtree_about|assumption].
Qed.

(** crashes while filling the directory *)
Lemma fill_crash d shots attrs s k : let L := List.length (enc shots) in
  (1 <= k)%nat -> exists fl, crash k (fst (fill d shots attrs)) s d = Some (N_dir fl) /\
   ((k = 1)%nat /\ dget arrs fl = None \/ (2 <= k)%nat /\ dget arrs fl = Some (firstn (k - 2) (enc shots))).
Proof.
  intros L K. unfold crash. destruct (fill_shape d shots attrs) as (rest & -> & H).
  destruct k as [|k]; [lia|]. cbn [app firstn execs exec].
  assert (S0 : fs_put d (Some (N_dir [])) s d = Some (N_dir [])) by apply put_same.
  destruct k as [|k]; cbn [app firstn execs exec write_file].
  - exists []. split; [exact S0|]. left. auto.
  - pose proof (in_dir_same d (dset arrs []) _ _ S0) as S1. replace (S (S k) - 2)%nat with k by lia.
    rewrite firstn_app, execs_app, firstn_map. 
    destruct (write_bytes d arrs (firstn k (enc shots)) _ _ S1) as (fl & E & P).
    destruct (harmless_execs d _ (Forall_firstn _ (k - List.length (map (Op_append d arrs) (enc shots))) _ H) _ _ E) as (fl' & E' & P').
    exists fl'. split; [exact E'|]. right. split; [lia|]. rewrite P', P, String.eqb_refl, dget_dset, String.eqb_refl.
    destruct (firstn k (enc shots)); reflexivity.
Qed.
Lemma rmtree_crash d fl s k : s d = Some (N_dir fl) -> NoDup (map fst fl) -> (k <= List.length fl)%nat ->
  exists fl', crash k (rmtree d fl) s d = Some (N_dir fl') /\ (dget arrs fl' = dget arrs fl \/ dget arrs fl' = None).
Proof.
  intros H ND K. unfold crash, rmtree. rewrite firstn_app, map_length. replace (k - List.length fl)%nat with 0%nat by lia. rewrite firstn_O, app_nil_r. clear K.
  revert s fl H ND. induction k as [|k IH]; intros s fl H ND; [exists fl; cbn; auto|].
  destruct fl as [|[f b] fl]; [exists []; cbn; auto|]. cbn [map firstn execs exec fst].
  inversion ND as [|? ? NI ND']; subst.
  assert (E1 : in_dir d (ddel f) s d = Some (N_dir fl)). { rewrite (in_dir_same d _ s _ H). cbn. rewrite String.eqb_refl. reflexivity. }
  destruct (IH _ _ E1 ND') as (fl' & A & B). exists fl'. split; [exact A|]. cbn [dget]. destruct (String.eqb arrs f) eqn:EF; [|exact B].
  apply String.eqb_eq in EF. subst f. right. destruct B as [->|B]; [|exact B].
  clear - NI. induction fl as [|[k v] fl IH]; [reflexivity|]. cbn [dget map fst In] in *. destruct (String.eqb arrs k) eqn:E; [apply String.eqb_eq in E; subst; tauto|]. apply IH. tauto.
Qed.
Lemma rmtree_gone d fl s : execs (rmtree d fl) s d = None.
Proof. unfold rmtree. rewrite execs_app. cbn [execs exec]. apply put_same. Qed.

Lemma fst_snd {A B} (p : A * B) a b : p = (a, b) -> fst p = a /\ snd p = b.
Proof. intros ->. auto. Qed.

(** crash points *)
Lemma write_ops ow d shots attrs s : clean_dir d s -> (ow = true \/ s d = None) ->
  exists s0 pre, s0 d = None /\ List.length pre = removal d s /\ execs pre s = s0 /\ 
    write_snapshots ow d shots attrs s = (pre ++ fst (fill d shots attrs), snd (fill d shots attrs)) /\
    (forall fl, s d = Some (N_dir fl) -> pre = rmtree d fl) /\ (s d = None -> pre = []).
Proof.
  intros C O. unfold SnapM.write_snapshots, removal. destruct (s d) as [[b|fl]|] eqn:E.
  - destruct C as [C|(fl & C & _)]; congruence.
  - destruct O as [->|O]; [|discriminate]. destruct (fill d shots attrs) as [ops e]. exists (execs (rmtree d fl) s), (rmtree d fl).
    split; [apply rmtree_gone|]. split; [unfold rmtree; rewrite app_length, map_length; cbn; lia|]. split; [reflexivity|]. split; [reflexivity|].
    split; [intros fl' H; injection H as <-; reflexivity|discriminate].
  - exists s, []. split; [exact E|]. split; [reflexivity|]. split; [reflexivity|]. destruct (fill d shots attrs), ow; (split; [reflexivity|split; [discriminate|reflexivity]]).
Qed.
Lemma strict_prefix k (b : bytes) : (k < List.length b)%nat -> b = firstn k b ++ skipn k b /\ skipn k b <> [].
Proof.
  intro H. split; [symmetry; apply firstn_skipn|]. intro E. apply (f_equal (@List.length _)) in E. rewrite skipn_length in E. cbn in E. lia.
Qed.
Theorem crash_points ow d shots attrs s ops e : round_trip enc dec -> truncation_fails enc dec ->
  clean_dir d s -> (ow = true \/ s d = None) -> write_snapshots ow d shots attrs s = (ops, e) ->
  forall k, let r := read_snapshots d (crash k ops s) in let old := removal d s in let L := List.length (enc shots) in
  ((k < old)%nat -> r = read_snapshots d s \/ r = Err FileNotFoundError) /\
  ((k = old)%nat -> r = Ok None) /\
  ((old < k < old + 2 + L)%nat -> exists x, r = Err x) /\
  ((old + 2 + L <= k)%nat -> r = Ok (Some shots)).
Proof.
  intros RT TF C O H k. cbv zeta. destruct (write_ops ow d shots attrs s C O) as (s0 & pre & S0 & LP & EP & EW & PR & PN).
  rewrite EW in H. injection H as <- <-. unfold crash. rewrite firstn_app, execs_app, LP. split; [|split; [|split]].
  - intro K. replace (k - removal d s)%nat with 0%nat by lia. rewrite firstn_O. cbn [execs].
    destruct C as [C|(fl & C & ND)]; [unfold removal in K; rewrite C in K; lia|]. rewrite (PR fl C).
    destruct (rmtree_crash d fl s k C ND) as (fl' & A & B); [unfold removal in K; rewrite C in K; lia|].
    unfold crash in A. unfold SnapM.read_snapshots. rewrite A, C. destruct B as [->| ->]; auto.
  - intros ->. rewrite Nat.sub_diag, firstn_O. cbn [execs]. rewrite <- LP, firstn_all, EP. unfold SnapM.read_snapshots. rewrite S0. reflexivity.
  - intro K. rewrite (firstn_all2 pre) by lia. rewrite EP.
    destruct (fill_crash d shots attrs s0 (k - removal d s)) as (fl & A & B); [lia|]. unfold crash in A. unfold SnapM.read_snapshots. rewrite A.
    destruct B as [[_ ->]|[K2 ->]]; [eauto|]. destruct (strict_prefix (k - removal d s - 2) (enc shots)) as [P Q]; [lia|].
    destruct (TF shots _ _ P Q) as (x & ->). cbn. eauto.
  - intro K. rewrite (firstn_all2 pre) by lia. rewrite EP.
    destruct (fill_crash d shots attrs s0 (k - removal d s)) as (fl & A & B); [lia|]. unfold crash in A. unfold SnapM.read_snapshots. rewrite A.
    destruct B as [[K2 _]|[K2 ->]]; [lia|]. rewrite firstn_all2 by lia. rewrite RT. reflexivity.
Qed.
Lemma done_is_late ow d shots attrs s ops e : clean_dir d s -> (ow = true \/ s d = None) -> write_snapshots ow d shots attrs s = (ops, e) ->
  (removal d s + 2 + List.length (enc shots) <= List.length ops)%nat.
Proof.
  intros C O H. destruct (write_ops ow d shots attrs s C O) as (s0 & pre & S0 & LP & EP & EW & _).
  rewrite EW in H. injection H as <- <-. destruct (fill_shape d shots attrs) as (rest & -> & _). rewrite app_length, LP. unfold write_file. cbn [app List.length].
  rewrite app_length, map_length. lia.
Qed.
Lemma written ow d shots attrs s ops e : round_trip enc dec ->
  clean_dir d s -> (ow = true \/ s d = None) -> write_snapshots ow d shots attrs s = (ops, e) ->
  read_snapshots d (execs ops s) = Ok (Some shots).
Proof.
  intros RT C O H. pose proof (done_is_late ow d shots attrs s ops e C O H) as LT.
  destruct (write_ops ow d shots attrs s C O) as (s0 & pre & S0 & LP & EP & EW & PR & PN).
  rewrite EW in H. injection H as <- <-. rewrite execs_app, EP.
  destruct (fill_crash d shots attrs s0 (List.length (fst (fill d shots attrs)))) as (fl & A & B); [rewrite app_length in LT; lia|].
  unfold crash in A. rewrite firstn_all in A. unfold SnapM.read_snapshots. rewrite A. rewrite app_length in LT.
  destruct B as [[K2 _]|[K2 ->]]; [lia|]. rewrite firstn_all2 by lia. rewrite RT. reflexivity.
Qed.
Theorem replaces ow ow' d shots attrs s s' ops ops' e e' : clean_dir d s -> clean_dir d s' ->
  (ow = true \/ s d = None) -> (ow' = true \/ s' d = None) ->
  write_snapshots ow d shots attrs s = (ops, e) -> write_snapshots ow' d shots attrs s' = (ops', e') ->
  e = e' /\ execs ops s d = execs ops' s' d /\ forall x, x <> d -> execs ops s x = s x.
Proof.
  intros C C' O O' H H'. split; [|split].
  - destruct (write_ops ow d shots attrs s C O) as (s0 & pre & _ & _ & _ & EW & _). destruct (write_ops ow' d shots attrs s' C' O') as (s1 & pre' & _ & _ & _ & EW' & _). congruence.
  - destruct (write_ops ow d shots attrs s C O) as (s0 & pre & S0 & _ & E0 & EW & _). destruct (write_ops ow' d shots attrs s' C' O') as (s1 & pre' & S1 & _ & E1 & EW' & _).
    rewrite EW in H. rewrite EW' in H'. injection H as <- <-. injection H' as <- <-. rewrite !execs_app, E0, E1.
    apply (agree_execs d _ (fill_about d shots attrs)). congruence.
  - intros x N. apply (execs_other d); [|exact N]. pose proof (write_about ow d shots attrs s) as W. rewrite H in W. exact W.
Qed.
Lemma keys_ddel {V} k (m : dict V) x : In x (map fst (ddel k m)) -> In x (map fst m).
Proof. induction m as [|[k0 v0] m IH]; cbn; [auto|]. destruct (String.eqb k k0); cbn; tauto. Qed.
Lemma nodup_ddel {V} k (m : dict V) : NoDup (map fst m) -> NoDup (map fst (ddel k m)).
Proof.
  induction m as [|[k0 v0] m IH]; cbn; [auto|]. intro H. inversion H; subst. destruct (String.eqb k k0); [assumption|]. cbn. constructor; [|auto].
  intro I. apply keys_ddel in I. contradiction.
Qed.
Lemma keys_dset {V} k v (m : dict V) x : In x (map fst (dset k v m)) -> x = k \/ In x (map fst m).
Proof. induction m as [|[k0 v0] m IH]; cbn; [intros [H|[]]; auto|]. destruct (String.eqb k k0); cbn; [tauto|]. intros [H|H]; [auto|]. apply IH in H. tauto. Qed.
Lemma nodup_dset {V} k v (m : dict V) : NoDup (map fst m) -> NoDup (map fst (dset k v m)).
Proof.
  induction m as [|[k0 v0] m IH]; cbn; intro H; [constructor; [intros []|constructor]|]. inversion H; subst.
  destruct (String.eqb k k0) eqn:E; cbn; [exact H|]. constructor; [|auto]. intro I. apply keys_dset in I. destruct I as [->|I]; [|contradiction].
  rewrite String.eqb_refl in E. discriminate.
Qed.
Lemma in_dir_clean d g s : (forall fl, NoDup (map fst fl) -> NoDup (map fst (g fl))) -> clean_dir d s -> clean_dir d (in_dir d g s).
Proof.
  intros G [H|(fl & H & ND)]; [left; unfold in_dir; rewrite H; exact H|]. right. exists (g fl). split; [apply in_dir_same, H|auto].
Qed.
Lemma clean_exec d o s : about d o -> clean_dir d s -> clean_dir d (exec o s).
Proof.
  destruct o; cbn [about exec]; intros -> C.
  - apply in_dir_clean; [intro; apply nodup_ddel|exact C].
  - left. apply put_same.
  - right. exists []. split; [apply put_same|constructor].
  - apply in_dir_clean; [intro; apply nodup_dset|exact C].
  - apply in_dir_clean; [intro; apply nodup_dset|exact C].
Qed.
Lemma clean_execs d l : Forall (about d) l -> forall s, clean_dir d s -> clean_dir d (execs l s).
Proof. intro F. induction F as [|o l A _ IH]; intros s C; [exact C|]. cbn. apply IH, clean_exec; assumption. Qed.
Theorem recovery ow d shots attrs s k shots' attrs' ops e : clean_dir d s ->
  write_snapshots true d shots' attrs' s = (ops, e) ->
  let s1 := crash k (fst (write_snapshots ow d shots attrs s)) s in
  exists ops', write_snapshots true d shots' attrs' s1 = (ops', e) /\ forall x, execs ops' s1 x = execs ops s x.
Proof.
  intros C H s1. assert (C1 : clean_dir d s1) by (apply clean_execs; [apply Forall_firstn, write_about|exact C]).
  destruct (write_snapshots true d shots' attrs' s1) as [ops' e'] eqn:E. exists ops'.
  destruct (replaces true true d shots' attrs' s1 s ops' ops e' e C1 C (or_introl eq_refl) (or_introl eq_refl) E H) as (-> & A & B).
  split; [reflexivity|]. intro x. destruct (string_dec x d) as [->|N]; [exact A|].
  rewrite (B x N). pose proof (write_about true d shots' attrs' s) as W. rewrite H in W. rewrite (execs_other d ops s x W N).
  apply (execs_other d); [|exact N]. apply Forall_firstn, write_about.
Qed.
Theorem nothing_else ow d shots attrs s k x : x <> d -> crash k (fst (write_snapshots ow d shots attrs s)) s x = s x.
Proof. intro N. apply (execs_other d); [|exact N]. apply Forall_firstn, write_about. Qed.

Section Integrate.
Context {N : Num} {U S : Type} (V : vops N U).
Notation saved := (integrate_saved enc dec text report V).

Theorem saved_then_read step helper payload T n exact db lg fuel d ow attrs s s1 (b b' : saver D N U S) ops :
  round_trip enc dec -> clean_dir d s1 ->
  saved step helper payload (Some T) n exact db lg fuel (Some d) ow attrs s s1 b = (ops, Ok b') ->
  (s d <> None -> ow = true) ->
  forall step2 helper2 payload2 T2 n2 exact2 db2 lg2 fuel2 attrs2 s2 (b2 : saver D N U S),
  saved step2 helper2 payload2 (Some T2) n2 exact2 db2 lg2 fuel2 (Some d) false attrs2 (execs ops s1) s2 b2
    = ([], Ok (mksaver (b_ode b2) (b_shots b'))).
Proof.
  intros RT C H HO st2 h2 p2 T2 n2 ex2 db2 lg2 fu2 at2 s2 b2. unfold integrate_saved in H.
  assert (W : exists shots e, write_snapshots ow d shots attrs s1 = (ops, e) /\ e = None /\ b_shots b' = shots /\ (ow = true \/ s1 d = None)).
  { destruct ow.
    - destruct (run_saver _ _ _ _ _ _ _ _ _ _ _) as [b1|]; [|discriminate].
      destruct (write_snapshots true d (b_shots b1) attrs s1) as [o e] eqn:EW. destruct e; [discriminate|]. injection H as <- <-. eexists _, _. split; [exact EW|auto].
    - unfold SnapM.read_snapshots in H. destruct (s d) eqn:SD; [exfalso; discriminate (HO ltac:(discriminate))|].
      destruct (run_saver _ _ _ _ _ _ _ _ _ _ _) as [b1|]; [|discriminate].
      destruct (write_snapshots false d (b_shots b1) attrs s1) as [o e] eqn:EW. destruct e; [discriminate|]. injection H as <- <-. eexists _, _. split; [exact EW|]. split; [reflexivity|]. split; [reflexivity|].
      right. unfold SnapM.write_snapshots in EW. destruct (s1 d) as [[]|]; [discriminate|discriminate|reflexivity]. }
  destruct W as (shots & e & EW & -> & -> & O). unfold integrate_saved. rewrite (written ow d shots attrs s1 ops None RT C O EW). reflexivity.
Qed.
Theorem stuck_after step helper payload T n exact db lg fuel d attrs s s' (b : saver D N U S) e :
  read_snapshots d s = Err e ->
  saved step helper payload (Some T) n exact db lg fuel (Some d) false attrs s s' b = ([], Err e).
Proof. intro H. unfold integrate_saved. rewrite H. reflexivity. Qed.
Theorem meanwhile step helper payload T n exact db lg fuel d attrs s s' (b b' : saver D N U S) :
  s d = None -> s' d <> None -> run_saver V step helper payload (Some T) n exact db lg fuel b = Ok b' ->
  saved step helper payload (Some T) n exact db lg fuel (Some d) false attrs s s' b = ([], Err FileExistsError).
Proof.
  intros A B H. unfold integrate_saved, SnapM.read_snapshots. rewrite A, H. unfold SnapM.write_snapshots. destruct (s' d) as [[]|]; [reflexivity|reflexivity|congruence].
Qed.
Theorem count_not_saved step helper payload n exact db lg fuel dir ow attrs s s' (b : saver D N U S) :
  fst (saved step helper payload None n exact db lg fuel dir ow attrs s s' b) = [].
Proof. reflexivity. Qed.
Theorem refused_raises step helper payload T n exact db lg fuel d ow attrs s s' (b : saver D N U S) k v :
  In (k, v) attrs -> attr_fate k v = Refused -> (ow = true \/ s d = None) -> clean_dir d s' -> (ow = true \/ s' d = None) ->
  forall ops b', saved step helper payload (Some T) n exact db lg fuel (Some d) ow attrs s s' b <> (ops, Ok b').
Proof.
  intros I R O C O' ops b' H. unfold integrate_saved in H.
  assert (RR : (if ow then Ok None else read_snapshots d s) = Ok None).
  { destruct ow; [reflexivity|]. destruct O as [O|O]; [discriminate|]. unfold SnapM.read_snapshots. rewrite O. reflexivity. }
  rewrite RR in H. destruct (run_saver _ _ _ _ _ _ _ _ _ _ _) as [b1|]; [|discriminate].
  destruct (write_ops ow d (b_shots b1) attrs s' C O') as (s0 & pre & _ & _ & _ & EW & _). rewrite EW in H. rewrite fill_raises in H.
  assert (X : refused attrs = true). { unfold refused. apply existsb_exists. exists (k, v). split; [exact I|]. cbn. rewrite R. reflexivity. }
  rewrite X in H. discriminate.
Qed.
Theorem saves_ok step helper payload T n exact db lg fuel d ow attrs s s' (b b' : saver D N U S) :
  serialisable attrs -> (ow = true \/ s d = None) -> clean_dir d s' -> (ow = true \/ s' d = None) ->
  run_saver V step helper payload (Some T) n exact db lg fuel b = Ok b' ->
  exists ops, saved step helper payload (Some T) n exact db lg fuel (Some d) ow attrs s s' b = (ops, Ok b').
Proof.
  intros A O C O' H. unfold integrate_saved.
  assert (RR : (if ow then Ok None else read_snapshots d s) = Ok None).
  { destruct ow; [reflexivity|]. destruct O as [O|O]; [discriminate|]. unfold SnapM.read_snapshots. rewrite O. reflexivity. }
  rewrite RR, H. destruct (write_ops ow d (b_shots b') attrs s' C O') as (s0 & pre & _ & _ & _ & EW & _). rewrite EW, fill_raises, (refused_not _ A). eauto.
Qed.
End Integrate.
End SnapP.

Lemma refused_serialisable attrs : refused attrs = false -> serialisable attrs.
Proof.
  intros H k v I E. apply not_true_iff_false in H. apply H. unfold refused. apply existsb_exists. exists (k, v). split; [exact I|]. cbn [fst snd]. rewrite E. reflexivity.
Qed.
Lemma euler_serialisable helper progress : serialisable (euler_attrs false helper progress).
Proof. apply refused_serialisable. destruct helper, progress; reflexivity. Qed.
Lemma euler_fv_refused helper progress : exists k v, In (k, v) (euler_attrs true helper progress) /\ attr_fate k v = Refused.
Proof. exists "u0"%string, ob. split; [|reflexivity]. destruct helper, progress; cbn; tauto. Qed.
Lemma toy_round_trip : round_trip toy_enc toy_dec.
Proof. intro l. unfold toy_enc, toy_dec. rewrite Z.eqb_refl. reflexivity. Qed.
Lemma toy_truncation : truncation_fails toy_enc toy_dec.
Proof.
  intros l b b' H N. unfold toy_enc in H. destruct b as [|n b]; [cbn; eauto|]. injection H as <- ->. cbn. rewrite app_length.
  destruct (Z.eqb_spec (Z.of_nat (List.length b + List.length b')) (Z.of_nat (List.length b))) as [E|E]; [|eauto].
  destruct b'; [congruence|]. cbn in E. lia.
Qed.
