(** The array manager. *)
From Coq Require Import ZArith List Bool String Lia FunctionalExtensionality.
From Verif Require Import Err HydroStateM HsP ArrMgrM SpecTimer.
Import ListNotations.

Section P.
Context {V : Type}.
Implicit Types (h : heap V) (m : manager).

Lemma load_store a b v h : (a < List.length h)%nat -> load b (store a v h) = if Nat.eqb b a then Some v else load b h.
Proof.
  unfold load. revert a b. induction h as [|x h IH]; intros a b H; [cbn in H; lia|].
  destruct a, b; cbn [store nth_error Nat.eqb]; try reflexivity. apply IH. cbn in H. lia.
Qed.
Lemma store_length a v h : List.length (store a v h) = List.length h.
Proof. revert a. induction h as [|x h IH]; intro a; destruct a; cbn [store List.length]; congruence. Qed.
Lemma load_app a v h : (a < List.length h)%nat -> load a (h ++ [v]) = load a h.
Proof. intro H. unfold load. apply nth_error_app1, H. Qed.
Lemma load_new v h : load (List.length h) (h ++ [v]) = Some v.
Proof. unfold load. rewrite nth_error_app2, Nat.sub_diag by lia. reflexivity. Qed.
Lemma load_some a h : (a < List.length h)%nat -> exists v, load a h = Some v.
Proof. intro H. unfold load. destruct (nth_error h a) eqn:E; [eauto|]. apply nth_error_None in E. lia. Qed.
Lemma dget_del {W} k k' (d : dict W) : NoDup (map fst d) -> dget k (ddel k' d) = if String.eqb k k' then None else dget k d.
Proof.
  induction d as [|[q w] d IH]; intro ND; cbn [ddel dget]; [destruct (String.eqb k k'); reflexivity|].
  cbn [map fst] in ND. inversion ND as [|? ? NI ND']; subst.
  destruct (String.eqb_spec k' q) as [->|NE].
  - destruct (String.eqb_spec k q) as [->|]; [|reflexivity].
    destruct (dget q d) eqn:E; [|reflexivity]. exfalso. apply NI. clear -E. induction d as [|[q' w'] d IH]; [discriminate|].
    cbn [dget] in E. destruct (String.eqb_spec q q'); [left; subst; reflexivity|right; auto].
  - cbn [dget]. destruct (String.eqb_spec k q) as [->|].
    + destruct (String.eqb_spec q k'); [congruence|reflexivity].
    + apply IH, ND'.
Qed.
Lemma keys_del {W} k (d : dict W) : NoDup (map fst d) -> NoDup (map fst (ddel k d)).
Proof.
  induction d as [|[q w] d IH]; intro ND; [constructor|]. cbn [map fst] in ND. inversion ND as [|? ? NI ND']; subst.
  cbn [ddel]. destruct (String.eqb k q); [exact ND'|]. cbn [map fst]. constructor; [|apply IH, ND'].
  intro I. apply NI. clear -I. induction d as [|[q' w'] d IH]; [exact I|]. cbn [ddel] in I.
  destruct (String.eqb k q'); [right; exact I|]. destruct I as [I|I]; [left; exact I|right; auto].
Qed.
Lemma dmem_get {W} k (d : dict W) : dmem k d = match dget k d with Some _ => true | None => false end.
Proof. reflexivity. Qed.
Lemma keys_dset {W} k (w : W) d : dget k d = None -> map fst (dset k w d) = map fst d ++ [k].
Proof.
  induction d as [|[q x] d IH]; intro H; [reflexivity|]. cbn [dget dset] in *. destruct (String.eqb k q); [discriminate|].
  cbn [map fst app]. rewrite IH by exact H. reflexivity.
Qed.
Lemma dget_none_key {W} k (d : dict W) : dget k d = None -> ~ In k (map fst d).
Proof.
  induction d as [|[q x] d IH]; intro H; [intros []|]. cbn [dget map fst] in *. destruct (String.eqb_spec k q); [discriminate|].
  intros [->|I]; [congruence|exact (IH H I)].
Qed.
Lemma nodup_snoc {A} (x : A) l : NoDup l -> ~ In x l -> NoDup (l ++ [x]).
Proof.
  intros ND NI. rewrite <- (rev_involutive (l ++ [x])). apply NoDup_rev. rewrite rev_app_distr. cbn [rev app].
  constructor; [rewrite <- in_rev; exact NI|apply NoDup_rev, ND].
Qed.
Lemma table_some m h n o : tidy m h -> dget n (m_arrays m) = Some o -> exists a v, o = Arr (if m_using m then CuPy else NumPy) a /\ (a < List.length h)%nat /\ load a h = Some v /\ table m h n = Some v.
Proof.
  intros (_ & _ & T & _) G. destruct (T _ _ G) as (a & -> & L). destruct (load_some a h L) as (v & E).
  exists a, v. unfold table. rewrite G. cbn [contents]. auto.
Qed.
Lemma table_none m h n : dget n (m_arrays m) = None -> table m h n = None.
Proof. intro G. unfold table. rewrite G. reflexivity. Qed.
(** contents of the manager's arrays when buffers are added *)
Lemma table_grow m h v n : tidy m h -> table m (h ++ [v]) n = table m h n.
Proof.
  intro T. unfold table. destruct (dget n (m_arrays m)) eqn:G; [|reflexivity].
  destruct (table_some _ _ _ _ T G) as (a & w & -> & L & _). cbn [contents]. apply load_app, L.
Qed.
Lemma tidy_grow m h v : tidy m h -> tidy m (h ++ [v]).
Proof.
  intros (A & B & C & D). repeat split; auto. intros n o G. destruct (C _ _ G) as (a & E & L). exists a. split; [exact E|].
  rewrite app_length. cbn. lia.
Qed.
Lemma tidy_put m h n a : tidy m h -> (a < List.length h)%nat -> (forall n' l, dget n' (m_arrays m) <> Some (Arr l a)) -> dget n (m_arrays m) = None ->
  tidy (mkam (m_cupy m) (m_using m) (dset n (Arr (if m_using m then CuPy else NumPy) a) (m_arrays m))) h.
Proof.
  intros (A & B & C & D) L F G. split; [exact A|]. cbn [m_using m_cupy m_arrays]. split; [|split].
  - rewrite keys_dset by exact G. apply nodup_snoc; [exact B|apply dget_none_key, G].
  - intros n' o. rewrite dget_set. destruct (String.eqb n' n); [intro E; injection E as <-; eauto|apply C].
  - intros n1 n2 o. rewrite !dget_set. destruct (String.eqb_spec n1 n) as [->|], (String.eqb_spec n2 n) as [->|]; intros G1 G2; try reflexivity.
    + exfalso. injection G1 as <-. exact (F _ _ G2).
    + exfalso. injection G2 as <-. exact (F _ _ G1).
    + exact (D _ _ _ G1 G2).
Qed.
Lemma fresh_addr m h n l : tidy m h -> dget n (m_arrays m) <> Some (Arr l (List.length h)).
Proof. intros (_ & _ & C & _) G. destruct (C _ _ G) as (a & E & L). injection E as _ <-. lia. Qed.

Theorem act_table a m h : tidy m h -> steady a ->
  match act a m h with
  | Ok (m', h') => tidy m' h' /\ m_using m' = m_using m /\ exists f, on_table a (table m h) = Ok f /\ forall n, table m' h' n = f n
  | Err e => on_table a (table m h) = Err e
  end.
Proof.
  intros T ST. destruct a as [n v|n|n v|n| |]; try destruct ST; cbn [act on_table].
  - cbn [alloc]. unfold am_add. rewrite dmem_get. destruct (dget n (m_arrays m)) eqn:G.
    + destruct (table_some _ _ _ _ T G) as (a & w & _ & _ & _ & E). rewrite E. reflexivity.
    + rewrite (table_none m h n G). cbn [is_numpy negb]. destruct (m_using m) eqn:U.
      * unfold cp_asarray. rewrite (proj1 T U). cbn [negb]. rewrite load_new. cbn [alloc bind fst snd].
        set (h1 := h ++ [v]). set (h2 := h1 ++ [v]).
        assert (T1 : tidy m h1) by (apply tidy_grow, T). assert (T2 : tidy m h2) by (apply tidy_grow, T1).
        assert (TP := tidy_put m h2 n (List.length h1) T2). rewrite U in TP.
        split; [rewrite (proj1 T U) in TP; apply TP; [unfold h2; rewrite app_length; cbn; lia|intros; apply fresh_addr, T1|exact G]|].
        split; [reflexivity|]. eexists. split; [reflexivity|]. intro k. unfold table at 1. cbn [m_arrays]. rewrite dget_set.
        destruct (String.eqb k n); [cbn [contents]; apply load_new|].
        rewrite <- (table_grow m h v k T). fold h1. rewrite <- (table_grow m h1 v k T1). reflexivity.
      * cbn [bind fst snd]. set (h1 := h ++ [v]). assert (T1 : tidy m h1) by (apply tidy_grow, T).
        assert (TP := tidy_put m h1 n (List.length h) T1). rewrite U in TP.
        split; [apply TP; [unfold h1; rewrite app_length; cbn; lia|intros; apply fresh_addr, T|exact G]|].
        split; [reflexivity|]. eexists. split; [reflexivity|]. intro k. unfold table at 1. cbn [m_arrays]. rewrite dget_set.
        destruct (String.eqb k n); [cbn [contents]; apply load_new|].
        rewrite <- (table_grow m h v k T). reflexivity.
  - unfold am_remove. rewrite dmem_get. destruct (dget n (m_arrays m)) eqn:G; cbn [bind].
    + destruct (table_some _ _ _ _ T G) as (a & w & _ & _ & _ & E). rewrite E. destruct T as (A & B & C & D).
      split; [|split; [reflexivity|]].
      * split; [exact A|]. cbn [m_arrays]. split; [apply keys_del, B|]. split.
        -- intros n' o'. rewrite dget_del by exact B. destruct (String.eqb n' n); [discriminate|apply C].
        -- intros n1 n2 o'. rewrite !dget_del by exact B. destruct (String.eqb n1 n), (String.eqb n2 n); try discriminate. apply D.
      * eexists. split; [reflexivity|]. intro k. unfold table at 1. cbn [m_arrays]. rewrite dget_del by exact B. destruct (String.eqb k n); reflexivity.
    + rewrite (table_none m h n G). reflexivity.
  - unfold am_call. destruct (dget n (m_arrays m)) eqn:G; cbn [bind].
    + destruct (table_some _ _ _ _ T G) as (a & w & -> & L & _ & E). rewrite E.
      split; [|split; [reflexivity|]].
      * destruct T as (A & B & C & D). repeat split; auto. intros n' o' G'. destruct (C _ _ G') as (a' & E' & L'). exists a'. rewrite store_length. auto.
      * eexists. split; [reflexivity|]. intro k. unfold table. destruct (String.eqb_spec k n) as [->|NE].
        -- rewrite G. cbn [contents]. rewrite load_store, Nat.eqb_refl by exact L. reflexivity.
        -- destruct (dget k (m_arrays m)) eqn:GK; [|reflexivity]. destruct (table_some _ _ _ _ T GK) as (b & w' & -> & LB & _).
           cbn [contents]. rewrite load_store by exact L. destruct (Nat.eqb_spec b a); [|reflexivity].
           subst. exfalso. apply NE. destruct T as (_ & _ & _ & D). exact (D _ _ _ GK G).
    + rewrite (table_none m h n G). reflexivity.
  - unfold am_get_numpy. destruct (dget n (m_arrays m)) eqn:G; cbn [bind].
    + destruct (table_some _ _ _ _ T G) as (a & w & -> & L & W & E). rewrite E.
      destruct (m_using m) eqn:U; [unfold cp_asnumpy; rewrite (proj1 T U); cbn [negb]|unfold obj_copy]; rewrite W; cbn [alloc bind snd];
        (split; [apply tidy_grow, T|]); (split; [exact U|]); (eexists; split; [reflexivity|]); intro k; apply table_grow, T.
    + rewrite (table_none m h n G). reflexivity.
Qed.
Theorem get_numpy_copy n m h : tidy m h -> match table m h n with
  | None => am_get_numpy n m h = Err KeyError
  | Some v => exists o h', am_get_numpy n m h = Ok (o, h') /\ is_numpy o = true /\ contents o h' = Some v /\ private o m /\
      (forall a, (a < List.length h)%nat -> forall l, o <> Arr l a) /\ (forall k, table m h' k = table m h k) end.
Proof.
  intro T. unfold am_get_numpy. destruct (dget n (m_arrays m)) eqn:G; [|rewrite (table_none m h n G); reflexivity].
  destruct (table_some _ _ _ _ T G) as (a & w & -> & L & W & E). rewrite E.
  destruct (m_using m) eqn:U; [unfold cp_asnumpy; rewrite (proj1 T U); cbn [negb]|unfold obj_copy]; rewrite W; cbn [alloc];
    (eexists; eexists; split; [reflexivity|]); (split; [reflexivity|]); (split; [apply load_new|]);
    (split; [intros k l b l' GK EQ; injection EQ as _ <-; exact (fresh_addr m h k l T GK)|]);
    (split; [intros b LB l EQ; injection EQ as _ <-; lia|]); intro k; apply table_grow, T.
Qed.
(** writes through the manager never reach a private array *)
Lemma act_private a m h m' h' l p : tidy m h -> steady a -> (p < List.length h)%nat -> private (Arr l p) m -> act a m h = Ok (m', h') ->
  load p h' = load p h /\ private (Arr l p) m' /\ (p < List.length h')%nat.
Proof.
  intros T ST L P. destruct a as [n v|n|n v|n| |]; try destruct ST; cbn [act].
  - cbn [alloc]. unfold am_add. destruct (dmem n (m_arrays m)); [discriminate|]. cbn [is_numpy negb].
    destruct (m_using m) eqn:U.
    + unfold cp_asarray. rewrite (proj1 T U). cbn [negb]. rewrite load_new. cbn [alloc bind fst snd]. intro H. injection H as <- <-.
      rewrite !load_app by (try rewrite app_length; cbn; lia). split; [reflexivity|]. split; [|rewrite !app_length; cbn; lia].
      intros k l1 a1 l2 G E. cbn [m_arrays] in G. rewrite dget_set in G. destruct (String.eqb k n); [|exact (P _ _ _ _ G E)].
      injection G as <- <-. injection E as _ ->. rewrite app_length in L. cbn in L. lia.
    + cbn [bind fst snd]. intro H. injection H as <- <-. rewrite load_app by exact L. split; [reflexivity|]. split; [|rewrite !app_length; cbn; lia].
      intros k l1 a1 l2 G E. cbn [m_arrays] in G. rewrite dget_set in G. destruct (String.eqb k n); [|exact (P _ _ _ _ G E)].
      injection G as <- <-. injection E as _ ->. lia.
  - unfold am_remove. destruct (dmem n (m_arrays m)); [|discriminate]. cbn [bind]. intro H. injection H as <- <-. split; [reflexivity|]. split; [|exact L].
    intros k l1 a1 l2 G E. cbn [m_arrays] in G. rewrite dget_del in G by apply T. destruct (String.eqb k n); [discriminate|]. exact (P _ _ _ _ G E).
  - unfold am_call. destruct (dget n (m_arrays m)) eqn:G; [|discriminate]. cbn [bind].
    destruct (table_some _ _ _ _ T G) as (a & w & -> & LA & _). intro H. injection H as <- <-.
    rewrite load_store by exact LA. split; [|split; [exact P|rewrite store_length; exact L]].
    destruct (Nat.eqb_spec p a); [|reflexivity]. subst. exfalso. exact (P _ _ _ l G eq_refl).
  - unfold am_get_numpy. destruct (dget n (m_arrays m)) eqn:G; [|discriminate].
    destruct (table_some _ _ _ _ T G) as (a & w & -> & LA & W & _).
    destruct (m_using m) eqn:U; [unfold cp_asnumpy; rewrite (proj1 T U); cbn [negb]|unfold obj_copy]; rewrite W; cbn [alloc bind snd];
      intro H; injection H as <- <-; rewrite load_app by exact L; (split; [reflexivity|]); (split; [exact P|rewrite app_length; cbn; lia]).
Qed.
Theorem acts_private l p as_ : forall m h m' h', tidy m h -> Forall steady as_ -> (p < List.length h)%nat -> private (Arr l p) m -> acts as_ m h = Ok (m', h') ->
  contents (Arr l p) h' = contents (Arr l p) h.
Proof.
  induction as_ as [|a as_ IH]; intros m h m' h' T F L P; cbn [acts]; [intro H; injection H as <- <-; reflexivity|].
  inversion F as [|? ? F1 F2]; subst. destruct (act a m h) as [[m1 h1]|e] eqn:E; [|discriminate]. cbn [bind fst snd]. intro H.
  destruct (act_private a m h m1 h1 l p T F1 L P E) as (A & B & C).
  assert (T1 := act_table a m h T F1). rewrite E in T1. rewrite (IH m1 h1 m' h' (proj1 T1) F2 C B H). exact A.
Qed.
Theorem isolated n m h o h1 as_ m2 h2 : tidy m h -> am_get_numpy n m h = Ok (o, h1) -> Forall steady as_ -> acts as_ m h1 = Ok (m2, h2) ->
  contents o h1 = table m h n /\ contents o h2 = table m h n.
Proof.
  intros T G F A. assert (Q := get_numpy_copy n m h T). destruct (table m h n) as [v|] eqn:E; [|congruence].
  destruct Q as (o' & h' & G' & NP & C & P & _ & TB). rewrite G in G'. injection G' as <- <-. split; [exact C|]. rewrite <- C.
  destruct o as [l p|]; [|discriminate NP].
  assert (L : (p < List.length h1)%nat). { apply nth_error_Some. cbn [contents] in C. unfold load in C. congruence. }
  refine (acts_private l p as_ m h1 m2 h2 _ F L P A).
  assert (TT := act_table (A_get n) m h T I). cbn [act] in TT. rewrite G in TT. exact (proj1 TT).
Qed.
Theorem live n m h o : tidy m h -> am_call n m = Ok o -> forall v m' h', act (A_write n v) m h = Ok (m', h') -> am_call n m' = Ok o /\ contents o h' = Some v.
Proof.
  intros T C v m' h'. cbn [act]. rewrite C. cbn [bind]. unfold am_call in C. destruct (dget n (m_arrays m)) eqn:G; [|discriminate].
  injection C as ->. destruct (table_some _ _ _ _ T G) as (a & w & -> & L & _). intro H. injection H as <- <-.
  unfold am_call. rewrite G. split; [reflexivity|]. cbn [contents]. rewrite load_store, Nat.eqb_refl by exact L. reflexivity.
Qed.
Lemma act_keeps a m h m' h' : steady a -> act a m h = Ok (m', h') -> m_cupy m' = m_cupy m /\ m_using m' = m_using m.
Proof.
  destruct a as [n v|n|n v|n| |]; intros [] H; cbn [act] in H.
  - cbn [alloc] in H. unfold am_add in H. destruct (dmem n (m_arrays m)); [discriminate|]. cbn [is_numpy negb] in H.
    destruct (if m_using m then _ else _) as [oh|]; [cbn [bind] in H|discriminate]. apply (f_equal (fun r => match r with Ok x => fst x | Err _ => m end)) in H.
    cbn [fst] in H. subst m'. split; reflexivity.
  - unfold am_remove in H. destruct (dmem n (m_arrays m)); [cbn [bind] in H|discriminate].
    apply (f_equal (fun r => match r with Ok x => fst x | Err _ => m end)) in H. cbn [fst] in H. subst m'. split; reflexivity.
  - destruct (am_call n m) as [[l p|]|]; try discriminate. cbn [bind] in H. injection H as <- _. split; reflexivity.
  - destruct (am_get_numpy n m h) as [oh|]; [cbn [bind] in H|discriminate]. injection H as <- _. split; reflexivity.
Qed.
Theorem acts_switch l : forall m h m' h', acts l m h = Ok (m', h') -> m_cupy m' = m_cupy m /\ m_using m' = switched (m_cupy m) l (m_using m).
Proof.
  induction l as [|a l IH]; intros m h m' h'; cbn [acts]; [intro H; injection H as <- _; split; reflexivity|].
  destruct (act a m h) as [[m1 h1]|] eqn:E; [cbn [bind fst snd]|discriminate]. intro H. destruct (IH _ _ _ _ H) as [A B].
  destruct a as [n v|n|n v|n| |].
  1-4: pose proof (fun S => act_keeps _ m h m1 h1 S E) as K; destruct (K I) as [C C']; rewrite A, B, C, C'; split; reflexivity.
  - cbn [act] in E. injection E as <- _. unfold enable_cupy in *. cbn [switched]. destruct (m_cupy m) eqn:C; cbn [m_cupy m_using orb] in *; [auto|].
    rewrite C in A, B. auto.
  - cbn [act] in E. injection E as <- _. exact (conj A B).
Qed.
Theorem acts_no_cupy l : forall m h, tidy m h -> m_cupy m = false ->
  match acts l m h with
  | Ok (m', h') => tidy m' h' /\ m_using m' = false /\ exists f, all_on_table l (table m h) = Ok f /\ forall n, table m' h' n = f n
  | Err e => all_on_table l (table m h) = Err e
  end.
Proof.
  induction l as [|a l IH]; intros m h T C; cbn [acts all_on_table].
  - split; [exact T|]. split; [destruct (m_using m) eqn:U; [rewrite (proj1 T U) in C; discriminate|reflexivity]|]. exists (table m h). split; reflexivity.
  - assert (X : match act a m h with
      | Ok (m', h') => tidy m' h' /\ m_cupy m' = false /\ exists f, on_table a (table m h) = Ok f /\ forall n, table m' h' n = f n
      | Err e => on_table a (table m h) = Err e end).
    { destruct a as [n v|n|n v|n| |].
      1-4: match goal with |- context [act ?a ?x ?y] => pose proof (act_table a x y T I) as Y; pose proof (fun m' h' => act_keeps a x y m' h' I) as K; destruct (act a x y) as [[m1 h1]|]; [destruct Y as (Y1 & _ & Y2); split; [exact Y1|]; split; [rewrite (proj1 (K _ _ eq_refl)); exact C|exact Y2]|exact Y] end.
      - cbn [act on_table]. unfold enable_cupy. rewrite C. split; [exact T|]. split; [exact C|]. exists (table m h). split; reflexivity.
      - cbn [act on_table]. unfold disable_cupy.
        assert (U : m_using m = false) by (destruct (m_using m) eqn:U; [rewrite (proj1 T U) in C; discriminate|reflexivity]).
        replace (mkam (m_cupy m) false (m_arrays m)) with m by (destruct m; cbn in *; congruence).
        split; [exact T|]. split; [exact C|]. exists (table m h). split; reflexivity. }
    destruct (act a m h) as [[m1 h1]|]; cbn [bind fst snd].
    + destruct X as (T1 & C1 & f & F & G). rewrite F. cbn [bind].
      assert (Q : f = table m1 h1) by (apply FunctionalExtensionality.functional_extensionality; intro; symmetry; apply G). rewrite Q. exact (IH m1 h1 T1 C1).
    + rewrite X. reflexivity.
Qed.
Lemma empty_tidy avail : tidy (mkam avail false []) ([] : heap V).
Proof. split; [discriminate|]. split; [constructor|]. split; discriminate. Qed.
Lemma enabled_tidy : tidy (mkam true true []) ([] : heap V).
Proof. split; [reflexivity|]. split; [constructor|]. split; discriminate. Qed.
End P.

Lemma device_array_handed_out : exists m h o h', acts [A_enable; A_add "u"%string 1%nat; A_disable] (mkam true false []) [] = Ok (m, h) /\
  am_get_numpy "u" m h = Ok (o, h') /\ is_numpy o = false.
Proof. do 4 eexists. split; [reflexivity|]. split; reflexivity. Qed.
Lemma alias_handed_out : exists m h o h' m2 h2, acts [A_add "u"%string 1%nat; A_enable] (mkam true false []) [] = Ok (m, h) /\
  am_get_numpy "u" m h = Ok (o, h') /\ act (A_write "u"%string 2%nat) m h' = Ok (m2, h2) /\ contents o h' = Some 1%nat /\ contents o h2 = Some 2%nat.
Proof. do 6 eexists. split; [reflexivity|]. split; [reflexivity|]. split; [reflexivity|]. split; reflexivity. Qed.
Lemma caller_array_kept : forall V (m : manager) (h : heap V) n a m' h', m_using m = false -> am_add n (Arr NumPy a) m h = Ok (m', h') -> am_call n m' = Ok (Arr NumPy a).
Proof.
  intros V m h n a m' h' U. unfold am_add. destruct (dmem n (m_arrays m)); [discriminate|]. cbn [is_numpy negb]. rewrite U. cbn [bind fst snd].
  intro H. injection H as <- <-. unfold am_call. cbn [m_arrays]. rewrite dget_set, String.eqb_refl. reflexivity.
Qed.
