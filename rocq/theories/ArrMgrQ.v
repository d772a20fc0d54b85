(** What to_dict lists. *)
From Coq Require Import ZArith List Bool String Lia.
From Verif Require Import Err HydroStateM ArrMgrM SpecTimer SpecNames ArrMgrP.
Import ListNotations.

Lemma keys_ddel {W} n (d : dict W) : NoDup (map fst d) -> map fst (ddel n d) = filter (fun k => negb (String.eqb n k)) (map fst d).
Proof.
  induction d as [|[k v] d IH]; intro H; [reflexivity|]. cbn [map fst] in H. inversion H as [|? ? A B]; subst. cbn [ddel map fst filter].
  destruct (String.eqb n k) eqn:E; cbn [negb].
  - apply String.eqb_eq in E. subst k. clear - A. induction (map fst d) as [|x l IH]; [reflexivity|]. cbn [filter].
    destruct (String.eqb n x) eqn:E; cbn [negb].
    + apply String.eqb_eq in E. subst x. destruct A. left. reflexivity.
    + f_equal. apply IH. intro I. apply A. right. exact I.
  - cbn [map fst]. f_equal. apply IH, B.
Qed.
Lemma act_names {V} (a : action V) l m h m' h' : NoDup (map fst (m_arrays m)) -> act a m h = Ok (m', h') ->
  NoDup (map fst (m_arrays m')) /\ listed (a :: l) (map fst (m_arrays m)) = listed l (map fst (m_arrays m')).
Proof.
  intros H E. destruct a as [n v|n|n v|n| |]; cbn [act listed] in *.
  - destruct (alloc v h) as [h0 p]. unfold am_add in E. destruct (dmem n (m_arrays m)) eqn:D; [discriminate|]. cbn [is_numpy negb] in E.
    destruct (if m_using m then _ else _) as [[o h1]|]; cbn [bind] in E; [|discriminate]. injection E as <- <-. cbn [m_arrays].
    assert (G : dget n (m_arrays m) = None) by (rewrite dmem_get in D; destruct (dget n (m_arrays m)); [discriminate|reflexivity]).
    rewrite (keys_dset _ _ _ G). split; [|reflexivity]. apply nodup_snoc; [exact H|apply dget_none_key, G].
  - unfold am_remove in E. destruct (dmem n (m_arrays m)); cbn [bind] in E; [|discriminate]. injection E as <- <-. cbn [m_arrays].
    rewrite (keys_ddel _ _ H). split; [|reflexivity]. apply NoDup_filter, H.
  - destruct (am_call n m) as [[]|]; cbn [bind] in E; try discriminate. injection E as <- <-. auto.
  - destruct (am_get_numpy n m h); cbn [bind] in E; [|discriminate]. injection E as <- <-. auto.
  - injection E as <- <-. unfold enable_cupy. destruct (m_cupy m); auto.
  - injection E as <- <-. auto.
Qed.
Theorem acts_names {V} (l : list (action V)) : forall m h m' h', NoDup (map fst (m_arrays m)) -> acts l m h = Ok (m', h') ->
  am_to_dict m' = (listed l (map fst (m_arrays m)), switched (m_cupy m) l (m_using m)) /\ NoDup (fst (am_to_dict m')).
Proof.
  intros m h m' h' H E. pose proof (acts_switch l m h m' h' E) as [_ S]. unfold am_to_dict. rewrite S. clear S. cbn [fst].
  enough (X : NoDup (map fst (m_arrays m')) /\ listed l (map fst (m_arrays m)) = map fst (m_arrays m')) by (destruct X as [X1 ->]; auto).
  revert m h H E. induction l as [|a l IH]; intros m h H E; cbn [acts] in E.
  - injection E as <- <-. auto.
  - destruct (act a m h) as [[m1 h1]|] eqn:A; cbn [bind] in E; [|discriminate]. cbn [fst snd] in E.
    destruct (act_names a l m h m1 h1 H A) as [H1 ->]. exact (IH m1 h1 H1 E).
Qed.
