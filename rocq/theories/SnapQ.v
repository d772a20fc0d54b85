(** Proofs about the files of a saved run and about the snapshots of several runs. *)
From Coq Require Import ZArith List Bool String Ascii Lia.
From Verif Require Import Err Num HydroStateM ArrMgrM OdeM SnapM SpecSnap SnapP.
Import ListNotations.

(** ** a run only appends snapshots *)
Section Prefix.
Context {N : Num} {U S D : Type} (V : vops N U) (step : stepper N (U := U) (S := S)) (helper : S -> S)
  (payload : S -> car N -> U -> res D).
Definition extends (o o' : @ode N U S D) : Prop := exists l, o_snaps o' = o_snaps o ++ l.
Lemma extends_refl o : extends o o.
Proof. exists []. symmetry. apply app_nil_r. Qed.
Lemma extends_trans a b c : extends a b -> extends b c -> extends a c.
Proof. intros [l H] [l' H']. exists (l ++ l'). rewrite H', H. symmetry. apply app_assoc. Qed.
Lemma step_extends o t o' : take_step N V step helper o t = Ok o' -> extends o o'.
Proof.
  unfold take_step. destruct (step (o_aux o) (o_t o) (o_u o) t) as [[s [dt un]]|]; [cbn [bind]|discriminate].
  destruct (vassign V (o_u o) un) as [u|]; [cbn [bind]|discriminate]. intros [= <-]. exact (extends_refl o).
Qed.
Lemma shot_extends o o' : snapshot N payload o = Ok o' -> extends o o'.
Proof.
  unfold snapshot. destruct (payload (o_aux o) (o_t o) (o_u o)) as [d|]; [cbn [bind]|discriminate]. intros [= <-]. eexists. reflexivity.
Qed.
Lemma take_n_extends n : forall o o', take_n N V step helper n o = Ok o' -> extends o o'.
Proof.
  induction n as [|n IH]; intros o o'; cbn [take_n]; [intros [= <-]; apply extends_refl|].
  destruct (take_step N V step helper o None) as [o1|] eqn:E; [cbn [bind]|discriminate]. intro H.
  exact (extends_trans _ _ _ (step_extends _ _ _ E) (IH _ _ H)).
Qed.
Lemma loop_extends T lg fuel : forall o t db o', loop N V step helper payload T lg fuel o t db = Ok o' -> extends o o'.
Proof.
  induction fuel as [|fuel IH]; intros o t db o'; cbn [loop]; destruct (nltb (o_t o) T); try discriminate; try (intros [= <-]; apply extends_refl).
  destruct (take_step N V step helper o t) as [o1|] eqn:E; [cbn [bind]|discriminate]. pose proof (step_extends _ _ _ E) as X.
  destruct (_ || _); [|intro H; exact (extends_trans _ _ _ X (IH _ _ _ _ H))].
  destruct (snapshot N payload o1) as [o2|] eqn:F; [cbn [bind]|discriminate].
  pose proof (extends_trans _ _ _ X (shot_extends _ _ F)) as Y.
  destruct db as [|d ds]; [|destruct (eq_target N (o_t o2) t)]; intro H; exact (extends_trans _ _ _ Y (IH _ _ _ _ H)).
Qed.
Lemma integrate_extends T n ex db lg fuel o o' : integrate N V step helper payload T n ex db lg fuel o = Ok o' -> extends o o'.
Proof.
  unfold integrate. destruct T as [T|]; [|destruct n as [n|]].
  - unfold integrate_T. destruct (if ex then _ else _) as [td|]; [cbn [bind]|discriminate].
    destruct (snapshot N payload o) as [o1|] eqn:F; [cbn [bind]|discriminate]. intro H.
    exact (extends_trans _ _ _ (shot_extends _ _ F) (loop_extends _ _ _ _ _ _ _ H)).
  - unfold integrate_n. destruct (snapshot N payload o) as [o1|] eqn:F; [cbn [bind]|discriminate].
    destruct (take_n N V step helper (Z.to_nat n) o1) as [o2|] eqn:G; [cbn [bind]|discriminate]. intro H.
    exact (extends_trans _ _ _ (shot_extends _ _ F) (extends_trans _ _ _ (take_n_extends _ _ _ G) (shot_extends _ _ H))).
  - destruct (snapshot N payload o); discriminate.
Qed.
Lemma run_in_step T n ex db lg fuel (b b' : saver D N U S) : in_step b ->
  run_saver V step helper payload T n ex db lg fuel b = Ok b' ->
  in_step b' /\ exists l, o_snaps (b_ode b') = o_snaps (b_ode b) ++ l /\ b_shots b' = b_shots b ++ map snd l.
Proof.
  unfold run_saver, in_step. intro B. destruct (integrate N V step helper payload T n ex db lg fuel (b_ode b)) as [o|] eqn:E; [cbn [bind]|discriminate].
  intros [= <-]. cbn [b_ode b_shots]. destruct (integrate_extends _ _ _ _ _ _ _ _ E) as [l X]. unfold new_shots. rewrite X, B, map_app.
  rewrite skipn_app, map_length, PeanoNat.Nat.sub_diag. cbn [skipn].
  rewrite skipn_all2 by (rewrite map_length; auto). split; [reflexivity|]. exists l. split; reflexivity.
Qed.
Lemma session_in_step enc dec text report T n ex db lg fuel dir ow attrs s s' (b b' : saver D N U S) ops : in_step b ->
  (ow = false -> forall d, dir = Some d -> s d = None) ->
  integrate_saved enc dec text report V step helper payload T n ex db lg fuel dir ow attrs s s' b = (ops, Ok b') -> in_step b'.
Proof.
  intros B W. unfold integrate_saved. pose proof (fun b'' => run_in_step T n ex db lg fuel b b'' B) as R.
  destruct T as [T|]; [destruct dir as [d|]|]; try (intro H; apply pair_equal_spec in H as [_ H]; exact (proj1 (R _ H))).
  assert (X : (if ow then Ok None else read_snapshots dec d s) = Ok None).
  { destruct ow; [reflexivity|]. unfold read_snapshots. rewrite (W eq_refl d eq_refl). reflexivity. }
  rewrite X. destruct (run_saver V step helper payload (Some T) n ex db lg fuel b) as [b1|]; [|discriminate].
  destruct (write_snapshots enc text report ow d (b_shots b1) attrs s') as [o e]. destruct e; [discriminate|].
  intro H. apply pair_equal_spec in H as [_ H]. injection H as <-. exact (proj1 (R _ eq_refl)).
Qed.
End Prefix.

(** ** the files that write_snapshots leaves *)
Local Open Scope string_scope.
Local Open Scope list_scope.
Section Files.
Context {D : Type} (enc : list D -> bytes) (text : string -> bytes) (report : bytes).
Definition written (l : list (string * fate)) : list string :=
  map fst (filter (fun kf => match snd kf with Written => true | _ => false end) l).
Lemma items_written d l ops : write_items text d l = (ops, None) -> ops = map (Op_append d "attrs.json") (flat_map text (written l)).
Proof.
  revert ops. induction l as [|[k []] l IH]; intros ops; cbn; [intros [= <-]; reflexivity|exact (IH ops)| |discriminate].
  destruct (write_items text d l) as [o e]. intro H. apply pair_equal_spec in H as [<- ->]. rewrite (IH o eq_refl). cbn. symmetry. apply map_app.
Qed.
Lemma appends d f b : forall s fl l, s d = Some (N_dir (fl ++ [(f, l)])) -> ~ In f (map fst fl) ->
  execs (map (Op_append d f) b) s d = Some (N_dir (fl ++ [(f, l ++ b)])).
Proof.
  assert (G : forall fl (l : bytes), ~ In f (map fst fl) -> dget f (fl ++ [(f, l)]) = Some l).
  { induction fl as [|[k v] fl IH]; intros l H; cbn; [rewrite String.eqb_refl; reflexivity|]. cbn in H.
    destruct (String.eqb f k) eqn:E; [apply String.eqb_eq in E; subst; tauto|]. apply IH. tauto. }
  assert (P : forall fl (l v : bytes), ~ In f (map fst fl) -> dset f v (fl ++ [(f, l)]) = fl ++ [(f, v)]).
  { induction fl as [|[k w] fl IH]; intros l v H; cbn; [rewrite String.eqb_refl; reflexivity|]. cbn in H.
    destruct (String.eqb f k) eqn:E; [apply String.eqb_eq in E; subst; tauto|]. rewrite IH by tauto. reflexivity. }
  induction b as [|y b IH]; intros s fl l H I; cbn [map execs]; [rewrite app_nil_r; exact H|]. cbn [exec].
  rewrite (IH _ fl (l ++ [y])).
  - rewrite <- app_assoc. reflexivity.
  - rewrite (in_dir_same _ _ _ _ H), (G _ _ I), (P _ _ _ I). reflexivity.
  - exact I.
Qed.
Lemma creates d f s fl : s d = Some (N_dir fl) -> ~ In f (map fst fl) -> exec (Op_create d f) s d = Some (N_dir (fl ++ [(f, [])])).
Proof.
  intros H I. cbn [exec]. rewrite (in_dir_same _ _ _ _ H). do 2 f_equal. clear H. induction fl as [|[k w] fl IH]; cbn; [reflexivity|]. cbn in I.
  destruct (String.eqb f k) eqn:E; [apply String.eqb_eq in E; subst; tauto|]. rewrite IH by tauto. reflexivity.
Qed.
Lemma writes d f b s fl : s d = Some (N_dir fl) -> ~ In f (map fst fl) -> execs (write_file d f b) s d = Some (N_dir (fl ++ [(f, b)])).
Proof. intros H I. unfold write_file. cbn [execs]. exact (appends d f b _ fl [] (creates d f s fl H I) I). Qed.
Lemma fill_files d shots attrs s ops : fill enc text report d shots attrs = (ops, None) ->
  execs ops s d = Some (N_dir [("arrs.pkl", enc shots); ("attrs.json", flat_map text (written (sorted_fates attrs))); ("timing.txt", report)]).
Proof.
  unfold fill. destruct (write_items text d (sorted_fates attrs)) as [items e] eqn:E. intro H. apply pair_equal_spec in H as [<- ->].
  rewrite (items_written _ _ _ E). rewrite !execs_app.
  assert (A0 : execs [Op_mkdir d] s d = Some (N_dir [])) by apply put_same.
  assert (A1 := writes d "arrs.pkl" (enc shots) _ _ A0 ltac:(cbn; tauto)). cbn [app] in A1.
  assert (A2 := creates d "attrs.json" _ _ A1 ltac:(cbn; intuition discriminate)).
  assert (A3 := appends d "attrs.json" (flat_map text (written (sorted_fates attrs))) _ _ _ A2 ltac:(cbn; intuition discriminate)).
  exact (writes d "timing.txt" report _ _ A3 ltac:(cbn; intuition discriminate)).
Qed.
Lemma saved_files ow d shots attrs s ops : write_snapshots enc text report ow d shots attrs s = (ops, None) ->
  execs ops s d = Some (N_dir [("arrs.pkl", enc shots); ("attrs.json", flat_map text (written (sorted_fates attrs))); ("timing.txt", report)]).
Proof.
  unfold write_snapshots. destruct (s d) as [[|files]|], ow; try discriminate; try exact (fill_files d shots attrs s ops).
  destruct (fill enc text report d shots attrs) as [o e] eqn:E. intro H. apply pair_equal_spec in H as [<- ->]. rewrite execs_app.
  exact (fill_files d shots attrs _ o E).
Qed.
Lemma euler_names fv hf progress : written (sorted_fates (euler_attrs fv hf progress)) = saved_names hf.
Proof. destruct fv, hf, progress; vm_compute; reflexivity. Qed.
Lemma euler_files ow d shots hf progress s ops :
  write_snapshots enc text report ow d shots (euler_attrs false hf progress) s = (ops, None) ->
  execs ops s d = Some (N_dir [("arrs.pkl", enc shots); ("attrs.json", flat_map text (saved_names hf)); ("timing.txt", report)]).
Proof. intro H. rewrite <- (euler_names false hf progress). exact (saved_files _ _ _ _ _ _ H). Qed.
End Files.
