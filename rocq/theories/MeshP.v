(** Mesh coordinates. *)
From Coq Require Import ZArith List Bool Reals Lra Lia.
From Verif Require Import Err Num NdArray NdArrayP HydroP FvM SpecMesh.
Local Open Scope R_scope.

Lemma linspace_is lo hi n i : (1 <= n)%Z ->
  linspace RNum lo hi n i = lo + IZR i * ((hi - lo) / IZR n).
Proof.
  intro H. assert (IZR n <> 0) by (apply IZR_neq; lia).
  unfold linspace. destruct ((i =? n) && (0 <? n))%Z eqn:E; rn.
  - zb. subst. field. auto.
  - ring.
Qed.
Lemma midpoint_is b n i : (1 <= n)%Z -> midpoint RNum b n i = centre (fst b) (snd b) n i.
Proof.
  intro H. unfold midpoint. rewrite !linspace_is by auto. unfold centre. rewrite plus_IZR.
  rewrite nhalf_R. rn. lra.
Qed.

Lemma slab_coord dim pos a b n gw k : (1 <= n)%Z -> (1 <= gw)%Z ->
  midpoint RNum (slab_bounds RNum dim pos a b ((snd b - fst b) / IZR n) gw) (slab_n dim a n gw) k
  = centre (fst b) (snd b) n (slab_index dim a pos n gw k).
Proof.
  intros Hn Hg. assert (IZR n <> 0) by (apply IZR_neq; lia). assert (IZR gw <> 0) by (apply IZR_neq; lia).
  assert (IZR n + 2 * IZR gw <> 0).
  { rewrite <- mult_IZR, <- plus_IZR. apply IZR_neq; lia. }
  unfold slab_bounds, slab_n, slab_index.
  destruct (axis_eqb dim a); [destruct pos|]; rewrite midpoint_is by lia; rn; unfold centre;
    cbn [fst snd]; rewrite ?minus_IZR, ?plus_IZR, ?mult_IZR; field; auto.
Qed.
(** with no ghost cells along an axis other than the slab's own, its coordinates are the
    domain's *)
Lemma slab_coord0 dim pos a b n k : (1 <= n)%Z -> axis_eqb dim a = false ->
  midpoint RNum (slab_bounds RNum dim pos a b ((snd b - fst b) / IZR n) 0) (slab_n dim a n 0) k
  = centre (fst b) (snd b) n k.
Proof.
  intros Hn E. unfold slab_bounds, slab_n. rewrite E. replace (n + 2 * 0)%Z with n by lia.
  rewrite midpoint_is by auto. rn. unfold centre. cbn [fst snd]. f_equal. ring.
  f_equal. f_equal. ring.
Qed.

Lemma mesh_coords n bx by_ bz a i :
  (forall a, (1 <= getc a n)%Z) ->
  shp (coord (mesh RNum n bx by_ bz) a) = n /\
  at_ (coord (mesh RNum n bx by_ bz) a) 0%Z i
  = centre (fst (bnd bx by_ bz a)) (snd (bnd bx by_ bz a)) (getc a n) (getc a i).
Proof.
  intro H. destruct a; cbn [mesh coord shp at_ bnd getc]; (split; [reflexivity|]);
    apply midpoint_is; [apply (H AX)|apply (H AY)|apply (H AZ)].
Qed.

Lemma slab_coords n bx by_ bz gw dim pos a i :
  (forall a, (1 <= getc a n)%Z) -> (forall a, (0 <= getc a gw)%Z) -> (1 <= getc dim gw)%Z ->
  let m := slab_mesh RNum n bx by_ bz gw dim pos in
  getc a (shp (coord m a)) = (if axis_eqb dim a then getc a gw else getc a n + 2 * getc a gw)%Z /\
  at_ (coord m a) 0%Z i
  = centre (fst (bnd bx by_ bz a)) (snd (bnd bx by_ bz a)) (getc a n)
      (slab_index dim a pos (getc a n) (getc a gw) (getc a i)).
Proof.
  intros Hn Hg Hd m. unfold m, slab_mesh.
  assert (A : forall a b k, midpoint RNum (slab_bounds RNum dim pos a b
       ((snd b - fst b) / IZR (getc a n)) (getc a gw)) (slab_n dim a (getc a n) (getc a gw)) k
    = centre (fst b) (snd b) (getc a n) (slab_index dim a pos (getc a n) (getc a gw) k)).
  { intros a' b k. destruct (Z.eq_dec (getc a' gw) 0) as [E|E].
    - destruct (axis_eqb dim a') eqn:D.
      + apply axis_eqb_eq in D. subst. lia.
      + rewrite E. rewrite slab_coord0 by auto. unfold slab_index. rewrite D.
        f_equal. lia.
    - apply slab_coord; auto. specialize (Hg a'). lia. }
  destruct a; cbn [mesh coord shp at_ bnd getc cx cy cz]; split; try reflexivity;
    [apply (A AX)|apply (A AY)|apply (A AZ)].
Qed.

Lemma meshgen_slabs : forall n bx by_ bz gw dim pos a i,
  (forall a, (1 <= getc a n)%Z) -> (forall a, (0 <= getc a gw)%Z) -> (1 <= getc dim gw)%Z ->
  exists slabs, fv_uniform_meshgen RNum n bx by_ bz gw = MeshWithSlabs RNum (mesh RNum n bx by_ bz) slabs /\
  let m := slabs dim pos in
  getc a (shp (coord m a)) = (if axis_eqb dim a then getc a gw else getc a n + 2 * getc a gw)%Z /\
  at_ (coord m a) 0%Z i
  = centre (fst (bnd bx by_ bz a)) (snd (bnd bx by_ bz a)) (getc a n)
      (slab_index dim a pos (getc a n) (getc a gw) (getc a i)).
Proof.
  intros n bx by_ bz gw dim pos a i Hn Hg Hd.
  exists (slab_mesh RNum n bx by_ bz gw). split.
  - unfold fv_uniform_meshgen. destruct (ix_eqb gw (mkix 0 0 0)) eqn:E; auto.
    apply ix_eqb_eq in E. subst. destruct dim; cbn in Hd; lia.
  - apply slab_coords; auto.
Qed.
