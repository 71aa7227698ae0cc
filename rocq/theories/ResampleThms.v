(** Resample in the geometry of real numbers, and what rounding does to it. *)
From Coq Require Import Reals Lra Lia.
From Verif Require Import Base BaseFacts Floats FloatFacts Grid GridFacts CollisionMap TaggedMap Arith
  SdfQuery SdfField QuerySpec QueryThms ExtremaThms Resample ResampleSpec ResampleProofs.
Local Open Scope R_scope.

Lemma floor_unique r v a b : 0 < r ->
  r * IZR a <= v < r * (IZR a + 1) -> r * IZR b <= v < r * (IZR b + 1) -> a = b.
Proof.
  intros Hr (A1 & A2) (B1 & B2).
  assert (H1 : IZR a < IZR (b + 1)) by (rewrite plus_IZR; apply Rmult_lt_reg_l with r; lra).
  assert (H2 : IZR b < IZR (a + 1)) by (rewrite plus_IZR; apply Rmult_lt_reg_l with r; lra).
  apply lt_IZR in H1. apply lt_IZR in H2. lia.
Qed.

(** The index of a location, from the cell it lies in. *)
Lemma index_is r (p : pose reals) (q : rvec) a b c : 0 < r -> geometry r p ->
  r * IZR a <= vx q < r * (IZR a + 1) -> r * IZR b <= vy q < r * (IZR b + 1) ->
  r * IZR c <= vz q < r * (IZR c + 1) -> index_of p q = I a b c.
Proof.
  intros Hr G X Y W. pose proof (g_index_x r p G q). pose proof (g_index_y r p G q).
  pose proof (g_index_z r p G q). destruct (index_of p q) as [x y z]. cbn [ix iy iz] in *.
  f_equal; eapply floor_unique; eauto.
Qed.

Lemma target_is r r' p p' i : same_frame r r' p p' ->
  target p p' i = index_of p' (center_of p i).
Proof. intros F. unfold target. rewrite (sf_origin r r' p p' F). reflexivity. Qed.

Lemma target_x r r' p p' i : same_frame r r' p p' ->
  r' * IZR (ix (target p p' i)) <= r * (IZR (ix i) + 1/2) < r' * (IZR (ix (target p p' i)) + 1).
Proof.
  intros F. rewrite (target_is r r' p p' i F).
  pose proof (g_index_x r' p' (sf_new r r' p p' F) (center_of p i)) as H.
  rewrite (g_center r p (sf_old r r' p p' F) i) in H at 2 3. exact H.
Qed.
Lemma target_y r r' p p' i : same_frame r r' p p' ->
  r' * IZR (iy (target p p' i)) <= r * (IZR (iy i) + 1/2) < r' * (IZR (iy (target p p' i)) + 1).
Proof.
  intros F. rewrite (target_is r r' p p' i F).
  pose proof (g_index_y r' p' (sf_new r r' p p' F) (center_of p i)) as H.
  rewrite (g_center r p (sf_old r r' p p' F) i) in H at 2 3. exact H.
Qed.
Lemma target_z r r' p p' i : same_frame r r' p p' ->
  r' * IZR (iz (target p p' i)) <= r * (IZR (iz i) + 1/2) < r' * (IZR (iz (target p p' i)) + 1).
Proof.
  intros F. rewrite (target_is r r' p p' i F).
  pose proof (g_index_z r' p' (sf_new r r' p p' F) (center_of p i)) as H.
  rewrite (g_center r p (sf_old r r' p p' F) i) in H at 2 3. exact H.
Qed.

(** ** Finer cells *)
Lemma axis_injective r r' a b t : 0 < r' <= r ->
  r' * IZR t <= r * (IZR a + 1/2) < r' * (IZR t + 1) ->
  r' * IZR t <= r * (IZR b + 1/2) < r' * (IZR t + 1) -> a = b.
Proof.
  intros Hr A1 B1.
  assert (H1 : IZR a < IZR (b + 1)).
  { rewrite plus_IZR. apply Rmult_lt_reg_l with r; lra. }
  assert (H2 : IZR b < IZR (a + 1)).
  { rewrite plus_IZR. apply Rmult_lt_reg_l with r; lra. }
  apply lt_IZR in H1. apply lt_IZR in H2. lia.
Qed.

Lemma target_injective r r' p p' i j : same_frame r r' p p' -> 0 < r' <= r ->
  target p p' i = target p p' j -> i = j.
Proof.
  intros F Hr E.
  pose proof (target_x _ _ _ _ i F) as X. pose proof (target_x _ _ _ _ j F) as X'.
  pose proof (target_y _ _ _ _ i F) as Y. pose proof (target_y _ _ _ _ j F) as Y'.
  pose proof (target_z _ _ _ _ i F) as W. pose proof (target_z _ _ _ _ j F) as W'.
  rewrite E in X, Y, W. destruct i as [a b c], j as [a' b' c']. cbn [ix iy iz] in *.
  f_equal; eapply axis_injective; eauto.
Qed.

Lemma axis_in r c r' n a t : 0 < r -> 0 < r' -> covers r c r' n -> (0 <= a < c)%Z ->
  r' * IZR t <= r * (IZR a + 1/2) < r' * (IZR t + 1) -> (0 <= t < n)%Z.
Proof.
  intros Hr Hr' (Cv & _) Ha (T1 & T2).
  assert (A0 : 0 <= IZR a) by (apply IZR_le; lia).
  assert (A1 : IZR a + 1 <= IZR c) by (rewrite <- plus_IZR; apply IZR_le; lia).
  assert (P : 0 <= r * IZR a) by (apply Rmult_le_pos; lra).
  assert (Q : r * (IZR a + 1) <= r * IZR c) by (apply Rmult_le_compat_l; lra).
  split.
  - assert (H : IZR 0 < IZR (t + 1)) by (rewrite plus_IZR; apply Rmult_lt_reg_l with r'; lra).
    apply lt_IZR in H. lia.
  - apply lt_IZR. apply Rmult_lt_reg_l with r'; lra.
Qed.

Lemma target_in r r' p p' d d' i : same_frame r r' p p' -> 0 < r -> 0 < r' -> covered r d r' d' ->
  in_bounds d i = true -> in_bounds d' (target p p' i) = true.
Proof.
  intros F Hr Hr' (X & Y & W) B. apply in_bounds_spec in B. apply in_bounds_spec.
  destruct B as (B1 & B2 & B3).
  split; [|split].
  - eapply (axis_in r (nx d) r'); eauto using target_x.
  - eapply (axis_in r (ny d) r'); eauto using target_y.
  - eapply (axis_in r (nz d) r'); eauto using target_z.
Qed.

Lemma finer_keeps r r' p p' d' m i : same_frame r r' p p' -> 0 < r' <= r ->
  covered r (cm_dims m) r' d' -> in_bounds (cm_dims m) i = true ->
  cm_get (cm_resample p p' d' m) (index_of p' (center_of p i)) = (fst (cm_get m i), true).
Proof.
  intros F Hr C B. rewrite <- (target_is r r' p p' i F).
  assert (T : in_bounds d' (target p p' i) = true) by (apply (target_in r r' p p' (cm_dims m)); auto; lra).
  rewrite (surjective_pairing (cm_get _ _)). f_equal.
  - destruct (cm_resample_cell p p' d' m _ T) as [(k & (_ & E & _) & H)|(No & _)].
    + rewrite H. do 2 f_equal. apply (target_injective r r' p p' k i F Hr E).
    + destruct (No i B eq_refl).
  - unfold cm_get. rewrite get_eq. destruct (cm_resample_shape p p' d' m) as (D & _).
    unfold cm_dims in D. rewrite D, T. reflexivity.
Qed.

Lemma tm_finer_keeps r r' p p' d' m i : same_frame r r' p p' -> 0 < r' <= r ->
  covered r (tm_dims m) r' d' -> in_bounds (tm_dims m) i = true ->
  tm_get (tm_resample p p' d' m) (index_of p' (center_of p i)) = (fst (tm_get m i), true).
Proof.
  intros F Hr C B. rewrite <- (target_is r r' p p' i F).
  assert (T : in_bounds d' (target p p' i) = true) by (apply (target_in r r' p p' (tm_dims m)); auto; lra).
  rewrite (surjective_pairing (tm_get _ _)). f_equal.
  - destruct (tm_resample_cell p p' d' m _ T) as [(k & (_ & E & _) & H)|(No & _)].
    + rewrite H. do 2 f_equal. apply (target_injective r r' p p' k i F Hr E).
    + destruct (No i B eq_refl).
  - unfold tm_get. rewrite get_eq. destruct (tm_resample_shape p p' d' m) as (D & _).
    unfold tm_dims in D. rewrite D, T. reflexivity.
Qed.

(** ** The same resolution *)
Lemma covers_same r c n : 0 < r -> (0 <= c)%Z -> (0 <= n)%Z -> covers r c r n -> n = c.
Proof.
  intros Hr Hc Hn (A1 & A2).
  assert (H1 : (c <= n)%Z) by (apply le_IZR, Rmult_le_reg_l with r; lra).
  destruct A2 as [->|A2]; [lia|].
  assert (H2 : (n - 1 < c)%Z) by (apply lt_IZR, Rmult_lt_reg_l with r; lra). lia.
Qed.

Lemma covered_same r d d' : 0 < r -> nonnegative d -> nonnegative d' -> covered r d r d' -> d' = d.
Proof.
  intros Hr (A1 & A2 & A3) (B1 & B2 & B3) (X & Y & W). destruct d, d'; cbn in *.
  f_equal; eapply covers_same; eauto.
Qed.

Lemma same_center r p p' i : 0 < r -> same_frame r r p p' -> index_of p' (center_of p i) = i.
Proof.
  intros Hr F. rewrite <- (target_is r r p p' i F).
  pose proof (target_x _ _ _ _ i F). pose proof (target_y _ _ _ _ i F). pose proof (target_z _ _ _ _ i F).
  destruct (target p p' i) as [a b c], i as [x y z]; cbn [ix iy iz] in *.
  f_equal.
  - apply floor_unique with r (r * (IZR x + 1/2)); auto. lra.
  - apply floor_unique with r (r * (IZR y + 1/2)); auto. lra.
  - apply floor_unique with r (r * (IZR z + 1/2)); auto. lra.
Qed.

Lemma same_resolution r p p' d' m : 0 < r -> same_frame r r p p' -> wf_grid (cm_grid m) ->
  nonnegative d' -> covered r (cm_dims m) r d' ->
  cm_grid (cm_resample p p' d' m) = cm_grid m.
Proof.
  intros Hr F W N C.
  assert (E : d' = cm_dims m).
  { apply (covered_same r); auto. destruct W as (? & ? & ? & _). repeat split; auto. }
  destruct (cm_resample_shape p p' d' m) as (D & O & _).
  apply grid_ext; auto.
  - rewrite cm_resample_grid. apply writes_wf, mk_grid_wf; apply N.
  - unfold cm_dims in D at 1. rewrite D, E. reflexivity.
  - intros i B. unfold cm_dims in D at 1. rewrite D, E in B.
    assert (H : 0 < r <= r) by lra.
    pose proof (finer_keeps r r p p' d' m i F H C B) as K. rewrite (same_center r p p' i Hr F) in K.
    unfold gget. unfold cm_get in K at 1. rewrite K. reflexivity.
Qed.

Lemma tm_same_resolution r p p' d' m : 0 < r -> same_frame r r p p' -> wf_grid (tm_grid m) ->
  nonnegative d' -> covered r (tm_dims m) r d' ->
  tm_grid (tm_resample p p' d' m) = tm_grid m.
Proof.
  intros Hr F W N C.
  assert (E : d' = tm_dims m).
  { apply (covered_same r); auto. destruct W as (? & ? & ? & _). repeat split; auto. }
  destruct (tm_resample_shape p p' d' m) as (D & O & _).
  apply grid_ext; auto.
  - rewrite tm_resample_grid. apply writes_wf, mk_grid_wf; apply N.
  - unfold tm_dims in D at 1. rewrite D, E. reflexivity.
  - intros i B. unfold tm_dims in D at 1. rewrite D, E in B.
    assert (H : 0 < r <= r) by lra.
    pose proof (tm_finer_keeps r r p p' d' m i F H C B) as K. rewrite (same_center r p p' i Hr F) in K.
    unfold gget. unfold tm_get in K at 1. rewrite K. reflexivity.
Qed.

(** ** Half the resolution in numbers: cells twice as large *)
Lemma center_in r p i : 0 < r -> geometry r p -> index_of p (center_of p i) = i.
Proof.
  intros Hr G. destruct i as [a b c]. apply (index_is r); auto; rewrite (g_center r p G); cbn [vx vy vz ix iy iz];
    split; nra.
Qed.

Lemma coarse_axis r a t : 0 < r -> (2 * r) * IZR t <= r * (IZR a + 1/2) < (2 * r) * (IZR t + 1) ->
  (a = 2 * t \/ a = 2 * t + 1)%Z.
Proof.
  intros Hr (H1 & H2).
  assert (L : IZR (2 * t) < IZR (a + 1)).
  { rewrite mult_IZR, plus_IZR. apply Rmult_lt_reg_l with r; nra. }
  assert (U : IZR a < IZR (2 * t + 2)).
  { rewrite plus_IZR, mult_IZR. apply Rmult_lt_reg_l with r; nra. }
  apply lt_IZR in L. apply lt_IZR in U. lia.
Qed.

(** Of the eight cells merged into one, the last visited decides. *)
Lemma coarser_last r p p' d' m a b c : 0 < r -> same_frame r (2 * r) p p' ->
  in_bounds d' (I a b c) = true ->
  in_bounds (cm_dims m) (I (2 * a + 1) (2 * b + 1) (2 * c + 1)) = true ->
  fst (cm_get (cm_resample p p' d' m) (I a b c)) = fst (cm_get m (I (2 * a + 1) (2 * b + 1) (2 * c + 1))).
Proof.
  intros Hr F B Bl.
  assert (T : target p p' (I (2 * a + 1) (2 * b + 1) (2 * c + 1)) = I a b c).
  { rewrite (target_is r (2 * r) p p' _ F). apply (index_is (2 * r)); [lra|apply (sf_new _ _ _ _ F)| | |];
    rewrite (g_center r p (sf_old _ _ _ _ F)); cbn [vx vy vz ix iy iz]; rewrite plus_IZR, mult_IZR; split; nra. }
  destruct (cm_resample_cell p p' d' m _ B) as [(k & (_ & E & L) & H)|(No & _)].
  - rewrite H. do 2 f_equal. specialize (L _ Bl T).
    pose proof (target_x _ _ _ _ k F) as X. pose proof (target_y _ _ _ _ k F) as Y.
    pose proof (target_z _ _ _ _ k F) as W. rewrite E in X, Y, W. cbn [ix iy iz] in *.
    apply coarse_axis in X; auto. apply coarse_axis in Y; auto. apply coarse_axis in W; auto.
    destruct L as [<-|L]; auto. destruct k as [x y z]. unfold visited_before in L. cbn [ix iy iz] in *.
    exfalso. lia.
  - destruct (No _ Bl T).
Qed.

Lemma coarser_loses r p p' d' m a b c : 0 < r -> same_frame r (2 * r) p p' ->
  in_bounds (cm_dims m) (I (2 * a) (2 * b) (2 * c)) = true ->
  in_bounds (cm_dims m) (I (2 * a + 1) (2 * b + 1) (2 * c + 1)) = true ->
  gt32 (c_occ (fst (cm_get m (I (2 * a) (2 * b) (2 * c))))) half32 = true ->
  gt32 (c_occ (fst (cm_get m (I (2 * a + 1) (2 * b + 1) (2 * c + 1))))) half32 = false ->
  filled_at p m (center_of p (I (2 * a) (2 * b) (2 * c))) /\
  ~ filled_at p' (cm_resample p p' d' m) (center_of p (I (2 * a) (2 * b) (2 * c))).
Proof.
  intros Hr F B Bl Fi Fr. split.
  - unfold filled_at. rewrite (center_in r p _ Hr (sf_old _ _ _ _ F)). auto.
  - intros (B' & Fi').
    assert (E : index_of p' (center_of p (I (2 * a) (2 * b) (2 * c))) = I a b c).
    { apply (index_is (2 * r)); [lra|apply (sf_new _ _ _ _ F)| | |];
      rewrite (g_center r p (sf_old _ _ _ _ F)); cbn [vx vy vz ix iy iz]; rewrite mult_IZR; split; nra. }
    rewrite E in *. destruct (cm_resample_shape p p' d' m) as (D & _). rewrite D in B'.
    rewrite (coarser_last r p p' d' m a b c) in Fi'; auto. congruence.
Qed.

(** ** Cells half as large *)
Lemma finer_gaps r p p' d' m i : 0 < r -> same_frame r (r / 2) p p' ->
  in_bounds (cm_dims m) i = true -> gt32 (c_occ (fst (cm_get m i))) half32 = true ->
  gt32 (c_occ (goob (cm_grid m))) half32 = false ->
  let q := @V reals (r * (IZR (ix i) + 1/4)) (r * (IZR (iy i) + 1/4)) (r * (IZR (iz i) + 1/4)) in
  filled_at p m q /\ ~ filled_at p' (cm_resample p p' d' m) q.
Proof.
  intros Hr F B Fi Fo q. split.
  - unfold filled_at. replace (index_of p q) with i; auto. symmetry. destruct i as [a b c].
    apply (index_is r); auto; [apply (sf_old _ _ _ _ F)| | |]; unfold q; cbn [vx vy vz ix iy iz]; split; nra.
  - assert (E : index_of p' q = I (2 * ix i) (2 * iy i) (2 * iz i)).
    { apply (index_is (r / 2)); [lra|apply (sf_new _ _ _ _ F)| | |]; unfold q; cbn [vx vy vz];
      rewrite mult_IZR; split; nra. }
    intros (B' & Fi'). rewrite E in *. destruct (cm_resample_shape p p' d' m) as (D & _). rewrite D in B'.
    destruct (cm_resample_cell p p' d' m _ B') as [(k & (_ & T & _) & _)|(_ & H)].
    + pose proof (target_x _ _ _ _ k F) as X. rewrite T in X. cbn [ix] in X. rewrite mult_IZR in X.
      assert (L : IZR (ix k) < IZR (ix i)) by (apply Rmult_lt_reg_l with r; nra).
      assert (U : IZR (ix i) < IZR (ix k + 1)) by (rewrite plus_IZR; apply Rmult_lt_reg_l with r; nra).
      apply lt_IZR in L. apply lt_IZR in U. lia.
    + rewrite H in Fi'. congruence.
Qed.

(** ** Rounding *)

(** The number of cells of a map of [d] cells of side [r] that is built again from
    its size, for a constructor that counts with [count]. *)
Definition recounted (count : binary64 -> Z) (d : dims) (r : binary64) : dims :=
  let s := grid_size d r in
  D (count (div64 (vx s) r)) (count (div64 (vy s) r)) (count (div64 (vz s) r)).

Lemma recounted_up : recounted ceil64 (D 3 1 1) tenth = D 4 1 1.
Proof. vm_compute. reflexivity. Qed.
Lemma recounted_down : recounted trunc64 (D 29 1 1) hundredth = D 28 1 1.
Proof. vm_compute. reflexivity. Qed.

(** A concrete pair of maps in the real geometry. *)
Lemma plain_same_frame r r' : 0 < r -> 0 < r' -> same_frame r r' (plain_pose r) (plain_pose r').
Proof. intros. constructor; auto using plain_geometry. Qed.
