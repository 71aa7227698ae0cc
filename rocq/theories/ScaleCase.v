(** A wall of one cell, in metres and in eighths of a metre. *)
From Coq Require Import Reals Lra Psatz.
From Verif Require Import Base BaseFacts Floats Grid GridFacts Arith SdfQuery QuerySpec QueryProofs QueryReal QueryThms
  WallSpec WallThms ScaleSpec ScaleThms.
Open Scope R_scope.

(** A field in another unit. *)
Definition rescale (l : R) (f : rfield) : rfield :=
  F (A := reals) (G (f_dims f) (map (Rmult l) (gdata (f_grid f))) (l * goob (f_grid f))) (l * f_res f) (times l (f_size f)).

Lemma rescale_plain l r (f : rfield) : 0 < l -> 0 < r -> wf_grid (f_grid f) -> f_res f = r ->
  rescaled l f (rescale l f) (plain_pose r) (plain_pose (l * r)).
Proof.
  intros Hl Hr W E. constructor; try reflexivity.
  - intros i B. unfold value, get, rescale. cbn [f_grid gdims gdata goob]. change (gdims (f_grid f)) with (f_dims f). rewrite B. cbn [fst].
    apply (map_nth (Rmult l)).
  - intros v. unfold plain_pose, times. cbn [index_of vx vy vz].
    f_equal; f_equal; asR; field; lra.
  - intros i. unfold plain_pose, times. cbn [center_of vx vy vz]. apply vec_ext; cbn [vx vy vz]; asR; ring.
  - intros v lo hi. unfold plain_pose. cbn [clamp].
    unfold Rmin, Rmax. repeat destruct (Rle_dec _ _); auto; exfalso; nra.
Qed.

(** A filled and a free cell of side 1, and the same in cells of side 8. *)
Definition small_wall : rfield := F (A := reals) (G (D 2 1 1) [-1; 1] 0) 1 (@V reals 2 1 1).
Definition large_wall : rfield := rescale 8 small_wall.
Definition wall_point : rvec := @V reals (1/2) (1/2) (1/2).

Lemma small_wall_field : wall_field small_wall AlongX true 1.
Proof.
  split; [cbn; lia|]. intros i B. apply in_bounds_spec in B. destruct i as [x y z].
  unfold f_dims, small_wall in B. cbn [f_grid gdims nx ny nz ix iy iz] in B.
  assert (y = 0 /\ z = 0 /\ (x = 0 \/ x = 1))%Z as (-> & -> & [-> | ->]) by lia.
  - change (-1 = - (1 * 1)). lra.
  - change (1 = 1 * 1). lra.
Qed.

Lemma rescale_wall l (f : rfield) a low k p p' : 0 < l -> rescaled l f (rescale l f) p p' ->
  wall_field f a low k -> wall_field (rescale l f) a low k.
Proof.
  intros Hl S (Hk & Hv). split; [exact Hk|]. intros i B. change (f_dims (rescale l f)) with (f_dims f) in *.
  rewrite (sc_value _ _ _ _ _ S) by auto. rewrite (Hv i B). change (f_res (rescale l f)) with (l * f_res f).
  unfold wall_value. destruct (_ <? k)%Z; asR; ring.
Qed.

Lemma small_estimate : estimate_distance small_wall (plain_pose 1) wall_point = Ok (- (1/2), true).
Proof.
  destruct (estimate_at_center small_wall (plain_pose 1) (I 0 0 0)) as (_ & E).
  { cbn. lra. }
  { apply plain_geometry. lra. }
  { reflexivity. }
  replace wall_point with (to_world (plain_pose 1) (center_of (plain_pose 1) (I 0 0 0)))
    by (apply vec_ext; unfold wall_point; cbn; asR; lra).
  rewrite E. f_equal. f_equal. unfold centered_value, value, get. cbn. destruct (Rle_dec 0 (-1)); [lra|]. asR. lra.
Qed.

Lemma walls_rescaled : rescaled 8 small_wall large_wall (plain_pose 1) (plain_pose (8 * 1)).
Proof. apply rescale_plain; try lra; try reflexivity. unfold wf_grid; cbn; repeat split; lia. Qed.

Lemma projection_depends_on_unit :
  (exists passes w, forall fuel, (passes <= fuel)%nat ->
     project_out fuel small_wall (plain_pose 1) wall_point 0 (1/8) = Finished w) /\
  (forall fuel, project_out (S fuel) large_wall (plain_pose (8 * 1)) (times 8 wall_point) (8 * 0) (1/8) =
     Failed "Encountered flat gradient - stuck").
Proof.
  split.
  - destruct (wall_projection small_wall (plain_pose 1) AlongX true 1 wall_point 0 (1/8) (-(1/2))) as (t & N & Ht & H).
    { cbn. lra. } { apply plain_geometry. cbn. lra. } { exact small_wall_field. } { lra. } { exact small_estimate. } { lra. }
    exists N. eexists. intros fuel F. rewrite (H fuel F). cbv zeta.
    assert (B : in_bounds (f_dims small_wall) (index_of (plain_pose 1) (vadd (to_grid (plain_pose 1) wall_point) (vscale (outward AlongX true) t))) = true).
    { apply (in_volume 1); [lra|apply plain_geometry; lra|]. cbn in Ht |- *. lra. }
    rewrite B. reflexivity.
  - intros fuel. apply (wall_stuck large_wall (plain_pose (8 * 1)) AlongX true 1 _ _ _ (8 * - (1/2))).
    + cbn. lra.
    + apply plain_geometry. lra.
    + apply (rescale_wall 8 small_wall AlongX true 1 _ _ ltac:(lra) walls_rescaled small_wall_field).
    + rewrite (estimate_scaled 8 small_wall large_wall (plain_pose 1) (plain_pose (8 * 1)) ltac:(lra) walls_rescaled ltac:(cbn; lra)).
      rewrite small_estimate. reflexivity.
    + lra.
Qed.
