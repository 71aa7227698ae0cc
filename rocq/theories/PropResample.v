(** C50 and C51: Resample. *)
From Coq Require Import Reals Lra.
From Verif Require Import Base Floats Grid CollisionMap TaggedMap Arith SdfQuery SdfField QuerySpec
  QueryThms ExtremaThms Resample ResampleSpec ResampleProofs ResampleThms.
Local Open Scope R_scope.

(** ** C50: no obstacle is lost *)

(** In any geometry and arithmetic: a cell of the result holds the value of the
    last source cell whose centre falls into it, or the out-of-bounds value. *)
Theorem C50_what_is_kept_partial : forall A (p p' : pose A) d' m j, in_bounds d' j = true ->
  (exists i, last_to (cm_dims m) (target p p') j i /\
     fst (cm_get (cm_resample p p' d' m) j) = fst (cm_get m i)) \/
  ((forall i, in_bounds (cm_dims m) i = true -> target p p' i <> j) /\
     fst (cm_get (cm_resample p p' d' m) j) = goob (cm_grid m)).
Proof. exact (fun A => cm_resample_cell). Qed.
Print Assumptions C50_what_is_kept_partial.

Theorem C50_tagged_what_is_kept_partial : forall A (p p' : pose A) d' m j, in_bounds d' j = true ->
  (exists i, last_to (tm_dims m) (target p p') j i /\
     fst (tm_get (tm_resample p p' d' m) j) = fst (tm_get m i)) \/
  ((forall i, in_bounds (tm_dims m) i = true -> target p p' i <> j) /\
     fst (tm_get (tm_resample p p' d' m) j) = goob (tm_grid m)).
Proof. exact (fun A => tm_resample_cell). Qed.
Print Assumptions C50_tagged_what_is_kept_partial.

(** Refuted for cells twice as large: a filled cell is gone whenever the last of
    the eight merged cells is not filled. *)
Theorem C50_coarser_loses_refuted : forall r p p' d' m a b c, 0 < r -> same_frame r (2 * r) p p' ->
  in_bounds (cm_dims m) (I (2 * a) (2 * b) (2 * c)) = true ->
  in_bounds (cm_dims m) (I (2 * a + 1) (2 * b + 1) (2 * c + 1)) = true ->
  gt32 (c_occ (fst (cm_get m (I (2 * a) (2 * b) (2 * c))))) half32 = true ->
  gt32 (c_occ (fst (cm_get m (I (2 * a + 1) (2 * b + 1) (2 * c + 1))))) half32 = false ->
  filled_at p m (center_of p (I (2 * a) (2 * b) (2 * c))) /\
  ~ filled_at p' (cm_resample p p' d' m) (center_of p (I (2 * a) (2 * b) (2 * c))).
Proof. exact coarser_loses. Qed.
Print Assumptions C50_coarser_loses_refuted.

(** Refuted for cells half as large: part of every filled cell is gone when the
    out-of-bounds value is not filled. *)
Theorem C50_finer_loses_refuted : forall r p p' d' m i, 0 < r -> same_frame r (r / 2) p p' ->
  in_bounds (cm_dims m) i = true -> gt32 (c_occ (fst (cm_get m i))) half32 = true ->
  gt32 (c_occ (goob (cm_grid m))) half32 = false ->
  let q := @V reals (r * (IZR (ix i) + 1/4)) (r * (IZR (iy i) + 1/4)) (r * (IZR (iz i) + 1/4)) in
  filled_at p m q /\ ~ filled_at p' (cm_resample p p' d' m) q.
Proof. exact finer_gaps. Qed.
Print Assumptions C50_finer_loses_refuted.

(** What does hold: with cells no larger than before, the centre of every source
    cell reads back that cell. *)
Theorem C50_finer_keeps_centres_partial : forall r r' p p' d' m i,
  same_frame r r' p p' -> 0 < r' <= r -> covered r (cm_dims m) r' d' ->
  in_bounds (cm_dims m) i = true ->
  cm_get (cm_resample p p' d' m) (index_of p' (center_of p i)) = (fst (cm_get m i), true).
Proof. exact finer_keeps. Qed.
Print Assumptions C50_finer_keeps_centres_partial.

Theorem C50_tagged_finer_keeps_centres_partial : forall r r' p p' d' m i,
  same_frame r r' p p' -> 0 < r' <= r -> covered r (tm_dims m) r' d' ->
  in_bounds (tm_dims m) i = true ->
  tm_get (tm_resample p p' d' m) (index_of p' (center_of p i)) = (fst (tm_get m i), true).
Proof. exact tm_finer_keeps. Qed.
Print Assumptions C50_tagged_finer_keeps_centres_partial.

(** ** C51: the same resolution changes nothing *)

(** In real arithmetic, for a constructor that rounds up.  Missing from the full
    property: rounding, which breaks it (below). *)
Theorem C51_same_resolution_partial : forall r p p' d' m,
  0 < r -> same_frame r r p p' -> wf_grid (cm_grid m) -> nonnegative d' ->
  covered r (cm_dims m) r d' ->
  cm_grid (cm_resample p p' d' m) = cm_grid m /\ cm_frame (cm_resample p p' d' m) = cm_frame m /\
  cm_components_valid (cm_resample p p' d' m) = false.
Proof.
  exact (fun r p p' d' m Hr F W N C => conj (same_resolution r p p' d' m Hr F W N C)
    (proj2 (proj2 (cm_resample_shape p p' d' m)))).
Qed.
Print Assumptions C51_same_resolution_partial.

Theorem C51_tagged_same_resolution_partial : forall r p p' d' m,
  0 < r -> same_frame r r p p' -> wf_grid (tm_grid m) -> nonnegative d' ->
  covered r (tm_dims m) r d' ->
  tm_grid (tm_resample p p' d' m) = tm_grid m /\ tm_frame (tm_resample p p' d' m) = tm_frame m /\
  tm_components_valid (tm_resample p p' d' m) = false.
Proof.
  exact (fun r p p' d' m Hr F W N C => conj (tm_same_resolution r p p' d' m Hr F W N C)
    (proj2 (proj2 (tm_resample_shape p p' d' m)))).
Qed.
Print Assumptions C51_tagged_same_resolution_partial.

(** Refuted in doubles, whether cells are counted by rounding size / resolution up
    or by truncating: 3 cells of 0.1 become 4, and 29 cells of 0.01 become 28. *)
Theorem C51_rounding_refuted : forall (p p' : pose ieee) m m',
  cm_dims m = D 3 1 1 -> cm_dims m' = D 29 1 1 ->
  cm_dims (cm_resample p p' (recounted ceil64 (cm_dims m) tenth) m) <> cm_dims m /\
  cm_dims (cm_resample p p' (recounted trunc64 (cm_dims m') hundredth) m') <> cm_dims m'.
Proof.
  intros p p' m m' E E'. split.
  - rewrite (proj1 (cm_resample_shape p p' _ m)), E, recounted_up. discriminate.
  - rewrite (proj1 (cm_resample_shape p p' _ m')), E', recounted_down. discriminate.
Qed.
Print Assumptions C51_rounding_refuted.

(** ** The hypotheses are met *)
Definition mixed_map : cmap :=
  fst (cm_set (cm_new "map" (D 2 2 2) (CC zero32 0) (CC zero32 0)) (I 0 0 0) (CC one32 7)).
Example resample_nonvacuous :
  same_frame 1 2 (plain_pose 1) (plain_pose 2) /\ same_frame 1 (1/2) (plain_pose 1) (plain_pose (1/2)) /\
  same_frame 1 1 (plain_pose 1) (plain_pose 1) /\
  covered 1 (D 2 2 2) (1/2) (D 4 4 4) /\ covered 1 (D 2 2 2) 1 (D 2 2 2) /\
  cm_dims mixed_map = D 2 2 2 /\
  gt32 (c_occ (fst (cm_get mixed_map (I (2 * 0) (2 * 0) (2 * 0))))) half32 = true /\
  gt32 (c_occ (fst (cm_get mixed_map (I (2 * 0 + 1) (2 * 0 + 1) (2 * 0 + 1))))) half32 = false /\
  gt32 (c_occ (goob (cm_grid mixed_map))) half32 = false.
Proof.
  do 3 (split; [apply plain_same_frame; lra|]).
  split; [repeat split; cbn; try (right; lra); lra|].
  split; [repeat split; cbn; try (right; lra); lra|].
  vm_compute. auto.
Qed.
