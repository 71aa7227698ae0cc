(** C60 in the field of a flat wall, and C107: the queries in another unit of
    length.  The queries are in real arithmetic. *)
From Coq Require Import Reals Lra Lia.
From Flocq Require Import Core.Core.
From Verif Require Import Base Floats Grid GridFacts DistSpec CollisionMap SdfGen SdfSpec SdfThms Arith SdfQuery QuerySpec QueryThms
  DoubleSpec WallSpec WallThms WallExtract ScaleSpec ScaleThms ScaleCase.
Open Scope R_scope.

(** C60, where it holds.  Full statement: the projection ends on every field;
    refuted by C60_projection_terminates_refuted.  Proved: in the field of a map
    whose filled cells are the first layers from any of the six faces, with cells
    of side below 4, from every point of the grid that is not yet far enough, it
    ends; the point goes straight out of the wall, and ends at a distance above the
    one asked for by at most a ten-thousandth of a step, or, if that is outside the
    grid, the projection throws. *)
Theorem C60_wall_partial : forall (f : rfield) p a low k loc md mult e,
  0 < f_res f < 4 -> geometry (f_res f) p -> wall_field f a low k -> 0 < mult ->
  estimate_distance f p loc = Ok (e, true) -> e <= md ->
  exists t passes, md < e + t <= md + f_res f * mult / 10000 /\
    forall fuel, (passes <= fuel)%nat ->
      project_out fuel f p loc md mult =
      let target := vadd (to_grid p loc) (vscale (outward a low) t) in
      if in_bounds (f_dims f) (index_of p target)
      then Finished (to_world p target) else Failed "Index out of bounds".
Proof. exact wall_projection. Qed.
Print Assumptions C60_wall_partial.

(** Such fields are what the extraction makes of such maps: if the multiples of the
    cell size up to the size of the grid are floats, as for every power of two, the
    stored values are exactly those of [wall_field]. *)
Theorem C60_extracted_wall : forall a low d r oob frame is_filled k s x,
  size_ok d -> usable_resolution r ->
  answers d is_filled (fun c => (depth a low d c <? k)%Z) -> (0 < k < cells_along a d)%Z ->
  stored_exactly r (cells_along a d) ->
  extract_sdf d r is_filled oob frame = Ok (s, x) ->
  wall_field (real_field s) a low k /\ f_dims (real_field s) = d /\ f_res (real_field s) = real64 r.
Proof. exact wall_extracted. Qed.
Print Assumptions C60_extracted_wall.

Theorem C60_extracted_projection_partial : forall a low d r oob frame is_filled k s x p loc md mult e,
  size_ok d -> usable_resolution r -> real64 r < 4 -> stored_exactly r (cells_along a d) ->
  answers d is_filled (fun c => (depth a low d c <? k)%Z) -> (0 < k < cells_along a d)%Z ->
  extract_sdf d r is_filled oob frame = Ok (s, x) -> geometry (real64 r) p -> 0 < mult ->
  estimate_distance (real_field s) p loc = Ok (e, true) -> e <= md ->
  exists t passes, md < e + t <= md + real64 r * mult / 10000 /\
    forall fuel, (passes <= fuel)%nat ->
      project_out fuel (real_field s) p loc md mult =
      let target := vadd (to_grid p loc) (vscale (outward a low) t) in
      if in_bounds d (index_of p target)
      then Finished (to_world p target) else Failed "Index out of bounds".
Proof. exact extracted_projection. Qed.
Print Assumptions C60_extracted_projection_partial.

Theorem C60_powers_of_two : forall r e n, (-149 <= e <= 100)%Z -> (n <= 2 ^ 24)%Z ->
  real64 r = bpow radix2 e -> stored_exactly r n.
Proof. exact power_stored. Qed.
Print Assumptions C60_powers_of_two.

(** C107: describing the grid, its pose, the field and the question in a unit [l]
    times smaller leaves gradients as they are ... *)
Theorem C107_gradients : forall l (f f' : rfield) p p',
  0 < l -> rescaled l f f' p p' ->
  (forall i edges, gradient f' p' i edges = gradient f p i edges) /\
  (forall v edges, gradient_at f' p' (times l v) edges = gradient_at f p v edges).
Proof. intros l f f' p p' Hl S. split; [exact (gradient_scaled l f f' p p' Hl S)|exact (gradient_at_scaled l f f' p p' Hl S)]. Qed.
Print Assumptions C107_gradients.

Theorem C107_smooth_gradient : forall l (f f' : rfield) p p',
  0 < l -> rescaled l f f' p p' -> f_res f <> 0 ->
  forall v w, w <> 0 -> smooth_gradient f' p' (times l v) (l * w) = smooth_gradient f p v w.
Proof. exact smooth_scaled. Qed.
Print Assumptions C107_smooth_gradient.

(** ... multiplies estimated distances and the distance to the boundary by [l] ... *)
Theorem C107_estimate : forall l (f f' : rfield) p p',
  0 < l -> rescaled l f f' p p' -> f_res f <> 0 ->
  forall v, estimate_distance f' p' (times l v) = scaled_estimate l (estimate_distance f p v).
Proof. exact estimate_scaled. Qed.
Print Assumptions C107_estimate.

Theorem C107_boundary : forall l (f f' : rfield) p p',
  0 < l -> rescaled l f f' p p' ->
  forall v, distance_to_boundary f' p' (times l v) =
    (l * fst (distance_to_boundary f p v), snd (distance_to_boundary f p v)).
Proof. exact boundary_scaled. Qed.
Print Assumptions C107_boundary.

(** ... and moves points projected into the grid to the same place. *)
Theorem C107_into_volume : forall l (f f' : rfield) p p',
  0 < l -> rescaled l f f' p p' ->
  forall v md, project_into_valid_volume f' p' (times l v) (l * md) = times l (project_into_valid_volume f p v md).
Proof. exact into_scaled. Qed.
Print Assumptions C107_into_volume.

(** The projection out of collision does the same after any number of passes,
    unless it reports a flat gradient in one of the two units ... *)
Theorem C107_projection_partial : forall l (f f' : rfield) p p',
  0 < l -> rescaled l f f' p p' -> f_res f <> 0 ->
  forall md mult fuel v,
  same_outcome l (project_out fuel f p v md mult) (project_out fuel f' p' (times l v) (l * md) mult) \/
  project_out fuel f p v md mult = Failed "Encountered flat gradient - stuck" \/
  project_out fuel f' p' (times l v) (l * md) mult = Failed "Encountered flat gradient - stuck".
Proof. exact out_scaled. Qed.
Print Assumptions C107_projection_partial.

(** ... and that depends on the unit: out of the same wall it succeeds with cells of
    side 1 and fails with cells of side 8. *)
Theorem C107_projection_refuted : exists (f f' : rfield) p p' v md mult,
  rescaled 8 f f' p p' /\ geometry (f_res f) p /\ 0 < mult /\
  (exists passes w, forall fuel, (passes <= fuel)%nat -> project_out fuel f p v md mult = Finished w) /\
  (forall fuel, project_out (S fuel) f' p' (times 8 v) (8 * md) mult = Failed "Encountered flat gradient - stuck").
Proof.
  exists small_wall, large_wall, (plain_pose 1), (plain_pose (8 * 1)), wall_point, 0, (1/8).
  split; [exact walls_rescaled|]. split; [apply plain_geometry; cbn; lra|]. split; [lra|]. exact projection_depends_on_unit.
Qed.
Print Assumptions C107_projection_refuted.

(** In cells of side 8 or more the projection fails from every point in front of,
    or inside, every wall. *)
Theorem C107_large_cells_refuted : forall (f : rfield) p a low k loc md mult e fuel,
  8 <= f_res f -> geometry (f_res f) p -> wall_field f a low k ->
  estimate_distance f p loc = Ok (e, true) -> e <= md ->
  project_out (S fuel) f p loc md mult = Failed "Encountered flat gradient - stuck".
Proof. exact wall_stuck. Qed.
Print Assumptions C107_large_cells_refuted.

(** Non-vacuity: two cells, the first filled, in two units. *)
Example wall_nonvacuous :
  0 < f_res small_wall < 4 /\ geometry (f_res small_wall) (plain_pose 1) /\ wall_field small_wall AlongX true 1 /\
  estimate_distance small_wall (plain_pose 1) wall_point = Ok (- (1/2), true) /\
  rescaled 8 small_wall large_wall (plain_pose 1) (plain_pose (8 * 1)) /\ 8 <= f_res large_wall.
Proof.
  split; [cbn; lra|]. split; [apply plain_geometry; cbn; lra|]. split; [exact small_wall_field|].
  split; [exact small_estimate|]. split; [exact walls_rescaled|]. cbn. lra.
Qed.

(** Non-vacuity of the theorems on extracted fields: a map of 4 x 3 x 2 cells of side
    a quarter whose top layer is filled. *)
Definition layers : dims := D 4 3 2.
Definition in_top_layer (i : idx) : res bool := Ok (depth AlongZ false layers i <? 1)%Z.
Example extracted_nonvacuous :
  size_ok layers /\ usable_resolution quarter64 /\ real64 quarter64 < 4 /\
  stored_exactly quarter64 (cells_along AlongZ layers) /\
  answers layers in_top_layer (fun c => (depth AlongZ false layers c <? 1)%Z) /\ (0 < 1 < cells_along AlongZ layers)%Z /\
  exists s x, extract_sdf layers quarter64 in_top_layer zero32 "grid" = Ok (s, x).
Proof.
  assert (S : size_ok layers) by (unfold size_ok; cbn; lia).
  assert (An : answers layers in_top_layer (fun c => (depth AlongZ false layers c <? 1)%Z)) by (intros c Hc; reflexivity).
  split; [exact S|]. split; [exact quarter_usable|]. split; [unfold real64, quarter64, Binary.B2R, F2R; cbn; lra|].
  split; [apply quarter_stored; cbn; lia|]. split; [exact An|]. split; [cbn; lia|].
  destruct (extract_sign layers quarter64 zero32 "grid" _ _ S quarter_usable An) as (s & x & He & _).
  exists s, x. exact He.
Qed.
