(** C122: estimates anywhere in the grid.  C123: where projected points end up. *)
From Coq Require Import Reals.
From Flocq Require Import Core.Core.
From Verif Require Import Base Floats Grid DistSpec CollisionMap SdfGen SdfSpec Arith SdfQuery SdfField QuerySpec QueryThms
  QueryWitness AutoDiffSpec DoubleSpec WallSpec EstimateSpec EstimateCase IdealSpec OuterThms ProjectThms.
Open Scope R_scope.

(** C122: C115 without asking the point to keep off the outer halves of the outer
    cells, on planar maps and where the field is exact: there the estimate
    extrapolates, and it takes 2.16 cells (planar) or 4.2 cells to tell the class of
    the cell the point is in ... *)
Theorem C122_class : forall d r filled s p q,
  field_of_map d r filled s -> flat d \/ (forall c, in_bounds d c = true -> exact_at d r filled s c) ->
  geometry (real64 r) p -> in_bounds d (index_of p q) = true ->
  exists e, estimate_distance (real_field s) p (to_world p q) = Ok (e, true) /\
    (4.2 * real64 r < e -> filled (index_of p q) = false) /\
    (e < - (4.2 * real64 r) -> filled (index_of p q) = true) /\
    (flat d -> (2.16 * real64 r < e -> filled (index_of p q) = false) /\
               (e < - (2.16 * real64 r) -> filled (index_of p q) = true)).
Proof. intros d r filled s p q H X G. exact (outer_class d r filled s H X p G q). Qed.
Print Assumptions C122_class.

(** ... the distance from any filled cell bounds it from above ... *)
Theorem C122_not_above : forall d r filled s p q b,
  field_of_map d r filled s -> flat d \/ (forall c, in_bounds d c = true -> exact_at d r filled s c) ->
  geometry (real64 r) p -> in_bounds d (index_of p q) = true ->
  in_bounds d b = true -> filled b = true ->
  exists e, estimate_distance (real_field s) p (to_world p q) = Ok (e, true) /\
    (flat d -> e <= 1.42 * gap q (center_of p b) + 3.29 * real64 r) /\
    ((forall c, in_bounds d c = true -> exact_at d r filled s c) ->
     e <= (1 + bpow radix2 (-23)) * gap q (center_of p b) + 4.82 * real64 r).
Proof. intros d r filled s p q b H X G B. exact (outer_above d r filled s H X p G q B b). Qed.
Print Assumptions C122_not_above.

(** ... and, in a free cell, the distance of all filled cells from below. *)
Theorem C122_not_below : forall d r filled s p q D,
  field_of_map d r filled s -> flat d \/ (forall c, in_bounds d c = true -> exact_at d r filled s c) ->
  geometry (real64 r) p -> in_bounds d (index_of p q) = true ->
  0 <= D -> filled (index_of p q) = false ->
  (forall b, in_bounds d b = true -> filled b = true -> D <= gap q (center_of p b)) ->
  exists e, estimate_distance (real_field s) p (to_world p q) = Ok (e, true) /\
    (1 - bpow radix2 (-23)) * D - 6.54 * real64 r <= e /\
    (flat d -> (1 - bpow radix2 (-23)) * D - 4.34 * real64 r <= e).
Proof. intros d r filled s p q D H X G B. exact (outer_below d r filled s H X p G q B D). Qed.
Print Assumptions C122_not_below.

(** C122 in doubles, for a grid at the origin. *)
Theorem C122_class_in_doubles : forall d r filled s loc,
  let q := real_vec loc in let p := plain_pose (real64 r) in
  field_of_map d r filled s -> flat d \/ (forall c, in_bounds d c = true -> exact_at d r filled s c) ->
  real64 r <= bpow radix2 80 ->
  usable_point loc -> in_bounds d (index_of (ieee_pose r) loc) = true -> in_bounds d (index_of p q) = true ->
  exists e, estimate_distance (sdf_field s) (ieee_pose r) loc = Ok (e, true) /\ finite_double e /\
    (4.21 * real64 r < real64 e -> filled (index_of p q) = false) /\
    (real64 e < - (4.21 * real64 r) -> filled (index_of p q) = true) /\
    (flat d -> (2.17 * real64 r < real64 e -> filled (index_of p q) = false) /\
               (real64 e < - (2.17 * real64 r) -> filled (index_of p q) = true)).
Proof. intros d r filled s loc q p H X S. exact (doubles_outer_class d r filled s H X S loc). Qed.
Print Assumptions C122_class_in_doubles.

Theorem C122_not_above_in_doubles : forall d r filled s loc b,
  let q := real_vec loc in let p := plain_pose (real64 r) in
  field_of_map d r filled s -> flat d \/ (forall c, in_bounds d c = true -> exact_at d r filled s c) ->
  real64 r <= bpow radix2 80 ->
  usable_point loc -> in_bounds d (index_of (ieee_pose r) loc) = true -> in_bounds d (index_of p q) = true ->
  in_bounds d b = true -> filled b = true ->
  exists e, estimate_distance (sdf_field s) (ieee_pose r) loc = Ok (e, true) /\ finite_double e /\
    (flat d -> real64 e <= 1.42 * gap q (center_of p b) + 3.3 * real64 r) /\
    ((forall c, in_bounds d c = true -> exact_at d r filled s c) ->
     real64 e <= (1 + bpow radix2 (-23)) * gap q (center_of p b) + 4.83 * real64 r).
Proof. intros d r filled s loc b q p H X S U I1 I2. exact (doubles_outer_above d r filled s H X S loc U I1 I2 b). Qed.
Print Assumptions C122_not_above_in_doubles.

(** Non-vacuity: a row of nine cells of side 1, the first one filled, and the point
    (8.75, 0.5, 0.5) in the outer half of the last cell. *)
Example outer_nonvacuous : exists s, let q := real_vec outer_point64 in let p := plain_pose (real64 one64) in
  field_of_map row9 one64 (only (I 0 0 0)) s /\ real64 one64 <= bpow radix2 80 /\ geometry (real64 one64) p /\
  usable_point outer_point64 /\ in_bounds row9 (index_of (ieee_pose one64) outer_point64) = true /\
  in_bounds row9 (index_of p q) = true /\ ~ between_centers (real_field s) q /\
  only (I 0 0 0) (index_of p q) = false /\ flat row9 /\
  in_bounds row9 (I 0 0 0) = true /\ only (I 0 0 0) (I 0 0 0) = true /\
  (forall b, in_bounds row9 b = true -> only (I 0 0 0) b = true -> 8 <= gap q (center_of p b)) /\
  (forall c, in_bounds row9 c = true -> exact_at row9 one64 (only (I 0 0 0)) s c).
Proof. exact outer_case. Qed.

(** C123: a point that the projection out of collision returns may lie in a filled cell:
    with any minimum distance up to half a cell (0 included) the projection leaves
    some points inside filled cells where they are. *)
Theorem C123_out_of_collision_refuted : exists d filled s loc,
  field_of_map d one64 filled s /\
  in_bounds d (index_of (ieee_pose one64) loc) = true /\ filled (index_of (ieee_pose one64) loc) = true /\
  forall fuel md mult, le64 md half64 = true ->
    project_out (S fuel) (sdf_field s) (ieee_pose one64) loc md mult = Finished loc.
Proof. exact out_fails. Qed.
Print Assumptions C123_out_of_collision_refuted.

(** C123, what holds: with a minimum distance of at least 5/8 of a cell the point it
    returns is in a free cell, unless it is in an outer half cell; anywhere with 2.16
    cells (planar maps) or 4.2 cells (exact fields). *)
Theorem C123_free : forall d r filled s p fuel loc md mult w, let q := to_grid p w in
  field_of_map d r filled s -> geometry (real64 r) p ->
  project_out fuel (real_field s) p loc md mult = Finished w ->
  (between_centers (real_field s) q -> 5 / 8 * real64 r <= md -> filled (index_of p q) = false) /\
  (flat d -> 2.16 * real64 r <= md -> filled (index_of p q) = false) /\
  ((forall c, in_bounds d c = true -> exact_at d r filled s c) -> 4.2 * real64 r <= md -> filled (index_of p q) = false).
Proof. intros d r filled s p fuel loc md mult w q H G. exact (out_free d r filled s H p G fuel loc md mult w). Qed.
Print Assumptions C123_free.

(** ... and how far it then is from every filled cell. *)
Theorem C123_clear : forall d r filled s p fuel loc md mult w b, let q := to_grid p w in
  field_of_map d r filled s -> geometry (real64 r) p ->
  project_out fuel (real_field s) p loc md mult = Finished w ->
  in_bounds d b = true -> filled b = true ->
  (between_centers (real_field s) q -> flat d -> md < 1.42 * gap q (center_of p b) + 3 / 4 * real64 r) /\
  (between_centers (real_field s) q ->
   (forall j, in_bounds d j = true -> within_one (index_of p q) j -> exact_at d r filled s j) ->
   md < (1 + bpow radix2 (-23)) * gap q (center_of p b) + 3 / 8 * real64 r) /\
  (flat d -> md < 1.42 * gap q (center_of p b) + 3.29 * real64 r) /\
  ((forall c, in_bounds d c = true -> exact_at d r filled s c) ->
   md < (1 + bpow radix2 (-23)) * gap q (center_of p b) + 4.82 * real64 r).
Proof. intros d r filled s p fuel loc md mult w b q H G P. exact (out_clear d r filled s H p G fuel loc md mult w P b). Qed.
Print Assumptions C123_clear.

(** C123 in doubles, for a grid at the origin. *)
Theorem C123_free_in_doubles : forall d r filled s fuel loc md mult w,
  let q := real_vec w in let p := plain_pose (real64 r) in
  field_of_map d r filled s -> real64 r <= bpow radix2 80 -> finite_double md ->
  project_out fuel (sdf_field s) (ieee_pose r) loc md mult = Finished w ->
  finite_vec w -> in_bounds d (index_of p q) = true ->
  (between_centers (real_field s) q -> 0.626 * real64 r <= real64 md -> filled (index_of p q) = false) /\
  (flat d -> 2.17 * real64 r <= real64 md -> filled (index_of p q) = false) /\
  ((forall c, in_bounds d c = true -> exact_at d r filled s c) -> 4.21 * real64 r <= real64 md ->
   filled (index_of p q) = false).
Proof. intros d r filled s fuel loc md mult w q p H S F. exact (out_free_doubles d r filled s H S fuel loc md mult w F). Qed.
Print Assumptions C123_free_in_doubles.

Theorem C123_clear_in_doubles : forall d r filled s fuel loc md mult w b,
  let q := real_vec w in let p := plain_pose (real64 r) in
  field_of_map d r filled s -> real64 r <= bpow radix2 80 -> finite_double md ->
  project_out fuel (sdf_field s) (ieee_pose r) loc md mult = Finished w ->
  finite_vec w -> in_bounds d (index_of p q) = true ->
  in_bounds d b = true -> filled b = true ->
  (between_centers (real_field s) q -> flat d -> real64 md < 1.42 * gap q (center_of p b) + 0.751 * real64 r) /\
  (between_centers (real_field s) q ->
   (forall j, in_bounds d j = true -> within_one (index_of p q) j -> exact_at d r filled s j) ->
   real64 md < (1 + bpow radix2 (-23)) * gap q (center_of p b) + 0.376 * real64 r) /\
  (flat d -> real64 md < 1.42 * gap q (center_of p b) + 3.3 * real64 r) /\
  ((forall c, in_bounds d c = true -> exact_at d r filled s c) ->
   real64 md < (1 + bpow radix2 (-23)) * gap q (center_of p b) + 4.83 * real64 r).
Proof.
  intros d r filled s fuel loc md mult w b q p H S F P V B.
  exact (out_clear_doubles d r filled s H S fuel loc md mult w F P V B b).
Qed.
Print Assumptions C123_clear_in_doubles.

(** Non-vacuity: from the centre of the filled cell the projection to distance 3 ends in
    the fifth cell, in doubles ... *)
Example project_nonvacuous : exists s,
  let q := real_vec end_point in let p := plain_pose (real64 one64) in
  field_of_map row9 one64 (only (I 0 0 0)) s /\ real64 one64 <= bpow radix2 80 /\
  finite_double three64 /\ 2.17 * real64 one64 <= real64 three64 /\
  project_out 100 (sdf_field s) (ieee_pose one64) wall_point three64 eighth = Finished end_point /\
  only (I 0 0 0) (index_of (ieee_pose one64) wall_point) = true /\
  finite_vec end_point /\ in_bounds row9 (index_of p q) = true /\ between_centers (real_field s) q /\
  flat row9 /\ in_bounds row9 (I 0 0 0) = true /\ only (I 0 0 0) (I 0 0 0) = true /\
  (forall c, in_bounds row9 c = true -> exact_at row9 one64 (only (I 0 0 0)) s c).
Proof. exact project_case. Qed.

(** ... and in exact arithmetic a point in the last cell stays where it is. *)
Example project_exact_nonvacuous : exists s,
  let p := plain_pose (real64 one64) in let w := @V reals (17/2) (1/2) (1/2) in
  field_of_map row9 one64 (only (I 0 0 0)) s /\ geometry (real64 one64) p /\
  project_out 1 (real_field s) p w 3 1 = Finished w /\
  between_centers (real_field s) (to_grid p w) /\ flat row9 /\ in_bounds row9 (I 0 0 0) = true /\
  only (I 0 0 0) (I 0 0 0) = true /\
  (forall c, in_bounds row9 c = true -> exact_at row9 one64 (only (I 0 0 0)) s c).
Proof. exact exact_case. Qed.
