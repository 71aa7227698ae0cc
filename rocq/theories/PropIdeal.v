(** C119, C120: queries in doubles against the same queries in exact arithmetic. *)
From Coq Require Import Reals.
From Flocq Require Import Core.Core.
From Verif Require Import Base Floats Grid DistSpec CollisionMap SdfGen SdfSpec Arith SdfQuery SdfField QuerySpec QueryThms
  QueryWitness AutoDiffSpec DoubleSpec WallSpec EstimateSpec EstimateCase IdealSpec IdealThms IdealMap.
Open Scope R_scope.

(** C119: the estimate in doubles is the estimate in exact arithmetic up to an error of
    (2^-42 + 205 delta) W, where the pose in doubles [p] follows an exact pose [P] up
    to [delta] cells and [W] bounds the values plus the resolution; also where the
    doubles take the point to lie in another cell or nearer to another neighbour. *)
Theorem C119_estimate : forall (f : field ieee) p loc P L delta W,
  let r := real64 (f_res f) in let q := to_grid p loc in let i := index_of p q in
  finite_double (f_res f) -> bpow radix2 (-100) <= r <= bpow radix2 100 -> W <= bpow radix2 100 ->
  (forall j, in_bounds (f_dims f) j = true ->
     finite_float (value f j) /\ Rabs (real32 (value f j)) + r <= W) ->
  centers_within f p delta -> delta <= 1 / 16 ->
  (IZR (nx (f_dims f)) + 1) * bpow radix2 (-53) <= delta -> (IZR (ny (f_dims f)) + 1) * bpow radix2 (-53) <= delta ->
  finite_vec q -> in_bounds (f_dims f) i = true -> lies_in r (real_vec q) i ->
  geometry r P -> apart_at_most (delta * r) (real_vec q) (to_grid P L) ->
  in_bounds (f_dims f) (index_of P (to_grid P L)) = true ->
  exists e, estimate_distance f p loc = Ok (e, true) /\ finite_double e /\
    Rabs (real64 e - estimated (real_view f) P L) <= (bpow radix2 (-42) + 205 * delta) * W.
Proof. exact ideal_estimate. Qed.
Print Assumptions C119_estimate.

(** For a grid at the origin nothing is assumed of the pose: with at most [N] cells on
    an axis [delta] is 4 (N + 1) 2^-53 ... *)
Theorem C119_at_origin : forall (f : field ieee) loc N W,
  let r := real64 (f_res f) in let p := ieee_pose (f_res f) in let q := real_vec loc in
  finite_double (f_res f) -> bpow radix2 (-100) <= r <= bpow radix2 100 -> W <= bpow radix2 100 ->
  (forall j, in_bounds (f_dims f) j = true ->
     finite_float (value f j) /\ Rabs (real32 (value f j)) + r <= W) ->
  4 * (N + 1) * bpow radix2 (-53) <= 1 / 16 ->
  IZR (nx (f_dims f)) <= N -> IZR (ny (f_dims f)) <= N -> IZR (nz (f_dims f)) <= N ->
  usable_point loc -> in_bounds (f_dims f) (index_of p loc) = true ->
  in_bounds (f_dims f) (index_of (plain_pose r) q) = true ->
  exists e, estimate_distance f p loc = Ok (e, true) /\ finite_double e /\
    Rabs (real64 e - estimated (real_view f) (plain_pose r) q)
      <= (bpow radix2 (-42) + 205 * (4 * (N + 1) * bpow radix2 (-53))) * W.
Proof. exact ideal_at_origin. Qed.
Print Assumptions C119_at_origin.

(** ... and in a field extracted from a map of any size the error is at most a
    thousandth of a cell. *)
Theorem C119_of_map : forall d r filled s loc,
  let q := real_vec loc in
  field_of_map d r filled s -> real64 r <= bpow radix2 80 ->
  usable_point loc -> in_bounds d (index_of (ieee_pose r) loc) = true ->
  in_bounds d (index_of (plain_pose (real64 r)) q) = true ->
  exists e, estimate_distance (sdf_field s) (ieee_pose r) loc = Ok (e, true) /\ finite_double e /\
    Rabs (real64 e - estimated (real_field s) (plain_pose (real64 r)) q) <= 0.001 * real64 r.
Proof. intros d r filled s loc q H S. exact (map_doubles d r filled s H S loc). Qed.
Print Assumptions C119_of_map.

(** C120: what the estimate in doubles says about the cells of the map: the class of the
    cell the point is in ... *)
Theorem C120_class_from_estimate : forall d r filled s loc,
  let q := real_vec loc in let p := plain_pose (real64 r) in
  field_of_map d r filled s -> real64 r <= bpow radix2 80 ->
  usable_point loc -> in_bounds d (index_of (ieee_pose r) loc) = true ->
  in_bounds d (index_of p q) = true -> between_centers (real_field s) q ->
  exists e, estimate_distance (sdf_field s) (ieee_pose r) loc = Ok (e, true) /\ finite_double e /\
    (0.626 * real64 r < real64 e -> filled (index_of p q) = false) /\
    (real64 e < - (0.626 * real64 r) -> filled (index_of p q) = true).
Proof. intros d r filled s loc q p H S. exact (doubles_class d r filled s H S loc). Qed.
Print Assumptions C120_class_from_estimate.

(** ... a lower bound from the distance [D] of all filled cells ... *)
Theorem C120_not_below : forall d r filled s loc D,
  let q := real_vec loc in let p := plain_pose (real64 r) in
  field_of_map d r filled s -> real64 r <= bpow radix2 80 ->
  usable_point loc -> in_bounds d (index_of (ieee_pose r) loc) = true ->
  in_bounds d (index_of p q) = true -> between_centers (real_field s) q ->
  0 <= D -> filled (index_of p q) = false ->
  (forall b, in_bounds d b = true -> filled b = true -> D <= gap q (center_of p b)) ->
  exists e, estimate_distance (sdf_field s) (ieee_pose r) loc = Ok (e, true) /\ finite_double e /\
    (1 - bpow radix2 (-23)) * D - 2.101 * real64 r <= real64 e.
Proof. intros d r filled s loc D q p H S U I1 I2 B. exact (doubles_below d r filled s H S loc U I1 I2 B D). Qed.
Print Assumptions C120_not_below.

(** ... and upper bounds from the distance of any filled cell, on planar maps and
    where the field is exact. *)
Theorem C120_not_above_planar : forall d r filled s loc b,
  let q := real_vec loc in let p := plain_pose (real64 r) in
  field_of_map d r filled s -> real64 r <= bpow radix2 80 ->
  usable_point loc -> in_bounds d (index_of (ieee_pose r) loc) = true ->
  in_bounds d (index_of p q) = true -> between_centers (real_field s) q ->
  flat d -> in_bounds d b = true -> filled b = true ->
  exists e, estimate_distance (sdf_field s) (ieee_pose r) loc = Ok (e, true) /\ finite_double e /\
    real64 e <= 1.42 * gap q (center_of p b) + 0.751 * real64 r.
Proof. intros d r filled s loc b q p H S U I1 I2 B. exact (doubles_planar d r filled s H S loc U I1 I2 B b). Qed.
Print Assumptions C120_not_above_planar.

Theorem C120_not_above_exact : forall d r filled s loc b,
  let q := real_vec loc in let p := plain_pose (real64 r) in
  field_of_map d r filled s -> real64 r <= bpow radix2 80 ->
  usable_point loc -> in_bounds d (index_of (ieee_pose r) loc) = true ->
  in_bounds d (index_of p q) = true -> between_centers (real_field s) q ->
  in_bounds d b = true -> filled b = true ->
  (forall j, in_bounds d j = true -> within_one (index_of p q) j -> exact_at d r filled s j) ->
  exists e, estimate_distance (sdf_field s) (ieee_pose r) loc = Ok (e, true) /\ finite_double e /\
    real64 e <= (1 + bpow radix2 (-23)) * gap q (center_of p b) + 0.376 * real64 r.
Proof. intros d r filled s loc b q p H S U I1 I2 B. exact (doubles_exact d r filled s H S loc U I1 I2 B b). Qed.
Print Assumptions C120_not_above_exact.

(** C120, two points: the estimates in doubles differ by little more than the points. *)
Theorem C120_steady : forall d r filled s loc loc',
  let p := plain_pose (real64 r) in let q := real_vec loc in let q' := real_vec loc' in
  field_of_map d r filled s -> real64 r <= bpow radix2 80 ->
  flat d \/ (forall c, in_bounds d c = true -> exact_at d r filled s c) ->
  usable_point loc -> in_bounds d (index_of (ieee_pose r) loc) = true -> in_bounds d (index_of p q) = true ->
  usable_point loc' -> in_bounds d (index_of (ieee_pose r) loc') = true -> in_bounds d (index_of p q') = true ->
  exists e e', estimate_distance (sdf_field s) (ieee_pose r) loc = Ok (e, true) /\
    estimate_distance (sdf_field s) (ieee_pose r) loc' = Ok (e', true) /\
    Rabs (real64 e - real64 e') <= 4.08 * path q q' + 0.002 * real64 r /\
    (between_centers (real_field s) q -> between_centers (real_field s) q' ->
     Rabs (real64 e - real64 e') <= 1.02 * path q q' + 0.002 * real64 r).
Proof. exact doubles_steady. Qed.
Print Assumptions C120_steady.

(** C118 in doubles: the components of the gradient. *)
Theorem C118_in_doubles : forall d r filled s i edges g,
  field_of_map d r filled s -> flat d \/ (forall c, in_bounds d c = true -> exact_at d r filled s c) ->
  grid_aligned_gradient (sdf_field s) i edges = Some g ->
  finite_vec g /\
  Rabs (real64 (vx g)) <= 2.03 /\ Rabs (real64 (vy g)) <= 2.03 /\ Rabs (real64 (vz g)) <= 2.03 /\
  (strictly_inside d i -> Rabs (real64 (vx g)) <= 1.53 /\ Rabs (real64 (vy g)) <= 1.53 /\ Rabs (real64 (vz g)) <= 1.53).
Proof. intros d r filled s i edges g H X. exact (doubles_gradient d r filled s H X i edges g). Qed.
Print Assumptions C118_in_doubles.

(** Non-vacuity: 3 x 3 x 1 cells of side 1, the middle one filled, and the point
    (1/2, 1, 1/2) on the face between two free cells, in doubles. *)
Example ideal_nonvacuous : exists s,
  let q := real_vec edge_point in let p := plain_pose (real64 one64) in
  field_of_map (D 3 3 1) one64 (only (I 1 1 0)) s /\ real64 one64 <= bpow radix2 80 /\
  usable_point edge_point /\ in_bounds (D 3 3 1) (index_of (ieee_pose one64) edge_point) = true /\
  in_bounds (D 3 3 1) (index_of p q) = true /\ between_centers (real_field s) q /\
  flat (D 3 3 1) /\ in_bounds (D 3 3 1) (I 1 1 0) = true /\ only (I 1 1 0) (I 1 1 0) = true /\
  only (I 1 1 0) (index_of p q) = false /\
  (forall b, in_bounds (D 3 3 1) b = true -> only (I 1 1 0) b = true -> 1 <= gap q (center_of p b)) /\
  (forall j, in_bounds (D 3 3 1) j = true -> exact_at (D 3 3 1) one64 (only (I 1 1 0)) s j).
Proof. exact ideal_case. Qed.
