(** C115, C116: what an estimated distance says about the cells of the map. *)
From Coq Require Import Reals Lra Lia.
From Flocq Require Import Core.Core IEEE754.Binary IEEE754.Bits.
From Verif Require Import Base Floats Grid GridFacts DistSpec DistModel CollisionMap SdfGen SdfSpec SdfThms
  Arith SdfQuery SdfField QuerySpec QueryThms QueryWitness DoubleSpec WallSpec EstimateSpec EstimateMap EstimateCase.
Open Scope R_scope.

(** C115: the sign of the estimate does not tell whether the point lies in a filled or
    in a free cell: inside a filled cell it can be more than half a cell size, inside
    a free one less than minus half a cell size (cells of size 1, in doubles). *)
Theorem C115_sign_refuted : forall class, exists d filled s loc e,
  field_of_map d one64 filled s /\
  in_bounds d (index_of (ieee_pose one64) loc) = true /\ filled (index_of (ieee_pose one64) loc) = class /\
  estimate_distance (sdf_field s) (ieee_pose one64) loc = Ok (e, true) /\
  (if class then lt64 half64 e else lt64 e (b64_opp half64)) = true.
Proof. exact sign_fails. Qed.
Print Assumptions C115_sign_refuted.

(** C115, what holds for every map: in a filled cell the estimate is at most, and in a
    free cell at least minus, 5/8 of the cell size, so a larger estimate means a
    free cell and a smaller one a filled cell. *)
Theorem C115_class_from_estimate : forall d r filled s p q,
  field_of_map d r filled s -> geometry (real64 r) p ->
  in_bounds d (index_of p q) = true -> between_centers (real_field s) q ->
  exists e, estimate_distance (real_field s) p (to_world p q) = Ok (e, true) /\
    (5 / 8 * real64 r < e -> filled (index_of p q) = false) /\
    (e < - (5 / 8 * real64 r) -> filled (index_of p q) = true).
Proof. exact class_from_estimate. Qed.
Print Assumptions C115_class_from_estimate.

(** C116: from a point in a free cell the estimate is not less than the distance from
    the nearest filled cell by more than 2.1 cells (and the rounding of the values) ... *)
Theorem C116_not_below : forall d r filled s p q D,
  field_of_map d r filled s -> geometry (real64 r) p ->
  in_bounds d (index_of p q) = true -> between_centers (real_field s) q ->
  0 <= D -> filled (index_of p q) = false ->
  (forall b, in_bounds d b = true -> filled b = true -> D <= gap q (center_of p b)) ->
  exists e, estimate_distance (real_field s) p (to_world p q) = Ok (e, true) /\
    (1 - bpow radix2 (-23)) * D - 2.1 * real64 r <= e.
Proof. intros d r filled s p q D H1 H2 H3 H4. exact (clearance_below d r filled s H1 p H2 q H3 H4 D). Qed.
Print Assumptions C116_not_below.

(** ... nor, on a planar map, more than 1.42 times the distance from any filled cell
    plus three quarters of a cell ... *)
Theorem C116_not_above_planar : forall d r filled s p q b,
  field_of_map d r filled s -> geometry (real64 r) p ->
  in_bounds d (index_of p q) = true -> between_centers (real_field s) q ->
  flat d -> in_bounds d b = true -> filled b = true ->
  exists e, estimate_distance (real_field s) p (to_world p q) = Ok (e, true) /\
    e <= 1.42 * gap q (center_of p b) + 3 / 4 * real64 r.
Proof. intros d r filled s p q b H1 H2 H3 H4. exact (clearance_planar d r filled s H1 p H2 q H3 H4 b). Qed.
Print Assumptions C116_not_above_planar.

(** ... and where the field is exact at the cells around the point (C105, C106 say
    where it is) it exceeds the distance from no filled cell by more than three
    eighths of a cell. *)
Theorem C116_not_above_exact : forall d r filled s p q b,
  field_of_map d r filled s -> geometry (real64 r) p ->
  in_bounds d (index_of p q) = true -> between_centers (real_field s) q ->
  in_bounds d b = true -> filled b = true ->
  (forall j, in_bounds d j = true -> within_one (index_of p q) j -> exact_at d r filled s j) ->
  exists e, estimate_distance (real_field s) p (to_world p q) = Ok (e, true) /\
    e <= (1 + bpow radix2 (-23)) * gap q (center_of p b) + 3 / 8 * real64 r.
Proof. intros d r filled s p q b H1 H2 H3 H4. exact (clearance_exact d r filled s H1 p H2 q H3 H4 b). Qed.
Print Assumptions C116_not_above_exact.

(** Non-vacuity: 3 x 3 x 1 cells of side 1, the middle one filled, the point
    (1/2, 1, 1/2) between the free cells (0,0,0) and (0,1,0), at distance at least 1
    from the filled cell. *)
Example estimate_nonvacuous : exists s,
  let q := @V reals (1/2) 1 (1/2) in let p := plain_pose (real64 one64) in
  field_of_map (D 3 3 1) one64 (only (I 1 1 0)) s /\ geometry (real64 one64) p /\
  in_bounds (D 3 3 1) (index_of p q) = true /\ between_centers (real_field s) q /\
  flat (D 3 3 1) /\ in_bounds (D 3 3 1) (I 1 1 0) = true /\ only (I 1 1 0) (I 1 1 0) = true /\
  only (I 1 1 0) (index_of p q) = false /\
  (forall b, in_bounds (D 3 3 1) b = true -> only (I 1 1 0) b = true -> 1 <= gap q (center_of p b)) /\
  (forall j, in_bounds (D 3 3 1) j = true -> exact_at (D 3 3 1) one64 (only (I 1 1 0)) s j).
Proof. exact estimate_case. Qed.
