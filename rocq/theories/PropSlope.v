(** C117, C118: how fast the answers of an extracted field change. *)
From Coq Require Import Reals Lra Lia.
From Verif Require Import Base Floats Grid GridFacts DistSpec DistModel CollisionMap SdfGen SdfSpec
  Arith SdfQuery SdfField QuerySpec QueryProofs QueryThms QueryWitness AutoDiffSpec DoubleSpec WallSpec EstimateSpec EstimateMap EstimateCase
  SlopeThms.
Open Scope R_scope.

(** C117: in a planar map, and in any map whose stored distances are exact, the estimate
    changes by at most 1.02 times the way along the axes the point moves, between the
    centres of the outermost cells ... *)
Theorem C117_steady : forall d r filled s p q q',
  field_of_map d r filled s -> flat d \/ (forall c, in_bounds d c = true -> exact_at d r filled s c) ->
  geometry (real64 r) p -> in_bounds d (index_of p q) = true -> in_bounds d (index_of p q') = true ->
  between_centers (real_field s) q -> between_centers (real_field s) q' ->
  Rabs (estimated (real_field s) p (to_world p q) - estimated (real_field s) p (to_world p q')) <= 1.02 * path q q'.
Proof. intros d r filled s p q q' H X. exact (map_lipschitz d r filled s H X p q q'). Qed.
Print Assumptions C117_steady.

(** ... and 4.08 times in the whole grid, where the estimate extrapolates. *)
Theorem C117_steady_anywhere : forall d r filled s p q q',
  field_of_map d r filled s -> flat d \/ (forall c, in_bounds d c = true -> exact_at d r filled s c) ->
  geometry (real64 r) p -> in_bounds d (index_of p q) = true -> in_bounds d (index_of p q') = true ->
  Rabs (estimated (real_field s) p (to_world p q) - estimated (real_field s) p (to_world p q')) <= 4.08 * path q q'.
Proof. intros d r filled s p q q' H X. exact (map_lipschitz_anywhere d r filled s H X p q q'). Qed.
Print Assumptions C117_steady_anywhere.

(** C118: the gradient of a distance field is not a vector of length at most 1: next to
    an obstacle it can be 2 (in doubles). *)
Theorem C118_unit_refuted : exists d filled s i g,
  field_of_map d one64 filled s /\ flat d /\ filled i = false /\
  gradient (sdf_field s) (ieee_pose one64) i true = Some g /\
  eq64 (vx g) (b64_of_Z 2) = true /\ eq64 (vy g) zero64 = true /\ eq64 (vz g) zero64 = true.
Proof. exact unit_fails. Qed.
Print Assumptions C118_unit_refuted.

(** C118, what holds: no component exceeds 2.02, nor 1.52 in cells with neighbours on
    all sides. *)
Theorem C118_components : forall d r filled s i edges g,
  field_of_map d r filled s -> flat d \/ (forall c, in_bounds d c = true -> exact_at d r filled s c) ->
  grid_aligned_gradient (real_field s) i edges = Some g ->
  Rabs (vx g) <= 2.02 /\ Rabs (vy g) <= 2.02 /\ Rabs (vz g) <= 2.02 /\
  (strictly_inside d i -> Rabs (vx g) <= 1.52 /\ Rabs (vy g) <= 1.52 /\ Rabs (vz g) <= 1.52).
Proof. intros d r filled s i edges g H X. exact (map_gradient d r filled s H X i edges g). Qed.
Print Assumptions C118_components.

(** Non-vacuity: 3 x 3 x 1 cells with the middle one filled, and two points. *)
Example slope_nonvacuous : exists s,
  let q := @V reals (1/2) 1 (1/2) in let p := plain_pose (real64 one64) in
  field_of_map (D 3 3 1) one64 (only (I 1 1 0)) s /\ flat (D 3 3 1) /\
  (forall j, in_bounds (D 3 3 1) j = true -> exact_at (D 3 3 1) one64 (only (I 1 1 0)) s j) /\
  geometry (real64 one64) p /\ in_bounds (D 3 3 1) (index_of p q) = true /\ between_centers (real_field s) q /\
  exists g, grid_aligned_gradient (real_field s) (I 0 1 0) true = Some g.
Proof.
  destruct estimate_case as (s & H & G & B & C & F & _ & _ & _ & _ & X). exists s. cbv zeta. repeat (split; [assumption|]).
  destruct (grid_aligned_gradient (real_field s) (I 0 1 0) true) as [g|] eqn:E; [eauto|].
  apply (aligned_none (real_field s)) in E. rewrite (proj1 (map_dims _ _ _ _ H)) in E. destruct E as [E|(E & _)]; discriminate E.
Qed.
