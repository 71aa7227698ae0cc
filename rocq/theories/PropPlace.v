(** C128: estimates anywhere in a grid that stands anywhere, in doubles and in world
    distances. *)
From Coq Require Import Reals Lra Lia.
From Flocq Require Import Core.Core IEEE754.Binary IEEE754.Bits.
From Verif Require Import Base BaseFacts Floats Grid GridFacts DistSpec CollisionMap SdfGen SdfSpec Arith SdfQuery SdfField QuerySpec
  QueryReal QueryThms QueryTurn QueryWitness AutoDiffSpec DoubleSpec WallSpec EstimateSpec EstimateMap EstimateCase IdealSpec IdealMap
  Frame FrameSpec FrameCase PlaceSpec PlaceThms.
Open Scope R_scope.

(** C128: moving a point by some distance in the world moves the estimate in doubles by
    at most 7.07 times that distance and 0.004 cells, and by at most 1.77 times it away
    from the outermost half cells ... *)
Theorem C128_steady : forall d r filled s N inverse forward w v P t S far loc loc',
  let p := placed_pose r inverse forward w v in let moved := gap (real_vec loc) (real_vec loc') in
  field_of_map d r filled s -> flat d \/ (forall c, in_bounds d c = true -> exact_at d r filled s c) ->
  well_placed d r N inverse P t S far -> seen d p P S loc -> seen d p P S loc' ->
  exists e e', estimate_distance (sdf_field s) p loc = Ok (e, true) /\ estimate_distance (sdf_field s) p loc' = Ok (e', true) /\
    finite_double e /\ finite_double e' /\
    Rabs (real64 e - real64 e') <= 7.07 * moved + 0.004 * real64 r /\
    (between_centers (real_field s) (to_grid P (real_vec loc)) -> between_centers (real_field s) (to_grid P (real_vec loc')) ->
     Rabs (real64 e - real64 e') <= 1.77 * moved + 0.004 * real64 r).
Proof. intros d r filled s N inverse forward w v P t S far loc loc' p moved HM HX WP.
  exact (place_steady d r filled s N inverse forward w v P t S far HM HX WP loc loc'). Qed.
Print Assumptions C128_steady.

(** ... wherever the point is in the grid, the sign of an estimate beyond 4.21 cells (2.17
    in planar maps) tells whether the cell it is in is filled ... *)
Theorem C128_class : forall d r filled s N inverse forward w v P t S far loc,
  let p := placed_pose r inverse forward w v in
  field_of_map d r filled s -> flat d \/ (forall c, in_bounds d c = true -> exact_at d r filled s c) ->
  well_placed d r N inverse P t S far -> seen d p P S loc ->
  exists e, estimate_distance (sdf_field s) p loc = Ok (e, true) /\ finite_double e /\
    (4.21 * real64 r < real64 e -> filled (cell_of P loc) = false) /\
    (real64 e < - (4.21 * real64 r) -> filled (cell_of P loc) = true) /\
    (flat d -> (2.17 * real64 r < real64 e -> filled (cell_of P loc) = false) /\
               (real64 e < - (2.17 * real64 r) -> filled (cell_of P loc) = true)).
Proof. intros d r filled s N inverse forward w v P t S far loc p HM HX WP.
  exact (place_class d r filled s N inverse forward w v P t S far HM HX WP loc). Qed.
Print Assumptions C128_class.

(** ... the estimate does not exceed the world distance of any filled cell by more than
    the stated margins ... *)
Theorem C128_not_above : forall d r filled s N inverse forward w v P t S far loc b,
  let p := placed_pose r inverse forward w v in
  field_of_map d r filled s -> flat d \/ (forall c, in_bounds d c = true -> exact_at d r filled s c) ->
  well_placed d r N inverse P t S far -> seen d p P S loc -> in_bounds d b = true -> filled b = true ->
  exists e, estimate_distance (sdf_field s) p loc = Ok (e, true) /\ finite_double e /\
    (flat d -> real64 e <= 1.42 * gap (real_vec loc) (world_center P b) + 3.3 * real64 r) /\
    ((forall c, in_bounds d c = true -> exact_at d r filled s c) ->
     real64 e <= (1 + bpow radix2 (-23)) * gap (real_vec loc) (world_center P b) + 4.83 * real64 r).
Proof. intros d r filled s N inverse forward w v P t S far loc b p HM HX WP.
  exact (place_above d r filled s N inverse forward w v P t S far HM HX WP loc b). Qed.
Print Assumptions C128_not_above.

(** ... and, in a free cell, does not fall short of the world distance of all of them. *)
Theorem C128_not_below : forall d r filled s N inverse forward w v P t S far loc D_,
  let p := placed_pose r inverse forward w v in
  field_of_map d r filled s -> flat d \/ (forall c, in_bounds d c = true -> exact_at d r filled s c) ->
  well_placed d r N inverse P t S far -> seen d p P S loc -> 0 <= D_ -> filled (cell_of P loc) = false ->
  (forall b, in_bounds d b = true -> filled b = true -> D_ <= gap (real_vec loc) (world_center P b)) ->
  exists e, estimate_distance (sdf_field s) p loc = Ok (e, true) /\ finite_double e /\
    (1 - bpow radix2 (-23)) * D_ - 6.55 * real64 r <= real64 e /\
    (flat d -> (1 - bpow radix2 (-23)) * D_ - 4.35 * real64 r <= real64 e).
Proof. intros d r filled s N inverse forward w v P t S far loc D_ p HM HX WP.
  exact (place_below d r filled s N inverse forward w v P t S far HM HX WP loc D_). Qed.
Print Assumptions C128_not_below.

(** Non-vacuity: the turned and moved grid of C126 with its middle cell filled, seen from
    (9, 20.5, 30.5) and from (9.75, 20.25, 30.125), a corner of the grid outside all
    centres, one world unit or more from the filled cell. *)
Example C128_nonvacuous : exists s,
  let p := placed_pose one64 shelf_inverse shelf_forward zero64 (row 0 0 1) in let P := shelf (real64 one64) in
  let d := D 3 3 1 in let filled := only (I 1 1 0) in
  field_of_map d one64 filled s /\ flat d /\ (forall c, in_bounds d c = true -> exact_at d one64 filled s c) /\
  well_placed d one64 3 shelf_inverse P shelf_shift 32 0 /\ seen d p P 32 shelf_point /\ seen d p P 32 shelf_spot /\
  ~ between_centers (real_field s) (to_grid P (real_vec shelf_spot)) /\
  in_bounds d (I 1 1 0) = true /\ filled (I 1 1 0) = true /\ filled (cell_of P shelf_spot) = false /\
  (forall b, in_bounds d b = true -> filled b = true -> 1 <= gap (real_vec shelf_spot) (world_center P b)).
Proof.
  destruct ideal_case as (s & H & Sm & _ & _ & B & _ & Fl & Ib & Fb & _ & _ & X). exists s. cbv zeta.
  assert (R1 : 0 < real64 one64) by (rewrite real_one; lra). destruct (shelf_pose _ R1) as (G & Rg).
  assert (Ci : cell_of (shelf (real64 one64)) shelf_spot = I 0 0 0).
  { unfold cell_of. rewrite shelf_spot_grid, real_one. unfold shelf, turned_pose, plain_pose. cbn [index_of vx vy vz].
    f_equal; apply Int_part_unique; lra. }
  split; [exact H|]. split; [exact Fl|]. split; [exact X|]. split.
  { split; [exact Sm|]. split; [cbn [nx ny nz]; lra|].
    split. { change 32 with (bpow radix2 5). split; apply bpow_le; lia. }
    split; [apply shelf_usable; lra|]. split; [exact G|]. split; [exact Rg|]. split; [apply shelf_follows|].
    rewrite real_one. unfold misplaced. change (bpow radix2 (-53)) with (/ 9007199254740992). lra. }
  split. { split; [apply shelf_point_within; lra|]. split; [vm_compute; reflexivity|]. rewrite shelf_point_grid. exact B. }
  split. { split; [apply shelf_point_within; lra|]. split; [vm_compute; reflexivity|].
    unfold cell_of in Ci. rewrite Ci. reflexivity. }
  split. { rewrite shelf_spot_grid. destruct (map_dims _ _ _ _ H) as (FD & FR & _). unfold between_centers, between_centers_axis. rewrite FD, FR, real_one.
    cbn [nx ny nz vx vy vz]. intros ([K|K] & _); [lia|lra]. }
  split; [exact Ib|]. split; [exact Fb|]. split; [rewrite Ci; reflexivity|].
  intros b _ Ob. apply only_spec in Ob. subst b. unfold world_center.
  rewrite <- (g_back_and_there _ _ G (real_vec shelf_spot)), (rigid_gap _ _ _ _ Rg), shelf_spot_grid, real_one.
  unfold gap, shelf, turned_pose, plain_pose. cbn [center_of vx vy vz ix iy iz]. rewrite <- sqrt_1 at 1. apply sqrt_le_1_alt. lra.
Qed.
