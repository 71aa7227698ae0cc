(** C132: the volume of a grid that stands anywhere, in doubles. *)
From Coq Require Import Reals Lra Lia.
From Flocq Require Import Core.Core IEEE754.Binary IEEE754.Bits.
From Verif Require Import Base BaseFacts Floats Grid GridFacts CollisionMap SdfGen Arith SdfQuery SdfField QuerySpec QueryReal QueryThms QueryTurn
  QueryWitness DoubleSpec WallProject IdealSpec EstimateSpec EstimateCase IdealMap Frame FrameSpec FrameCase PlaceSpec Origin OriginSpec PointSpec
  PointThms PointCase VolumeSpec VolumeThms Location.
Open Scope R_scope.

(** C132: the distance to the boundary of the grid.  Up to three millionths of a cell
    around the faces, the flag tells whether the point is in the volume; then the value is
    the least of the distances to the six faces, to four millionths of a cell. *)
Theorem C132_boundary : forall s N T P t delta eta S,
  let d := sdf_dims s in let r := s_res s in let p := placed_by r T in
  finite_double r -> bpow radix2 (-100) <= real64 r -> N <= bpow radix2 30 -> (0 < nx d /\ 0 < ny d /\ 0 < nz d)%Z ->
  stands d r N T P t delta eta S ->
  forall loc v inside, point_within S loc -> distance_to_boundary (sdf_field s) p loc = (v, inside) ->
  let size := far_corner d (real64 r) in let q := to_grid P (real_vec loc) in let eps := real64 r / 1000000 in
  (in_box (3 * eps) size q -> inside = true) /\
  (inside = true -> in_box (- (3 * eps)) size q) /\
  (inside = true -> finite_double v /\ exists D, In D (face_distances size q) /\ (forall w, In w (face_distances size q) -> D <= w) /\
     Rabs (real64 v - D) <= 4 * eps).
Proof. exact boundary_placed. Qed.
Print Assumptions C132_boundary.

(** A point projected into the volume is where cutting off its exact coordinates puts it,
    to ten millionths of a cell, and it is found in the grid. *)
Theorem C132_projected : forall s N T P t delta eta S,
  let d := sdf_dims s in let r := s_res s in let p := placed_by r T in
  finite_double r -> bpow radix2 (-100) <= real64 r -> N <= bpow radix2 30 -> (0 < nx d /\ 0 < ny d /\ 0 < nz d)%Z ->
  stands d r N T P t delta eta S -> real64 r * N <= S / 20 ->
  forall loc md, point_within S loc -> finite_double md -> 0 <= real64 md ->
  let size := far_corner d (real64 r) in room (real64 md + real64 r / 5000) size ->
  let w := project_into_valid_volume (sdf_field s) p loc md in
  point_within S w /\
  apart_at_most (real64 r / 100000) (to_grid P (real_vec w)) (cut_into (real64 md + real64 r / 10000) size (to_grid P (real_vec loc))) /\
  in_bounds d (cell_at p w) = true.
Proof. intros s N T P t delta eta S d r p Fr Lr HN Pd St HS loc md Hl Fm M0 size Rm. exact (projected s N T P t delta eta S Fr Lr HN Pd St HS loc md Hl Fm M0 Rm). Qed.
Print Assumptions C132_projected.

(** So the projection out of collision, which starts there for points outside, always
    starts in a cell of the grid. *)
Theorem C132_start : forall s N T P t delta eta S,
  let d := sdf_dims s in let r := s_res s in let p := placed_by r T in
  finite_double r -> bpow radix2 (-100) <= real64 r -> N <= bpow radix2 30 -> (0 < nx d /\ 0 < ny d /\ 0 < nz d)%Z ->
  stands d r N T P t delta eta S -> real64 r * N <= S / 20 ->
  forall loc fuel md mult, point_within S loc ->
  exists start, point_within S start /\ in_bounds d (cell_at p start) = true /\ (in_bounds d (cell_at p loc) = true -> start = loc) /\
    project_out fuel (sdf_field s) p loc md mult =
      match project_out_grid_frame fuel (sdf_field s) p (to_grid p start) md mult with
      | Finished q => Finished (to_world p q)
      | other => other
      end.
Proof.
  intros s N T P t delta eta S d r p Fr Lr HN Pd St HS loc fuel md mult Hl. unfold project_out.
  change (index_of p (to_grid p loc)) with (cell_at p loc). change (f_dims (sdf_field s)) with d.
  destruct (in_bounds d (cell_at p loc)) eqn:E.
  - exists loc. split; [exact Hl|]. split; [exact E|]. split; [reflexivity|]. reflexivity.
  - assert (F0 : finite_double (b64_of_Z 0)) by reflexivity.
    assert (E0 : real64 (b64_of_Z 0) = 0) by (destruct root_parts as (_ & _ & _ & H); exact H).
    assert (R0 : 0 < real64 r) by exact (r_pos r Lr).
    assert (Rm : room (real64 (b64_of_Z 0) + real64 r / 5000) (far_corner d (real64 r))).
    { rewrite E0. unfold room, far_corner. cbn [vx vy vz]. destruct Pd as (X & Y & Z).
      assert (K : forall n, (0 < n)%Z -> 2 * (0 + real64 r / 5000) <= real64 r * IZR n).
      { intros n Hn. assert (1 <= IZR n) by (apply IZR_le; lia). assert (real64 r * 1 <= real64 r * IZR n) by (apply Rmult_le_compat_l; lra). lra. }
      split; [apply K; exact X|]. split; [apply K; exact Y|apply K; exact Z]. }
    destruct (projected s N T P t delta eta S Fr Lr HN Pd St HS loc (b64_of_Z 0) Hl F0 ltac:(rewrite E0; lra) Rm) as (W & _ & B).
    exists (project_into_valid_volume (sdf_field s) p loc (b64_of_Z 0)). split; [exact W|]. split; [exact B|]. split; [discriminate|]. reflexivity.
Qed.
Print Assumptions C132_start.

(** A field in the grid of C130 and a point some cells outside, which is moved. *)
Definition diamond_field : sdf := new_sdf diamond_dims one64 zero32 "world".
Definition outside_point : vec ieee := row 20 0 0.

Example C132_nonvacuous :
  let p := placed_by one64 eighth in
  finite_double one64 /\ bpow radix2 (-100) <= real64 one64 /\ 10 <= bpow radix2 30 /\
  stands (sdf_dims diamond_field) (s_res diamond_field) 10 eighth diamond (@V reals 0 0 0) (bpow radix2 (-53)) 0 256 /\
  real64 one64 * 10 <= 256 / 20 /\ point_within 256 outside_point /\ finite_double zero64 /\
  room (real64 zero64 + real64 one64 / 5000) (far_corner diamond_dims (real64 one64)) /\
  in_bounds diamond_dims (cell_at p outside_point) = false /\ snd (distance_to_boundary (sdf_field diamond_field) p outside_point) = false /\
  cell_at p (project_into_valid_volume (sdf_field diamond_field) p outside_point zero64) = I 9 0 0.
Proof.
  cbv zeta. assert (L : bpow radix2 (-100) <= real64 one64) by (rewrite real_one; change 1 with (bpow radix2 0); apply bpow_le; lia).
  split; [reflexivity|]. split; [exact L|]. split; [change (bpow radix2 30) with 1073741824; lra|]. split; [exact diamond_stands|].
  split; [rewrite real_one; lra|]. split; [apply row_within; try lia; apply Rabs_le; lra|]. split; [reflexivity|].
  split. { rewrite real_one. unfold room, far_corner. cbn [vx vy vz nx ny nz diamond_dims]. change (real64 zero64) with 0. lra. }
  split; [vm_compute; reflexivity|]. split; vm_compute; reflexivity.
Qed.
