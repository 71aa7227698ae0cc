(** C135: what the projection into the volume achieves, in doubles. *)
From Coq Require Import Reals Lra Lia.
From Flocq Require Import Core.Core IEEE754.Binary IEEE754.Bits.
From Verif Require Import Base BaseFacts Floats Grid GridFacts CollisionMap SdfGen Arith SdfQuery SdfField QuerySpec QueryReal QueryThms QueryTurn
  QueryWitness DoubleSpec WallProject IdealSpec EstimateSpec EstimateCase IdealMap Frame FrameSpec FrameCase PlaceSpec Origin OriginSpec PointSpec
  PointThms PointCase VolumeSpec VolumeThms DepthThms Location PropVolume.
Open Scope R_scope.

(** C135: whatever the point, after the projection the map itself reports the point as
    inside and at more than the requested distance from the boundary. *)
Theorem C135_deep : forall s N T P t delta eta S,
  let d := sdf_dims s in let r := s_res s in let p := placed_by r T in
  finite_double r -> bpow radix2 (-100) <= real64 r -> N <= bpow radix2 30 -> (0 < nx d /\ 0 < ny d /\ 0 < nz d)%Z ->
  stands d r N T P t delta eta S -> real64 r * N <= S / 20 ->
  forall loc md, point_within S loc -> finite_double md -> 0 <= real64 md ->
  let size := far_corner d (real64 r) in room (real64 md + real64 r / 5000) size ->
  let w := project_into_valid_volume (sdf_field s) p loc md in
  exists v, distance_to_boundary (sdf_field s) p w = (v, true) /\ finite_double v /\
    real64 md + real64 r / 12500 <= real64 v.
Proof. intros s N T P t delta eta S d r p Fr Lr HN Pd St HS loc md Hl Fm M0 size Rm. exact (deep s N T P t delta eta S Fr Lr HN Pd St HS loc md Hl Fm M0 Rm). Qed.
Print Assumptions C135_deep.

(** A point that has the requested distance and the ten thousandth of a cell that the code
    adds stays where it is, to a hundred thousandth of a cell. *)
Theorem C135_kept : forall s N T P t delta eta S,
  let d := sdf_dims s in let r := s_res s in let p := placed_by r T in
  finite_double r -> bpow radix2 (-100) <= real64 r -> N <= bpow radix2 30 -> (0 < nx d /\ 0 < ny d /\ 0 < nz d)%Z ->
  stands d r N T P t delta eta S -> real64 r * N <= S / 20 ->
  forall loc md, point_within S loc -> finite_double md -> 0 <= real64 md ->
  let size := far_corner d (real64 r) in room (real64 md + real64 r / 5000) size ->
  let w := project_into_valid_volume (sdf_field s) p loc md in
  let q := to_grid P (real_vec loc) in
  in_box (real64 md + real64 r / 10000) size q -> apart_at_most (real64 r / 100000) (to_grid P (real_vec w)) q.
Proof. intros s N T P t delta eta S d r p Fr Lr HN Pd St HS loc md Hl Fm M0 size Rm. exact (kept s N T P t delta eta S Fr Lr HN Pd St HS loc md Hl Fm M0 Rm). Qed.
Print Assumptions C135_kept.

(** No point with that distance is nearer on any axis, to a hundred thousandth of a cell. *)
Theorem C135_least_move : forall s N T P t delta eta S,
  let d := sdf_dims s in let r := s_res s in let p := placed_by r T in
  finite_double r -> bpow radix2 (-100) <= real64 r -> N <= bpow radix2 30 -> (0 < nx d /\ 0 < ny d /\ 0 < nz d)%Z ->
  stands d r N T P t delta eta S -> real64 r * N <= S / 20 ->
  forall loc md, point_within S loc -> finite_double md -> 0 <= real64 md ->
  let size := far_corner d (real64 r) in room (real64 md + real64 r / 5000) size ->
  let w := project_into_valid_volume (sdf_field s) p loc md in
  let q := to_grid P (real_vec loc) in let g := to_grid P (real_vec w) in
  forall z, in_box (real64 md + real64 r / 10000) size z ->
    Rabs (vx g - vx q) <= Rabs (vx z - vx q) + real64 r / 100000 /\
    Rabs (vy g - vy q) <= Rabs (vy z - vy q) + real64 r / 100000 /\
    Rabs (vz g - vz q) <= Rabs (vz z - vz q) + real64 r / 100000.
Proof. intros s N T P t delta eta S d r p Fr Lr HN Pd St HS loc md Hl Fm M0 size Rm. exact (moved_least s N T P t delta eta S Fr Lr HN Pd St HS loc md Hl Fm M0 Rm). Qed.
Print Assumptions C135_least_move.

(** Projecting again moves the point by at most two hundred thousandths of a cell. *)
Theorem C135_again : forall s N T P t delta eta S,
  let d := sdf_dims s in let r := s_res s in let p := placed_by r T in
  finite_double r -> bpow radix2 (-100) <= real64 r -> N <= bpow radix2 30 -> (0 < nx d /\ 0 < ny d /\ 0 < nz d)%Z ->
  stands d r N T P t delta eta S -> real64 r * N <= S / 20 ->
  forall loc md, point_within S loc -> finite_double md -> 0 <= real64 md ->
  let size := far_corner d (real64 r) in room (real64 md + real64 r / 5000) size ->
  let w := project_into_valid_volume (sdf_field s) p loc md in
  apart_at_most (real64 r / 50000) (to_grid P (real_vec (project_into_valid_volume (sdf_field s) p w md))) (to_grid P (real_vec w)).
Proof. intros s N T P t delta eta S d r p Fr Lr HN Pd St HS loc md Hl Fm M0 size Rm. exact (again s N T P t delta eta S Fr Lr HN Pd St HS loc md Hl Fm M0 Rm). Qed.
Print Assumptions C135_again.

(** The turned grid of C132 with a requested distance of a quarter: a point outside is moved, and
    then reported inside with a distance above it. *)
Definition quarter : binary64 := B754_finite 53 1024 false 4503599627370496 (-54) eq_refl.

Lemma real_quarter : real64 quarter = 1 / 4.
Proof. unfold real64, quarter, B2R, F2R. cbn -[IZR]. lra. Qed.

Example C135_nonvacuous :
  let p := placed_by one64 eighth in
  stands (sdf_dims diamond_field) (s_res diamond_field) 10 eighth diamond (@V reals 0 0 0) (bpow radix2 (-53)) 0 256 /\
  room (real64 quarter + real64 one64 / 5000) (far_corner diamond_dims (real64 one64)) /\
  point_within 256 outside_point /\ finite_double quarter /\ 0 <= real64 quarter /\
  snd (distance_to_boundary (sdf_field diamond_field) p outside_point) = false /\
  (let v := distance_to_boundary (sdf_field diamond_field) p (project_into_valid_volume (sdf_field diamond_field) p outside_point quarter) in
   lt64 quarter (fst v) && snd v = true)%bool.
Proof.
  cbv zeta. split; [exact diamond_stands|]. split.
  { rewrite real_one, real_quarter. unfold room, far_corner. cbn [vx vy vz nx ny nz diamond_dims]. lra. }
  split; [apply row_within; try lia; apply Rabs_le; lra|]. split; [reflexivity|]. split; [rewrite real_quarter; lra|].
  split; vm_compute; reflexivity.
Qed.
