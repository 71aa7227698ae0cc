(** C137: which points are reported as inside the grid, in doubles. *)
From Coq Require Import Reals Lra Lia.
From Flocq Require Import Core.Core IEEE754.Binary IEEE754.Bits.
From Verif Require Import Base BaseFacts Floats FloatFacts FloatFacts2 Grid GridFacts CollisionMap SdfGen Arith SdfQuery SdfField QuerySpec QueryProofs
  QueryReal QueryThms QueryTurn QueryWitness DoubleSpec WallProject IdealSpec EstimateSpec EstimateCase IdealMap Frame FrameSpec FrameCase PlaceSpec
  Origin OriginSpec PointSpec PointThms PointCase VolumeSpec VolumeThms Location InsideSpec InsideThms PropVolume PropResampleDouble.
Open Scope R_scope.

(** C137, grid at the origin, cells of side at most 1: a point EstimateDistance says is in
    the grid is in the grid exactly, although the test is made on a rounded quotient. *)
Theorem C137_inside : forall s c e,
  let d := sdf_dims s in let r := s_res s in
  finite_double r -> bpow radix2 (-100) <= real64 r <= 1 ->
  (nx d <= 2147483647 /\ ny d <= 2147483647 /\ nz d <= 2147483647)%Z -> usable_point c ->
  estimate_distance (sdf_field s) (ieee_pose r) c = Ok (e, true) ->
  in_the_box 0 (far_corner d (real64 r)) (real_vec c).
Proof.
  intros s c e d r Fr Rr Hd Hc H. apply flag_true in H.
  destruct (found_inside d r c Fr Rr Hd Hc H) as ((X & Y & Z) & _). unfold in_the_box, far_corner. cbn [real_vec vx vy vz]. lra.
Qed.
Print Assumptions C137_inside.

(** The point at which the search of ProjectOutOfCollisionToMinimumDistance ends, in the
    frame of the grid, is a point of the grid, wherever the grid stands. *)
Theorem C137_search : forall s T q fuel md mult c,
  let d := sdf_dims s in let r := s_res s in
  finite_double r -> bpow radix2 (-100) <= real64 r <= 1 ->
  (nx d <= 2147483647 /\ ny d <= 2147483647 /\ nz d <= 2147483647)%Z ->
  project_out_grid_frame fuel (sdf_field s) (placed_by r T) q md mult = Finished c -> usable_point c ->
  in_the_box 0 (far_corner d (real64 r)) (real_vec c) /\ in_bounds d (index_of (plain_pose (real64 r)) (real_vec c)) = true.
Proof.
  intros s T q fuel md mult c d r Fr Rr Hd H Hc.
  pose proof (project_out_grid_spec (A := ieee) fuel (sdf_field s) (placed_by r T) q md mult) as K. rewrite H in K.
  destruct K as (e & B & _). destruct (found_inside d r c Fr Rr Hd Hc B) as ((X & Y & Z) & I). split; [|exact I].
  unfold in_the_box, far_corner. cbn [real_vec vx vy vz]. lra.
Qed.
Print Assumptions C137_search.

(** C137, grid that stands anywhere: such a point is, in the exact pose, no further than two
    millionths of a cell outside the grid. *)
Theorem C137_placed : forall s N T P t delta eta S,
  let d := sdf_dims s in let r := s_res s in
  finite_double r -> bpow radix2 (-100) <= real64 r -> N <= bpow radix2 30 -> (0 < nx d /\ 0 < ny d /\ 0 < nz d)%Z ->
  stands d r N T P t delta eta S -> forall loc, point_within S loc ->
  (forall e, estimate_distance (sdf_field s) (placed_by r T) loc = Ok (e, true) ->
   in_the_box (real64 r / 500000) (far_corner d (real64 r)) (to_grid P (real_vec loc))) /\
  (in_the_box (- (real64 r / 50000)) (far_corner d (real64 r)) (to_grid P (real_vec loc)) ->
   exists e, estimate_distance (sdf_field s) (placed_by r T) loc = Ok (e, true)).
Proof.
  intros s N T P t delta eta S d r Fr Lr HN Pd St loc Hl. split.
  - intros e H. apply flag_true in H. exact (placed_inside s N T P t delta eta S Fr Lr HN Pd St loc Hl H).
  - intros H. apply flag_found. exact (placed_found s N T P t delta eta S Fr Lr HN Pd St loc Hl H).
Qed.
Print Assumptions C137_placed.

(** Without "at most 1" C137_inside is false: with cells of side 2 the negative double next
    to 0 is outside the grid, but its quotient is rounded to 0. *)
Definition two_64 : binary64 := B754_finite 53 1024 false 4503599627370496 (-51) eq_refl.
Definition least_negative : binary64 := B754_finite 53 1024 true 1 (-1074) eq_refl.
Definition wide_field : sdf := new_sdf (D 3 3 3) two_64 zero32 "world".
Definition below_face : vec ieee := @V ieee least_negative one64 one64.

Lemma real_two_64 : real64 two_64 = 2.
Proof. unfold real64, two_64, B2R, F2R. cbn -[IZR]. lra. Qed.

Lemma one_usable : finite_double one64 /\ Rabs (real64 one64) <= bpow radix2 800.
Proof. split; [reflexivity|]. rewrite real_one, Rabs_R1. change 1 with (bpow radix2 0). apply bpow_le. lia. Qed.

Theorem C137_wide_refuted : ~ (forall s c e,
  let d := sdf_dims s in let r := s_res s in
  finite_double r -> bpow radix2 (-100) <= real64 r <= 2 ->
  (nx d <= 2147483647 /\ ny d <= 2147483647 /\ nz d <= 2147483647)%Z -> usable_point c ->
  estimate_distance (sdf_field s) (ieee_pose r) c = Ok (e, true) ->
  in_the_box 0 (far_corner d (real64 r)) (real_vec c)).
Proof.
  intros H. assert (L : real64 least_negative = - bpow radix2 (-1074)).
  { unfold real64, least_negative, B2R, F2R. cbn [cond_Zopp Defs.Fnum Defs.Fexp SpecFloat.cond_Zopp]. change (IZR (Z.opp (Z.pos 1))) with (-1). ring. }
  assert (P := bpow_gt_0 radix2 (-1074)).
  destruct (flag_found (sdf_field wide_field) (ieee_pose two_64) below_face) as (e & E); [vm_compute; reflexivity|].
  destruct (H wide_field below_face e) as ((X & _) & _).
  - reflexivity.
  - cbn [wide_field new_sdf s_res]. rewrite real_two_64. split; [|lra]. apply Rle_trans with (bpow radix2 0); [apply bpow_le; lia|cbn; lra].
  - cbn. lia.
  - destruct one_usable as (F & B). split; [split; [reflexivity|split; exact F]|]. cbn [below_face vx vy vz]. split; [|split; exact B].
    rewrite L, Rabs_Ropp, Rabs_pos_eq by lra. apply bpow_le. lia.
  - exact E.
  - cbn [real_vec below_face vx] in X. rewrite L in X. lra.
Qed.
Print Assumptions C137_wide_refuted.

(** Non-vacuity: three cells of side 1 on every axis, at the origin and turned by an eighth
    of a turn. *)
Definition block_field : sdf := new_sdf (D 3 3 3) one64 zero32 "world".

Lemma inner_place : to_grid (diamond_of (real64 one64)) (real_vec (row 0 2 1)) = @V reals (2 * sqrt (1 / 2)) (2 * sqrt (1 / 2)) 1.
Proof.
  rewrite (proj2 (row_real 0 2 1 ltac:(lia) ltac:(lia) ltac:(lia))). destruct diamond_parts as (U & C & E).
  unfold diamond_of, turned_pose. cbn [to_grid]. unfold turn, vsub. cbn [vx vy vz].
  set (h := sqrt (1 / 2)) in *. clearbody h. set (w := diamond_w) in *. set (z := diamond_z) in *. clearbody w z. rsimp. f_equal; asR; nra.
Qed.

Example C137_nonvacuous :
  stands (sdf_dims block_field) one64 3 eighth (diamond_of (real64 one64)) (@V reals 0 0 0) (bpow radix2 (-53)) 0 256 /\
  point_within 256 (row 0 2 1) /\ usable_point (row 1 2 1) /\
  in_the_box (- (real64 one64 / 50000)) (far_corner (sdf_dims block_field) (real64 one64)) (to_grid (diamond_of (real64 one64)) (real_vec (row 0 2 1))) /\
  (exists e, estimate_distance (sdf_field block_field) (ieee_pose one64) (row 1 2 1) = Ok (e, true)) /\
  (exists e, estimate_distance (sdf_field block_field) (ieee_pose one64) (row 1 3 1) = Ok (e, false)).
Proof.
  split. { apply diamond_of_stands; rewrite ?real_one; cbn [sdf_dims block_field new_sdf s_grid gdims mk_grid nx ny nz]; lra. }
  split; [apply row_within; try lia; apply Rabs_le; lra|]. split.
  { destruct (row_within 2 1 2 1) as (F & B); try lia; try (apply Rabs_le; lra). split; [exact F|].
    assert (2 <= bpow radix2 800) by (change 2 with (bpow radix2 1); apply bpow_le; lia).
    destruct B as (B1 & B2 & B3). cbn [real_vec vx vy vz] in B1, B2, B3. lra. }
  split. { rewrite inner_place, real_one. pose proof half_root_bounds. unfold in_the_box, far_corner.
    cbn [sdf_dims block_field new_sdf s_grid gdims mk_grid nx ny nz vx vy vz]. lra. }
  split; [apply flag_found; vm_compute; reflexivity|]. eexists. unfold estimate_distance. cbv zeta.
  replace (in_bounds _ _) with false by (vm_compute; reflexivity). reflexivity.
Qed.
