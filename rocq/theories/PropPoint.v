(** C130: finding the cell of a point in a turned grid, in doubles. *)
From Coq Require Import Reals Lra Lia.
From Flocq Require Import Core.Core IEEE754.Binary IEEE754.Bits.
From Verif Require Import Base BaseFacts Floats Grid CollisionMap SdfGen Surfaces Arith SdfQuery SdfField QuerySpec QueryReal QueryWitness DoubleSpec
  WallProject IdealSpec EstimateSpec EstimateCase IdealMap Frame FrameSpec FrameCase PlaceSpec Origin OriginSpec PointSpec PointThms PointCase ResampleThms Location.
Open Scope R_scope.

(** C130: a world point that is, in the exact pose, at least two millionths of a cell
    from the faces of a cell is found in that cell. *)
Theorem C130_point : forall d r N T P t delta eta S,
  finite_double r -> bpow radix2 (-100) <= real64 r -> N <= bpow radix2 30 -> stands d r N T P t delta eta S ->
  forall loc i, point_within S loc -> in_bounds d i = true ->
  inside_cell (2 * (real64 r / 1000000)) (real64 r) (to_grid P (real_vec loc)) i ->
  cell_at (placed_by r T) loc = i.
Proof. exact point_found. Qed.
Print Assumptions C130_point.

(** Such a point is one of those C128 and C129 speak about. *)
Theorem C130_seen : forall d r N T P t delta eta S,
  finite_double r -> bpow radix2 (-100) <= real64 r -> N <= bpow radix2 30 -> stands d r N T P t delta eta S ->
  forall loc i, point_within S loc -> in_bounds d i = true ->
  inside_cell (2 * (real64 r / 1000000)) (real64 r) (to_grid P (real_vec loc)) i ->
  seen d (placed_by r T) P S loc.
Proof.
  intros d r N T P t delta eta S Fr Lr HN St loc i Hl Ib In. split; [exact Hl|].
  pose proof (point_found d r N T P t delta eta S Fr Lr HN St loc i Hl Ib In) as E. unfold cell_at in E. rewrite E. split; [exact Ib|].
  pose proof (r_pos r Lr) as R0. destruct St as (_ & _ & _ & G & _). destruct i as [a b c]. destruct In as (X & Y & Z).
  unfold inside_axis in *. cbn [ix iy iz] in *. rewrite (index_is (real64 r) P _ a b c R0 G); [exact Ib|lra|lra|lra].
Qed.
Print Assumptions C130_seen.

(** A point of the grid at least four millionths of a cell from the faces of its cell,
    taken to the world by the origin transform, is found in that cell. *)
Theorem C130_round_trip : forall d r N T P t delta eta S,
  finite_double r -> bpow radix2 (-100) <= real64 r -> N <= bpow radix2 30 -> stands d r N T P t delta eta S ->
  forall q i, point_within (S / 16) q -> in_bounds d i = true ->
  inside_cell (4 * (real64 r / 1000000)) (real64 r) (real_vec q) i ->
  cell_at (placed_by r T) (to_world (placed_by r T) q) = i.
Proof. exact round_trip. Qed.
Print Assumptions C130_round_trip.

(** The place reported for a cell is a point of that cell: it names the cell again. *)
Theorem C130_center : forall d r N T P t delta eta S,
  finite_double r -> bpow radix2 (-100) <= real64 r -> N <= bpow radix2 30 -> stands d r N T P t delta eta S ->
  forall i, real64 r * N <= S / 16 -> in_bounds d i = true ->
  cell_at (placed_by r T) (to_world (placed_by r T) (center_of (placed_by r T) i)) = i.
Proof. exact center_found. Qed.
Print Assumptions C130_center.

(** So reading or writing a map at the place of a cell is reading or writing that cell. *)
Theorem C130_calls : forall d r N T P t delta eta S,
  finite_double r -> bpow radix2 (-100) <= real64 r -> N <= bpow radix2 30 -> stands d r N T P t delta eta S ->
  forall i m v, real64 r * N <= S / 16 -> in_bounds d i = true -> cm_dims m = d ->
  let p := placed_by r T in let place := to_world p (center_of p i) in
  cm_get_at p m place = cm_get m i /\ cm_set_at p m place v = cm_set m i v.
Proof.
  intros d r N T P t delta eta S Fr Lr HN St i m v HS Ib Ed p place.
  assert (E : cell_at p place = i) by exact (center_found d r N T P t delta eta S Fr Lr HN St i HS Ib).
  unfold cm_get_at, cm_set_at. rewrite E, Ed, Ib. split; reflexivity.
Qed.
Print Assumptions C130_calls.

(** Without the margin it fails: a point of the grid can be found outside the grid. *)
Theorem C130_faces_refuted : ~ (forall d r N T P t delta eta S,
  finite_double r -> bpow radix2 (-100) <= real64 r -> N <= bpow radix2 30 -> stands d r N T P t delta eta S ->
  forall q, point_within (S / 16) q -> in_bounds d (index_of P (real_vec q)) = true ->
  in_bounds d (cell_at (placed_by r T) (to_world (placed_by r T) q)) = true).
Proof.
  intros H.
  assert (K : in_bounds diamond_dims (cell_at (placed_by one64 eighth) (to_world (placed_by one64 eighth) side_point)) = true).
  { apply (H diamond_dims one64 10 eighth diamond (@V reals 0 0 0) (bpow radix2 (-53)) 0 256).
    - reflexivity.
    - rewrite real_one. change 1 with (bpow radix2 0). apply bpow_le. lia.
    - change (bpow radix2 30) with 1073741824. lra.
    - exact diamond_stands.
    - replace (256 / 16) with 16 by field. exact (proj1 side_parts).
    - rewrite side_cell. reflexivity. }
  rewrite side_lost in K. discriminate K.
Qed.
Print Assumptions C130_faces_refuted.

(** And a point of the grid can be found in another cell than the one it is in. *)
Theorem C130_corners_refuted : ~ (forall d r N T P t delta eta S,
  finite_double r -> bpow radix2 (-100) <= real64 r -> N <= bpow radix2 30 -> stands d r N T P t delta eta S ->
  forall q, point_within (S / 16) q -> in_bounds d (index_of P (real_vec q)) = true ->
  in_bounds d (cell_at (placed_by r T) (to_world (placed_by r T) q)) = true ->
  cell_at (placed_by r T) (to_world (placed_by r T) q) = index_of P (real_vec q)).
Proof.
  intros H.
  assert (K : cell_at (placed_by one64 eighth) (to_world (placed_by one64 eighth) corner_point) = index_of diamond (real_vec corner_point)).
  { apply (H diamond_dims one64 10 eighth diamond (@V reals 0 0 0) (bpow radix2 (-53)) 0 256).
    - reflexivity.
    - rewrite real_one. change 1 with (bpow radix2 0). apply bpow_le. lia.
    - change (bpow radix2 30) with 1073741824. lra.
    - exact diamond_stands.
    - replace (256 / 16) with 16 by field. exact (proj1 corner_cell).
    - rewrite (proj2 corner_cell). reflexivity.
    - rewrite corner_moved. reflexivity. }
  rewrite corner_moved, (proj2 corner_cell) in K. discriminate K.
Qed.
Print Assumptions C130_corners_refuted.

(** In the grid of src/estimate_distance_test.cpp, an estimate at one of the points it
    queries is the value for points outside the grid, and an obstacle it puts at the
    corner of cell (5, 6, 0) is stored in cell (4, 6, 0). *)
Theorem C130_program :
  let p := placed_by one64 eighth in
  (forall f : field ieee, f_dims f = diamond_dims ->
     estimate_distance f p (to_world p side_point) = Ok (b64_of_b32 (goob (f_grid f)), false)) /\
  (forall m v, cm_dims m = diamond_dims -> cm_set_at p m (to_world p corner_point) v = cm_set m (I 4 6 0) v).
Proof.
  intros p. split.
  - intros f Ed. pose proof side_lost as L. fold p in L. unfold cell_at in L. unfold estimate_distance. rewrite Ed.
    set (i := index_of p _) in *. clearbody i. rewrite L. reflexivity.
  - intros m v Ed. pose proof corner_moved as L. fold p in L. unfold cm_set_at. rewrite L, Ed. reflexivity.
Qed.
Print Assumptions C130_program.

(** The same grid meets the hypotheses, with the place of any of its hundred cells. *)
Example C130_nonvacuous :
  finite_double one64 /\ bpow radix2 (-100) <= real64 one64 /\ 10 <= bpow radix2 30 /\
  stands diamond_dims one64 10 eighth diamond (@V reals 0 0 0) (bpow radix2 (-53)) 0 256 /\
  real64 one64 * 10 <= 256 / 16 /\ in_bounds diamond_dims (I 9 4 0) = true /\
  (let p := placed_by one64 eighth in
   let q := center_of p (I 9 4 0) in
   finite_vec q /\ inside_cell (real64 one64 / 4) (real64 one64) (real_vec q) (I 9 4 0) /\
   cell_at p (to_world p q) = I 9 4 0).
Proof.
  assert (L : bpow radix2 (-100) <= real64 one64) by (rewrite real_one; change 1 with (bpow radix2 0); apply bpow_le; lia).
  assert (HN : 10 <= bpow radix2 30) by (change (bpow radix2 30) with 1073741824; lra).
  assert (HS : real64 one64 * 10 <= 256 / 16) by (rewrite real_one; lra).
  split; [reflexivity|]. split; [exact L|]. split; [exact HN|]. split; [exact diamond_stands|]. split; [exact HS|]. split; [reflexivity|]. cbv zeta.
  destruct (center_inside diamond_dims one64 10 eighth diamond _ _ _ _ eq_refl L HN diamond_stands (I 9 4 0) eq_refl) as (F & In).
  split; [exact F|]. split; [exact In|].
  exact (center_found diamond_dims one64 10 eighth diamond _ _ _ _ eq_refl L HN diamond_stands (I 9 4 0) HS eq_refl).
Qed.
