(** C126: grids placed anywhere, in doubles. *)
From Coq Require Import Reals Lra Lia.
From Flocq Require Import Core.Core IEEE754.Binary IEEE754.Bits.
From Verif Require Import Base BaseFacts Floats Grid GridFacts DistSpec CollisionMap SdfGen SdfSpec Arith SdfQuery SdfField QuerySpec
  QueryReal QueryThms QueryTurn QueryWitness AutoDiffSpec DoubleSpec DoubleEstimate WallSpec SmoothSpec EstimateSpec EstimateCase IdealSpec IdealMap
  WallProject SdfThms PropWallProject Frame FrameSpec FrameThms FrameWall FrameCase.
Open Scope R_scope.

(** C126: the grid may stand anywhere.  In doubles, the transform of a point is within
    64 * 2^-53 of the largest coordinate involved of its exact value ... *)
Theorem C126_transform : forall S T q,
  bpow radix2 (-100) <= S <= bpow radix2 100 -> usable_transform S T -> point_within S q ->
  finite_vec (apply T q) /\
  apart_at_most (64 * bpow radix2 (-53) * S) (real_vec (apply T q)) (apply (real_transform T) (real_vec q)).
Proof. intros S T q SB U Q. destruct (apply_close S SB T q U Q) as (F & A & _). split; [exact F|exact A]. Qed.
Print Assumptions C126_transform.

(** ... and the estimate at a point is that of exact arithmetic, for the exact pose [P]
    of the grid, to two thousandths of a cell.  The transform used follows the exact one
    to within [far], and the number of cells on an axis times the misplacement of a
    point is at most a millionth of a cell. *)
Theorem C126_estimate : forall d r filled s N inverse forward w v P S far loc,
  let p := placed_pose r inverse forward w v in
  field_of_map d r filled s -> real64 r <= bpow radix2 80 ->
  IZR (nx d) <= N -> IZR (ny d) <= N -> IZR (nz d) <= N ->
  bpow radix2 (-100) <= S <= bpow radix2 100 -> usable_transform S inverse ->
  geometry (real64 r) P -> follows far S inverse (to_grid P) -> N * misplaced S far <= real64 r / 1000000 ->
  point_within S loc -> in_bounds d (index_of p (to_grid p loc)) = true ->
  in_bounds d (index_of P (to_grid P (real_vec loc))) = true ->
  exists e, estimate_distance (sdf_field s) p loc = Ok (e, true) /\ finite_double e /\
    Rabs (real64 e - estimated (real_field s) P (real_vec loc)) <= 0.002 * real64 r.
Proof. intros d r filled s N inverse forward w v P S far loc p HM Sm X Y Z SB U G F Fi L.
  exact (placed_doubles d r filled s N HM Sm X Y Z inverse forward w v P S far SB U G F Fi loc L). Qed.
Print Assumptions C126_estimate.

(** So 0.627 cells tell the class of the cell the point is in ... *)
Theorem C126_class : forall d r filled s N inverse forward w v P S far loc,
  let p := placed_pose r inverse forward w v in let q := to_grid P (real_vec loc) in
  field_of_map d r filled s -> real64 r <= bpow radix2 80 ->
  IZR (nx d) <= N -> IZR (ny d) <= N -> IZR (nz d) <= N ->
  bpow radix2 (-100) <= S <= bpow radix2 100 -> usable_transform S inverse ->
  geometry (real64 r) P -> follows far S inverse (to_grid P) -> N * misplaced S far <= real64 r / 1000000 ->
  point_within S loc -> in_bounds d (index_of p (to_grid p loc)) = true ->
  in_bounds d (index_of P q) = true -> between_centers (real_field s) q ->
  exists e, estimate_distance (sdf_field s) p loc = Ok (e, true) /\ finite_double e /\
    (0.627 * real64 r < real64 e -> filled (index_of P q) = false) /\
    (real64 e < - (0.627 * real64 r) -> filled (index_of P q) = true).
Proof. intros d r filled s N inverse forward w v P S far loc p q HM Sm X Y Z SB U G F Fi.
  exact (placed_class d r filled s N HM Sm X Y Z inverse forward w v P S far SB U G F Fi loc). Qed.
Print Assumptions C126_class.

(** ... the estimate is not below the distance of the filled cells, less 2.102 cells ... *)
Theorem C126_not_below : forall d r filled s N inverse forward w v P S far loc D,
  let p := placed_pose r inverse forward w v in let q := to_grid P (real_vec loc) in
  field_of_map d r filled s -> real64 r <= bpow radix2 80 ->
  IZR (nx d) <= N -> IZR (ny d) <= N -> IZR (nz d) <= N ->
  bpow radix2 (-100) <= S <= bpow radix2 100 -> usable_transform S inverse ->
  geometry (real64 r) P -> follows far S inverse (to_grid P) -> N * misplaced S far <= real64 r / 1000000 ->
  point_within S loc -> in_bounds d (index_of p (to_grid p loc)) = true ->
  in_bounds d (index_of P q) = true -> between_centers (real_field s) q ->
  0 <= D -> filled (index_of P q) = false ->
  (forall b, in_bounds d b = true -> filled b = true -> D <= gap q (center_of P b)) ->
  exists e, estimate_distance (sdf_field s) p loc = Ok (e, true) /\ finite_double e /\
    (1 - bpow radix2 (-23)) * D - 2.102 * real64 r <= real64 e.
Proof. intros d r filled s N inverse forward w v P S far loc D p q HM Sm X Y Z SB U G F Fi L I1 I2.
  exact (placed_below d r filled s N HM Sm X Y Z inverse forward w v P S far SB U G F Fi loc L I1 I2 D). Qed.
Print Assumptions C126_not_below.

(** ... nor above the distance of any of them by more than three quarters of a cell
    and, where the field is not exact, 42 percent. *)
Theorem C126_not_above : forall d r filled s N inverse forward w v P S far loc b,
  let p := placed_pose r inverse forward w v in let q := to_grid P (real_vec loc) in
  field_of_map d r filled s -> real64 r <= bpow radix2 80 ->
  IZR (nx d) <= N -> IZR (ny d) <= N -> IZR (nz d) <= N ->
  bpow radix2 (-100) <= S <= bpow radix2 100 -> usable_transform S inverse ->
  geometry (real64 r) P -> follows far S inverse (to_grid P) -> N * misplaced S far <= real64 r / 1000000 ->
  point_within S loc -> in_bounds d (index_of p (to_grid p loc)) = true ->
  in_bounds d (index_of P q) = true -> between_centers (real_field s) q ->
  in_bounds d b = true -> filled b = true ->
  (flat d -> exists e, estimate_distance (sdf_field s) p loc = Ok (e, true) /\ finite_double e /\
     real64 e <= 1.42 * gap q (center_of P b) + 0.752 * real64 r) /\
  ((forall j, in_bounds d j = true -> within_one (index_of P q) j -> exact_at d r filled s j) ->
   exists e, estimate_distance (sdf_field s) p loc = Ok (e, true) /\ finite_double e /\
     real64 e <= (1 + bpow radix2 (-23)) * gap q (center_of P b) + 0.377 * real64 r).
Proof.
  intros d r filled s N inverse forward w v P S far loc b p q HM Sm X Y Z SB U G F Fi L I1 I2 Bc Hb Fb. split.
  - intros Fl. exact (placed_planar d r filled s N HM Sm X Y Z inverse forward w v P S far SB U G F Fi loc L I1 I2 b Bc Fl Hb Fb).
  - intros Ex. exact (placed_exact d r filled s N HM Sm X Y Z inverse forward w v P S far SB U G F Fi loc L I1 I2 b Bc Hb Fb Ex).
Qed.
Print Assumptions C126_not_above.

(** In front of a flat wall the estimate is the distance from its face ... *)
Theorem C126_distance_from_wall : forall a low d r oob frame is_filled k N s x inverse forward w v P S far loc,
  let p := placed_pose r inverse forward w v in
  extracted_wall a low d r oob frame is_filled k N s x ->
  bpow radix2 (-100) <= S <= bpow radix2 90 -> usable_transform S inverse -> follows far S inverse (to_grid P) ->
  point_within S loc -> in_bounds d (index_of p (to_grid p loc)) = true ->
  exists e, estimate_distance (sdf_field s) p loc = Ok (e, true) /\ finite_double e /\
    Rabs (real64 e - above_wall (real64 r) (cells_along a d) a low k (to_grid P (real_vec loc)))
      <= wall_tolerance (real64 r) N + misplaced S far.
Proof. intros a low d r oob frame is_filled k N s x inverse forward w v P S far loc p.
  exact (placed_wall a low d r oob frame is_filled k N s x inverse forward w v P S far loc). Qed.
Print Assumptions C126_distance_from_wall.

(** ... and the projection moves the point straight away from the wall, as C125 says,
    up to 33 times the misplacement of a point. *)
Theorem C126_projection : forall a low d r oob frame is_filled k N s x inverse forward w v P S far loc md mult t,
  let p := placed_pose r inverse forward w v in
  let tol := wall_tolerance (real64 r) N in
  let err := misplaced S far in
  let height q := above_wall (real64 r) (cells_along a d) a low k (to_grid P (real_vec q)) in
  let limit := real64 md + real64 r * real64 mult / 10000 + 2 * tol in
  extracted_wall a low d r oob frame is_filled k N s x ->
  bpow radix2 (-100) <= S <= bpow radix2 90 -> usable_transform S inverse -> follows far S inverse (to_grid P) ->
  point_within S loc -> in_bounds d (index_of p (to_grid p loc)) = true ->
  real64 r <= 3.99 -> finite_double md -> Rabs (real64 md) <= real64 r * IZR N ->
  finite_double mult -> 0 < real64 mult <= 1 -> 16 * tol <= real64 r * real64 mult / 10000 ->
  real64 r * IZR N <= S -> usable_transform (16 * S) forward -> follows far (16 * S) forward (to_world P) ->
  geometry (real64 r) P -> rigid P t ->
  forall passes fuel,
  real64 md + tol + err - height loc <= INR passes * (real64 r * real64 mult - tol) -> (passes + 2 <= fuel)%nat ->
  (exists z, project_out fuel (sdf_field s) p loc md mult = Finished z /\ finite_vec z /\
     (forall b, b <> a -> Rabs (axis_of b (to_grid P (real_vec z)) - axis_of b (to_grid P (real_vec loc))) <= 33 * err) /\
     real64 md - tol - 32 * err < height z <= Rmax (height loc) limit + 33 * err) \/
  (project_out fuel (sdf_field s) p loc md mult = Failed "Index out of bounds" /\
   real64 r * IZR (cells_along a d - k) < limit).
Proof. intros a low d r oob frame is_filled k N s x inverse forward w v P S far loc md mult t p tol err height limit E SB U F L Hi.
  exact (placed_projection a low d r oob frame is_filled k N s x inverse forward w v P S far loc E SB U F L Hi md mult t). Qed.
Print Assumptions C126_projection.


(** Non-vacuity: the grid stands turned a quarter about z and moved by (10, 20, 30).
    First, 3 x 3 x 1 cells of side 1 with the middle one filled, seen from the
    point (9, 20.5, 30.5), which is (1/2, 1, 1/2) in the grid ... *)
Example C126_nonvacuous : exists s,
  let p := placed_pose one64 shelf_inverse shelf_forward zero64 (row 0 0 1) in
  let P := shelf (real64 one64) in let q := to_grid P (real_vec shelf_point) in
  field_of_map (D 3 3 1) one64 (only (I 1 1 0)) s /\ real64 one64 <= bpow radix2 80 /\
  bpow radix2 (-100) <= 32 <= bpow radix2 100 /\ usable_transform 32 shelf_inverse /\
  geometry (real64 one64) P /\ follows 0 32 shelf_inverse (to_grid P) /\ 3 * misplaced 32 0 <= real64 one64 / 1000000 /\
  point_within 32 shelf_point /\ in_bounds (D 3 3 1) (index_of p (to_grid p shelf_point)) = true /\
  in_bounds (D 3 3 1) (index_of P q) = true /\ between_centers (real_field s) q /\
  flat (D 3 3 1) /\ in_bounds (D 3 3 1) (I 1 1 0) = true /\ only (I 1 1 0) (I 1 1 0) = true /\
  only (I 1 1 0) (index_of P q) = false /\
  (forall b, in_bounds (D 3 3 1) b = true -> only (I 1 1 0) b = true -> 1 <= gap q (center_of P b)) /\
  (forall j, in_bounds (D 3 3 1) j = true -> exact_at (D 3 3 1) one64 (only (I 1 1 0)) s j).
Proof.
  destruct ideal_case as (s & H & Sm & _ & _ & B & R_). exists s. cbv zeta. rewrite shelf_point_grid.
  assert (R1 : 0 < real64 one64) by (rewrite real_one; lra).
  split; [exact H|]. split; [exact Sm|].
  split. { change 32 with (bpow radix2 5). split; apply bpow_le; lia. }
  split; [apply shelf_usable; lra|]. split; [apply (shelf_pose _ R1)|]. split; [apply shelf_follows|].
  split. { rewrite real_one. unfold misplaced. change (bpow radix2 (-53)) with (/ 9007199254740992). lra. }
  split; [apply shelf_point_within; lra|]. split; [vm_compute; reflexivity|]. split; [exact B|exact R_].
Qed.

(** ... then the floor of C125 in the same place, seen from (9.75, 20.25, 30.125). *)
Example C126_wall_nonvacuous : exists s x,
  let p := placed_pose quarter64 shelf_inverse shelf_forward zero64 (row 0 0 1) in
  let P := shelf (real64 quarter64) in
  let tol := wall_tolerance (real64 quarter64) 6 in
  extracted_wall AlongZ true floor_dims quarter64 zero32 "grid" floor_filled 2 6 s x /\
  bpow radix2 (-100) <= 32 <= bpow radix2 90 /\ usable_transform 32 shelf_inverse /\ follows 0 32 shelf_inverse (to_grid P) /\
  point_within 32 shelf_spot /\ in_bounds floor_dims (index_of p (to_grid p shelf_spot)) = true /\
  real64 quarter64 <= 3.99 /\ finite_double quarter64 /\ Rabs (real64 quarter64) <= real64 quarter64 * 6 /\
  finite_double eighth64 /\ 0 < real64 eighth64 <= 1 /\ 16 * tol <= real64 quarter64 * real64 eighth64 / 10000 /\
  real64 quarter64 * 6 <= 32 /\ usable_transform (16 * 32) shelf_forward /\ follows 0 (16 * 32) shelf_forward (to_world P) /\
  geometry (real64 quarter64) P /\ rigid P shelf_shift /\
  above_wall (real64 quarter64) 6 AlongZ true 2 (to_grid P (real_vec shelf_spot)) = - (3 / 8) /\
  real64 quarter64 + tol + misplaced 32 0 - - (3 / 8) <= INR 21 * (real64 quarter64 * real64 eighth64 - tol) /\
  real64 quarter64 + real64 quarter64 * real64 eighth64 / 10000 + 2 * tol <= real64 quarter64 * IZR (6 - 2).
Proof.
  destruct C125_nonvacuous as (s & x & H). cbv zeta in H. exists s, x. cbv zeta.
  destruct H as (E & Sm & F1 & B1 & F2 & _ & M & _ & _ & _ & _ & L).
  assert (Rq : real64 quarter64 = 1 / 4) by (unfold real64, quarter64; cbn [B2R]; unfold F2R; cbn; lra).
  assert (R8 : real64 eighth64 = 1 / 8) by (unfold real64, eighth64; cbn [B2R]; unfold F2R; cbn; lra).
  assert (R0 : 0 < real64 quarter64) by lra. rewrite shelf_spot_grid.
  split; [exact E|]. split. { change 32 with (bpow radix2 5). split; apply bpow_le; lia. }
  split; [apply shelf_usable; lra|]. split; [apply shelf_follows|]. split; [apply shelf_point_within; lra|].
  split; [vm_compute; reflexivity|]. split; [exact Sm|]. split; [exact F1|]. split; [exact B1|]. split; [exact F2|].
  split; [lra|]. split; [exact M|]. split; [lra|]. split; [apply shelf_usable; lra|]. split; [apply shelf_follows|].
  destruct (shelf_pose _ R0) as (G & Rg). split; [exact G|]. split; [exact Rg|].
  split. { unfold above_wall. cbn [vz]. rewrite Rq. change (1 / 8 - 1 / 4 * 2 = - (3 / 8)). lra. }
  split; [|exact L]. rewrite Rq, R8 in *. rewrite INR_IZR_INZ. change (IZR (Z.of_nat 21)) with 21.
  unfold misplaced. change (bpow radix2 (-53)) with (/ 9007199254740992). lra.
Qed.
