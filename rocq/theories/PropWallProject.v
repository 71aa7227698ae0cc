(** C125: projecting out of a flat wall, in doubles. *)
From Coq Require Import Reals Lra Lia.
From Flocq Require Import Core.Core IEEE754.Binary IEEE754.Bits.
From Verif Require Import Base Floats Grid GridFacts DistSpec CollisionMap SdfGen SdfSpec SdfThms
  Arith SdfQuery SdfField QuerySpec QueryWitness DoubleSpec DoubleQuery IdealSpec
  WallSpec WallExtract SmoothSpec WallQuery WallProject.
Open Scope R_scope.

(** C125: a point of the grid is moved straight away from the wall until the distance
    reported for it exceeds the one asked for.  The point returned is at least that far
    from the face of the wall, up to the rounding error of the estimate, and at most one
    ten-thousandth of the maximal step further, unless it started further away; its two
    other coordinates are as they were.  The number of passes is at most two more than
    the distance to go divided by the maximal step.  The only failure is leaving the
    grid, where the grid is too small for the distance asked for. *)
Theorem C125_projection_in_doubles : forall a low d r oob frame is_filled k N s x md mult loc,
  let tol := wall_tolerance (real64 r) N in
  let height q := above_wall (real64 r) (cells_along a d) a low k (real_vec q) in
  let limit := real64 md + real64 r * real64 mult / 10000 + 2 * tol in
  extracted_wall a low d r oob frame is_filled k N s x -> real64 r <= 3.99 ->
  finite_double md -> Rabs (real64 md) <= real64 r * IZR N ->
  finite_double mult -> 0 < real64 mult <= IZR N -> 16 * tol <= real64 r * real64 mult / 10000 ->
  usable_point loc -> in_bounds d (index_of (ieee_pose r) loc) = true ->
  forall passes fuel,
  real64 md + tol - height loc <= INR passes * (real64 r * real64 mult - tol) -> (passes + 2 <= fuel)%nat ->
  (exists w, project_out fuel (sdf_field s) (ieee_pose r) loc md mult = Finished w /\ finite_vec w /\
     (forall b, b <> a -> real64 (component b w) = real64 (component b loc)) /\
     real64 md - tol < height w <= Rmax (height loc) limit) \/
  (project_out fuel (sdf_field s) (ieee_pose r) loc md mult = Failed "Index out of bounds" /\
   real64 r * IZR (cells_along a d - k) < limit).
Proof. exact extracted_projection_doubles. Qed.
Print Assumptions C125_projection_in_doubles.

(** The step asked for is large enough for the default of an eighth of a cell in grids
    of up to 3000 cells on each axis. *)
Theorem C125_default_step : forall r mult N,
  0 < r -> (1 <= N <= 3000)%Z -> mult = 1 / 8 -> 16 * wall_tolerance r N <= r * mult / 10000.
Proof. exact default_margin. Qed.
Print Assumptions C125_default_step.

(** Non-vacuity: 2 x 2 x 6 cells of side a quarter, the two bottom layers filled; the
    point (1/4, 1/4, 1/8), a distance of a quarter and the default step.  21 passes
    are enough, and the wall leaves room for the distance. *)
Definition eighth64 : binary64 := B754_finite 53 1024 false 4503599627370496 (-55) eq_refl.
Definition floor_dims : dims := D 2 2 6.
Definition floor_filled (i : idx) : res bool := Ok (depth AlongZ true floor_dims i <? 2)%Z.
Definition floor_spot : vec ieee := @V ieee quarter64 quarter64 eighth64.
Example C125_nonvacuous : exists s x,
  let tol := wall_tolerance (real64 quarter64) 6 in
  extracted_wall AlongZ true floor_dims quarter64 zero32 "grid" floor_filled 2 6 s x /\ real64 quarter64 <= 3.99 /\
  finite_double quarter64 /\ Rabs (real64 quarter64) <= real64 quarter64 * 6 /\
  finite_double eighth64 /\ 0 < real64 eighth64 <= 6 /\ 16 * tol <= real64 quarter64 * real64 eighth64 / 10000 /\
  usable_point floor_spot /\ in_bounds floor_dims (index_of (ieee_pose quarter64) floor_spot) = true /\
  above_wall (real64 quarter64) 6 AlongZ true 2 (real_vec floor_spot) = - (3 / 8) /\
  real64 quarter64 + tol - - (3 / 8) <= INR 21 * (real64 quarter64 * real64 eighth64 - tol) /\
  real64 quarter64 + real64 quarter64 * real64 eighth64 / 10000 + 2 * tol <= real64 quarter64 * IZR (6 - 2).
Proof.
  assert (S : size_ok floor_dims) by (unfold size_ok; cbn; lia).
  assert (An : answers floor_dims floor_filled (fun c => (depth AlongZ true floor_dims c <? 2)%Z)) by (intros c Hc; reflexivity).
  assert (Rq : real64 quarter64 = 1 / 4) by (unfold real64, quarter64; cbn [B2R]; unfold F2R; cbn; lra).
  assert (R8 : real64 eighth64 = 1 / 8) by (unfold real64, eighth64; cbn [B2R]; unfold F2R; cbn; lra).
  assert (R2 : 1 / 4 = bpow radix2 (-2)) by (cbn; lra).
  destruct (extract_sign floor_dims quarter64 zero32 "grid" _ _ S quarter_usable An) as (s & x & He & Dd & _).
  assert (T : 16 * wall_tolerance (1 / 4) 6 <= 1 / 4 * (1 / 8) / 10000) by (apply default_margin; [lra|lia|reflexivity]).
  assert (T0 : 0 <= wall_tolerance (1 / 4) 6).
  { unfold wall_tolerance. pose proof (bpow_gt_0 radix2 (-42)). pose proof (bpow_gt_0 radix2 (-53)). lra. }
  assert (B8 : 1 <= bpow radix2 800) by (change 1 with (bpow radix2 0); apply bpow_le; lia).
  exists s, x. cbv zeta. rewrite ?Rq, ?R8. split.
  { split; [exact S|]. split; [exact quarter_usable|].
    split; [rewrite Rq, R2; split; apply bpow_le; lia|]. split; [exact An|]. split; [cbn; lia|].
    split; [apply quarter_stored; cbn; lia|]. split; [exact He|]. cbn. lia. }
  split; [lra|]. split; [reflexivity|]. split; [rewrite Rabs_pos_eq; lra|]. split; [reflexivity|]. split; [lra|]. split; [exact T|].
  split; [split; [repeat split|unfold floor_spot; cbn [vx vy vz]; rewrite Rq, R8, !Rabs_pos_eq by lra; lra]|].
  split; [vm_compute; reflexivity|]. split; [unfold above_wall, floor_spot; cbn [real_vec vx vy vz]; rewrite R8; change (1 / 8 - 1 / 4 * 2 = - (3 / 8)); lra|].
  split; [rewrite INR_IZR_INZ; change (IZR (Z.of_nat 21)) with 21; lra|]. change (IZR (6 - 2)) with 4. lra.
Qed.
