(** C26-C32, C60-C62: queries of a signed distance field.
    Theorems over an arithmetic [A] hold for IEEE floats and for reals alike. *)
From Coq Require Import Reals Lra.
From Verif Require Import Base Floats Grid CollisionMap SdfGen Arith SdfQuery SdfField QuerySpec
  QueryProofs QueryReal QueryThms QueryTurn QueryWitness.
Open Scope Z_scope.

(** C26: the gradient is missing exactly outside the grid, or at an edge cell
    when edge gradients are off. *)
Theorem C26_gradient_available : forall (A : arith) (f : field A) p i edges,
  gradient f p i edges = None <->
  in_bounds (f_dims f) i = false \/ (edges = false /\ ~ strictly_inside (f_dims f) i).
Proof. intros A. exact gradient_none. Qed.
Print Assumptions C26_gradient_available.

Theorem C26_grid_gradient_available : forall (A : arith) (f : field A) i edges,
  grid_aligned_gradient f i edges = None <->
  in_bounds (f_dims f) i = false \/ (edges = false /\ ~ strictly_inside (f_dims f) i).
Proof. intros A. exact aligned_none. Qed.
Print Assumptions C26_grid_gradient_available.

Theorem C26_location_gradient_available : forall (A : arith) (f : field A) p loc edges,
  gradient_at f p loc edges = None <->
  in_bounds (f_dims f) (index_of p (to_grid p loc)) = false \/
  (edges = false /\ ~ strictly_inside (f_dims f) (index_of p (to_grid p loc))).
Proof. intros A. exact gradient_at_none. Qed.
Print Assumptions C26_location_gradient_available.

(** C27, real arithmetic: exact on affine fields, 0 on an axis with one cell. *)
Theorem C27_affine_gradient : forall (f : rfield) c a b g i edges,
  (0 < f_res f)%R -> affine_values f c a b g -> in_bounds (f_dims f) i = true ->
  edges = true \/ strictly_inside (f_dims f) i ->
  grid_aligned_gradient f i edges =
    Some (@V reals (if nx (f_dims f) =? 1 then 0 else a / f_res f)
                   (if ny (f_dims f) =? 1 then 0 else b / f_res f)
                   (if nz (f_dims f) =? 1 then 0 else g / f_res f))%R.
Proof. exact affine_gradient. Qed.
Print Assumptions C27_affine_gradient.

(** C27, the rotation into the world frame keeps the length. *)
Theorem C27_rotation_keeps_length : forall (f : rfield) (p : pose reals) i edges g,
  (rot_w p * rot_w p + length_squared (rot_v p) <> 0)%R ->
  grid_aligned_gradient f i edges = Some g ->
  exists w, gradient f p i edges = Some w /\ length_squared w = length_squared g.
Proof. exact gradient_length. Qed.
Print Assumptions C27_rotation_keeps_length.

(** C27, the world frame: if the values are an affine function of the cell centres'
    positions in the world, with slope [n], the gradient is [n]. *)
Theorem C27_world_gradient : forall (f : rfield) p t c n i edges,
  (0 < f_res f)%R -> geometry (f_res f) p -> rigid p t -> within_axes (f_dims f) p n ->
  (forall j, in_bounds (f_dims f) j = true ->
     value f j = c + dot n (to_world p (center_of p j)))%R ->
  in_bounds (f_dims f) i = true -> edges = true \/ strictly_inside (f_dims f) i ->
  gradient f p i edges = Some n.
Proof. exact world_gradient. Qed.
Print Assumptions C27_world_gradient.

(** C28 *)
Theorem C28_estimate_never_faults : forall (A : arith) (f : field A) p loc,
  (in_bounds (f_dims f) (index_of p (to_grid p loc)) = true ->
     exists e, estimate_distance f p loc = Ok (e, true)) /\
  (in_bounds (f_dims f) (index_of p (to_grid p loc)) = false ->
     estimate_distance f p loc = Ok (widen A (goob (f_grid f)), false)).
Proof. intros A. exact estimate_distance_spec. Qed.
Print Assumptions C28_estimate_never_faults.

(** C29, real arithmetic.  At a cell centre the estimate is the corrected value. *)
Theorem C29_estimate_at_center : forall (f : rfield) p i,
  (0 < f_res f)%R -> geometry (f_res f) p -> in_bounds (f_dims f) i = true ->
  index_of p (center_of p i) = i /\
  estimate_distance f p (to_world p (center_of p i)) = Ok (centered_value f i, true).
Proof. exact estimate_at_center. Qed.
Print Assumptions C29_estimate_at_center.

(** C29, away from the outer half cells: between the bounds of the cells around. *)
Theorem C29_estimate_between_partial : forall (f : rfield) p q lo hi,
  (0 < f_res f)%R -> geometry (f_res f) p -> in_bounds (f_dims f) (index_of p q) = true ->
  between_centers f q ->
  (forall j, around f p q j -> (lo <= centered_value f j <= hi)%R) ->
  exists e, estimate_distance f p (to_world p q) = Ok (e, true) /\ (lo <= e <= hi)%R.
Proof. exact estimate_between. Qed.
Print Assumptions C29_estimate_between_partial.

(** C29 without [between_centers] is false: in an outer half cell the estimate can
    be below every cell of the grid. *)
Theorem C29_extrapolation_refuted :
  exists (f : rfield) p q e, (0 < f_res f)%R /\ geometry (f_res f) p /\
    in_bounds (f_dims f) (index_of p q) = true /\
    estimate_distance f p (to_world p q) = Ok (e, true) /\
    forall j, in_bounds (f_dims f) j = true -> (e < centered_value f j)%R.
Proof. exact estimate_extrapolates. Qed.
Print Assumptions C29_extrapolation_refuted.

(** C29, fields whose corrected values are affine are reproduced everywhere. *)
Theorem C29_affine_reproduced : forall (f : rfield) p q c a b g,
  (0 < f_res f)%R -> geometry (f_res f) p -> in_bounds (f_dims f) (index_of p q) = true ->
  (nx (f_dims f) = 1 -> a = 0%R) -> (ny (f_dims f) = 1 -> b = 0%R) -> (nz (f_dims f) = 1 -> g = 0%R) ->
  (forall j, in_bounds (f_dims f) j = true -> centered_value f j =
     c + a * vx (center_of p j) + b * vy (center_of p j) + g * vz (center_of p j))%R ->
  estimate_distance f p (to_world p q) = Ok ((c + a * vx q + b * vy q + g * vz q)%R, true).
Proof. exact estimate_affine. Qed.
Print Assumptions C29_affine_reproduced.

(** C30, real arithmetic.  The margin is min_distance + resolution/10000. *)
Theorem C30_projection_into_volume : forall (f : rfield) p loc md,
  let m := (md + f_res f / 10000)%R in
  geometry (f_res f) p ->
  (2 * m <= vx (f_size f))%R -> (2 * m <= vy (f_size f))%R -> (2 * m <= vz (f_size f))%R ->
  let q := to_grid p loc in
  let w := project_into_valid_volume f p loc md in
  in_box m (f_size f) (to_grid p w) /\
  (in_box m (f_size f) q -> w = loc) /\
  (forall b, in_box m (f_size f) b ->
     (Rabs (vx (to_grid p w) - vx q) <= Rabs (vx b - vx q) /\
      Rabs (vy (to_grid p w) - vy q) <= Rabs (vy b - vy q) /\
      Rabs (vz (to_grid p w) - vz q) <= Rabs (vz b - vz q))%R) /\
  project_into_valid_volume f p w md = w.
Proof. exact project_into_spec. Qed.
Print Assumptions C30_projection_into_volume.

(** C31, real arithmetic: a returned point has the requested estimated distance;
    otherwise the call throws one of two errors (or has not ended). *)
Theorem C31_projection_out : forall fuel (f : rfield) p loc md mult,
  geometry (f_res f) p ->
  match project_out fuel f p loc md mult with
  | Finished w => exists e, estimate_distance f p w = Ok (e, true) /\ (md < e)%R
  | Failed why => why = "Encountered flat gradient - stuck"%string \/ why = "Index out of bounds"%string
  | Running _ _ _ => True
  end.
Proof. exact project_out_real. Qed.
Print Assumptions C31_projection_out.

Theorem C31_far_points_unchanged : forall fuel (f : rfield) p loc md mult e,
  geometry (f_res f) p -> estimate_distance f p loc = Ok (e, true) -> (md < e)%R ->
  project_out (S fuel) f p loc md mult = Finished loc.
Proof. exact project_out_unchanged. Qed.
Print Assumptions C31_far_points_unchanged.

(** C31, real arithmetic: from a point outside the grid the projection starts at the
    point nearest to it that is inside by resolution/10000. *)
Theorem C31_outside_points : forall fuel (f : rfield) p loc md mult,
  let r := f_res f in let m := (r / 10000)%R in
  (0 < r)%R -> geometry r p -> (1 <= nx (f_dims f) /\ 1 <= ny (f_dims f) /\ 1 <= nz (f_dims f))%Z ->
  f_size f = (@V reals (r * IZR (nx (f_dims f))) (r * IZR (ny (f_dims f))) (r * IZR (nz (f_dims f))))%R ->
  let q := to_grid p loc in in_bounds (f_dims f) (index_of p q) = false ->
  exists w, in_box m (f_size f) (to_grid p w) /\
    (forall b, in_box m (f_size f) b ->
       (Rabs (vx (to_grid p w) - vx q) <= Rabs (vx b - vx q) /\
        Rabs (vy (to_grid p w) - vy q) <= Rabs (vy b - vy q) /\
        Rabs (vz (to_grid p w) - vz q) <= Rabs (vz b - vz q))%R) /\
    in_bounds (f_dims f) (index_of p (to_grid p w)) = true /\
    project_out fuel f p loc md mult = project_out fuel f p w md mult.
Proof. exact project_out_outside. Qed.
Print Assumptions C31_outside_points.

(** C31, any arithmetic, in the grid frame: the loop ends only where the estimate
    is not <= the requested distance. *)
Theorem C31_projection_out_any : forall (A : arith) fuel (f : field A) p q md mult,
  match project_out_grid_frame fuel f p q md mult with
  | Finished q' => exists e, in_bounds (f_dims f) (index_of p q') = true /\
      estimate_from_neighbors f p q' (index_of p q') = Ok e /\ dle A e md = false
  | Failed why => why = "Encountered flat gradient - stuck"%string \/ why = "Index out of bounds"%string
  | Running q' i' e => i' = index_of p q' /\ estimate_from_neighbors f p q' i' = Ok e
  end.
Proof. intros A. exact project_out_grid_spec. Qed.
Print Assumptions C31_projection_out_any.

(** C31, each pass moves the point by at most resolution * multiplier. *)
Theorem C31_step_length : forall (f : rfield) p md mult q i d q' i' d',
  (0 < f_res f)%R -> (0 < mult)%R -> (d <= md)%R ->
  project_step f p md mult q i d = Running q' i' d' ->
  (length_squared (vsub q' q) <= (f_res f * mult) * (f_res f * mult))%R.
Proof. exact project_step_length. Qed.
Print Assumptions C31_step_length.

(** C31 is false of the program when values are infinite: in a map without free
    cells the estimate at a cell centre is NaN, and the projection returns a point
    inside the obstacle, unchanged. *)
Theorem C31_infinite_values_refuted :
  exists s x e, cm_extract_sdf solid one64 one64 one64 inf32 false false = Ok (s, x) /\
    (forall i, in_bounds (D 2 1 1) i = true -> lt32 (fst (sdf_get s i)) zero32 = true) /\
    estimate_distance (sdf_field s) (ieee_pose one64) solid_point = Ok (e, true) /\
    Binary.is_nan 53 1024 e = true /\
    project_out 1 (sdf_field s) (ieee_pose one64) solid_point one64 eighth = Finished solid_point.
Proof. exact projection_stays_in_solid. Qed.
Print Assumptions C31_infinite_values_refuted.

(** C32, real arithmetic: flag iff inside, and then the smallest face distance. *)
Theorem C32_distance_to_boundary : forall (f : rfield) p loc,
  let (v, inside) := distance_to_boundary f p loc in
  let q := to_grid p loc in
  (inside = true <-> in_box 0 (f_size f) q) /\
  (inside = true -> In v (face_distances (f_size f) q) /\
     forall w, In w (face_distances (f_size f) q) -> (v <= w)%R).
Proof. exact boundary_inside. Qed.
Print Assumptions C32_distance_to_boundary.

(** C32, "negative outside" is false. *)
Theorem C32_negative_outside_refuted :
  exists (f : rfield) p loc v, (0 < f_res f)%R /\ geometry (f_res f) p /\
    distance_to_boundary f p loc = (v, false) /\ (0 < v)%R.
Proof. exact boundary_outside_positive. Qed.
Print Assumptions C32_negative_outside_refuted.

(** C60 is false: on the field extracted from a corridor of six cells the
    projection out of collision never returns, in IEEE arithmetic. *)
Theorem C60_projection_terminates_refuted :
  exists s x, cm_extract_sdf corridor one64 one64 one64 inf32 false false = Ok (s, x) /\
    in_bounds (f_dims (sdf_field s)) (index_of (ieee_pose one64) mid) = true /\
    forall fuel, exists q i d,
      project_out fuel (sdf_field s) (ieee_pose one64) mid (b64_of_Z 3) eighth = Running q i d.
Proof. exact projection_hangs. Qed.
Print Assumptions C60_projection_terminates_refuted.

(** C61: the smooth gradient. *)
Theorem C61_smooth_gradient_available : forall (A : arith) (f : field A) p x y z w,
  let a := dabs A w in
  let inside loc := in_bounds (f_dims f) (index_of p (to_grid p loc)) in
  let reach :=
    (inside (V (dsub A x a) y z) || inside (V (dadd A x a) y z)) &&
    (inside (V x (dsub A y a) z) || inside (V x (dadd A y a) z)) &&
    (inside (V x y (dsub A z a)) || inside (V x y (dadd A z a))) in
  (inside (V x y z) = false -> smooth_gradient f p (V x y z) w = Ok None) /\
  (inside (V x y z) = true -> reach = true ->
     exists g, smooth_gradient f p (V x y z) w = Ok (Some g)) /\
  (inside (V x y z) = true -> reach = false ->
     smooth_gradient f p (V x y z) w =
       Throw "Window size for GetSmoothGradient is too large for SDF").
Proof. intros A. exact smooth_gradient_spec. Qed.
Print Assumptions C61_smooth_gradient_available.

(** C61, real arithmetic: where it is available on a field whose corrected values
    are affine in the world with slope [n], it is [n], for every window. *)
Theorem C61_smooth_gradient_affine : forall (f : rfield) p t c n loc w g,
  (0 < f_res f)%R -> geometry (f_res f) p -> rigid p t -> within_axes (f_dims f) p n ->
  (forall j, in_bounds (f_dims f) j = true ->
     centered_value f j = c + dot n (to_world p (center_of p j)))%R ->
  (w <> 0)%R -> smooth_gradient f p loc w = Ok (Some g) -> g = n.
Proof. exact smooth_affine. Qed.
Print Assumptions C61_smooth_gradient_affine.

(** C62: the full gradient grid holds the gradient function's value at every cell. *)
Theorem C62_full_gradient : forall (A : arith) (f : field A) (g : idx -> option (vec A)) i,
  wf_grid (f_grid f) -> in_bounds (f_dims f) i = true ->
  get (full_gradient f g) i = (g i, true).
Proof. intros A. exact full_gradient_get. Qed.
Print Assumptions C62_full_gradient.

(** A case that meets the hypotheses: two cells in a row, values 1 and 3, unit
    cells at the origin; the point is halfway between the centres. *)
Example query_nonvacuous :
  (geometry 1 (plain_pose 1) /\ affine_values two_cells 1 2 0 0 /\
   between_centers two_cells (@V reals 1 (1/2) (1/2)) /\
   in_bounds (f_dims two_cells) (index_of (plain_pose 1) (@V reals 1 (1/2) (1/2))) = true /\
   2 * (0 + f_res two_cells / 10000) <= vy (f_size two_cells) /\
   estimate_distance two_cells (plain_pose 1) (@V reals 1 (1/2) (1/2)) = Ok (3/2, true))%R.
Proof. exact query_case. Qed.

(** A point outside those two cells. *)
Example outside_nonvacuous :
  (0 < f_res two_cells)%R /\ (1 <= nx (f_dims two_cells) /\ 1 <= ny (f_dims two_cells) /\ 1 <= nz (f_dims two_cells))%Z /\
  f_size two_cells = (@V reals (f_res two_cells * IZR (nx (f_dims two_cells))) (f_res two_cells * IZR (ny (f_dims two_cells)))
    (f_res two_cells * IZR (nz (f_dims two_cells))))%R /\
  in_bounds (f_dims two_cells) (index_of (plain_pose 1) (@V reals 7 (1/2) (1/2))%R) = false.
Proof. exact outside_case. Qed.

(** The same two cells turned a quarter about z. *)
Example query_world_nonvacuous :
  (let s := sqrt (1 / 2) in
   let p := turned_pose 1 s (@V reals 0 0 s) (@V reals 0 0 0) in
   let n := @V reals 0 2 0 in
   geometry (f_res two_cells) p /\ rigid p (@V reals 0 0 0) /\ within_axes (f_dims two_cells) p n /\
   (forall j, in_bounds (f_dims two_cells) j = true ->
      value two_cells j = 0 + dot n (to_world p (center_of p j))) /\
   (forall j, in_bounds (f_dims two_cells) j = true ->
      centered_value two_cells j = - (1 / 2) + dot n (to_world p (center_of p j))) /\
   gradient two_cells p (I 0 0 0) true = Some n)%R.
Proof. exact turned_case. Qed.
