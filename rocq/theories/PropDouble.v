(** C93-C95, C97: queries in doubles and floats, rounding included. *)
From Coq Require Import Reals.
From Flocq Require Import Core.Core.
From Verif Require Import Base Floats Grid Arith SdfQuery SdfField QuerySpec QueryWitness DoubleSpec DoubleQuery DoubleCase
  DoubleEstimate DoubleGrid.
Open Scope R_scope.

(** C93: the flag is exact and the distance correctly rounded. *)
Theorem C93_boundary_in_doubles : forall (f : field ieee) p loc,
  finite_vec (to_grid p loc) -> finite_vec (f_size f) ->
  let (v, inside) := distance_to_boundary f p loc in
  let q := real_vec (to_grid p loc) in let size := real_vec (f_size f) in
  (inside = true <-> in_box 0 size q) /\
  (inside = true -> finite_double v /\
     exists d, In d (face_distances size q) /\ (forall w, In w (face_distances size q) -> d <= w) /\
               real64 v = nearest_double d).
Proof. exact boundary_double. Qed.
Print Assumptions C93_boundary_in_doubles.

(** C94: the projection into the volume.  [m] is the margin, minimum distance
    plus resolution/10000, as the program rounds it. *)
Theorem C94_projection_in_doubles : forall (f : field ieee) p loc md m,
  cuts_off p -> m = add64 md (mul64 (f_res f) (div64 (b64_of_Z 1) (b64_of_Z 10000))) ->
  finite_double m -> 0 <= real64 m -> finite_vec (to_grid p loc) -> finite_vec (f_size f) ->
  2 * real64 m <= real64 (vx (f_size f)) -> 2 * real64 m <= real64 (vy (f_size f)) ->
  2 * real64 m <= real64 (vz (f_size f)) ->
  let q := to_grid p loc in
  let box c := in_double_box (real64 m) (real_vec (f_size f)) c in
  let w := project_into_valid_volume f p loc md in
  exists c, finite_vec c /\ box (real_vec c) /\
    (w = loc /\ c = q \/ w = to_world p c) /\
    (box (real_vec q) -> w = loc) /\
    (forall b, box b -> Rabs (real64 (vx c) - real64 (vx q)) <= Rabs (vx b - real64 (vx q)) /\
                        Rabs (real64 (vy c) - real64 (vy q)) <= Rabs (vy b - real64 (vy q)) /\
                        Rabs (real64 (vz c) - real64 (vz q)) <= Rabs (vz b - real64 (vz q))) /\
    (to_grid p (to_world p c) = c -> to_grid p w = c /\ project_into_valid_volume f p w md = w).
Proof. exact projection_double. Qed.
Print Assumptions C94_projection_in_doubles.

(** C95: every component of the gradient is the slope between the neighbours up
    to a relative error of 2^-23. *)
Theorem C95_gradient_in_doubles : forall (f : field ieee),
  finite_double (f_res f) -> bpow radix2 (-800) <= real64 (f_res f) <= bpow radix2 800 ->
  (forall j, in_bounds (f_dims f) j = true ->
     finite_float (value f j) /\ Rabs (real32 (value f j)) <= bpow radix2 126) ->
  forall i edges g, grid_aligned_gradient f i edges = Some g ->
    accurate (vx g) (slope f (nx (f_dims f)) (ix i) (fun t => I t (iy i) (iz i))) /\
    accurate (vy g) (slope f (ny (f_dims f)) (iy i) (fun t => I (ix i) t (iz i))) /\
    accurate (vz g) (slope f (nz (f_dims f)) (iz i) (fun t => I (ix i) (iy i) t)).
Proof. exact gradient_accurate. Qed.
Print Assumptions C95_gradient_in_doubles.

(** Non-vacuity: three cells in a row with values 1, 1/2, 0, the point
    (2, 1/2, 7) and the identity pose. *)
Example double_nonvacuous :
  cuts_off (ieee_pose one64) /\
  let m := add64 zero64 (mul64 (f_res slope_field) (div64 (b64_of_Z 1) (b64_of_Z 10000))) in
  finite_double m /\ 0 <= real64 m /\ finite_vec slope_point /\ finite_vec (f_size slope_field) /\
  2 * real64 m <= real64 (vx (f_size slope_field)) /\ 2 * real64 m <= real64 (vy (f_size slope_field)) /\
  2 * real64 m <= real64 (vz (f_size slope_field)) /\
  finite_double (f_res slope_field) /\
  bpow radix2 (-800) <= real64 (f_res slope_field) <= bpow radix2 800 /\
  (forall j, in_bounds (f_dims slope_field) j = true ->
     finite_float (value slope_field j) /\ Rabs (real32 (value slope_field j)) <= bpow radix2 126) /\
  (exists g, grid_aligned_gradient slope_field (I 1 0 0) true = Some g) /\
  slope slope_field 3 1 (fun t => I t 0 0) = - (1 / 2).
Proof. split; [apply ieee_pose_cuts|exact double_case]. Qed.

(** C97: the distance estimate is the trilinear interpolation of the eight
    values around the point up to a relative error, [W] being a bound on the
    values plus the resolution and [delta] on the error in the cell centres. *)
Theorem C97_estimate_in_doubles : forall (f : field ieee) p loc delta W,
  let r := real64 (f_res f) in let q := to_grid p loc in let i := index_of p q in
  finite_double (f_res f) -> bpow radix2 (-100) <= r <= bpow radix2 100 -> W <= bpow radix2 100 ->
  (forall j, in_bounds (f_dims f) j = true ->
     finite_float (value f j) /\ Rabs (real32 (value f j)) + r <= W) ->
  centers_within f p delta -> delta <= 1 / 16 ->
  (IZR (nx (f_dims f)) + 1) * bpow radix2 (-53) <= delta -> (IZR (ny (f_dims f)) + 1) * bpow radix2 (-53) <= delta ->
  finite_vec q -> in_bounds (f_dims f) i = true -> lies_in r (real_vec q) i ->
  exists e xl xu yl yu zl zu,
    estimate_distance f p loc = Ok (e, true) /\ finite_double e /\
    cells_on_axis (nx (f_dims f)) (ix i) (real64 (vx (center_of p i))) (real64 (vx q)) xl xu /\
    cells_on_axis (ny (f_dims f)) (iy i) (real64 (vy (center_of p i))) (real64 (vy q)) yl yu /\
    cells_on_axis (nz (f_dims f)) (iz i) (real64 (vz (center_of p i))) (real64 (vz q)) zl zu /\
    Rabs (real64 e - interpolation f (real_vec q) xl xu yl yu zl zu) <= (bpow radix2 (-42) + 128 * delta) * W.
Proof. intros f p loc delta W r q i. exact (estimate_double f p loc delta W). Qed.
Print Assumptions C97_estimate_in_doubles.

(** Between the centres the estimate leaves the range of the values by no more
    than that error. *)
Theorem C97_estimate_range : forall (f : field ieee) p loc delta W lo hi,
  let r := real64 (f_res f) in let q := to_grid p loc in let i := index_of p q in
  finite_double (f_res f) -> bpow radix2 (-100) <= r <= bpow radix2 100 -> W <= bpow radix2 100 ->
  (forall j, in_bounds (f_dims f) j = true ->
     finite_float (value f j) /\ Rabs (real32 (value f j)) + r <= W) ->
  centers_within f p delta -> delta <= 1 / 16 ->
  (IZR (nx (f_dims f)) + 1) * bpow radix2 (-53) <= delta -> (IZR (ny (f_dims f)) + 1) * bpow radix2 (-53) <= delta ->
  finite_vec q -> in_bounds (f_dims f) i = true -> lies_in r (real_vec q) i ->
  (forall xl xu yl yu zl zu,
     cells_on_axis (nx (f_dims f)) (ix i) (real64 (vx (center_of p i))) (real64 (vx q)) xl xu ->
     cells_on_axis (ny (f_dims f)) (iy i) (real64 (vy (center_of p i))) (real64 (vy q)) yl yu ->
     cells_on_axis (nz (f_dims f)) (iz i) (real64 (vz (center_of p i))) (real64 (vz q)) zl zu ->
     (xl = xu \/ 0 <= progress r xl (real64 (vx q)) <= 1) /\
     (yl = yu \/ 0 <= progress r yl (real64 (vy q)) <= 1) /\
     (zl = zu \/ 0 <= progress r zl (real64 (vz q)) <= 1) /\
     (forall x y z, x = xl \/ x = xu -> y = yl \/ y = yu -> z = zl \/ z = zu ->
        lo <= centered_real f (I x y z) <= hi)) ->
  exists e, estimate_distance f p loc = Ok (e, true) /\ finite_double e /\
    lo - (bpow radix2 (-42) + 128 * delta) * W <= real64 e <= hi + (bpow radix2 (-42) + 128 * delta) * W.
Proof. exact estimate_range. Qed.
Print Assumptions C97_estimate_range.

(** For a grid at the origin nothing is assumed of the centres and the index:
    with at most [N] cells on an axis [delta] is 4 (N + 1) 2^-53. *)
Theorem C97_estimate_at_origin : forall (f : field ieee) loc N W,
  let r := real64 (f_res f) in let p := ieee_pose (f_res f) in let i := index_of p loc in
  finite_double (f_res f) -> bpow radix2 (-100) <= r <= bpow radix2 100 -> W <= bpow radix2 100 ->
  (forall j, in_bounds (f_dims f) j = true ->
     finite_float (value f j) /\ Rabs (real32 (value f j)) + r <= W) ->
  4 * (N + 1) * bpow radix2 (-53) <= 1 / 16 ->
  IZR (nx (f_dims f)) <= N -> IZR (ny (f_dims f)) <= N -> IZR (nz (f_dims f)) <= N ->
  finite_vec loc -> Rabs (real64 (vx loc)) <= bpow radix2 800 -> Rabs (real64 (vy loc)) <= bpow radix2 800 ->
  Rabs (real64 (vz loc)) <= bpow radix2 800 -> in_bounds (f_dims f) i = true ->
  exists e xl xu yl yu zl zu,
    estimate_distance f p loc = Ok (e, true) /\ finite_double e /\
    cells_on_axis (nx (f_dims f)) (ix i) (real64 (vx (center_of p i))) (real64 (vx loc)) xl xu /\
    cells_on_axis (ny (f_dims f)) (iy i) (real64 (vy (center_of p i))) (real64 (vy loc)) yl yu /\
    cells_on_axis (nz (f_dims f)) (iz i) (real64 (vz (center_of p i))) (real64 (vz loc)) zl zu /\
    Rabs (real64 e - interpolation f (real_vec loc) xl xu yl yu zl zu)
      <= (bpow radix2 (-42) + 128 * (4 * (N + 1) * bpow radix2 (-53))) * W.
Proof. intros f loc N W r p i. exact (identity_estimate f loc N W). Qed.
Print Assumptions C97_estimate_at_origin.

(** Non-vacuity: the same three cells and the point (5/4, 1/2, 1/2); the
    estimate there is 1/8 up to the error. *)
Example C97_nonvacuous :
  finite_double (f_res slope_field) /\
  bpow radix2 (-100) <= real64 (f_res slope_field) <= bpow radix2 100 /\ 2 <= bpow radix2 100 /\
  (forall j, in_bounds (f_dims slope_field) j = true ->
     finite_float (value slope_field j) /\ Rabs (real32 (value slope_field j)) + real64 (f_res slope_field) <= 2) /\
  4 * (3 + 1) * bpow radix2 (-53) <= 1 / 16 /\
  IZR (nx (f_dims slope_field)) <= 3 /\ IZR (ny (f_dims slope_field)) <= 3 /\ IZR (nz (f_dims slope_field)) <= 3 /\
  finite_vec down_point /\ Rabs (real64 (vx down_point)) <= bpow radix2 800 /\
  Rabs (real64 (vy down_point)) <= bpow radix2 800 /\ Rabs (real64 (vz down_point)) <= bpow radix2 800 /\
  in_bounds (f_dims slope_field) (index_of (ieee_pose (f_res slope_field)) down_point) = true /\
  (cells_on_axis 3 1 (3 / 2) (5 / 4) 0 1 /\
   interpolation slope_field (real_vec down_point) 0 1 0 0 0 0 = 1 / 8).
Proof. exact estimate_case. Qed.
