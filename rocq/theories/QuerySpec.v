(** Vocabulary for the queries of a signed distance field, independent of the
    code's formulas. *)
From Coq Require Import Reals.
From Verif Require Import Base Grid Arith SdfQuery.
Open Scope Z_scope.

(** Every face neighbour of the cell is in the grid. *)
Definition strictly_inside (d : dims) (i : idx) : Prop :=
  0 < ix i < nx d - 1 /\ 0 < iy i < ny d - 1 /\ 0 < iz i < nz d - 1.

(** ** Real arithmetic *)
Open Scope R_scope.
Notation rvec := (vec reals).
Notation rfield := (field reals).

(** The stored value is affine in the cell index: c + a x + b y + g z. *)
Definition affine_values (f : rfield) (c a b g : R) : Prop :=
  forall i, in_bounds (f_dims f) i = true ->
    value f i = c + a * IZR (ix i) + b * IZR (iy i) + g * IZR (iz i).

Definition length_squared (v : rvec) : R := vx v * vx v + vy v * vy v + vz v * vz v.

(** The geometry of a grid of cubes of side [r]: cell i spans [r i, r (i+1)] on
    each axis, and the pose maps the grid frame to the world and back. *)
Record geometry (r : R) (p : pose reals) : Prop := {
  g_center : forall i, center_of p i =
    @V reals (r * (IZR (ix i) + 1/2)) (r * (IZR (iy i) + 1/2)) (r * (IZR (iz i) + 1/2));
  g_index_x : forall q, r * IZR (ix (index_of p q)) <= vx q < r * (IZR (ix (index_of p q)) + 1);
  g_index_y : forall q, r * IZR (iy (index_of p q)) <= vy q < r * (IZR (iy (index_of p q)) + 1);
  g_index_z : forall q, r * IZR (iz (index_of p q)) <= vz q < r * (IZR (iz (index_of p q)) + 1);
  g_there_and_back : forall q, to_grid p (to_world p q) = q;
  g_back_and_there : forall q, to_world p (to_grid p q) = q;
  g_clamp : forall v lo hi, lo <= hi ->
    clamp p v lo hi = Rmin (Rmax v lo) hi
}.

(** A cell's value moved to its centre: half a cell towards the boundary between
    free and filled space. *)
Definition centered_value (f : rfield) (i : idx) : R :=
  if Rle_dec 0 (value f i) then value f i - f_res f / 2 else value f i + f_res f / 2.

(** The cells around a point: those whose centre is at most one cell size away
    on every axis. *)
Definition around (f : rfield) (p : pose reals) (q : rvec) (j : idx) : Prop :=
  in_bounds (f_dims f) j = true /\
  Rabs (vx q - vx (center_of p j)) <= f_res f /\
  Rabs (vy q - vy (center_of p j)) <= f_res f /\
  Rabs (vz q - vz (center_of p j)) <= f_res f.

(** On each axis the point is not in the outer half of the first or last cell
    (nothing is asked of an axis with one cell). *)
Definition between_centers_axis (r : R) (n : Z) (v : R) : Prop :=
  n = 1%Z \/ r / 2 <= v <= r * IZR n - r / 2.
Definition between_centers (f : rfield) (q : rvec) : Prop :=
  between_centers_axis (f_res f) (nx (f_dims f)) (vx q) /\
  between_centers_axis (f_res f) (ny (f_dims f)) (vy q) /\
  between_centers_axis (f_res f) (nz (f_dims f)) (vz q).

(** The box [lo, size - lo] on every axis. *)
Definition in_box (lo : R) (size v : rvec) : Prop :=
  lo <= vx v <= vx size - lo /\ lo <= vy v <= vy size - lo /\ lo <= vz v <= vz size - lo.

(** The six distances of a point (grid frame) to the planes of the grid's faces. *)
Definition face_distances (size v : rvec) : list R :=
  [vx v; vx size - vx v; vy v; vy size - vy v; vz v; vz size - vz v].

(** Rotation matrix of the unit quaternion (w, x, y, z) applied to a vector. *)
Definition turn (w : R) (u q : rvec) : rvec :=
  let (x, y, z) := u in let (a, b, c) := q in
  @V reals ((1 - 2 * (y * y + z * z)) * a + 2 * (x * y - w * z) * b + 2 * (x * z + w * y) * c)
           (2 * (x * y + w * z) * a + (1 - 2 * (x * x + z * z)) * b + 2 * (y * z - w * x) * c)
           (2 * (x * z - w * y) * a + 2 * (y * z + w * x) * b + (1 - 2 * (x * x + y * y)) * c).

(** The pose is a rotation followed by a translation [t]. *)
Record rigid (p : pose reals) (t : rvec) : Prop := {
  rigid_unit : rot_w p * rot_w p + length_squared (rot_v p) = 1;
  rigid_world : forall q, to_world p q = vadd t (turn (rot_w p) (rot_v p) q)
}.

Definition dot (u v : rvec) : R := vx u * vx v + vy u * vy v + vz u * vz v.

(** [n] has no component along the axes on which the grid has only one cell. *)
Definition within_axes (d : dims) (p : pose reals) (n : rvec) : Prop :=
  let along e := dot n (turn (rot_w p) (rot_v p) e) in
  (nx d = 1%Z -> along (@V reals 1 0 0) = 0) /\
  (ny d = 1%Z -> along (@V reals 0 1 0) = 0) /\
  (nz d = 1%Z -> along (@V reals 0 0 1) = 0).
