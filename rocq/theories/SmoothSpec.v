(** Vocabulary for smoothed gradients in doubles. *)
From Coq Require Import Reals.
From Flocq Require Import Core.Core.
From Verif Require Import Base Floats Grid DistSpec CollisionMap SdfGen SdfSpec Arith SdfQuery QuerySpec DoubleSpec WallSpec.
Open Scope R_scope.

(** The point belongs to a cell of the grid. *)
Definition inside (f : field ieee) (p : pose ieee) (a : vec ieee) : Prop :=
  in_bounds (f_dims f) (index_of p (to_grid p a)) = true.

(** [E] is the trilinear interpolation of the field at the point [a], without
    rounding. *)
Definition interpolated (f : field ieee) (p : pose ieee) (a : vec ieee) (E : R) : Prop :=
  let q := to_grid p a in let i := index_of p q in
  exists xl xu yl yu zl zu,
    cells_on_axis (nx (f_dims f)) (ix i) (real64 (vx (center_of p i))) (real64 (vx q)) xl xu /\
    cells_on_axis (ny (f_dims f)) (iy i) (real64 (vy (center_of p i))) (real64 (vy q)) yl yu /\
    cells_on_axis (nz (f_dims f)) (iz i) (real64 (vz (center_of p i))) (real64 (vz q)) zl zu /\
    E = interpolation f (real_vec q) xl xu yl yu zl zu.

(** [g] is the slope of the interpolated field from [a] to [b], whose coordinate
    [c] grows; [tol] bounds the error of the difference of the two values. *)
Definition slope_between (f : field ieee) (p : pose ieee) (c : vec ieee -> binary64) (a b : vec ieee)
    (tol : R) (g : binary64) : Prop :=
  let run := real64 (c b) - real64 (c a) in
  finite_double g /\ 0 < run /\
  exists Ea Eb, interpolated f p a Ea /\ interpolated f p b Eb /\
    Rabs (real64 g - (Eb - Ea) / run) <= tol / run.

(** The two points between which a window from [a] to [b] around [m] measures:
    an end outside the grid is replaced by the middle. *)
Definition window_points (f : field ieee) (p : pose ieee) (a m b a' b' : vec ieee) : Prop :=
  (inside f p a /\ a' = a \/ ~ inside f p a /\ a' = m) /\
  (inside f p b /\ b' = b \/ ~ inside f p b /\ b' = m).

(** ** Walls *)

(** The stored floats are those of a wall, see [wall_field]. *)
Definition double_wall (f : field ieee) (a : axis_name) (low : bool) (k : Z) : Prop :=
  (0 < k < cells_along a (f_dims f))%Z /\
  forall i, in_bounds (f_dims f) i = true -> finite_float (value f i) /\
    real32 (value f i) = wall_value (real64 (f_res f)) k (depth a low (f_dims f) i).

(** Signed distance of a point from the face of a wall [k] cells of side [r] thick,
    on an axis of [n] cells. *)
Definition above_wall (r : R) (n : Z) (a : axis_name) (low : bool) (k : Z) (q : rvec) : R :=
  let c := match a with AlongX => vx q | AlongY => vy q | AlongZ => vz q end in
  if low then c - r * IZR k else r * IZR (n - k) - c.

(** Error bound for the distance from a wall in a grid of at most [N] cells of side
    [r] on each axis. *)
Definition wall_tolerance (r : R) (N : Z) : R :=
  (bpow radix2 (-42) +
   512 * (IZR N + 1) * bpow radix2 (-53)) * (r * IZR N).

(** The point moved along an axis by a window, to one side or the other. *)
Definition shifted (op : binary64 -> binary64 -> binary64) (a : axis_name) (v : vec ieee) (w : binary64) : vec ieee :=
  match a with
  | AlongX => @V ieee (op (vx v) (b64_abs w)) (vy v) (vz v)
  | AlongY => @V ieee (vx v) (op (vy v) (b64_abs w)) (vz v)
  | AlongZ => @V ieee (vx v) (vy v) (op (vz v) (b64_abs w))
  end.
Definition before := shifted sub64.
Definition beyond := shifted add64.

(** One of the ends of the window on each axis is in the grid. *)
Definition window_fits (f : field ieee) (p : pose ieee) (v : vec ieee) (w : binary64) : Prop :=
  forall a, inside f p (before a v w) \/ inside f p (beyond a v w).

(** The window is neither tiny nor huge, also compared with the coordinates. *)
Definition usable_window (v : vec ieee) (w : binary64) : Prop :=
  finite_double w /\
  bpow radix2 (-200) <= Rabs (real64 w) <= bpow radix2 700 /\
  Rabs (real64 (vx v)) <= bpow radix2 50 * Rabs (real64 w) /\
  Rabs (real64 (vy v)) <= bpow radix2 50 * Rabs (real64 w) /\
  Rabs (real64 (vz v)) <= bpow radix2 50 * Rabs (real64 w).

(** The component of a gradient along an axis. *)
Definition component (a : axis_name) (g : vec ieee) : binary64 :=
  match a with AlongX => vx g | AlongY => vy g | AlongZ => vz g end.

(** [s] was extracted from a grid of shape [d], at most [N] cells of side [r] on each
    axis, whose filled cells are the first [k] layers from one face; the distances
    are floats. *)
Definition extracted_wall (a : axis_name) (low : bool) (d : dims) (r : binary64) (oob : binary32) (frame : string)
    (is_filled : idx -> res bool) (k N : Z) (s : sdf) (x : binary64 * binary64) : Prop :=
  size_ok d /\ usable_resolution r /\ bpow radix2 (-100) <= real64 r <= bpow radix2 80 /\
  answers d is_filled (fun c => (depth a low d c <? k)%Z) /\ (0 < k < cells_along a d)%Z /\
  stored_exactly r (cells_along a d) /\ extract_sdf d r is_filled oob frame = Ok (s, x) /\
  (nx d <= N)%Z /\ (ny d <= N)%Z /\ (nz d <= N)%Z /\ (N <= 46340)%Z.
