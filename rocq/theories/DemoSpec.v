(** Vocabulary for the demonstration script: where points lie among the voxels
    and where results are drawn. *)
From Coq Require Import Reals.
From Flocq Require Import Core.Core.
From Verif Require Import Base Floats Grid Arith SdfQuery DoubleSpec Demo.
Local Open Scope R_scope.

(** How far a coordinate is from the grid's corner [o], in voxels of size [r]. *)
Definition in_voxels (r o x : binary64) : R := (real64 x - real64 o) / real64 r.

(** The same for the three coordinates of a point. *)
Definition all_in_voxels (r : binary64) (o p : vec ieee) : list R :=
  [in_voxels r (vx o) (vx p); in_voxels r (vy o) (vy p); in_voxels r (vz o) (vz p)].

(** The point is in voxel [ix], at least [m] voxel sizes from each of its faces;
    with a negative [m], in it or that close to it. *)
Definition inside_voxel (m : R) (r : binary64) (o p : vec ieee) (ix : list Z) : Prop :=
  Forall2 (fun q i => IZR i + m <= q < IZR i + 1 - m) (all_in_voxels r o p) ix.

(** The point is in the grid of this shape, at least [m] from the upper faces. *)
Definition inside_grid (m : R) (r : binary64) (o p : vec ieee) (s : list Z) : Prop :=
  Forall2 (fun q n => 0 <= q <= IZR n - m) (all_in_voxels r o p) s.

(** The point is above the grid or more than a grid's size below it on some
    axis, by at least [m]. *)
Definition far_outside (m : R) (r : binary64) (o p : vec ieee) (s : list Z) : Prop :=
  exists k q n, nth_error (all_in_voxels r o p) k = Some q /\ nth_error s k = Some n /\
    (IZR n + m <= q \/ q <= - (IZR n + 1 + m)).

(** A resolution, an origin and a point of ordinary size, the point at most 2^31
    voxels away. *)
Definition ordinary (r : binary64) (o p : vec ieee) : Prop :=
  finite_double r /\ bpow radix2 (-100) <= real64 r <= bpow radix2 100 /\ finite_vec o /\ finite_vec p /\
  Forall (fun q => Rabs q <= bpow radix2 31) (all_in_voxels r o p).

(** One part in a million: the margin for rounding. *)
Definition margin : R := bpow radix2 (-20).

(** Where a voxel's lower corner is on an axis: its index times the resolution
    plus the origin. *)
Definition corner (r o : binary64) (i : Z) : R := IZR i * real64 r + real64 o.

(** A float, or a double, is this real number up to a small relative error. *)
Definition float_at (x : binary32) (c : R) : Prop :=
  finite_float x /\ Rabs (real32 x - c) <= bpow radix2 (-22) * Rabs c + bpow radix2 (-149).
Definition double_at (x : binary64) (c : R) : Prop :=
  finite_double x /\ Rabs (real64 x - c) <= bpow radix2 (-50) * Rabs c + bpow radix2 (-1000).

(** A published record or the start of an arrow is at the lower corner of voxel
    (x, y, z). *)
Definition published_at (r : binary64) (o : vec ieee) (c : cloud_point) (x y z : Z) : Prop :=
  float_at (p_x c) (corner r (vx o) x) /\ float_at (p_y c) (corner r (vy o) y) /\ float_at (p_z c) (corner r (vz o) z).
Definition starts_at (r : binary64) (o : vec ieee) (a : arrow) (x y z : Z) : Prop :=
  double_at (vx (a_start a)) (corner r (vx o) x) /\ double_at (vy (a_start a)) (corner r (vy o) y) /\
  double_at (vz (a_start a)) (corner r (vz o) z).

(** The grid starts at the origin of the frame. *)
Definition at_zero (o : vec ieee) : Prop :=
  finite_vec o /\ real64 (vx o) = 0 /\ real64 (vy o) = 0 /\ real64 (vz o) = 0.

(** A resolution of ordinary size. *)
Definition ordinary_size (r : binary64) : Prop := finite_double r /\ bpow radix2 (-80) <= real64 r <= bpow radix2 80.

(** An arrow's end is a fiftieth of this gradient away from its start, up to a
    small relative error. *)
Definition along (start end_ : binary64) (h : binary32) : Prop :=
  finite_double end_ /\
  Rabs (real64 end_ - (real64 start + / 50 * real32 h)) <=
    bpow radix2 (-28) * Rabs (real32 h) + bpow radix2 (-53) * Rabs (real64 start) + bpow radix2 (-149).
Definition shows (a : arrow) (gx gy gz : binary32) : Prop :=
  along (vx (a_start a)) (vx (a_end a)) gx /\ along (vy (a_start a)) (vy (a_end a)) gy /\
  along (vz (a_start a)) (vz (a_end a)) gz.

(** Floats of ordinary size. *)
Definition moderate (h : binary32) : Prop := finite_float h /\ Rabs (real32 h) <= bpow radix2 120.
