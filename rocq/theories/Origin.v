(** What a grid derives from its origin transform: the inverse transform and the rotation
    as a quaternion, in the arithmetic of the queries. *)
From Verif Require Import Base Floats Grid Arith SdfQuery SdfField Frame.

Section Origin.
  Variable A : arith.
  Notation dbl := (dbl A).
  Notation vec := (vec A).
  Infix "+." := (dadd A) (at level 50, left associativity).
  Infix "-." := (dsub A) (at level 50, left associativity).
  Infix "*." := (dmul A) (at level 40, left associativity).
  Infix "/." := (ddiv A) (at level 40, left associativity).
  Notation "# n" := (of_int A n) (at level 5, format "# n").

  (** One coordinate of the translation of an inverse: a negated column of the rotation
      times the translation.  Eigen, outside /repo, used by the VoxelGrid constructor that
      include/sdf_tools/sdf.hpp:52-54 calls.  Negation is modelled as subtraction from 0, and
      the order of the additions is one of those Eigen may use. *)
  Definition inverse_shift (m t : vec) : dbl :=
    (#0 -. vx m) *. vx t +. (#0 -. vy m) *. vy t +. (#0 -. vz m) *. vz t.

  (** origin_transform.inverse() of an Eigen::Isometry3d: the transposed rotation.
      inverse_origin_transform_ at include/sdf_tools/sdf.hpp:910,979,1060,1166 is computed
      this way in arc_utilities' VoxelGrid, outside /repo. *)
  Definition inverse_of (T : transform A) : transform A :=
    let cx := V (vx (row_x T)) (vx (row_y T)) (vx (row_z T)) in
    let cy := V (vy (row_x T)) (vy (row_y T)) (vy (row_z T)) in
    let cz := V (vz (row_x T)) (vz (row_y T)) (vz (row_z T)) in
    Transform cx cy cz
      (V (inverse_shift cx (shift T)) (inverse_shift cy (shift T)) (inverse_shift cz (shift T))).

  (** The factors of Eigen's conversion of a rotation matrix to a quaternion: half the root
      of [s], and a half divided by that root.  include/sdf_tools/sdf.hpp:414 (Eigen,
      outside /repo). *)
  Definition half_root (s : dbl) : dbl := lit A 1 2 *. dsqrt A s.
  Definition half_over_root (s : dbl) : dbl := lit A 1 2 /. dsqrt A s.

  (** Eigen::Quaterniond grid_rotation(origin_transform_.rotation()),
      include/sdf_tools/sdf.hpp:414.  The branches are those of Eigen 3 (Shoemake's
      algorithm) as published; Eigen is outside /repo and was not at hand to compare. *)
  Definition quat_of (T : transform A) : quat A :=
    let m00 := vx (row_x T) in let m01 := vy (row_x T) in let m02 := vz (row_x T) in
    let m10 := vx (row_y T) in let m11 := vy (row_y T) in let m12 := vz (row_y T) in
    let m20 := vx (row_z T) in let m21 := vy (row_z T) in let m22 := vz (row_z T) in
    let trace := m00 +. m11 +. m22 in
    if dlt A #0 trace then
      let s := trace +. #1 in let k := half_over_root s in
      Q (half_root s) (V ((m21 -. m12) *. k) ((m02 -. m20) *. k) ((m10 -. m01) *. k))
    else
      let y_first := dlt A m00 m11 in
      if dlt A (if y_first then m11 else m00) m22 then
        let s := m22 -. m00 -. m11 +. #1 in let k := half_over_root s in
        Q ((m10 -. m01) *. k) (V ((m02 +. m20) *. k) ((m12 +. m21) *. k) (half_root s))
      else if y_first then
        let s := m11 -. m22 -. m00 +. #1 in let k := half_over_root s in
        Q ((m02 -. m20) *. k) (V ((m01 +. m10) *. k) (half_root s) ((m21 +. m12) *. k))
      else
        let s := m00 -. m11 -. m22 +. #1 in let k := half_over_root s in
        Q ((m21 -. m12) *. k) (V (half_root s) ((m10 +. m01) *. k) ((m20 +. m02) *. k)).
End Origin.
Arguments inverse_shift {A} m t. Arguments inverse_of {A} T. Arguments quat_of {A} T.
Arguments half_root {A} s. Arguments half_over_root {A} s.

(** A grid with the given origin_transform_: the constructors at
    include/sdf_tools/sdf.hpp:45-55,68-78 with what they and GetGradient (L414) derive from it. *)
Definition placed_by (r : dbl ieee) (T : transform ieee) : pose ieee :=
  placed_pose r (inverse_of T) T (qw (quat_of T)) (qv (quat_of T)).
