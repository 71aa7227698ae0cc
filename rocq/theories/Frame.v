(** Grids placed by an origin transform: Eigen's product of a transform and a point,
    in the arithmetic of the queries. *)
From Verif Require Import Base Floats Grid Arith SdfQuery SdfField.

(** The part of an Eigen::Isometry3d that a product with a point uses: the rows of
    the rotation and the translation (inverse_origin_transform_ and
    origin_transform_, include/sdf_tools/sdf.hpp:910,1068).  Eigen is outside /repo. *)
Record transform (A : arith) := Transform { row_x : vec A; row_y : vec A; row_z : vec A; shift : vec A }.
Arguments Transform {A} row_x row_y row_z shift.
Arguments row_x {A} _. Arguments row_y {A} _. Arguments row_z {A} _. Arguments shift {A} _.

Section Apply.
  Context {A : arith}.

  (** One coordinate of transform * point, include/sdf_tools/sdf.hpp:909-910, with the
      fourth coordinate of the point 1.  The order in which Eigen adds depends on
      vectorisation; this is one of them. *)
  Definition apply_row (m : vec A) (t : dbl A) (q : vec A) : dbl A :=
    dadd A (dadd A (dadd A (dmul A (vx m) (vx q)) (dmul A (vy m) (vy q))) (dmul A (vz m) (vz q))) t.

  (** transform * point, include/sdf_tools/sdf.hpp:909-910,979,1060,1068,1166. *)
  Definition apply (T : transform A) (q : vec A) : vec A :=
    V (apply_row (row_x T) (vx (shift T)) q) (apply_row (row_y T) (vy (shift T)) q)
      (apply_row (row_z T) (vz (shift T)) q).
End Apply.

(** A grid with the given inverse_origin_transform_ and origin_transform_
    (include/sdf_tools/sdf.hpp:910,1068) and rotation as a quaternion (L414); cells are
    numbered in the grid frame as for a grid at the origin. *)
Definition placed_pose (r : dbl ieee) (inverse forward : transform ieee) (w : dbl ieee) (v : vec ieee) : pose ieee :=
  let p := ieee_pose r in
  @Pose ieee (apply inverse) (apply forward) (index_of p) (center_of p) (clamp p) w v.
