(** Model of Resample: src/sdf_tools/collision_map.cpp:673-695 and
    src/sdf_tools/tagged_object_collision_map.cpp:399-422.

    The constructor that takes sizes decides in arc_utilities how many cells the
    new map has; that is the argument [d'].  [p] and [p'] are the geometries of
    the two maps (same origin, different cell size). *)
From Verif Require Import Base Grid CollisionMap TaggedMap Arith SdfQuery.

Section Resample.
  Variable A : arith.

  (** Where SetValue4d(GridIndexToLocation(index)) writes: the location of the
      cell's centre, then LocationToGridIndex4d in the new map,
      src/sdf_tools/collision_map.cpp:688-690,
      include/sdf_tools/collision_map.hpp:367-379. *)
  Definition target (p p' : pose A) (i : idx) : idx :=
    index_of p' (to_grid p' (to_world p (center_of p i))).

  (** CollisionMapGrid::Resample, src/sdf_tools/collision_map.cpp:673-695.  The one
      value given to the constructor is both default and out-of-bounds value
      (include/sdf_tools/collision_map.hpp:192-204). *)
  Definition cm_resample (p p' : pose A) (d' : dims) (m : cmap) : cmap :=
    fold_left (fun r i => fst (cm_set r (target p p' i) (fst (cm_get m i))))
      (sweep (cm_dims m))
      (cm_new (cm_frame m) d' (goob (cm_grid m)) (goob (cm_grid m))).

  (** TaggedObjectCollisionMapGrid::Resample,
      src/sdf_tools/tagged_object_collision_map.cpp:399-422. *)
  Definition tm_resample (p p' : pose A) (d' : dims) (m : tmap) : tmap :=
    fold_left (fun r i => fst (tm_set r (target p p' i) (fst (tm_get m i))))
      (sweep (tm_dims m))
      (tm_new (tm_frame m) d' (goob (tm_grid m)) (goob (tm_grid m))).
End Resample.
Arguments target {A}.
Arguments cm_resample {A}.
Arguments tm_resample {A}.
