(** Theorem for C124, and the repository's unit test of the Python bindings. *)
From Verif Require Import Base Floats Grid DistSpec SdfGen SdfSpec Arith SdfQuery SdfField QueryWitness Python PySpec PyCase PyTest PyShapes.
Local Open Scope Z_scope.

(** C124, two-dimensional arrays: with one marked item every other item holds
    the rounded distance to it; where the marked (or the unmarked) items form a
    rectangle every item holds the exact distance; and so does an item whose
    nearest one of the other kind lies in a straight or diagonal line. *)
Theorem C124_arrays_2d : forall env w h r p frame,
  env_2d env w h -> size_ok (D w h 1) -> 0 < w -> 0 < h -> usable_resolution r ->
  let d := D w h 1 in let marks := marked_2d env in
  exists a g, compute_sdf_and_gradient_2d env r p frame = Ok (a, g) /\
    (forall o c, in_bounds d o = true -> (forall b, in_bounds d b = true -> (marks b = true <-> b = o)) ->
       in_bounds d c = true -> c <> o -> item a [iy c; ix c] = Some (rounded_distance (Some (distsq c o)) r)) /\
    (forall lo hi boxed c m, (forall b, in_bounds d b = true -> (marks b = boxed <-> in_box lo hi b)) ->
       in_bounds d c = true -> nearest_other d marks c m ->
       item a [iy c; ix c] = Some (signed_value (marks c) (Some m) r)) /\
    (forall c q, in_bounds d c = true -> other_class d marks c q -> straight c q ->
       nearest_other d marks c (distsq c q) ->
       item a [iy c; ix c] = Some (signed_value (marks c) (Some (distsq c q)) r)).
Proof. exact shapes_2d. Qed.
Print Assumptions C124_arrays_2d.

(** C124, three-dimensional arrays. *)
Theorem C124_arrays_3d : forall env d r p,
  env_3d env d -> size_ok d -> 0 < ncells d -> usable_resolution r ->
  let marks := marked_3d env in
  exists a g, compute_sdf_and_gradient_3d env r p = Ok (a, g) /\
    (forall o c, in_bounds d o = true -> (forall b, in_bounds d b = true -> (marks b = true <-> b = o)) ->
       in_bounds d c = true -> c <> o -> item a [iy c; ix c; iz c] = Some (rounded_distance (Some (distsq c o)) r)) /\
    (forall lo hi boxed c m, (forall b, in_bounds d b = true -> (marks b = boxed <-> in_box lo hi b)) ->
       in_bounds d c = true -> nearest_other d marks c m ->
       item a [iy c; ix c; iz c] = Some (signed_value (marks c) (Some m) r)) /\
    (forall c q, in_bounds d c = true -> other_class d marks c q -> straight c q ->
       nearest_other d marks c (distsq c q) ->
       item a [iy c; ix c; iz c] = Some (signed_value (marks c) (Some (distsq c q)) r)).
Proof. exact shapes_3d. Qed.
Print Assumptions C124_arrays_3d.

(** Not vacuous: one marked item in two rows of four, and in a block. *)
Example arrays_2d_nonvacuous : env_2d env_row 4 2 /\ size_ok (D 4 2 1) /\ usable_resolution one64 /\
  (forall b, in_bounds (D 4 2 1) b = true -> (marked_2d env_row b = true <-> b = I 0 0 0)) /\
  in_bounds (D 4 2 1) (I 2 1 0) = true /\ distsq (I 2 1 0) (I 0 0 0) = 5.
Proof. exact row_shapes. Qed.

Example arrays_3d_nonvacuous : env_3d env_single (D 3 2 2) /\ size_ok (D 3 2 2) /\ 0 < ncells (D 3 2 2) /\ usable_resolution one64 /\
  (forall b, in_bounds (D 3 2 2) b = true -> (marked_3d env_single b = true <-> b = I 1 1 1)) /\
  in_bounds (D 3 2 2) (I 2 0 0) = true /\ distsq (I 2 0 0) (I 1 1 1) = 3.
Proof. exact single_shapes. Qed.

(** The model passes the repository's own unit test of the bindings
    (test/test_bindings.py). *)
Example repository_test : test_sdf_tools = true.
Proof. exact test_passes. Qed.
