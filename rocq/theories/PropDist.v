(** C08-C15: the squared-distance field. *)
From Verif Require Import Base Grid DistModel DistSpec DistProofs DistThms DistPlanar.

(** C08: under the size bound the construction returns normally: no overflow, no
    out-of-range access, no push into the bucket being iterated. *)
Theorem C08_no_undefined_behaviour : forall d pts,
  size_ok d -> all_inside d pts -> exists f, build_distance_field d pts = Ok f.
Proof. exact build_total. Qed.
Print Assumptions C08_no_undefined_behaviour.

(** C09: an out-of-bounds point makes it throw (and, by C08, only that). *)
Theorem C09_throws_iff_point_outside : forall d pts,
  size_ok d ->
  ((exists msg, build_distance_field d pts = Throw msg) <->
   (exists p, In p pts /\ in_bounds d p = false)).
Proof. exact build_throws_iff. Qed.
Print Assumptions C09_throws_iff_point_outside.

(** C10: every finite value is the distance to a real input point, hence never
    below the true nearest distance. *)
Theorem C10_distances_realised : forall d pts f,
  size_ok d -> all_inside d pts -> build_distance_field d pts = Ok f ->
  forall c m, in_bounds d c = true -> cell_distsq f c = Some m ->
    (exists p, In p pts /\ distsq c p = m) /\
    (forall v, nearest_distsq pts c v -> v <= m).
Proof. exact build_never_under. Qed.
Print Assumptions C10_distances_realised.

(** C11 *)
Theorem C11_zero_iff_obstacle : forall d pts f,
  size_ok d -> all_inside d pts -> build_distance_field d pts = Ok f ->
  forall c, in_bounds d c = true -> (cell_distsq f c = Some 0 <-> In c pts).
Proof. intros d pts f Hs Hp Hf c. exact (build_zero_iff d pts Hs Hp f Hf c). Qed.
Print Assumptions C11_zero_iff_obstacle.

(** C12, strengthened: exact whenever the nearest squared distance is at most 6,
    which covers every cell touching an obstacle (and more). *)
Theorem C12_exact_near_obstacles : forall d pts f,
  size_ok d -> all_inside d pts -> build_distance_field d pts = Ok f ->
  forall c p, in_bounds d c = true -> In p pts -> within_one c p ->
    exists v, cell_distsq f c = Some v /\ nearest_distsq pts c v.
Proof. intros d pts f Hs Hp Hf c p. exact (build_exact_near d pts Hs Hp f Hf c p). Qed.
Print Assumptions C12_exact_near_obstacles.

Theorem C12_exact_up_to_6 : forall d pts f,
  size_ok d -> all_inside d pts -> build_distance_field d pts = Ok f ->
  forall c v, in_bounds d c = true -> nearest_distsq pts c v -> v <= 6 ->
    cell_distsq f c = Some v.
Proof. intros d pts f Hs Hp Hf c v. exact (build_exact_6 d pts Hs Hp f Hf c v). Qed.
Print Assumptions C12_exact_up_to_6.

(** C13 is false of the code: the full claim would be
      forall d pts f c v, ... -> nearest_distsq pts c v -> cell_distsq f c = Some v.
    On a 7x4x1 grid with obstacles (1,1,0), (2,2,0), (4,3,0) the cell (4,0,0) is at
    squared distance 8 (from (2,2,0)) but stores 9.  With C12_exact_up_to_6 the
    bound is sharp: 7 is not a sum of three squares. *)
Theorem C13_exactness_refuted : exists d pts f c v,
  size_ok d /\ all_inside d pts /\ build_distance_field d pts = Ok f /\
  in_bounds d c = true /\ nearest_distsq pts c v /\ v = 8 /\ cell_distsq f c = Some 9.
Proof. exact exactness_fails. Qed.
Print Assumptions C13_exactness_refuted.

(** C14 *)
Theorem C14_single_obstacle_exact : forall d pts p,
  size_ok d -> all_inside d pts -> In p pts -> (forall q, In q pts -> q = p) ->
  exists f, build_distance_field d pts = Ok f /\
    forall c, in_bounds d c = true -> cell_distsq f c = Some (distsq c p).
Proof. exact single_exact. Qed.
Print Assumptions C14_single_obstacle_exact.

(** C15, empty half. *)
Theorem C15_no_obstacle_infinite : forall d f,
  size_ok d -> build_distance_field d [] = Ok f ->
  forall c, in_bounds d c = true -> cell_distsq f c = None.
Proof. exact empty_infinite. Qed.
Print Assumptions C15_no_obstacle_infinite.

(** C15, non-empty half.  Full statement (not proved):
      forall d pts f c, size_ok d -> all_inside d pts -> pts <> [] ->
        build_distance_field d pts = Ok f -> in_bounds d c = true ->
        exists m, cell_distsq f c = Some m.
    Proved: when all points coincide, near any obstacle for arbitrary sets,
    (C15_planar_partial) for arbitrary sets on grids with a single layer along
    some axis, and (C105, in PropShapes) for two obstacles, boxes, rooms and cells a
    nearest obstacle reaches through its own region.  Missing: other cells far from
    three or more obstacles in a truly 3-D grid. *)
Theorem C15_finite_partial : forall d pts f c,
  size_ok d -> all_inside d pts -> build_distance_field d pts = Ok f ->
  in_bounds d c = true ->
  ((exists p, In p pts /\ forall q, In q pts -> q = p) \/
   (exists v, nearest_distsq pts c v /\ v <= 6)) ->
  exists m, cell_distsq f c = Some m.
Proof. exact finite_partial. Qed.
Print Assumptions C15_finite_partial.

Theorem C15_planar_partial : forall d pts f c,
  size_ok d -> flat d -> all_inside d pts -> pts <> [] -> build_distance_field d pts = Ok f ->
  in_bounds d c = true -> exists m, cell_distsq f c = Some m.
Proof. exact planar_all_finite. Qed.
Print Assumptions C15_planar_partial.

(** C90: on a single-layer grid the stored distance is at most the city-block
    distance to every obstacle ... *)
Theorem C90_planar_bound : forall d pts f c p,
  size_ok d -> flat d -> all_inside d pts -> build_distance_field d pts = Ok f ->
  in_bounds d c = true -> In p pts ->
  exists m, cell_distsq f c = Some m /\ m <= manhattan c p * manhattan c p.
Proof. exact planar_finite. Qed.
Print Assumptions C90_planar_bound.

(** ... it is exact along the row, column or layer of an obstacle that is nearest
    there ... *)
Theorem C90_planar_straight : forall d pts f c p,
  size_ok d -> flat d -> all_inside d pts -> build_distance_field d pts = Ok f ->
  in_bounds d c = true -> In p pts -> distsq c p = manhattan c p * manhattan c p ->
  nearest_distsq pts c (distsq c p) -> cell_distsq f c = Some (distsq c p).
Proof. exact planar_straight. Qed.
Print Assumptions C90_planar_straight.

(** ... within a factor sqrt 2 of the true nearest distance everywhere ... *)
Theorem C90_planar_ratio : forall d pts f c v,
  size_ok d -> flat d -> all_inside d pts -> build_distance_field d pts = Ok f ->
  in_bounds d c = true -> nearest_distsq pts c v ->
  exists m, cell_distsq f c = Some m /\ v <= m <= 2 * v.
Proof. exact planar_ratio. Qed.
Print Assumptions C90_planar_ratio.

(** ... and locally consistent: the value of a cell is the distance to some
    obstacle, and each face neighbour is at least as near to that obstacle or to
    another as its own position says. *)
Theorem C90_planar_neighbours : forall d pts f a b m,
  size_ok d -> flat d -> all_inside d pts -> build_distance_field d pts = Ok f ->
  in_bounds d a = true -> in_bounds d b = true -> distsq a b = 1 ->
  cell_distsq f a = Some m ->
  exists q k, In q pts /\ distsq a q = m /\ cell_distsq f b = Some k /\ k <= distsq b q.
Proof. exact planar_neighbours. Qed.
Print Assumptions C90_planar_neighbours.

(** Non-vacuity: a planar grid with three obstacles, where the values of the C13
    counterexample show the bounds are not always attained exactly. *)
Example planar_nonvacuous :
  let d := D 7 4 1 in let pts := [I 1 1 0; I 2 2 0; I 4 3 0] in
  size_ok d /\ flat d /\ all_inside d pts /\
  match build_distance_field d pts with
  | Ok f => cell_distsq f (I 4 0 0) = Some 9 /\ cell_distsq f (I 6 0 0) = Some 13 /\
            cell_distsq f (I 6 3 0) = Some 4
  | _ => False
  end.
Proof. exact planar_example. Qed.

(** Non-vacuity: a 3-D grid with several obstacles meets the hypotheses. *)
Example dist_nonvacuous :
  let d := D 5 4 3 in let pts := [I 0 0 0; I 4 3 2; I 0 0 0] in
  size_ok d /\ all_inside d pts /\
  match build_distance_field d pts with
  | Ok f => cell_distsq f (I 2 1 0) = Some 5 /\ cell_distsq f (I 4 2 2) = Some 1
  | _ => False
  end.
Proof. exact dist_example. Qed.

Example dist_throw_nonvacuous :
  build_distance_field (D 2 2 2) [I 0 0 0; I 2 0 0] =
  Throw "Point for BuildDistanceField out of bounds".
Proof. reflexivity. Qed.
