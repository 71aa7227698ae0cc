(** Model of the placement of the drawings: the pose and scale of the markers and
    the points in them.  Display.v, Hashed.v and Node.v model which points and
    colours a marker gets, for any way to place a cell; here the place is the one
    the code computes.  id, type (CUBE_LIST), action, lifetime and frame_locked are
    constants and are left out. *)
From Verif Require Import Base Floats Grid CollisionMap TaggedMap SdfGen Arith SdfQuery Display Hashed Node.

Section Markers.
  Variable A : arith.
  Notation vec := (vec A).
  Notation dbl := (dbl A).

  (** The fields pose and scale of a marker,
      src/sdf_tools/collision_map.cpp:332-336.  A pose is an isometry. *)
  Record setup := Setup { su_pose : vec -> vec; su_scale : vec }.

  (** A marker with its pose and scale, src/sdf_tools/collision_map.cpp:317-378. *)
  Definition picture : Type := setup * marker vec.

  Variable p : pose A.            (* the grid's pose *)
  Variable r : dbl.               (* GetResolution() *)

  (** The marker has the grid's pose and its points are given in the grid frame,
      src/sdf_tools/collision_map.cpp:332-336, L420-424, L512-516;
      src/sdf_tools/sdf.cpp:517-521, L602-606; DefaultMarker,
      src/sdf_tools/tagged_object_collision_map.cpp:672-676. *)
  Definition in_grid_frame : setup := Setup (to_world p) (V r r r).

  (** CollisionMapGrid::ExportForDisplay,
      src/sdf_tools/collision_map.cpp:317-379. *)
  Definition cm_picture (m : cmap) (collision free unknown : color) : picture :=
    (in_grid_frame, cm_export (center_of p) m collision free unknown).

  (** CollisionMapGrid::ExportSurfacesForDisplay,
      src/sdf_tools/collision_map.cpp:405-471. *)
  Definition cm_surface_picture (m : cmap) (collision free unknown : color) : picture :=
    (in_grid_frame, cm_export_surfaces (center_of p) m collision free unknown).

  (** CollisionMapGrid::ExportConnectedComponentsForDisplay,
      src/sdf_tools/collision_map.cpp:498-562. *)
  Definition cm_component_picture (unique_color : Z -> binary32 -> color) (m : cmap) (color_unknown : bool) : picture :=
    (in_grid_frame, cm_export_components (center_of p) unique_color m color_unknown).

  (** TaggedObjectCollisionMapGrid::ExportForDisplay by object,
      src/sdf_tools/tagged_object_collision_map.cpp:680-724. *)
  Definition tm_picture (unique_color : Z -> binary32 -> color) (m : tmap) (alpha : binary32) (objects : list Z) : picture :=
    (in_grid_frame, tm_export (center_of p) unique_color m alpha objects).

  (** TaggedObjectCollisionMapGrid::ExportForDisplay by occupancy,
      src/sdf_tools/tagged_object_collision_map.cpp:1188-1233. *)
  Definition tm_occupancy_picture (m : tmap) (collision free unknown : color) : picture :=
    (in_grid_frame, tm_export_occupancy (center_of p) m collision free unknown).

  (** SignedDistanceField::ExportForDisplay, src/sdf_tools/sdf.cpp:504-587. *)
  Definition sdf_picture (clamp01 : binary32 -> binary32) (s : sdf) (alpha : binary32) : picture :=
    (in_grid_frame, sdf_export (center_of p) clamp01 s alpha).

  (** SignedDistanceField::ExportForDisplayCollisionOnly,
      src/sdf_tools/sdf.cpp:589-639, which sets the colour of the whole marker; it
      is written here as the colour of each point. *)
  Definition sdf_collision_picture (s : sdf) (alpha : binary32) : picture :=
    let points := sdf_export_collision (center_of p) s in
    (in_grid_frame, Marker (s_frame s) (Text "sdf_display") points (map (fun _ => red alpha) points)).

  (** The marker has the identity as pose, src/sdf_generation_node.cpp:20-24, and
      its points are world locations; also
      src/sdf_tools/dynamic_spatial_hashed_collision_map.cpp:101-106, L118-122. *)
  Definition in_world_frame (sizes : vec) : setup := Setup (fun q => q) sizes.

  (** GridIndexToLocation (arc_utilities), src/sdf_generation_node.cpp:37. *)
  Definition world_center (i : idx) : vec := to_world p (center_of p i).

  (** ExportCollisionMapForDisplay of the node, src/sdf_generation_node.cpp:7-59. *)
  Definition node_picture (m : grid Z) (frame : string) (alpha : binary32) : res picture :=
    let* k := node_export world_center m frame alpha in Ok (in_world_frame (V r r r), k).

  (** The cells in ExportForDisplay of the hashed map,
      src/sdf_tools/dynamic_spatial_hashed_collision_map.cpp:118-122, L163-165.
      [in_grid k i] is GetIndexLocationInGrid of chunk k (arc_utilities).  These are
      the returned markers with the namespace of the cells; the chunk marker is left
      out, because where GetIndexLocationInGrid puts a chunk is not in this
      repository. *)
  Definition h_cells (in_grid : idx -> idx -> vec) (order : chunks -> chunks) (h : hmap)
      (collision free unknown : color) : list picture :=
    map (fun k => (in_world_frame (V r r r), k))
      (filter (fun k => match mk_ns k with
                        | Text n => String.eqb n "dynamic_spatial_hashed_collision_map_cells_display"
                        | _ => false
                        end)
         (h_export (fun k i => to_world p (in_grid k i)) order h collision free unknown)).
End Markers.
Arguments Setup {A} _ _. Arguments su_pose {A} _ _. Arguments su_scale {A} _.
Arguments in_grid_frame {A} _ _. Arguments cm_picture {A} _ _ _ _ _ _. Arguments cm_surface_picture {A} _ _ _ _ _ _.
Arguments cm_component_picture {A} _ _ _ _ _. Arguments tm_picture {A} _ _ _ _ _ _.
Arguments tm_occupancy_picture {A} _ _ _ _ _ _. Arguments sdf_picture {A} _ _ _ _ _.
Arguments sdf_collision_picture {A} _ _ _ _. Arguments in_world_frame {A} _. Arguments world_center {A} _ _.
Arguments node_picture {A} _ _ _ _ _. Arguments h_cells {A} _ _ _ _ _ _ _ _.
