(** Model of the chunk marker of the hashed map: its scale, its pose and its points.
    Markers.v has the marker of the cells. *)
From Verif Require Import Base Floats Grid CollisionMap SdfGen Arith SdfQuery Display Hashed Markers.

Section Blocks.
  Variable A : arith.
  Notation vec := (vec A).
  Notation dbl := (dbl A).
  Variable p : pose A.            (* the grid's pose *)
  Variable sizes : vec.           (* GetChunkSizes() (arc_utilities) *)

  (** The chunks in ExportForDisplay of the hashed map,
      src/sdf_tools/dynamic_spatial_hashed_collision_map.cpp:88-106, L129-152,
      L188-197: the returned markers with the namespace of the chunks.  [in_grid k i]
      is GetIndexLocationInGrid of chunk k (arc_utilities), here always called for
      the indices (0, 0, 0). *)
  Definition h_blocks (in_grid : idx -> idx -> vec) (order : chunks -> chunks) (h : hmap)
      (collision free unknown : color) : list (picture A) :=
    map (fun k => (in_world_frame sizes, k))
      (filter (fun k => match mk_ns k with
                        | Text n => String.eqb n "dynamic_spatial_hashed_collision_map_chunks_display"
                        | _ => false
                        end)
         (h_export (fun k i => to_world p (in_grid k i)) order h collision free unknown)).
End Blocks.
Arguments h_blocks {A} _ _ _ _ _ _ _ _.
