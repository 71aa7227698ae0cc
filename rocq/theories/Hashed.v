(** Model of the dynamic spatial-hashed collision map,
    src/sdf_tools/dynamic_spatial_hashed_collision_map.cpp.

    The class forwards reads and writes to arc_utilities'
    DynamicSpatialHashedVoxelGrid, which is not part of the repository.  The part
    of it that is used is modelled here and belongs to the trusted base: space is
    divided into cells and blocks of cells (chunks); a chunk is absent, holds one
    value, or holds one value per cell; a cell write to an absent chunk creates
    it with the out-of-bounds value in its other cells, one to a chunk with a
    single value spreads that value first; a chunk write replaces everything in
    its chunk.  How a location maps to the number of its cell (pose, resolution
    and rounding down) is an argument. *)
From Verif Require Import Base Floats Grid CollisionMap Display.

(** DynamicSpatialHashedVoxelGridChunk (arc_utilities): IsChunkInitialized or
    IsCellInitialized, src/sdf_tools/dynamic_spatial_hashed_collision_map.cpp:130,
    L154. *)
Inductive chunk := Whole (v : ccell) | PerCell (g : grid ccell).

(** std::unordered_map<CHUNK_REGION, chunk>,
    src/sdf_tools/dynamic_spatial_hashed_collision_map.cpp:125. *)
Definition chunks := list (idx * chunk).

(** Lookup in that hash map (arc_utilities), under GetImmutable,
    src/sdf_tools/dynamic_spatial_hashed_collision_map.cpp:52. *)
Definition chunk_get (k : idx) (l : chunks) : option chunk :=
  match find (fun e => idx_eqb (fst e) k) l with Some e => Some (snd e) | None => None end.

(** Assignment in that hash map (arc_utilities), under SetCellValue and
    SetChunkValue, src/sdf_tools/dynamic_spatial_hashed_collision_map.cpp:62,
    L72. *)
Fixpoint chunk_put (k : idx) (c : chunk) (l : chunks) : chunks :=
  match l with
  | [] => [(k, c)]
  | e :: t => if idx_eqb (fst e) k then (k, c) :: t else e :: chunk_put k c t
  end.

(** The members, include/sdf_tools/dynamic_spatial_hashed_collision_map.hpp:19-23,
    with the used parts of the field.  [None] for [h_init] is a member that no
    constructor has written. *)
Record hmap := HM {
  h_chunk : dims;              (* cells per chunk *)
  h_oob : ccell;
  h_chunks : chunks;
  h_ncomp : Z;
  h_frame : string;
  h_init : option bool;
  h_valid : bool
}.

(** The two constructors with parameters,
    src/sdf_tools/dynamic_spatial_hashed_collision_map.cpp:20-36. *)
Definition h_new (frame : string) (d : dims) (oob : ccell) : hmap :=
  HM d oob [] 0 frame None false.

(** The default constructor,
    src/sdf_tools/dynamic_spatial_hashed_collision_map.cpp:38; its field is itself
    default constructed. *)
Definition h_default : hmap := HM (D 0 0 0) (CC zero32 0) [] 0 "" (Some false) false.

(** IsInitialized, src/sdf_tools/dynamic_spatial_hashed_collision_map.cpp:40-43:
    reading a member that was never written is undefined. *)
Definition h_is_initialized (h : hmap) : res bool :=
  match h_init h with Some b => Ok b | None => UB "initialized_ read before being written" end.

(** AreComponentsValid,
    src/sdf_tools/dynamic_spatial_hashed_collision_map.cpp:45-48. *)
Definition h_components_valid (h : hmap) : bool := h_valid h.

(** The chunk a cell belongs to (arc_utilities), under GetImmutable,
    src/sdf_tools/dynamic_spatial_hashed_collision_map.cpp:52. *)
Definition region_of (d : dims) (i : idx) : idx := I (ix i / nx d) (iy i / ny d) (iz i / nz d).

(** The cell's place in its chunk (arc_utilities), under GetImmutable,
    src/sdf_tools/dynamic_spatial_hashed_collision_map.cpp:52. *)
Definition local_of (d : dims) (i : idx) : idx := I (ix i mod nx d) (iy i mod ny d) (iz i mod nz d).

(** VoxelGrid::FOUND_STATUS (arc_utilities), the result of Get,
    src/sdf_tools/dynamic_spatial_hashed_collision_map.cpp:50. *)
Inductive found_status := NotFound | FoundInChunk | FoundInCell.

(** VoxelGrid::SET_STATUS (arc_utilities), the result of SetCell and SetChunk,
    src/sdf_tools/dynamic_spatial_hashed_collision_map.cpp:60, L70. *)
Inductive set_status := SetCell_ | SetChunk_.

(** The map with one chunk replaced (arc_utilities), under SetCellValue and
    SetChunkValue, src/sdf_tools/dynamic_spatial_hashed_collision_map.cpp:62,
    L72. *)
Definition with_chunk (h : hmap) (k : idx) (c : chunk) : hmap :=
  HM (h_chunk h) (h_oob h) (chunk_put k c (h_chunks h)) (h_ncomp h) (h_frame h) (h_init h) (h_valid h).

Section Map.
  Context {point : Type}.
  (** The cell a location falls in. *)
  Variable cell_at : point -> idx.

  (** Get, src/sdf_tools/dynamic_spatial_hashed_collision_map.cpp:50-58. *)
  Definition h_get (h : hmap) (p : point) : ccell * found_status :=
    match chunk_get (region_of (h_chunk h) (cell_at p)) (h_chunks h) with
    | None => (h_oob h, NotFound)
    | Some (Whole v) => (v, FoundInChunk)
    | Some (PerCell g) => (gget g (local_of (h_chunk h) (cell_at p)), FoundInCell)
    end.

  (** SetCell, src/sdf_tools/dynamic_spatial_hashed_collision_map.cpp:60-68. *)
  Definition h_set_cell (h : hmap) (p : point) (v : ccell) : hmap * set_status :=
    let k := region_of (h_chunk h) (cell_at p) in
    let g := match chunk_get k (h_chunks h) with
             | None => mk_grid (h_chunk h) (h_oob h) (h_oob h)
             | Some (Whole w) => mk_grid (h_chunk h) w (h_oob h)
             | Some (PerCell g) => g
             end in
    (with_chunk h k (PerCell (gset g (local_of (h_chunk h) (cell_at p)) v)), SetCell_).

  (** SetChunk, src/sdf_tools/dynamic_spatial_hashed_collision_map.cpp:70-78. *)
  Definition h_set_chunk (h : hmap) (p : point) (v : ccell) : hmap * set_status :=
    (with_chunk h (region_of (h_chunk h) (cell_at p)) (Whole v), SetChunk_).

  (** ** Display *)

  (** GetIndexLocationInGrid of a chunk, moved by the grid's pose
      (src/sdf_tools/dynamic_spatial_hashed_collision_map.cpp:133-135, L163-165). *)
  Variable place : idx -> idx -> point.

  (** The colour of a cell,
      src/sdf_tools/dynamic_spatial_hashed_collision_map.cpp:141-152, L171-182. *)
  Definition h_color (collision free unknown : color) (v : ccell) : color :=
    if gt32 (c_occ v) half32 then collision
    else if lt32 (c_occ v) half32 then free
    else unknown.

  (** points.push_back and colors.push_back,
      src/sdf_tools/dynamic_spatial_hashed_collision_map.cpp:140-143, L170-173. *)
  Definition add_point (m : marker point) (p : point) (c : color) : marker point :=
    Marker (mk_frame m) (mk_ns m) (mk_points m ++ [p]) (mk_colors m ++ [c]).

  (** The body of the loop over the chunks,
      src/sdf_tools/dynamic_spatial_hashed_collision_map.cpp:129-186; the state is
      the marker of the chunks and that of the cells. *)
  Definition draw_chunk (collision free unknown : color) (st : marker point * marker point) (e : idx * chunk)
    : marker point * marker point :=
    match snd e with
    | Whole v =>
        (add_point (fst st) (place (fst e) (I 0 0 0)) (h_color collision free unknown v), snd st)
    | PerCell g =>
        (fst st, fold_left (fun m i => add_point m (place (fst e) i) (h_color collision free unknown (gget g i)))
                   (sweep (gdims g)) (snd st))
    end.

  (** ExportForDisplay,
      src/sdf_tools/dynamic_spatial_hashed_collision_map.cpp:85-199.  [order] is the
      iteration order of the hash map. *)
  Definition h_export (order : chunks -> chunks) (h : hmap) (collision free unknown : color) : list (marker point) :=
    let start := (blank (h_frame h) (Text "dynamic_spatial_hashed_collision_map_chunks_display"),
                  blank (h_frame h) (Text "dynamic_spatial_hashed_collision_map_cells_display")) in
    let (c, k) := fold_left (draw_chunk collision free unknown) (order (h_chunks h)) start in
    (if (0 <? length (mk_points c))%nat then [c] else []) ++
    (if (0 <? length (mk_points k))%nat then [k] else []).
End Map.
