(** Model of the overloads that take a location in space instead of an index, for
    the three grid classes: include/sdf_tools/collision_map.hpp:287-321, 353-388,
    422-457, 508-541; include/sdf_tools/tagged_object_collision_map.hpp:333-366,
    398-433, 467-502, 558-591; include/sdf_tools/sdf.hpp:135-169, 199-234, 266-301.

    LocationToGridIndex3d / 4d of arc_utilities is the pose's [to_grid] followed
    by its [index_of].  The overloads for Vector3d, Vector4d and three doubles do
    the same, and so do those that take the value as an rvalue. *)
From Verif Require Import Base Floats Grid CollisionMap TaggedMap SdfGen SdfLock Surfaces
  Arith SdfQuery.

Section Location.
  Variable A : arith.
  Variable p : pose A.

  (** LocationToGridIndex3d, LocationToGridIndex4d (arc_utilities), called at
      include/sdf_tools/collision_map.hpp:356, L370. *)
  Definition cell_at (loc : vec A) : idx := index_of p (to_grid p loc).

  (** ** CollisionMapGrid *)

  (** GetImmutable3d, GetImmutable4d, GetImmutable(x, y, z), inherited from
      VoxelGrid (arc_utilities) by include/sdf_tools/collision_map.hpp:34. *)
  Definition cm_get_at (m : cmap) (loc : vec A) : ccell * bool := cm_get m (cell_at loc).

  (** SetValue3d, SetValue4d, SetValue(x, y, z, value),
      include/sdf_tools/collision_map.hpp:353-388. *)
  Definition cm_set_at (m : cmap) (loc : vec A) (v : ccell) : cmap * bool :=
    let i := cell_at loc in
    if in_bounds (cm_dims m) i then cm_set m i v else (m, false).

  (** GetMutable3d, GetMutable4d, GetMutable(x, y, z),
      include/sdf_tools/collision_map.hpp:287-321. *)
  Definition cm_get_mutable_at (m : cmap) (loc : vec A) : cmap * cref * bool :=
    let i := cell_at loc in
    if in_bounds (cm_dims m) i then cm_get_mutable m i else (m, ROob, false).

  (** CheckIfCandidateCorner3d, 4d and (x, y, z),
      include/sdf_tools/collision_map.hpp:508-541. *)
  Definition cm_corner_at (m : cmap) (loc : vec A) : bool * bool :=
    let i := cell_at loc in
    if in_bounds (cm_dims m) i then candidate_corner c_comp (cm_grid m) i else (false, false).

  (** ** TaggedObjectCollisionMapGrid *)

  (** GetImmutable3d, GetImmutable4d, GetImmutable(x, y, z), inherited from
      VoxelGrid (arc_utilities) by
      include/sdf_tools/tagged_object_collision_map.hpp:45-46. *)
  Definition tm_get_at (m : tmap) (loc : vec A) : tcell * bool := tm_get m (cell_at loc).

  (** SetValue3d, SetValue4d, SetValue(x, y, z, value),
      include/sdf_tools/tagged_object_collision_map.hpp:398-433. *)
  Definition tm_set_at (m : tmap) (loc : vec A) (v : tcell) : tmap * bool :=
    let i := cell_at loc in
    if in_bounds (tm_dims m) i then tm_set m i v else (m, false).

  (** GetMutable3d, GetMutable4d, GetMutable(x, y, z),
      include/sdf_tools/tagged_object_collision_map.hpp:333-366. *)
  Definition tm_get_mutable_at (m : tmap) (loc : vec A) : tmap * cref * bool :=
    let i := cell_at loc in
    if in_bounds (tm_dims m) i then tm_get_mutable m i else (m, ROob, false).

  (** CheckIfCandidateCorner3d, 4d and (x, y, z),
      include/sdf_tools/tagged_object_collision_map.hpp:558-591. *)
  Definition tm_corner_at (m : tmap) (loc : vec A) : bool * bool :=
    let i := cell_at loc in
    if in_bounds (tm_dims m) i then candidate_corner t_comp (tm_grid m) i else (false, false).

  (** ** SignedDistanceField *)

  (** GetImmutable3d, GetImmutable4d, GetImmutable(x, y, z), inherited from
      VoxelGrid (arc_utilities) by include/sdf_tools/sdf.hpp:20. *)
  Definition sdf_get_at (s : sdf) (loc : vec A) : binary32 * bool := sdf_get s (cell_at loc).

  (** SetValue3d, SetValue4d, SetValue(x, y, z, value),
      include/sdf_tools/sdf.hpp:199-234. *)
  Definition sdf_set_at (s : sdf) (loc : vec A) (v : binary32) : sdf * bool :=
    let i := cell_at loc in
    if in_bounds (sdf_dims s) i then sdf_set s i v else (s, false).

  (** GetMutable3d, GetMutable4d, GetMutable(x, y, z),
      include/sdf_tools/sdf.hpp:135-169. *)
  Definition sdf_get_mutable_at (s : sdf) (loc : vec A) : cref * bool :=
    let i := cell_at loc in
    if in_bounds (sdf_dims s) i then sdf_get_mutable s i else (ROob, false).

  (** ** Histories that mix the two ways of naming a cell *)

  (** How a call names its cell: by index or by location, e.g.
      include/sdf_tools/collision_map.hpp:353, L390. *)
  Inductive place := Cell (i : idx) | Spot (loc : vec A).

  (** Calls on a collision map, include/sdf_tools/collision_map.hpp:287-488, and
      writes through references they gave out. *)
  Inductive cm_call :=
  | CSet (w : place) (v : ccell)
  | CGetRef (w : place)
  | CWriteRef (k : nat) (v : ccell)
  | CUpdate
  | CExtract.

  (** The effect of one of them, include/sdf_tools/collision_map.hpp:287-488. *)
  Definition cm_call_step (st : cmap * list cref) (c : cm_call) : res (cmap * list cref) :=
    let (m, refs) := st in
    match c with
    | CSet (Cell i) v => Ok (fst (cm_set m i v), refs)
    | CSet (Spot loc) v => Ok (fst (cm_set_at m loc v), refs)
    | CGetRef (Cell i) => let '(m', r, _) := cm_get_mutable m i in Ok (m', refs ++ [r])
    | CGetRef (Spot loc) => let '(m', r, _) := cm_get_mutable_at m loc in Ok (m', refs ++ [r])
    | CWriteRef k v =>
        match nth_error refs k with
        | Some r => Ok (cm_write_ref m r v, refs)
        | None => UB "no such reference"
        end
    | CUpdate => let* (m', _) := cm_update m in Ok (m', refs)
    | CExtract => let* (m', _) := cm_extract_components m in Ok (m', refs)
    end.

  (** A history of them, include/sdf_tools/collision_map.hpp:287-488. *)
  Definition cm_calls (m : cmap) (l : list cm_call) : res (cmap * list cref) :=
    foldM cm_call_step l (m, []).

  (** Calls on a tagged map,
      include/sdf_tools/tagged_object_collision_map.hpp:333-533, and writes through
      references they gave out. *)
  Inductive tm_call :=
  | KSet (w : place) (v : tcell)
  | KGetRef (w : place)
  | KWriteRef (k : nat) (v : tcell)
  | KUpdate
  | KSegments (threshold : binary64) (border : bool).

  (** The effect of one of them,
      include/sdf_tools/tagged_object_collision_map.hpp:333-533. *)
  Definition tm_call_step (g : geometry) (st : tmap * list cref) (c : tm_call)
    : res (tmap * list cref) :=
    let (m, refs) := st in
    match c with
    | KSet (Cell i) v => Ok (fst (tm_set m i v), refs)
    | KSet (Spot loc) v => Ok (fst (tm_set_at m loc v), refs)
    | KGetRef (Cell i) => let '(m', r, _) := tm_get_mutable m i in Ok (m', refs ++ [r])
    | KGetRef (Spot loc) => let '(m', r, _) := tm_get_mutable_at m loc in Ok (m', refs ++ [r])
    | KWriteRef k v =>
        match nth_error refs k with
        | Some r => Ok (tm_write_ref m r v, refs)
        | None => UB "no such reference"
        end
    | KUpdate => let* (m', _) := tm_update m in Ok (m', refs)
    | KSegments threshold border =>
        let* (m', _) := tm_update_segments g m threshold border in Ok (m', refs)
    end.

  (** A history of them,
      include/sdf_tools/tagged_object_collision_map.hpp:333-533. *)
  Definition tm_calls (g : geometry) (m : tmap) (l : list tm_call) : res (tmap * list cref) :=
    foldM (tm_call_step g) l (m, []).

  (** Calls on a field, include/sdf_tools/sdf.hpp:103-331, and writes through
      references they gave out. *)
  Inductive sdf_call :=
  | FSet (w : place) (v : binary32)
  | FGetRef (w : place)
  | FWriteRef (k : nat) (v : binary32)
  | FLock
  | FUnlock
  | FSetFrame (f : string).

  (** The effect of one of them, include/sdf_tools/sdf.hpp:103-331. *)
  Definition sdf_call_step (st : sdf * list cref) (c : sdf_call) : res (sdf * list cref) :=
    let (s, refs) := st in
    match c with
    | FSet (Cell i) v => Ok (fst (sdf_set s i v), refs)
    | FSet (Spot loc) v => Ok (fst (sdf_set_at s loc v), refs)
    | FGetRef (Cell i) => Ok (s, refs ++ [fst (sdf_get_mutable s i)])
    | FGetRef (Spot loc) => Ok (s, refs ++ [fst (sdf_get_mutable_at s loc)])
    | FWriteRef k v =>
        match nth_error refs k with
        | Some r => Ok (sdf_write_ref s r v, refs)
        | None => UB "no such reference"
        end
    | FLock => Ok (sdf_lock s, refs)
    | FUnlock => Ok (sdf_unlock s, refs)
    | FSetFrame f => Ok (sdf_set_frame s f, refs)
    end.

  (** A history of them, include/sdf_tools/sdf.hpp:103-331. *)
  Definition sdf_calls (st : sdf * list cref) (l : list sdf_call) : res (sdf * list cref) :=
    foldM sdf_call_step l st.
End Location.
Arguments cell_at {A} p loc.
Arguments cm_get_at {A} p m loc. Arguments cm_set_at {A} p m loc v.
Arguments cm_get_mutable_at {A} p m loc. Arguments cm_corner_at {A} p m loc.
Arguments tm_get_at {A} p m loc. Arguments tm_set_at {A} p m loc v.
Arguments tm_get_mutable_at {A} p m loc. Arguments tm_corner_at {A} p m loc.
Arguments sdf_get_at {A} p s loc. Arguments sdf_set_at {A} p s loc v.
Arguments sdf_get_mutable_at {A} p s loc.
Arguments Cell {A} i. Arguments Spot {A} loc.
Arguments CSet {A} w v. Arguments CGetRef {A} w. Arguments CWriteRef {A} k v.
Arguments CUpdate {A}. Arguments CExtract {A}.
Arguments KSet {A} w v. Arguments KGetRef {A} w. Arguments KWriteRef {A} k v.
Arguments KUpdate {A}. Arguments KSegments {A} threshold border.
Arguments FSet {A} w v. Arguments FGetRef {A} w. Arguments FWriteRef {A} k v.
Arguments FLock {A}. Arguments FUnlock {A}. Arguments FSetFrame {A} f.
Arguments cm_calls {A} p m l. Arguments tm_calls {A} p g m l. Arguments sdf_calls {A} p st l.
Arguments cm_call_step {A} p st c. Arguments tm_call_step {A} p g st c.
Arguments sdf_call_step {A} p st c.
