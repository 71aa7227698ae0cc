(** Model of TaggedObjectCollisionMapGrid: cells, mutators, connected components,
    per-object distance fields and convex segments,
    include/sdf_tools/tagged_object_collision_map.hpp and
    src/sdf_tools/tagged_object_collision_map.cpp.

    As for CollisionMapGrid, the overloads that take a location in space convert
    it to an index and delegate; only the index versions are modelled. *)
From Verif Require Import Base Floats Grid CCModel CollisionMap SdfGen Arith SdfQuery SdfField Extrema.

(** TAGGED_OBJECT_COLLISION_CELL,
    include/sdf_tools/tagged_object_collision_map.hpp:22-43. *)
Record tcell := TC { t_occ : binary32; t_comp : Z; t_obj : Z; t_seg : Z }.

(** The constructor from an occupancy and an object id,
    include/sdf_tools/tagged_object_collision_map.hpp:32-35. *)
Definition tcell2 (occ : binary32) (obj : Z) : tcell := TC occ 0 obj 0.

(** The constructor from all four members,
    include/sdf_tools/tagged_object_collision_map.hpp:37-42; it takes the object id
    before the component. *)
Definition tcell4 (occ : binary32) (obj comp seg : Z) : tcell := TC occ comp obj seg.

(** The members, include/sdf_tools/tagged_object_collision_map.hpp:171-175.  [None]
    is a bool that was never initialised. *)
Record tmap := TM {
  tm_grid : grid tcell;
  tm_ncomp : Z;                 (* number_of_components_ *)
  tm_nseg : Z;                  (* number_of_convex_segments_ *)
  tm_frame : string;            (* frame_ *)
  tm_valid : bool;              (* components_valid_ *)
  tm_seg_valid : option bool    (* convex_segments_valid_ *)
}.

(** The eight constructors with arguments,
    include/sdf_tools/tagged_object_collision_map.hpp:181-307: none of them
    initialises convex_segments_valid_. *)
Definition tm_new (frame : string) (d : dims) (def oob : tcell) : tmap :=
  TM (mk_grid d def oob) 0 0 frame false None.

(** The default constructor,
    include/sdf_tools/tagged_object_collision_map.hpp:309-315 (the base class then
    has no cells). *)
Definition tm_default : tmap :=
  TM (mk_grid (D 0 0 0) (tcell2 zero32 0) (tcell2 zero32 0)) 0 0 "" false (Some false).

(** GetNumXCells, GetNumYCells, GetNumZCells of the map,
    include/sdf_tools/tagged_object_collision_map.hpp:897-901 (arc_utilities,
    outside /repo). *)
Definition tm_dims (m : tmap) : dims := gdims (tm_grid m).

(** GetImmutable(index), src/sdf_tools/tagged_object_collision_map.cpp:352
    (arc_utilities, outside /repo): the cell, or the out-of-bounds value and
    false. *)
Definition tm_get (m : tmap) (i : idx) : tcell * bool := get (tm_grid m) i.

(** AreComponentsValid,
    include/sdf_tools/tagged_object_collision_map.hpp:323-326. *)
Definition tm_components_valid (m : tmap) : bool := tm_valid m.

(** AreConvexSegmentsValid,
    include/sdf_tools/tagged_object_collision_map.hpp:328-331.  Reading an
    uninitialised bool is undefined. *)
Definition tm_segments_valid (m : tmap) : res bool :=
  match tm_seg_valid m with
  | Some b => Ok b
  | None => UB "convex_segments_valid_ read before it is written"
  end.

(** GetNumConvexSegments,
    include/sdf_tools/tagged_object_collision_map.hpp:553-556. *)
Definition tm_num_segments (m : tmap) : res (Z * bool) :=
  let* b := tm_segments_valid m in Ok (tm_nseg m, b).

(** SetValue(index, value),
    include/sdf_tools/tagged_object_collision_map.hpp:435-465 and L504-534: clears
    components_valid_ only. *)
Definition tm_set (m : tmap) (i : idx) (v : tcell) : tmap * bool :=
  if in_bounds (tm_dims m) i
  then (TM (gset (tm_grid m) i v) (tm_ncomp m) (tm_nseg m) (tm_frame m) false (tm_seg_valid m), true)
  else (m, false).

(** GetMutable(index), include/sdf_tools/tagged_object_collision_map.hpp:368-396. *)
Definition tm_get_mutable (m : tmap) (i : idx) : tmap * cref * bool :=
  if in_bounds (tm_dims m) i
  then (TM (tm_grid m) (tm_ncomp m) (tm_nseg m) (tm_frame m) false (tm_seg_valid m), RCell i, true)
  else (m, ROob, false).

(** Assignment through a reference that GetMutable returned,
    include/sdf_tools/tagged_object_collision_map.hpp:374, L379 (no code of the map
    runs). *)
Definition tm_write_ref (m : tmap) (r : cref) (v : tcell) : tmap :=
  match r with
  | RCell i => TM (gset (tm_grid m) i v) (tm_ncomp m) (tm_nseg m) (tm_frame m) (tm_valid m)
                 (tm_seg_valid m)
  | ROob => TM (G (gdims (tm_grid m)) (gdata (tm_grid m)) v) (tm_ncomp m) (tm_nseg m) (tm_frame m)
               (tm_valid m) (tm_seg_valid m)
  end.

(** ** Connected components *)

(** are_connected_fn of UpdateConnectedComponents,
    src/sdf_tools/tagged_object_collision_map.cpp:349-364. *)
Definition tm_connected (m : tmap) (a b : idx) : bool :=
  Bool.eqb (gt32 (t_occ (fst (tm_get m a))) half32) (gt32 (t_occ (fst (tm_get m b))) half32).

(** get_component_fn of UpdateConnectedComponents,
    src/sdf_tools/tagged_object_collision_map.cpp:365-377. *)
Definition tm_component (m : tmap) (i : idx) : Z :=
  let (c, ok) := tm_get m i in if ok then t_comp c else -1.

(** mark_component_fn of UpdateConnectedComponents,
    src/sdf_tools/tagged_object_collision_map.cpp:378-389. *)
Definition tm_mark (m : tmap) (i : idx) (comp : Z) : tmap :=
  let '(m1, r, ok) := tm_get_mutable m i in
  if ok then
    let q := fst (tm_get m1 i) in
    fst (tm_set m1 i (tcell4 (t_occ q) (t_obj q) comp (t_seg q)))
  else m1.

(** UpdateConnectedComponents,
    src/sdf_tools/tagged_object_collision_map.cpp:340-397. *)
Definition tm_update (m : tmap) : res (tmap * Z) :=
  if tm_valid m then Ok (m, tm_ncomp m)
  else
    let* (m', n) := compute_connected_components (tm_dims m)
                      tm_connected tm_component tm_mark m in
    Ok (TM (tm_grid m') n (tm_nseg m') (tm_frame m') true (tm_seg_valid m'), n).

(** ** Signed distance fields *)

(** What the map takes from its base class VoxelGrid besides the cells: the cell
    sizes (include/sdf_tools/sdf_generation.hpp:277-285), the pose, and the number
    of cells that VoxelGrid's constructor computes for the extrema map
    (src/sdf_tools/sdf.cpp:188-193; see Extrema.v). *)
Record geometry := Geo {
  g_cx : binary64; g_cy : binary64; g_cz : binary64;
  g_pose : pose ieee;
  g_wd : dims
}.

(** The test of ExtractSignedDistanceField for the object of a cell,
    include/sdf_tools/tagged_object_collision_map.hpp:833-834: object_use_map[id] ==
    1 iff id is in the list (L820-824). *)
Definition selected (objects : list Z) (id : Z) : bool :=
  existsb (Z.eqb id) objects || (match objects with [] => true | _ => false end).

(** ExtractSignedDistanceField(oob, objects, unknown_is_filled, border),
    include/sdf_tools/tagged_object_collision_map.hpp:813-856. *)
Definition tm_extract_sdf (g : geometry) (m : tmap) (oob : binary32) (objects : list Z)
    (unknown_is_filled add_virtual_border : bool) : res (sdf * (binary64 * binary64)) :=
  extract_sdf_grid (tm_dims m) (g_cx g) (g_cy g) (g_cz g)
    (fun i => let (c, ok) := tm_get m i in
              if ok then Ok (selected objects (t_obj c) && occupied unknown_is_filled (t_occ c))
              else Throw "index out of grid bounds")
    oob (tm_frame m) add_virtual_border.

(** The overload of ExtractSignedDistanceField that takes a predicate on cells,
    include/sdf_tools/sdf_generation.hpp:422-441. *)
Definition tm_extract_cells (g : geometry) (m : tmap) (is_filled : tcell -> bool) (oob : binary32)
  : res (sdf * (binary64 * binary64)) :=
  extract_sdf_grid (tm_dims m) (g_cx g) (g_cy g) (g_cz g)
    (fun i => Ok (is_filled (fst (tm_get m i)))) oob (tm_frame m) false.

(** ExtractFreeAndNamedObjectsSignedDistanceField,
    include/sdf_tools/tagged_object_collision_map.hpp:730-811. *)
Definition tm_free_and_named (g : geometry) (m : tmap) (oob : binary32) (unknown_is_filled : bool)
  : res (sdf * (binary64 * binary64)) :=
  let* (free_s, free_x) :=
    tm_extract_cells g m (fun c => occupied unknown_is_filled (t_occ c)) oob in
  let* (named_s, named_x) :=
    tm_extract_cells g m (fun c => (0 <? t_obj c) && occupied unknown_is_filled (t_occ c)) oob in
  let combined := fold_left
    (fun s i => fst (sdf_set s i
       (combine_values (fst (sdf_get free_s i)) (fst (sdf_get named_s i)))))
    (sweep (sdf_dims free_s)) free_s in
  Ok (combined, (fst free_x, snd named_x)).

(** Assignment to an entry of a std::map<uint32_t, ..>,
    include/sdf_tools/tagged_object_collision_map.hpp:884, L908: the entries in
    ascending order of keys. *)
Fixpoint map_put {V} (k : Z) (v : V) (l : list (Z * V)) : list (Z * V) :=
  match l with
  | [] => [(k, v)]
  | (k', v') :: l' =>
      if k <? k' then (k, v) :: l
      else if k =? k' then (k, v) :: l'
      else (k', v') :: map_put k v l'
  end.

(** MakeObjectSDFs, include/sdf_tools/tagged_object_collision_map.hpp:875-891.  The
    out-of-bounds value is the double infinity converted to float. *)
Definition tm_make_object_sdfs (g : geometry) (m : tmap) (ids : list Z) (unknown border : bool)
  : res (list (Z * sdf)) :=
  foldM (fun acc id =>
           let* (s, _) := tm_extract_sdf g m (b32_of_b64 inf64) [id] unknown border in
           Ok (map_put id s acc)) ids [].

(** The keys of object_id_map in MakeAllObjectSDFs,
    include/sdf_tools/tagged_object_collision_map.hpp:896-912. *)
Definition tm_object_ids (m : tmap) : list Z :=
  map fst (fold_left (fun acc i => let id := t_obj (fst (tm_get m i)) in
                        if 0 <? id then map_put id tt acc else acc) (sweep (tm_dims m)) []).

(** MakeAllObjectSDFs, include/sdf_tools/tagged_object_collision_map.hpp:893-915. *)
Definition tm_make_all_object_sdfs (g : geometry) (m : tmap) (unknown border : bool)
  : res (list (Z * sdf)) :=
  tm_make_object_sdfs g m (tm_object_ids m) unknown border.

(** ** Convex segments *)

(** The extrema map UpdateConvexSegments works with,
    src/sdf_tools/tagged_object_collision_map.cpp:556-565. *)
Definition tm_extrema (g : geometry) (m : tmap) (border : bool) : res (grid (vec ieee)) :=
  let* (s, _) := if border then tm_extract_sdf g m inf32 [] true true
                 else tm_free_and_named g m inf32 true in
  compute_extrema (sdf_field s) (g_pose g) (g_wd g).

(** std::isinf, src/sdf_tools/tagged_object_collision_map.cpp:611-613. *)
Definition isinf64 (x : binary64) : bool :=
  match x with B754_infinity _ _ _ => true | _ => false end.

(** are_connected_fn of UpdateConvexSegments,
    src/sdf_tools/tagged_object_collision_map.cpp:571-600. *)
Definition seg_connected (ex : grid (vec ieee)) (threshold : binary64) (m : tmap) (a b : idx) : bool :=
  if t_obj (fst (tm_get m a)) =? t_obj (fst (tm_get m b))
  then lt64 (norm (vsub (fst (get ex a)) (fst (get ex b)))) threshold
  else false.

(** get_component_fn of UpdateConvexSegments,
    src/sdf_tools/tagged_object_collision_map.cpp:601-633. *)
Definition seg_component (ex : grid (vec ieee)) (m : tmap) (i : idx) : Z :=
  let (c, ok) := tm_get m i in
  if ok then
    if lt32 (t_occ c) half32 || (0 <? t_obj c) then
      let e := fst (get ex i) in
      if negb (isinf64 (vx e)) && negb (isinf64 (vy e)) && negb (isinf64 (vz e))
      then t_seg c else -1
    else -1
  else -1.

(** mark_component_fn of UpdateConvexSegments,
    src/sdf_tools/tagged_object_collision_map.cpp:634-646. *)
Definition seg_mark (m : tmap) (i : idx) (seg : Z) : tmap :=
  let '(m1, r, ok) := tm_get_mutable m i in
  if ok then
    let q := fst (tm_get m1 i) in
    fst (tm_set m1 i (tcell4 (t_occ q) (t_obj q) (t_comp q) seg))
  else m1.

(** UpdateConvexSegments, src/sdf_tools/tagged_object_collision_map.cpp:552-654;
    nothing is cached. *)
Definition tm_update_segments (g : geometry) (m : tmap) (threshold : binary64) (border : bool)
  : res (tmap * Z) :=
  let* ex := tm_extrema g m border in
  let* (m', n) := compute_connected_components (tm_dims m)
                    (seg_connected ex threshold) (seg_component ex) seg_mark m in
  Ok (TM (tm_grid m') (tm_ncomp m') n (tm_frame m') (tm_valid m') (Some true), n).

(** One call on a map by its caller, as in CollisionMap.v: SetValue
    (include/sdf_tools/tagged_object_collision_map.hpp:435-465), GetMutable
    (L368-396) and later assignments through what it returned,
    UpdateConnectedComponents
    (src/sdf_tools/tagged_object_collision_map.cpp:340-397), UpdateConvexSegments
    (L552-654). *)
Inductive tm_op :=
| TSet (i : idx) (v : tcell)
| TGetRef (i : idx)
| TWriteRef (k : nat) (v : tcell)
| TUpdateCC
| TUpdateSeg (threshold : binary64) (border : bool).

(** The effect of one call,
    include/sdf_tools/tagged_object_collision_map.hpp:368-534 and
    src/sdf_tools/tagged_object_collision_map.cpp:340-397, L552-654; the list holds
    the references handed out so far. *)
Definition tm_step (g : geometry) (st : tmap * list cref) (o : tm_op) : res (tmap * list cref) :=
  let (m, refs) := st in
  match o with
  | TSet i v => Ok (fst (tm_set m i v), refs)
  | TGetRef i => let '(m', r, _) := tm_get_mutable m i in Ok (m', refs ++ [r])
  | TWriteRef k v =>
      match nth_error refs k with
      | Some r => Ok (tm_write_ref m r v, refs)
      | None => UB "no such reference"
      end
  | TUpdateCC => let* (m', _) := tm_update m in Ok (m', refs)
  | TUpdateSeg threshold border =>
      let* (m', _) := tm_update_segments g m threshold border in Ok (m', refs)
  end.

(** A history of such calls on a map,
    include/sdf_tools/tagged_object_collision_map.hpp:368-534 and
    src/sdf_tools/tagged_object_collision_map.cpp:340-397, L552-654, in order. *)
Definition tm_run (g : geometry) (m : tmap) (ops : list tm_op) : res (tmap * list cref) :=
  foldM (tm_step g) ops (m, []).
