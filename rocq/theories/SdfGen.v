(** Model of signed-distance-field extraction,
    include/sdf_tools/sdf_generation.hpp:209-441, and of the map methods that
    call it. *)
From Verif Require Import Base Floats Grid DistModel CollisionMap.

(** SignedDistanceField (include/sdf_tools/sdf.hpp:20-25): the float grid, its
    resolution, frame and lock.  The pose is not used by anything here. *)
Record sdf := SDF {
  s_grid : grid binary32;
  s_res : binary64;
  s_frame : string;
  s_locked : bool
}.

(** Constructor, sdf.hpp:68-78: default and out-of-bounds value are both
    [oob]; unlocked. *)
Definition new_sdf (d : dims) (r : binary64) (oob : binary32) (frame : string) : sdf :=
  SDF (mk_grid d oob oob) r frame false.

(** GetNumXCells, GetNumYCells, GetNumZCells of the base class, used at
    sdf_generation.hpp:248-252. *)
Definition sdf_dims (s : sdf) : dims := gdims (s_grid s).

(** GetImmutable of the base class, used at sdf_generation.hpp:395. *)
Definition sdf_get (s : sdf) (i : idx) : binary32 * bool := get (s_grid s) i.

(** SetValue(index, value), sdf.hpp:236-264: only when in bounds and not locked;
    L303-331 are the same for an rvalue. *)
Definition sdf_set (s : sdf) (i : idx) (v : binary32) : sdf * bool :=
  if in_bounds (sdf_dims s) i && negb (s_locked s)
  then (SDF (gset (s_grid s) i v) (s_res s) (s_frame s) (s_locked s), true)
  else (s, false).

(** Splitting the cells, sdf_generation.hpp:219-240. *)
Definition classify (is_filled : idx -> res bool) (acc : list idx * list idx) (i : idx)
  : res (list idx * list idx) :=
  let (filled, free) := acc in
  let* b := is_filled i in
  Ok (if b then (filled ++ [i], free) else (filled, free ++ [i])).

(** cell.distance_square, a double holding an integer or +infinity,
    sdf_generation.hpp:254-255. *)
Definition distsq64 (o : option Z) : binary64 :=
  match o with Some z => b64_of_Z z | None => inf64 end.

(** std::sqrt(cell.distance_square) * resolution, sdf_generation.hpp:254-255. *)
Definition scaled_distance (f : dfield) (r : binary64) (i : idx) : binary64 :=
  mul64 (sqrt64 (distsq64 (cell_distsq f i))) r.

(** distance1 - distance2, sdf_generation.hpp:256. *)
Definition cell_distance (filled free : dfield) (r : binary64) (i : idx) : binary64 :=
  sub64 (scaled_distance filled r i) (scaled_distance free r i).

(** Body of the generation loop, sdf_generation.hpp:254-265. *)
Definition generate_cell (filled free : dfield) (st : sdf * (binary64 * binary64)) (i : idx)
  : sdf * (binary64 * binary64) :=
  let '(s, (mx, mn)) := st in
  let distance := cell_distance filled free (s_res s) i in
  let mx' := if gt64 distance mx then distance else mx in
  let mn' := if lt64 distance mn then distance else mn in
  (fst (sdf_set s i (b32_of_b64 distance)), (mx', mn')).

(** ExtractSignedDistanceField<T>(pose, resolution, sizes, predicate, ..),
    sdf_generation.hpp:209-271. *)
Definition extract_sdf (d : dims) (r : binary64) (is_filled : idx -> res bool)
    (oob : binary32) (frame : string) : res (sdf * (binary64 * binary64)) :=
  let* (filled, free) := foldM (classify is_filled) (sweep d) ([], []) in
  let* filled_field := build_distance_field d filled in
  let* free_field := build_distance_field d free in
  Ok (fold_left (generate_cell filled_field free_field) (sweep d)
        (new_sdf d r oob frame, (ninf64, inf64))).

(** x_axis_size_offset and its like, sdf_generation.hpp:289, L291, L293. *)
Definition size_offset (n : Z) : Z := if 1 <? n then 2 else 0.

(** x_axis_query_offset and its like, sdf_generation.hpp:290, L292, L294. *)
Definition query_offset (n : Z) : Z := if 1 <? n then 1 else 0.

(** The sizes with the virtual border, sdf_generation.hpp:296-298. *)
Definition border_dims (d : dims) : dims :=
  D (nx d + size_offset (nx d)) (ny d + size_offset (ny d)) (nz d + size_offset (nz d)).

(** Is a coordinate that of a border cell?  One of the three tests of
    free_is_filled_fn and filled_is_filled_fn, e.g. sdf_generation.hpp:305-313 and
    L345-353. *)
Definition on_border (n v : Z) : bool :=
  (0 <? size_offset n) && ((v =? 0) || (v =? n + size_offset n - 1)).

(** The three tests together, sdf_generation.hpp:304-333 and L344-373. *)
Definition border_cell (d : dims) (v : idx) : bool :=
  on_border (nx d) (ix v) || on_border (ny d) (iy v) || on_border (nz d) (iz v).

(** real_grid_index, sdf_generation.hpp:334-337 and L374-377. *)
Definition real_index (d : dims) (v : idx) : idx :=
  I (ix v - query_offset (nx d)) (iy v - query_offset (ny d)) (iz v - query_offset (nz d)).

(** query_x_idx and its like, sdf_generation.hpp:391-393. *)
Definition virtual_index (d : dims) (i : idx) : idx :=
  I (ix i + query_offset (nx d)) (iy i + query_offset (ny d)) (iz i + query_offset (nz d)).

(** free_is_filled_fn ([border] = true) and filled_is_filled_fn ([border] = false),
    sdf_generation.hpp:301-339 and L341-379. *)
Definition border_filled (d : dims) (border : bool) (is_filled : idx -> res bool) (v : idx)
  : res bool :=
  if border_cell d v then Ok border else is_filled (real_index d v).

(** Choice between the two values of a cell, sdf_generation.hpp:400-411 and
    tagged_object_collision_map.hpp:792-803.  The comparisons with 0.0 and -0.0 are
    in double; both zeros compare equal. *)
Definition combine_values (free_v other_v : binary32) : binary32 :=
  if ge32 free_v zero32 then free_v
  else if le32 other_v zero32 then other_v
  else zero32.

(** ExtractSignedDistanceField(grid, predicate, oob, frame, add_virtual_border),
    sdf_generation.hpp:273-420.  [cx cy cz] are the grid's cell sizes.  The overload
    whose predicate takes the cell (L422-441) calls this one without a border. *)
Definition extract_sdf_grid (d : dims) (cx cy cz : binary64) (is_filled : idx -> res bool)
    (oob : binary32) (frame : string) (add_virtual_border : bool)
  : res (sdf * (binary64 * binary64)) :=
  if ne64 cx cy || ne64 cx cz then Throw "Grid must have uniform resolution"
  else if negb add_virtual_border then extract_sdf d cx is_filled oob frame
  else
    let* (free_s, free_x) := extract_sdf (border_dims d) cx (border_filled d true is_filled) oob frame in
    let* (fill_s, fill_x) := extract_sdf (border_dims d) cx (border_filled d false is_filled) oob frame in
    let combined := fold_left
      (fun s i => fst (sdf_set s i
         (combine_values (fst (sdf_get free_s (virtual_index d i)))
                         (fst (sdf_get fill_s (virtual_index d i))))))
      (sweep d) (new_sdf d cx oob frame) in
    Ok (combined, (fst free_x, snd fill_x)).

(** The occupancy test of the maps, e.g. collision_map.hpp:692-703. *)
Definition occupied (unknown_is_filled : bool) (occ : binary32) : bool :=
  gt32 occ half32 || (unknown_is_filled && eq32 occ half32).

(** CollisionMapGrid::ExtractSignedDistanceField, collision_map.hpp:680-712. *)
Definition cm_extract_sdf (m : cmap) (cx cy cz : binary64) (oob : binary32)
    (unknown_is_filled add_virtual_border : bool) : res (sdf * (binary64 * binary64)) :=
  extract_sdf_grid (cm_dims m) cx cy cz
    (fun i => let (c, ok) := cm_get m i in
              if ok then Ok (occupied unknown_is_filled (c_occ c))
              else Throw "index out of grid bounds")
    oob (cm_frame m) add_virtual_border.
