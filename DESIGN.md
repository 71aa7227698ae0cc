# Formal model of sdf_tools in Rocq (Coq 8.16.1)

Source: `/repo` (UM-ARM-Lab/sdf_tools, pinned commit), read as text. Nothing was
built or run. The theorems are about the Gallina model in `rocq/theories`; the tie
to the C++ is the line citation on every definition.

## 1. Shape of the model

* Outcomes. `res A := Ok a | Throw e | UB r`. A C++ exception is `Throw`; undefined
  behaviour (signed overflow, out-of-range access, iterator invalidation,
  indeterminate read, unrepresentable float-to-integer conversion) is `UB`. Loops
  that are not structurally recursive take fuel and return `UB "fuel"`; theorems
  exclude that outcome by their statement.
* Grids. `arc_utilities::VoxelGrid` is not in the repository. It is modelled as
  dimensions plus a flat list, row-major (`x*ny*nz + y*nz + z`), with an
  out-of-bounds value. Location-to-index mapping is a parameter (any function).
* Numbers. `float`/`double` are Flocq `binary32`/`binary64` where the property
  depends on bit behaviour (occupancy comparisons, SDF values, codecs). Geometry
  (gradient, interpolation, projection) is proved over real arithmetic and says so;
  C93-C95 and C97 bound what rounding changes.
  Integers are `Z` with explicit `int32`/`uint32` checks or wraps where they matter.
* State machines. Maps, the lockable SDF, the builder and the hashed map are
  `step` functions; history properties are inductions over operation lists.
* External code (zlib, Eigen transforms, ROS services) appears as Section
  variables with the assumed law as an explicit hypothesis of the theorem.

## 2. Plan per property

| id | modelled | proof method |
|----|----------|--------------|
| C01 | flat grid get/set | index bijection (div/mod), list update laws |
| C02 | BFS marking + sweep, generic in the callbacks | loop invariant on queue/queued/marked; closure under adjacency; spec = reflexive-transitive closure |
| C03 | marking callback of both maps | invariant through the fold |
| C04-C06 | map state machine with valid flag | invariant by induction on histories; C05 adds retained references and is expected to be refuted |
| C07 | ExtractConnectedComponents | fold invariant |
| C08-C15 | BuildDistanceField bucket queue with explicit int32 checks, bucket-range checks and "grows while iterated" outcome | invariants over the queue processing; parity argument; C13 is expected to be refuted by a witness; C15 may remain partial |
| C16-C19 | SDF extraction with Flocq sqrt/mult/minus and rounding to binary32 | monotonicity of rounding; fold invariants |
| C20,C21 | virtual border overload | index shift; C20 expected refuted |
| C22,C23 | predicates and resolution check | case analysis on binary32 comparison |
| C24,C25 | lock state machine | induction on histories; C25 expected refuted |
| C26,C27 | gradient over an abstract arithmetic, theorem over R | case analysis |
| C28,C29 | interpolation index selection and trilinear formula | case analysis, nra; C29 fails in the outer half cells (extrapolation), to be refuted there and proved inside |
| C30-C32 | clamp projection, projection loop, boundary distance | real arithmetic; C32 second half expected refuted |
| C33 | path following with visited map | finite visited set bounds the path |
| C34-C40 | byte codecs, file headers, messages | combinator round-trip lemmas at any offset |
| C41-C45 | surface predicates, connectivity bits, holes | C41, C45 expected refuted; corrected variants stated |
| C46-C49 | tagged map state machine, convex segments, filters | C46, C47 expected refuted; C46 proved for calls that write no cell |
| C50,C51 | resample | C50 expected refuted; C51 over real arithmetic |
| C52,C53 | export loops | fold invariants |
| C54,C55 | builder state machine | induction; C55 expected refuted |
| C56 | 8SSEDT passes | invariant |
| C57 | reshape/transpose index algebra | arithmetic |
| C58,C59 | hashed map | induction; C59 expected refuted |
| C60 | the same loop with fuel | refuted by a periodic orbit in IEEE arithmetic (vm_compute of one period, induction on fuel) |
| C61,C62 | smooth gradient, full gradient, quaternion rotation | real arithmetic; fold over all cells |
| C63 | sizes of the extrema map | refuted for both roundings of the recount |
| C64 | free-and-named field of the tagged map | fold over extracted fields, Flocq monotonicity |
| C65,C66 | disk and stream state | refuted by a witness |
| C67-C69 | hole counting as written (z-1 read twice) | refuted by a family of maps; C69 proved where the wrong lookup does no harm |
| C70 | IsSurfaceIndex | case analysis over the 26 neighbours |
| C71-C73 | display exports | lists of points and colours as maps over the sweep; Flocq bounds for shades |
| C74-C76 | builder state machine | induction on histories with abstract scene and service |
| C77-C79 | two passes of 8SSEDT, preview and raw image | pointer simulation: every stored offset is an exact integer vector to a source; path argument for the bound; refuted beyond |
| C80-C82 | numpy arrays (shape, strides, buffer) | index algebra |
| C83 | export of the hashed map | permutation of the chunk list |
| C84,C85 | the queries over dual numbers (value and derivative), on top of any arithmetic | the estimate is locally a polynomial of three linear coordinates; its dual evaluation is its derivative; one-sided at cell centres |
| C86 | the estimate over the reals | piecewise slope bounds along the three axes |
| C87,C89 | drawing and loop of the generator node | fold over the sweep; induction on rounds using C74; frame refuted |
| C88 | tf.stack on arrays | index algebra: row-major offset of an index list and its inverse |
| C90,C91 | BuildDistanceField on single-layer grids | history of accepted queue entries (`DistTrace`, `DistChain`); two half-plane crossing argument that no accepted entry is ever lost (`DistPlane`, `DistPlanar`); then induction along city-block paths |
| C92 | overloads that take a location, histories mixing both kinds of calls | each equals its index version at the cell the location lies in; cubes from the (real) geometry |
| C93,C94 | boundary distance and projection into the volume in IEEE doubles | subtraction keeps signs and rounding is monotone (Flocq); doubles placed on the real line |
| C95 | grid-aligned gradient in IEEE floats and doubles | relative error of one float or double subtraction, one reciprocal and one product (Flocq error lemmas) |
| C96 | extrema of the free-and-named field | from C19 for the two fields it is assembled from; refuted when a class is missing |
| C97 | EstimateDistance in IEEE doubles | forward error analysis: every intermediate is an exact quantity up to k units of rounding relative to a bound (Flocq error lemmas); Lipschitz bound of trilinear interpolation for the error in the corner |
| C98 | Python arrays from environment to distances | the helper's field is ExtractSignedDistanceField for the predicate "item is 1"; then C17, C18 and C91 |
| C99,C100 | pose, scale and points of the markers | a viewer's boxes as a set of locations; from the drawing lemmas and the (real) geometry; C100 refuted for a grid turned about z |
| C101 | topology of single-layer maps | Euler's formula for subgraphs of the plane grid graph: adding edges one at a time, components and faces change together because a cut has an even number of edges around each square; corner types summed over the grid |
| C102 | the demonstration script: clouds to voxel grids with numpy's truncation and negative indices | Flocq error bounds for subtraction and division, truncation of nearby reals; fold over the points; composed with the field theorems of C80 |
| C103,C104 | its published cloud and arrows, numpy's meshgrid order, strided slices | index algebra of row-major positions, Flocq error bounds; refuted for whole families of shapes and origins |
| C105,C106 | BuildDistanceField and the extraction on grids of any shape | invariant over the bucket queue: along a path leading away from an obstacle through cells it is strictly nearest to, each cell is given its final entry in time to pass it on (`DistReach`); then geometry of lines, pairs and boxes (`DistShapes`), lifted to signed fields and virtual borders (`SdfShapes`) |
| C107, C60 (walls) | the queries in real arithmetic under a change of unit; fields of flat walls and their extraction | each query commutes with scaling (`ScaleThms`); the loop is followed pass by pass out of a wall with a decreasing gap (`WallThms`); the extraction stores the exact multiples of the cell size (`WallExtract`); refutation by one wall in two units (`ScaleCase`) |
| C108, C109 | smooth gradient as a quotient of differences; wall fields interpolate to a linear function | Flocq error bounds composed with C97; the extraction's exact distances along an axis (C106) |
| C110 | the run on one long row | refuted: an exact description of the state after each bucket, up to the overflow at cell 46341 |
| C111, C112 | two runs on related obstacle lists | repetitions: the second entry offers nothing new, states equal but for bucket 0; order, mirror images, margins and added obstacles refuted by witnesses, true where C105 or C90 give the value |
| C113 | the two fields of an extraction exchanged, and the two extrema | same fields, opposite sign, negation of floats twice is the identity; induction over the generation loop for the extrema |
| C114 | stored values of neighbours | C90's local consistency and the triangle inequality in reals; induction on the city-block length |
| C115 | estimate of an extracted field in real arithmetic | refuted by a single filled cell (and its inverse); the point's own cell keeps at least 1/8 of the weight and opposes the sign, the other corners are bounded by their distance from it |
| C116 | the same | triangle inequality and trilinear weights for the lower bound, accuracy of the stored values and the planar factor (C90) for the upper one |
| C117,C118 | estimates and gradients of an extracted field in real arithmetic | values of neighbours differ by one cell (C114, or the triangle inequality where the field is exact); C86; a two-cell map refutes unit gradients |
| C119,C120 | estimates in doubles against the model's own functions run on real numbers | the doubles choose other cells only near a cell centre, where both choices agree; axis by axis bound of the difference; bounds of C115-C117 transferred |
| C121 | per-object fields of tagged maps (already modelled) against the field of several objects | signs from C49; near cells by exactness within sqrt 6, planar maps by the factor of C90; the general claim by a computed counterexample |
| C122 | estimates in outer half cells (already modelled) | move the point to the nearest place between the centres, in the same cell; extrapolation on each axis at most doubles differences of neighbours (C117), so C115/C116 carry over with larger constants; doubles by C119 |
| C123 | projection out of collision in an extracted field | a returned point's estimate exceeds the minimum distance (C31), so C115, C116, C120 and C122 apply to it; the general claim by the counterexample of C115 |
| C124 | the Python helpers around one item, a rectangle or box, or a straight line | array items are values of the extracted field (C57); C106 says which of those are exact |
| C125 | the projection loop in doubles in the field of a flat wall | error bounds for one pass (step, direction, new point); induction on the number of passes with the height above the wall as measure |
| C126 | the transform of a point (Eigen's product) in doubles; the queries of a grid placed by two transforms | error bound for the product; reduction of the queries to the grid's own frame; C119, C120, C109 and C125 applied there |
| C127 | GetGradient's rotation of the slopes (Eigen's quaternion product and inverse) in doubles | error bound for a sum of four products, applied to the inverse, the inner and the outer product; slopes from C120 and C125 |
| C128 | as C126, for points anywhere in the grid and distances in the world | C122 and the Lipschitz bounds of C118 carried over the rounding bound of C126; rotations keep distances |
| C129 | the inverse and the quaternion a grid derives from its origin transform (`Origin.v`) | exact quaternion by the four branches; in doubles the chosen pivot is at least 0.99 in each, so roots and quotients keep their accuracy; then C127 and C128 for the derived transform |
| C130 | the cell found for a point in a turned grid (`Location.v`, `Origin.v`); the grid of src/estimate_distance_test.cpp (`PointCase.v`) | errors of the transform, of its inverse and of the division bounded by millionths of a cell, then the floor; refuted on faces and corners by computing with that program's transform |
| C131 | `Resample` of a turned map in doubles (`Resample.v`, `Origin.v`) | the world place of an old centre is located in the new grid by C130; then the writes are followed as for C50 |
| C132 | distance to the boundary and projection into the volume of a turned grid in doubles (`SdfQuery.v`, `Origin.v`) | C93 and C94 for the computed grid coordinates, errors of the transforms as in C130; the rounded margin and the rounded sizes are within millionths of a cell of the exact ones |
| C133 | smoothed and plain gradients by location in a turned grid in doubles (`SdfQuery.v`, `Origin.v`) | the quotient of two differences with rounding, for any quantity known to a tolerance at the seven points; instances: the exact estimate (C128) and the height above a wall (C126), whose slope along a world axis is a component of the turned normal |
| C134 | chunk marker of the hashed map (`Blocks.v`) | C83's description of the exported points, boxes of the size of a chunk around them; two cases for the place the outside library gives a whole chunk: its centre (claim proved for moved grids) or its first cell (refuted for every chunk of more than one cell); refuted for a turned grid |
| C135 | projection into the volume followed by a boundary query or another projection, in doubles (`SdfQuery.v`) | from the bounds of C132: the cut coordinates are in the box, nearest to the point, and unchanged by a second cut |
| C136 | projection out of collision in a turned grid in doubles (`SdfQuery.v`, `Origin.v`) | the search runs in the grid frame, where C123 applies; its end is moved to the world and back with the bounds of C132, and rigid poses keep distances |
| C137 | in-grid test of a point in doubles (`SdfQuery.v`, `SdfField.v`, `Origin.v`) | rounding is monotone and keeps whole numbers and the least double, so a rounded quotient cannot cross a face from outside; turned grids add the bounds of C132; exactness refuted for cells of side 2 |
| C138 | the loop of the projection out of collision in doubles (`SdfQuery.v`) | induction over the passes: a point found in the grid is small (C137), the step is between 0 and the largest one however the distance is rounded, and the direction is bounded because short gradients are refused |
| C139 | the flags of EstimateDistance and DistanceToBoundary in doubles (`SdfQuery.v`, `SdfField.v`) | refuted at the upper faces; otherwise C137 bounds the coordinate by the exact size, and rounding, being monotone, keeps it below the rounded size; the converse, away from the faces, from the error bounds of the size and of the reported distance |

## 3. Trusted base

* Coq 8.16.1's kernel (with `vm_compute`; no `native_compute`) and `coqchk`.
* The axioms of the standard library listed in section 6. No others, and none of
  our own.
* Flocq's definitions of IEEE arithmetic (`binary32`, `binary64`, `Bplus`, `Bmult`,
  `Bdiv`, `Bsqrt`, `binary_normalize`) as a description of the target's floats,
  with round-to-nearest-even and no excess precision. Payloads of NaNs are not
  kept by conversions. `pow(v, 2)` is taken to be `v * v`.
* The reading of the C++ and Python sources. Every definition cites the lines it
  models and says where it simplifies.
* Behaviour of code that is not in the repository, assumed as follows.
  - `arc_utilities::VoxelGrid`: row-major index `x*ny*nz + y*nz + z`;
    `GetImmutable` gives `(cell, true)` inside and `(oob_value, false)` outside;
    `SetValue` outside does nothing and says so; `GetMutable` outside hands out the
    out-of-bounds value. Members of that base class that give direct access to the
    raw data (and so bypass the flags of the derived classes) are not modelled.
  - `arc_utilities` serialization: plain-old-data values are copied byte for byte
    (little endian), vectors and strings are a `uint64` length followed by their
    elements, and reading past the end throws. The byte layout is an assumption.
  - `arc_utilities::DynamicSpatialHashedVoxelGrid`: described at the top of
    `Hashed.v`.
  - `arc_helpers::GenerateUniqueColor`, `ClampValue`, Eigen's products (except in
    `Frame.v`, which fixes an order of operations), inverses and conversions to
    quaternions (except in `Origin.v`, which follows the published algorithm), zlib,
    MoveIt and ROS services are arguments of the model or explicit hypotheses of the
    theorems that need them (for instance: decompressing compressed data gives the
    data back).
  - numpy: `reshape`, `transpose`, basic slicing and `astype` with their documented
    meaning (`Python.v`).
* Iteration order of hash maps is a parameter; theorems quantify over all orders.

## 4. What is modelled and what is not

| source | model | not modelled |
|--------|-------|--------------|
| `sdf_generation.hpp` | `DistModel` (bucket queue), `SdfGen` (extraction, virtual border) | - |
| `topology_computation.hpp` | `CCModel` (components), `Surfaces` (surfaces, vertices, holes, topology) | console output of the verbose flag |
| `collision_map.hpp/.cpp` | `CollisionMap`, `SdfGen`, `Surfaces`, `Resample`, `Serial`, `Display`, `Location` (overloads that take a location), `Markers` (marker pose and scale) | marker id, type, lifetime |
| `tagged_object_collision_map.hpp/.cpp` | `TaggedMap`, `Surfaces`, `Resample`, `Serial`, `Display`, `Location` | the same |
| `sdf.hpp/.cpp` | `SdfQuery` (gradients, estimates, projections), `Frame` (transform of a point in doubles), `AutoDiff` (GetAutoDiffGradient), `SdfLock`, `Location`, `Extrema`, `Serial`, `Display` | query overloads that only repackage coordinates (3-vector, 4-vector, three doubles) |
| `sdf_builder.hpp/.cpp` | `Builder` | the text of URDF and SRDF, collision checking itself |
| `dynamic_spatial_hashed_collision_map.cpp` | `Hashed`, `Markers` (cell marker), `Blocks` (chunk marker) | marker constants; where arc_utilities places a whole chunk (a parameter in C134) |
| `image_2d_sdf_node.cpp` | `Image` | ROS and OpenCV conversions; images that are not single-channel 8-bit |
| `sdf_generation_node.cpp` | `Node` (drawing, rounds of the loop) on top of `Builder` | ROS parameters, publishing and timing; marker constants other than pose and scale |
| `utils_2d.py`, `utils_3d.py` | `Python` | negative indices in reads, `collision_cell_type` |
| `utils_3d_tensorflow.py` | `Node` (batches) | tensorflow itself; `numpy()` conversions of scalars |
| `scripts/3d_sdf_demo_rviz.py` | `Demo` on top of `Python` | ROS publishing and timing, the random cloud itself, marker colours and sizes |
| `bindings.cpp` | through `Python` | pybind11 |
| tutorials and tests (`*_test.cpp`, `sdf_tools_tutorial.cpp`, `test_voxel_grid.cpp`) | - | programs that only call the above |
| `test/test_bindings.py` | `PyTest.v` | the unit test runs on the model and passes (`repository_test`) |

Arithmetic: everything whose property depends on bits (occupancy tests, stored
distances, signs, extrema, codecs, colours, the image node, the Python arrays) is
proved about IEEE numbers. The query functions are written once over a record of
operations (`Arith.v`) and instantiated twice: geometric statements (C26-C32, C61)
are proved for real numbers, refutations use the IEEE instance, and C93-C95, C97, C109, C119, C120 and C125 state
what rounding changes in boundary distances, projections, gradients and distance estimates,
C126 what it changes for a grid that is turned and moved, C127 what it
does to the gradient in the world frame, and C129 what it does to the inverse transform
and the quaternion, so that the bounds hold with only the origin transform given. C130
states which cell a point is found in, C131 what that means for resampling,
C132 for the distance to the boundary and the projection into the volume.

## 5. Findings

Where a property fails, the theorem named `..._refuted` exhibits the failing input.

* C05, C24, C25: references handed out earlier still write, so a component flag
  stays valid and a locked field changes; a refused `GetMutable` exposes the
  out-of-bounds value for writing.
* C13: the propagated distance is not always the nearest obstacle's (7 x 4 grid,
  three obstacles, squared distance 8).
* C110: rows of 46342 cells or more overflow the int32 squared distance. C111: the order
  of the obstacles shows in the result, so mirrored maps and maps with an additional
  margin can have other values. C112: filling a cell can raise the distance of a free
  cell (4 x 4 map, two obstacles and a third, from sqrt 8 to 3 cells).
* C115: inside a filled cell `EstimateDistance` can exceed half a cell size, inside a free
  cell it can be below minus half a cell size, so its sign does not tell the class.
* C123: so `ProjectOutOfCollision` (minimum distance 0) returns some points inside filled
  cells unchanged; with a minimum distance of 5/8 of a cell it does not.
* C130: in a turned grid a point on the side of the grid can be taken for one outside it,
  and a corner of a cell for a point of a neighbour. In `src/estimate_distance_test.cpp`
  some estimates are therefore the out-of-bounds value (1e6, which then is its maximum
  distance) and some obstacles land one cell off.
* C131: a turned map resampled to cells half as large writes each old cell to one of
  the new cells around its centre that rounding picks, so straight rows come out bent.
* C118: next to an obstacle the gradient of an extracted field can have length 2.
* C20, C96: with a virtual border, or in a field of free space and named objects, the
  reported extrema may exclude stored values.
* C29: the estimate extrapolates in the outer half of edge cells. C31: infinite
  values give a NaN estimate and the projection stops inside an obstacle. C32: the
  distance to the boundary is positive outside. C60: the projection oscillates
  forever in a six-cell corridor. C107: it takes the slope in front of a wall for
  flat when cells have side 8 or more, as it compares the slope with a length.
* C41: filled cells are looked up at (x,y,y) and unknown ones at (x,z,z); the far z
  edge compares with nz.
* C101: cells that meet at a corner only make the hole count wrong even on maps of
  one layer, where it is otherwise right: each such place subtracts a quarter of a
  hole before rounding (three missing cells on a diagonal count as two holes).
* C45, C67, C68: the hole count reads z-1 where it means z+1: topology throws on
  any component with a flat 2 x 2 top two cells thick, reports a void for a block
  with one cell on top, and changes under a z mirror image. C69: the tagged map
  loses a lone occupied cell.
* C46: writes never clear the convex-segment flag. C47, C59: constructors leave a
  flag uninitialised.
* C50, C51, C63: resampling merges by last visit, leaves finer cells at the
  out-of-bounds value, and recomputes the number of cells from a size in doubles.
  In C63 a larger map then reads an empty vector.
* C55: the out-of-bounds float is converted to `uint8_t`; `sdf_generation_node.cpp`
  passes infinity. C75, C76: a failed service call goes unnoticed; a
  default-constructed builder dereferences a null pointer. Also (not modelled): the
  URDF gives the robot link visual geometry only and swaps the x joint's upper limit
  and velocity (`sdf_builder.cpp` L108).
* C65, C66: saving never checks the stream; loading never compares the number of
  cells with the amount of data.
* C73: infinite cells make NaN colours. The single-marker export with an empty list
  draws object 0 when its generated colour is visible; the export with one namespace
  per object skips it.
* C77: the image transform misses the nearest source (14 x 8). C78: uniform images
  make the preview convert NaN to `uint8_t`.
* C80-C82: the other Python conversions are indexed [x, y]; `gradient_to_np` always
  raises; environments without cells raise.
* C13, C15, C21: on single-layer grids no accepted queue entry is ever lost and
  every cell gets a value within a factor sqrt 2 of the truth (C90). In 3-D grids
  accepted entries can be overwritten before they are expanded, so that proof does
  not carry over. Cells that a nearest obstacle reaches through its own region are
  exact there too (C105: one or two obstacles, boxes, rooms, lines of sight); whether
  another cell can stay infinite is open. No counterexample was found by search with the model.
* C85: `GetAutoDiffGradient` works at cell centres (the open TODO in the code), but
  what it returns there is the slope on the side of larger coordinates.
* C89: the generator node labels the map picture `base` whatever frame it is
  configured with, and its out-of-bounds value makes the first round undefined.
* C100: the generator node and the hashed map draw world points in a marker with the
  identity as pose. With a turned origin the boxes stay unturned: a location that was
  just written can lie outside every drawn box.
* C134 (depends on arc_utilities, not in /repo): the box of a whole chunk is drawn around
  `GetIndexLocationInGrid(0, 0, 0)`. If that is the centre of the chunk's first cell, as
  the name says, the box is displaced by half a chunk less half a cell on each axis, and
  parts of the chunk are not drawn.
* C137, C139: `EstimateDistance` and `DistanceToBoundary` disagree about points on an
  upper face, and with cells of side 2 a point just below the lower face is reported in
  the grid by the first only.
* C102-C104: the demonstration script truncates indices towards zero and lets negative
  ones wrap, so points below the grid mark voxels at either end. One point with an
  infinite or NaN coordinate makes the conversion undefined. It indexes its grid
  [x, y, z] although the helpers read [y, x, z], enumerates positions with
  `np.meshgrid`'s default order (transposed against the array), and subtracts the
  origin where it should add it. Distances and arrows are shown at the wrong voxels.

## 6. Axioms per theorem (`Print Assumptions`)

Every property theorem is one of these kinds.

**Closed under the global context** (no axioms):

* `PropGrid`: C01_read_after_write, C01_history
* `PropDist`: C08_no_undefined_behaviour, C09_throws_iff_point_outside, C10_distances_realised, C11_zero_iff_obstacle, C12_exact_near_obstacles, C12_exact_up_to_6, C13_exactness_refuted, C14_single_obstacle_exact, C15_no_obstacle_infinite, C15_finite_partial, C15_planar_partial, C90_planar_bound, C90_planar_straight, C90_planar_ratio, C90_planar_neighbours
* `PropComponents`: C02_components_exact, C03_payload_kept, C04_valid_flag_sound, C05_kept_reference_refuted, C06_recompute_determined, C07_extract_components
* `PropSdf`: C22_nan_is_free
* `PropQuery`: C26_gradient_available, C26_grid_gradient_available, C26_location_gradient_available, C28_estimate_never_faults, C31_projection_out_any, C61_smooth_gradient_available, C62_full_gradient
* `PropLock`: C24_locked_values_partial, C24_unlocked_writes, C25_locked_calls_only
* `PropTagged`: C02_tagged_components_exact, C03_tagged_payload_kept, C06_tagged_recompute_determined, C47_default_initialised
* `PropSerial`: C38_missing_file
* `PropSurface`: C41_listed_once, C41_empty_surfaces_partial, C41_what_is_listed_partial, C41_surface_test, C41_filled_missed_refuted, C41_unknown_missed_refuted, C41_interior_listed_refuted, C41_far_edge_missed_refuted, C42_candidate_corner, C70_surface_index, C43_static_surface, C43_dynamic_surface, C43_round_trip, C43_index_map, C44_components_counted, C44_missing_vertex_throws, C44_any_order, C44_always_ends, C44_topology_any_order, C44_tagged_topology_any_order, C45_z_mirror_refuted, C45_xy_mirror_partial, C67_flat_top_throws_refuted, C67_solid_map_throws_refuted, C67_labelled_flat_top_throws_refuted, C68_bogus_void_refuted, C69_tagged_disagrees_refuted, C69_same_components
* `PropResample`: C50_what_is_kept_partial, C50_tagged_what_is_kept_partial
* `PropDisplay`: C52_export, C52_export_tagged, C52_export_separate, C52_components, C52_components_tagged, C52_segment, C52_surface, C52_objects, C52_object_colors, C52_unique, C52_unique_colors, C53_surfaces, C53_surfaces_separate, C72_same, C72_same_colors
* `PropBuilder`: C76_default_undefined_refuted
* `PropPython`: C80_grid_to_np_partial
* `PropHashed`: C58_read_last_write, C58_one_write, C59_initialised_flag_refuted, C59_default_partial, C59_components_partial, C83_drawing_matches_reads
* `PropAutoDiff`: C84_available
* `PropNode`: C87_draws, C87_asserts
* `PropLocation`: C92_map_write_any, C92_tagged_write_any, C92_field_write_any, C92_map_reference, C92_tagged_reference, C92_field_reference, C92_corner, C92_tagged_corner, C92_map_history, C92_field_history, C92_map_flag_sound, C92_field_locked
* `PropPlanar`: C67_single_layer_partial, C68_single_layer_partial, C101_holes_counted_partial, C101_with_contacts, C101_diagonal_holes_refuted
* `PropShapes`: C105_reached, C105_straight, C105_two_obstacles, C105_box, C105_room
* `PropField`: C110_long_rows_refuted, C111_repeated_obstacle, C111_order_refuted, C111_order_near, C111_order_reached, C112_added_exact, C112_added_planar, C114_consistency_refuted

**`ClassicalDedekindReals.sig_forall_dec`, `ClassicalDedekindReals.sig_not_dec`,
`FunctionalExtensionality.functional_extensionality_dep`** (the standard library's
real numbers):

* `PropQuery`: C27_affine_gradient, C27_rotation_keeps_length, C27_world_gradient, C29_estimate_at_center, C29_estimate_between_partial, C29_extrapolation_refuted, C29_affine_reproduced, C30_projection_into_volume, C31_projection_out, C31_far_points_unchanged, C31_outside_points, C31_step_length, C32_distance_to_boundary, C32_negative_outside_refuted, C61_smooth_gradient_affine
* `PropResample`: C50_coarser_loses_refuted, C50_finer_loses_refuted, C50_finer_keeps_centres_partial, C50_tagged_finer_keeps_centres_partial, C51_same_resolution_partial, C51_tagged_same_resolution_partial
* `PropAutoDiff`: C84_is_gradient, C84_the_gradient, C85_forward, C85_at_centers, C85_no_gradient_there, C86_lipschitz, C86_lipschitz_between
* `PropLocation`: C92_cell_of_location, C92_volume, C92_center_names_cell, C92_map_write, C92_tagged_write, C92_field_write
* `PropMarkers`: C99_collision_map, C99_surfaces, C99_components, C99_tagged_map, C99_tagged_occupancy, C99_object_drawings, C100_node_partial, C100_hashed_partial, C100_node_refuted, C100_hashed_refuted
* `PropWall`: C60_wall_partial, C107_gradients, C107_smooth_gradient, C107_estimate, C107_boundary, C107_into_volume, C107_projection_partial, C107_projection_refuted, C107_large_cells_refuted
* `PropField`: C114_planar_lipschitz, C114_neighbours_partial
* `PropOrigin`: C129_quaternion
* `PropBlocks`: C134_blocks_partial, C134_first_cell_refuted, C134_turned_refuted, C134_single_cell

Theorems that depend on sig_forall_dec and functional_extensionality_dep only:

* `PropNode`: C89_opacity
* `PropWallProject`: C125_default_step

**`FunctionalExtensionality.functional_extensionality_dep`** alone:

* `PropSurface`: C69_harmless_lookups_partial, C69_thin_partial

**The same three and `Classical_Prop.classic`** (real numbers and Flocq's lemmas):

* `PropSdf`: C16_sign, C17_magnitude, C17_distance_field, C17_boundary_cells, C17_accuracy, C18_one_class_infinite, C19_extrema_unrounded, C19_extrema_stored, C20_border_extrema_refuted, C20_border_extrema_both_classes, C21_border_sign, C21_border_magnitude, C21_border_distance_field, C21_border_bound_partial, C91_planar_sdf, C91_planar_sdf_border, C22_unknown_flag, C23_nonuniform_refused
* `PropQuery`: C31_infinite_values_refuted, C60_projection_terminates_refuted
* `PropLock`: C24_kept_reference_refuted, C25_locked_oob_refuted
* `PropExtrema`: C33_extrema_map, C63_larger_map_undefined, C63_recount_refuted
* `PropTagged`: C04_tagged_valid_flag_sound, C46_stale_segments_refuted, C46_unwritten_partial, C47_uninitialised_flag_refuted, C48_defined, C48_extrema_source, C48_segments_exact, C48_segments_respect_objects, C49_selected_objects, C49_distance, C49_distance_border, C49_distance_field, C49_distance_field_border, C49_make_object_sdfs, C49_make_all_object_sdfs, C64_free_and_named, C64_distance_field, C96_extrema_both_classes, C96_extrema_refuted
* `PropSerial`: C34_sdf_round_trip, C35_collision_map_round_trip, C36_tagged_map_round_trip, C47_serializing_uninitialised_refuted, C37_sdf_file, C37_collision_map_file, C37_tagged_map_file, C38_sdf_foreign_file, C38_collision_map_foreign_file, C38_tagged_map_foreign_file, C38_sdf_file_is_not_collision_map, C38_sdf_file_is_not_tagged_map, C38_collision_map_file_is_not_sdf, C38_collision_map_file_is_not_tagged_map, C38_tagged_map_file_is_not_sdf, C38_tagged_map_file_is_not_collision_map, C39_sdf_truncated, C39_collision_map_truncated, C39_tagged_map_truncated, C39_sdf_truncated_file, C39_collision_map_truncated_file, C39_tagged_map_truncated_file, C39_sdf_truncated_compressed_file, C39_collision_map_truncated_compressed_file, C39_tagged_map_truncated_compressed_file, C40_sdf_message, C40_collision_map_message, C40_tagged_map_message, C65_failed_save_unnoticed_refuted, C66_unchecked_size_refuted, C66_saved_partial
* `PropResample`: C51_rounding_refuted
* `PropDisplay`: C71_contour, C71_contour_unique, C71_contour_colors, C71_contour_colors_unique, C72_same_contour, C72_same_contour_colors, C73_colors_partial, C73_infinite_refuted, C73_collision_only, C73_collision_cells
* `PropBuilder`: C54_cached_sdf, C54_cached_map, C54_no_scene, C54_unknown_mode, C74_sdf_shows_scene, C74_map_shows_scene, C55_undefined_unless_fits, C75_unanswered_is_blank, C76_default_throws_partial, C55_infinity_refuted, C75_unanswered_refuted, C75_never_received_refuted
* `PropImage`: C56_partial_field, C56_empty_pixel, C56_filled_pixel, C77_error_empty_partial, C77_error_filled_partial, C77_straight_empty_partial, C77_straight_filled_partial, C77_not_nearest_refuted, C78_preview_partial, C78_published_partial, C78_uniform_refuted, C79_raw_empty, C79_raw_filled, C79_extremes
* `PropPython`: C57_orientation_3d, C57_orientation_2d, C80_swapped_refuted, C80_wrong_value_refuted, C80_planar_helpers_partial, C80_get_gradient_partial, C81_to_np_refuted, C81_one_layer_partial, C82_empty_environment_refuted, C98_distances_3d, C98_distances_2d
* `PropNode`: C87_shows_scene, C88_batch, C88_empty, C88_different, C89_rounds_partial, C89_frames_refuted, C89_undefined_refuted
* `PropLocation`: C92_tagged_history, C92_tagged_flag_sound
* `PropDouble`: C93_boundary_in_doubles, C94_projection_in_doubles, C95_gradient_in_doubles, C97_estimate_in_doubles, C97_estimate_range, C97_estimate_at_origin
* `PropMarkers`: C99_field, C99_field_collisions
* `PropDemo`: C102_marks_partial, C102_outside, C102_signs, C102_below_refuted, C102_not_finite_refuted, C103_published_partial, C103_transposed_refuted, C103_origin_refuted, C104_ids, C104_arrows_partial, C104_transposed_refuted
* `PropShapes`: C106_straight, C106_box_and_room, C106_two_cells, C106_reached, C21_outside_exact, C21_straight_exact, C21_single_class_exact
* `PropWall`: C60_extracted_wall, C60_extracted_projection_partial, C60_powers_of_two
* `PropSmooth`: C108_smooth_gradient_in_doubles, C109_distance_from_wall, C109_normal_of_wall
* `PropField`: C110_long_maps_refuted, C111_mirror_refuted, C111_margin_refuted, C112_added_obstacle_refuted, C112_added_near, C113_inverted_map, C113_inverted_map_border, C113_inverted_extrema, C113_inverted_extrema_border, C114_planar_neighbours
* `PropEstimate`: C115_sign_refuted, C115_class_from_estimate, C116_not_below, C116_not_above_planar, C116_not_above_exact
* `PropSlope`: C117_steady, C117_steady_anywhere, C118_unit_refuted, C118_components
* `PropIdeal`: C119_estimate, C119_at_origin, C119_of_map, C120_class_from_estimate, C120_not_below, C120_not_above_planar, C120_not_above_exact, C120_steady, C118_in_doubles
* `PropUnion`: C121_sign, C121_near, C121_inside, C121_planar, C121_smallest_refuted
* `PropProject`: C122_class, C122_not_above, C122_not_below, C122_class_in_doubles, C122_not_above_in_doubles, C123_out_of_collision_refuted, C123_free, C123_clear, C123_free_in_doubles, C123_clear_in_doubles
* `PropPyShapes`: C124_arrays_2d, C124_arrays_3d
* `PropWallProject`: C125_projection_in_doubles
* `PropFrame`: C126_transform, C126_estimate, C126_class, C126_not_below, C126_not_above, C126_distance_from_wall, C126_projection
* `PropFrameTurn`: C127_world_gradient, C127_of_map, C127_wall
* `PropPlace`: C128_steady, C128_class, C128_not_above, C128_not_below
* `PropOrigin`: C129_inverse, C129_forward, C129_quaternion_in_doubles, C129_gradient, C129_wall, C129_steady, C129_not_above, C129_not_below
* `PropPoint`: C130_point, C130_seen, C130_round_trip, C130_center, C130_calls, C130_faces_refuted, C130_corners_refuted, C130_program
* `PropResampleDouble`: C131_target, C131_same_resolution, C131_tagged_same_resolution, C131_coarser, C131_finer_refuted
* `PropVolume`: C132_boundary, C132_projected, C132_start
* `PropWindow`: C133_smooth, C133_wall, C133_gradient
* `PropDepth`: C135_deep, C135_kept, C135_least_move, C135_again
* `PropOut`: C136_clear
* `PropInside`: C137_inside, C137_search, C137_placed, C137_wide_refuted
* `PropSearch`: C138_ends, C138_clear
* `PropAgree`: C139_agree_partial, C139_deep_partial, C139_wide_refuted, C139_converse_refuted

The other axioms `vcheck` lists are constants of the standard library's modules for
the reals and of ssreflect that are declared opaque in module types; no theorem's
`Print Assumptions` names them.

## 7. Tests against wrong programs

`seeded/mutate.py` edits one definition in a scratch copy, admits each lemma whose
proof breaks, and reports the property theorems that rest on an admitted lemma.
`seeded/mutations*.json` hold the edits and `seeded/LOG.jsonl` the outcomes.
