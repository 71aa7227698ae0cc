{"id": "C01", "title": "Map read-after-write and framing", "statement": "After SetValue(x,y,z,v) returns true, GetImmutable(x,y,z) returns (v,true) and every other index reads as before; SetValue returns false exactly when the index is outside the grid, and then nothing readable changes.", "quantifier": "all grid dimensions, all grid contents, all indices (in and out of bounds), all values", "why_tests_cant": "A wrong stride only shows for particular non-cubic dimensions and index pairs; tests use a handful of cubic grids.", "anchors": ["include/sdf_tools/collision_map.hpp:SetValue", "include/sdf_tools/collision_map.hpp:GetMutable", "include/sdf_tools/tagged_object_collision_map.hpp:SetValue", "include/sdf_tools/sdf.hpp:SetValue"]}
{"id": "C02", "title": "Connected components are exactly the face-connected regions", "statement": "After UpdateConnectedComponents, two cells carry the same component number iff they are joined by a chain of face-adjacent cells of the same filled/not-filled class; numbers used are exactly 1..n where n is the returned count.", "quantifier": "all grid sizes with fewer than 2^32 cells, all occupancy assignments including unknown and NaN", "why_tests_cant": "Flood-fill errors depend on the shape of the region and the visiting order; the number of occupancy patterns is exponential in the grid size.", "anchors": ["include/sdf_tools/topology_computation.hpp:MarkConnectedComponent", "include/sdf_tools/topology_computation.hpp:ComputeConnectedComponents", "src/sdf_tools/collision_map.cpp:UpdateConnectedComponents"]}
{"id": "C03", "title": "Labelling leaves the map's payload untouched", "statement": "UpdateConnectedComponents changes only component numbers: every occupancy (and for tagged maps object id and convex segment), the default and out-of-bounds values, the dimensions and the frame are unchanged.", "quantifier": "all maps", "why_tests_cant": "Needs a statement about all fields of all cells for all inputs.", "anchors": ["src/sdf_tools/collision_map.cpp:UpdateConnectedComponents", "src/sdf_tools/tagged_object_collision_map.cpp:UpdateConnectedComponents"]}
{"id": "C04", "title": "Component validity flag is truthful over histories", "statement": "In any sequence of calls (SetValue, GetMutable with an immediate write, UpdateConnectedComponents, reads), whenever AreComponentsValid() is true the stored component numbers and GetNumConnectedComponents are those a fresh computation on the current occupancies would give.", "quantifier": "all finite call sequences from a constructed map", "why_tests_cant": "A cache-invalidation hole needs a particular ordering of calls.", "anchors": ["include/sdf_tools/collision_map.hpp:AreComponentsValid", "include/sdf_tools/collision_map.hpp:GetMutable", "include/sdf_tools/collision_map.hpp:SetValue", "src/sdf_tools/collision_map.cpp:UpdateConnectedComponents"]}
{"id": "C05", "title": "Component validity flag versus retained references", "statement": "The claim of C04 extended to callers that keep the reference returned by GetMutable and write through it later.", "quantifier": "all finite call sequences with retained references", "why_tests_cant": "Only specific interleavings of taking a reference, recomputing and writing expose it.", "anchors": ["include/sdf_tools/collision_map.hpp:GetMutable", "src/sdf_tools/collision_map.cpp:UpdateConnectedComponents"]}
{"id": "C06", "title": "Recomputing components is idempotent and cached", "statement": "Calling UpdateConnectedComponents again with no intervening mutation returns the same count and changes nothing; calling it after any mutation never returns a stale count.", "quantifier": "all maps and histories", "why_tests_cant": "Requires all histories between the two calls.", "anchors": ["src/sdf_tools/collision_map.cpp:UpdateConnectedComponents"]}
{"id": "C07", "title": "ExtractConnectedComponents partitions the grid", "statement": "After components are computed, the k-th extracted vector holds exactly the indices whose component number is k+1, every grid index occurs in exactly one vector exactly once, and no vector is empty.", "quantifier": "all maps with valid components", "why_tests_cant": "Partition property over all grids.", "anchors": ["src/sdf_tools/collision_map.cpp:ExtractConnectedComponents"]}
{"id": "C08", "title": "Distance-field building never reads or writes out of range", "statement": "BuildDistanceField with all points inside the grid and nx^2+ny^2+nz^2 < 2^31 returns normally: it performs no signed overflow, no out-of-range bucket or neighbourhood access and never grows a bucket while iterating over it.", "quantifier": "all grid sizes under the bound, all point lists (any order, duplicates allowed)", "why_tests_cant": "Undefined behaviour may leave no trace in a test run; the iterator-invalidation case depends on a parity argument over all distances.", "anchors": ["include/sdf_tools/sdf_generation.hpp:BuildDistanceField", "include/sdf_tools/sdf_generation.hpp:ComputeDistanceSquared"]}
{"id": "C09", "title": "Out-of-bounds points are rejected", "statement": "BuildDistanceField throws if and only if some input point lies outside the grid.", "quantifier": "all grids and point lists", "why_tests_cant": "iff over all inputs.", "anchors": ["include/sdf_tools/sdf_generation.hpp:BuildDistanceField"]}
{"id": "C10", "title": "Distances are realised by real obstacle cells", "statement": "Every finite squared distance stored by BuildDistanceField equals the squared Euclidean distance to one of the input points; hence the field never under-estimates the true distance.", "quantifier": "all grids, point lists and cells", "why_tests_cant": "Under-estimation at one cell for one obstacle arrangement is invisible to sampled tests.", "anchors": ["include/sdf_tools/sdf_generation.hpp:BuildDistanceField"]}
{"id": "C11", "title": "Zero distance exactly at the obstacles", "statement": "A cell has distance 0 iff it is one of the input points.", "quantifier": "all grids, point lists and cells", "why_tests_cant": "iff over all inputs.", "anchors": ["include/sdf_tools/sdf_generation.hpp:BuildDistanceField"]}
{"id": "C12", "title": "Distances are exact next to obstacles", "statement": "For a cell within one step (including diagonals) of an input point the stored squared distance is the exact minimum over all input points.", "quantifier": "all grids, point lists and such cells", "why_tests_cant": "Exactness over all obstacle arrangements.", "anchors": ["include/sdf_tools/sdf_generation.hpp:BuildDistanceField", "include/sdf_tools/sdf_generation.hpp:MakeNeighborhoods"]}
{"id": "C13", "title": "Distance field is the exact Euclidean distance transform", "statement": "For every cell, the stored squared distance equals the minimum squared Euclidean distance to the input points.", "quantifier": "all grids, point lists and cells", "why_tests_cant": "Propagation errors appear only for special obstacle arrangements.", "anchors": ["include/sdf_tools/sdf_generation.hpp:BuildDistanceField"]}
{"id": "C14", "title": "A single obstacle gives exact distances everywhere", "statement": "With exactly one distinct input point every cell stores the exact squared distance to it.", "quantifier": "all grids and points", "why_tests_cant": "All grid shapes.", "anchors": ["include/sdf_tools/sdf_generation.hpp:BuildDistanceField"]}
{"id": "C15", "title": "Every cell gets a finite distance when an obstacle exists", "statement": "If the point list is non-empty every cell of the grid stores a finite distance; if it is empty every cell stores infinity.", "quantifier": "all grids and point lists", "why_tests_cant": "A propagation dead-end needs a special arrangement.", "anchors": ["include/sdf_tools/sdf_generation.hpp:BuildDistanceField"]}
{"id": "C16", "title": "SDF sign tells free from filled", "statement": "In the field returned by ExtractSignedDistanceField (no virtual border) a cell is positive when the predicate says free and negative when it says filled; no stored value is NaN.", "quantifier": "all grids, predicates, and positive resolutions not so small that the float result underflows", "why_tests_cant": "All occupancy patterns and all float resolutions.", "anchors": ["include/sdf_tools/sdf_generation.hpp:ExtractSignedDistanceField", "include/sdf_tools/collision_map.hpp:ExtractSignedDistanceField"]}
{"id": "C17", "title": "SDF magnitude is the rounded distance to the other class", "statement": "The stored magnitude is float(double(sqrt(D))*resolution) where D is the squared cell distance from the distance field of the opposite class; a cell on a class boundary (face neighbour of the other class) has magnitude float(resolution).", "quantifier": "all grids, predicates, resolutions", "why_tests_cant": "Bit-level behaviour over all resolutions.", "anchors": ["include/sdf_tools/sdf_generation.hpp:ExtractSignedDistanceField"]}
{"id": "C18", "title": "One-class grids give infinite SDFs", "statement": "If no cell is filled every value is +infinity; if every cell is filled every value is -infinity.", "quantifier": "all grids and predicates of one class", "why_tests_cant": "All sizes.", "anchors": ["include/sdf_tools/sdf_generation.hpp:ExtractSignedDistanceField"]}
{"id": "C19", "title": "Reported extrema are the true extrema (no border)", "statement": "The (max,min) pair returned with the SDF is the maximum and minimum of the unrounded cell distances, each attained by a cell of the grid.", "quantifier": "all non-empty grids, predicates, resolutions", "why_tests_cant": "Fold over all cells, including infinities.", "anchors": ["include/sdf_tools/sdf_generation.hpp:ExtractSignedDistanceField"]}
{"id": "C20", "title": "Reported extrema with a virtual border", "statement": "With add_virtual_border=true the returned (max,min) pair bounds every value of the returned field.", "quantifier": "all grids, predicates", "why_tests_cant": "Fails only for one-class grids.", "anchors": ["include/sdf_tools/sdf_generation.hpp:ExtractSignedDistanceField"]}
{"id": "C21", "title": "Virtual border keeps the sign and only shortens free distances", "statement": "With a virtual border: the result has the original dimensions; a free cell's value is positive and is at most its distance to the outside of the grid along each axis longer than one cell; a filled cell's value is negative likewise.", "quantifier": "all grids, predicates", "why_tests_cant": "All shapes, including single-layer axes.", "anchors": ["include/sdf_tools/sdf_generation.hpp:ExtractSignedDistanceField"]}
{"id": "C22", "title": "Unknown cells follow the flag", "statement": "CollisionMap ExtractSignedDistanceField treats occupancy>0.5 as filled, <0.5 as free and exactly 0.5 as filled iff unknown_is_filled; NaN occupancy counts as free.", "quantifier": "all maps and both flag values", "why_tests_cant": "All float values including NaN.", "anchors": ["include/sdf_tools/collision_map.hpp:ExtractSignedDistanceField"]}
{"id": "C23", "title": "Non-uniform grids are refused", "statement": "Extracting an SDF from a grid whose three cell sizes differ throws and builds nothing.", "quantifier": "all cell sizes", "why_tests_cant": "All doubles, including NaN.", "anchors": ["include/sdf_tools/sdf_generation.hpp:ExtractSignedDistanceField"]}
{"id": "C24", "title": "Locked SDF values never change", "statement": "In any history, between Lock() and the next Unlock() no in-bounds read changes, and every SetValue returns false.", "quantifier": "all finite call sequences", "why_tests_cant": "All interleavings of lock, unlock, set, mutable access.", "anchors": ["include/sdf_tools/sdf.hpp:Lock", "include/sdf_tools/sdf.hpp:SetValue", "include/sdf_tools/sdf.hpp:GetMutable"]}
{"id": "C25", "title": "Locked SDF out-of-bounds answer never changes", "statement": "Between Lock() and Unlock() the value returned for out-of-bounds queries does not change.", "quantifier": "all finite call sequences", "why_tests_cant": "Needs the specific use of the reference returned by a refused GetMutable.", "anchors": ["include/sdf_tools/sdf.hpp:GetMutable"]}
{"id": "C26", "title": "Gradient availability and shape", "statement": "GetGradient returns a 3-vector for every interior index, and for every in-bounds index when edge gradients are enabled; it returns an empty vector exactly for out-of-bounds indices and for edge indices with edge gradients disabled.", "quantifier": "all SDFs and indices", "why_tests_cant": "iff over all index/shape combinations incl. single-layer axes.", "anchors": ["include/sdf_tools/sdf.hpp:GetGridAlignedGradient", "include/sdf_tools/sdf.hpp:GetGradient"]}
{"id": "C27", "title": "Gradient is exact on linear fields", "statement": "On a field that is affine in the cell index, the grid-aligned gradient equals the slope divided by the resolution on each axis with more than one cell, at interior and (with edge gradients) edge cells; on a one-cell axis it is 0. On a field that is affine in the world positions of the cell centres, GetGradient returns that slope as a world vector, for every rotated and translated grid.", "quantifier": "all affine fields, dims, indices (real arithmetic)", "why_tests_cant": "All slopes and shapes.", "anchors": ["include/sdf_tools/sdf.hpp:GetGridAlignedGradient", "include/sdf_tools/sdf.hpp:GetGradient"]}
{"id": "C28", "title": "Distance estimate never faults in bounds", "statement": "EstimateDistance on a location inside the grid returns a value (no exception) and flag true; outside it returns the out-of-bounds value and flag false.", "quantifier": "all SDF shapes, all locations", "why_tests_cant": "Corner/edge index selection over all locations.", "anchors": ["include/sdf_tools/sdf.hpp:EstimateDistance4d", "include/sdf_tools/sdf.hpp:GetAxisInterpolationIndices"]}
{"id": "C29", "title": "Distance estimate interpolates", "statement": "The estimate lies between the least and greatest centre-corrected values of the interpolation cells, and equals the corrected cell value at a cell centre.", "quantifier": "all SDFs and in-bounds locations (real arithmetic)", "why_tests_cant": "All positions.", "anchors": ["include/sdf_tools/sdf.hpp:BilinearInterpolate", "include/sdf_tools/sdf.hpp:TrilinearInterpolate", "include/sdf_tools/sdf.hpp:EstimateDistanceInterpolateFromNeighborsGridFrame"]}
{"id": "C30", "title": "Projection into the valid volume", "statement": "ProjectIntoValidVolume returns a point inside the grid volume shrunk by the margin (when the volume is larger than twice the margin), leaves points already there unchanged, moves each coordinate the least possible, and is idempotent.", "quantifier": "all points, volumes, margins (real arithmetic)", "why_tests_cant": "All points.", "anchors": ["include/sdf_tools/sdf.hpp:ProjectIntoValidVolumeToMinimumDistance"]}
{"id": "C31", "title": "Projection out of collision meets the requested distance", "statement": "If ProjectOutOfCollisionToMinimumDistance returns, the estimated distance at the returned point exceeds the requested minimum, or the point was already far enough and is returned unchanged.", "quantifier": "all fields, starting points, step sizes", "why_tests_cant": "Loop with data-dependent number of steps.", "anchors": ["include/sdf_tools/sdf.hpp:ProjectOutOfCollisionToMinimumDistance4d"]}
{"id": "C32", "title": "Distance to boundary", "statement": "DistanceToBoundary reports flag true iff the point is inside the grid box, and then the smallest distance to a face; for outside points the value is negative.", "quantifier": "all points and boxes", "why_tests_cant": "All regions around the box.", "anchors": ["include/sdf_tools/sdf.hpp:DistanceToBoundary4d"]}
{"id": "C33", "title": "Local-extrema map is total and consistent", "statement": "ComputeLocalExtremaMap terminates, every cell receives either an infinite marker or the location of an in-bounds cell, and all cells on a followed path share the path's result.", "quantifier": "all fields of gradients", "why_tests_cant": "Cycles and out-of-grid exits depend on the whole gradient field.", "anchors": ["src/sdf_tools/sdf.cpp:FollowGradientsToLocalExtremaUnsafe", "src/sdf_tools/sdf.cpp:ComputeLocalExtremaMap"]}
{"id": "C34", "title": "SDF serialization round-trips", "statement": "DeserializeSelf applied to the output of SerializeSelf, at any offset within a larger buffer, restores an equal SDF (cells bit for bit incl. NaN payloads, transforms, sizes, frame, lock flag) and reports exactly the number of bytes written.", "quantifier": "all SDFs, all surrounding bytes", "why_tests_cant": "All float bit patterns, lengths, frame strings.", "anchors": ["src/sdf_tools/sdf.cpp:SerializeSelf", "src/sdf_tools/sdf.cpp:DeserializeSelf"]}
{"id": "C35", "title": "Collision-map serialization round-trips", "statement": "Same as C34 for CollisionMapGrid including component count and validity flag.", "quantifier": "all maps, all surrounding bytes", "why_tests_cant": "As C34.", "anchors": ["src/sdf_tools/collision_map.cpp:SerializeSelf", "src/sdf_tools/collision_map.cpp:DeserializeSelf"]}
{"id": "C36", "title": "Tagged-map serialization round-trips", "statement": "Same as C34 for TaggedObjectCollisionMapGrid including both counts and both validity flags.", "quantifier": "all maps whose flags are initialised", "why_tests_cant": "As C34.", "anchors": ["src/sdf_tools/tagged_object_collision_map.cpp:SerializeSelf", "src/sdf_tools/tagged_object_collision_map.cpp:DeserializeSelf"]}
{"id": "C37", "title": "File save/load round-trips, compressed or not", "statement": "LoadFromFile of what SaveToFile wrote returns an equal object for either value of compress, assuming zlib decompression inverts compression.", "quantifier": "all objects, both modes", "why_tests_cant": "All contents.", "anchors": ["src/sdf_tools/sdf.cpp:SaveToFile", "src/sdf_tools/sdf.cpp:LoadFromFile", "src/sdf_tools/collision_map.cpp:SaveToFile", "src/sdf_tools/collision_map.cpp:LoadFromFile", "src/sdf_tools/tagged_object_collision_map.cpp:SaveToFile", "src/sdf_tools/tagged_object_collision_map.cpp:LoadFromFile"]}
{"id": "C38", "title": "Foreign and short files are rejected", "statement": "LoadFromFile throws for every file shorter than 4 bytes and for every file whose first four bytes are not one of the two headers of that class; in particular a file saved by one class is never accepted by another.", "quantifier": "all byte strings", "why_tests_cant": "All byte strings.", "anchors": ["src/sdf_tools/sdf.cpp:LoadFromFile", "src/sdf_tools/collision_map.cpp:LoadFromFile", "src/sdf_tools/tagged_object_collision_map.cpp:LoadFromFile"]}
{"id": "C39", "title": "Truncated data never yields a map silently", "statement": "Deserializing a proper prefix of a serialized object never completes normally.", "quantifier": "all objects and truncation points", "why_tests_cant": "All cut points.", "anchors": ["src/sdf_tools/sdf.cpp:DeserializeSelf", "src/sdf_tools/collision_map.cpp:DeserializeSelf", "src/sdf_tools/tagged_object_collision_map.cpp:DeserializeSelf"]}
{"id": "C40", "title": "Message round-trip", "statement": "LoadFromMessageRepresentation(GetMessageRepresentation(m)) equals m and the message header carries m's frame.", "quantifier": "all objects", "why_tests_cant": "As C34.", "anchors": ["src/sdf_tools/sdf.cpp:GetMessageRepresentation", "src/sdf_tools/collision_map.cpp:GetMessageRepresentation", "src/sdf_tools/tagged_object_collision_map.cpp:GetMessageRepresentation"]}
{"id": "C41", "title": "Component surfaces contain exactly the surface cells", "statement": "ExtractComponentSurfaces(types) returns, per component, exactly the cells of the requested occupancy types that lie on the grid edge or have a face neighbour of a different component.", "quantifier": "all maps, all type masks", "why_tests_cant": "Wrong index arguments only matter at particular cells.", "anchors": ["src/sdf_tools/collision_map.cpp:ExtractComponentSurfaces", "include/sdf_tools/collision_map.hpp:IsConnectedComponentSurfaceIndex", "src/sdf_tools/tagged_object_collision_map.cpp:ExtractComponentSurfaces"]}
{"id": "C42", "title": "Candidate corners", "statement": "CheckIfCandidateCorner returns (true,true) iff the index is in bounds and at least two in-bounds face neighbours carry a different component; (false,false) iff out of bounds.", "quantifier": "all maps and indices", "why_tests_cant": "All neighbourhoods.", "anchors": ["include/sdf_tools/collision_map.hpp:CheckIfCandidateCorner", "include/sdf_tools/tagged_object_collision_map.hpp:CheckIfCandidateCorner"]}
{"id": "C43", "title": "Surface representation conversions", "statement": "Converting an extracted surface to the static list, back to a dynamic surface and to an index map loses no cell and invents none; BuildSurfaceIndexMap maps every cell of a duplicate-free list to its position.", "quantifier": "all surfaces", "why_tests_cant": "All lists.", "anchors": ["include/sdf_tools/topology_computation.hpp:ExtractStaticSurface", "include/sdf_tools/topology_computation.hpp:ConvertToDynamicSurface", "include/sdf_tools/topology_computation.hpp:BuildSurfaceIndexMap"]}
{"id": "C44", "title": "Surface-vertex components are counted right", "statement": "ComputeConnectivityOfSurfaceVertices returns the number of connected components of the vertex graph when connectivity bits are symmetric and point at existing vertices, independent of iteration order; otherwise it throws on a missing vertex.", "quantifier": "all vertex graphs, all iteration orders of the hash map", "why_tests_cant": "Hash iteration order is unspecified.", "anchors": ["include/sdf_tools/topology_computation.hpp:ComputeConnectivityOfSurfaceVertices"]}
{"id": "C45", "title": "Holes/voids of a component do not depend on orientation", "statement": "ComputeHolesInSurface gives the same answer for a component and its mirror image in z.", "quantifier": "all components", "why_tests_cant": "A copy-paste index error shows only on asymmetric shapes.", "anchors": ["include/sdf_tools/topology_computation.hpp:ComputeHolesInSurface"]}
{"id": "C46", "title": "Convex-segment validity flag is truthful over histories", "statement": "Whenever AreConvexSegmentsValid() is true the stored convex segments are those computed from the current cells.", "quantifier": "all call sequences of a tagged map", "why_tests_cant": "Needs mutate-after-update order.", "anchors": ["include/sdf_tools/tagged_object_collision_map.hpp:AreConvexSegmentsValid", "include/sdf_tools/tagged_object_collision_map.hpp:SetValue", "src/sdf_tools/tagged_object_collision_map.cpp:UpdateConvexSegments"]}
{"id": "C47", "title": "Reading flags of a fresh tagged map is defined", "statement": "After any constructor, AreConvexSegmentsValid() and serialization read only initialised members.", "quantifier": "all constructors", "why_tests_cant": "Indeterminate reads often happen to give plausible values.", "anchors": ["include/sdf_tools/tagged_object_collision_map.hpp:TaggedObjectCollisionMapGrid"]}
{"id": "C48", "title": "Convex segments respect objects and ignore what they should", "statement": "After UpdateConvexSegments two cells with the same nonzero segment number have the same object id and finite extrema; ignored cells (filled with id 0, or infinite extrema) get segment 0; numbers used are 1..n.", "quantifier": "all tagged maps, thresholds", "why_tests_cant": "All maps.", "anchors": ["src/sdf_tools/tagged_object_collision_map.cpp:UpdateConvexSegments"]}
{"id": "C49", "title": "Per-object SDF selects exactly the named objects", "statement": "Tagged ExtractSignedDistanceField(objects) treats a cell as filled iff it passes the occupancy test and (the list is empty or contains its id); MakeAllObjectSDFs returns exactly one entry per nonzero object id present.", "quantifier": "all maps and object lists", "why_tests_cant": "All id sets.", "anchors": ["include/sdf_tools/tagged_object_collision_map.hpp:ExtractSignedDistanceField", "include/sdf_tools/tagged_object_collision_map.hpp:MakeAllObjectSDFs"]}
{"id": "C50", "title": "Resampling never loses an obstacle", "statement": "After Resample(r), every location that was filled in the source lies in a filled cell of the result.", "quantifier": "all maps and resolutions", "why_tests_cant": "Depends on sweep order and alignment.", "anchors": ["src/sdf_tools/collision_map.cpp:Resample", "src/sdf_tools/tagged_object_collision_map.cpp:Resample"]}
{"id": "C51", "title": "Resampling at the same resolution is the identity", "statement": "Resample with the map's own resolution returns a map with the same dimensions and cells.", "quantifier": "all maps (real arithmetic)", "why_tests_cant": "All sizes.", "anchors": ["src/sdf_tools/collision_map.cpp:Resample", "src/sdf_tools/tagged_object_collision_map.cpp:Resample"]}
{"id": "C52", "title": "Display export draws each cell once with its class colour", "statement": "ExportForDisplay produces one point per cell whose class colour has positive alpha, in sweep order, with the colour list of equal length and each colour matching the cell's class.", "quantifier": "all maps and colours", "why_tests_cant": "All maps.", "anchors": ["src/sdf_tools/collision_map.cpp:ExportForDisplay", "src/sdf_tools/tagged_object_collision_map.cpp:ExportForDisplayOccupancyOnly"]}
{"id": "C53", "title": "Surface display export", "statement": "ExportSurfacesForDisplay draws exactly the cells having a 26-neighbour of another occupancy class.", "quantifier": "all maps", "why_tests_cant": "All neighbourhoods.", "anchors": ["src/sdf_tools/collision_map.cpp:ExportSurfacesForDisplay", "include/sdf_tools/collision_map.hpp:IsSurfaceIndex"]}
{"id": "C54", "title": "SDF builder cache protocol", "statement": "GetCachedSDF/GetCachedCollisionMap throw until the corresponding update succeeded and then return the last result; UpdateSDF(USE_CACHED) throws unless a planning scene was received; unknown modes throw and change nothing.", "quantifier": "all call sequences", "why_tests_cant": "All histories.", "anchors": ["src/sdf_tools/sdf_builder.cpp:UpdateSDF", "src/sdf_tools/sdf_builder.cpp:GetCachedSDF"]}
{"id": "C55", "title": "SDF builder tolerates any out-of-bounds value", "statement": "UpdateSDF is defined for every float OOB value, including infinity.", "quantifier": "all floats", "why_tests_cant": "float-to-uint8 conversion of an unrepresentable value is undefined behaviour and silent.", "anchors": ["src/sdf_tools/sdf_builder.cpp:UpdateSDFFromPlanningScene"]}
{"id": "C56", "title": "2-D image distance transform is sound", "statement": "In the image node every finite cell distance is the distance to an actual source pixel, zero exactly at source pixels, and every pixel is finite when a source pixel exists.", "quantifier": "all image sizes and contents", "why_tests_cant": "All images.", "anchors": ["src/image_2d_sdf_node.cpp:update_partial_sdf", "src/image_2d_sdf_node.cpp:compare"]}
{"id": "C57", "title": "Python array orientation", "statement": "The array returned by the Python helpers satisfies np_sdf[y,x(,z)] = SDF value at index (x,y,z) for every cell.", "quantifier": "all grid shapes", "why_tests_cant": "Non-square shapes and all indices.", "anchors": ["src/sdf_tools/utils_2d.py:compute_sdf_and_gradient", "src/sdf_tools/utils_3d.py:compute_sdf_and_gradient"]}
{"id": "C58", "title": "Hashed map read-after-write", "statement": "In the dynamic spatial-hashed collision map, after SetCell or SetChunk the written location reads back the written value and locations in other chunks are unaffected; a chunk write covers its whole chunk.", "quantifier": "all call sequences", "why_tests_cant": "All histories of cell/chunk writes.", "anchors": ["src/sdf_tools/dynamic_spatial_hashed_collision_map.cpp:SetCell", "src/sdf_tools/dynamic_spatial_hashed_collision_map.cpp:SetChunk"]}
{"id": "C59", "title": "Hashed map initialised flag", "statement": "IsInitialized() is defined after every constructor.", "quantifier": "all constructors", "why_tests_cant": "Indeterminate value.", "anchors": ["src/sdf_tools/dynamic_spatial_hashed_collision_map.cpp:IsInitialized"]}
{"id": "C60", "title": "Projection out of collision terminates", "statement": "ProjectOutOfCollisionToMinimumDistance returns or throws for every finite field, starting point, minimum distance and positive step multiplier.", "quantifier": "all fields, points, distances, step sizes", "why_tests_cant": "Termination over all fields; a test that hangs is not a verdict.", "anchors": ["include/sdf_tools/sdf.hpp:ProjectOutOfCollisionToMinimumDistanceGridFrame"]}
{"id": "C61", "title": "Smooth gradient availability and value", "statement": "GetSmoothGradient returns an empty vector exactly for locations outside the grid; inside, it throws exactly when on some axis both window points are outside the grid, and otherwise returns three components. On a field whose centre-corrected values are affine in the world the returned components are the slope, whichever neighbours of the window are inside the grid.", "quantifier": "all fields, locations and window sizes", "why_tests_cant": "iff over all locations and windows.", "anchors": ["include/sdf_tools/sdf.hpp:GetSmoothGradient", "include/sdf_tools/sdf.hpp:ComputeAxisSmoothGradient"]}
{"id": "C62", "title": "Full gradient grid", "statement": "GetFullGradient returns a grid of the field's shape that holds, at every cell, the value of the gradient function there.", "quantifier": "all fields, gradient functions and cells", "why_tests_cant": "All cells of all shapes.", "anchors": ["include/sdf_tools/sdf.hpp:GetFullGradient"]}
{"id": "C63", "title": "The local-extrema map has the shape of the field", "statement": "The map returned by ComputeLocalExtremaMap has one cell for every cell of the field, and computing it reads no empty gradient.", "quantifier": "all fields, resolutions and sizes", "why_tests_cant": "The map's cell count is recomputed from size and resolution in floating point; whether it matches depends on both values.", "anchors": ["src/sdf_tools/sdf.cpp:ComputeLocalExtremaMap", "src/sdf_tools/sdf.cpp:FollowGradientsToLocalExtremaUnsafe"]}
{"id": "C64", "title": "Free-and-named field separates free space, named objects and the rest", "statement": "ExtractFreeAndNamedObjectsSignedDistanceField gives free cells the positive distance to the nearest filled cell, filled cells of named objects the negative distance to the nearest cell not filled by a named object, and all other filled cells exactly zero.", "quantifier": "all tagged maps, flags and out-of-bounds values", "why_tests_cant": "Ranges over all maps; two separately computed fields must agree on sign at every cell for the combination to be right.", "anchors": ["include/sdf_tools/tagged_object_collision_map.hpp:ExtractFreeAndNamedObjectsSignedDistanceField", "include/sdf_tools/sdf_generation.hpp:ExtractSignedDistanceField"]}
{"id": "C65", "title": "A save that fails is reported", "statement": "SaveToFile either leaves at the path a file from which LoadFromFile returns an equal object, or throws. (Refuted: when the path cannot be opened for writing it returns normally and the disk is unchanged, so a later load returns the previous contents.)", "quantifier": "all objects, paths and disk states, both compression modes", "why_tests_cant": "Tests write to writable scratch paths; the property is about every path and disk state.", "anchors": ["src/sdf_tools/sdf.cpp:SignedDistanceField::SaveToFile", "src/sdf_tools/collision_map.cpp:CollisionMapGrid::SaveToFile", "src/sdf_tools/tagged_object_collision_map.cpp:TaggedObjectCollisionMapGrid::SaveToFile"]}
{"id": "C66", "title": "An accepted file holds as many values as it declares cells", "statement": "Whenever LoadFromFile returns a map, every index the map reports as in bounds has a stored value. (Refuted: the cell counts and the data array are read independently and never compared.)", "quantifier": "all byte strings given as a file", "why_tests_cant": "Tests load files that were saved by the same code; damaged or hostile files are an unbounded set.", "anchors": ["src/sdf_tools/collision_map.cpp:CollisionMapGrid::DeserializeSelf", "src/sdf_tools/collision_map.cpp:CollisionMapGrid::LoadFromFile"]}
{"id": "C67", "title": "Topology is computed for every map", "statement": "ComputeComponentTopology returns holes and voids for every map; it does not fail. (Refuted: it throws std::out_of_range for every component with a flat 2x2 top that is two cells thick, so for every solid map of at least 2x2x2 cells.)", "quantifier": "all maps, all labels, all hash orders", "why_tests_cant": "The shapes of components are unbounded and thin or pointed ones work.", "anchors": ["include/sdf_tools/topology_computation.hpp:ComputeHolesInSurface", "include/sdf_tools/collision_map.hpp:ComputeComponentTopology"]}
{"id": "C68", "title": "Reported voids are enclosed cavities", "statement": "A component is reported with a void only if some cell outside it is walled off from the grid edge by it. (Refuted: a 2x2x2 block with one cell on top is reported with one void and one hole.)", "quantifier": "all maps, all hash orders", "why_tests_cant": "Needs the global shape of the component.", "anchors": ["include/sdf_tools/topology_computation.hpp:ComputeHolesInSurface", "include/sdf_tools/collision_map.hpp:ComputeComponentTopology"]}
{"id": "C69", "title": "Both map classes report the same topology", "statement": "A plain and a tagged map with the same occupancies report the same holes and voids for their filled components. (Refuted: the tagged map drops an occupied cell whose looked-up surface index is not a surface cell.)", "quantifier": "all maps with equal occupancies", "why_tests_cant": "Two code paths that agree on most shapes.", "anchors": ["src/sdf_tools/tagged_object_collision_map.cpp:ExtractComponentSurfaces", "include/sdf_tools/tagged_object_collision_map.hpp:ComputeComponentTopology"]}
{"id": "C70", "title": "IsSurfaceIndex finds occupancy borders", "statement": "IsSurfaceIndex is true iff the index is in bounds and one of its in-bounds 26 neighbours is of another kind (filled, empty or unknown).", "quantifier": "all maps without NaN occupancies, all indices", "why_tests_cant": "All neighbourhoods at all positions, including edges and corners.", "anchors": ["include/sdf_tools/collision_map.hpp:IsSurfaceIndex", "include/sdf_tools/tagged_object_collision_map.hpp:IsSurfaceIndex"]}
{"id": "C71", "title": "Contour drawings show exactly the object's border cells", "statement": "ExportContourOnlyForDisplay and its per-object variants never throw and draw exactly the filled cells of the selected objects (with visible colour) that have, among their 26 neighbours inside the grid, a cell not filled by that object.", "quantifier": "all tagged maps, all selections and colour tables, all plain resolutions", "why_tests_cant": "The contour is found by comparing a rounded distance field with a rounded threshold; every resolution and every arrangement matters.", "anchors": ["include/sdf_tools/tagged_object_collision_map.hpp:ExportContourOnlyForDisplay", "include/sdf_tools/tagged_object_collision_map.hpp:ExportContourOnlyForDisplayUniqueNs"]}
{"id": "C72", "title": "One marker and one marker per object show the same", "statement": "The single-marker exports and the one-marker-per-object exports of a tagged map show the same points in the same colours; each object with something to show has exactly one marker and distinct objects have distinct namespaces.", "quantifier": "all tagged maps, selections and colour tables with an invisible generated colour for object 0", "why_tests_cant": "Two separate implementations, related over every map.", "anchors": ["include/sdf_tools/tagged_object_collision_map.hpp:ExportForDisplay", "include/sdf_tools/tagged_object_collision_map.hpp:ExportForDisplayUniqueNs"]}
{"id": "C73", "title": "A drawn distance field is coloured by sign and distance", "statement": "ExportForDisplay of a signed distance field draws every cell, green for positive, red for negative and blue for zero distance, with a brightness in (0.1, 1] that grows with the distance; the collision-only drawing shows exactly the cells at most zero, which for an extracted field are the filled cells.", "quantifier": "all fields, including those of empty or full maps", "why_tests_cant": "Rounded arithmetic on every field, including infinite values.", "anchors": ["include/sdf_tools/sdf.hpp:ExportForDisplay", "include/sdf_tools/sdf.hpp:ExportForDisplayCollisionOnly"]}
{"id": "C74", "title": "Builder results reflect the scene", "statement": "A field or collision map returned by UpdateSDF/UpdateCollisionMap reflects the planning scene after every message received so far and the answer to the request the mode stands for: the field is negative (the map 1) exactly at the cells whose centre the scene reports in collision.", "quantifier": "all message/update histories, all scenes, all grid sizes", "why_tests_cant": "All histories and scenes; a test fixes one.", "anchors": ["src/sdf_tools/sdf_builder.cpp:UpdateSDF", "src/sdf_tools/sdf_builder.cpp:UpdateSDFFromPlanningScene", "src/sdf_tools/sdf_builder.cpp:UpdateCollisionMapFromPlanningScene"]}
{"id": "C75", "title": "Builder notices an unanswered scene request", "statement": "When the planning-scene service does not answer, the update fails or keeps using the scene it has; it never returns a field in which known obstacles are gone.", "quantifier": "all histories in which some requests are unanswered", "why_tests_cant": "Needs service failures at every point of the history.", "anchors": ["src/sdf_tools/sdf_builder.cpp:UpdateSDF", "src/sdf_tools/sdf_builder.cpp:UpdateCollisionMap"]}
{"id": "C76", "title": "Default-constructed builder is safe", "statement": "No member call on a default-constructed builder is undefined: each throws or does nothing.", "quantifier": "all member functions and arguments", "why_tests_cant": "A null dereference may pass unnoticed in a test.", "anchors": ["src/sdf_tools/sdf_builder.cpp:UpdatePlanningSceneFromMessage", "include/sdf_tools/sdf_builder.hpp:SDF_Builder"]}
{"id": "C77", "title": "Image distance is to the nearest pixel", "statement": "The distance the image node publishes at a pixel is that to the nearest pixel of the other kind, up to rounding; where it is not, it is off by a bounded factor.", "quantifier": "all image sizes and contents", "why_tests_cant": "Propagation errors need three or more sources at particular offsets; a test image rarely contains them.", "anchors": ["src/image_2d_sdf_node.cpp:update_partial_sdf", "src/image_2d_sdf_node.cpp:update_sdf"]}
{"id": "C78", "title": "Image preview is defined", "statement": "For every image the node publishes a preview, red exactly at empty and blue exactly at filled pixels, without undefined conversions.", "quantifier": "all images", "why_tests_cant": "Converting NaN to an integer is undefined and silent.", "anchors": ["src/image_2d_sdf_node.cpp:camera_cb"]}
{"id": "C79", "title": "Raw image channels and extremes", "statement": "The raw image holds the distance in its first channel at empty pixels and in its second at filled ones, the other channel being zero; the recorded extremes are the largest and smallest distance.", "quantifier": "all images with pixels of both kinds", "why_tests_cant": "All images.", "anchors": ["src/image_2d_sdf_node.cpp:camera_cb", "src/image_2d_sdf_node.cpp:update_sdf"]}
{"id": "C80", "title": "All Python conversions use the same axis order", "statement": "The arrays returned by the other Python conversions (sdf_to_np, compute_gradient, get_gradient, grid_to_np) are indexed [y, x(, z)] like those of compute_sdf_and_gradient.", "quantifier": "all fields and maps", "why_tests_cant": "A square, symmetric example hides a swap of the axes; the relation must hold for every shape and cell.", "anchors": ["src/sdf_tools/utils_2d.py:sdf_to_np", "src/sdf_tools/utils_2d.py:compute_gradient", "src/sdf_tools/utils_2d.py:grid_to_np", "src/sdf_tools/utils_3d.py:get_gradient"]}
{"id": "C81", "title": "to_np converts every planar field and its gradient", "statement": "to_np(sdf, gradient) returns two arrays for every field with one layer and the gradient grid GetFullGradient makes of it.", "quantifier": "all fields with one layer", "why_tests_cant": "Failure depends on sizes; the claim covers all of them.", "anchors": ["src/sdf_tools/utils_2d.py:to_np", "src/sdf_tools/utils_2d.py:gradient_to_np"]}
{"id": "C82", "title": "Python helpers accept environments of any size", "statement": "compute_sdf_and_gradient returns arrays of the environment's shape for every environment shape, including those with a zero extent.", "quantifier": "all environment shapes", "why_tests_cant": "Shapes are unbounded and the degenerate ones are easily forgotten.", "anchors": ["src/sdf_tools/utils_3d.py:compute_sdf_and_gradient"]}
{"id": "C83", "title": "Drawing of a hashed map matches its contents", "statement": "After any sequence of writes to a spatial-hashed map, ExportForDisplay returns a marker for the chunks and one for the cells, leaving out empty ones; each chunk or cell that a read finds has exactly one point, coloured by the occupancy the read returns, and there are no other points.", "quantifier": "all call sequences, chunk sizes and hash-map iteration orders", "why_tests_cant": "All histories of writes and iteration orders.", "anchors": ["src/sdf_tools/dynamic_spatial_hashed_collision_map.cpp:ExportForDisplay"]}
{"id": "C84", "title": "Automatically differentiated gradient", "statement": "GetAutoDiffGradient returns three components exactly for locations inside the grid (an empty vector outside) and never throws; wherever the distance estimate EstimateDistance has a gradient, the components are that gradient in the world frame, for every rigid placement of the grid. Inside the grid this covers every location that is not level, on some grid axis, with the centre of a cell other than the first and last.", "quantifier": "all fields, grid sizes, cell sizes, rigid poses and locations", "why_tests_cant": "A derivative is a limit over all displacements, and the locations, poses and fields are uncountable.", "anchors": ["include/sdf_tools/sdf.hpp:GetAutoDiffGradient", "include/sdf_tools/sdf.hpp:EstimateDistanceInterpolateFromNeighbors"]}
{"id": "C85", "title": "Automatically differentiated gradient at cell centres", "statement": "At every location in the grid GetAutoDiffGradient is the derivative of the distance estimate along displacements that lower no grid coordinate. GetAutoDiffGradient(index) is therefore the slope of the centre-corrected distances from the cell to the next one on each axis (from the previous one for the last cell, 0 on an axis with one cell), turned into the world frame; at such a location the estimate may have no gradient at all.", "quantifier": "all fields, grid sizes, cell sizes, rigid poses and cells", "why_tests_cant": "One-sided limits over all displacements, fields and poses; the code only has a comment that it does not work at cell centers.", "anchors": ["include/sdf_tools/sdf.hpp:GetAutoDiffGradient", "include/sdf_tools/sdf.hpp:GetAxisInterpolationIndices"]}
{"id": "C86", "title": "Distance estimates do not jump", "statement": "Within the grid EstimateDistance is Lipschitz continuous: if centre-corrected distances of cells sharing a face differ by at most M, the estimates at two locations differ by at most 4 M / resolution times the sum of their coordinate differences in the grid frame, and by at most M / resolution times it if neither lies in the outer half of an outermost cell.", "quantifier": "all fields, grid sizes, poses and pairs of locations", "why_tests_cant": "Continuity across every cell boundary and centre plane for all fields; sampling cannot exclude a jump.", "anchors": ["include/sdf_tools/sdf.hpp:EstimateDistance", "include/sdf_tools/sdf.hpp:TrilinearInterpolateDistance"]}
{"id": "C87", "title": "The generator node draws exactly the cells in collision", "statement": "Drawing a collision map whose cells are 0 or 1 gives a marker in the given frame with one cube, red with the given alpha, at the location of each cell that is 1 and nothing else; a map with any other value ends the program. Every map a builder returns is of the first kind, whatever calls were made before.", "quantifier": "all grids, frames, alphas, scenes and histories of builder calls", "why_tests_cant": "Ranges over all maps and all call histories that lead to them.", "anchors": ["src/sdf_generation_node.cpp:ExportCollisionMapForDisplay", "src/sdf_tools/sdf_builder.cpp:UpdateCollisionMap"]}
{"id": "C88", "title": "Batched results are the single results", "statement": "For a batch of environments of one size, the batched helper returns arrays of shape [batch, y, x, z] and [batch, y, x, z, 3] whose item [b, ...] is the item [...] of the single helper's result for element b, at every index in or out of range. An empty batch and environments of different sizes raise.", "quantifier": "all batch sizes, environments, sizes, resolutions and origins", "why_tests_cant": "All batch sizes and all indices; an off-by-one or a wrong axis can hide for symmetric inputs.", "anchors": ["src/sdf_tools/utils_3d_tensorflow.py:compute_sdf_and_gradient_batch"]}
{"id": "C89", "title": "The generator node keeps publishing consistent pictures", "statement": "In every round the node publishes a picture of the map and one of the field, both in the frame it was configured with, and both showing the scene after all answers of the service so far.", "quantifier": "all numbers of rounds, answers of the service, frames and scenes", "why_tests_cant": "The node runs for ever; the claim is about every round under every sequence of answers.", "anchors": ["src/sdf_generation_node.cpp:main"]}
{"id": "C90", "title": "Planar distance fields are finite, tight and locally consistent", "statement": "On a grid with a single layer along some axis and at least one obstacle, BuildDistanceField stores in every cell a finite squared distance that is at most the squared city-block distance to every obstacle (hence at most twice the true nearest squared distance, and exact straight out from a nearest obstacle), and a cell's face neighbours are never farther than the obstacle recorded for that cell allows.", "quantifier": "all single-layer grids below the overflow limit and all obstacle lists", "why_tests_cant": "A queued improvement could be lost for one special arrangement only; the claim is about every arrangement and every grid size.", "anchors": ["include/sdf_tools/sdf_generation.hpp:BuildDistanceField", "include/sdf_tools/sdf_generation.hpp:GetDirectionNumber"]}
{"id": "C91", "title": "Planar signed distance fields are finite and bounded", "statement": "For a single-layer map with both free and filled cells every value ExtractSignedDistanceField stores is the rounded distance to a cell of the other class, at most the city-block distance to each such cell; with a virtual border the same holds for every map, cells just outside counting as the other class.", "quantifier": "all single-layer maps, predicates and usable resolutions", "why_tests_cant": "All occupancy patterns of all sizes.", "anchors": ["include/sdf_tools/sdf_generation.hpp:ExtractSignedDistanceField"]}
{"id": "C92", "title": "Calls by location act on the cell the location lies in", "statement": "Every call that names a cell by a location (SetValue3d/4d, GetMutable3d/4d, GetImmutable3d/4d, CheckIfCandidateCorner3d/4d and their (x, y, z) forms) acts on the cell whose cube contains the location. A write there succeeds exactly inside the grid's volume (and, for a field, when it is not locked), is read back at every location of that cube, changes no read elsewhere and makes components invalid; a refused write changes nothing. Any history mixing calls by index and by location has the effect of the same history by index, so the validity flag stays truthful and a lock holds.", "quantifier": "all three grid classes, all poses, cell sizes, locations, values and histories of calls", "why_tests_cant": "locations are a continuum and histories unbounded; tests try a few points, usually cell centres", "anchors": ["include/sdf_tools/collision_map.hpp: SetValue3d, SetValue4d, GetMutable3d, GetMutable4d, CheckIfCandidateCorner3d", "include/sdf_tools/tagged_object_collision_map.hpp: SetValue3d, SetValue4d, GetMutable3d, GetMutable4d", "include/sdf_tools/sdf.hpp: SetValue3d, SetValue4d, GetMutable3d, GetMutable4d"]}
{"id": "C93", "title": "The distance to the boundary is exact up to one rounding", "statement": "In the program's own double arithmetic, DistanceToBoundary returns true exactly when the point's grid-frame coordinates lie between 0 and the grid's size on every axis, with no tolerance; the distance returned for such a point is the smallest distance to a face of the grid, correctly rounded to double.", "quantifier": "all grids with finite sizes, all poses, all points whose grid-frame coordinates are finite doubles", "why_tests_cant": "a comparison that rounding could flip shows up only for particular bit patterns near the faces; tests sample a few points of about 2^192", "anchors": ["include/sdf_tools/sdf.hpp:DistanceToBoundary4d"]}
{"id": "C94", "title": "Projection into the volume is exact in doubles", "statement": "In double arithmetic, ProjectIntoValidVolumeToMinimumDistance leaves a point inside the margins unchanged, bit for bit; any other point is replaced by the world position of the point nearest to it, coordinate by coordinate, between the margin and size minus margin (rounded to double). If the pose converts that point back exactly, projecting a second time changes nothing.", "quantifier": "all grids with finite sizes at least twice the margin, all poses whose clamp helper cuts a value off at two bounds, all points with finite coordinates, all finite nonnegative margins", "why_tests_cant": "idempotence and 'unchanged when inside' can fail by one unit in the last place for rare inputs only", "anchors": ["include/sdf_tools/sdf.hpp:ProjectIntoValidVolumeToMinimumDistance4d"]}
{"id": "C95", "title": "Gradients are accurate to single precision", "statement": "Every component of the grid-aligned gradient, computed in float and double arithmetic, is finite and differs from the exact slope between the neighbouring cells' stored values by at most 2^-23 of that slope (plus half the smallest positive double); at the border the cell itself replaces the missing neighbour, and an axis with one cell has slope 0.", "quantifier": "all grids with finite stored values of magnitude up to 2^126, all resolutions between 2^-800 and 2^800, all cells, edge gradients on or off", "why_tests_cant": "rounding errors depend on the values; no finite set of fields bounds them", "anchors": ["include/sdf_tools/sdf.hpp:GetGridAlignedGradient"]}
{"id": "C96", "title": "Extrema reported with the free-and-named field", "statement": "The (max,min) pair returned by ExtractFreeAndNamedObjectsSignedDistanceField is the maximum and minimum of the returned field. (Refuted when there is no free cell, or no filled cell of a named object, and some obstacle belongs to no object; proved for the maximum when some cell is free and for the minimum when some filled cell belongs to a named object.)", "quantifier": "all tagged maps, resolutions and both flag values", "why_tests_cant": "The pair is assembled from two different fields; whether it is right depends on which classes of cells occur.", "anchors": ["include/sdf_tools/tagged_object_collision_map.hpp: ExtractFreeAndNamedObjectsSignedDistanceField"]}
{"id": "C97", "title": "Distance estimates are accurate in floating point", "statement": "EstimateDistance, computed in double arithmetic, returns a finite number that differs from the exact trilinear interpolation of the eight surrounding cells' centred values by at most (2^-42 + 128 delta) W, where W bounds the stored values plus the resolution and delta the error of the computed cell centres in cells. Which of the cells are used is decided without error. Between cell centres the estimate therefore leaves the range of the surrounding values by no more than that. For a grid at the origin with at most N cells on an axis delta is 4 (N+1) 2^-53.", "quantifier": "all grids with finite values, resolutions between 2^-100 and 2^100, values up to 2^100, all points whose cell is in the grid, also the outer half of border cells; all poses whose cell centres are within delta <= 1/16 of a cell", "why_tests_cant": "rounding errors and cancellation depend on the values, the resolution and the position; no finite set of fields and points bounds them", "anchors": ["include/sdf_tools/sdf.hpp: EstimateDistance3d, EstimateDistance4d, EstimateDistanceInterpolateFromNeighborsGridFrame, TrilinearInterpolateDistance, BilinearInterpolate, GetCorrectedCenterDistance, GetAxisInterpolationIndices"]}
{"id": "C98", "title": "Python distance arrays hold distances between environment items", "statement": "Every item of the distance array compute_sdf_and_gradient returns is, rounded, the resolution times the distance in cells to some environment item marked differently (negative where the item itself is 1), the nearest one if that is within the square root of 6 cells, and infinite when no item is marked differently. In two dimensions it is finite whenever such an item exists and at most the city-block distance to each of them.", "quantifier": "all environment arrays, shapes, usable resolutions and origins", "why_tests_cant": "The claim joins array indexing, map filling, distance propagation and rounding, and must hold for every array content and shape; a test compares a few arrays.", "anchors": ["src/sdf_tools/utils_2d.py: compute_sdf_and_gradient", "src/sdf_tools/utils_3d.py: compute_sdf_and_gradient", "include/sdf_tools/collision_map.hpp: ExtractSignedDistanceField"]}
{"id": "C99", "title": "Drawn cubes are the cells", "statement": "In every drawing of a collision map, tagged map or field, placed by the marker's pose and scale, the boxes of a colour fill exactly the cubes of the cells that are to be shown in that colour, for every origin transform, turned ones included.", "quantifier": "all maps and fields, contents, colours, resolutions and rigid origin transforms", "why_tests_cant": "It joins the marker's pose and scale, the points and the choice of cells, for every pose; a test looks at the points of a few maps and never renders them.", "anchors": ["src/sdf_tools/collision_map.cpp: ExportForDisplay, ExportSurfacesForDisplay, ExportConnectedComponentsForDisplay", "src/sdf_tools/tagged_object_collision_map.cpp: DefaultMarker, ExportForDisplay", "src/sdf_tools/sdf.cpp: ExportForDisplay, ExportForDisplayCollisionOnly"]}
{"id": "C100", "title": "Drawn cubes of world-frame drawings are the cells", "statement": "In the generator node's drawing of the collision map and in the hashed map's drawing of its cells, the boxes of a colour fill exactly the cubes of the cells that are to be shown in that colour, for every origin transform, turned ones included.", "quantifier": "all maps, histories of writes, colours, resolutions and rigid origin transforms", "why_tests_cant": "Tests use unturned grids, where the claim holds; it must hold for every pose.", "anchors": ["src/sdf_generation_node.cpp: ExportCollisionMapForDisplay", "src/sdf_tools/dynamic_spatial_hashed_collision_map.cpp: ExportForDisplay"]}
{"id": "C101", "title": "Holes of flat components are the regions they enclose", "statement": "On a map of a single layer of cells, ComputeComponentTopology answers for every component, reports no voids, and reports as holes the number of separate regions of other cells that the component cuts off from the outside, in every hash order. (Refuted for components whose cells meet at a corner only: three missing cells along a diagonal are reported as two holes. Proved for all others, with the exact value in general.)", "quantifier": "all single-layer maps of any extent, all component shapes, all hash orders", "why_tests_cant": "The shapes of components and the nesting of their holes are unbounded; the count is a formula over corner types whose meaning is Euler's formula.", "anchors": ["include/sdf_tools/topology_computation.hpp:ComputeHolesInSurface", "include/sdf_tools/topology_computation.hpp:ComputeComponentTopology", "src/sdf_tools/collision_map.cpp:ComputeComponentTopology"]}
{"id": "C102", "title": "The demonstration's voxel grid marks the voxels that contain points", "statement": "point_cloud_to_voxel_grid of the demonstration script marks exactly the voxels of the grid that contain a point of the cloud (up to the rounding of the division at the voxels' faces); points outside the grid are rejected. The script's distances are negative exactly at those voxels. (Refuted for points just below the grid: truncation puts them into the first voxel, negative indices wrap to the opposite side.)", "quantifier": "all point clouds, shapes, resolutions and origins", "why_tests_cant": "The script is only ever run on one fixed cloud; rounding and index wrap-around depend on every coordinate.", "anchors": ["scripts/3d_sdf_demo_rviz.py: point_cloud_to_voxel_grid, main", "src/sdf_tools/utils_3d.py: compute_sdf_and_gradient"]}
{"id": "C103", "title": "The demonstration publishes each distance at its voxel", "statement": "In the published cloud of distances each record carries the position of the voxel whose distance it carries. (Refuted: on all grids with two or more voxels on both of the first two axes the positions are enumerated in transposed order, and the origin is subtracted instead of added. Proved for grids at the origin with a single row; the positions on square grids are exactly transposed.)", "quantifier": "all shapes, resolutions and origins", "why_tests_cant": "It is visual output that no test looks at, and it must hold for every shape.", "anchors": ["scripts/3d_sdf_demo_rviz.py: visualize_sdf, get_grid_points"]}
{"id": "C104", "title": "The demonstration draws each gradient as an arrow at its voxel", "statement": "The arrow message has one arrow for every eighth voxel, with different ids, each reaching a fiftieth of its voxel's gradient from the voxel's position. (The position is refuted as in C103: arrows are drawn at transposed voxels.)", "quantifier": "all gradient arrays of all shapes, all resolutions", "why_tests_cant": "It is visual output; ids, subsampling and order interact for every shape.", "anchors": ["scripts/3d_sdf_demo_rviz.py: plot_arrows_rviz, rviz_arrow, main"]}
{"id": "C105", "title": "Obstacle distances are exact around simple obstacles", "statement": "The stored squared distance of a cell is the true one whenever a nearest obstacle reaches the cell by steps leading away from it through cells it alone is nearest to. So it is exact in every cell that sees a nearest obstacle straight ahead along an axis, in every cell when there are at most two obstacles, when the obstacles fill a box, and when they fill everything but a box.", "quantifier": "all grid shapes and sizes within the size bound, all obstacle lists and cells meeting the condition", "why_tests_cant": "The propagation is not exact in general (C13); which cells are safe is a statement about every obstacle set and every order of the queue.", "anchors": ["include/sdf_tools/sdf_generation.hpp:BuildDistanceField"]}
{"id": "C106", "title": "Signed distances around a box, in a room and along lines of sight are exact", "statement": "In the extracted signed distance field a cell that sees the nearest cell of the other class straight ahead along an axis stores that distance, correctly signed and rounded. If the filled cells are those of a box, a half-space, a wall or a slab, or if the free cells are (a room), every cell stores its exact distance; likewise every free cell of a map with one or two filled cells.", "quantifier": "all grid shapes and sizes within the size bound, all resolutions, all filled-cell predicates, all boxes", "why_tests_cant": "It is a claim about every size, box and resolution, on both sides of the boundary.", "anchors": ["include/sdf_tools/sdf_generation.hpp:ExtractSignedDistanceField", "include/sdf_tools/collision_map.hpp:ExtractSignedDistanceField"]}
{"id": "C107", "title": "Query answers do not depend on the unit of length", "statement": "Describing the same scene in another unit of length, cell size, stored distances, pose, query point and lengths in the question all multiplied by the same factor, leaves gradients and smooth gradients unchanged and multiplies estimated distances, distances to the boundary and projected points by the factor.", "quantifier": "all positive factors, fields, poses, points, minimum distances and step sizes, any number of passes of the projection", "why_tests_cant": "Test scenes use one cell size; the projection out of collision compares a gradient, which has no unit, with a quarter of the cell size, so it depends on the unit only for cells of side 4 and more.", "anchors": ["include/sdf_tools/sdf.hpp:GetGradient", "include/sdf_tools/sdf.hpp:GetSmoothGradient", "include/sdf_tools/sdf.hpp:EstimateDistance", "include/sdf_tools/sdf.hpp:DistanceToBoundary", "include/sdf_tools/sdf.hpp:ProjectIntoValidVolumeToMinimumDistance", "include/sdf_tools/sdf.hpp:ProjectOutOfCollisionToMinimumDistance"]}
{"id": "C108", "title": "The smoothed gradient is the slope across the window, rounding included", "statement": "In double arithmetic each component of GetSmoothGradient is the difference of the interpolated field at the two ends of the window over their distance, up to a stated error; an end outside the grid is replaced by the point itself, and if neither end of the window on some axis is in the grid the call throws.", "quantifier": "all fields of finite values, grid sizes, cell sizes, points and windows of either sign within stated ranges", "why_tests_cant": "Subtracting nearly equal estimates amplifies rounding errors; that they stay below a bound for every field, point and window is not visible in examples.", "anchors": ["include/sdf_tools/sdf.hpp:GetSmoothGradient", "include/sdf_tools/sdf.hpp:ComputeAxisSmoothGradient", "include/sdf_tools/sdf.hpp:EstimateDistance"]}
{"id": "C109", "title": "Around a flat wall the estimated distance and normal are right, rounding included", "statement": "If the filled cells of a map are the first layers from one of its faces, then at every point of the grid EstimateDistance of the extracted field is the signed distance from the wall's face, and GetSmoothGradient is the unit normal of the wall, up to a stated error.", "quantifier": "all six faces, wall thicknesses, grid sizes and cell sizes whose multiples are floats, all points of the grid, all windows within stated ranges", "why_tests_cant": "It covers every point, also between cells and on the wall's face, and bounds the rounding error of the whole chain from map to query.", "anchors": ["include/sdf_tools/sdf_generation.hpp:ExtractSignedDistanceField", "include/sdf_tools/sdf.hpp:EstimateDistance", "include/sdf_tools/sdf.hpp:GetSmoothGradient"]}
{"id": "C110", "title": "Distance fields are defined for maps of any size", "statement": "For every grid whose sizes fit an int32, building the distance field of cells inside it, and extracting a signed distance field, does not overflow.", "quantifier": "all grid sizes, including rows of more than 46341 cells", "why_tests_cant": "The overflow happens only in maps too large for a unit test, after billions of bucket visits.", "anchors": ["include/sdf_tools/sdf_generation.hpp:BuildDistanceField", "include/sdf_tools/sdf_generation.hpp:ComputeDistanceSquared", "include/sdf_tools/sdf_generation.hpp:ExtractSignedDistanceField"]}
{"id": "C111", "title": "A distance field depends only on where the obstacles are", "statement": "The distance field does not depend on the order in which the obstacle cells are listed or on repetitions, and it follows the obstacles when the map is mirrored or gets additional free layers.", "quantifier": "all grids, obstacle lists, their permutations, repetitions, mirror images and margins", "why_tests_cant": "The algorithm visits cells in an order fixed by the list; whether that order shows in the result must be settled for every list.", "anchors": ["include/sdf_tools/sdf_generation.hpp:BuildDistanceField", "include/sdf_tools/sdf_generation.hpp:ExtractSignedDistanceField"]}
{"id": "C112", "title": "More obstacles never mean more clearance", "statement": "If more cells of a map are filled, the signed distance of a cell that stays free does not increase.", "quantifier": "all pairs of maps of which one has all the filled cells of the other, all cells", "why_tests_cant": "It compares two runs on arbitrary maps.", "anchors": ["include/sdf_tools/sdf_generation.hpp:BuildDistanceField", "include/sdf_tools/sdf_generation.hpp:ExtractSignedDistanceField"]}
{"id": "C113", "title": "Inverting a map negates its signed distance field", "statement": "Exchanging filled and free cells negates the stored value of every cell, exactly, with and without a virtual border; the reported maximum and minimum are exchanged and negated.", "quantifier": "all maps and resolutions, all cells", "why_tests_cant": "It compares two runs on arbitrary maps, bit for bit.", "anchors": ["include/sdf_tools/sdf_generation.hpp:ExtractSignedDistanceField"]}
{"id": "C114", "title": "Distances change by at most one cell from a cell to the next", "statement": "Two cells of one class that share a face have distances to the other class that differ by at most one cell size; over a longer way the difference is at most its city-block length.", "quantifier": "all maps, all pairs of cells", "why_tests_cant": "It must hold in every map for every pair of cells, also where the propagated distance is not the true one.", "anchors": ["include/sdf_tools/sdf_generation.hpp:BuildDistanceField", "include/sdf_tools/sdf_generation.hpp:ExtractSignedDistanceField"]}
{"id": "C115", "title": "The sign of an estimated distance tells whether the point is in a filled cell", "statement": "For every map and every point of it, the estimated distance is positive in free cells and negative in filled ones.", "quantifier": "all maps, resolutions, poses and points between the outermost cell centres", "why_tests_cant": "It depends on all arrangements of the cells around the point and on the place of the point in its cell.", "anchors": ["include/sdf_tools/sdf.hpp:EstimateDistance", "include/sdf_tools/sdf.hpp:GetCorrectedCenterDistance", "include/sdf_tools/sdf.hpp:TrilinearInterpolateDistance", "include/sdf_tools/sdf_generation.hpp:ExtractSignedDistanceField"]}
{"id": "C116", "title": "An estimated clearance is a real clearance", "statement": "From a point in a free cell the estimated distance is the distance from the nearest filled cell, up to a fixed number of cell sizes: not less by more than 2.1 cells, not more by more than 3/8 of a cell where the field around the point is exact, and at most 1.42 times it plus 3/4 of a cell on planar maps.", "quantifier": "all maps, resolutions, poses and points between the outermost cell centres, all filled cells", "why_tests_cant": "Stored values are propagated distances between cell centres, corrected by half a cell and interpolated; the bound must hold for every map and every point.", "anchors": ["include/sdf_tools/sdf.hpp:EstimateDistance", "include/sdf_tools/sdf.hpp:GetCorrectedCenterDistance", "include/sdf_tools/sdf.hpp:TrilinearInterpolateDistance", "include/sdf_tools/sdf_generation.hpp:ExtractSignedDistanceField"]}
{"id": "C117", "title": "Estimated distances change no faster than the point moves", "statement": "In a planar map, and in any map whose stored distances are exact, moving the point changes the estimated distance by at most 1.02 times the way it moves along the axes, between the centres of the outermost cells, and by at most 4.08 times anywhere in the grid.", "quantifier": "all such maps, resolutions, poses and pairs of points", "why_tests_cant": "It bounds the difference of every pair of queries in every map, across cell faces and the surface of obstacles, where the half-cell correction changes sign.", "anchors": ["include/sdf_tools/sdf.hpp:EstimateDistance", "include/sdf_tools/sdf.hpp:GetCorrectedCenterDistance", "include/sdf_tools/sdf.hpp:TrilinearInterpolateDistance", "include/sdf_tools/sdf_generation.hpp:ExtractSignedDistanceField"]}
{"id": "C118", "title": "The gradient of an extracted field is at most a unit vector", "statement": "The gradient of a signed distance field extracted from a map is not longer than 1.", "quantifier": "all maps, resolutions and cells", "why_tests_cant": "It must hold at every cell of every map, next to obstacles and at the edges of the grid.", "anchors": ["include/sdf_tools/sdf.hpp:GetGradient", "include/sdf_tools/sdf.hpp:GetGridAlignedGradient", "include/sdf_tools/sdf_generation.hpp:ExtractSignedDistanceField"]}
{"id": "C119", "title": "Estimates in doubles follow exact arithmetic", "statement": "The estimated distance computed in doubles differs from the one exact arithmetic would give on the stored values by at most (2^-42 + 205 delta) times a bound on the values, delta being the error of the pose in cells, also where rounding moves the point into a neighbouring cell or to the other side of a cell centre. In a field extracted from a map at the origin the difference is at most a thousandth of a cell.", "quantifier": "all fields, poses, error bounds and points in the grid; all maps", "why_tests_cant": "The choice of cells is discontinuous in the rounded coordinates; that the result is not must be shown for every point near a face or a centre.", "anchors": ["include/sdf_tools/sdf.hpp:EstimateDistance", "include/sdf_tools/sdf.hpp:GetAxisInterpolationIndices", "include/sdf_tools/sdf.hpp:TrilinearInterpolateDistance"]}
{"id": "C120", "title": "What estimates in doubles say about the map", "statement": "In a field extracted from a map at the origin, an estimate above 0.626 cells means that the point is in a free cell and one below -0.626 cells that it is in a filled cell; from a free cell the estimate is at least the distance from the nearest filled cell less 2.101 cells; it is at most 1.42 times the distance from any filled cell plus 0.751 cells on planar maps, and that distance plus 0.376 cells where the field is exact; two estimates differ by at most 1.02 times the way between the points along the axes plus 0.002 cells. All in doubles, rounding included.", "quantifier": "all maps, resolutions up to 2^80 and points between the centres of the outermost cells", "why_tests_cant": "The bounds hold for every obstacle arrangement and every point, with the rounding of every step.", "anchors": ["include/sdf_tools/sdf.hpp:EstimateDistance", "include/sdf_tools/sdf.hpp:GetCorrectedCenterDistance", "include/sdf_tools/sdf_generation.hpp:ExtractSignedDistanceField"]}
{"id": "C121", "title": "Fields of single objects combine into the field of all", "statement": "The signed distance field of several objects of a tagged map is negative exactly in the cells where the field of one of them is, and in the other cells it is the smallest of the single objects' values; in a cell of an object it is at most that object's value.", "quantifier": "all tagged maps, lists of objects, unknown flags and cells, border or not for the sign", "why_tests_cant": "Each of the fields is propagated from its own obstacles; that their combination agrees depends on every arrangement of objects.", "anchors": ["include/sdf_tools/tagged_object_collision_map.hpp:ExtractSignedDistanceField", "include/sdf_tools/tagged_object_collision_map.hpp:MakeObjectSDFs", "include/sdf_tools/tagged_object_collision_map.hpp:MakeAllObjectSDFs"]}
{"id": "C122", "title": "Estimates in the outer half cells of the map", "statement": "Where the estimated distance extrapolates, in the outer halves of the outermost cells, it still follows the map: a large positive estimate means the point is in a free cell, a large negative one a filled cell, and the estimate exceeds the distance from a filled cell or falls short of the clearance by a few cells at most.", "quantifier": "all planar maps and all maps with exact fields, all resolutions and poses, all points of the grid", "why_tests_cant": "Extrapolation magnifies differences between cells on up to three axes at once; the bound needs the worst arrangement of cells and the worst point.", "anchors": ["include/sdf_tools/sdf.hpp:EstimateDistance4d", "include/sdf_tools/sdf.hpp:EstimateDistanceFromNeighbors", "include/sdf_tools/sdf.hpp:GetAxisInterpolationIndices"]}
{"id": "C123", "title": "A projected point is out of collision", "statement": "A point that ProjectOutOfCollisionToMinimumDistance returns lies in a free cell of the map the field was extracted from and is about as far from every filled cell as asked.", "quantifier": "all maps, resolutions, poses, starting points, minimum distances and step multipliers", "why_tests_cant": "Relates the end of an unbounded search over interpolated values to every cell of every map.", "anchors": ["include/sdf_tools/sdf.hpp:ProjectOutOfCollision", "include/sdf_tools/sdf.hpp:ProjectOutOfCollisionToMinimumDistance4d", "include/sdf_tools/sdf_generation.hpp:ExtractSignedDistanceField"]}
{"id": "C124", "title": "Exact items of the arrays the Python helpers return", "statement": "With a single marked item every other item of the distance array holds the distance to it, rounded to a float; where the marked or the unmarked items form a rectangle or a box every item holds the exact distance to the nearest item of the other kind; and so does an item whose nearest one of the other kind lies in a straight or diagonal line.", "quantifier": "all two- and three-dimensional arrays, resolutions, origins and frames", "why_tests_cant": "The repository's test checks six items of one array with one marked item; the claim is about every item of every array.", "anchors": ["src/sdf_tools/utils_2d.py:compute_sdf_and_gradient", "src/sdf_tools/utils_3d.py:compute_sdf_and_gradient", "test/test_bindings.py:test_sdf_tools"]}
{"id": "C125", "title": "Projecting out of a flat wall with rounding", "statement": "In the field of a flat wall, ProjectOutOfCollisionToMinimumDistance moves a point straight away from the wall and returns one whose distance from the face is the one asked for, short of it by at most the rounding error of the estimate and past it by at most a ten-thousandth of the maximal step plus twice that error, unless the point started further away; the coordinates along the wall are unchanged, the number of passes is at most the distance to go divided by the maximal step, plus two, and the only failure is leaving the grid, where the grid is too small for the distance asked for.", "quantifier": "all walls on any side of any grid, cell sizes below 4 that store exactly, points of the grid, distances and steps, in double arithmetic", "why_tests_cant": "The loop compares rounded distances and moves by rounded steps; whether it ends and where depends on rounding at every pass from every starting point.", "anchors": ["include/sdf_tools/sdf.hpp:ProjectOutOfCollisionToMinimumDistanceGridFrame", "include/sdf_tools/sdf.hpp:EstimateDistance4d"]}
{"id": "C126", "title": "Queries in grids that stand anywhere, with rounding", "statement": "For a grid turned and moved in the world, EstimateDistance in doubles agrees with exact arithmetic in the exact pose to two thousandths of a cell, as long as points are misplaced by rounding by no more than a millionth of a cell over the number of cells on an axis; so what the estimate says about the class of a cell and about distances from obstacles holds in the world frame with correspondingly wider constants. In front of a flat wall the estimate is the distance from the wall, and the projection moves the point straight away from it, up to a fixed multiple of that misplacement.", "quantifier": "all maps, all rigid poses and transforms in doubles that follow them to a stated accuracy, all points of the grid", "why_tests_cant": "Rounding in the transform depends on every entry and coordinate; tests try a few poses.", "anchors": ["include/sdf_tools/sdf.hpp:EstimateDistanceInterpolateFromNeighbors", "include/sdf_tools/sdf.hpp:EstimateDistance4d", "include/sdf_tools/sdf.hpp:ProjectOutOfCollisionToMinimumDistance4d"]}
{"id": "C127", "title": "The gradient in the world frame, with rounding", "statement": "GetGradient returns, in the world frame, the slopes of the stored distances along the three axes of the grid, turned by the rotation of the grid. In doubles, with a quaternion within delta of the exact one on every component, each coordinate of the result is finite and within 1800 delta + 2^-17 times the largest slope of its exact value. In the field of a planar map, or of any map whose stored distances are exact, the largest slope is at most 2.02. At every cell before or inside a flat wall the result is the outward normal of the wall in the world, times a number from 1 to 2, up to that error.", "quantifier": "all fields with finite values, all rotations and quaternions in doubles near them, all cells, with and without edge gradients", "why_tests_cant": "The error depends on every component of the quaternion and on all neighbouring values; tests try a few rotations, mostly the identity.", "anchors": ["include/sdf_tools/sdf.hpp:GetGradient", "include/sdf_tools/sdf.hpp:GetGridAlignedGradient"]}
{"id": "C128", "title": "Estimates anywhere in a placed grid, in world distances and with rounding", "statement": "For a grid turned and moved in the world, with rounding in doubles, and for every point in it, the outermost half cells included: moving the point by some world distance changes EstimateDistance by at most 7.07 times that distance and 0.004 cells (1.77 times it between the outermost centres); an estimate beyond 4.21 cells either way (2.17 in planar maps) tells whether the point's cell is filled; the estimate exceeds the world distance from any filled cell's centre, and in a free cell falls short of that from all of them, by no more than a fixed number of cells (with 42 percent on top in planar maps that are not exact). The field is that of a planar map or of a map whose stored distances are exact.", "quantifier": "all such maps, all rigid poses and transforms in doubles that follow them to a stated accuracy, all points or pairs of points in the grid", "why_tests_cant": "The margins combine rounding in the transform, in the interpolation and in the stored distances with extrapolation at the border; tests try a few points and mostly grids at the origin.", "anchors": ["include/sdf_tools/sdf.hpp:EstimateDistance4d", "include/sdf_tools/sdf.hpp:EstimateDistanceInterpolateFromNeighbors"]}
{"id": "C129", "title": "A grid known by its origin transform alone, with rounding", "statement": "Everything a grid needs to know about its place it derives from the origin transform it is given: the inverse transform and the rotation as a quaternion. If the entries of the transform are near those of an exact pose, the inverse computed in doubles takes world points near their exact place in the grid, with a stated error; the quaternion, whichever branch of the conversion is taken, is finite and near that of the pose or its negative, which turns points the same way. So with nothing but the origin transform given, gradients in the world frame, normals of walls and distance estimates keep their bounds against the exact pose.", "quantifier": "all rigid poses, all transforms in doubles near them, all points and cells; for the estimates all planar maps and maps whose stored distances are exact", "why_tests_cant": "The conversion has four branches, and near their borders rounding decides which is taken; a test tries a few rotations, and the repository tests none.", "anchors": ["include/sdf_tools/sdf.hpp:GetGradient", "include/sdf_tools/sdf.hpp:SignedDistanceField", "include/sdf_tools/sdf.hpp:EstimateDistance4d"]}
{"id": "C130", "title": "Finding the cell of a point in a turned grid, with rounding", "statement": "In a grid known by its origin transform, with all arithmetic in doubles, a world point that lies at least two millionths of a cell from the faces of its cell is found in that cell; so is a point of the grid, at least four millionths from the faces of its cell, after the origin transform took it to the world. In particular the place reported for a cell names that cell again, and reading or writing there is reading or writing the cell. Nearer to a face this fails: a point on the side of the grid can be found outside the grid, and a corner of a cell can be found in a neighbouring cell. Both happen in the repository's own distance estimate program, where an estimate inside the grid answers with the out-of-bounds value and obstacles are stored one cell away.", "quantifier": "all rigid poses, all transforms in doubles near them, all grids of up to 2^30 cells an axis, all points and cells", "why_tests_cant": "Which points are misplaced depends on the last bits of the transform; a test with a few poses and points sees either none or does not look, as the repository's program shows.", "anchors": ["src/estimate_distance_test.cpp:test_estimate_distance", "include/sdf_tools/collision_map.hpp:SetValue4d", "include/sdf_tools/sdf.hpp:EstimateDistance4d"]}
{"id": "C131", "title": "Resampling a turned map, with rounding", "statement": "When a map that stands anywhere is resampled, all arithmetic in doubles, the content of a cell is written to the new cell its centre lies in, provided the centre is at least five millionths of a new cell from the faces of that cell. So at the same resolution and with the same number of cells the map comes out unchanged, and with cells twice as large each new cell whose eight parts are all in the old map holds the value of the last of them. With cells half as large the old centres are corners of new cells, and which new cell is written depends on rounding: a straight row of cells can come out bent.", "quantifier": "all rigid poses, all transforms in doubles near them, all maps of up to 2^30 cells an axis, all cell sizes in range", "why_tests_cant": "Which cell a centre on a face falls into depends on the last bits of the origin transform; the repository has no test of resampling.", "anchors": ["include/sdf_tools/collision_map.hpp:Resample", "src/sdf_tools/collision_map.cpp:Resample", "src/sdf_tools/tagged_object_collision_map.cpp:Resample"]}
{"id": "C132", "title": "The volume of a grid that stands anywhere, with rounding", "statement": "In a grid known by its origin transform, all arithmetic in doubles: up to three millionths of a cell around the faces, the distance to the boundary says rightly whether a point is in the volume, and inside it is the distance to the nearest face up to four millionths of a cell. A point projected into the volume lands where cutting off its exact coordinates at the margin puts it, up to ten millionths of a cell, and is then found in the grid: the margin of a ten thousandth of a cell the code adds is enough to outweigh all rounding. So the projection out of collision always starts in a cell of the grid.", "quantifier": "all rigid poses, all transforms in doubles near them, all grids of up to 2^30 cells an axis, all points and minimum distances that leave room", "why_tests_cant": "Whether the small margin outweighs rounding depends on pose, size and resolution together; a test tries a few.", "anchors": ["include/sdf_tools/sdf.hpp:DistanceToBoundary4d", "include/sdf_tools/sdf.hpp:ProjectIntoValidVolumeToMinimumDistance4d", "include/sdf_tools/sdf.hpp:ProjectOutOfCollisionToMinimumDistance4d"]}
{"id": "C133", "title": "Gradients by location in a grid that stands anywhere, with rounding", "statement": "In a grid known by its origin transform, all arithmetic in doubles: each component of the smoothed gradient along the world axes is the slope of the exact estimate between the two points compared (both ends of the window, or one end and the point when the other end is outside the grid), to within 0.007 cells over their distance, and is at most 7.08 plus 0.02 cells over that distance in size. The call throws exactly when on some axis neither end is in the grid. In front of, or inside, a flat wall the smoothed gradient is the outward normal of the wall turned with the grid. The plain gradient at a world point away from cell faces is the turned slope of the cell the point is in.", "quantifier": "all rigid poses, all transforms in doubles near them, all planar maps and all maps with exact stored distances, all walls, all points and windows whose points inside the grid are seen there by the exact pose too", "why_tests_cant": "The error depends on pose, window, resolution and the seven points together; a test compares a few values.", "anchors": ["include/sdf_tools/sdf.hpp:GetSmoothGradient", "include/sdf_tools/sdf.hpp:ComputeAxisSmoothGradient", "include/sdf_tools/sdf.hpp:GetGradient4d"]}
{"id": "C134", "title": "The hashed map's drawing of whole chunks fills the chunks written as a whole", "statement": "The boxes of the chunk marker returned by the hashed map's ExportForDisplay cover exactly the chunks whose value was written as a whole and that were not divided since, each in the colour of its occupancy.", "quantifier": "all histories of writes, all chunk sizes, cell sizes and grid poses, all colours, all hash orders, all locations", "why_tests_cant": "The drawing depends on the whole history of writes and on where an outside library places a chunk; a test looks at a few chunks.", "anchors": ["src/sdf_tools/dynamic_spatial_hashed_collision_map.cpp:ExportForDisplay"]}
{"id": "C135", "title": "The projection into the volume reaches the requested distance, with rounding", "statement": "In a grid known by its origin transform, all arithmetic in doubles: after ProjectIntoValidVolumeToMinimumDistance the map's own boundary query reports the point as inside and at more than the requested distance from the boundary. Points that already have that distance and the ten thousandth of a cell the code adds stay where they are, no admissible point is nearer on any axis, and projecting again changes nothing, each to within two hundred thousandths of a cell.", "quantifier": "all rigid poses, all transforms in doubles near them, all grid sizes up to 2^30 cells, all points, all requested distances for which the grid has room", "why_tests_cant": "Each step rounds, and the distance reported afterwards is computed by other operations than the projection; a test sees a few points.", "anchors": ["include/sdf_tools/sdf.hpp:ProjectIntoValidVolumeToMinimumDistance", "include/sdf_tools/sdf.hpp:DistanceToBoundary"]}
{"id": "C136", "title": "Clearance after projecting out of collision in a grid that stands anywhere, with rounding", "statement": "In a grid known by its origin transform, all arithmetic in doubles: the point returned by ProjectOutOfCollisionToMinimumDistance keeps the distance asked for, less stated margins, from the centre of every filled cell in the world, and the cell it is in is free when the distance asked for is at least 0.626 cells between the cell centres, or 2.17 cells (planar maps) or 4.21 cells (exact fields) anywhere.", "quantifier": "all rigid poses, all transforms in doubles near them, all planar maps and all maps with exact stored distances, all starting points, minimum distances and step factors for which the call returns", "why_tests_cant": "The clearance depends on the obstacles, the pose and the path of the search together.", "anchors": ["include/sdf_tools/sdf.hpp:ProjectOutOfCollisionToMinimumDistance4d", "include/sdf_tools/sdf.hpp:ProjectOutOfCollisionToMinimumDistanceGridFrame"]}
{"id": "C137", "title": "Points reported inside the grid are inside it, with rounding", "statement": "In doubles, a point EstimateDistance reports as inside the grid is inside the space its cells cover: exactly for a grid at the origin with cells of side at most 1, and to within two millionths of a cell for a grid that stands anywhere; conversely every point at least a fifty-thousandth of a cell inside all faces is reported inside. The point at which ProjectOutOfCollisionToMinimumDistance ends its search, in the frame of the grid, is exactly a point of the grid.", "quantifier": "all grid sizes, cell sizes, rigid poses with transforms near them in doubles, and all points of the stated magnitude", "why_tests_cant": "The points that could be misjudged are the few doubles next to a face.", "anchors": ["include/sdf_tools/sdf.hpp:EstimateDistance4d", "include/sdf_tools/sdf.hpp:ProjectOutOfCollisionToMinimumDistanceGridFrame"]}
{"id": "C138", "title": "The search out of collision ends at a finite point of the grid, with rounding", "statement": "In doubles, from any start within the stated magnitude, if ProjectOutOfCollisionToMinimumDistance returns, its search ended at a finite point that lies exactly in the space covered by the cells (cells of side at most 1), for every field computed from a map with finite stored distances and every minimum distance and nonnegative step factor in the stated ranges; so the clearance promised in a grid that stands anywhere needs no assumption about where the search ended.", "quantifier": "all maps with finite stored distances, grid poses, starting points, minimum distances of at most 2^900, step factors from 0 to 2^100 and numbers of passes for which the call returns", "why_tests_cant": "A search of any length may follow any path, and one overflow or NaN on the way would spoil the result.", "anchors": ["include/sdf_tools/sdf.hpp:ProjectOutOfCollisionToMinimumDistance4d", "include/sdf_tools/sdf.hpp:ProjectOutOfCollisionToMinimumDistanceGridFrame"]}
{"id": "C139", "title": "EstimateDistance and DistanceToBoundary agree on which points are in the grid", "statement": "For every point, the flag returned by EstimateDistance and the flag returned by DistanceToBoundary are the same, with all arithmetic in doubles.", "quantifier": "all grid and cell sizes, origin transforms and points of the stated magnitude", "why_tests_cant": "One call divides by the cell size and the other compares with the rounded size of the grid; they can differ only at the few doubles next to a face.", "anchors": ["include/sdf_tools/sdf.hpp:EstimateDistance4d", "include/sdf_tools/sdf.hpp:DistanceToBoundary4d"]}
