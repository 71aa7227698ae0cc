{
 "claims": [
  {
   "property": "C01",
   "status": "proved",
   "theorems": [
    "C01_read_after_write",
    "C01_history"
   ],
   "note": ""
  },
  {
   "property": "C02",
   "status": "proved",
   "theorems": [
    "C02_components_exact",
    "C02_tagged_components_exact"
   ],
   "note": "All maps with fewer than 2^32 cells, plain and tagged."
  },
  {
   "property": "C03",
   "status": "proved",
   "theorems": [
    "C03_payload_kept",
    "C02_components_exact",
    "C03_tagged_payload_kept"
   ],
   "note": "Plain and tagged maps."
  },
  {
   "property": "C04",
   "status": "proved",
   "theorems": [
    "C04_valid_flag_sound",
    "C04_tagged_valid_flag_sound"
   ],
   "note": "All histories of writes, reference writes and recomputation (for tagged maps also of convex segments) in which references are not kept across a recomputation; C05 shows that exclusion is needed."
  },
  {
   "property": "C05",
   "status": "partial",
   "theorems": [
    "C05_kept_reference_refuted"
   ],
   "note": "REFUTED as stated: a reference kept across UpdateConnectedComponents can change an occupancy while AreComponentsValid stays true. C04_valid_flag_sound is what holds."
  },
  {
   "property": "C06",
   "status": "proved",
   "theorems": [
    "C06_recompute_determined",
    "C06_tagged_recompute_determined"
   ],
   "note": "Plain and tagged maps."
  },
  {
   "property": "C07",
   "status": "proved",
   "theorems": [
    "C07_extract_components"
   ],
   "note": ""
  },
  {
   "property": "C08",
   "status": "proved",
   "theorems": [
    "C08_no_undefined_behaviour"
   ],
   "note": ""
  },
  {
   "property": "C09",
   "status": "proved",
   "theorems": [
    "C09_throws_iff_point_outside"
   ],
   "note": ""
  },
  {
   "property": "C10",
   "status": "proved",
   "theorems": [
    "C10_distances_realised"
   ],
   "note": ""
  },
  {
   "property": "C11",
   "status": "proved",
   "theorems": [
    "C11_zero_iff_obstacle"
   ],
   "note": ""
  },
  {
   "property": "C12",
   "status": "proved",
   "theorems": [
    "C12_exact_near_obstacles",
    "C12_exact_up_to_6"
   ],
   "note": ""
  },
  {
   "property": "C13",
   "status": "partial",
   "theorems": [
    "C13_exactness_refuted"
   ],
   "note": "REFUTED as stated: the stored distance is not always exact. Witness C13_exactness_refuted (7x4x1 grid, three obstacles). What does hold is C12: exact whenever the true squared distance is at most 6; C105: exact wherever a nearest obstacle reaches the cell through its own region, so around one or two obstacles, boxes and rooms; and C10: never an under-estimate."
  },
  {
   "property": "C14",
   "status": "proved",
   "theorems": [
    "C14_single_obstacle_exact"
   ],
   "note": ""
  },
  {
   "property": "C15",
   "status": "partial",
   "theorems": [
    "C15_no_obstacle_infinite",
    "C15_finite_partial",
    "C15_planar_partial"
   ],
   "note": "Finiteness is proved for every single-layer grid and obstacle list; in 3-D for one or two obstacles, boxes, rooms, every cell that a nearest obstacle reaches through its own region (C105) and within squared distance 6 of an obstacle; other cells far from three or more obstacles in a truly 3-D grid remain open."
  },
  {
   "property": "C16",
   "status": "proved",
   "theorems": [
    "C16_sign"
   ],
   "note": ""
  },
  {
   "property": "C17",
   "status": "proved",
   "theorems": [
    "C17_magnitude",
    "C17_distance_field",
    "C17_boundary_cells",
    "C17_accuracy"
   ],
   "note": "Also bounds the relative error of the stored float by 2^-23."
  },
  {
   "property": "C18",
   "status": "proved",
   "theorems": [
    "C18_one_class_infinite"
   ],
   "note": ""
  },
  {
   "property": "C19",
   "status": "proved",
   "theorems": [
    "C19_extrema_unrounded",
    "C19_extrema_stored"
   ],
   "note": ""
  },
  {
   "property": "C20",
   "status": "partial",
   "theorems": [
    "C20_border_extrema_refuted",
    "C20_border_extrema_both_classes"
   ],
   "note": "REFUTED as stated: on every one-class grid with an axis longer than one cell the reported pair excludes a stored value (C20_border_extrema_refuted). Proved when both classes are present."
  },
  {
   "property": "C21",
   "status": "partial",
   "theorems": [
    "C21_border_sign",
    "C21_border_magnitude",
    "C21_border_distance_field",
    "C21_border_bound_partial",
    "C21_outside_exact",
    "C21_straight_exact",
    "C21_single_class_exact"
   ],
   "note": "Size and sign proved for all cells; exact on any grid in every cell at least as near to the outside as to the other class. The bound by the distance to the outside is proved for every cell of a single-layer grid and, in 3-D grids, for those cells and for cells at squared distance at most 6 from the outside; open are 3-D cells with a nearer cell of the other class."
  },
  {
   "property": "C22",
   "status": "proved",
   "theorems": [
    "C22_unknown_flag",
    "C22_nan_is_free"
   ],
   "note": ""
  },
  {
   "property": "C23",
   "status": "proved",
   "theorems": [
    "C23_nonuniform_refused"
   ],
   "note": ""
  },
  {
   "property": "C24",
   "status": "partial",
   "theorems": [
    "C24_locked_values_partial",
    "C24_unlocked_writes",
    "C24_kept_reference_refuted"
   ],
   "note": "REFUTED as stated: a reference handed out before Lock() still writes; proved for all other histories"
  },
  {
   "property": "C25",
   "status": "partial",
   "theorems": [
    "C25_locked_oob_refuted",
    "C25_locked_calls_only"
   ],
   "note": "REFUTED as stated: a refused GetMutable hands out the out-of-bounds value; proved when nothing is written through references"
  },
  {
   "property": "C26",
   "status": "proved",
   "theorems": [
    "C26_gradient_available",
    "C26_grid_gradient_available",
    "C26_location_gradient_available"
   ],
   "note": "any arithmetic"
  },
  {
   "property": "C27",
   "status": "proved",
   "theorems": [
    "C27_affine_gradient",
    "C27_rotation_keeps_length",
    "C27_world_gradient"
   ],
   "note": "Real arithmetic."
  },
  {
   "property": "C28",
   "status": "proved",
   "theorems": [
    "C28_estimate_never_faults"
   ],
   "note": "any arithmetic (IEEE and reals); the location-to-index conversion is a parameter"
  },
  {
   "property": "C29",
   "status": "partial",
   "theorems": [
    "C29_estimate_at_center",
    "C29_estimate_between_partial",
    "C29_affine_reproduced",
    "C29_extrapolation_refuted"
   ],
   "note": "REFUTED as stated: in the outer half of edge cells the estimate extrapolates beyond every cell; proved elsewhere (real arithmetic)"
  },
  {
   "property": "C30",
   "status": "proved",
   "theorems": [
    "C30_projection_into_volume"
   ],
   "note": "real arithmetic"
  },
  {
   "property": "C31",
   "status": "partial",
   "theorems": [
    "C31_projection_out",
    "C31_projection_out_any",
    "C31_far_points_unchanged",
    "C31_outside_points",
    "C31_step_length",
    "C31_infinite_values_refuted"
   ],
   "note": "proved in real arithmetic; REFUTED in IEEE arithmetic when values are infinite (NaN estimate ends the loop inside an obstacle)"
  },
  {
   "property": "C32",
   "status": "partial",
   "theorems": [
    "C32_distance_to_boundary",
    "C32_negative_outside_refuted"
   ],
   "note": "REFUTED as stated: the value can be positive outside; flag and inside value proved"
  },
  {
   "property": "C33",
   "status": "proved",
   "theorems": [
    "C33_extrema_map"
   ],
   "note": "IEEE arithmetic; the map has the shape of the field (see C63) and cell centres are not -infinity"
  },
  {
   "property": "C34",
   "status": "proved",
   "theorems": [
    "C34_sdf_round_trip"
   ],
   "note": "For every transform codec that gives back what it wrote."
  },
  {
   "property": "C35",
   "status": "proved",
   "theorems": [
    "C35_collision_map_round_trip"
   ],
   "note": "For every transform codec that gives back what it wrote."
  },
  {
   "property": "C36",
   "status": "proved",
   "theorems": [
    "C36_tagged_map_round_trip"
   ],
   "note": "Maps with initialised flags; for the others see C47."
  },
  {
   "property": "C37",
   "status": "proved",
   "theorems": [
    "C37_sdf_file",
    "C37_collision_map_file",
    "C37_tagged_map_file"
   ],
   "note": "zlib is assumed to invert itself; the path is writable (see C65)."
  },
  {
   "property": "C38",
   "status": "proved",
   "theorems": [
    "C38_sdf_foreign_file",
    "C38_collision_map_foreign_file",
    "C38_tagged_map_foreign_file",
    "C38_missing_file",
    "C38_sdf_file_is_not_collision_map",
    "C38_sdf_file_is_not_tagged_map",
    "C38_collision_map_file_is_not_sdf",
    "C38_collision_map_file_is_not_tagged_map",
    "C38_tagged_map_file_is_not_sdf",
    "C38_tagged_map_file_is_not_collision_map"
   ],
   "note": ""
  },
  {
   "property": "C39",
   "status": "proved",
   "theorems": [
    "C39_sdf_truncated",
    "C39_collision_map_truncated",
    "C39_tagged_map_truncated",
    "C39_sdf_truncated_file",
    "C39_collision_map_truncated_file",
    "C39_tagged_map_truncated_file",
    "C39_sdf_truncated_compressed_file",
    "C39_collision_map_truncated_compressed_file",
    "C39_tagged_map_truncated_compressed_file"
   ],
   "note": "For compressed files, zlib is assumed to give a beginning of the data or an error on a cut-off stream."
  },
  {
   "property": "C40",
   "status": "proved",
   "theorems": [
    "C40_sdf_message",
    "C40_collision_map_message",
    "C40_tagged_map_message"
   ],
   "note": "zlib is assumed to invert itself; time stamp not modelled."
  },
  {
   "property": "C41",
   "status": "partial",
   "theorems": [
    "C41_listed_once",
    "C41_empty_surfaces_partial",
    "C41_what_is_listed_partial",
    "C41_surface_test",
    "C41_filled_missed_refuted",
    "C41_unknown_missed_refuted",
    "C41_interior_listed_refuted",
    "C41_far_edge_missed_refuted"
   ],
   "note": "Violated by the code for filled and unknown cells, which are looked up at a wrong index; exact for empty cells when no cell carries the out-of-bounds label."
  },
  {
   "property": "C42",
   "status": "proved",
   "theorems": [
    "C42_candidate_corner"
   ],
   "note": "For any cell type with a component label, so for both map classes."
  },
  {
   "property": "C43",
   "status": "proved",
   "theorems": [
    "C43_static_surface",
    "C43_dynamic_surface",
    "C43_round_trip",
    "C43_index_map"
   ],
   "note": ""
  },
  {
   "property": "C44",
   "status": "proved",
   "theorems": [
    "C44_components_counted",
    "C44_missing_vertex_throws",
    "C44_any_order",
    "C44_always_ends",
    "C44_topology_any_order",
    "C44_tagged_topology_any_order"
   ],
   "note": ""
  },
  {
   "property": "C45",
   "status": "partial",
   "theorems": [
    "C45_z_mirror_refuted",
    "C45_xy_mirror_partial"
   ],
   "note": "Violated by the code for z; proved for mirror images in x and y with labels carried along."
  },
  {
   "property": "C46",
   "status": "partial",
   "theorems": [
    "C46_stale_segments_refuted",
    "C46_unwritten_partial"
   ],
   "note": "REFUTED: SetValue and GetMutable never clear the flag; for every map whose segments are flagged valid. Proved for calls that write no cell: the flag stays set, the segments are right and computing them again changes nothing."
  },
  {
   "property": "C47",
   "status": "partial",
   "theorems": [
    "C47_uninitialised_flag_refuted",
    "C47_default_initialised",
    "C47_serializing_uninitialised_refuted"
   ],
   "note": "Violated by the code: eight constructors leave the flag uninitialised and reading, saving or sending it is undefined."
  },
  {
   "property": "C48",
   "status": "proved",
   "theorems": [
    "C48_defined",
    "C48_extrema_source",
    "C48_segments_exact",
    "C48_segments_respect_objects"
   ],
   "note": "Definedness needs an extrema map of the shape of the grid (see C63)."
  },
  {
   "property": "C49",
   "status": "proved",
   "theorems": [
    "C49_selected_objects",
    "C49_distance",
    "C49_distance_border",
    "C49_make_object_sdfs",
    "C49_make_all_object_sdfs",
    "C49_distance_field",
    "C49_distance_field_border"
   ],
   "note": "Exact distances up to squared cell distance 6, as for C13/C17."
  },
  {
   "property": "C50",
   "status": "partial",
   "theorems": [
    "C50_what_is_kept_partial",
    "C50_tagged_what_is_kept_partial",
    "C50_coarser_loses_refuted",
    "C50_finer_loses_refuted",
    "C50_finer_keeps_centres_partial",
    "C50_tagged_finer_keeps_centres_partial"
   ],
   "note": "Violated by the code: merged cells take the value of the last one, and finer cells without a source centre get the out-of-bounds value. What is kept is stated exactly."
  },
  {
   "property": "C51",
   "status": "partial",
   "theorems": [
    "C51_same_resolution_partial",
    "C51_tagged_same_resolution_partial",
    "C51_rounding_refuted"
   ],
   "note": "Holds in real arithmetic; violated in doubles because the number of cells is recomputed from the size."
  },
  {
   "property": "C52",
   "status": "proved",
   "theorems": [
    "C52_export",
    "C52_export_tagged",
    "C52_export_separate",
    "C52_components",
    "C52_components_tagged",
    "C52_segment",
    "C52_surface",
    "C52_objects",
    "C52_object_colors",
    "C52_unique",
    "C52_unique_colors"
   ],
   "note": "Markers without time stamps, scale and type; cell centres and generated colours are parameters."
  },
  {
   "property": "C53",
   "status": "proved",
   "theorems": [
    "C53_surfaces",
    "C53_surfaces_separate"
   ],
   "note": "For maps without NaN occupancies."
  },
  {
   "property": "C54",
   "status": "proved",
   "theorems": [
    "C54_cached_sdf",
    "C54_cached_map",
    "C54_no_scene",
    "C54_unknown_mode"
   ],
   "note": "For every sequence of messages and updates, MoveIt a parameter."
  },
  {
   "property": "C55",
   "status": "partial",
   "theorems": [
    "C74_sdf_shows_scene",
    "C55_undefined_unless_fits",
    "C55_infinity_refuted"
   ],
   "note": "Defined exactly when the value truncates into 0..255; refuted otherwise, in particular for the infinity that sdf_generation_node.cpp passes."
  },
  {
   "property": "C56",
   "status": "proved",
   "theorems": [
    "C56_partial_field",
    "C56_empty_pixel",
    "C56_filled_pixel"
   ],
   "note": "For images with h*h + w*w <= 2^53, where the offsets are exact."
  },
  {
   "property": "C57",
   "status": "proved",
   "theorems": [
    "C57_orientation_3d",
    "C57_orientation_2d"
   ],
   "note": "Also relates the sign of every item to the environment array and the gradient array to GetGradient. numpy (reshape, transpose, slicing) is modelled as shape/strides/buffer."
  },
  {
   "property": "C58",
   "status": "proved",
   "theorems": [
    "C58_read_last_write",
    "C58_one_write"
   ],
   "note": "The chunk table of arc_utilities (not in the repository) is modelled from its documented behaviour and belongs to the trusted base."
  },
  {
   "property": "C59",
   "status": "partial",
   "theorems": [
    "C59_initialised_flag_refuted",
    "C59_default_partial",
    "C59_components_partial"
   ],
   "note": "Refuted: the constructors with parameters never write the flag; the default constructor does."
  },
  {
   "property": "C60",
   "status": "partial",
   "theorems": [
    "C60_projection_terminates_refuted",
    "C60_wall_partial",
    "C60_extracted_wall",
    "C60_extracted_projection_partial",
    "C60_powers_of_two"
   ],
   "note": "REFUTED: endless oscillation on a field extracted from a six-cell corridor, IEEE arithmetic. Holds, in real arithmetic, out of every flat wall at any of the six faces with cells of side below 4, and the extraction produces exactly such fields. C125 is the version for walls in double arithmetic."
  },
  {
   "property": "C61",
   "status": "proved",
   "theorems": [
    "C61_smooth_gradient_available",
    "C61_smooth_gradient_affine"
   ],
   "note": "Availability in any arithmetic, value in real arithmetic."
  },
  {
   "property": "C62",
   "status": "proved",
   "theorems": [
    "C62_full_gradient"
   ],
   "note": "any arithmetic"
  },
  {
   "property": "C63",
   "status": "partial",
   "theorems": [
    "C63_larger_map_undefined",
    "C63_recount_refuted"
   ],
   "note": "REFUTED for a constructor that rounds size/resolution up or down; the constructor is in arc_utilities, outside the repository"
  },
  {
   "property": "C64",
   "status": "proved",
   "theorems": [
    "C64_free_and_named",
    "C64_distance_field"
   ],
   "note": ""
  },
  {
   "property": "C65",
   "status": "partial",
   "theorems": [
    "C65_failed_save_unnoticed_refuted"
   ],
   "note": "The code violates the property: the stream state is never looked at."
  },
  {
   "property": "C66",
   "status": "partial",
   "theorems": [
    "C66_unchecked_size_refuted",
    "C66_saved_partial"
   ],
   "note": "The code violates the property; witness is a 1x1x1 map without data. Files that were saved from consistent objects load consistent."
  },
  {
   "property": "C67",
   "status": "partial",
   "theorems": [
    "C67_flat_top_throws_refuted",
    "C67_solid_map_throws_refuted",
    "C67_labelled_flat_top_throws_refuted",
    "C67_single_layer_partial"
   ],
   "note": "Violated by the code on a whole class of maps; holds for maps of a single layer."
  },
  {
   "property": "C68",
   "status": "partial",
   "theorems": [
    "C68_bogus_void_refuted",
    "C68_single_layer_partial"
   ],
   "note": "Violated by the code; holds for maps of a single layer."
  },
  {
   "property": "C69",
   "status": "partial",
   "theorems": [
    "C69_tagged_disagrees_refuted",
    "C69_same_components",
    "C69_harmless_lookups_partial",
    "C69_thin_partial"
   ],
   "note": "REFUTED: the tagged map looks up the wrong cell. Proved: both classes number the components alike, and report the same topology where the wrong lookup does no harm, as in maps of at most two layers along x that are as wide as high."
  },
  {
   "property": "C70",
   "status": "proved",
   "theorems": [
    "C70_surface_index"
   ],
   "note": "For occupancies that are not NaN; any cell type, so both map classes."
  },
  {
   "property": "C71",
   "status": "proved",
   "theorems": [
    "C71_contour",
    "C71_contour_unique",
    "C71_contour_colors",
    "C71_contour_colors_unique"
   ],
   "note": "For resolutions between 2^-125 and 2^126."
  },
  {
   "property": "C72",
   "status": "proved",
   "theorems": [
    "C72_same",
    "C72_same_colors",
    "C72_same_contour",
    "C72_same_contour_colors"
   ],
   "note": ""
  },
  {
   "property": "C73",
   "status": "partial",
   "theorems": [
    "C73_colors_partial",
    "C73_infinite_refuted",
    "C73_collision_only",
    "C73_collision_cells"
   ],
   "note": "Proved for finite fields; violated by the code for infinite values, which every empty or full map has."
  },
  {
   "property": "C74",
   "status": "proved",
   "theorems": [
    "C74_sdf_shows_scene",
    "C74_map_shows_scene"
   ],
   "note": "For out-of-bounds values that do not run into C55."
  },
  {
   "property": "C75",
   "status": "partial",
   "theorems": [
    "C75_unanswered_is_blank",
    "C75_unanswered_refuted",
    "C75_never_received_refuted"
   ],
   "note": "Refuted: the result of the service call is ignored and an empty message is applied."
  },
  {
   "property": "C76",
   "status": "partial",
   "theorems": [
    "C76_default_throws_partial",
    "C76_default_undefined_refuted"
   ],
   "note": "Updates and getters throw; refuted for UpdatePlanningSceneFromMessage, which dereferences a null pointer."
  },
  {
   "property": "C77",
   "status": "partial",
   "theorems": [
    "C77_error_empty_partial",
    "C77_error_filled_partial",
    "C77_straight_empty_partial",
    "C77_straight_filled_partial",
    "C77_not_nearest_refuted"
   ],
   "note": "Refuted on a 14 by 8 image; at most 8.24 per cent too large, exact along rows, columns and diagonals."
  },
  {
   "property": "C78",
   "status": "partial",
   "theorems": [
    "C78_preview_partial",
    "C78_published_partial",
    "C78_uniform_refuted"
   ],
   "note": "Proved for images with pixels of both kinds; undefined for every other non-empty image."
  },
  {
   "property": "C79",
   "status": "proved",
   "theorems": [
    "C79_raw_empty",
    "C79_raw_filled",
    "C79_extremes"
   ],
   "note": ""
  },
  {
   "property": "C80",
   "status": "partial",
   "theorems": [
    "C80_swapped_refuted",
    "C80_wrong_value_refuted",
    "C80_planar_helpers_partial",
    "C80_get_gradient_partial",
    "C80_grid_to_np_partial"
   ],
   "note": "Refuted: the other conversions are indexed [x,y(,z)]. What they return is proved for all shapes."
  },
  {
   "property": "C81",
   "status": "partial",
   "theorems": [
    "C81_to_np_refuted",
    "C81_one_layer_partial"
   ],
   "note": "Refuted: gradient_to_np always raises for fields with cells. sdf_to_np alone works exactly for one-layer fields."
  },
  {
   "property": "C82",
   "status": "partial",
   "theorems": [
    "C82_empty_environment_refuted",
    "C57_orientation_3d"
   ],
   "note": "Refuted for environments without cells (IndexError); all others work (C57)."
  },
  {
   "property": "C83",
   "status": "proved",
   "theorems": [
    "C83_drawing_matches_reads"
   ],
   "note": ""
  },
  {
   "property": "C84",
   "status": "proved",
   "theorems": [
    "C84_available",
    "C84_is_gradient",
    "C84_the_gradient"
   ],
   "note": "The derivative theorems are in real arithmetic; availability holds for IEEE floats too."
  },
  {
   "property": "C85",
   "status": "proved",
   "theorems": [
    "C85_forward",
    "C85_at_centers",
    "C85_no_gradient_there"
   ],
   "note": "Real arithmetic. Settles the TODO in the code: at cell centres the function works but returns a one-sided slope."
  },
  {
   "property": "C86",
   "status": "proved",
   "theorems": [
    "C86_lipschitz",
    "C86_lipschitz_between"
   ],
   "note": "Real arithmetic."
  },
  {
   "property": "C87",
   "status": "proved",
   "theorems": [
    "C87_draws",
    "C87_asserts",
    "C87_shows_scene"
   ],
   "note": ""
  },
  {
   "property": "C88",
   "status": "proved",
   "theorems": [
    "C88_batch",
    "C88_empty",
    "C88_different"
   ],
   "note": "tf.stack is modelled by its documented meaning."
  },
  {
   "property": "C89",
   "status": "partial",
   "theorems": [
    "C89_rounds_partial",
    "C89_frames_refuted",
    "C89_undefined_refuted",
    "C89_opacity"
   ],
   "note": "Every round shows the scene when the out-of-bounds value fits uint8_t. Refuted: the map picture is always labelled \"base\", and the value the node passes (infinity) makes the first round undefined."
  },
  {
   "property": "C90",
   "status": "proved",
   "theorems": [
    "C90_planar_bound",
    "C90_planar_straight",
    "C90_planar_ratio",
    "C90_planar_neighbours"
   ],
   "note": ""
  },
  {
   "property": "C91",
   "status": "proved",
   "theorems": [
    "C91_planar_sdf",
    "C91_planar_sdf_border"
   ],
   "note": ""
  },
  {
   "property": "C92",
   "status": "proved",
   "theorems": [
    "C92_cell_of_location",
    "C92_volume",
    "C92_center_names_cell",
    "C92_map_write",
    "C92_tagged_write",
    "C92_field_write",
    "C92_map_write_any",
    "C92_tagged_write_any",
    "C92_field_write_any",
    "C92_map_reference",
    "C92_tagged_reference",
    "C92_field_reference",
    "C92_corner",
    "C92_tagged_corner",
    "C92_map_history",
    "C92_tagged_history",
    "C92_field_history",
    "C92_map_flag_sound",
    "C92_tagged_flag_sound",
    "C92_field_locked"
   ],
   "note": "Cubes in real arithmetic; cell-wise statements and histories in any arithmetic. LocationToGridIndex is a parameter (arc_utilities)."
  },
  {
   "property": "C93",
   "status": "proved",
   "theorems": [
    "C93_boundary_in_doubles"
   ],
   "note": "IEEE binary64; the pose conversions are parameters of the model."
  },
  {
   "property": "C94",
   "status": "proved",
   "theorems": [
    "C94_projection_in_doubles"
   ],
   "note": "IEEE binary64; the pose conversions and the clamp helper (arc_utilities) are parameters, the latter with the hypothesis cuts_off; the second projection is covered where the pose converts the point there and back exactly."
  },
  {
   "property": "C95",
   "status": "proved",
   "theorems": [
    "C95_gradient_in_doubles"
   ],
   "note": "IEEE binary32/binary64, grid frame; the rotation into the world frame is covered in real arithmetic (C27)."
  },
  {
   "property": "C96",
   "status": "partial",
   "theorems": [
    "C96_extrema_both_classes",
    "C96_extrema_refuted"
   ],
   "note": "Refuted for maps without free cells or without filled cells of named objects; proved whenever the class concerned occurs."
  },
  {
   "property": "C97",
   "status": "proved",
   "theorems": [
    "C97_estimate_in_doubles",
    "C97_estimate_range",
    "C97_estimate_at_origin"
   ],
   "note": "Values up to 2^100, resolution between 2^-100 and 2^100. The pose enters through the error delta of its cell centres; C97_estimate_at_origin computes delta for a grid at the origin."
  },
  {
   "property": "C98",
   "status": "proved",
   "theorems": [
    "C98_distances_3d",
    "C98_distances_2d"
   ],
   "note": "End to end from the environment array to the distance array. In three dimensions nothing is claimed about which differently marked item is used when the nearest is beyond the square root of 6 cells (see C15)."
  },
  {
   "property": "C99",
   "status": "proved",
   "theorems": [
    "C99_collision_map",
    "C99_surfaces",
    "C99_components",
    "C99_tagged_map",
    "C99_tagged_occupancy",
    "C99_object_drawings",
    "C99_field",
    "C99_field_collisions"
   ],
   "note": "Real arithmetic, every rigid grid pose. Surfaces: no NaN occupancies."
  },
  {
   "property": "C100",
   "status": "partial",
   "theorems": [
    "C100_node_partial",
    "C100_hashed_partial",
    "C100_node_refuted",
    "C100_hashed_refuted"
   ],
   "note": "False for turned origins: both drawings use world points with an identity marker pose, so the boxes are not turned with the grid. Proved when the pose only moves. The chunk marker of the hashed map is C134."
  },
  {
   "property": "C101",
   "status": "partial",
   "theorems": [
    "C101_holes_counted_partial",
    "C101_with_contacts",
    "C101_diagonal_holes_refuted"
   ],
   "note": "Proved (discrete Euler formula, any extent) for components without corner-only contacts; the exact reported value is proved in general; violated by the code when cells meet at corners only."
  },
  {
   "property": "C102",
   "status": "partial",
   "theorems": [
    "C102_marks_partial",
    "C102_outside",
    "C102_signs",
    "C102_below_refuted",
    "C102_not_finite_refuted"
   ],
   "note": "Proved for clouds inside the grid, exact up to a millionth of a voxel at the faces; refuted for points just below the grid, for every shape. Clouds with infinite or NaN coordinates make the conversion to integers undefined (C102_not_finite_refuted)."
  },
  {
   "property": "C103",
   "status": "partial",
   "theorems": [
    "C103_published_partial",
    "C103_transposed_refuted",
    "C103_origin_refuted"
   ],
   "note": "Refuted for every shape with two or more voxels on the first two axes and for every origin a unit or more from zero; proved for single rows at the origin, with the exact transposition on square grids."
  },
  {
   "property": "C104",
   "status": "partial",
   "theorems": [
    "C104_ids",
    "C104_arrows_partial",
    "C104_transposed_refuted"
   ],
   "note": "Ids, number and lengths proved for all arrays; the position refuted for every shape with nine or more voxels on the first two axes."
  },
  {
   "property": "C105",
   "status": "proved",
   "theorems": [
    "C105_reached",
    "C105_straight",
    "C105_two_obstacles",
    "C105_box",
    "C105_room"
   ],
   "note": "On grids of any shape and size."
  },
  {
   "property": "C106",
   "status": "proved",
   "theorems": [
    "C106_straight",
    "C106_box_and_room",
    "C106_two_cells",
    "C106_reached"
   ],
   "note": "On grids of any shape and size; the float rounding of the exact distance is C17_accuracy."
  },
  {
   "property": "C107",
   "status": "partial",
   "theorems": [
    "C107_gradients",
    "C107_smooth_gradient",
    "C107_estimate",
    "C107_boundary",
    "C107_into_volume",
    "C107_projection_partial",
    "C107_projection_refuted",
    "C107_large_cells_refuted"
   ],
   "note": "REFUTED for the projection out of collision, which compares the norm of the gradient with a quarter of the cell size (sdf.hpp:1099) and so reports every flat wall as stuck when cells have side 8 or more. Proved for all other queries, and for the projection as long as neither unit reports a flat gradient."
  },
  {
   "property": "C108",
   "status": "proved",
   "theorems": [
    "C108_smooth_gradient_in_doubles"
   ],
   "note": "For a grid at the origin; the interpolated field is the one of C97."
  },
  {
   "property": "C109",
   "status": "proved",
   "theorems": [
    "C109_distance_from_wall",
    "C109_normal_of_wall"
   ],
   "note": "For a grid at the origin, from the extraction to the queries, in floats and doubles."
  },
  {
   "property": "C110",
   "status": "partial",
   "theorems": [
    "C110_long_rows_refuted",
    "C110_long_maps_refuted"
   ],
   "note": "False of the code beyond the bound of C08 (which is its complement): rows of 46342 cells or more overflow."
  },
  {
   "property": "C111",
   "status": "partial",
   "theorems": [
    "C111_repeated_obstacle",
    "C111_order_refuted",
    "C111_mirror_refuted",
    "C111_margin_refuted",
    "C111_order_near",
    "C111_order_reached"
   ],
   "note": "Repetitions do not matter (proved). Order, mirroring and margins matter (refuted with witnesses); they do not in cells near an obstacle or reached through its own region."
  },
  {
   "property": "C112",
   "status": "partial",
   "theorems": [
    "C112_added_obstacle_refuted",
    "C112_added_near",
    "C112_added_exact",
    "C112_added_planar"
   ],
   "note": "False of the code (witness); true near obstacles and in reached cells, and up to a factor sqrt 2 on planar maps."
  },
  {
   "property": "C113",
   "status": "proved",
   "theorems": [
    "C113_inverted_map",
    "C113_inverted_map_border",
    "C113_inverted_extrema",
    "C113_inverted_extrema_border"
   ],
   "note": "Bit for bit."
  },
  {
   "property": "C114",
   "status": "partial",
   "theorems": [
    "C114_planar_neighbours",
    "C114_planar_lipschitz",
    "C114_consistency_refuted",
    "C114_neighbours_partial"
   ],
   "note": "Proved for planar maps. In 3-D for cells near an obstacle or reached through its own region; other cells of 3-D maps are missing, and the local consistency behind the planar proof is refuted there."
  },
  {
   "property": "C115",
   "status": "partial",
   "theorems": [
    "C115_sign_refuted",
    "C115_class_from_estimate"
   ],
   "note": "The sign is refuted (witness in doubles, for both classes). Proved for every map: an estimate above 5/8 of a cell means a free cell, below minus 5/8 a filled one (real arithmetic on the stored floats)."
  },
  {
   "property": "C116",
   "status": "proved",
   "theorems": [
    "C116_not_below",
    "C116_not_above_planar",
    "C116_not_above_exact"
   ],
   "note": "Real arithmetic on the stored floats; the field must have finite values."
  },
  {
   "property": "C117",
   "status": "proved",
   "theorems": [
    "C117_steady",
    "C117_steady_anywhere"
   ],
   "note": "Real arithmetic on the stored floats; covers the rounding of the stored values."
  },
  {
   "property": "C118",
   "status": "partial",
   "theorems": [
    "C118_unit_refuted",
    "C118_components",
    "C118_in_doubles"
   ],
   "note": "REFUTED: next to an obstacle the gradient can be 2 (in doubles). Proved for planar maps and exact fields: components at most 2.02, and 1.52 away from the edges of the grid (2.03 and 1.53 in doubles, rounding included)."
  },
  {
   "property": "C119",
   "status": "proved",
   "theorems": [
    "C119_estimate",
    "C119_at_origin",
    "C119_of_map"
   ],
   "note": "Doubles against exact arithmetic on the stored floats; for a pose other than the origin its error is a parameter."
  },
  {
   "property": "C120",
   "status": "proved",
   "theorems": [
    "C120_class_from_estimate",
    "C120_not_below",
    "C120_not_above_planar",
    "C120_not_above_exact",
    "C120_steady"
   ],
   "note": "The bounds of C115-C117 in doubles, rounding included."
  },
  {
   "property": "C121",
   "status": "partial",
   "theorems": [
    "C121_sign",
    "C121_near",
    "C121_inside",
    "C121_planar",
    "C121_smallest_refuted"
   ],
   "note": "The full claim is false of the code (C121_smallest_refuted). The sign is right everywhere; the smallest value is reached in cells within sqrt 6 cells of an object, and within a factor sqrt 2 on planar maps. The claim about cells of an object is proved within sqrt 6 cells of its edge."
  },
  {
   "property": "C122",
   "status": "proved",
   "theorems": [
    "C122_class",
    "C122_not_above",
    "C122_not_below",
    "C122_class_in_doubles",
    "C122_not_above_in_doubles"
   ],
   "note": "For planar maps and for fields exact at every cell. Exact arithmetic for every pose, doubles for a grid at the origin."
  },
  {
   "property": "C123",
   "status": "partial",
   "theorems": [
    "C123_out_of_collision_refuted",
    "C123_free",
    "C123_clear",
    "C123_free_in_doubles",
    "C123_clear_in_doubles"
   ],
   "note": "The full claim is false of the code (C123_out_of_collision_refuted: minimum distances up to half a cell). Proved: free cell when at least 5/8 of a cell is asked for and the point is not in an outer half cell, or with larger minimum distances on planar maps and exact fields; clearance on planar maps and where the field is exact."
  },
  {
   "property": "C124",
   "status": "proved",
   "theorems": [
    "C124_arrays_2d",
    "C124_arrays_3d"
   ],
   "note": "The values are those of the exact distance field; the array item order is that of C57. The repository's own unit test runs on the model (repository_test)."
  },
  {
   "property": "C125",
   "status": "proved",
   "theorems": [
    "C125_projection_in_doubles",
    "C125_default_step"
   ],
   "note": "IEEE double arithmetic throughout, for the grid's own frame. The step must exceed the rounding error by the stated factor, which the default of an eighth of a cell does up to 3000 cells on an axis."
  },
  {
   "property": "C126",
   "status": "proved",
   "theorems": [
    "C126_transform",
    "C126_estimate",
    "C126_class",
    "C126_not_below",
    "C126_not_above",
    "C126_distance_from_wall",
    "C126_projection"
   ],
   "note": "IEEE double arithmetic throughout. The product of transform and point is modelled as three products and additions from left to right; Eigen may add in another order. The entries of the transforms are inputs with a stated accuracy: how they are computed from the pose is not modelled."
  },
  {
   "property": "C127",
   "status": "proved",
   "theorems": [
    "C127_world_gradient",
    "C127_of_map",
    "C127_wall"
   ],
   "note": "IEEE double arithmetic throughout. Eigen's quaternion product is modelled as sums of four products from left to right, and the inverse as the conjugate divided by the squared norm; Eigen may vectorise these in another order."
  },
  {
   "property": "C128",
   "status": "proved",
   "theorems": [
    "C128_steady",
    "C128_class",
    "C128_not_above",
    "C128_not_below"
   ],
   "note": "IEEE double arithmetic throughout. The same model of Eigen's transform as in C126; the entries of the transform are inputs with a stated accuracy."
  },
  {
   "property": "C129",
   "status": "proved",
   "theorems": [
    "C129_inverse",
    "C129_forward",
    "C129_quaternion",
    "C129_quaternion_in_doubles",
    "C129_gradient",
    "C129_wall",
    "C129_steady",
    "C129_not_above",
    "C129_not_below"
   ],
   "note": "IEEE double arithmetic throughout, except C129_quaternion, which is in exact arithmetic. The inverse and the conversion to a quaternion belong to Eigen, outside /repo: they are modelled from the published Eigen 3 algorithm, which was not at hand to compare."
  },
  {
   "property": "C130",
   "status": "proved",
   "theorems": [
    "C130_point",
    "C130_seen",
    "C130_round_trip",
    "C130_center",
    "C130_calls",
    "C130_faces_refuted",
    "C130_corners_refuted",
    "C130_program"
   ],
   "note": "IEEE double arithmetic throughout. The failures near faces are proved with the transform of src/estimate_distance_test.cpp, assuming the nearest doubles for the sine and cosine of pi/8 and the order of additions in the model of Eigen's product; another order moves the failures to other points."
  },
  {
   "property": "C131",
   "status": "proved",
   "theorems": [
    "C131_target",
    "C131_same_resolution",
    "C131_tagged_same_resolution",
    "C131_coarser",
    "C131_finer_refuted"
   ],
   "note": "IEEE double arithmetic throughout. How many cells the new map has is decided outside the repository and is a parameter (C51, C63). C131_finer_refuted uses the transform of C130, so the same assumptions on sine, cosine and the order of additions apply to its witness."
  },
  {
   "property": "C132",
   "status": "proved",
   "theorems": [
    "C132_boundary",
    "C132_projected",
    "C132_start"
   ],
   "note": "IEEE double arithmetic throughout."
  },
  {
   "property": "C133",
   "status": "proved",
   "theorems": [
    "C133_smooth",
    "C133_wall",
    "C133_gradient"
   ],
   "note": "IEEE double arithmetic throughout. The error over the distance of the points grows when the window is much smaller than a cell."
  },
  {
   "property": "C134",
   "status": "partial",
   "theorems": [
    "C134_blocks_partial",
    "C134_first_cell_refuted",
    "C134_turned_refuted",
    "C134_single_cell"
   ],
   "note": "Depends on what arc_utilities, whose source is not in /repo, returns for GetIndexLocationInGrid(0, 0, 0) of a whole chunk. If the chunk centre, the claim is proved for poses that only move. If the centre of the first cell, as for cells, the claim is false for every chunk of more than one cell. GetChunkSizes is assumed to be cell size times cells per chunk. False for turned poses too (the marker pose is the identity), shown for the chunk centre."
  },
  {
   "property": "C135",
   "status": "proved",
   "theorems": [
    "C135_deep",
    "C135_kept",
    "C135_least_move",
    "C135_again"
   ],
   "note": "IEEE double arithmetic throughout. The grid must have room for the requested distance and a five thousandth of a cell on both sides."
  },
  {
   "property": "C136",
   "status": "proved",
   "theorems": [
    "C136_clear"
   ],
   "note": "IEEE double arithmetic throughout. Assumes, as C123 does in doubles, that the grid-frame point at which the search ended is finite and in the grid by exact arithmetic too; the cell named is the exact cell of that point, and the returned point is within two millionths of a cell of it."
  },
  {
   "property": "C137",
   "status": "proved",
   "theorems": [
    "C137_inside",
    "C137_search",
    "C137_placed",
    "C137_wide_refuted"
   ],
   "note": "IEEE double arithmetic throughout. C137_inside and C137_search are exact and need cells of side at most 1 and points of at most 2^800; with cells of side 2 exactness fails for the negative double next to 0 (C137_wide_refuted). C137_search supplies the hypothesis of C136 that the end of the search is in the grid by exact arithmetic, given that it is a finite point of at most 2^800."
  },
  {
   "property": "C138",
   "status": "proved",
   "theorems": [
    "C138_ends",
    "C138_clear"
   ],
   "note": "IEEE double arithmetic throughout, by induction over the passes of the search. C138_clear is C136 with its hypotheses about the end of the search removed; it needs cells of side at most 1. That the search ends at all is not claimed (C60 refutes it in general)."
  },
  {
   "property": "C139",
   "status": "partial",
   "theorems": [
    "C139_agree_partial",
    "C139_deep_partial",
    "C139_wide_refuted",
    "C139_converse_refuted"
   ],
   "note": "REFUTED on the upper faces (DistanceToBoundary says inside, EstimateDistance outside) and, with cells of side 2, for the negative double next to 0 (the other way round). Proved: with cells of side at most 1 a point EstimateDistance finds in the grid is also found by DistanceToBoundary, at a finite nonnegative distance, whatever the origin transform; conversely, for cells of side 2^-100 to 2^100, a point DistanceToBoundary finds in the grid at a reported distance of at least a fifty-thousandth of a cell is found by EstimateDistance."
  }
 ]
}