{"claims": [
  {"property": "C01", "status": "proved", "theorems": ["C01_bundle_cells", "C01_cell_of_point", "C01_bundle_is_intersection", "C01_apply_indices"], "note": "All dimensions, all integer indices, all family numbers. Right shift of a negative int is taken as arithmetic."},
  {"property": "C02", "status": "proved", "theorems": ["C02_cell_bundles"], "note": "Exact list of the 2^D bundles of every cell."},
  {"property": "C03", "status": "proved", "theorems": ["C03_make_integer_sequence", "C03_merge", "C03_to_point"], "note": "All N and all argument lists."},
  {"property": "C04", "status": "proved", "theorems": ["C04_octree_is_map"], "note": "Insertion and writes through returned pointers, any history, any dimension, indices in [-32768,32767]. Merge strategy is a parameter."},
  {"property": "C05", "status": "proved", "theorems": ["C05_traverse", "C05_visits_once", "C05_order_is_canonical"], "note": "Exact set of visited pairs, strict Morton order, independence of the history."},
  {"property": "C06", "status": "partial", "theorems": ["C06_distinct_indices_collide_refuted", "C06_large_index_ub_refuted", "C06_map_modulo_partial", "C06_no_collision_partial"], "note": "False for general int indices (collision modulo 2^16; overflow near INT_MAX). Proved: exact law modulo 2^16, no collision inside [-32768,32767]."},
  {"property": "C07", "status": "proved", "theorems": ["C07_accepted_index_in_bounds", "C07_history_in_bounds"], "note": "Every dimension, size, minimum index; also over whole operation histories. Array access outside of the box is UB in the model."},
  {"property": "C08", "status": "partial", "theorems": ["C08_whole_extent_refuted", "C08_extent_partial"], "note": "False: the maximum index of each axis is refused (valid uses < instead of <=). Proved: exact set of accepted indices."},
  {"property": "C09", "status": "proved", "theorems": ["C09_cells_aggregate_their_points", "C09_groups_are_the_points", "C09_bundles_of_points"], "note": "Gridmaps of both kinds, all histories of insertions, lookups and completions; geometry and statistics abstract. Occupancy variants: C31."},
  {"property": "C10", "status": "proved", "theorems": ["C10_order_and_batching"], "note": "Under exact commutative accumulation (hypotheses of the theorem, met by exact moments)."},
  {"property": "C11", "status": "proved", "theorems": ["C11_counts_conserved"], "note": "For any counting function additive over the accumulation."},
  {"property": "C12", "status": "partial", "theorems": ["C12_index_range", "C12_metric_extent", "C12_range_of_allocations", "C12_lexicographic_range_partial", "C12_lexicographic_range_refuted"], "note": "Proved if std::min/std::max on std::array resolve to componentwise overloads of cslibs_math (not part of /repo); refuted if they resolve to the standard lexicographic templates, in which case the stored pair is proved to be the first and last allocated index in the lexicographic order."},
  {"property": "C13", "status": "partial", "theorems": ["C13_lookup_changes_sample_refuted", "C13_lookup_keeps_contents_partial"], "note": "The claim that no sample changes is false: allocating a bundle makes neighbouring data visible where the score was 0 (witness). Proved: contents kept, new cells default, existing or unaccepted indices change nothing, samples in all other bundles identical. get and the sample functions return only a value in the model, so they cannot change the map."},
  {"property": "C14", "status": "proved", "theorems": ["C14_allocate_partially"], "note": "Both kinds of map, after any history."},
  {"property": "C15", "status": "partial", "theorems": ["C15_scores_normalised", "C15_occupancy_scores_normalised", "C15_score_value_partial", "C15_outside_scores_zero_partial", "C15_unallocated_scores_zero_refuted"], "note": "Bounds proved for every point without int overflow. \"Unallocated scores 0\" is false beyond the 16-bit octree range (witness) and proved within it."},
  {"property": "C16", "status": "proved", "theorems": ["C16_weights_sum_to_one", "C16_weights_in_unit_interval"], "note": "Every dimension; exact arithmetic."},
  {"property": "C17", "status": "proved", "theorems": ["C17_weight_is_hat", "C17_zero_elsewhere", "C17_weight_continuous"], "note": "Every dimension; exact arithmetic."},
  {"property": "C18", "status": "proved", "theorems": ["C18_occupancy_is_probability", "C18_hit_never_lowers", "C18_miss_never_raises", "C18_weighted", "C18_merge", "C18_weighted_merge", "C18_empty_distribution_refuted"], "note": "Exact reals; for every list of updates that carry data, fewer than 2^64 counts in total (the counters are modelled modulo 2^64). The refuted theorem shows the corner left out: occupying with an empty distribution wraps num_free+n-1 around."},
  {"property": "C19", "status": "partial", "theorems": ["C19_copy_construction_independent", "C19_assignment_independent", "C19_self_assignment", "C19_weighted_copy_partial", "C19_weighted_assignment_partial", "C19_weighted_copy_refuted", "C19_weighted_assignment_refuted"], "note": "Proved for occupancy distributions (deep copies). False for weighted occupancy distributions, whose copies share their statistics (witnesses); proved there for sources without statistics."},
  {"property": "C20", "status": "partial", "theorems": ["C20_merge_adds", "C20_merge_independent_partial", "C20_merge_sharing_refuted"], "note": "merge adds and leaves the other unchanged. Later sharing is absent exactly when the target already has statistics or the other has none; otherwise false (witness)."},
  {"property": "C21", "status": "partial", "theorems": ["C21_copy_shows_same", "C21_empty_copy_independent_partial", "C21_static_source_history_partial", "C21_static_copy_history_partial", "C21_static_copy_refuted", "C21_static_source_refuted", "C21_static_copy_dangling_refuted", "C21_dynamic_copy_refuted", "C21_dynamic_shared_tree_refuted"], "note": "False: static copies keep pointers into the source, dynamic copies share the octree nodes (witnesses). Proved: copies of empty maps are independent for every interleaving; static copies as far as they are independent."},
  {"property": "C22", "status": "proved", "theorems": ["C22_distribution_map", "C22_occupancy_map", "C22_static_map", "C22_empty_map_overflows"], "note": "Every dimension, every history; both distribution types for which a conversion exists. Origin and resolution are passed on verbatim by the code and are not part of the map model. The expand flags are not preserved (conversion sets them); they are not content."},
  {"property": "C23", "status": "proved", "theorems": ["C23_octree_distributions", "C23_octree_occupancy", "C23_array_distributions", "C23_array_occupancy"], "note": "Both backends, plain and occupancy distributions, every insertion/write history of the storage; the whole file is read. Assumes that cslibs_math writes a fixed number of bytes, reads them back and reports that number (codec_ok)."},
  {"property": "C24", "status": "partial", "theorems": ["C24_weighted_storage_refuted", "C24_loads_prefix_partial"], "note": "False: read reports 8 bytes too many per record, so the loop stops early (witness). Proved: exactly which prefix of the records is loaded; all of them if 8*n < record size + 8."},
  {"property": "C25", "status": "proved", "theorems": ["C25_dynamic_header", "C25_static_header"], "note": "Binary headers; every range and bundle list of ints whose size fits an int (true of every non-empty map of the 16-bit octree)."},
  {"property": "C26", "status": "partial", "theorems": ["C26_static_loader_refuted", "C26_static_loader_partial"], "note": "False for family 1 with an odd minimum index on axis 0 (off = (i > 1) instead of (i > 0)). Proved for all other cases, with the loaded contents."},
  {"property": "C27", "status": "partial", "theorems": ["C27_distribution_map_partial", "C27_occupancy_map_partial", "C27_empty_map_refuted", "C27_weighted_map_refuted", "C27_static_distribution_map_partial", "C27_static_occupancy_map_partial", "C27_static_odd_refuted"], "note": "Proved for every reachable non-empty dynamic map of plain or occupancy distributions and for every reachable static map of them with an even minimum index on axis 0, every schedule of the threads and every later history. False of the empty dynamic map (getSize overflows while the header is written), of weighted maps (C24) and of static maps with an odd minimum on axis 0 (C26), with witnesses."},
  {"property": "C28", "status": "partial", "theorems": ["C28_all_succeed_partial", "C28_false_means_failure_partial", "C28_one_by_one_partial", "C28_any_failure_can_be_hidden", "C28_save_hides_failure_refuted", "C28_load_uses_unloaded_storage_refuted", "C28_save_reports_partial", "C28_load_missing_file", "C28_load_reports_partial"], "note": "success = success && op() is a read, the operation and a write. Proved: all operations succeed -> true and everything done, in every schedule; false only after a failure; exact if the threads run one after the other, also for save and load as a whole; missing files are never loaded. False in general: any failure is hidden by any success in some schedule; load then uses a null storage (witnesses)."},
  {"property": "C29", "status": "partial", "theorems": ["C29_completed_save_partial", "C29_interrupted_early_partial", "C29_interrupted_late", "C29_old_map_lost_refuted", "C29_hollow_map_refuted"], "note": "False: the old map is removed first (witness), and a save stopped after opening its files leaves a directory that loads as a map with null pointers (proved for every non-empty map). Proved: completed saves, and that no map is loaded before all files are open."},
  {"property": "C30", "status": "partial", "theorems": ["C30_truncation_accepted_refuted", "C30_header_truncation_refuted", "C30_cut_storage_partial", "C30_cut_header_partial", "C30_nothing_rejected"], "note": "False: files cut at a record boundary load as shorter files without an error (proved for every such cut). For arbitrary bytes in the files load never reports failure and never throws (proved); what it delivers after a cut inside a record depends on unspecified bytes."},
  {"property": "C31", "status": "proved", "theorems": ["C31_hits_and_misses", "C31_hits_are_points"], "note": "Both occupancy variants, any ray iterator and hash order, histories with lookups and completions; counter is any commutative monoid (Z, size_t mod 2^64)."},
  {"property": "C32", "status": "partial", "theorems": ["C32_outcome_partial", "C32_all_visible_partial", "C32_first_blocked_loses_scan", "C32_without_models", "C32_blocked_line_ends_scan_refuted"], "note": "False: the return inside the loop over one line leaves the whole function, so a blocked line loses later groups and all misses (witness; proved for every map and scan whose first line is blocked). Proved: exact outcome in every case; without blocked lines it is the plain insertion that spares end bundles. Numbers are abstract, so rounding is covered."},
  {"property": "C33", "status": "partial", "theorems": ["C33_chunks_partial", "C33_position_partial", "C33_position_refuted", "C33_decimal_resolutions_refuted", "C33_coarse_grid_is_default", "C33_rotated_map_refuted"], "note": "Loops of conversion/probability_gridmap.hpp over all bundles and chunks. Proved: when the grid resolution divides the bundle resolution, every pixel of an allocated bundle holds the map score at the pixel position, all others the default. Refuted: non-dividing resolutions (also decimal ones that divide only on paper), rotated maps (translation added unrotated). A grid coarser than the bundles keeps only the default."},
  {"property": "C34", "status": "partial", "theorems": ["C34_points_partial", "C34_border_refuted"], "note": "False of every mono map: toIndex accepts one row and column too many (max_index_ is min+size, compared inclusively), every access there is out of bounds. All other points proved correct over all histories of insertions and cell writes. distribution->data() is read as the distribution itself (Distribution has no data() at this commit)."},
  {"property": "C35", "status": "partial", "theorems": ["C35_total_partial", "C35_counts_once_refuted"], "note": "False: each point is counted between 4 and 16 times; the exact total is proved for every history. Merging a map without bundles is signed overflow."},
  {"property": "C36", "status": "proved", "theorems": ["C36_angle_difference", "C36_rpy"], "note": "Exact reals; atan2 is any function with the right values on the unit circle, either sign allowed at pi. Derivatives are not modelled."},
  {"property": "C37", "status": "partial", "theorems": ["C37_angle_refuted", "C37_yaw_step_partial", "C37_many_steps_partial"], "note": "False as stated: the increment is the sine of the half angle, so the angle is 2*asin of it. Proved: unit norm, rotation about z by exactly this angle, at most pi/3; also for any sequence of steps."},
  {"property": "C38", "status": "partial", "theorems": ["C38_same_rotation_refuted", "C38_in_range_partial", "C38_yaw_only_partial", "C38_stuck_at_pi"], "note": "False past the wrap-around (cut off, not wrapped; a yaw of pi cannot be left upwards). Proved: range, and exactly when the rotation is kept."},
  {"property": "C39", "status": "partial", "theorems": ["C39_zero_at_reference_refuted", "C39_cost_constant", "C39_vector_part_partial"], "note": "False: the cost is the squared weight for every rotation (ceres and alglib). Proved: the last three components vanish exactly when the rotations agree."},
  {"property": "C40", "status": "partial", "theorems": ["C40_nan_kept_refuted", "C40_no_nan_filtered", "C40_other_values_kept_partial", "C40_derivative_lost_refuted", "C40_jets"], "note": "False: the test is true for zeros only, so no NaN is filtered and a zero residual loses its derivatives. Proved over all IEEE doubles: what happens to every value."},
  {"property": "C41", "status": "partial", "theorems": ["C41_nlopt_partial", "C41_alglib_partial", "C41_occupancy2_refuted", "C41_occupancy3_refuted", "C41_occupancy3_missing_counts_as_one_partial"], "note": "Holds for all maps without occupancy and all alglib functions. False for nlopt on occupancy maps: 2D squares the costs, 3D counts a missing score as 1 (proved in general)."},
  {"property": "C42", "status": "proved", "theorems": ["C42_contains_inserted", "C42_box_query"], "note": "Any dimension, any insertion history, corners in any order; the answer is also sorted and free of repetitions."},
  {"property": "C43", "status": "proved", "theorems": ["C43_bundle_contains_point", "C43_every_point_of_bundle"], "note": "Exact arithmetic over Q; UB exactly outside of the int range."},
  {"property": "C44", "status": "partial", "theorems": ["C44_size_counts_nodes_refuted", "C44_size_partial", "C44_size_of_contents_partial"], "note": "False: counts tree nodes and starts from uninitialised memory. Proved: size = initial garbage + number of nodes = initial garbage + number of occupied blocks of every side 1, 2, ..., 65536, a function of the stored indices."},
  {"property": "C45", "status": "partial", "theorems": ["C45_rotated_origin_refuted", "C45_origin_partial"], "note": "False for rotated maps: getOrigin adds getMin (map frame) to the translation without rotating it. Proved: the exact error."},
  {"property": "C46", "status": "partial", "theorems": ["C46_empty_extent_refuted", "C46_empty_extent_is_ub", "C46_extent_defined_partial"], "note": "False for the empty dynamic map: INT_MIN - INT_MAX overflows. Proved for every non-empty reachable map."},
  {"property": "C47", "status": "partial", "theorems": ["C47_write_error_unreported_refuted", "C47_result_ignores_writes"], "note": "False: the state of the stream is never looked at. Proved in general: the result does not depend on what arrives on the disk."},
  {"property": "C48", "status": "partial", "theorems": ["C48_line_query_refuted", "C48_only_start_partial"], "note": "False: the difference to the start has the wrong sign, so the answer is the start index if inserted and nothing else (proved for every set and segment with components below 2^30). Doubles are modelled exactly."},
  {"property": "C49", "status": "partial", "theorems": ["C49_same_residual_partial", "C49_same_occupancy_residual_partial", "C49_no_model_refuted"], "note": "Equal in exact arithmetic for every map and point. False for occupancy maps without inverse model: only one version always throws."},
  {"property": "C50", "status": "partial", "theorems": ["C50_penalty_zero_at_guess_partial", "C50_nlopt_quaternion_refuted", "C50_alglib_quaternion_refuted", "C50_alglib_quaternion_constant"], "note": "Holds for 2D and for roll-pitch-yaw. False for quaternions: nlopt compares angles with quaternion components, alglib has a constant rotational cost."},
  {"property": "C51", "status": "proved", "theorems": ["C51_rpy_quaternion", "C51_whole_turns"], "note": "Exact reals."},
  {"property": "C52", "status": "proved", "theorems": ["C52_translation"], "note": "Exact reals, any dimension."},
  {"property": "C53", "status": "partial", "theorems": ["C53_scores_partial", "C53_rotated_refuted"], "note": "Exact for unrotated maps; false for rotated ones (getOrigin adds getMin unrotated)."},
  {"property": "C54", "status": "partial", "theorems": ["C54_merged_score_partial", "C54_displaced_origin_refuted"], "note": "Holds with an identity origin; false otherwise: distributions are kept in map coordinates, sample evaluates them at the world point."},
  {"property": "C55", "status": "partial", "theorems": ["C55_float_never_tried", "C55_missing_not_served", "C55_float_map_refuted", "C55_double_served_partial"], "note": "False: setup<float> is only tried if loading as double reports failure, which it never does for a directory with all files. Double maps are served with their contents."},
  {"property": "C56", "status": "partial", "theorems": ["C56_directory", "C56_wrong_directory", "C56_yaml_never_found_refuted", "C56_yaml_header_partial", "C56_binary_header_partial"], "note": "False: path_root is prepended twice. Works only for the working directory as \".\", or absolute paths with version 4 of boost::filesystem. Symbolic links are not modelled."},
  {"property": "C57", "status": "partial", "theorems": ["C57_inside_partial", "C57_neighbour_partial", "C57_distance_partial", "C57_wrong_bundle_refuted", "C57_corner_refuted", "C57_either_format_distance_partial", "C57_either_format_inside_partial", "C57_float_refuted", "C57_not_finite_undefined"], "note": "False on borders: in a map of resolution 0.2 the point 0.3 gets the index of the next bundle, in a map of resolution 0.09 the lower corner of bundle 1 gets index 0. Holds further than 2^-19 of a bundle from the border, is off by at most one otherwise. For double and resolutions between 2^-1000 and 2^1000. For T = float (resolutions between 2^-100 and 2^100) the error is M * 2^-22 of a bundle for points within M bundles of the origin, so that far points may get an index more than one off."},
  {"property": "C58", "status": "partial", "theorems": ["C58_derivative_partial", "C58_occupancy_derivative_partial", "C58_gaussian", "C58_border_refuted", "C58_rotation_prior_partial", "C58_rotation_prior_refuted"], "note": "False where a scan point lies on the border of a bundle (the residual jumps, the Jet has a derivative) and for the rotation prior at opposite rotations. Holds everywhere else, if information matrices are positive semidefinite and occupancies are probabilities."},
  {"property": "C59", "status": "partial", "theorems": ["C59_planar", "C59_angles", "C59_frame_planar", "C59_frame_spatial", "C59_quaternion_partial", "C59_quaternion_refuted"], "note": "False for quaternions of another length than 1, which are not normalised; holds otherwise (C61: the solver keeps the length)."},
  {"property": "C60", "status": "partial", "theorems": ["C60_cost_2d", "C60_cost_rpy", "C60_cost_quaternion_partial", "C60_rotation_ignored_refuted"], "note": "False for Problem3dQuaternion: the rotation prior is a constant (C39). Proved for the other two; Evaluate is taken as a total function."},
  {"property": "C61", "status": "proved", "theorems": ["C61_only_yaw_rpy", "C61_only_yaw_quaternion", "C61_unit_quaternion"], "note": "ceres::SubsetParameterization and QuaternionParameterization are modelled from their documentation."},
  {"property": "C62", "status": "partial", "theorems": ["C62_zero_step_quaternion", "C62_zero_step_partial", "C62_zero_step_refuted"], "note": "False for Euler angles outside [-pi, pi], which jump to the end of the range; holds inside and for quaternions."},
  {"property": "C63", "status": "partial", "theorems": ["C63_nodes_partial", "C63_derivative", "C63_between_refuted", "C63_overshoot_refuted"], "note": "False between the sampling points: the interpolation differs from the residual and overshoots [0,1]. Exact at sampling points; the derivative is right everywhere. Evaluate is taken as a total function, BiCubicInterpolator is modelled from ceres."},
  {"property": "C64", "status": "partial", "theorems": ["C64_message_partial", "C64_count", "C64_count_refuted", "C64_empty_refuted", "C64_large_refuted"], "note": "False: the count of every field is the number of points, so fields reach beyond the point unless there is exactly one; an empty cloud takes the address of an element of an empty vector; from 2^28 points on the row step overflows. In between the data can be read back."},
  {"property": "C65", "status": "partial", "theorems": ["C65_gridmap_partial", "C65_empty_cell_refuted", "C65_occupancy", "C65_rgb", "C65_no_model_refuted"], "note": "False for gridmaps with allocate_all: cells without samples are shown too; without inverse model the conversion of an occupancy map throws. Everything else holds, for occupancy maps completely if a model is given. Colours and the casts to float are not modelled."},
  {"property": "C66", "status": "proved", "theorems": ["C66_gridmap", "C66_occupancy"], "note": "The eigen decomposition is a partial function of the distribution that fails for the empty one."},
  {"property": "C67", "status": "partial", "theorems": ["C67_plain_scores", "C67_occupancy_plain_scores", "C67_contribution", "C67_bilinear_scores_partial", "C67_bilinear_accuracy", "C67_occupancy_bilinear_scores_partial", "C67_bilinear_above_one_refuted"], "note": "False for the bilinear score, which can exceed 1 by a rounding; the excess is bounded by 2^D * (2D+2) * 2^-prec. Everything else holds. The point is given in map coordinates; the rounding inside of the distributions (exp, covariance) is not modelled, their scores are any rounded numbers in [0,1]."},
  {"property": "C68", "status": "proved", "theorems": ["C68_octree_bytes", "C68_map_bytes", "C68_same_bundles_same_bytes", "C68_occupancy_bytes"], "note": "Dynamic maps; the array storage of static maps belongs to another library, what it reports is a parameter. Sizes of types are parameters, sums are unbounded integers."},
  {"property": "C69", "status": "partial", "theorems": ["C69_marker_3d_partial", "C69_marker_2d_partial", "C69_thin_3d_partial", "C69_thin_2d_partial", "C69_left_handed_2d", "C69_left_handed_refuted"], "note": "False if the eigenvectors form a left-handed frame, which nothing in the code excludes: the orientation is not normalised and in 2D does not depend on the eigenvectors. Proved for right-handed frames; standard deviations below 0.05 mm are drawn as 0.05 mm. The decomposition itself belongs to cslibs_math: any orthonormal matrix of eigenvectors is allowed. Exact reals."},
  {"property": "C70", "status": "partial", "theorems": ["C70_score_of_points_partial", "C70_far_points_do_not_matter", "C70_occupancy_score_of_points_partial", "C70_score_of_points_refuted"], "note": "False if no inserted point lies in the bundle of the query itself: then the score is 0 although its cells may hold points close by. Proved if one does (or, for occupancy maps, whenever the bundle exists). Exact rationals; the points are in map coordinates after an arbitrary transform; the distribution is any statistic for which adding a batch equals adding its points in any order (as exact moments, C12)."},
  {"property": "C71", "status": "proved", "theorems": ["C71_lookup_by_point", "C71_occupancy_lookup", "C71_bundle_indices"], "note": "Gridmaps and occupancy maps (weighted or not, any ray iterator); exact rationals; the distribution is any statistic for which adding a batch equals adding its points in any order. The point is in map coordinates."},
  {"property": "C72", "status": "partial", "theorems": ["C72_validate_partial", "C72_validate_3d_refuted"], "note": "False for three-dimensional maps that do not contain height 0 of the world: no pose validates. Proved: validate is true exactly if the map takes points at the position on height 0 (the box without its last row, C08)."},
  {"property": "C73", "status": "partial", "theorems": ["C73_sizes_partial", "C73_size_in_metres_refuted"], "note": "getSizeM is one resolution too large for every static map; all others agree (proved, for sizes within int)."},
  {"property": "C74", "status": "proved", "theorems": ["C74_pointers_denote_elements", "C74_memory_implements_octree"], "note": ""},
  {"property": "C75", "status": "partial", "theorems": ["C75_copy_partial", "C75_copy_independent_refuted"], "note": "The implicit copy constructor copies the root pointer: copies of a non-empty octree share all nodes (proved for all histories); copies of an empty one are independent (proved)."},
  {"property": "C76", "status": "partial", "theorems": ["C76_memory_partial", "C76_memory_released_refuted"], "note": "The octree has no destructor and clear() cannot be instantiated: nothing is ever released (proved for all histories)."},
  {"property": "C77", "status": "proved", "theorems": ["C77_memory_implements_map", "C77_pointers_denote_cells"], "note": "Dynamic maps. Distributions and bundles lie in two memories with separate addresses."},
  {"property": "C78", "status": "partial", "theorems": ["C78_extent_partial", "C78_width_refuted", "C78_origin_refuted", "C78_traversal"], "note": "getMax is one cell beyond the cells of every map, getOrigin adds getMin without rotating it; everything else agrees (proved for all transforms). Exact arithmetic."},
  {"property": "C79", "status": "partial", "theorems": ["C79_objects_partial", "C79_others_unchanged", "C79_lookup_scores_partial", "C79_lookup_const_refuted", "C79_move_shares_refuted"], "note": "Copies are independent, moved objects share the storage with their source, const lookups allocate cells; scores are unaffected by lookups when an empty distribution scores 0."},
  {"property": "C80", "status": "partial", "theorems": ["C80_published_partial", "C80_silent_before_setup", "C80_reports_success_refuted"], "note": "Published messages as claimed (proved for both nodes); after every failed setup the node still prints that the setup was successful."},
  {"property": "C81", "status": "partial", "theorems": ["C81_means_in_cells", "C81_occupancy_means_in_cells", "C81_heights_partial", "C81_occupancy_heights_partial", "C81_tilted_refuted"], "note": "Means proved for all histories (exact arithmetic; the mean of the statistics library is assumed to be the average). Heights proved if the third row of the rotation has no negative coefficient; for a tilted transform the range is upside down."},
  {"property": "C82", "status": "partial", "theorems": ["C82_moves_partial", "C82_bundles_partial", "C82_static_partial", "C82_static_refuted"], "note": "Proved for dynamic maps with moves anywhere and for static maps moved before their first use, for all programs. After any later move of a static map every bundle it has points into freed arrays (proved for all histories)."},
  {"property": "C83", "status": "partial", "theorems": ["C83_field_partial", "C83_occupancy_field", "C83_double_partial", "C83_tiny_sigma_refuted", "C83_position_refuted"], "note": "Proved in exact arithmetic if a bundle is a whole number of pixels wide, for every correct distance transform (which belongs to cslibs_gridmaps; one is given). False otherwise: pixels show other positions (C33). In doubles a sigma_hit below about 1e-162 turns the likelihood of the occupied pixels into NaN; proved to be exp(0) between 2^-500 and 2^500."},
  {"property": "C84", "status": "partial", "theorems": ["C84_loaded_partial", "C84_loaded_occupancy_partial", "C84_loaded_static_partial", "C84_loaded_static_occupancy_partial", "C84_converted_partial", "C84_converted_occupancy_partial", "C84_static_to_dynamic_partial", "C84_weighted_refuted", "C84_far_point_refuted"], "note": "Proved for plain and occupancy maps, non-empty dynamic ones and static ones with an even minimum index on axis 0 (the maps C27 restores), for points within 16 bits per axis. False for weighted occupancy maps (lost records, C24) and for points further away, where the dynamic map answers for a bundle 65536 indices off."},
  {"property": "C85", "status": "partial", "theorems": ["C85_colours_partial", "C85_flat_refuted"], "note": "False if all points have one height: the range is then empty. Everything else is proved for every transform (unlike the markers of C81). Exact reals; the colour scale, min()/max() of the cloud class and the message are outside of /repo. The version for maps of distributions calls a member that does not exist and has no instance."},
  {"property": "C86", "status": "partial", "theorems": ["C86_any_history_partial", "C86_queries_partial", "C86_one_thread", "C86_lost_bundle_refuted", "C86_conflict_refuted", "C86_crash_refuted"], "note": "Proved for dynamic maps with any history within range, for sampling and for lookups of bundles that exist: any number of threads, every schedule, no conflicting accesses. Lookups of missing bundles of a dynamic map allocate although const: bundles get lost or a null pointer is dereferenced. For one thread at a time those lookups are proved right. Reading a distribution is assumed not to write (the statistics library is outside of /repo and computes covariances lazily)."},
  {"property": "C87", "status": "proved", "theorems": ["C87_storages_filled_in_parallel", "C87_storages_saved_in_parallel"], "note": "Any number of threads, any operations, every schedule, for octrees. Absence of conflicting accesses is proved, so that sequential consistency is what C++ guarantees. Reading and writing the file is not part of this model (see C23-C28)."},
  {"property": "C88", "status": "partial", "theorems": ["C88_dynamic_distribution_map_partial", "C88_dynamic_occupancy_map_partial", "C88_static_distribution_map_partial", "C88_static_occupancy_map_partial", "C88_accepted_partial", "C88_malformed_refuted", "C88_static_odd_refuted"], "note": "The round trip is proved for every dynamic map, also the empty one, and for static maps with even minimum index on axis 0 (odd: undefined behaviour as in C27). Exactly the headers with five entries of the right form are taken; for others load throws instead of returning false. The text of the YAML file and the converters of poses and numbers (cslibs_math, yaml-cpp) are parameters: what they make of the written values is what is loaded."},
  {"property": "C89", "status": "partial", "theorems": ["C89_nlopt_partial", "C89_alglib_partial", "C89_distance", "C89_perfect", "C89_scan_partial", "C89_scan_alglib_partial", "C89_empty_scan_refuted", "C89_no_map_weight_refuted", "C89_occupancy_3d_partial", "C89_occupancy_2d_partial", "C89_occupancy_3d_missing_refuted", "C89_occupancy_2d_missing_refuted"], "note": "False for empty scans with nlopt (0/0 is NaN) and for mapScore with map weight 0. Otherwise proved with explicit bounds: error n+16 roundoffs of the total weight for the objective, n+40 for mapScore, 5n+20 for alglib. The nlopt functions of occupancy maps do not recover the mean score even exactly (C41; in doubles a scan that misses the map has score 1 in 3D and 15/16 in 2D): for them the objective itself is proved finite and accurate, in 3D also mapScore with missing points counted as perfect. std::hypot (2D), the angle difference and the scores are arguments. Composed with C67: for maps with any history and either number type the mean of the exact scores is recovered. No fused or extended arithmetic."},
  {"property": "C90", "status": "partial", "theorems": ["C90_occupancy_in_unit", "C90_weighted_in_unit", "C90_accuracy", "C90_weighted_accuracy", "C90_hit_never_lowers_partial", "C90_miss_never_raises_partial", "C90_weighted_order_partial", "C90_unit_weights_partial", "C90_map_scores", "C90_hit_lowers_refuted", "C90_never_certain_refuted", "C90_certain_model_refuted", "C90_every_miss_counts_refuted"], "note": "Range and accuracy are proved for every history. The order is proved for a prior of 1/2 (log-odds 0) and false otherwise: in float with InverseModel(0.3, 0.2, 0.4) one more hit lowers the occupancy by more than 1/16. Many hits give exactly 1. An inverse model with probability 0 or 1 gives NaN. Weights of 1 stop adding up at 2^24 (float) or 2^53 (double). std::exp is any function with the stated properties (the correctly rounded one has them); LogOdds::from and InverseModel are outside of /repo. No fused or extended arithmetic."},
  {"property": "C91", "status": "partial", "theorems": ["C91_distribution_map_partial", "C91_occupancy_map_partial", "C91_started", "C91_empty_refuted", "C91_static_distribution_map_partial", "C91_static_occupancy_map_partial", "C91_static_odd_refuted"], "note": "Proved by induction over the steps: for dynamic maps except for binary restarts before the first bundle (undefined behaviour, C27), for static maps except for an odd minimum index on axis 0 (the loader writes outside of its array, C27). Occupancy values have to be storable wherever the program restarts (C24). With YAML headers origin and resolution have to be read back as written. The program is a sequence of calls; files are written completely (C47)."},
  {"property": "C92", "status": "proved", "theorems": ["C92_turns", "C92_length", "C92_roll_pitch", "C92_upright", "C92_euler", "C92_yaw_euler", "C92_infinite_increment", "C92_nan_increment", "C92_unit_refuted"], "note": "For up to 2^45 updates with finite increments. A NaN increment passes the clamp and makes the whole pose NaN (C92_nan_increment). The bound cannot be 0: the exact unit length is lost with the first update (C92_unit_refuted). ceres::QuaternionProduct is modelled from its documented formula; fused or extended arithmetic is not covered."},
  {"property": "C93", "status": "proved", "theorems": ["C93_scan", "C93_rigid", "C93_quaternion", "C93_angles", "C93_planar", "C93_rounded_functions", "C93_exact_refuted"], "note": "Error 280 roundoffs of the greatest coordinate for a quaternion, 768 more per update (C92), 2400 for angles, 18 per coordinate in the plane. An initial quaternion that is not of length 1 adds 48 times the difference. The bound cannot be 0 (C93_exact_refuted). Eigen is modelled from its generic code without fused, vectorised or wider arithmetic; sine and cosine are any functions accurate to two roundoffs, the correctly rounded ones are an instance. Coordinates up to 2^100."},
  {"property": "C94", "status": "partial", "theorems": ["C94_bundle", "C94_score", "C94_score_angles", "C94_score_planar", "C94_occupancy", "C94_occupancies_of_updates", "C94_normal_distributions", "C94_border_refuted"], "note": "Proved for quaternions after any number of updates, for angles and in the plane, in the frame of the map (the transformation into the frame of the map belongs to another library and is left out), for maps of doubles; for occupancy maps with quaternions. Points nearer to a border than the stated margin can be scored in the neighbouring bundle (C94_border_refuted). How accurately the densities are computed is a parameter; that their slope is bounded is proved for normal distributions."},
  {"property": "C95", "status": "partial", "theorems": ["C95_inside_partial", "C95_position", "C95_scores", "C95_occupancy", "C95_large_map_refuted", "C95_extra_column_refuted"], "note": "C95_inside_partial is proved for maps that span at most 2^22 pixels per axis in float and 2^30 in double. A float map of 25 km sampled every 3 mm is written outside of the grid (C95_large_map_refuted). The grid can have a column that no bundle writes although the bundle is a whole number of pixels wide (C95_extra_column_refuted). The densities of the distributions are any function with values in [0,1]. Fused or extended arithmetic is not covered."},
  {"property": "C96", "status": "partial", "theorems": ["C96_reads_partial", "C96_margin_partial", "C96_three_tenths_refuted", "C96_hidden_cell_refuted"], "note": "The full statement is false: a double map of 3 by 3 cells of 0.1 sampled at 0.1 reads outside of its storage whatever its contents, and of 44 cells of 0.1 the last is never shown. C96_reads_partial decides for every map and history whether the conversion reads existing cells only (iff the last pixel of each axis does) and says what each pixel shows; C96_margin_partial is a sufficient condition on the numbers. The contents come from operations that find the cell of an inserted point exactly."},
  {"property": "C97", "status": "partial", "theorems": ["C97_points_partial", "C97_converted", "C97_last_cell_refuted", "C97_first_cell_refuted"], "note": "The full statement is false in double: (0.3, 0.05) is in the last of 3 by 1 cells of 0.1 but makes get, sample and insert read outside of the storage whatever the map holds, and (0.09, 0.05) is in the first cell of a map of cells of 0.09 that begins at index 1 but is never inserted. C97_points_partial bounds the distance of a point from the cell it is put in, shows that the cell is exact away from borders and decides all accesses after any history; C97_converted carries this to the probability grid. The point in map coordinates is a parameter; its rounding is not part of this property."},
  {"property": "C98", "status": "partial", "theorems": ["C98_same_bundle_partial", "C98_grid_partial", "C98_border_refuted"], "note": "The full statement is false: for a source with the single bundle (0,0) of width 0.1 the point (0.15, 0.05) has score 0 in the source and makes the merged map read outside of its storage. C98_same_bundle_partial decides the lookup of every point for every source and history; C98_grid_partial composes it with C96 for the probability grid. The scores of a distribution are any function."},
  {"property": "C99", "status": "partial", "theorems": ["C99_field_partial", "C99_occupancy_partial", "C99_threshold_refuted"], "note": "The full statement is false: two scores 0.12 and two scores 0.1 have the exact mean 0.11, but the rounded mean of doubles is below the threshold 0.11 and the pixel gets the maximum distance. C99_field_partial decides the distances for every map up to pixels whose exact mean is within 56 roundings of the threshold; C99_occupancy_partial does so for occupancy maps. The distance transform of cslibs_gridmaps is a parameter with the specification float_transforms; distances and likelihoods are exact reals."}
]}
