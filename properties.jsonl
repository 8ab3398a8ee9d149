{"id": "C01", "title": "A bundle refers to exactly the overlapping cells that contain it", "statement": "For a bundle index bi in any dimension D, the k-th of its 2^D distributions (k = 0..2^D-1) is the cell whose index per axis d is floor(bi_d/2) if bit d of k is clear and ceil(bi_d/2) if it is set; equivalently the bundle's half-resolution interval lies inside the full-resolution cell of family k, so every point of the bundle is inside each of the 2^D cells it contributes to. Negative indices obey the same law.", "quantifier": "every dimension, every (also negative) integer bundle index, every family number k", "why_tests_cant": "The index space is unbounded and signed; a test samples a few indices and dimensions 2 and 3 only.", "anchors": ["cslibs_ndt/include/cslibs_ndt/utility/binary_indices.hpp: get_index_inner, generate_index, generate_indices, apply_indices"]}
{"id": "C02", "title": "Each cell is shared by exactly 2^D bundles", "statement": "For every family k and every cell index j, the bundles that refer to cell (k, j) are exactly the 2^D bundles with bi_d in {2 j_d - s_d, 2 j_d - s_d + 1} (s_d = bit d of k): none is missed and no other bundle refers to it. Hence two different cells of one family never share a bundle.", "quantifier": "every dimension, every family, every cell index, every bundle index", "why_tests_cant": "It is an iff over an infinite index set; tests can only check listed neighbours.", "anchors": ["cslibs_ndt/include/cslibs_ndt/utility/binary_indices.hpp: generate_index", "cslibs_ndt/include/cslibs_ndt/map/abstract_map.hpp: getAllocate"]}
{"id": "C03", "title": "Compile-time index sequences are complete and ordered", "statement": "make_integer_sequence<N> expands to 0,1,...,N-1 for every N, so every pack expansion over it (index generation, point conversion, storage creation, boolean merge) visits each component once and in order; merge<bool_and/bool_or> is the conjunction/disjunction of its arguments with the given default for the empty pack.", "quantifier": "every N, every argument list", "why_tests_cant": "Each N is a separate template instantiation; a test instantiates a handful.", "anchors": ["cslibs_ndt/include/cslibs_ndt/utility/integer_sequence.hpp: make_integer_sequence, merge_and_renumber", "cslibs_ndt/include/cslibs_ndt/utility/merge.hpp: merge", "cslibs_ndt/include/cslibs_ndt/utility/for_each.hpp", "cslibs_ndt/include/cslibs_ndt/utility/to_point.hpp"]}
{"id": "C04", "title": "The octree behaves like a map from indices to values", "statement": "For indices whose components are in [-32768, 32767], any sequence of insert operations on the octree followed by get(i) returns exactly what a plain finite map would: nothing if i was never inserted, otherwise the first inserted value combined (by the duplicate strategy) with every later value inserted at i, in order; operations on one index never affect another.", "quantifier": "every dimension, every sequence of insertions, every queried index in range", "why_tests_cant": "Histories and indices are unbounded; tree shape depends on the whole history.", "anchors": ["cslibs_ndt/include/cslibs_ndt/backend/octree.hpp: OcTree::insert, OcTree::get, OcTree::computeChildIdx, Node::insert"]}
{"id": "C05", "title": "Octree traversal visits every stored element exactly once", "statement": "traverse applies the function exactly once to each stored (index, value) pair, with the index it was stored under, in a fixed order (bit-interleaved index order) that does not depend on insertion order, and to nothing else.", "quantifier": "every reachable octree, every dimension", "why_tests_cant": "Completeness and absence of duplicates over all trees cannot be sampled.", "anchors": ["cslibs_ndt/include/cslibs_ndt/backend/octree.hpp: OcTree::traverse, Node::apply"]}
{"id": "C06", "title": "Distinct indices never collide in the dynamic map", "statement": "Two different bundle indices address different octree elements; inserting at one never changes what is stored at the other, for any int indices the map accepts (a dynamic map declares every index valid).", "quantifier": "all pairs of int indices", "why_tests_cant": "A collision needs a specific pair of far-apart indices; exhaustive pairs are infeasible.", "anchors": ["cslibs_ndt/include/cslibs_ndt/backend/octree.hpp: computeChildIdx, tree_depth_, tree_max_val_", "cslibs_ndt/include/cslibs_ndt/map/generic_map.hpp: GenericMap<dynamic_map>::valid"]}
{"id": "C07", "title": "A static map never touches storage out of bounds", "statement": "For a static map of any size and any minimum bundle index (even or odd, negative or positive), every bundle index the map accepts as valid addresses an existing slot of the bundle array and, for each of the 2^D families, an existing slot of that family's array.", "quantifier": "every dimension, every size, every minimum index, every accepted index", "why_tests_cant": "Bounds depend on parity and sign of the minimum in every axis; tests pick a few.", "anchors": ["cslibs_ndt/include/cslibs_ndt/map/generic_map.hpp: GenericMap<static_map>::GenericMap, valid", "cslibs_ndt/include/cslibs_ndt/map/abstract_map.hpp: getAllocate"]}
{"id": "C08", "title": "A static map accepts its whole advertised extent", "statement": "Every bundle index between getMinBundleIndex() and getMaxBundleIndex() inclusive - hence every point between getMin() and getMax() - is accepted by the map: points there are inserted and can be sampled.", "quantifier": "every static map, every index in the advertised box", "why_tests_cant": "The boundary layer is a measure-zero part of random tests and its loss is silent.", "anchors": ["cslibs_ndt/include/cslibs_ndt/map/generic_map.hpp: GenericMap<static_map>::valid", "cslibs_ndt/include/cslibs_ndt/map/abstract_map.hpp: getMin, getMax, toBundleIndex"]}
{"id": "C09", "title": "After any history each cell aggregates exactly the points that fell into it", "statement": "After any sequence of point-cloud insertions into a gridmap, the distribution stored for family k at cell j is the in-order accumulation of exactly the accepted points whose bundle lies in that cell, grouped per insertion and bundle; cells that no accepted point reached hold no samples. No point is lost, counted twice in a family, or attributed to a wrong cell.", "quantifier": "every sequence of insertions, every point cloud and origin, every family and cell, both map kinds", "why_tests_cant": "The state space of histories is infinite; overlap makes wrong attribution hard to notice.", "anchors": ["cslibs_ndt/include/cslibs_ndt/map/impl/gridmap.hpp: insert, update", "cslibs_ndt/include/cslibs_ndt/map/abstract_map.hpp: getAllocate, toBundleIndex"]}
{"id": "C10", "title": "Insertion order and batching do not matter", "statement": "If distributions accumulate commutatively and associatively (exact arithmetic), the distributions of a gridmap depend only on the multiset of accepted points: permuting clouds, permuting points, splitting or joining clouds gives the same stored distributions and the same set of allocated bundles.", "quantifier": "every permutation and regrouping of every insertion history", "why_tests_cant": "There are factorially many orders and exponentially many groupings.", "anchors": ["cslibs_ndt/include/cslibs_ndt/map/impl/gridmap.hpp: insert"]}
{"id": "C11", "title": "Sample counts are conserved in every family", "statement": "In each of the 2^D families the sample counts over all cells add up to the number of accepted points inserted so far, and a bundle lookup sees a count in every one of its cells at least as large as the number of points inserted into that bundle.", "quantifier": "every insertion history, every family", "why_tests_cant": "A conservation law over all histories.", "anchors": ["cslibs_ndt/include/cslibs_ndt/map/impl/gridmap.hpp: insert, update"]}
{"id": "C12", "title": "The dynamic map's index range is the tight bounding box of its bundles", "statement": "At all times getMinBundleIndex()/getMaxBundleIndex() are the componentwise minimum/maximum of the indices of the allocated bundles, so getMin/getMax/getWidth/getHeight/getOrigin describe the smallest box holding all bundles; the map reports empty() exactly when it has no bundle.", "quantifier": "every operation history of a dynamic map, every dimension", "why_tests_cant": "An invariant over all histories; depends on which min/max overload is selected.", "anchors": ["cslibs_ndt/include/cslibs_ndt/map/generic_map.hpp: GenericMap<dynamic_map>::updateIndices, empty, getSizeM", "cslibs_ndt/include/cslibs_ndt/map/abstract_map.hpp: getMin, getMax, getOrigin, getWidth, getHeight"]}
{"id": "C13", "title": "Lookups and sampling do not change the map", "statement": "get and every sample function leave the map unchanged. The allocating accessor getDistributionBundle changes no stored sample: afterwards every distribution that existed has the same contents, and every point samples to the same value as before.", "quantifier": "every reachable map, every query", "why_tests_cant": "Must hold in all states; the accessor mutates through const.", "anchors": ["cslibs_ndt/include/cslibs_ndt/map/generic_map.hpp: get, getDistributionBundle", "cslibs_ndt/include/cslibs_ndt/map/impl/gridmap.hpp: sampleNonNormalized", "cslibs_ndt/include/cslibs_ndt/map/abstract_map.hpp: getAllocate"]}
{"id": "C14", "title": "Completing partially allocated bundles is safe and eventually complete", "statement": "allocatePartiallyAllocatedBundles never changes the contents of a stored distribution and never removes a bundle; afterwards every bundle overlapping a cell with a valid distribution exists (inside the map's valid range), and after two calls a further call changes nothing.", "quantifier": "every reachable map, both kinds, any number of calls", "why_tests_cant": "Fixpoint behaviour over all map shapes.", "anchors": ["cslibs_ndt/include/cslibs_ndt/map/abstract_map.hpp: allocatePartiallyAllocatedBundle, allocatePartiallyAllocatedBundles, expandBundle", "cslibs_ndt/include/cslibs_ndt/common/bundle.hpp: expand, setExpanded"]}
{"id": "C15", "title": "Sampled scores are normalised and missing data scores zero", "statement": "If each stored distribution's non-normalised sample lies in [0,1] then sampleNonNormalized and sampleNonNormalizedBilinear (plain, occupancy and weighted maps) return a value in [0,1]; points outside the valid range or in unallocated bundles give exactly 0; null distributions contribute 0.", "quantifier": "every map, every point, every dimension", "why_tests_cant": "Needs all weights and all distributions at once.", "anchors": ["cslibs_ndt/include/cslibs_ndt/map/impl/gridmap.hpp: sampleNonNormalized, sampleNonNormalizedBilinear", "cslibs_ndt/include/cslibs_ndt/map/impl/occupancy_gridmap.hpp: sampleNonNormalized"]}
{"id": "C16", "title": "Bilinear weights are a partition of unity", "statement": "For a point inside its bundle the 2^D interpolation weights are non-negative and sum to exactly 1 (and they sum to 1 for any weight vector).", "quantifier": "every dimension, every point, every resolution, every bundle parity", "why_tests_cant": "Continuum of points, all dimensions.", "anchors": ["cslibs_ndt/include/cslibs_ndt/utility/bilinear_interpolation.hpp: get_bilinear_interpolation_weights, to_bilinear_interpolation_weight"]}
{"id": "C17", "title": "Bilinear interpolation is continuous across bundle borders", "statement": "The weight given to a cell equals the tensor-product hat function max(0, 1-|x-c|) centred on that cell's centre, so the weight of a cell depends only on the point and the cell, tends to the same value from both sides of every bundle border, and is 0 for a cell at the border where it stops being referenced.", "quantifier": "every point including border points, all dimensions", "why_tests_cant": "Continuity is a statement about all points.", "anchors": ["cslibs_ndt/include/cslibs_ndt/utility/bilinear_interpolation.hpp: get_bilinear_interpolation_weights", "cslibs_ndt/include/cslibs_ndt/utility/binary_indices.hpp: generate_index"]}
{"id": "C18", "title": "Occupancy values are probabilities and respond monotonically", "statement": "getOccupancy returns a value in [0,1]; with a sane inverse model (log-odds free <= prior <= occupied) another hit never lowers it and another miss never raises it; with no hit it is 0; a null model raises an error.", "quantifier": "every number of hits and misses, every inverse model", "why_tests_cant": "Unbounded counters and real-valued models.", "anchors": ["cslibs_ndt/include/cslibs_ndt/common/occupancy_distribution.hpp: getOccupancy, updateFree, updateOccupied", "cslibs_ndt/include/cslibs_ndt/common/weighted_occupancy_distribution.hpp: getOccupancy"]}
{"id": "C19", "title": "Copying a distribution yields an independent object", "statement": "After copy construction or assignment of an (occupancy or weighted occupancy) distribution, no later update of one object changes the other.", "quantifier": "every pair of objects, every later sequence of updates", "why_tests_cant": "Aliasing shows only in particular later histories.", "anchors": ["cslibs_ndt/include/cslibs_ndt/common/occupancy_distribution.hpp: copy constructor, operator=", "cslibs_ndt/include/cslibs_ndt/common/weighted_occupancy_distribution.hpp: copy constructor, operator="]}
{"id": "C20", "title": "Merging distributions does not create sharing", "statement": "a.merge(b) adds b's counts and samples to a and leaves b unchanged, and later updates of a do not change b.", "quantifier": "every pair of distributions, every later sequence of updates", "why_tests_cant": "Sharing is visible only in later histories.", "anchors": ["cslibs_ndt/include/cslibs_ndt/common/occupancy_distribution.hpp: merge", "cslibs_ndt/include/cslibs_ndt/common/weighted_occupancy_distribution.hpp: merge"]}
{"id": "C21", "title": "A copied map is independent of its source", "statement": "After copy-constructing a map, inserting into the copy changes neither what the source samples nor its stored distributions, and vice versa; the copy's bundles show the copy's own distributions.", "quantifier": "every source map, every later history on either map", "why_tests_cant": "Aliasing depends on backend and on which bundles exist.", "anchors": ["cslibs_ndt/include/cslibs_ndt/map/abstract_map.hpp: AbstractMap(const AbstractMap&), AbstractMap(AbstractMap&&)", "cslibs_ndt/include/cslibs_ndt/utility/create.hpp: create", "cslibs_ndt/include/cslibs_ndt/backend/octree.hpp: OcTree (implicit copy)"]}
{"id": "C22", "title": "Map conversion preserves all content", "statement": "Converting a non-empty dynamic map to a static map keeps origin and resolution, places every bundle at the same index inside the static map's valid range, and preserves every distribution; converting back yields a map with the same bundles, index range and distributions.", "quantifier": "every non-empty dynamic map of every dimension", "why_tests_cant": "Extent arithmetic depends on parity and sign in each axis; content on all bundles.", "anchors": ["cslibs_ndt/include/cslibs_ndt/conversion/map.hpp: convert<dynamic_map>::from, convert<static_map>::from, impl::convert"]}
{"id": "C23", "title": "Saved storages load back identically", "statement": "Loading a storage file written by save yields a storage with exactly the same indices and distributions (plain and occupancy), for any number of records including none; the byte count accounting consumes the file exactly.", "quantifier": "every storage content", "why_tests_cant": "Round trip over all contents.", "anchors": ["cslibs_ndt/include/cslibs_ndt/serialization/storage.hpp: binary::save, binary::load, loadStorage, write, read"]}
{"id": "C24", "title": "Saved weighted occupancy storages load back identically", "statement": "Loading a storage file of weighted occupancy distributions yields every record that was saved.", "quantifier": "every storage content", "why_tests_cant": "Loss depends on the record count relative to a byte-count drift.", "anchors": ["cslibs_ndt/include/cslibs_ndt/serialization/storage.hpp: read(WeightedOccupancyDistribution), loadStorage"]}
{"id": "C25", "title": "The map header round-trips", "statement": "Saving and loading a map's binary header returns the same origin, resolution, index range and bundle list, for dynamic and static maps.", "quantifier": "every non-empty map header", "why_tests_cant": "Includes int/size_t conversions over the full range.", "anchors": ["cslibs_ndt/include/cslibs_ndt/serialization/loader.hpp: header::save, header::load", "cslibs_ndt/include/cslibs_ndt/map/generic_map.hpp: getSize"]}
{"id": "C26", "title": "A static map can be loaded whatever its minimum index", "statement": "Loading a static map allocates for each family an array at least as large as the one the map was built with, so every saved record is inside it.", "quantifier": "every dimension, size, minimum index and family", "why_tests_cant": "Only odd minimum indices together with one specific family reach the failing slot.", "anchors": ["cslibs_ndt/include/cslibs_ndt/serialization/loader.hpp: loader<static_map>::load", "cslibs_ndt/include/cslibs_ndt/map/generic_map.hpp: GenericMap<static_map>::GenericMap"]}
{"id": "C27", "title": "A map written by save() is restored by load()", "statement": "For every reachable dynamic map, load(save(m)) succeeds and yields a map with the same origin, resolution, index range, bundles and distributions, in which every bundle refers to the map's own distributions and no bundle slot is null, so that further insertions behave as on m.", "quantifier": "every reachable map", "why_tests_cant": "Composition of header, storages and bundle reconstruction over all maps.", "anchors": ["cslibs_ndt/include/cslibs_ndt/serialization/map.hpp: binary::save, binary::load", "cslibs_ndt/include/cslibs_ndt/serialization/loader.hpp: allocateBundles, createMap"]}
{"id": "C28", "title": "save/load report success exactly when every storage succeeded", "statement": "For every interleaving of the worker threads: if every storage operation succeeds, the result is true; if some storage operation fails the result is false; load never builds a map from a storage that was not loaded.", "quantifier": "all thread schedules, any number of storages, any pattern of failures", "why_tests_cant": "Failing schedules are rare interleavings of non-atomic read-modify-write on a flag.", "anchors": ["cslibs_ndt/include/cslibs_ndt/serialization/map.hpp: binary::save, binary::load (success flag)"]}
{"id": "C29", "title": "Saving over an existing map never destroys it without a complete replacement", "statement": "If the process stops at any point during save() onto a path holding a valid map, a subsequent load of that path returns either the old or the new map.", "quantifier": "every crash point, every old and new map", "why_tests_cant": "Requires considering every crash point.", "anchors": ["cslibs_ndt/include/cslibs_ndt/serialization/filesystem.hpp: create_directory", "cslibs_ndt/include/cslibs_ndt/serialization/map.hpp: binary::save"]}
{"id": "C30", "title": "Truncated map files are rejected", "statement": "Loading a storage or header file that is a proper prefix of a file written by save fails.", "quantifier": "every content, every truncation length", "why_tests_cant": "All truncation points of all files.", "anchors": ["cslibs_ndt/include/cslibs_ndt/serialization/storage.hpp: loadStorage", "cslibs_ndt/include/cslibs_ndt/serialization/loader.hpp: header::load"]}
{"id": "C31", "title": "Occupancy insertion counts hits and misses exactly", "statement": "After any sequence of occupancy insertions, for any ray-casting iterator, a cell's hit samples are exactly the accepted points in that cell and its miss count is the sum, over all insertions and all end bundles, of the end bundle's point count times the number of visited valid bundles that refer to the cell; the weighted variant does the same with weights but does not count a miss in a bundle that was hit in the same insertion.", "quantifier": "every ray iterator, every insertion history, every cell", "why_tests_cant": "Counters depend on all rays of all scans and unordered iteration order.", "anchors": ["cslibs_ndt/include/cslibs_ndt/map/impl/occupancy_gridmap.hpp: insert, updateFree, updateOccupied", "cslibs_ndt/include/cslibs_ndt/map/impl/weighted_occupancy_gridmap.hpp: insert"]}
{"id": "C32", "title": "Visibility-checked insertion treats rays independently", "statement": "insertVisible drops only what is occluded: a ray that becomes invisible does not prevent other rays of the same scan, or free cells already traversed, from being recorded.", "quantifier": "every scan, every map state", "why_tests_cant": "Depends on the iteration order and map state.", "anchors": ["cslibs_ndt/include/cslibs_ndt/map/impl/occupancy_gridmap.hpp: insertVisible", "cslibs_ndt/include/cslibs_ndt/map/impl/weighted_occupancy_gridmap.hpp: insertVisible"]}
{"id": "C33", "title": "Grid conversion writes every target cell of every bundle once, in bounds", "statement": "Converting a 2D map to a probability/distance/likelihood grid writes, for every allocated bundle, a chunk of pixels inside the target grid, different bundles write disjoint pixels, and each pixel is written with the score at the map position that pixel represents.", "quantifier": "every map extent, bundle set, resolution and sampling resolution", "why_tests_cant": "Depends on real-valued resolution ratios.", "anchors": ["cslibs_ndt_2d/include/cslibs_ndt_2d/conversion/probability_gridmap.hpp: from", "cslibs_ndt_2d/include/cslibs_ndt_2d/conversion/likelihood_field_gridmap.hpp: from", "cslibs_ndt_2d/include/cslibs_ndt_2d/conversion/distance_gridmap.hpp: from"]}
{"id": "C34", "title": "A mono grid map never accesses a cell outside its array", "statement": "Every point accepted by the single-distribution (mono) grid map addresses an existing cell.", "quantifier": "every size, origin and point", "why_tests_cant": "Only the exact border row/column is affected.", "anchors": ["cslibs_ndt_2d/include/cslibs_ndt_2d/static_maps/mono_gridmap.hpp: toIndex, constructor"]}
{"id": "C35", "title": "Merging a dynamic map into a mono map counts every point once", "statement": "The merged mono map's total sample count equals the number of points inserted into the source.", "quantifier": "every source map", "why_tests_cant": "A conservation law over all maps.", "anchors": ["cslibs_ndt_2d/include/cslibs_ndt_2d/conversion/merge.hpp: from"]}
{"id": "C36", "title": "Angular residuals are shortest signed differences", "statement": "The rotation residual of the 2D and RPY cost functors is, up to its weight, an angle congruent to reference minus estimate modulo 2 pi and of absolute value at most pi; it is 0 exactly when the two rotations agree.", "quantifier": "all pairs of angles", "why_tests_cant": "Continuum with wrap-around.", "anchors": ["cslibs_ndt/include/cslibs_ndt/matching/ceres/rotation/rotation_cost_functor_2d.hpp: AngleDifference", "cslibs_ndt/include/cslibs_ndt/matching/ceres/rotation/rotation_cost_functor_3d_rpy.hpp"]}
{"id": "C37", "title": "The yaw-only quaternion update stays on the unit sphere and only changes yaw", "statement": "Applying the yaw-only quaternion plus operation to a unit quaternion gives a unit quaternion representing the same rotation composed with a rotation about the z axis by twice the clamped increment.", "quantifier": "all unit quaternions, all increments", "why_tests_cant": "Continuum; drift accumulates over iterations.", "anchors": ["cslibs_ndt/include/cslibs_ndt/matching/ceres/local_parameterization.hpp: YawOnlyQuaternionPlus"]}
{"id": "C38", "title": "Euler-angle updates keep the represented rotation", "statement": "The Euler plus operations yield angles within [-pi, pi] representing the same rotation as the plain sum.", "quantifier": "all angles and increments", "why_tests_cant": "Fails only past the wrap-around.", "anchors": ["cslibs_ndt/include/cslibs_ndt/matching/ceres/local_parameterization.hpp: EulerPlus, YawOnlyEulerPlus"]}
{"id": "C39", "title": "The quaternion rotation prior is minimal at the reference rotation", "statement": "The quaternion rotation residual is zero when the estimated rotation equals the reference, and its cost is larger for rotations further away.", "quantifier": "all unit quaternions", "why_tests_cant": "A constant cost looks plausible for any single sample.", "anchors": ["cslibs_ndt/include/cslibs_ndt/matching/ceres/rotation/rotation_cost_functor_3d_quaternion.hpp", "cslibs_ndt_3d/include/cslibs_ndt_3d/matching/alglib/gridmap_function.hpp: applyQuaternion"]}
{"id": "C40", "title": "NaN residuals are filtered in scan matching", "statement": "The scan-matching cost functors replace a NaN point residual by zero and leave all other residuals unchanged.", "quantifier": "all IEEE-754 values", "why_tests_cant": "A guard with a wrong predicate passes every test without NaN.", "anchors": ["cslibs_ndt/include/cslibs_ndt/matching/ceres/map/scan_match_cost_functor_2d.hpp: operator()"]}
{"id": "C41", "title": "mapScore recovers the mean map score", "statement": "For every pose and point cloud, mapScore applied to the objective value computed by apply at the same pose returns the mean of the per-point map scores (missing scores counted as 0).", "quantifier": "all poses, point clouds, weights (map weight non-zero), scores", "why_tests_cant": "An inverse law over real-valued inputs.", "anchors": ["cslibs_ndt_2d/include/cslibs_ndt_2d/matching/nlopt/gridmap_function.hpp: apply, mapScore", "cslibs_ndt_2d/include/cslibs_ndt_2d/matching/nlopt/occupancy_gridmap_function.hpp", "cslibs_ndt_3d/include/cslibs_ndt_3d/matching/nlopt/gridmap_function.hpp", "cslibs_ndt_3d/include/cslibs_ndt_3d/matching/nlopt/occupancy_gridmap_function.hpp", "cslibs_ndt_2d/include/cslibs_ndt_2d/matching/alglib/gridmap_function.hpp"]}
{"id": "C42", "title": "The ordered index set answers box queries exactly", "statement": "The nested ordered index set contains exactly the inserted indices, and its box query returns exactly the inserted indices inside the axis-aligned box spanned by the two corners (given in any order).", "quantifier": "every insertion history, every dimension, every box", "why_tests_cant": "Unbounded histories and boxes.", "anchors": ["cslibs_ndt/include/cslibs_ndt/map/impl/utility.hpp: Map::insert, Map::find, Map::find_between"]}
{"id": "C43", "title": "Points map to the bundle that contains them", "statement": "For a point with map coordinates x, the computed bundle index i satisfies i*h <= x < (i+1)*h per axis (h = bundle resolution) provided the quotient fits an int; outside that range the conversion is undefined behaviour.", "quantifier": "every point and positive resolution", "why_tests_cant": "Continuum of points; extreme coordinates.", "anchors": ["cslibs_ndt/include/cslibs_ndt/map/abstract_map.hpp: toBundleIndex"]}
{"id": "C44", "title": "The octree reports how many elements it holds", "statement": "size() of the octree storage equals the number of distinct indices inserted so far, starting from 0 for a new octree.", "quantifier": "every insertion history, every initial memory content", "why_tests_cant": "The counter is never initialised, so a test sees whatever the allocator left; and a test with few elements cannot tell nodes from elements in general.", "anchors": ["cslibs_ndt/include/cslibs_ndt/backend/octree.hpp:170-181", "cslibs_ndt/include/cslibs_ndt/backend/octree.hpp:227-253", "cslibs_ndt/include/cslibs_ndt/backend/octree.hpp:383-386"]}
{"id": "C45", "title": "getOrigin is the world pose of the map minimum corner", "statement": "The translation of getOrigin() equals the world position of the corner getMin(), i.e. w_T_m * getMin(), for every map pose, so that grids exported with this origin lie where the map lies.", "quantifier": "every map, every initial origin including rotated ones", "why_tests_cant": "tests use axis-aligned origins, where adding an unrotated offset is right", "anchors": ["cslibs_ndt/include/cslibs_ndt/map/abstract_map.hpp:149-154", "cslibs_ndt_2d/include/cslibs_ndt_2d/conversion/probability_gridmap.hpp:23-71"]}
{"id": "C46", "title": "Extent queries are defined for every dynamic map", "statement": "getWidth, getHeight, getSizeM and getSize of a dynamic map are free of undefined behaviour for every reachable map including the empty one.", "quantifier": "every reachable dynamic map, every axis", "why_tests_cant": "signed overflow usually yields a plausible number, so a test on an empty map does not fail", "anchors": ["cslibs_ndt/include/cslibs_ndt/map/abstract_map.hpp:185-193", "cslibs_ndt/include/cslibs_ndt/map/generic_map.hpp:270-284"]}
{"id": "C47", "title": "save() reports write errors", "statement": "If save() returns true, the files on disk hold everything that was written: a full disk or a failed write is reported as false.", "quantifier": "every map, every subset of bytes that arrives on the disk", "why_tests_cant": "Needs a fault model of the file system; a unit test writes to a healthy disk.", "anchors": ["cslibs_ndt/include/cslibs_ndt/serialization/storage.hpp: binary::save", "cslibs_ndt/include/cslibs_ndt/serialization/loader.hpp: header::save"]}
{"id": "C48", "title": "The line query of the index container returns the indices near the segment", "statement": "Container::get_between(first, last) returns every inserted index that lies in the box of the two corners and within one index step of the segment between them, and only such indices.", "quantifier": "every insertion history, every dimension, every segment", "why_tests_cant": "Unbounded sets and segments; an empty answer looks like an empty neighbourhood.", "anchors": ["cslibs_ndt/include/cslibs_ndt/map/impl/utility.hpp: Container::get_between"]}
{"id": "C49", "title": "Numeric and automatic differentiation minimise the same function", "statement": "At every point, the residual the ceres cost functors compute for doubles and the value part of the residual they compute for Jets are equal, for plain and occupancy maps, or both fail in the same way.", "quantifier": "every map, point, distribution and inverse model (also a missing one)", "why_tests_cant": "Two separately written evaluations that must agree on a continuum of inputs.", "anchors": ["cslibs_ndt_2d/include/cslibs_ndt_2d/matching/ceres/map/gridmap_cost_functor.hpp: Evaluate", "cslibs_ndt_2d/include/cslibs_ndt_2d/matching/ceres/map/occupancy_gridmap_cost_functor.hpp: Evaluate", "cslibs_ndt_3d/include/cslibs_ndt_3d/matching/ceres/map/gridmap_cost_functor.hpp: Evaluate"]}
{"id": "C50", "title": "The deviation penalty vanishes exactly at the initial guess", "statement": "With a map weight of zero and positive other weights, the nlopt objective and the alglib sum of squares are non-negative and zero exactly at the initial guess (angles up to whole turns), for 2D poses, angles and quaternions.", "quantifier": "every guess, pose and positive weights", "why_tests_cant": "Wrong reference components cancel for the identity, the usual test guess.", "anchors": ["cslibs_ndt_2d/include/cslibs_ndt_2d/matching/nlopt/gridmap_function.hpp: apply", "cslibs_ndt_3d/include/cslibs_ndt_3d/matching/nlopt/gridmap_function.hpp: applyRPY, applyQuaternion", "cslibs_ndt_3d/include/cslibs_ndt_3d/matching/alglib/gridmap_function.hpp: applyRPY, applyQuaternion"]}
{"id": "C51", "title": "The angles of the RPY matcher describe roll, then pitch, then yaw", "statement": "The quaternion built from roll, pitch and yaw is a unit quaternion and rotates every point by roll about x, then pitch about y, then yaw about z; whole turns do not matter.", "quantifier": "all angles, all points", "why_tests_cant": "Trigonometric identity over a continuum.", "anchors": ["cslibs_ndt/include/cslibs_ndt/matching/ceres/map/scan_match_cost_functor_3d_rpy.hpp: toEigen"]}
{"id": "C52", "title": "The translation prior is minimal exactly at the reference", "statement": "The translation residual is zero exactly at the reference translation and its cost is the squared weight times the squared distance.", "quantifier": "all translations, weights and dimensions", "why_tests_cant": "Law over all reals.", "anchors": ["cslibs_ndt/include/cslibs_ndt/matching/ceres/translation/translation_cost_functor_2d.hpp", "cslibs_ndt/include/cslibs_ndt/matching/ceres/translation/translation_cost_functor_3d.hpp"]}
{"id": "C53", "title": "A probability grid of a mono map shows the map scores", "statement": "Every pixel of the probability grid made from a single-distribution (mono) grid map holds the score the map itself gives for the position of the pixel (0 if that is not a probability), and no cell outside the map is read.", "quantifier": "every map, origin, resolution and pixel", "why_tests_cant": "A relation between two index computations over all sizes, resolutions and origins.", "anchors": ["cslibs_ndt_2d/include/cslibs_ndt_2d/conversion/probability_gridmap.hpp:180-217", "cslibs_ndt_2d/include/cslibs_ndt_2d/static_maps/mono_gridmap.hpp: sampleNonNormalized, getOrigin"]}
{"id": "C54", "title": "A merged mono map scores points in the frame of its distributions", "statement": "The score a merged mono map gives for a world point is the value of the merged distribution of the bundle at that point, taken in the frame the distributions are stored in.", "quantifier": "every source map, origin and point", "why_tests_cant": "Visible only with an origin other than the identity, and then at every point by a different amount.", "anchors": ["cslibs_ndt_2d/include/cslibs_ndt_2d/conversion/merge.hpp:10-41", "cslibs_ndt_2d/include/cslibs_ndt_2d/static_maps/mono_gridmap.hpp:168-204"]}
{"id": "C55", "title": "Map loader nodes serve maps of either precision", "statement": "A map directory saved by a float map is served by the 2D/3D map loader node as that float map, one saved by a double map as that double map.", "quantifier": "all maps of both precisions, all directories", "why_tests_cant": "the fallback from setup<double> to setup<float> depends on load rejecting foreign contents; a test with one double map passes", "anchors": ["cslibs_ndt_2d/src/ndt_map_loader.h:31-41", "cslibs_ndt_2d/src/ndt_map_loader.h:58-130", "cslibs_ndt_3d/src/ndt_map_loader.h:29-39"]}
{"id": "C56", "title": "A map with a YAML header is read from its own directory", "statement": "If the directory given to load contains map.yaml, the header is read from that file, whatever path denotes the directory.", "quantifier": "all file systems, working directories and paths", "why_tests_cant": "depends on working directory and form of the path; \".\" works", "anchors": ["cslibs_ndt/include/cslibs_ndt/serialization/map.hpp:95-113"]}
{"id": "C57", "title": "The index of a point computed in double precision is that of its bundle", "statement": "In a map of double precision, the bundle index computed for a point (product with the rounded inverse of the rounded bundle resolution, rounded down) is the index of the bundle whose box contains the point.", "quantifier": "all resolutions and points representable as double", "why_tests_cant": "rounding errors show only for points close to borders of bundles, the set of which depends on the resolution", "anchors": ["cslibs_ndt/include/cslibs_ndt/map/abstract_map.hpp:66-67", "cslibs_ndt/include/cslibs_ndt/map/abstract_map.hpp:84-85", "cslibs_ndt/include/cslibs_ndt/map/abstract_map.hpp:323-330"]}
{"id": "C58", "title": "Automatic derivatives are the derivatives of the residuals", "statement": "At every pose and for every scan point, the derivative part of the Jet that the ceres functors compute for a map residual (plain and occupancy maps, 2D, quaternion and RPY poses) and for the rotation prior is the derivative of the residual computed with doubles, in every parameter direction.", "quantifier": "every map, pose, scan point, parameter direction and weight", "why_tests_cant": "The optimiser trusts derivatives at every pose it visits; a test compares finitely many finite differences.", "anchors": ["cslibs_ndt_2d/include/cslibs_ndt_2d/matching/ceres/map/gridmap_cost_functor.hpp: Evaluate", "cslibs_ndt/include/cslibs_ndt/matching/ceres/map/scan_match_cost_functor_2d.hpp: operator()", "cslibs_ndt/include/cslibs_ndt/matching/ceres/map/scan_match_cost_functor_3d_rpy.hpp: operator()", "cslibs_ndt/include/cslibs_ndt/matching/ceres/rotation/rotation_cost_functor_2d.hpp: AngleDifference"]}
{"id": "C59", "title": "Scan points are moved rigidly by the motion the parameters describe", "statement": "At every parameter vector the functors move all scan points by one rigid motion, namely the rotation given by the rotation parameters (yaw; roll, pitch, yaw; quaternion) followed by the translation.", "quantifier": "all parameter vectors and scan points", "why_tests_cant": "A wrong sign or factor in one entry of a rotation shows only at particular angles.", "anchors": ["cslibs_ndt/include/cslibs_ndt/matching/ceres/map/scan_match_cost_functor_2d.hpp: operator()", "cslibs_ndt/include/cslibs_ndt/matching/ceres/map/scan_match_cost_functor_3d_quaternion.hpp: operator()", "cslibs_ndt/include/cslibs_ndt/matching/ceres/map/scan_match_cost_functor_3d_rpy.hpp: toEigen, operator()"]}
{"id": "C60", "title": "The cost of a matching problem is the weighted sum of its three terms", "statement": "The cost that Problem2d, Problem3dQuaternion and Problem3dRPY assign to a pose is map_weight^2 times the mean squared map residual plus translation_weight^2 times the squared distance to the reference position plus rotation_weight^2 times the squared rotation angle to the reference; it does not depend on the number of scan points, and a zero weight switches its term off.", "quantifier": "all poses, references, weights and scans", "why_tests_cant": "Quantifies over all scan sizes and weights; a missing normalisation changes the optimum only slightly.", "anchors": ["cslibs_ndt/include/cslibs_ndt/matching/ceres/problem.hpp: Problem2d, Problem3dQuaternion, Problem3dRPY", "cslibs_ndt/include/cslibs_ndt/matching/ceres/map/scan_match_cost_functor_creator.hpp: CreateAutoDiffCostFunction"]}
{"id": "C61", "title": "Yaw-only matching never changes height, roll or pitch", "statement": "With only_yaw, whatever steps the solver takes, the height and the roll and pitch of the pose remain those of the initial guess; in both modes the quaternion stays a unit quaternion.", "quantifier": "all initial guesses and all finite sequences of steps", "why_tests_cant": "The steps are chosen by the solver; a leak shows only after many of them.", "anchors": ["cslibs_ndt/include/cslibs_ndt/matching/ceres/problem.hpp: Problem3dQuaternion, Problem3dRPY", "cslibs_ndt/include/cslibs_ndt/matching/ceres/local_parameterization.hpp: YawOnlyEulerPlus, YawOnlyQuaternionPlus"]}
{"id": "C62", "title": "A step of length zero leaves the pose unchanged", "statement": "For every parameterization that is used, Plus(x, 0) = x for every x (the contract of a ceres local parameterization).", "quantifier": "all parameter vectors", "why_tests_cant": "The contract is violated only on part of the parameter space.", "anchors": ["cslibs_ndt/include/cslibs_ndt/matching/ceres/local_parameterization.hpp: EulerPlus, YawOnlyEulerPlus, YawOnlyQuaternionPlus"]}
{"id": "C63", "title": "The interpolating functor reproduces the map residual smoothly", "statement": "The residual of the INTERPOLATION functors computed with Jets equals the residual computed with doubles at every point, lies in [0,1] if the sampled residuals do, and its derivative part is its derivative everywhere.", "quantifier": "all maps, sampling resolutions and points", "why_tests_cant": "Agreement on a continuum of points.", "anchors": ["cslibs_ndt_2d/include/cslibs_ndt_2d/matching/ceres/map/gridmap_cost_functor.hpp: Evaluate, GetValue", "cslibs_ndt_2d/include/cslibs_ndt_2d/matching/ceres/map/occupancy_gridmap_cost_functor.hpp: Evaluate, GetValue"]}
{"id": "C64", "title": "The point cloud message can be read back", "statement": "For every cloud the PointCloud2 message is well formed (row step and data size agree with width and point step, every field lies inside a point) and a reader finds the x, y, z and intensity of every point under their names.", "quantifier": "all clouds, including the empty one and large ones", "why_tests_cant": "Field layout bugs are invisible to viewers that ignore the count; sizes overflow only for huge maps.", "anchors": ["cslibs_ndt_3d/include/cslibs_ndt_3d/conversion/sensor_msgs_pointcloud2.hpp: from(tmp, dst)"]}
{"id": "C65", "title": "The point cloud shows every cell with samples exactly once", "statement": "After any history, converting a map to a point cloud yields exactly one point for each cell with samples (for occupancy maps: with hits and an occupancy that reaches the threshold), at its mean moved by the origin, with the value at the mean as intensity, and nothing else; without allocate_all the map is not changed.", "quantifier": "all histories, thresholds, origins and both values of allocate_all", "why_tests_cant": "All histories; cells without samples appear only in some of them.", "anchors": ["cslibs_ndt_3d/include/cslibs_ndt_3d/conversion/sensor_msgs_pointcloud2.hpp: from", "cslibs_ndt_3d/include/cslibs_ndt_3d/conversion/sensor_msgs_pointcloud2_rgb.hpp: from"]}
{"id": "C66", "title": "Markers have distinct identifiers and show each decomposable cell once", "statement": "After any history, the marker array starts with a request to delete all markers, followed by one marker for each cell whose distribution has an eigen decomposition (and for occupancy maps reaches the threshold), with distinct consecutive identifiers, as long as fewer than 2^31 - 1 cells are shown.", "quantifier": "all histories and thresholds", "why_tests_cant": "All histories; a repeated identifier hides a marker without any error.", "anchors": ["cslibs_ndt_2d/include/cslibs_ndt_2d/conversion/distributions.hpp: from", "cslibs_ndt_3d/include/cslibs_ndt_3d/conversion/distributions.hpp: from"]}
{"id": "C67", "title": "Scores in floating-point arithmetic are normalised and accurate", "statement": "For T = float and T = double: if every stored distribution scores in [0,1] (as rounded number), then the plain and the bilinear score of every point exist, are finite, lie in [0,1], and differ from the scores of exact arithmetic only by a bounded number of roundings.", "quantifier": "all histories, all points and distributions of both formats, up to 8 dimensions", "why_tests_cant": "Rounding errors depend on every bit of the coordinates; a score above 1 appears only for rare points and breaks callers taking the logarithm of 1 - score or its arc cosine.", "anchors": ["cslibs_ndt/include/cslibs_ndt/map/impl/gridmap.hpp: sampleNonNormalized, sampleNonNormalizedBilinear", "cslibs_ndt/include/cslibs_ndt/map/impl/occupancy_gridmap.hpp: sampleNonNormalized, sampleNonNormalizedBilinear", "cslibs_ndt/include/cslibs_ndt/utility/bilinear_interpolation.hpp"]}
{"id": "C68", "title": "Reported memory is what the contents cost", "statement": "byte_size() of an octree equals the tree object, one node per occupied block of side 1, 2, ..., 65536, one pointer array per occupied block of side 2 or more, and index and value of each stored pair; getByteSize() of a dynamic map adds this up over the bundles and all storages. The report depends only on the contents, not on the order or repetition of operations, and never shrinks when bundles are added.", "quantifier": "all histories of insertions, writes, allocations and expansions", "why_tests_cant": "The recursion takes different paths for every shape of the tree, and a node counted twice or missed changes nothing else in the behaviour of the map.", "anchors": ["cslibs_ndt/include/cslibs_ndt/backend/octree.hpp: byte_size, hasChildren, Node::byte_size", "cslibs_ndt/include/cslibs_ndt/map/abstract_map.hpp: getByteSize", "cslibs_ndt/include/cslibs_ndt/common/bundle.hpp: byte_size", "cslibs_ndt/include/cslibs_ndt/common/occupancy_distribution.hpp: byte_size"]}
{"id": "C69", "title": "Markers show the one-sigma ellipsoid of a distribution", "statement": "For every distribution the conversion to markers publishes a sphere whose orientation is a unit quaternion and whose points are exactly those within one standard deviation of the mean, moved and turned by the transform and the origin of the map (seen from above in 2D), down to a thickness of 0.1 mm.", "quantifier": "all covariances, all orthonormal eigenvector matrices the decomposition may return, all origins", "why_tests_cant": "The result depends on the handedness and order of the eigenvectors and on four branches of the conversion of a matrix to a quaternion; a picture of sample maps is not compared with anything.", "anchors": ["cslibs_ndt_2d/include/cslibs_ndt_2d/conversion/distributions.hpp: from (51-77, 144-170)", "cslibs_ndt_3d/include/cslibs_ndt_3d/conversion/distributions.hpp: from (51-75, 143-168)"]}
{"id": "C70", "title": "A score is that of the inserted points in the cells of the query", "statement": "After any history of scans, lookups and growth, the plain score of a point is the mean over the 2^D displaced grids of the density fitted to exactly the inserted normal points in its cell of that grid, and the bilinear score their tent-weighted sum; for occupancy maps each multiplied by the occupancy from the misses of the rays through the cell. Points elsewhere, the order and the division into scans do not matter.", "quantifier": "all histories, poses, point clouds, resolutions, dimensions and queries within the addressable range, static and dynamic maps", "why_tests_cant": "The claim joins the index arithmetic, the insertion, the storage and the sampling over whole histories; a test compares a few scores with a few stored numbers.", "anchors": ["cslibs_ndt/include/cslibs_ndt/map/impl/gridmap.hpp: insert (39-69), sampleNonNormalized (100-178)", "cslibs_ndt/include/cslibs_ndt/map/impl/occupancy_gridmap.hpp: insert (57-97), sampleNonNormalized (243-337)", "cslibs_ndt/include/cslibs_ndt/map/abstract_map.hpp: toBundleIndex (323-330)"]}
{"id": "C71", "title": "A lookup by point returns the distributions of the points in its cells", "statement": "After any history, getDistributionBundle(p) returns null exactly for points a static map does not take and otherwise the bundle that get(p) returns from then on; distribution k of a returned bundle is that of exactly the inserted points in the same cell of grid k as p, none of its pointers is null or dangling, and the lookup changes nothing if the bundle existed.", "quantifier": "all histories, poses, clouds, resolutions and points within the addressable range, static and dynamic maps", "why_tests_cant": "Joins index arithmetic, storage and pointers over whole histories.", "anchors": ["cslibs_ndt/include/cslibs_ndt/map/generic_map.hpp: getDistributionBundle(p), get(p) (120-136, 253-263)", "cslibs_ndt/include/cslibs_ndt/map/abstract_map.hpp: toBundleIndex (323-351), getAllocate (282-306)"]}
{"id": "C72", "title": "validate(pose) tells whether the map covers the pose", "statement": "For every static map and every 2D pose, validate returns true exactly if the position of the pose lies in the box of the map.", "quantifier": "all maps, histories and poses", "why_tests_cant": "Depends on the dimension, the origin and the border of the map; tests use one map around the origin.", "anchors": ["cslibs_ndt/include/cslibs_ndt/map/abstract_map.hpp: validate (228-232)", "cslibs_ndt/include/cslibs_ndt/utility/to_point.hpp: to_point (12-25)", "cslibs_ndt/include/cslibs_ndt/map/generic_map.hpp: valid (166-175)"]}
{"id": "C73", "title": "The reported sizes of a static map agree", "statement": "For every static map the metric size is the difference of the reported corners, the width and height, the number of cells times the resolution and the number of bundles times the bundle resolution.", "quantifier": "all static maps and histories", "why_tests_cant": "A universal equation between five getters.", "anchors": ["cslibs_ndt/include/cslibs_ndt/map/generic_map.hpp: getSizeM, getSize, getBundleSize (51-60, 143-156)", "cslibs_ndt/include/cslibs_ndt/map/abstract_map.hpp: getMin, getMax, getHeight, getWidth (127-143, 185-193)"]}
{"id": "C74", "title": "Pointers to octree elements stay valid and denote one element", "statement": "In every program that creates, copies, destroys, fills, reads and traverses octrees and writes through the pointers they returned, no access is invalid unless a destroyed octree or null pointer is used; every pointer ever returned still shows the present value and index of the element it was returned for; two pointers are equal exactly if they denote the same element. The octree with nodes in memory behaves as the tree-shaped octree the other properties are about.", "quantifier": "all programs, numbers of octrees and indices in range, any value type and dimension", "why_tests_cant": "Aliasing and stability of raw pointers over unbounded histories in an untagged union; tests see a few insertions.", "anchors": ["cslibs_ndt/include/cslibs_ndt/backend/octree.hpp: Node (42-167), insert (170-181, 233-253), get (183-197, 255-287), traverse (199-211, 289-323), computeChildIdx (370-380)"]}
{"id": "C75", "title": "A copy of an octree is independent of its original", "statement": "After copying an octree object, inserting into one of the two objects does not change what the other finds or traverses.", "quantifier": "all programs and octrees", "why_tests_cant": "Implicit copy construction of a class holding a raw root pointer.", "anchors": ["cslibs_ndt/include/cslibs_ndt/backend/octree.hpp: members (382-386), no copy constructor declared"]}
{"id": "C76", "title": "Destroying octrees releases their memory", "statement": "After all octree objects are destroyed no node, array of children or element they allocated remains allocated.", "quantifier": "all programs", "why_tests_cant": "Absence of leaks for all histories; the class owns raw pointers and declares no destructor.", "anchors": ["cslibs_ndt/include/cslibs_ndt/backend/octree.hpp: members (382-386), clear (213-220, 325-345), no destructor declared"]}
{"id": "C77", "title": "Raw pointers held in the bundles of a dynamic map stay valid and denote one cell", "statement": "Throughout any history of updates, lookups and growth of a dynamic map, every pointer to a bundle and every pointer to a distribution held in a bundle stays valid and unchanged; bundles have distinct addresses; two slots hold the same address exactly if they belong to the same family and name the same cell; what is read through a pointer is the result of all changes made to that cell through whichever bundle. The map with pointers behaves as the map in which bundles name cells by index.", "quantifier": "all histories, dimensions, distribution types, indices in range; behavioural equality for all indices", "why_tests_cant": "Pointers are taken while the containers grow (getBundles collects addresses, then bundles are allocated); stability for all histories cannot be sampled.", "anchors": ["cslibs_ndt/include/cslibs_ndt/map/abstract_map.hpp: getBundles (220-226), allocatePartiallyAllocatedBundle(s) (234-260), members (277-280), getAllocate (282-306), expandBundle (313-321)", "cslibs_ndt/include/cslibs_ndt/common/bundle.hpp: Bundle (8-99)", "cslibs_ndt/include/cslibs_ndt/map/generic_map.hpp: dynamic map (217-296)"]}
{"id": "C78", "title": "Extent, origin and index conversion of a mono map agree with its cells", "statement": "getMin and getMax bound exactly the points the map accepts, getMax - getMin is (getWidth, getHeight), and this box is the union of the cells; validate and toIndex accept the same positions; fromIndex gives a position inside of the cell; getOrigin is the world pose of getMin.", "quantifier": "all construction arguments, rigid transforms, histories, points and poses (exact arithmetic)", "why_tests_cant": "The formulas are spread over a constructor and seven accessors; agreement for all transforms and sizes is an equation between them, tests probe single points, usually without rotation.", "anchors": ["cslibs_ndt_2d/include/cslibs_ndt_2d/static_maps/mono_gridmap.hpp: constructors (48-88), getMin, getMax, getOrigin (122-147), getHeight, getWidth (230-238), validate (270-277), toIndex (301-309), fromIndex (311-316)"]}
{"id": "C79", "title": "Mono map objects are independent of each other and const lookups do not change them", "statement": "Changing one mono map object changes no other object; a copy starts with the contents of its source and is independent afterwards; an object made by move construction takes over the contents; const member functions leave the map unchanged.", "quantifier": "all programs of constructions, copies, moves, insertions, changes through getDistribution and const lookups on any number of objects", "why_tests_cant": "Aliasing between objects shows up only after particular interleavings of copies, moves and changes; tests do not enumerate programs.", "anchors": ["cslibs_ndt_2d/include/cslibs_ndt_2d/static_maps/mono_gridmap.hpp: constructors (48-114), insert (168-176), getDistribution (215-223), getAllocate (291-299), mutable storage_ (289), getIndices (256-262)"]}
{"id": "C80", "title": "The map loader nodes publish exactly the loaded maps and report failures", "statement": "If the maps at the given paths can be loaded in double precision, otherwise in float precision, every call of the service publishes exactly the messages made from these maps, with the time of the call; messages of a failed attempt are never published; the service returns whether there is something to publish; a node whose setup fails says so and does not run.", "quantifier": "all paths, file contents, conversions, precisions and sequences of service calls", "why_tests_cant": "State left behind by a failed first attempt matters only for particular combinations of loadable and unloadable files; tests do not enumerate them.", "anchors": ["cslibs_ndt_2d/src/ndt_map_loader.h: run (31-41), setup (57-130), resend (132-162)", "cslibs_ndt_3d/src/ndt_map_loader.h: run (29-39), setup (55-109), resend (111-141)"]}
{"id": "C81", "title": "Means lie in their cells, and the colours of 3D markers span the heights of the map", "statement": "After every history of insertions, lookups and expansions, the mean of every stored distribution is the average of the points of its cell, lies inside of this cell and between getMin and getMax of the map; a distribution without points is a new one. Converting a 3D map to markers hands the colour scale only heights that lie between the given lower and upper height, which differ; occupancy markers are at least as opaque as the threshold.", "quantifier": "all geometries, resolutions, static and dynamic maps, histories, transforms and points within the addressable range", "why_tests_cant": "A mean outside of its cell needs a point accumulated into a wrong storage; the range of heights is wrong only for tilted transforms. Tests look at a few clouds in an aligned frame.", "anchors": ["cslibs_ndt_3d/include/cslibs_ndt_3d/conversion/distributions.hpp: from (22-97, 112-196)", "cslibs_ndt/include/cslibs_ndt/map/impl/gridmap.hpp: insert", "cslibs_ndt/include/cslibs_ndt/map/impl/occupancy_gridmap.hpp: insert", "cslibs_ndt/include/cslibs_ndt/map/generic_map.hpp: getMin, getMax"]}
{"id": "C82", "title": "A map can be moved", "statement": "A program that moves its map (returns it from a function, puts it into a container), destroying the source each time, behaves as if it had not moved it: same distributions in the storages, same distributions behind the pointers of the bundles, same index range; and bundles, read through their pointers, show for each cell exactly what the program did to the cell before and after the moves.", "quantifier": "all configurations, static and dynamic maps, programs of changes, lookups, expansions and moves in any order", "why_tests_cant": "The move constructors run copy constructors of storages while bundles keep raw pointers; whether these stay valid depends on the storage and on when the source dies, and reading freed memory may look right in a test.", "anchors": ["cslibs_ndt/include/cslibs_ndt/map/generic_map.hpp: GenericMap(GenericMap&&) (98-103, 236)", "cslibs_ndt/include/cslibs_ndt/map/abstract_map.hpp: AbstractMap(const AbstractMap&), AbstractMap(AbstractMap&&), getAllocate", "cslibs_ndt/include/cslibs_ndt/map/impl/gridmap.hpp: Map(Map&&)", "cslibs_ndt/include/cslibs_ndt/map/impl/occupancy_gridmap.hpp: Map(Map&&)", "cslibs_ndt/include/cslibs_ndt/map/impl/weighted_occupancy_gridmap.hpp: Map(Map&&)"]}
{"id": "C83", "title": "Likelihood fields show the distance to the nearest occupied place", "statement": "The distance map of a map shows at every pixel the distance to the nearest pixel where the score of the map reaches the threshold, up to the maximum distance; the likelihood field shows exp(-d^2/(2 sigma^2)) of it: at least the value of the maximum distance, at most 1, 1 exactly where the score reaches the threshold, and never smaller when closer.", "quantifier": "all reachable maps, resolutions, thresholds, sigma_hit, plain and bilinear scores, with and without allocation of missing bundles", "why_tests_cant": "Depends on every pixel of every grid, on the exact relation of the resolutions and on the double arithmetic of the factor.", "anchors": ["cslibs_ndt_2d/include/cslibs_ndt_2d/conversion/likelihood_field_gridmap.hpp: from", "cslibs_ndt_2d/include/cslibs_ndt_2d/conversion/distance_gridmap.hpp: from"]}
{"id": "C84", "title": "Restored and converted maps answer every query like the originals", "statement": "A map that was saved and loaded, and a map converted between the dynamic and the static kind, gives for every point the same plain and bilinear score (exact, float and double, with any inverse model) as the original, and after loading or converting back the same exported grids, immediately and after any common later history.", "quantifier": "all reachable maps of all distribution types, all points, resolutions and inverse models, all later histories, all thread schedules", "why_tests_cant": "Equality has to hold for every point and every later history; a lost or misplaced cell shows only at points close to it.", "anchors": ["cslibs_ndt/include/cslibs_ndt/serialization/map.hpp: binary::save, binary::load", "cslibs_ndt/include/cslibs_ndt/conversion/map.hpp: convert", "cslibs_ndt/include/cslibs_ndt/map/impl/gridmap.hpp:100-178", "cslibs_ndt_2d/include/cslibs_ndt_2d/conversion/probability_gridmap.hpp:23-71"]}
{"id": "C85", "title": "The colours of the coloured point cloud span its own heights", "statement": "Converting a 3D occupancy map to a coloured point cloud yields one opaque point for each cell with hits and enough occupancy, at its transformed mean; the colour scale is asked for the height of this point in one common range, which covers the heights of all points, begins and ends at the height of a point, and is not empty.", "quantifier": "all reachable maps, transforms (tilted ones too), inverse models, thresholds, both values of allocate_all", "why_tests_cant": "The range depends on all cells of the map and on the transform; it degenerates only if all points have one height.", "anchors": ["cslibs_ndt_3d/include/cslibs_ndt_3d/conversion/sensor_msgs_pointcloud2_rgb.hpp: ColorTransform, rgbFrom (14-25, 76-111)"]}
{"id": "C86", "title": "Several threads can query one const map", "statement": "Threads that only use const member functions of a map (sampling, bundle lookups) at the same time get the answers each would get alone, and change nothing.", "quantifier": "all maps, any number of threads, any queries, every schedule", "why_tests_cant": "Failures need particular interleavings of allocations in the octree; tests run few schedules.", "anchors": ["cslibs_ndt/include/cslibs_ndt/map/abstract_map.hpp: getAllocate (282-306), mutable members", "cslibs_ndt/include/cslibs_ndt/map/generic_map.hpp: getDistributionBundle const (243-246)", "cslibs_ndt/include/cslibs_ndt/backend/octree.hpp: insert, createChild, get"]}
{"id": "C87", "title": "Storages loaded and saved in parallel are those loaded and saved one after the other", "statement": "When load() fills the storages of a map from one thread each, then under every schedule of the threads no access conflicts with one of another thread, nothing is undefined, every thread finishes, and each storage holds exactly what filling it alone gives. When save() then writes the storages from one thread each, the same holds, the storages do not change, and each thread writes exactly the content of its storage, every index once.", "quantifier": "any number of storages, any insertions and writes, every schedule, any uninitialised sizes", "why_tests_cant": "Interleavings of memory accesses and allocations cannot be enumerated by tests.", "anchors": ["cslibs_ndt/include/cslibs_ndt/serialization/map.hpp: binary::load (115-124)", "cslibs_ndt/include/cslibs_ndt/serialization/storage.hpp: loadStorage (138-165)", "cslibs_ndt/include/cslibs_ndt/backend/octree.hpp: insert", "cslibs_ndt/include/cslibs_ndt/serialization/map.hpp: binary::save (61-69)"]}
{"id": "C88", "title": "A YAML header gives the map back, and an unusable one is reported", "statement": "If the entries written by header::write, in any order and among others, stand in map.yaml beside the files of the storages, then load gives back the map (the empty one too): same origin, resolution, range, bundles and distributions, and alike after every further history. With any other header load returns false.", "quantifier": "all maps reached by any history, all YAML mappings written into, all orders of entries, all schedules of the threads", "why_tests_cant": "save() never writes a YAML header; empty maps, missing or malformed entries and reordered files are special cases, and behaviour after loading ranges over all histories.", "anchors": ["cslibs_ndt/include/cslibs_ndt/serialization/loader.hpp: header::write (182-191, 274-283), header::load (193-202, 285-293)", "cslibs_ndt/include/cslibs_ndt/serialization/map.hpp: load (74-134)"]}
{"id": "C89", "title": "Objective values are finite and accurate in double precision", "statement": "For any scan, finite weights and deviations from the guess, the objective computed in doubles is a finite number equal to the weighted cost up to rounding, whatever scores the map returns (NaN, infinite and subnormal scores count as 0), and mapScore recovers the mean score up to rounding. A perfect fit at the guess has objective exactly 0 and score exactly 1.", "quantifier": "all scans up to 2^50 points, all doubles as scores, weights and deviations up to 2^100, map weights from 2^-100", "why_tests_cant": "Error bounds over all lists of doubles cannot be sampled: cancellation, overflow and the guard against NaN depend on magnitudes and on the order of the additions.", "anchors": ["cslibs_ndt_2d/include/cslibs_ndt_2d/matching/nlopt/gridmap_function.hpp: apply (33-74), mapScore (76-96)", "cslibs_ndt_3d/include/cslibs_ndt_3d/matching/nlopt/gridmap_function.hpp: hypot (34-38), applyRPY (40-83), applyQuaternion (109-155)", "cslibs_ndt_2d/include/cslibs_ndt_2d/matching/alglib/gridmap_function.hpp: apply (33-67), mapScore (69-90)"]}
{"id": "C90", "title": "Occupancy values computed in floating point are probabilities and respond to every observation", "statement": "With T = float or double, the occupancy of a cell after any updates is a number in [0,1], never NaN; it equals the probability of the accumulated log-odds up to rounding; it is never exactly 1; a hit never lowers and a miss never raises it; every hit and miss of a weighted cell is added to its weight. Scores of occupancy maps are therefore in [0,1] without assumption about the occupancies.", "quantifier": "all histories of updates (also past overflow of the counters), all inverse models with log-odds up to 2^20, all weights up to 2^64, both number types, any exponential function with bounded relative error", "why_tests_cant": "Rounding, cancellation between the evidence and the prior, saturation of sums and overflow of exp appear only for particular magnitudes among 2^128 pairs of counters; a test sees a few.", "anchors": ["cslibs_ndt/include/cslibs_ndt/common/occupancy_distribution.hpp: updateFree, updateOccupied (60-84), getOccupancy (96-112)", "cslibs_ndt/include/cslibs_ndt/common/weighted_occupancy_distribution.hpp: updateFree, updateOccupied (57-87), getOccupancy (99-115)"]}
{"id": "C91", "title": "A map built over any number of sessions is the map built in one", "statement": "A program that saves its map, ends, loads it in a new process and goes on, any number of times and with binary or YAML headers, ends with the same bundles, values, range, origin and resolution, and the same answers to every query and exported grid, as the program that was never ended.", "quantifier": "all histories of insertions, lookups and completions within range, all positions and numbers of restarts, all schedules of the saving and loading threads, all contents of fresh memory, plain and occupancy distributions, every number of dimensions", "why_tests_cant": "One round trip can be tested; the loaded map is represented differently from the saved one (complete bundles without neighbour flags, other order), so that the next save, expansion or lookup starts from a state no single-session test produces, and differences may appear only after several restarts.", "anchors": ["cslibs_ndt/include/cslibs_ndt/serialization/map.hpp: save (24-72), load (74-134)", "cslibs_ndt/include/cslibs_ndt/serialization/loader.hpp: 150-300", "cslibs_ndt/include/cslibs_ndt/map/abstract_map.hpp, generic_map.hpp, impl: all operations"]}
{"id": "C92", "title": "Pose updates in double precision neither drift nor leave the range", "statement": "Every update of Euler angles by finite increments gives finite angles strictly between -pi and pi that are the clamped sum up to 7 roundoffs. After any number N of quaternion updates with finite increments the quaternion is finite and within 16 N roundoffs of the exact turn about the vertical axis by the sum of the angles, although nothing normalizes it; its length and roll and pitch drift no more than in proportion to N, and an upright pose stays upright exactly.", "quantifier": "all finite doubles as angles and increments, all finite quaternions of length at most 17/16, all sequences of up to 2^45 updates", "why_tests_cant": "Rounding errors depend on the particular doubles and accumulate over iterations; tests run few updates on few poses with tolerances far above the drift of one update, so that a slow loss of the unit length or of roll and pitch goes unnoticed.", "anchors": ["cslibs_ndt/include/cslibs_ndt/matching/ceres/local_parameterization.hpp: clamp (11-17), EulerPlus (27-33), YawOnlyEulerPlus (43-50), YawOnlyQuaternionPlus (60-71)"]}
{"id": "C93", "title": "The scan keeps its shape in double precision through the whole optimisation", "statement": "The points the ceres functors look up in the map, computed in doubles, are the scan points moved by one exact rigid motion up to rounding: for quaternions after any number of solver updates without normalisation, for roll, pitch, yaw and in the plane for any accurate sine and cosine. Distances between scan points change by rounding errors only, with a bound per update.", "quantifier": "all finite poses, all sequences of up to 2^45 updates, all scan points and translations up to 2^100, every sine and cosine accurate to two roundoffs", "why_tests_cant": "Drift of the length of the quaternion and the order of the roundings over arbitrarily long optimisations and all scans cannot be sampled; a test compares a few poses with a tolerance.", "anchors": ["cslibs_ndt/include/cslibs_ndt/matching/ceres/map/scan_match_cost_functor_3d_quaternion.hpp: operator() (22-43)", "cslibs_ndt/include/cslibs_ndt/matching/ceres/map/scan_match_cost_functor_3d_rpy.hpp: toEigen (25-44), operator() (46-67)", "cslibs_ndt/include/cslibs_ndt/matching/ceres/map/scan_match_cost_functor_2d.hpp: operator() (22-41)", "cslibs_ndt/include/cslibs_ndt/matching/ceres/local_parameterization.hpp: YawOnlyQuaternionPlus (53-72)"]}
{"id": "C94", "title": "Scan points are scored in the bundle into which the exact motion takes them", "statement": "The ceres functors move a scan point and look it up in doubles. The index they compute is that of the bundle into which the exact rigid motion (all updates of the optimisation, without rounding) takes the point, unless it lies within the error of the motion and 2^-50 per bundle of distance from the origin of the border of that bundle. The score is then the mean of the densities of the distributions of that bundle at the exact position, up to rounding, the error of the densities and their slope times the error of the motion; it is 0 if the bundle does not exist.", "quantifier": "all maps with any history, all finite poses, all sequences of up to 2^45 updates, all scan points and translations up to 2^100, all resolutions between 2^-100 and 2^100, all indices, every density function with bounded slope", "why_tests_cant": "Whether rounding ever moves a point into the neighbouring bundle depends on all bits of pose, point and resolution; the chain of roundings from the solver to the score cannot be sampled.", "anchors": ["cslibs_ndt/include/cslibs_ndt/matching/ceres/map/scan_match_cost_functor_3d_quaternion.hpp: operator() (22-43)", "cslibs_ndt/include/cslibs_ndt/matching/ceres/map/scan_match_cost_functor_3d_rpy.hpp: operator() (46-67)", "cslibs_ndt/include/cslibs_ndt/matching/ceres/map/scan_match_cost_functor_2d.hpp: operator() (22-41)", "cslibs_ndt_3d/include/cslibs_ndt_3d/matching/ceres/map/gridmap_cost_functor.hpp: Evaluate (35-41)", "cslibs_ndt/include/cslibs_ndt/map/impl/gridmap.hpp: sampleNonNormalized (100-137)", "cslibs_ndt/include/cslibs_ndt/map/abstract_map.hpp: toBundleIndex (323-339)"]}
{"id": "C95", "title": "Conversion to a 2D grid is sound and accurate in floating-point arithmetic", "statement": "The conversion of a map to a probability grid computes the size of the grid, the width of a chunk, the sampling points and the bilinear weights in the number type of the map. Whatever the resolutions, also if they do not divide, it writes inside of the grid only, gives different bundles different pixels and leaves all other pixels at the default value. A sampling point is the exact one up to four roundings, and a pixel is the plain or bilinear mean of the scores of its bundle at that point up to 56 roundings.", "quantifier": "float and double; all 2D maps with any history, with or without allocation of all bundles, all resolutions between 2^-100 and 2^100, all bundles and pixels; maps that span at most 2^22 (float) or 2^30 (double) pixels per axis", "why_tests_cant": "Whether the ceiling of one rounded quotient is at least the number of bundles times the truncation of another depends on every bit of both resolutions and on the size of the map; tests use a few resolutions.", "anchors": ["cslibs_ndt_2d/include/cslibs_ndt_2d/conversion/probability_gridmap.hpp: from (26-71)", "cslibs_ndt/include/cslibs_ndt/map/abstract_map.hpp: getHeight, getWidth (185-193)", "cslibs_ndt/include/cslibs_ndt/utility/bilinear_interpolation.hpp: to_bilinear_interpolation_weight (38-75)"]}
{"id": "C96", "title": "Conversion of a mono grid map to a probability grid reads the right existing cells in floating-point arithmetic", "statement": "The conversion of the grid map with one distribution per cell computes the number of pixels and the cell of each pixel by two different rounded expressions in the number type of the map. Every pixel must read one of the cells of the map, namely the one that contains its position, and show the score of its distribution if it is a probability.", "quantifier": "float and double; all grid maps with any history, all resolutions between 2^-100 and 2^100 with a sampling resolution not coarser than the map, all pixels; at most 2^22 (float) or 2^30 (double) pixels per axis", "why_tests_cant": "Whether the truncation of one rounded quotient stays below the number of cells for the last pixel of the ceiling of another depends on every bit of both resolutions and on the size: 3, 6 and 12 cells of 0.1 fail where 4, 5 and 7 do not. An out-of-bounds read does not fail a test either.", "anchors": ["cslibs_ndt_2d/include/cslibs_ndt_2d/conversion/probability_gridmap.hpp: from (180-217), validate (14-21)", "cslibs_ndt_2d/include/cslibs_ndt_2d/static_maps/mono_gridmap.hpp: sampleNonNormalized (199-204), getResolution, getHeight, getWidth (225-238)"]}
{"id": "C97", "title": "Points of a mono grid map are kept in the cell that contains them in floating-point arithmetic", "statement": "The grid map with one distribution per cell multiplies a point by the rounded reciprocal of the resolution and takes the floor as index. Every point in one of the cells must be inserted into, and be looked up and scored with, the distribution of the cell that contains it; the conversion to a probability grid shows these distributions.", "quantifier": "float and double; all grid maps and histories, all resolutions between 2^-100 and 2^100, all points at most 2^30 cells from the origin of the map", "why_tests_cant": "Points within a few roundings of the border of a cell are put into the neighbour, depending on every bit of the point and the resolution; for the last row or column this is a read outside of the storage, which a test need not notice, and for the first one a silent loss of the point.", "anchors": ["cslibs_ndt_2d/include/cslibs_ndt_2d/static_maps/mono_gridmap.hpp: constructors (48-88), insert (168-176), sample, sampleNonNormalized, get (178-213), toIndex (301-309)", "cslibs_ndt_2d/include/cslibs_ndt_2d/conversion/probability_gridmap.hpp: from (180-217)"]}
{"id": "C98", "title": "A merged map looks up every point in the bundle of its source in floating-point arithmetic", "statement": "The grid map with one distribution per cell that is created from a dynamic map must look up and score every point with the merged distributions of the bundle in which the source looks it up, bit for bit, and points without bundle must have the score 0; its conversion to a probability grid must show these scores.", "quantifier": "float and double; all dynamic 2D maps and histories, all resolutions, all points whose index is an int; for the grid: sampling resolutions not coarser than a bundle, at most 2^22 (float) or 2^30 (double) pixels per axis", "why_tests_cant": "Both maps round the reciprocal of a resolution and the product with a coordinate; that both get the same index for every point and every resolution is a statement about all bits. Outside of the source the created map reads beyond its storage, which a test need not notice.", "anchors": ["cslibs_ndt_2d/include/cslibs_ndt_2d/conversion/merge.hpp: merge (10-41)", "cslibs_ndt_2d/include/cslibs_ndt_2d/static_maps/mono_gridmap.hpp: constructor (48-66), sample, sampleNonNormalized, get (178-213), toIndex (301-309)", "cslibs_ndt_2d/include/cslibs_ndt_2d/conversion/probability_gridmap.hpp: from (180-217)", "cslibs_ndt/include/cslibs_ndt/map/abstract_map.hpp: getBundleResolution (175-178)"]}
{"id": "C99", "title": "Distance maps and likelihood fields show the nearest hit of scores in floating-point arithmetic", "statement": "The distance map of a map must show at every pixel the distance to the nearest pixel whose mean score reaches the threshold, up to the maximum distance, and the likelihood field exp(-d^2 / (2 sigma^2)) of this distance d, although the scores that are compared with the threshold are rounded.", "quantifier": "float and double; all 2D maps and histories, all resolutions and sampling resolutions between 2^-100 and 2^100, all thresholds in (0,1] and maximum distances, all scores in [0,1], all correct distance transforms; at most 2^22 (float) or 2^30 (double) pixels per axis", "why_tests_cant": "One pixel that falls on the wrong side of the threshold changes the distances of all pixels near to it. Whether the rounded mean can cross the threshold, and how far the exact mean must be from it to exclude this, depends on all scores and weights.", "anchors": ["cslibs_ndt_2d/include/cslibs_ndt_2d/conversion/distance_gridmap.hpp: from (17-129)", "cslibs_ndt_2d/include/cslibs_ndt_2d/conversion/likelihood_field_gridmap.hpp: from (17-147)", "cslibs_ndt_2d/include/cslibs_ndt_2d/conversion/probability_gridmap.hpp: from"]}
