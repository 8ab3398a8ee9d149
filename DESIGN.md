# Formal model of cslibs_ndt: design

Tool: Coq 8.16.1. Sources modelled: `/repo` (cslibs_ndt, cslibs_ndt_2d, cslibs_ndt_3d), read as
text; nothing of it was built or run. Every Gallina definition that models code cites file and lines.

## Conventions

* An index (`std::array<int,Dim>`) is a `list Z` of length `Dim`; theorems are for every `Dim` unless the
  code itself is 2D or 3D.
* Undefined behaviour, exceptions and normal results are different outcomes (`Ok`, `UB`, `Throw`,
  `Base.v`); "never UB" is something a theorem has to say. Signed overflow, conversion of a number
  outside of the int range, access outside of an array and dereferencing a null or dangling pointer are `UB`.
* Code outside of `/repo` is never described by an axiom. It enters as function arguments, records or
  hypotheses of the theorems: the statistics type (`StableDistribution`), the inverse sensor model,
  the line iterators, the array backend, `isNormal`, `io<T>::read/write`, the filesystem.
* Files: `*Model.v` = definitions of the code; `*Spec.v` = the vocabulary of the property statements,
  independent of the model; `*Facts.v` = proofs; `Prop_*.v` = the property theorems, each
  `exact lemma.` followed by `Print Assumptions`, with concrete `Example`s that meet its hypotheses beside it.
  `Samples.v`, `SerialSamples.v`, `FileSamples.v` hold the concrete maps used in examples and witnesses.
* A property that the faithful model violates gets a theorem `..._refuted : exists ...` with a concrete
  witness, and `..._partial` theorems with the strongest guard found; its status in MANIFEST is `partial`.
* Both kinds of maps (dynamic/octree, static/array) are one model (`SysModel.v`) over a backend interface
  (`BackendModel.v`), parametrised by a `config`: dimension, kind, size, neighbour offsets, default
  distribution, merge strategy, condition for completion, and the garbage in uninitialised counters.


## Per property

The full statements are in `properties.jsonl`, notes on what is missing in `MANIFEST.json`.

| id | property | status | where | how |
|----|----|----|----|----|
| C01 | A bundle refers to exactly the overlapping cells that contain it | proved | `Prop_Index` | shifts and masks rewritten to div/mod, then arithmetic; induction on the dimension |
| C02 | Each cell is shared by exactly 2^D bundles | proved | `Prop_Index` | shifts and masks rewritten to div/mod, then arithmetic; induction on the dimension |
| C03 | Compile-time index sequences are complete and ordered | proved | `Prop_Index` | strong induction on N |
| C04 | The octree behaves like a map from indices to values | proved | `Prop_Octree` | induction on the depth; refinement to a history of insertions and writes |
| C05 | Octree traversal visits every stored element exactly once | proved | `Prop_Octree` | induction on the depth; refinement to a history of insertions and writes |
| C06 | Distinct indices never collide in the dynamic map | partial | `Prop_Octree` | child numbers depend on the 16 low bits only; witnesses by computation |
| C07 | A static map never touches storage out of bounds | proved | `Prop_Static` | arithmetic per axis, lifted to histories by the map invariant |
| C08 | A static map accepts its whole advertised extent | partial | `Prop_Static` | arithmetic per axis, lifted to histories by the map invariant |
| C09 | After any history each cell aggregates exactly the points that fell into it | proved | `Prop_Map` | invariant "every slot of every bundle refers to its cell, every cell belongs to a bundle" over all histories; content of a cell as a fold over its points |
| C10 | Insertion order and batching do not matter | proved | `Prop_Map` | invariant "every slot of every bundle refers to its cell, every cell belongs to a bundle" over all histories; content of a cell as a fold over its points |
| C11 | Sample counts are conserved in every family | proved | `Prop_Map` | invariant "every slot of every bundle refers to its cell, every cell belongs to a bundle" over all histories; content of a cell as a fold over its points |
| C12 | The dynamic map's index range is the tight bounding box of its bundles | partial | `Prop_Map` | the range is part of the invariant; lexicographic reading refuted |
| C13 | Lookups and sampling do not change the map | partial | `Prop_Sample` | frame lemmas; score as explicit mean |
| C14 | Completing partially allocated bundles is safe and eventually complete | proved | `Prop_Map` | invariant "every slot of every bundle refers to its cell, every cell belongs to a bundle" over all histories; content of a cell as a fold over its points |
| C15 | Sampled scores are normalised and missing data scores zero | partial | `Prop_Sample` | frame lemmas; score as explicit mean |
| C16 | Bilinear weights are a partition of unity | proved | `Prop_Sample` | induction on the dimension over Q |
| C17 | Bilinear interpolation is continuous across bundle borders | proved | `Prop_Sample` | induction on the dimension over Q |
| C18 | Occupancy values are probabilities and respond monotonically | proved | `Prop_Odds` | monotonicity of the logistic function over R, counters modulo 2^64 |
| C19 | Copying a distribution yields an independent object | partial | `Prop_Heap` | heap of counted objects; reachability and frame lemmas |
| C20 | Merging distributions does not create sharing | partial | `Prop_Heap` | heap of counted objects; reachability and frame lemmas |
| C21 | A copied map is independent of its source | partial | `Prop_Copy` | simulation of both maps over one heap; witnesses by computation |
| C22 | Map conversion preserves all content | proved | `Prop_Conv` | fold over the bundles in traversal order, content invariant |
| C23 | Saved storages load back identically | proved | `Prop_Serial` | byte codecs; induction on the list of records; exact prefix for the wrong counter |
| C24 | Saved weighted occupancy storages load back identically | partial | `Prop_Serial` | byte codecs; induction on the list of records; exact prefix for the wrong counter |
| C25 | The map header round-trips | proved | `Prop_Serial` | byte codecs; induction on the list of records; exact prefix for the wrong counter |
| C26 | A static map can be loaded whatever its minimum index | partial | `Prop_Static` | arithmetic per axis, lifted to histories by the map invariant |
| C27 | A map written by save() is restored by load() | partial | `Prop_File`, `Prop_StaticFile` | composition of C23, C25 and C28; bisimulation of map and loaded map for later histories; static maps: a second simulation between arrays of the original and of the smaller loaded size |
| C28 | save/load report success exactly when every storage succeeded | partial | `Prop_Thread` | invariants over all schedules of read / operation / write; hiding schedule constructed for any failure |
| C29 | Saving over an existing map never destroys it without a complete replacement | partial | `Prop_Crash` | save as a sequence of effects in any allowed order; crash = any prefix |
| C30 | Truncated map files are rejected | partial | `Prop_Serial` | cuts at record boundaries behave as shorter files |
| C31 | Occupancy insertion counts hits and misses exactly | proved | `Prop_Occ` | histories of rays, any iterator and hash order; counters as a commutative monoid |
| C32 | Visibility-checked insertion treats rays independently | partial | `Prop_Vis` | exact outcome by induction on the rays; numbers abstract |
| C33 | Grid conversion writes every target cell of every bundle once, in bounds | partial | `Prop_Grid` | every pixel has exactly one bundle and chunk if the resolutions divide; witnesses otherwise |
| C34 | A mono grid map never accesses a cell outside its array | partial | `Prop_Mono` | histories of insertions and cell writes; double counting of cells and bundles; witnesses |
| C35 | Merging a dynamic map into a mono map counts every point once | partial | `Prop_Mono` | histories of insertions and cell writes; double counting of cells and bundles; witnesses |
| C36 | Angular residuals are shortest signed differences | proved | `Prop_Match` | trigonometry and quaternion algebra over R |
| C37 | The yaw-only quaternion update stays on the unit sphere and only changes yaw | partial | `Prop_Match` | trigonometry and quaternion algebra over R |
| C38 | Euler-angle updates keep the represented rotation | partial | `Prop_Match` | trigonometry and quaternion algebra over R |
| C39 | The quaternion rotation prior is minimal at the reference rotation | partial | `Prop_Match` | trigonometry and quaternion algebra over R |
| C40 | NaN residuals are filtered in scan matching | partial | `Prop_Residual` | case analysis on IEEE values |
| C41 | mapScore recovers the mean map score | partial | `Prop_Objective` | algebra over R; witnesses with explicit scans |
| C42 | The ordered index set answers box queries exactly | proved | `Prop_IndexSet` | induction on the dimension, sorted nested maps |
| C43 | Points map to the bundle that contains them | proved | `Prop_Extent` | floor lemmas over Q |
| C44 | The octree reports how many elements it holds | partial | `Prop_Octree`, `Prop_Bytes` | counting invariant over the history; number of nodes as number of occupied blocks by induction over the tree |
| C45 | getOrigin is the world pose of the map minimum corner | partial | `Prop_Extent` | floor lemmas over Q |
| C46 | Extent queries are defined for every dynamic map | partial | `Prop_Map` | the range is part of the invariant; lexicographic reading refuted |
| C47 | save() reports write errors | partial | `Prop_File` | the result does not mention the bytes on disk |
| C48 | The line query of the index container returns the indices near the segment | partial | `Prop_IndexSet` | induction on the dimension, sorted nested maps |
| C49 | Numeric and automatic differentiation minimise the same function | partial | `Prop_Eval` | both loops reduced to the same sum |
| C50 | The deviation penalty vanishes exactly at the initial guess | partial | `Prop_Objective` | algebra over R; witnesses with explicit scans |
| C51 | The angles of the RPY matcher describe roll, then pitch, then yaw | proved | `Prop_Match` | trigonometry and quaternion algebra over R |
| C52 | The translation prior is minimal exactly at the reference | proved | `Prop_Match` | trigonometry and quaternion algebra over R |
| C53 | A probability grid of a mono map shows the map scores | partial | `Prop_Mono` | histories of insertions and cell writes; double counting of cells and bundles; witnesses |
| C54 | A merged mono map scores points in the frame of its distributions | partial | `Prop_Mono` | histories of insertions and cell writes; double counting of cells and bundles; witnesses |
| C55 | Map loader nodes serve maps of either precision | partial | `Prop_Node` | load never returns failure (no operation returns false, nothing throws), so the second setup is unreachable |
| C56 | A map with a YAML header is read from its own directory | partial | `Prop_Path` | paths as component lists |
| C57 | The index of a point computed in double precision is that of its bundle | partial | `Prop_Round`, `Prop_Float` | relative rounding errors (Flocq) of the inverse and the product, transferred from R to Q; for either precision with the conversions between float and double |
| C58 | Automatic derivatives are the derivatives of the residuals | partial | `Prop_Jet` | Jets as dual numbers over R; a Jet "tracks" a function if it has its value and derivative, shown for every operation and loop; indices are constant near points off the borders |
| C59 | Scan points are moved rigidly by the motion the parameters describe | partial | `Prop_Rigid` | polynomial identities over R |
| C60 | The cost of a matching problem is the weighted sum of its three terms | partial | `Prop_Problem` | sums over residual blocks; induction over the solver steps |
| C61 | Yaw-only matching never changes height, roll or pitch | proved | `Prop_Problem` | sums over residual blocks; induction over the solver steps |
| C62 | A step of length zero leaves the pose unchanged | partial | `Prop_Problem` | sums over residual blocks; induction over the solver steps |
| C63 | The interpolating functor reproduces the map residual smoothly | partial | `Prop_Cubic` | pieces of the spline share value and derivative at the sampling points |
| C64 | The point cloud message can be read back | partial | `Prop_Cloud` | bytes at an offset of a concatenation of blocks of 16 |
| C65 | The point cloud shows every cell with samples exactly once | partial | `Prop_Cloud` | loops over the storages as a fold; the keys of the storages after a history from C01 and C25 |
| C66 | Markers have distinct identifiers and show each decomposable cell once | proved | `Prop_Cloud` | the same fold with a counter |
| C67 | Scores in floating-point arithmetic are normalised and accurate | partial | `Prop_Float` | induction over the slots with the accumulated rounding error (Flocq); the plain score stays below k/2^D after k slots as these numbers are representable |
| C68 | Reported memory is what the contents cost | proved | `Prop_Bytes` | induction over the tree against the traversal list: different children hold different blocks of every smaller side; the well-formedness invariant of the octree says that every inner node has a child |
| C69 | Markers show the one-sigma ellipsoid of a distribution | partial | `Prop_Marker` | Eigen's conversion of a matrix to a quaternion is modelled with its four branches; each is shown to give the rotation of the matrix (determinant 1) by polynomial identities; the eigen basis turns the ellipsoid into a stretched ball |
| C70 | A score is that of the inserted points in the cells of the query | partial | `Prop_Local` | the contents theorems (C11, C31), the index theorems (C01) and the sampling theorems (C15) are put together: a point is in a cell of the bundle of the query iff the halved floors agree, which is arithmetic of floors |
| C71 | A lookup by point returns the distributions of the points in its cells | proved | `Prop_Lookup` | the storage invariant says that every slot of a bundle points to its cell and that the cell exists; the value is the history of C11 with the floors of C70, and of C31 for occupancy maps |
| C72 | validate(pose) tells whether the map covers the pose | partial | `Prop_Lookup` | `valid` of a reachable map is that of the new one; floors of C70; the 3D map above the ground by computation of the third coordinate |
| C73 | The reported sizes of a static map agree | partial | `Prop_Lookup` | the range of a static map never changes (induction over the operations); arithmetic |
| C74 | Pointers to octree elements stay valid and denote one element | proved | `Prop_TreeHeap` | representation relation between memory and the octree of `OctreeModel` with explicit, pairwise disjoint footprints; frame lemma; induction over the tree depth for each operation, then over the program; pointers are stable because memory only grows (`grows`) |
| C75 | A copy of an octree is independent of its original | partial | `Prop_TreeHeap` | copied root pointers stay equal (induction over the program); contents of copies of empty octrees stay apart; witness for the refutation |
| C76 | Destroying octrees releases their memory | partial | `Prop_TreeHeap` | induction over the program; witness for the refutation |
| C77 | Raw pointers held in the bundles of a dynamic map stay valid and denote one cell | proved | `Prop_PtrMap` | simulation between the map with octrees and pointers in memory and the map with indices, including undefined behaviour; footprints of the octrees disjoint; roots and filled pointers never change; history theorem for the values |
| C78 | Extent, origin and index conversion of a mono map agree with its cells | partial | `Prop_MonoObj` | cell boxes from the floor function; rigid transforms given by cosine and sine over the rationals; accessors evaluated on every reachable map |
| C79 | Mono map objects are independent of each other and const lookups do not change them | partial | `Prop_MonoObj` | invariant over programs read backwards: objects and storages, sharing by moves, one history per object; cell contents by the history theorem of C34 |
| C80 | The map loader nodes publish exactly the loaded maps and report failures | partial | `Prop_NodeState` | case analysis over the setup; invariant of the members that hold messages, induction over service calls |
| C81 | Means lie in their cells, and the colours of 3D markers span the heights of the map | partial | `Prop_Height` | every storage holds the distribution of the points of its cell (C70); averages stay in boxes; points lie between getMin and getMax because every bundle of a point is inside of the index range; counterexample with a quarter turn |
| C82 | A map can be moved | partial | `Prop_Move` | simulation between the map with pointers into its storages and the map with indices, for both kinds of storage and any numbering of the storages; either no octree has a root (copies are new) or all have (copies are shared); freed arrays for static maps |
| C83 | Likelihood fields show the distance to the nearest occupied place | partial | `Prop_Likelihood` | composition of the grid theorem of C33 with the specification of a distance transform; monotonicity of exp; rounding of the factor with Flocq; counterexamples |
| C84 | Restored and converted maps answer every query like the originals | partial | `Prop_Query` | composition of the round trips of C22 and C27 (strengthened to an intact map with the same content) with the scores: bundle, slots and stored values agree for every index; grids through the pixel theorem of C33; counterexamples |
| C85 | The colours of the coloured point cloud span its own heights | partial | `Prop_Rgb` | minimum and maximum of a list by induction, on top of the cells shown by C65; counterexample |
| C86 | Several threads can query one const map | partial | `Prop_Share`, `Prop_ShareMap` | programs that access memory one location at a time; for programs without writes induction over the schedule; on top of C77 for the state after a history; two schedules as counterexamples; for one thread an invariant of the shared octrees, which are disjoint trees in one memory |
| C87 | Storages loaded and saved in parallel are those loaded and saved one after the other | proved | `Prop_Share`, `Prop_ShareMap` | every thread simulates its run alone up to a renaming of addresses (parametricity of the octree programs), address sets stay disjoint: induction over the schedule; on top of C74, C04 and C05; saving: programs without writes |
| C88 | A YAML header gives the map back, and an unusable one is reported | partial | `Prop_Yaml` | the tree written is read back entry by entry; after the header the same steps as with a binary one (C27); maps with the same bundles have the same range also without any |
| C89 | Objective values are finite and accurate in double precision | partial | `Prop_ObjFloat`, `Prop_OccObjFloat`, `Prop_ScanFloat` | forward error analysis on top of Flocq: every operation keeps a bound on the distance to the exact value, induction over the points; scores that are not normal are within 2^-1022 of 0; zeros are computed exactly; composition with the scores of C67 |
| C90 | Occupancy values computed in floating point are probabilities and respond to every observation | partial | `Prop_OddsFloat` | forward error analysis on top of Flocq through sums and the logistic function (Lipschitz constant 1/4); monotone rounding for the order; the correctly rounded exponential function as instance; counterexamples; composition with C67 |
| C91 | A map built over any number of sessions is the map built in one | partial | `Prop_Session` | induction over the steps of the program: maps with the same bundles and values stay so under common actions, saving and loading gives such a map from any state with the invariants of C27, not only from one that a history made; with C84 for the queries; for static maps, whose loaded arrays are smaller, a third map with arrays of the original sizes is carried along that looks like both |
| C92 | Pose updates in double precision neither drift nor leave the range | proved | `Prop_StepFloat` | forward error analysis of one update (C89 lemmas), isometry of the exact update and the triangle inequality in four dimensions, induction over the updates; monotone rounding and the overflow case for Euler angles; M_PI below pi by the Machin series of the standard library |
| C93 | The scan keeps its shape in double precision through the whole optimisation | proved | `Prop_MoveFloat` | forward error analysis in units of the greatest coordinate (one lemma for all three coordinates by cyclic symmetry), Lipschitz bound of the rotation in the quaternion, normalised start and triangle inequality, composition with C92; Lipschitz bounds of sine and cosine from the standard library for angles |
| C94 | Scan points are scored in the bundle into which the exact motion takes them | partial | `Prop_ScanPlace` | composition of C93 (motion), C57 (index) and C67 (score); slope of normal densities by Cauchy-Schwarz for the information matrix and the mean value theorem; a tie in rounding as counterexample; occupancy maps as maps of the products, with the error of C90 |
| C95 | Conversion to a 2D grid is sound and accurate in floating-point arithmetic | partial | `Prop_GridFloat` | forward error analysis of both quotients on top of Flocq, integrality for the comparison of the rounded sizes, the write loops as in the exact model (C33) with the invariants of the history, error of the weighted sums as in C67; counterexamples by computation, the failing write from a lemma that a successful conversion stays inside |
| C96 | Conversion of a mono grid map to a probability grid reads the right existing cells in floating-point arithmetic | partial | `Prop_MonoFloat` | forward error analysis of the quotient on top of Flocq, monotone rounding reduces all pixels to the last one, the write loops as in the exact model with the invariants of the history, every successful loop step for the converse; counterexamples from the theorem and by computation |
| C97 | Points of a mono grid map are kept in the cell that contains them in floating-point arithmetic | partial | `Prop_MonoPoint` | forward error analysis of the product with the rounded reciprocal on top of Flocq; a refinement: each point is represented by the exact corner of its computed cell, for which the floating-point run equals the exact run of `MonoModel`, so that the invariants of C34 and the conversion of C96 apply; counterexamples from the theorem |
| C98 | A merged map looks up every point in the bundle of its source in floating-point arithmetic | partial | `Prop_MergeFloat` | both maps compute the same rounded reciprocal, so the index of the source is that of the merged map; the invariant of the merge (C35, C54) gives the contents of each cell, the conversion of C96 is applied to the merged map; counterexample by computation |
| C99 | Distance maps and likelihood fields show the nearest hit of scores in floating-point arithmetic | partial | `Prop_DistFloat` | the grid of C95 has every exact mean up to 56 roundings and 0 elsewhere; a correct transform of this grid is bounded by the pixels surely above and attained at one possibly above the threshold; counterexample by computation for all correct transforms |

## What is modelled

Under `/repo/cslibs_ndt/include/cslibs_ndt/`:

| code | model |
|----|----|
| utility/{integer_sequence,merge,to_point,for_each,create,bilinear_interpolation,binary_indices}.hpp | `SeqModel`, `IndexModel`, `SampleModel` |
| backend/octree.hpp | `OctreeModel` (shape of the tree, bit-level child numbers, `size_` from uninitialised memory), `CopyModel` (shared children), `MoveModel` (moves), `ShareModel` (several threads: programs that access one location at a time, sequentially consistent, allocation atomic, arrays of children and data complete before they are published, a value read and changed at once, `children_` and `root_` read once per test, no `updateIndices`), `TreeHeapModel` (nodes, arrays of children and data as separate objects in memory reached through pointers, implicit copy and destruction) |
| common/{bundle,occupancy_distribution,weighted_occupancy_distribution}.hpp | `MapModel`, `OddsModel` (values over R), `OddsFloatModel` (in floating point), `HeapModel` (shared pointers) |
| map/abstract_map.hpp, map/generic_map.hpp, map/impl/{gridmap,occupancy_gridmap,weighted_occupancy_gridmap}.hpp | `MapModel`, `SysModel`, `InsertModel`, `SampleModel`, `ExtentModel`, `VisModel` (`insertVisible`), `RoundModel` (`toBundleIndex` in doubles), `CopyModel` (copy constructors), `LookupModel` (lookups by point and pose, static sizes), `PtrMapModel` (dynamic maps with octrees in memory and raw pointers in the bundles) |
| map/impl/utility.hpp | `IndexSetModel` |
| conversion/map.hpp | `ConvModel` |
| serialization/{storage,loader,map,filesystem}.hpp | `SerialModel` (bytes), `LoaderModel` (sizes and offsets of static maps), `ThreadModel`, `FileModel`, `CrashModel`, `SessionModel` (a program that restarts), `PathModel` (choice of the header file), `YamlModel` (YAML headers as trees) |
| matching/ceres/** | `MatchModel` (parameterizations over R, `StepFloatModel`, `MoveFloatModel` in doubles; rotation and translation residuals), `ResidualModel` (the NaN guard, over IEEE doubles and jets), `EvalModel`, `JetModel` (residuals with derivatives over R), `CubicModel` (INTERPOLATION functors), `ProblemModel` (problem.hpp, the creators) |
| matching/{nlopt,alglib}/** with the 2D and 3D functions | `ObjectiveModel` (exact), `ObjFloatModel`, `OccObjFloatModel` (doubles), `ScanFloatModel` (doubles, on top of `FloatModel`) |

Under `/repo/cslibs_ndt_2d/include/cslibs_ndt_2d/`: conversion/{probability_gridmap,distance_gridmap,likelihood_field_gridmap}.hpp
(`GridModel`; probability_gridmap in floating point in `GridFloatModel` and, for mono maps, `MonoFloatModel` with points in `MonoPointModel` and creation in `MergeFloatModel`, distance maps and likelihood fields in `DistFloatModel`), static_maps/mono_gridmap.hpp and conversion/merge.hpp (`MonoModel`, accessors and objects in `MonoObjModel`), the 2D cost functors
(`EvalModel`, `ResidualModel`), conversion/distributions.hpp (`CloudModel`: which distributions are shown; `MarkerModel`: pose and size). Under `/repo/cslibs_ndt_3d`:
conversion/{sensor_msgs_pointcloud2,sensor_msgs_pointcloud2_rgb,distributions}.hpp (`CloudModel`; `HeightModel`, `RgbModel`: the heights given to the colour scale, not the scale itself). `src/ndt_map_loader.h` of 2D and 3D: the choice of the precision (`NodeModel`).

Simplifications, each also stated where it is made:

* Numbers. Indices are `Z` with explicit range checks. Coordinates, weights and scores are rationals
  (exact); log-odds, angles and quaternions are Coq reals (exact); the NaN guard is over
  `Coq.Floats.SpecFloat` doubles. Rounding is therefore not covered except where numbers are abstract
  (`VisModel`) or IEEE numbers (`ResidualModel`, `RoundModel`; `FloatModel` for index and scores in float and double, `ObjFloatModel` for the nlopt and alglib objectives, every operation rounded to its type, no fused or extended arithmetic). C33 treats the rounded quotient of the resolutions as a parameter, C95 computes it.
* Jets carry one derivative component (every component behaves alike); `Evaluate` of a functor is total in
  `ProblemModel` and `CubicModel`.
* `std::shared_ptr`s of storages are not modelled in `SysModel` (one map object); sharing between copies is
  the subject of `HeapModel` and `CopyModel`, which have their own heap.
* Statistics (`StableDistribution`) are an abstract type with an `add` or `merge`; C10 and C11 assume exact
  commutative accumulation.
* Hash order of `std::unordered_map`s is an arbitrary permutation, schedules of threads are arbitrary lists
  of steps. `std::atomic_bool` is sequentially consistent.
* The body of `traverse` callbacks cannot throw.

Not modelled: the text of YAML headers, `binary_gridmap.hpp` (the header cannot be compiled once instantiated: its lambda uses a variable it does not capture and a class template without arguments), parameter parsing and topics of the ROS map loaders in `src/` (what they load and publish: `NodeModel`, `NodeStateModel`), `getByteSize` of mono maps, gradients and Jacobians apart from C40, C58 and C63, allocators and alignment, printing.

## Assumptions about code outside of `/repo`

* cslibs_math: `StableDistribution` accumulates points, its binary `write` emits a fixed number of bytes
  which `read` restores and counts (`codec_ok`); `sampleNonNormalized` is 0 unless `valid`;
  `LogOdds::from x = 1 - 1/(1+exp x)`, `to p = ln (p/(1-p))`; `div` rounds down; `isNormal` tests for finite
  coordinates; `min()` and `max()` of a point cloud are componentwise over its points; `angle::difference` as in C36; line iterators visit some finite list of indices;
  `std::min/max` on `std::array` are componentwise (C12 also treats the standard overloads).
* io: little-endian two's complement; a short read does not throw and leaves unspecified bytes (`junk`).
* cslibs_indexed_storage: the array backend stores values per index, access outside is UB, a copy is a
  copy of the values; `Storage` forwards to the backend.
* ceres: `QuaternionProduct` is Hamilton's product, comparisons of jets look at the value only; jets are dual numbers; `BiCubicInterpolator`,
  `SubsetParameterization` and `QuaternionParameterization` as documented.
* boost::filesystem: `remove_all`, `create_directory`, `exists` as named; `operator/` of version 3 or 4.
* `>>` on negative ints is arithmetic (implementation-defined before C++20, so in gcc and clang).
* cslibs_gridmaps: constructor (origin, resolution, height, width), access outside is an error; `DistanceTransform`
  writes at every pixel the distance to the nearest pixel whose value reaches the threshold, up to the maximum
  distance (`transforms`, a hypothesis of C83).

## Trusted base

The Coq kernel (8.16.1; `vm_compute` is used, `native_compute` is not); the reading of the C++ by eye; the
assumptions above, which are visible as definitions or hypotheses. No own axioms, no `Admitted`, no
kernel check switched off, no functors. Flocq is used in the proofs of the floating-point properties (its validity predicate is
the standard library's `valid_binary`); statements of some (C89, C90) use its `SF2R` (the real number of a float) and
`bpow` (powers). Coquelicot is used in the proof of the Lipschitz constant in C90 only.

`Print Assumptions` of the theorems listed in MANIFEST.json:

* Closed under the global context: all theorems not named below.
* `ClassicalDedekindReals.sig_not_dec`, `ClassicalDedekindReals.sig_forall_dec`, `FunctionalExtensionality.functional_extensionality_dep`, `Classical_Prop.classic`:
  C18_occupancy_is_probability, C18_hit_never_lowers, C18_miss_never_raises, C18_weighted, C18_empty_distribution_refuted, C37_angle_refuted, C37_yaw_step_partial, C37_many_steps_partial, C38_same_rotation_refuted, C41_occupancy2_refuted, C41_occupancy3_refuted, C50_nlopt_quaternion_refuted, C57_inside_partial, C57_neighbour_partial, C57_distance_partial, C57_either_format_distance_partial, C57_either_format_inside_partial, C58_derivative_partial, C58_occupancy_derivative_partial, C58_border_refuted, C61_only_yaw_quaternion, C61_unit_quaternion, C62_zero_step_refuted, C63_overshoot_refuted, C67_plain_scores, C67_occupancy_plain_scores, C67_contribution, C67_bilinear_scores_partial, C67_bilinear_accuracy, C67_occupancy_bilinear_scores_partial, C83_field_partial, C83_double_partial, C89_nlopt_partial, C89_alglib_partial, C89_distance, C89_perfect, C89_scan_partial, C89_scan_alglib_partial, C89_occupancy_3d_partial, C89_occupancy_2d_partial, C90_occupancy_in_unit, C90_weighted_in_unit, C90_accuracy, C90_weighted_accuracy, C90_hit_never_lowers_partial, C90_miss_never_raises_partial, C90_weighted_order_partial, C90_unit_weights_partial, C90_map_scores, C90_hit_lowers_refuted, C90_never_certain_refuted, C90_every_miss_counts_refuted, C92_turns, C92_length, C92_roll_pitch, C92_upright, C92_euler, C92_yaw_euler, C93_scan, C93_rigid, C93_quaternion, C93_angles, C93_planar, C93_rounded_functions, C94_bundle, C94_score, C94_score_angles, C94_score_planar, C94_occupancy, C94_occupancies_of_updates, C94_normal_distributions, C95_inside_partial, C95_position, C95_scores, C95_occupancy, C96_reads_partial, C96_margin_partial, C96_three_tenths_refuted, C97_points_partial, C97_converted, C97_last_cell_refuted, C97_first_cell_refuted, C98_grid_partial, C99_field_partial, C99_occupancy_partial.
* `ClassicalDedekindReals.sig_not_dec`, `ClassicalDedekindReals.sig_forall_dec`, `FunctionalExtensionality.functional_extensionality_dep`:
  C18_merge, C18_weighted_merge, C36_angle_difference, C36_rpy, C38_in_range_partial, C38_yaw_only_partial, C38_stuck_at_pi, C41_nlopt_partial, C41_occupancy3_missing_counts_as_one_partial, C50_penalty_zero_at_guess_partial, C51_rpy_quaternion, C51_whole_turns, C58_gaussian, C58_rotation_prior_partial, C58_rotation_prior_refuted, C59_planar, C59_angles, C59_frame_planar, C59_frame_spatial, C59_quaternion_partial, C59_quaternion_refuted, C60_cost_2d, C60_cost_rpy, C60_cost_quaternion_partial, C60_rotation_ignored_refuted, C61_only_yaw_rpy, C62_zero_step_quaternion, C62_zero_step_partial, C63_nodes_partial, C63_derivative, C63_between_refuted, C65_gridmap_partial, C65_empty_cell_refuted, C65_occupancy, C65_no_model_refuted, C69_marker_3d_partial, C69_marker_2d_partial, C69_thin_3d_partial, C69_thin_2d_partial, C69_left_handed_2d, C69_left_handed_refuted, C83_occupancy_field, C83_position_refuted, C92_unit_refuted, C93_exact_refuted, C94_border_refuted, C99_threshold_refuted.
* `ClassicalDedekindReals.sig_forall_dec`, `FunctionalExtensionality.functional_extensionality_dep`:
  C39_zero_at_reference_refuted, C39_cost_constant, C39_vector_part_partial, C41_alglib_partial, C50_alglib_quaternion_refuted, C50_alglib_quaternion_constant, C52_translation, C65_rgb, C66_occupancy, C85_colours_partial, C85_flat_refuted, C89_empty_scan_refuted, C89_no_map_weight_refuted, C89_occupancy_3d_missing_refuted, C89_occupancy_2d_missing_refuted, C92_infinite_increment.

All of these are axioms of the Coq standard library, used by its real numbers (`Reals`).
