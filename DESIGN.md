# Formal model of rakri/grann in Rocq: design

This file says what is modelled, how each property of `properties.jsonl` is
proved, what the trusted base is, and what was found out about the code.

## Layout

* `properties.jsonl`  the properties, in terms of the public API.
* `MANIFEST.json`     property -> theorems.
* `rocq/theories/*Model.v`  the model: total, computable Gallina functions, each
  citing the lines of /repo it models and the simplifications made.
* `rocq/theories/*Spec.v`   small specifications, independent of the models.
* `rocq/theories/*Proofs*.v`, `*Facts.v`, `*Inst.v`, `*Witness.v`  lemmas, and
  instances used by the non-vacuity examples.
* `rocq/theories/Prop*.v`   property theorems only: each is closed by a lemma,
  followed by `Print Assumptions` and by a non-vacuity `Example`.
* `seeded/LOG.jsonl`  wrong programs tried against the theorems.

## Trusted base

1. Coq 8.16.1's kernel (and its `vm_compute` machine, used by examples, by the
   witnesses of the `_refuted` theorems and by a few computations in proofs).
2. Axioms: none of our own. `Print Assumptions` under every property theorem of the
   exact properties prints "Closed under the global context". The theorems about
   real numbers (`PropReal.v`, `PropNorm.v`, `PropStats.v`, `PropMean.v`, `PropBlas.v`, `PropGtTool.v`, `PropRealSearch.v`, `PropPipeline.v`, `PropCmdReal.v`, `PropRand.v`, `PropUtilChain.v`, `PropFiltTool.v`, `PropRandDist.v`, `PropMath.v`, `PropHyper.v`, `PropKmeans.v`, `PropQuant.v`, `PropFlush.v`, `PropTrain.v`, `PropApprox.v`, `PropTable.v`: C92 to C95, C97 to C102, C104, C106, C109 to C111, C113, C114, C116, C118, C123, C125, C130, the end-to-end theorems of C103 and C105 and two of C108) use Coq's real numbers and list four axioms of
   the standard library, and no others: `ClassicalDedekindReals.sig_forall_dec`,
   `ClassicalDedekindReals.sig_not_dec`, `Classical_Prop.classic` and
   `FunctionalExtensionality.functional_extensionality_dep`. vcheck lists seven further names
   `Coq.ssr.ssrunder.Under_rel.*`: these belong to a module of Coq's own
   standard library that gets loaded with the `Lia`/`ZArith` prelude; no
   property theorem depends on them. No functor, module type, `Declare Module`,
   `Variable`/`Hypothesis` outside a section, `Admitted` or unset kernel check
   is used. The libraries used are Coq's standard library (including
   `Floats.SpecFloat`, the axiom-free specification of IEEE arithmetic) and, in the
   proofs of C92 to C95 and C97 to C111, C113, C114, C116, C118, C123, C125 and C130 only, Flocq's lemmas on rounding (no Flocq axiom; the statements
   use the standard library, `RealSpec.v`, `NormSpec.v`, `StatsSpec.v`, `MeanSpec.v`, `BlasSpec.v`, `GtToolSpec.v`, `RealSearchSpec.v`, `PipelineSpec.v`, `CmdSpec.v`, `CmdRealSpec.v` and `TableSpec.v` alone).
3. That the model says what the C++ says. Every definition cites the lines it
   models; what is simplified is said there and summarised below.
4. The semantics of C++ and its library as used in the models: `std::sort`
   returns a sorted permutation, `std::priority_queue` pops a maximum,
   `std::ifstream`/`ofstream` behave as in `StreamModel.v`, text streams as in
   `TextModel.v`, `std::map` is ordered, a mutex excludes.

## Modelling decisions

* Undefined behaviour, exceptions and `exit` are distinct outcomes of a result
  type (`Base.res`: `Ok`, `UB`, `Throw`, `Exit`, `Fuel`); nothing is totalised
  with a harmless default. Out-of-range array reads and writes, division by
  zero and uses of uninitialised memory are `UB`. Where a theorem says a call
  "returns", it states `= Ok ...`, which excludes all the others.
* Loops whose bound is not structural take fuel; `Fuel` is an outcome of its
  own, and the theorems state `Ok`, so they also prove the fuel sufficient.
* The build is the release build (`CMakeLists.txt:177`: `-Ofast -march=native
  -DNDEBUG`): asserts do nothing, and the compiler may assume that there are no
  NaNs. Theorems that need "no NaN" say so as a hypothesis. `-Ofast` also links code that
  flushes subnormal floats to zero. The models keep subnormals; C116 says for which vectors this
  makes no difference to a distance, and bounds the difference for the others.
* `float` values are `SpecFloat.spec_float` of the standard library with
  precision 24 and emax 128 (IEEE binary32 including NaN, infinities and both
  zeros), `double` with 53 and 1024; comparisons are the C++ ones (false on NaN).
* The distance function is an argument of the search and build models (any
  function from ids to floats), because summation order is unspecified under
  `-Ofast`. The distance kernels themselves are modelled in `DistModel.v`, for
  every order of the additions where the source leaves it to the compiler, and in
  `FusedModel.v` also for every contraction of a product and a sum.
* Random draws are universally quantified inputs; C106 starts from the words of the generator. So are results of BLAS calls, except in C99 and C100,
  where `sgemm` and `snrm2` are modelled with an unspecified order of additions.
* `std::sort` is unstable: the model takes any function `sortf` that returns a
  sorted permutation (`SortSpec.sorts`); the priority queues likewise
  (`HeapSpec.heap_ok`, `ClosestSpec.pops`). Instances exist (`SortInst`,
  `HeapInst`, `PopInst`), so these hypotheses can be met.
* `tsl::robin_set` is used as a finite set in the search models; that the
  implementation behaves as a set is itself property C65.
* Sizes are unbounded naturals; wrap-around is modelled where the code can
  reach it (`K - 1` with `K = 0`, `recall_at - 1`, file headers, file sizes,
  integer distances, stored hashes).
* Threads: one step per critical section, any interleaving, one task per
  location. Steps between two lock operations touch only thread-local data,
  except `reserve`, which is called outside the lock in build
  (`src/vamana.cpp:291`); it and the memory accesses of the steps are the subject
  of C91. Parallel
  loops without locks whose iterations write disjoint memory are modelled by an
  arbitrary order of the iterations.
* Console output, timers, prefetches, allocation failure and full disks are not
  modelled.

## Modelled and not modelled, file by file

| file | modelled | not modelled |
|---|---|---|
| `include/index.h`, `src/index.cpp` | pool insertion, candidate processing, filter test, the constructor from files (data, tags, labels), label files, data/tags/labels save and load, entry point and the centroid it is computed from (C98), metric selection; what constructors, loads and destructors obtain and release (C112) | members other than raw pointers at destruction |
| `src/graph_index.cpp` | greedy search, both pruning rules, reciprocal edges, degree statistics and their printout (C97) | |
| `src/vamana.cpp` | label entry points, build with threads and locks, cleanup, search, save, load, memory accesses and capacities, which points a search reaches (C115) | |
| `src/relative_ng.cpp` | build, search, save, load | |
| `src/hnsw.cpp` | build of all levels including the temporary file of an inner level (`/tmp/temp_data`, C88) and several builds sharing it (C117), search, save, load | a temporary file half written by another process |
| `src/ivf.cpp` | build, from the trained centres on and with the training (C118), search, save, load | |
| `src/lsh.cpp`, `include/lsh.h` | build from the hyperplanes on, search (also from several threads), save, load; drawing the hyperplanes from the seeds (C113) | random_device; the distribution of the hyperplanes |
| `src/math_utils.cpp` | closest centres, Lloyd iterations, random and k-means++ centres, the calls of `sgemm` and `snrm2` (C99), residuals and rotations (C111), what k-means minimises (C114) | sizes beyond MKL_INT |
| `src/partition_and_pq.cpp` | random slices, PQ chunks, pivots and encoding, sharding, retrieval, size estimates, `partition`, `partition_with_ram_budget` | |
| `src/aux_compute_groundtruth.cpp` | everything, the BLAS distances in C99 | |
| `src/recall_utils.cpp`, `include/recall_utils.h` | recall, range recall, truth set files, percentile table, memory budget (C111) | |
| `include/percentile_stats.h` | percentile and mean (C97) | |
| `include/utils.h` | `.bin` files, subsets, conversion, preparation for inner products | |
| `include/cached_io.h` | reader and writer | |
| `include/parameters.h` | unsigned, float and string parameters | - |
| `include/distance.h` | all `compare` functions and the AVX loops | the non-AVX branches |
| `include/tsl/*` | insert, find, erase, assign, clear, reserve, iteration, growth | copy, move, swap, iterators after modification |
| `tests/build_{vamana,relng,hnsw,ivf,lsh}.cpp`, `tests/search_{vamana,relng,hnsw,ivf,lsh}.cpp` | from argv to files: argument parsing, construct, build, save; load queries, truth and index, parallel query loop, recall table, result files | printed messages and timings; the accuracy of atof |
| `tests/compute_filtered_groundtruth.cpp`, `tests/utils/*` | ground truth tool (C100), filtered ground truth, fvecs/ivecs, type converters, text converters, `vector_analysis`, `calculate_recall`, `generate_pq`, `partition_data`, `partition_with_ram_budget`, `gen_random_slice`, with their command lines (C106, C107, C109), random data tools (C110) | tempering and renewal of the random generator; printed messages |

## Per property: what is modelled, how it is proved

Every theorem below is closed under the global context (no axioms), except those about real numbers named under 'Trusted base'.

* **C01 Bounded candidate pool insertion keeps the pool sorted and loses nothing** (Pool). `insert_into_pool` over a list buffer with explicit out-of-bounds outcome; binary-search loop with fuel, fuel shown sufficient; invariant on left/right.
  Theorems: `C01_insert_new`, `C01_insert_present`, `C01_insert_safe`.
* **C02 Feeding candidates keeps exactly the best ones** (Pool). fold over candidates; spec `is_top_k`; invariant pool = top-m of the accepted distinct candidates.
  Theorems: `C02_feed_top`.
* **C03 Candidate processing never touches memory outside the pool** (Pool). all array accesses return `UB` out of range; theorem: result is never `UB`; `_refuted` witness for capacity 0.
  Theorems: `C03_feed_safe`, `C03_first_far_refuted`, `C03_capacity_zero_refuted`.
* **C04 Greedy graph search always terminates** (Greedy). loop iteration as a step function; lexicographic measure (undiscovered ids, unexpanded, l-k).
  Theorems: `C04_greedy_terminates`, `C04_list_size_zero_refuted`.
* **C05 Graph search ends at a fixed point** (Greedy). invariant: entries before cursor expanded; pool = top-L of discovered; neighbours of expanded discovered.
  Theorems: `C05_greedy_fixed_point`.
* **C06 Graph search results are sorted and distinct** (Greedy). from the invariant.
  Theorems: `C06_greedy_sorted_distinct`.
* **C07 Reported distances are the true distances of the reported points** (Greedy). from the invariant.
  Theorems: `C07_greedy_true_distances`.
* **C08 Vamana search result count and buffers** (Search). `vamana_search` over the greedy model, output writing loop with UB outcome.
  Theorems: `C08_vamana_search`, `C08_rng_search`, `C08_vamana_search_past_list`.
* **C09 Search results carry the caller's tags** (Search). tag lookup in the search model.
  Theorems: `C09_constructor_tags`, `C09_vamana_tags`, `C09_rng_tags`, `C36_hnsw_search`.
* **C10 Filtered search returns only matching points** (Search). invariant: every non-initial candidate accepted; initial ones by C26.
  Theorems: `C10_vamana_filtered`, `C10_vamana_matching`, `C10_ivf_filtered`, `C10_lsh_filtered`.
* **C100 Ground truth tool, from files to file** (ground truth tool). Loading of a part at its offset, conversion to float, the distance matrix by sgemm (l2 as in C99, negated products for mips), selection per part as in C52, merging, negation, the file, all composed. Each part's floats are the rows of the file (offset arithmetic); entries are within the error by C99's entry lemmas or a single product; selection carries the errors; the saved file loads by the round trip of truth files (C51). Refutations computed.
  Theorems: `C100_l2`, `C100_l2_bytes`, `C100_mips`, `C100_mips_bytes`, `C100_any_k_refuted`, `C100_dimensions_checked_refuted`.
* **C101 Search tools against real distances, from vector files to result files** (search tools in real distances). The distance functions on vectors in memory are defined from the byte kernels and the float loop; loading a vector file gives each vector padded with zeros, which adds nothing to a distance. They satisfy the laws C88 assumes and are within the errors of C92 (floats) or exact up to a conversion (bytes); a list of the K nearest by computed distance is one of the K nearest by real distance within the errors. Signs of inner products with hyperplanes beyond the error are right. Composed with the whole-program theorems of C83 and C88.
  Theorems: `C101_ivf_nearest`, `C101_lsh_nearest`, `C101_rng_itself`, `C101_hnsw_first`, `C101_vamana_filtered`.
* **C102 Recall from vector files to the printed percentage** (recall). A point in the part of the truth row the recall counts is among the r nearest, because the row is sorted by exact distances and extended only by ties; a point among the r nearest is in that part if the row is deep enough. So the hits are r for right answers, and the total r times the queries only for right answers; the percentage in doubles and then float is exactly 100 for the full total and below for any smaller total up to 2^22.
  Theorems: `C102_recall_100_means_nearest`, `C102_nearest_means_recall_100`, `C102_ivf_recall_100`, `C102_any_depth_refuted`.
* **C103 Command lines of the build and search tools** (command lines). The mains from argv on: atoi, the comparisons of words, the moving position behind optional words, the conversions to unsigned, the parameter map with its texts. A lemma per position (before, at and behind the optional words) and the round trip of numbers through the parameter map reduce a main to its tool.
  Theorems: `C103_build_vamana`, `C103_build_hnsw`, `C103_build_relng`, `C103_build_ivf`, `C103_build_lsh`, `C103_search_vamana`, `C103_search_hnsw`, `C103_search_relng`, `C103_search_ivf`, `C103_search_lsh`, `C103_ivf_nearest`, `C103_lsh_nearest`, `C103_relng_itself`, `C103_hnsw_first`, `C103_vamana_filtered`, `C103_benchmark_build_refuted`, `C103_benchmark_search_refuted`, `C103_wrong_counts`, `C103_unknown_metric`, `C103_bytes_mips`, `C103_infinite_alpha`, `C103_missing_word_vamana_refuted`, `C103_missing_word_ivf_refuted`, `C103_missing_word_lsh_refuted`, `C103_missing_word_search_lsh_refuted`, `C103_surplus_word_refuted`, `C103_not_a_number_refuted`, `C103_unknown_type_build_refuted`, `C103_unknown_type_search_refuted`, `C103_unknown_metric_search_refuted`, `C103_fast_l2_refuted`, `C103_negative_size_refuted`.
* **C104 Pruning parameter written as a decimal** (decimals). Six-digit decimals are further apart than twice the rounding errors of double and float, so the six digits printed for the float are those written; reading them gives the closest float.
  Theorems: `C104_alpha_as_written`, `C104_seven_digits_refuted`.
* **C105 Recall printed by the search tools** (recall printout). The rows of the id array are the rows of the result file, so both recall computations run on the same numbers; 32-bit truncation of ids agrees with the file format; the checks of the recall tool succeed under the hypothesis on the truth file.
  Theorems: `C105_recall_vamana`, `C105_recall_hnsw`, `C105_recall_relng`, `C105_recall_ivf`, `C105_recall_lsh`, `C105_ivf_prints_100`, `C105_truth_mismatch_refuted`.
* **C106 Random numbers, samples and darts** (random numbers). generate_canonical of libstdc++ in floats: the division by 2^32 or 2^64 is exact, a quotient rounded to 1 is replaced by the number below. Samples follow from comparisons of reals. For the darts: the sum of non-negative floats is 0 or at least 2^-149, and a double times 1 - 2^-53 is below the midpoint to its predecessor. calc_distance is not negative and 0 from a point to itself.
  Theorems: `C106_uniform`, `C106_dart`, `C106_slice_sample`, `C106_slice_all`, `C106_slice_none`, `C106_slice_more`, `C106_training_all`, `C106_level_sorted`, `C106_level_all`, `C106_level_none`, `C106_kmeans_pp_ends`, `C106_unknown_type_refuted`.
* **C107 Command lines of the utility tools** (command lines of the utilities). Each main is a function from argv and the files to a status and the files; numerals are evaluated by the lemma about atoi of C103, the rest is computation. The header-only file of tsv_to_bin is refused by the size check of load_bin.
  Theorems: `C107_calculate_recall`, `C107_compute_groundtruth`, `C107_vecs`, `C107_convert`, `C107_float_bin_to_int8`, `C107_bin_to_tsv`, `C107_tsv_to_bin`, `C107_generate_pq`, `C107_partition_data`, `C107_partition_budget`, `C107_vector_analysis`, `C107_vector_analysis_norms`, `C107_wrong_counts`, `C107_generate_pq_count_refuted`, `C107_unknown_type_refuted`, `C107_metric_word_refuted`, `C107_missing_name_refuted`.
* **C108 Tools used one after the other** (chains). The parts that load_part reads from the float file are equal, element by element, to those of the byte file, so the two runs of the ground truth tool are the same computation. C90 gives the text round trips, C100 the truth rows (k different ids with finite distances), from which the recall of a file against itself is counted. What a tool leaves alone is read off its writes.
  Theorems: `C108_int8_as_floats`, `C108_uint8_as_floats`, `C108_text_bytes`, `C108_text_floats`, `C108_truth_itself`, `C108_script_100`, `C108_vamana_keeps`, `C108_hnsw_keeps`, `C108_relng_keeps`, `C108_ivf_keeps`, `C108_lsh_keeps`, `C108_searches_keep`, `C108_hnsw_temp_refuted`.
* **C109 Filtered ground truth from the command line to the file** (filtered ground truth tool). compute_filtered_gt is a function of the file system; extraction and renumbering are those of C64, the distances and selection in between are shown equal to the ground truth of C99 and C100 on the selected rows; increasing numbers of the matching vectors carry the order back to the original file.
  Theorems: `C109_filtered_floats`, `C109_count`, `C109_unknown_type`, `C109_bytes_refuted`, `C109_no_match_refuted`, `C109_negative_refuted`.
* **C11 Filter acceptance is exact for sorted filter lists** (Labels). `set_intersection` merge loop over strings with `String.compare`.
  Theorems: `C11_filter_exact`, `C11_filter_sound`, `C11_unsorted_refuted`.
* **C110 Random data tools** (random data). Threads with a program counter each take the four steps of a draw in any interleaving; for one working thread an invariant links the cells filled to the words used. The polar method is bounded step by step with Flocq's lemmas on rounding.
  Theorems: `C110_cube`, `C110_gaussian`, `C110_polar`, `C110_print`, `C110_cube_chain`, `C110_gaussian_chain`, `C110_build_count`, `C110_load_count`, `C110_unknown_word_refuted`, `C110_rows_differ_refuted`, `C110_in_bounds_refuted`, `C110_gaussian_threads_refuted`, `C110_product_refuted`.
* **C111 Residuals, rotations and the memory budget** (residuals, rotation, budget). Residuals: invariant over the points done, cell by cell; errors with Flocq's bounds on rounding. Rotation: the lemmas on one entry of sgemm of C99. Budget: multiplication by 1024 is exact; the comparison with 1 is decided by the successor of 1.25.
  Theorems: `C111_residuals`, `C111_back`, `C111_residuals_range`, `C111_back_refuted`, `C111_rotation`, `C111_rotation_integers`, `C111_budget`, `C111_budget_monotone_refuted`.
* **C112 Lifetimes: what the index classes free and what they lose** (lifetimes). The live blocks of the heap are, up to order, those owned by the object followed by the rest; each constructor, load and build keeps this and names what it adds to the rest. Destructors release exactly the owned blocks. HNSW by induction over the levels, histories by induction over the calls. When a search or save is defined: by cases on the calls, and induction over the levels.
  Theorems: `C112_plain_file`, `C112_plain_empty`, `C112_hnsw_file`, `C112_hnsw_empty`, `C112_hnsw_load_refuted`, `C112_ivf`, `C112_ivf_search_refuted`, `C112_build_tool`, `C112_search_tool`, `C112_ivf_two_builds_refuted`, `C112_hnsw_two_builds_refuted`, `C112_copy_refuted`, `C112_ivf_copy_refuted`, `C112_use_built`, `C112_use_loaded`, `C112_use_empty_refuted`, `C112_use_unbuilt_refuted`, `C112_use_stopped_refuted`.
* **C113 Random hyperplanes of the LSH index** (hyperplanes). 16807 has order 2^31 - 2 modulo the prime 2^31 - 1: checked by fast powers at the prime factors of the order; hence every state is a power and the powers 3 and 4, which start accepted pairs, are met again and again at either parity. A number x of the engine gives the same canonical float as the 32-bit word 2 (x - 1), so the theorems of C110 on the polar method apply.
  Theorems: `C113_engine`, `C113_seeds`, `C113_planes`, `C113_polar`, `C113_build`, `C113_too_large`, `C113_round_trip`, `C113_again_refuted`, `C113_zero_refuted`.
* **C114 Lloyd's iterations and the k-means objective** (k-means). The bias-variance identity makes the exact mean optimal in every coordinate; the computed mean (C98) is within 2^-22 of the mean of the magnitudes, so its excess cost is at most 2^-43 of the sum of squares. Sums over clusters by a partition of the points. The assignment is optimal up to the errors of the products (C99). New centres have squared norms at most 4 B, so the bounds carry over to the next iteration.
  Theorems: `C114_iteration`, `C114_run`, `C114_residual`, `C114_distances`, `C114_norms`, `C114_never_more_refuted`.
* **C115 Graph search with a wide enough list is exact** (wide lists). The fixed point of greedy search (C1 family) is all reachable points once the list holds them. For builds, an invariant over all schedules: with R that large no list is cut, edges are only added, and the points in a task's hands are reachable with its labels; the first candidate is always kept, so every point gets an edge from a reachable one. For labels: a start point of a label is among the candidates of each point with this label, and is kept or occluded by a kept point that carries all its labels and is strictly nearer to it (division of floats above 1), so the number of points nearer to the start point decreases along the walk. Refutations by computed builds.
  Theorems: `C115_vamana_wide`, `C115_vamana_reach`, `C115_vamana_exact`, `C115_filtered_exact`, `C115_own_labels`, `C115_one_label`, `C115_rng_exact`, `C115_rng_strongly_connected`, `C115_vamana_misses_refuted`, `C115_universal_refuted`.
* **C116 Distances when subnormal numbers are flushed to zero** (flushed subnormals). The float operations become a parameter with a contract: IEEE rounding, after and before which any number up to 2^-126 may become zero. Sameness: all values in the computation are multiples of 2^-124 (rounding a multiple of a power of two gives one, by Flocq), so none is small enough. Error: the induction of C92 with an absolute loss per operation; a flushed coordinate of an inner product loses up to 2^-126 times the other factor. Non-negativity and the distance to itself by cases on which copy of a difference is flushed.
  Theorems: `C116_l2_same`, `C116_ip_same`, `C116_l2_error`, `C116_l2_error_sharp`, `C116_ip_error`, `C116_order`, `C116_l2_not_negative`, `C116_l2_self`, `C116_processors`, `C116_same_refuted`.
* **C117 Builds of HNSW indexes that run at the same time** (builds at the same time). The HNSW tool of C88 cut into steps at its file operations: read the data, write the temporary file, construct from it, remove it, build the graphs, save. Processes share one file system and take steps in any order. Proof by simulation: each process has a private copy of the files that agrees with the shared one on its data file, on its own index files, and on the temporary file while in its window; a step of another process keeps this (it writes only the temporary file, in its own window, or its own index files), so each runs as alone. That the steps alone make up hnsw_tool is an induction over the levels. The overlaps are computed on two files of twelve points.
  Theorems: `C117_builds_apart`, `C117_one_with_levels`, `C117_vectors_refuted`, `C117_end_refuted`.
* **C118 Building an IVF index from its points, training included** (IVF build with training). The composition of the models of gen_random_slice (C58), k-means++ (C79, C106) or random_centers (C78), run_lloyds on flat arrays with BLAS (C114) and the assignment (C99). The starting centres are rows of the sample; C114 bounds the objective; C99 bounds the error of the assignment; with all points sampled the sum over the lists is bounded by the objective. The search computes the distances to the centres with BLAS as well (C99) and then is C29. The last word 2^32 - 1 gives the largest number below 1, which no rate below 1 exceeds, so a sample can be empty.
  Theorems: `C118_build`, `C118_build_all`, `C118_search`, `C118_empty_sample`, `C118_rate_refuted`, `C118_no_centers_refuted`, `C118_repeated_refuted`.
* **C119 HNSW search with a list that holds every reachable point** (HNSW with wide lists). The answer of the outermost search is exact over what it reaches (C115's argument). For the build: an invariant over all interleavings says that every list is a set plus at most L + 1 entries (the phantom slots of C37 included), hence never cut, and that every point is linked both ways with a stand-in, nearer to the target, for each point its search started with. Inductively the inner search finds all sampled points, so the starting points are the same for all, and following stand-ins leads from every point to them and back.
  Theorems: `C119_hnsw_wide`, `C119_connected`, `C119_exact`, `C119_hnsw_misses_refuted`.
* **C12 Alpha-RNG pruning output shape** (Prune). loop model with occlude array, arbitrary sort permutation.
  Theorems: `C12_alpha_prune_shape`.
* **C120 A longer search list never gives worse answers** (longer lists). Lockstep: while the shorter search has an unexpanded entry, both searches expand the same point, because without ties the shorter list is the head of the longer one (both are the sorted nearest among the points seen, and these are unique). When the shorter search stops, the longer one goes on from the same state and can only add points. For IVF the clusters probed first are the nearest centres, which are unique without ties. Witnesses for the failing cases are small graphs; the one for ties is also given on an index that the build produces.
  Theorems: `C120_walk`, `C120_longer_list`, `C120_longer_list_rng`, `C120_more_answers`, `C120_recall`, `C120_more_probes`, `C120_ties_refuted`, `C120_ties_built_refuted`, `C120_entries_refuted`, `C120_hnsw_refuted`.
* **C121 Answers depend on the order of the distances, and nothing depends on the unit** (order and units). A relational reading of the model: two runs on distances related by a relation that preserves < and <= stay related step by step, so they make the same choices. A build also divides distances, so there the relation must preserve quotients; multiplication by 2^j does, since floats m * 2^e compare by e and m and divide by differences of e. For the L2 distance: rounding to 24 digits commutes with a shift of the exponent away from the subnormal range, and partial sums of squares are never larger than the whole, so none overflows if the whole does not.
  Theorems: `C121_order_vamana`, `C121_order_rng`, `C121_order_hnsw`, `C121_order_ivf`, `C121_order_lsh`, `C121_l2_unit`, `C121_build_vamana`, `C121_build_rng`, `C121_build_hnsw`, `C121_vectors`, `C121_factor_three_refuted`, `C121_too_small_refuted`.
* **C122 What the counters of a search count** (counters). The searches are modelled again with the statistics object. The ids the pool has seen are kept in order of discovery; a search adds a list of new ones in front of the starting points, and the counter grows by the length of that list, by induction over candidates, iterations and levels. A point in that list was met in the neighbour list of an expanded point, and conversely; hops are the expanded points by the invariant of greedy search (C04).
  Theorems: `C122_vamana`, `C122_rng`, `C122_hnsw`, `C122_ivf`, `C122_lsh`, `C122_bounds_vamana`, `C122_bounds_hnsw`, `C122_full_list`, `C122_longer_list`, `C122_entry_refuted`, `C122_centers_refuted`.
* **C123 Answers within a factor of the best** (factor of the best). At the end of a search every listed point is expanded and every neighbour of a listed point is listed or no nearer than the last one (C05). Take a left-out accepted point y and the listed point nearest to it: its shortcut towards y is nearer to y, so it is not listed, so no listed point is farther than it from the query up to c; two triangle inequalities give the factor. For ranks: of any i points either one is left out, or the i-th answer is no farther than one of them. The order of computed distances comes from the error bound of the computed distances; the shortcuts of a full prune from the domination invariant of the prune (C13) and the rounding of the quotient.
  Theorems: `C123_vamana_plain`, `C123_vamana`, `C123_rng`, `C123_hnsw`, `C123_rng_refuted`, `C123_vamana_refuted`, `C123_metric`, `C123_vamana_l2`, `C123_ints`, `C123_prune`, `C123_prune_filtered`.
* **C124 The order of the vectors in the data file** (order of the data). Every step of the search (insertion into the list, the visited set, expansion, report) commutes with a renumbering of the points: entries of the list are renumbered, unused slots stay. The sort of the entry points has to look at distances only. RelativeNG: without ties the sorted candidates of a point are unique, so the prune sees the same list renumbered. IVF, LSH and exhaustive search: a list of the k nearest is unique without ties.
  Theorems: `C124_vamana`, `C124_rng`, `C124_hnsw`, `C124_rng_build`, `C124_exact`, `C124_ivf`, `C124_lsh`, `C124_vamana_build_refuted`, `C124_ties_refuted`.
* **C125 The table of work printed by the search tools** (table of work). The loop writes each slot once, so the statistics are the list of the counts of the queries whatever the order. Sums of counts below 2^53 are exact in a double, so the mean is the exact quotient rounded twice; rounding is monotone. The rank depends on the number of queries only, and the element of one rank is monotone in the elements.
  Theorems: `C125_vamana`, `C125_rng`, `C125_hnsw`, `C125_ivf`, `C125_schedule`, `C125_longer`, `C125_full`, `C125_bounds`, `C125_thousand`, `C125_hnsw_longer_refuted`.
* **C126 What the degree limit R, the scan limit C and alpha do to a pruned list** (limits of pruning). The kept positions are determined by the scan: induction over the positions with both scans side by side, until the smaller limit is reached. For the lists without rejected candidates the two scans visit the same kept candidates. Sorting without ties has one result.
  Theorems: `C126_degree`, `C126_degree_topk`, `C126_scan`, `C126_farther`, `C126_rejected`, `C126_again`, `C126_large_alpha`, `C126_alpha_refuted`.
* **C127 More labels in a filter, and repeated ones** (more labels). The points that pass grow with the filter list (C11), so IVF and LSH rank a larger set; for Vamana the entry points grow too, and with room for every point the answer is exact over what can be reached (C115). Repetition: the intersection of sorted lists is empty for one list iff for the other, and the second copy of an entry point is skipped.
  Theorems: `C127_ivf`, `C127_lsh`, `C127_vamana`, `C127_repeat_vamana`, `C127_repeat_ivf`, `C127_repeat_lsh`, `C127_narrow_refuted`, `C127_dropped_refuted`, `C127_unsorted_refuted`.
* **C128 Asking for more answers, and hash tables with more planes** (more answers). Both answers are nearest points of the same candidates (C29, C32, C52); a list of the m nearest dominates, and is dominated by, the first m of the m' nearest. Colliding in a table is kept when tables are added and lost at most when planes are added.
  Theorems: `C128_ivf`, `C128_lsh`, `C128_ties_refuted`, `C128_tables`, `C128_tables_recall`, `C128_planes`, `C128_planes_refuted`, `C128_knn`, `C128_truth`.
* **C129 Copies of one vector in the data** (copies). The exact pruning rule (C13) with a distance of zero in the quotient; copies of the point sort first and are never occluded. RelativeNG: the rule with R = C = n. IVF and LSH: equal vectors have equal nearest centres and sign patterns (C28, C32). The island is a Vamana build computed in the kernel, its reachable set closed by induction (as in C115).
  Theorems: `C129_one_copy`, `C129_own_copies`, `C129_rng`, `C129_island_refuted`, `C129_ivf`, `C129_lsh`.
* **C13 Alpha-RNG pruning keeps exactly the non-occluded candidates** (Prune). refinement of the occlude-array loop to a declarative keep/drop fold.
  Theorems: `C13_alpha_prune_exact`, `C13_alpha_prune_closest`.
* **C130 The codes of product quantisation are the best ones together** (best codes). The squared distance to the vector restored is the sum over the chunks (the boundaries cut 0 ... dim - 1), each summand is minimal up to its error by C55 and C86; the rest is arithmetic over the reals. The loss is computed in the kernel from the model of the matrix products (C99).
  Theorems: `C130_file`, `C130_codes`, `C130_exact`, `C130_more_pivots`, `C130_exact_refuted`.
* **C131 Labels that all points share** (shared labels). The acceptance test is constantly true on points (C11); only points are ever inserted, so the candidate loops agree step by step. Build: simulation of every task step, the pruning exception for labels never applies.
  Theorems: `C131_ivf`, `C131_lsh`, `C131_search`, `C131_build`, `C131_same_start_refuted`.
* **C132 Saving a loaded index again** (re-save). By the round trips the loaded object agrees with the saved one in every field that save reads. A save is a fixed list of file assignments that does not depend on the directory, so doing it twice is doing it once.
  Theorems: `C132_vamana`, `C132_rng`, `C132_hnsw`, `C132_ivf`.
* **C133 A filtered search depends on the matching points only** (non-interference). Candidates that fail the test change nothing in the pool, not even the set of inserted ids, so runs on lists with the same matching members are equal step by step; every expanded point matches by the search invariant (C04, C05).
  Theorems: `C133_search`, `C133_ivf`, `C133_lsh`.
* **C134 A search depends only on what it has seen** (locality). Inserted and expanded sets only grow, so agreement at the end is agreement at every step; each step reads only a newly inserted point's distance and the expanded point's list. Reachability of everything inserted: C05.
  Theorems: `C134_seen`, `C134_search`, `C134_rng`, `C134_ivf`, `C134_lsh`.
* **C14 Filtered pruning never disconnects a label** (Prune). from C13.
  Theorems: `C14_filtered_prune_labels`.
* **C15 Top-K pruning is the R nearest** (Prune). direct.
  Theorems: `C15_topk_prune`.
* **C16 Vamana build: edges are valid and never self loops, on every schedule** (Build). small-step interleaving semantics of build threads at lock granularity; inductive invariant.
  Theorems: `C16_build_edges`, `C17_final_degree`.
* **C17 Vamana build: final out-degree is at most R, on every schedule** (Build). same transition system, degree invariant, then final cleanup.
  Theorems: `C17_build_degree`, `C17_final_degree`.
* **C18 Vamana build terminates and every location is processed exactly once on every schedule** (Build). well-founded measure on the transition system, progress.
  Theorems: `C18_build_terminates`, `C18_build_completes`, `C18_links_once`, `C18_lock_exclusion`, `C18_no_deadlock`, `C18_lock_terminates`, `C18_lock_refines`.
* **C19 Vamana neighbour lists may contain duplicates** (Build). vm_compute witness on the sequential run; positive part from C12.
  Theorems: `C19_pruned_no_duplicates`, `C19_repruned_no_duplicates`, `C19_no_duplicates_refuted`.
* **C20 Reciprocal edges: kept or justified when single threaded, can be lost concurrently** (Build). sequential run of the reciprocal step; schedule witness.
  Theorems: `C20_reciprocal_sequential`, `C20_reprune_candidates`, `C20_lost_update_refuted`.
* **C21 Build needs at least ten points** (Build). integer arithmetic.
  Theorems: `C21_vamana_small_data`, `C21_rng_small_data`, `C21_hnsw_small_level`, `C68_vamana_build`, `C24_rng_build`, `C72_hnsw_build`.
* **C22 Saved maximum degree equals the true maximum out-degree** (Build). fold.
  Theorems: `C22_max_degree`, `C22_hnsw_max_degree_refuted`, `C68_vamana_build`.
* **C23 RelativeNG always finds an indexed vector** (RNG). prune + greedy theorems combined; float division fact x/y>1 -> x>y.
  Theorems: `C23_rng_finds_indexed`, `C23_rng_finds_itself`.
* **C24 RelativeNG graphs are strongly connected up to duplicate points** (RNG). well-founded induction on distance.
  Theorems: `C24_rng_connected`, `C24_rng_build`.
* **C25 The entry point is a closest point to the centroid** (RNG). argmin loop.
  Theorems: `C25_entry_point`.
* **C26 Label entry points carry their label** (Labels). loop over labels in any order with an arbitrary random stream.
  Theorems: `C26_label_entry_points`, `C26_spread`.
* **C27 IVF inverted lists partition the points on every schedule** (IVF). schedule = any permutation of the append events.
  Theorems: `C27_ivf_partition`, `C27_ivf_rebuild_doubles`.
* **C28 IVF puts each point with a nearest centre** (IVF). argmin loop with uninitialised outcome.
  Theorems: `C28_ivf_nearest`, `C28_ivf_far_refuted`, `C28_ivf_stale_refuted`.
* **C29 IVF probing all clusters is exact** (IVF). C02 over concatenated lists, centre ranking is a permutation when k = number of centres.
  Theorems: `C29_ivf_probed`, `C29_ivf_exact`.
* **C30 IVF probe widths above the number of clusters silently probe one cluster** (IVF). direct computation from the early return.
  Theorems: `C30_ivf_wide_probe`, `C30_ivf_unbuilt_refuted`.
* **C31 LSH finds every indexed vector** (LSH). map as sorted association list; hash as a function.
  Theorems: `C31_lsh_finds_indexed`.
* **C32 LSH searches exactly the colliding points** (LSH). C02 over bucket union.
  Theorems: `C32_lsh_colliding`.
* **C33 Repeated LSH searches do not influence each other** (LSH). empty-bucket insertion is invisible; induction over query sequence.
  Theorems: `C33_lsh_repeated`, `C34_lsh_round_trip`.
* **C34 LSH save/load round trip, and its loss on re-save** (LSH file). byte-level writer/reader.
  Theorems: `C34_lsh_round_trip`, `C34_lsh_resave_loses`.
* **C35 Non-default tags break LSH and IVF reporting** (LSH/IVF). witnesses; default-tag theorem.
  Theorems: `C35_ivf_tags_refuted`, `C35_lsh_tags_refuted`, `C29_ivf_probed`, `C32_lsh_colliding`.
* **C36 HNSW inner levels enter the outer level at the right points** (HNSW). recursive search over levels.
  Theorems: `C36_hnsw_search`, `C36_hnsw_search_past_list`.
* **C37 HNSW build links nodes to unfilled pool slots** (HNSW). witness.
  Theorems: `C37_phantom_candidates`, `C37_phantom_links`.
* **C38 Vector file (.bin) round trip** (Bin file). byte-level.
  Theorems: `C38_bin_round_trip`, `C38_bin_reload`, `C38_aligned_resave`.
* **C39 Vector files of the wrong size are rejected** (Bin file). byte-level.
  Theorems: `C39_load_bin_cases`, `C39_load_bin_wrong_size`, `C39_load_aligned_accepts`, `C39_load_aligned_wrong_size`, `C39_load_aligned_wraps`, `C39_load_aligned_rejects_refuted`.
* **C40 Aligned loading pads each vector with zeros** (Bin file). list arithmetic.
  Theorems: `C40_aligned_padding`.
* **C41 Graph file round trip** (Graph file). byte-level parser with ifstream eof semantics.
  Theorems: `C41_graph_round_trip`, `C41_graph_bytes`.
* **C42 Truncated graph files are not always detected** (Graph file). parser on prefixes.
  Theorems: `C42_cut_graph`, `C42_cut_graph_exact`, `C42_cut_header`, `C42_cut_last_list_undetected`, `C42_truncation_detected_refuted`, `C42_missing_graph_file`.
* **C43 Loading twice appends instead of replacing** (Graph file). parser with initial state.
  Theorems: `C43_load_appends`.
* **C44 IVF index round trip** (IVF file). byte-level.
  Theorems: `C44_ivf_round_trip`.
* **C45 Label file round trip** (Label file). getline/split model over strings.
  Theorems: `C45_label_round_trip`, `C45_parsed_labels`, `C45_label_reload`, `C45_empty_label_lost`, `C45_label_reload_refuted`, `C45_no_label_undefined`.
* **C46 Label entry point file round trip** (Label file). decimal printing/`stoul` model.
  Theorems: `C46_medoid_round_trip`, `C46_comma_refuted`, `C46_any_line`.
* **C47 Buffered reader equals plain sequential reading** (Cached IO). state machine refinement to (file, position).
  Theorems: `C47_reads_plain`, `C47_size`, `C47_missing_file`.
* **C48 Buffered writer equals plain sequential writing** (Cached IO). state machine refinement to concatenation.
  Theorems: `C48_writes_concat`, `C48_writes_plain`, `C48_reset_header`, `C48_size_after_reset_refuted`.
* **C49 Parameters return the last value set** (Parameters). assoc map + decimal text conversion.
  Theorems: `C49_get_last`, `C49_get_unset`, `C49_defaults`, `C49_get_string`, `C49_get_number`.
* **C50 Recall is within bounds and counts what it says** (Recall). set counting over lists without duplicates; the percentage in double arithmetic in source order.
  Theorems: `C50_recall`, `C50_recall_past_end`, `C50_recall_zero`, `C50_percent_bounded_refuted`, `C50_range_recall`, `C50_common_unique`.
* **C51 Range ground truth keeps exactly the points in range** (Recall). filter loop.
  Theorems: `C51_prune`, `C51_save_load`, `C51_load`, `C51_load_only`, `C51_missing`, `C51_prune_missing`, `C51_load_range`, `C51_load_range_empty`, `C51_load_range_only`.
* **C52 Exact k-NN ground truth is exact** (Ground truth). heap as a relation/multiset with arbitrary tie choice.
  Theorems: `C52_exact_knn`, `C52_merged`, `C52_k_zero_undefined`.
* **C53 Multi-part ground truth shrinks k when the last part is small** (Ground truth). arithmetic on the part loop.
  Theorems: `C53_k_shrinks`, `C53_k_kept_refuted`, `C53_no_points_undefined`, `C53_k_zero_undefined`.
* **C54 PQ chunks partition the dimensions evenly** (PQ). loop model; counting invariant.
  Theorems: `C54_chunks_even`, `C54_too_many_chunks`, `C54_no_chunks_refuted`.
* **C55 PQ codes are nearest pivots and are stored without loss** (PQ). argmin + narrowing.
  Theorems: `C55_codes`, `C55_code_width`, `C55_no_points_refuted`.
* **C56 Sharding replicates each point into k distinct shards** (Sharding). priority queue pops give distinct centres.
  Theorems: `C56_nearest_shards`, `C56_too_many_copies`, `C56_other_dimension`, `C56_no_points_refuted`.
* **C57 Two-phase sharding equals direct sharding** (Sharding). two-pointer scan equals filter on increasing ids.
  Theorems: `C57_two_phase`, `C57_retrieve`, `C57_repeated_ids_refuted`.
* **C58 Random slices are sub-sequences** (Sharding). fold with arbitrary booleans.
  Theorems: `C58_slice_files`, `C58_slice_floats`, `C58_slice_memory`.
* **C59 Blocked processing equals unblocked processing** (Blocks). arithmetic on blocks.
  Theorems: `C59_blocks_cover`, `C59_blocks_nonempty`, `C59_pq_block_free`, `C59_shard_block_free`.
* **C60 Integer L2 distances are exact, symmetric and unaffected by padding** (Distance). Z model of the accumulators with int32/uint32 ranges.
  Theorems: `C60_int8_exact`, `C60_uint8_exact`, `C60_int8_any`, `C60_uint8_any`, `C60_int8_overflow`, `C60_uint8_wrap`, `C60_laws`, `C60_float_zero`, `C60_float_order`.
* **C61 The SIMD inner product covers each coordinate once** (Distance). index-multiset of the unrolled loop.
  Theorems: `C61_covers`, `C61_exact`, `C61_norm`.
* **C62 FAST_L2 is not an L2 distance** (Distance). witness.
  Theorems: `C62_fast_l2_is_ip`, `C62_own_nearest_refuted`, `C62_supported`.
* **C63 fvecs/ivecs conversion preserves every vector** (Converters). byte-level.
  Theorems: `C63_records`, `C63_loads`, `C63_any_file`, `C63_short_refuted`.
* **C64 Filtered ground truth refers to original ids** (Filtered GT). list model.
  Theorems: `C64_original_ids`, `C64_narrow_refuted`.
* **C65 The visited set behaves as a set** (Robin hash). bucket array model, invariant, refinement to set.
  Theorems: `C65_answers_like_a_set`, `C65_any_size`.
* **C66 K-means assignment and update** (K-means). assignment from C28; the update in double arithmetic, in the order of the lists.
  Theorems: `C66_lloyd_iteration`, `C66_residual`.
* **C67 HNSW/Vamana index file families do not collide** (HNSW files). string injectivity of the level suffix.
  Theorems: `C67_levels_disjoint`, `C67_levels_not_base`, `C67_hnsw_round_trip`.
* **C68 A finished Vamana build is a well-formed index** (Vamana). the whole build as one function of the schedule and the draws, composed of the theorems of C16-C18, C22, C25, C26.
  Theorems: `C68_vamana_build`, `C68_vamana_build_completes`.
* **C69 Building a RelativeNG twice doubles its lists** (RNG). the loop run twice.
  Theorems: `C69_rng_rebuild_doubles`.
* **C70 RelativeNG ignores search filters** (RNG). the filter argument does not occur in the result; witness.
  Theorems: `C70_rng_filter_refuted`, `C09_rng_tags`.
* **C71 Building an LSH index twice** (LSH). build as a function of the index before; file format as in C34.
  Theorems: `C71_lsh_rebuild`, `C71_lsh_rebuild_file`.
* **C72 A finished HNSW build is well-formed on every level** (HNSW). induction on the levels over the transition system of one level.
  Theorems: `C72_hnsw_build`, `C72_hnsw_build_completes`, `C72_hnsw_level_terminates`.
* **C73 HNSW search ignores label filters** (HNSW). the model's filter argument is shown irrelevant.
  Theorems: `C73_hnsw_ignores_filters`.
* **C74 Whole index save/load round trip** (Index files). file system as a function from names to bytes; save then load.
  Theorems: `C74_vamana_round_trip`, `C74_rng_round_trip`, `C74_stale_entry_points`, `C74_overwrite_restores_refuted`.
* **C75 Subset files and file metadata** (Bin file). byte-level.
  Theorems: `C75_subset_file`, `C75_metadata`.
* **C76 Estimated shard sizes are the real ones** (Sharding). counting loop over the blocks, compared with a count over all points.
  Theorems: `C76_estimate`, `C76_too_many_copies_refuted`.
* **C77 run_lloyds runs 1..max_reps iterations and returns the last one's result** (K-means). loop with the stopping rule, induction on the repetitions.
  Theorems: `C77_run_lloyds`.
* **C78 Random centres are the drawn points, repeated draws leave a centre unwritten** (K-means). induction over the draws.
  Theorems: `C78_random_centers`, `C78_all_written_refuted`.
* **C79 k-means++ chooses the number of centres asked for among the points and ends** (K-means). loop with fuel; double arithmetic of the darts; every round picks a new point.
  Theorems: `C79_kmeans_pp`, `C79_kmeans_pp_ends`.
* **C80 The float L2 distance is symmetric, never negative and zero on itself** (Distance). for every reduction tree; symmetry of float subtraction and multiplication, sign of squares and sums.
  Theorems: `C80_symmetric`, `C80_not_negative`, `C80_zero_on_itself`, `C80_zero_means_equal_refuted`.
* **C81 Element type converters keep every element** (Converters). byte-level, any order of the parallel loop; exact float conversions.
  Theorems: `C81_int8`, `C81_uint8`, `C81_uint32`, `C81_quantise`, `C81_quantise_fits_refuted`.
* **C82 A reloaded index answers every search as the saved one** (System). Views of an object as the search models see it; the round-trip theorems C44, C67, C74 give equal views, hence equal answers.
  Theorems: `C82_vamana_reload`, `C82_rng_reload`, `C82_hnsw_reload`, `C82_ivf_reload`.
* **C83 From data and label files to a usable index** (System). The constructor of src/index.cpp composed with the build, save and load models; the conditions of each later stage are shown to follow from the earlier ones.
  Theorems: `C83_build_save_load`, `C83_filtered_answers`.
* **C84 The search tools' result files hold each query's own answer** (System). The parallel query loop as any order of its iterations, which write disjoint slots; induction over the order.
  Theorems: `C84_vamana_slots`, `C84_rng_slots`, `C84_hnsw_slots`, `C84_ivf_slots`, `C84_results_file`, `C84_no_list_size`, `C84_no_queries`, `C84_short_queries`.
* **C85 Build tool followed by search tool** (System). C83 and C84 composed.
  Theorems: `C85_build_then_search`.
* **C86 Product quantisation from data file to code file** (PqFile). The float words of FloatBits round-trip; the pivots written are pasted chunk by chunk, each element exactly once; load_pivots reads the four files back; the blocks read cover the data file; then C55. Stale pivots: refuted by a computed run.
  Theorems: `C86_pivot_files`, `C86_codes_file`, `C86_generate_pq`, `C86_old_pivots_kept`, `C86_other_pivots_replaced`, `C86_no_pivots`, `C86_other_chunks`, `C86_too_many_chunks`, `C86_float_words`, `C86_pivots_of_this_data_refuted`.
* **C87 Partitioning a data set, with a fixed number of parts or a memory budget** (Partition). Slices (C58), k-means (C66, C77), sharding (C56) and retrieval (C57) composed over a file system with the names of the files; the budget loop by induction on the rounds, its maximum by the order of doubles. Ending and fitting: refuted.
  Theorems: `C87_partition`, `C87_budget`, `C87_sizes`, `C87_ends_refuted`, `C87_shards_fit_refuted`.
* **C88 Build tools of RelativeNG, HNSW, IVF and LSH followed by their search tools** (build tools). the tools as functions on the file system, composed of the build theorems (C30, C32, C70-C72), the round trips and C84; LSH searches one after the other, see C33.
  Theorems: `C88_rng_build`, `C88_rng_finds_itself`, `C88_hnsw_build`, `C88_hnsw_search`, `C88_ivf_build`, `C88_ivf_search`, `C88_lsh_build`, `C88_lsh_search`.
* **C89 A save that is interrupted at any byte** (crash points). each save function as a list of file operations, proved equal to the save function; a relation `interrupted` reaches every state between them and within a file, byte by byte; case analysis on where it stopped, with the cut-file lemmas of C42 for the graph; for LSH, parsers that never look at what follows.
  Theorems: `C89_operations`, `C89_rng_interrupted`, `C89_cut_graph_safe`, `C89_vamana_interrupted`, `C89_hnsw_interrupted`, `C89_ivf_interrupted`, `C89_lsh_interrupted`, `C89_other_files`, `C89_save_again`, `C89_overwrite_refuted`.
* **C90 Text converters: .bin to tab-separated text and back** (texts). printing and reading of floats modelled digit by digit in exact rationals: nearest six-digit decimal by integer rounding, nearest float by rounding to 24 bits; proved closest among all six-digit decimals and all finite floats; printing the float read gives the same digits (6 < 24 bits); lists by induction over rows and blocks.
  Theorems: `C90_float_text`, `C90_float_round_trip`, `C90_float_exact_refuted`, `C90_infinity_refuted`, `C90_byte_text`, `C90_byte_round_trip`, `C90_byte_white_refuted`, `C90_byte_blocks_refuted`, `C90_byte_decimal_refuted`, `C90_malformed_refuted`, `C90_short_text_byte`, `C90_short_text_float`.
* **C91 Threads of a Vamana build never race on an adjacency list** (races). the build with locks extended by the capacity of each list; the accesses of each step as a list, proved complete (what a step changes and depends on); invariant: capacities never fall below the first reservation, and a list is not reallocated before its own thread links if ceil(1.3 R) <= floor(1.365 R).
  Theorems: `C91_no_race`, `C91_runs`, `C91_no_race_refuted`, `C91_locked`, `C91_unlocked_reserve_refuted`, `C91_changes`, `C91_depends`.
* **C92 Float distances are close to the exact ones** (real error bounds). floats as reals; each operation is the exact one rounded (Flocq's theorems carried over to SpecFloat); induction over the tree of additions with errors (1+u)^k - 1 of the magnitudes and one underflow term per product.
  Theorems: `C92_l2_error`, `C92_l2_error_sharp`, `C92_l2_finite`, `C92_no_contraction`, `C92_contracted_distance`, `C92_order`, `C92_any_order_refuted`, `C92_inner_product`.
* **C93 Float distances of integer vectors are exact** (exact integers). every partial sum is an integer of magnitude at most 2^24, which is a float, so no operation rounds; induction over the tree.
  Theorems: `C93_l2_exact`, `C93_order`, `C93_bytes`, `C93_bytes_259_refuted`, `C93_ip_exact`, `C93_norm_overload`.
* **C94 Preparation for inner product search gives unit vectors** (preparation). model of both passes over the blocks; the pass over a well-formed file visits each row once (induction on the blocks); real error analysis of the sum of squares, the square root, the division and the added coordinate; the order of distances follows from |q|^2+1-2<q,x>/M.
  Theorems: `C94_prepared`, `C94_order`, `C94_empty_refuted`, `C94_every_file_refuted`.
* **C95 The vector analysis tool normalises float files** (vector analysis). the unprotected maximum as loads and stores in any interleaving; one by one it is the maximum of the norms; same error analysis as C94.
  Theorems: `C95_prep_base`, `C95_prep_base_parallel_refuted`, `C95_prep_query`, `C95_normalize`, `C95_normalize_zero_refuted`, `C95_prep_bytes_refuted`.
* **C96 Searching one LSH index from several threads** (threads searching LSH). states: shared tables, per search the next table and its candidates; invariant: a table is the original one touched at the hashes of exactly the searches that are past it; touching commutes; a race needs a missing key, and a missing key gives a schedule to a race.
  Theorems: `C96_race_iff`, `C96_race_any`, `C96_always_safe_refuted`, `C96_unchanged`, `C96_answers`, `C96_end_state`, `C96_progress`.
* **C97 Printed statistics** (printed statistics). the index (p/100)*n computed in doubles, in three forms the compiler may choose; its error is below 2^-51*n, so the truncated index is the exact rank within one and stays below n; shares and means: one rounding each, sums of integers exact up to 2^53; the recall tool is the composition of C50 and C51 with one division.
  Theorems: `C97_degree_report`, `C97_degree_report_empty_refuted`, `C97_range_report`, `C97_norms`, `C97_percentile`, `C97_percentile_999`, `C97_percentile_one_refuted`, `C97_percentile_empty_refuted`, `C97_latency`, `C97_mean`, `C97_mean_empty_refuted`, `C97_recall_tool`, `C97_recall_tool_refuses`, `C97_recall_tool_zero_refuted`.
* **C98 Computed means** (computed means). a sum tree of n floats has relative error (1+2^-24)^(n-1)-1 against the sum of magnitudes (exact for integers below 2^24); a division adds at most four roundings; the distance errors are C92's; Minkowski's inequality carries the error of the centroid over to the distances. Lloyd: the same in double precision, one rounding to float. Refutation: 2^25 points 2 and one point 1, by induction on the number of points.
  Theorems: `C98_pq_centroid`, `C98_entry`, `C98_entry_bytes`, `C98_many_points_refuted`, `C98_lloyd`.
* **C99 Distances computed by matrix products** (matrix product distances). sgemm with the leading dimensions and transpositions of the calls, every entry an arbitrary summation tree with contractions, alpha applied inside or outside, beta*C added last; the three calls of distsq_to_points and of compute_closest_centers_in_block composed with the flat layouts. Entry error: (1+2^-24)^(d+k)-1 against the sum of magnitudes, AM-GM; integers: every partial sum is an integer below 2^24. The order theorems of C52, C53 and C28 then carry the entry errors to the k nearest. Refutations computed.
  Theorems: `C99_truth`, `C99_truth_integers`, `C99_truth_bytes`, `C99_truth_exact_refuted`, `C99_centre_table`, `C99_ivf`, `C99_centre_exact_refuted`.

## Findings about the code

Statements that users would expect and that are false of the code; each is
witnessed by a theorem whose name ends in `_refuted` or by the theorem named.

* Search: with `L = 0` greedy search reads an empty list (C04); a first candidate
  at distance `FLT_MAX` or more breaks the pool (C03); `res_count > L + 1` reads
  past the list (C08, C36); RelativeNG and HNSW ignore filters (C70, C73); an
  unsorted filter list can reject matching points (C11).
* Build: 1 to 9 points divide by zero (C21), for HNSW on every level; neighbour
  lists can hold duplicates (C19); concurrent re-pruning can lose reciprocal
  edges (C20); HNSW prunes unfilled pool slots, so phantom links to point 0 at
  distance `FLT_MAX` appear (C37); HNSW never computes its maximum degree (C22);
  building a second time keeps the old lists (C27, C69, C71).
* IVF/LSH: a probe width above the number of clusters probes only list 0 (C30);
  points at distance `FLT_MAX` or more keep uninitialised or stale centres (C28);
  tags other than the default break LSH search and are not reported by IVF (C35);
  saving a loaded LSH index loses all its tables (C34); looking up a bucket
  inserts it, so concurrent LSH searches race (C96).
* Files: `load_aligned_bin`'s size check wraps modulo 2^64 (C39); the recorded
  length of a graph file is never checked and a cut last list is zero-filled
  (C42); a missing graph file is undefined behaviour (C42); loading twice appends
  (C43); a point without labels makes saving undefined, a point with one empty
  label cannot be reloaded (C45); a label containing a comma breaks the entry
  point file (C46); a stale `_labels_to_medoids.txt` of an earlier index is picked
  up (C74); `get_bin_metadata` sign-extends (C75).
* Buffered IO: a missing file gives uninitialised bytes (C47); the reported size
  after `reset` is not the file's size (C48).
* Parameters: a string with spaces cannot be read back (C49).
* Recall: `recall_at = 0` with distances, or above the number of columns, reads
  outside the arrays; perfect recall can exceed 100 by rounding (C50). Range truth
  sets without queries are undefined (C51).
* Ground truth: `k` silently shrinks to the size of the last part (C53); `k = 0`
  and empty sets are undefined (C52, C53); filtered ground truth of one-byte
  vectors overflows a buffer (C64).
* PQ and sharding: zero chunks or zero points are undefined (C54, C55, C56);
  `k_base` above the number of shards sends every copy to shard 0 (C56) or reads
  uninitialised memory (C76); ids listed twice are written once (C57).
* k-means: a repeated random draw leaves a centre unwritten (C78); the centre of
  an empty cluster becomes the origin (C66).
* Distances: FAST_L2 compares by inner product (C62); int8 L2 overflows from 33026
  coordinates on, uint8 wraps (C60); the AVX loops read past arrays whose length is
  not a multiple of 8 (C61); a zero float L2 distance does not imply equality (C80).
* Converters: an empty fvecs file uses an uninitialised dimension (C63);
  `float_bin_to_int8` maps to 0..256, which int8 cannot hold (C81).
* Quantisation: pivots left by an earlier run under the same prefix are reused for
  other data without a word if their number and dimension agree (C86).
* `partition_with_ram_budget` never returns if no number of parts fits (a negative
  budget, for example), and the shards it writes need not fit the budget because the
  test is made on a sample (C87).
* Search tools: an empty query file reads the first element of an empty vector; the
  dimension of the queries is never compared with the index's, and smaller queries are
  read past their end (C84). Without a theorem: a truth set for another number of
  queries only prints an error and is then read out of bounds.
* Unfilled places of a result row are 0, so a query without any answer reports point 0
  K times; an HNSW build deletes a user's `/tmp/temp_data` (C88).
* Noted while reading, without a theorem: `/tmp/temp_data` is a fixed name shared by
  all HNSW builds; `save_labels` and others report errors only on the console;
  `bin_to_fvecs.cpp` does not compile; `_use_universal_label = false` is not restored
  by load.

- C89: an index saved over one of the same name and size can, if the process stops
  before the graph file is opened, be loaded as new vectors with the old graph, without a
  message. An interrupted graph or inverted-list file whose cut is within the ids of the last
  list is loaded without a message; in an IVF index that loses points and doubles
  point 0.

- C90: bin_to_tsv keeps six digits of a float (1234567 comes back as 1234570); "inf" and
  "nan" cannot be read and turn the rest of the file into zeros; one-byte files are
  written as raw characters, lose white-space codes, and from the second block on
  repeat earlier points because every block reads four bytes per element; tsv_to_bin reads decimal text of
  one-byte numbers as character codes and repeats the last value when the text is too
  short. Without a theorem: an unknown type name only prints an error and leaves an empty file;
  a missing text file leaves the value uninitialised.

- C91: `reserve` is called outside the lock (`src/vamana.cpp:291`, `src/hnsw.cpp:215`)
  while other threads append to the same vector. With libstdc++ this is harmless as long
  as no append replaces the storage before, which the first reservation guarantees
  exactly for degree bounds other than 1, 2, 4, 5, 7 and 8.

- C92: two points whose distances differ by less than the rounding error can be ordered
  wrong: with coordinates (4096, 1, 1) and (4096, 1.25, 0) and the origin as query the
  nearer point gets the larger float distance. Truth sets and results computed by
  different code (BLAS and the distance loop) can therefore differ on near ties.

- C93: float copies of byte vectors give exact distances up to 258 coordinates; from 259
  on some distances are rounded.

- C94: `prepare_base_for_inner_products` divides by zero on an empty file, writes NaNs when
  every vector is zero, infinities or NaNs when the norms underflow or overflow.

- C95: in `vector_analysis` option 2 the parallel loop updates `max_norm` without
  protection: with norms 2 and 1 a schedule leaves 1, and the vector of norm 2 is written
  unscaled. On byte files the scaled coordinates are cut to 0 or 1, so that vectors fall
  together. A zero vector is normalised to NaN.

- C96: the search tool searches an LSH index from several threads; a query whose bucket is
  empty in some table inserts a node into the shared `std::map` without a lock.

- C97: after building a graph without points, the degree report reads before its arrays;
  `get_percentile_stats` with percentile 1, or without queries, reads past the end;
  `calculate_recall` accepts the depth 0 (and any word that is not a number) and then reads before its array of distances.
- C46, C49: an entry point or parameter written with a minus sign is accepted and negated
  modulo 2^32; an entry point of 2^32 or more is reduced modulo 2^32.

- C98: the centroid that decides where a graph is entered is summed in single precision, point
  by point. Beyond 2^24 points the sum can stop growing: with 2^25 points 2 and one point 1
  the centroid is 1 and the graph is entered at the point farthest from the mean.

- C99: the ground truth tool computes |p|^2+|q|^2-2pq in single precision. Far from the origin
  (squared norms above 2^24) it can leave out the query itself and report a farther point at a
  negative distance. Recall against such a file penalises correct results.
- C99: the norms in the assignment to centres are roots that are squared again, so a point and
  the centre equal to it can be at a negative distance.

- C100: `compute_groundtruth` does not reduce k to the size of a part (the version in src does):
  if the last part has fewer than k vectors, other queries' distances and memory behind the
  matrix are read and ids of vectors that do not exist are written.
- C100: the dimension of the query file is overwritten by that of the base file; a mismatch gives
  a wrong truth file without a message. Queries beyond the first ten million are dropped.

- C102: recall depends on ties when the truth file has as many columns as the recall asks for: a search that reports another vector at the same distance as the last of the truth loses that hit (witness: 75 percent for exact results). Computing the truth deeper than the recall avoids it.

- C103: build tools accept one word less than they need when the label flag is set (argv[argc] is read: undefined), and ignore a surplus word when it is not. search_lsh has the same gap behind its filter flag.
- C103: words that are not numbers count as 0 (a degree "ten" builds with degree 0), negative list sizes pass the check against K as 2^64 minus the number and reach the search modulo 2^32.
- C103: an unknown data type ends every tool with status 0 and nothing done; so does an unknown metric in the search tools, among them fast_l2, which their usage messages name. A script cannot tell this from success.
- C103: inner product on byte types is refused only after the data was read, by an exception nobody catches.
- C103: `tests/benchmarks.py` calls the vamana tools in an older form: its build line lacks the label flag (refused, nothing is built), its search line lacks the filter flag (the first list size is taken as flag, the second as the name of a filter no vector has).
- C104: alpha, sampling rate and training rate pass through a text of six digits (`include/parameters.h`): further digits are lost.
- C105: the search tools do not check the truth file against the query file and K as the recall tool does; a smaller truth file is read out of range.

- C106: gen_random_slice ends with status 0 and writes nothing for an unknown type; a rate that is no number counts as 0 and leaves empty sample files behind.

- C107: generate_pq with a wrong number of arguments prints its usage and ends with status 0. An unknown type word is silent in seven utilities (bin_to_tsv leaves an empty file, tsv_to_bin one with a header only that the loader refuses); compute_groundtruth takes every metric word other than mips for L2; vector_analysis with option 2, 3 or 4 and no output name reads a null pointer.
- C108: build_hnsw with two levels or more removes a file /tmp/temp_data of the user.

- C109: compute_filtered_groundtruth offers int8 and uint8 but is undefined for them (the distances are loaded into arrays sized by the vector type); also if nothing matches, and for a negative number of neighbours (int to size_t to text to int). An unknown type is silent, with status 0. The number of neighbours in the file is the smaller of K and the number of vectors in the last part.

- C110: random_cube and random_gaussian share one generator between OpenMP threads without synchronisation. With more than 64 rows and two threads there are schedules with repeated rows and with reads past the end of the generator's state. The allocation is sized by a 32-bit product; 2^32 or more numbers overrun it. An unknown distribution word silently means cube.

- C111: subtracting and adding the centre does not give back the data (1 with a centre of 2^25 becomes 0). get_memory_budget is not monotone: just above 1.25 GB the budget drops by a quarter of a gigabyte.

- C112: an index made for loading frees an unset pointer when it is destroyed before a load got past its data file (for example after a missing file was caught). An IVF index has this with its centres in both constructors. After a load its centres come from aligned_alloc and are given to delete[], so every run of search_ivf ends in a mismatched delete. HNSW::load on an index constructed from a file follows a null pointer. Each further load loses the old data and tags; each further build of IVF or HNSW loses what the former obtained. LSH and IVF objects can be copied, and then free everything twice.

- C113: random_device gives 2^32 seeds but only 2^31 - 2 different tables of hyperplanes: s and s + 2^31 - 1 give the same one, so do 0 and 1. Two tables of one index can therefore coincide and add nothing to a search.

- C114: the distances to the centres come from |x|^2 + |c|^2 - 2 x c and lose their digits when points are close together but far from the origin. For the points 4096 and 4097 on the centres 4096 and 4097 one iteration gives both points to the first centre, moves the second centre to 0 and raises the objective from 0 to 1/2; later iterations cannot repair it. The excess is bounded by the squared norms, not by the spread of the data; centring the data first would help.

- C115: degree bounds make points unreachable. From the origin and 127 unit vectors one thread with L = 100, R = 64, C = 750, alpha = 1.2 builds an index in which 63 of the 128 points have no incoming edge from a reachable one: the list of the origin holds 64 of them, each unit vector has the origin alone. Searches never report these points, not even for their own vectors, whatever L.
- C115: a point with the universal label is linked only to points with this label, so a filtered search, which starts at the entry point of its label, need not reach it although it matches. Proved for eleven points with no limit in force.

- C116: with flush-to-zero the points 0 and 2^-64 have squared distance 0 although 2^-128 is a float, so a search cannot tell them apart, nor either from 2^-65.

- C117: `/tmp/temp_data` is one fixed name for all processes. Two HNSW builds on one machine whose windows overlap mix their inner levels silently (C117_vectors_refuted) or one throws because the file is gone (C117_end_refuted).

- C118: an IVF build whose training sample comes out empty reads outside the sample: possible for every training rate below 1 (C118_rate_refuted), and certain for rates not above 0. With `num_clusters` 0 the first centre is written outside its array, and above 2^23 sampled points a repeated draw leaves a centre uninitialised.

- C119: as with Vamana (C115), an HNSW index can hold points that no search finds: with L 100, R 64, C 750, alpha 1.2, the origin and 127 unit vectors, 36 of the points are out of reach of the outermost graph (C119_hnsw_misses_refuted).

- C120: a larger L can give a worse answer when points are equally far from the query. A candidate as far as the last entry is dropped when the list is full and put before the last entry when it is not (include/index.h, InsertIntoPool; src/index.cpp), so the two searches expand different points. On an index built from 16 points with integer coordinates a list of 2 finds a point at squared distance 14 and a list of 3 only one at 50 (C120_ties_built_refuted).
- C120: with more filter labels than L the entry points beyond L are dropped, and a larger L can give a worse answer (C120_entries_refuted).
- C120: an HNSW search can get worse with a larger L, and its first answer depends on how many answers are asked for, because the inner levels are asked for as many (C120_hnsw_refuted).

- C121: multiplying every coordinate by 3 can change the nearest neighbour: the computed squared norms of (3243, 3855) and (5025, 357) are 25378074 and 25378072, those of the tripled points 228402656 and 228402672 (C121_factor_three_refuted). Multiplying by a power of two cannot, while squares stay in the range of normal floats.

- C122: n_cmps leaves out the distances to the starting points of a graph search and to the centres of an IVF index: a search of one point reports its distance and 0 comparisons (C122_entry_refuted), an IVF search with 3 centres and 2 points in the probed list reports 2 (C122_centers_refuted). Comparing indices by the printed counter favours IVF by the number of centres.

- C123: RelativeNG prunes with alpha 1 (src/relative_ng.cpp 162), so its graph has shortcuts of no factor above 1: on ten points, with a list of 8, it returns a point at distance 1000 while the nearest is at 1 (C123_rng_refuted). Vamana with alpha 4 does the same on these points (C123_vamana_refuted), because lists are pruned from visited points only.
- C123: alpha is compared with quotients of squared L2 distances (src/graph_index.cpp 158-190), so a given alpha means a factor sqrt(alpha) in distance: the usual 1.2 is 1.095, a bound of 22 instead of 11.

- C124: a Vamana index depends on the order of the vectors in the data file, on one thread, without ties, with no random choice: twelve points in reverse order give another graph, and a search with L = 2 returns a point at squared distance 634 where the other index returns the nearest, at 65 (C124_vamana_build_refuted). Points are linked in file order (src/vamana.cpp, the loop over locations).

- C125: in the table of search_hnsw the work can fall as L grows: with L = 1 the inner level stops early and the outer one walks the whole way (6 comparisons, 7 hops), with L = 2 the inner level finds the entry point next to the query (2 and 4; C125_hnsw_longer_refuted). search_ivf prints zero hops always (C125_ivf). With 1000 queries the 99.9 percent columns are the maximum, with 1100 one expensive query is hidden (C125_thousand_case).

- C126: alpha does not trade degree monotonically: with alpha = 1 the list of a point has 3 links, with alpha = 1.25 only 2, one of them new, since a candidate kept by the larger alpha occludes two others (C126_alpha_refuted).

- C127: with a search list of 2, asking for labels a and b loses the nearest point that asking for a alone finds (C127_narrow_refuted); without a filter it is never found, since the start node does not lead to it (C127_dropped_refuted). Filter ["c"; "b"] (not sorted) misses a point that ["b"] finds (C127_unsorted_refuted): the search does not sort the caller's list.

- C128: with two points equally far from the query, an IVF search for one answer names point 0 and one for two answers puts point 1 first (C128_ties_refuted): a newcomer goes in front of the first entry it ties with if that is the last one of the list, but is dropped when the list is full.

- C129: more than R copies of one vector near the start node make an island. 22 copies and four other points, L 30, R 16, C 50, alpha 1.2, one thread: every list of a copy holds 16 copies, so no search reports the four other points or five of the copies, whatever the query, L and k (C129_island_refuted). The occlusion factor divides by the distance of two candidates, which is zero for copies.

- C130: with the distances of the matrix products a vector that is itself a pivot can be coded by another one: 5794 by 5793 (C130_exact_refuted). The squared norms pass 2^24, so the difference of norms and product is off by more than the distance of the pivots.

- C131: giving every point the same label changes the graph Vamana builds and where searches start: the entry point of the label is drawn at random among the points, not next to the centroid (C131_same_start_refuted).

## Wrong programs

`seeded/LOG.jsonl` has one line per attempt. Method: in a scratch copy of
`rocq/`, one definition of the model is edited; the copy is rebuilt; each lemma
whose proof no longer goes through is cut (`Admitted`) and the build goes on;
`Print Assumptions` then tells which property theorems depend on a cut lemma
("failed") and which still hold of the wrong program. If a theorem for a claim
that the edit makes false still holds, it is too weak and was tightened.

