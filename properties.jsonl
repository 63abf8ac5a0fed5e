{"id": "C01", "title": "Bounded candidate pool insertion keeps the pool sorted and loses nothing", "statement": "Inserting a neighbour into a distance-sorted pool of K entries (buffer of at least K+1) yields a sorted pool of K+1 entries that is the old pool plus the new neighbour, placed at the returned index, and shifts nothing before that index; if the id is already in the pool (ids determine distances) the pool is unchanged and K+1 is returned. No read or write leaves the buffer when K>=1.", "quantifier": "every sorted pool of every length K>=1, every buffer contents beyond K, every new neighbour with non-NaN distances, including ties", "why_tests_cant": "The insertion is a hand-written binary search with unsigned arithmetic plus a memmove; ties, K=1 and boundary positions interact, and unit tests sample only a few arrangements.", "anchors": ["include/index.h: InsertIntoPool", "include/index.h: Neighbor"]}
{"id": "C02", "title": "Feeding candidates keeps exactly the best ones", "statement": "After any sequence of candidate lists has been fed into a pool of capacity m>=1, the pool holds, sorted by distance and without duplicate ids, exactly the min(m, number of distinct accepted candidates) candidates of smallest distance among all accepted candidates seen so far; the comparison counter equals the number of distinct accepted candidates seen.", "quantifier": "every pool capacity >=1, every sequence of candidate lists (with repetitions, any order), every distance assignment without NaN or distances >= FLT_MAX on first insertion, every filter list", "why_tests_cant": "The property is about an unbounded history of insertions and evictions with duplicates; testing covers finitely many histories.", "anchors": ["src/index.cpp: process_candidates_into_best_candidates_pool", "include/index.h: InsertIntoPool"]}
{"id": "C03", "title": "Candidate processing never touches memory outside the pool", "statement": "Processing any candidate list into a pool whose buffer has maxListSize+1 slots never reads or writes outside that buffer when maxListSize>=1 and the first accepted candidate of an empty pool is nearer than FLT_MAX; if that first candidate is at infinite or NaN distance (overflow) there is an out-of-bounds read for every capacity, and with maxListSize=0 (res_count 0 in IVF/LSH search) there is an input with finite distances that reads out of bounds.", "quantifier": "every candidate list, capacity and pool state reachable from an empty pool", "why_tests_cant": "Out-of-bounds reads are undefined behaviour that usually does not crash, so tests cannot observe their absence.", "anchors": ["src/index.cpp: process_candidates_into_best_candidates_pool", "src/ivf.cpp: search", "src/lsh.cpp: search"]}
{"id": "C04", "title": "Greedy graph search always terminates", "statement": "Graph search stops on every finite graph, after at most as many hops as there are distinct nodes discovered, for every list size L>=1, even though its cursor moves backwards.", "quantifier": "every graph (cycles, self loops, duplicate edges, unreachable parts), every query distance function without NaN, every start set, every L>=1, every filter", "why_tests_cant": "Non-termination is not observable by a finite test, and the loop moves its index backwards so no simple counter bounds it.", "anchors": ["src/graph_index.cpp: greedy_search_to_fixed_point"]}
{"id": "C05", "title": "Graph search ends at a fixed point", "statement": "When graph search returns, every returned candidate has been expanded, and every accepted out-neighbour of every expanded node is either among the returned candidates or is at distance at least that of the worst candidate of a full list.", "quantifier": "every finite graph, query, start set, L>=1 and filter", "why_tests_cant": "It quantifies over all graphs and all expansion orders.", "anchors": ["src/graph_index.cpp: greedy_search_to_fixed_point"]}
{"id": "C06", "title": "Graph search results are sorted and distinct", "statement": "The candidates a graph search returns are in non-decreasing distance order and contain no id twice.", "quantifier": "every finite graph, query, start set, L>=1 and filter", "why_tests_cant": "Must hold for every interleaving of insertions and evictions over every graph.", "anchors": ["src/graph_index.cpp: greedy_search_to_fixed_point", "src/vamana.cpp: search", "src/relative_ng.cpp: search"]}
{"id": "C07", "title": "Reported distances are the true distances of the reported points", "statement": "Each (id, distance) pair reported within the returned count pairs an indexed, discovered point with exactly the distance the metric gives between the query and that point.", "quantifier": "every graph, query, start set, L, res_count and filter", "why_tests_cant": "Stale or default pool slots could leak into results only on particular histories.", "anchors": ["src/vamana.cpp: search", "src/graph_index.cpp: greedy_search_to_fixed_point"]}
{"id": "C08", "title": "Vamana search result count and buffers", "statement": "Vamana search returns min(res_count, number of candidates found) and, whenever res_count <= L+1, writes exactly res_count output slots without any out-of-bounds access, the first `count` of which are the best candidates in order; when res_count > L+1 it reads past its candidate list.", "quantifier": "every graph whose edges are valid ids, every L>=1, every res_count, every filter", "why_tests_cant": "An out-of-bounds vector read is silent in a release build.", "anchors": ["src/vamana.cpp: search"]}
{"id": "C09", "title": "Search results carry the caller's tags", "statement": "Vamana, RelativeNG and level-0 HNSW search report the caller-supplied tag of each point found, never the internal index; with the default tags the two coincide.", "quantifier": "every tag assignment, graph and query", "why_tests_cant": "Tests normally run with default tags where the mapping is the identity and a missing mapping is invisible.", "anchors": ["src/vamana.cpp: search", "src/relative_ng.cpp: search", "src/hnsw.cpp: search", "src/index.cpp: ANNIndex"]}
{"id": "C10", "title": "Filtered search returns only matching points", "statement": "With a non-empty filter list, every point returned by IVF or LSH search, and every point returned by Vamana search other than a label's entry point, either shares a label with the filter list, or carries the universal label, or the filter list contains the universal label; and Vamana entry points computed by build match too, so no returned point fails the filter.", "quantifier": "every label assignment, every filter list, every graph or inverted index, every query", "why_tests_cant": "A filter leak occurs only for particular graph/label configurations.", "anchors": ["src/index.cpp: process_candidates_into_best_candidates_pool", "src/vamana.cpp: search", "src/ivf.cpp: search", "src/lsh.cpp: search"]}
{"id": "C11", "title": "Filter acceptance is exact for sorted filter lists", "statement": "For a sorted filter list and the (sorted) label list of a point the accept test is true exactly when they share a label or the universal-label rule applies; for an unsorted filter list the test can reject a point that does share a label.", "quantifier": "every pair of label lists over arbitrary strings, any universal label", "why_tests_cant": "set_intersection silently requires sorted input; the caller's filter list is never sorted.", "anchors": ["src/index.cpp: process_candidates_into_best_candidates_pool", "src/index.cpp: parse_label_file"]}
{"id": "C12", "title": "Alpha-RNG pruning output shape", "statement": "Robust pruning of a candidate list for a point returns at most R ids, all taken from the candidates, in non-decreasing distance order, never the point itself, and no id more often than it occurs among the candidates.", "quantifier": "every candidate list, every R, C, alpha, every pairwise distance function, filtered or not, every tie order produced by the unstable sort", "why_tests_cant": "The unstable sort and float division give unboundedly many cases.", "anchors": ["src/graph_index.cpp: prune_candidates_alpha_rng"]}
{"id": "C13", "title": "Alpha-RNG pruning keeps exactly the non-occluded candidates", "statement": "Scanning the sorted candidates (limited to the first C), a candidate is kept iff it is not the point itself, fewer than R were kept before it, and no earlier kept candidate that is allowed to occlude it has distance ratio d(candidate,point)/d(candidate,kept) above alpha; in particular the closest candidate is always kept when R,C>=1.", "quantifier": "every candidate list without NaN ratios, every R, C, alpha, labels, tie order", "why_tests_cant": "The code tracks a running maximum in a side array and skips updates; equivalence with the definition must hold for all lists.", "anchors": ["src/graph_index.cpp: prune_candidates_alpha_rng"]}
{"id": "C14", "title": "Filtered pruning never disconnects a label", "statement": "In a filtered index a candidate is only ever pruned because of a kept neighbour that carries all of the candidate's labels (unless the degree bound or candidate cap was hit).", "quantifier": "every candidate list, label assignment, R, C, alpha", "why_tests_cant": "Label coverage is a relational property over all label sets.", "anchors": ["src/graph_index.cpp: prune_candidates_alpha_rng"]}
{"id": "C15", "title": "Top-K pruning is the R nearest", "statement": "Top-K pruning returns the min(R, available) candidates of smallest distance other than the point itself, in order.", "quantifier": "every candidate list, R and tie order", "why_tests_cant": "All lists and ties.", "anchors": ["src/graph_index.cpp: prune_candidates_top_K"]}
{"id": "C16", "title": "Vamana build: edges are valid and never self loops, on every schedule", "statement": "After build, with any number of threads and any interleaving of their locked sections, every out-neighbour id is a valid point id and no node lists itself.", "quantifier": "every data set (distance function), parameters, and every interleaving of threads at lock granularity", "why_tests_cant": "The number of interleavings is astronomically large.", "anchors": ["src/vamana.cpp: build", "src/graph_index.cpp: add_reciprocal_edges"]}
{"id": "C17", "title": "Vamana build: final out-degree is at most R, on every schedule", "statement": "After build returns every node has at most R out-neighbours, and at every moment during the build at most R plus the slack bound.", "quantifier": "every data set, parameters and interleaving", "why_tests_cant": "Concurrent appends between another thread's read and overwrite could exceed the bound only on rare schedules.", "anchors": ["src/vamana.cpp: build", "src/graph_index.cpp: add_reciprocal_edges", "include/essentials.h: VAMANA_SLACK_FACTOR"]}
{"id": "C18", "title": "Vamana build terminates and every location is processed exactly once on every schedule", "statement": "Every maximal interleaving of the build is finite: each location runs its search, links once and adds its reciprocal edges, and no thread can block another forever.", "quantifier": "every data set without NaN distances, L>=1, every interleaving", "why_tests_cant": "Termination over all schedules is not testable.", "anchors": ["src/vamana.cpp: build", "src/graph_index.cpp: greedy_search_to_fixed_point"]}
{"id": "C19", "title": "Vamana neighbour lists may contain duplicates", "statement": "A built Vamana graph can list the same neighbour twice (a node's own links are appended without checking for reciprocal edges already present) even single threaded; lists that went through pruning are duplicate free.", "quantifier": "exists a data set with the default parameters (witness); for the positive part every candidate list", "why_tests_cant": "Duplicates do not change small-scale recall so tests do not see them.", "anchors": ["src/vamana.cpp: build", "src/graph_index.cpp: add_reciprocal_edges"]}
{"id": "C20", "title": "Reciprocal edges: kept or justified when single threaded, can be lost concurrently", "statement": "Run by one thread, after adding reciprocal edges of n each target either lists n or was re-pruned with n among the candidates; with two threads there is a schedule in which an edge appended by one thread is overwritten by another thread's stale list.", "quantifier": "every graph state and pruned list (sequential part); exists a schedule (concurrent part)", "why_tests_cant": "Lost updates need a specific interleaving of three lock sections.", "anchors": ["src/graph_index.cpp: add_reciprocal_edges"]}
{"id": "C21", "title": "Build needs at least ten points", "statement": "Vamana, RelativeNG and HNSW builds divide by zero (location % (n/10)) for every data set of 1 to 9 points and for none of 10 or more.", "quantifier": "every number of points", "why_tests_cant": "Boundary over all n; test data sets are always large.", "anchors": ["src/vamana.cpp: build", "src/relative_ng.cpp: build", "src/hnsw.cpp: build"]}
{"id": "C22", "title": "Saved maximum degree equals the true maximum out-degree", "statement": "After the degree statistics are updated, the reported maximum degree equals the largest out-neighbour list length of the graph; an HNSW build never updates it, so it stays 0.", "quantifier": "every graph", "why_tests_cant": "Universal statement over graphs.", "anchors": ["src/graph_index.cpp: update_degree_stats", "src/hnsw.cpp: build"]}
{"id": "C23", "title": "RelativeNG always finds an indexed vector", "statement": "On a built RelativeNG index, searching for an indexed vector with any L>=1 and res_count>=1 returns a first result at distance zero.", "quantifier": "every data set of at least ten points whose float32 distances are symmetric, non-negative and zero from a vector to itself (duplicates and infinite distances allowed); every indexed vector as query, every L>=1, every order of the build loop, every entry point", "why_tests_cant": "Greedy routing success is a global property of the whole graph.", "anchors": ["src/relative_ng.cpp: build", "src/relative_ng.cpp: search", "src/graph_index.cpp: prune_candidates_alpha_rng"]}
{"id": "C24", "title": "RelativeNG graphs are strongly connected up to duplicate points", "statement": "In a built RelativeNG every node can reach, along edges that get strictly closer, some point at distance zero from any given target point.", "quantifier": "every data set of at least ten points with symmetric, non-negative distances, zero from a vector to itself; every pair of node and target; every order of the build loop", "why_tests_cant": "Reachability over all data sets.", "anchors": ["src/relative_ng.cpp: build"]}
{"id": "C25", "title": "The entry point is a closest point to the centroid", "statement": "The start node chosen by build is the first index attaining the minimum of the computed distances to the centroid.", "quantifier": "every number of points >=1 and every list of computed distances without NaN", "why_tests_cant": "Universal over inputs, ties included.", "anchors": ["src/index.cpp: calculate_medoid_of_data", "src/relative_ng.cpp: calculate_entry_point"]}
{"id": "C26", "title": "Label entry points carry their label", "statement": "For every label the entry point chosen at build time is a point carrying that label or the universal label, whatever random numbers are drawn and however the per-label work is scheduled; every label occurring in the data gets an entry point.", "quantifier": "every label assignment, every random sequence, every order of the critical sections", "why_tests_cant": "Randomised and scheduled.", "anchors": ["src/vamana.cpp: calculate_label_specific_medoids"]}
{"id": "C27", "title": "IVF inverted lists partition the points on every schedule", "statement": "After build each point id appears in exactly one inverted list, exactly once, whatever order the parallel loop appends in.", "quantifier": "every data set, number of clusters >=1, every interleaving of the critical section", "why_tests_cant": "All schedules.", "anchors": ["src/ivf.cpp: build", "src/math_utils.cpp: compute_closest_centers"]}
{"id": "C28", "title": "IVF puts each point with a nearest centre", "statement": "Each point is assigned to the first centre of minimal computed distance; distances at or above FLT_MAX leave the assignment uninitialised.", "quantifier": "every distance matrix", "why_tests_cant": "Universal.", "anchors": ["src/math_utils.cpp: compute_closest_centers_in_block"]}
{"id": "C29", "title": "IVF probing all clusters is exact", "statement": "With probe_width equal to the number of clusters, IVF search returns exactly the res_count nearest accepted points in order; with a smaller probe width, exactly the nearest among the points of the probed lists.", "quantifier": "every index, query, res_count>=1, filters", "why_tests_cant": "Exactness over all inputs.", "anchors": ["src/ivf.cpp: search", "src/math_utils.cpp: compute_closest_centers"]}
{"id": "C30", "title": "IVF probe widths above the number of clusters silently probe one cluster", "statement": "If probe_width exceeds the number of clusters, IVF search only examines the first inverted list.", "quantifier": "every index and query with probe_width > num_clusters", "why_tests_cant": "Silent degradation.", "anchors": ["src/ivf.cpp: search", "src/math_utils.cpp: compute_closest_centers"]}
{"id": "C31", "title": "LSH finds every indexed vector", "statement": "With default tags and at least one table, LSH search for a vector equal to an indexed one always has that point among its candidates, so with res_count>=1 and no filter the first result is at distance no larger than that point's.", "quantifier": "every data set, hyperplane set, number of tables and bits up to 64", "why_tests_cant": "Universal over hyperplanes.", "anchors": ["src/lsh.cpp: build", "src/lsh.cpp: search", "src/lsh.cpp: HashTable::get_hash"]}
{"id": "C32", "title": "LSH searches exactly the colliding points", "statement": "LSH search returns exactly the best res_count accepted points among those sharing the query's sign pattern in at least one table.", "quantifier": "every data set, tables, query, res_count>=1, filters", "why_tests_cant": "Universal.", "anchors": ["src/lsh.cpp: search", "src/lsh.cpp: build"]}
{"id": "C33", "title": "Repeated LSH searches do not influence each other", "statement": "Although looking up a bucket inserts an empty bucket, any sequence of searches returns the same results as searching the freshly built index, and saving afterwards reloads to an equivalent index.", "quantifier": "every sequence of queries", "why_tests_cant": "Histories.", "anchors": ["src/lsh.cpp: HashTable::get_bucket", "src/lsh.cpp: save"]}
{"id": "C34", "title": "LSH save/load round trip, and its loss on re-save", "statement": "Saving a built LSH index and loading it gives tables with the same hyperplanes and buckets; loading leaves the table count at zero, so saving a loaded index and loading again gives an index without tables.", "quantifier": "every table contents", "why_tests_cant": "Round trip over all contents.", "anchors": ["src/lsh.cpp: save", "src/lsh.cpp: load", "src/lsh.cpp: HashTable::write_to_file"]}
{"id": "C35", "title": "Non-default tags break LSH and IVF reporting", "statement": "IVF search reports internal point indices rather than tags, and LSH search uses stored tags as indices into the data, reading outside the data when a tag is at least the number of points.", "quantifier": "exists index/tag assignments (witness); default tags are unaffected for all inputs", "why_tests_cant": "Tests use default tags.", "anchors": ["src/ivf.cpp: search", "src/lsh.cpp: build", "src/lsh.cpp: search"]}
{"id": "C36", "title": "HNSW inner levels enter the outer level at the right points", "statement": "The ids an inner HNSW level hands to the level above are ids of that outer level, obtained through the sampled-point tag map, so every search result at the top level is a valid top-level point with the caller's tag and a genuine distance, and the best result is no farther than any entry point; with an inner level and res_count > L the search writes past its entry-point buffer.", "quantifier": "every level count, sample, graph contents and query with res_count <= L", "why_tests_cant": "Composition over all levels.", "anchors": ["src/hnsw.cpp: search", "src/hnsw.cpp: build"]}
{"id": "C37", "title": "HNSW build links nodes to unfilled pool slots", "statement": "HNSW build prunes the whole L+1-slot pool instead of the candidates found: whenever the search for a point found c < L candidates, the pruning gets L+1-c extra copies of point 0 at distance FLT_MAX, and with a pruning rule other than 0 these become links, whether or not point 0 was reached.", "quantifier": "every data set, parameter setting, inner index and interleaving", "why_tests_cant": "Adds spurious edges that do not crash.", "anchors": ["src/hnsw.cpp: build"]}
{"id": "C38", "title": "Vector file (.bin) round trip", "statement": "Saving an n x d matrix with save_bin and loading it with load_bin gives back n, d and the same data; likewise a zero-padded load followed by a save in original dimensions reproduces the file byte for byte.", "quantifier": "every n,d < 2^31 (and sizes below 2^63 bytes) and every element contents of any element width", "why_tests_cant": "All sizes and contents.", "anchors": ["include/utils.h: save_bin", "include/utils.h: load_bin_impl", "include/utils.h: load_aligned_bin_impl", "include/utils.h: save_data_in_original_dimensions"]}
{"id": "C39", "title": "Vector files of the wrong size are rejected", "statement": "Loading a .bin file whose byte length differs from 8 + n*d*sizeof(T) for the n and d in its header throws and returns no data, so every truncation or extension of a saved file is rejected.", "quantifier": "every byte string and element width (64-bit size arithmetic that does not wrap)", "why_tests_cant": "All byte strings; crash points of a writer.", "anchors": ["include/utils.h: load_bin_impl", "include/utils.h: load_aligned_bin_impl"]}
{"id": "C40", "title": "Aligned loading pads each vector with zeros", "statement": "Aligned loading rounds the dimension up to the next multiple of 8, keeps every coordinate and sets all padding to zero.", "quantifier": "every n, d and contents", "why_tests_cant": "All sizes.", "anchors": ["include/utils.h: load_aligned_bin_impl", "include/essentials.h: ROUND_UP"]}
{"id": "C41", "title": "Graph file round trip", "statement": "Saving a Vamana/RelativeNG graph and loading it into a fresh object restores the start node, the maximum degree and every out-neighbour list in order; the header records the file length.", "quantifier": "every graph with fewer than 2^32 nodes/degree and ids below 2^32", "why_tests_cant": "All graphs.", "anchors": ["src/vamana.cpp: save", "src/vamana.cpp: load", "src/relative_ng.cpp: save"]}
{"id": "C42", "title": "Truncated graph files are not always detected", "statement": "A graph file cut at an arbitrary byte never loads as more nodes than it contained; nodes completely before the cut are intact; but a cut inside the last list is silently loaded with zero-filled ids, and the recorded length is never checked.", "quantifier": "every graph and every cut position (crash point of save)", "why_tests_cant": "All crash points.", "anchors": ["src/vamana.cpp: load"]}
{"id": "C43", "title": "Loading twice appends instead of replacing", "statement": "Loading a graph into an object that already has one appends the lists, so the first graph's adjacency remains in effect and the size check fails.", "quantifier": "every pair of graphs", "why_tests_cant": "Histories of calls.", "anchors": ["src/vamana.cpp: load"]}
{"id": "C44", "title": "IVF index round trip", "statement": "Saving an IVF index's inverted lists and loading them restores every list.", "quantifier": "every set of inverted lists", "why_tests_cant": "All contents.", "anchors": ["src/ivf.cpp: save", "src/ivf.cpp: load"]}
{"id": "C45", "title": "Label file round trip", "statement": "Writing the per-point label lists and parsing the file restores each point's labels, for non-empty lists of non-degenerate labels without comma, newline or carriage return; points without labels or a single empty label are not restored.", "quantifier": "every label assignment", "why_tests_cant": "All strings.", "anchors": ["src/index.cpp: save_labels", "src/index.cpp: parse_label_file"]}
{"id": "C46", "title": "Label entry point file round trip", "statement": "Writing label-to-entry-point lines and reading them back restores the map for every label without comma, newline or carriage return.", "quantifier": "every map", "why_tests_cant": "All strings and ids.", "anchors": ["src/vamana.cpp: save", "src/vamana.cpp: load"]}
{"id": "C47", "title": "Buffered reader equals plain sequential reading", "statement": "Any sequence of reads through cached_ifstream, with any cache size, returns the same bytes as reading the file sequentially, and a read that would pass the end throws exactly when it exceeds the bytes remaining, leaving the position unchanged.", "quantifier": "every file, cache size >=1, and sequence of read lengths (including zero and past-end reads)", "why_tests_cant": "Unbounded histories crossing refill boundaries.", "anchors": ["include/cached_io.h: cached_ifstream"]}
{"id": "C48", "title": "Buffered writer equals plain sequential writing", "statement": "After any sequence of writes and flushes and destruction, the file holds exactly the concatenation of the written data, and the reported size is its length once flushed.", "quantifier": "every cache size and sequence of writes/flushes", "why_tests_cant": "Unbounded histories.", "anchors": ["include/cached_io.h: cached_ofstream"]}
{"id": "C49", "title": "Parameters return the last value set", "statement": "Getting an unsigned parameter returns the last value set under that name, whatever other parameters are set in between; unset names throw; defaults are num_threads=0 and pruning_rule=0.", "quantifier": "every sequence of Set calls and every name and 32-bit value", "why_tests_cant": "Histories; text conversion over all values.", "anchors": ["include/parameters.h: Parameters"]}
{"id": "C50", "title": "Recall is within bounds and counts what it says", "statement": "The hit count behind calculate_recall is, per query, the number of distinct ground-truth ids (first recall_at plus ties) among the first recall_at results, hence at most recall_at per query; out-of-range recall_at reads outside the arrays.", "quantifier": "every ground truth, result matrix, number of queries and recall_at in 1..dim", "why_tests_cant": "All matrices and ties.", "anchors": ["src/recall_utils.cpp: calculate_recall", "src/recall_utils.cpp: calculate_range_search_recall"]}
{"id": "C51", "title": "Range ground truth keeps exactly the points in range", "statement": "Pruning a truth set for a range keeps, per query and in order, exactly the ids whose recorded distance is at most the range.", "quantifier": "every truth set file and range", "why_tests_cant": "All contents.", "anchors": ["include/recall_utils.h: prune_truthset_for_range", "include/recall_utils.h: load_truthset"]}
{"id": "C52", "title": "Exact k-NN ground truth is exact", "statement": "exact_knn returns for every query the k nearest points in non-decreasing order for k <= number of points; merging the per-part results gives the k nearest overall.", "quantifier": "every distance matrix, k, number of parts, heap tie order", "why_tests_cant": "All matrices.", "anchors": ["src/aux_compute_groundtruth.cpp: exact_knn", "src/aux_compute_groundtruth.cpp: aux_main"]}
{"id": "C53", "title": "Multi-part ground truth shrinks k when the last part is small", "statement": "If some part holds fewer than k points, the k used for all later parts and for the output becomes that part's size.", "quantifier": "every part-size list and k", "why_tests_cant": "Needs tens of millions of points to reproduce.", "anchors": ["src/aux_compute_groundtruth.cpp: aux_main"]}
{"id": "C54", "title": "PQ chunks partition the dimensions evenly", "statement": "The chunk offsets produced for d dimensions and c chunks (1<=c<=d) split 0..d-1 into c consecutive non-empty blocks of size floor(d/c) or ceil(d/c), and the dimension rearrangement is the identity, so pivots and encoded data use the same coordinates.", "quantifier": "every d and c", "why_tests_cant": "All pairs; pivots and encoding use different code paths that agree only if the permutation is the identity.", "anchors": ["src/partition_and_pq.cpp: generate_pq_pivots", "src/partition_and_pq.cpp: generate_pq_data_from_pivots"]}
{"id": "C55", "title": "PQ codes are nearest pivots and are stored without loss", "statement": "Each chunk code written is the index of a first nearest pivot and survives the narrowing to 8 bits, since 8-bit codes are used only for at most 256 pivots.", "quantifier": "every number of pivots, points and distance matrix", "why_tests_cant": "All inputs.", "anchors": ["src/partition_and_pq.cpp: generate_pq_data_from_pivots"]}
{"id": "C56", "title": "Sharding replicates each point into k distinct shards", "statement": "With k_base <= number of shards every point is written to exactly k_base different shards (the nearest ones), so shard sizes add up to k_base*n; with k_base above the number of shards all copies go to shard 0.", "quantifier": "every data set, number of shards and k_base", "why_tests_cant": "All inputs.", "anchors": ["src/partition_and_pq.cpp: shard_data_into_clusters", "src/math_utils.cpp: compute_closest_centers"]}
{"id": "C57", "title": "Two-phase sharding equals direct sharding", "statement": "Writing only ids per shard and later retrieving the shard's vectors produces the same shard data file as direct sharding.", "quantifier": "every data set, shard assignment with distinct shards per point, and block size", "why_tests_cant": "All inputs; relies on id order.", "anchors": ["src/partition_and_pq.cpp: shard_data_into_clusters_only_ids", "src/partition_and_pq.cpp: retrieve_shard_data_from_ids"]}
{"id": "C58", "title": "Random slices are sub-sequences", "statement": "Sampling a file yields a data file and an id file of equal length whose i-th vector is the base vector of the i-th id, ids increasing, whatever random numbers are drawn.", "quantifier": "every data set and random sequence", "why_tests_cant": "All random outcomes.", "anchors": ["src/partition_and_pq.cpp: gen_random_slice"]}
{"id": "C59", "title": "Blocked processing equals unblocked processing", "statement": "Splitting n items into blocks of any size b>=1 as the code does covers every item exactly once, in order.", "quantifier": "every n and b", "why_tests_cant": "All sizes; tests never exceed one block.", "anchors": ["src/math_utils.cpp: compute_closest_centers", "src/partition_and_pq.cpp: generate_pq_data_from_pivots", "include/essentials.h: DIV_ROUND_UP"]}
{"id": "C60", "title": "Integer L2 distances are exact, symmetric and unaffected by padding", "statement": "For int8 vectors of up to 33025 coordinates (uint8: up to 66051) the integer accumulator equals the true squared L2 distance; it is symmetric, zero iff the vectors are equal, and unchanged by zero padding; beyond that the int8 accumulator can overflow (undefined behaviour) and the uint8 one wraps.", "quantifier": "every pair of vectors of every length", "why_tests_cant": "All vectors; overflow needs long vectors.", "anchors": ["include/distance.h: DistanceL2Int8", "include/distance.h: DistanceL2UInt8"]}
{"id": "C61", "title": "The SIMD inner product covers each coordinate once", "statement": "The unrolled AVX inner product multiplies each of the (multiple of 8) coordinates exactly once and reads nothing outside them.", "quantifier": "every dimension that is a multiple of 8", "why_tests_cant": "All dimensions.", "anchors": ["include/distance.h: DistanceInnerProduct::inner_product"]}
{"id": "C62", "title": "FAST_L2 is not an L2 distance", "statement": "An index created with metric FAST_L2 compares vectors by negated inner product, so a vector need not be its own nearest neighbour.", "quantifier": "exists vectors (witness); for all vectors the value equals the inner-product metric's", "why_tests_cant": "Ranking still looks plausible on normalised data.", "anchors": ["include/distance.h: DistanceFastL2", "src/index.cpp: get_distance_function"]}
{"id": "C63", "title": "fvecs/ivecs conversion preserves every vector", "statement": "Converting an fvecs/ivecs file with any block size yields the .bin header and exactly the coordinates of every vector in order, so that loading the result gives the vectors. A final incomplete record is dropped and the dimension stated by later records is not checked; a missing file or one without a first header is undefined behaviour.", "quantifier": "every vector file and block size", "why_tests_cant": "All sizes.", "anchors": ["tests/utils/fvecs_to_bin.cpp", "tests/utils/ivecs_to_bin.cpp"]}
{"id": "C64", "title": "Filtered ground truth refers to original ids", "statement": "The filtered ground truth file of float vectors lists for each query the k nearest among exactly those points whose labels match the filter (or the universal label), nearest first, under their original ids. For one-byte vectors (int8, uint8) the program instead overflows a buffer while copying the distances.", "quantifier": "every label assignment and filter", "why_tests_cant": "All inputs.", "anchors": ["tests/compute_filtered_groundtruth.cpp"]}
{"id": "C65", "title": "The visited set behaves as a set", "statement": "Under any sequence of insertions, lookups, erasures, assignments, clears and reservations, with any hash function and any rehashing, the robin-hood hash set or map answers every operation like a mathematical set or map, as long as no value is pushed 32767 buckets away from its ideal one (which cannot happen while it holds at most 32767 values).", "quantifier": "every operation history and hash function", "why_tests_cant": "Unbounded histories and collisions.", "anchors": ["include/tsl/robin_hash.h"]}
{"id": "C66", "title": "K-means assignment and update", "statement": "One Lloyd iteration assigns each point to a first nearest centre and replaces each non-empty cluster's centre by the mean of its points and each empty cluster's centre by zero.", "quantifier": "every data set and centres", "why_tests_cant": "All inputs.", "anchors": ["src/math_utils.cpp: lloyds_iter"]}
{"id": "C67", "title": "HNSW/Vamana index file families do not collide", "statement": "The file names written for different HNSW levels are distinct, and loading level i reads what saving level i wrote.", "quantifier": "every level count and file name", "why_tests_cant": "All names.", "anchors": ["src/hnsw.cpp: save", "src/hnsw.cpp: load"]}
{"id": "C68", "title": "A finished Vamana build is a well-formed index", "statement": "Build followed by search is defined: whatever the schedule, the random numbers and the order of the final cleanup, build returns an index with valid edges, valid entry points, one tag per point and degree at most R, which is all the search guarantees ask for; and every build can finish.", "quantifier": "every data set of at least ten points without NaN distances, L>=1, labels, random numbers and schedules", "why_tests_cant": "It composes invariants over all schedules.", "anchors": ["src/vamana.cpp: build", "src/vamana.cpp: search"]}
{"id": "C69", "title": "Building a RelativeNG twice doubles its lists", "statement": "A second build on the same RelativeNG object keeps the neighbour lists of the first and appends the new ones, so every list appears twice over.", "quantifier": "every data set of at least ten points, every order of the build loops", "why_tests_cant": "Tests build an object once; the claim ranges over all data sets and histories of two builds.", "anchors": ["src/relative_ng.cpp: build"]}
{"id": "C70", "title": "RelativeNG ignores search filters", "statement": "A RelativeNG search accepts a filter list but does not apply it: results do not depend on it, and a search can report a point that does not match its filter.", "quantifier": "every index, query, list size and filter list (independence); some index and filter (unmatched result)", "why_tests_cant": "Independence from the filter ranges over all filters.", "anchors": ["src/relative_ng.cpp: search"]}
{"id": "C71", "title": "Building an LSH index twice", "statement": "A second build of an LSH index keeps the tables of the first, lists every point twice in them and sets the table count to that of the second build; saving then loading such an index brings back only as many tables as that count, starting with the old ones, so the tables of the second build are lost.", "quantifier": "every data set, tag assignment, pair of hyperplane choices", "why_tests_cant": "The effect has to be stated for all hyperplanes and all data; a test sees one random draw.", "anchors": ["src/lsh.cpp: build", "src/lsh.cpp: save", "src/lsh.cpp: load"]}
{"id": "C72", "title": "A finished HNSW build is well-formed on every level", "statement": "For every sample of the levels, interleaving of the build threads and order of the cleanup, an HNSW build with at least ten points on each level ends with valid edges, no self-links and degree at most R on every level, the caller's tags on the top level and the sampled points as tags of the inner levels, and the point nearest the centroid as entry point of each level; it always can finish and cannot run for ever.", "quantifier": "every data set, sample, schedule and cleanup order", "why_tests_cant": "Quantifies over all samples and thread interleavings on all levels.", "anchors": ["src/hnsw.cpp: build", "src/graph_index.cpp: add_reciprocal_edges"]}
{"id": "C73", "title": "HNSW search ignores label filters", "statement": "The filters passed to an HNSW search have no effect on the result: two calls differing only in the filters return the same.", "quantifier": "every index, query and pair of filter lists", "why_tests_cant": "Non-interference over all filter lists.", "anchors": ["src/hnsw.cpp: search"]}
{"id": "C75", "title": "Subset files and file metadata", "statement": "Writing selected vectors of a loaded file with save_aligned_data_subset_in_orig_dimensions and loading the result gives exactly the selected vectors, in the order of the selection and with the same padding; get_bin_metadata reports the header's sizes exactly when both are below 2^31 (larger ones are sign-extended).", "quantifier": "every vector file, element width and list of valid ids (repetitions allowed)", "why_tests_cant": "The selection, sizes and contents are unbounded; the sign-extension defect needs files of more than 2^31 points.", "anchors": ["include/utils.h: save_aligned_data_subset_in_orig_dimensions, load_aligned_bin, get_bin_metadata"]}
{"id": "C74", "title": "Whole index save/load round trip", "statement": "Saving a Vamana or RelativeNG index and loading it into a fresh object restores dimensions, data, tags, per-point labels, label set, graph, start node and (Vamana) label entry points, over any existing files, and writes no file outside the index's name family; except that saving an unfiltered Vamana index over a filtered one leaves the old entry point file, which the load then takes for its own.", "quantifier": "every index content, file name, previous file system content and uninitialised memory", "why_tests_cant": "All contents and all states of the file system left by earlier saves.", "anchors": ["src/index.cpp: save_data_and_tags_and_labels", "src/index.cpp: load", "src/vamana.cpp: save", "src/vamana.cpp: load", "src/relative_ng.cpp: save", "src/relative_ng.cpp: load"]}
{"id": "C76", "title": "Estimated shard sizes are the real ones", "statement": "estimate_cluster_sizes on a data set and centres returns for each centre the number of points that have it among their k_base nearest centres; with k_base above the number of centres it reads uninitialised memory.", "quantifier": "every data set, number of centres, k_base and block size", "why_tests_cant": "Depends on every distance matrix, every tie and every block boundary.", "anchors": ["src/partition_and_pq.cpp: estimate_cluster_sizes"]}
{"id": "C77", "title": "run_lloyds runs 1..max_reps iterations and returns the last one's result", "statement": "run_lloyds with max_reps >= 1 performs r iterations, 1 <= r <= max_reps, each on the centres of the one before, stops at the first that meets the stopping rule, and returns the assignment, lists, centres and residual of the last.", "quantifier": "every data set, starting centres, max_reps and schedule", "why_tests_cant": "The number of iterations depends on floating-point residuals of arbitrary data.", "anchors": ["src/math_utils.cpp: run_lloyds"]}
{"id": "C78", "title": "Random centres are the drawn points, repeated draws leave a centre unwritten", "statement": "random_centers writes into centre j the j-th point drawn unless that point was drawn before; in that case centre j keeps whatever its memory held.", "quantifier": "every data set and sequence of random draws", "why_tests_cant": "A repeated draw is rare and its effect depends on memory contents.", "anchors": ["src/math_utils.cpp: random_centers"]}
{"id": "C79", "title": "k-means++ chooses the number of centres asked for among the points and ends", "statement": "kmeans_plus_plus_centers ends after num_centers - 1 rounds when distances are non-negative, zero from a point to itself, and each dart falls below the sum of distances; the centres are then vectors of the data set, of different points unless the sum of distances became zero.", "quantifier": "every data set, distance function and sequence of random numbers", "why_tests_cant": "Termination and distinctness must hold for every random sequence.", "anchors": ["src/math_utils.cpp: kmeans_plus_plus_centers"]}
{"id": "C80", "title": "The float L2 distance is symmetric, never negative and zero on itself", "statement": "For any order in which the vectorised loop adds its summands, the float L2 distance of two vectors is the same number in both directions, is never below zero, and is zero between a finite vector and itself; but a zero distance does not imply equal vectors, because small squares underflow.", "quantifier": "every pair of float vectors of every length, every order of additions; witness for the converse", "why_tests_cant": "All floats, including subnormals and values that overflow, and all compiler-chosen orders of additions.", "anchors": ["include/distance.h: DistanceL2"]}
{"id": "C81", "title": "Element type converters keep every element", "statement": "int8_to_float and uint8_to_float produce a file with the same header whose elements are the floats of the original values, uint32_to_uint8 keeps the low eight bits of each, for every order of the parallel loop; float_bin_to_int8 gives, for any block size, the integer part of (x - bias) * 256 / scale of each element, and is undefined exactly if one of these does not fit an int8, which happens for values inside [bias, bias + scale].", "quantifier": "every file, block size and thread schedule", "why_tests_cant": "All files and schedules; tests see a few files.", "anchors": ["tests/utils/int8_to_float.cpp", "tests/utils/uint8_to_float.cpp", "tests/utils/uint32_to_uint8.cpp", "tests/utils/float_bin_to_int8.cpp", "include/utils.h convert_types"]}
{"id": "C82", "title": "A reloaded index answers every search as the saved one", "statement": "For Vamana, RelativeNG, HNSW and IVF: an index saved to files and loaded into a fresh object answers every search - any query, list size or probe width, filters, distance function, result count and buffers - with exactly the same ids, distances and count as the object that was saved.", "quantifier": "every well-formed index, every prior file system state, every search call", "why_tests_cant": "All indexes and all queries; a test compares a few answers of one index.", "anchors": ["src/vamana.cpp: save, load, search", "src/relative_ng.cpp: save, load, search", "src/hnsw.cpp: save, load, search", "src/ivf.cpp: save, load, search", "src/index.cpp: save_data_and_tags, load_data_and_tags"]}
{"id": "C83", "title": "From data and label files to a usable index", "statement": "Constructing a Vamana index from a data file, tags and label file, building it with any thread schedule, saving it and loading it in another process neither fails nor reads out of bounds for at least ten points; the loaded index has valid edges, tags and entry points, answers as the built one, and a filtered search reports only points whose line of the user's label file names a filter label (or the universal label is involved).", "quantifier": "every data file, tag list, label file, parameter set, random choice, schedule, query and filter set", "why_tests_cant": "End-to-end composition over all files and schedules.", "anchors": ["src/index.cpp: ANNIndex constructor", "tests/build_vamana.cpp", "src/vamana.cpp: build, save, load, search"]}
{"id": "C84", "title": "The search tools' result files hold each query's own answer", "statement": "For each accepted list size the search tool writes <prefix>_<L>_idx_uint32.bin whose row i is exactly what a single search of query i gives, whatever order the threads take the queries in, and changes no other file; with no accepted list size it writes nothing. An empty query file, or queries of smaller dimension than the index, are undefined behaviour because neither is checked.", "quantifier": "every index with searches writing only their own slots (all four are shown to), every query file, K, list of L and thread schedule", "why_tests_cant": "Race freedom and row placement must hold for every schedule.", "anchors": ["tests/search_vamana.cpp: search_vamana", "tests/search_relng.cpp", "tests/search_hnsw.cpp", "tests/search_ivf.cpp"]}
{"id": "C85", "title": "Build tool followed by search tool", "statement": "After a successful run of the Vamana build tool, the search tool run on any query file of the index's dimension, for every K >= 1, writes for every list size L >= K a file whose row i lists, by tag and nearest first, distinct points found for query i by the index that was built; with a filter, only points whose line in the label file matches it.", "quantifier": "every input file, parameters, schedule of the build and of the searches, filters, K and L", "why_tests_cant": "Composition of two programs over all inputs and schedules.", "anchors": ["tests/build_vamana.cpp", "tests/search_vamana.cpp"]}
{"id": "C86", "title": "Product quantisation from data file to code file", "statement": "generate_pq_pivots that returns 0 leaves exactly the four pivot files (pivots, subtracted centroid, identity rearrangement, chunk boundaries), each chunk of the pivots being the k-means result on that chunk of the centred training vectors; generate_pq_data_from_pivots reads them back bit for bit and writes for every vector and chunk the index of the first nearest pivot, changing no other file. Missing pivots or another number of chunks throw. The tool trains on the sampled vectors unless pivots of the same size exist under the prefix, which are kept whatever data they came from.", "quantifier": "every data file, element type, sample, dimension, number of pivots and chunks, block sizes, schedule, random choice and earlier content of the disk", "why_tests_cant": "Float matrices must survive the file for every bit pattern, and the stale-file case depends on the history of the directory.", "anchors": ["src/partition_and_pq.cpp: generate_pq_pivots, generate_pq_data_from_pivots", "tests/utils/generate_pq.cpp: generate_pq"]}
{"id": "C87", "title": "Partitioning a data set, with a fixed number of parts or a memory budget", "statement": "partition saves the k-means centres of the sampled vectors and writes, for each shard, exactly the vectors and ids of the points that have its centre among their k nearest; partition_with_ram_budget returns the least of 3, 5, 7, ... for which every shard, as estimated from a second sample, fits the budget, saves the centres and the ids of the shards, and the vectors can be retrieved from the ids. Neither changes any other file. The search for a number of parts need not end, and the shards really written need not fit the budget.", "quantifier": "every data file, element type, samples, random choice, schedule, block sizes, budget, degree and k", "why_tests_cant": "The loop has no bound; the least-number claim and the contents of all shard files are for all data and samples.", "anchors": ["src/partition_and_pq.cpp: partition, partition_with_ram_budget, estimate_cluster_sizes, shard_data_into_clusters, retrieve_shard_data_from_ids", "include/essentials.h: ESTIMATE_VAMANA_RAM_USAGE", "tests/utils/partition_data.cpp", "tests/utils/partition_with_ram_budget.cpp"]}
{"id": "C88", "title": "Build tools of RelativeNG, HNSW, IVF and LSH followed by their search tools", "statement": "Each build tool run on valid files ends with an index on disk that a new process loads and searches with the answers of the index that was built, and changes no other file, except that an HNSW build with several levels also deletes a file /tmp/temp_data. The RelativeNG search tool given the indexed vectors reports each of them first (or one at distance zero); HNSW levels hold exactly the vectors of their tags; IVF files every point once and, probing all clusters, the tool reports the exact K nearest among the points whose label line matches; LSH reports the exact K nearest among the matching points that collide with the query. Unfilled places of a row are 0, which also reads as point 0.", "quantifier": "every input file, tags, parameters, samples, hyperplanes, centres, schedule, filter, K and list sizes", "why_tests_cant": "Composition of programs over all inputs, random choices and schedules, with exactness claims on the result file.", "anchors": ["tests/build_relng.cpp", "tests/build_hnsw.cpp", "tests/build_ivf.cpp", "tests/build_lsh.cpp", "tests/search_lsh.cpp", "src/hnsw.cpp: build", "src/lsh.cpp: save, load"]}
{"id": "C89", "title": "A save that is interrupted at any byte", "statement": "Wherever the process stops while an index is saved under a name that was free: either loading fails, or it restores all vectors, tags, labels, centres and entry points exactly and the graph or inverted lists up to ids at the end of the last list, which read as zero or lack high bytes (still ids of points); the error message appears exactly when lists of points are missing. HNSW levels before the last one are complete. An LSH index loads only if the save was complete. Files of other names are never touched, and saving again gives the files of an uninterrupted save. Saving over an index of the same name is not safe: new vectors can be loaded with the old graph without any message.", "quantifier": "every index, name, earlier files and point (operation and byte) at which the process stops", "why_tests_cant": "A property of every crash point.", "anchors": ["src/index.cpp: save_data_and_tags_and_labels, load_data_and_tags_and_labels", "src/vamana.cpp: save, load", "src/relative_ng.cpp: save, load", "src/hnsw.cpp: save, load", "src/ivf.cpp: save, load", "src/lsh.cpp: save, load"]}
{"id": "C90", "title": "Text converters: .bin to tab-separated text and back", "statement": "bin_to_tsv writes one line per point with the entries separated by tabs; each float is written as the decimal of at most six digits closest to it. tsv_to_bin reads it back: each value becomes the float closest to that decimal, and converting again gives the same text. Values with more digits do not come back, an infinity makes it and all later values of the file come back as zero. One-byte files are written as characters, come back byte for byte if they fit one block and contain no white-space codes, and repeat the first block's points otherwise; decimal text is not read as one-byte numbers. Asking for more values than the text has repeats the last one without an error. Malformed numbers are not reported: all later values become zero, or one token is read as two values.", "quantifier": "every file with finite values, every number of points and dimension, every block size", "why_tests_cant": "The nearest-decimal and nearest-float claims range over all 2^32 bit patterns, the layout over all sizes and block boundaries.", "anchors": ["tests/utils/bin_to_tsv.cpp: block_convert, main", "tests/utils/tsv_to_bin.cpp: block_convert_float, block_convert_int8, block_convert_uint8, main"]}
{"id": "C91", "title": "Threads of a Vamana build never race on an adjacency list", "statement": "In a parallel build no two threads access the same memory of an adjacency list at the same time with one of them writing: each access holds the list's lock, exclusively if it writes, except that a thread tests the capacity of its own list without a lock. With the degree bounds 1, 2, 4, 5, 7 and 8 that test can race with another thread replacing the list's storage; with every other degree bound it cannot.", "quantifier": "every data set without NaN distances, all parameters, every interleaving of the threads", "why_tests_cant": "A data race shows only under rare timing, and its absence is a statement about every interleaving.", "anchors": ["src/vamana.cpp: build", "src/graph_index.cpp: greedy_search_to_fixed_point, add_reciprocal_edges", "include/essentials.h: VAMANA_SLACK_FACTOR"]}
{"id": "C92", "title": "Float distances are close to the exact ones", "statement": "For finite vectors of n < 2^23 coordinates, a finite squared distance computed in floats differs from the exact real squared distance by at most (n+2)*2^-23 of it plus n*2^-149, whichever order the compiler adds in and whichever products it fuses with sums; the result is finite unless the exact distance comes near 2^127. So two points whose exact distances differ by more than these errors are ordered right; closer ones may be ordered wrong. The inner product has the same kind of bound relative to the sum of the magnitudes of the products.", "quantifier": "all finite vectors, every order of the additions, every choice of fused multiply-adds", "why_tests_cant": "Rounding errors depend on every bit of every coordinate and on the code the compiler emits.", "anchors": ["include/distance.h: DistanceL2::compare, DistanceInnerProduct::inner_product", "CMakeLists.txt: -Ofast -march=native"]}
{"id": "C93", "title": "Float distances of integer vectors are exact", "statement": "If the coordinates are integers and the squared distance is at most 2^24, the float distance is exactly the integer one in every order of additions and with every fusing, so points are ordered, and ties recognised, as with integers. Byte vectors of at most 258 coordinates (for example SIFT with 128) stored as floats therefore have the same distances as the byte types; with 259 this is false. Inner products of integers are exact while the magnitudes sum to at most 2^24. The FAST_L2 comparison with a precomputed norm then gives the squared distance less the norm of its first argument.", "quantifier": "all integer-valued float vectors within the bound, every order of the additions, every choice of fused multiply-adds", "why_tests_cant": "Exactness must hold for all coordinate values and for every way the compiler may vectorise the loop.", "anchors": ["include/distance.h: DistanceL2::compare, DistanceL2UInt8::compare, DistanceInnerProduct::inner_product"]}
{"id": "C94", "title": "Preparation for inner product search gives unit vectors", "statement": "Preparing a float, signed or unsigned byte file of at least one vector of at most 2^20 coordinates, squared norms at most 2^125 and one of them at least 2^-99, writes a float file with the same number of vectors and one more coordinate, whatever the block size and however the compiler sums. The value returned is the largest norm up to rounding, every coordinate is the original divided by it up to rounding, the added one lies in [0,1], and the squared norm is 1 within (d+20)*2^-22. So for a query with a zero appended the vector with the larger inner product is the nearer one unless the two are within an explicit error. An empty file divides by zero, and data that is all zero, very small or very large becomes infinite or NaN.", "quantifier": "all files within the ranges, every block size, every order and contraction of the sums, all queries", "why_tests_cant": "Rounding and the block boundaries depend on every value and every size; the range in which the scaling works is not visible from examples.", "anchors": ["include/utils.h: prepare_base_for_inner_products"]}
{"id": "C95", "title": "The vector analysis tool normalises float files", "statement": "Normalising a float file (vectors with squared norm between 2^-99 and 2^125) writes each vector divided by its own norm, within (d+20)*2^-22 in every coordinate and in the squared norm; preparing queries does the same and appends zero, under every thread schedule. Preparing a base gives unit vectors as C94 if the vectors are handled one by one in any order, but the parallel loop updates the maximum without protection and a schedule of two threads writes a vector of squared norm 4. A zero vector becomes NaN. On byte files the scaled coordinates are cut to integers and different vectors become equal.", "quantifier": "all float files within the ranges, every order and contraction of the sums, every interleaving of loads and stores of the maximum", "why_tests_cant": "The lost update needs a particular schedule; rounding depends on every value.", "anchors": ["tests/utils/vector_analysis.cpp: normalize_base, augment_base"]}
{"id": "C96", "title": "Searching one LSH index from several threads", "statement": "Searching an LSH index inserts the query's bucket if it is missing. Two searches of one built index can therefore race exactly if there are at least two and, for some query and some table, no indexed point has the query's sign pattern. If every query's bucket exists, searches only read and the index stays the same. If the lookups do not overlap (no race, or a lock around them), every search returns in every schedule what it would return alone, the index ends as after searching one by one, and all searches terminate. Searching from several threads without a lock, as the search tool does, is thus not safe in general (false, with a witness).", "quantifier": "all hyperplanes, points, queries, numbers of searches, and all interleavings of their bucket lookups", "why_tests_cant": "The race needs two searches at the same table at the same moment and a query in an empty bucket; its effect on the tree is undefined and mostly invisible.", "anchors": ["src/lsh.cpp: HashTable::get_bucket, LSHIndex::search", "tests/search_lsh.cpp: search_lsh"]}
{"id": "C97", "title": "Printed statistics", "statement": "After a graph build over n >= 1 points the report shows the largest degree, for each of the percentiles 0, 10, ..., 100 an out-degree and an in-degree whose rank in the sorted list is that percentile (the maximum at 100), the share of points nobody links to, within a relative error of 2^-53, and a point with the most incoming links. The reports about a range ground truth and about the norms of a vector file show percentiles in the same sense. get_percentile_stats with a percentile p at most 1 - 2^-22 returns a value whose rank is p*n within 1 + 2^-22*n; the 99.9 latency of the search tools has rank 0.999*n within one. get_mean_stats of counters is their mean within a relative error of 2^-53. calculate_recall prints the percentage of true neighbours (ties included) among the results within a relative error of 2^-23, and refuses files with different query counts or a depth beyond either file. Undefined reads: the report of an empty graph, the percentile 1, any percentile of no query, recall depth 0 with distances; the mean of no query is NaN.", "quantifier": "all graphs, value lists, files, sort results, orders of additions, and the permitted rewritings of the percentile index", "why_tests_cant": "The index of a percentile comes from floating-point arithmetic that could round up past the end or down by one for some length; tests see few lengths.", "anchors": ["src/graph_index.cpp: update_degree_stats", "include/percentile_stats.h: get_percentile_stats, get_mean_stats", "include/recall_utils.h: load_range_truthset", "tests/utils/vector_analysis.cpp: analyze_norm", "tests/utils/calculate_recall.cpp: main", "tests/search_vamana.cpp: search_vamana"]}
{"id": "C98", "title": "Computed means", "statement": "The centroid that product quantisation subtracts differs from the mean of the n < 2^22 training points, in every coordinate, by at most (n+3)*2^-23 times the mean magnitude plus 2^-150. The point at which a graph over n < 2^22 points is entered is nearest to the mean of the data: no other point is nearer by more than a factor 1+(d+2)*2^-22 plus 3(n+3)*2^-23 times the norm of the mean magnitudes. For byte data whose columns add up to at most 2^24 the second term is 3*2^-21 times the norm of the mean, whatever n. A centre after an iteration of Lloyd's algorithm is the mean of its at most 2^28 points up to one rounding to float and a relative error of (n+1)*2^-51. Without the bound on n the entry point can be the point farthest from the mean: the single-precision sum stops growing.", "quantifier": "all point sets and element types within the stated magnitudes, all orders of the additions, divisions or multiplications by the reciprocal, all orders and contractions of the distance sums", "why_tests_cant": "Rounding errors depend on the number of points and the order of the additions; the failure needs more than 2^24 points.", "anchors": ["src/index.cpp: calculate_medoid_of_data", "src/relative_ng.cpp: calculate_entry_point", "src/partition_and_pq.cpp: generate_pq_pivots", "src/math_utils.cpp: lloyds_iter"]}
{"id": "C99", "title": "Distances computed by matrix products", "statement": "The ground truth and the assignment of points to centres use |p|^2+|q|^2-2pq, computed by BLAS. For d <= 2^20 dimensions and squared norms up to 2^100 a reported ground truth distance differs from the exact one by at most (d+8)*2^-22*(|p|^2+|q|^2) plus (d+4)*2^-147, and no point left out is nearer than a reported one by more than these errors; nothing overflows and no NaN arises. For integers with squared norms and distances up to 2^24, so for bytes of up to 258 dimensions, the ground truth is exactly the k nearest with the exact distances. Beyond that it is not: of the points 5795 and 5794 the second is reported as nearest to the query 5795, at distance -4. In an IVF index no centre is nearer to a point than the one listing it by more than (d+4)*2^-20 times the squared norms involved. Distances to centres are not exact even for the integers 1: a point can be at a negative distance from itself.", "quantifier": "all point sets, queries and centres within the stated magnitudes, all orders of additions and uses of fused multiply-add inside the library, separately for every matrix entry, all part and batch sizes, all orders of the parallel loops", "why_tests_cant": "The result depends on the BLAS library and on the distance of the data from the origin; a test compares against the same formula or with a tolerance on small data.", "anchors": ["src/aux_compute_groundtruth.cpp: distsq_to_points, exact_knn, compute_l2sq", "src/math_utils.cpp: compute_vecs_l2sq, compute_closest_centers, compute_closest_centers_in_block", "src/ivf.cpp: build"]}
{"id": "C100", "title": "Ground truth tool, from files to file", "statement": "compute_groundtruth, run on a file of base vectors and a file of queries of the same type (float, int8, uint8) and dimension, with k at most the size of the last part of the base, writes a truth file; loading it returns the number of queries, k and for every query k distinct base vectors. With l2 they are the k nearest, nearest first, with the squared distances; with mips the k of largest inner product, largest first, with the products themselves. For bytes of up to 258 dimensions this is exact; for floats each value is within a stated multiple of 2^-22 of the squared norms, and no vector left out is better by more than the errors. k larger than the last part is an out-of-bounds read, and a query file of another dimension is not noticed: a wrong truth file is written.", "quantifier": "all base and query files within the stated magnitudes, all splits into parts and batches, all orders of the parallel loops, all heap and sort implementations, all orders of additions and fused operations in the matrix library", "why_tests_cant": "The part size is ten million vectors, so tests never see a second part; the results depend on schedule and library.", "anchors": ["tests/utils/compute_groundtruth.cpp: aux_main, exact_knn, load_bin_as_float, get_num_parts, inner_prod_to_points, save_groundtruth_as_one_file", "src/recall_utils.cpp: load_truthset"]}
{"id": "C101", "title": "Search tools against real distances, from vector files to result files", "statement": "The build and search tools run on files of float, int8 or uint8 vectors with the L2 metric: searching an IVF index with as many probes as clusters writes, for every query, the ids of the K vectors of the data file that are nearest among those whose label line matches the filter; searching an LSH index writes the K nearest of the matching vectors that share a side of every hyperplane of some table with the query (vectors within rounding error of a hyperplane may be on either side); searching a RelativeNG with the indexed vectors returns an equal vector first; HNSW and filtered Vamana results are listed nearest first. Nearest is by the squared distance of the vectors in the files, exactly for bytes of up to 258 dimensions, within one rounding for bytes of more dimensions and within (dim+9)*2^-23 relative error for floats.", "quantifier": "all vector, label and query files within the stated sizes and magnitudes, all trained centres, hyperplanes, schedules, sort and queue implementations, all orders of additions and contractions in the distance loops", "why_tests_cant": "Which vectors are nearest depends on the data, rounding and vectorisation; a test sees one compiler's choice on one data set.", "anchors": ["tests/build_ivf.cpp, tests/search_ivf.cpp, tests/build_lsh.cpp, tests/search_lsh.cpp, tests/build_relng.cpp, tests/search_relng.cpp, tests/build_hnsw.cpp, tests/search_hnsw.cpp, tests/build_vamana.cpp, tests/search_vamana.cpp", "include/distance.h: DistanceL2, DistanceL2Int8, DistanceL2UInt8", "src/lsh.cpp: get_hash", "include/utils.h: load_aligned_bin"]}
{"id": "C102", "title": "Recall from vector files to the printed percentage", "statement": "On files of int8 or uint8 vectors of up to 258 dimensions: if the truth file is written by the ground truth tool and the recall tool prints 100 for any result file (up to 2^22 counted results), then for each query the counted ids are distinct and each is among the r nearest vectors of the data file (fewer than r vectors are strictly nearer). Conversely the recall tool prints exactly 100 for every result file whose counted ids are distinct and among the r nearest, if the truth file has enough columns for all vectors that tie for the r nearest. In particular building, saving, loading and searching an IVF index with as many probes as clusters prints 100. Without the condition on ties a correct search can be given a lower recall.", "quantifier": "all data, query and result files of these types and sizes, all depths, all trained centres, schedules, heaps, sorts, and orders of additions and contractions in the matrix library and the distance loops", "why_tests_cant": "A test computes the recall of one index on one data set; that the printed figure means what it says for every result file is a statement about all files.", "anchors": ["tests/utils/calculate_recall.cpp: main", "tests/utils/compute_groundtruth.cpp: main, exact_knn", "src/recall_utils.cpp: calculate_recall", "include/recall_utils.h: load_truthset", "tests/build_ivf.cpp, tests/search_ivf.cpp"]}
{"id": "C103", "title": "Command lines of the build and search tools", "statement": "A command line as the usage message of a build or search tool describes it (type and metric word, file names, decimal numbers below 2^31, an optional label or filter name behind its flag) makes the tool do exactly the build or search those words name, with every argument in its place, and end with status 0; a search skips the list sizes below K. A number of words outside the accepted range ends the tool with an error, an unknown metric ends the build tools with -1, inner products of bytes and an alpha beyond the floats throw. In particular build_ivf and then search_ivf with as many probes as clusters write the nearest vectors of the data file. Not every mistaken command line is reported: a word missing behind a flag makes the tool read a null pointer, a surplus word is ignored, a word that is no number counts as 0, a negative list size as 2^64 minus it, an unknown type (and in a search an unknown metric, fast_l2 included, which the usage message names) ends with status 0 and nothing done.", "quantifier": "all command lines of these forms, all file systems, all choices, schedules, sorts, heaps and distance functions behind them", "why_tests_cant": "The tools are run by tests with a few command lines; that each word reaches its place for all values and both forms with and without a label file is a statement about all of them.", "anchors": ["tests/build_vamana.cpp: main", "tests/build_hnsw.cpp: main", "tests/build_relng.cpp: main", "tests/build_ivf.cpp: main", "tests/build_lsh.cpp: main", "tests/search_vamana.cpp: main, search_index", "tests/search_hnsw.cpp", "tests/search_relng.cpp", "tests/search_ivf.cpp", "tests/search_lsh.cpp", "include/parameters.h: Set, Get", "src/index.cpp: constructor"]}
{"id": "C104", "title": "Pruning parameter written as a decimal", "statement": "An alpha written on the command line of build_vamana as a decimal with up to six significant digits (0 or between 10^-37 and 10^37 in size) reaches the build as the float closest to the number written, although it passes through a double, a float, a text of six digits and a float again. With seven digits this is false: 1.234567 builds the index of 1.23457.", "quantifier": "all decimals with up to six significant digits in any notation, all accurate implementations of atof, all other arguments and files", "why_tests_cant": "A test tries 1.2; that four roundings in a row cancel for every six-digit decimal is a statement about all of them.", "anchors": ["tests/build_vamana.cpp: main", "include/parameters.h: Set, Get", "src/vamana.cpp: build"]}
{"id": "C105", "title": "Recall printed by the search tools", "statement": "If the truth file named on the command line is about as many queries as the query file and has at least K neighbours for each (with numbers for distances, if any), then each search tool prints for every list size used exactly the recall that the recall tool computes from the truth file and the result file of that list size. For byte vectors of up to 258 dimensions, search_ivf with as many probes as clusters prints 100 with the truth file of the ground truth tool (deep enough for ties). With a truth file about fewer queries or with fewer than K neighbours the recall tool refuses; the searches read beyond its end.", "quantifier": "all indices, query, truth and result files, list sizes, K, schedules and distance functions", "why_tests_cant": "That two programs agree on every file is a statement about all files.", "anchors": ["tests/search_vamana.cpp: search_index", "tests/search_hnsw.cpp", "tests/search_relng.cpp", "tests/search_ivf.cpp", "tests/search_lsh.cpp", "tests/utils/calculate_recall.cpp: main", "src/recall_utils.cpp: calculate_recall"]}
{"id": "C106", "title": "Random numbers, samples and darts", "statement": "Whatever words the generator gives, a number drawn for sampling lies between 0 and 1 - 2^-24 and within 2^-24 of the word over 2^32. The command line of gen_random_slice therefore writes the vectors and ids of a sample at the rate given: a point whose word is below the rate is taken and one whose word is not is left out, but for a margin of 2^-24; a rate of 1 or more copies the data with all ids, a rate of 0 or less (or a word that is no number) writes empty files, and a greater rate only adds points. Training samples at a rate not below 1 take every vector. The points of an inner level of HNSW are increasing ids, all points at a rate of 1, none at 0. The darts of k-means++ lie in [0, 1 - 2^-53] and, multiplied with the sum of the distances, below that sum, so k-means++ ends after one round per centre for every sequence of words. An unknown type word ends the tool with status 0 and no file.", "quantifier": "all sequences of 32-bit words, all data files, rates and dimensions (k-means++: up to 2^23 points, 2^24 dimensions, components up to 2^49)", "why_tests_cant": "A rounding to 1, or of a dart to the sum itself, happens for a few words in 2^32 or 2^64; a test does not meet them.", "anchors": ["src/partition_and_pq.cpp: gen_random_slice (three forms)", "tests/utils/gen_random_slice.cpp: main", "src/hnsw.cpp: build", "src/math_utils.cpp: kmeans_plus_plus_centers, calc_distance"]}
{"id": "C107", "title": "Command lines of the utility tools", "statement": "calculate_recall, compute_groundtruth, fvecs_to_bin and ivecs_to_bin, int8_to_float, uint8_to_float, uint32_to_uint8, float_bin_to_int8, bin_to_tsv, tsv_to_bin, generate_pq, partition_data, partition_with_ram_budget and vector_analysis hand every word of a command line of the form their usage describes to the place it names, write to the file named and to no other, and end with status 0. A wrong number of words changes nothing and gives another status (generate_pq: status 0). Unknown type words, unknown metric words and a missing output name are not reported: status 0 and no or useless files, L2, a null pointer.", "quantifier": "all names, numerals below 2^31 in any spelling with leading zeros, all types, files and states of the disk", "why_tests_cant": "A swapped pair of numbers or a truncated one shows only for some values; the error paths are many.", "anchors": ["tests/utils/calculate_recall.cpp: main", "tests/utils/compute_groundtruth.cpp: main, aux_main", "tests/utils/fvecs_to_bin.cpp: main", "tests/utils/ivecs_to_bin.cpp: main", "tests/utils/int8_to_float.cpp: main", "tests/utils/uint8_to_float.cpp: main", "tests/utils/uint32_to_uint8.cpp: main", "tests/utils/float_bin_to_int8.cpp: main", "tests/utils/bin_to_tsv.cpp: main", "tests/utils/tsv_to_bin.cpp: main", "tests/utils/generate_pq.cpp: main", "tests/utils/partition_data.cpp: main", "tests/utils/partition_with_ram_budget.cpp: main", "tests/utils/vector_analysis.cpp: main"]}
{"id": "C108", "title": "Tools used one after the other", "statement": "Converting files of bytes to floats before computing a ground truth does not change a bit of the truth file. Text and back restores files of bytes without white-space codes of one block, and floats to six digits. A truth file compared with itself gives exactly 100 at every depth. Truth, IVF index and search as three command lines print 100 for as many probes as clusters. The build tools change no file whose name does not begin with the name of the index (build_hnsw: and /tmp/temp_data, which it removes), the search tools none that does not begin with the prefix of the results.", "quantifier": "all files, names, numbers of neighbours, orders of the parallel loops and orders of additions in the matrix library, within the bounds of C90 and C100", "why_tests_cant": "The properties relate the outputs of several programs bit by bit for all data and schedules; a test compares single runs.", "anchors": ["tests/utils/int8_to_float.cpp: main", "tests/utils/uint8_to_float.cpp: main", "tests/utils/compute_groundtruth.cpp: main", "tests/utils/bin_to_tsv.cpp: main", "tests/utils/tsv_to_bin.cpp: main", "tests/utils/calculate_recall.cpp: main", "tests/build_ivf.cpp: main", "tests/search_ivf.cpp: main", "tests/build_hnsw.cpp: main", "src/index.cpp: save_data_and_tags_and_labels"]}
{"id": "C109", "title": "Filtered ground truth from the command line to the file", "statement": "compute_filtered_groundtruth float vectors labels filter queries K out [universal label] ends with status 0 and leaves a truth file that the loader reads, with, for every query, the nearest of exactly those vectors whose line of labels has a label of the filter or the universal label, under their numbers in the vector file, nearest first, up to the rounding of the distances; the two intermediate files are removed and no other file changes. A wrong number of words or an unknown type touches no file. For vectors of bytes, for a filter that no vector meets and for a negative K the behaviour is undefined.", "quantifier": "all vector, label and query files within the bounds of C100, all filters and universal labels, all numerals, heaps, sorts, schedules and orders of additions in the matrix library", "why_tests_cant": "Which vectors match, how they are split in parts, and the renumbering interact for every label file; schedules and rounding vary from run to run.", "anchors": ["tests/compute_filtered_groundtruth.cpp: main, compute_filtered_gt", "src/aux_compute_groundtruth.cpp: aux_main, exact_knn"]}
{"id": "C110", "title": "Random data tools", "statement": "build_random_dist type n dim file ends with status 0 and leaves in the file exactly n vectors of dim floats and changes no other file: cube numbers are in [-1, 1 - 2^-23] and each is 2 w / 2^32 - 1 up to 2^-22 for the next word w of the generator; gaussian numbers are finite and those of the polar method for the pairs of words in order, up to a relative error of 2^-20. load_random_dist prints the vectors of such a file row by row. This holds for one thread, or for at most 64 rows with any number of threads and any schedule. With two threads and more than 64 rows the generator is shared without a lock: there are schedules in which row 64 repeats row 0, and ones that read outside the generator. n * dim of 2^32 or more never gives a file.", "quantifier": "all numbers of rows and dimensions, names, words of the generator, thread counts and interleavings of the threads' reads and writes of the generator, choices of fused operations and accurate logarithms", "why_tests_cant": "The race shows only for particular interleavings; ranges and errors must hold for all 2^32 words.", "anchors": ["include/random_dist_gen.h: random_gaussian, random_cube", "tests/build_random_dist.cpp: main", "tests/load_random_dist.cpp: main"]}
{"id": "C111", "title": "Residuals, rotations and the memory budget", "statement": "process_residuals replaces every number of every point by its difference from (or sum with) the same coordinate of the point's centre, in any order of the threads. Subtracting and then adding comes back to within 3*2^-24*(|x|+|c|), exactly for integers with |x|+|c| <= 2^24, but not in general (1 and a centre of 2^25 give 0). rotate_data gives for row i and column j the inner product of row i with column j of the matrix (row j if transposed), within the error of a sum of dim products and exactly for integers whose sums stay within 2^24. get_memory_budget of x gigabytes is x*2^30 bytes up to 1.25 and (x - 0.25)*2^30 (relative error 2^-53) above, so it is not monotone.", "quantifier": "all tables, centres, assignments, orders of the points, orders of additions and fused operations in the matrix product, all finite doubles up to 2^800", "why_tests_cant": "Rounding errors and thread orders must be covered for all values; tests see only particular tables.", "anchors": ["src/math_utils.cpp: rotate_data, process_residuals", "src/recall_utils.cpp: get_memory_budget"]}
{"id": "C112", "title": "Lifetimes: what the index classes free and what they lose", "statement": "An index of any type but IVF constructed from a data file can be destroyed after every history of loads, builds, searches and saves, failed or not: nothing is freed twice or in the wrong way, and no foreign block is freed. One constructed for loading can be destroyed if and only if some load got past its data file (for HNSW: past every inner level and the outermost data file); before that the destructor frees a pointer that was never set. An IVF index can be destroyed if and only if its centres were last set by a build: never set, or set by a load (every run of the IVF search tool), the destructor is undefined. One build, or one load of complete files, with any searches and saves loses no memory; further loads lose the old data and tags, a second IVF build the old centres, a second HNSW build the whole old hierarchy. Loading into an HNSW index constructed from a file follows a null pointer. A copied LSH or IVF index frees everything twice. After a build or load that returned, searches and saves find everything they read; before any, or after an HNSW build that stopped before its first inner level, they follow pointers that were never set.", "quantifier": "all heaps, constructors, histories of calls of any length with any outcome of each file, HNSW levels of any number", "why_tests_cant": "A double free, a free of an unset pointer or a mismatched delete depends on the history of calls and often goes unnoticed by tests.", "anchors": ["include/index.h: ANNIndex", "src/index.cpp: ANNIndex::ANNIndex, ANNIndex::~ANNIndex, load_data_and_tags_and_labels", "src/ivf.cpp: IVFIndex::~IVFIndex, load, build", "src/hnsw.cpp: HNSW::HNSW, HNSW::~HNSW, load, build", "src/lsh.cpp: LSHIndex"]}
{"id": "C113", "title": "Random hyperplanes of the LSH index", "statement": "For every number of random_device and every table size and dimension, drawing the hyperplanes ends. They are as many as the table size says, each as long as the vectors, and their coordinates are in order the numbers that the polar method gives on the sequence of the engine, each a finite number of magnitude at most 64. The engine steps through all numbers from 1 to 2^31 - 2 before it repeats. So a build with any seeds is a build with hyperplanes as the search and file guarantees (C34, C101, C103) ask for; a table size above 64 ends the program. Seeds that differ by 2^31 - 1, and the seeds 0 and 1, give the same table.", "quantifier": "all seeds, table sizes, dimensions, logarithms within the stated error, ways of contracting x^2 + y^2", "why_tests_cant": "The rejection loop could run forever for a seed that no test draws; termination for all 2^32 seeds rests on the order of 16807 modulo 2^31 - 1.", "anchors": ["src/lsh.cpp: HashTable::HashTable, HashTable::generate_hps, LSHIndex::build"]}
{"id": "C114", "title": "Lloyd's iterations and the k-means objective", "statement": "For every data set of at most 2^28 finite vectors of at most 2^20 coordinates and every start centres, with the closest centres found by matrix products that add in any order: run_lloyds ends without fault, and the sum of the squared distances of the points to their closest centres is at the end at most what it was at the start plus n (dim + 4) 2^-16 B for each iteration, B bounding the squared norms. In one iteration the assignment is optimal for the old centres up to the errors of the products, and no choice of centres beats the new ones for this assignment by more than 2^-43 of the squared norms. The residual returned is the cost of the assignment and centres left behind up to rounding. That the objective never increases at all is false.", "quantifier": "all data sets, start centres, numbers of iterations, block sizes, orders of the parallel loops, orders of the sums in the products", "why_tests_cant": "A test runs a few data sets with one BLAS; the bound must hold for every input and every order of the sums.", "anchors": ["src/math_utils.cpp: lloyds_iter, run_lloyds, compute_closest_centers_in_block, calc_distance"]}
{"id": "C115", "title": "Graph search with a wide enough list is exact", "statement": "A Vamana or RelativeNG search whose list size L is at least the number of points it can reach returns exactly the k nearest of these points. After a Vamana build in which R is at least twice the number of other points every point is reachable, for every schedule of the threads, so a search with L at least the number of points is exact over the whole data set. For a filtered index, if moreover L and C of the build are at least the number of points, alpha is at least 1, and no point carries the universal label, a search with any labels is exact over the points that carry one of them. A RelativeNG is strongly connected, so its searches with L at least the number of points are exact without any condition on parameters. With the usual R = 64 a Vamana index can have points that no search reports whatever L; with universal labels a matching point can be unreachable.", "quantifier": "all data sets, distances without NaN, schedules of the build threads, random draws of the entry points, queries, filters, k", "why_tests_cant": "Reachability depends on the interleaving of the build threads and on the data; a test sees one graph.", "anchors": ["src/vamana.cpp: Vamana::build, Vamana::search", "src/graph_index.cpp: greedy_search_to_fixed_point, prune_candidates_alpha_rng, add_reciprocal_edges", "src/relative_ng.cpp: RelativeNG::build, RelativeNG::search"]}
{"id": "C116", "title": "Distances when subnormal numbers are flushed to zero", "statement": "The release build runs with subnormal floats flushed to zero. For vectors whose coordinates are zero or at least 2^-39 in magnitude this changes no bit of a squared distance or of an inner product, in any order of the additions and with any fused multiply-adds. For all finite vectors the squared distance stays within (n + 3) * 2^-23 of the exact one relatively and 2^-118 per operation absolutely, so points further apart than this are ordered right; it is never negative, and zero from a vector to itself. Smaller differences are lost: distinct points can be at distance zero.", "quantifier": "all vectors, all lengths, all orders of additions and contractions, every processor that may flush operands and results up to the smallest normal number", "why_tests_cant": "Which operands are subnormal depends on the data, and the mode on how the program was linked and on the processor; the bounds are over all vectors and all instruction orders.", "anchors": ["include/distance.h: DistanceL2::compare, DistanceInnerProduct::inner_product", "CMakeLists.txt: -Ofast"]}
{"id": "C117", "title": "Builds of HNSW indexes that run at the same time", "statement": "Every HNSW build with an inner level writes the vectors of that level to /tmp/temp_data, reads them back and removes the file. Processes that build at the same time, from any data files and to index paths of which none is a prefix of another's files, all end as if each had run alone, with the same levels and the same saved files or the same failure, provided that no two of them are between writing and removing the temporary file at the same time; in particular always if at most one of them has an inner level. If two are, a build can finish without any error with an inner level that holds another process's vectors, or fail although its own files are sound.", "quantifier": "all sets of processes, all data files, parameters, samples and numbers of levels, all interleavings of their steps", "why_tests_cant": "The damage needs two processes that overlap in a short window and leaves no trace in either; the absence of any other interference is a claim about all interleavings.", "anchors": ["src/hnsw.cpp: HNSW::build", "tests/build_hnsw.cpp: main", "include/utils.h: save_bin_subset"]}
{"id": "C118", "title": "Building an IVF index from its points, training included", "statement": "The build of an IVF index draws a sample of the points at the training rate, chooses starting centres among it, improves them by k-means and puts every point on the list of its nearest centre. If the sample is not empty (and, above 2^23 sampled points, no point is drawn twice), it ends with the requested number of centres; every point is on exactly one list, at a centre nearest to it up to a stated rounding bound; the sum of squared distances of the sample to its nearest centres is at most that of the starting centres plus a stated bound; with a rate of 1 or more this holds for all points and their lists. A search then probes lists whose centres are the nearest to the query up to the bound and returns exactly the nearest accepted points on them, and with all lists probed the exact answer. With a rate below 1 the sample can be empty, whatever the data, and the build then reads memory it does not own; likewise with no centres, or when one of more than 2^23 points is drawn twice.", "quantifier": "all data, element types, dimensions up to 2^20, numbers of centres, training rates, random numbers, summation orders of BLAS and orders of the parallel loops", "why_tests_cant": "The outcome depends on random draws, on the summation order inside BLAS and on thread timing; the failures need unlikely draws or more than eight million sampled points.", "anchors": ["src/ivf.cpp: IVFIndex::build, IVFIndex::search", "src/partition_and_pq.cpp: gen_random_slice", "src/math_utils.cpp: kmeans_plus_plus_centers, random_centers, run_lloyds, compute_closest_centers"]}
{"id": "C119", "title": "HNSW search with a list that holds every reachable point", "statement": "If the search list of an HNSW index can hold every point that the outermost graph leads to from where the inner levels enter it, the search returns exactly the nearest of these points. If the index was built with an L of at least n, an R of at least L + n, and, with the alpha rule, a C above L and an alpha of at least 1, then, with either pruning rule and whatever the random samples, the thread timing and the order of the final pass, a walk leads from every point to every point on every level, and every search with L at least n is exact. With other parameters this fails: a two-level index over 128 points built with L 100, R 64, C 750, alpha 1.2 has a point that no search reports, whatever its L.", "quantifier": "all data with symmetric non-negative distances, samples of the levels, numbers of levels, interleavings, orders of the cleanup, queries and search parameters", "why_tests_cant": "The graphs depend on random samples and on thread timing; a test sees single builds and cannot tell that no build leaves a point unreachable.", "anchors": ["src/hnsw.cpp: HNSW::build, HNSW::search", "src/graph_index.cpp: greedy_search_to_fixed_point, prune_candidates_alpha_rng, prune_candidates_top_K, add_reciprocal_edges"]}
{"id": "C120", "title": "A longer search list never gives worse answers", "statement": "Take one Vamana or relative neighbourhood graph index and one query that is equally far from no two points, with no more filter labels than L. If the search list L grows, and the number of answers does not shrink, then every answer of the shorter search is matched, at the same position, by one that is no farther, and the recall against the exact answer never falls; the walk of the shorter search is the beginning of the walk of the longer one. For a fixed L, the answers for k are the first k of the answers for a larger k. In an IVF index, probing more clusters never gives a worse answer if no two centres are equally far from the query. With ties, with more labels than L, and for HNSW, this fails.", "quantifier": "all indices, graphs, queries, list sizes, numbers of answers and of probed clusters, filters", "why_tests_cant": "Users tune L and the number of probes by this rule; a test compares a few values on a few queries and meets no counterexample, or meets one and cannot tell that ties caused it.", "anchors": ["include/index.h: InsertIntoPool", "src/graph_index.cpp: greedy_search_to_fixed_point", "src/vamana.cpp: Vamana::search", "src/relative_ng.cpp: RelativeNG::search", "src/hnsw.cpp: HNSW::search", "src/ivf.cpp: IVFIndex::search"]}
{"id": "C121", "title": "Answers depend on the order of the distances, and nothing depends on the unit", "statement": "Two measures of distance that agree, for one query, on which of any two points is nearer give the same answers in the same order from the same index (Vamana, HNSW, relative neighbourhood graph, IVF, LSH), each reporting its own distances. If every coordinate of the data and of the query is multiplied by the same power of two, and the coordinates are zero or of ordinary size, every computed squared L2 distance is multiplied by exactly the square of that factor, whatever order of additions and contractions the compiler chose; the builds of the graph indices under the same schedule give the same index, and a search of it gives the same answers. With a factor that is not a power of two, or with coordinates so small that squares vanish, the answers can change.", "quantifier": "all indices, data, queries, measures, powers of two, orders of summation, schedules, parameters and filters", "why_tests_cant": "Users normalise or rescale data and swap a distance for its square root or square; a test compares a few queries and cannot show that no pair of points changes order.", "anchors": ["include/index.h: InsertIntoPool, Neighbor", "include/distance.h: DistanceL2::compare", "src/graph_index.cpp: greedy_search_to_fixed_point, occlude_list", "src/vamana.cpp: Vamana::build, Vamana::search", "src/hnsw.cpp: HNSW::build, HNSW::search", "src/relative_ng.cpp: RelativeNG::build", "src/ivf.cpp: IVFIndex::search", "src/lsh.cpp: LSHIndex::search"]}
{"id": "C122", "title": "What the counters of a search count", "statement": "A search that is given a statistics object adds to n_hops the number of different points whose neighbour lists it read (summed over the levels of an HNSW object; nothing for IVF and LSH), and to n_cmps the number of different points, accepted by the filter and not among the starting points, that it met in those lists (IVF: in the probed lists, LSH: in the buckets of the query). Every answer is one of the points counted as a hop. n_cmps of one search of a graph is below the number of points and at most R per hop; with a search list that has room for every point of a connected graph it is a scan: n hops, n - 1 comparisons. Without ties a longer list never lowers either counter. Passing no statistics object changes no answer. The distances to starting points and to IVF centres are computed but not counted.", "quantifier": "all indices, queries, list sizes, filters, probe widths, numbers of answers and previous values of the counters", "why_tests_cant": "The counters are printed as the cost of a search and compared between indices; a run prints numbers, and nothing in the run says what they are numbers of.", "anchors": ["src/graph_index.cpp: greedy_search_to_fixed_point", "src/index.cpp: process_candidates_into_best_candidates_pool", "src/vamana.cpp: Vamana::search", "src/relative_ng.cpp: RelativeNG::search", "src/hnsw.cpp: HNSW::search", "src/ivf.cpp: IVFIndex::search", "src/lsh.cpp: LSHIndex::search", "include/percentile_stats.h: QueryStats"]}
{"id": "C123", "title": "Answers within a factor of the best", "statement": "In a metric space, if from every point of a graph there is a shortcut to every other one (a neighbour that is that point or is alpha times as near to it, alpha > 1), then a search of the graph with any list of at least k entries, even L = k = 1, reports for each rank i <= k a point no farther from the query than (alpha + 1)/(alpha - 1) times the i-th nearest point. With computed distances that order points right up to a factor c the bound is c(alpha + 1)/(alpha - c); for float vectors under L2 with d <= 2^18 coordinates c = 1 + 2(d + 3)2^-23, for small integer vectors c = 1. The same holds among the points a filter accepts if its medoids are accepted and the shortcuts are accepted points, and for HNSW if the lowest level has the shortcuts. Pruning the list of all points, with R and C at least n, leaves shortcuts of factor sqrt(alpha), because the code compares alpha with a quotient of squared distances. The graphs that RelativeNG and Vamana build carry no such guarantee: both return a point 1000 times as far as the nearest one from ten points.", "quantifier": "all graphs with the shortcut property, data, queries, entry points, list sizes, numbers of answers, filters, orders of summation; all data and parameters for the prune", "why_tests_cant": "The bound is a worst case over queries, including queries far from every point; recall on a sample of queries neither shows nor refutes it.", "anchors": ["src/vamana.cpp: Vamana::search, Vamana::build", "src/relative_ng.cpp: RelativeNG::search, RelativeNG::build", "src/hnsw.cpp: HNSW::search", "src/graph_index.cpp: greedy_search_to_fixed_point, prune_candidates_alpha_rng", "include/distance.h: DistanceL2"]}
{"id": "C124", "title": "The order of the vectors in the data file", "statement": "A Vamana, RelativeNG or HNSW object in which the points carry other numbers (the graph, entry points, medoids, labels and tags moved along) reports for every query, list size, number of answers and filter the same tags and distances in the same order, ties included, when the sort looks at distances only. RelativeNG built from a data file in another order, with its parallel loop in any order, is such an object, with the same maximum degree, if no two points are equally far from a third or from the centroid. Without ties exhaustive search and ground truth report the same points; so do IVF with the same centres and lists and LSH with the same planes, and these report numbers of points, so that a caller has to translate them. A Vamana build does depend on the order of the data file even without ties, on one thread; and with ties a RelativeNG build and search do too.", "quantifier": "all data, permutations, queries, list sizes, numbers of answers, filters, labels, levels, schedules of the RelativeNG loop", "why_tests_cant": "A test compares a few permutations of a few files; the claim is about all of them, and whether ties occur depends on the data.", "anchors": ["src/vamana.cpp: Vamana::search, Vamana::build", "src/relative_ng.cpp: RelativeNG::build, RelativeNG::search", "src/hnsw.cpp: HNSW::search", "src/graph_index.cpp: greedy_search_to_fixed_point, prune_candidates_alpha_rng", "src/ivf.cpp: IVFIndex::search", "src/lsh.cpp: LSHIndex::build, LSHIndex::search", "include/index.h: Neighbor::operator<, InsertIntoPool"]}
{"id": "C125", "title": "The table of work printed by the search tools", "statement": "For every list size (or number of probes) search_vamana, search_relng, search_hnsw and search_ivf print the mean and the 99.9 percent rank of the comparisons and hops of the searches of that row: every query counted once, nothing carried over from another row, to the accuracy of a float, and the rank exactly if the count is at most 2^24. Neither the schedule of the parallel loop nor the order of the additions changes a printed number. In the table of search_vamana no column falls when the list grows, if no query is equally far from two points; a row with room for every point shows n hops and n - 1 comparisons; comparisons are at most R per hop. For search_hnsw a longer list may show less work. The hops columns of search_ivf are zero. Up to a thousand queries the 99.9 percent columns are the maximum.", "quantifier": "all indices, queries, list sizes, numbers of answers, filters, numbers of queries up to 2^32, schedules, orders of additions, sorts", "why_tests_cant": "A test runs one schedule on one data set and would not see a slot counted twice under another schedule, or a sum that depends on the order of its additions.", "anchors": ["tests/search_vamana.cpp: search_vamana", "tests/search_hnsw.cpp: search_hnsw", "tests/search_relng.cpp: search_relng", "tests/search_ivf.cpp: search_ivf", "include/percentile_stats.h: QueryStats, get_mean_stats, get_percentile_stats"]}
{"id": "C126", "title": "What the degree limit R, the scan limit C and alpha do to a pruned list", "statement": "The list pruned with a smaller R is exactly the first R entries of the list pruned with a larger one (both rules); scanning more candidates, or offering candidates farther than all the others, only appends to the list. If no two candidates are equally far, pruning a pruned list again changes nothing, and if all candidates are scanned, leaving out rejected ones changes nothing. If no ratio of distances exceeds alpha the alpha rule gives the same list as the nearest-R rule. A larger alpha does not keep a superset: it may lose links and leave fewer in all.", "quantifier": "all data sets, labels, candidate lists, values of R, C and alpha >= 0, and sorts", "why_tests_cant": "A test tries a few candidate lists; that no candidate list makes a larger limit change an earlier entry needs the argument about every scan, and the failure for alpha needs a particular placement in three dimensions.", "anchors": ["src/graph_index.cpp: prune_candidates_alpha_rng", "src/graph_index.cpp: prune_candidates_top_K"]}
{"id": "C127", "title": "More labels in a filter, and repeated ones", "statement": "Adding labels to a sorted filter list, or dropping the filter, never makes an answer of an IVF or LSH search worse and never reduces the number of answers; for Vamana the same holds when labels are added and the search list has room for every point. Giving a label twice in a row changes nothing at all, for all three. With a short search list one more label can lose Vamana's nearest point; dropping the filter can lose it with any list; a label added out of order can lose points in any index.", "quantifier": "all indices, labels, queries, filter lists, numbers of answers, probes, list sizes", "why_tests_cant": "The comparison is between two searches for every pair of filter lists; the exceptions need particular graphs.", "anchors": ["src/index.cpp: process_candidates_into_best_candidates_pool", "src/vamana.cpp: search", "src/ivf.cpp: search", "src/lsh.cpp: search", "src/graph_index.cpp: greedy_search_to_fixed_point"]}
{"id": "C128", "title": "Asking for more answers, and hash tables with more planes", "statement": "The answers of an IVF or LSH search for m neighbours, and the rows of a ground truth for k, have the distances of the first places of the answers for a larger number; the points themselves are the same if no two are equally far from the query, and may differ otherwise. An LSH index with further tables behind the same first ones never gives a worse answer, nor fewer, and its recall never falls; one with further hyperplanes in its tables never gives a better answer.", "quantifier": "all indices, data, queries, filters, numbers of answers, hyperplanes, part sizes, queues and loop orders", "why_tests_cant": "The comparison is between two runs for every pair of parameters; ties show only for particular orders of the candidates.", "anchors": ["src/index.cpp: process_candidates_into_best_candidates_pool", "src/ivf.cpp: search", "src/lsh.cpp: build, search, get_hash", "src/aux_compute_groundtruth.cpp: exact_knn, aux_main"]}
{"id": "C129", "title": "Copies of one vector in the data", "statement": "A list pruned by the alpha rule names at most one of several points with the same vector, unless that vector is the point's own; copies of the point itself come first in its list, up to R of them, and fill it if there are R. In a relative neighbourhood graph all copies of a vector are linked with each other and every other point with at most one of them. IVF keeps copies in one list; if LSH reports a copy it reports every other one, unless the answer is full with points that are no farther. More than R copies can cut the rest of a Vamana index off: with 22 copies of one vector and R 16 no search reports the other points.", "quantifier": "all data, candidate lists, parameters, orders of the loops, queries, list sizes; the island for all queries, L and k", "why_tests_cant": "Test data rarely holds more copies of a vector than R, and the loss must be shown for every query and list size.", "anchors": ["src/graph_index.cpp: prune_candidates_alpha_rng", "src/relative_ng.cpp: build", "src/vamana.cpp: build, search", "src/ivf.cpp: build", "src/lsh.cpp: build, search"]}
{"id": "C130", "title": "The codes of product quantisation are the best ones together", "statement": "Of all ways to name one pivot per chunk, the codes written for a vector stand for the one nearest to it (after subtracting the centroid), up to the sum of the errors of the distances computed; with exact distances, exactly. A vector that can be put together from pieces of pivots is then restored exactly, and adding pivots never makes the vector restored worse. With distances computed by matrix products a vector that is itself a pivot can be coded by another pivot.", "quantifier": "all vectors, pivots, numbers of chunks, block sizes, orders of the loops, rounding errors within a bound, and all competing codes", "why_tests_cant": "There are pivots^chunks competing codes for a vector; the rounding depends on the order of summation.", "anchors": ["src/partition_and_pq.cpp: generate_pq_data_from_pivots", "src/math_utils.cpp: compute_closest_centers"]}
{"id": "C131", "title": "Labels that all points share", "statement": "A filter that every point matches does not change an IVF or LSH search: same answers, same distances, same number of comparisons. In Vamana, if all points have one label, the same one, the build makes the graph a build without labels would make if it started at the entry point of that label, and a search with the label gives the answers of a search without filter on that index. It is in general not the graph of the build without labels, which starts at the point next to the centroid.", "quantifier": "all data, labels, filter lists, queries, list sizes, schedules of the build", "why_tests_cant": "The equality must hold for all data and all interleavings of the build threads.", "anchors": ["src/index.cpp: process_candidates_into_best_candidates_pool", "src/graph_index.cpp: prune_candidates_alpha_rng, greedy_search_to_fixed_point", "src/vamana.cpp: build, search", "src/ivf.cpp: search", "src/lsh.cpp: search"]}
{"id": "C132", "title": "Saving a loaded index again", "statement": "An index that was saved and loaded into a fresh object writes, when it is saved again under any name into any directory, exactly what the first object would write there; saved back under its own name it leaves every file as it is. So copying an index by loading and saving it, any number of times, loses nothing, for Vamana, RelativeNG, HNSW levels and IVF. (LSH loses its tables, C34.)", "quantifier": "all indices, names, directory contents before the save, indeterminate bytes during the load", "why_tests_cant": "Byte equality must hold for all contents, labels, names and older files.", "anchors": ["src/index.cpp: save_data_and_tags_and_labels, load_data_and_tags_and_labels", "src/vamana.cpp: save, load", "src/relative_ng.cpp: save, load", "src/hnsw.cpp: save, load", "src/ivf.cpp: save, load"]}
{"id": "C133", "title": "A filtered search depends on the matching points only", "statement": "Two collections in which the same points match a filter, and those are equally far from the query, give the same filtered answers: coordinates and labels of points that do not match make no difference, and neither do their own edges, edges to them, the start node of the index (Vamana), their places in inverted lists (IVF) or buckets (LSH). So a search with a filter reveals nothing about the points outside it except through the edges, lists and buckets of the matching points. Without a filter the answers differ.", "quantifier": "all pairs of such collections, queries, filter lists, list sizes, probes, numbers of answers", "why_tests_cant": "Non-interference over all values of the points that do not match.", "anchors": ["src/index.cpp: process_candidates_into_best_candidates_pool", "src/graph_index.cpp: greedy_search_to_fixed_point", "src/vamana.cpp: search", "src/ivf.cpp: search", "src/lsh.cpp: search"]}
{"id": "C134", "title": "A search depends only on what it has seen", "statement": "A graph search on a finished index depends only on the distances of the points it compares with the query and on the neighbour lists of the points it expands: with those unchanged, and everything else changed in any way, it runs the same way to the same answers and counters. So what is stored for points that cannot be reached from the entry points along matching points never matters. In the same way an IVF search depends only on the lists it probes and the points in them, and an LSH search only on the buckets of the query's keys.", "quantifier": "all indices, pairs of data sets and graphs, queries, filters, list sizes", "why_tests_cant": "Ranges over all changes of the part that was not seen.", "anchors": ["src/graph_index.cpp: greedy_search_to_fixed_point", "src/index.cpp: process_candidates_into_best_candidates_pool", "src/vamana.cpp: search", "src/relative_ng.cpp: search", "src/ivf.cpp: search", "src/lsh.cpp: search"]}
