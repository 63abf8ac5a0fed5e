{
 "claims": [
  {
   "property": "C01",
   "status": "proved",
   "theorems": [
    "C01_insert_new",
    "C01_insert_present",
    "C01_insert_safe"
   ],
   "note": ""
  },
  {
   "property": "C02",
   "status": "proved",
   "theorems": [
    "C02_feed_top"
   ],
   "note": ""
  },
  {
   "property": "C03",
   "status": "proved",
   "theorems": [
    "C03_feed_safe",
    "C03_first_far_refuted",
    "C03_capacity_zero_refuted"
   ],
   "note": "the safe part, and the two situations in which the code does read out of bounds"
  },
  {
   "property": "C04",
   "status": "proved",
   "theorems": [
    "C04_greedy_terminates",
    "C04_list_size_zero_refuted"
   ],
   "note": ""
  },
  {
   "property": "C05",
   "status": "proved",
   "theorems": [
    "C05_greedy_fixed_point"
   ],
   "note": ""
  },
  {
   "property": "C06",
   "status": "proved",
   "theorems": [
    "C06_greedy_sorted_distinct"
   ],
   "note": ""
  },
  {
   "property": "C07",
   "status": "proved",
   "theorems": [
    "C07_greedy_true_distances"
   ],
   "note": ""
  },
  {
   "property": "C08",
   "status": "proved",
   "theorems": [
    "C08_vamana_search",
    "C08_rng_search",
    "C08_vamana_search_past_list"
   ],
   "note": ""
  },
  {
   "property": "C09",
   "status": "proved",
   "theorems": [
    "C09_constructor_tags",
    "C09_vamana_tags",
    "C09_rng_tags",
    "C36_hnsw_search"
   ],
   "note": ""
  },
  {
   "property": "C10",
   "status": "proved",
   "theorems": [
    "C10_vamana_filtered",
    "C10_vamana_matching",
    "C10_ivf_filtered",
    "C10_lsh_filtered"
   ],
   "note": ""
  },
  {
   "property": "C11",
   "status": "proved",
   "theorems": [
    "C11_filter_exact",
    "C11_filter_sound",
    "C11_unsorted_refuted"
   ],
   "note": ""
  },
  {
   "property": "C12",
   "status": "proved",
   "theorems": [
    "C12_alpha_prune_shape"
   ],
   "note": ""
  },
  {
   "property": "C13",
   "status": "proved",
   "theorems": [
    "C13_alpha_prune_exact",
    "C13_alpha_prune_closest"
   ],
   "note": ""
  },
  {
   "property": "C14",
   "status": "proved",
   "theorems": [
    "C14_filtered_prune_labels"
   ],
   "note": ""
  },
  {
   "property": "C15",
   "status": "proved",
   "theorems": [
    "C15_topk_prune"
   ],
   "note": ""
  },
  {
   "property": "C16",
   "status": "proved",
   "theorems": [
    "C16_build_edges",
    "C17_final_degree"
   ],
   "note": "all schedules of the atomic-section model; cleanup in any order"
  },
  {
   "property": "C17",
   "status": "proved",
   "theorems": [
    "C17_build_degree",
    "C17_final_degree"
   ],
   "note": "ceil(1.3R)+R during the build, R after it"
  },
  {
   "property": "C18",
   "status": "proved",
   "theorems": [
    "C18_build_terminates",
    "C18_build_completes",
    "C18_links_once",
    "C18_lock_exclusion",
    "C18_no_deadlock",
    "C18_lock_terminates",
    "C18_lock_refines"
   ],
   "note": "termination bound, exactly-once linking, lock exclusion, no deadlock"
  },
  {
   "property": "C19",
   "status": "proved",
   "theorems": [
    "C19_pruned_no_duplicates",
    "C19_repruned_no_duplicates",
    "C19_no_duplicates_refuted"
   ],
   "note": "positive part for pruned lists; witness for a built graph with a duplicate"
  },
  {
   "property": "C20",
   "status": "proved",
   "theorems": [
    "C20_reciprocal_sequential",
    "C20_reprune_candidates",
    "C20_lost_update_refuted"
   ],
   "note": "sequential part for every reachable state; two-thread witness of a lost edge"
  },
  {
   "property": "C21",
   "status": "proved",
   "theorems": [
    "C21_vamana_small_data",
    "C21_rng_small_data",
    "C21_hnsw_small_level",
    "C68_vamana_build",
    "C24_rng_build",
    "C72_hnsw_build"
   ],
   "note": "none of 10 or more: the well-formed-build theorems"
  },
  {
   "property": "C22",
   "status": "proved",
   "theorems": [
    "C22_max_degree",
    "C22_hnsw_max_degree_refuted",
    "C68_vamana_build"
   ],
   "note": ""
  },
  {
   "property": "C23",
   "status": "proved",
   "theorems": [
    "C23_rng_finds_indexed",
    "C23_rng_finds_itself"
   ],
   "note": "rests on div_gt_one: a rounded float32 quotient above one has a larger numerator"
  },
  {
   "property": "C24",
   "status": "proved",
   "theorems": [
    "C24_rng_connected",
    "C24_rng_build"
   ],
   "note": ""
  },
  {
   "property": "C25",
   "status": "proved",
   "theorems": [
    "C25_entry_point"
   ],
   "note": "the float computation of the centroid distances is arbitrary"
  },
  {
   "property": "C26",
   "status": "proved",
   "theorems": [
    "C26_label_entry_points",
    "C26_spread"
   ],
   "note": ""
  },
  {
   "property": "C27",
   "status": "proved",
   "theorems": [
    "C27_ivf_partition",
    "C27_ivf_rebuild_doubles"
   ],
   "note": "the append order of the critical section is an arbitrary permutation per block"
  },
  {
   "property": "C28",
   "status": "proved",
   "theorems": [
    "C28_ivf_nearest",
    "C28_ivf_far_refuted",
    "C28_ivf_stale_refuted"
   ],
   "note": "distances at or above FLT_MAX: witnesses"
  },
  {
   "property": "C29",
   "status": "proved",
   "theorems": [
    "C29_ivf_probed",
    "C29_ivf_exact"
   ],
   "note": ""
  },
  {
   "property": "C30",
   "status": "proved",
   "theorems": [
    "C30_ivf_wide_probe",
    "C30_ivf_unbuilt_refuted"
   ],
   "note": ""
  },
  {
   "property": "C31",
   "status": "proved",
   "theorems": [
    "C31_lsh_finds_indexed"
   ],
   "note": ""
  },
  {
   "property": "C32",
   "status": "proved",
   "theorems": [
    "C32_lsh_colliding"
   ],
   "note": "the dot product is an arbitrary function"
  },
  {
   "property": "C33",
   "status": "proved",
   "theorems": [
    "C33_lsh_repeated",
    "C34_lsh_round_trip"
   ],
   "note": ""
  },
  {
   "property": "C34",
   "status": "proved",
   "theorems": [
    "C34_lsh_round_trip",
    "C34_lsh_resave_loses"
   ],
   "note": ""
  },
  {
   "property": "C35",
   "status": "proved",
   "theorems": [
    "C35_ivf_tags_refuted",
    "C35_lsh_tags_refuted",
    "C29_ivf_probed",
    "C32_lsh_colliding"
   ],
   "note": "default tags: C29, C32"
  },
  {
   "property": "C36",
   "status": "proved",
   "theorems": [
    "C36_hnsw_search",
    "C36_hnsw_search_past_list"
   ],
   "note": ""
  },
  {
   "property": "C37",
   "status": "proved",
   "theorems": [
    "C37_phantom_candidates",
    "C37_phantom_links"
   ],
   "note": ""
  },
  {
   "property": "C38",
   "status": "proved",
   "theorems": [
    "C38_bin_round_trip",
    "C38_bin_reload",
    "C38_aligned_resave"
   ],
   "note": "Element contents are bit patterns of any width."
  },
  {
   "property": "C39",
   "status": "proved",
   "theorems": [
    "C39_load_bin_cases",
    "C39_load_bin_wrong_size",
    "C39_load_aligned_accepts",
    "C39_load_aligned_wrong_size",
    "C39_load_aligned_wraps",
    "C39_load_aligned_rejects_refuted"
   ],
   "note": "load_bin: every byte string. load_aligned_bin: sizes that do not wrap modulo 2^64; where they wrap the claim is refuted with a witness."
  },
  {
   "property": "C40",
   "status": "proved",
   "theorems": [
    "C40_aligned_padding"
   ],
   "note": ""
  },
  {
   "property": "C41",
   "status": "proved",
   "theorems": [
    "C41_graph_round_trip",
    "C41_graph_bytes"
   ],
   "note": ""
  },
  {
   "property": "C42",
   "status": "proved",
   "theorems": [
    "C42_cut_graph",
    "C42_cut_graph_exact",
    "C42_cut_header",
    "C42_cut_last_list_undetected",
    "C42_truncation_detected_refuted",
    "C42_missing_graph_file"
   ],
   "note": ""
  },
  {
   "property": "C43",
   "status": "proved",
   "theorems": [
    "C43_load_appends"
   ],
   "note": ""
  },
  {
   "property": "C44",
   "status": "proved",
   "theorems": [
    "C44_ivf_round_trip"
   ],
   "note": ""
  },
  {
   "property": "C45",
   "status": "proved",
   "theorems": [
    "C45_label_round_trip",
    "C45_parsed_labels",
    "C45_label_reload",
    "C45_empty_label_lost",
    "C45_label_reload_refuted",
    "C45_no_label_undefined"
   ],
   "note": ""
  },
  {
   "property": "C46",
   "status": "proved",
   "theorems": [
    "C46_medoid_round_trip",
    "C46_comma_refuted",
    "C46_any_line"
   ],
   "note": ""
  },
  {
   "property": "C47",
   "status": "proved",
   "theorems": [
    "C47_reads_plain",
    "C47_size",
    "C47_missing_file"
   ],
   "note": ""
  },
  {
   "property": "C48",
   "status": "proved",
   "theorems": [
    "C48_writes_concat",
    "C48_writes_plain",
    "C48_reset_header",
    "C48_size_after_reset_refuted"
   ],
   "note": ""
  },
  {
   "property": "C49",
   "status": "proved",
   "theorems": [
    "C49_get_last",
    "C49_get_unset",
    "C49_defaults",
    "C49_get_string",
    "C49_get_number"
   ],
   "note": ""
  },
  {
   "property": "C50",
   "status": "proved",
   "theorems": [
    "C50_recall",
    "C50_recall_past_end",
    "C50_recall_zero",
    "C50_percent_bounded_refuted",
    "C50_range_recall",
    "C50_common_unique"
   ],
   "note": "The hit counts are exact; the final double division is only used in the witness that a perfect recall can exceed 100."
  },
  {
   "property": "C51",
   "status": "proved",
   "theorems": [
    "C51_prune",
    "C51_save_load",
    "C51_load",
    "C51_load_only",
    "C51_missing",
    "C51_prune_missing",
    "C51_load_range",
    "C51_load_range_empty",
    "C51_load_range_only"
   ],
   "note": ""
  },
  {
   "property": "C52",
   "status": "proved",
   "theorems": [
    "C52_exact_knn",
    "C52_merged",
    "C52_k_zero_undefined"
   ],
   "note": "Distances are an arbitrary function without NaN; BLAS is not modelled."
  },
  {
   "property": "C53",
   "status": "proved",
   "theorems": [
    "C53_k_shrinks",
    "C53_k_kept_refuted",
    "C53_no_points_undefined",
    "C53_k_zero_undefined"
   ],
   "note": ""
  },
  {
   "property": "C54",
   "status": "proved",
   "theorems": [
    "C54_chunks_even",
    "C54_too_many_chunks",
    "C54_no_chunks_refuted"
   ],
   "note": ""
  },
  {
   "property": "C55",
   "status": "proved",
   "theorems": [
    "C55_codes",
    "C55_code_width",
    "C55_no_points_refuted"
   ],
   "note": ""
  },
  {
   "property": "C56",
   "status": "proved",
   "theorems": [
    "C56_nearest_shards",
    "C56_too_many_copies",
    "C56_other_dimension",
    "C56_no_points_refuted"
   ],
   "note": ""
  },
  {
   "property": "C57",
   "status": "proved",
   "theorems": [
    "C57_two_phase",
    "C57_retrieve",
    "C57_repeated_ids_refuted"
   ],
   "note": ""
  },
  {
   "property": "C58",
   "status": "proved",
   "theorems": [
    "C58_slice_files",
    "C58_slice_floats",
    "C58_slice_memory"
   ],
   "note": ""
  },
  {
   "property": "C59",
   "status": "proved",
   "theorems": [
    "C59_blocks_cover",
    "C59_blocks_nonempty",
    "C59_pq_block_free",
    "C59_shard_block_free"
   ],
   "note": ""
  },
  {
   "property": "C60",
   "status": "proved",
   "theorems": [
    "C60_int8_exact",
    "C60_uint8_exact",
    "C60_int8_any",
    "C60_uint8_any",
    "C60_int8_overflow",
    "C60_uint8_wrap",
    "C60_laws",
    "C60_float_zero",
    "C60_float_order"
   ],
   "note": "For every order of additions of the vectorised loop."
  },
  {
   "property": "C61",
   "status": "proved",
   "theorems": [
    "C61_covers",
    "C61_exact",
    "C61_norm"
   ],
   "note": "The AVX branch; additions in the written order."
  },
  {
   "property": "C62",
   "status": "proved",
   "theorems": [
    "C62_fast_l2_is_ip",
    "C62_own_nearest_refuted",
    "C62_supported"
   ],
   "note": ""
  },
  {
   "property": "C63",
   "status": "proved",
   "theorems": [
    "C63_records",
    "C63_loads",
    "C63_any_file",
    "C63_short_refuted"
   ],
   "note": ""
  },
  {
   "property": "C64",
   "status": "proved",
   "theorems": [
    "C64_original_ids",
    "C64_narrow_refuted"
   ],
   "note": ""
  },
  {
   "property": "C65",
   "status": "proved",
   "theorems": [
    "C65_answers_like_a_set",
    "C65_any_size"
   ],
   "note": "tsl::robin_hash function by function (probing, robin-hood insertion, growth, rehash with stored hashes, backward-shift erase, clear, reserve); refinement of a list set for every hash function and history. Distances are 16-bit: beyond 32767 values the theorem is 'overflow or right'."
  },
  {
   "property": "C66",
   "status": "proved",
   "theorems": [
    "C66_lloyd_iteration",
    "C66_residual"
   ],
   "note": "The mean is the double-precision sum in list order divided by the count and rounded to float."
  },
  {
   "property": "C67",
   "status": "proved",
   "theorems": [
    "C67_levels_disjoint",
    "C67_levels_not_base",
    "C67_hnsw_round_trip"
   ],
   "note": ""
  },
  {
   "property": "C68",
   "status": "proved",
   "theorems": [
    "C68_vamana_build",
    "C68_vamana_build_completes"
   ],
   "note": "connects the build to the search theorems"
  },
  {
   "property": "C69",
   "status": "proved",
   "theorems": [
    "C69_rng_rebuild_doubles"
   ],
   "note": ""
  },
  {
   "property": "C70",
   "status": "proved",
   "theorems": [
    "C70_rng_filter_refuted",
    "C09_rng_tags"
   ],
   "note": "C09_rng_tags: the result is described without reference to the filter"
  },
  {
   "property": "C71",
   "status": "proved",
   "theorems": [
    "C71_lsh_rebuild",
    "C71_lsh_rebuild_file"
   ],
   "note": ""
  },
  {
   "property": "C72",
   "status": "proved",
   "theorems": [
    "C72_hnsw_build",
    "C72_hnsw_build_completes",
    "C72_hnsw_level_terminates"
   ],
   "note": ""
  },
  {
   "property": "C73",
   "status": "proved",
   "theorems": [
    "C73_hnsw_ignores_filters"
   ],
   "note": ""
  },
  {
   "property": "C75",
   "status": "proved",
   "theorems": [
    "C75_subset_file",
    "C75_metadata"
   ],
   "note": ""
  },
  {
   "property": "C74",
   "status": "proved",
   "theorems": [
    "C74_vamana_round_trip",
    "C74_rng_round_trip",
    "C74_stale_entry_points",
    "C74_overwrite_restores_refuted"
   ],
   "note": "The label set and the overwriting case are explicit: see the hypothesis on the entry point file."
  },
  {
   "property": "C76",
   "status": "proved",
   "theorems": [
    "C76_estimate",
    "C76_too_many_copies_refuted"
   ],
   "note": ""
  },
  {
   "property": "C77",
   "status": "proved",
   "theorems": [
    "C77_run_lloyds"
   ],
   "note": ""
  },
  {
   "property": "C78",
   "status": "proved",
   "theorems": [
    "C78_random_centers",
    "C78_all_written_refuted"
   ],
   "note": ""
  },
  {
   "property": "C79",
   "status": "proved",
   "theorems": [
    "C79_kmeans_pp",
    "C79_kmeans_pp_ends"
   ],
   "note": "Up to 2^23 points (above, the code falls back to random centres)."
  },
  {
   "property": "C80",
   "status": "proved",
   "theorems": [
    "C80_symmetric",
    "C80_not_negative",
    "C80_zero_on_itself",
    "C80_zero_means_equal_refuted"
   ],
   "note": "IEEE single operations; fused multiply-add contraction is not modelled."
  },
  {
   "property": "C81",
   "status": "proved",
   "theorems": [
    "C81_int8",
    "C81_uint8",
    "C81_uint32",
    "C81_quantise",
    "C81_quantise_fits_refuted"
   ],
   "note": ""
  },
  {
   "property": "C82",
   "status": "proved",
   "theorems": [
    "C82_vamana_reload",
    "C82_rng_reload",
    "C82_hnsw_reload",
    "C82_ivf_reload"
   ],
   "note": ""
  },
  {
   "property": "C83",
   "status": "proved",
   "theorems": [
    "C83_build_save_load",
    "C83_filtered_answers"
   ],
   "note": "A schedule that leaves points unprocessed is the outcome Fuel, excluded in the statement."
  },
  {
   "property": "C84",
   "status": "proved",
   "theorems": [
    "C84_vamana_slots",
    "C84_rng_slots",
    "C84_hnsw_slots",
    "C84_ivf_slots",
    "C84_results_file",
    "C84_no_list_size",
    "C84_no_queries",
    "C84_short_queries"
   ],
   "note": ""
  },
  {
   "property": "C85",
   "status": "proved",
   "theorems": [
    "C85_build_then_search"
   ],
   "note": ""
  },
  {
   "property": "C86",
   "status": "proved",
   "theorems": [
    "C86_pivot_files",
    "C86_codes_file",
    "C86_generate_pq",
    "C86_old_pivots_kept",
    "C86_other_pivots_replaced",
    "C86_no_pivots",
    "C86_other_chunks",
    "C86_too_many_chunks",
    "C86_float_words",
    "C86_pivots_of_this_data_refuted"
   ],
   "note": "Distances (BLAS and calc_distance) are arbitrary functions; OPQ is not in the code."
  },
  {
   "property": "C87",
   "status": "proved",
   "theorems": [
    "C87_partition",
    "C87_budget",
    "C87_sizes",
    "C87_ends_refuted",
    "C87_shards_fit_refuted"
   ],
   "note": "The estimate is in IEEE doubles in the written order of operations. A run that does not return is the outcome None of the loop."
  },
  {
   "property": "C88",
   "status": "proved",
   "theorems": [
    "C88_rng_build",
    "C88_rng_finds_itself",
    "C88_hnsw_build",
    "C88_hnsw_search",
    "C88_ivf_build",
    "C88_ivf_search",
    "C88_lsh_build",
    "C88_lsh_search"
   ],
   "note": "A schedule that leaves points unprocessed is the outcome Fuel of the HNSW tool. LSH searches are taken one after the other."
  },
  {
   "property": "C89",
   "status": "proved",
   "theorems": [
    "C89_operations",
    "C89_rng_interrupted",
    "C89_cut_graph_safe",
    "C89_vamana_interrupted",
    "C89_hnsw_interrupted",
    "C89_ivf_interrupted",
    "C89_lsh_interrupted",
    "C89_other_files",
    "C89_save_again",
    "C89_overwrite_refuted"
   ],
   "note": "The process stops at any byte of any file; bytes handed to the system stay. Loss of written bytes at a power failure is not modelled."
  },
  {
   "property": "C90",
   "status": "proved",
   "theorems": [
    "C90_float_text",
    "C90_float_round_trip",
    "C90_float_exact_refuted",
    "C90_infinity_refuted",
    "C90_byte_text",
    "C90_byte_round_trip",
    "C90_byte_white_refuted",
    "C90_byte_blocks_refuted",
    "C90_byte_decimal_refuted",
    "C90_malformed_refuted",
    "C90_short_text_byte",
    "C90_short_text_float"
   ],
   "note": "operator<< and operator>> of the C++ library are modelled as the standard defines them (%g with six digits; correctly rounded strtof). Values are exact rationals."
  },
  {
   "property": "C91",
   "status": "proved",
   "theorems": [
    "C91_no_race",
    "C91_runs",
    "C91_no_race_refuted",
    "C91_locked",
    "C91_unlocked_reserve_refuted",
    "C91_changes",
    "C91_depends"
   ],
   "note": "A vector is modelled as libstdc++ lays it out (storage bounds; size and elements) with its growth rule. False for six small degree bounds and, read strictly, for the C++ library contract; both are proved."
  },
  {
   "property": "C92",
   "status": "proved",
   "theorems": [
    "C92_l2_error",
    "C92_l2_error_sharp",
    "C92_l2_finite",
    "C92_no_contraction",
    "C92_contracted_distance",
    "C92_order",
    "C92_any_order_refuted",
    "C92_inner_product"
   ],
   "note": "Real numbers of the standard library (its four axioms are listed in DESIGN.md). Covers any order of additions and any contraction; algebraic rewriting of the summands by -ffast-math is not modelled."
  },
  {
   "property": "C93",
   "status": "proved",
   "theorems": [
    "C93_l2_exact",
    "C93_order",
    "C93_bytes",
    "C93_bytes_259_refuted",
    "C93_ip_exact",
    "C93_norm_overload"
   ],
   "note": "Real numbers of the standard library; see C92."
  },
  {
   "property": "C94",
   "status": "proved",
   "theorems": [
    "C94_prepared",
    "C94_order",
    "C94_empty_refuted",
    "C94_every_file_refuted"
   ],
   "note": "Real numbers of the standard library; see C92. Square root and division are taken as correctly rounded; the approximations -Ofast permits are not modelled."
  },
  {
   "property": "C95",
   "status": "proved",
   "theorems": [
    "C95_prep_base",
    "C95_prep_base_parallel_refuted",
    "C95_prep_query",
    "C95_normalize",
    "C95_normalize_zero_refuted",
    "C95_prep_bytes_refuted"
   ],
   "note": "Real numbers of the standard library; see C92. False for the parallel loop of option 2 and for byte files; both are proved with witnesses."
  },
  {
   "property": "C96",
   "status": "proved",
   "theorems": [
    "C96_race_iff",
    "C96_race_any",
    "C96_always_safe_refuted",
    "C96_unchanged",
    "C96_answers",
    "C96_end_state",
    "C96_progress"
   ],
   "note": "One step per bucket lookup; a lookup of a missing key is a write. False without a lock for queries in empty buckets; the exact condition is proved."
  },
  {
   "property": "C97",
   "status": "proved",
   "theorems": [
    "C97_degree_report",
    "C97_degree_report_empty_refuted",
    "C97_range_report",
    "C97_norms",
    "C97_percentile",
    "C97_percentile_999",
    "C97_percentile_one_refuted",
    "C97_percentile_empty_refuted",
    "C97_latency",
    "C97_mean",
    "C97_mean_empty_refuted",
    "C97_recall_tool",
    "C97_recall_tool_refuses",
    "C97_recall_tool_zero_refuted"
   ],
   "note": "For every list, sort result and permitted rewriting of the index arithmetic. The four boundary cases are undefined or NaN; proved as such."
  },
  {
   "property": "C98",
   "status": "proved",
   "theorems": [
    "C98_pq_centroid",
    "C98_entry",
    "C98_entry_bytes",
    "C98_many_points_refuted",
    "C98_lloyd"
   ],
   "note": "For every point set, order of additions and permitted rewriting. Without a bound on the number of points the claim about the entry point is false; proved as such."
  },
  {
   "property": "C99",
   "status": "proved",
   "theorems": [
    "C99_truth",
    "C99_truth_integers",
    "C99_truth_bytes",
    "C99_truth_exact_refuted",
    "C99_centre_table",
    "C99_ivf",
    "C99_centre_exact_refuted"
   ],
   "note": "For every library that sums the products of a matrix entry in some order, fused or not, and every norm function near the norm. Exactness beyond 2^24, and for centres at all, is false; proved as such."
  },
  {
   "property": "C100",
   "status": "proved",
   "theorems": [
    "C100_l2",
    "C100_l2_bytes",
    "C100_mips",
    "C100_mips_bytes",
    "C100_any_k_refuted",
    "C100_dimensions_checked_refuted"
   ],
   "note": "From bytes of the input files to what the loader of truth files returns. Arbitrary k and mismatched dimensions are false; proved as such."
  },
  {
   "property": "C101",
   "status": "proved",
   "theorems": [
    "C101_ivf_nearest",
    "C101_lsh_nearest",
    "C101_rng_itself",
    "C101_hnsw_first",
    "C101_vamana_filtered"
   ],
   "note": "The whole programs of C82 to C88 with the distance functions of C60, C80 and C92 in place of arbitrary ones, from the bytes of the input files to the bytes of the result file."
  },
  {
   "property": "C102",
   "status": "proved",
   "theorems": [
    "C102_recall_100_means_nearest",
    "C102_nearest_means_recall_100",
    "C102_ivf_recall_100",
    "C102_any_depth_refuted"
   ],
   "note": "Composes C97 (recall tool), C100 (ground truth tool) and C101 (IVF from files to files). The condition on ties is necessary: the refuted form has a run with 75 percent for correct results."
  },
  {
   "property": "C103",
   "status": "proved",
   "theorems": [
    "C103_build_vamana",
    "C103_build_hnsw",
    "C103_build_relng",
    "C103_build_ivf",
    "C103_build_lsh",
    "C103_search_vamana",
    "C103_search_hnsw",
    "C103_search_relng",
    "C103_search_ivf",
    "C103_search_lsh",
    "C103_ivf_nearest",
    "C103_lsh_nearest",
    "C103_relng_itself",
    "C103_hnsw_first",
    "C103_vamana_filtered",
    "C103_benchmark_build_refuted",
    "C103_benchmark_search_refuted",
    "C103_wrong_counts",
    "C103_unknown_metric",
    "C103_bytes_mips",
    "C103_infinite_alpha",
    "C103_missing_word_vamana_refuted",
    "C103_missing_word_ivf_refuted",
    "C103_missing_word_lsh_refuted",
    "C103_missing_word_search_lsh_refuted",
    "C103_surplus_word_refuted",
    "C103_not_a_number_refuted",
    "C103_unknown_type_build_refuted",
    "C103_unknown_type_search_refuted",
    "C103_unknown_metric_search_refuted",
    "C103_fast_l2_refuted",
    "C103_negative_size_refuted"
   ],
   "note": "Each main is modelled from argv on; the theorems equate it with the tool of C82 to C85, C88 and C101 on the values the words stand for. The forms refuted are for command lines that do not follow the usage message."
  },
  {
   "property": "C104",
   "status": "proved",
   "theorems": [
    "C104_alpha_as_written",
    "C104_seven_digits_refuted"
   ],
   "note": "Accuracy of atof for the word at hand is a hypothesis (within 2^-53 of the number, relatively). The range is that of normal floats."
  },
  {
   "property": "C105",
   "status": "proved",
   "theorems": [
    "C105_recall_vamana",
    "C105_recall_hnsw",
    "C105_recall_relng",
    "C105_recall_ivf",
    "C105_recall_lsh",
    "C105_ivf_prints_100",
    "C105_truth_mismatch_refuted"
   ],
   "note": "The size of the query file is below 2^32 queries and 2^60 results. The refuted form shows the out-of-range reads for truth files that do not fit."
  },
  {
   "property": "C106",
   "status": "proved",
   "theorems": [
    "C106_uniform",
    "C106_dart",
    "C106_slice_sample",
    "C106_slice_all",
    "C106_slice_none",
    "C106_slice_more",
    "C106_training_all",
    "C106_level_sorted",
    "C106_level_all",
    "C106_level_none",
    "C106_kmeans_pp_ends",
    "C106_unknown_type_refuted"
   ],
   "note": "The generator's words are inputs; what libstdc++ makes of them is modelled operation by operation. Sums in the order of the source."
  },
  {
   "property": "C107",
   "status": "proved",
   "theorems": [
    "C107_calculate_recall",
    "C107_compute_groundtruth",
    "C107_vecs",
    "C107_convert",
    "C107_float_bin_to_int8",
    "C107_bin_to_tsv",
    "C107_tsv_to_bin",
    "C107_generate_pq",
    "C107_partition_data",
    "C107_partition_budget",
    "C107_vector_analysis",
    "C107_vector_analysis_norms",
    "C107_wrong_counts",
    "C107_generate_pq_count_refuted",
    "C107_unknown_type_refuted",
    "C107_metric_word_refuted",
    "C107_missing_name_refuted"
   ],
   "note": "The functions behind the command lines are those of C63, C66, C86, C87, C90, C94, C97, C100 and C106. Equal input and output names of the streaming converters count as undefined."
  },
  {
   "property": "C108",
   "status": "proved",
   "theorems": [
    "C108_int8_as_floats",
    "C108_uint8_as_floats",
    "C108_text_bytes",
    "C108_text_floats",
    "C108_truth_itself",
    "C108_script_100",
    "C108_vamana_keeps",
    "C108_hnsw_keeps",
    "C108_relng_keeps",
    "C108_ivf_keeps",
    "C108_lsh_keeps",
    "C108_searches_keep",
    "C108_hnsw_temp_refuted"
   ],
   "note": "Composition of the tools' theorems over one file system; one process at a time."
  },
  {
   "property": "C109",
   "status": "proved",
   "theorems": [
    "C109_filtered_floats",
    "C109_count",
    "C109_unknown_type",
    "C109_bytes_refuted",
    "C109_no_match_refuted",
    "C109_negative_refuted"
   ],
   "note": "Output names equal to one of the input names with the suffix of an intermediate file count as undefined. At most 2^20 dimensions and squared lengths up to 2^100."
  },
  {
   "property": "C110",
   "status": "proved",
   "theorems": [
    "C110_cube",
    "C110_gaussian",
    "C110_polar",
    "C110_print",
    "C110_cube_chain",
    "C110_gaussian_chain",
    "C110_build_count",
    "C110_load_count",
    "C110_unknown_word_refuted",
    "C110_rows_differ_refuted",
    "C110_in_bounds_refuted",
    "C110_gaussian_threads_refuted",
    "C110_product_refuted"
   ],
   "note": "The renewal of the generator's 624 words is one step of a thread. For gaussian numbers a race counts as undefined."
  },
  {
   "property": "C111",
   "status": "proved",
   "theorems": [
    "C111_residuals",
    "C111_back",
    "C111_residuals_range",
    "C111_back_refuted",
    "C111_rotation",
    "C111_rotation_integers",
    "C111_budget",
    "C111_budget_monotone_refuted"
   ],
   "note": "atof is any function from strings to doubles; the products of indices are taken not to overflow."
  },
  {
   "property": "C112",
   "status": "proved",
   "theorems": [
    "C112_plain_file",
    "C112_plain_empty",
    "C112_hnsw_file",
    "C112_hnsw_empty",
    "C112_hnsw_load_refuted",
    "C112_ivf",
    "C112_ivf_search_refuted",
    "C112_build_tool",
    "C112_search_tool",
    "C112_ivf_two_builds_refuted",
    "C112_hnsw_two_builds_refuted",
    "C112_copy_refuted",
    "C112_ivf_copy_refuted",
    "C112_use_built",
    "C112_use_loaded",
    "C112_use_empty_refuted",
    "C112_use_unbuilt_refuted",
    "C112_use_stopped_refuted"
   ],
   "note": "Only the raw pointers of the classes; outcomes of the files are inputs; bad_alloc and the temporaries inside a build are left out."
  },
  {
   "property": "C113",
   "status": "proved",
   "theorems": [
    "C113_engine",
    "C113_seeds",
    "C113_planes",
    "C113_polar",
    "C113_build",
    "C113_too_large",
    "C113_round_trip",
    "C113_again_refuted",
    "C113_zero_refuted"
   ],
   "note": "libstdc++: minstd_rand0, generate_canonical and the polar method of normal_distribution. The logarithm is any function within the stated bounds."
  },
  {
   "property": "C114",
   "status": "proved",
   "theorems": [
    "C114_iteration",
    "C114_run",
    "C114_residual",
    "C114_distances",
    "C114_norms",
    "C114_never_more_refuted"
   ],
   "note": "Norms from BLAS within (dim + 4) 2^-23 as in C99. The residual theorem asks that the returned residual be finite."
  },
  {
   "property": "C115",
   "status": "proved",
   "theorems": [
    "C115_vamana_wide",
    "C115_vamana_reach",
    "C115_vamana_exact",
    "C115_filtered_exact",
    "C115_own_labels",
    "C115_one_label",
    "C115_rng_exact",
    "C115_rng_strongly_connected",
    "C115_vamana_misses_refuted",
    "C115_universal_refuted"
   ],
   "note": "Distances of the filtered and the RelativeNG theorems are symmetric, non-negative and zero from a point to itself."
  },
  {
   "property": "C116",
   "status": "proved",
   "theorems": [
    "C116_l2_same",
    "C116_ip_same",
    "C116_l2_error",
    "C116_l2_error_sharp",
    "C116_ip_error",
    "C116_order",
    "C116_l2_not_negative",
    "C116_l2_self",
    "C116_processors",
    "C116_same_refuted"
   ],
   "note": "C116_same_refuted shows that the bound on the coordinates of C116_l2_same cannot be dropped."
  },
  {
   "property": "C117",
   "status": "proved",
   "theorems": [
    "C117_builds_apart",
    "C117_one_with_levels",
    "C117_vectors_refuted",
    "C117_end_refuted"
   ],
   "note": "C117_vectors_refuted and C117_end_refuted show what happens when the windows overlap, and that the condition cannot be dropped."
  },
  {
   "property": "C118",
   "status": "proved",
   "theorems": [
    "C118_build",
    "C118_build_all",
    "C118_search",
    "C118_empty_sample",
    "C118_rate_refuted",
    "C118_no_centers_refuted",
    "C118_repeated_refuted"
   ],
   "note": "C118_rate_refuted, C118_no_centers_refuted and C118_repeated_refuted show that the conditions cannot be dropped."
  },
  {
   "property": "C119",
   "status": "proved",
   "theorems": [
    "C119_hnsw_wide",
    "C119_connected",
    "C119_exact",
    "C119_hnsw_misses_refuted"
   ],
   "note": "C119_hnsw_misses_refuted shows that the parameters cannot be dropped."
  },
  {
   "property": "C120",
   "status": "proved",
   "theorems": [
    "C120_walk",
    "C120_longer_list",
    "C120_longer_list_rng",
    "C120_more_answers",
    "C120_recall",
    "C120_more_probes",
    "C120_ties_refuted",
    "C120_ties_built_refuted",
    "C120_entries_refuted",
    "C120_hnsw_refuted"
   ],
   "note": "The refuted theorems show that the hypotheses cannot be dropped and that HNSW has no such property."
  },
  {
   "property": "C121",
   "status": "proved",
   "theorems": [
    "C121_order_vamana",
    "C121_order_rng",
    "C121_order_hnsw",
    "C121_order_ivf",
    "C121_order_lsh",
    "C121_l2_unit",
    "C121_build_vamana",
    "C121_build_rng",
    "C121_build_hnsw",
    "C121_vectors",
    "C121_factor_three_refuted",
    "C121_too_small_refuted"
   ],
   "note": "The centre of the data is given to the builds as the distances of the points to it; these must be scaled too. The refuted theorems show which factors change answers."
  },
  {
   "property": "C122",
   "status": "proved",
   "theorems": [
    "C122_vamana",
    "C122_rng",
    "C122_hnsw",
    "C122_ivf",
    "C122_lsh",
    "C122_bounds_vamana",
    "C122_bounds_hnsw",
    "C122_full_list",
    "C122_longer_list",
    "C122_entry_refuted",
    "C122_centers_refuted"
   ],
   "note": "The counters are natural numbers in the model; the fields are doubles, exact below 2^53. The two refuted theorems show which distances are not counted."
  },
  {
   "property": "C123",
   "status": "proved",
   "theorems": [
    "C123_vamana_plain",
    "C123_vamana",
    "C123_rng",
    "C123_hnsw",
    "C123_rng_refuted",
    "C123_vamana_refuted",
    "C123_metric",
    "C123_vamana_l2",
    "C123_ints",
    "C123_prune",
    "C123_prune_filtered"
   ],
   "note": "The guarantee is conditional on the shortcuts, which a full prune provides; the two refuted theorems show that the builders do not. Uses the real numbers of the standard library."
  },
  {
   "property": "C124",
   "status": "proved",
   "theorems": [
    "C124_vamana",
    "C124_rng",
    "C124_hnsw",
    "C124_rng_build",
    "C124_exact",
    "C124_ivf",
    "C124_lsh",
    "C124_vamana_build_refuted",
    "C124_ties_refuted"
   ],
   "note": "The dependence of the Vamana build and of ties on the order is proved with concrete data (C124_vamana_build_refuted, C124_ties_refuted)."
  },
  {
   "property": "C125",
   "status": "proved",
   "theorems": [
    "C125_vamana",
    "C125_rng",
    "C125_hnsw",
    "C125_ivf",
    "C125_schedule",
    "C125_longer",
    "C125_full",
    "C125_bounds",
    "C125_thousand",
    "C125_hnsw_longer_refuted"
   ],
   "note": "That the columns of search_hnsw may fall with a longer list is proved with a concrete object (C125_hnsw_longer_refuted). The time columns are not modelled; the recall column is C105. search_lsh is left out: its searches change the index."
  },
  {
   "property": "C126",
   "status": "proved",
   "theorems": [
    "C126_degree",
    "C126_degree_topk",
    "C126_scan",
    "C126_farther",
    "C126_rejected",
    "C126_again",
    "C126_large_alpha",
    "C126_alpha_refuted"
   ],
   "note": "That a larger alpha may lose links is proved with five concrete points (C126_alpha_refuted). That the scan limit matters when rejected candidates are left out: C126_rejected_scan_case. Nothing is claimed about whole builds with other limits, whose candidate lists differ."
  },
  {
   "property": "C127",
   "status": "proved",
   "theorems": [
    "C127_ivf",
    "C127_lsh",
    "C127_vamana",
    "C127_repeat_vamana",
    "C127_repeat_ivf",
    "C127_repeat_lsh",
    "C127_narrow_refuted",
    "C127_dropped_refuted",
    "C127_unsorted_refuted"
   ],
   "note": "The exceptions are proved with concrete indices (C127_narrow_refuted, C127_dropped_refuted, C127_unsorted_refuted). RelativeNG and HNSW ignore filters (C70, C73)."
  },
  {
   "property": "C128",
   "status": "proved",
   "theorems": [
    "C128_ivf",
    "C128_lsh",
    "C128_ties_refuted",
    "C128_tables",
    "C128_tables_recall",
    "C128_planes",
    "C128_planes_refuted",
    "C128_knn",
    "C128_truth"
   ],
   "note": "For graph indices see C120. The tie and the loss of a near point are shown with concrete indices (C128_ties_refuted, C128_planes_refuted). That the first tables are the same is a hypothesis: build draws them from the random device of the run."
  },
  {
   "property": "C129",
   "status": "proved",
   "theorems": [
    "C129_one_copy",
    "C129_own_copies",
    "C129_rng",
    "C129_island_refuted",
    "C129_ivf",
    "C129_lsh"
   ],
   "note": "Division by zero and of zero by zero is IEEE's, as in the rest of the model (the occlusion factor is x / 0 = infinity for copies of another vector, 0 / 0 = NaN, which occludes nothing, for copies of the point itself); -Ofast does not promise this. The island is proved on a concrete build (C129_island_refuted)."
  },
  {
   "property": "C130",
   "status": "proved",
   "theorems": [
    "C130_file",
    "C130_codes",
    "C130_exact",
    "C130_more_pivots",
    "C130_exact_refuted"
   ],
   "note": "The errors are a hypothesis of the theorems (pieces_within); C99_centre_table proves such a bound for the distances of the matrix products. The witness of C130_exact_refuted uses those products with one order of summation."
  },
  {
   "property": "C131",
   "status": "proved",
   "theorems": [
    "C131_ivf",
    "C131_lsh",
    "C131_search",
    "C131_build",
    "C131_same_start_refuted"
   ],
   "note": "Equality is of runs that return: C131_search and C131_build say that the run without labels returns what the labelled one returns. Label lists and filter lists are sorted, as std::set_intersection requires (C11)."
  },
  {
   "property": "C132",
   "status": "proved",
   "theorems": [
    "C132_vamana",
    "C132_rng",
    "C132_hnsw",
    "C132_ivf"
   ],
   "note": "Hypotheses are those of the round trips C74 and C44, including that no stale entry-point file lies under the name of a Vamana index without entry points."
  },
  {
   "property": "C133",
   "status": "proved",
   "theorems": [
    "C133_search",
    "C133_ivf",
    "C133_lsh"
   ],
   "note": "Filter and label lists are sorted (C11); the entry points of the labels in the filter match (C26); distances of matching points are not NaN. Sameness of runs, so also of undefined behaviour."
  },
  {
   "property": "C134",
   "status": "proved",
   "theorems": [
    "C134_seen",
    "C134_search",
    "C134_rng",
    "C134_ivf",
    "C134_lsh"
   ],
   "note": "C134_seen needs nothing but a run that returns. C134_search and C134_rng: distances are not NaN, the index is as a build leaves it (C68); the changed graph is arbitrary elsewhere. The label test reads the labels of all neighbours of expanded points, so labels are kept equal here; C133 changes them."
  }
 ]
}