{
 "claims": [
  {
   "property": "C01",
   "status": "proved",
   "theorems": [
    "C01_lossless_self_delimiting"
   ],
   "note": "Whole encoder/decoder life, any event list, any trailing bytes."
  },
  {
   "property": "C02",
   "status": "proved",
   "theorems": [
    "C02_encoder_never_fails",
    "C02_room_for_next_event"
   ],
   "note": "Bound 2^28 events because the 0xff run counter is an i32."
  },
  {
   "property": "C03",
   "status": "proved",
   "theorems": [
    "C03_decoder_total"
   ],
   "note": "Any byte list and any valid requests: Ok or end of input."
  },
  {
   "property": "C04",
   "status": "proved",
   "theorems": [
    "C04_adaptive_round_trip",
    "C04_adaptive_total"
   ],
   "note": "Arbitrary state type and functions; the model may also ask for rare events."
  },
  {
   "property": "C05",
   "status": "proved",
   "theorems": [
    "C05_stream_size",
    "C05_stream_growth",
    "C05_empty_stream",
    "C05_exact_length"
   ],
   "note": "Exact length from the ranges; two-sided product bound tied to the probabilities of the coded outcomes."
  },
  {
   "property": "C06",
   "status": "proved",
   "theorems": [
    "C06_codable",
    "C06_conversion",
    "C06_cost_positive",
    "C06_cost_monotone"
   ],
   "note": "Every raw value, every conversion from a 31-bit probability, both bits; the log table is computed and swept."
  },
  {
   "property": "C07",
   "status": "proved",
   "theorems": [
    "C07_scaled_down_rounds",
    "C07_scaled_down_near_the_end",
    "C07_largest_signed_shift",
    "C07_always_nearest_refuted"
   ],
   "note": "Symbolic in raw value and shift, for the six raw types. The unconditional nearest-rounding reading is refuted by C07_always_nearest_refuted."
  },
  {
   "property": "C08",
   "status": "proved",
   "theorems": [
    "C08_div_rounds",
    "C08_min_divided_by_one_refuted"
   ],
   "note": "Any dividend and positive divisor of the six raw types; MIN / 1 <> MIN is shown by C08_min_divided_by_one_refuted."
  },
  {
   "property": "C09",
   "status": "proved",
   "theorems": [
    "C09_convert_up",
    "C09_convert_down",
    "C09_product",
    "C09_sum",
    "C09_difference"
   ],
   "note": "Generic in the formats (any fractional bit counts); the clamping constructors of StretchedProbQ and MixerWeight do not take part."
  },
  {
   "property": "C10",
   "status": "proved",
   "theorems": [
    "C10_flip_unsigned",
    "C10_flip_signed_refuted"
   ],
   "note": "The signed types failing on every fraction is a finding."
  },
  {
   "property": "C11",
   "status": "proved",
   "theorems": [
    "C11_accurate",
    "C11_monotone",
    "C11_bitwise_logarithm"
   ],
   "note": "For every u32/u64 format and positive raw value; error strictly between -2 and 0.51 units; uses stdlib Reals."
  },
  {
   "property": "C12",
   "status": "proved",
   "theorems": [
    "C12_every_use",
    "C12_bijection",
    "C12_last_dimension_fastest"
   ],
   "note": "Any number of dimensions (the six array lengths are instances), any call sequence; sizes of at least one and product within usize."
  },
  {
   "property": "C13",
   "status": "proved",
   "theorems": [
    "C13_cache_mirrors_input"
   ],
   "note": ""
  },
  {
   "property": "C14",
   "status": "proved",
   "theorems": [
    "C14_hash01_collision_free",
    "C14_longer_hashes"
   ],
   "note": ""
  },
  {
   "property": "C15",
   "status": "proved",
   "theorems": [
    "C15_standard_fnv1a",
    "C15_states_never_merge",
    "C15_one_byte_changes_hash"
   ],
   "note": ""
  },
  {
   "property": "C16",
   "status": "proved",
   "theorems": [
    "C16_level",
    "C16_monotone_no_gaps",
    "C16_every_level_is_used",
    "C16_advertised_maximum"
   ],
   "note": "Finite sweep over all 65536 inputs lifted to the universal statement."
  },
  {
   "property": "C17",
   "status": "proved",
   "theorems": [
    "C17_stays_strictly_inside",
    "C17_moves_towards_bit",
    "C17_tracks_frequency",
    "C17_constant_half_refuted",
    "C17_addend_one_refuted",
    "C17_handmade_refuted"
   ],
   "note": "Refuted for rate tables with a rate of one half after the first update (make(0,2)), addend 1 and 0, and for hand-made states."
  },
  {
   "property": "C18",
   "status": "proved",
   "theorems": [
    "C18_decelerating_symmetric",
    "C18_fixed_speed_symmetric"
   ],
   "note": ""
  },
  {
   "property": "C19",
   "status": "proved",
   "theorems": [
    "C19_fixed_speed_total",
    "C19_fixed_speed_moves"
   ],
   "note": ""
  },
  {
   "property": "C20",
   "status": "proved",
   "theorems": [
    "C20_reported_cost_accepted",
    "C20_ordered",
    "C20_bounded_average",
    "C20_one_bit_costs"
   ],
   "note": "All trackers, costs and sequences; plus a bound on the average while costs stay below two bits."
  },
  {
   "property": "C21",
   "status": "proved",
   "theorems": [
    "C21_estimator_cache_equals_replay",
    "C21_cost_cache_equals_replay"
   ],
   "note": "Estimator and cost halves, every run length up to 1000, both bits, every sane rate table."
  },
  {
   "property": "C22",
   "status": "proved",
   "theorems": [
    "C22_recent_bits_mirror_history",
    "C22_shortcuts_equal_replay"
   ],
   "note": ""
  },
  {
   "property": "C23",
   "status": "proved",
   "theorems": [
    "C23_runs_mirror_history",
    "C23_shortcuts_equal_replay"
   ],
   "note": "for_bit_run(One, 0) is not the empty tracker but updates to the same states; run lengths from 1."
  },
  {
   "property": "C24",
   "status": "proved",
   "theorems": [
    "C24_tables_built",
    "C24_state_of_history",
    "C24_whole_history",
    "C24_long_run_refuted",
    "C24_accessors",
    "C24_trackers",
    "C24_edge_estimator_refuted"
   ],
   "note": "All histories, with the tables the program builds. Replay of the whole list is refuted beyond 1001 bits; the estimator of deterministic states ignores the repeated bit (refutation)."
  },
  {
   "property": "C25",
   "status": "proved",
   "theorems": [
    "C25_window_is_queue",
    "C25_limits_enforced",
    "C25_arithmetic_agrees",
    "C25_suffixes_visited",
    "C25_full_shift_refuted",
    "C25_large_shift"
   ],
   "note": "Every size below 2^63, every shift below the size, every sequence of operations. The shift equal to the size and the suffixes of some empty windows are refuted or excluded in the statements."
  },
  {
   "property": "C26",
   "status": "proved",
   "theorems": [
    "C26_compare_is_prefix"
   ],
   "note": "Stated on the bit strings of the queue; both the straight and the wrapped path."
  },
  {
   "property": "C27",
   "status": "proved",
   "theorems": [
    "C27_exhaustive_source_is_true",
    "C27_exhaustive_source_replays"
   ],
   "note": "for every input that fits the window, every bit position, every maximum order; the report is described on the text alone (earlier, followers, distance) and also given exactly as a replay"
  },
  {
   "property": "C28",
   "status": "proved",
   "theorems": [
    "C28_hash_map_source_agrees",
    "C28_hash_map_source_is_true",
    "C28_hash_map_source_replays",
    "C28_hash_function_is_irrelevant",
    "C28_trackers_can_be_supplied"
   ],
   "note": "for every hash function, input and list of trackers of the length the code asserts (one per branching state, which is what the source itself reports)"
  },
  {
   "property": "C29",
   "status": "proved",
   "theorems": [
    "C29_tree_agrees",
    "C29_tree_is_true",
    "C29_tree_replays",
    "C29_tree_is_hash_map"
   ],
   "note": "tree_states (model of TreeHistorySource) equals the spec report with trackers, hence the exhaustive and hash-map sources; windows up to 2^31, orders with 8*max_order+7 < 2^16 (the depth field is u16), input fits the window, any initial shift, right number of trackers supplied"
  },
  {
   "property": "C30",
   "status": "proved",
   "theorems": [
    "C30_sliding_tree_is_sound",
    "C30_trackers_can_be_supplied"
   ],
   "note": "any input, window up to 2^31, orders with 8*max_order+7 < 2^16, as many trackers supplied as branching contexts (which is how many branching states are reported); statistics after sliding keep counting occurrences that left the window: the state stands for at most as many older bits as bytes left, followed by those of the window (the bound is reached, see the example)"
  },
  {
   "property": "C31",
   "status": "proved",
   "theorems": [
    "C31_reads_last_stored",
    "C31_stores_succeed",
    "C31_added_is_fresh",
    "C31_add_succeeds_until_full",
    "C31_count_is_exact"
   ],
   "note": "every sequence of stores, additions and deletions of live nodes, by the invariant of the free list threaded through deleted nodes; capacity taken as exactly the requested one, up to 2^31"
  },
  {
   "property": "C32",
   "status": "proved",
   "theorems": [
    "C32_window_reference",
    "C32_node_reference",
    "C32_references_apart"
   ],
   "note": ""
  },
  {
   "property": "C33",
   "status": "proved",
   "theorems": [
    "C33_odd_bounded",
    "C33_monotone_to_one_unit",
    "C33_monotone_refuted"
   ],
   "note": "Table construction succeeds and stretch is characterised for all 2^31-1 inputs; exact monotonicity refuted with a witness pair."
  },
  {
   "property": "C34",
   "status": "proved",
   "theorems": [
    "C34_mirror_symmetric",
    "C34_monotone_to_one_unit",
    "C34_monotone_refuted"
   ],
   "note": "All stretched values in [-12,12]; exact monotonicity refuted with a witness pair."
  },
  {
   "property": "C35",
   "status": "proved",
   "theorems": [
    "C35_round_trip",
    "C35_everywhere_refuted"
   ],
   "note": "All inputs; the tested bound holds on [2^-17,1-2^-17], and is refuted at the smallest probability."
  },
  {
   "property": "C36",
   "status": "proved",
   "theorems": [
    "C36_table_built",
    "C36_brackets",
    "C36_three_bits_refuted"
   ],
   "note": "Table for precisions 0..7; brackets and weights for the shipped precisions 0..2 in every reachable state. The claim for 3 bits is refuted with a witness."
  },
  {
   "property": "C37",
   "status": "proved",
   "theorems": [
    "C37_tables_built",
    "C37_constructed",
    "C37_empty_mixer_refuted",
    "C37_never_panics",
    "C37_mixing_is_dot_product",
    "C37_update_moves_weights"
   ],
   "note": "All five fixed sizes and the sized mixer, every mode, every sequence of calls in protocol order. Adds that mixing squashes the clamped dot product and that updates move each weight by the promised amount in the right direction. The sized mixer with no inputs panics in two modes, shown by the refuted theorem."
  },
  {
   "property": "C38",
   "status": "proved",
   "theorems": [
    "C38_protocol",
    "C38_inputs_readable"
   ],
   "note": "Exact: a call sequence succeeds if and only if it follows the protocol; inputs read back as set."
  },
  {
   "property": "C39",
   "status": "proved",
   "theorems": [
    "C39_rested_when_new",
    "C39_rested_when_updated",
    "C39_opposite_bits",
    "C39_opposite_inputs_and_bits"
   ],
   "note": "For any two mixers without set inputs (new or just updated) with opposite, respectively equal, weights."
  },
  {
   "property": "C40",
   "status": "proved",
   "theorems": [
    "C40_total",
    "C40_refined_between",
    "C40_updates_local",
    "C40_alternates",
    "C40_rate_one_refuted"
   ],
   "note": "Every history, every context count, rates 2..29; the claim for rate 1 is refuted with a witness."
  },
  {
   "property": "C41",
   "status": "proved",
   "theorems": [
    "C41_every_bit_predicted",
    "C41_every_call_in_range",
    "C41_program"
   ],
   "note": "For every mode, window up to 2^31 bytes, order with 8*order+7 < 2^16 and file of fewer than 2^44 bytes, and for the program's own parameters."
  },
  {
   "property": "C42",
   "status": "proved",
   "theorems": [
    "C42_predictor_alternates",
    "C42_estimator_kit",
    "C42_estimator_kit_first",
    "C42_mixer_kit",
    "C42_mixer_kit_first",
    "C42_map",
    "C42_map_first",
    "C42_chain_predict",
    "C42_chain_update",
    "C42_finalizer_predict",
    "C42_finalizer_update",
    "C42_chain_refuted"
   ],
   "note": "Whole predictor: exact characterisation of accepted call sequences. Parts: for arbitrary states. Refuted for a chain without contexts."
  },
  {
   "property": "C43",
   "status": "proved",
   "theorems": [
    "C43_tree_sorted",
    "C43_exhaustive_sorted",
    "C43_hash_map_sorted"
   ],
   "note": "For all three sources; the tree also when its window slides."
  },
  {
   "property": "C44",
   "status": "proved",
   "theorems": [
    "C44_by_number",
    "C44_by_key",
    "C44_recurrence_exists",
    "C44_empty_key_fails",
    "C44_ranges"
   ],
   "note": "Scalar and vector seeding and every number of outputs refine the MT19937-64 recurrence; empty key panics; next_int64/next_int63 never fail and stay in range. The three f64 functions next_real* are not modelled."
  },
  {
   "property": "C45",
   "status": "proved",
   "theorems": [
    "C45_statistics_accounted",
    "C45_statistics_add_up",
    "C45_file_statistics",
    "C45_every_bit_refuted"
   ],
   "note": "All fields of the statistics after any accepted calls; the original claim that every bit counts is refuted (bits without context, last byte)."
  },
  {
   "property": "C46",
   "status": "proved",
   "theorems": [
    "C46_file_round_trip",
    "C46_files_never_collide",
    "C46_file_size"
   ],
   "note": "The composition (FileSpec.v) is ours, its parts are the models of the repository's code; files of fewer than 2^25 bytes, because the encoder counts a run of 255s in an i32."
  },
  {
   "property": "C47",
   "status": "proved",
   "theorems": [
    "C47_any_stream",
    "C47_rest_untouched"
   ],
   "note": "Same composition; fewer than 2^44 bytes asked for."
  },
  {
   "property": "C48",
   "status": "proved",
   "theorems": [
    "C48_estimators_apart",
    "C48_mixers_apart",
    "C48_mixers_served"
   ],
   "note": "kits of estimators and of mixers, any sizes and lessons; fair lessons are never refused"
  },
  {
   "property": "C49",
   "status": "proved",
   "theorems": [
    "C49_orders_learn_apart"
   ],
   "note": "any rounds; with C48 the kits are in turn families of single estimators and mixers"
  },
  {
   "property": "C50",
   "status": "proved",
   "theorems": [
    "C50_parts_are_told_the_text",
    "C50_file"
   ],
   "note": "light finalizer (the mode of the program); any calls and any file"
  },
  {
   "property": "C51",
   "status": "proved",
   "theorems": [
    "C51_table_entries",
    "C51_stretch",
    "C51_stretch_outside",
    "C51_stretch_everywhere_refuted",
    "C51_squash"
   ],
   "note": "Error bounds against the real functions, for all arguments; stretch below 2^-17 is shown not to follow the logarithm (refuted)."
  },
  {
   "property": "C52",
   "status": "proved",
   "theorems": [
    "C52_bit_cost",
    "C52_total_cost",
    "C52_stream_length",
    "C52_estimate_near_stream"
   ],
   "note": "Per bit, for the statistics, and for the stream of a file."
  },
  {
   "property": "C53",
   "status": "proved",
   "theorems": [
    "C53_context_types",
    "C53_symbols",
    "C53_all_symbols_refuted"
   ],
   "note": "the table by type of context panics below order 4 (finding); symbols from 128 on are not printed (refuted)"
  },
  {
   "property": "C54",
   "status": "proved",
   "theorems": [
    "C54_reports_exact",
    "C54_predictor"
   ],
   "note": "for the tree alone and for the whole predictor"
  },
  {
   "property": "C55",
   "status": "proved",
   "theorems": [
    "C55_brute_force_listing",
    "C55_fat_map_listing",
    "C55_tree_listing",
    "C55_empty_file_refuted"
   ],
   "note": "All three sources, for any hash function; the empty file is a refutation of the claim without its hypothesis (the program panics). Hexadecimal formatting is not modelled."
  },
  {
   "property": "C56",
   "status": "proved",
   "theorems": [
    "C56_simulation_total",
    "C56_runs_are_independent",
    "C56_run_length_zero"
   ],
   "note": "Any sequence of bits in place of those of the f64 accumulator; printing is not modelled."
  },
  {
   "property": "C57",
   "status": "proved",
   "theorems": [
    "C57_estimator_against_fixed",
    "C57_simulation_against_fixed"
   ],
   "note": "Upper bound against every fixed probability and lower bound against the frequencies, for 1 to 1002 bits; the simulation for the rates (1, 2)."
  },
  {
   "property": "C58",
   "status": "proved",
   "theorems": [
    "C58_check_passes",
    "C58_leaves_differ",
    "C58_suffixes_unchecked",
    "C58_root_marks_cursor",
    "C58_suffixes_checked_refuted"
   ],
   "note": "Check passes in every reached state; different leaves for any tree that passes; the loop over suffixes is idle in general and a wrong tree that passes is given (finding)."
  },
  {
   "property": "C59",
   "status": "proved",
   "theorems": [
    "C59_every_suffix_found"
   ],
   "note": "For every input and after every bit, in terms of the walk along the bits of the text; also for degenerate trees."
  },
  {
   "property": "C60",
   "status": "proved",
   "theorems": [
    "C60_mixer",
    "C60_mixer_exact_refuted",
    "C60_map"
   ],
   "note": "Mixer: stretched answer exactly, probability up to one unit, which is needed. Map: exactly. Estimators move towards the bit by C17 and C19."
  },
  {
   "property": "C61",
   "status": "proved",
   "theorems": [
    "C61_written_stays",
    "C61_prefix_decodes",
    "C61_file_prefix"
   ],
   "note": "Events and files; the number of bytes needed is the length of the stream of the prefix alone, and it is minimal."
  },
  {
   "property": "C62",
   "status": "proved",
   "theorems": [
    "C62_tree_protocol",
    "C62_exhaustive_protocol",
    "C62_hash_map_protocol",
    "C62_hash_map_begins",
    "C62_exhaustive_early_report_refuted",
    "C62_hash_map_no_begin_refuted"
   ],
   "note": "Exact for the tree and the exhaustive source, with its one exception; for the hash-map source acceptance, and exactly when a byte can be begun. Two refuted theorems and one exact one show what the exhaustive and the hash-map source accept too much."
  },
  {
   "property": "C63",
   "status": "proved",
   "theorems": [
    "C63_draw",
    "C63_draw_goes_on",
    "C63_check_sums",
    "C63_program"
   ],
   "note": "Model of the program with fuel for its recursion; C63_draw_goes_on says when the fuel is used up."
  },
  {
   "property": "C64",
   "status": "proved",
   "theorems": [
    "C64_one_node_per_branching_string"
   ],
   "note": ""
  },
  {
   "property": "C65",
   "status": "proved",
   "theorems": [
    "C65_listing_is_a_dictionary"
   ],
   "note": "The listing as the numbers on each line; blanks and digits are not modelled."
  },
  {
   "property": "C66",
   "status": "proved",
   "theorems": [
    "C66_same_probabilities",
    "C66_same_stream",
    "C66_windows_interchangeable",
    "C66_same_decoding"
   ],
   "note": "Relational: the same calls to two predictors with different windows; whole files and any streams follow."
  },
  {
   "property": "C67",
   "status": "proved",
   "theorems": [
    "C67_same_probabilities",
    "C67_same_stream",
    "C67_settings_interchangeable",
    "C67_same_decoding"
   ],
   "note": "Relational: the same calls to two predictors with different windows and orders; the bound on the length is sharp (example too_low)."
  },
  {
   "property": "C68",
   "status": "proved",
   "theorems": [
    "C68_same_reports",
    "C68_same_size"
   ],
   "note": "Both theorems hold for windows that have slid. Trackers come in the number the predictor supplies (supplied, as in C30)."
  },
  {
   "property": "C69",
   "status": "proved",
   "theorems": [
    "C69_tree_counts",
    "C69_hash_map_counts",
    "C69_every_wrong_number_refused_refuted"
   ],
   "note": "Exact: the numbers taken and the numbers refused, for the tree and the hash-map source; the exhaustive source does not look at the number. The claim that every wrong number is refused is refuted by a witness (finding)."
  },
  {
   "property": "C70",
   "status": "proved",
   "theorems": [
    "C70_second_deletion",
    "C70_root_deletion",
    "C70_missing_deletions"
   ],
   "note": "The slots handed out after the second deletion are given explicitly from the events; additions are the only operations considered after it."
  }
 ]
}