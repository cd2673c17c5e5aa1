# Formal model of tarsa/demixer in Rocq (Coq 8.16.1)

Source modelled: `/repo` (Rust), read as text only; nothing of it is built or run here.

## 1. Conventions of the model

* Every Rust integer is a `Z`. A checked operation (debug-build semantics: `+ - *` overflow, `as`-free
  narrowing, array index, `assert!`, `unwrap`, division by zero, over-long shifts) is a function into
  `res A := Ok a | Fail e` where `e : err` names the reason. `<<` of a value does not check lost bits
  in Rust; it is modelled by an explicit wrap. `wrapping_*` and `saturating_*` are explicit.
* `&mut self` methods become functions returning the new state.
* `Vec`/arrays are Coq lists (or finite maps where a comment says so); out-of-range access is `Fail`.
* `f64` appears in the Rust code only in assertions of table constructors, in printing and in the
  final report of `main`; it is not modelled (see 4).
* Model files contain no proofs about the properties; property files contain only theorems closed by
  `exact lemma.` with `Print Assumptions` beneath each, and non-vacuity `Example`s.

File layout (`rocq/theories`): `Base*.v` (panic monad, machine integers), `<Area>Model.v` (model),
`<Area>Spec.v` (independent specification where it is not inlined in the theorem), `<Area>Proofs.v`,
`Prop<Area>.v` (the property theorems).

## 2. Plan per property

| id | modelled | how proved |
|----|----------|------------|
| C01 | `coding/encoder.rs`, `coding/decoder.rs` with a byte list as writer/reader | interval invariant: value of emitted bytes + pending run + low; the code value of the final stream lies in every intermediate interval; induction over events |
| C02 | same, with all overflow checks | invariant `low + range <= 2^31 * 256^n`, carry-freedom of a carried byte |
| C03 | decoder | state invariant over arbitrary byte lists |
| C04 | same + abstract model | corollary of C01's step simulation, induction over bits |
| C05 | same | length formula (by the ranges alone) and product bound by induction |
| C06 | `coding/mod.rs`, log2 table | arithmetic + finite sweep of the 2048-entry table |
| C07 | `fixed_point/mod.rs` scaled_down | arithmetic for symbolic width and shift; refutation at the saturating end |
| C08 | `div` | arithmetic |
| C09 | conversions, mul, add, sub | arithmetic, generic in the formats |
| C10 | `fixed_point/types.rs` flip | arithmetic; refutation for signed types |
| C11 | `lut/log2.rs` | error bound of the squaring loop against the real logarithm (stdlib Reals) |
| C12 | `util/indexer.rs` | mixed radix, induction over dimensions |
| C13, C14 | `util/last_bytes.rs` | refinement to the list of bytes/bits |
| C15 | `util/hash.rs` | modular arithmetic, invertibility of the odd prime |
| C16 | `util/quantizers.rs` | finite sweep over the 65536 inputs, lifted |
| C17, C18, C19 | `estimators/*`, `lut/estimator.rs` | invariants by induction over bit history |
| C20 | `estimators/cost.rs` | arithmetic |
| C21 | `lut/estimator.rs`, `lut/cost.rs` | induction over run length |
| C22, C23 | `history/state/*` | refinement to bit lists |
| C24 | `history/mod.rs` | induction over occurrences |
| C25, C26 | `history/window.rs` | refinement to a list of bytes |
| C27 | `history/naive.rs` | loop invariant |
| C28 | `history/fat_map.rs` | invariant: per order, the bucket entries are exactly the distinct contexts seen; hash is a parameter |
| C29, C30 | `history/tree/*` | tree invariant (path compressed suffix trie of the window with implicit active suffixes) |
| C31, C32 | `history/tree/nodes.rs`, `node_child.rs` | refinement to a finite map + free list |
| C33..C36 | `lut/stretch.rs`, `lut/squash.rs`, `lut/apm.rs` | tables computed in Coq; finite sweeps over table cells + piecewise linear lemma for all inputs |
| C37..C39 | `mixing/mixer.rs` | invariants by induction |
| C40 | `mixing/apm.rs` | invariant by induction |
| C41 | `predictor/*` | invariant of the whole predictor over any calls, composed of the above |
| C42 | `predictor/*`, `mixing/apm.rs` | order of calls as an automaton; parts by inversion; refutation for a chain without contexts |
| C43 | `predictor/chain.rs`, `history/*` | a longer context branches only where the shorter does, for each source |
| C44 | `random/mod.rs` | refinement to the recurrence |
| C45 | `predictor/stats.rs` | ledger of all bits, kept by the invariant of C41; refutation where bits are skipped |
| C46, C47 | `predictor/mod.rs` with `coding/*` | the loops of `main` with the coder in them (this composition is not in the repository); C41 and C01..C03 composed |
| C48 | `predictor/kits.rs` | slot of a key stays what its own lessons made it; different valid keys have different indices (C12) |
| C49 | `predictor/chain.rs`, `predictor/single.rs` | each round decomposed by order; every order's kits are a fold over the rounds it heard |
| C50 | `predictor/mod.rs`, `predictor/post_process.rs` | induction over the bits along the invariant of C41; contexts of the maps read off the text |
| C51 | `lut/stretch.rs`, `lut/squash.rs` | reals: entries from the accuracy of the logarithm, lines between entries by convexity, entries of squash by a sweep with the error of stretch |
| C52 | `coding/mod.rs`, `predictor/stats.rs`, `coding/*` | reals: accuracy of the logarithm summed over the ledger of C45; logarithms of the products of C46 |
| C53 | `predictor/stats.rs` (tables of `print_state`) | sums over the ledger of C45 regrouped by kind and by symbol; refutation by files of large bytes |
| C54 | `predictor/mod.rs`, `history/tree/*` | C29 (tree is exact on the window) along the wiring of C50 |
| C55 | `bin/print_histories.rs`, the three sources | invariant of each source (C27, C28, C29) along the loop of the program, one bit at a time; the last bit of a full window from C30 |
| C56 | `bin/entropy_simulations.rs` (loop) | invariant: the estimator has seen the bits of the current run; accuracy of the logarithm summed over the runs |
| C57 | `estimators/decelerating.rs`, `bin/entropy_simulations.rs` | reals: potential of the ideal estimator (k + 1/2)/(i + 1), distance of the real one from it by C17, Stirling-like bounds by two inequalities for logarithms |
| C58 | `history/tree/mod.rs`, `history/tree/context.rs` (`check_integrity_on_next_byte`) | tree invariant of C30: no node is pushed twice, leaves of different edges differ, the last context at a node reaches as deep as the node; converse by the trace of the walk |
| C59 | `history/tree/*` | tree invariant of C30 along the way down |
| C60 | `mixing/mixer.rs`, `mixing/apm.rs` | every rounding and clamp is monotone, each weighted input moves towards the bit; the place a map looks up does not depend on its entries |
| C61 | `coding/encoder.rs`, `coding/decoder.rs`, the file compressor of C46 | the writer only grows; C01's interval invariant after a prefix; a decoder that leaves a part of its input unread does the same without that part |
| C62 | `start_new_byte`, `gather_history_states`, `process_input_bit` of the three sources | calls in any order against a two-state protocol; the invariants of C27 to C30 hold with an open byte and without one |
| C63 | `src/bin/bench_sigmoid.rs` without the clock | the recursive draw against the list of numbers of the generator; sums bounded step by step; the numbers of the shipped program by computation in the kernel |
| C64 | the tree source of C29 and C30 | the invariant of C30 as it is (nodes and strings, injective); a branching string is followed down from the root to its node; each live node has a parent |
| C65 | `Tree::print`, `print_node` (lines as numbers) | induction down the tree with the chain of nodes above (distinct, so the recursion ends); the invariant of C30 gives the strings, C64 the statistics |
| C66 | `Predictor` with two window sizes; with the coder as in C46 | relational induction over the calls: what the tree reports is a function of the text alone while all of it is in the window (C29), so both predictors see the same contexts; decoding in lockstep |
| C67 | `Predictor` with two window sizes and two orders; with the coder as in C46 | as C66; no context of an order as long as the text was met, so the reports agree; the chains agree on the orders both have, the statistics up to zeros |
| C68 | `TreeHistorySource::new_special` with two shifts, each function of the tree, the nodes and the window run in both | a relation between the two runs (places are turned by the distance of the shifts, all else is equal) that each function keeps; the start of a dead node is not related, so that the invariant of C30 supplies that the nodes read are alive |
| C69 | `process_input_bit` of the tree and of the hash-map source with any number of trackers, after any run with the right numbers | the number is compared in each pass of a loop: each pass is related to the pass with the right number, which C28 and C30 show to succeed; the active contexts are those met in the window, and the tree is degenerate exactly while the window repeats one byte. That every wrong number is refused is refuted |
| C70 | `delete_node` of a deleted slot, of the root and of a slot never used, then `add_node`, in any allocator that arises as in C31 | the list of deleted slots is a function of the events; the second deletion ties it into a list that ends at the slot itself, which the first addition fills; induction on the slots before it, the assertion on the left child catches the end |

## 3. Findings

Places where the code does not do what a reader of the API would expect. Each is a theorem about the model
with a concrete witness.

* `C07`: scaling down is not always to the nearest value. The rounding addend saturates at the ends of the type,
  so `u32::MAX`, `i32::MIN` and, for the largest shift, `i64::MAX` come out one too small in magnitude.
* `C08`: dividing the most negative number by one does not give it back, for the same reason.
* `C10`: `flip` of a signed fraction always panics, and `flip` of the unsigned value zero panics.
* `C17`: hand-picked rate tables break the estimator. With factor 0 and addend 2 the probability wraps to zero after
  22 equal bits. Addend 1 fails at the first update. A hand-made state with the largest prediction and count zero wraps.
  The tables the program builds itself are safe.
* `C33`, `C34`: neither stretch nor squash is monotone. Each interpolation term is rounded on its own, so the result can
  drop by one unit in the last place when the argument grows by one (stretch at 536870925, squash at -24000000).
* `C35`: the tested round-trip bound of 0.000001 does not hold below 2^-17. The smallest probability comes back 0.0000076
  larger.
* `C51`: below 2^-17 stretch is flat: at 2^-31 it is more than 9 above ln(p/(1-p)).
* `C36`: a probability map with 3 or more bits of precision can be built, but refining 874741763 with its own stretched
  value panics. That value is just above a stop and its stretched value is one unit below the stop. The code corrects only
  the opposite case. The shipped precisions 0, 1 and 2 are safe for every input.
* `C40`: the map accepts rate 1, and with it 68 equal bits lead to a panic in `refine`. Both entries reach the largest value
  below one, and two halves are rounded up. `update_predictions` also does not check that its context is the refined one.
* `C24`: when a deterministic context first branches after more than 1000 equal bits, its estimator is that of the last 1000
  of them only; without the cut the estimator would be different. The recent bits and the runs are not affected. The
  estimator a deterministic state offers (`probability_estimator`) always expects zeros, also after ones only. The program
  uses it to compare two deterministic states, where the repeated bits may differ and yet count as equal.
* `C37`: a mixer without inputs can be made only with zero weights. The other two modes panic although size 0 passes the
  size test. Equal weights do not sum to one exactly: three inputs get 699050/2^21 each, two units short.
* `C42`: the chain of predictors notices a repeated prediction or update only if some context was met. With no context, as
  throughout the first byte of every file, it accepts any order of calls; only the predictor above it still checks.
* `C45`: the statistics leave out bits for which no context was met. They add nothing to any cost, so a file of one byte has
  total cost 0. The last byte is never added to the counts and costs by symbol.
* `C53`: printing the table by context type panics for every maximum order below 4. The occurrences have 5 * (max_order + 1)
  entries, but the loop always reads 25. The table by symbol value shows only the codes 0 to 127.
* `C55`: `print_histories` panics on an empty file, because the window is made as long as the file.
* `C30`: after bytes left the window, the counts of the tree keep the occurrences that left with them: in the example
  `slid_older` of PropTree.v an edge of three occurrences in the window is reported with a count of six, the most that
  the theorem allows.
* `C58`: the integrity check of the tree does not check that the suffixes are in it. The root is marked with the cursor at the start
  of each byte, so the loop leaves at the root for every suffix. A tree that leads astray below passes.
* `C60`: telling a mixer that it was right can lower its answer. A mixer of one input with 24000001 (stretched) at update count 100
  mixes a larger probability of Zero before learning a Zero than after it, by one unit. This is the dip of squash (C34).
* `C25`: a window can be made with an initial shift equal to its size, but then adding the first byte panics.
  `for_each_suffix` panics on an empty window whose next byte goes to index 0, in particular on a new window without shift.
* `C62`: two of the history sources do not notice all calls in a wrong order. The exhaustive source answers a report that is asked after exactly one
  byte, before the next is begun, with an empty list (`C62_exhaustive_early_report_refuted`); with more bytes it panics. The hash-map source begins a byte twice
  (`C62_hash_map_begins`), which leaves a zero byte in its window, and takes bits after a complete byte without a new one: they are counted but
  overwrite the byte before (`C62_hash_map_no_begin_refuted`). The program calls neither, and always in the right order (C42).

## 4. Trusted base

* Coq 8.16.1 kernel (including `vm_compute`), the reading of the Rust source by the author of the model.
* `Print Assumptions` output is recorded per theorem in section 5.
* Theorems about the accuracy of logarithms, stretch, squash and costs speak about real numbers and use Coq's standard `Reals` library.
  They depend on its axioms: `ClassicalDedekindReals.sig_not_dec`, `ClassicalDedekindReals.sig_forall_dec`,
  `FunctionalExtensionality.functional_extensionality_dep`, `Classical_Prop.classic`. No other axiom is used.
* `std::collections::HashMap` is modelled as an association list that gives back what was put under a key; its hasher is an
  arbitrary function of the map and of what is written to it (a parameter of every theorem of C28). The size of the
  allocation of the maps is not modelled.
* `Vec::with_capacity(n)` is taken to give a capacity of exactly `n` (the documentation says at least `n`); the allocator of
  nodes, the window and the list of active contexts of the tree test against it. The memory needed is not modelled.
* The tree (C29, C30) is treated for windows of at most 2^31 bytes (child references are 31-bit) and orders with
  `8 * max_order + 7 < 2^16` (the depth of a node is a `u16`). The loop that walks down the tree has the number of nodes as
  fuel; that it never runs out is part of the proof.
* The predictor (C41, C42, C45) is treated for the same windows and orders as the tree and for at most 2^47 - 2 bits (the sums
  of costs are 64-bit). Theorems hold for each of the three modes of the finalizer (the constant `MODE` is an argument).
* The constructor by key (C44) is treated for keys of fewer than 2^63 words (a Rust slice cannot be longer). `next_real1..3` are `f64`.
* The constructor of the stretch table compares each entry with an `f64` logarithm (stretch.rs:74-81). The comparison is not in
  the model; C51_table_entries shows the difference to the real logarithm is below 0.0000004, the limit is 0.000001, so it passes
  unless `f64` rounding errs by more than 0.0000006.
* Printing (C53) is modelled up to the whole numbers read for each line; their division and formatting as `f64` are not. `Total` and
  `average context length` of `print_state` are quotients of numbers of C45.
* The listing of `print_histories` (C55) is modelled as the numbers printed per line; their hexadecimal digits and the character of
  the byte are not.
* `entropy_simulations` (C56, C57) is modelled for any sequence of bits; the `f64` accumulator that makes them, the ideal cost in
  `f64` (not a number when all bits are equal) and the printing are not.
* The listing of the tree (C65) is modelled as the numbers printed per line; the blanks and digits are not.
* The integrity check (C58) has two loops over a stack of nodes, which share one definition; the map from nodes to contexts is a search
  for the last context at the node. `estimate_compression` of main.rs sums `f64` costs; the sum is that of C52, its rounding is not modelled.
* Not modelled: `f64`, text output, `std::io` errors other than end of input, memory exhaustion, the clock and the printed times of `src/bin/bench_sigmoid.rs`.

## 5. `Print Assumptions` per theorem

"none" means "Closed under the global context".

* `C01_lossless_self_delimiting` (PropCoding.v): none
* `C02_encoder_never_fails` (PropCoding.v): none
* `C02_room_for_next_event` (PropCoding.v): none
* `C03_decoder_total` (PropCoding.v): none
* `C04_adaptive_round_trip` (PropCoding.v): none
* `C04_adaptive_total` (PropCoding.v): none
* `C05_stream_size` (PropCoding.v): none
* `C05_stream_growth` (PropCoding.v): none
* `C05_empty_stream` (PropCoding.v): none
* `C07_scaled_down_rounds` (PropFixed.v): none
* `C07_scaled_down_near_the_end` (PropFixed.v): none
* `C07_largest_signed_shift` (PropFixed.v): none
* `C07_always_nearest_refuted` (PropFixed.v): none
* `C08_div_rounds` (PropFixed.v): none
* `C08_min_divided_by_one_refuted` (PropFixed.v): none
* `C09_convert_up` (PropFixed.v): none
* `C09_convert_down` (PropFixed.v): none
* `C09_product` (PropFixed.v): none
* `C09_sum` (PropFixed.v): none
* `C09_difference` (PropFixed.v): none
* `C10_flip_unsigned` (PropFixed.v): none
* `C10_flip_signed_refuted` (PropFixed.v): none
* `C12_every_use` (PropUtil.v): none
* `C12_bijection` (PropUtil.v): none
* `C12_last_dimension_fastest` (PropUtil.v): none
* `C13_cache_mirrors_input` (PropUtil.v): none
* `C14_hash01_collision_free` (PropUtil.v): none
* `C14_longer_hashes` (PropUtil.v): none
* `C15_standard_fnv1a` (PropUtil.v): none
* `C15_states_never_merge` (PropUtil.v): none
* `C15_one_byte_changes_hash` (PropUtil.v): none
* `C16_level` (PropUtil.v): none
* `C16_monotone_no_gaps` (PropUtil.v): none
* `C16_every_level_is_used` (PropUtil.v): none
* `C16_advertised_maximum` (PropUtil.v): none
* `C22_recent_bits_mirror_history` (PropState.v): none
* `C22_shortcuts_equal_replay` (PropState.v): none
* `C23_runs_mirror_history` (PropState.v): none
* `C23_shortcuts_equal_replay` (PropState.v): none
* `C17_stays_strictly_inside` (PropEst.v): none
* `C17_moves_towards_bit` (PropEst.v): none
* `C17_tracks_frequency` (PropEst.v): none
* `C17_constant_half_refuted` (PropEst.v): none
* `C17_addend_one_refuted` (PropEst.v): none
* `C17_handmade_refuted` (PropEst.v): none
* `C18_decelerating_symmetric` (PropEst.v): none
* `C18_fixed_speed_symmetric` (PropEst.v): none
* `C19_fixed_speed_total` (PropEst.v): none
* `C19_fixed_speed_moves` (PropEst.v): none
* `C21_estimator_cache_equals_replay` (PropEst.v): none
* `C06_codable` (PropLog.v): none
* `C06_conversion` (PropLog.v): none
* `C06_cost_positive` (PropLog.v): none
* `C06_cost_monotone` (PropLog.v): none
* `C11_accurate` (PropLog.v): `ClassicalDedekindReals.sig_not_dec`, `ClassicalDedekindReals.sig_forall_dec`, `FunctionalExtensionality.functional_extensionality_dep`, `Classical_Prop.classic`
* `C11_monotone` (PropLog.v): none
* `C11_bitwise_logarithm` (PropLog.v): `ClassicalDedekindReals.sig_not_dec`, `ClassicalDedekindReals.sig_forall_dec`, `FunctionalExtensionality.functional_extensionality_dep`, `Classical_Prop.classic`
* `C20_reported_cost_accepted` (PropLog.v): none
* `C20_ordered` (PropLog.v): none
* `C20_bounded_average` (PropLog.v): none
* `C20_one_bit_costs` (PropLog.v): none
* `C21_cost_cache_equals_replay` (PropLog.v): none
* `C33_odd_bounded` (PropLut.v): none
* `C33_monotone_to_one_unit` (PropLut.v): none
* `C33_monotone_refuted` (PropLut.v): none
* `C34_mirror_symmetric` (PropLut.v): none
* `C34_monotone_to_one_unit` (PropLut.v): none
* `C34_monotone_refuted` (PropLut.v): none
* `C35_round_trip` (PropLut.v): none
* `C35_everywhere_refuted` (PropLut.v): none
* `C36_table_built` (PropApm.v): none
* `C36_brackets` (PropApm.v): none
* `C36_three_bits_refuted` (PropApm.v): none
* `C40_total` (PropApm.v): none
* `C40_refined_between` (PropApm.v): none
* `C40_updates_local` (PropApm.v): none
* `C40_alternates` (PropApm.v): none
* `C40_rate_one_refuted` (PropApm.v): none
* `C24_tables_built` (PropStates.v): none
* `C24_state_of_history` (PropStates.v): none
* `C24_whole_history` (PropStates.v): none
* `C24_long_run_refuted` (PropStates.v): none
* `C24_accessors` (PropStates.v): none
* `C24_trackers` (PropStates.v): none
* `C24_edge_estimator_refuted` (PropStates.v): none
* `C37_tables_built` (PropMixer.v): none
* `C37_constructed` (PropMixer.v): none
* `C37_empty_mixer_refuted` (PropMixer.v): none
* `C37_never_panics` (PropMixer.v): none
* `C37_mixing_is_dot_product` (PropMixer.v): none
* `C37_update_moves_weights` (PropMixer.v): none
* `C38_protocol` (PropMixer.v): none
* `C38_inputs_readable` (PropMixer.v): none
* `C39_rested_when_new` (PropMixer.v): none
* `C39_rested_when_updated` (PropMixer.v): none
* `C39_opposite_bits` (PropMixer.v): none
* `C39_opposite_inputs_and_bits` (PropMixer.v): none
* `C25_window_is_queue` (PropWindow.v): none
* `C25_limits_enforced` (PropWindow.v): none
* `C25_arithmetic_agrees` (PropWindow.v): none
* `C25_suffixes_visited` (PropWindow.v): none
* `C25_full_shift_refuted` (PropWindow.v): none
* `C25_large_shift` (PropWindow.v): none
* `C26_compare_is_prefix` (PropWindow.v): none
* `C27_exhaustive_source_is_true` (PropHistory.v): none
* `C27_exhaustive_source_replays` (PropHistory.v): none
* `C28_hash_map_source_agrees` (PropHistory.v): none
* `C28_hash_map_source_is_true` (PropHistory.v): none
* `C28_hash_map_source_replays` (PropHistory.v): none
* `C28_hash_function_is_irrelevant` (PropHistory.v): none
* `C28_trackers_can_be_supplied` (PropHistory.v): none
* `C31_reads_last_stored` (PropNodes.v): none
* `C31_stores_succeed` (PropNodes.v): none
* `C31_added_is_fresh` (PropNodes.v): none
* `C31_add_succeeds_until_full` (PropNodes.v): none
* `C31_count_is_exact` (PropNodes.v): none
* `C32_window_reference` (PropNodes.v): none
* `C32_node_reference` (PropNodes.v): none
* `C32_references_apart` (PropNodes.v): none
* `C29_tree_agrees` (PropTree.v): none
* `C29_tree_is_true` (PropTree.v): none
* `C29_tree_replays` (PropTree.v): none
* `C29_tree_is_hash_map` (PropTree.v): none
* `C30_sliding_tree_is_sound` (PropTree.v): none
* `C30_trackers_can_be_supplied` (PropTree.v): none
* `C44_by_number` (PropRandom.v): none
* `C44_by_key` (PropRandom.v): none
* `C44_recurrence_exists` (PropRandom.v): none
* `C44_empty_key_fails` (PropRandom.v): none
* `C44_ranges` (PropRandom.v): none
* `C41_every_bit_predicted` (PropPred.v): none
* `C41_every_call_in_range` (PropPred.v): none
* `C41_program` (PropPred.v): none
* `C42_predictor_alternates` (PropPred.v): none
* `C42_estimator_kit` (PropPred.v): none
* `C42_estimator_kit_first` (PropPred.v): none
* `C42_mixer_kit` (PropPred.v): none
* `C42_mixer_kit_first` (PropPred.v): none
* `C42_map` (PropPred.v): none
* `C42_map_first` (PropPred.v): none
* `C42_chain_predict` (PropPred.v): none
* `C42_chain_update` (PropPred.v): none
* `C42_finalizer_predict` (PropPred.v): none
* `C42_finalizer_update` (PropPred.v): none
* `C42_chain_refuted` (PropPred.v): none
* `C43_tree_sorted` (PropPred.v): none
* `C43_exhaustive_sorted` (PropPred.v): none
* `C43_hash_map_sorted` (PropPred.v): none
* `C45_statistics_accounted` (PropPred.v): none
* `C45_statistics_add_up` (PropPred.v): none
* `C45_file_statistics` (PropPred.v): none
* `C45_every_bit_refuted` (PropPred.v): none
* `C46_file_round_trip` (PropFile.v): none
* `C46_files_never_collide` (PropFile.v): none
* `C46_file_size` (PropFile.v): none
* `C47_any_stream` (PropFile.v): none
* `C47_rest_untouched` (PropFile.v): none
* `C48_estimators_apart` (PropKit.v): none
* `C48_mixers_apart` (PropKit.v): none
* `C48_mixers_served` (PropKit.v): none
* `C49_orders_learn_apart` (PropKit.v): none
* `C50_parts_are_told_the_text` (PropKit.v): none
* `C50_file` (PropKit.v): none
* `C53_context_types` (PropPrint.v): none
* `C53_symbols` (PropPrint.v): none
* `C53_all_symbols_refuted` (PropPrint.v): none
* `C54_reports_exact` (PropPrint.v): none
* `C54_predictor` (PropPrint.v): none
* `C55_brute_force_listing` (PropBin.v): none
* `C55_fat_map_listing` (PropBin.v): none
* `C55_tree_listing` (PropBin.v): none
* `C55_empty_file_refuted` (PropBin.v): none
* `C51_table_entries` (PropLutReal.v): `ClassicalDedekindReals.sig_not_dec`, `ClassicalDedekindReals.sig_forall_dec`, `FunctionalExtensionality.functional_extensionality_dep`, `Classical_Prop.classic`
* `C51_stretch` (PropLutReal.v): `ClassicalDedekindReals.sig_not_dec`, `ClassicalDedekindReals.sig_forall_dec`, `FunctionalExtensionality.functional_extensionality_dep`, `Classical_Prop.classic`
* `C51_stretch_outside` (PropLutReal.v): `ClassicalDedekindReals.sig_not_dec`, `ClassicalDedekindReals.sig_forall_dec`, `FunctionalExtensionality.functional_extensionality_dep`, `Classical_Prop.classic`
* `C51_stretch_everywhere_refuted` (PropLutReal.v): `ClassicalDedekindReals.sig_not_dec`, `ClassicalDedekindReals.sig_forall_dec`, `FunctionalExtensionality.functional_extensionality_dep`, `Classical_Prop.classic`
* `C51_squash` (PropLutReal.v): `ClassicalDedekindReals.sig_not_dec`, `ClassicalDedekindReals.sig_forall_dec`, `FunctionalExtensionality.functional_extensionality_dep`, `Classical_Prop.classic`
* `C52_bit_cost` (PropCost.v): `ClassicalDedekindReals.sig_not_dec`, `ClassicalDedekindReals.sig_forall_dec`, `FunctionalExtensionality.functional_extensionality_dep`, `Classical_Prop.classic`
* `C52_total_cost` (PropCost.v): `ClassicalDedekindReals.sig_not_dec`, `ClassicalDedekindReals.sig_forall_dec`, `FunctionalExtensionality.functional_extensionality_dep`, `Classical_Prop.classic`
* `C52_stream_length` (PropCost.v): `ClassicalDedekindReals.sig_not_dec`, `ClassicalDedekindReals.sig_forall_dec`, `FunctionalExtensionality.functional_extensionality_dep`, `Classical_Prop.classic`
* `C52_estimate_near_stream` (PropCost.v): `ClassicalDedekindReals.sig_not_dec`, `ClassicalDedekindReals.sig_forall_dec`, `FunctionalExtensionality.functional_extensionality_dep`, `Classical_Prop.classic`
* `C56_simulation_total` (PropSim.v): `ClassicalDedekindReals.sig_not_dec`, `ClassicalDedekindReals.sig_forall_dec`, `FunctionalExtensionality.functional_extensionality_dep`, `Classical_Prop.classic`
* `C56_runs_are_independent` (PropSim.v): none
* `C56_run_length_zero` (PropSim.v): none
* `C57_estimator_against_fixed` (PropSim.v): `ClassicalDedekindReals.sig_not_dec`, `ClassicalDedekindReals.sig_forall_dec`, `FunctionalExtensionality.functional_extensionality_dep`, `Classical_Prop.classic`
* `C57_simulation_against_fixed` (PropSim.v): `ClassicalDedekindReals.sig_not_dec`, `ClassicalDedekindReals.sig_forall_dec`, `FunctionalExtensionality.functional_extensionality_dep`, `Classical_Prop.classic`
* `C60_mixer` (PropLearn.v): none
* `C60_mixer_exact_refuted` (PropLearn.v): none
* `C60_map` (PropLearn.v): none
* `C05_exact_length` (PropStream.v): none
* `C61_written_stays` (PropStream.v): none
* `C61_prefix_decodes` (PropStream.v): none
* `C61_file_prefix` (PropStream.v): none
* `C58_check_passes` (PropInteg.v): none
* `C58_leaves_differ` (PropInteg.v): none
* `C58_suffixes_unchecked` (PropInteg.v): none
* `C58_root_marks_cursor` (PropInteg.v): none
* `C58_suffixes_checked_refuted` (PropInteg.v): none
* `C59_every_suffix_found` (PropInteg.v): none
* `C62_tree_protocol` (PropProto.v): none
* `C62_exhaustive_protocol` (PropProto.v): none
* `C62_hash_map_protocol` (PropProto.v): none
* `C62_hash_map_begins` (PropProto.v): none
* `C62_exhaustive_early_report_refuted` (PropProto.v): none
* `C62_hash_map_no_begin_refuted` (PropProto.v): none
* `C63_draw` (PropBench.v): none
* `C63_draw_goes_on` (PropBench.v): none
* `C63_check_sums` (PropBench.v): none
* `C63_program` (PropBench.v): none
* `C64_one_node_per_branching_string` (PropSize.v): none
* `C65_listing_is_a_dictionary` (PropShow.v): none
* `C66_same_probabilities` (PropRoom.v): none
* `C66_same_stream` (PropRoom.v): none
* `C66_windows_interchangeable` (PropRoom.v): none
* `C66_same_decoding` (PropRoom.v): none
* `C67_same_probabilities` (PropOrder.v): none
* `C67_same_stream` (PropOrder.v): none
* `C67_settings_interchangeable` (PropOrder.v): none
* `C67_same_decoding` (PropOrder.v): none
* `C68_same_reports` (PropRot.v): none
* `C68_same_size` (PropRot.v): none
* `C69_tree_counts` (PropSupply.v): none
* `C69_hash_map_counts` (PropSupply.v): none
* `C69_every_wrong_number_refused_refuted` (PropSupply.v): none
* `C70_second_deletion` (PropMisuse.v): none
* `C70_root_deletion` (PropMisuse.v): none
* `C70_missing_deletions` (PropMisuse.v): none
