{"id": "C01", "title": "Entropy coding is lossless and self-delimiting", "statement": "Feed any sequence of events (a bit together with its final probability, or a rare event that happened or not) to a new Encoder and drop it. Then a new Decoder reading the written bytes, asked for the same kinds of events with the same probabilities, returns exactly the original bits and rare-event flags, and it has then consumed exactly the bytes written by the encoder: bytes appended after them are left unread.", "quantifier": "every finite sequence of events, every probability a FinalProbability can hold, every trailing byte string", "why_tests_cant": "Tests encode a few fixed events and a few pseudo-random sequences; carry propagation through long runs of 0xff and the lazily flushed tail only show on rare inputs.", "anchors": ["src/coding/encoder.rs: Encoder::new, encode_bit, encode_rare_event, add_with_carry, normalize, output_byte, Drop::drop", "src/coding/decoder.rs: Decoder::new, decode_bit, decode_rare_event, normalize, input_byte"]}
{"id": "C02", "title": "Encoder never panics and never loses a carry", "statement": "Encoding any sequence of events never overflows a checked integer operation, never trips the non-zero range assertion, never adds a carry to a byte equal to 255, and always leaves room in the current interval for both outcomes of the next event.", "quantifier": "every finite sequence of fewer than 2^28 events (the run counter is a 32-bit integer), every probability", "why_tests_cant": "A second carry into an already carried byte or an empty interval would need a specific interval layout; random tests practically never reach it.", "anchors": ["src/coding/encoder.rs: Encoder::encode_bit, add_with_carry, normalize, output_byte, Drop::drop"]}
{"id": "C03", "title": "Decoder tolerates arbitrary bytes", "statement": "On any byte string whatsoever, not only on encoder output, the decoder either returns a bit or flag or fails because the input ended; it never overflows, never trips an assertion, and its range stays in [1, 2^31-1].", "quantifier": "every byte string (corrupted, truncated, adversarial), every sequence of decode requests", "why_tests_cant": "Corrupted streams are unbounded in number; the interesting ones make the code value leave the current range and wrap around.", "anchors": ["src/coding/decoder.rs: Decoder::new, decode_bit, decode_rare_event, normalize, input_byte"]}
{"id": "C04", "title": "Adaptive compression round trip", "statement": "If both sides run the same deterministic model, which chooses the probability of the next bit from the bits already processed, then decoding what the encoder produced restores every input bit string, although the decoder only ever sees bits it has already decoded.", "quantifier": "every model (any state type, any prediction and update functions), every bit string", "why_tests_cant": "The model is a higher-order parameter; tests fix one model and one input.", "anchors": ["src/coding/encoder.rs: Encoder", "src/coding/decoder.rs: Decoder", "src/predictor/mod.rs: Predictor::predict, Predictor::update"]}
{"id": "C05", "title": "Size of the encoded stream", "statement": "The encoder writes exactly four bytes plus one byte per renormalisation: the empty sequence gives 4 bytes, one more event adds 0 to 3 bytes. The length tracks the information content: 256^(length-4) is at most the inverse of the product of the probabilities of the coded outcomes up to a rounding loss of one unit of 2^-23 (and never more than a factor two) per event, and at least that inverse divided by 2^31, up to one unit per event.", "quantifier": "every finite sequence of events", "why_tests_cant": "A bound relating length and all probabilities has to hold for each of infinitely many sequences; the test samples 65 sequences.", "anchors": ["src/coding/encoder.rs: Encoder::normalize, Drop::drop", "tests/coding_symbols.rs: coding_can_be_estimated"]}
{"id": "C06", "title": "Final probabilities are always codable", "statement": "Every way of building a final probability accepts exactly the raw values 0..2^23 and yields one in [1, 2^23-1], so neither bit value ever has probability zero; its estimated cost for either bit is strictly positive and at most 23 bits, so a cost tracker always accepts it.", "quantifier": "every raw value, both bit values", "why_tests_cant": "8 million values times two bits, plus the log table; tests look at a few.", "anchors": ["src/coding/mod.rs: FinalProbability", "src/fixed_point/mod.rs: FixU32::log2", "src/estimators/cost.rs: CostTracker::updated"]}
{"id": "C07", "title": "Narrowing a fixed-point number rounds to nearest", "statement": "Reducing the number of fractional bits by s never fails and rounds to the nearest representable value with ties away from zero, for signed and unsigned raw values of 16, 32 and 64 bits, except where adding half a unit would leave the raw type: there the value is cut towards zero (less than one unit off; exactly one unit at the most negative value). The largest shift a signed type admits (width-1) always gives 0.", "quantifier": "every raw value and every shift the type admits", "why_tests_cant": "2^64 raw values times the shifts; the extremes (saturating addition, shift equal to width-1) are exactly where tests do not look.", "anchors": ["src/fixed_point/mod.rs: fix_u16::scaled_down, fix_i32::scaled_down, fix_u32::scaled_down, fix_i64::scaled_down, fix_u64::scaled_down"]}
{"id": "C08", "title": "Fixed-point division rounds to nearest", "statement": "Division of a raw value by a positive divisor never fails and rounds to the nearest integer with ties away from zero whenever adding half the divisor does not saturate; otherwise it is off by less than one unit, except that the most negative dividend may be off by exactly one unit.", "quantifier": "every dividend and every positive divisor of the type", "why_tests_cant": "Two 64-bit operands.", "anchors": ["src/fixed_point/mod.rs: FixI32::div, FixU32::div, FixI64::div, FixU64::div"]}
{"id": "C09", "title": "Fixed-point conversions never wrap silently", "statement": "Conversions, products, sums and differences of fixed-point numbers either fail loudly, and only when the result does not fit the target format, or return the exact result (sums, differences, gaining fractional bits) or the exact result rounded to nearest (losing fractional bits; less than one unit off where adding half a unit would saturate). Products of signed 32-bit numbers are always rounded to nearest.", "quantifier": "every pair of operands and every combination of source and target formats", "why_tests_cant": "Operand space is 2^128 for the wide product; formats are type parameters.", "anchors": ["src/fixed_point/mod.rs: FixI32/FixU32/FixI64/FixU64 to_fix_*, mul, mul_wide, add, sub", "src/fixed_point/types.rs"]}
{"id": "C10", "title": "Complement of a fraction", "statement": "flip(x) returns 1 - x for every fraction strictly between 0 and 1 of the two unsigned fraction-only types and is an involution there; the two signed fraction-only types also offer flip, but it fails for every fraction because the constant one is not representable in them.", "quantifier": "every fraction of each of the four fraction-only types", "why_tests_cant": "2^31 and 2^63 values; the signed variants are never flipped in the tests.", "anchors": ["src/fixed_point/types.rs: FractOnlyI32, FractOnlyU32, FractOnlyI64, FractOnlyU64 flip"]}
{"id": "C11", "title": "Logarithm table is accurate and monotone", "statement": "log2 of a positive fixed-point number differs from the true base-2 logarithm by less than two units of the last (11th) fractional bit, is monotone in its argument and never panics.", "quantifier": "every positive 32-bit and 64-bit raw value", "why_tests_cant": "Tests take six sample points.", "anchors": ["src/lut/log2.rs: Log2Lut::new, log2", "src/fixed_point/mod.rs: FixU32::log2, FixU64::log2"]}
{"id": "C12", "title": "Index composition is a bijection", "statement": "For any dimension sizes whose product fits in the index type, supplying one sub-index per dimension (each below its size) yields an index below the product of sizes; two different tuples of sub-indices yield different indices and every index below the product is reached; the last dimension is the fastest moving one; after the index is read the indexer is reusable; supplying too many, too few or out-of-range sub-indices fails loudly.", "quantifier": "every vector of dimensions of the six supported lengths, every sequence of uses", "why_tests_cant": "Collision freedom over all tuples and dimension vectors is universally quantified.", "anchors": ["src/util/indexer.rs: Indexer, Indexer1..Indexer6"]}
{"id": "C13", "title": "Last-bytes cache mirrors the input", "statement": "After any byte/bit history fed with the documented protocol, the unfinished byte is a leading 1 followed by the bits read so far of the current byte (so 1..255), the previous bytes 1..3 are the last three complete bytes (0 where fewer were seen), and asking while no byte is in progress fails loudly.", "quantifier": "every history of bytes and partial bytes", "why_tests_cant": "Histories are unbounded; the test replays one pseudo-random stream.", "anchors": ["src/util/last_bytes.rs: LastBytesCache"]}
{"id": "C14", "title": "Order-1 context hash is collision free and hashes depend only on their window", "statement": "The order-1 hash is an injective function of (previous byte, bits of the current byte) with values in 256..65535; the order-2 and order-3 hashes are functions of the last two/three bytes and the current partial byte only.", "quantifier": "every history", "why_tests_cant": "Injectivity over all pairs of histories; the test enumerates histories of one particular shape.", "anchors": ["src/util/last_bytes.rs: hash01_16, hash02_16, hash03_16"]}
{"id": "C15", "title": "FNV-1A hasher is the standard function and does not merge states", "statement": "Hashing a byte string gives the standard 64-bit FNV-1A value (offset basis 0xcbf29ce484222325, prime 0x100000001b3, modulo 2^64), the 32 and 16 bit results are its xor folds, different intermediate states stay different when the same bytes are appended, and changing a single byte always changes the 64-bit hash.", "quantifier": "every byte string and every position", "why_tests_cant": "Collision statements quantify over all strings; tests have 11 vectors.", "anchors": ["src/util/hash.rs: Fnv1A"]}
{"id": "C16", "title": "Occurrence-count quantiser is monotone with no gaps", "statement": "Quantising a count is total on 16-bit counts, monotone, starts at 0, never exceeds the advertised maximum output 31, moves by at most one level between consecutive counts, uses every level, and the levels start at 0, 1, 2, 3, 4, 6, 8, 12, 16, 24, ... (two levels per power of two).", "quantifier": "every 16-bit count", "why_tests_cant": "The shipped monotonicity test compares quantize(x) with itself, so it can never fail.", "anchors": ["src/util/quantizers.rs: OccurrenceCountQuantizer", "tests/quantization.rs"]}
{"id": "C17", "title": "Decelerating estimator stays strictly between 0 and 1", "statement": "A probability estimator created fresh and updated with any bit history under the default learning rates (or any rate table made with addend >= 2 and factor + addend >= 3) never panics, keeps its prediction strictly between 0 and 1, counts the updates up to 1000, moves towards the observed bit by the nearest representable step, and within the first 1001 updates of the default rates equals the frequency (zeros + 1/2)/(n + 1) up to accumulated rounding below (n+3)*2^-22.", "quantifier": "every bit history, every such rate table", "why_tests_cant": "An estimator that creeps to exactly 0 or 1 needs a particular long history and then crashes a later stage.", "anchors": ["src/estimators/decelerating.rs: DeceleratingEstimator", "src/lut/estimator.rs: DeceleratingEstimatorRates"]}
{"id": "C18", "title": "Estimators treat both bit values alike", "statement": "Feeding the complemented bit history to a fresh estimator (decelerating or fixed speed) yields exactly the complementary prediction at each step.", "quantifier": "every bit history", "why_tests_cant": "Exact symmetry of rounding for all histories; the test runs one pseudo-random history.", "anchors": ["src/estimators/decelerating.rs: update", "src/estimators/fixed_speed.rs: update", "tests/probability_estimators.rs"]}
{"id": "C19", "title": "Fixed-speed estimator is total", "statement": "From any non-zero starting value the fixed-speed estimator never overflows, its prediction stays strictly between 0 and 1 and moves towards (never past) the observed bit.", "quantifier": "every starting value, every bit history", "why_tests_cant": "65535 starting values times all histories.", "anchors": ["src/estimators/fixed_speed.rs: FixedSpeedEstimator"]}
{"id": "C20", "title": "Cost tracker is a bounded average", "statement": "Updating a cost tracker with any cost the coder can report never overflows; a constant one-bit cost leaves the initial tracker unchanged; a larger reported cost never gives a smaller tracker; and trackers stay ordered under equal updates.", "quantifier": "every tracker state and every reportable cost, every sequence of costs", "why_tests_cant": "65536 states times 47104 costs times all sequences.", "anchors": ["src/estimators/cost.rs: CostTracker", "src/history/tree/node.rs: CostTrackers::updated"]}
{"id": "C21", "title": "Cached new-node states equal replayed states", "statement": "The precomputed estimator and cost tracker for a context that has just seen its first deviating bit after n equal bits are exactly those obtained by starting fresh and replaying n equal bits and then the deviating one.", "quantifier": "every run length 0..1000 and both bit values, every learning-rate table made with addend >= 2 and factor + addend >= 3", "why_tests_cant": "Rate tables are a parameter; the test covers only the default table.", "anchors": ["src/lut/estimator.rs: DeceleratingEstimatorCache", "src/lut/cost.rs: CostTrackersLut"]}
{"id": "C22", "title": "Recent-bits register is the bit history", "statement": "The recent-bits state after any bit history is a leading 1 followed by the last at most 15 bits; its histogram packs the numbers of ones and zeros among them; its 7-bit view is a leading 1 followed by the last at most 7 bits; states for runs and new nodes equal the replayed history.", "quantifier": "every bit history and run length", "why_tests_cant": "Histories are unbounded; tests list 13 states.", "anchors": ["src/history/state/recent_bits.rs: RecentBitsHistory"]}
{"id": "C23", "title": "Bit-run tracker is the run-length history", "statement": "The run tracker after any bit history reports the last bit, the length of the current run, of the opposite run before it and of the run before that, each capped at 1000; states for runs and new nodes equal the replayed history.", "quantifier": "every bit history and run length", "why_tests_cant": "Histories are unbounded and the cap at 1000 interacts with packing of three counters in one word.", "anchors": ["src/history/state/bits_runs.rs: BitsRunsTracker"]}
{"id": "C24", "title": "Context state is a function of the occurrence history", "statement": "Starting a context state at the first occurrence and advancing it for each later occurrence never panics and yields exactly: the deterministic state with the repeated bit and min(1000, n) occurrences while all bits agree; otherwise the branching state whose recent bits and runs are those of the whole bit list and whose estimator is obtained by replaying from scratch the bit list whose initial run is cut to its last 1000 bits (nothing is cut up to 1001 bits; beyond that the estimator differs from the replay of the whole list). Occurrence count, recent bits and distance report the same history for both kinds. The first branching state carries in both trackers the cost of that list, later ones what the caller supplies.", "quantifier": "every non-empty list of bits that followed the context", "why_tests_cant": "Lists of bits are unbounded; the switch from deterministic to branching can happen at any length and both sides of the cap.", "anchors": ["src/history/mod.rs: ContextState::starting_state, next_state, recent_bits, occurrence_count, probability_estimator"]}
{"id": "C25", "title": "Input window is a sliding FIFO of bytes", "statement": "Under any sequence of advance-cursor, set-byte, set-bit and advance-start operations allowed by the size limits, the window holds exactly the last bytes pushed and not yet dropped, in order, for every initial shift smaller than the size and however often the ring wrapped; index addition, subtraction, difference and comparison agree with arithmetic on logical positions, and all suffixes are visited oldest first.", "quantifier": "every window size and initial shift, every operation sequence", "why_tests_cant": "Off-by-one errors at wrap-around depend on size, shift and number of operations.", "anchors": ["src/history/window.rs: InputWindow"]}
{"id": "C26", "title": "Prefix comparison in the window is comparison of bit strings", "statement": "Comparing two window positions for an equal prefix of full bytes and leading bits returns true exactly when the logical bit strings starting there agree on that prefix, wherever the ring wraps, and reading past the cursor is impossible under its precondition.", "quantifier": "every window content, both positions, every prefix length", "why_tests_cant": "Two code paths (straight and wrapped) chosen by the physical layout.", "anchors": ["src/history/window.rs: compare_for_equal_prefix, bytes_differ_on"]}
{"id": "C27", "title": "Exhaustive history source reports true statistics", "statement": "For every order up to the maximum, in increasing order and stopping at the first context never seen before, the exhaustive source reports the distance to the most recent earlier occurrence of the current context and the state obtained by replaying all bits that followed its earlier occurrences, oldest first.", "quantifier": "every input (not longer than the window), every bit position, every maximum order", "why_tests_cant": "All inputs; tests use short hand-made strings.", "anchors": ["src/history/naive.rs: NaiveHistorySource::gather_history_states"]}
{"id": "C28", "title": "Hash-map history source equals the exhaustive one", "statement": "The hash-map history source reports the same context states as the exhaustive source (up to cost trackers) for every input, whatever the hash function, even a constant one.", "quantifier": "every input not longer than the window, every hash function, every maximum order", "why_tests_cant": "Collisions of the hash are never exercised by tests.", "anchors": ["src/history/fat_map.rs: FatMapHistorySource", "tests/compare_history_sources"]}
{"id": "C29", "title": "Suffix-tree history source equals the exhaustive one", "statement": "The tree history source reports the same context states as the exhaustive source (up to cost trackers) at every bit of every input that fits in the window.", "quantifier": "every input not longer than the window, every maximum order, every window shift", "why_tests_cant": "The equivalence is a refinement over all inputs; tests compare a few hundred short strings.", "anchors": ["src/history/tree/mod.rs: Tree, TreeHistorySource", "src/history/tree/context.rs: ActiveContexts::shift, Context::descend"]}
{"id": "C30", "title": "Sliding the window keeps the tree sound", "statement": "With a window shorter than the input, the tree source never panics, every leaf and node text position stays inside the window, there are at most window-size minus one live nodes, and the reported contexts are exactly those with an earlier occurrence inside the window, with the true distance to the latest one. Each reported state is the state of the bits that followed the context in the window, preceded by older bits that number at most as many as bytes have left the window and never turn an edge into a node; so nothing is added while nothing has left.", "quantifier": "every input, every window size and maximum order", "why_tests_cant": "Removal of the leftmost suffix has five cases that depend on the whole history.", "anchors": ["src/history/tree/mod.rs: Tree::remove_leftmost_suffix, start_new_byte", "tests/sliding_window_trees.rs"]}
{"id": "C31", "title": "Node allocator never hands out a live slot", "statement": "Under any sequence of add, update and delete on valid nodes, added nodes get an index distinct from all live ones, reading a live index returns the last value stored there, deleting frees exactly one slot, freed slots are reused before growth, the live count is exact and the capacity is never exceeded without failing loudly.", "quantifier": "every sequence of allocator operations", "why_tests_cant": "Histories of operations are unbounded; the free list is threaded through deleted nodes.", "anchors": ["src/history/tree/nodes.rs: Nodes"]}
{"id": "C32", "title": "Child references are unambiguous", "statement": "Encoding a window position or a node index as a child reference and decoding it gives back the same kind and value; the two kinds never collide and no valid reference equals the invalid marker; out-of-range values fail loudly.", "quantifier": "every window position and node index", "why_tests_cant": "2^31 values of each kind.", "anchors": ["src/history/tree/node_child.rs: NodeChild"]}
{"id": "C33", "title": "Stretch is odd, bounded and monotone to one unit", "statement": "stretch is defined for every probability strictly between 0 and 1, stretch(1-p) = -stretch(p) exactly, its magnitude stays below 12, its sign is that of p - 1/2, and it is monotone up to one unit in the last place (2^-21); it fails loudly at 0. (Exact monotonicity, which a reader would expect, is false: see the refutation theorem.)", "quantifier": "every probability p with 31 fractional bits", "why_tests_cant": "2^31 inputs over a piecewise-linear table with 8 levels.", "anchors": ["src/lut/stretch.rs: StretchLut::stretch"]}
{"id": "C34", "title": "Squash is mirror-symmetric, inside (0,1) and monotone to one unit", "statement": "squash is defined for every stretched value in its domain, returns a probability strictly between 0 and 1, squash(-x) = 1 - squash(x) exactly, and is monotone up to one unit in the last place (2^-31). (Exact monotonicity is false: see the refutation theorem.)", "quantifier": "every stretched value in [-12, 12]", "why_tests_cant": "50 million inputs.", "anchors": ["src/lut/squash.rs: SquashLut"]}
{"id": "C35", "title": "Squash undoes stretch", "statement": "squash(stretch(p)) differs from p by less than 0.000001 for every p in [2^-17, 1-2^-17] and by less than 0.000008 for every p strictly between 0 and 1. (The tested bound 0.000001 does not extend to the ends: see the refutation theorem.)", "quantifier": "every probability with 31 fractional bits", "why_tests_cant": "2^31 inputs; the test samples about 25 thousand in four ranges.", "anchors": ["src/lut/squash.rs", "src/lut/stretch.rs", "tests/sigmoid.rs: squash_and_stretch_composed_are_close_to_identity"]}
{"id": "C36", "title": "Interpolation weights of the probability map are a partition of one", "statement": "For every index precision up to 7 bits the weighting table passes its own construction checks and its stops are the squashed multiples of the interval length. For the shipped precisions 0, 1 and 2, and for every probability paired with its own stretched value (or every stretched value paired with its own squash), refining never panics, the selected pair of neighbouring stops brackets the (end-clamped) input, both weights are in [0,1] and sum to exactly one, and they equal the input's relative position between the stops to within 3 units of 2^-31. With 3 bits of precision this is false: a witness probability panics.", "quantifier": "every index precision 0..max, every probability", "why_tests_cant": "Construction check only runs for shipped precisions; brackets must hold for 2^31 inputs.", "anchors": ["src/lut/apm.rs: ApmWeightingLut", "src/mixing/apm.rs: AdaptiveProbabilityMap::refine"]}
{"id": "C37", "title": "Mixers never overflow and keep weights bounded", "statement": "For any number of inputs up to 30 and any history of set-input, mix and update calls in protocol order, with any probabilities strictly between 0 and 1, a mixer never panics, all weights stay within [-8, 8], and the mixed probability is strictly between 0 and 1. Mixing returns the squash of the dot product of weights and stretched inputs clamped to [-12, 12], to within the rounding of one unit. An update moves every weight by half of input times error times rate (towards the input for a zero, away for a one), to within one unit and never in the wrong direction.", "quantifier": "every mixer size and initialisation mode, every history of inputs and bits", "why_tests_cant": "Weights, inputs and history form an unbounded state space.", "anchors": ["src/mixing/mixer.rs: Mixer::mix_all, update_and_reset, MixerN, Mixer1..Mixer5"]}
{"id": "C38", "title": "Mixer call protocol is enforced", "statement": "Mixing or updating before every input was set, or setting one input twice between updates, fails loudly; after an update all inputs are unset again.", "quantifier": "every sequence of calls", "why_tests_cant": "Call sequences are unbounded.", "anchors": ["src/mixing/mixer.rs: set_input, inputs_mask, mix_all, update_and_reset"]}
{"id": "C39", "title": "Mixing is symmetric", "statement": "Two mixers whose weights are opposite (for instance both all-zero initially), fed with the same inputs and opposite bits for any history, produce complementary probabilities and keep opposite weights; a mixer fed with complemented inputs and complemented bits keeps equal weights and produces complementary probabilities.", "quantifier": "every history, every mixer size", "why_tests_cant": "Tests run 1000 steps of one pseudo-random history on fixed inputs.", "anchors": ["src/mixing/mixer.rs", "tests/probability_mixing.rs: mixing_is_symmetric"]}
{"id": "C40", "title": "Adaptive probability map is total and local", "statement": "For any history of refine/update pairs on (probability, stretched) pairs that belong together, any context count, precisions 0..2 and any learning rate 2..29, the map never panics, all entries stay strictly between 0 and 1, the refined probability lies between the two selected entries (at most one unit above) and is the weighted mean of them up to rounding, an update changes only the two selected entries of the selected context and moves them towards the observed bit by exactly the rounded weighted shifted error; an update without a refine and a refine after a refine fail loudly. With rate 1, which the map accepts, the map can panic.", "quantifier": "every history, every context count and index precision", "why_tests_cant": "Unbounded histories; tests run fixed frequencies.", "anchors": ["src/mixing/apm.rs: AdaptiveProbabilityMap"]}
{"id": "C41", "title": "Prediction always is a codable probability", "statement": "For every input and every bit position the whole predictor returns, without panicking, a final probability in [1, 2^23-1].", "quantifier": "every input byte string", "why_tests_cant": "The predictor's state depends on the whole input; any panic in a table lookup, mixer or map would abort compression of some file.", "anchors": ["src/predictor/mod.rs: Predictor", "src/predictor/single.rs", "src/predictor/chain.rs", "src/predictor/post_process.rs", "src/predictor/kits.rs"]}
{"id": "C42", "title": "Predict and update strictly alternate", "statement": "The predictor accepts exactly the sequences of calls in which each byte is started first and then predict and update alternate eight times; the first call out of this order fails loudly. So do a second predict or a second update of an estimator kit, a mixer kit, a map, a finalizer that refines, and a chain that has met some context. A chain that has met none accepts anything.", "quantifier": "every call sequence", "why_tests_cant": "Call sequences are unbounded.", "anchors": ["src/predictor/mod.rs: Predictor::predict, update", "src/predictor/kits.rs", "src/mixing/apm.rs"]}
{"id": "C43", "title": "Deterministic contexts never outrank branching ones", "statement": "In the list of context states reported by a history source (tree, exhaustive, hash map), branching states come first and deterministic ones after: no deterministic state is followed, at once or later, by a branching one; hence the chain of predictors never meets the impossible case it panics on.", "quantifier": "every input and maximum order", "why_tests_cant": "A statement about all inputs on which a panic in the predictor chain depends.", "anchors": ["src/predictor/chain.rs: compare_context_states", "src/history/mod.rs: CollectedContextStates"]}
{"id": "C44", "title": "Pseudo-random generator is MT19937-64", "statement": "Seeding and generation follow the reference MT19937-64 recurrence: the n-th output is the tempered n-th term of the recurrence x[k+312] = x[k+156] xor twist(x[k], x[k+1]) for every n; it never panics; integers are within their advertised range; seeding by an empty key fails loudly.", "quantifier": "every seed (scalar or vector), every number of outputs", "why_tests_cant": "Tests compare the first 1000 outputs for one seed.", "anchors": ["src/random/mod.rs: MersenneTwister"]}
{"id": "C45", "title": "Reported statistics account for every bit", "statement": "The statistics reported after any calls are those of a ledger with one line per processed bit: total cost and per-context-type costs and counts are the sums over the bits for which some context was met, per-type costs add up to the total, per-symbol costs with that of the last byte too, and per-symbol counts are the occurrences among all bytes but the last. Bits without a context are left out, so the claim that every bit is accounted for is refuted.", "quantifier": "every input", "why_tests_cant": "Aggregates over all inputs; no test looks at the statistics.", "anchors": ["src/predictor/stats.rs: PredictionStatistics::start_new_byte, on_next_bit"]}
{"id": "C46", "title": "The predictor and the coder together lose nothing", "statement": "A compressor that codes each bit of a file with the probability the predictor gives, and a decompressor that feeds the same predictor with the bits it decodes, restore every file of fewer than 2^25 bytes and leave whatever follows in the stream; two files of the same length never share a stream; the length of the stream is bounded from both sides by the product of the predicted probabilities.", "quantifier": "every file, tail, window size, maximum order and finalizer mode", "why_tests_cant": "No test or program in the repository puts the two together; a round trip depends on predictor state after every prefix of every file.", "anchors": ["src/predictor/mod.rs: Predictor", "src/coding/encoder.rs", "src/coding/decoder.rs", "src/main.rs: estimate_compression"]}
{"id": "C47", "title": "Decompressing a damaged stream never panics", "statement": "Whatever bytes are given to the decompressor, it produces as many bytes as asked for or reports the end of the input; bytes added behind a stream that was long enough change only the unread rest.", "quantifier": "every byte string and every length asked for", "why_tests_cant": "All byte strings, with predictor state driven by decoded garbage.", "anchors": ["src/coding/decoder.rs", "src/predictor/mod.rs: Predictor"]}
{"id": "C48", "title": "Slots of a predictor kit learn apart", "statement": "A kit of estimators answers, for any sequence of predictions and updates with valid sub-indices, as if every combination of sub-indices had an estimator of its own that was taught exactly the bits that followed the predictions for that combination. The same holds for a kit of mixers, however the sub-indices are split between pre_predict and predict. A kit of mixers refuses no lesson that sets each input once and keeps to the limit of its rate index.", "quantifier": "every table of sizes, every sequence of sub-indices, inputs and bits", "why_tests_cant": "Cross-talk between slots shows only for particular sequences of indices; no test covers the kits at all.", "anchors": ["src/predictor/kits.rs"]}
{"id": "C49", "title": "Each order of the chain learns from its own contexts", "statement": "After any rounds of prediction and update, each order of the chain holds what its own kits learnt from the rounds in which it had a state: the estimators by count and unfinished byte while one bit only was met, by last run later; the mixers with the prediction of the order below as first input; the result of a round is the prediction of the highest order in use. Orders without a state learn nothing.", "quantifier": "every sequence of context states, unfinished bytes and bits", "why_tests_cant": "All histories; a wrong slot or a wrong input only worsens compression and no test notices.", "anchors": ["src/predictor/chain.rs: ContextsChainPredictionMixer", "src/predictor/single.rs", "src/predictor/kits.rs"]}
{"id": "C50", "title": "The parts of the predictor are told the text", "statement": "After predicting any file, the tree was given each bit with the cost trackers of the chain of that moment; the chain was given for each bit the context states the tree reported for the window before it, the unfinished byte and the bit; the occurrences in the statistics are the sums of what the tree reported; the four adaptive probability maps of the finalizer refined in the contexts made of the last 0, 1, 2 and 3 bytes and the unfinished byte; and each probability is the stated weighted mean of what the maps said, rounded to 23 bits and kept off 0 and 1.", "quantifier": "every file, window size and maximum order", "why_tests_cant": "Wrong wiring (shifted context, wrong byte, update with the wrong bit) never fails a round trip; it only costs compression.", "anchors": ["src/predictor/mod.rs: Predictor", "src/predictor/post_process.rs: PredictionFinalizer"]}
{"id": "C51", "title": "Stretch and squash approximate the logistic functions", "statement": "Every entry of the stretch table is within 0.0000004 of ln(p/(1-p)), so the comparison in the constructor passes. For every probability between 2^-8 and 1-2^-8 stretch is within 0.0000013 of ln(p/(1-p)); down to 2^-17 (and up to 1-2^-17) within 0.0000008 plus an explicit term that grows with the square of the relative step of the table. For every argument squash is within 0.000003 of 1/(1+exp(-s)).", "quantifier": "every probability with 31 fractional bits and every stretched value with 21", "why_tests_cant": "The repository's tests sample; the claim is about every one of two billion arguments and about real-valued functions, beyond f64.", "anchors": ["src/lut/stretch.rs: StretchLut::make, stretch", "src/lut/squash.rs: SquashLut::make, squash"]}
{"id": "C52", "title": "Estimated costs tell the information content and the length of the stream", "statement": "The estimated cost of a bit is its information content -log2 p to within -0.51 and +2 units of 2^-11 bits; the total cost in the statistics is the information content of the bits for which a context was met to the same error per bit. The compressed stream is as long as the information content of all bits, apart from one bit, four bytes and the rounding of the intervals. The estimate for all bits tells the length of the stream to 32 bits, one bit per 70 bytes and one bit for each bit that came with a probability below 2^-12.", "quantifier": "every file below 2^25 bytes, window size and maximum order; every sequence of calls for the statistics", "why_tests_cant": "Compares a sum of rounded logarithms with real information content and with the output of a coder for all inputs.", "anchors": ["src/coding/mod.rs: estimate_cost", "src/predictor/stats.rs", "src/coding/encoder.rs"]}
{"id": "C53", "title": "Printed statistics", "statement": "From maximum order 4 on the table by context type is printed without panic and shows for each order 0..4 and each type the number of bits, their cost and the occurrences of the highest contexts the tree reported for them. For maximum orders below 4 printing this table always panics. The table by symbol has one cell per code below 128 with the number and cost of the bytes of that value; that it shows all symbols is refuted by every file of bytes from 128 on.", "quantifier": "every file or balanced sequence of calls, every window size and maximum order", "why_tests_cant": "Printing is not tested; the index out of bounds depends on a parameter the program fixes elsewhere.", "anchors": ["src/predictor/stats.rs: PredictionStatistics::print_state"]}
{"id": "C54", "title": "The chain is given the exact contexts of the text", "statement": "As long as the bytes read do not exceed the window, the context states handed to the predictor chain for a bit are exactly those of the whole text before it: one state per order whose context occurred, each standing for all the bits that followed that context in the text.", "quantifier": "every sequence of calls, window size and maximum order; every bit before the window is full", "why_tests_cant": "Ties the output of the suffix tree inside the predictor to a direct definition over the text, for all texts.", "anchors": ["src/predictor/mod.rs: Predictor", "src/history/fast.rs"]}
{"id": "C55", "title": "The listing of bit histories does not depend on the source and tells the truth about the file", "statement": "For every file of at least one byte `print_histories brute_force`, `fat_map` and `tree` end without panic and print the same listing: for each of the first 1234 bytes a header, then for each bit, the highest first, a line with one number for each order whose context occurred before, in increasing order (no line when there is none), then an empty line. The number is a binary one followed by the last seven (or fewer) bits that followed the context. That the program works for every file is refuted by the empty file, for which all three panic.", "quantifier": "every non-empty file (tree: up to 2^31 bytes), maximum order and hash function", "why_tests_cant": "The program is not tested; three different data structures are compared with a direct definition for all files.", "anchors": ["src/bin/print_histories.rs: print_bit_histories", "src/history/mod.rs: HistorySource, ContextState::recent_bits"]}
{"id": "C56", "title": "An entropy simulation adds up the true cost of its bits and keeps its runs apart", "statement": "`check_decelerating_estimator_single` of `entropy_simulations`, given any sequence of bits, any table of rates from `DeceleratingEstimatorRates::make` (those of the program included) and any run length of at least one, ends without panic, counts the zeros, and its total cost is the information content of the bits as predicted by an estimator that starts anew in each run, to -0.51/2048 and +2/2048 bits per bit. A run and what follows it can be simulated apart with the same sum. A run length of zero panics.", "quantifier": "every sequence of fewer than 2^32 bits, all rates with factor >= 0, addend >= 2, factor + addend >= 3, 1023 factor + addend < 2^32, and all run lengths", "why_tests_cant": "The program has no tests; the claim compares a sum of rounded logarithms with real ones for all sequences.", "anchors": ["src/bin/entropy_simulations.rs: check_decelerating_estimator_single", "src/estimators/decelerating.rs", "src/coding/mod.rs: estimate_cost"]}
{"id": "C57", "title": "The decelerating estimator is never much worse than the best fixed probability", "statement": "For every sequence of 1 to 1002 bits, a new `DeceleratingEstimator` with the default rates predicts it at a cost that exceeds the cost with any fixed probability of zero by at most (log2 n)/2 + 1 + n(n+1)/500000 bits, and is less than that of the frequencies themselves by at most n(n+1)/500000 bits. So the total cost printed by `entropy_simulations` for the rates (1, 2) and runs of at most 1002 bits exceeds the ideal cost by at most that much for each run, and 1/1024 bit per bit.", "quantifier": "every sequence of bits, every fixed probability, every run length up to 1002", "why_tests_cant": "A regret bound over all 2^1002 sequences and all real probabilities.", "anchors": ["src/estimators/decelerating.rs: prediction, update", "src/lut/estimator.rs: DeceleratingEstimatorRates::default", "src/bin/entropy_simulations.rs"]}
{"id": "C58", "title": "The integrity check of the tree source passes, and what it does not see", "statement": "Called at the start of a byte, `TreeHistorySource::check_integrity_on_next_byte` never panics, whatever was fed with the right number of cost trackers, for every window of at most 2^31 bytes wherever it starts and every order with 8 * max_order + 7 < 2^16. Of any tree at all, if it passes then no two leaves stand for the same suffix. But the loop \"check that all suffices are present in tree\" always leaves at the root, because the root is marked with the cursor, so it accepts every tree below: a tree whose root has its children exchanged passes although suffixes are not found in it.", "quantifier": "every input, window size, initial shift and order; for the second and third part every tree", "why_tests_cant": "The tests call the check on sampled inputs, and a check that never looks below the root passes them all.", "anchors": ["src/history/tree/mod.rs: check_integrity_on_next_byte", "src/history/tree/context.rs: check_integrity_on_next_byte, shift"]}
{"id": "C59", "title": "Every suffix of the window is found in the tree", "statement": "After any bit of any input, for each byte of the window of a `TreeHistorySource`: going down from the root along the bits of the text from this byte on ends in a leaf, which stands for this byte or a later one from which the text goes on alike for max_order + 1 bytes or to its end; or the text is used up at a node, and then it begins the text at both children of this node. When the tree is degenerate the text from each byte begins the text from each earlier one.", "quantifier": "every input, window size up to 2^31, initial shift and order, every suffix, after every bit", "why_tests_cant": "All texts and all sequences of insertions and removals; the check of the program itself does not look (C58).", "anchors": ["src/history/tree/mod.rs: extend, remove_leftmost_suffix", "src/history/tree/context.rs: descend, shift"]}
{"id": "C60", "title": "Learning a bit never makes the answer to the same question worse", "statement": "A mixer that mixes some inputs, learns the bit that followed and is given the same inputs again answers with a stretched value that is not farther from the bit than before, and with a probability that is worse by at most one unit of 2^-31; that unit can occur, even if the mixer learns that its own answer was right. A probability map that refines a probability, learns a bit in that context and refines the same probability again never answers farther from the bit than before.", "quantifier": "every size and mode of mixer, every reachable state, all inputs, bits and rates; every reachable state of a map of the shipped precisions, every context, probability, bit and rate", "why_tests_cant": "Weights, inputs and rates form a space far too large to enumerate; rounding at each of several stages could turn the direction.", "anchors": ["src/mixing/mixer.rs: mix_all, update_and_reset", "src/mixing/apm.rs: refine, update_predictions"]}
{"id": "C61", "title": "Coding is incremental: a prefix is decoded from a prefix", "statement": "A byte once handed to the writer is never taken back: it is part of the final stream, whatever is coded later. From the stream of a longer sequence (or file) a decoder gets the first events (the first bytes of the file) after reading exactly as many bytes as the stream of those events alone would have: that many bytes suffice even if nothing follows, with fewer it reports the end of the input, and the rest is left unread.", "quantifier": "every sequence of events and every way to split it; every file below 32 MiB and every way to split it, every mode, window size and order", "why_tests_cant": "Carries reach back over runs of any length, and the split can be anywhere in any of infinitely many sequences; the test always decodes whole streams.", "anchors": ["src/coding/encoder.rs: output_byte, normalize, Drop::drop", "src/coding/decoder.rs: new, normalize, input_byte"]}
{"id": "C62", "title": "History sources accept the calls of a byte in their order and no others", "statement": "A history source is used in a fixed order: begin a byte, then eight times tell a bit, a report being asked any number of times while the byte is open. Every sequence of calls in this order is accepted (the tree without end, the other two as long as their window has room), and every report asked on the way is right for the bits told so far. The tree panics on every other sequence: on a byte begun while one is open, and on a bit or a report without an open byte. The exhaustive source does so too, except for a report before the first byte of a window of one byte or after exactly one byte, which is accepted and empty. The hash-map source refuses a byte begun after one to seven bits or in a full window.", "quantifier": "every sequence of the three calls with the trackers they need, every window size and order, every hash", "why_tests_cant": "The tests make the calls in the right order only; that every other order is noticed, wherever in a sequence of any length it happens, concerns infinitely many sequences.", "anchors": ["src/history/mod.rs: HistorySource", "src/history/naive.rs: start_new_byte, gather_history_states, process_input_bit", "src/history/fat_map.rs: start_new_byte", "src/history/tree/mod.rs: start_new_byte, gather_history_states, process_input_bit"]}
{"id": "C63", "title": "The sigmoid benchmark ends with check sums that its generator determines", "statement": "The benchmark program for `squash` and `stretch` draws stretched probabilities from the generator: a draw takes the first number whose low 32 bits, read as a signed number with 27 fractional bits, lie between -12 and 12, drops six of these bits, and leaves the generator right behind that number; the result is always a valid stretched probability. Whatever the generator and the numbers of elements and loops (at most 2^33 steps per loop), no table lookup fails and no check sum overflows; the sum of the warm-up and that of the measured loop are so many times the sum of `squash` over the drawn values, the third so many times the sum of `stretch` over the results. The program as shipped ends and prints 10699864371220000 twice and -4197659520000.", "quantifier": "every state of the generator, every number of elements and loops within the bound", "why_tests_cant": "The program has no test and its recursion has no bound of its own; sums over all possible draws and all values of the tables cannot be enumerated.", "anchors": ["src/bin/bench_sigmoid.rs: main, generate_stretched_prob"]}
{"id": "C64", "title": "The tree has one node for each branching string of the window, with its statistics", "statement": "After any input, whatever the window size, its start and the order, and also after bytes have left the window: each node of a `TreeHistorySource` stands for one bit string that begins at whole bytes of the window and is followed there by both bits; every such string of at most 8 * max_order + 7 bits has exactly one node; `live_nodes_count` is the number of these strings, so no node is lost or left over; and the tree is degenerate exactly when there is none. A node's depth is the length of its string, its text start is a place in the window where the text agrees with the string, and its counts, estimator, recent bits and runs are those of the bits that follow the string in the window, in their order, after at most as many older ones as bytes left the window.", "quantifier": "every input, window size up to 2^31, initial shift and order, every node and every bit string, after every bit", "why_tests_cant": "Texts, windows and sequences of splits and removals are unbounded; the tests look at the contexts at the cursor only, and the integrity check does not count nodes or look at their statistics.", "anchors": ["src/history/tree/mod.rs: extend, split_degenerate_root_edge, remove_leftmost_suffix", "src/history/tree/context.rs: descend", "src/history/tree/nodes.rs: live_nodes_count"]}
{"id": "C65", "title": "The listing of the tree is a dictionary of the window", "statement": "Whatever was fed to a `TreeHistorySource`, also after bytes have left the window, `Tree::print` ends without a panic. It prints \"Empty tree\" when no string of at most 8 * max_order + 7 bits at whole bytes of the window is followed there by both bits. Otherwise it prints exactly one line for each such branching string and one for each branching string with one more bit that no branching string begins with. The lines come in dictionary order (a string before its continuations, 0 before 1), so the leaves are the different suffixes of the window sorted. Each line is indented by the number of branching strings its string properly begins with. A node's line shows the length of its string, a place in the window where the text agrees with it, the last seven bits that followed it and how often each bit did (up to 1000), counting at most as many older ones as bytes left the window; a leaf's line shows the last place in the window where its string is. The numbers of the nodes differ.", "quantifier": "for all inputs fed with the right number of cost trackers, all window sizes up to 2^31, all window starts and all orders with 8 * max_order + 7 < 2^16", "why_tests_cant": "The order of the lines and that none is missing depend on the whole history of insertions and removals; no test calls print, and its recursion is as deep as the input makes the tree.", "anchors": ["src/history/tree/mod.rs: Tree::print, print_node", "src/history/tree/node.rs: Display for Node", "src/history/tree/node_child.rs: is_node_index, to_node_index, to_window_index"]}
{"id": "C66", "title": "The size of the window does not matter to a text that fits into it", "statement": "Two predictors of the same mode and order whose history windows have different sizes give the same probability at every prediction, and stay the same in all but their trees, as long as all bytes told and the byte begun fit into both windows. So a file no longer than both window sizes compresses to the same stream with either, a stream written with one size is decompressed with the other, and any stream, also a damaged one, decodes with both to the same bytes or runs out of input with both.", "quantifier": "for all modes, all window sizes up to 2^31 bytes, all orders with 8 * max_order + 7 < 2^16, all sequences of calls that fit, all files of fewer than 2^25 bytes and all streams", "why_tests_cant": "Window positions are stored in the nodes, wrap around and depend on the size; that none of them reaches a probability is a statement about pairs of runs over all inputs.", "anchors": ["src/predictor/mod.rs: Predictor::new, start_new_byte, predict, update", "src/history/tree/mod.rs: TreeHistorySource", "src/history/window.rs: InputWindow", "src/coding/encoder.rs", "src/coding/decoder.rs"]}
{"id": "C67", "title": "The maximum order does not matter to a text that is shorter", "statement": "Two predictors of the same mode whose window sizes and maximum orders both differ give the same probability at every prediction, keep the same statistics and the same mixers for the orders both have, as long as the text fits into both windows and is at most two bytes longer than both orders. So such a file compresses to the same stream with either setting, a stream written with one is decompressed with the other, and any stream, also a damaged one, decodes with both to the same bytes or runs out of input with both.", "quantifier": "for all modes, all pairs of window sizes up to 2^31 bytes, all pairs of orders with 8 * max_order + 7 < 2^16, all sequences of calls that fit, all such files and all streams", "why_tests_cant": "The maximum order sizes the chain of mixers, the list of active contexts and the statistics and cuts off contexts at every bit; that an order no context reaches changes nothing is a statement about pairs of runs over all inputs.", "anchors": ["src/predictor/mod.rs: Predictor::new, start_new_byte, predict, update", "src/predictor/chain.rs: ContextsChainPredictionMixer", "src/predictor/stats.rs: PredictionStatistics", "src/history/tree/mod.rs: TreeHistorySource", "src/history/tree/context.rs: ActiveContexts"]}
{"id": "C68", "title": "Where the window begins in its ring buffer does not matter", "statement": "Two tree sources made with new_special with the same window size and maximum order but different initial shifts, fed the same bits with the same cost trackers, both run without a panic and report the same states after every input: the same distances, counts, estimates, runs and trackers in the same order. This holds also after the windows have wrapped around the buffer and slid any number of times. Both trees have the same number of live nodes and of nodes ever made.", "quantifier": "for all window sizes up to 2^31 bytes, all pairs of initial shifts below it, all orders with 8 * max_order + 7 < 2^16 and all inputs with trackers as the predictor supplies them, of any length", "why_tests_cant": "The wrap around of the buffer happens at another moment for every shift and window size, and every comparison and difference of places in the tree could go wrong there; the tests try a few shifts with short inputs. That no shift can be told from another is a statement about pairs of runs of any length.", "anchors": ["src/history/tree/mod.rs: TreeHistorySource::new_special, gather_history_states, process_input_bit, remove_leftmost_suffix", "src/history/window.rs: InputWindow::new, index_add, index_subtract, index_diff, advance_start, advance_cursor", "src/history/tree/context.rs: Context::descend, ActiveContexts::shift", "src/history/tree/nodes.rs: Nodes"]}
{"id": "C69", "title": "Which numbers of cost trackers a history source takes", "statement": "process_input_bit expects one cost tracker for each order that has met both bits. The tree source and the hash-map source panic when fewer come. When more come, the hash-map source panics unless every order up to the maximum has met both bits; the tree source panics unless that holds, or the context of the next order is new, or the window holds one byte over and over. In these cases the trackers past the expected number have no effect: the source afterwards is the one that got the expected number. So a wrong number is not always noticed, and the two sources do not notice the same ones.", "quantifier": "for all inputs with trackers as the predictor supplies them, all next bits and lists of trackers of any length, all window sizes, shifts and orders the sources support, also after the window of the tree has slid, and for any hash function", "why_tests_cant": "The checks are spread over the passes of loops, of which the tree skips those for orders without an active context; no test supplies a wrong number, and which ones pass depends on the contexts of the whole text in the window.", "anchors": ["src/history/tree/mod.rs: TreeHistorySource::process_input_bit, Tree::extend", "src/history/fat_map.rs: FatMapHistorySource::process_input_bit", "src/history/mod.rs: HistorySource"]}
{"id": "C70", "title": "A node deleted twice, or the root deleted, is noticed only at a later addition", "statement": "Nodes::delete_node of a slot that is already deleted does not panic. live_nodes_count is then one too low. Nodes added after that get the slot deleted twice, then the slots deleted after its first deletion, last one first: each once, and never one that is live. The addition after these panics, even while other slots below the limit are free. delete_node of the root does not panic either, but every later add_node and delete_node does, also when a root is stored again. Only the deletion of a root that is not stored, or of a slot never used, panics at once.", "quantifier": "for every allocator that arises by any sequence of additions, stores, deletions and clearings of the root within any limit up to 2^31, every deleted slot, and additions of any number of valid nodes", "why_tests_cant": "The deleted slots form a list threaded through the nodes themselves, and a second deletion ties it into a loop; that the loop is always caught by an assertion before a node is overwritten depends on the whole history of deletions, and no test misuses the allocator.", "anchors": ["src/history/tree/nodes.rs: Nodes::add_node, Nodes::delete_node, Nodes::update_node, Nodes::live_nodes_count, Index for Nodes", "src/history/tree/node_child.rs: NodeChild::is_valid, From<NodeIndex> for NodeChild"]}
