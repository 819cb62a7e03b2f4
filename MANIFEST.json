{
 "claims": [
  {
   "property": "C01",
   "status": "proved",
   "theorems": [
    "C01_cuckoo_no_loss",
    "C01_cuckoo_insert_defined",
    "C01_cuckoo_insert_items"
   ],
   "note": "All table sizes, 1-3 hash functions, all batches, any reinsert limit; also no undefined behaviour and termination of the 8-lane loop."
  },
  {
   "property": "C02",
   "status": "proved",
   "theorems": [
    "C02_cuckoo_find"
   ],
   "note": "Single lookup after any successful inserts."
  },
  {
   "property": "C03",
   "status": "proved",
   "theorems": [
    "C03_cuckoo_overflow",
    "C01_cuckoo_no_loss"
   ],
   "note": "C01_cuckoo_no_loss gives: a call that returns has placed everything. C03_cuckoo_overflow describes the object after a throw."
  },
  {
   "property": "C04",
   "status": "partial",
   "theorems": [
    "C04_batch_lookup_refuted",
    "C04_batch_lookup_writes_nothing_partial"
   ],
   "note": "REFUTED: the batch lookup computes its results in a local array and never writes the caller's array. Proved instead: the output is always left unchanged."
  },
  {
   "property": "C05",
   "status": "partial",
   "theorems": [
    "C05_concurrent_refuted",
    "C05_concurrent_exclusive_partial"
   ],
   "note": "REFUTED: the stash test and the stash swap are two steps; two threads can use the same slot and an item is lost. Proved: for every schedule where at most one thread is in the stash phase at a time, nothing is lost."
  },
  {
   "property": "C07",
   "status": "partial",
   "theorems": [
    "C07_simple_hashing_refuted",
    "C07_simple_hashing_partial",
    "C07_simple_hashing_defined"
   ],
   "note": "REFUTED: the remainder loop advances by 8, so for n mod 8 > 1 only one remaining item is inserted. Proved for every n with n mod 8 <= 1; no undefined behaviour."
  },
  {
   "property": "C08",
   "status": "partial",
   "theorems": [
    "C08_simple_hashing_two_refuted",
    "C08_simple_hashing_rows_refuted",
    "C08_simple_hashing_partial",
    "C08_simple_hashing_defined_partial"
   ],
   "note": "REFUTED for more than 8 items: the bin-map row is taken from the wrong counter and rows out of range are written. Proved for at most 8 items."
  },
  {
   "property": "C09",
   "status": "proved",
   "theorems": [
    "C09_bin_size",
    "C09_bin_size_sound",
    "C09_bin_size_too_many"
   ],
   "note": "Estimator is an arbitrary function to Z."
  },
  {
   "property": "C10",
   "status": "proved",
   "theorems": [
    "C10_concurrent_push"
   ],
   "note": "Any number of threads, any schedule."
  },
  {
   "property": "C11",
   "status": "proved",
   "theorems": [
    "C11_cuckoo_word",
    "C11_simple_item"
   ],
   "note": ""
  },
  {
   "property": "C12",
   "status": "proved",
   "theorems": [
    "C12_merge_shuffle"
   ],
   "note": "Includes termination and absence of out-of-bounds accesses. std::shuffle is assumed to permute."
  },
  {
   "property": "C13",
   "status": "partial",
   "theorems": [
    "C13_parallel_shuffle_refuted",
    "C13_parallel_shuffle_noop_partial"
   ],
   "note": "REFUTED: the shuffle is applied to an empty range. Proved: the call changes nothing at all."
  },
  {
   "property": "C34",
   "status": "proved",
   "theorems": [
    "C34_even_split",
    "C34_ceil_split",
    "C34_ot_split"
   ],
   "note": "All three ways of splitting used in the code; products assumed to fit in 64 bits."
  },
  {
   "property": "C46",
   "status": "partial",
   "theorems": [
    "C46_rr17b_bin_split_refuted",
    "C46_rr17b_bin_split_partial"
   ],
   "note": "REFUTED: 10 bins, 4 channels. Proved equal when the channel count divides the bin count."
  },
  {
   "property": "C21",
   "status": "proved",
   "theorems": [
    "C21_kkrt_intersection"
   ],
   "note": "All sets, seeds, permutations, schedules under which the sender finishes (C22: all fair ones). OPRF is an arbitrary function. Sender set not empty (see C64). Output duplicate free if the sender set is."
  },
  {
   "property": "C22",
   "status": "proved",
   "theorems": [
    "C22_schedule_independent",
    "C22_sender_terminates"
   ],
   "note": "Every schedule of the background thread; no bin is evaluated before its correction arrived; terminates under every schedule that gives both threads enough turns. Sender set not empty (see C64)."
  },
  {
   "property": "C23",
   "status": "partial",
   "theorems": [
    "C23_channel_clean_refuted",
    "C23_channel_clean_partial"
   ],
   "note": "REFUTED: the sender sends a last one-byte message that the receiver does not receive (its recv is commented out). Proved: everything else is received, in order."
  },
  {
   "property": "C24",
   "status": "proved",
   "theorems": [
    "C24_mask_framing"
   ],
   "note": ""
  },
  {
   "property": "C25",
   "status": "partial",
   "theorems": [
    "C25_repeated_runs_refuted",
    "C25_repeated_runs_partial"
   ],
   "note": "REFUTED: mIntersection is never cleared. Proved: a run appends its result to the old output; the first run on an object is C21."
  },
  {
   "property": "C62",
   "status": "proved",
   "theorems": [
    "C62_sender_permutation"
   ],
   "note": ""
  },
  {
   "property": "C63",
   "status": "partial",
   "theorems": [
    "C63_distinct_masks_refuted",
    "C21_kkrt_intersection"
   ],
   "note": "REFUTED: masks are looked up by their first 64 bits and a second entry with the same key is dropped. C21 is the guarded version."
  },
  {
   "property": "C64",
   "status": "partial",
   "theorems": [
    "C64_empty_sender_set_refuted",
    "C22_schedule_independent"
   ],
   "note": "REFUTED: mPermute[0] is read although the set is empty. Non-empty sets: C22_schedule_independent."
  },
  {
   "property": "C14",
   "status": "proved",
   "theorems": [
    "C14_point_function"
   ],
   "note": ""
  },
  {
   "property": "C15",
   "status": "proved",
   "theorems": [
    "C15_full_domain"
   ],
   "note": ""
  },
  {
   "property": "C16",
   "status": "proved",
   "theorems": [
    "C16_query"
   ],
   "note": ""
  },
  {
   "property": "C17",
   "status": "proved",
   "theorems": [
    "C17_generator"
   ],
   "note": "On a fresh object; re-initialisation is C65."
  },
  {
   "property": "C18",
   "status": "proved",
   "theorems": [
    "C18_multi_key"
   ],
   "note": ""
  },
  {
   "property": "C20",
   "status": "proved",
   "theorems": [
    "C20_key_shape"
   ],
   "note": ""
  },
  {
   "property": "C65",
   "status": "partial",
   "theorems": [
    "C65_generator_reuse_refuted",
    "C65_generator_root_refuted",
    "C17_generator"
   ],
   "note": "REFUTED: prev.resize(1, k[0]) keeps the old root and the counters are not reset. Fresh objects: C17_generator."
  },
  {
   "property": "C66",
   "status": "partial",
   "theorems": [
    "C66_byte_positions_refuted",
    "C66_byte_positions_partial"
   ],
   "note": "REFUTED for group size 3. Proved for group sizes that are powers of two."
  },
  {
   "property": "C67",
   "status": "partial",
   "theorems": [
    "C67_stays_exhausted_refuted",
    "C67_stays_exhausted_partial"
   ],
   "note": "REFUTED: mGIdx is reset before the throw. Proved: the rows of the last leaf are returned again."
  },
  {
   "property": "C58",
   "status": "proved",
   "theorems": [
    "C58_binary_read",
    "C58_binary_roundtrip",
    "C58_binary_write"
   ],
   "note": ""
  },
  {
   "property": "C59",
   "status": "proved",
   "theorems": [
    "C59_csv_read",
    "C59_text_injective"
   ],
   "note": "isxdigit of bytes above 127 is taken as false (glibc); the standard leaves it undefined."
  },
  {
   "property": "C60",
   "status": "proved",
   "theorems": [
    "C60_csv_write"
   ],
   "note": ""
  },
  {
   "property": "C61",
   "status": "proved",
   "theorems": [
    "C61_padding"
   ],
   "note": ""
  },
  {
   "property": "C68",
   "status": "partial",
   "theorems": [
    "C68_line_endings_refuted",
    "C68_line_endings_partial"
   ],
   "note": "REFUTED: the carriage return stays in the row. Proved: what is read instead."
  },
  {
   "property": "C69",
   "status": "proved",
   "theorems": [
    "C69_debug_duplicates"
   ],
   "note": ""
  },
  {
   "property": "C70",
   "status": "proved",
   "theorems": [
    "C70_sessions_agree"
   ],
   "note": ""
  },
  {
   "property": "C35",
   "status": "partial",
   "theorems": [
    "C35_dcw_complete_refuted",
    "C35_dcw_complete_partial"
   ],
   "note": "REFUTED for arbitrary OT messages: an encoding whose low 64 bits are 0 is the empty key of the receiver's dense_hash_map, which must not be inserted. Proved, for any number of channels: whenever the run gives an answer every common item is reported, and it gives an answer if the encodings' low halves are distinct and nonzero."
  },
  {
   "property": "C36",
   "status": "proved",
   "theorems": [
    "C36_dcw_sound",
    "C36_equal_keys_throw"
   ],
   "note": ""
  },
  {
   "property": "C72",
   "status": "proved",
   "theorems": [
    "C72_dcw_duplicate_input"
   ],
   "note": ""
  },
  {
   "property": "C73",
   "status": "partial",
   "theorems": [
    "C73_dcw_repeated_runs_refuted",
    "C73_dcw_repeated_runs_partial"
   ],
   "note": "REFUTED: the output vector is not cleared. Proved: nothing else of the old state matters."
  },
  {
   "property": "C32",
   "status": "partial",
   "theorems": [
    "C32_ecdh_complete_refuted",
    "C32_ecdh_complete_partial"
   ],
   "note": "REFUTED: the receiver's map is keyed by the first 32 bits of a block and keeps only the first block per key. Proved, for any channel count and any order of the threads' insertions: every common item whose block has a unique 32-bit prefix among the sender's items is reported, and every complete schedule ends with an answer. Premises about the external library: point decoding inverts encoding, scalar multiplications commute, oracle outputs agree (C74)."
  },
  {
   "property": "C74",
   "status": "partial",
   "theorems": [
    "C74_same_point_refuted",
    "C74_same_point_partial"
   ],
   "note": "REFUTED for oracles that depend on the output length (the receiver uses the default length, the sender 16). Proved for prefix-consistent oracles. The oracle is not in the repository."
  },
  {
   "property": "C37",
   "status": "proved",
   "theorems": [
    "C37_honest_permutation"
   ],
   "note": ""
  },
  {
   "property": "C38",
   "status": "partial",
   "theorems": [
    "C38_hash_schedule_refuted",
    "C38_hash_schedule_partial",
    "C38_one_channel_partial"
   ],
   "note": "REFUTED: the scratch buffer bv is shared by all threads, so an interleaving gives an item the positions of another thread's item. Holds for schedules that do not interrupt an item, and for one channel."
  },
  {
   "property": "C39",
   "status": "partial",
   "theorems": [
    "C39_invalid_permutation_refuted",
    "C39_out_of_range_refuted",
    "C39_invalid_permutation_partial"
   ],
   "note": "REFUTED: after a repeated entry the promise is completed twice, so sendInput throws with its threads still joinable; an entry beyond the OTs is undefined behaviour. What holds: with in-range entries no masks are sent unless the entries are distinct and unopened."
  },
  {
   "property": "C75",
   "status": "proved",
   "theorems": [
    "C75_table_fits"
   ],
   "note": ""
  },
  {
   "property": "C76",
   "status": "proved",
   "theorems": [
    "C76_rr16_exact"
   ],
   "note": "Assumes private hash buffers (see C38)."
  },
  {
   "property": "C40",
   "status": "proved",
   "theorems": [
    "C40_single_channel_complete"
   ],
   "note": ""
  },
  {
   "property": "C41",
   "status": "partial",
   "theorems": [
    "C41_channels_refuted",
    "C41_channels_partial",
    "C77_single_channel_exact"
   ],
   "note": "REFUTED: each thread looks only in its own maskMap while the masks of a bin may arrive on another channel. Proved: any number of channels reports a sub-multiset of the intersection; one channel reports all of it (C77)."
  },
  {
   "property": "C42",
   "status": "partial",
   "theorems": [
    "C42_phase_refuted",
    "C42_run_refuted",
    "C42_phase_iff",
    "C42_phase_partial"
   ],
   "note": "REFUTED: items 0 and 3 with three bins; a run with disjoint sets then reports an item. Proved: with as many bins as items exactly the powers of two are fine; in general whenever 2^phase does not exceed the bin count."
  },
  {
   "property": "C43",
   "status": "partial",
   "theorems": [
    "C43_inputs_refuted",
    "C43_inputs_partial"
   ],
   "note": "REFUTED without hashing to a smaller domain: both vectors are shifted in place. Proved with hashing, for every outcome."
  },
  {
   "property": "C44",
   "status": "proved",
   "theorems": [
    "C44_buffer_release"
   ],
   "note": "Chunk counts below 2^32; completion callbacks run once per queued chunk."
  },
  {
   "property": "C77",
   "status": "proved",
   "theorems": [
    "C77_single_channel_exact"
   ],
   "note": ""
  },
  {
   "property": "C78",
   "status": "proved",
   "theorems": [
    "C78_ot_slots"
   ],
   "note": ""
  },
  {
   "property": "C79",
   "status": "partial",
   "theorems": [
    "C79_key_read_refuted",
    "C79_key_read_partial"
   ],
   "note": "REFUTED: the key is read as eight bytes, masks may have seven. Proved: exactly the mask sizes from eight on are fine."
  },
  {
   "property": "C45",
   "status": "partial",
   "theorems": [
    "C45_buffer_refuted",
    "C45_buffer_partial"
   ],
   "note": "REFUTED: the counter starts at zero and is raised per chunk, so a first chunk that completes before the second is queued releases the buffer. Proved for the orders in which some chunk is outstanding until all are queued."
  },
  {
   "property": "C47",
   "status": "proved",
   "theorems": [
    "C47_single_channel_exact"
   ],
   "note": "OT encodings, tags and keys are arbitrary functions, tag collisions included; commitments binding on the values tried; inputs distinct; items fit the bins."
  },
  {
   "property": "C48",
   "status": "proved",
   "theorems": [
    "C48_aligned"
   ],
   "note": "Every message of the announced size, every lookup function."
  },
  {
   "property": "C80",
   "status": "partial",
   "theorems": [
    "C80_channels_refuted",
    "C80_channels_partial",
    "C80_divides_partial"
   ],
   "note": "REFUTED: 10 bins and 4 channels; the sender waits for corrections that the receiver sends on another channel. Proved: every run that completes is exact, and it completes whenever the channel count divides the bin count."
  },
  {
   "property": "C81",
   "status": "proved",
   "theorems": [
    "C81_insert_before_lookup"
   ],
   "note": "Holds with an honest sender: the order comes from the sender waiting for all corrections at its barrier."
  },
  {
   "property": "C82",
   "status": "proved",
   "theorems": [
    "C82_threads",
    "C82_order"
   ],
   "note": "A region writes its own row only; interleavings inside a region are not distinguished."
  },
  {
   "property": "C26",
   "status": "proved",
   "theorems": [
    "C26_slot_partition",
    "C26_first_slot"
   ],
   "note": ""
  },
  {
   "property": "C27",
   "status": "proved",
   "theorems": [
    "C27_domain_covers"
   ],
   "note": "Every block size; client and server derive the parameters by the same formula."
  },
  {
   "property": "C28",
   "status": "proved",
   "theorems": [
    "C28_masked_answers"
   ],
   "note": ""
  },
  {
   "property": "C30",
   "status": "proved",
   "theorems": [
    "C30_find"
   ],
   "note": ""
  },
  {
   "property": "C31",
   "status": "partial",
   "theorems": [
    "C31_positions_refuted",
    "C31_positions_partial"
   ],
   "note": "REFUTED for block size 8 (the default): queries of different items share a mask position. Proved for block size one."
  },
  {
   "property": "C06",
   "status": "partial",
   "theorems": [
    "C06_select_params_refuted",
    "C06_select_params_partial",
    "C06_secure"
   ],
   "note": "REFUTED: the requested stash size is ignored (selectParams always returns a stash of zero, also for two hash functions with a requested stash). Everything else requested is honoured (C06_select_params_partial), and the expansion factor meets the requested security under the estimate in use, being the smallest one tried that does for two hash functions (C06_secure)."
  },
  {
   "property": "C54",
   "status": "proved",
   "theorems": [
    "C54_balanced",
    "C54_defined"
   ],
   "note": "For any cipher, any order of map iteration and any random choices: if insertion into a new object returns, no bin exceeds the bound, every item index is in exactly one bin and that bin is one of its two. No access out of range."
  },
  {
   "property": "C55",
   "status": "partial",
   "theorems": [
    "C55_hash_number_refuted",
    "C55_hash_number_partial"
   ],
   "note": "REFUTED: an item moved by the balancing loop keeps its old hash number (BalancedIndex.cpp:147-170). Holds when the greedy first pass keeps to the bound, so that nothing is moved."
  },
  {
   "property": "C56",
   "status": "partial",
   "theorems": [
    "C56_terminates_refuted",
    "C56_terminates_partial"
   ],
   "note": "REFUTED: a bin leaves the heavy list only when it falls below the bound, not when it reaches it (BalancedIndex.cpp:153); a two-item instance with a valid allocation loops for every sequence of random choices. Terminates when the greedy first pass keeps to the bound."
  },
  {
   "property": "C49",
   "status": "partial",
   "theorems": [
    "C49_loads_refuted",
    "C49_loads_partial"
   ],
   "note": "REFUTED: in threshold mode the threshold is cut to a byte without check (256 gives load 0). Proved for the other three modes for all noise, and for thresholds up to 255 with get_bin_size at most 255 and at least the capacity."
  },
  {
   "property": "C50",
   "status": "partial",
   "theorems": [
    "C50_complete_refuted",
    "C50_complete_partial",
    "C50_noise_partial"
   ],
   "note": "REFUTED \"whatever the noise\": a negative number of padding rows makes the sender write past its buffer. Proved for non-negative padding, all loads in range, all channel counts, schedules and padding contents; also with the loads as computeLoads produces them. Keys equal to the empty key of the hash map are excluded."
  },
  {
   "property": "C86",
   "status": "partial",
   "theorems": [
    "C86_exact_refuted",
    "C86_exact_partial"
   ],
   "note": "REFUTED: padding rows are uninitialised memory and can match. Proved when no padding row has the key of one of the masks of the receiver."
  },
  {
   "property": "C87",
   "status": "partial",
   "theorems": [
    "C87_capacity_refuted",
    "C87_capacity_partial"
   ],
   "note": "REFUTED for a statistical security parameter below 40. Proved for the modes without threshold when get_bin_size(.., 40) is at most the capacity."
  },
  {
   "property": "C88",
   "status": "partial",
   "theorems": [
    "C88_inputs_refuted",
    "C88_inputs_partial"
   ],
   "note": "REFUTED without hashing to a smaller domain. Proved with it."
  },
  {
   "property": "C51",
   "status": "partial",
   "theorems": [
    "C51_complete_refuted",
    "C51_complete_partial",
    "C51_channels_partial",
    "C51_exact_partial"
   ],
   "note": "REFUTED: every item of a thread is masked with the point of the last item of the thread (DktMPsiReceiver.cpp:213,217), so only the last common item of a range is found. Holds for the last item of each range, for one item per channel, and the exact output is characterised."
  },
  {
   "property": "C52",
   "status": "partial",
   "theorems": [
    "C52_reject_refuted",
    "C52_sizes_partial",
    "C52_ignored_partial"
   ],
   "note": "REFUTED: the throw after a failed proof is commented out (DktMPsiSender.cpp:339-348). Only wrong message sizes are rejected; the masks do not depend on the responses at all."
  },
  {
   "property": "C53",
   "status": "proved",
   "theorems": [
    "C53_accepts"
   ],
   "note": "Group laws and the oracles are hypotheses on the record of operations."
  },
  {
   "property": "C89",
   "status": "partial",
   "theorems": [
    "C89_honest_refuted",
    "C89_honest_partial"
   ],
   "note": "REFUTED for two channels: X is built from the items of the receiver's first thread only. Proved for one channel. ggg is never assigned in the code on either side; the partial theorem assumes both sides hold the same value."
  },
  {
   "property": "C90",
   "status": "proved",
   "theorems": [
    "C90_sound"
   ],
   "note": ""
  },
  {
   "property": "C91",
   "status": "proved",
   "theorems": [
    "C91_oneKey"
   ],
   "note": "Group of prime order; special soundness of the AND of the proofs, for any transcript."
  },
  {
   "property": "C92",
   "status": "partial",
   "theorems": [
    "C92_lifetime_refuted",
    "C92_receiver_partial",
    "C92_sender_partial"
   ],
   "note": "REFUTED for the sender with two channels: thread 0 hands out pointers to its locals and returns (DktMPsiSender.cpp:286,300-303). Proved for the receiver with any number of channels and for the sender with one."
  },
  {
   "property": "C93",
   "status": "proved",
   "theorems": [
    "C93_receiver",
    "C93_sender"
   ],
   "note": ""
  },
  {
   "property": "C57",
   "status": "partial",
   "theorems": [
    "C57_small_refuted",
    "C57_overread",
    "C57_small_partial"
   ],
   "note": "REFUTED: the pointer into the received masks is advanced for every local mask, so with two local masks of one hash number the comparison reads beyond the message (for every input, C57_overread). Holds with at most one local mask per hash number."
  },
  {
   "property": "C95",
   "status": "proved",
   "theorems": [
    "C95_match"
   ],
   "note": ""
  },
  {
   "property": "C97",
   "status": "partial",
   "theorems": [
    "C97_points_refuted",
    "C97_points_partial"
   ],
   "note": "REFUTED: the hash number is XORed into the item, so items x and x^1 give the same point. Holds if no two items differ exactly in the last bit."
  },
  {
   "property": "C98",
   "status": "partial",
   "theorems": [
    "C98_pack_refuted",
    "C98_pack_partial"
   ],
   "note": "REFUTED: a polynomial of lower degree writes fewer coefficients and all later bins of the step are read at the wrong offset. Holds if every polynomial has the full number of coefficients. The sender's file is not valid C++ as given (PrtySender.cpp:60 calls simple.init with two arguments missing, and lines 140 and 226 use mBins in two incompatible ways): its bins are assumed to be those of the receiver's allocation, which the lines that are there do not give (C189)."
  },
  {
   "property": "C99",
   "status": "partial",
   "theorems": [
    "C99_eval_refuted",
    "C99_eval_partial",
    "C99_eval_fails",
    "C99_reuse"
   ],
   "note": "REFUTED: with a thread count that is neither a power of two nor three an inner node stays zero and the division fails, and with more than half as many threads as points the arrays are left (characterised exactly in C99_eval_fails). Holds for powers of two and three."
  },
  {
   "property": "C100",
   "status": "partial",
   "theorems": [
    "C100_inter_refuted",
    "C100_inter_partial",
    "C100_inter_fails",
    "C100_reuse",
    "C100_single"
   ],
   "note": "REFUTED: with a thread count that is not a power of two the root of the tree is zero and the run fails. Holds for powers of two; repeated points throw and too many threads leave the arrays (C100_inter_fails), as does a single point (C100_single)."
  },
  {
   "property": "C101",
   "status": "proved",
   "theorems": [
    "C101_race",
    "C101_cover"
   ],
   "note": ""
  },
  {
   "property": "C102",
   "status": "partial",
   "theorems": [
    "C102_size_refuted",
    "C102_ub_refuted",
    "C102_coeff_refuted",
    "C102_exchange_partial",
    "C102_short"
   ],
   "note": "REFUTED: the sender builds its tree for the number of the receiver's items, so with more items of its own the later ones get the value zero, and with fewer the array is left; a coefficient of 2^128 or more is cut; a polynomial of lower degree is read beyond its end. Holds for the first items if there are at least as many, for polynomials of full degree with coefficients that fit."
  },
  {
   "property": "C103",
   "status": "proved",
   "theorems": [
    "C103_slices"
   ],
   "note": "Whether the numbers are prime is not proved; C102 takes a field."
  },
  {
   "property": "C104",
   "status": "partial",
   "theorems": [
    "C104_overread_refuted"
   ],
   "note": "REFUTED for every message: the loop stops when the position reaches the end, after it has read a difference from there."
  },
  {
   "property": "C105",
   "status": "partial",
   "theorems": [
    "C105_send_refuted",
    "C105_send_exact",
    "C105_send_partial"
   ],
   "note": "REFUTED: 64 receiver items and 8 sender items give 49 bytes in a buffer of 48. The exact condition is proved; from 100 masks on, without an all-ones difference, everything fits."
  },
  {
   "property": "C107",
   "status": "partial",
   "theorems": [
    "C107_steps_refuted",
    "C107_steps_partial",
    "C107_messages"
   ],
   "note": "REFUTED: a thread with one mask sends nothing, with fewer masks than threads the loop bound underflows, and short steps overflow their buffer. Holds with two masks per thread as far as the steps are concerned; C107_messages says when the buffers suffice."
  },
  {
   "property": "C108",
   "status": "proved",
   "theorems": [
    "C108_retained"
   ],
   "note": "One call at a time."
  },
  {
   "property": "C109",
   "status": "partial",
   "theorems": [
    "C109_overflow_refuted",
    "C109_insert_ub",
    "C109_earlier_refuted",
    "C109_insert_partial",
    "C109_batch_partial",
    "C109_batch_throws",
    "C109_workspace_ub"
   ],
   "note": "REFUTED: insert runs over the end of the stash (undefined behaviour) whenever it is full; a batch that throws may lose an item of an earlier call. Holds: insert fails only then, insertBatch with a large enough workspace is always defined and throws only with a full stash; a shorter workspace is not rejected."
  },
  {
   "property": "C110",
   "status": "proved",
   "theorems": [
    "C110_find"
   ],
   "note": ""
  },
  {
   "property": "C111",
   "status": "partial",
   "theorems": [
    "C111_batch_refuted",
    "C111_answers",
    "C111_batch_partial"
   ],
   "note": "REFUTED for two items with the same hash values. Every answer of findBatch is right, and equal to that of find if the rows are distinct."
  },
  {
   "property": "C112",
   "status": "partial",
   "theorems": [
    "C112_same_refuted",
    "C112_limit_refuted",
    "C112_same_partial"
   ],
   "note": "REFUTED: the eviction limits differ by one, so other items end in the stash. Holds if the batch leaves the stash as it was."
  },
  {
   "property": "C113",
   "status": "partial",
   "theorems": [
    "C113_twice_refuted",
    "C113_batch_refuted",
    "C113_twice_partial"
   ],
   "note": "REFUTED: with first hash value 2^64-1 the index is stored twice, and insertBatch of the release build never checks. Holds for insert and any other first hash value."
  },
  {
   "property": "C114",
   "status": "partial",
   "theorems": [
    "C114_reinit_refuted",
    "C114_init_partial"
   ],
   "note": "REFUTED: init resizes, so a used table keeps its items. Holds for a new object."
  },
  {
   "property": "C115",
   "status": "proved",
   "theorems": [
    "C115_params"
   ],
   "note": ""
  },
  {
   "property": "C116",
   "status": "proved",
   "theorems": [
    "C116_simple"
   ],
   "note": ""
  },
  {
   "property": "C117",
   "status": "proved",
   "theorems": [
    "C117_retained"
   ],
   "note": "Sequentially consistent memory; the data race is C119."
  },
  {
   "property": "C118",
   "status": "proved",
   "theorems": [
    "C118_progress",
    "C118_stops"
   ],
   "note": ""
  },
  {
   "property": "C119",
   "status": "partial",
   "theorems": [
    "C119_race_refuted",
    "C119_writes_partial"
   ],
   "note": "REFUTED: the thread that evicts an item reads the hash row that another thread wrote, and only relaxed atomics are between the two. Holds: no word is written by two threads."
  },
  {
   "property": "C120",
   "status": "partial",
   "theorems": [
    "C120_find_refuted",
    "C120_find_partial"
   ],
   "note": "REFUTED: while an item is in the hand of the thread that evicted it, find misses it. Holds: at any time find is sound and complete for the items that are in the table."
  },
  {
   "property": "C121",
   "status": "proved",
   "theorems": [
    "C121_eval",
    "C121_throws"
   ],
   "note": ""
  },
  {
   "property": "C122",
   "status": "proved",
   "theorems": [
    "C122_pad",
    "C122_uniform"
   ],
   "note": ""
  },
  {
   "property": "C123",
   "status": "partial",
   "theorems": [
    "C123_exchange_refuted",
    "C123_exchange_partial"
   ],
   "note": "REFUTED: a polynomial of lower degree has fewer coefficients, the following coefficients move up in the buffer and the sender reads other polynomials. Holds if no shorter polynomial passes through the points of any bin. The sender's file is not valid C++ as given (PrtySender.cpp:60 calls simple.init with two arguments missing, and lines 140 and 226 use mBins in two incompatible ways): its bins are assumed to be those of the receiver's allocation, which the lines that are there do not give (C189)."
  },
  {
   "property": "C94",
   "status": "proved",
   "theorems": [
    "C94_masks",
    "C94_rows",
    "C94_ntl"
   ],
   "note": "C94_ntl: with the interpolation of polyNTL instead of an arbitrary one. The sender's file is not valid C++ as given (PrtySender.cpp:60 calls simple.init with two arguments missing, and lines 140 and 226 use mBins in two incompatible ways): its bins are assumed to be those of the receiver's allocation, which the lines that are there do not give (C189)."
  },
  {
   "property": "C96",
   "status": "partial",
   "theorems": [
    "C96_run_refuted",
    "C96_run_partial",
    "C96_ntl_partial"
   ],
   "note": "REFUTED: items moved by balancing keep the wrong hash number and are not found. Holds if the first pass keeps to the bin bound, no two items differ exactly in the last bit, and the sets are so large that masks have eight bytes (small sets: C57). C96_ntl_partial: with the interpolation of polyNTL. The sender's file is not valid C++ as given (PrtySender.cpp:60 calls simple.init with two arguments missing, and lines 140 and 226 use mBins in two incompatible ways): its bins are assumed to be those of the receiver's allocation, which the lines that are there do not give (C189)."
  },
  {
   "property": "C124",
   "status": "proved",
   "theorems": [
    "C124_placements",
    "C124_bin_size",
    "C124_estimate_one_bin"
   ],
   "note": "Model with exact arithmetic: rounding of the 300-bit floats is not modelled."
  },
  {
   "property": "C125",
   "status": "proved",
   "theorems": [
    "C125_hasher"
   ],
   "note": "Exact arithmetic for the size search."
  },
  {
   "property": "C126",
   "status": "proved",
   "theorems": [
    "C126_rr17a_completes"
   ],
   "note": "OT checks of libOTe are arbitrary conversations on which both parties agree. Exceptions inside threads are not modelled."
  },
  {
   "property": "C127",
   "status": "partial",
   "theorems": [
    "C127_rr17b_completes_refuted",
    "C127_rr17b_completes_partial"
   ],
   "note": "REFUTED: with three bins and two threads the sender's first thread expects the corrections of two bins and gets those of one, because the sender splits bins by ceiling and the receiver evenly. Proved when the number of threads divides the number of bins."
  },
  {
   "property": "C128",
   "status": "proved",
   "theorems": [
    "C128_grr18_completes"
   ],
   "note": "Sizes of the OT check messages are arbitrary. The loads are those that the parties announce."
  },
  {
   "property": "C129",
   "status": "proved",
   "theorems": [
    "C129_rr16_completes"
   ],
   "note": "A rejected permutation is the subject of C39. The receiver takes mask messages of any size."
  },
  {
   "property": "C130",
   "status": "proved",
   "theorems": [
    "C130_rr17a",
    "C130_rr17b",
    "C130_grr18",
    "C130_rr16"
   ],
   "note": "That a failed check throws, and the exception ends the run, is libOTe code."
  },
  {
   "property": "C131",
   "status": "proved",
   "theorems": [
    "C131_rr17a",
    "C131_grr18",
    "C131_rr16",
    "C131_rr16_filter"
   ],
   "note": ""
  },
  {
   "property": "C132",
   "status": "partial",
   "theorems": [
    "C132_rr17b_refuted",
    "C132_rr17b_partial",
    "C132_rr17b_even_partial"
   ],
   "note": "REFUTED: the receiver has no barrier between insertions (under a mutex) and lookups (without it); a sender that sends its masks early makes a thread search the table while another inserts. Proved with the sender of the repository, if every sender thread receives something from its receiver thread before the checks end, for example if the number of threads divides the positive number of bins."
  },
  {
   "property": "C133",
   "status": "partial",
   "theorems": [
    "C133_kkrt_refuted",
    "C133_kkrt_partial"
   ],
   "note": "REFUTED: with 5600 items on both sides and 40 bits the mask has 64 bits and the probability exceeds 2^-40, because the conversion to u64 cuts off the fraction of the logarithm. Proved: at most 2 * 2^-mStatSecParam for all sizes whose product fits in 64 bits."
  },
  {
   "property": "C134",
   "status": "partial",
   "theorems": [
    "C134_ecdh_refuted",
    "C134_prty_refuted",
    "C134_ecdh_partial",
    "C134_prty_partial",
    "C134_prty_run"
   ],
   "note": "REFUTED: the parameter is ignored; with 1024 items and s = 60 the probability exceeds 2^-60. Proved for s <= 39. PRTY: the masks of output(), not those of outputBestComm()."
  },
  {
   "property": "C135",
   "status": "partial",
   "theorems": [
    "C135_rr17a_refuted",
    "C135_rr17a_partial"
   ],
   "note": "REFUTED: std::log is the natural logarithm. With 2^20 items, bins of 16 and 40 bits of security the masks have 72 bits and the probability exceeds 2^-25. Proved: at most 4 * n * B * 2^-mStatSecParam. GRR18 uses the same formula. Uses the axioms of the standard library's real numbers (listed in DESIGN.md)."
  },
  {
   "property": "C136",
   "status": "partial",
   "theorems": [
    "C136_opening_refuted",
    "C136_force_refuted",
    "C136_agree_partial",
    "C136_random_partial"
   ],
   "note": "REFUTED: theirComm is received and never checked; for every commitment function one peer forces any hash seed of its choice. Proved: honest parties agree, and against an honest party every seed comes from exactly one own share."
  },
  {
   "property": "C137",
   "status": "proved",
   "theorems": [
    "C137_both_ways",
    "C137_one_way"
   ],
   "note": "The OT protocols are parameters (trusted base). The case that base OTs were set by the caller before init is not covered."
  },
  {
   "property": "C138",
   "status": "proved",
   "theorems": [
    "C138_rr17a",
    "C138_rr17b",
    "C138_grr18",
    "C138_rr16"
   ],
   "note": "RR16: with the OT set-up as one conversation on the first channel."
  },
  {
   "property": "C139",
   "status": "proved",
   "theorems": [
    "C139_rr17a",
    "C139_rr17b"
   ],
   "note": "RR17a: exactly as many. RR17b: for (bins + threads) * threads < 2^64."
  },
  {
   "property": "C140",
   "status": "proved",
   "theorems": [
    "C140_ecdh_completes",
    "C140_dcw_completes",
    "C140_dkt_completes",
    "C140_ecdh_unequal",
    "C140_dkt_unequal"
   ],
   "note": "DCW: the OT protocols are arbitrary conversations. The unequal theorems show that the hypothesis is needed."
  },
  {
   "property": "C141",
   "status": "proved",
   "theorems": [
    "C141_ecdh_lookups",
    "C141_dkt_lookups",
    "C141_dkt_hashed"
   ],
   "note": ""
  },
  {
   "property": "C142",
   "status": "partial",
   "theorems": [
    "C142_ecdh",
    "C142_dkt_refuted",
    "C142_dkt_partial"
   ],
   "note": "REFUTED for DKT: one thread sends its masks while another still waits for proofs. Proved for ECDH, and in DKT for each thread with its own part."
  },
  {
   "property": "C143",
   "status": "partial",
   "theorems": [
    "C143_vector",
    "C143_copy",
    "C143_dcw_refuted",
    "C143_dcw_shared_refuted",
    "C143_dcw_partial"
   ],
   "note": "REFUTED for DCW: with two or more channels every thread may read its seed after the variable has ended, and if the iterations share a stack slot all threads may use the last seed. Proved for RR17a, RR17b and GRR18; for DCW a thread that reads in time reads its own seed."
  },
  {
   "property": "C144",
   "status": "partial",
   "theorems": [
    "C144_kkrt_refuted",
    "C144_kkrt_partial",
    "C144_ecdh",
    "C144_prty"
   ],
   "note": "REFUTED for KKRT: 100 bits of security and 2^20 items each give 18 bytes, written into a block of 16. The partial theorem says exactly when. Proved for PRTY, and for ECDH with fewer than 2^44 items."
  },
  {
   "property": "C145",
   "status": "partial",
   "theorems": [
    "C145_prty_refuted",
    "C145_prty_partial"
   ],
   "note": "REFUTED: for every bin with an item the loop runs for ever. Only an empty bin is copied."
  },
  {
   "property": "C146",
   "status": "partial",
   "theorems": [
    "C146_oneKey_refuted",
    "C146_late_refuted",
    "C146_determined_partial",
    "C146_oneKey_partial"
   ],
   "note": "REFUTED: with commitments of different exponents the sender computes Z and the Mps after the challenge and every check passes, so the output depends on the positions of the receiver's items. For all commitments and responses this works. Holds: one key if the commitments have one exponent and the challenge is not zero. C91 (two challenges for the same statement) does not apply here, since the statement is not hashed."
  },
  {
   "property": "C147",
   "status": "partial",
   "theorems": [
    "C147_late_refuted"
   ],
   "note": "REFUTED for all points, commitments and responses: with N computed from the challenge every proof verifies, with knowledge of no exponent. What holds is C148."
  },
  {
   "property": "C148",
   "status": "proved",
   "theorems": [
    "C148_bound"
   ],
   "note": "Points and blocks are tagged in the model; the concatenation of byte strings of fixed lengths is not modelled."
  },
  {
   "property": "C149",
   "status": "proved",
   "theorems": [
    "C149_view",
    "C149_hidden"
   ],
   "note": "That the block function's outputs on the path look uniform to the other server (pseudo-randomness) is an assumption and not modelled."
  },
  {
   "property": "C150",
   "status": "proved",
   "theorems": [
    "C150_hidden",
    "C150_relabel",
    "C150_uniform"
   ],
   "note": "Masks of items outside the receiver's set are taken to mean nothing to it (OPRF security). The residue of a 64-bit word is not exactly uniform; C150_uniform is about residues."
  },
  {
   "property": "C151",
   "status": "proved",
   "theorems": [
    "C151_hidden"
   ],
   "note": "Rows that do not open are taken to mean nothing to the receiver (hiding commitments, OPRF)."
  },
  {
   "property": "C152",
   "status": "proved",
   "theorems": [
    "C152_hidden"
   ],
   "note": "For fixed orders of the threads. Masks of other items are taken to mean nothing to the receiver."
  },
  {
   "property": "C153",
   "status": "partial",
   "theorems": [
    "C153_order_refuted",
    "C153_places_partial",
    "C153_shuffled_partial"
   ],
   "note": "REFUTED: the masks are sent in the order of the input; for all randomness the receiver sees its items exactly where they stand in the sender's set. What holds: if the caller shuffles the set, sets with the same common items give the same view for a renamed permutation."
  },
  {
   "property": "C154",
   "status": "partial",
   "theorems": [
    "C154_order_refuted",
    "C154_places_partial",
    "C154_shuffled_partial"
   ],
   "note": "REFUTED: the masks are sent in the order of the input; for all randomness the receiver sees its items exactly where they stand in the sender's set. What holds: if the caller shuffles the set, sets with the same common items give the same view for a renamed permutation."
  },
  {
   "property": "C155",
   "status": "partial",
   "theorems": [
    "C155_order_refuted",
    "C155_places_partial",
    "C155_shuffled_partial"
   ],
   "note": "REFUTED: the masks are sent in the order of the input; for all randomness the receiver sees its items exactly where they stand in the sender's set. What holds: if the caller shuffles the set, sets with the same common items give the same view for a renamed permutation."
  },
  {
   "property": "C156",
   "status": "partial",
   "theorems": [
    "C156_order_refuted",
    "C156_places_partial",
    "C156_shuffled_partial"
   ],
   "note": "REFUTED: the masks are sent in the order of the input; for all randomness the receiver sees its items exactly where they stand in the sender's set. What holds: if the caller shuffles the set, sets with the same common items give the same view for a renamed permutation."
  },
  {
   "property": "C157",
   "status": "partial",
   "theorems": [
    "C157_places_refuted",
    "C157_places_partial"
   ],
   "note": "REFUTED: the permutation of the rows is commented out; the rows go in the order of the bins, and the place of a common item's rows shows how many items the sender has in the bins before. Two sets that differ in one item outside the receiver's set and have the same announced loads put the common item in different places for all randomness. What holds, for one channel: the exact range of the places."
  },
  {
   "property": "C158",
   "status": "partial",
   "theorems": [
    "C158_table_refuted",
    "C158_buffer_refuted",
    "C158_oneSided_refuted",
    "C158_threshold_refuted",
    "C158_twoSided_partial",
    "C158_buffer_partial",
    "C158_oneSided_partial"
   ],
   "note": "REFUTED in every mode: a load possible for one size is impossible for the next size; the threshold mode is deterministic. What holds: with tables or buffer the factor exp(eps) per item up to the probability that the noise is too low for the size; with the buffer this is about (1 + exp eps) / (2^40 m) for an item moved; with one-sided noise the factor in one direction, 1 - exp(-eps) in the other. Over the reals, for ideal independent samples. Uses the axioms of the standard library's real numbers (listed in DESIGN.md)."
  },
  {
   "property": "C159",
   "status": "partial",
   "theorems": [
    "C159_default_refuted",
    "C159_sizes_refuted"
   ],
   "note": "REFUTED: there is no table for eps = 0.9, none for four items a bin, and none for other numbers of items than 2^8, 2^12, 2^16, 2^20. Without a table the announced loads are the exact sizes for all noise in range. Which sizes have tables is proved; the contents of the tables are in C208 and C209."
  },
  {
   "property": "C160",
   "status": "proved",
   "theorems": [
    "C160_succeeds"
   ],
   "note": "Over the reals, for ideal independent samples. Uses the axioms of the standard library's real numbers (listed in DESIGN.md)."
  },
  {
   "property": "C161",
   "status": "proved",
   "theorems": [
    "C161_masks"
   ],
   "note": "Provided that computeBuffSize returns (C162). Over the reals, for ideal independent samples. Uses the axioms of the standard library's real numbers (listed in DESIGN.md)."
  },
  {
   "property": "C162",
   "status": "partial",
   "theorems": [
    "C162_overflow_refuted",
    "C162_buffer_partial",
    "C162_zero_sensitivity"
   ],
   "note": "REFUTED: for eps * 2^31 <= max the int overflows (undefined behaviour). Proved for 39 * max <= eps * 2^31. Over the reals, for ideal independent samples. Uses the axioms of the standard library's real numbers (listed in DESIGN.md)."
  },
  {
   "property": "C163",
   "status": "partial",
   "theorems": [
    "C163_sorted_refuted",
    "C163_distinguished_refuted",
    "C163_shuffled_partial"
   ],
   "note": "REFUTED if the OT library (not in the repository) lists the unopened zeros and ones in increasing order: the shuffle of the lists is commented out, and every item of the receiver's set has increasing entries at its positions; the sender excludes all items without. Proved if the lists come in random order: a bijection between the outcomes of the OTs for any two sets under which the permutation is the same."
  },
  {
   "property": "C71",
   "status": "partial",
   "theorems": [
    "C71_server_flag_refuted",
    "C71_role_flag_partial",
    "C71_server_partial"
   ],
   "note": "REFUTED for the server flag, proved for the role. Which party is the network server is characterised."
  },
  {
   "property": "C164",
   "status": "partial",
   "theorems": [
    "C164_hidden_refuted",
    "C164_members_partial",
    "C164_others_partial",
    "C164_tells_partial",
    "C164_sizes_partial",
    "C164_hidden_partial",
    "C164_full_partial"
   ],
   "note": "REFUTED for 2^10 < n <= 2^12, 2^14 < n <= 2^16 and n > 2^18: the field of the polynomial has 4 bits more than the rows. At every item of the receiver the polynomial has a value with these bits zero, at any other point (when there is a random point) the value is uniform in the field, so the sender tests items with error 1/16. Proved for rows that fill the field: for any two bins each choice of rows and random values has exactly one for the other bin with the same polynomial. The sender's file is not valid C++ as given (PrtySender.cpp:60 calls simple.init with two arguments missing, and lines 140 and 226 use mBins in two incompatible ways): its bins are assumed to be those of the receiver's allocation, which the lines that are there do not give (C189)."
  },
  {
   "property": "C165",
   "status": "partial",
   "theorems": [
    "C165_hidden_refuted",
    "C165_sum_refuted",
    "C165_thread_refuted",
    "C165_last_refuted",
    "C165_others_refuted",
    "C165_first_partial"
   ],
   "note": "REFUTED: from the commitment sigmaA, the response sigmaPhi and the challenge the sender computes g*Rc and so the sum of the points of the first thread; from sigmaB and sigmaPhis the sum of the points of each thread; if the unassigned point ggg is neutral, the point of the last item of each thread and, from N alone, the sum of the others. Proved: the first message without N is the same for any other set of the same shape, for exactly one choice of the masks."
  },
  {
   "property": "C166",
   "status": "partial",
   "theorems": [
    "C166_hidden_refuted",
    "C166_known_partial",
    "C166_uniform_partial"
   ],
   "note": "REFUTED without an assumption on the hash functions: an item all of whose positions are in the filter has a mask that the receiver's messages determine. Proved: if the items outside the receiver's set can be ordered such that each has a position outside the filter that it hits an odd number of times and the earlier ones do not, their masks are jointly uniform, one value of the unknown messages for each combination, and the masks of common items do not change. The probability of such an order is not treated."
  },
  {
   "property": "C167",
   "status": "proved",
   "theorems": [
    "C167_uniform"
   ],
   "note": "For items that can be ordered such that each has an OT of its own; the property is stated for these."
  },
  {
   "property": "C168",
   "status": "proved",
   "theorems": [
    "C168_only_common"
   ],
   "note": "Ideal OPRF: independent values, equally distributed. The messages are equal after a renaming of the sources and a relabelling of the permutation, both bijections that do not depend on the random values, so the distributions are equal."
  },
  {
   "property": "C169",
   "status": "proved",
   "theorems": [
    "C169_only_common",
    "C169_honest",
    "C169_output"
   ],
   "note": "Ideal OTs: the encodings outside the receiver's choices are independent and uniform. Assumes that different items of a bin have different OT inputs (C42 says when). C169_honest: the choices of a receiver that follows the protocol are allowed."
  },
  {
   "property": "C170",
   "status": "partial",
   "theorems": [
    "C170_race",
    "C170_lost_refuted",
    "C170_places_partial",
    "C170_single_partial",
    "C170_masks"
   ],
   "note": "REFUTED: the increment of idxPermuteDone is not atomic, two threads can take the same place; one mask is lost and a common item can be missing from the output (C170_lost_refuted). It holds if no thread is interrupted between read and write of the counter, and for one thread. The sender's file is not valid C++ as given (PrtySender.cpp:60 calls simple.init with two arguments missing, and lines 140 and 226 use mBins in two incompatible ways): its bins are assumed to be those of the receiver's allocation, which the lines that are there do not give (C189)."
  },
  {
   "property": "C171",
   "status": "partial",
   "theorems": [
    "C171_place_refuted",
    "C171_order_partial"
   ],
   "note": "REFUTED: the shuffle is commented out, masks are sent in the order of the bins, so the receiver sees how many of the sender's items have smaller bins than a common item. What holds: the places depend on the bins of the items only (C171_order_partial, one thread). The sender's file is not valid C++ as given (PrtySender.cpp:60 calls simple.init with two arguments missing, and lines 140 and 226 use mBins in two incompatible ways): its bins are assumed to be those of the receiver's allocation, which the lines that are there do not give (C189)."
  },
  {
   "property": "C172",
   "status": "proved",
   "theorems": [
    "C172_honest",
    "C172_formulas",
    "C172_search"
   ],
   "note": "Real numbers instead of floating point. That the OTs are opened independently with probability cncProb, and that the sender compares with the threshold, is the behaviour of AknOt in libOTe (trusted). computeMh adds k + p*p where the root of the equation has k*p*p; the result is larger than needed, the theorem holds."
  },
  {
   "property": "C173",
   "status": "proved",
   "theorems": [
    "C173_malicious",
    "C173_table"
   ],
   "note": "Real numbers instead of floating point. The number of bits is cut down to an integer after the security level has been computed, so the statement for arbitrary n counts one bit more; for the entries of the table it holds with the bits of the table."
  },
  {
   "property": "C174",
   "status": "proved",
   "theorems": [
    "C174_table"
   ],
   "note": "The entry for one item is that for four items."
  },
  {
   "property": "C175",
   "status": "partial",
   "theorems": [
    "C175_permutation_refuted",
    "C175_places_partial"
   ],
   "note": "REFUTED for all inputs with two channels or more and two items per channel: each common item is missed for some permutation. C175_places_partial says exactly when an item is reported: the mask the receiver knows must travel on the channel of the thread that has its bin. One channel: C77."
  },
  {
   "property": "C176",
   "status": "proved",
   "theorems": [
    "C176_only_common",
    "C176_honest",
    "C176_output"
   ],
   "note": "Ideal OTs, and commitments as values of a random function of which the receiver knows those for its own items only. Assumes that different items of a bin have different OT inputs. C176_honest: the choices of a receiver that follows the protocol are allowed, when sender and receiver use the same OTs for the bins in every channel (otherwise the run throws)."
  },
  {
   "property": "C177",
   "status": "partial",
   "theorems": [
    "C177_hidden_refuted",
    "C177_learns",
    "C177_common_learned",
    "C177_view",
    "C177_keys_partial",
    "C177_rest_partial"
   ],
   "note": "REFUTED: the masks, pi1 and the sigmas are drawn from the constant seed CCBlock (DrrnPsiClient.cpp:99, 204-206), which server 0 knows. C177_learns: it computes from pi0 the region of every query and the content of the queried slot (regions whose first slot is occupied, as the server skips the others); C177_common_learned: hence all common items; C177_hidden_refuted: two sets without any common item are told apart whatever is drawn. What holds: sets with the same regions give identically distributed keys (C177_keys_partial), and with the same contents too the rest of the view is determined (C177_rest_partial)."
  },
  {
   "property": "C178",
   "status": "partial",
   "theorems": [
    "C178_hidden_refuted",
    "C178_learns",
    "C178_view",
    "C178_hidden_partial"
   ],
   "note": "REFUTED: the keys of unused places are all zero (DrrnPsiClient.cpp:183-201), so server 1 reads off how many of the client's hash values fall into each region (C178_learns); two sets with different loads are told apart for sure (C178_hidden_refuted). What holds: sets with the same loads give identically distributed keys (C178_hidden_partial)."
  },
  {
   "property": "C179",
   "status": "partial",
   "theorems": [
    "C179_hidden_refuted",
    "C179_learns",
    "C179_output",
    "C179_three_hashes_refuted",
    "C179_two_hashes_partial"
   ],
   "note": "REFUTED: the exchanges sigma that hide the hash function are drawn from the constant seed CCBlock (DrrnPsiServer.cpp:53-62), so the client undoes them (C179_learns, C179_hidden_refuted). Even with secret uniform sigmas it fails for three hash functions, since the exchanges swap(r[j], r[sigma[j]]) for j = 1, 2 never bring hash function 2 to place 1 (C179_three_hashes_refuted). What holds: for two hash functions and secret sigmas the matches have the same distribution (C179_two_hashes_partial); the output never depends on it (C179_output)."
  },
  {
   "property": "C180",
   "status": "partial",
   "theorems": [
    "C180_weight_refuted",
    "C180_larger_refuted",
    "C180_weight_partial",
    "C180_row",
    "C180_uniform",
    "C180_fix"
   ],
   "note": "REFUTED: for 2^20 < n <= 2^22 the field size is that for 2^20 items (PrtyDefines.h:60-61), and for 2^22 items the probability exceeds 2^-40 (C180_weight_refuted); 440 bits would do (C180_fix). The size is chosen from the receiver's set alone, so a larger set of the sender breaks the bound as well (C180_larger_refuted). What holds: at most 2^-40 for sender sets not larger than the receiver's, up to 2^20 items and from 2^22 to 2^24 (C180_weight_partial). C180_uniform: with w unknown columns all 2^w rows are equally likely. The sender's file is not valid C++ as given (PrtySender.cpp:60 calls simple.init with two arguments missing, and lines 140 and 226 use mBins in two incompatible ways): its bins are assumed to be those of the receiver's allocation, which the lines that are there do not give (C189)."
  },
  {
   "property": "C181",
   "status": "partial",
   "theorems": [
    "C181_again_refuted",
    "C181_overflow_refuted",
    "C181_again",
    "C181_again_partial"
   ],
   "note": "REFUTED: mBinSizes.resize(numBins, 0) keeps the sizes of the earlier use: the bins keep as many stale cells as they had entries, whatever the tables hold (C181_again_refuted), and a run that fits a new index overflows a bin (C181_overflow_refuted). C181_again gives the bins exactly. What holds: an index whose bins are empty can be initialised again (C181_again_partial)."
  },
  {
   "property": "C182",
   "status": "partial",
   "theorems": [
    "C182_rr17a_refuted",
    "C182_rr17b_refuted",
    "C182_grr18_refuted",
    "C182_rr16_refuted",
    "C182_keeps_partial",
    "C182_ecdh",
    "C182_dkt"
   ],
   "note": "REFUTED for RR17a, RR17b, GRR18 and RR16: init does not clear mIntersection and sendInput appends, so a run without common items still shows those of the run before. What holds for them: the object holds the results of all runs in order, so the last result is the end of the list (C182_keeps_partial). ECDH and DKT clear the output in init: the result is that of the last run (C182_ecdh, C182_dkt)."
  },
  {
   "property": "C183",
   "status": "partial",
   "theorems": [
    "C183_again_refuted",
    "C183_fresh_partial",
    "C183_complete"
   ],
   "note": "REFUTED: KkrtPsiReceiver::mIntersection is not cleared, so in the second run the query numbers matched in the first run are mapped to the items now at these queries: the client reports an item that the server does not have (C183_again_refuted). What holds: a client with a new final protocol object reports its old items and those of the run (C183_fresh_partial); no item of the run is lost in any use (C183_complete)."
  },
  {
   "property": "C184",
   "status": "proved",
   "theorems": [
    "C184_set_inputs_table",
    "C184_set_inputs_guards"
   ],
   "note": "log2 and the security estimate are arbitrary functions (log2 of the set size not negative)."
  },
  {
   "property": "C186",
   "status": "proved",
   "theorems": [
    "C186_drrn_completes",
    "C186_fewer_regions"
   ],
   "note": "KKRT init and online phase are arbitrary conversations. Channels and joins as stated in Sched_Model."
  },
  {
   "property": "C187",
   "status": "proved",
   "theorems": [
    "C187_server0_order",
    "C187_server1_order",
    "C187_regions",
    "C187_regions_nodup"
   ],
   "note": ""
  },
  {
   "property": "C188",
   "status": "partial",
   "theorems": [
    "C188_prty_refuted",
    "C188_prty_race",
    "C188_prty_partial",
    "C188_prty_others",
    "C188_merge_once",
    "C188_merge_always",
    "C188_first_merge"
   ],
   "note": "REFUTED for PrtyReceiver::output with masks of fewer than eight bytes and several threads: the push at line 276 is not under the lock, and any two threads that find something can race. Holds for longer masks, for one thread, for the other two PRTY variants, and for RR17a, RR17b, GRR18, RR16, ECDH and DKT."
  },
  {
   "property": "C189",
   "status": "partial",
   "theorems": [
    "C189_bins_refuted",
    "C189_bins_partial"
   ],
   "note": "REFUTED for every way to fill in the two arguments missing in PrtySender.cpp:60 that gives two or more bins: SimpleIndex hashes AES(x) xor x at byte offsets 0, 2 and 4, BalancedIndex the two halves of AES(x), so even under one key an item can be in disjoint bins (the keys differ as well: CCBlock at the sender, a constant at the receiver). With one bin (fewer than 39 receiver items) it holds for the items that SimpleIndex places (C07)."
  },
  {
   "property": "C190",
   "status": "partial",
   "theorems": [
    "C190_refuted",
    "C190_short_refuted",
    "C190_run_partial"
   ],
   "note": "REFUTED: the buffer of a message has 1.02 times the bytes of the differences, so a step with at most 49 differences (sets of at most 50 items per thread, or a short last step) makes the sender write beyond it. Holds if every message has room and no equal neighbours, each slice has a polynomial of full degree whose coefficients fit, and the receiver's masks differ in four bytes; items of a larger sender set behind the receiver's number are not found (C102). The receiver's reads behind the message are taken as reads of arbitrary bytes (C104). The sender's file is not valid C++; the member simple.mAesHasher is taken to have the receiver's key."
  },
  {
   "property": "C106",
   "status": "partial",
   "theorems": [
    "C106_key_refuted",
    "C106_last_refuted",
    "C106_zero_refuted",
    "C106_match_partial",
    "C106_best_partial"
   ],
   "note": "REFUTED: the local masks are kept under their first four bytes, so of two masks that agree there one is lost; a message that fits exactly loses its last mask; the zeros behind the masks are decoded as masks, so a local mask of zero is found. Holds otherwise, whatever lies behind the message: every common mask is found, and what is found agrees with a mask of the sender in the compared bytes or is zero in all of them."
  },
  {
   "property": "C191",
   "status": "proved",
   "theorems": [
    "C191_kkrt",
    "C191_output",
    "C191_best",
    "C191_big",
    "C191_more_bins"
   ],
   "note": "The scripts of the PRTY sender follow the file with the corrections of C145 and of the trusted base. The bins of its routine are simple.mBins.size(): if that is rows times columns of the matrix, as for the two-dimensional view, C191_more_bins applies and the run never ends."
  },
  {
   "property": "C192",
   "status": "proved",
   "theorems": [
    "C192_kkrt",
    "C192_phases"
   ],
   "note": "The other party is any list of scripts that does not arrive at this party's barriers."
  },
  {
   "property": "C193",
   "status": "proved",
   "theorems": [
    "C193_kkrt",
    "C193_rr17a",
    "C193_rows",
    "C193_slices"
   ],
   "note": "Hypotheses: non-empty sets for KKRT, pads that are no items, no collisions of masks; for rows, no collision of the random oracle. AES, OPRF and random oracle are arbitrary functions."
  },
  {
   "property": "C194",
   "status": "partial",
   "theorems": [
    "C194_ecdh_refuted",
    "C194_ecdh_partial",
    "C194_order_partial"
   ],
   "note": "REFUTED: the receiver's map is keyed with the first 32 bits of a block only, so with an injective hash two equal files of two items can give an output file with one position. With distinct first 32 bits the output file is exact, with any padding, for every complete order of the insertions."
  },
  {
   "property": "C196",
   "status": "proved",
   "theorems": [
    "C196_any_schedule",
    "C196_bench",
    "C196_ping",
    "C196_counters"
   ],
   "note": "In the drivers init and sendInput are arbitrary conversations on channel 0."
  },
  {
   "property": "C197",
   "status": "partial",
   "theorems": [
    "C197_pow_refuted",
    "C197_pow_partial",
    "C197_role_refuted",
    "C197_role_partial",
    "C197_sessions_partial",
    "C197_channels_refuted",
    "C197_channels_partial"
   ],
   "note": "REFUTED: 1 << v is a shift on int, right exactly for v < 31; -r 0 is PSI receiver and network client; with only -t 0 the PIR-PSI drivers take a channel beyond the end. The sessions and numbers of PIR-PSI fit together, and the other drivers take existing channels."
  },
  {
   "property": "C19",
   "status": "partial",
   "theorems": [
    "C19_naive_agrees_refuted",
    "C19_naive_value",
    "C19_naive_blind",
    "C19_naive_agrees_partial"
   ],
   "note": "REFUTED: the reference version ignores the group words, takes the bits of a leaf from the other end and in another order, and never takes a right branch in the upper half of the tree. C19_naive_value states exactly what it returns; C19_naive_blind: from two levels on its answers do not change when the records of the first two leaves are exchanged, so the right record cannot be recovered from them. Holds: the same databases are refused."
  },
  {
   "property": "C85",
   "status": "partial",
   "theorems": [
    "C85_reuse_refuted",
    "C85_reuse_entries",
    "C85_fresh_partial"
   ],
   "note": "REFUTED: init resizes the bin vector but does not clear it (BalancedIndex.cpp:48), so entries of the first set stay. C85_reuse_entries: after a second use with at least as many items the bins list every index of the first set exactly twice besides those of the second. Holds if nothing was inserted before (see also C54)."
  },
  {
   "property": "C199",
   "status": "partial",
   "theorems": [
    "C199_last_refuted",
    "C199_short_refuted",
    "C199_run_partial",
    "C199_exact_partial"
   ],
   "note": "REFUTED: a common item is lost when the message is exactly full (5 and 4 items), and the sender overruns its buffer when the first mask and the differences exceed 1.02*n2*h bytes (64 and 8 items). C199_run_partial: under light loads, no neighbours, masks distinct in four bytes, and room in both messages, every common item is reported; C199_exact_partial: exactly the common items without mask collisions."
  },
  {
   "property": "C200",
   "status": "partial",
   "theorems": [
    "C200_counts_partial",
    "C200_ends_partial",
    "C200_safe_partial",
    "C200_report_partial",
    "C200_full_refuted",
    "C200_encrypto_refuted",
    "C200_idle_refuted",
    "C200_columns_refuted",
    "C200_shares_refuted"
   ],
   "note": "REFUTED: full stash, encrypto, no threads, more than 400 columns, wrapping shares. The _partial theorems hold for all other parameters and every schedule."
  },
  {
   "property": "C201",
   "status": "partial",
   "theorems": [
    "C201_sizes_partial",
    "C201_endless_refuted"
   ],
   "note": "REFUTED: nStep 0, n 0 or a wrapping product make the loop endless. C201_sizes_partial: exact list if nStep >= 1, n > 0 and nEnd * 2^nStep < 2^64."
  },
  {
   "property": "C198",
   "status": "proved",
   "theorems": [
    "C198_ecdh",
    "C198_dkt",
    "C198_rr16",
    "C198_kkrt",
    "C198_prty",
    "C198_dcw",
    "C198_rr17a",
    "C198_rr17b",
    "C198_grr18",
    "C198_drrn"
   ],
   "note": ""
  },
  {
   "property": "C203",
   "status": "partial",
   "theorems": [
    "C203_server_reads_partial",
    "C203_server_reads_refuted"
   ],
   "note": "REFUTED: a client that sends a position outside makes the server read out of bounds. C203_server_reads_partial: exactly then."
  },
  {
   "property": "C33",
   "status": "proved",
   "theorems": [
    "C33_ecdh_sound",
    "C33_ecdh_exact",
    "C33_mask_length"
   ],
   "note": "Any channel count and schedule."
  },
  {
   "property": "C202",
   "status": "partial",
   "theorems": [
    "C202_kkrt_partial",
    "C202_dcw_partial",
    "C202_rr16_partial",
    "C202_rr17a_partial",
    "C202_dkt_partial",
    "C202_ecdh_partial",
    "C202_kkrt_repeated_refuted",
    "C202_dcw_repeated_refuted",
    "C202_rr16_repeated_refuted",
    "C202_rr17a_repeated_refuted",
    "C202_dkt_repeated_refuted",
    "C202_ecdh_forged_refuted",
    "C202_rr17b_partial",
    "C202_grr18_partial",
    "C202_rr17b_repeated_refuted",
    "C202_grr18_repeated_refuted",
    "C202_grr18_loads_refuted"
   ],
   "note": "REFUTED: positions can come twice (all but ECDH), ECDH accepts masks of the neutral element, and a GRR18 sender that announces a load above mMaxBinSize gets a wrong item reported. The _partial theorems: own positions only, each backed by a received mask of that item (RR17b: a commitment that opens to it), at most one per mask; ECDH in increasing order, so none twice; GRR18 for announced loads up to mMaxBinSize."
  },
  {
   "property": "C204",
   "status": "partial",
   "theorems": [
    "C204_loads_partial",
    "C204_loads_refuted",
    "C204_short_refuted"
   ],
   "note": "REFUTED: a load of mMaxBinSize + 1 for the bin of the last item makes the receiver write behind the matrix, and a message with too few loads makes it read behind the message. C204_loads_partial: neither with the right number of loads up to mMaxBinSize."
  },
  {
   "property": "C205",
   "status": "partial",
   "theorems": [
    "C205_validate_exact_partial",
    "C205_validate_filled_partial",
    "C205_stash_refuted",
    "C205_reserved_refuted",
    "C205_duplicate_refuted"
   ],
   "note": "REFUTED: the stash is ignored (a good table with a stashed item is rejected, a duplicate in the stash accepted), and an input with the all-ones hash is not counted. C205_validate_exact_partial: exact for the bins of any object; C205_validate_filled_partial: after insert, accepted iff the stash is empty."
  },
  {
   "property": "C206",
   "status": "partial",
   "theorems": [
    "C206_rr17a_covers_partial",
    "C206_width_refuted",
    "C206_width_iff",
    "C206_rr17b_refuted",
    "C206_rr17b_iff"
   ],
   "note": "REFUTED for RR17b (witness: items 1 and 65 of 8 bits, four items and bins) and for bit lengths below log2ceil(n) (32 items of 4 bits: 2^64 - 1 bits). Proved: RR17a and GRR18 from log2ceil(n) bits on; exact conditions for both."
  },
  {
   "property": "C207",
   "status": "partial",
   "theorems": [
    "C207_pair_bound",
    "C207_pair_exact",
    "C207_expected_partial",
    "C207_expected_refuted"
   ],
   "note": "REFUTED: twice the promised probability (512 items, 110 bits; in general every power of two, C207_pair_exact). Proved: the bound for any pair and any number of bins, and 2^(2 - s) in total with as many bins as items. The hash values are taken as uniform and the count is per pair (expectation over all pairs by linearity)."
  },
  {
   "property": "C208",
   "status": "proved",
   "theorems": [
    "C208_load",
    "C208_tables"
   ],
   "note": "All tables. The keys are those of C159 (tables_keys in GrrTable_Proofs.v)."
  },
  {
   "property": "C209",
   "status": "partial",
   "theorems": [
    "C209_exposed_refuted",
    "C209_exposed_partial"
   ],
   "note": "REFUTED for every table (more than 2^-40, whatever get_bin_size returns). Proved: the upper bounds 2^-24 to 2^-34 by eps, if get_bin_size returns a size that overflows with an expectation of at most 2^-40 (no table is then cut). Over the reals, for ideal independent samples and bins chosen uniformly. Uses the axioms of the standard library's real numbers (listed in DESIGN.md)."
  },
  {
   "property": "C211",
   "status": "proved",
   "theorems": [
    "C211_kkrt_contents",
    "C211_client_contents"
   ],
   "note": "A message of another size is refused (Example)."
  },
  {
   "property": "C212",
   "status": "partial",
   "theorems": [
    "C212_lengths_refuted",
    "C212_lengths_partial",
    "C212_positions_refused",
    "C212_agrees"
   ],
   "note": "REFUTED: a client or second server that sends a vector that is too short makes server 0 read behind its end. C212_lengths_partial: exactly when it stays inside, and the result. Assumes that recv into a vector takes the size of the message (cryptoTools)."
  },
  {
   "property": "C213",
   "status": "partial",
   "theorems": [
    "C213_unchecked_refuted",
    "C213_unchecked_partial",
    "C213_ecdh_points",
    "C213_ecdh_masks",
    "C213_keys",
    "C213_dkt_sender",
    "C213_dkt_receiver"
   ],
   "note": "REFUTED for PRTY (both parties) and for one message to the DKT sender, for all sizes of a run; C213_unchecked_partial: exactly the messages that are too short. Proved for ECDH and for all other messages of DKT with a size of their own. Messages received into a buffer of given size are left to cryptoTools. ECDH masks have at least four bytes; PRTY masks of at least eight bytes (the other case: C57)."
  },
  {
   "property": "C83",
   "status": "partial",
   "theorems": [
    "C83_exact_refuted",
    "C83_exact_block_refuted",
    "C83_exact_partial",
    "C83_reports_exact"
   ],
   "note": "REFUTED twice: block size one when the first slot of a region is empty (evaluation starts at the first stored item); the default block size 8 even when it is occupied. Proved for block size one when the first slot of every non-empty region is occupied, for client items other than zero. C83_reports_exact: what a run with block size one reports for every table, exactly the items one of whose slots, moved by the number of empty slots leading its region, stores the item in the same region. The final KKRT protocol is replaced by its result (C21)."
  },
  {
   "property": "C29",
   "status": "partial",
   "theorems": [
    "C29_region_shares_refuted",
    "C29_region_shares_partial",
    "C29_shares_exact"
   ],
   "note": "REFUTED: evaluation starts at the slot of the first stored item instead of the first slot of the region. Proved when the first slot of every non-empty region is occupied. C29_shares_exact: the shares for every table and all keys, with the offset counted from the first stored item of the region."
  },
  {
   "property": "C214",
   "status": "partial",
   "theorems": [
    "C214_announced_refuted",
    "C214_announced_partial",
    "C214_honest",
    "C214_views",
    "C214_framing",
    "C214_waits"
   ],
   "note": "REFUTED for the number of masks of a dishonest sender: one message can carry more masks than announced. C214_announced_partial: the receiver takes exactly the messages up to the one that reaches the announced number and looks up all their masks once, in order. The honest case, the independence of the framing and the waiting are proved."
  },
  {
   "property": "C84",
   "status": "partial",
   "theorems": [
    "C84_sound_refuted",
    "C84_sound_partial",
    "C84_answers_exact"
   ],
   "note": "REFUTED: the client item zero is reported when it hashes to an empty slot. Proved for all other items, block size one, any table. C84_answers_exact: for all items and tables (block size one), which items are reported: those that one of their slots, moved by the number of empty slots leading its region, holds, where an empty slot holds zero."
  },
  {
   "property": "C185",
   "status": "proved",
   "theorems": [
    "C185_full_run_exact",
    "C185_full_reports"
   ],
   "note": "The conditions of C83_exact_partial on the table (its refutations show that they are needed) and of C21 on the OPRF. C185_full_reports: without the condition on the first slots, exactly the items of C83_reports_exact. A schedule that ends before the sender has finished gives no result."
  },
  {
   "property": "C210",
   "status": "proved",
   "theorems": [
    "C210_client_earned",
    "C210_agrees"
   ],
   "note": "A single use of the client object (second uses: C183). C210_agrees: on the messages of an honest server 0 the client reports what it reports in the complete run of C185. That the masks are hard to guess is a matter of the OPRF, which is an arbitrary function here."
  },
  {
   "property": "C215",
   "status": "proved",
   "theorems": [
    "C215_ratios",
    "C215_one_item",
    "C215_ratios_show"
   ],
   "note": "Perfect statements only; computational indistinguishability of messages with several items (decisional Diffie-Hellman) is not expressible here. C215_ratios_show: with three items the sets of messages of two sets can be disjoint."
  },
  {
   "property": "C216",
   "status": "partial",
   "theorems": [
    "C216_rows",
    "C216_ots_refuted",
    "C216_ots_partial",
    "C216_honest_partial",
    "C216_which"
   ],
   "note": "REFUTED for the OTs: theirTotalLoad and theirLoads are two messages that are never compared. Proved: rows (in full), exactly which OTs are used, and that the sender stays within its OTs exactly when the announced number covers every bin with an item of the sender; an honest number does. The padding rows are not written (uninitialised memory is sent), see C86."
  },
  {
   "property": "C195",
   "status": "partial",
   "theorems": [
    "C195_sets_refuted",
    "C195_same_partial",
    "C195_shifted_partial",
    "C195_kkrt_partial",
    "C195_fresh",
    "C195_passes",
    "C195_count"
   ],
   "note": "REFUTED: the receivers of RR16, DCW, DKT and ECDH do not draw the seed of init from the generator, the senders do, so in pass k only n-k of n items are common; the KKRT parties have different seeds. RR17a (both models), RR17b and GRR18 give both parties equal sets in every pass. C195_passes, C195_count: exactly which passes each driver goes through and how many."
  },
  {
   "property": "C217",
   "status": "partial",
   "theorems": [
    "C217_every",
    "C217_threads",
    "C217_caller_refuted",
    "C217_permutation",
    "C217_own",
    "C217_second",
    "C217_returns",
    "C217_inputs_partial",
    "C217_alone_partial"
   ],
   "note": "REFUTED for every party with threads (ECDH, DKT on two or more channels, GRR18, RR17a, RR17b, RR16, KKRT sender): the process is terminated. Proved: the ending does not depend on the schedule; checks before the start of the threads reach the caller; parties without threads never terminate the process."
  }
 ]
}