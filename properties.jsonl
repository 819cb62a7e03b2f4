{"id": "C01", "title": "Cuckoo index never loses or duplicates an inserted item", "statement": "If a freshly initialised (non thread safe) cuckoo index accepts a sequence of insert calls without throwing, then afterwards every inserted index is stored exactly once, in the stash or in a bin that one of its hash functions maps it to, and the table stores nothing else.", "quantifier": "every table size, every hash function count 2..3, every stash size, every sequence of insert batches with pairwise distinct indices, every hash value of every item (including repeated hash values and items whose hash functions collide)", "why_tests_cant": "The eviction path depends on the hash values of all earlier items and on the split into batches of at most 16 with 8 lanes; a unit test fixes one random seed and one load.", "anchors": ["libPSI/Tools/CuckooIndex2.cpp: CuckooIndex<Mode>::insert, insertOne", "libPSI/Tools/CuckooIndex2.h: Bin::swap"]}
{"id": "C02", "title": "Cuckoo lookup is sound and complete", "statement": "After any sequence of successful insert calls, looking up one hash value returns an inserted index whose hash value is equal to the query, and it returns 'not found' only if no inserted item has that hash value.", "quantifier": "every table content reachable by successful inserts, every query", "why_tests_cant": "Lookup must succeed wherever eviction left the item (any of its bins or the stash); tests look up a few keys of one table.", "anchors": ["libPSI/Tools/CuckooIndex2.cpp: CuckooIndex<Mode>::find(const block&)"]}
{"id": "C03", "title": "Cuckoo insertion reports overflow instead of dropping silently", "statement": "An insert call that returns has placed all its items. If it throws, the stash is full, no index is stored twice, nothing foreign is stored, and of the items held before the call at most eight are missing (at most one if the call has at most 16 items or the table does not use three hash functions).", "quantifier": "every table state, every batch, every stash size including zero", "why_tests_cant": "Overflow needs an adversarial choice of hash values; random tests never reach it.", "anchors": ["libPSI/Tools/CuckooIndex2.cpp: insertOne, mReinsertLimit"]}
{"id": "C04", "title": "Batch lookup agrees with single lookup", "statement": "The lookup overload that takes many hash values and an output span writes, for every position, the index that the single lookup would return for that hash value.", "quantifier": "every table content, every batch of queries, every batch length", "why_tests_cant": "A test would have to compare both overloads on items living in bins and in the stash, at every batch length; none does.", "anchors": ["libPSI/Tools/CuckooIndex2.cpp: CuckooIndex<Mode>::find(span<block>, span<u64>)"]}
{"id": "C05", "title": "Concurrent cuckoo insertion loses no item", "statement": "In thread safe mode, if several threads insert disjoint sets of indices concurrently and no call throws, then afterwards every index is stored in one of its bins or in the stash.", "quantifier": "every interleaving of the atomic bin exchanges and stash accesses of any number of threads, every hash assignment", "why_tests_cant": "The set of interleavings is exponential and the failing window is a few instructions wide.", "anchors": ["libPSI/Tools/CuckooIndex2.cpp: CuckooIndex<ThreadSafe>::insertOne", "libPSI/Tools/CuckooIndex2.h: Bin::swap (atomic exchange)"]}
{"id": "C06", "title": "Selected cuckoo parameters honour the request", "statement": "The parameter selection for a set size, a statistical security level, a stash size and a number of hash functions either throws or returns parameters with exactly the requested hash function count and stash size, enough bins to hold the set, and a positive number of bins.", "quantifier": "every set size >= 1, every statistical parameter, every requested stash size and hash count", "why_tests_cant": "The domain is unbounded; tests use three or four parameter choices.", "anchors": ["libPSI/Tools/CuckooIndex2.cpp: CuckooIndex<Mode>::selectParams"]}
{"id": "C07", "title": "Simple hashing places every item in each of its candidate bins", "statement": "After inserting a set with three hash functions, every item occurs in each of the (up to three) distinct bins its hash functions select exactly once, and its per-item bin map lists these bins, with repeated bins marked as collisions.", "quantifier": "every set, every set size (also not a multiple of 8), every hash function", "why_tests_cant": "The batch remainder handling depends on the set size modulo 8; a test with a power-of-two size never runs it.", "anchors": ["libPSI/Tools/SimpleIndex.cpp: SimpleIndex::insertItems", "libPSI/Tools/SimpleIndex.h: Item"]}
{"id": "C08", "title": "Simple hashing with a hash count other than three stays in bounds", "statement": "Inserting a set with two (or four) hash functions writes only the bin-map rows of items that were inserted, each item's row at that item's position.", "quantifier": "every set and set size", "why_tests_cant": "Out-of-bounds writes past a vector are silent; only sizes above 8 expose them.", "anchors": ["libPSI/Tools/SimpleIndex.cpp: SimpleIndex::insertItems"]}
{"id": "C09", "title": "Bin size search returns a size that meets the security target", "statement": "For any overflow-probability estimator, the maximum bin size chosen for (bins, balls, security level) has an estimated overflow security of at least the requested level; the search terminates whenever the estimator reaches the level at some size, and for an estimator monotone in the bin size no smaller admissible size at or above the average load meets the level. For more than 2^31 - 1 balls it throws.", "quantifier": "every number of bins and balls, every security level, every estimator function", "why_tests_cant": "Galloping/bisection searches go wrong only at specific boundary patterns of the estimator; a test probes a few parameters.", "anchors": ["libPSI/Tools/SimpleIndex.cpp: SimpleIndex::get_bin_size, getBinOverflowProb"]}
{"id": "C10", "title": "Concurrent bin insertion keeps every value", "statement": "If several threads push values into the bins of a simple hasher concurrently and no bin receives more than its capacity, then after all pushes each bin contains exactly the values pushed to it (as a multiset), in slots 0..count-1.", "quantifier": "every interleaving of the two-step (reserve slot, store) pushes of any number of threads", "why_tests_cant": "Interleavings cannot be enumerated by running.", "anchors": ["libPSI/Tools/SimpleHasher.h: SimpleHasher::push, getBin, getBinSize"]}
{"id": "C11", "title": "Packed bin items decode to what was stored", "statement": "An item record stored with an index, a hash function number and a collision flag reads back exactly these three values; a bin entry of the cuckoo table likewise reads back its index and hash function number and is never mistaken for empty.", "quantifier": "every index below 2^56 - 1 (2^63/2^56 for the respective layouts), every hash function number below 128 / 255, both flags", "why_tests_cant": "2^64 encodings.", "anchors": ["libPSI/Tools/SimpleIndex.h: SimpleIndex::Item", "libPSI/Tools/CuckooIndex2.h: CuckooIndex::Bin"]}
{"id": "C12", "title": "Merge shuffle returns a permutation of its input", "statement": "Merge shuffling an array in place, at any recursion threshold and for any random bits, ends with an array containing exactly the original elements with the original multiplicities, and never touches memory outside the array.", "quantifier": "every array, every random bit stream, every recursion depth", "why_tests_cant": "Element loss at the merge boundary depends on the bit stream and the sizes of the halves; arrays below 2^20 never reach the merge code.", "anchors": ["libPSI/Tools/RandomShuffle.cpp: RandomShuffle::mergeShuffle"]}
{"id": "C13", "title": "Parallel shuffle shuffles the slice of every thread", "statement": "Every thread of the parallel shuffle shuffles its own slice of the array, and the slices cover the array, so that every permutation within slices is possible.", "quantifier": "every array length and thread count", "why_tests_cant": "A shuffle that does nothing is still a permutation, so output checks pass.", "anchors": ["libPSI/Tools/RandomShuffle.cpp: RandomShuffle::parallelShuffle"]}
{"id": "C14", "title": "PIR key pair evaluates to a point function", "statement": "For keys generated for an index, evaluating both keys at a position and xor-ing the two bits yields 1 if and only if the position is the index.", "quantifier": "every tree depth, every leaf group size, every in-domain index and position, every seed, every block cipher", "why_tests_cant": "The domain is exponential in the depth (tests run one depth of 3 and sample 4 positions at depth 121).", "anchors": ["libPSI/PIR/BgiPirClient.cpp: BgiPirClient::keyGen", "libPSI/PIR/BgiPirServer.cpp: BgiPirServer::evalOne"]}
{"id": "C15", "title": "A server's full-domain answer is the xor of the selected rows", "statement": "For any key and database covering the domain, the full-domain answer equals the xor of the database rows at exactly the positions where single-position evaluation of that key gives 1.", "quantifier": "every key material (also not produced by honest key generation), every depth, every group size, every database", "why_tests_cant": "Five parameter pairs are tested; the batched traversal (8 subtrees, byte-wise bit expansion) has different code for small and large depths.", "anchors": ["libPSI/PIR/BgiPirServer.cpp: BgiPirServer::fullDomain, evalOne"]}
{"id": "C16", "title": "PIR query returns the requested row", "statement": "When the client queries an in-domain index and both servers answer over the same database, the client obtains the database row at that index.", "quantifier": "every depth, group size, database, index, seed", "why_tests_cant": "Quantifies over databases and indices; tests use a single (depth, group size).", "anchors": ["libPSI/PIR/BgiPirClient.cpp: BgiPirClient::query", "libPSI/PIR/BgiPirServer.cpp: BgiPirServer::serve"]}
{"id": "C17", "title": "Incremental full-domain generator enumerates every position once with the right bit", "statement": "Draining the incremental generator yields every position of the domain exactly once, paired with the bit single-position evaluation gives for it, and it then reports that it has no more output.", "quantifier": "every key, depth and group size", "why_tests_cant": "Tests cover four (depth, group) pairs.", "anchors": ["libPSI/PIR/BgiPirServer.cpp: BgiPirServer::FullDomainGenerator"]}
{"id": "C18", "title": "Multi-key stream agrees with single-position evaluation", "statement": "The i-th vector produced by the multi-key evaluator contains, for each key, the bit that single-position evaluation of that key gives at position i; asking for more than the domain size throws.", "quantifier": "every number of keys, depth, group size, position", "why_tests_cant": "Tests use 13 keys and four parameter pairs; lane padding depends on the key count modulo 8.", "anchors": ["libPSI/PIR/BgiPirServer.cpp: BgiPirServer::MultiKey"]}
{"id": "C19", "title": "Reference full-domain evaluation agrees with the optimised one", "statement": "The simple full-domain evaluation returns the same answer as the optimised full-domain evaluation.", "quantifier": "every key, depth, database", "why_tests_cant": "No test calls the reference version.", "anchors": ["libPSI/PIR/BgiPirServer.cpp: BgiPirServer::fullDomainNaive, fullDomain"]}
{"id": "C20", "title": "PIR keys of the two servers differ only in the root", "statement": "The correction words and the leaf correction handed to the two servers are identical, and the two root seeds have opposite control bits.", "quantifier": "every index, seed, depth and group size", "why_tests_cant": "Universally quantified over seeds.", "anchors": ["libPSI/PIR/BgiPirClient.cpp: BgiPirClient::keyGen"]}
{"id": "C21", "title": "KKRT outputs exactly the intersection", "statement": "When the OPRF evaluations of distinct (bin, item) inputs have distinct masks, already in their first eight bytes for the receiver's own items, the receiver's output contains the position of a receiver item if and only if the sender's set contains that item.", "quantifier": "all finite sets of distinct items, all hash seeds for which cuckoo hashing succeeds, all sender permutations, all OPRF instances without mask collisions", "why_tests_cant": "Universally quantified over sets and hash behaviour (which bin and which hash function each item ends up with).", "anchors": ["libPSI/PSI/Kkrt/KkrtPsiReceiver.cpp: sendInput", "libPSI/PSI/Kkrt/KkrtPsiSender.cpp: sendInput, hashItems"]}
{"id": "C22", "title": "KKRT sender masks do not depend on OT message arrival", "statement": "The masks the sender sends are the same for every schedule of the background thread receiving the OT corrections, and the sender never evaluates a bin before its correction has arrived.", "quantifier": "every interleaving of correction arrivals with the encoding loop", "why_tests_cant": "Timing dependent.", "anchors": ["libPSI/PSI/Kkrt/KkrtPsiSender.cpp: sendInput"]}
{"id": "C23", "title": "KKRT leaves the channel clean", "statement": "After both parties return, every message sent on the channel has been received, so the same channel can be used for a second protocol run.", "quantifier": "every pair of input sizes", "why_tests_cant": "Tests tear the channel down after one run.", "anchors": ["libPSI/PSI/Kkrt/KkrtPsiSender.cpp: sendInput", "libPSI/PSI/Kkrt/KkrtPsiReceiver.cpp: sendInput"]}
{"id": "C24", "title": "KKRT mask messages are framed identically by both parties", "statement": "The sequence of mask messages (sizes and offsets) the sender produces is the sequence the receiver expects, and the messages tile the mask buffer exactly.", "quantifier": "every sender set size, number of hash functions and mask size", "why_tests_cant": "Only boundary sizes (multiples of the region size) reveal mistakes.", "anchors": ["libPSI/PSI/Kkrt/KkrtPsiSender.cpp: sendInput", "libPSI/PSI/Kkrt/KkrtPsiReceiver.cpp: sendInput"]}
{"id": "C25", "title": "Repeated KKRT runs do not mix results", "statement": "The output of a run contains only positions matched in that run, also when the receiver object is initialised and used again.", "quantifier": "every history of runs on one receiver object", "why_tests_cant": "Tests construct a fresh object for every run.", "anchors": ["libPSI/PSI/Kkrt/KkrtPsiReceiver.cpp: init, sendInput, mIntersection"]}
{"id": "C26", "title": "PIR-PSI slot partition is consistent between client and server", "statement": "The client's (region, offset) for a table slot and the server's region boundaries agree: the slot lies in exactly the region the client addresses, the offset is its distance from the region's first slot, and it is below the per-region PIR domain size.", "quantifier": "every number of slots and regions whose product fits in 64 bits, every slot, block size one", "why_tests_cant": "Rounding of both divisions interacts; needs all ratios.", "anchors": ["libPSI/PSI/Drrn/DrrnPsiClient.cpp: recv", "libPSI/PSI/Drrn/DrrnPsiServer.cpp: send"]}
{"id": "C27", "title": "PIR-PSI domain parameters always cover a region", "statement": "The tree depth and leaf group size both parties derive give a PIR domain at least as large as a region, the group size never exceeds 8, and so the 'group size' error is never raised.", "quantifier": "every table size, number of regions and block size whose products fit in 64 bits", "why_tests_cant": "Unbounded domain; corner cases around powers of two.", "anchors": ["libPSI/PSI/Drrn/DrrnPsiClient.cpp: init", "libPSI/PSI/Drrn/DrrnPsiServer.cpp: init"]}
{"id": "C28", "title": "PIR-PSI masked answers recombine", "statement": "For block size one, the value the first server matches against the client's masked inputs for a query equals the row retrieved by the query xor a mask of the querying item, for any shuffles used by client and servers.", "quantifier": "all permutations, masks and PIR answers", "why_tests_cant": "Quantifies over permutations.", "anchors": ["libPSI/PSI/Drrn/DrrnPsiServer.cpp: send", "libPSI/PSI/Drrn/DrrnPsiClient.cpp: recv"]}
{"id": "C29", "title": "PIR-PSI evaluates every region against the region's own slots", "statement": "The share a server computes for a query of a region equals the xor of the server items of that region whose slot offset is selected by the PIR key.", "quantifier": "every placement of items in slots (including regions whose first slot is empty), every key", "why_tests_cant": "The existing test that fails is labelled 'known issue ... ok to ignore'; the failing condition is not characterised.", "anchors": ["libPSI/PSI/Drrn/DrrnPsiServer.cpp: DrrnPsiServer (bin eval), send"]}
{"id": "C30", "title": "Table search returns the first stored slot at or after a position", "statement": "The server's search over its slot-sorted table returns the number of stored entries whose slot is below the argument.", "quantifier": "every strictly sorted table and every argument, including empty tables and arguments beyond the end", "why_tests_cant": "Binary search boundaries.", "anchors": ["libPSI/PSI/Drrn/DrrnPsiServer.cpp: find"]}
{"id": "C31", "title": "PIR-PSI query positions form a permutation", "statement": "The order in which the client lays out its queries assigns every query (real or dummy) a distinct mask position, all positions in range, so no mask is used twice.", "quantifier": "every client set, hash function and block size", "why_tests_cant": "Depends on the index arithmetic of items, hash functions and block offsets.", "anchors": ["libPSI/PSI/Drrn/DrrnPsiClient.cpp: recv"]}
{"id": "C32", "title": "ECDH-PSI finds every common item", "statement": "For honest parties with distinct items the receiver's output contains the position of every receiver item that is in the sender's set.", "quantifier": "all sets, all group keys, any number of channels", "why_tests_cant": "Failures need two sender items whose encodings share a 32-bit prefix, which small tests never produce.", "anchors": ["libPSI/PSI/ECDH/EcdhPsiReceiver.cpp: sendInput", "libPSI/PSI/ECDH/EcdhPsiSender.cpp: sendInput"]}
{"id": "C33", "title": "ECDH-PSI reports only common items, once each, in order", "statement": "If truncated encodings of different items differ, every reported position is that of a common item, and positions are reported in strictly increasing order.", "quantifier": "all sets, keys and channel counts", "why_tests_cant": "Quantifies over sets and keys.", "anchors": ["libPSI/PSI/ECDH/EcdhPsiReceiver.cpp: sendInput"]}
{"id": "C34", "title": "Work is split over threads without gaps or overlaps", "statement": "The per-thread input ranges used by the multi-threaded protocols cover every input position exactly once, in order.", "quantifier": "every number of inputs and threads (also more threads than inputs)", "why_tests_cant": "Unbounded.", "anchors": ["libPSI/PSI/ECDH/EcdhPsiReceiver.cpp: sendInput", "libPSI/MPSI/Rr17/Rr17a/Rr17aMPsiReceiver.cpp: sendInput", "libPSI/PSI/Dcw/DcwRBfPsiReceiver.cpp: init"]}
{"id": "C35", "title": "Bloom-filter PSI (DCW) finds every common item", "statement": "For any OT messages and any choice bits, the mask the sender computes for a common item equals the encoding the receiver computed for it, so its position is reported.", "quantifier": "all sets, all hash functions, all OT messages and random choices, any filter size", "why_tests_cant": "Completeness must not depend on randomness; tests fix a seed.", "anchors": ["libPSI/PSI/Dcw/DcwRBfPsiReceiver.cpp: init, sendInput", "libPSI/PSI/Dcw/DcwRBfPsiSender.cpp: init, sendInput"]}
{"id": "C36", "title": "Bloom-filter PSI (DCW) reports only common items", "statement": "If different items never get equal masks, every reported position is that of a common item; and if two receiver encodings have equal keys (the reserved key 0 aside) the run throws instead of answering.", "quantifier": "all sets and OT messages", "why_tests_cant": "Quantifies over OT messages.", "anchors": ["libPSI/PSI/Dcw/DcwRBfPsiReceiver.cpp: sendInput"]}
{"id": "C37", "title": "RR16 permutation from an honest receiver is accepted and correct", "statement": "If the receiver holds at least as many unopened one-choices as set filter bits (and enough choices in total), the permutation it sends has distinct in-range entries, so the sender's check accepts it, and the sender's mask of a common item equals the receiver's encoding of it.", "quantifier": "all sets, filter contents and partitions of the OTs into zeros and ones", "why_tests_cant": "Depends on the interleaving of zeros and ones in the filter and on which pool runs out first.", "anchors": ["libPSI/MPSI/Rr16/AknBfMPsiReceiver.cpp: sendInput", "libPSI/MPSI/Rr16/AknBfMPsiSender.cpp: sendInput"]}
{"id": "C38", "title": "RR16 hashing does not depend on the thread schedule", "statement": "With several channels, the filter positions computed for an item are a function of the item and the hash seed only.", "quantifier": "every interleaving of the hashing threads", "why_tests_cant": "Data race window.", "anchors": ["libPSI/MPSI/Rr16/AknBfMPsiReceiver.cpp: sendInput (bv)", "libPSI/MPSI/Rr16/AknBfMPsiSender.cpp: sendInput (bv)"]}
{"id": "C39", "title": "RR16 sender survives an invalid permutation", "statement": "When the received permutation repeats an entry, the sender refuses to send masks and returns to its caller in an orderly way (no double completion of its internal promise).", "quantifier": "every received permutation", "why_tests_cant": "Needs a malicious peer.", "anchors": ["libPSI/MPSI/Rr16/AknBfMPsiSender.cpp: sendInput (isValidPerm)"]}
{"id": "C40", "title": "RR17a (single channel) finds every common item", "statement": "With one channel, for every bin permutation chosen by either party, the mask sets of a common item at sender and receiver share a mask, so the item is reported if mask keys are distinct.", "quantifier": "all sets fitting the bins, all permutations, all OT encodings", "why_tests_cant": "Quantifies over permutations and encodings.", "anchors": ["libPSI/MPSI/Rr17/Rr17a/Rr17aMPsiReceiver.cpp: sendInput", "libPSI/MPSI/Rr17/Rr17a/Rr17aMPsiSender.cpp: sendInput"]}
{"id": "C41", "title": "RR17a output does not depend on the number of channels", "statement": "Running with several channels reports the same positions as with one channel.", "quantifier": "every number of channels, every mask permutation", "why_tests_cant": "Depends on the random permutation of masks over the channels.", "anchors": ["libPSI/MPSI/Rr17/Rr17a/Rr17aMPsiReceiver.cpp: sendInput (maskMap)"]}
{"id": "C42", "title": "Phase shifting keeps items of a bin distinguishable", "statement": "Two different items of the supported input bit length that are mapped to the same bin still have different OT inputs after the shift.", "quantifier": "every set size, bin count and pair of items", "why_tests_cant": "Needs set sizes that are not powers of two and specific item pairs.", "anchors": ["libPSI/MPSI/Rr17/Rr17a/Rr17aMPsiReceiver.cpp: shiftRight, sendInput", "libPSI/Tools/SimpleHasher.cpp: init"]}
{"id": "C43", "title": "Inputs are not modified by a protocol run", "statement": "After sendInput returns, the caller's input vector has the contents it had before.", "quantifier": "every input vector, both hashing modes", "why_tests_cant": "Tests do not reuse inputs with an explicit input bit size.", "anchors": ["libPSI/MPSI/Rr17/Rr17a/Rr17aMPsiSender.cpp: sendInput (ncoInputBuff)", "libPSI/MPSI/Grr18/Grr18MPsiSender.cpp: sendInput"]}
{"id": "C44", "title": "RR17a send buffer is released exactly once, after the last chunk", "statement": "The shared mask buffer is freed exactly once and no chunk is queued or in flight after it has been freed.", "quantifier": "every number of chunks and channels, every order of completion callbacks", "why_tests_cant": "Use-after-free depends on I/O timing.", "anchors": ["libPSI/MPSI/Rr17/Rr17a/Rr17aMPsiSender.cpp: sendInput (sendMaskBuffFreeCounter)"]}
{"id": "C45", "title": "RR17b send buffer is released exactly once, after the last chunk", "statement": "The shared encoding buffer is freed exactly once and no chunk is queued after it has been freed.", "quantifier": "every number of chunks and channels, every order of completion callbacks", "why_tests_cant": "Use-after-free depends on I/O timing.", "anchors": ["libPSI/MPSI/Rr17/Rr17b/Rr17bMPsiSender.cpp: sendInput (outstandingSendCount)"]}
{"id": "C46", "title": "RR17b parties split the bins over channels identically", "statement": "For every channel the range of bins processed by the sender is the range of bins processed by the receiver.", "quantifier": "every bin count and channel count", "why_tests_cant": "Only bin counts not divisible by the channel count differ.", "anchors": ["libPSI/MPSI/Rr17/Rr17b/Rr17bMPsiSender.cpp: sendInput", "libPSI/MPSI/Rr17/Rr17b/Rr17bMPsiReceiver.cpp: sendInput"]}
{"id": "C47", "title": "RR17b (single channel) outputs exactly the intersection", "statement": "With one channel, if no commitment that occurs is opened to another item with the same tag, the reported positions are exactly those of the common items, each once.", "quantifier": "all sets, permutations, OT encodings, tags (including tag collisions) and decommitment values", "why_tests_cant": "Quantifies over tags and permutations.", "anchors": ["libPSI/MPSI/Rr17/Rr17b/Rr17bMPsiReceiver.cpp: sendInput", "libPSI/MPSI/Rr17/Rr17b/Rr17bMPsiSender.cpp: sendInput"]}
{"id": "C48", "title": "RR17b parsing stays aligned", "statement": "While the receiver scans an encoding message, after each item the read position is at the start of the next item's encoding set, whether or not the item matched, and it never reads past the message.", "quantifier": "every message content and every position of a match within an item's set", "why_tests_cant": "The early-exit pointer arithmetic depends on where the match happens.", "anchors": ["libPSI/MPSI/Rr17/Rr17b/Rr17bMPsiReceiver.cpp: sendInput"]}
{"id": "C49", "title": "Noisy bin loads never cut off real items", "statement": "Whenever load computation returns, each bin's announced load is at least its real size, at most 255, and the returned total is the sum of the loads.", "quantifier": "every noise sample, every noise mode, every bin occupancy within capacity", "why_tests_cant": "Depends on random noise and on truncation to bytes.", "anchors": ["libPSI/MPSI/Grr18/Grr18Common.cpp: computeLoads"]}
{"id": "C50", "title": "GRR18 finds every common item", "statement": "When announced loads are at least the real bin sizes and at most the bin capacity, every common item is reported, whatever the noise.", "quantifier": "all sets, loads, permutations, OT encodings without key collisions", "why_tests_cant": "Quantifies over loads and permutations.", "anchors": ["libPSI/MPSI/Grr18/Grr18MPsiReceiver.cpp: sendInput", "libPSI/MPSI/Grr18/Grr18MPsiSender.cpp: sendInput"]}
{"id": "C51", "title": "DKT finds every common item", "statement": "For honest parties the receiver's output contains the position of every receiver item that is in the sender's set.", "quantifier": "all sets, keys and channel counts", "why_tests_cant": "Its tests are commented out.", "anchors": ["libPSI/MPSI/DKT/DktMPsiReceiver.cpp: sendInput", "libPSI/MPSI/DKT/DktMPsiSender.cpp: sendInput"]}
{"id": "C52", "title": "DKT sender rejects an invalid proof", "statement": "If the receiver's proof does not verify for some item, the sender aborts and sends no masks.", "quantifier": "every received transcript", "why_tests_cant": "Needs a malicious receiver.", "anchors": ["libPSI/MPSI/DKT/DktMPsiSender.cpp: sendInput"]}
{"id": "C53", "title": "DKT receiver accepts an honest sender", "statement": "The checks the receiver performs on the sender's proof hold for every honest sender transcript.", "quantifier": "all keys, challenges and item points", "why_tests_cant": "Algebraic identity over all group elements.", "anchors": ["libPSI/MPSI/DKT/DktMPsiReceiver.cpp: sendInput", "libPSI/MPSI/DKT/DktMPsiSender.cpp: sendInput"]}
{"id": "C54", "title": "Balanced allocation respects the bin bound and keeps all items", "statement": "When balanced insertion returns, every bin holds at most the maximum number of items and every item is in exactly one bin, one of its two candidates.", "quantifier": "every item set, every sequence of random choices made by the balancing loop", "why_tests_cant": "The loop is randomised and its length is unbounded.", "anchors": ["libPSI/Tools/BalancedIndex.cpp: BalancedIndex::insertItems"]}
{"id": "C55", "title": "Balanced allocation records the hash function actually used", "statement": "For each stored item the recorded hash function number is the one that maps the item to the bin it is stored in.", "quantifier": "every item set and balancing history", "why_tests_cant": "Wrong only for items moved by the balancing loop.", "anchors": ["libPSI/Tools/BalancedIndex.cpp: BalancedIndex::insertItems"]}
{"id": "C56", "title": "Balanced allocation terminates", "statement": "From every item set for which a valid allocation exists, some sequence of random choices lets balanced insertion finish.", "quantifier": "every item set", "why_tests_cant": "Non-termination cannot be observed by a finite test.", "anchors": ["libPSI/Tools/BalancedIndex.cpp: BalancedIndex::insertItems"]}
{"id": "C57", "title": "PRTY small-set matching compares every received mask with every local mask", "statement": "For set sizes that use the quadratic comparison, a position is reported if its mask equals some received mask.", "quantifier": "every pair of mask lists", "why_tests_cant": "Needs two-element sets in a build configuration that the tests do not enable.", "anchors": ["libPSI/PSI/Prty/PrtyReceiver.cpp: output"]}
{"id": "C58", "title": "Binary set files round-trip", "statement": "Reading a binary set file yields its consecutive 16-byte records in file order for every file whose length is a multiple of 16, and is rejected otherwise; writing positions in binary form stores each as 8 little-endian bytes in order.", "quantifier": "every byte string and every list of positions", "why_tests_cant": "Unbounded.", "anchors": ["libPSI/Tools/fileBased.cpp: readSet, writeOutput"]}
{"id": "C59", "title": "Hexadecimal CSV rows decode to the block they print as", "statement": "A CSV row of exactly 32 hexadecimal digits (either case) is read as the block whose printed form is that row; any other row is hashed; distinct hexadecimal rows that differ as numbers give distinct blocks.", "quantifier": "every row", "why_tests_cant": "16^32 rows.", "anchors": ["libPSI/Tools/fileBased.cpp: isHexBlock, hexToBlock, readSet"]}
{"id": "C60", "title": "CSV output is decodable", "statement": "Parsing the lines of the CSV output as decimal numbers gives back the reported positions in order.", "quantifier": "every list of positions", "why_tests_cant": "Unbounded.", "anchors": ["libPSI/Tools/fileBased.cpp: writeOutput"]}
{"id": "C61", "title": "Padding keeps the real items in place", "statement": "When the smaller set is padded, both sets have the same size afterwards, the original items keep their positions, and padding is refused unless it was allowed; a reported position below the original size refers to the original item.", "quantifier": "all sets and sizes", "why_tests_cant": "Unbounded.", "anchors": ["libPSI/Tools/fileBased.cpp: padSmallSet"]}
{"id": "C62", "title": "Sender permutation is a permutation with its inverse", "statement": "The random permutation the KKRT sender draws is a permutation of its input positions, whatever the random values.", "quantifier": "every size and every random stream", "why_tests_cant": "Quantifies over random streams.", "anchors": ["libPSI/PSI/Kkrt/KkrtPsiSender.cpp: init"]}
{"id": "C63", "title": "KKRT completeness only needs distinct masks", "statement": "Whenever the OPRF masks of distinct (bin, item) inputs are distinct as whole masks (their security level is chosen for their whole length), every common item is reported.", "quantifier": "all sets, seeds, permutations and OPRF instances whose masks are pairwise distinct", "why_tests_cant": "Needs two masks that agree in 64 bits but not in 80 or more; random tests never produce one, although at 2^24 items the probability is far above 2^-40.", "anchors": ["libPSI/PSI/Kkrt/KkrtPsiReceiver.cpp: sendInput, localMasks"]}
{"id": "C64", "title": "KKRT accepts an empty sender set", "statement": "A sender whose set is empty completes the protocol without reading outside its arrays.", "quantifier": "every number of bins, every schedule", "why_tests_cant": "The corner case is not in any test, and reading one element past an empty vector usually goes unnoticed.", "anchors": ["libPSI/PSI/Kkrt/KkrtPsiSender.cpp: sendInput"]}
{"id": "C65", "title": "Full-domain generator can be initialised again", "statement": "Initialising a generator with a new key makes it enumerate the new key from the first position, whatever the object was used for before.", "quantifier": "every earlier use of the object, every key", "why_tests_cant": "Tests construct a fresh generator per key; leftover state only shows on re-use.", "anchors": ["libPSI/PIR/BgiPirServer.cpp: BgiPirServer::FullDomainGenerator::init"]}
{"id": "C66", "title": "Byte-string positions reach the whole domain", "statement": "For every position of the domain there is a byte string, in the length the byte interface requires, that evaluates to the same bit as the numeric interface.", "quantifier": "every depth, group size, key and position", "why_tests_cant": "Only group sizes that are not powers of two show the rounding; tests use fixed sizes.", "anchors": ["libPSI/PIR/BgiPirServer.cpp: BgiPirServer::evalOne (span overload)", "libPSI/PIR/BgiPirClient.cpp: bytesToUint128_t"]}
{"id": "C67", "title": "Exhausted multi-key stream stays exhausted", "statement": "Once asking for a row beyond the domain has thrown, every further request throws as well.", "quantifier": "every number of keys, depth and group size", "why_tests_cant": "A test stops at the first exception.", "anchors": ["libPSI/PIR/BgiPirServer.cpp: BgiPirServer::MultiKey::yeild"]}
{"id": "C68", "title": "Line endings of a CSV set file do not matter", "statement": "A CSV file with rows ended by carriage return and newline is read as the same set as the file with the same rows ended by newline.", "quantifier": "every list of rows", "why_tests_cant": "The two files look identical in an editor; tests only use one style, and the failure is a silently empty intersection.", "anchors": ["libPSI/Tools/fileBased.cpp: readSet"]}
{"id": "C69", "title": "Debug mode rejects exactly the sets with duplicates", "statement": "With the debug flag a set file is refused if and only if two of its items are equal, and otherwise read as without the flag.", "quantifier": "every file of either type", "why_tests_cant": "Unbounded.", "anchors": ["libPSI/Tools/fileBased.cpp: readSet"]}
{"id": "C70", "title": "Both parties start the protocol with the same sizes", "statement": "When a sender and a receiver exchange their set sizes and both start the same protocol, they agree on sender and receiver size, these are the sizes of the sets they then use, and every size given on either command line equals the real one.", "quantifier": "all command lines, files and padding randomness", "why_tests_cant": "Quantifies over pairs of independent command lines.", "anchors": ["libPSI/Tools/fileBased.cpp: doFilePSI, padSmallSet"]}
{"id": "C71", "title": "Invalid role or server flags are refused", "statement": "A session is started only if the role is 0 or 1 and the server flag, when given, is 0 or 1.", "quantifier": "all command lines", "why_tests_cant": "Tests use valid flags.", "anchors": ["libPSI/Tools/fileBased.cpp: doFilePSI"]}
{"id": "C72", "title": "Bloom-filter PSI (DCW) never answers for a set with a repeated item", "statement": "If the receiver's input contains an item twice, the run does not return an answer.", "quantifier": "all inputs, hash functions, OT messages, channel counts", "why_tests_cant": "Depends on the duplicate check being made on every insertion for all inputs.", "anchors": ["libPSI/PSI/Dcw/DcwRBfPsiReceiver.cpp: sendInput"]}
{"id": "C73", "title": "Bloom-filter PSI (DCW) objects can be reused", "statement": "After init on a receiver object that was used before, a run reports exactly the common items of that run.", "quantifier": "all earlier contents of the object, all later runs", "why_tests_cant": "Tests construct new objects.", "anchors": ["libPSI/PSI/Dcw/DcwRBfPsiReceiver.cpp: init, sendInput"]}
{"id": "C74", "title": "ECDH-PSI parties hash an item to the same point", "statement": "For every random oracle the two parties map the same item to the same curve point.", "quantifier": "all random oracles, items and scalars", "why_tests_cant": "The two sides construct the oracle with different output lengths; whether that matters depends on the oracle linked in.", "anchors": ["libPSI/PSI/ECDH/EcdhPsiReceiver.cpp: sendInput", "libPSI/PSI/ECDH/EcdhPsiSender.cpp: sendInput"]}
{"id": "C75", "title": "RR16 tabulated parameters never run out of one-choices", "statement": "For every set size in the parameter table, if no more than the tabulated threshold of one-choices was opened during the cut-and-choose and enough OTs remain, the receiver builds its permutation for every input set and the sender accepts it.", "quantifier": "every row of the parameter table, every input set, every outcome of the cut-and-choose within the threshold", "why_tests_cant": "Worst case (no two hash positions coincide) practically never occurs with random inputs; large rows are too big to test.", "anchors": ["libPSI/MPSI/Rr16/AknBfMPsiReceiver.cpp: computeAknBfParams, sendInput"]}
{"id": "C76", "title": "RR16 reports exactly the common items", "statement": "With private hash buffers, an honest run appends to the receiver's result exactly the positions of the receiver's items that are in the sender's set, each once per sender item, for every number of channels and every order in which threads merge their maps and append their results, provided the low 64 bits of the items' encodings do not collide.", "quantifier": "all sets, channel counts, thread completion orders and OT contents", "why_tests_cant": "Thread completion orders cannot be enumerated by tests.", "anchors": ["libPSI/MPSI/Rr16/AknBfMPsiReceiver.cpp: sendInput", "libPSI/MPSI/Rr16/AknBfMPsiSender.cpp: sendInput"]}
{"id": "C77", "title": "RR17a (single channel) outputs exactly the intersection", "statement": "With one channel and distinct receiver items, if no two masks that can occur for items of either set agree on the key bytes, the positions reported are exactly those of the common items, each once per occurrence in the sender set, appended to the previous contents of the result.", "quantifier": "all sets fitting the bins, all permutations, draws, encodings and insertion orders, both hashing modes", "why_tests_cant": "The encodings, permutations and draws are random and cannot be enumerated.", "anchors": ["libPSI/MPSI/Rr17/Rr17a/Rr17aMPsiReceiver.cpp: sendInput", "libPSI/MPSI/Rr17/Rr17a/Rr17aMPsiSender.cpp: sendInput"]}
{"id": "C78", "title": "RR17a assigns every item its own OT", "statement": "Each thread of either party uses every item of its bins exactly once, no OT index twice, and each index lies in the block of OTs allotted to the bin of the item.", "quantifier": "all sets fitting the bins, all random draws, all shuffles, every channel count", "why_tests_cant": "An OT used for two items would break privacy, not the result; no test looks at the indices.", "anchors": ["libPSI/MPSI/Rr17/Rr17a/Rr17aMPsiReceiver.cpp: sendInput (permutation)", "libPSI/MPSI/Rr17/Rr17a/Rr17aMPsiSender.cpp: sendInput (permutation)"]}
{"id": "C79", "title": "RR17a receiver reads keys only inside the received chunk", "statement": "Looking up the masks of a received chunk reads only bytes of the chunk buffer.", "quantifier": "every mask size computed from the parameters, every chunk size", "why_tests_cant": "An over-read of at most three bytes normally goes unnoticed.", "anchors": ["libPSI/MPSI/Rr17/Rr17a/Rr17aMPsiReceiver.cpp: sendInput (key)"]}
{"id": "C80", "title": "RR17b result does not depend on the number of channels", "statement": "For every number of channels the run completes and the reported positions are exactly those of the common items.", "quantifier": "all sets, channel counts, bin counts, schedules", "why_tests_cant": "Tests use one thread or thread counts that divide the bin count.", "anchors": ["libPSI/MPSI/Rr17/Rr17b/Rr17bMPsiReceiver.cpp: sendInput (binStart)", "libPSI/MPSI/Rr17/Rr17b/Rr17bMPsiSender.cpp: sendInput (binsPerThread)"]}
{"id": "C81", "title": "RR17b tag map is complete before the first lookup", "statement": "Every insertion in the shared tag map by any thread of the receiver happens before every lookup, although the receiver has no barrier between them.", "quantifier": "every channel count, every schedule of the threads of both parties that respects program order, message order and the barrier of the sender", "why_tests_cant": "The order is enforced only through the other party; a test cannot show the absence of a bad interleaving.", "anchors": ["libPSI/MPSI/Rr17/Rr17b/Rr17bMPsiReceiver.cpp: sendInput (tagMap)", "libPSI/MPSI/Rr17/Rr17b/Rr17bMPsiSender.cpp: sendInput (encodingsComputedBarrier)"]}
{"id": "C82", "title": "PIR-PSI shares do not depend on the thread count", "statement": "Each region is evaluated by exactly one thread, and the share vector a server ends with is the same for every number of threads and every order in which the regions are finished.", "quantifier": "all region counts, thread counts, completion orders, keys and tables (block size one)", "why_tests_cant": "Schedules and thread counts are unbounded.", "anchors": ["libPSI/PSI/Drrn/DrrnPsiServer.cpp: send"]}
{"id": "C83", "title": "PIR-PSI reports exactly the common items", "statement": "With the two servers holding the same table, the indices the client reports are exactly those of its items that are in the server's set.", "quantifier": "every client and server set, hash function, table placement, block size, shuffles and masks that do not collide", "why_tests_cant": "The failing condition of the existing test is uncharacterised ('known issue').", "anchors": ["libPSI/PSI/Drrn/DrrnPsiServer.cpp: send", "libPSI/PSI/Drrn/DrrnPsiClient.cpp: recv"]}
{"id": "C84", "title": "PIR-PSI reports no item the server does not hold", "statement": "Every index the client reports is that of an item of its set that is in the server's set.", "quantifier": "every client and server set, hash function, table placement, shuffles and masks that do not collide", "why_tests_cant": "Empty slots are retrieved as zero: needs the zero item.", "anchors": ["libPSI/PSI/Drrn/DrrnPsiServer.cpp: send", "libPSI/PSI/Drrn/DrrnPsiClient.cpp: recv"]}
{"id": "C85", "title": "A balanced index can be initialised again", "statement": "After init and insertItems on a balanced index that was used before, each item of the new set is listed in exactly one bin and nothing else is listed.", "quantifier": "all item sets, all random choices", "why_tests_cant": "Tests use each object once.", "anchors": ["libPSI/Tools/BalancedIndex.cpp: BalancedIndex::init", "libPSI/Tools/BalancedIndex.cpp: BalancedIndex::insertItems"]}
{"id": "C86", "title": "GRR18 reports exactly the intersection", "statement": "With keys that do not collide, the receiver's result is exactly the positions of the common items, each once, for any number of channels.", "quantifier": "all sets, loads, permutations, schedules, padding contents", "why_tests_cant": "The padding rows come from uninitialised memory.", "anchors": ["libPSI/MPSI/Grr18/Grr18MPsiReceiver.cpp: sendInput", "libPSI/MPSI/Grr18/Grr18MPsiSender.cpp: sendInput"]}
{"id": "C87", "title": "Announced loads fit the receiver's mask rows", "statement": "Every announced load is at most the bin capacity, which is the room of an item's row of masks at the receiver.", "quantifier": "every mode, noise sample and bin occupancy within capacity", "why_tests_cant": "Needs particular noise and security parameters.", "anchors": ["libPSI/MPSI/Grr18/Grr18Common.cpp: computeLoads", "libPSI/MPSI/Grr18/Grr18MPsiReceiver.cpp: sendInput"]}
{"id": "C88", "title": "GRR18 keeps the caller's inputs", "statement": "After sendInput both callers' input vectors are unchanged.", "quantifier": "all sets, modes, outcomes with a return or an exception", "why_tests_cant": "Only visible when hashing to a smaller domain is switched off.", "anchors": ["libPSI/MPSI/Grr18/Grr18MPsiReceiver.cpp: sendInput", "libPSI/MPSI/Grr18/Grr18MPsiSender.cpp: sendInput"]}
{"id": "C89", "title": "DKT sender accepts an honest receiver", "statement": "The checks the sender performs on the proofs of an honest receiver hold for every item.", "quantifier": "all sets, keys, challenges and channel counts", "why_tests_cant": "The tests are commented out; the failing checks are reported nowhere because the throw is commented out.", "anchors": ["libPSI/MPSI/DKT/DktMPsiReceiver.cpp: sendInput", "libPSI/MPSI/DKT/DktMPsiSender.cpp: sendInput"]}
{"id": "C90", "title": "DKT reports only common items", "statement": "Every position in the receiver's output holds a receiver item that is in the sender's set, if the random oracle has no collisions on the masks of the run.", "quantifier": "all sets, keys and channel counts", "why_tests_cant": "False positives would need particular group elements.", "anchors": ["libPSI/MPSI/DKT/DktMPsiReceiver.cpp: sendInput", "libPSI/MPSI/DKT/DktMPsiSender.cpp: sendInput"]}
{"id": "C91", "title": "DKT receiver's check binds the sender to one key", "statement": "If a sender can answer two different challenges for the same commitments so that the receiver accepts, all masks of the receiver's items were computed with one exponent, the one of Z.", "quantifier": "every sender transcript", "why_tests_cant": "Needs a malicious sender and an argument over all challenges.", "anchors": ["libPSI/MPSI/DKT/DktMPsiReceiver.cpp: sendInput"]}
{"id": "C92", "title": "DKT threads read each other's variables only while they exist", "statement": "No thread of sendInput reads a local variable of another thread after that thread has returned.", "quantifier": "every interleaving, every number of channels", "why_tests_cant": "Depends on scheduling; the freed stack usually still holds the value.", "anchors": ["libPSI/MPSI/DKT/DktMPsiReceiver.cpp: sendInput", "libPSI/MPSI/DKT/DktMPsiSender.cpp: sendInput"]}
{"id": "C93", "title": "DKT threads do not deadlock on their promises", "statement": "While some thread has not returned from its routine, some thread can take a step.", "quantifier": "every reachable state, every number of channels", "why_tests_cant": "Depends on scheduling.", "anchors": ["libPSI/MPSI/DKT/DktMPsiReceiver.cpp: sendInput", "libPSI/MPSI/DKT/DktMPsiSender.cpp: sendInput"]}
{"id": "C94", "title": "PRTY parties compute the same mask for a common item", "statement": "If an item is a point of a bin polynomial, the mask the sender computes from the value of the polynomial equals the mask of the receiver, and every bit of the row of each of the field-size columns enters it.", "quantifier": "every OT choice vector, all keyed ciphers, every bin with distinct points, every set size class", "why_tests_cant": "The ciphers and choice bits are random; a wrong column affects only some keys.", "anchors": ["libPSI/PSI/Prty/PrtyReceiver.cpp: output", "libPSI/PSI/Prty/PrtySender.cpp: output", "libPSI/PSI/Prty/PrtyDefines.h: prfOtRows"]}
{"id": "C95", "title": "PRTY large-set matching reports exactly the equal masks", "statement": "With masks of at least eight bytes that differ in their first eight bytes, the positions reported are exactly those whose mask equals a received mask of the same hash number, once per such mask, for every number of threads and step size.", "quantifier": "all mask lists, thread count, step size", "why_tests_cant": "The number of thread and step splittings is unbounded.", "anchors": ["libPSI/PSI/Prty/PrtyReceiver.cpp: output", "libPSI/PSI/Prty/PrtySender.cpp: output"]}
{"id": "C96", "title": "PRTY finds the common items", "statement": "The receiver outputs the positions of the common items, all of them, and only those unless masks collide.", "quantifier": "every pair of sets, every allocation history, every thread count and map order", "why_tests_cant": "Wrong only for items moved by balancing, which random inputs make rare.", "anchors": ["libPSI/PSI/Prty/PrtyReceiver.cpp: output", "libPSI/PSI/Prty/PrtySender.cpp: output", "libPSI/Tools/BalancedIndex.cpp: BalancedIndex::insertItems"]}
{"id": "C97", "title": "PRTY interpolation points are distinct", "statement": "For distinct items the points of each bin polynomial are distinct, so that interpolation does not fail.", "quantifier": "every set of distinct items and allocation history", "why_tests_cant": "Needs two items that differ exactly in the last bit and meet in a bin under different hash numbers.", "anchors": ["libPSI/PSI/Prty/PrtyReceiver.cpp: output", "libPSI/Tools/BalancedIndex.cpp: BalancedIndex::insertItems"]}
{"id": "C98", "title": "PRTY polynomials survive packing", "statement": "The sender reads for each bin the coefficients the receiver wrote for it.", "quantifier": "every list of polynomials up to the degree bound", "why_tests_cant": "A polynomial of lower degree has negligible probability for honest random values.", "anchors": ["libPSI/PSI/Prty/PrtyReceiver.cpp: output", "libPSI/PSI/Prty/PrtySender.cpp: output", "libPSI/PSI/Prty/Poly/polyNTL.cpp: getSuperBlksCoefficients"]}
{"id": "C99", "title": "Multipoint evaluation returns the values of the polynomial", "statement": "multipoint_evaluate_zp returns the values of the polynomial at the points, for every number of threads and points and every interleaving of the threads.", "quantifier": "every field, polynomial, point list, thread count and schedule", "why_tests_cant": "The tests use one thread count; interleavings cannot be enumerated; thread counts that are not powers of two fail only from certain sizes on.", "anchors": ["libPSI/PSI/Prty/Poly/polyFFT.cpp: build_tree", "libPSI/PSI/Prty/Poly/polyFFT.cpp: evaluate", "libPSI/PSI/Prty/Poly/polyFFT.cpp: multipoint_evaluate_zp"]}
{"id": "C100", "title": "Interpolation returns the polynomial through the points", "statement": "interpolate_zp (and the split form used by PRTY with a prepared tree and a reused array) returns the only polynomial of at most that length through the points, for every thread count and schedule.", "quantifier": "every field, distinct points, values, thread counts, schedules, contents of the reused array", "why_tests_cant": "As above; uniqueness and reuse are not tested at all.", "anchors": ["libPSI/PSI/Prty/Poly/polyFFT.cpp: prepareForInterpolate", "libPSI/PSI/Prty/Poly/polyFFT.cpp: iterative_interpolate_zp", "libPSI/PSI/Prty/Poly/polyFFT.cpp: interpolate_zp"]}
{"id": "C101", "title": "The threads of the polynomial tree do not race", "statement": "In each parallel phase no thread reads or writes a node that another thread writes, and the threads together treat each node exactly once.", "quantifier": "every thread count and tree size, every level", "why_tests_cant": "A race shows up only under particular timing.", "anchors": ["libPSI/PSI/Prty/Poly/polyFFT.cpp: generateSubTreeArrays", "libPSI/PSI/Prty/Poly/polyFFT.cpp: build_tree", "libPSI/PSI/Prty/Poly/polyFFT.cpp: evaluate", "libPSI/PSI/Prty/Poly/polyFFT.cpp: iterative_interpolate_zp"]}
{"id": "C102", "title": "PRTY big polynomial carries the values to the sender", "statement": "For each item the sender shares with the receiver, the value it evaluates from the transmitted polynomial is the value the receiver interpolated for that item.", "quantifier": "every pair of sets of any sizes, values, thread counts and schedules", "why_tests_cant": "The tests use equal set sizes; large coefficients and low degrees have negligible probability.", "anchors": ["libPSI/PSI/Prty/PrtyReceiver.cpp: outputBigPoly", "libPSI/PSI/Prty/PrtySender.cpp: outputBigPoly"]}
{"id": "C103", "title": "PRTY slices fit their fields", "statement": "For every set size class the prime of each slice exceeds every value of the slice and every item, and the bytes of the last slice hold its values.", "quantifier": "every set size", "why_tests_cant": "Eight constants of up to 57 digits.", "anchors": ["libPSI/PSI/Prty/PrtyDefines.h: getFieldSizeInBits, getPrimeLastSlice", "libPSI/PSI/Prty/PrtyReceiver.cpp: outputBigPoly", "libPSI/PSI/Prty/PrtySender.cpp: outputBigPoly"]}
{"id": "C104", "title": "PRTY reads only the received masks", "statement": "While decoding the differences of the masks the receiver reads only bytes of the received message.", "quantifier": "every message", "why_tests_cant": "Reads of a few bytes behind a heap block are silent.", "anchors": ["libPSI/PSI/Prty/PrtyReceiver.cpp: outputBestComm, outputBigPoly"]}
{"id": "C105", "title": "PRTY writes the masks within the send buffer", "statement": "The buffer of 1.02 times the number of masks times the bytes of a difference holds what the sender writes.", "quantifier": "every list of masks, widths", "why_tests_cant": "Only small sets and unlucky differences overflow; the overflow is silent.", "anchors": ["libPSI/PSI/Prty/PrtySender.cpp: outputBestComm, outputBigPoly"]}
{"id": "C106", "title": "PRTY finds the common masks from the differences", "statement": "Every mask of the sender that is a local mask is found by the receiver, and only such.", "quantifier": "every list of masks in any order, any memory behind the message, any width", "why_tests_cant": "Collisions in four bytes appear from about 2^16 items on; the last mask is lost only for particular sizes.", "anchors": ["libPSI/PSI/Prty/PrtyReceiver.cpp: outputBestComm, outputBigPoly", "libPSI/PSI/Prty/PrtySender.cpp: outputBestComm, outputBigPoly"]}
{"id": "C107", "title": "PRTY big polynomial: every mask is sent", "statement": "The steps of the threads cover all masks of the sender.", "quantifier": "every number of masks, threads and step size", "why_tests_cant": "Only set sizes near the number of threads fail.", "anchors": ["libPSI/PSI/Prty/PrtySender.cpp: outputBestComm, outputBigPoly", "libPSI/PSI/Prty/PrtyReceiver.cpp: outputBestComm, outputBigPoly"]}
{"id": "C108", "title": "CuckooHasher keeps every item", "statement": "After any calls of insert and insertBatch that return, every inserted index is stored exactly once, in a bin that one of its hash values selects or in the stash.", "quantifier": "every legal sequence of insertions", "why_tests_cant": "Items are lost only in eviction chains that meet in one batch.", "anchors": ["libPSI/Tools/CuckooHasher.cpp: insert, insertHelper, insertBatch"]}
{"id": "C109", "title": "CuckooHasher reports an overflow", "statement": "An insertion that cannot be completed throws and leaves the table of the earlier items.", "quantifier": "every table and insertion", "why_tests_cant": "Needs a full stash, which the parameters make rare.", "anchors": ["libPSI/Tools/CuckooHasher.cpp: insertHelper, insertBatch"]}
{"id": "C110", "title": "CuckooHasher::find is sound and complete", "statement": "find returns an inserted index with exactly the queried hash values, or 2^64-1 if there is none.", "quantifier": "every legal history and query", "why_tests_cant": "All tables and queries.", "anchors": ["libPSI/Tools/CuckooHasher.cpp: find"]}
{"id": "C111", "title": "findBatch agrees with find", "statement": "The batch lookup returns for each query the result of the single lookup.", "quantifier": "every legal history, all queries", "why_tests_cant": "Differs only for items with equal hash values.", "anchors": ["libPSI/Tools/CuckooHasher.cpp: findBatch, find"]}
{"id": "C112", "title": "insert and a batch of one give the same table", "statement": "Inserting an item with insert or with insertBatch gives equal tables.", "quantifier": "every legal history and item", "why_tests_cant": "Differs only when the stash is used.", "anchors": ["libPSI/Tools/CuckooHasher.cpp: insert, insertBatch, operator=="]}
{"id": "C113", "title": "An index cannot be inserted twice", "statement": "A second insertion of the same index is rejected.", "quantifier": "every legal history", "why_tests_cant": "The check is skipped only for one hash value and in batches.", "anchors": ["libPSI/Tools/CuckooHasher.cpp: insert, insertBatch"]}
{"id": "C114", "title": "Initialising again empties the table", "statement": "After init the table is empty.", "quantifier": "every table and parameters", "why_tests_cant": "Tests use new objects.", "anchors": ["libPSI/Tools/CuckooHasher.cpp: init"]}
{"id": "C115", "title": "CuckooHasher::init picks the smallest sufficient parameters", "statement": "init takes the smallest tabulated size that is at least n, throws for other security levels or more than 2^32 items, and allocates accordingly.", "quantifier": "all n and security levels", "why_tests_cant": "Boundaries of nine classes.", "anchors": ["libPSI/Tools/CuckooHasher.cpp: init"]}
{"id": "C116", "title": "SimpleCuckoo keeps and finds every item", "statement": "For any batches every item is stored exactly once, none is lost however full the table is, and the lookup is sound and complete.", "quantifier": "every legal sequence of batches, any number of bins", "why_tests_cant": "Growing stash appears only in overfull tables.", "anchors": ["frontend/cuckoo/SimpleCuckoo.cpp: insertBatch, findBatch"]}
{"id": "C117", "title": "Concurrent insertions in CuckooHasher lose nothing", "statement": "If threads insert distinct items in one table and all calls return, every item is stored exactly once, where it belongs, and find is right, whatever the interleaving.", "quantifier": "every schedule, every number of threads, every calls", "why_tests_cant": "Interleavings that exchange items between threads in the middle of an eviction cannot be enumerated.", "anchors": ["libPSI/Tools/CuckooHasher.cpp: insert, insertHelper, insertBatch", "libPSI_Tests/BinOtPsi_Tests.cpp: CuckooHasher_parallel_Test_Impl"]}
{"id": "C118", "title": "Concurrent insertions in CuckooHasher end", "statement": "Every call ends after a bounded number of own steps whatever the other threads do, and it ends without exception or undefined behaviour unless the stash is full.", "quantifier": "every schedule", "why_tests_cant": "Livelock between threads is invisible to tests.", "anchors": ["libPSI/Tools/CuckooHasher.cpp: insert, insertHelper, insertBatch"]}
{"id": "C119", "title": "Concurrent insertions in CuckooHasher are free of data races", "statement": "No word of mHashes is written by one thread and accessed by another without synchronisation.", "quantifier": "every schedule", "why_tests_cant": "Benign on the test machine.", "anchors": ["libPSI/Tools/CuckooHasher.cpp: insertHelper, insertBatch"]}
{"id": "C120", "title": "Lookups during insertions find the items inserted before", "statement": "An item whose insertion has returned is found while other threads insert.", "quantifier": "every schedule", "why_tests_cant": "The window is a few instructions long.", "anchors": ["libPSI/Tools/CuckooHasher.cpp: find, insertHelper"]}
{"id": "C121", "title": "polyNTL evaluates what it interpolated", "statement": "The coefficients of getSuperBlksCoefficients, handed over byte by byte and padded with zeros, evaluate under evalSuperPolynomial at each given item to the row given for it, whatever the random padding points; if two points coincide an error is raised instead of a wrong polynomial.", "quantifier": "every field of at most 64 bytes, items, rows, degree, random points, list of evaluation points", "why_tests_cant": "A single run uses one random padding; coinciding points have negligible probability.", "anchors": ["libPSI/PSI/Prty/Poly/polyNTL.cpp: getSuperBlksCoefficients", "libPSI/PSI/Prty/Poly/polyNTL.cpp: evalSuperPolynomial", "libPSI/PSI/Prty/Poly/polyNTL.cpp: GF2EFromBlocks", "libPSI/PSI/Prty/Poly/polyNTL.cpp: BlocksFromGF2E"]}
{"id": "C122", "title": "polyNTL padding hides the number of points", "statement": "getBlkCoefficients with a degree above the number of points returns a polynomial of at most that degree through the points, and each such polynomial results from exactly one choice of the random coefficients.", "quantifier": "every field of at most 16 bytes, point set, value set, degree", "why_tests_cant": "A distribution; a test sees single samples.", "anchors": ["libPSI/PSI/Prty/Poly/polyNTL.cpp: getBlkCoefficients", "libPSI/PSI/Prty/Poly/polyNTL.cpp: evalPolynomial"]}
{"id": "C123", "title": "PRTY bin polynomials reach the sender", "statement": "In output, for each bin of a step and each item that both parties have in the bin, the sender's evaluation of the received coefficients is the row of the receiver.", "quantifier": "every field, bins, rows, random points, sender items", "why_tests_cant": "A polynomial of lower degree has negligible probability for random rows.", "anchors": ["libPSI/PSI/Prty/PrtyReceiver.cpp: output", "libPSI/PSI/Prty/PrtySender.cpp: output", "libPSI/PSI/Prty/Poly/polyNTL.cpp: getSuperBlksCoefficients"]}
{"id": "C124", "title": "The bin size search bounds the overflow probability", "statement": "get_bin_size returns for every number of balls, every number of bins and every security parameter, and when the balls are placed uniformly at random, the fraction of placements in which some bin gets more balls than the returned size is at most (1 + (c-1)*n/b) * 2^-statSecParam, where c = 2^0.0001 accounts for the early end of the sum.", "quantifier": "all ball counts, bin counts, security parameters, rational stop factors", "why_tests_cant": "Overflow probabilities of 2^-40 cannot be sampled; a sum that is cut off too early or starts one term late gives the same sizes in small tests.", "anchors": ["libPSI/Tools/SimpleIndex.cpp: getBinOverflowProb, get_bin_size"]}
{"id": "C125", "title": "SimpleHasher bins hold all items except with small probability", "statement": "SimpleHasher::init throws if the chosen bin size exceeds 255; otherwise, except for the fraction of item placements bounded by the bin size search, concurrent pushes of all items stay inside the rows of their bins and afterwards every bin holds exactly its items.", "quantifier": "all set sizes, bin counts, security parameters, orders of pushes", "why_tests_cant": "The bad event has probability 2^-40 and writes outside of a row silently.", "anchors": ["libPSI/Tools/SimpleHasher.cpp: init", "libPSI/Tools/SimpleHasher.h: push, getBin", "libPSI/Tools/SimpleIndex.cpp: get_bin_size"]}
{"id": "C126", "title": "RR17a online phase completes under every schedule", "statement": "When both parties run sendInput of RR17a with the same parameters and the same number of channels, every interleaving of all threads of both parties ends with all threads finished: no deadlock at a barrier, promise or receive, and every receive gets a message of the size it expects.", "quantifier": "all bin counts, capacities, step sizes, set sizes, thread counts, OT check conversations, interleavings", "why_tests_cant": "A deadlock or a mismatched receive may need one particular interleaving or one particular number of threads; tests run few.", "anchors": ["libPSI/MPSI/Rr17/Rr17a/Rr17aMPsiSender.cpp: sendInput", "libPSI/MPSI/Rr17/Rr17a/Rr17aMPsiReceiver.cpp: sendInput"]}
{"id": "C127", "title": "RR17b online phase completes under every schedule", "statement": "When both parties run sendInput of RR17b with the same parameters and the same number of channels, every interleaving of all threads of both parties ends with all threads finished, and every receive gets a message of the size it expects.", "quantifier": "all bin counts, capacities, step sizes, set sizes, thread counts, OT check conversations, interleavings", "why_tests_cant": "A deadlock or a mismatched receive may need one particular interleaving or one particular number of threads; tests run few.", "anchors": ["libPSI/MPSI/Rr17/Rr17b/Rr17bMPsiSender.cpp: sendInput", "libPSI/MPSI/Rr17/Rr17b/Rr17bMPsiReceiver.cpp: sendInput"]}
{"id": "C128", "title": "GRR18 online phase completes under every schedule", "statement": "When both parties run sendInput of GRR18 with the same parameters and the same number of channels, every interleaving of all threads of both parties ends with all threads finished, and every receive gets a message of the size it expects.", "quantifier": "all bin counts, loads of both parties, step sizes, set sizes, numbers of mask rows, thread counts, interleavings", "why_tests_cant": "A deadlock or a mismatched receive may need one particular interleaving or one particular number of threads; tests run few.", "anchors": ["libPSI/MPSI/Grr18/Grr18MPsiSender.cpp: sendInput", "libPSI/MPSI/Grr18/Grr18MPsiReceiver.cpp: sendInput"]}
{"id": "C129", "title": "RR16 online phase completes under every schedule", "statement": "When both parties run sendInput of RR16 with the same number of channels and the permutation is accepted, every interleaving of all threads ends with all threads finished, whichever receiver thread reaches the merge first.", "quantifier": "all set sizes, filter sizes, thread counts, merging threads, interleavings", "why_tests_cant": "A deadlock or a mismatched receive may need one particular interleaving or one particular number of threads; tests run few.", "anchors": ["libPSI/MPSI/Rr16/AknBfMPsiSender.cpp: sendInput", "libPSI/MPSI/Rr16/AknBfMPsiReceiver.cpp: sendInput"]}
{"id": "C130", "title": "Masks leave a malicious-secure sender only after all checks", "statement": "Whatever the receiver sends and when, and however the threads are scheduled, no thread of the sender starts to send masks before every thread of the sender has received all its protocol messages and finished its OT checks (RR17a, RR17b, GRR18); in RR16 not before the permutation is checked.", "quantifier": "all parameters, all behaviours of the receiver, interleavings", "why_tests_cant": "A test with an honest peer has nothing to reject, and the order of two threads is right by chance.", "anchors": ["libPSI/MPSI/Rr17/Rr17a/Rr17aMPsiSender.cpp: sendInput", "libPSI/MPSI/Rr17/Rr17b/Rr17bMPsiSender.cpp: sendInput", "libPSI/MPSI/Grr18/Grr18MPsiSender.cpp: sendInput", "libPSI/MPSI/Rr16/AknBfMPsiSender.cpp: sendInput"]}
{"id": "C131", "title": "Lookups follow all insertions in RR17a, GRR18 and RR16", "statement": "Whatever the sender sends and when, and however the threads are scheduled, no receiver thread starts to search the shared table of masks before every receiver thread has put in its own masks; in RR16 the permutation is computed only after all threads have set their filter bits.", "quantifier": "all parameters, all behaviours of the sender, merging threads, interleavings", "why_tests_cant": "A missing barrier shows as a rare wrong result or crash under load.", "anchors": ["libPSI/MPSI/Rr17/Rr17a/Rr17aMPsiReceiver.cpp: sendInput", "libPSI/MPSI/Grr18/Grr18MPsiReceiver.cpp: sendInput", "libPSI/MPSI/Rr16/AknBfMPsiReceiver.cpp: sendInput"]}
{"id": "C132", "title": "Lookups follow all insertions in RR17b", "statement": "Whatever the sender sends and when, and however the threads are scheduled, no RR17b receiver thread searches the tag table before every receiver thread has put in its tags.", "quantifier": "all parameters, all behaviours of the sender, interleavings", "why_tests_cant": "An honest sender orders the threads by its messages, so tests never see the race.", "anchors": ["libPSI/MPSI/Rr17/Rr17b/Rr17bMPsiSender.cpp: sendInput", "libPSI/MPSI/Rr17/Rr17b/Rr17bMPsiReceiver.cpp: sendInput"]}
{"id": "C133", "title": "KKRT masks are long enough", "statement": "For all set sizes and every statistical security parameter, with independent uniform masks for items outside of the intersection, the probability that the receiver reports a wrong item because two compared masks are equal is at most 2^-mStatSecParam.", "quantifier": "all set sizes, security parameters, receiver masks and hash functions that placed them", "why_tests_cant": "An accidental match has probability around 2^-40; no test sees it, and a too short mask behaves correctly in every test.", "anchors": ["libPSI/PSI/Kkrt/KkrtPsiReceiver.cpp: sendInput", "libPSI/PSI/Kkrt/KkrtPsiSender.cpp: sendInput"]}
{"id": "C134", "title": "ECDH and PRTY masks honour the requested security parameter", "statement": "For all set sizes, with independent uniform masks for items outside of the intersection, the probability that the receiver reports a wrong item because two compared masks are equal is at most 2^-s for the security parameter s given to init.", "quantifier": "all set sizes, security parameters, receiver masks", "why_tests_cant": "An accidental match has probability around 2^-40; no test sees it, and a too short mask behaves correctly in every test.", "anchors": ["libPSI/PSI/ECDH/EcdhPsiReceiver.cpp: init, sendInput", "libPSI/PSI/ECDH/EcdhPsiSender.cpp: sendInput", "libPSI/PSI/Prty/PrtySender.cpp: output", "libPSI/PSI/Prty/PrtyReceiver.cpp: output"]}
{"id": "C135", "title": "RR17a masks are long enough", "statement": "For all set sizes, bin capacities and security parameters, with independent uniform masks for items outside of the intersection, the probability that the receiver reports a wrong item because two compared masks are equal is at most 2^-mStatSecParam.", "quantifier": "all set sizes, bin capacities, security parameters, receiver masks", "why_tests_cant": "An accidental match has probability around 2^-40; no test sees it, and a too short mask behaves correctly in every test.", "anchors": ["libPSI/MPSI/Rr17/Rr17a/Rr17aMPsiReceiver.cpp: sendInput", "libPSI/MPSI/Rr17/Rr17a/Rr17aMPsiSender.cpp: sendInput"]}
{"id": "C136", "title": "No party chooses the hash seed in the malicious-secure protocols", "statement": "In RR16, RR17a, RR17b and GRR18, init accepts a peer only if the seed it opens is the one it committed to, so that a peer cannot choose its share of the hash seed after it has seen the other share; two honest parties get the same seed, and it is as random as one's own share.", "quantifier": "all commitment functions, seeds and strategies of the peer", "why_tests_cant": "A test runs two honest parties; nothing in it opens a commitment wrongly.", "anchors": ["libPSI/MPSI/Rr17/Rr17a/Rr17aMPsiReceiver.cpp: init", "libPSI/MPSI/Rr17/Rr17a/Rr17aMPsiSender.cpp: init", "libPSI/MPSI/Rr17/Rr17b/Rr17bMPsiReceiver.cpp: init", "libPSI/MPSI/Rr17/Rr17b/Rr17bMPsiSender.cpp: init", "libPSI/MPSI/Grr18/Grr18MPsiReceiver.cpp: init", "libPSI/MPSI/Grr18/Grr18MPsiSender.cpp: init", "libPSI/MPSI/Rr16/AknBfMPsiReceiver.cpp: init", "libPSI/MPSI/Rr16/AknBfMPsiSender.cpp: init"]}
{"id": "C137", "title": "Base OTs of the two parties fit together", "statement": "In RR17a and GRR18, after init without base OTs, the pairs given to one party's OT receiver and the choices and messages given to the other party's OT sender are the outcome of the same OTs, in both directions, baseOtCount of them each way; in RR17b in the one direction used. KOS is only ever given 128 base OTs.", "quantifier": "all base OT and KOS implementations that are correct on 128 bases, all choices and all numbers of base OTs", "why_tests_cant": "Tests run one base OT count and only see the final intersection.", "anchors": ["libPSI/MPSI/Rr17/Rr17a/Rr17aMPsiReceiver.cpp: init", "libPSI/MPSI/Rr17/Rr17a/Rr17aMPsiSender.cpp: init", "libPSI/MPSI/Rr17/Rr17b/Rr17bMPsiReceiver.cpp: init", "libPSI/MPSI/Rr17/Rr17b/Rr17bMPsiSender.cpp: init", "libPSI/MPSI/Grr18/Grr18MPsiReceiver.cpp: init", "libPSI/MPSI/Grr18/Grr18MPsiSender.cpp: init"]}
{"id": "C138", "title": "The set-up phase completes under every schedule", "statement": "For all numbers of channels, with two honest parties, the init of RR17a, RR17b, GRR18 and RR16 ends under every interleaving of the threads: no receive waits for a message that is never sent or gets one of another size.", "quantifier": "all numbers of channels, sizes, OT conversations and schedules", "why_tests_cant": "A test sees a few schedules of a few thread counts.", "anchors": ["libPSI/MPSI/Rr17/Rr17a/Rr17aMPsiReceiver.cpp: init", "libPSI/MPSI/Rr17/Rr17a/Rr17aMPsiSender.cpp: init", "libPSI/MPSI/Rr17/Rr17b/Rr17bMPsiReceiver.cpp: init", "libPSI/MPSI/Rr17/Rr17b/Rr17bMPsiSender.cpp: init", "libPSI/MPSI/Grr18/Grr18MPsiReceiver.cpp: init", "libPSI/MPSI/Grr18/Grr18MPsiSender.cpp: init", "libPSI/MPSI/Rr16/AknBfMPsiReceiver.cpp: init", "libPSI/MPSI/Rr16/AknBfMPsiSender.cpp: init"]}
{"id": "C139", "title": "Enough OTs are set up for each thread", "statement": "In RR17a and RR17b the number of OTs that init sets up for a channel is at least the number that the thread on the channel uses in sendInput, at both parties, although the RR17b parties split the bins differently.", "quantifier": "all bin counts, bin sizes, step sizes and thread counts within 64 bits", "why_tests_cant": "Tests use one or a few thread counts that divide the bin count.", "anchors": ["libPSI/MPSI/Rr17/Rr17a/Rr17aMPsiReceiver.cpp: init", "libPSI/MPSI/Rr17/Rr17a/Rr17aMPsiSender.cpp: init", "libPSI/MPSI/Rr17/Rr17b/Rr17bMPsiReceiver.cpp: init", "libPSI/MPSI/Rr17/Rr17b/Rr17bMPsiSender.cpp: init", "libPSI/MPSI/Rr17/Rr17b/Rr17bMPsiSender.cpp: sendInput", "libPSI/MPSI/Rr17/Rr17b/Rr17bMPsiReceiver.cpp: sendInput"]}
{"id": "C140", "title": "ECDH, DCW and DKT end under every schedule", "statement": "With two honest parties whose sets have the same size, every interleaving of the threads of ECDH, of DCW with its init, and of DKT ends with all threads finished: no wait is forever and no receive gets a message of a size other than the one it expects.", "quantifier": "all set sizes, numbers of channels, sizes of points and numbers, OT conversations and schedules", "why_tests_cant": "A test sees few schedules and thread counts; a deadlock that needs one schedule in a million does not show.", "anchors": ["libPSI/PSI/ECDH/EcdhPsiReceiver.cpp: sendInput", "libPSI/PSI/ECDH/EcdhPsiSender.cpp: sendInput", "libPSI/PSI/Dcw/DcwRBfPsiReceiver.cpp: init, sendInput", "libPSI/PSI/Dcw/DcwRBfPsiSender.cpp: init, sendInput", "libPSI/MPSI/DKT/DktMPsiReceiver.cpp: sendInput", "libPSI/MPSI/DKT/DktMPsiSender.cpp: sendInput"]}
{"id": "C141", "title": "The receivers of ECDH and DKT look masks up in a complete table", "statement": "Whatever the sender sends, and in every interleaving, no receiver thread of ECDH or DKT looks up a mask before all masks of all receiver threads are in the shared table, and in DKT no hash is merged into it before all threads have computed theirs.", "quantifier": "all senders, set sizes, numbers of threads and schedules", "why_tests_cant": "A lookup in a table that is still being written shows as a rare missing item or a crash.", "anchors": ["libPSI/PSI/ECDH/EcdhPsiReceiver.cpp: sendInput", "libPSI/PSI/ECDH/EcdhPsiSender.cpp: sendInput", "libPSI/MPSI/DKT/DktMPsiReceiver.cpp: sendInput", "libPSI/MPSI/DKT/DktMPsiSender.cpp: sendInput"]}
{"id": "C142", "title": "No masks before everything of the receiver has arrived", "statement": "In every interleaving the sender of ECDH and DKT sends its first mask only after all its threads have received all that the receiver sends them (in DKT the proofs).", "quantifier": "all receivers, set sizes, numbers of threads and schedules", "why_tests_cant": "Depends on the schedule and on a receiver that misbehaves on one channel only.", "anchors": ["libPSI/PSI/ECDH/EcdhPsiReceiver.cpp: sendInput", "libPSI/PSI/ECDH/EcdhPsiSender.cpp: sendInput", "libPSI/MPSI/DKT/DktMPsiReceiver.cpp: sendInput", "libPSI/MPSI/DKT/DktMPsiSender.cpp: sendInput"]}
{"id": "C143", "title": "Every OT thread gets the seed drawn for it", "statement": "Wherever a protocol draws a seed per thread (init of DCW, RR17a and RR17b, online phases of RR17a, RR17b and GRR18), each thread uses exactly the seed drawn for it, in every interleaving with the spawning thread, and no thread reads a variable after its end.", "quantifier": "all seeds, numbers of threads and schedules", "why_tests_cant": "A thread usually starts before the next loop iteration, and a wrong seed gives correct OTs all the same.", "anchors": ["libPSI/PSI/Dcw/DcwRBfPsiSender.cpp:115-122", "libPSI/PSI/Dcw/DcwRBfPsiReceiver.cpp:116-130", "libPSI/MPSI/Rr17/Rr17a/Rr17aMPsiReceiver.cpp: init, sendInput", "libPSI/MPSI/Rr17/Rr17b/Rr17bMPsiSender.cpp: init, sendInput", "libPSI/MPSI/Grr18/Grr18MPsiSender.cpp: sendInput"]}
{"id": "C144", "title": "A mask fits the block it is kept in", "statement": "The KKRT, ECDH and PRTY receivers keep a mask of the computed length in a 16-byte block; for all security parameters and set sizes the length is at most 16, so that nothing beyond the block is written or compared.", "quantifier": "all security parameters and set sizes with a product below 2^64", "why_tests_cant": "Tests use 40 bits of statistical security.", "anchors": ["libPSI/PSI/Kkrt/KkrtPsiReceiver.cpp:125,172-174,229", "libPSI/PSI/ECDH/EcdhPsiReceiver.cpp:47,204", "libPSI/PSI/Prty/PrtyReceiver.cpp:71,251"]}
{"id": "C145", "title": "The PRTY sender reads the items of every bin", "statement": "In PrtySender::output, the loop that copies the items of a bin into a buffer ends and leaves in the buffer the inputs whose indices are in the bin.", "quantifier": "all inputs and bins", "why_tests_cant": "The file does not compile (init call without arguments), so no test runs it.", "anchors": ["libPSI/PSI/Prty/PrtySender.cpp:138-140"]}
{"id": "C146", "title": "An accepted DKT sender transcript has one key", "statement": "If all of the DKT receiver's checks of a sender's messages pass, then Z and every Mp are the multiples of the generator and of the receiver's points by one and the same scalar, whatever the order in which the sender chose its messages.", "quantifier": "all groups of prime order, oracles, sets, numbers of threads and sender messages", "why_tests_cant": "Needs a malicious sender that picks its points after the challenge.", "anchors": ["libPSI/MPSI/DKT/DktMPsiReceiver.cpp:329-395,465-472", "libPSI/MPSI/DKT/DktMPsiSender.cpp:177-186,224-234,258-271"]}
{"id": "C147", "title": "A verifying DKT receiver proof needs points chosen before the challenge", "statement": "If all proofs of the receiver's items verify at the DKT sender, the receiver chose the points X, M and N before it knew the challenge: with the other values fixed no N computed from the challenge makes the proofs verify.", "quantifier": "all groups of prime order, oracles, sets, points, commitments and responses", "why_tests_cant": "Needs a malicious receiver that picks its points after the challenge.", "anchors": ["libPSI/MPSI/DKT/DktMPsiReceiver.cpp:158-173,200-254", "libPSI/MPSI/DKT/DktMPsiSender.cpp:139,200-220,275-276,335-348"]}
{"id": "C148", "title": "A DKT challenge fixes the commitments of all threads", "statement": "Two runs with the same challenge have the same first commitment and the same commitments in every thread, if no two of the strings hashed collide; so no thread's commitments can be changed after the challenge.", "quantifier": "all oracles, commitments and numbers of threads", "why_tests_cant": "Honest runs never change a commitment.", "anchors": ["libPSI/MPSI/DKT/DktMPsiReceiver.cpp:162-170,226-227,240-246,258-260,337-369", "libPSI/MPSI/DKT/DktMPsiSender.cpp:139,220,250-262,275-276,293-298"]}
{"id": "C149", "title": "A PIR key does not depend on the position", "statement": "What one server of the PIR gets (BgiPirClient::keyGen) is a function of its own root and of the expansions on the other server's path; with these expansions drawn uniformly, the key has the same distribution for every position: a permutation of the draws carries the key for one position to the key for the other.", "quantifier": "all block functions, depths, group sizes, positions, seeds", "why_tests_cant": "A test sees single keys, not distributions, and cannot compare all positions.", "anchors": ["libPSI/PIR/BgiPirClient.cpp:87-215"]}
{"id": "C150", "title": "KKRT: the places of the masks hide the order of the sender's set", "statement": "KkrtPsiSender sends the masks in an order drawn by a Fisher-Yates shuffle. For two sets of the same size with the same common items there is a renaming of positions that carries every permutation for the first set to one for the second such that the two messages look alike to the receiver: at each place the same recognised mask or two masks that mean nothing to it. Every permutation comes from exactly one sequence of residues.", "quantifier": "all OPRFs, seeds, sets, permutations, schedules without false matches", "why_tests_cant": "The receiver's view is compared across sets and permutations; a test sees one run and checks only the result.", "anchors": ["libPSI/PSI/Kkrt/KkrtPsiSender.cpp:96-106,400-500"]}
{"id": "C151", "title": "RR17b: the places of the rows hide the order of the sender's set", "statement": "Rr17bMPsiSender stores the row of item j at itemPermutation[j]. For two sets with the same common items there is a renaming of positions such that, with renamed permutation and decommitment values, the rows look alike to the receiver: the same row, or two rows that open to none of its items.", "quantifier": "all encodings, commitments, sets, random choices, schedules", "why_tests_cant": "The receiver's view is compared across sets and permutations; a test sees one run and checks only the result.", "anchors": ["libPSI/MPSI/Rr17/Rr17b/Rr17bMPsiSender.cpp:223-233,392"]}
{"id": "C152", "title": "RR17a: the places of the masks hide the order of the sender's set", "statement": "Rr17aMPsiSender permutes the rows by maskPerm and the OTs of a bin by a permutation per bin. For two sets with the same common items there are renamings of rows and of the slots of each bin such that, with renamed permutations, the masks look alike to the receiver.", "quantifier": "all encodings, sets, random choices, schedules without masks shared by different items", "why_tests_cant": "The receiver's view is compared across sets and permutations; a test sees one run and checks only the result.", "anchors": ["libPSI/MPSI/Rr17/Rr17a/Rr17aMPsiSender.cpp:273-285,429,492"]}
{"id": "C153", "title": "ECDH: the places of the masks hide the order of the sender's set", "statement": "The receiver of ECDH learns the common items but not where they stand in the sender's set: the places of the masks it recognises do not depend on the order of the input.", "quantifier": "all primitives, randomness, sets, numbers of channels without false matches", "why_tests_cant": "The receiver's view is compared across sets and permutations; a test sees one run and checks only the result.", "anchors": ["libPSI/PSI/ECDH/EcdhPsiSender.cpp:78-101"]}
{"id": "C154", "title": "DCW: the places of the masks hide the order of the sender's set", "statement": "The receiver of DCW learns the common items but not where they stand in the sender's set: the places of the masks it recognises do not depend on the order of the input.", "quantifier": "all primitives, randomness, sets, numbers of channels without false matches", "why_tests_cant": "The receiver's view is compared across sets and permutations; a test sees one run and checks only the result.", "anchors": ["libPSI/PSI/Dcw/DcwRBfPsiSender.cpp:172-192"]}
{"id": "C155", "title": "DKT: the places of the masks hide the order of the sender's set", "statement": "The receiver of DKT learns the common items but not where they stand in the sender's set: the places of the masks it recognises do not depend on the order of the input.", "quantifier": "all primitives, randomness, sets, numbers of channels without false matches", "why_tests_cant": "The receiver's view is compared across sets and permutations; a test sees one run and checks only the result.", "anchors": ["libPSI/MPSI/DKT/DktMPsiSender.cpp:372-402"]}
{"id": "C156", "title": "RR16: the places of the masks hide the order of the sender's set", "statement": "The receiver of RR16 learns the common items but not where they stand in the sender's set: the places of the masks it recognises do not depend on the order of the input.", "quantifier": "all primitives, randomness, sets, numbers of channels without false matches", "why_tests_cant": "The receiver's view is compared across sets and permutations; a test sees one run and checks only the result.", "anchors": ["libPSI/MPSI/Rr16/AknBfMPsiSender.cpp:130-186"]}
{"id": "C157", "title": "GRR18: the places of the masks do not show the sizes of the sender's bins", "statement": "Beyond the announced noisy loads the receiver of GRR18 learns nothing about the sizes of the sender's bins: the places of the masks it recognises do not depend on them.", "quantifier": "all encodings, sets, loads, random choices", "why_tests_cant": "The receiver's view is compared across sets and permutations; a test sees one run and checks only the result.", "anchors": ["libPSI/MPSI/Grr18/Grr18MPsiSender.cpp:229-241,402-519"]}
{"id": "C158", "title": "GRR18: the announced loads are differentially private", "statement": "computeLoads adds noise to the sizes of the bins; both parties send the loads. An item more or less in a bin changes the probability of every set of announced loads by a factor of at most exp(eps), so an item replaced by an item of another bin by at most exp(2 eps).", "quantifier": "all parameters, sizes of bins, sets of loads", "why_tests_cant": "A statement about the distribution of what is sent for two neighbouring sets; a test sees single samples and checks only the result.", "anchors": ["libPSI/MPSI/Grr18/Grr18Common.cpp:45-127", "libPSI/MPSI/Grr18/Grr18MPsiReceiver.cpp:340-360", "libPSI/MPSI/Grr18/Grr18MPsiSender.cpp:320-340"]}
{"id": "C159", "title": "GRR18: with the default parameters the announced loads are padded", "statement": "With the default eps and the default number of bins the loads that both parties announce are noisy: they are not the exact sizes of the bins.", "quantifier": "all numbers of items, bins, sizes, noise", "why_tests_cant": "A statement about the distribution of what is sent for two neighbouring sets; a test sees single samples and checks only the result.", "anchors": ["libPSI/MPSI/Grr18/Grr18Common.cpp:45-127,129-292", "libPSI/MPSI/Grr18/Grr18MPsiSender.h:31-54", "libPSI/MPSI/Grr18/Grr18MPsiReceiver.h:28-29"]}
{"id": "C160", "title": "GRR18: with the buffer, computing the loads fails with probability about 2^-40", "statement": "With mLapPlusBuff set (the buffer) computeLoads returns loads except with probability at most 2^-40 plus the probability of samples beyond 2^64.", "quantifier": "all eps > 0, numbers of bins, sizes up to the maximum", "why_tests_cant": "A statement about the distribution of what is sent for two neighbouring sets; a test sees single samples and checks only the result.", "anchors": ["libPSI/MPSI/Grr18/Grr18Common.cpp:45-127"]}
{"id": "C161", "title": "GRR18: the announced number of masks is differentially private", "statement": "Grr18MPsiSender announces the number of its masks plus a noise and a buffer. An item replaced by an item of another bin changes the probability of every set of announced numbers by a factor of at most exp(eps), up to a probability of about 2^-40.", "quantifier": "all eps > 0, loads up to 255, sizes, sets of numbers", "why_tests_cant": "A statement about the distribution of what is sent for two neighbouring sets; a test sees single samples and checks only the result.", "anchors": ["libPSI/MPSI/Grr18/Grr18MPsiSender.cpp:184-197,398-443"]}
{"id": "C162", "title": "GRR18: the buffer for the number of masks can be computed and suffices", "statement": "computeBuffSize returns a buffer that the noise exceeds with probability at most 2^-40.", "quantifier": "all eps, maximal loads", "why_tests_cant": "A statement about the distribution of what is sent for two neighbouring sets; a test sees single samples and checks only the result.", "anchors": ["libPSI/MPSI/Grr18/Grr18MPsiSender.cpp:184-197"]}
{"id": "C163", "title": "RR16: the permutation hides the receiver's set from the sender", "statement": "AknBfMPsiReceiver maps each position of its Bloom filter to an OT with the matching choice and sends the map. What the sender receives does not depend on the receiver's set: for two sets of the same size the possible outcomes of the OTs correspond one to one such that the sender gets the same map.", "quantifier": "all sets of the same size, hash functions, outcomes of the OTs, numbers of channels", "why_tests_cant": "The sender's view is compared across sets and choices; tests check the intersection only.", "anchors": ["libPSI/MPSI/Rr16/AknBfMPsiReceiver.cpp:69-77,215-244"]}
{"id": "C164", "title": "PRTY: the polynomials hide the receiver's items", "statement": "In PRTY the receiver sends for each bin a polynomial through the points given by its items and random points. The sender learns nothing about the items from the polynomial: whatever the items of the bin, the polynomials are the same, one for each choice of the rows and random points.", "quantifier": "all bins, fields, rows and random points", "why_tests_cant": "A statement about all polynomials that can be sent for two different bins; no single run shows it.", "anchors": ["libPSI/PSI/Prty/PrtyReceiver.cpp:69,104,126-143", "libPSI/PSI/Prty/Poly/polyNTL.cpp:12-19,106-150", "libPSI/PSI/Prty/PrtyDefines.h:45-66"]}
{"id": "C165", "title": "DKT: the receiver's messages hide its set", "statement": "The first and second message of the DKT receiver (masked points, commitments and responses of its proof) do not depend on its set: for another set of the same size the same messages occur for another choice of the receiver's randomness.", "quantifier": "all sets, groups, randomness", "why_tests_cant": "The sender's view is compared across sets and randomness; tests check the intersection only.", "anchors": ["libPSI/MPSI/DKT/DktMPsiReceiver.cpp:114-123,150-296"]}
{"id": "C166", "title": "DCW: the receiver learns nothing about the sender's items outside its set", "statement": "The masks the DCW sender sends for items that are not in the receiver's set are independent and uniform, whatever the receiver knows: each combination of values occurs for exactly one choice of the OT messages the receiver does not have.", "quantifier": "all sets, hash functions, OT messages, choice bits", "why_tests_cant": "A statement about the distribution of the masks over the messages unknown to the receiver; runs show single values.", "anchors": ["libPSI/PSI/Dcw/DcwRBfPsiReceiver.cpp:172-219", "libPSI/PSI/Dcw/DcwRBfPsiSender.cpp:149-195"]}
{"id": "C167", "title": "RR16: the receiver learns nothing about the sender's items with an unknown OT", "statement": "Whatever permutation the RR16 receiver sends, consider sender items in an order in which each hits, an odd number of times, an OT whose second message the receiver does not have and which the earlier items do not hit so. Their masks are jointly uniform: each combination of values occurs for exactly one choice of these messages, whatever the others are.", "quantifier": "all permutations, sets, hash functions, OT messages", "why_tests_cant": "As C166; also for receivers that deviate from the protocol.", "anchors": ["libPSI/MPSI/Rr16/AknBfMPsiSender.cpp:141-171"]}
{"id": "C168", "title": "KKRT: the receiver learns the common items and nothing else", "statement": "Two sets of the sender of the same size with the same common items lead to the same distribution of the sender's messages, jointly with the values of the OPRF that the receiver has, whatever these are as long as none belongs to a point of an item outside its set.", "quantifier": "all pairs of sets, hash functions, tables, points known to the receiver, schedules of the sender's threads", "why_tests_cant": "A statement about distributions over all OPRF functions, drawn numbers and permutations; a run shows one value.", "anchors": ["libPSI/PSI/Kkrt/KkrtPsiSender.cpp:338-511"]}
{"id": "C169", "title": "RR17a: the receiver learns the common items and nothing else", "statement": "Two sets of the sender of the same size with the same common items lead to the same distribution of the sender's rows of masks, jointly with the encodings that the receiver chose, for every receiver whose choices are OT inputs of its own items; the receiver's output is determined by the rows and its choices.", "quantifier": "all pairs of sets, channel counts, schedules, choices of the receiver, bins and capacities", "why_tests_cant": "A statement about distributions over all encodings, slot permutations and mask permutations; a run shows one value.", "anchors": ["libPSI/MPSI/Rr17/Rr17a/Rr17aMPsiSender.cpp:440-590", "libPSI/MPSI/Rr17/Rr17a/Rr17aMPsiReceiver.cpp:419-620"]}
{"id": "C170", "title": "PRTY: every mask of the sender has a place of its own", "statement": "The masks that the threads of the PRTY sender copy to the shared arrays are all there when the threads have been joined, one in each place, for every interleaving of the threads.", "quantifier": "all sets, numbers of threads and interleavings of the threads at the level of reads and writes of the shared counters", "why_tests_cant": "The counters of the places are increased by all threads without synchronisation; a run shows one interleaving and seldom one in which an increment is lost.", "anchors": ["libPSI/PSI/Prty/PrtySender.cpp:79-94", "libPSI/PSI/Prty/PrtySender.cpp:212-259"]}
{"id": "C171", "title": "PRTY: the places of the masks do not depend on the sender's items", "statement": "The place in which the mask of a common item is sent does not tell the receiver anything about the other items of the sender.", "quantifier": "all sets of the sender, numbers of bins, keys, polynomials", "why_tests_cant": "The shuffle of the places is commented out; the output of the protocol is the same with and without it.", "anchors": ["libPSI/PSI/Prty/PrtySender.cpp:83-95", "libPSI/PSI/Prty/PrtySender.cpp:257-259"]}
{"id": "C172", "title": "RR16 parameters leave an honest receiver enough OTs", "statement": "For the parameters that computeAknBfParams returns: unless more ones of the receiver are opened in the cut and choose than the threshold allows, the receiver has one OT with choice one left for each hash value of its items; more opened ones than the threshold, and fewer OTs left than the filter has bits, have probability at most e^-k each. The search for parameters ends and, for k = 40, finds parameters for every set of at least 100 items.", "quantifier": "all set sizes n with 100 n < 2^64, security parameters k > 0; every choice of the opened OTs", "why_tests_cant": "A failure probability of e^-40 cannot be observed, and the sizes are unbounded.", "anchors": ["libPSI/MPSI/Rr16/AknBfMPsiReceiver.cpp:431-736"]}
{"id": "C173", "title": "RR16 parameters catch a receiver with too many ones", "statement": "For the parameters that computeAknBfParams returns and any number of OTs in which the receiver chooses one: the probability that it is not caught by the cut and choose and keeps so many ones that all hash values of a random item fall on them with probability more than 2^-128 is at most e^-k.", "quantifier": "all set sizes n with 100 n < 2^64, security parameters k > 0, numbers of ones", "why_tests_cant": "Probabilities of e^-40 and 2^-128 cannot be observed; the receiver is arbitrary.", "anchors": ["libPSI/MPSI/Rr16/AknBfMPsiReceiver.cpp:431-736"]}
{"id": "C174", "title": "RR16 table holds the values of the formulas", "statement": "Every entry of the table in computeAknBfParams has the number of ones, the threshold and the number of OTs that the formulas give for its number of hash functions, bits and probability.", "quantifier": "all entries of the table", "why_tests_cant": "A check of all entries with exact real arithmetic (square roots); the code never computes the formulas for these sizes.", "anchors": ["libPSI/MPSI/Rr16/AknBfMPsiReceiver.cpp:431-460", "libPSI/MPSI/Rr16/AknBfMPsiReceiver.cpp:483-666"]}
{"id": "C175", "title": "RR17a result does not depend on the permutation of the masks", "statement": "The positions that the RR17a receiver reports are the same for every random permutation that the sender applies to its rows of masks.", "quantifier": "every set, parameters, encodings without collisions, random choices, schedules, number of channels", "why_tests_cant": "With one channel it holds, and the tests use one channel or compare with few permutations; a run with more channels misses items at random.", "anchors": ["libPSI/MPSI/Rr17/Rr17a/Rr17aMPsiReceiver.cpp: sendInput (574-616)", "libPSI/MPSI/Rr17/Rr17a/Rr17aMPsiSender.cpp: sendInput (488-579)"]}
{"id": "C176", "title": "RR17b: the receiver learns the common items and nothing else", "statement": "Two sets of the sender of the same size with the same common items lead to the same distribution of the sender's rows, jointly with the encodings that the receiver chose and the commitments to its own items, for every receiver whose choices are OT inputs of its own items; the receiver's output is determined by the rows and its choices.", "quantifier": "all pairs of sets, channel counts, schedules, choices of the receiver, bins and capacities", "why_tests_cant": "A statement about distributions over all encodings, commitments, decommitment values and permutations; a run shows one value.", "anchors": ["libPSI/MPSI/Rr17/Rr17b/Rr17bMPsiSender.cpp", "libPSI/MPSI/Rr17/Rr17b/Rr17bMPsiReceiver.cpp"]}
{"id": "C177", "title": "PIR-PSI: server 0 learns nothing about the client's set", "statement": "What server 0 receives from the client in one run - the permutation pi0 and its PIR keys - has the same distribution for every two sets of the client of the same size.", "quantifier": "all client sets, tables of the server, hash values, seeds and random tapes", "why_tests_cant": "A statement about all that a party could compute from its messages; the tests check the output only, which is right although the client's masks are drawn from a constant seed.", "anchors": ["libPSI/PSI/Drrn/DrrnPsiClient.cpp:97-233", "libPSI/PSI/Drrn/DrrnPsiServer.cpp:53-93", "libPSI/PSI/Drrn/DrrnPsiServer.cpp:365-438"]}
{"id": "C178", "title": "PIR-PSI: server 1 learns nothing about the client's set", "statement": "The PIR keys that server 1 receives from the client have the same distribution for every two sets of the client of the same size.", "quantifier": "all client sets, hash values, seeds and random tapes", "why_tests_cant": "A statement about the distribution of the keys over all random tapes; a test would have to look at the keys, and sees one run.", "anchors": ["libPSI/PSI/Drrn/DrrnPsiClient.cpp:127-201"]}
{"id": "C179", "title": "PIR-PSI: the client does not learn under which hash function the server stored a common item", "statement": "What the client receives has the same distribution for two cuckoo tables of the server with the same items that store a common item under different hash functions.", "quantifier": "all client sets, tables, hash values, seeds and exchanges sigma", "why_tests_cant": "A statement about the distribution over the servers' random exchanges; the tests check the output only.", "anchors": ["libPSI/PSI/Drrn/DrrnPsiServer.cpp:53-91", "libPSI/PSI/Drrn/DrrnPsiClient.cpp:236-246"]}
{"id": "C180", "title": "PRTY: masks of items outside the receiver's set have 128 unknown bits", "statement": "For each hash function, except with probability 2^-40 over the receiver's second ciphers, every item of the sender outside the receiver's set has at least 128 columns in which the row that the sender hashes differs from what the receiver can compute by a secret choice bit of the sender.", "quantifier": "all set sizes, receiver polynomials, items and ciphers", "why_tests_cant": "A statement about probabilities of 2^-40 for sets of millions of items.", "anchors": ["libPSI/PSI/Prty/PrtyDefines.h:45-66", "libPSI/PSI/Prty/PrtySender.cpp:25-58", "libPSI/PSI/Prty/PrtySender.cpp:243-255"]}
{"id": "C181", "title": "A simple index can be initialised again", "statement": "After init on a SimpleIndex that was used before, insertItems leaves in the bins exactly what it leaves in those of a new index.", "quantifier": "all earlier contents of the index, all later items, whatever the resized table holds", "why_tests_cant": "Tests construct a new index for every run.", "anchors": ["libPSI/Tools/SimpleIndex.cpp:113-121", "libPSI/Tools/SimpleIndex.cpp:124-314"]}
{"id": "C182", "title": "Receivers can be initialised and used again", "statement": "After any history of runs on one receiver object of RR16, RR17a, RR17b, GRR18, ECDH or DKT, each of init and sendInput, mIntersection holds the positions found in the last run.", "quantifier": "every history of runs, all sets, parameters and random choices", "why_tests_cant": "Tests construct a new receiver for every run.", "anchors": ["libPSI/MPSI/Rr17/Rr17a/Rr17aMPsiReceiver.cpp:619-628", "libPSI/MPSI/Rr17/Rr17b/Rr17bMPsiReceiver.cpp:505-514", "libPSI/MPSI/Grr18/Grr18MPsiReceiver.cpp:652-661", "libPSI/MPSI/Rr16/AknBfMPsiReceiver.cpp:393-399", "libPSI/PSI/ECDH/EcdhPsiReceiver.cpp:25-31", "libPSI/MPSI/DKT/DktMPsiReceiver.cpp:27-33"]}
{"id": "C183", "title": "A PIR-PSI client can ask again", "statement": "After a second init and recv on one DrrnPsiClient, mIntersection (emptied by the caller in between) holds only items of the second run that the server has.", "quantifier": "all sets, tables and random choices of the two runs", "why_tests_cant": "Tests construct a new client for every run.", "anchors": ["libPSI/PSI/Drrn/DrrnPsiClient.cpp:118-119", "libPSI/PSI/Drrn/DrrnPsiClient.cpp:238-245", "libPSI/PSI/Kkrt/KkrtPsiReceiver.cpp:231"]}
{"id": "C184", "title": "The PIR-PSI server's table holds every item once", "statement": "If DrrnPsiServer::setInputs returns, every input is stored in exactly one slot, and that slot is one of those the client computes for the item from the set size, the security parameter and the number of hash functions. A number of hash functions other than 2 or 3 is refused, and so is a second set of inputs.", "quantifier": "all non-empty sets, both numbers of hash functions, every AES, all security estimates", "why_tests_cant": "A slot computed differently by server and client loses only the items that fall into it.", "anchors": ["libPSI/PSI/Drrn/DrrnPsiServer.cpp:105-145", "libPSI/PSI/Drrn/DrrnPsiClient.cpp:29", "libPSI/Tools/CuckooIndex2.cpp:127-177"]}
{"id": "C185", "title": "A complete PIR-PSI run reports exactly the common items", "statement": "From setInputs on two servers to the client's mIntersection, through the final KKRT comparison: with block size 1, parts of the table led by an occupied slot, fresh masks, no zero item and a final comparison without colliding OPRF values, the client reports the positions of exactly its items that the server holds, each once.", "quantifier": "all sets, parameters, keys, shuffles, orders of the servers' work, permutations and schedules of the final comparison", "why_tests_cant": "The parts are tested only together and on a few sizes; a wrong composition shows up as rare missing items.", "anchors": ["libPSI/PSI/Drrn/DrrnPsiServer.cpp:105-457", "libPSI/PSI/Drrn/DrrnPsiClient.cpp:12-246", "libPSI/PSI/Kkrt/KkrtPsiReceiver.cpp:115-245", "libPSI/PSI/Kkrt/KkrtPsiSender.cpp:338-497"]}
{"id": "C186", "title": "PIR-PSI runs to the end under every schedule", "statement": "When client and both servers have the same parameters, every interleaving of the client, the threads of server 0 and the threads of server 1 ends with all of them finished: no deadlock, no message of another size than expected. When the client has fewer regions than server 1, no interleaving finishes.", "quantifier": "all schedules, all numbers of threads of each server, all parameters, all KKRT conversations", "why_tests_cant": "Deadlocks and misordered messages among three parties depend on timing and on the combination of thread numbers.", "anchors": ["libPSI/PSI/Drrn/DrrnPsiServer.cpp:14-97", "libPSI/PSI/Drrn/DrrnPsiServer.cpp:178-189", "libPSI/PSI/Drrn/DrrnPsiServer.cpp:334-457", "libPSI/PSI/Drrn/DrrnPsiClient.cpp:40", "libPSI/PSI/Drrn/DrrnPsiClient.cpp:198-238"]}
{"id": "C187", "title": "PIR-PSI servers use the shares only after all threads have written them, each region once", "statement": "Whatever the other parties send and when, a server reads no share before each of its threads has written the shares of its regions. Each region is evaluated by exactly one thread, exactly once.", "quantifier": "all schedules, all numbers of threads and regions, all behaviours of the other parties", "why_tests_cant": "A missing join or an overlapping split corrupts shares only under rare timings or thread numbers.", "anchors": ["libPSI/PSI/Drrn/DrrnPsiServer.cpp:368-407", "libPSI/PSI/Drrn/DrrnPsiServer.cpp:410-455"]}
{"id": "C188", "title": "The results of all threads reach mIntersection", "statement": "When several threads of a receiver find common items, mIntersection holds the results of all of them after the join, under every schedule and without a data race. For ECDH and DKT it is the same vector under every schedule.", "quantifier": "all schedules, all numbers of threads, all lists of results", "why_tests_cant": "Lost results and corrupted vectors need two threads to append at the same time.", "anchors": ["libPSI/PSI/Prty/PrtyReceiver.cpp:239-281", "libPSI/PSI/Prty/PrtyReceiver.cpp:535-543", "libPSI/PSI/Prty/PrtyReceiver.cpp:938-946", "libPSI/MPSI/Rr17/Rr17a/Rr17aMPsiReceiver.cpp:616-631", "libPSI/MPSI/Rr17/Rr17b/Rr17bMPsiReceiver.cpp:502-517", "libPSI/MPSI/Grr18/Grr18MPsiReceiver.cpp:649-664", "libPSI/MPSI/Rr16/AknBfMPsiReceiver.cpp:391-400", "libPSI/PSI/ECDH/EcdhPsiReceiver.cpp:212-245", "libPSI/MPSI/DKT/DktMPsiReceiver.cpp:517-555"]}
{"id": "C189", "title": "PRTY: both parties hash an item to a common bin", "statement": "For a common item, the bin in which the PRTY receiver places it is one of the bins in which the sender places it, so that the sender evaluates the polynomial that carries the receiver's value for this item.", "quantifier": "all items, all ciphers, all numbers of bins, all runs of the balancing", "why_tests_cant": "The sender's file does not compile as given, so no test can run it; a test of either hash table alone passes.", "anchors": ["libPSI/PSI/Prty/PrtySender.cpp:60", "libPSI/PSI/Prty/PrtySender.cpp:99-102", "libPSI/PSI/Prty/PrtyReceiver.cpp:59", "libPSI/PSI/Prty/PrtyReceiver.cpp:75", "libPSI/Tools/SimpleIndex.cpp:124-283", "libPSI/Tools/BalancedIndex.cpp:39-74"]}
{"id": "C190", "title": "A run of PRTY with the big polynomial returns the common items", "statement": "For every pair of sets, outputBigPoly of the receiver and of the sender end without undefined behaviour, and mIntersection of the receiver holds the position of every common item and only such positions, up to collisions of masks.", "quantifier": "all sets and sizes, all OT keys and choice bits, all hash functions, all numbers of threads that are powers of two, all schedules of the polynomial code, all contents of uninitialised and foreign memory", "why_tests_cant": "The parts (polynomials in three slices, rows, masks, differences) fit together only if sizes and byte counts agree for every number of items; tests take few powers of two.", "anchors": ["libPSI/PSI/Prty/PrtyReceiver.cpp:606-995", "libPSI/PSI/Prty/PrtySender.cpp:740-1084"]}
{"id": "C191", "title": "KKRT and PRTY end under every schedule", "statement": "If both parties use the same sizes, every schedule of the threads of a KKRT run (main thread, receiving thread, receiver) and of output, outputBestComm and outputBigPoly of PRTY ends with all threads of both parties finished; no receive meets a message meant for another one. If the sender has more steps of bins than the receiver, no schedule ends.", "quantifier": "all numbers of threads, bins and items, all base OT conversations, all schedules", "why_tests_cant": "A test sees a few schedules of one machine; a deadlock needs one particular interleaving or a rare size.", "anchors": ["libPSI/PSI/Kkrt/KkrtPsiSender.cpp:338-507", "libPSI/PSI/Kkrt/KkrtPsiReceiver.cpp:148-232", "libPSI/PSI/Prty/PrtySender.cpp:283-357", "libPSI/PSI/Prty/PrtySender.cpp:602-735", "libPSI/PSI/Prty/PrtySender.cpp:797-1084", "libPSI/PSI/Prty/PrtyReceiver.cpp:194-302", "libPSI/PSI/Prty/PrtyReceiver.cpp:468-601", "libPSI/PSI/Prty/PrtyReceiver.cpp:698-994"]}
{"id": "C192", "title": "KKRT and PRTY send no mask before everything has been received", "statement": "In every schedule and whatever the other party sends, the KKRT sender has received all corrections before the first mask leaves, and in PRTY everything that the threads of one phase send and receive comes before everything of the next phase: the sender has all polynomials before it sends a mask, the receiver has sent all polynomials (and filled its table of masks) before it looks at a mask.", "quantifier": "all numbers of threads, bins and items, all scripts of the other party, all schedules", "why_tests_cant": "The order of events in different threads differs from run to run; a violation shows only in one interleaving.", "anchors": ["libPSI/PSI/Kkrt/KkrtPsiSender.cpp:374-507", "libPSI/PSI/Prty/PrtySender.cpp:283-357", "libPSI/PSI/Prty/PrtyReceiver.cpp:194-302"]}
{"id": "C193", "title": "File-based PSI with KKRT or RR17a writes exactly the common rows", "statement": "Two parties run file-based PSI on two input files, one as sender and one as receiver, one as network server, with the same protocol flag. If the hash table has room and no masks collide, the receiver's output file lists exactly the positions of its rows (CSV) or 16-byte pieces (binary) that the sender's file also has, each once if the sender's file has no duplicates. Rows are the same item if their text is the same, or if both are 32 hexadecimal digits of the same number.", "quantifier": "all files of both parties and both formats, all roles, all padding, all random choices and schedules without a collision of masks", "why_tests_cant": "A test runs a few files; the claim combines the reader, the exchange of sizes, the padding, a whole protocol run and the writer for all contents.", "anchors": ["libPSI/Tools/fileBased.cpp:162-303", "libPSI/Tools/fileBased.cpp:14-160", "libPSI/PSI/Kkrt/KkrtPsiSender.cpp:30-106", "libPSI/PSI/Kkrt/KkrtPsiSender.cpp:338-504", "libPSI/PSI/Kkrt/KkrtPsiReceiver.cpp:48-245", "libPSI/MPSI/Rr17/Rr17a/Rr17aMPsiReceiver.cpp:167-460"]}
{"id": "C194", "title": "File-based PSI with ECDH writes exactly the common rows", "statement": "With -ecdh the receiver's output file lists exactly the positions of its rows that the sender's file also has, whenever the hash of the curve points has no collision on the items.", "quantifier": "all files of both parties, all scalars and curves with commuting multiplication, all orders of insertions into the shared map", "why_tests_cant": "A collision of the first 32 bits of two blocks has probability about n^2/2^33 and does not show in tests with small sets.", "anchors": ["libPSI/Tools/fileBased.cpp:264-288", "libPSI/PSI/ECDH/EcdhPsiReceiver.cpp:45-291", "libPSI/PSI/ECDH/EcdhPsiSender.cpp:40-192"]}
{"id": "C195", "title": "The parties of a benchmark hold the same set in every pass", "statement": "In every pass of the benchmark drivers (all set sizes, thread numbers and trials of the command line) sender and receiver run the protocol on the same set, of the size given, and no item comes twice.", "quantifier": "all command lines, all streams of the generators without repetitions", "why_tests_cant": "The drivers print no intersection size, so a benchmark on other sets than intended is not noticed.", "anchors": ["frontend/OtBinMain.cpp:34-757", "frontend/bloomFilterMain.cpp:21-117", "frontend/dcwMain.cpp:22-137", "frontend/dktMain.cpp:12-92", "frontend/ecdhMain.cpp:12-95"]}
{"id": "C196", "title": "Benchmarks and ping test keep in step under every schedule", "statement": "Threads that use each channel in one direction alone end under every schedule if they end under one. All benchmark drivers, around any conversations of init and sendInput that fit together, and the ping test end with both parties finished under every schedule and no receive of a wrong size; in the ping test the bytes that one party has counted as sent are those that the other one has counted as received.", "quantifier": "all scripts of threads; all command lines; all numbers of tries, trials and bytes; all schedules", "why_tests_cant": "A test sees a few schedules of one machine.", "anchors": ["frontend/util.cpp:12-243", "frontend/OtBinMain.cpp:34-757", "frontend/bloomFilterMain.cpp:21-117", "frontend/dcwMain.cpp:22-137", "frontend/dktMain.cpp:12-92", "frontend/ecdhMain.cpp:12-95"]}
{"id": "C197", "title": "The command line does what the help text says", "statement": "-nn v runs with 2^v items; -r 0 makes a party PSI sender and network server; every session of the three parties of PIR-PSI has one server and one client, which exchange the numbers that each expects; no channel beyond the end is taken.", "quantifier": "all values of the arguments", "why_tests_cant": "Large exponents need much memory and are not tested; tests run all roles in one process.", "anchors": ["frontend/main.cpp:81-300", "frontend/main.cpp:505-560", "frontend/util.h:19-50", "frontend/DrrnPSIMain.cpp:14-178"]}
{"id": "C198", "title": "The number of bytes each party sends is a fixed function of the parameters", "statement": "In every execution of the ECDH, DKT, DCW, RR16, RR17a, RR17b, GRR18, KKRT, PRTY (output) or PIR-PSI protocol in which all threads of all parties finish, the sum of the sizes of all messages of a party over all channels equals a fixed formula in the set sizes, number of bins, mask and point sizes and OT conversations. ECDH: the sender sends n (point + mask) bytes and the receiver n points. DKT: 2 points, a number and n (2 points + 16) bytes; back 2 points, a number and n (3 points + a number). KKRT: 17 bytes, base OTs and 3 masks per item; back 16 bytes, base OTs and one correction per bin. In ECDH, DKT, RR16, KKRT and PRTY the number of threads has no influence, so no item is sent twice or left out when the work is split.", "quantifier": "for all set sizes, thread counts, parameters, schedules", "why_tests_cant": "A test measures the traffic of the few thread counts and set sizes it runs; uneven splits, remainders of chunks and schedules are unbounded.", "anchors": ["libPSI/PSI/ECDH/EcdhPsiSender.cpp:51-163", "libPSI/PSI/ECDH/EcdhPsiReceiver.cpp:56-235", "libPSI/MPSI/DKT/DktMPsiSender.cpp:68-419", "libPSI/MPSI/DKT/DktMPsiReceiver.cpp:88-532", "libPSI/PSI/Dcw/DcwRBfPsiSender.cpp:31-193", "libPSI/MPSI/Rr17/Rr17a/Rr17aMPsiSender.cpp:311-594", "libPSI/MPSI/Rr17/Rr17b/Rr17bMPsiSender.cpp:259-482", "libPSI/MPSI/Grr18/Grr18MPsiSender.cpp:252-596", "libPSI/MPSI/Rr16/AknBfMPsiSender.cpp:123-225", "libPSI/PSI/Kkrt/KkrtPsiSender.cpp:338-507", "libPSI/PSI/Prty/PrtySender.cpp:283-357"]}
{"id": "C199", "title": "A run of PRTY outputBestComm returns the common items", "statement": "For two honest parties that call outputBestComm on sets R (receiver) and S (sender), for every order in which threads insert masks and every content of uninitialised memory, the run ends and mIntersection holds exactly the positions of the receiver's items that are also the sender's. False: with 5 and 4 items the message is exactly full and the receiver stops before the last mask, so a common item is lost without an error; with 64 and 8 items the sender writes behind its buffer. Holds when the loads stay at 40, no two items differ in the last bit only, masks differ in four bytes and in the compared bytes, and the messages have room and no equal neighbours.", "quantifier": "for all sets, orders of bins, threads and sort, polynomials and hash functions", "why_tests_cant": "The loss depends on set sizes, on values of masks and on memory that is not initialised; a test sees a few sizes and one memory.", "anchors": ["libPSI/PSI/Prty/PrtyReceiver.cpp:306-605", "libPSI/PSI/Prty/PrtySender.cpp:373-735"]}
{"id": "C200", "title": "The stash measurement counts every trial exactly once", "statement": "runOne of cuckooTests shares 2^t trials among its threads; each thread adds one to its counter for the stash size of a trial; the main thread reads all counters again and again without a lock until their sum is 2^t and then prints, for each stash size, how many trials had at most that stash and how many more. In every interleaving of single reads and increments, what it prints are the numbers over all 2^t trials, and it prints once the threads are done. False at the edges: a trial with a full stash (400) increments a counter behind the row; the option encrypto uses a variable without a value; with no threads the loop never ends; more than 400 columns read behind the array; threads * 2^t beyond 64 bits give wrong shares.", "quantifier": "for all numbers of threads and trials, all stash sizes below 400, all interleavings", "why_tests_cant": "The torn snapshot of the counters depends on the schedule; a full stash needs an unlucky table.", "anchors": ["frontend/cuckoo/cuckooTests.cpp:58-284"]}
{"id": "C201", "title": "simpleTest measures the sizes n, n 2^s, n 4^s, ... up to nEnd", "statement": "The outer loop of simpleTest runs for exactly the sizes n * 2^(nStep k) that are at most nEnd, in increasing order, and ends. False: with nStep 0, with n 0, or if n * 2^nStep wraps to 0 in 64 bits (n = 2^62, nStep 2), it never ends.", "quantifier": "for all n, nEnd, nStep", "why_tests_cant": "A test runs a few sizes; the wrap needs sizes near 2^64.", "anchors": ["frontend/cuckoo/cuckooTests.cpp:361-408"]}
{"id": "C202", "title": "Whatever the sender sends, the receiver reports only own items, none twice, and only for masks of theirs", "statement": "A receiver that gets freely chosen messages (KKRT, DCW, RR16, RR17a, RR17b, GRR18, DKT, ECDH) and returns a result adds to mIntersection only positions of its own items, at most one per received mask, each position at most once, and only if a received mask is a mask of the item at that position. (RR17b: only if a received row opens its commitment to that item.) False: in KKRT, DCW, RR16, RR17a, RR17b, GRR18 and DKT a sender that repeats a mask makes the receiver report the position twice. False for the last part in ECDH: with an encoding of the neutral element a sender without any item makes the receiver report all its items. In GRR18 as well: a sender that announces a load above mMaxBinSize and knows one item of the receiver makes it report another one. With loads up to mMaxBinSize the contents of right-sized messages never stop the receivers of RR17b and GRR18.", "quantifier": "for all items, random choices, parameters, channels and all contents of the sender's messages", "why_tests_cant": "Tests run an honest sender with distinct items; a misbehaving one is never written.", "anchors": ["libPSI/PSI/Kkrt/KkrtPsiReceiver.cpp:115-245", "libPSI/PSI/Dcw/DcwRBfPsiReceiver.cpp:172-232", "libPSI/MPSI/Rr16/AknBfMPsiReceiver.cpp:98-401", "libPSI/MPSI/Rr17/Rr17a/Rr17aMPsiReceiver.cpp:321-625", "libPSI/MPSI/DKT/DktMPsiReceiver.cpp:325-557", "libPSI/PSI/ECDH/EcdhPsiReceiver.cpp:115-240"]}
{"id": "C203", "title": "A PIR-PSI server reads only inside its tables whatever the client sends", "statement": "Server 0 of PIR-PSI takes the positions pi0 from the client and reads mPi1SigmaRS at them. It stays inside the vector whatever the client sends. False: nothing checks them; it stays inside exactly if all received positions are below the size of the vector.", "quantifier": "for all shares, tables and all positions the client may send", "why_tests_cant": "Tests run an honest client.", "anchors": ["libPSI/PSI/Drrn/DrrnPsiServer.cpp:424-453"]}
{"id": "C204", "title": "Whatever loads the GRR18 sender announces, the receiver writes masks only inside its buffer", "statement": "The receiver of GRR18 computes theirLoads[b] masks for each item of bin b and writes mask l of item i at offset (i * mMaxBinSize + l) * maskSize of the matrix masks. All these places lie inside the matrix, whatever loads (one byte each) the sender announces. False: nothing compares the loads with mMaxBinSize, nor the number of loads received with the number of bins. True for loads of at most mMaxBinSize.", "quantifier": "for all items, OT functions, schedules, own loads and all announced loads", "why_tests_cant": "Tests run an honest sender, whose loads are cut at the capacity.", "anchors": ["libPSI/MPSI/Grr18/Grr18MPsiReceiver.cpp:256", "libPSI/MPSI/Grr18/Grr18MPsiReceiver.cpp:347-357", "libPSI/MPSI/Grr18/Grr18MPsiReceiver.cpp:455-514"]}
{"id": "C205", "title": "CuckooIndex::validate accepts a table exactly when it holds the inputs", "statement": "validate(inputs, seed) returns if the object holds every input once, in a bin that one of the hash functions assigns to it or in the stash, and holds nothing else; otherwise it throws. False: it does not look at the stash, so it throws for a correctly filled table that uses the stash and accepts a second copy in the stash; and an input whose hash is the block of 128 ones is stored but not counted. True for the bins alone: it returns exactly when the bins hold every input once in one of its places and nothing else, whatever the object contains; for a table just filled by insert this means: exactly when the stash is empty.", "quantifier": "for all AES functions, parameters, input lists and all contents of the object", "why_tests_cant": "A test sees a few fillings; that no wrong content whatsoever of the bins is accepted is a counting argument over all of them.", "anchors": ["libPSI/Tools/CuckooIndex2.cpp:682-730"]}
{"id": "C206", "title": "The OTs are configured for the bits of their inputs", "statement": "When init of RR17a, GRR18 or RR17b is given the bit length of the items, the OTs are configured for at least as many bits as the OT inputs of such items have, and for no more bits than the items have. False for RR17b: it passes whole items to OTs that are configured for log2ceil(n) bits fewer, so two items in one bin can be the same to the OT; it holds there only for a single item (or if the subtraction wraps around). False for bit lengths below log2ceil(n): the subtraction wraps around to almost 2^64 bits. True for RR17a and GRR18 otherwise.", "quantifier": "for all set sizes below 2^64, bit lengths up to 128, items", "why_tests_cant": "Tests use 128-bit items with the default argument; lost bits show only for special pairs of items.", "anchors": ["libPSI/MPSI/Rr17/Rr17a/Rr17aMPsiReceiver.cpp:78-92", "libPSI/MPSI/Rr17/Rr17b/Rr17bMPsiReceiver.cpp:79-95,271,381", "libPSI/MPSI/Grr18/Grr18MPsiReceiver.cpp:89-102"]}
{"id": "C207", "title": "Hashing to a smaller domain misses at most 2^-statSecParam", "statement": "With the default bit length the parties hash the items and pass part of the hash to the OTs. The expected number of pairs (an item of each party, different) that land in the same bin with the same OT input is at most 2^-s for statistical parameter s. False: for a power of two items and as many bins it is exactly 2^(1 - s). True: at most 2^(2 - s) for every set size with as many bins as items, and for any number of bins a single pair clashes for at most a fraction 2^(1 - s - 2 log2ceil n) of the hash values times ceil(2^log2ceil(n) / bins).", "quantifier": "for all set sizes, numbers of bins, statistical parameters, and every hash value of the first item; all 2^128 hash values of the second counted", "why_tests_cant": "A probability of 2^-40 cannot be measured.", "anchors": ["libPSI/MPSI/Rr17/Rr17a/Rr17aMPsiReceiver.cpp:78-92,372-399", "libPSI/Tools/SimpleHasher.cpp:62-64"]}
{"id": "C208", "title": "GRR18: the tables are complete, increasing and in range", "statement": "For every key (n, m, eps) for which computeLoads has a table: the table has 61 increasing entries between 8 and 57 for the noisy sizes from -10 on. The load announced for a bin is at least 8, at least the size of the bin, at most 57 or the size; it grows with the noisy size; the conversion to u8 changes no entry, wherever the table is cut.", "quantifier": "for all keys with a table, all sizes up to 255, all noisy sizes that an i32 can hold, all values of get_bin_size", "why_tests_cant": "116 tables of 61 entries typed in; a test runs one or two of them.", "anchors": ["libPSI/MPSI/Grr18/Grr18Common.cpp:29-43", "libPSI/MPSI/Grr18/Grr18Common.cpp:129-323"]}
{"id": "C209", "title": "GRR18: the tables hide the sizes of the bins except with probability 2^-40", "statement": "With a table, a bin whose noisy size is so low that the entry of the table is below the size announces its exact size. For random items the expected number of such bins is at most 2^-40, the parameter used everywhere else. False: for each of the 116 tables it is more than 2^-40. It is at most 2^-24 (eps = 4), 2^-29 (2), 2^-31 (1), 2^-33 (1/2), 2^-34 (less).", "quantifier": "for all 116 tables, all values of get_bin_size (upper bound: those that overflow with an expectation of at most 2^-40)", "why_tests_cant": "Probabilities of 2^-24 to 2^-40 cannot be measured by tests.", "anchors": ["libPSI/MPSI/Grr18/Grr18Common.cpp:129-323"]}
{"id": "C210", "title": "PIR-PSI: the client reports only own items, none twice, whatever server 0 sends", "statement": "Whatever messages server 0 sends in the final comparison (and whatever the servers did before): a client that finishes reports only positions of its own items, none twice, and for each of them it has received a mask, namely an OPRF value, cut to the mask size, of the item masked with one of the client's blocks.", "quantifier": "for all parameters, all inputs, all messages of server 0, all choices of the client", "why_tests_cant": "Tests run only the servers of the library, which follow the protocol.", "anchors": ["libPSI/PSI/Drrn/DrrnPsiClient.cpp:127-201", "libPSI/PSI/Drrn/DrrnPsiClient.cpp:238-244", "libPSI/PSI/Kkrt/KkrtPsiReceiver.cpp:203-240"]}
{"id": "C211", "title": "KKRT and PIR-PSI: no contents of messages of the prescribed sizes stop the receiver", "statement": "If the KKRT receiver finishes for some messages with masks, it finishes for all messages of the prescribed sizes (three masks for each of up to 1024 items): it consumes exactly one message per started 1024 items of the sender and its table is the same. The same holds for the PIR-PSI client.", "quantifier": "for all inputs, all sizes, all messages of the prescribed sizes", "why_tests_cant": "Tests see only the masks that an honest sender computes.", "anchors": ["libPSI/PSI/Kkrt/KkrtPsiReceiver.cpp:203-240", "libPSI/PSI/Drrn/DrrnPsiClient.cpp:238-244"]}
{"id": "C212", "title": "PIR-PSI: server 0 reads only inside the received vectors", "statement": "Server 0 combines its shares with the vectors received from the client (positions pi0, masks piS0) and from server 1 (mPi1SigmaRS and the shares). It reads only inside these vectors, whatever sizes they have. False: only the size of pi0 is fixed by the receive buffer; a shorter piS0, mPi1SigmaRS or vector of shares is read behind its end. It stays inside exactly if piS0 and the shares of server 1 are at least as long as its own shares and all positions are below the size of mPi1SigmaRS; then each entry is the stated sum.", "quantifier": "for all shares and all received vectors of any lengths", "why_tests_cant": "Tests run an honest client and two honest servers, whose vectors have the right lengths.", "anchors": ["libPSI/PSI/Drrn/DrrnPsiServer.cpp:47", "libPSI/PSI/Drrn/DrrnPsiServer.cpp:424-453"]}
{"id": "C213", "title": "No received message is read behind its end", "statement": "A party that receives a message of variable size into a vector takes it apart without reading behind its end, whatever size the message has. ECDH (points and masks), DKT (points, single proofs of the items): a message of another size than expected is refused, and one of the right size is cut into exactly the expected records. False for PRTY (polynomials in the sender, masks in the receiver) and for the response of the DKT receiver in the sender: the sizes are not checked, and exactly the messages that are too short are read behind their end.", "quantifier": "for all message contents and sizes, all sizes of records and steps", "why_tests_cant": "Tests exchange messages between honest parties, whose sizes are right.", "anchors": ["libPSI/PSI/ECDH/EcdhPsiSender.cpp:105-116", "libPSI/PSI/ECDH/EcdhPsiReceiver.cpp:114-127", "libPSI/PSI/ECDH/EcdhPsiReceiver.cpp:186-218", "libPSI/MPSI/DKT/DktMPsiSender.cpp:198-221", "libPSI/MPSI/DKT/DktMPsiSender.cpp:280-281", "libPSI/MPSI/DKT/DktMPsiSender.cpp:319-331", "libPSI/MPSI/DKT/DktMPsiReceiver.cpp:345-358", "libPSI/PSI/Prty/PrtySender.cpp:149-224", "libPSI/PSI/Prty/PrtySender.cpp:853-862", "libPSI/PSI/Prty/PrtyReceiver.cpp:235-265"]}
{"id": "C214", "title": "DKT: the receiver looks up each mask of the sender once and no more masks than announced", "statement": "A receiver thread takes the masks of the sender thread in messages of at most 512 masks. With an honest sender it looks up every mask exactly once, in order, and takes no message that follows. The result does not depend on how the masks are cut into messages. With any sender it looks up at most as many masks as the sender announced: false, the count is compared only between messages, so that the last message can carry any number of masks, all of which are looked up and reported. With too few masks the receiver waits for ever.", "quantifier": "all tables, all numbers of masks, all sequences of messages", "why_tests_cant": "Tests run an honest sender whose messages have fixed sizes.", "anchors": ["libPSI/MPSI/DKT/DktMPsiReceiver.cpp:497-530", "libPSI/MPSI/DKT/DktMPsiSender.cpp:373-402"]}
{"id": "C215", "title": "ECDH: the first message of a party shows its hashed items up to a common scalar and nothing more", "statement": "The points a party of ECDH sends first are the hashed items multiplied with its secret scalar. For every list of items and every scalar, another list of items can give the same message under some scalar exactly when a single scalar takes its hashed points to those of the first list. For one item this is every item, under exactly one scalar each: with a uniform scalar the message of one item is independent of the item. With more items the message does depend on the set (a witness), so that the hiding of sets rests on the Diffie-Hellman assumption.", "quantifier": "all groups whose scalars act with products and inverses (one item: prime order), all items, all scalars, both parties", "why_tests_cant": "A test sees single transcripts; which sets could have produced one is a statement about all sets and scalars.", "anchors": ["libPSI/PSI/ECDH/EcdhPsiReceiver.cpp:89-110", "libPSI/PSI/ECDH/EcdhPsiSender.cpp:83-101"]}
{"id": "C216", "title": "GRR18: whatever loads the receiver announces, the sender writes each row of its masks once and uses only OTs it has set up", "statement": "The receiver of GRR18 sends the number of its OTs and the load of each bin. Whatever it sends and in whatever order the threads of the sender take their rows, the sender writes one mask for each pair of an item and an announced place of its bin, to the rows 0, 1, 2, ..., each once and inside the matrix, and it uses only OTs below the number it has set up. The rows hold; the statement about the OTs is false: the announced number of OTs is not compared with the announced loads. The sender stays within its OTs exactly when the number covers every bin that holds an item of the sender.", "quantifier": "all numbers of threads and bins, all bin sizes, all announced loads and numbers of OTs, all orders of the threads, all non-negative paddings", "why_tests_cant": "Tests run an honest receiver, whose number of OTs is the sum of its loads.", "anchors": ["libPSI/MPSI/Grr18/Grr18MPsiSender.cpp:393-422", "libPSI/MPSI/Grr18/Grr18MPsiSender.cpp:436-438", "libPSI/MPSI/Grr18/Grr18MPsiSender.cpp:460-520"]}
{"id": "C217", "title": "A check that fails in sendInput is reported to the caller as an exception", "statement": "When a check in sendInput fails (wrong number of inputs, a message of the wrong size, a proof that does not verify, a closed channel), sendInput of any party throws, whatever the schedule. False wherever the check runs on a thread the function has started, or on the caller while such threads are not joined: the process is terminated. This concerns every party of ECDH, DKT (two channels or more), GRR18, RR17a, RR17b, RR16 and the sender of KKRT. Checks before the threads are started, and all checks of the KKRT receiver, of DCW, and of DKT and the RR16 receiver on one channel, are reported.", "quantifier": "all parties, all numbers of channels, all outcomes of all checks, all schedules", "why_tests_cant": "Tests run with correct inputs and honest peers; a failing check in a thread would end the test program itself.", "anchors": ["libPSI/PSI/ECDH/EcdhPsiSender.cpp:105-151", "libPSI/PSI/ECDH/EcdhPsiReceiver.cpp:114-234", "libPSI/MPSI/DKT/DktMPsiSender.cpp:198-419", "libPSI/MPSI/DKT/DktMPsiReceiver.cpp:335-549", "libPSI/MPSI/Grr18/Grr18MPsiReceiver.cpp:263-675", "libPSI/MPSI/Rr17/Rr17a/Rr17aMPsiReceiver.cpp:327-641", "libPSI/MPSI/Rr17/Rr17b/Rr17bMPsiReceiver.cpp:276-527", "libPSI/MPSI/Rr16/AknBfMPsiSender.cpp:196-225", "libPSI/PSI/Kkrt/KkrtPsiSender.cpp:374-507"]}
