# Design

Target: `osu-crypto/libPSI` as found in `/repo` (C++, read as text, never built).
All line numbers in comments of the Coq files refer to that tree.

## Method

* Each C++ function is rewritten as a total Gallina function over `nat`/`N`/`list`/`option`
  (files `*_Model.v`). Proofs are in `*_Proofs.v`; the property theorems are in
  `*_Properties.v`, which contain only `Theorem ... exact lemma`, `Print Assumptions`
  and the examples showing that the hypotheses can be met.
* Loops become structural recursion, folds, or fuelled recursion with an explicit
  out-of-fuel outcome. C++ exceptions, out-of-bounds accesses and reads of
  uninitialised memory are distinct outcomes, never silently totalised.
* Randomness, AES, hash functions, oblivious transfer, OPRF and elliptic curves are
  Section variables (arbitrary functions) or explicit arguments. Every assumption about them is a visible
  premise of the theorem which needs it.
* Threads are interleavings of atomic steps, chosen by an arbitrary schedule.
* A property that is false of the faithful model is stated in full, refuted by a
  computed witness (`..._refuted`), and the part that does hold is proved as `..._partial`.

## Plan per property

* **C01** (Cuckoo index never loses or duplicates an inserted item): Model `CuckooIndex_Model`: bins are packed 64-bit words exactly as in `Bin`, `insertOne`, the 8-lane fast path, the batch loop and the chunked `insert` as fuel-free structural recursion on the reinsert counter; throw = distinct outcome. Invariant: multiset(table)+in-hand = multiset(inserted); each occupied bin holds an item whose hash function (stored number) maps to it. Induction over batches.
* **C02** (Cuckoo lookup is sound and complete): Model of the single `find` for both the 2-hash special case and the general case, over the C01 invariant.
* **C03** (Cuckoo insertion reports overflow instead of dropping silently): Same model; the throwing outcome carries the table, so 'at most one missing' is a statement about it.
* **C04** (Batch lookup agrees with single lookup): Model of the batch `find` including its output span; expected refuted (results never reach the output).
* **C05** (Concurrent cuckoo insertion loses no item): Small-step machine: per-thread program = sequence of atomic exchanges; arbitrary interleavings as an inductive relation. Bins part by invariant; the stash part expected refuted by a concrete schedule.
* **C06** (Selected cuckoo parameters honour the request): `selectParams` over N with explicit double-free arithmetic: the scaling is taken as a rational table read off the code (the logarithm interpolation is an oracle); expected partially refuted (h = 2 ignores stash).
* **C07** (Simple hashing places every item in each of its candidate bins): `SimpleIndex_Model.insertItems` function by function (8-wide main loop, remainder loop with its real stride). Expected refuted for n mod 8 > 1; positive theorem for the other sizes.
* **C08** (Simple hashing with a hash count other than three stays in bounds): Same model, generic-hash branch; writes to the bin map are checked, out of range = UB outcome. Expected refuted for n > 8.
* **C09** (Bin size search returns a size that meets the security target): `get_bin_size` with the estimator as a Section variable; doubling loop with fuel and an out-of-fuel outcome, bisection by well-founded measure.
* **C10** (Concurrent bin insertion keeps every value): Interleaving machine with the two steps of `push` (fetch-add on an 8-bit counter, store).
* **C11** (Packed bin items decode to what was stored): Bit-level lemmas on N (land/lor/shiftl) for the two layouts.
* **C12** (Merge shuffle returns a permutation of its input): List model of `mergeShuffle` with array state, checked indices (UB outcome), oracle bits; Permutation by loop invariant.
* **C13** (Parallel shuffle shuffles the slice of every thread): List model of `parallelShuffle` slice bounds; expected refuted.
* **C14** (PIR key pair evaluates to a point function): `Bgi_Model`: keyGen/evalOne over 128-bit blocks as N with an arbitrary block cipher (Section variable); induction over depth.
* **C15** (A server's full-domain answer is the xor of the selected rows): Model of `fullDomain` (first 3 levels, then 8 subtrees traversed by counter, leaf expansion bytes) refined to the evalOne sum.
* **C16** (PIR query returns the requested row): C14+C15 composed with `query`/`serve`.
* **C17** (Incremental full-domain generator enumerates every position once with the right bit): State-machine model of `FullDomainGenerator` refined to list of positions.
* **C18** (Multi-key stream agrees with single-position evaluation): State-machine model of `MultiKey` for one key lane and list of keys.
* **C19** (Reference full-domain evaluation agrees with the optimised one): Model of `fullDomainNaive`; refuted by computation. The exact result is proved from an invariant on the words kept between leaves: BgiNaive_Spec.v says which branch each level takes.
* **C20** (PIR keys of the two servers differ only in the root): Directly on the keyGen model.
* **C21** (KKRT outputs exactly the intersection): KKRT model: cuckoo receiver, simple-hash sender, OPRF as abstract function bin->item->mask; output as list of positions; uses C01.
* **C22** (KKRT sender masks do not depend on OT message arrival): Interleaving model of correction arrivals vs. encoder loop (two passes).
* **C23** (KKRT leaves the channel clean): Message-trace model of both parties on one channel; expected refuted.
* **C24** (KKRT mask messages are framed identically by both parties): Arithmetic of region sizes.
* **C25** (Repeated KKRT runs do not mix results): Object-state model across runs; expected refuted.
* **C26** (PIR-PSI slot partition is consistent between client and server): N arithmetic of floor/ceil divisions.
* **C27** (PIR-PSI domain parameters always cover a region): N arithmetic with log2floor.
* **C28** (PIR-PSI masked answers recombine): xor algebra over shuffles.
* **C29** (PIR-PSI evaluates every region against the region's own slots): Model of the server bin evaluation; expected refuted; positive theorem under an alignment condition.
* **C30** (Table search returns the first stored slot at or after a position): Binary-search model and its specification.
* **C31** (PIR-PSI query positions form a permutation): Index arithmetic; expected refuted for block size > 1.
* **C32** (ECDH-PSI finds every common item): ECDH model over an abstract commutative action; the prefix map keyed by 32 bits with first-insert-wins; expected refuted; positive theorem for prefix-distinct encodings.
* **C33** (ECDH-PSI reports only common items, once each, in order): Same model.
* **C34** (Work is split over threads without gaps or overlaps): N arithmetic: i*n/T tiles; also rounded variants.
* **C35** (Bloom-filter PSI (DCW) finds every common item): DCW model: OT messages arbitrary, filter built from hash positions.
* **C36** (Bloom-filter PSI (DCW) reports only common items): Same model with injectivity hypothesis on masks actually occurring.
* **C37** (RR16 permutation from an honest receiver is accepted and correct): RR16 permutation construction as list algorithm.
* **C38** (RR16 hashing does not depend on the thread schedule): Interleaving model of the shared buffer; expected refuted.
* **C39** (RR16 sender survives an invalid permutation): Promise state model of the final block; expected refuted.
* **C40** (RR17a (single channel) finds every common item): RR17a model, one bin at a time, permutations abstract, OT encoding abstract.
* **C41** (RR17a output does not depend on the number of channels): Chunk assignment model with per-thread maps; expected refuted.
* **C42** (Phase shifting keeps items of a bin distinguishable): N arithmetic mod/shift; expected refuted for bins < 2^phase; positive otherwise.
* **C43** (Inputs are not modified by a protocol run): Buffer aliasing model; expected refuted for explicit input bit size.
* **C44** (RR17a send buffer is released exactly once, after the last chunk): Counter state machine with arbitrary callback orders.
* **C45** (RR17b send buffer is released exactly once, after the last chunk): Counter state machine; expected refuted.
* **C46** (RR17b parties split the bins over channels identically): Arithmetic; expected refuted; positive when divisible.
* **C47** (RR17b (single channel) outputs exactly the intersection): RR17b model with tags, commitments.
* **C48** (RR17b parsing stays aligned): Pointer arithmetic loop model.
* **C49** (Noisy bin loads never cut off real items): computeLoads branches with noise oracle; expected refuted for one mode (byte truncation).
* **C50** (GRR18 finds every common item): GRR18 model.
* **C51** (DKT finds every common item): DKT model in an abstract group; expected refuted; positive for the last item of each thread.
* **C52** (DKT sender rejects an invalid proof): Control-flow model; expected refuted.
* **C53** (DKT receiver accepts an honest sender): Algebraic identity in an abstract module.
* **C54** (Balanced allocation respects the bin bound and keeps all items): BalancedIndex model with random choices as oracle list; invariant proof.
* **C55** (Balanced allocation records the hash function actually used): Same model; expected refuted.
* **C56** (Balanced allocation terminates): Same model; expected refuted for items with equal candidates.
* **C57** (PRTY small-set matching compares every received mask with every local mask): Pointer model of the loop; expected refuted.
* **C58** (Binary set files round-trip): Byte-list model.
* **C59** (Hexadecimal CSV rows decode to the block they print as): Byte/character model.
* **C60** (CSV output is decodable): Decimal printing/parsing model.
* **C61** (Padding keeps the real items in place): List model.
* **C62** (Sender permutation is a permutation with its inverse): Fisher-Yates list model.
* **C63** (KKRT completeness only needs distinct masks): KKRT model with the maps keyed by the first eight bytes and non-overwriting emplace; expected refuted.
* **C64** (KKRT accepts an empty sender set): KKRT sender model with checked accesses; expected refuted.
* **C65** (Full-domain generator can be initialised again): `genInit` on an arbitrary earlier object; refuted by re-initialising a used generator and by initialising twice.
* **C66** (Byte-string positions reach the whole domain): `evalOneBytes`/`bytesToUint128`; refuted for group size 3 (floor of the logarithm), proved for powers of two.
* **C67** (Exhausted multi-key stream stays exhausted): `mkYield` after its exception; refuted, and the rows it then returns are characterised.
* **C68** (Line endings of a CSV set file do not matter): `readSet` on CRLF files; refuted, with the exact result.
* **C69** (Debug mode rejects exactly the sets with duplicates): `readSet` with the debug flag, `dupLoop`.
* **C70** (Both parties start the protocol with the same sizes): `startup` models doFilePSI up to the protocol's init for both parties.
* **C71** (Invalid role or server flags are refused): `startup`; expected refuted for the server flag (line 191 tests the role again).
* **C72** (Bloom-filter PSI (DCW) never answers for a set with a repeated item): Corollary of the exact description of the receiver's first half in the C35 model.
* **C73** (Bloom-filter PSI (DCW) objects can be reused): Object state with the old OT messages, size, seed and output; expected refuted (the output is not cleared), proved for everything else in the state.
* **C74** (ECDH-PSI parties hash an item to the same point): Oracle with the output length as an argument; expected refuted, proved for oracles whose shorter outputs are prefixes of longer ones.
* **C75** (RR16 tabulated parameters never run out of one-choices): Table transcribed; numeric inequality checked by computation for all rows, then the C37 lemma.
* **C76** (RR16 reports exactly the common items): Whole run modelled with merge and output orders as parameters; result compared with a list specification up to permutation.
* **C77** (RR17a (single channel) outputs exactly the intersection): RR17a run model; per-row lemma and permutation reasoning.
* **C78** (RR17a assigns every item its own OT): Fisher-Yates prefix model with the carried-over permutation; NoDup of slots.
* **C79** (RR17a receiver reads keys only inside the received chunk): Offset arithmetic; expected refuted below eight bytes.
* **C80** (RR17b result does not depend on the number of channels): RR17b model with channels, correction counts and a schedule of the threads; expected refuted when the splits differ (C46).
* **C81** (RR17b tag map is complete before the first lookup): Events with the order constraints of program, messages and barrier; transitivity.
* **C82** (PIR-PSI shares do not depend on the thread count): List of regions per thread is a partition; the share rows of different regions are disjoint.
* **C83** (PIR-PSI reports exactly the common items): Whole-run model composing keys, shares, masks and the final match; expected refuted; positive theorem for block size one with occupied first slots.
* **C84** (PIR-PSI reports no item the server does not hold): Same whole-run model; expected refuted by the zero item; positive theorem otherwise, without the first-slot condition.
* **C85** (A balanced index can be initialised again): Balanced_Model.balancedTwice: resize keeps the bins with their maps, counters and output vectors. Refuted by one item inserted twice.
* **C86** (GRR18 reports exactly the intersection): Run model of GRR18 with the padding rows as an arbitrary function. Refuted by a padding row that equals a mask; exact when no padding row has the key of a mask of the receiver.
* **C87** (Announced loads fit the receiver's mask rows): Refuted: computeLoads always uses 40 bits of statistical security, the bins use the parameter. Holds in the modes without threshold when the capacity is at least get_bin_size(.., 40).
* **C88** (GRR18 keeps the caller's inputs): Refuted without hashing (the phase shift is applied in place); proved with hashing.
* **C89** (DKT sender accepts an honest receiver): Dkt_Model (sender part, itemProof). Refuted with two channels (X commits to the first thread's items only); proved for one channel, C89_honest_partial.
* **C90** (DKT reports only common items): Dkt_Model/Dkt_Spec (roInjective). C90_sound.
* **C91** (DKT receiver's check binds the sender to one key): Dkt_Model (zProof, mpProof), group of prime order. C91_oneKey (special soundness).
* **C92** (DKT threads read each other's variables only while they exist): DktThreads_Model: promises and uses per thread, schedules as lists. Receiver proved; sender refuted with two channels.
* **C93** (DKT threads do not deadlock on their promises): DktThreads_Model; promises ranked so that each is set at a lower rank than it is waited for. C93_receiver, C93_sender.
* **C94** (PRTY parties compute the same mask for a common item): Rows as four blocks, bitwise; interpolation as an arbitrary function that takes the given values.
* **C95** (PRTY large-set matching reports exactly the equal masks): Buffers as byte lists, map keyed by eight bytes, steps and threads as in the code.
* **C96** (PRTY finds the common items): Composition of allocation, masks and matching.
* **C97** (PRTY interpolation points are distinct): The points of the bins of the allocation model.
* **C98** (PRTY polynomials survive packing): Coefficients written one after the other, read at fixed offsets.
* **C99** (Multipoint evaluation returns the values of the polynomial): The product tree as an array, subtrees per thread as in generateSubTreeArrays, levels above, threads as interleavings chosen by a schedule; NTL polynomials as coefficient lists over an arbitrary field.
* **C100** (Interpolation returns the polynomial through the points): As for evaluation; uniqueness by counting roots.
* **C101** (The threads of the polynomial tree do not race): The node lists of the threads of the model; reads of a node as in its formula.
* **C102** (PRTY big polynomial carries the values to the sender): One slice: interpolation and evaluation as in the tree model, coefficients cut to the bytes of the slice, the arrays with the sizes of the code.
* **C103** (PRTY slices fit their fields): The constants of the header.
* **C104** (PRTY reads only the received masks): Bytes of the message; differences on the two halves of a block as the SSE operators; all masks, widths and buffer sizes.
* **C105** (PRTY writes the masks within the send buffer): Bytes of the message; differences on the two halves of a block as the SSE operators; all masks, widths and buffer sizes. Exact condition.
* **C106** (PRTY finds the common masks from the differences): Bytes of the message; differences on the two halves of a block as the SSE operators; all masks, widths and buffer sizes. Reads behind the message are arbitrary.
* **C107** (PRTY big polynomial: every mask is sent): Step ranges as in the loops with unsigned end index.
* **C108** (CuckooHasher keeps every item): Table as rows of hash values, bins and stash; a call at a time; every number of hash functions, bins, stash slots and items. Invariant with the items in hand.
* **C109** (CuckooHasher reports an overflow): Table as rows of hash values, bins and stash; a call at a time; every number of hash functions, bins, stash slots and items. Writes behind the stash are undefined behaviour.
* **C110** (CuckooHasher::find is sound and complete): Table as rows of hash values, bins and stash; a call at a time; every number of hash functions, bins, stash slots and items.
* **C111** (findBatch agrees with find): Table as rows of hash values, bins and stash; a call at a time; every number of hash functions, bins, stash slots and items. Two hash functions, as the batch lookup requires.
* **C112** (insert and a batch of one give the same table): Table as rows of hash values, bins and stash; a call at a time; every number of hash functions, bins, stash slots and items.
* **C113** (An index cannot be inserted twice): Table as rows of hash values, bins and stash; a call at a time; every number of hash functions, bins, stash slots and items. Release build.
* **C114** (Initialising again empties the table): Table as rows of hash values, bins and stash; a call at a time; every number of hash functions, bins, stash slots and items. resize keeps the old contents.
* **C115** (CuckooHasher::init picks the smallest sufficient parameters): The table is an argument.
* **C116** (SimpleCuckoo keeps and finds every item): Table as rows of hash values, bins and stash; a call at a time; every number of hash functions, bins, stash slots and items. The stash grows.
* **C117** (Concurrent insertions in CuckooHasher lose nothing): Threads with arbitrary schedules of single memory accesses, sequentially consistent memory, any number of threads and calls. Invariant over the items in the hands of the threads.
* **C118** (Concurrent insertions in CuckooHasher end): Threads with arbitrary schedules of single memory accesses, sequentially consistent memory, any number of threads and calls. Explicit bound on the turns.
* **C119** (Concurrent insertions in CuckooHasher are free of data races): Threads with arbitrary schedules of single memory accesses, sequentially consistent memory, any number of threads and calls. Trace of the plain accesses; relaxed atomics order nothing.
* **C120** (Lookups during insertions find the items inserted before): Threads with arbitrary schedules of single memory accesses, sequentially consistent memory, any number of threads and calls. find on a snapshot.
* **C121** (polyNTL evaluates what it interpolated): The field by its operations and the numbering of its elements; the conversions between blocks, bytes and elements; NTL's interpolation (Newton) and Horner evaluation as algorithms over coefficient lists. Fields of 2^k bytes are constructed for the examples.
* **C122** (polyNTL padding hides the number of points): The random coefficients as an arbitrary function; uniqueness by division by the product of the linear factors.
* **C123** (PRTY bin polynomials reach the sender): The polyNTL functions together with the packing of the coefficients of a step into one buffer.
* **C124** (The bin size search bounds the overflow probability): BinProb_Model.v models the estimate with exact rationals (the code uses 300-bit floating point; log2 comparisons become comparisons of ratios). BinProb_Spec.v counts all placements. Proof: union bound over bins and subsets, exact evaluation of the tail sum, geometric bound of the terms left out. For one bin the code divides zero by zero; the search does not reach that estimate because it starts at size n.
* **C125** (SimpleHasher bins hold all items except with small probability): Combines the bound of the bin size search with the model of concurrent pushes in SimpleHasher_Model.v.
* **C126** (RR17a online phase completes under every schedule): Criterion by ranks of events (Sched_Proofs.v). Sched_Model.v models channels (ordered, sends never wait, receives by posting number) and barriers; Threads_Model.v gives the events of each thread in program order; the assumptions on cryptoTools channels and std::promise are in its header (trusted base).
* **C127** (RR17b online phase completes under every schedule): As for RR17a. Sched_Model.v models channels (ordered, sends never wait, receives by posting number) and barriers; Threads_Model.v gives the events of each thread in program order; the assumptions on cryptoTools channels and std::promise are in its header (trusted base).
* **C128** (GRR18 online phase completes under every schedule): As for RR17a. Receives that are posted early and awaited later have their posting numbers. Sched_Model.v models channels (ordered, sends never wait, receives by posting number) and barriers; Threads_Model.v gives the events of each thread in program order; the assumptions on cryptoTools channels and std::promise are in its header (trusted base).
* **C129** (RR16 online phase completes under every schedule): As for RR17a. Sched_Model.v models channels (ordered, sends never wait, receives by posting number) and barriers; Threads_Model.v gives the events of each thread in program order; the assumptions on cryptoTools channels and std::promise are in its header (trusted base).
* **C130** (Masks leave a malicious-secure sender only after all checks): The peer is any list of scripts that does not arrive at the sender's barriers. Lemma barrier_order. Sched_Model.v models channels (ordered, sends never wait, receives by posting number) and barriers; Threads_Model.v gives the events of each thread in program order; the assumptions on cryptoTools channels and std::promise are in its header (trusted base).
* **C131** (Lookups follow all insertions in RR17a, GRR18 and RR16): As for the masks; RR16 needs the chain of two promises (states before a lookup, Sched_Proofs3.v). Sched_Model.v models channels (ordered, sends never wait, receives by posting number) and barriers; Threads_Model.v gives the events of each thread in program order; the assumptions on cryptoTools channels and std::promise are in its header (trusted base).
* **C132** (Lookups follow all insertions in RR17b): Witness schedule with a sender that sends at once; for the honest sender a chain over messages in both directions. Sched_Model.v models channels (ordered, sends never wait, receives by posting number) and barriers; Threads_Model.v gives the events of each thread in program order; the assumptions on cryptoTools channels and std::promise are in its header (trusted base).
* **C133** (KKRT masks are long enough): Model of the mask length with exact logarithms; expected refuted by a factor below 2 (the logarithm is rounded down). Masks_Spec.v counts, among all lists of uniform masks, those with an accidental match; a two-sided bound for any set of comparisons (Masks_Proofs.v) turns a mask length into a probability.
* **C134** (ECDH and PRTY masks honour the requested security parameter): Expected refuted: the length is computed with the constant 40. Masks_Spec.v counts, among all lists of uniform masks, those with an accidental match; a two-sided bound for any set of comparisons (Masks_Proofs.v) turns a mask length into a probability.
* **C135** (RR17a masks are long enough): Model of the mask length over the real numbers (natural logarithm); expected refuted. All received masks are compared with all own masks (one channel). Masks_Spec.v counts, among all lists of uniform masks, those with an accidental match; a two-sided bound for any set of comparisons (Masks_Proofs.v) turns a mask length into a probability.
* **C136** (No party chooses the hash seed in the malicious-secure protocols): Model of the messages of the coin toss and of the value computed (Init_Model.v); the peer is any function of what it has seen. Expected refuted: the received commitment is never compared with the opened seed.
* **C137** (Base OTs of the two parties fit together): Init_Model.v models the slices of the extended OTs; the OT protocols are arbitrary functions that are correct on 128 agreeing bases (and arbitrary on anything else).
* **C138** (The set-up phase completes under every schedule): Scripts per channel in Init_Model.v; proved with the ranks of Threads_Proofs.v. OT set-ups are arbitrary conversations that depend on the instance and the number of OTs. RR16 with one channel.
* **C139** (Enough OTs are set up for each thread): Sums of the correction messages of Threads_Model.v against the counts in Init_Model.v.
* **C140** (ECDH, DCW and DKT end under every schedule): Scripts per thread in Threads2_Model.v (promises and joins as barriers), proved with the ranks of Threads_Proofs.v. That equal sizes are needed is shown by runs in which a receive meets a wrong size.
* **C141** (The receivers of ECDH and DKT look masks up in a complete table): Order of events in all executions of the scripts of Threads2_Model.v, with arbitrary scripts for the sender.
* **C142** (No masks before everything of the receiver has arrived): As C130 for the other protocols. Expected refuted for DKT, where a thread goes on to the masks after the proofs of its own part.
* **C143** (Every OT thread gets the seed drawn for it): Capture_Model.v: lifetimes of variables, capture by reference and by copy, spawns and joins as a transition system. Expected refuted for DCW, which captures the variable of the loop body by reference.
* **C144** (A mask fits the block it is kept in): Buffers_Model.v on top of the lengths of Masks_Model.v. Expected refuted for KKRT, which has no check (RR17 and GRR18 have one).
* **C145** (The PRTY sender reads the items of every bin): Buffers_Model.v: the loop with fuel. Expected refuted: the loop increments the counter of the enclosing loop.
* **C146** (An accepted DKT sender transcript has one key): DktForge_Spec.v: the points a cheating sender computes last, on top of Dkt_Model.v. Expected refuted: the hash for the challenge covers the commitments only, not the statement (Z, Ms, Mps).
* **C147** (A verifying DKT receiver proof needs points chosen before the challenge): DktForge_Spec.v: the points a cheating receiver computes last. Expected refuted: the hash covers sigmaA and the sigmaBs only.
* **C148** (A DKT challenge fixes the commitments of all threads): DktForge_Spec.v lists the strings hashed; the model's challenge is injective on them.
* **C149** (A PIR key does not depend on the position): BgiPrivacy_Spec.v: the other server's expansions as a tape; keyOf computes the key from root and tape; C149_view ties it to the model's keyGen, C149_hidden gives the permutation of tapes.
* **C150** (KKRT: the places of the masks hide the order of the sender's set): Order_Spec.v: looksAlike, relabels, sameCommon. The model's senderInput from Kkrt_Model; the permutation of the second run is the renamed one.
* **C151** (RR17b: the places of the rows hide the order of the sender's set): OrderRr17_Spec.v: sentB are the rows of Rr17b_Model, opens is the receiver's test.
* **C152** (RR17a: the places of the masks hide the order of the sender's set): OrderRr17_Spec.v: sentA are the rows of Rr17a_Model, maskOfSome is what the receiver can compute.
* **C153** (ECDH: the places of the masks hide the order of the sender's set): Order_Spec.v: sightOf gives the item the receiver recognises at each place. The message is xa of Ecdh_Model.
* **C154** (DCW: the places of the masks hide the order of the sender's set): Order_Spec.v: sightOf gives the item the receiver recognises at each place. The message is senderMasks of Dcw_Model.
* **C155** (DKT: the places of the masks hide the order of the sender's set): Order_Spec.v: sightOf gives the item the receiver recognises at each place. The message is sTs of Dkt_Model.
* **C156** (RR16: the places of the masks hide the order of the sender's set): Order_Spec.v: sightOf gives the item the receiver recognises at each place. The message is senderRun of Rr16_Model.
* **C157** (GRR18: the places of the masks do not show the sizes of the sender's bins): OrderGrr_Spec.v: sentG are the rows of Grr18_Model; rowsBelow counts the rows of the sender's items in the bins before.
* **C158** (GRR18: the announced loads are differentially private): GrrNoise_Spec.v: the law of a sample converted to an integer from its cumulative distribution, the law of several independent samples as a finite sum, loadsProb for the model's computeLoads. Expected: pure privacy refuted in every mode since a load is never below the size; the factor holds up to the probability that this bound is active.
* **C159** (GRR18: with the default parameters the announced loads are padded): GrrNoise_Model.v: the keys of all tables of the code. Expected refuted: no key has the default eps or a quarter of its number of items.
* **C160** (GRR18: with the buffer, computing the loads fails with probability about 2^-40): Union bound over the bins on the lower tail of the Laplace distribution at the offset computed by the code.
* **C161** (GRR18: the announced number of masks is differentially private): masksProb in GrrNoise_Spec.v; the number of masks changes by at most the largest load when an item moves.
* **C162** (GRR18: the buffer for the number of masks can be computed and suffices): buffRounds with explicit overflow of the int. Expected refuted for tiny eps.
* **C163** (RR16: the permutation hides the receiver's set from the sender): Rr16Perm_Spec.v: outcomes of the OTs as two lists of indices, the messages held for them. The zeros and ones are used in the order in which the OT library lists them; the code's own shuffle is commented out. Two cases: sorted lists (expected refuted) and lists in arbitrary order (a bijection).
* **C164** (PRTY: the polynomials hide the receiver's items): PrtyHide_Spec.v over the models of polyNTL and PRTY. The field has 8 * polyMaskBytes bits, the rows mFieldSize bits, which is not a number of bytes for some sizes. Expected: refuted for those sizes (at the receiver's items the value has mFieldSize bits, at other points it is uniform in the field), a bijection for rows that fill the field.
* **C165** (DKT: the receiver's messages hide its set): DktHide_Spec.v over the model of DKT. The commitments are sent apart from each other, so a response gives the mask away; [ggg] is never assigned. Expected: refuted, with the point the sender computes; what holds is that the first message without the points N is perfectly hiding.
* **C166** (DCW: the receiver learns nothing about the sender's items outside its set): MaskHide_Spec.v over the model of DCW. The mask is an XOR of OT messages, so it is uniform if the item has a position of its own outside the filter (used an odd number of times), which has to be assumed of the hash functions; without it refuted.
* **C167** (RR16: the receiver learns nothing about the sender's items with an unknown OT): MaskHide_Spec.v over sendMask of the model of RR16; same argument as C166 with the OTs named by the permutation.
* **C168** (KKRT: the receiver learns the common items and nothing else): Reveal_Spec.v: the OPRF and the drawn numbers are the values of one random function on a set of sources. Proved by an explicit bijection: a renaming of the sources that fixes what the receiver knows and a relabelling of the permutation turn the messages for one set into the messages for the other.
* **C169** (RR17a: the receiver learns the common items and nothing else): RevealRr17_Spec.v: the encodings of the OTs where the receiver chooses are the values of one random function. Proved by a bijection as C168, where the encodings are also shifted (XOR) by numbers that depend on the slot permutations only.
* **C170** (PRTY: every mask of the sender has a place of its own): PrtyPlace_Model.v: read and write of the counter and the copy of the mask are steps of their own; a schedule is a list of thread numbers. Invariant: the places taken so far, per hash number, hold the masks of the threads or belong to a thread that is about to write.
* **C171** (PRTY: the places of the masks do not depend on the sender's items): PrtyPlace_Model.v: one thread, the masks in the order of the bins. Refuted with two sets that share an item; the mask of that item has different places.
* **C172** (RR16 parameters leave an honest receiver enough OTs): AknParams_Model.v: the formulas and the search over real numbers. The opened OTs are independent coins (AknParams_Spec.v). Chernoff's bound is proved from scratch (moment generating function, ln(1+d) >= 2d/(2+d)); the formulas are the roots of the quadratic equations that it leads to.
* **C173** (RR16 parameters catch a receiver with too many ones): As C172, with the lower tail of the sum of coins (exp(-t) <= 1 - t + t^2/2).
* **C174** (RR16 table holds the values of the formulas): Integer inequalities for the square roots, checked by computation.
* **C175** (RR17a result does not depend on the permutation of the masks): Rr17a_Model with the permutation replaced (withPerm). Refuted for all inputs with at least two channels and two items per channel: every common item is missed for some permutation. The exact condition under which an item is reported is proved.
* **C176** (RR17b: the receiver learns the common items and nothing else): RevealRr17b_Spec.v: the encodings are the values of one random function on (channel, OT, OT input), the commitments the values of another one on (item, decommitment value). Proved by a bijection as C169: a relabelling of the permutation and the decommitment values, a renaming of the encodings that fixes the choices and a renaming of the items of the commitments that fixes the receiver's items.
* **C177** (PIR-PSI: server 0 learns nothing about the client's set): DrrnView_Model.v: the messages that server 0 gets, as a function of the client's set and its random tapes; the masks, pi1 and the sigmas come from the constant rSeed = CCBlock. False: from pi0 alone the server computes for every query its region and the content of the queried slot, hence every common item. Proved beside it: two sets with the same regions have identically distributed keys (a permutation of the tapes), and with the same regions and contents the rest of the view is a function of the keys.
* **C178** (PIR-PSI: server 1 learns nothing about the client's set): DrrnView_Model.v: the keys for server 1 by region. False: the keys of the unused places of a region are all zero, so server 1 counts the queries of each region. Proved beside it: two sets with the same number of queries in every region have identically distributed keys, by a relabelling of the queries and permutations of the tapes.
* **C179** (PIR-PSI: the client does not learn under which hash function the server stored a common item): DrrnHit_Model.v: the matches of the client as a function of the sigmas and the table. False twice: the sigmas come from a seed that the client knows, and for three hash functions the exchanges are not uniform even with secret sigmas. For two hash functions with secret sigmas it holds, by an involution on the sigmas.
* **C180** (PRTY: masks of items outside the receiver's set have 128 unknown bits): PrtyBits_Spec.v: the weight of an item, and probabilities as numbers of bit vectors. The number of vectors below weight 128 is a sum of binomial coefficients, evaluated for the field sizes of getFieldSizeInBits; union bound for the upper, Bernoulli's inequality for the lower bounds. False for sets of 2^22 items (field size 436 instead of 440) and for senders with larger sets.
* **C181** (A simple index can be initialised again): SimpleAgain_Model.v: init on an existing object (resize keeps the bin sizes); the contents of the resized tables are arguments. Simulation between the run on a new index and the run on the old one. False: sizes are never reset.
* **C182** (Receivers can be initialised and used again): Reuse_Model.v: histories over the models of the protocols, with what init does to mIntersection. Induction on the history. False for the four protocols whose init does not clear the output.
* **C183** (A PIR-PSI client can ask again): Reuse_Model.v: drrnUse, the run of Drrn_Model with the two lists that the client object keeps (mPsi.mIntersection and mIntersection). False: positions matched by the final protocol in the first run are looked up in the map of the second.
* **C184** (The PIR-PSI server's table holds every item once): DrrnFull_Model.v: setInputs composes the parameter selection, init and insert of the cuckoo index. The theorem connects the invariant of the index (C01) with the table assumed by the PIR-PSI theorems.
* **C185** (A complete PIR-PSI run reports exactly the common items): DrrnFull_Model.v: setInputs, the run of Drrn_Model up to the comparison, and the KKRT models. Composition of C184, C83 and C21 with the sizes both sides fixed in init. The conditions on parts and on zero are needed (C83, C84).
* **C186** (PIR-PSI runs to the end under every schedule): DrrnThreads_Model.v: scripts of the three parties for Sched_Model. Proof by a rank for each event (Sched_Proofs). The hang: a bound on the number of messages ever sent on a channel.
* **C187** (PIR-PSI servers use the shares only after all threads have written them, each region once): DrrnThreads_Model.v: join barrier and the stride loop. Order by counting arrivals at the join; split by induction on the loop.
* **C188** (The results of all threads reach mIntersection): Collect_Model.v: a vector whose changes begin and end in separate steps, a mutex, schedules. Invariant: at most one thread inside, and only the holder of the lock; what is in the vector and what is still to be appended is constant up to order. PRTY's comparison for short masks appends without the lock: witness.
* **C189** (PRTY: both parties hash an item to a common bin): PrtyHash_Model.v: the models of SimpleIndex and BalancedIndex with the arguments of PRTY; the two arguments that are missing in PrtySender.cpp:60 are quantified. Expected refuted: the two tables hash differently. Witness for every number of bins above one.
* **C190** (A run of PRTY with the big polynomial returns the common items): BigRun_Model.v puts Prty_Model (rows, masks), PolyBig_Model (slices) and PrtyDiff_Model (messages) together, from the items to mIntersection. The sender's row is rebuilt from the three slices (the uninitialised bytes are cut by the choice bits), so common items get the receiver's mask; the messages are decoded with C106. Witness with two items, and in general a step with at most 49 differences is not sent. A case with 68 items modulo 71 meets all hypotheses.
* **C191** (KKRT and PRTY end under every schedule): Phases_Model.v: scripts of all threads for the transition system of Sched_Model.v; PRTY as threads in phases (start, join). Ranks on all events give progress (Sched_Proofs.v); a generic lemma for threads in phases covers the three PRTY protocols. A receive beyond the number of messages that the other party ever sends is never enabled, which gives the negative part.
* **C192** (KKRT and PRTY send no mask before everything has been received): Counting of arrivals (Sched_Proofs2.v): a wait for all arrivals puts everything before an arrival ahead of everything after the wait; for phases two such steps, over the join and the start of the next threads.
* **C193** (File-based PSI with KKRT or RR17a writes exactly the common rows): FilePsi_Model.v puts File_Model.v (readers, startup, writer) together with the complete runs of Kkrt_Model.v, Rr17a_Model.v and Ecdh_Model.v. The theorems compose the results on the readers and writers with the end-to-end theorems of the protocols; padding is removed from the positions because pads are in nobody's set. C193_rows and C193_slices say what equal items mean for the bytes of the files.
* **C194** (File-based PSI with ECDH writes exactly the common rows): Witness for the refutation by computation. The partial theorem assumes that the first 32 bits of the blocks are distinct and follows from the end-to-end theorem of Ecdh_Proofs.v with the reader and writer theorems; complete orders exist (C194_order_partial).
* **C195** (The parties of a benchmark hold the same set in every pass): Bench_Model.v: the loops of all drivers and the position in the stream of a generator with fixed seed. The set of each pass is computed in closed form; witness for the refutation with a generator without repetitions.
* **C196** (Benchmarks and ping test keep in step under every schedule): A finished execution gives each event its position in time as a rank, and ranks give progress of every other execution (Sched_Proofs.v). Conversations are composed from pieces; each piece gives a finished execution.
* **C197** (The command line does what the help text says): Bench_Model.v: the shift on int, the roles, the sessions, the channels. Case analysis.
* **C198** (The number of bytes each party sends is a fixed function of the parameters): Scripts of Threads_Model, Threads2_Model, Phases_Model. Volume_Spec: sum of the message sizes in the log of sends. An invariant (sent plus still to be sent is constant) reduces every complete execution to the sum over the scripts; the sums over threads telescope (even and ceiling split), strided mask chunks of RR17a are regrouped by residue. Corrections are counted in OTs, the conversations of libOTe are arbitrary and their sizes appear in the formula. That complete executions are reached: C126-C129, C140, C191. PRTY: for polynomials and masks of a fixed number of bytes per bin and item.
* **C199** (A run of PRTY outputBestComm returns the common items): BestRun_Model joins bins, polynomials and masks (Prty_Model) with sorted differences (PrtyDiff_Model), the message lying in arbitrary memory, once for each hash number. Proved from the theorems about balanced allocation (C85), masks (C94) and differences (C106). Refuted with the exact message of 24 bytes (computed run) and, in general, for every size where the differences do not fit.
* **C200** (The stash measurement counts every trial exactly once): Measure_Model: counters as rows, threads and main thread as single steps, arbitrary schedules. Invariant: the sum read so far is at most the sum of the cells now, so the sum 2^t can only be read when nothing is left to count; the second pass is then exact. Increments and reads of words are taken as atomic (the program has a data race).
* **C201** (simpleTest measures the sizes n, n 2^s, n 4^s, ... up to nEnd): sizesFrom with fuel (out of fuel for every fuel = endless), words of 64 bits.
* **C202** (Whatever the sender sends, the receiver reports only own items, none twice, and only for masks of theirs): Foreign_Model: the receivers of ECDH, DCW, RR16 and RR17a alone, on arbitrary messages (KKRT and DKT receivers are modelled apart already). earned: old result kept, new positions own, at most as many as masks, each with a received mask of that item; the masks of an item are described in Foreign_Spec apart from the model. ECDH: positions increasing. The curve library may reject the encoding of the neutral element; the forged run is stated for encodings that decode to it.
* **C203** (A PIR-PSI server reads only inside its tables whatever the client sends): server0Input of Drrn_Model is None exactly when a position lies outside; witness with position 3 in a table of 3.
* **C204** (Whatever loads the GRR18 sender announces, the receiver writes masks only inside its buffer): grrReceive (Foreign2_Model): the receiver alone with masks as a flat memory, so that a load above the capacity runs into the row of the next item (then the receiver compares with a foreign mask, C202) or behind the end (UB). Witness with a load of capacity + 1 for the bin of the last item.
* **C205** (CuckooIndex::validate accepts a table exactly when it holds the inputs): validate (Validate_Model) on the object of CuckooIndex_Model. Each input is met in exactly one of its distinct places (matchesFrom_spec); as many words as inputs are non-empty, so the indices in the bins are a permutation of 0..n-1.
* **C206** (The OTs are configured for the bits of their inputs): otWidth (OtWidth_Model) with arithmetic modulo 2^64, the OT inputs of Rr17a_Model (nco, used by Grr18_Model too) and Rr17b_Model (otInput). shiftRight is division by 2^phase.
* **C207** (Hashing to a smaller domain misses at most 2^-statSecParam): Counting: hash values as 128-bit numbers, clash in OtWidth_Spec. A clashing number is determined by its part above the bits read and by the interval of length nb its low bits fall into; the map is injective. For 2^phase bins all numbers of that form clash, so the count is exact.
* **C208** (GRR18: the tables are complete, increasing and in range): GrrTable_Model.v holds the 116 tables (taken over from the source by a script) and the choice of the table; the load is binLoad of Grr18_Model.v. By computation on the tables, then for every noisy size by the clamping of the index.
* **C209** (GRR18: the tables hide the sizes of the bins except with probability 2^-40): GrrTable_Spec.v: binomial sizes of the bins, Laplace noise (GrrNoise_Spec.v), expected number of exposed bins. Real numbers; lower and upper bounds with 80 bits after the point, rounded in the right direction: exp by repeated squaring of 1 - x <= exp(-x) <= 1/(1 + x), the sum over the sizes by Horner's scheme, sizes from 64 on by a geometric series.
* **C210** (PIR-PSI: the client reports only own items, none twice, whatever server 0 sends): Foreign3_Model.v: the client of Drrn_Model.v up to the final comparison, the KKRT receiver of Kkrt_Model.v on free messages, inputMap. From C202 (KKRT) and the layout of the queries.
* **C211** (KKRT and PIR-PSI: no contents of messages of the prescribed sizes stop the receiver): receiverInput of Kkrt_Model.v and clientOut of Foreign3_Model.v on two lists of messages; the sizes are prescribed in Foreign3_Spec.v without the model.
* **C212** (PIR-PSI: server 0 reads only inside the received vectors): Foreign3_Model.v: the two loops index by index, a read outside is UB (server0Input of Drrn_Model.v pairs the vectors and is only meant for equal lengths; C212_agrees ties the two).
* **C213** (No received message is read behind its end): MsgLen_Model.v: the reads of each site on the bytes of a message, UB behind the end; MsgLen_Spec.v: the message is exactly (or begins with) the sequence of records.
* **C214** (DKT: the receiver looks up each mask of the sender once and no more masks than announced): DktMask_Model.v: the two loops, messages as lists of masks (the receiver of Dkt_Model.v takes the masks of each thread as one list and refuses another number). DktMask_Spec.v: the messages that complete a number of masks, the positions reported for a list of masks.
* **C215** (ECDH: the first message of a party shows its hashed items up to a common scalar and nothing more): recvPoint and sendPoint of Ecdh_Model.v. EcdhHide_Spec.v: scalars acting on points, exactly one scalar between two points, lists of points connected by one scalar. The scalar zero and the neutral element are outside the statement (probability 1/order).
* **C216** (GRR18: whatever loads the receiver announces, the sender writes each row of its masks once and uses only OTs it has set up): GrrSend_Model.v: the loops over bins, items and loads with otIdx, innerOtIdx and maskPermIdx, the fetch_add of the threads in any order, the matrix size. What the OT extension does with an index beyond those set up is external and counted as undefined.
* **C217** (A check that fails in sendInput is reported to the caller as an exception): Fail_Model.v: for each of sixteen parties the checks before threads are started, the checks of each thread and the caller's own checks until the join, under every schedule. Two rules of C++ are built in: an exception that leaves the function of a std::thread, or that destroys a joinable std::thread, calls std::terminate. Which checks there are is a parameter. PRTY and PIR-PSI are not included.

## Which code the models cover

| Code (libPSI/) | Model files | Not modelled |
|---|---|---|
| Tools/CuckooIndex2.cpp, .h | CuckooIndex_Model (insertOne, insert, find, findBatch), CuckooParams_Model (selectParams, init), CuckooConc_Model (threads), Validate_Model (validate) | print, operator== (debugging) |
| Tools/CuckooHasher.cpp, .h; SimpleCuckoo.cpp | CuckooHasher_Model, HasherConc_Model (threads) | print |
| Tools/SimpleIndex.cpp, .h | SimpleIndex_Model, SimpleAgain_Model (second init), BinProb_Model (getBinOverflowProb, get_bin_size in rationals) | floating point rounding |
| Tools/SimpleHasher.cpp, .h | SimpleHasher_Model, BinProb_Model | the block comments |
| Tools/BalancedIndex.cpp, .h | Balanced_Model | print |
| Tools/RandomShuffle.cpp | Shuffle_Model | quality of the randomness |
| Tools/fileBased.cpp | File_Model (readers, writers, padding, debug check, roles, sizes), FilePsi_Model (whole runs of KKRT, RR17a, ECDH between two files) | file system |
| PIR/BgiPirServer.cpp, .h, BgiPirClient.cpp | Bgi_Model, BgiPrivacy_Spec (keys as functions of random tapes) | block cipher (arbitrary function); sockets |
| PSI/Kkrt | Fail_Model (checks that fail), Phases_Model (schedules), Kkrt_Model, Masks_Model, Buffers_Model, Order_Spec (what the receiver sees) | the OPRF of libOTe (arbitrary function) |
| PSI/Drrn | Drrn_Model, DrrnFull_Model (whole run), DrrnThreads_Model (schedules), DrrnView_Model (what the servers see), DrrnHit_Model (what the client sees), Reuse_Model (second run), Foreign3_Model (client and server 0 on free messages) |  |
| PSI/ECDH | Fail_Model (checks that fail), Collect_Model, Ecdh_Model, Threads2_Model, Partition_Model, Masks_Model, MsgLen_Model (sizes of messages) | curve arithmetic (commutative action) |
| PSI/Dcw | Fail_Model (checks that fail), Dcw_Model, Threads2_Model, Capture_Model, Partition_Model | OT extension (arbitrary consistent messages) |
| PSI/Prty | Prty_Model, PrtyPlace_Model (places of the masks), PrtyDiff_Model, PolyBig_Model, PolyNtl_Model, Balanced_Model, Masks_Model, Buffers_Model, Collect_Model (pushes to mIntersection), PrtyHash_Model (bins of both parties), BigRun_Model (complete run of outputBigPoly), BestRun_Model (complete run of outputBestComm), MsgLen_Model (sizes of messages), Phases_Model (schedules) | IKNP matrix transposition; PrtySender.cpp is not valid C++ (see the trusted base) |
| PSI/Prty/Poly/polyFFT.cpp, polyNTL.cpp | PolyTree_Model, PolyNtl_Model | NTL's field and polynomial arithmetic (a field, division with remainder) |
| MPSI/Rr16 | Fail_Model (checks that fail), Collect_Model, Rr16_Model, AknParams_Model (parameters), Threads_Model, Init_Model | OT extension; rounding of floating point |
| MPSI/Rr17/Rr17a | Fail_Model (checks that fail), Collect_Model, Rr17_Model, Rr17a_Model, Threads_Model, Capture_Model, Init_Model, Masks_Model, Partition_Model, Foreign_Model (receiver on free messages), OtWidth_Model | the OPRF with its checks (arbitrary function, arbitrary conversations) |
| MPSI/Rr17/Rr17b | Fail_Model (checks that fail), Collect_Model, Rr17_Model, Rr17b_Model, Threads_Model, Capture_Model, Init_Model, Partition_Model, Foreign2_Model (receiver on free messages), OtWidth_Model | the OPRF with its checks |
| MPSI/Grr18 | Fail_Model (checks that fail), Collect_Model, Grr18_Model, GrrNoise_Model, GrrSend_Model (sender on announced loads), GrrTable_Model (the tables), Foreign2_Model (receiver on free messages), OtWidth_Model (OT width), Threads_Model, Capture_Model, Init_Model | the OPRF; sampling (its distribution is specified over the reals) |
| MPSI/DKT | Fail_Model (checks that fail), Collect_Model, Dkt_Model, DktMask_Model (mask messages), DktThreads_Model, Threads2_Model, MsgLen_Model (sizes of messages) | curve arithmetic (a group), hash to the curve |
| frontend | Bench_Model (benchmark loops, sets, handshakes, ping test, roles and sizes of the command line), CuckooHasher_Model (frontend/cuckoo/SimpleCuckoo), Measure_Model (cuckooTests.cpp) | parsing of the command line, printing, timers |


## Trusted base

* Coq 8.16.1 kernel (and `vm_compute`).
* Whatever `Print Assumptions` lists after each theorem in the `*_Properties.v`
  files: "Closed under the global context" for all theorems named in MANIFEST.json, with one exception. The theorems
  of C135 (natural logarithm), C158, C160, C161, C162 and C209 (distributions of noise), C172, C173 and C174 (parameters of RR16) use the axioms of the real numbers
  of the standard library: ClassicalDedekindReals.sig_forall_dec, ClassicalDedekindReals.sig_not_dec,
  FunctionalExtensionality.functional_extensionality_dep, Classical_Prop.classic.
* The correspondence between the C++ text and the `*_Model.v` files, which is by reading. Every
  definition cites file and lines and says what is simplified.
* The PRTY sender as given is not valid C++: `simple.init(, , recvNumDummies)` (PrtySender.cpp:60) lacks two arguments, `mBins` is used
  both as a matrix of indices (line 140) and as bins with members `blks` and `hashIdxs` (lines 226, 257) that SimpleIndex does not have,
  the masks are computed with a member mAesHasher (lines 252, 560, 964) that it does not have either, and
  line 411 calls insertItems without its seed. So there is no program whose behaviour the models of the sender could be compared with. They
  follow the lines that can be read and assume that the sender's bins are numbered, hashed and bounded as in the receiver's BalancedIndex. The lines that are there contradict this
  assumption (C189: SimpleIndex hashes with another key and other windows), so these theorems are about the protocol that the
  receiver's code is written for, not about this file. This
  concerns C94, C96, C98, C123, C164, C170, C171 and C180; C145 is about the loop at line 139 as it stands. The
  receiver's file has no such gap.
* Not modelled: the external libraries cryptoTools and libOTe (Channels, PRNG, AES, OT
  extension, Blake2, Curve arithmetic) other than as arbitrary functions; C++ memory
  ordering weaker than sequential consistency; timing; floating point (the overflow estimator is an arbitrary function);
  computational security (pseudo-randomness, indistinguishability), which has no finite semantic statement in this model (perfect hiding has
  one, as a permutation of the random choices: C149 and the properties on the places of masks); the parsing of the
  command line, printing and timers of the front end.
