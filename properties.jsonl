{"id": "C01", "title": "Permutation apply is the gather/scatter it claims to be, and inverse undoes it", "statement": "Perm::apply(src,dst,Regular) writes dst[i]=src[pi[i]] for every row and Perm::apply(src,dst,Inverse) writes dst[pi[i]]=src[i]; for a valid permutation, applying one after the other in either order returns the original rows; a size mismatch is always reported by an exception and never silently truncated.", "quantifier": "every row count (including ones not a multiple of the unroll factor 8), every permutation, every payload", "why_tests_cant": "tests use a few random permutations of fixed size; the unrolled loop and its remainder interact with every residue of n mod 8", "anchors": ["secure-join/Perm/Permutation.h: Perm::apply (76-218)", "secure-join/Perm/Permutation.cpp: inverse"]}
{"id": "C02", "title": "Permutations form a group under compose/inverse", "statement": "For valid permutations of equal size, (A.compose(B)).apply(x) = A.apply(B.apply(x)); compose is associative with the identity permutation as unit; p.inverse() is valid and is the two-sided inverse of p; composition of valid permutations is valid.", "quantifier": "every size and every pair/triple of permutations", "why_tests_cant": "n! permutations; the order convention of compose can be swapped without any symmetric test noticing", "anchors": ["secure-join/Perm/Permutation.h: compose, inverse, applyInverse", "secure-join/Perm/Permutation.cpp"]}
{"id": "C03", "title": "A randomly sampled permutation is always a permutation, and every permutation can be sampled", "statement": "Perm::randomize (and the Perm(n,prng) constructor) returns a vector that is a permutation of 0..n-1 whatever 32-bit words the PRNG returns, and for each permutation of 0..n-1 there is a PRNG output stream that yields it.", "quantifier": "every n and every PRNG output stream", "why_tests_cant": "a test samples a handful of streams; a wrong index range still yields permutations most of the time or silently makes some permutations unreachable", "anchors": ["secure-join/Perm/Permutation.h: randomize (53-65), Perm(u64,PRNG&)"]}
{"id": "C04", "title": "Perm::validate accepts exactly the permutations", "statement": "validate() returns without throwing if and only if the stored vector is a bijection on 0..n-1.", "quantifier": "every vector of 32-bit words", "why_tests_cant": "the set of invalid vectors is unbounded; tests check none", "anchors": ["secure-join/Perm/Permutation.h: validate (289-302)"]}
{"id": "C05", "title": "Permutation correlation: every online application is correct, for any call history", "statement": "If a PermCorSender/PermCorReceiver pair was set up consistently (as checked by their validate), then after any sequence of apply/applyInverse calls by the two parties with any row widths, and any derandomize calls before them, each call's two output shares XOR to the (inverse-)permuted input, where the permutation is the one the sender currently holds.", "quantifier": "all row counts, all permutations, all payloads, all masks, every sequence of Regular/Inverse applications and derandomizations of any width that fits in the correlation", "why_tests_cant": "tests apply one or two fixed-width rounds; the offset bookkeeping and delta permutation are only wrong for particular histories", "anchors": ["secure-join/Perm/PermCorrelation.h: PermCorSender, PermCorReceiver, derandomize", "secure-join/Perm/PermCorrelation.cpp: apply"]}
{"id": "C06", "title": "Permutation correlation: mask bytes are used at most once and exhaustion is detected", "statement": "Over any sequence of applications the mask bytes consumed by distinct calls are disjoint, both parties' consumption stays equal, no call reads outside the correlation, and the call that would exceed what is left throws without consuming anything. This must also hold for a correlation object that is re-generated and used again.", "quantifier": "every history of calls and widths, including re-use of the correlation object for a new setup", "why_tests_cant": "re-using masks is invisible in the output values (results stay correct) and only leaks information; the wrap-around of the remaining size needs a particular history", "anchors": ["secure-join/Perm/PermCorrelation.h: size, corSize, mByteOffset", "secure-join/Perm/AltModPerm.cpp: generate", "secure-join/TableOps/Extract.h: mPermutation"]}
{"id": "C07", "title": "Shared (composed) permutation applies pi1∘pi0", "statement": "For a ComposedPerm pair, apply on shares of x gives shares of pi(x) (Regular) or pi^-1(x) (Inverse) where pi is the composition of the two parties' permutations; the two parties' message orders match; ComposedPerm::derandomize towards any shared permutation makes the pair represent that permutation from then on; compose of a shared permutation with another permutation is correct.", "quantifier": "all sizes, all pairs of permutations, all inputs, all shares, any sequence of operations", "why_tests_cant": "the two parties run different code paths whose order must mirror; only particular (non-commuting) permutations reveal an inverted order", "anchors": ["secure-join/Perm/ComposedPerm.cpp: apply (6-42), derandomize (44-101)", "secure-join/Perm/ComposedPerm.h"]}
{"id": "C08", "title": "PRF-based setup generates a valid permutation correlation", "statement": "Given a PRF evaluation protocol whose outputs are XOR shares of F, AltModPermGenSender::generate and AltModPermGenReceiver::generate leave the parties with a correlation that satisfies the permutation-correlation equation, for every row count and row width in bytes (including widths not a multiple of 16).", "quantifier": "every n, every bytes-per-row, every permutation, every PRF key, every sharing of the PRF outputs", "why_tests_cant": "tests use a few sizes; index arithmetic between the n x blocks PRF evaluations and the byte matrix has to match for every pair", "anchors": ["secure-join/Perm/AltModPerm.cpp: generate (42-153)", "secure-join/Perm/AltModPerm.h"]}
{"id": "C09", "title": "share/reveal round trip for binary matrices and tables of every bit width", "statement": "Revealing the two shares produced by share(...) returns exactly the original matrix (with bits past the declared bit count cleared), for every declared bit count; for tables, reveal with dummies removed returns exactly the active rows in order and without removal returns all rows and the active flags.", "quantifier": "all dimensions, all bit counts (not only multiples of 8), all contents, all randomness", "why_tests_cant": "the last-byte mask matters only for bit counts not divisible by 8 and particular random bytes", "anchors": ["secure-join/Util/Util.h: share (44-104), reveal (110-290)", "secure-join/Join/Table.cpp: Table::share, extractActive"]}
{"id": "C10", "title": "Trimming and comparing bit matrices ignore exactly the padding bits", "statement": "trim clears exactly the bits at index >= bitCount in every row and throws if bitCount exceeds the row; areEqual returns true iff the two matrices agree on the first bitCount bits of every row.", "quantifier": "all widths, strides, contents", "why_tests_cant": "boundary masks: one wrong shift only shows for particular bit positions", "anchors": ["secure-join/Util/Trim.cpp: trimImpl, areEqualImpl", "secure-join/Util/Matrix.h: operator=="]}
{"id": "C11", "title": "Binary table files: what is written is what is read back", "statement": "For every table within the documented limits, reading the bytes produced by writeBin (in the order header then columns) yields an equal table; malformed headers (name length, type or bit count out of range) are rejected; a truncated file must not be accepted as a table.", "quantifier": "every table (any number and type of columns, any names, any bit widths, any rows), every truncation point of the file", "why_tests_cant": "round trips are tested on one file; truncated inputs at every byte offset are not", "anchors": ["secure-join/Join/Table.cpp: writeBin (49-67), readBin (69-99)"]}
{"id": "C12", "title": "CSV table files: what is written is what is read back", "statement": "For tables whose values are representable in the CSV format, writeCSV followed by readCSV reproduces the table; integers are printed and parsed with two's complement semantics at the column's width.", "quantifier": "every table and every integer value of every column width", "why_tests_cant": "extreme widths (1, 7, 63, 64 bits) and values (minimum negative) are rarely tested", "anchors": ["secure-join/Join/Table.cpp: writeCSV (101-152), readCSV (154-236)", "secure-join/Defines.h: signExtend, getSign"]}
{"id": "C13", "title": "Hex encoding round trips", "statement": "fromHex(hex(bytes)) returns the original bytes for every byte string and every even length; malformed length is rejected.", "quantifier": "every byte string", "why_tests_cant": "256 digit pairs times arbitrary length", "anchors": ["secure-join/Join/Table.h: fromHex (19-50)", "secure-join/Defines.h: hex (98-105)"]}
{"id": "C14", "title": "Table::sort returns the stable lexicographic order", "statement": "Table::sort rearranges the rows of all columns (and the active flags where present) by one common permutation such that rows are in lexicographic order of the columns and rows equal in all columns keep their order.", "quantifier": "every table", "why_tests_cant": "stability and multi-column priority only show on particular duplicates", "anchors": ["secure-join/Join/Table.cpp: sort (384-391), permute (238-258)", "secure-join/Sort/RadixSort.cpp: sort (1408-1426), lessThan (1382-1406)"]}
{"id": "C15", "title": "extractActive keeps exactly the active rows in order", "statement": "Table::extractActive leaves exactly the rows whose active flag is 1, in their original order, in every column, and clears the flag vector; tables without flags are unchanged.", "quantifier": "every table and flag vector", "why_tests_cant": "off-by-one and compaction-order errors show only for particular flag patterns", "anchors": ["secure-join/Join/Table.cpp: extractActive (290-318)"]}
{"id": "C16", "title": "Reference (plaintext) join returns exactly the matching pairs", "statement": "The plaintext join of a left table with unique keys and a right table returns, for each right row whose key occurs on the left, one row with the selected columns taken from the two matching rows, and nothing else; a left table with a repeated key is rejected.", "quantifier": "every pair of tables, every select list", "why_tests_cant": "the reference join is the oracle of the test-suite, so a fault in it is invisible to the tests", "anchors": ["secure-join/Join/Table.cpp: join (742-810), populateOutTable, copyTableEntry"]}
{"id": "C17", "title": "Reference (plaintext) average/group-by aggregates exactly the active rows of each group", "statement": "The plaintext average returns one row per distinct key among active rows with the sum over the active rows of that key and their count.", "quantifier": "every table, including inactive rows in any position", "why_tests_cant": "the reference implementation is the oracle of the tests; they use particular activity patterns", "anchors": ["secure-join/Join/Table.cpp: average (606-736)"]}
{"id": "C18", "title": "Plaintext where filters rows by the clause", "statement": "Table::where(inputs, circuit) must mark row i active iff it was active and the clause circuit evaluates to true on the row's selected columns, without reading or writing out of bounds.", "quantifier": "every table, every selected column list, every circuit", "why_tests_cant": "out-of-bounds access need not crash a test", "anchors": ["secure-join/Join/Table.cpp: where (357-382), cirEval (589-603)"]}
{"id": "C19", "title": "GMW: the two parties' output shares XOR to the plain circuit output", "statement": "For every Boolean circuit accepted by Gmw, all input sharings and all valid OLE correlations, after run() the XOR of the two parties' outputs equals the plain evaluation of the circuit on the XOR of the inputs, in every lane, for every supported gate type.", "quantifier": "every circuit (any gates, any number of levels), every number of lanes, every input and share, every OLE tuple", "why_tests_cant": "16 gate types x arbitrary circuits x random shares; a wrong inversion mask cancels for particular shares", "anchors": ["secure-join/GMW/Gmw.cpp: run (207-613), invertA/B/C (621-686), multSendP1/P2, multRecvP1/P2 (705-856)", "secure-join/GMW/Gmw.h"]}
{"id": "C20", "title": "GMW: the preprocessed triples are consumed in step, completely, and the loading loop terminates", "statement": "Whatever the sizes of the OLE segments the generator hands out, loading them into the two parties' triple buffers terminates, both parties pair up the same OLE instances, no OLE instance is used for two gates, and exactly the number required by the circuit is consumed.", "quantifier": "every request size, every segmentation of the request into batches (every batch size and every history of earlier requests)", "why_tests_cant": "segment boundaries depend on generator history and batch size; tests use a fixed batch size, and non-termination appears only for odd block segments", "anchors": ["secure-join/GMW/Gmw.cpp: run triple loading (286-337), init (14-39)", "secure-join/CorGenerator/CorGenerator.cpp: implRequest"]}
{"id": "C21", "title": "GMW: the parties' messages have matching sizes in every round", "statement": "In every round both parties send and expect the same sequence of message sizes, in total 2 bits per non-linear gate and lane, so the protocol can neither deadlock nor mix rounds.", "quantifier": "every circuit, every lane count, every round layout", "why_tests_cant": "buffers are chunked at 2^14 blocks; only large circuits reach the chunk boundary", "anchors": ["secure-join/GMW/Gmw.cpp: send loop (352-438), recv loop (444-479)"]}
{"id": "C22", "title": "Zero-test circuit is correct for every width", "statement": "isZeroCircuit(bits) outputs 1 iff all input bits are zero, for every width.", "quantifier": "every bit width (including non powers of two) and every input", "why_tests_cant": "an AND tree that drops an odd leftover is right for power-of-two widths, the ones usually tested", "anchors": ["secure-join/GMW/Circuit.cpp: isZeroCircuit (6-49)"]}
{"id": "C23", "title": "Circuit inlining preserves semantics", "statement": "evaluate(parent, sub, in, out) appends gates to the parent circuit such that the parent computes sub(in) on out and all other wires keep their values.", "quantifier": "every parent circuit, every sub-circuit, every choice of input and output wires", "why_tests_cant": "wire renumbering is only wrong for circuits with particular wire layouts", "anchors": ["secure-join/GMW/Circuit.cpp: evaluate (85-139)"]}
{"id": "C24", "title": "Aggregation tree computes segmented scans for any associative operator", "statement": "For every associative operator, AggTree with Prefix (resp. Suffix, Full) output returns at leaf i the aggregate of the block of i from its first element to i (resp. i to its last element, the whole block), where blocks are the maximal runs delimited by the control bits.", "quantifier": "every number of leaves n >= 2 (not only powers of two), every control bit vector with first bit 0, every input, every associative operator, commutative or not", "why_tests_cant": "tree shape for non powers of two, block layouts and operator order interact; tests use one operator and few sizes", "anchors": ["secure-join/AggTree/AggTree.cpp: upstream, downstream, computeLeaf", "secure-join/AggTree/PlainAggTree.cpp", "secure-join/AggTree/Level.h"]}
{"id": "C25", "title": "Aggregation tree shape is consistent for every n", "statement": "For every n the computed level sizes describe a binary tree with exactly the padded number of leaves, every parent having two children and the root level having one node; setting the leaves loads each input row exactly once at its leaf position.", "quantifier": "every n (including 1)", "why_tests_cant": "n up to 2^k is partitioned in two levels depending on the rounding to 16; only particular residues break it", "anchors": ["secure-join/AggTree/Level.h: computeTreeSizes (59-95), setLeafVals (160-291)"]}
{"id": "C26", "title": "Perfect unshuffle/shuffle are inverse and split even from odd positions", "statement": "perfectUnshuffle puts the even-indexed bits into the first output and the odd-indexed into the second, perfectShuffle interleaves them back; they are mutual inverses for every input size.", "quantifier": "every bit string of every length", "why_tests_cant": "mask constants are wrong only for particular bit positions", "anchors": ["secure-join/AggTree/PerfectShuffle.h (22-418)", "secure-join/AggTree/AggTree.cpp: perfectUnshuffle (7-106)"]}
{"id": "C27", "title": "One radix round produces the stable counting-sort permutation", "statement": "For shares of one-hot encoded digits, genBitPerm outputs shares of the permutation that maps position i to (number of keys with smaller digit) + (number of earlier keys with the same digit), modulo 2^32 exact.", "quantifier": "every number of rows, every digit width, every digit vector, every sharing", "why_tests_cant": "the -1 offset and exclusive prefix sums interact for all positions and digits", "anchors": ["secure-join/Sort/RadixSort.cpp: genBitPerm (725-844), aggregateSum (554-625), hadamardSum (230-280)"]}
{"id": "C28", "title": "RadixSort::genPerm yields the stable sorting permutation of the keys", "statement": "For every shared key matrix the shared permutation returned by genPerm, applied to the rows, sorts them by the key interpreted as unsigned integer, stably; it is always a valid permutation.", "quantifier": "every number of rows, every key width (including widths that are not a multiple of the digit size), all keys including duplicates", "why_tests_cant": "multi-round LSD correctness relies on stability of every round; duplicates and leftover digits are special cases", "anchors": ["secure-join/Sort/RadixSort.cpp: genPerm (1095-1229), extract (849-892), sort"]}
{"id": "C29", "title": "Bit injection converts XOR-shared bits to additive shares", "statement": "bitInjection on XOR shares of a bit matrix returns additive shares modulo 2^outBits of each bit.", "quantifier": "every matrix size, all bits, shares, OT messages and choice bits, all output widths", "why_tests_cant": "the update message mixes several modular terms; wrong masks cancel for particular random values", "anchors": ["secure-join/Sort/BitInjection.cpp: bitInjection (64-199)"]}
{"id": "C30", "title": "Shared Hadamard (inner) product sums are correct", "statement": "hadamardSum returns additive shares of sum_j dst[j]*sums[j] in every row given XOR-shared one-hot bits and additive shares.", "quantifier": "all sizes, all values, all shares, all OTs", "why_tests_cant": "cross terms between the two parties must be covered exactly once", "anchors": ["secure-join/Sort/RadixSort.cpp: hadamardSumSend/Recv (73-202), hadamardSum (230-280)"]}
{"id": "C31", "title": "Equality test between adjacent sorted keys compares all key bits", "statement": "The control bit computed for row i is 1 iff the complete key of row i equals the complete key of row i-1.", "quantifier": "every key width and every pair of keys", "why_tests_cant": "the comparison tree drops leftovers for widths that are not powers of two; random keys almost never differ only in the dropped bits", "anchors": ["secure-join/Join/OmJoin.cpp: getControlBitsCircuit (63-111), getControlBits (113-143)"]}
{"id": "C32", "title": "OmJoin returns exactly the join", "statement": "After OmJoin::join the revealed active rows are exactly: for each right row (in order) whose key occurs in the left table (unique keys) one row with the selected columns of the matching left row and of the right row.", "quantifier": "every pair of tables with unique left keys, every select list, all shares and randomness", "why_tests_cant": "end-to-end tests use few tables; the composition of sort, tree duplication, unsort and flag update must be right for every layout of matches", "anchors": ["secure-join/Join/OmJoin.cpp: join (485-611), concatColumns, getOutput, updateActiveFlag"]}
{"id": "C33", "title": "GroupBy returns one active row per group with the group's aggregates", "statement": "After GroupBy the revealed active rows are exactly one per distinct group key among the active input rows, holding the key, the sum of each aggregated column over the active rows of the group and the number of those rows.", "quantifier": "every table, every activity pattern, every key width", "why_tests_cant": "inactive rows whose key equals an active key adjacent in sorted order are needed to trigger the merge", "anchors": ["secure-join/TableOps/GroupBy.cpp: groupBy (332-447), loadKeys (43-83), updateActiveFlag (201-244)"]}
{"id": "C34", "title": "Extract returns exactly the active rows", "statement": "Extract on a shared table returns shares of a table whose rows are a permutation of the active rows of the input (all columns moved together), and reveals nothing but the active flags in permuted order.", "quantifier": "every table, flag pattern, permutation and sharing", "why_tests_cant": "row/column offsets of the packed representation depend on every column width", "anchors": ["secure-join/TableOps/Extract.cpp: apply (28-183), combine (53-79), separate (83-109)"]}
{"id": "C35", "title": "Where keeps data and ANDs the clause into the active flag", "statement": "Where on a shared table returns the same columns and an active flag that is the AND of the old flag and the clause, for every clause and every selection of columns allowed by the interface.", "quantifier": "every table, clause, list of selected columns", "why_tests_cant": "only identity selections are tested", "anchors": ["secure-join/TableOps/Where.cpp: makeWhereClause (8-37), init (39-73), where (75-111)"]}
{"id": "C36", "title": "Where clause compiler implements the documented operators", "statement": "For every expression built from columns, integer/boolean/string/binary literals, =, !=, AND, OR, XOR, +, <, >= accepted by WhereParser::parse, the produced circuit evaluates to the operator semantics on the column values (two's complement for Int).", "quantifier": "every expression, every mix of widths, every value", "why_tests_cant": "minimal-width literals, sign extension and mixed widths give many boundary cases", "anchors": ["secure-join/TableOps/WhereParser.cpp: parse (42-305)", "secure-join/TableOps/WhereParser.h: getBundle (81-102)"]}
{"id": "C37", "title": "Correlation requests are cut into segments that partition them exactly", "statement": "For any history of requests, the segments assigned to a request sum to its rounded size, no two segments (of the same or different requests) of the same correlation type overlap, every segment lies inside its batch, and every batch's size never exceeds the configured limit.", "quantifier": "every batch size allowed by init, every sequence of requests of any sizes and types", "why_tests_cant": "overlap needs a particular history and a batch size that is not a multiple of 128; an overlap reuses secret randomness without changing results", "anchors": ["secure-join/CorGenerator/CorGenerator.cpp: implRequest (52-124)", "secure-join/CorGenerator/CorGenerator.h: request (171-211)"]}
{"id": "C38", "title": "The two parties' correlation segments always line up", "statement": "If both parties issue the same requests in the same order, the i-th get() of a request yields segments of the same size, cut from the same batch at the same offset, with complementary roles at the two parties.", "quantifier": "every sequence of requests, every batch size", "why_tests_cant": "mismatch only shows for particular interleavings of request types", "anchors": ["secure-join/CorGenerator/CorGenerator.cpp: implRequest", "secure-join/CorGenerator/Request.h: get"]}
{"id": "C39", "title": "Every batch is started exactly once, in index order, under every thread interleaving", "statement": "Whatever the interleaving of concurrent start() calls, the start event of each batch with index up to the largest one requested is set exactly once and no other batch's is set.", "quantifier": "all interleavings of any number of threads starting any batches", "why_tests_cant": "race windows are not reproducible in tests", "anchors": ["secure-join/CorGenerator/CorGenerator.h: startBatch (119-134)", "secure-join/CorGenerator/Batch.cpp: start (35-42)"]}
{"id": "C40", "title": "Batch task scheduling never exceeds the concurrency limit and completes all batches", "statement": "GenState::start runs every batch exactly once, never has more than numConcurrent batch tasks live, waits for the task in a slot before re-using the slot, and waits for all of them before finishing.", "quantifier": "every number of batches and every concurrency limit", "why_tests_cant": "index arithmetic with a negative start index; boundary nBatches < numConcurrent", "anchors": ["secure-join/CorGenerator/CorGenerator.cpp: GenState::start (133-336)"]}
{"id": "C41", "title": "Base correlations are handed to the batches that asked for them", "statement": "The base OTs/VOLEs generated for the concatenated requests are dispensed so that each batch receives exactly the entries corresponding to its own request (its choice bits and its send slots), with nothing left over or shared, and asking for more throws.", "quantifier": "every list of batch requests", "why_tests_cant": "offset errors only appear with several heterogeneous batches", "anchors": ["secure-join/CorGenerator/Base.h (44-130)", "secure-join/CorGenerator/CorGenerator.cpp: GenState::start"]}
{"id": "C42", "title": "OLE compression yields valid OLEs", "statement": "The OLE shares produced from correlated OT by the sender and receiver compression satisfy add_s xor add_r = mult_s and mult_r in every bit position.", "quantifier": "every correlated OT vector, every delta, every hash function output", "why_tests_cant": "bit packing across 128-block chunks can be permuted at one party only for particular positions", "anchors": ["secure-join/CorGenerator/BinOleBatch.cpp: compressRecver (262-386), compressSender (389-542)"]}
{"id": "C43", "title": "Trit OT and F4 OT compressions yield valid OTs", "statement": "The receiver's trit (resp. bit) at each position equals the sender's message selected by the receiver's choice (1-of-2 for trits, 1-of-4 for F4), and trits are valid encodings.", "quantifier": "every correlated vector, every delta, every hash output", "why_tests_cant": "same as OLE; and the rejection sampling has rare failing seeds", "anchors": ["secure-join/CorGenerator/TritOtBatch.cpp (387-514)", "secure-join/CorGenerator/F4BitOtBatch.cpp (446-723)"]}
{"id": "C44", "title": "GF(4) arithmetic on packed blocks is the field", "statement": "Multiplication on F4 values and on packed 128-bit blocks is a field multiplication, elementwise and distributive over XOR.", "quantifier": "all F4 elements and all 128-bit blocks", "why_tests_cant": "2^128 blocks", "anchors": ["secure-join/CorGenerator/F4Vole/F4CoeffCtx.h (43-121)"]}
{"id": "C45", "title": "Bit-sliced mod 3 arithmetic", "statement": "mod3Add/mod3Sub in all overloads compute addition/subtraction mod 3 in every lane on valid encodings and return valid encodings.", "quantifier": "all blocks, all lengths", "why_tests_cant": "2^512 inputs", "anchors": ["secure-join/Prf/mod3.h (15-208)"]}
{"id": "C46", "title": "Sampling of trits returns valid uniform-looking trits for every random input", "statement": "Sampling mod-3 values from random bytes always yields a valid trit for every possible random input, and both parties sampling from the same seed get the same value.", "quantifier": "every seed", "why_tests_cant": "the failing seed has probability 2^-64", "anchors": ["secure-join/Prf/mod3.cpp: sample8Mod3 (664-692), sampleMod3Lookup (506-661), tables (17-204)"]}
{"id": "C47", "title": "F2 linear code encoder is the matrix product", "statement": "F2LinearCode::encode(x) and encodeN return G*x over GF(2) for the generator matrix given to init.", "quantifier": "every generator matrix and every input", "why_tests_cant": "2^128 inputs; table generation and lookups must agree for all byte values", "anchors": ["secure-join/Prf/F2LinearCode.h: encode (37-110), encodeN (319-372)", "secure-join/Prf/F2LinearCode.cpp: generateSubcodes (52-91)"]}
{"id": "C48", "title": "F3 accumulate-permute code: fast encoder equals the plain encoder, which equals its matrix", "statement": "The bit-sliced encoder computes in every lane the same value as the scalar encoder, which is the product with the matrix returned by getMatrix and hence linear mod 3.", "quantifier": "every k > n, every list of permutations, every batch size, every input", "why_tests_cant": "batching over columns and in-place updates are wrong only for particular sizes", "anchors": ["secure-join/Prf/F3LinearCode.h (29-182)"]}
{"id": "C49", "title": "Conversion of XOR-shared bits to mod-3 shares", "statement": "ConvertToF3 turns XOR shares of bits into additive mod 3 shares of the same bits for every trit OT correlation and every segmentation of the request.", "quantifier": "all inputs, shares, OTs and segmentations", "why_tests_cant": "two-party algebra over 3 random trits and 4 bits per lane, plus segment boundaries", "anchors": ["secure-join/Prf/ConvertToF3.cpp (8-299)"]}
{"id": "C50", "title": "Key multiplication yields mod-3 shares of x·k", "statement": "AltModKeyMult returns additive mod 3 shares of x times the (possibly XOR-shared) key bit for each key bit and each lane.", "quantifier": "all keys, key shares, inputs (binary or F3 shared), OT seeds", "why_tests_cant": "four code paths selected by key share and input type", "anchors": ["secure-join/Prf/AltModKeyMult.cpp: mult (9-319)"]}
{"id": "C51", "title": "mod-2 protocols convert mod-3 shares of u to XOR shares of (u mod 2)", "statement": "Both mod2 protocols (OLE based and F4-OT based) output XOR shares of the least significant bit of the shared trit in every lane, for every segmentation of the preprocessing; the loops terminate.", "quantifier": "all shares, all correlations, all segmentations", "why_tests_cant": "segment boundaries depend on the generator history", "anchors": ["secure-join/Prf/AltModPrfProto.cpp: mod2Ole (565-820), mod2OtF4 (877-1156)"]}
{"id": "C52", "title": "The AltMod PRF protocol computes the PRF", "statement": "In each supported mode the XOR of the two parties' outputs equals AltModPrf::eval on the (shared) key and the (shared) input.", "quantifier": "all keys, inputs, shares, randomness, any number of evaluations", "why_tests_cant": "composition of five sub-protocols over shares", "anchors": ["secure-join/Prf/AltModPrfProto.cpp: evaluate (97-208, 303-423)", "secure-join/Prf/AltModPrf.cpp: eval (296-331), compressB (71-119), expandInput"]}
{"id": "C53", "title": "Portable SIMD fallbacks equal the hardware instructions", "statement": "The non-SSE implementations of shuffle_epi8, movemask_epi8, etc. return the same result as the SSE instruction they replace.", "quantifier": "all 128-bit inputs", "why_tests_cant": "CI runs on SSE hardware; 2^256 inputs", "anchors": ["secure-join/Util/Simd.h (13-110)"]}
{"id": "C54", "title": "A GMW run hides the other party's wires", "statement": "For every levelled circuit and all wire contents, fixing one party's wires and triples, for any two wire contents of the other party each choice of that party's triples in one run is matched by exactly one choice in the other run under which the first party receives the same messages; it then also sends the same messages and ends in the same state. So its view has the same distribution whatever the other party holds.", "quantifier": "all circuits, widths, wire shares, triples and even segmentations", "why_tests_cant": "a distribution over 2^(128k) triples is compared; a test can only sample single transcripts", "anchors": ["secure-join/GMW/Gmw.cpp: run (225-613), multSend/multRecv (705-856)"]}
{"id": "C55", "title": "The plaintext aggregation tree computes segmented scans", "statement": "For an associative operator, at least two rows and a first control bit 0, PTree::init finishes without an exception or an out-of-bounds access and its prefix, suffix and full arrays hold, for every row, the product from the start of its block, to the end of its block, and over the whole block; so it agrees with AggTree. Its share function returns shares of the data's dimensions whose xor is the data, and the second share takes each value for exactly one choice of the random bits.", "quantifier": "all operators, row counts >= 2 (complete or incomplete trees), values and control bits", "why_tests_cant": "the tests use this class as their reference; nothing tests the reference itself over all sizes and operators", "anchors": ["secure-join/AggTree/PlainAggTree.cpp:62-276", "secure-join/AggTree/PlainAggTree.h:15-28"]}
{"id": "C56", "title": "The integer helpers round, fill and sign extend", "statement": "While x+y does not exceed 2^64, divCeil(x,y) is the least q with q*y >= x; getSign reads the indexed bit; fillInplace with that bit copies it to every bit above the index and keeps the others; for bit < 63 signExtend(val,bit) is the representative of val modulo 2^(bit+1) in [-2^bit, 2^bit). Outside these ranges the exact failure is stated: a wrapped quotient, an out-of-bounds access, a shift by 64.", "quantifier": "all 64-bit arguments, all arrays, all indices", "why_tests_cant": "the wrong cases are overflow of x+y, index at a byte boundary and bit 63, which random tests with small operands never reach", "anchors": ["secure-join/Defines.h:35-82"]}
{"id": "C57", "title": "Inputs set and outputs read through Gmw give the circuit's function", "statement": "If both parties set every input with setInput, setZeroInput or mapInput, optionally map outputs with mapOutput, and run, then no call fails and for every output, every row and every bit the xor of the two parties' getOutput results (and of the mapped matrices) is the circuit's value on the xor of what the parties gave, whatever uninitialised memory held. When run starts every wire has memory of its own. Wrong sizes, unknown indices, double mappings and unset inputs are rejected.", "quantifier": "all row counts n > 0, all circuits with contiguous disjoint input bundles and computed outputs, all element sizes, all ways of giving each input, all contents of uninitialised memory", "why_tests_cant": "the pointer mapping, the transposition and the junk in unmapped wires are only visible for particular combinations of mapped and copied bundles and row counts not divisible by 128", "anchors": ["secure-join/GMW/Gmw.h:92-317", "secure-join/GMW/Gmw.cpp:14-153", "secure-join/GMW/Gmw.cpp:207-613"]}
{"id": "C58", "title": "LowMC: encryption, inversion and the circuit compute the cipher", "statement": "rank_of_Matrix returns the full rank exactly for regular square matrices and invert_Matrix returns a two-sided inverse of each of them. Whatever the bit stream and matrix files, an instance the constructor returns encrypts by the LowMC cipher under round keys that are the products of the key matrices with the key; with invertable set decrypt and encrypt are inverse to each other in both orders, otherwise decrypt throws. set_key gives the instance the constructor would have given. to_enc_circuit computes the same cipher from message and round key wires for every instance whose matrix rows have two ones.", "quantifier": "all numbers of boxes, block, key and round sizes with 3*boxes <= blocksize, all keys, messages, bit streams and matrix files", "why_tests_cant": "the matrices come from a random stream and files; a wrong row operation, rank test or circuit gate is only seen for matrices needing it, and the failing sparse rows never appear in a random instance", "anchors": ["secure-join/Prf/LowMC.h"]}
{"id": "C59", "title": "LowMC permutation correlations: delta ^ B is A permuted, A holds encryptions of distinct points", "statement": "LowMCPermSender::generate and LowMCPermReceiver::generate, run together, return a permutation correlation: the sender keeps its permutation, mDelta[i] ^ mB[i] = mA[pi(i)] for every row, and every byte of mA is the matching byte of the LowMC encryption, under the key the receiver drew, of the point of its row and block. Different blocks of mA are encryptions of different points, so no mask is used twice. A permutation of the wrong size and an uninitialised receiver are refused.", "quantifier": "all numbers of rows, bytes per row, permutations, keys, bit streams, OLE triples, uninitialised memory contents and old contents of the destination, any levelling of the circuit", "why_tests_cant": "the unit test uses one row width of at most one block; that points of wider rows coincide does not make any functional test fail", "anchors": ["secure-join/Perm/LowMCPerm.h", "secure-join/Perm/LowMCPerm.cpp", "secure-join/Prf/LowMC.h", "secure-join/GMW/Gmw.cpp"]}
{"id": "C60", "title": "Silent F4 VOLE: a = b + c*delta with c packed into the low bits, and the F4 bit OTs made from it", "statement": "silentSend against silentReceive on unconfigured objects, with any of the supported codes, end with n entries a[i] = b[i] + c[i]*delta over GF(4) in every element but the lowest, where c[i] is stored in the two low bits of a[i] and is the linear code applied to the sparse vector that has the sampled nonzero values at the PPRF points. sendChosen against receiveChosen give the same with the receiver's chosen c, and the only message sent for it is c masked by the random values. An F4BitOtBatch run of 16k OTs gives the receiver the bit its choice pair selects of the sender's four. Requests beyond the configured size, base correlations of the wrong size, the malicious mode and other codes are refused.", "quantifier": "all sizes, deltas, PPRF expansions, points, base VOLEs, random streams, straight-line linear encoders over plus/mulConst/copy/zero, hash functions", "why_tests_cant": "the unit tests run one size with random delta and compare a handful of entries; that both parties encode packed and unpacked vectors consistently for every encoder and that sizes are checked on both sides is not exercised", "anchors": ["secure-join/CorGenerator/F4Vole/SilentF4VoleSender.h", "secure-join/CorGenerator/F4Vole/SilentF4VoleReceiver.h", "secure-join/CorGenerator/F4Vole/F4CoeffCtx.h", "secure-join/CorGenerator/F4BitOtBatch.cpp"]}
{"id": "C61", "title": "AltMod PRF sessions: init, preprocess, evaluate and clear in any order of sessions", "statement": "For every session with fitting arguments (a positive size, no keys on either side or a key with matching OTs on both), whatever the two objects and their correlation generators did before, both init functions succeed, the parties request the same correlations in mirrored roles (512 key OTs if no key is passed, 512 trit OTs per input padded to 128 for shared inputs, 256 F4 OTs or 512 OLEs per padded input), preprocess succeeds, and evaluate returns shares of the PRF of the joint input under the joint key. After evaluate neither party evaluates again without init. Any number of such sessions may follow one another on the same objects.", "quantifier": "all sizes up to 2^54, key and input modes, keys, OTs, inputs, seeds, batch sizes, earlier requests, lists of sessions, both debug settings, with and without preprocess", "why_tests_cant": "the unit tests run one session on fresh objects with fresh generators; stale requests and key OTs that straddle a batch need particular histories", "anchors": ["secure-join/Prf/AltModPrfProto.h", "secure-join/Prf/AltModPrfProto.cpp", "secure-join/Prf/AltModKeyMult.h", "secure-join/Prf/AltModKeyMult.cpp", "secure-join/Prf/ConvertToF3.h", "secure-join/CorGenerator/Request.h"]}
{"id": "C62", "title": "Correlations reach the request that asked for them", "statement": "When two parties make the same sequence of requests in mirrored roles and the batches hold valid correlations, then in whatever order each party calls get on its requests (none more often than it has segments) no call fails, each call gets exactly its own segment of the batch's output, no position is handed out twice, and what the two parties get for the same segment are valid correlations of its size. A request has at most batchCount() segments. In mock mode, and from correlated OTs or an F4 VOLE in real mode, the batches do hold valid correlations, read as the blocks getCor hands out. The debug check of an OT batch accepts exactly the matching OTs.", "quantifier": "all sequences of requests up to 2^64-256, batch sizes that are multiples of 128, contents of the batches, orders of the calls on both sides, hash functions, both debug settings", "why_tests_cant": "the tests fetch the segments of one request after the other; other orders, the moved choice bits of an OT batch with one segment and the space reserved for segments depend on the history of requests", "anchors": ["secure-join/CorGenerator/Request.h", "secure-join/CorGenerator/Request.cpp", "secure-join/CorGenerator/OtBatch.cpp", "secure-join/CorGenerator/BinOleBatch.cpp", "secure-join/CorGenerator/F4BitOtBatch.cpp", "secure-join/CorGenerator/TritOtBatch.cpp"]}
{"id": "C63", "title": "The generators of the two parties find out when their requests differ", "statement": "With mDebug the two correlation generators exchange their lists of requests at start. For all lists of requests of the two parties the exchange ends, each party then holds the other's list, and both throw if and only if the lists are not the same with the roles exchanged.", "quantifier": "all pairs of lists of requests, all interleavings of the two parties", "why_tests_cant": "tests use matching requests; a deadlock shows up only for lists of particular lengths", "anchors": ["secure-join/CorGenerator/CorGenerator.cpp", "secure-join/CorGenerator/CorGenerator.h"]}
{"id": "C64", "title": "The rounds' permutations are prepared in time and the sort never waits forever", "statement": "The radix sort prepares the permutations of its rounds in tasks beside the sort, at most mPreProLead ahead of it. For every key width, digit size and pair of leads, whether the caller or genPerm itself starts the preparation, and for every order in which the coroutines of the two parties are resumed: the sort returns at both parties after a bounded number of steps, a permutation is used only after it has been generated, and no preparation begins more than mPreProLead ahead. The same holds for the mocked sort and for an object that is initialized and used again.", "quantifier": "all key widths, digit sizes, leads of either party, ways to call, interleavings of all coroutines", "why_tests_cant": "a deadlock depends on the order in which coroutines are resumed and on the number of rounds; tests see one order and create a new object per sort", "anchors": ["secure-join/Sort/RadixSort.cpp", "secure-join/Sort/RadixSort.h", "secure-join/Perm/AltModComposedPerm.cpp", "secure-join/TableOps/GroupBy.cpp", "secure-join/Join/OmJoin.cpp"]}
{"id": "C65", "title": "The messages of the PRF protocol hide the inputs and the key", "statement": "Conversion to F3, the mod 2 step with 1-out-of-4 OTs and with OLEs, in both directions: for every number and size of the segments, every part of the correlations the other party holds and every message it has sent, the correlations of the honest party that fit can be mapped one to one so that the messages for one input become those for any other input of the same length. A row of the key multiplication: the message for one input is that for any other, over the pads if the receiver's key bit is 0, over the sampled trits if it is 1. A whole evaluation with the receiver's input: the messages of the sender for one key are, over its correlations, those for any other key, and the receiver's output is a function of them and of what it holds. All messages of the receiver in that evaluation together, for one input, are those for any other input of the same length: over its correlations of the mod 2 step and over the half of the sampled trits and pads of the key multiplication which the sender does not hold.", "quantifier": "all inputs, keys, segmentations, correlations of the other party, received messages (also wrong ones), batch sizes", "why_tests_cant": "tests check outputs; a value that leaks through a message changes no output", "anchors": ["secure-join/Prf/ConvertToF3.cpp", "secure-join/Prf/AltModPrfProto.cpp", "secure-join/Prf/AltModKeyMult.cpp"]}
{"id": "C66", "title": "The messages of the permutation protocols hide the inputs and the permutations", "statement": "Over one permutation correlation, for every history of applies (both directions, any widths, with and without a sender's input) and derandomizations that fits the correlation: whatever the sender holds, the receiver's parts of the correlation that fit can be mapped one to one so that all messages and outputs the sender gets for one sequence of receiver inputs become those for any other; whatever the receiver holds, the same for the permutations and inputs of the sender, if the correlation is derandomized at most once. Over a composed permutation the same holds for everything party 0 gets with respect to party 1's inputs, shares and permutation, and for everything party 1 gets with respect to those of party 0.", "quantifier": "all numbers of rows, widths, histories, inputs, permutations, correlations of the observing party", "why_tests_cant": "tests check outputs; a permutation that leaks through a message changes no output", "anchors": ["secure-join/Perm/PermCorrelation.cpp", "secure-join/Perm/PermCorrelation.h", "secure-join/Perm/ComposedPerm.cpp", "secure-join/Perm/ComposedPerm.h"]}
{"id": "C67", "title": "The messages of bit injection, hadamardSum and a whole radix round hide both parties' inputs", "statement": "Bit injection: the differences the OT receiver sends are, over its choices, the same for all inputs of one size; the values the OT sender returns are, over the strings the receiver does not hold, the same for all inputs, whatever differences it got. hadamardSum: the same for the bits of the sending party and for the bits and summands of the receiving one. A whole genBitPerm: for every digit width, number of rows and every keys and transfers one party holds, the randomness of the other party can be mapped one to one so that everything the first party sees of the round (its shares of the indicator bits, all OT messages, its share of the result) becomes that for any other keys of the other party.", "quantifier": "all sizes, digit widths, inputs, segmentations of the OT requests, transfers and (for the sender's messages) all differences the observing party holds or sends", "why_tests_cant": "tests compare outputs; a message that depends on a key bit changes no output", "anchors": ["secure-join/Sort/BitInjection.cpp", "secure-join/Sort/RadixSort.cpp", "secure-join/Sort/RadixSort.h"]}
{"id": "C68", "title": "Everything a party sees in a whole radix sort hides the other party's keys", "statement": "genPerm over all its rounds: for every number of rows, bit count, digit width and every keys, permutation correlations and transfers one party holds, the randomness of the other party in all rounds together can be mapped one to one so that everything the first party sees (in each pass the messages of derandomize, of the inverse apply to the digits, of bit injection, hadamardSum and compose, its shares of the permuted digits, of the indicator bits, of the pass's permutation and of the composed one) becomes that for any other keys of the other party. In particular its share of the result tells nothing about the keys.", "quantifier": "all sizes, bit counts, digit widths that sort (C28), keys, composed permutations with at least 9 bytes and transfers of the observing party", "why_tests_cant": "tests compare the sorted output; a digit, a mask or a permutation used twice across rounds leaks keys and changes no output", "anchors": ["secure-join/Sort/RadixSort.cpp", "secure-join/Perm/ComposedPerm.cpp", "secure-join/Perm/PermCorrelation.h"]}
{"id": "C69", "title": "The two builds of the trit sampler agree, and its tables are what their generators print", "statement": "sampleMod3Lookup is built either on AVX2 instructions or on a portable replacement of the vector type. For every key stream and every number of blocks both builds return the same trits and leave the generator at the same position, no debug assertion of the loop fails, no table index is out of range, no signed operation overflows; although the portable operations do not agree with the instructions on all arguments. The lookup tables compiled in are exactly what buildMod3Table and buildMod3Table2 print: the base 3 digits of the index.", "quantifier": "every key stream, start position and length; every lane value and shift amount; every number of digits of the counter", "why_tests_cant": "only one of the two builds is tested on a machine, and only on one seed; the arithmetic shift of the portable type shows only on lanes with the top bit", "anchors": ["secure-join/Prf/mod3.cpp: SampleBlock256 (310-504), sampleMod3Lookup (506-661), buildMod3Table (159-204), buildMod3Table2 (207-308)"]}
{"id": "C70", "title": "What a party sees in a whole join", "statement": "Taking the real sorting protocol and the real composed permutation for the join of two shared tables (OmJoin::join), the run returns the tables of C32, the check of the composed permutation never fails and the bytes requested for it are enough. Without the messages of that check, everything a party receives and computes is the same over the other party's randomness for all tables of the other party with the same schema. The check, however, is called unconditionally and sends the masks of the permutation in the clear: with it, party 1 reads all keys of both tables in order and party 0 reads them in the order of party 1's permutation, so the join does not hide them.", "quantifier": "every number of rows, key width, selection of columns, digit width, all contents of both parties' shares, all randomness that fits what the observer holds", "why_tests_cant": "a test sees the output of a run, which is right; that a message lets a party decode the other one's data is not visible in it, and hiding is about all randomness at once", "anchors": ["secure-join/Join/OmJoin.cpp: join (485-606), perm.validate (546), init (440-470)", "secure-join/Perm/ComposedPerm.h: validate (92-108)", "secure-join/Perm/PermCorrelation.cpp: validate (6-34)"]}
{"id": "C71", "title": "The circuits of the aggregation tree, gate by gate", "statement": "For every operator circuit and multiplexer that do what they document, upstreamCir, downstreamCir and leafCircuit build circuits without reading an undefined wire, writing an input or leaving an output unwritten, and these compute exactly the steps of the aggregation tree on value and bit bundles (the functions of C24), for prefix, suffix and full aggregation. The join's operator (getDupCircuit) keeps its left argument, the group-by's operator (getAddCircuit) adds every column on its own modulo its width. Running any such circuit with Gmw gives shares of the function of the xor of the inputs in every row.", "quantifier": "every bit size, type, operator and multiplexer meeting their contracts, column widths, levelling of the gates, number of rows, all values, correlated randomness and uninitialised memory", "why_tests_cant": "a unit test evaluates a few circuits on a few inputs; temporary wires shared between the prefix and the suffix half and the order of the gates matter for all sizes and values at once", "anchors": ["secure-join/AggTree/AggTree.cpp: upstreamCir (178-281), downstreamCir (375-516), leafCircuit (740-836)", "secure-join/Join/OmJoin.cpp: getDupCircuit (290-301)", "secure-join/TableOps/GroupBy.cpp: getAddCircuit (489-526)", "secure-join/GMW/Gmw.cpp: run"]}
{"id": "C72", "title": "The aggregation tree run by two parties on shares", "statement": "When two parties run AggTree::apply on xor shares of the values and of the control bits, with one Gmw run per level on the way up, one per level on the way down and one for the leaves, it succeeds and their outputs are xor shares of the segmented prefix, suffix or full aggregates of the shared values, whatever is in uninitialised memory. With the join's operator every row receives the value of the first row of its block; the group-by's operator is associative.", "quantifier": "every number of rows from two on, every bit size, type, associative operator with its circuit, multiplexer, levelling of the gates, all shares, correlated randomness and memory contents; for prefix and full the first control bit is 0", "why_tests_cant": "tests run some sizes; the shape of the tree changes at multiples of 16 and at powers of two, and the two parties' matrices go through split, merged and reshaped levels between the runs", "anchors": ["secure-join/AggTree/AggTree.cpp: apply (150-175), upstream (283-373), downstream (519-737), computeLeaf (842-932)", "secure-join/AggTree/Level.h", "secure-join/GMW/Gmw.h: mapInput, mapOutput (141-172)", "secure-join/GMW/Gmw.cpp: run"]}
{"id": "C73", "title": "What a party receives in the whole aggregation tree hides the other's shares", "statement": "In AggTree::apply of two parties, with the messages of all its Gmw runs, the view of each party does not depend on the other party's shares of the rows and the control bits: for any two choices of the other's shares and every choice of its correlated randomness in the first run there is exactly one choice in the second under which the party that looks receives the same messages in every run; it then sends the same messages and ends with the same output shares. The same holds of a single Gmw run through setInput, mapInput, mapOutput and run, including the memory the party ends with.", "quantifier": "either party; every number of rows from two on, bit size, type, associative operator with its circuit, multiplexer, levelling of the gates, all shares, correlations and contents of uninitialised memory; for prefix and full the first control bit is 0", "why_tests_cant": "independence of a view is a statement about all randomness at once, and about the composition of runs whose inputs are outputs of earlier ones; the repository's tests only check the result", "anchors": ["secure-join/AggTree/AggTree.cpp: apply (150-175), upstream (283-373), downstream (519-737), computeLeaf (842-932)", "secure-join/GMW/Gmw.cpp: run, roundFunction (207-613)", "secure-join/GMW/Gmw.h: setInput, mapInput, mapOutput (119-172)"]}
{"id": "C74", "title": "The join, with the runs of its circuits, outputs shares of the join", "statement": "OmJoin::join of two parties, in which the control bits, the duplication of the left rows and the final flags are computed by Gmw and AggTree::apply on the circuits that init builds (and not by the functions they stand for), ends with Ok, behaves like a join in which Gmw's output masks are chosen in some way, and outputs shares of the join: row i of the output has the selected columns of right row i and of the left row with the same key, and its flag tells whether there is one. Opened with the flags removed, the output is the join.", "quantifier": "all table sizes from one row each (and the limits of the 32-bit indices), columns, shares, correlated randomness of the sort, the permutation and all Gmw runs, and uninitialised memory; every levelling of the gates; any multiplexer and one-bit and of the circuit library; keys that differ do so in the first 2^floor(log2 bits) bits (C32: the circuit compares no others) and their bytes have no stray bits; the transposition of an output leaves zeros in the unused bits of a byte", "why_tests_cant": "the tests run a few sizes with random data; whether the circuits, the tree and the bookkeeping of offsets and control bytes fit together for every size, key width and share is not sampled, nor is the dependence on uninitialised padding", "anchors": ["secure-join/Join/OmJoin.cpp: getControlBits (113-143), getDupCircuit (290-301), updateActiveFlag (360-395), init (397-471), join (485-606)", "secure-join/AggTree/AggTree.cpp: apply (150-175)", "secure-join/AggTree/Level.h: setLeafVals (160-290)", "secure-join/GMW/Gmw.cpp: run (207-613)"]}
{"id": "C75", "title": "What a party sees in the whole join, circuits included, hides the other party's tables once validate is left out", "statement": "In OmJoin::join with the runs of its circuits (C74), without the call of validate, everything a party sees - every message of the sort, of derandomize and the two permutations, of every Gmw run for the control bits, the aggregation tree and the flags, all its shares in between and its output table - is as likely for one set of shares of the other party's tables as for any other with the same schema: there is a one-to-one pairing of the other party's randomness and correlations for the two that leaves the view unchanged. With validate, as the code has it, both parties read all keys from the same run.", "quantifier": "all table sizes, columns and shares; all randomness of the party that looks; all correlated randomness and correlations of the other party that fit it; all levellings of the gates; any multiplexer and one-bit and of the circuit library; uninitialised memory of blocks", "why_tests_cant": "a test sees one run; that the distribution of a whole transcript does not depend on the other party's shares is a statement about all runs, and a message that is masked twice with the same correlation or sent unmasked leaves every output correct", "anchors": ["secure-join/Join/OmJoin.cpp: getControlBits (113-143), updateActiveFlag (360-395), join (485-606)", "secure-join/AggTree/AggTree.cpp: apply (150-175), upstream (284-518), downstream (519-841), computeLeaf (842-932)", "secure-join/GMW/Gmw.cpp: run (207-613)", "secure-join/Perm/ComposedPerm.cpp: derandomize (44-115)", "secure-join/Perm/ComposedPerm.h: validate (92-105)"]}
{"id": "C76", "title": "Opening a shared table over the socket gives the table and shows nothing else", "statement": "revealRemote of one party and revealLocal of the other end with the table whose rows and flags are the xor of the two shares, having taken exactly the messages sent; the messages are a function of the receiver's share and that table. If only the receiver has flags it waits for ever; if only the sender has, the receiver takes all rows for active and the flags stay in the socket; tables of different length end in an exception.", "quantifier": "all tables with at least one row and columns of at least one bit and different names, all shares, any further messages in the socket, whatever the socket does with empty messages", "why_tests_cant": "the only test that calls the two functions is commented out", "anchors": ["secure-join/Join/Table.cpp: revealLocal (320-337), revealRemote (340-353)", "secure-join/Util/Util.h: reveal (251-290)"]}
{"id": "C77", "title": "A join that is opened shows the party that gets the output no more than the join, once validate is left out", "statement": "The parties run OmJoin::join with its circuits and open the output to one of them: that party gets all right rows with the columns of the left row with the same key, and flags that say which have one. Without validate, all it sees of the join and of the opening together is as likely for one set of shares of the other party as for any other that leads to the same join.", "quantifier": "all table sizes, columns and shares; all randomness of the party that looks; all randomness and correlations of the other party that fit it; either party as the one that gets the output", "why_tests_cant": "a test compares outputs; that nothing but the output can be learnt from the transcript is a statement about the distribution over all runs", "anchors": ["secure-join/Join/OmJoin.cpp: join (485-606)", "secure-join/Join/Table.cpp: revealLocal (320-337), revealRemote (340-353)"]}
{"id": "C78", "title": "Where with the run of its circuit outputs shares of the filtered table and its messages show nothing", "statement": "Where::where, with setInput, the run of the circuit and getOutput on the two parties' shares: with the columns in order the run returns, the columns are unchanged, and the shares of the new flags add up to the old flag and the value of the clause. What a party sees, its output and all messages, is as likely for one share of the other party as for any other; if the output is opened to it, as for any other that leads to the same table. The opened table still holds the rows that do not meet the clause.", "quantifier": "all row counts, columns, clauses that Gmw can run, levellings of the circuit, shares, uninitialised memory, bits past the last row and correlations that fit; either party as the one that looks", "why_tests_cant": "the tests compare the opened output of one run per clause with fresh random shares; neither all memory contents nor the distribution of the messages can be tested", "anchors": ["secure-join/TableOps/Where.cpp: init (39-73), where (75-105), makeWhereClause", "secure-join/GMW/Gmw.h: setInput, getOutput (121-134, 192-198)", "secure-join/GMW/Gmw.cpp: run", "secure-join/Join/Table.cpp: revealLocal (320-337), revealRemote (340-353)"]}
{"id": "C79", "title": "Group by with the runs of its circuits outputs shares of the grouped sums", "statement": "GroupBy::groupBy with the Gmw runs of the control bits and of the flags and with the aggregation tree that runs the adders of getAddCircuit: for two or more rows, aggregated columns of whole bytes and keys that the compared bits tell apart (the conditions of C33), every run returns, and the two output tables are shares of the table with one active row per key of the active rows. Opened without the inactive rows it has, per key, the sums modulo the column widths and the number of the active rows.", "quantifier": "all row counts, columns, keys, flags, shares, multiplexers and adders that compute what they should, levellings of the circuits, uninitialised memory and correlations that fit; the shares of the sorted and of the permuted rows are arbitrary", "why_tests_cant": "the group by tests are skipped in the code, and a test fixes sizes, one adder, one levelling and the contents of the memory", "anchors": ["secure-join/TableOps/GroupBy.cpp: updateActiveFlag (201-216), updateActiveFlagCir (219-244), init (300-318), groupBy (332-441), getAddCircuit (489-526), getControlBits (528-553)", "secure-join/AggTree/AggTree.cpp: apply", "secure-join/GMW/Gmw.cpp: run"]}
{"id": "C80", "title": "The messages of the circuits of the whole group by hide the other party's columns", "statement": "In a GroupBy::groupBy run by the Gmw and AggTree circuits, everything one party receives in the openings of the control bits, of the aggregation tree and of the flags, with its shares of the sorted rows, control bits, sums, flags and the rows permuted back and its output table, is as likely for any other columns of the other party that have the same shape: the randomness of the two executions can be paired one to one so that the views are equal.", "quantifier": "all row counts of two or more, columns, keys, flags and shares of either party, libraries and levellings that fit, uninitialised memory of both parties; the randomness is the sharing of the two permutation outputs and the other party's correlations", "why_tests_cant": "secrecy is a statement about the distribution of what a party sees, over all inputs of the other party; a run shows one view", "anchors": ["secure-join/TableOps/GroupBy.cpp: updateActiveFlag (201-216), groupBy (332-441), getControlBits (528-553)", "secure-join/AggTree/AggTree.cpp: apply", "secure-join/GMW/Gmw.cpp: run, multSend, multRecv"]}
{"id": "C81", "title": "A group by whose output is opened shows the receiver no more than the opened table", "statement": "GroupBy::groupBy with its circuits, followed by revealRemote of one party and revealLocal of the other: the receiver gets the table of all rows, each with its key and the sums and the number of the rows from it on with its key and flag. What it sees of the group by's circuits and of the opening is as likely for all columns of the other party that lead to the same opened table. That it sees no more than the grouped sums (the rows that remain after the inactive ones are dropped) is false: the sums of rows behind the first of a key are opened too.", "quantifier": "all row counts of two or more, columns, keys, flags and shares under the conditions of C79, libraries and levellings that fit, uninitialised memory, randomness and correlations that fit; both parties as receiver", "why_tests_cant": "secrecy compares the distributions of views for different inputs of the other party; no test opens a group by with the remote reveal", "anchors": ["secure-join/TableOps/GroupBy.cpp: groupBy (332-441), getOutput (450-487)", "secure-join/Join/Table.cpp: revealLocal (320-337), revealRemote (340-353)"]}
