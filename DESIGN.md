# Formal model of Visa-Research/secure-join

The properties are in `properties.jsonl` (ids C01, C02, ...). The model and the
proofs are in `rocq/theories` (Coq 8.16.1, logical name `Verif`). `MANIFEST.json`
maps each property to the theorems that carry it.

## 1. How the development is organised

* `<Area>Model.v` — executable Gallina definitions only, one per C++ function
  (or per self-contained loop of one). Each definition carries a comment citing
  the file and lines in /repo it models and, where it simplifies, what it drops.
* `<Area>Spec.v` (or a "Specification" section at the top of the proof file) —
  the small specification the property is stated against. It never uses the
  model's helpers.
* `<Area>Proofs.v` — lemmas.
* `Props<Area>.v` — only the property theorems (each `exact lemma.`), a
  `Print Assumptions` under each, and next to each theorem an `Example` showing
  a concrete non-trivial instance of its hypotheses.

Names: `..._partial` marks a theorem that covers only part of a property,
`..._refuted` marks a counterexample to the property in the faithful model
(a finding), always with a computed witness.

`seeded/LOG.jsonl` has one line per wrong program that was tried. A line with an empty
`failed` list is one that no theorem rejected. Up to C77 the theorems of a property file
that imports another property file were not all counted, so `failed` may be too short there (never too long).

### Modelling conventions

* Containers are lists, indices and lengths are `nat`, machine words and packed
  bit blocks are `N` (or `Z` where signs matter). Wrap-around is written
  explicitly (`mod 2^32`, `mod 2^64`) wherever the code relies on it or a
  property is about it.
* Exceptions, out-of-bounds accesses / undefined behaviour and non-termination
  are distinct outcomes (`Throw`, `UB`, `Hang`/out of fuel), never defaults.
* Randomness is an explicit input (a stream, a list of words, or a function)
  that theorems quantify over universally.
* A two-party protocol is modelled as the two parties' local functions plus the
  messages they exchange; message sizes are compared in the framing properties.
* Cryptographic primitives (AES, fixed-key hash, PRNG, silent OT/VOLE from
  libOTe) are universally quantified functions or relations; the algebraic
  relation they deliver (e.g. `B xor A = c*delta`) is a hypothesis of the
  theorem. No secrecy/indistinguishability statement is proved except the ones
  that are deterministic (masks used at most once, openings listed).

## 2. Plan per property

| id | what is modelled | how it is proved |
|----|------------------|------------------|
| C01 | `Perm::apply`, both directions, with the 8-way unrolled main loop and the remainder loop over an array store with bounds-checked writes | loop invariant over the unrolled iterations, lifted to every n; round trips from NoDup/range of the permutation |
| C02 | `compose`, `inverse`, identity constructor | pointwise reasoning on `nth` |
| C03 | `randomize` as a fold over a stream of 32-bit words | invariant "permutation of 0..n-1" over swaps; reachability by constructing the stream by induction |
| C04 | `validate` loop with its `std::vector` of flags | both directions by induction over the loop |
| C05, C06 | `PermCorSender/Receiver` records, `apply`, `derandomize`, `corSize` with u64 wrap | state machine with an operation list, invariant + output correctness over all histories; stale-offset refutation |
| C07 | `ComposedPerm` two-party apply, derandomize, compose | from C05 lemmas, both parties' programs side by side |
| C08 | `AltModPermGen*::generate` index arithmetic | pointwise on bytes with an abstract PRF |
| C09 | `share`, `reveal` for matrices and tables | bitwise identities on bytes with the last-byte mask |
| C10 | `trimImpl`, `areEqualImpl` byte loops | testbit characterisation for every width |
| C11 | byte-level `writeBin`/`readBin` including stream failure semantics | round trip by induction over columns; truncation refutation |
| C12 | character-level `writeCSV`/`readCSV` | round trip with printable guards |
| C13 | `hex`, `fromHex` | finite sweep over bytes lifted by induction |
| C14 | `Table::sort`, `lessThan`, stable_sort as the unique stable sort | LSD argument |
| C15 | `extractActive` compaction loop | equals `filter` |
| C16, C17 | plaintext `join`, `average` | loop invariants against declarative specs; refutations for duplicates / inactive rows |
| C18 | `Table::where` with bounds-checked memory | refutation (out-of-bounds for every input with rows) |
| C19 | plain circuit semantics; the two parties' gate evaluation with OLE triples, inversion masks | induction over the gate list, per-gate algebra by bit cases |
| C20 | triple loading loop of `Gmw::run` over arbitrary segment lists | termination and correctness for even segments; livelock refutation for odd |
| C21 | send/recv loop chunking | list equality of message sizes |
| C22 | `isZeroCircuit` generator evaluated on the circuit semantics | invariant over tree levels, every width |
| C23 | `evaluate` wire renumbering | simulation |
| C24, C25 | `Level.h` sizes, upstream/downstream/leaf passes | segmented monoid homomorphism over levels |
| C26 | mask/shift rounds on 64-bit words and list version | bit position permutation by sweep, lifted |
| C27, C28 | `aggregateSum`, `genBitPerm`, `genPerm` | counting-sort characterisation, LSD stability |
| C29, C30 | OT based multiplication | modular algebra |
| C31 | `getControlBitsCircuit` | circuit evaluation = equality of the low 2^k bits; refutation otherwise |
| C32 | plaintext functional skeleton of `OmJoin::join` on top of proved building blocks | sorting/run argument |
| C33 | same for `GroupBy` | same; refutation of the width corner case |
| C34 | `combine`, permutation, opening, `separate` | permutation of filter |
| C35 | `makeWhereClause`, `Where::where` checks | conjunction; refutation for proper selections |
| C36 | `WhereParser::parse` compiled to an expression semantics | per-operator two's complement lemmas |
| C37, C38 | `implRequest` allocation loop as a state machine | invariant over request histories |
| C39 | `startBatch` CAS loop as a small-step interleaving semantics | inductive invariant over all schedules |
| C40 | `GenState::start` loop | trace properties by induction |
| C41 | `BaseRequest` concatenation, `BaseCor::get` | list slicing |
| C42, C43 | compress loops including bit packing | pointwise algebra with abstract hash |
| C44 | F4 arithmetic | bitwise lemmas |
| C45 | all `mod3Add/Sub` overloads | per-bit sweep lifted with `N.bits_inj` |
| C46 | `sample8Mod3`, lookup tables | testbit reasoning, refutation for the all-ones seed, table sweep |
| C47 | `generateSubcodes`, `encode`, `encodeN` | xor algebra |
| C48 | scalar and bit-sliced encoders, `getMatrix` | linear-map argument |
| C49-C52 | protocol code of the AltMod PRF | per-lane algebra, composition |
| C53 | fallback definitions | refutations and equalities |
| C54 | `Gmw::run` as in C19 | messages are one-time padded; loading is a bijection; induction over rounds |
| C55 | `PTree::init`, `leaves`, `share` | the tree proofs of C24 reused per array; share by one-time pad |
| C56 | `Defines.h` helpers | bit extensionality; modular arithmetic on Z |
| C57 | `Gmw` members `init`, `setInput`, `setZeroInput`, `mapInput`, `mapOutput`, `getOutput`, `getMemView`, `map`, `finalizeMapping` around `run` | invariant: every mapped wire has a row of its own; C19 in between; gates never read unset wires |
| C58 | `LowMC2`: substitution, matrices, rank, inversion, key schedule, files, circuit | elimination invariant on kernels and row operations; bitwise description of products; gates wire by wire |
| C59 | `LowMCPermSender/Receiver::generate` together, over the GMW of C57 and the cipher of C58 | the set up calls are the input list of C57; the circuit of C58 lane by lane; bytes from bits |
| C60 | `SilentF4VoleSender/Receiver`: silent, chosen, and as an `F4BitOtBatch` | the encoder as a straight line program of field operations; one step keeps a = b + c*delta and tracks c; then C43 |
| C61 | `AltModWPrfSender/Receiver`: init, setKeyOts, preprocess, clear, evaluate over several sessions | the requests by C38, the segments delivered by a contract, then C52 from any earlier state; induction over the sessions |
| C62 | `Batch::getCor`, `Request::get`, `batchCount`, the outputs of the batches' tasks | invariant over the calls of get (tiling from C37), parts of matching outputs match; the session theorem of C61 on batches |
| C63 | `GenState::start` with `mDebug`: exchange and comparison of the requests | invariant over all interleavings of the two parties; the reused loop counter is a finding |
| C64 | `RadixSort::init`, `genPrePerm`, `preGenPerm`, the waiting in `genPerm` | invariant and decreasing measure over all interleavings of the coroutines of both parties; the mocked sort and the reused object are findings |
| C65 | messages of `ConvertToF3*::convert`, `mod2OtF4`, `mod2Ole`, `AltModKeyMult*::mult`, and of `evaluate` for the receiver's input | explicit bijections of the honest party's correlations position by position, lifted over the segments; words of 128 bits through the whole run; for the input a bijection of the rows' trits and pads followed by one of the correlations that depends on it |
| C66 | messages of `PermCorSender/Receiver::apply` and `derandomize` and of `ComposedPerm::apply` and `derandomize` over whole histories | induction over two histories that agree for the observer; the honest party's mask matrix is shifted column by column by what the histories ask for and its permutation turned at the one derandomization; the shift depends on the permutation only |
| C67 | messages of `BitInject::bitInjection`, `hadamardSumSend/Recv` and of a whole `genBitPerm` | two runs related outcome by outcome; the choice bits are flipped where the inputs differ, the string the receiver does not hold is shifted by the difference of the opened values modulo 2^32; the share of the permutation is shifted by the two sorting permutations, which are unique (C28) |
| C68 | everything a party sees of `RadixSort::genPerm`, all rounds | composition of C66 and C67 by an explicit recursion over the passes: the other party's share of the permuted digits is forced by the value (C07) and by the observer's share, so the round's bijection and the bijection of the composed permutation can be run one after the other; both are undone the same way
| C69 | `SampleBlock256` (both builds), `sampleMod3Lookup` on vectors, `buildMod3Table`, `buildMod3Table2` | the vector loop is run in functional form (a vector is a function of the lane) and shown equal to the lane model of C46; the printers by an invariant of the carry loop for any number of digits, and by computation for the tables |
| C70 | everything a party sees of `OmJoin::join` | the sort (C68) and the composed permutation (C66) with explicit bijections between the randomness for two tables, chained through the circuits' shares; the leak by an explicit decoder: the masks of `validate` undo the masks of the first permutation |
| C71 | the circuits of the aggregation tree | each builder call appends a fragment with its own wires; an invariant (defined wires, untouched inputs) is carried through the calls and the values follow by frame lemmas; the run is C57 |
| C72 | the aggregation tree on shares | a three-place relation (share, share, value) is preserved by every step that moves rows and by every Gmw run (C71); the values follow the tree of C24, so the outputs are shares of the segmented scans |
| C73 | what a party receives in the whole aggregation tree hides the other's shares | a protocol hides if for two starts that agree on the looking party's side each randomness of the other has exactly one counterpart with the same messages and the same end of that party; this composes along steps, holds of a Gmw run on prepared inputs (C54), and of local steps; so it holds of the levels up, down and the leaves |
| C74 | the join, with the runs of its circuits, outputs shares of the join | each run returns shares of the circuit's value (C54, C71, C72), so the run equals the masked chain of C70 with the masks read off party 0's output; hence C32 applies. The bytes of the control bits and of the flags are whole bytes of the outputs, so their unused bits must be zero |
| C75 | the whole join's messages, circuits included, hide the other party's tables without `validate`; with it both parties read the keys | the shares that each Gmw run returns determine, with the other party's shares, one correlation that explains the messages (C54, C73); C70's bijection of the randomness carries the shares over, so the two together pair the randomness. `C75_counts` says what the pairing means: each set of views has the same number of random choices |
| C76 | opening a table over the socket: the table, and nothing else | the received columns are the sender's, so `reveal` (C09) applies; the messages are one's own share xored with the table |
| C77 | a join that is opened shows no more than the join, without `validate` | C75's pairing, and C76: the messages of the opening follow from the output share, which is in the view, and the join (C74) |
| C78 | `Where::where` with its run: shares of the filtered table, messages show nothing | the run of C57 on the circuit of C35, whose gates are those of the clause with the wires renamed; pairing as in C73; opening by C76 |
| C79 | `GroupBy::groupBy`, with the runs of its circuits, outputs shares of the grouped sums | as C74: the runs return shares of the circuits' values (C54, C71 with the adder, C72), and the rows of bits that the tree adds are the numbers that `gb_run` adds; hence C33 applies with the masks read off party 0's outputs |
| C80 | What a party receives in the circuits of `GroupBy::groupBy`, with all its shares on the way, hides the other party's columns | as C75: a pairing of the randomness, moved through the stages (the sharing of the sorted rows absorbs the difference of the inputs, the correlations those of the openings, the sharing of the rows permuted back the rest). The messages of the sort and of the permutations are not in the view: they have their own statements, and here only their outputs are freshly shared |
| C81 | A group by whose output is opened shows the receiver no more than the opened table | as C77: the messages of the opening are a function of the receiver's own output share and the opened table, so the pairing of C80 is kept; that only the grouped sums are shown is refuted by two inputs with the same sums; with all rows active every value is a difference of opened sums (induction from the last row) |

## 3. Trusted base

* Coq 8.16.1 kernel (including `vm_compute`).
* The axioms reported by `Print Assumptions` below every theorem (see section 5).
* The reading of the C++ code embodied in the `*Model.v` files, cited line by line.
* Everything listed as "not modelled" in section 4.

## 4. What is modelled and what is not

### Modelled, by model file

Paths are relative to `/repo/secure-join`. Every definition in the file carries the exact lines.

| model | code | simplifications |
|-------|------|-----------------|
| `Base.v`, `Words.v` | outcomes, arrays with bounds checks, loops; bit and word helpers | allocation never fails |
| `PermModel.v` | `Perm/Permutation.h`: constructors, `apply`, `applyInv`, `compose`, `inverse`, `randomize`, `validate` | u32 entries as `nat` below 2^32 (the assert); the PRNG is a stream of words |
| `PermCorModel.v` | `Perm/PermCorrelation.{h,cpp}`, `Perm/ComposedPerm.{h,cpp}`, `Perm/AltModPerm.cpp` (generation) | sockets as message lists; the timing code and `mDebug` output are left out |
| `TableModel.v` | `Util/Matrix.h` (`BinMatrix`), `Util/Util.h` (`share`, `reveal`), `Util/Trim.*`, `Join/Table.{h,cpp}` (`init`, `==`, `sort`, `extractActive`, `permute`, `share`) | a matrix is a list of rows whose stride is its number of byte columns; `resize` keeps the flat prefix and zeroes the rest |
| `TableIOModel.v` | `Table::writeBin/readBin/writeCSV/readCSV`, `hex`/`fromHex` in `Defines.h` | streams as byte lists with the failure behaviour of the C++ standard; `std::stoll`, `std::to_string`, `std::getline` per the standard |
| `TableOpsModel.v` | plaintext `join`, `average`, `where` in `Join/Table.cpp` | the adder of the circuit library is addition modulo 2^bits |
| `GmwModel.v`, `ShuffleModel.v` | `GMW/Gmw.cpp` `run`, `multSend*`, `multRecv*`, triple loading, chunking; `GMW/Circuit.cpp`; `AggTree/PerfectShuffle.h` | the levelled circuit is an input; levelization, wire flags and gate folding are cryptoTools behaviour taken from its documentation |
| `GmwIoModel.v` | `GMW/Gmw.h` and `Gmw.cpp`: the input and output side | pointers are (matrix, row) pairs; a mapped matrix has exactly the stride `run` uses and is not shared between bundles; what `transpose` leaves in padding bits and what uninitialised memory holds is arbitrary; the state after a thrown exception is not modelled |
| `AggModel.v` | `AggTree/Level.h`, `AggTree/AggTree.cpp` | plaintext values per wire bundle (the GMW runs are covered by C19) |
| `PlainAggModel.v` | `AggTree/PlainAggTree.{h,cpp}`: `init`, `leaves`, `share` | values of an arbitrary type with an arbitrary operator |
| `DefinesModel.v` | `Defines.h`: `divCeil`, `getSign`, `fillInplace`, `signExtend` | an i64 is an integer |
| `BitInjModel.v`, `RadixModel.v` | `Sort/BitInjection.cpp`, `Sort/RadixSort.cpp` (`hadamardSum*`, `genValMasks2`, `aggregateSum`, `genBitPerm`, `extract`, `genPerm`, `mockSort`) | a GMW run is replaced by arbitrary xor shares of its result; debug checks left out; the scheduling is in `PrePermModel.v` |
| `OmJoinModel.v` | `Join/OmJoin.cpp`: control bit circuit, `concatColumns`, `updateActiveFlag`, `getOutput`, `join` | sub-protocols by the functionality proved for them with arbitrary masks; `LinearCode::encode` is an arbitrary function `enc`; the printing code is left out |
| `ExtractModel.v`, `WhereModel.v`, `GroupByModel.v` | `TableOps/Extract.cpp`, `Where.cpp`, `GroupBy.cpp` | as for OmJoin |
| `ParserModel.v` | `TableOps/WhereParser.cpp` | the builders of `BetaLibrary` by their documented function; calling one with different or zero sizes is UB |
| `CorGenModel.v` | `CorGenerator/CorGenerator.{h,cpp}`, `Batch.cpp`, `Base.{h,cpp}`, `Request.h` | base OT/VOLE protocols are an abstract relation; executors only as "any interleaving" |
| `CompressModel.v`, `GF4Model.v`, `SimdModel.v` | `compressSender/compressRecver` and mocks of `BinOleBatch.cpp`, `TritOtBatch.cpp`, `F4BitOtBatch.cpp`; `F4Vole/F4CoeffCtx.h`; `Util/Simd.h` | the hash is a parameter; silent OT/VOLE deliver their correlation by hypothesis |
| `Mod3Model.v`, `F2CodeModel.v`, `F3CodeModel.v` | `Prf/mod3.{h,cpp}`, `Prf/F2LinearCode.h`, `Prf/F3LinearCode.h` | AES key streams are arbitrary |
| `LowMCModel.v` | `Prf/LowMC.h` | rejection sampling has fuel (`Hang`); the file system is a function from the round to the file's text; the LFSR that feeds the random bits is an arbitrary bit stream |
| `LowMCPermModel.v` | `Perm/LowMCPerm.h`, `Perm/LowMCPerm.cpp` | `levelByAndDepth` is library code, so the levels are an argument that computes what the circuit computes; sizeof of a bitset is its bits over 8 (it is 32 for the 256 bits used) |
| `SilentVoleModel.v` | `CorGenerator/F4Vole/SilentF4VoleSender.h`, `SilentF4VoleReceiver.h`, the task and base functions of `F4BitOtBatch.cpp` | libOTe (parameters of the code, PPRF, base OTs, noisy VOLE, ExConv and Tungsten) is a set of parameters with a contract; temporary cells of the encoder start at zero; `checkRT` and `mDebug` left out |
| `SessionModel.v` | `Prf/AltModPrfProto.cpp` around the protocol of `PrfModel.v` (init, setKeyOts, preprocess, clear, the tests of evaluate), `AltModKeyMult.h`, the requests of `ConvertToF3.h`, `Request.h` | what a batch delivers is a function of the segment; both parties' evaluate is one function; PRNG states after an evaluate are not kept; `setTimer`, `mDebug` left out |
| `DeliverModel.v` | `Batch::getCor` of the four batch types, `Request::get`, `batchCount`, the mock tasks, the vectors of the real tasks read as blocks, the debug comparisons of `OtBatch.cpp` and `CorGenerator.cpp` | tasks are finished when get is called; what one party sends arrives unchanged; printing left out; an exception of one party does not wake the other |
| `PrePermModel.v` | `RadixSort::init`, `genPrePerm`, `Round::preGenPerm`, control flow of `genPerm`, how `OmJoin` and `GroupBy` call them | a sub-protocol ends once both parties are in it; what it computes is in `RadixModel.v`; `fork` of sockets and generators left out |
| `PrfViewModel.v` | the messages of the sender in `evaluate`, the receiver's `evaluate` as a function of them, a row of the key multiplication and all messages of the receiver as a function of trits and pads | built from `PrfModel.v` and `KeyMultModel.v` |
| `PermViewModel.v` | the messages and outputs each party gets over a history of operations on a permutation correlation and on a composed permutation | built from `PermCorModel.v` |
| `SortViewModel.v` | the messages of `bitInjection`, `hadamardSum` and `genBitPerm` and what each party sees of a round; of a Gmw run a party sees its output share | built from `BitInjModel.v` and `RadixModel.v` |
| `GenPermViewModel.v` | the messages of the whole `genPerm` and what each party sees of them | built from `PermViewModel.v` and `SortViewModel.v` |
| `Mod3SimdModel.v` | `Prf/mod3.cpp`: `SampleBlock256` with and without `ENABLE_SSE`, the sampling loop with its assertions, the table printers | a vector is a list of eight 32-bit lanes; the statements of one `j` are done together; the text around the printed numbers is left out; `>>` of a negative `i32` is the arithmetic shift (C++20) |
| `JoinViewModel.v` | `OmJoin::join` with the messages of the sort, of `ComposedPerm::validate`, `derandomize` and both `apply`s, and what each party sees | the circuits (control bits, aggregation tree, flags) return fresh shares, as in `OmJoinModel.v`; their messages are those of C54 |
| `AggCirModel.v` | `upstreamCir`, `downstreamCir`, `leafCircuit`, `OmJoin::getDupCircuit`, `GroupBy::getAddCircuit` gate by gate | the methods of `oc::BetaCircuit` take the next wires and append gates; `multiplex_build` and `add_build` are parameters with a contract; printing left out |
| `AggTwoModel.v` | `AggTree::apply` by two parties: `upstream`, `downstream`, `computeLeaf` on the levels of each party, the Gmw runs as parameters | one row of every mapped matrix is a lane; the number of rows is the same for both parties |
| `AggRunModel.v` | the Gmw runs of the tree: `mapInput`, `mapOutput`, `getOutput` on the matrices of the levels | rows of mapped matrices are kept to the `mN128` blocks Gmw uses (the tree's rows can be longer through alignment and `reshape`) |
| `AggViewModel.v` | the tree of `AggRunModel.v` with the messages of its runs | the tapes are lists in order of use; without the messages it is the same protocol (C73_same) |
| `JoinRunModel.v` | `OmJoin::join` with the runs of `Gmw` for the control bits and flags and of `AggTree` for the duplication | the shares' permutations and the sort are as in `JoinViewModel.v`; `int_int_bitwiseAnd(1,1,1)` and the multiplexer are parameters of which `lib_ok` is assumed; the tree works on whole rows (see `OmJoinModel.v`) |
| `TableOpenModel.v` | `Table::revealRemote`, `Table::revealLocal` | the socket is a list of messages; a buffer of fixed size throws on a message of another size, a vector is resized, as coproto documents; what coproto does with an empty message is a parameter |
| `WhereRunModel.v` | `Where::where` with the run of its circuit and its messages | the input of the flags is set last instead of first; without the removal of inactive rows, which is C34 |
| `GroupByRunModel.v` | `GroupBy::groupBy` with the runs of `getControlBits`, `mAggTree.apply` with `getAddCircuit`, `updateActiveFlag` | sort and the two permutations as in `GroupByModel.v` (an arbitrary share of party 0); `multiplex_build` and `add_build` are parameters with a contract; removal of inactive rows and printing left out |
| `GroupByMsgModel.v` | `GroupBy::groupBy` as in `GroupByRunModel.v`, recording what each party holds on the way | C80_same: the same run |
| `ConvModel.v`, `KeyMultModel.v`, `PrfModel.v` | `Prf/ConvertToF3.cpp`, `Prf/AltModKeyMult.cpp`, `Prf/AltModPrf.cpp`, `Prf/AltModPrfProto.cpp` | linear input expansion only; `mDebug` comparisons left out |

### Assumptions about code outside /repo

* `oc::Matrix::resize` keeps the flat prefix and zeroes the new part. `oc::BitVector`,
  `oc::BitIterator`, `oc::transpose128` do what their documentation says.
* `BetaLibrary` builders compute their documented function (in C71: append gates that read only the arguments and new wires). `levelByAndDepth` keeps
  the function of the circuit. `addConst` takes a new wire.
* The logarithms taken in double precision are exact for the sizes involved.
* A coproto receive of a span fails when the message has another size.
* Privacy theorems compare views by bijections on the correlated randomness. That this
  randomness is uniform is the guarantee of libOTe's generators.
* A failing `assert` is undefined behaviour (`UB`), as is running past a row.
* Distinct wires of a circuit are distinct memory (proved in C57 for `Gmw` itself). Threads only interleave at the atomic operations.

### Not modelled

* Paillier permutations (`Perm/PaillierPerm*`), `Perm/PprfPermGen*`, `Perm/InsecurePerm*`.
* libOTe (its PPRF, codes and base protocols; see C60 for the silent VOLE around them), cryptoTools, coproto, macoro.
* `Join/OoJoin*` (its init always throws), `Sort/QuickSort*`, `Prf/AltModWPrf.cpp` (not compiled).
* Timers, printing code, and `mDebug` code except for the comparisons of C62 and C63.
* `Table::populateOutTable` for `BinMatrix`, the frontend and the tests.
* Secrecy in the computational sense. Only deterministic facts about views are proved
  (masks used once, exactly which values are opened, a unique mask explains a view in C34, bijections or pairings of the randomness in C65 to C70, C73, C75, C77, C78, C80 and C81); the correlations are those of an ideal generator.

## 5. Print Assumptions

`Print Assumptions` answers "Closed under the global context" for each of the
472 theorems named in `MANIFEST.json`: no axiom is used, neither
from the standard library nor own. The checker lists seven constants of
`Coq.ssr.ssrunder` among the library's axioms; they belong to a module signature
that the standard library loads, and no theorem here depends on them.

## 6. Findings

Statements that are false of the code as it stands. Each has a theorem with a
computed or general counterexample, except those marked "by reading".

### Undefined behaviour and out-of-bounds accesses
* `Table::where` (Table.cpp:357-392) throws or writes out of bounds on every input with rows: `C18_never_refuted`, `C18_out_of_bounds`.
* `computeTreeSizes` writes out of bounds for one row: `C25_one_row_refuted`; through it `C33_one_row_refuted`.
* `BitInject` overruns its packed buffer for output widths up to 24 and shifts too far for 31 and above 32: `C29_narrow_refuted`, `C29_mask_refuted`.
* `RadixSort::extract` with no rows wraps `rows - 1`: `C28_no_rows_refuted`. `OmJoin` with an empty table converts `log2(0)`: `C32_no_rows_refuted`.
* `F2LinearCode::init` accepts matrices of 121 to 127 rows and then reads past them: `C47_short_matrix_refuted`.
* `F4BitOtBatch` compression has no size check: `C43_f4_size_refuted`.
* `sample1Mod3` on the all-ones seed shifts by -1: `C46_sample_all_ones_refuted`.
* A regenerated permutation correlation keeps its old offset; the remaining size wraps and calls read out of bounds: `C06_stale_offset_refuted`.
* `WhereParser` hands bundles of different sizes to the circuit library: `C36_bin_literal_refuted`, `C36_bin_sizes_refuted`. The constructor `ArrGate(u64, ...)` asserts on the xor gate the parser supports: `C36_xor_refuted`.
* `evaluate` miscounts temporaries when an output wire is an input wire: `C23_in_out_wire_refuted`.
* `PTree::init` reads before its arrays when the first control bit is 1, and past them for fewer than two rows: `C55_first_bit_refuted`, `C55_small_refuted`. `signExtend` from bit 63 shifts by 64: `C56_sign_extend_refuted`. `fillInplace` behind the array writes out of bounds: `C56_fill_outside`.
* `Gmw::getOutput` for a `BinMatrix` tests `i > mOutputs.size()` and reads past the outputs for `i == size`: `C57_output_index_refuted`. An empty bundle is read at index 0: `C57_empty_bundle_refuted`. By reading: running a circuit with n = 0 rows divides by zero.
* `LowMC2::to_enc_circuit` runs off a matrix row with fewer than two ones, e.g. of the identity: `C58_sparse_row_refuted`. With a key longer than the block `rank_of_Matrix` reads beyond the key matrix: `C58_long_key_refuted`.
* An output bundle that mixes input and computed wires cannot be read: `C57_mixed_output_refuted`. By reading: `setInput` maps memory before it checks the sizes, so after a caught exception the input counts as set and holds uninitialised memory.

### Non-termination
* A triple segment with an odd number of blocks makes the loading loop of `Gmw::run` spin: `C20_odd_segment_refuted`. The same in `mod2` with OLEs: `C51_ole_odd_segment_refuted`, `C51_ole_odd_segment_hangs`. The correlation generator does produce such segments: `C37_odd_segment_reachable`.
* A last OLE segment that is not used up is never answered: `C51_ole_leftover_hangs`.
* `Table::revealLocal` waits for flags if it has some and the other share has none: `C76_no_flags_hangs`. The other way round it takes all rows for active and leaves the flags in the socket: `C76_flags_ignored`.

### Wrong results
* The control bit circuit compares only the low 2^floor(log2 bits) bits: `C31_other_widths_refuted`. So joins merge different keys (`C32_widths_refuted`, also for compressed keys: `C32_compressed_bits`) and group by merges groups (`C33_widths_refuted`).
* Group by loses a group because of an inactive row (`C33_inactive_refuted`) and adds columns that are no whole bytes at the wrong place (`C33_packed_refuted`); bytes of memory from before the sort then end up in the count (`C33_leftover_refuted`).
* `Where` keeps the negation of a marked output wire out of the result, e.g. a final NOT_EQUALS: `C35_inverted_refuted`. Any selection but all columns in order throws: `C35_selection_refuted`.
* Where clauses: sums wrap (`C36_sum_refuted`), an Int compared with a String is compared bitwise (`C36_mixed_refuted`), a clause without gates leaves its output unwritten (`C36_no_gates_refuted`).
* Plaintext `average` adds and counts inactive rows, loses groups whose first row is inactive, shifts sums of widths that are no whole bytes, and permutes a column twice when it is also the group-by column: `C17_inactive_refuted`, `C17_lost_group_refuted`, `C17_shift_refuted`, `C17_alias_refuted`.
* Plaintext `join` rejects repeated left keys only sometimes: `C16_repeated_refuted`.
* `readBin` and `readCSV` accept truncated files, values out of range and negative Booleans; negative numbers narrower than 8 bytes are printed unsigned: `C11_truncated_refuted`, `C11_cut_never_rejected`, `C12_truncated_refuted`, `C12_int_range_refuted`, `C12_boolean_refuted`, `C12_negative_refuted`.
* `reveal(vector<u8>)` adds instead of xoring: `C09_reveal_u8_refuted`. `extractActive` keeps a row only if its flag is exactly 1: `C15_ex_flag2`.
* `LowMCPerm.cpp:41` and `:120` write `lowBlock(j + srcIdx << 32)`, which adds first and shifts then: block j of row i and block j - 1 of row i + 1 are the same point, so rows wider than 32 bytes reuse masks: `C59_mask_reuse_refuted`. With 256 or more round keys the `u8` counter at `:49` would never end (modelled as `Hang`; the code has 15).
* `SilentF4VoleReceiver::setSilentBaseOts` does not check the size of `baseA` (the sender checks `b`): `C60_base_size_refuted`. `receiveChosen` does not check `c.size()`: `C60_choice_size_refuted`. After it the low bits of `a` are still the random values: `C60_chosen_packed_refuted`.
* `AltModKeyMultReceiver::mult` fetches its key request with one `get()` and never clears it. A session with a passed key after one that generated its key does not return without `clear`: `C61_stale_fails`, `C61_stale_ex`. Key OTs that straddle two batches are refused at evaluate: `C61_straddle_fails`.
* `AltModWPrfReceiver::preprocess` starts `mKeyMultRecver` twice and never `mKeyMultSender`: `C61_receiver_preprocess_refuted`. Before init both preprocess functions dereference a null request: `C61_preprocess_first`.
* Shared inputs with generated keys, or with key mode SenderOnly, pass init and fail in evaluate; the test for unsupported modes cannot fire: `C61_shared_fails`, `C61_shared_ex`. `AltModWPrfSender::init` accepts size 0 and objects that are not idle: `C61_sender_init_unguarded`.
* `GroupBy.cpp:363-371` with `mInsecureMockSubroutines`: the mocked `genPerm` releases no preparation, but `co_await prepro` waits for all of them. Compressed keys of more than eight bits (more rounds than `mPreProLead`) wait forever: `C64_mock_refuted`. The group-by tests that would show it are skipped.
* `RadixSort::init` does not reset `mPrePermStarted`. A second sort with the same object (also a second `OmJoin::join` or `GroupBy::groupBy`) waits forever for the first permutation: `C64_again_refuted`.
* `AltModComposedPerm.cpp:44` drops exceptions of its two halves; the round is announced as ready without a permutation: `C64_failed_refuted`. Keys of no bits index an empty vector: `C64_no_bits_refuted`.
* `CorGenerator.cpp:170-176` reuses the loop counter in an inner loop. A party with two or more requests more than the other waits forever instead of reporting the mismatch, and so does a party with requests when the other has none, which in turn reports nothing: `C63_unequal_refuted`, `C63_none_refuted`.
* With `invertable` not set (as `LowMCPerm` uses it) the matrices are not checked and encryption need not be injective: `C58_unchecked_refuted`.
* `isZeroCircuit(1)` leaves a pending inversion that `Gmw` ignores: `C22_width_one_refuted`.
* The aggregation tree combines the root into the first block when the first control bit is 1: `C24_first_bit_refuted`.
* `fillInplace` overwrites the bit at the index when the index starts a byte: `C56_fill_index`. `divCeil` wraps for large operands: `C56_div_ceil_refuted`.
* `Table::operator==` does not compare active flags: `C10_table_flags_refuted`. `PTree::share` leaks data bits behind the declared width: `C55_share_untrimmed_refuted`.
* The portable fallbacks of `shuffle_epi8`, `movemask_epi8` and `cmpeq_epi16` are wrong: `C53_shuffle_refuted`, `C53_movemask_refuted`, `C53_cmpeq_refuted`. Without SSE all packed hash words, hence all OLE masks, are zero: `C53_compress_zero_refuted`.
* `OmJoin.cpp:546` calls `perm.validate(sock)` in every run, not only when debugging. It sends both masks of each receiver in the clear to the other party, right before they mask the working matrix. Party 1 computes all keys (and all of party 0's working matrix) from them, party 0 all keys in shuffled order: `C70_party1_reads_keys`, `C70_party0_reads_keys`, `C70_party1_refuted`, `C70_party0_refuted`. Without that line the join hides them: `C70_party1_partial`, `C70_party0_partial`.
* The rows of a group by behind the first of their key stay in the output with their partial sums, marked inactive only by the shared flag. Opened by `revealLocal`/`revealRemote`, which open all rows, the output shows single values of the input, not only the grouped sums: `C81_sums_only_refuted`. If all rows are active it shows all of them: `C81_all_active_shows`.
* `derandomize` does not refuse a correlation that was derandomized before; the second difference tells the receiver the quotient of the two permutations: `C66_second_derand`, `C66_second_derand_refuted`. The callers in /repo do it once per correlation.
* `srli_epi32` of the portable `SampleBlock256` shifts signed lanes, so it is not the instruction of that name (`C69_srli_refuted`); the sampler only looks at the low byte of the result and is not affected (`C69_same`).

### Exceptions that should not be there, resources
* The second `mult` of the key-multiplication receiver throws after a key request: `C50_second_call_refuted`.
* `Extract::init(rows, columns)` does not count the flag byte: `C34_init_refuted`. `GroupBy` does not count the second permutation when inactive rows are removed: `C33_correlations_refuted`.
* `RadixSort::init` asks for 5 bytes per permutation where 9 are used; it works because of rounding: `C28_requested_bytes_refuted`. Digits of one bit fail an assert in the second round: `C28_one_bit_digits_refuted`.
* Batch sizes that are no multiple of 128 fail an assert (debug) or give unbounded batches (release): `C37_unaligned_debug_refuted`, `C37_unaligned_release_refuted`, `C37_unaligned_refuted`.

### Concurrency in the correlation generator
* The assert in `Batch::start` can fail: `C39_assert_refuted`. Start events need not be set in order: `C39_order_refuted`.
* `abort` racing with `start` can abort an earlier batch than one that runs (`C39_abort_gap`), after which base correlations shift between batches (`C41_abort_gap_refuted`). A finished task is awaited twice after an abort: `C40_double_await`.

### By reading only
* `GroupBy` initialises its `Extract` with the input columns, without the Count column. An average column of another table throws. All GroupBy tests are skipped as "not functional".
* The integer test of Where has a loop `for (u64 i = 10; i < n; ...)` that never runs.
* `AltModWPrf` preprocessing calls `mKeyMultRecver.preprocess` twice (AltModPrfProto.cpp:291-300).
* `OmJoin` ignores the active flags of its input tables.
* `RadixSort::lessThan` compares signed characters; `mIndexToOneHotCircuitBitCount` is never set. `Table::init` does not clear `mIsActive`.
