{
 "C01": {
  "note": "Full statement, both code paths (unrolled and generic), every size. u32 entries modelled as nat below the assert's 2^32 limit."
 },
 "C02": {
  "note": "Full statement."
 },
 "C03": {
  "note": "Full statement; onto for n <= 2^32 (32-bit words)."
 },
 "C04": {
  "note": "Full statement plus: validate never reads out of bounds."
 },
 "C45": {
  "note": "Full statement: block operations and all span versions (aliasing in-place versions included), every lane."
 },
 "C46": {
  "note": "Lookup sampler: full statement (validity, exact base-3 digits, termination when the key stream is not all >= 243). Hash sampler: proved for every seed with a pair different from 11; the all-ones seed is undefined behaviour (refuted theorem). No key-stream part is used twice (C46_fresh)."
 },
 "C44": {
  "note": "Full statement."
 },
 "C47": {
  "status": "partial",
  "note": "Proved for 128-row generator matrices (what the library uses). Matrices of 121..127 rows pass init's check but read out of bounds (refuted theorem)."
 },
 "C48": {
  "note": "Full statement; k>n, at least one permutation, batch size > 0."
 },
 "C49": {
  "note": "Full statement; any correlation and any segmentation with enough positions; too few positions throw."
 },
 "C50": {
  "status": "proved",
  "note": "Full statement over histories of mult calls, binary and F3 inputs, key share present or absent. Finding: the receiver's second mult on a pending request throws (refuted theorem)."
 },
 "C51": {
  "status": "partial",
  "note": "F4-OT protocol: every segmentation. OLE protocol: every segmentation into segments of even block count that exactly cover the input; the claim for odd segments and left-over segments is false (refuted: the loop or the receiver hangs)."
 },
 "C52": {
  "note": "Receiver-only input (key at the sender or shared) and shared input/shared key, OLE and F4 mod-2 variants, any batch size; linear input expansion (the AES variant of expandInput is not modelled)."
 },
 "C05": {
  "note": "Full statement over histories; plus validate accepts exactly the good correlations and genPerm makes them."
 },
 "C06": {
  "status": "partial",
  "note": "Proved for one generated correlation (window independence, disjoint windows, exhaustion throws at both parties). The re-use part of the claim is false: generate keeps the stale byte offset, the remaining size wraps and calls read out of bounds (refuted theorem)."
 },
 "C07": {
  "note": "Full statement: apply in both directions with the parties' message order, compose, derandomize, genPerm; the pair invariant is preserved by each so any sequence is covered."
 },
 "C08": {
  "note": "Full statement on top of the modelled PRF protocol (C52); AES an arbitrary function."
 },
 "C19": {
  "note": "Full statement for circuits levelled as the debug checks of run require (levelization itself is in cryptoTools), n >= 1 rows, even triple segments (odd ones hang, see C20). Distinct wires are distinct memory."
 },
 "C20": {
  "status": "partial",
  "note": "Proved for even segments: termination, pairing, no reuse over all rounds, exact consumption. With an odd segment the loading loop never terminates: C20_odd_segment_refuted."
 },
 "C21": {
  "note": "Full statement, chunking included; n >= 1 rows."
 },
 "C22": {
  "status": "proved",
  "note": "Every width >= 1 for the logical output; from width 2 the output wire itself. Width 1 leaves a pending inversion Gmw ignores: C22_width_one_refuted. Inversion folding is cryptoTools behaviour, modelled from its documentation."
 },
 "C23": {
  "status": "partial",
  "note": "For sub-circuits whose inputs and outputs are the first wires, distinct, not overwriting inputs; refuted when an output wire is an input wire (C23_in_out_wire_refuted). Inversion flags of the sub-circuit not modelled."
 },
 "C42": {
  "note": "Full statement for every hash, delta and correlated OT vector; also the mock OLEs. hashBlocks<8> is modelled as eight independent applications of a hash parameter."
 },
 "C43": {
  "status": "partial",
  "note": "Trit OT (whenever the sender's run completes, i.e. no all-ones hash, the C46 finding) and F4 OT; also the mock trit OTs. Finding: F4 compression has no size check (refuted theorem)."
 },
 "C53": {
  "status": "partial",
  "note": "False as stated: shuffle_epi8, movemask_epi8 and cmpeq_epi16 fallbacks are wrong (three refuted theorems); slli_epi16 and storeu_si32 are proved equal; shuffle_epi8 is proved equal when no control byte has its top bit set. Consequence proved: without SSE all OLE masks are zero."
 },
 "C37": {
  "status": "partial",
  "note": "Batch sizes that are multiples of 128: every history served, segments tile the batches, limit respected. Refuted for other batch sizes (accepted by GenState): assert failure in debug builds, unbounded batch in release builds."
 },
 "C38": {
  "status": "proved",
  "note": "Any batch size and history; both parties' outcomes, segments and batches mirror each other; k-th get() yields the same segment."
 },
 "C39": {
  "status": "proved",
  "note": "All interleavings of any number of start() and abort() calls; also termination. Refuted: the assert in Batch::start can fail, and the set() calls need not happen in index order."
 },
 "C40": {
  "status": "proved",
  "note": "Any number of batches up to 2^62 and any abort pattern; awaiting a finished task again after an abort is shown reachable (C40_double_await)."
 },
 "C41": {
  "status": "proved",
  "note": "Any list of requests; two-party correctness lifted from positions to batches; abort of a suffix keeps the others right. Refuted when an aborted batch precedes a started one."
 },
 "C24": {
  "status": "proved",
  "note": "Any associative operator, any n >= 2, complete and incomplete trees, first control bit 0 for Prefix and Full (a first bit of 1 is not handled: C24_first_bit_refuted). One channel of plaintext values: the circuits run under Gmw, covered by C19."
 },
 "C25": {
  "status": "partial",
  "note": "Every n >= 2. For n = 1 the claim is false: computeTreeSizes writes out of bounds (C25_one_row_refuted)."
 },
 "C26": {
  "status": "proved",
  "note": "Rows of any number of bits, vector and portable implementation, both inverse directions, the implementations agree. The five-argument perfectUnshuffle is never called and not modelled."
 },
 "C27": {
  "note": "genBitPerm of both parties with the parties' messages; Gmw runs replaced by what C19-C21 prove (xor shares of the circuit value); L=1 needs share bytes below 2, which is what the debug assert demands."
 },
 "C28": {
  "status": "partial",
  "note": "For digit sizes 2..8 (and single bit keys with 1): sorts by the little endian key, stably. Refuted parts: the requested 5 bytes of permutation randomness do not suffice, digits of one bit with several rounds fail an assert, no rows is undefined."
 },
 "C29": {
  "status": "partial",
  "note": "Proved for output widths 25-30 and 32; refuted for at most 24 (buffer overrun), 31 and more than 32 (shift)."
 },
 "C30": {
  "note": "Additive shares modulo 2^32 and the conversion to xor shares (adder circuit as addition modulo 2^bits)."
 },
 "C09": {
  "note": "BinMatrix, byte matrices, u32 vectors, xor shares of flags and whole tables (with and without removal of dummies). The overload reveal(vector<u8>) adds the shares instead of xoring them: C09_reveal_u8_refuted."
 },
 "C10": {
  "note": "Throwing cases included. A matrix is a list of rows (stride = number of columns)."
 },
 "C14": {
  "note": "One common permutation for all columns and flags; lexicographic in the columns, each compared as a little endian number; ties keep their order."
 },
 "C15": {
  "note": "Rows are kept iff the flag byte equals 1 (a flag of 2 counts as inactive: C15_ex_flag2)."
 },
 "C11": {
  "status": "partial",
  "note": "Round trip and rejection of bad headers proved. The truncation clause is false: every cut inside the data is accepted with zeros (C11_cut_data), no cut is ever rejected (C11_cut_never_rejected), C11_truncated_refuted."
 },
 "C12": {
  "note": "Round trip proved for every representable table. The two's complement clause is false for columns narrower than 8 bytes (C12_int_unsigned, C12_negative_refuted); values out of range, negative Booleans and truncated files are accepted (C12_int_cut, C12_boolean_refuted, C12_truncated_refuted, C12_cut). Too long strings and anything behind the last cell of a row are rejected (C12_string_read, C12_extra)."
 },
 "C13": {
  "note": "Accepted texts characterised exactly; everything else throws."
 },
 "C16": {
  "status": "partial",
  "note": "Exact result proved for all inputs the code accepts (one row per right row in stable key order, active iff matched, first matching left row). The clause 'a left table with a repeated key is rejected' is refuted: only repeats below some right key are detected."
 },
 "C17": {
  "status": "partial",
  "note": "Exact result proved for every table with distinct columns. The claim holds when all rows are active and the summed widths are whole bytes (C17_all_active_partial). Refuted: inactive rows are added and counted, a group whose first row is inactive is lost, widths that are no byte multiple give shifted sums, summing the group-by column permutes it twice."
 },
 "C18": {
  "status": "partial",
  "note": "The property is false of the code: Table::where never returns, it throws or writes out of bounds (C18_never_refuted, C18_out_of_bounds)."
 },
 "C31": {
  "status": "partial",
  "note": "Exact: for every width the circuit compares the low 2^floor(log2 bits) bits (C31_exact), which are all the bits iff the width is a power of two (C31_power_of_two_partial). For every other width the claim is false: some different keys are taken to be equal (C31_other_widths_refuted). C31_control_bits: getControlBits on shared rows; C31_gmw: the same through the GMW run."
 },
 "C32": {
  "status": "partial",
  "note": "Shares of exactly the join, for all shares, masks and select lists, and after reveal exactly the join rows in right-table order, whenever the keys present are told apart by the bits compared: automatic for uncompressed keys whose width is a power of two. Missing and false: other widths (C32_widths_refuted), empty tables (C32_no_rows_refuted). Compressed keys: only 32 of the 40+ bits are compared (C32_compressed_bits). Sub-protocols are represented by their proved functionality with arbitrary masks; removal of inactive rows by Extract is C34."
 },
 "C34": {
  "status": "proved",
  "note": "Extract with any compacting permutation correlation: the output tables are shares of the active rows only, in the order of the secret permutation, columns and names kept; both parties' views are functions of their own input and output (exactly one set of masks explains each view). A flag counts by its low bit. Tables without flags are rejected, a request too short in bytes throws. C34_init_refuted: init(rows, columns) does not count the flag byte, so for columns totalling a multiple of 16 bytes the request it makes is always too short."
 },
 "C35": {
  "status": "partial",
  "note": "Whatever the selection, a run that returns keeps the columns and leaves flag = old flag AND clause on the selected columns (C35_where_partial); for the identity selection set-up and run always return (C35_identity), also with the removal of inactive rows (C35_extract). Missing because false: C35_returns_iff / C35_selection_refuted (for a table with distinct columns every selection other than all columns in order throws; a reduced table makes the index go out of range), C35_inverted_refuted (a clause whose output wire carries cryptoTools' inversion flag, such as a final NOT_EQUALS, loses the negation because evaluate copies gates only)."
 },
 "C33": {
  "status": "partial",
  "note": "Shares and revealed table of the group by proved (C33_shares_partial, C33_reveal_partial) for two or more rows, aggregated columns of whole bytes, and keys told apart by the bits compared; C33_told_full/told_key say exactly when the latter holds for uncompressed keys. Without these conditions the statement is false: C33_inactive_refuted (a group is lost), C33_widths_refuted (two groups merged), C33_packed_refuted (wrong sums), C33_one_row_refuted; C33_correlations_refuted shows too few correlations are requested when the inactive rows are removed. Sub-protocols by their proved functionality, LinearCode::encode abstract."
 },
 "C36": {
  "status": "partial",
  "note": "Every clause over columns and integer, boolean or string literals whose operators have a value on the row (v_run), any widths; C36_modular gives the result for every mix of widths. Partial because accepted clauses with binary literals, and integers against strings or booleans that are not narrower, do not get the number semantics (C36_bin_literal_refuted, C36_mixed_refuted). The builders of the circuit library are represented by their documented function."
 },
 "C54": {
  "status": "proved",
  "note": "Both directions. The triples of the hiding party are assumed uniform among those correlated with the other's (the guarantee of the OLE generator, not modelled) and exactly as many as the circuit needs, which is what Gmw::init requests."
 },
 "C55": {
  "status": "proved",
  "note": "The claim needs the first control bit 0 and two rows; otherwise UB (C55_first_bit_refuted, C55_small_refuted). Hiding of share needs data without bits behind the declared width (C55_share_untrimmed_refuted)."
 },
 "C56": {
  "status": "proved",
  "note": "divCeil holds while x+y <= 2^64 (C56_div_ceil_refuted otherwise); signExtend holds below bit 63 and is UB from there on (C56_sign_extend_refuted); fillInplace with another bit than the indexed one overwrites the indexed bit at byte boundaries (C56_fill_index)."
 },
 "C57": {
  "status": "proved",
  "note": "Input bundles must be disjoint and outputs must contain no input wire: C57_mixed_output_refuted, C57_empty_bundle_refuted and C57_output_index_refuted show what happens otherwise. A mapped matrix must have the stride of the wires, as resize with alignment 16 makes it."
 },
 "C58": {
  "status": "proved",
  "note": "The circuit claim needs two ones in every matrix row (C58_sparse_row_refuted otherwise); keys longer than the block are read out of bounds (C58_long_key_refuted); without the invertable flag encryption need not be injective (C58_unchecked_refuted). The LFSR behind the random bits is an arbitrary stream, so termination of the rejection sampling is a hypothesis (the constructor returns)."
 },
 "C59": {
  "status": "partial",
  "note": "That different blocks get different points is proved for rows of at most one block (C59_points_distinct_partial, with the exact criterion in C59_points) and false for wider rows: j + srcIdx << 32 adds before it shifts, so block 1 of a row and block 0 of the next are the same mask (C59_mask_reuse_refuted). Everything else is proved for any levelling of the circuit that computes it."
 },
 "C60": {
  "status": "proved",
  "note": "Library parts (syndromeDecodingConfigure, PPRF, base OTs, noisy VOLE, the two codes) are parameters with their documented contract. Refuted parts: the receiver does not check the size of the base VOLE, receiveChosen does not check the number of chosen values, and the values packed in a after a chosen run are the random ones."
 },
 "C61": {
  "status": "partial",
  "note": "Proved for sessions without stale key requests, with room for the key OTs in the open batch and OLE batches of even size. Each of the three is a refutation otherwise (C61_stale_fails, C61_straddle_fails, C51_ole_odd_segment_hangs)."
 },
 "C62": {
  "note": "Every call of get succeeds and yields its own segment, in any order; both parties' segments match; batchCount bounds the segments; mock and real tasks give valid batches (the trit sender's task may loop). The PRF sessions of C61 on batches: C61_on_batches_partial."
 },
 "C63": {
  "status": "partial",
  "note": "Proved that the exchange ends, and the comparison for lists whose lengths differ by at most one and are both nonempty. The rest is false of the code: C63_unequal_refuted (deadlock), C63_none_refuted (no report)."
 },
 "C64": {
  "status": "partial",
  "note": "Ends, preparation before use and the lead are proved for all interleavings. False of the code: the mocked sort with more rounds than mPreProLead when genPrePerm was called, a second use of the object, a failed generation is announced as ready, keys of no bits."
 },
 "C65": {
  "note": "Over the randomness of the ideal correlations: the trits and pads the OT strings expand to are taken as uniform (C65_row, C65_input_run say that the code's are of that form), so security of the generators and of the OT extension is assumed, not proved."
 },
 "C66": {
  "note": "Views are all messages to a party and its outputs along a history. Perfect hiding in the model of ideal correlations: a bijection of the honest party's parts that fit. C66_second_derand_refuted shows that 'at most once' is needed: a second derandomize on the same correlation announces the quotient of the two permutations. The code derandomizes each correlation once (RadixSort.cpp:1186, GroupBy.cpp:384, OmJoin.cpp:549)."
 },
 "C67": {
  "note": "Perfect hiding in the model of ideal transfers and ideal circuits (what the Gmw runs show beyond their output shares is C54): a bijection of the honest party's randomness. The view of a round is the party's share of the indicator bits, all messages of the bit injection and of both directions of hadamardSum, and its share of the result. C67_run ties the traced round to gen_bit_perm of C27. The sender's messages hide for arbitrary differences."
 },
 "C68": {
  "status": "proved",
  "note": "Perfect hiding in the model of ideal transfers, correlations and circuits, by an explicit bijection of the honest party's randomness over all rounds. The widths are those for which the sort works (C28): digits of 2 to 8 bits, or one bit for one-bit keys, and 9 bytes of correlation per permutation. C68_run ties the traced sort to gen_perm and shows that it succeeds."
 },
 "C69": {
  "note": "Both builds of the sampler on vectors, with assertions; the rejection loop may hang on a stream without bytes below 243, as in C46. The operations differ on lanes with the top bit (C69_srli_refuted), which the sampler does not see."
 },
 "C70": {
  "note": "The sort and the permutation are the real protocols; the circuits are represented by the shares they return; the same statement with all their messages is proved in C75 (C75_party0, C75_party1). The join as it is leaks through perm.validate (refuted theorems)."
 },
 "C71": {
  "status": "proved",
  "note": "The circuits of the tree are built without error and compute the steps of C24 for any operator and multiplexer that keep their contracts (both contracts are shown to be met by example builders); the operators of join and group-by; the run by Gmw on shares."
 },
 "C72": {
  "status": "proved",
  "note": "The run is given enough correlations by its caller; the operator's circuit and the multiplexer meet their contracts (C71). Matrices are modelled with the blocks per row that Gmw uses."
 },
 "C73": {
  "status": "proved",
  "note": "The correlations of the party that does not look are assumed uniform among those fitting the other's, and exactly as many as each run asks for, as in C54. Uninitialised memory and the rest of each party's data are the same in both runs."
 },
 "C74": {
  "status": "proved",
  "note": "The join with its Gmw and AggTree runs; the library's multiplexer and one-bit and are assumed to compute what they should (lib_ok); keys must be told apart by the bits the circuit compares (see C32)."
 },
 "C75": {
  "status": "proved",
  "note": "Pairing of the other party's randomness and correlations, for the whole run of C74. Correlations are those of an ideal generator; validate is left out, and with it both parties read all keys (C75_party0_reads_keys, C75_party1_reads_keys)."
 },
 "C76": {
  "status": "proved",
  "note": "For tables with at least one row; the two mismatches of the flags are stated as they are (C76_no_flags_hangs, C76_flags_ignored)."
 },
 "C77": {
  "status": "proved",
  "note": "For the whole run of C74 and C75 followed by revealRemote/revealLocal, without validate. Right rows without a match are opened too: revealLocal does not remove them."
 },
 "C78": {
  "status": "proved",
  "note": "C78_levels: a levelling exists for every clause. C78_run, C78_where: the run returns shares of the filtered table. C78_hides: the messages and the output pair up for any two shares of the other party. C78_opens, C78_open_hides: with the opening. The removal of inactive rows is C34/C35_extract. Clauses with an inverted output wire are excluded from C78_where (C35_inverted_refuted); selections other than all columns in order throw (C35_selection_refuted)."
 },
 "C79": {
  "status": "proved",
  "note": "The group by with its Gmw and AggTree runs under the conditions of C33 (without them the statement is false, see C33's refutations). The library's multiplexer and adder are assumed to compute what they should (gb_lib_ok, met by the multiplexer and ripple carry adder of the example); sort and permutations by their proved functionality."
 },
 "C80": {
  "status": "proved",
  "note": "C80_same: the run is that of C79. C80_hides_party0/1: for any two queries of the other party with the same public shape. The messages of the radix sort and of the two permutations are outside the view (their outputs are fresh sharings, and the permutation itself is not seen by either party); the correlations are those of an ideal generator. Unlike C79 it needs no condition that the keys are told apart."
 },
 "C81": {
  "status": "proved",
  "note": "C81_opens: the table that is opened. C81_party0/1: secrecy up to that table, both receivers, under the conditions of C79 (C81 has the scope of C80: messages of sort and permutations outside the view). C81_sums_only_refuted: no more than the grouped sums is false; C81_all_active_shows: if all rows are active the opened table determines every row. See DESIGN.md section 6."
 }
}