{
 "claims": [
  {
   "property": "C01",
   "status": "proved",
   "theorems": [
    "C01_apply_regular",
    "C01_apply_inverse",
    "C01_round_trip",
    "C01_mismatch_throws"
   ],
   "note": "Full statement, both code paths (unrolled and generic), every size. u32 entries modelled as nat below the assert's 2^32 limit."
  },
  {
   "property": "C02",
   "status": "proved",
   "theorems": [
    "C02_compose_apply",
    "C02_compose_closed",
    "C02_compose_assoc",
    "C02_identity",
    "C02_inverse",
    "C02_apply_inverse_agrees"
   ],
   "note": "Full statement."
  },
  {
   "property": "C03",
   "status": "proved",
   "theorems": [
    "C03_randomize_perm",
    "C03_randomize_onto"
   ],
   "note": "Full statement; onto for n <= 2^32 (32-bit words)."
  },
  {
   "property": "C04",
   "status": "proved",
   "theorems": [
    "C04_validate_iff",
    "C04_validate_total"
   ],
   "note": "Full statement plus: validate never reads out of bounds."
  },
  {
   "property": "C05",
   "status": "proved",
   "theorems": [
    "C05_history",
    "C05_apply",
    "C05_validate",
    "C05_genPerm"
   ],
   "note": "Full statement over histories; plus validate accepts exactly the good correlations and genPerm makes them."
  },
  {
   "property": "C06",
   "status": "partial",
   "theorems": [
    "C06_window_partial",
    "C06_disjoint_partial",
    "C06_masked",
    "C06_exhausted",
    "C06_hist_exhausted_partial",
    "C06_regenerate_keeps_offset",
    "C06_stale_offset_refuted",
    "C06_stale_offset_ub"
   ],
   "note": "Proved for one generated correlation (window independence, disjoint windows, exhaustion throws at both parties). The re-use part of the claim is false: generate keeps the stale byte offset, the remaining size wraps and calls read out of bounds (refuted theorem)."
  },
  {
   "property": "C07",
   "status": "proved",
   "theorems": [
    "C07_apply",
    "C07_exhausted",
    "C07_compose",
    "C07_derandomize",
    "C07_genPerm"
   ],
   "note": "Full statement: apply in both directions with the parties' message order, compose, derandomize, genPerm; the pair invariant is preserved by each so any sequence is covered."
  },
  {
   "property": "C08",
   "status": "proved",
   "theorems": [
    "C08_generate",
    "C08_throws",
    "C08_points_distinct"
   ],
   "note": "Full statement on top of the modelled PRF protocol (C52); AES an arbitrary function."
  },
  {
   "property": "C09",
   "status": "proved",
   "theorems": [
    "C09_matrix",
    "C09_matrix_exact",
    "C09_bytes",
    "C09_bytes_throws",
    "C09_reveal_throws",
    "C09_bytes_reveal_throws",
    "C09_words",
    "C09_xor_share",
    "C09_table",
    "C09_table_reveal",
    "C09_reveal_u8_refuted",
    "C09_reveal_u8"
   ],
   "note": "BinMatrix, byte matrices, u32 vectors, xor shares of flags and whole tables (with and without removal of dummies). The overload reveal(vector<u8>) adds the shares instead of xoring them: C09_reveal_u8_refuted."
  },
  {
   "property": "C10",
   "status": "proved",
   "theorems": [
    "C10_trim",
    "C10_trim_throws",
    "C10_trim_matrix",
    "C10_trim_unique",
    "C10_equal",
    "C10_equal_throws",
    "C10_equal_span",
    "C10_equal_span_throws",
    "C10_matrix_equal",
    "C10_column_equal",
    "C10_table_equal",
    "C10_table_flags_refuted",
    "C10_reshape"
   ],
   "note": "Throwing cases included. A matrix is a list of rows (stride = number of columns)."
  },
  {
   "property": "C11",
   "status": "partial",
   "theorems": [
    "C11_roundtrip_partial",
    "C11_rejects",
    "C11_cut_data",
    "C11_cut_never_rejected",
    "C11_truncated_refuted"
   ],
   "note": "Round trip and rejection of bad headers proved. The truncation clause is false: every cut inside the data is accepted with zeros (C11_cut_data), no cut is ever rejected (C11_cut_never_rejected), C11_truncated_refuted."
  },
  {
   "property": "C12",
   "status": "partial",
   "theorems": [
    "C12_roundtrip_partial",
    "C12_u64",
    "C12_i64",
    "C12_decimal",
    "C12_string_throws",
    "C12_int_throws",
    "C12_int_unsigned",
    "C12_string_read",
    "C12_extra",
    "C12_int_cut",
    "C12_cut",
    "C12_int_range_refuted",
    "C12_boolean_refuted",
    "C12_truncated_refuted",
    "C12_negative_refuted"
   ],
   "note": "Round trip proved for every representable table. The two's complement clause is false for columns narrower than 8 bytes (C12_int_unsigned, C12_negative_refuted); values out of range, negative Booleans and truncated files are accepted (C12_int_cut, C12_boolean_refuted, C12_truncated_refuted, C12_cut). Too long strings and anything behind the last cell of a row are rejected (C12_string_read, C12_extra)."
  },
  {
   "property": "C13",
   "status": "proved",
   "theorems": [
    "C13_hex",
    "C13_fromHex",
    "C13_fromHex_throws"
   ],
   "note": "Accepted texts characterised exactly; everything else throws."
  },
  {
   "property": "C14",
   "status": "proved",
   "theorems": [
    "C14_sort",
    "C14_permute"
   ],
   "note": "One common permutation for all columns and flags; lexicographic in the columns, each compared as a little endian number; ties keep their order."
  },
  {
   "property": "C15",
   "status": "proved",
   "theorems": [
    "C15_extract",
    "C15_no_flags",
    "C15_keep"
   ],
   "note": "Rows are kept iff the flag byte equals 1 (a flag of 2 counts as inactive: C15_ex_flag2)."
  },
  {
   "property": "C16",
   "status": "partial",
   "theorems": [
    "C16_join_partial",
    "C16_distinct",
    "C16_match",
    "C16_rejects",
    "C16_widths",
    "C16_stranger",
    "C16_names",
    "C16_repeated_refuted"
   ],
   "note": "Exact result proved for all inputs the code accepts (one row per right row in stable key order, active iff matched, first matching left row). The clause 'a left table with a repeated key is rejected' is refuted: only repeats below some right key are detected."
  },
  {
   "property": "C17",
   "status": "partial",
   "theorems": [
    "C17_average",
    "C17_all_active_partial",
    "C17_leader",
    "C17_inactive_refuted",
    "C17_lost_group_refuted",
    "C17_shift_refuted",
    "C17_alias_refuted"
   ],
   "note": "Exact result proved for every table with distinct columns. The claim holds when all rows are active and the summed widths are whole bytes (C17_all_active_partial). Refuted: inactive rows are added and counted, a group whose first row is inactive is lost, widths that are no byte multiple give shifted sums, summing the group-by column permutes it twice."
  },
  {
   "property": "C18",
   "status": "partial",
   "theorems": [
    "C18_never_refuted",
    "C18_out_of_bounds"
   ],
   "note": "The property is false of the code: Table::where never returns, it throws or writes out of bounds (C18_never_refuted, C18_out_of_bounds)."
  },
  {
   "property": "C19",
   "status": "proved",
   "theorems": [
    "C19_correct"
   ],
   "note": "Full statement for circuits levelled as the debug checks of run require (levelization itself is in cryptoTools), n >= 1 rows, even triple segments (odd ones hang, see C20). Distinct wires are distinct memory."
  },
  {
   "property": "C20",
   "status": "partial",
   "theorems": [
    "C20_loading_partial",
    "C20_run_loads_partial",
    "C20_masks",
    "C20_odd_segment_refuted"
   ],
   "note": "Proved for even segments: termination, pairing, no reuse over all rounds, exact consumption. With an odd segment the loading loop never terminates: C20_odd_segment_refuted."
  },
  {
   "property": "C21",
   "status": "proved",
   "theorems": [
    "C21_message_sizes"
   ],
   "note": "Full statement, chunking included; n >= 1 rows."
  },
  {
   "property": "C22",
   "status": "proved",
   "theorems": [
    "C22_is_zero",
    "C22_width_one_refuted"
   ],
   "note": "Every width >= 1 for the logical output; from width 2 the output wire itself. Width 1 leaves a pending inversion Gmw ignores: C22_width_one_refuted. Inversion folding is cryptoTools behaviour, modelled from its documentation."
  },
  {
   "property": "C23",
   "status": "partial",
   "theorems": [
    "C23_inline_partial",
    "C23_in_out_wire_refuted"
   ],
   "note": "For sub-circuits whose inputs and outputs are the first wires, distinct, not overwriting inputs; refuted when an output wire is an input wire (C23_in_out_wire_refuted). Inversion flags of the sub-circuit not modelled."
  },
  {
   "property": "C24",
   "status": "proved",
   "theorems": [
    "C24_prefix",
    "C24_suffix",
    "C24_full",
    "C24_first_bit_refuted"
   ],
   "note": "Any associative operator, any n >= 2, complete and incomplete trees, first control bit 0 for Prefix and Full (a first bit of 1 is not handled: C24_first_bit_refuted). One channel of plaintext values: the circuits run under Gmw, covered by C19."
  },
  {
   "property": "C25",
   "status": "partial",
   "theorems": [
    "C25_shape_partial",
    "C25_load_pre",
    "C25_load_suf",
    "C25_one_row_refuted"
   ],
   "note": "Every n >= 2. For n = 1 the claim is false: computeTreeSizes writes out of bounds (C25_one_row_refuted)."
  },
  {
   "property": "C26",
   "status": "proved",
   "theorems": [
    "C26_unshuffle",
    "C26_shuffle",
    "C26_shuffle_unshuffle",
    "C26_unshuffle_shuffle",
    "C26_variants_agree",
    "C26_unshuffle_variants_agree"
   ],
   "note": "Rows of any number of bits, vector and portable implementation, both inverse directions, the implementations agree. The five-argument perfectUnshuffle is never called and not modelled."
  },
  {
   "property": "C27",
   "status": "proved",
   "theorems": [
    "C27_round",
    "C27_positions",
    "C27_throws"
   ],
   "note": "genBitPerm of both parties with the parties' messages; Gmw runs replaced by what C19-C21 prove (xor shares of the circuit value); L=1 needs share bytes below 2, which is what the debug assert demands."
  },
  {
   "property": "C28",
   "status": "partial",
   "theorems": [
    "C28_genPerm_partial",
    "C28_unique",
    "C28_mock",
    "C28_requested_bytes_refuted",
    "C28_no_rows_refuted",
    "C28_one_bit_digits_refuted"
   ],
   "note": "For digit sizes 2..8 (and single bit keys with 1): sorts by the little endian key, stably. Refuted parts: the requested 5 bytes of permutation randomness do not suffice, digits of one bit with several rounds fail an assert, no rows is undefined."
  },
  {
   "property": "C29",
   "status": "partial",
   "theorems": [
    "C29_bit_inject_partial",
    "C29_narrow_refuted",
    "C29_mask_refuted",
    "C29_throws"
   ],
   "note": "Proved for output widths 25-30 and 32; refuted for at most 24 (buffer overrun), 31 and more than 32 (shift)."
  },
  {
   "property": "C30",
   "status": "proved",
   "theorems": [
    "C30_arith",
    "C30_sum",
    "C30_segment_throws"
   ],
   "note": "Additive shares modulo 2^32 and the conversion to xor shares (adder circuit as addition modulo 2^bits)."
  },
  {
   "property": "C31",
   "status": "partial",
   "theorems": [
    "C31_exact",
    "C31_power_of_two_partial",
    "C31_other_widths_refuted",
    "C31_control_bits",
    "C31_gmw"
   ],
   "note": "Exact: for every width the circuit compares the low 2^floor(log2 bits) bits (C31_exact), which are all the bits iff the width is a power of two (C31_power_of_two_partial). For every other width the claim is false: some different keys are taken to be equal (C31_other_widths_refuted). C31_control_bits: getControlBits on shared rows; C31_gmw: the same through the GMW run."
  },
  {
   "property": "C32",
   "status": "partial",
   "theorems": [
    "C32_join_partial",
    "C32_reveal_partial",
    "C32_power_of_two",
    "C32_small_widths",
    "C32_unique",
    "C32_no_rows_refuted",
    "C32_compressed_bits",
    "C32_widths_refuted"
   ],
   "note": "Shares of exactly the join, for all shares, masks and select lists, and after reveal exactly the join rows in right-table order, whenever the keys present are told apart by the bits compared: automatic for uncompressed keys whose width is a power of two. Missing and false: other widths (C32_widths_refuted), empty tables (C32_no_rows_refuted). Compressed keys: only 32 of the 40+ bits are compared (C32_compressed_bits). Sub-protocols are represented by their proved functionality with arbitrary masks; removal of inactive rows by Extract is C34."
  },
  {
   "property": "C33",
   "status": "partial",
   "theorems": [
    "C33_shares_partial",
    "C33_reveal_partial",
    "C33_one_per_group",
    "C33_told_full",
    "C33_told_key",
    "C33_told_all_active",
    "C33_correlations_enough",
    "C33_correlations_refuted",
    "C33_inactive_refuted",
    "C33_widths_refuted",
    "C33_packed_refuted",
    "C33_leftover_refuted",
    "C33_one_row_refuted"
   ],
   "note": "Shares and revealed table of the group by proved (C33_shares_partial, C33_reveal_partial) for two or more rows, aggregated columns of whole bytes, and keys told apart by the bits compared; C33_told_full/told_key say exactly when the latter holds for uncompressed keys. Without these conditions the statement is false: C33_inactive_refuted (a group is lost), C33_widths_refuted (two groups merged), C33_packed_refuted (wrong sums), C33_one_row_refuted; C33_correlations_refuted shows too few correlations are requested when the inactive rows are removed. Sub-protocols by their proved functionality, LinearCode::encode abstract."
  },
  {
   "property": "C34",
   "status": "proved",
   "theorems": [
    "C34_extract",
    "C34_reveal",
    "C34_private_0",
    "C34_private_0_unique",
    "C34_private_1",
    "C34_private_1_unique",
    "C34_no_flags",
    "C34_exhausted",
    "C34_asked",
    "C34_init_enough",
    "C34_init_refuted"
   ],
   "note": "Extract with any compacting permutation correlation: the output tables are shares of the active rows only, in the order of the secret permutation, columns and names kept; both parties' views are functions of their own input and output (exactly one set of masks explains each view). A flag counts by its low bit. Tables without flags are rejected, a request too short in bytes throws. C34_init_refuted: init(rows, columns) does not count the flag byte, so for columns totalling a multiple of 16 bytes the request it makes is always too short."
  },
  {
   "property": "C35",
   "status": "partial",
   "theorems": [
    "C35_where_partial",
    "C35_returns_iff",
    "C35_identity",
    "C35_selection_refuted",
    "C35_inverted_refuted",
    "C35_extract",
    "C35_asked"
   ],
   "note": "Whatever the selection, a run that returns keeps the columns and leaves flag = old flag AND clause on the selected columns (C35_where_partial); for the identity selection set-up and run always return (C35_identity), also with the removal of inactive rows (C35_extract). Missing because false: C35_returns_iff / C35_selection_refuted (for a table with distinct columns every selection other than all columns in order throws; a reduced table makes the index go out of range), C35_inverted_refuted (a clause whose output wire carries cryptoTools' inversion flag, such as a final NOT_EQUALS, loses the negation because evaluate copies gates only)."
  },
  {
   "property": "C36",
   "status": "partial",
   "theorems": [
    "C36_parse_partial",
    "C36_modular",
    "C36_rejects",
    "C36_typed",
    "C36_literal",
    "C36_strings",
    "C36_sum",
    "C36_sum_refuted",
    "C36_bin_literal_refuted",
    "C36_mixed_refuted",
    "C36_bin_sizes_refuted",
    "C36_no_gates_refuted",
    "C36_xor_refuted"
   ],
   "note": "Every clause over columns and integer, boolean or string literals whose operators have a value on the row (v_run), any widths; C36_modular gives the result for every mix of widths. Partial because accepted clauses with binary literals, and integers against strings or booleans that are not narrower, do not get the number semantics (C36_bin_literal_refuted, C36_mixed_refuted). The builders of the circuit library are represented by their documented function."
  },
  {
   "property": "C37",
   "status": "partial",
   "theorems": [
    "C37_requests_partial",
    "C37_disjoint_partial",
    "C37_unaligned_debug_refuted",
    "C37_unaligned_release_refuted",
    "C37_unaligned_refuted",
    "C37_odd_segment_reachable"
   ],
   "note": "Batch sizes that are multiples of 128: every history served, segments tile the batches, limit respected. Refuted for other batch sizes (accepted by GenState): assert failure in debug builds, unbounded batch in release builds."
  },
  {
   "property": "C38",
   "status": "proved",
   "theorems": [
    "C38_mirror",
    "C38_get"
   ],
   "note": "Any batch size and history; both parties' outcomes, segments and batches mirror each other; k-th get() yields the same segment."
  },
  {
   "property": "C39",
   "status": "proved",
   "theorems": [
    "C39_at_most_once",
    "C39_exactly_once",
    "C39_terminates",
    "C39_assert_refuted",
    "C39_order_refuted",
    "C39_abort_gap"
   ],
   "note": "All interleavings of any number of start() and abort() calls; also termination. Refuted: the assert in Batch::start can fail, and the set() calls need not happen in index order."
  },
  {
   "property": "C40",
   "status": "proved",
   "theorems": [
    "C40_schedule",
    "C40_concurrency",
    "C40_awaits_once",
    "C40_double_await"
   ],
   "note": "Any number of batches up to 2^62 and any abort pattern; awaiting a finished task again after an abort is shown reachable (C40_double_await)."
  },
  {
   "property": "C41",
   "status": "proved",
   "theorems": [
    "C41_dealt",
    "C41_two_party",
    "C41_abort_suffix",
    "C41_abort_gap_refuted"
   ],
   "note": "Any list of requests; two-party correctness lifted from positions to batches; abort of a suffix keeps the others right. Refuted when an aborted batch precedes a started one."
  },
  {
   "property": "C42",
   "status": "proved",
   "theorems": [
    "C42_ole",
    "C42_ole_sender_bits",
    "C42_size_check",
    "C42_cot",
    "C42_mock"
   ],
   "note": "Full statement for every hash, delta and correlated OT vector; also the mock OLEs. hashBlocks<8> is modelled as eight independent applications of a hash parameter."
  },
  {
   "property": "C43",
   "status": "partial",
   "theorems": [
    "C43_trit_partial",
    "C43_trit_sender",
    "C43_f4",
    "C43_f4_size_refuted",
    "C43_mock",
    "C43_vole"
   ],
   "note": "Trit OT (whenever the sender's run completes, i.e. no all-ones hash, the C46 finding) and F4 OT; also the mock trit OTs. Finding: F4 compression has no size check (refuted theorem)."
  },
  {
   "property": "C44",
   "status": "proved",
   "theorems": [
    "C44_field_spec",
    "C44_mul",
    "C44_mul_block",
    "C44_block_laws"
   ],
   "note": "Full statement."
  },
  {
   "property": "C45",
   "status": "proved",
   "theorems": [
    "C45_block_ops",
    "C45_span_ops"
   ],
   "note": "Full statement: block operations and all span versions (aliasing in-place versions included), every lane."
  },
  {
   "property": "C46",
   "status": "partial",
   "theorems": [
    "C46_lookup_valid",
    "C46_lookup_terminates",
    "C46_lookup_size_mismatch",
    "C46_fresh",
    "C46_tables",
    "C46_sample_seed_partial",
    "C46_sampleMod3_partial",
    "C46_sample_all_ones_refuted"
   ],
   "note": "Lookup sampler: full statement (validity, exact base-3 digits, termination when the key stream is not all >= 243). Hash sampler: proved for every seed with a pair different from 11; the all-ones seed is undefined behaviour (refuted theorem). No key-stream part is used twice (C46_fresh)."
  },
  {
   "property": "C47",
   "status": "partial",
   "theorems": [
    "C47_encode_partial",
    "C47_product_bits",
    "C47_linear",
    "C47_short_matrix_refuted"
   ],
   "note": "Proved for 128-row generator matrices (what the library uses). Matrices of 121..127 rows pass init's check but read out of bounds (refuted theorem)."
  },
  {
   "property": "C48",
   "status": "proved",
   "theorems": [
    "C48_bitsliced",
    "C48_matrix",
    "C48_linear",
    "C48_accumulate"
   ],
   "note": "Full statement; k>n, at least one permutation, batch size > 0."
  },
  {
   "property": "C49",
   "status": "proved",
   "theorems": [
    "C49_convert",
    "C49_too_short"
   ],
   "note": "Full statement; any correlation and any segmentation with enough positions; too few positions throw."
  },
  {
   "property": "C50",
   "status": "proved",
   "theorems": [
    "C50_mult",
    "C50_second_call_refuted",
    "C50_second_call_throws",
    "C50_sender_keys_kept"
   ],
   "note": "Full statement over histories of mult calls, binary and F3 inputs, key share present or absent. Finding: the receiver's second mult on a pending request throws (refuted theorem)."
  },
  {
   "property": "C51",
   "status": "partial",
   "theorems": [
    "C51_mod2_f4",
    "C51_mod2_ole_partial",
    "C51_ole_odd_segment_refuted",
    "C51_ole_odd_segment_hangs",
    "C51_ole_leftover_hangs"
   ],
   "note": "F4-OT protocol: every segmentation. OLE protocol: every segmentation into segments of even block count that exactly cover the input; the claim for odd segments and left-over segments is false (refuted: the loop or the receiver hangs)."
  },
  {
   "property": "C52",
   "status": "proved",
   "theorems": [
    "C52_eval",
    "C52_params",
    "C52_receiver_input",
    "C52_shared_input",
    "C52_deterministic"
   ],
   "note": "Receiver-only input (key at the sender or shared) and shared input/shared key, OLE and F4 mod-2 variants, any batch size; linear input expansion (the AES variant of expandInput is not modelled)."
  },
  {
   "property": "C53",
   "status": "partial",
   "theorems": [
    "C53_slli",
    "C53_storeu",
    "C53_shuffle_partial",
    "C53_hardware_bits",
    "C53_shuffle_refuted",
    "C53_movemask_refuted",
    "C53_cmpeq_refuted",
    "C53_compress_zero_refuted"
   ],
   "note": "False as stated: shuffle_epi8, movemask_epi8 and cmpeq_epi16 fallbacks are wrong (three refuted theorems); slli_epi16 and storeu_si32 are proved equal; shuffle_epi8 is proved equal when no control byte has its top bit set. Consequence proved: without SSE all OLE masks are zero."
  },
  {
   "property": "C54",
   "status": "proved",
   "theorems": [
    "C54_hides_party1",
    "C54_hides_party0"
   ],
   "note": "Both directions. The triples of the hiding party are assumed uniform among those correlated with the other's (the guarantee of the OLE generator, not modelled) and exactly as many as the circuit needs, which is what Gmw::init requests."
  },
  {
   "property": "C55",
   "status": "proved",
   "theorems": [
    "C55_scans",
    "C55_agrees",
    "C55_first_bit_refuted",
    "C55_small_refuted",
    "C55_share",
    "C55_share_hides",
    "C55_share_untrimmed_refuted"
   ],
   "note": "The claim needs the first control bit 0 and two rows; otherwise UB (C55_first_bit_refuted, C55_small_refuted). Hiding of share needs data without bits behind the declared width (C55_share_untrimmed_refuted)."
  },
  {
   "property": "C56",
   "status": "proved",
   "theorems": [
    "C56_div_ceil",
    "C56_div_ceil_zero",
    "C56_div_ceil_refuted",
    "C56_sign",
    "C56_sign_ub",
    "C56_fill_sign",
    "C56_fill",
    "C56_fill_index",
    "C56_fill_outside",
    "C56_sign_extend",
    "C56_sign_extend_id",
    "C56_sign_extend_refuted"
   ],
   "note": "divCeil holds while x+y <= 2^64 (C56_div_ceil_refuted otherwise); signExtend holds below bit 63 and is UB from there on (C56_sign_extend_refuted); fillInplace with another bit than the indexed one overwrites the indexed bit at byte boundaries (C56_fill_index)."
  },
  {
   "property": "C57",
   "status": "proved",
   "theorems": [
    "C57_end_to_end",
    "C57_wires_apart",
    "C57_set_rejects",
    "C57_map_rejects",
    "C57_unset_rejected",
    "C57_output_index_refuted",
    "C57_output_bits",
    "C57_empty_bundle_refuted",
    "C57_mixed_output_refuted"
   ],
   "note": "Input bundles must be disjoint and outputs must contain no input wire: C57_mixed_output_refuted, C57_empty_bundle_refuted and C57_output_index_refuted show what happens otherwise. A mapped matrix must have the stride of the wires, as resize with alignment 16 makes it."
  },
  {
   "property": "C58",
   "status": "proved",
   "theorems": [
    "C58_rank",
    "C58_invert",
    "C58_encrypt",
    "C58_decrypt",
    "C58_decrypt_throws",
    "C58_set_key",
    "C58_circuit",
    "C58_load",
    "C58_stream",
    "C58_files",
    "C58_sparse_row_refuted",
    "C58_long_key_refuted",
    "C58_unchecked_refuted"
   ],
   "note": "The circuit claim needs two ones in every matrix row (C58_sparse_row_refuted otherwise); keys longer than the block are read out of bounds (C58_long_key_refuted); without the invertable flag encryption need not be injective (C58_unchecked_refuted). The LFSR behind the random bits is an arbitrary stream, so termination of the rejection sampling is a hypothesis (the constructor returns)."
  },
  {
   "property": "C59",
   "status": "partial",
   "theorems": [
    "C59_generate",
    "C59_width",
    "C59_throws",
    "C59_points",
    "C59_points_distinct_partial",
    "C59_mask_reuse_refuted"
   ],
   "note": "That different blocks get different points is proved for rows of at most one block (C59_points_distinct_partial, with the exact criterion in C59_points) and false for wider rows: j + srcIdx << 32 adds before it shifts, so block 1 of a row and block 0 of the next are the same mask (C59_mask_reuse_refuted). Everything else is proved for any levelling of the circuit that computes it."
  },
  {
   "property": "C60",
   "status": "proved",
   "theorems": [
    "C60_silent",
    "C60_chosen",
    "C60_diff",
    "C60_sample",
    "C60_batch",
    "C60_throws",
    "C60_base_size_refuted",
    "C60_choice_size_refuted",
    "C60_chosen_packed_refuted"
   ],
   "note": "Library parts (syndromeDecodingConfigure, PPRF, base OTs, noisy VOLE, the two codes) are parameters with their documented contract. Refuted parts: the receiver does not check the size of the base VOLE, receiveChosen does not check the number of chosen values, and the values packed in a after a chosen run are the random ones."
  },
  {
   "property": "C61",
   "status": "partial",
   "theorems": [
    "C61_on_batches_partial",
    "C61_init",
    "C61_session_partial",
    "C61_sessions_partial",
    "C61_clear",
    "C61_stale_fails",
    "C61_straddle_fails",
    "C61_shared_fails",
    "C61_preprocess",
    "C61_receiver_idle",
    "C61_receiver_preprocess_refuted",
    "C61_preprocess_first",
    "C61_sender_init_unguarded"
   ],
   "note": "Proved for sessions without stale key requests, with room for the key OTs in the open batch and OLE batches of even size. Each of the three is a refutation otherwise (C61_stale_fails, C61_straddle_fails, C51_ole_odd_segment_hangs)."
  },
  {
   "property": "C62",
   "status": "proved",
   "theorems": [
    "C62_delivery",
    "C62_batch_count",
    "C62_mock",
    "C62_tasks",
    "C62_ot_debug"
   ],
   "note": "Every call of get succeeds and yields its own segment, in any order; both parties' segments match; batchCount bounds the segments; mock and real tasks give valid batches (the trit sender's task may loop). The PRF sessions of C61 on batches: C61_on_batches_partial."
  },
  {
   "property": "C63",
   "status": "partial",
   "theorems": [
    "C63_ends",
    "C63_compare_partial",
    "C63_unequal_refuted",
    "C63_none_refuted"
   ],
   "note": "Proved that the exchange ends, and the comparison for lists whose lengths differ by at most one and are both nonempty. The rest is false of the code: C63_unequal_refuted (deadlock), C63_none_refuted (no report)."
  },
  {
   "property": "C64",
   "status": "partial",
   "theorems": [
    "C64_ends",
    "C64_prepared",
    "C64_returned",
    "C64_lead",
    "C64_mock_partial",
    "C64_mock_refuted",
    "C64_again_refuted",
    "C64_keys",
    "C64_no_bits_refuted",
    "C64_failed_refuted"
   ],
   "note": "Ends, preparation before use and the lead are proved for all interleavings. False of the code: the mocked sort with more rounds than mPreProLead when genPrePerm was called, a second use of the object, a failed generation is announced as ready, keys of no bits."
  },
  {
   "property": "C65",
   "status": "proved",
   "theorems": [
    "C65_conv_recv",
    "C65_conv_send",
    "C65_f4_recv",
    "C65_f4_send",
    "C65_ole_recv",
    "C65_ole_send",
    "C65_row",
    "C65_row_key0",
    "C65_row_key1",
    "C65_key_f4",
    "C65_key_ole",
    "C65_key_output",
    "C65_input_f4",
    "C65_input_ole",
    "C65_input_run"
   ],
   "note": "Over the randomness of the ideal correlations: the trits and pads the OT strings expand to are taken as uniform (C65_row, C65_input_run say that the code's are of that form), so security of the generators and of the OT extension is assumed, not proved."
  },
  {
   "property": "C66",
   "status": "proved",
   "theorems": [
    "C66_input",
    "C66_perm",
    "C66_second_derand",
    "C66_second_derand_refuted",
    "C66_party0",
    "C66_party1"
   ],
   "note": "Views are all messages to a party and its outputs along a history. Perfect hiding in the model of ideal correlations: a bijection of the honest party's parts that fit. C66_second_derand_refuted shows that 'at most once' is needed: a second derandomize on the same correlation announces the quotient of the two permutations. The code derandomizes each correlation once (RadixSort.cpp:1186, GroupBy.cpp:384, OmJoin.cpp:549)."
  },
  {
   "property": "C67",
   "status": "proved",
   "theorems": [
    "C67_inj_recv",
    "C67_inj_send",
    "C67_hs_send",
    "C67_hs_recv",
    "C67_run",
    "C67_party1",
    "C67_party0"
   ],
   "note": "Perfect hiding in the model of ideal transfers and ideal circuits (what the Gmw runs show beyond their output shares is C54): a bijection of the honest party's randomness. The view of a round is the party's share of the indicator bits, all messages of the bit injection and of both directions of hadamardSum, and its share of the result. C67_run ties the traced round to gen_bit_perm of C27. The sender's messages hide for arbitrary differences."
  },
  {
   "property": "C68",
   "status": "proved",
   "theorems": [
    "C68_run",
    "C68_party1",
    "C68_party0"
   ],
   "note": "Perfect hiding in the model of ideal transfers, correlations and circuits, by an explicit bijection of the honest party's randomness over all rounds. The widths are those for which the sort works (C28): digits of 2 to 8 bits, or one bit for one-bit keys, and 9 bytes of correlation per permutation. C68_run ties the traced sort to gen_perm and shows that it succeeds."
  },
  {
   "property": "C69",
   "status": "proved",
   "theorems": [
    "C69_same",
    "C69_valid",
    "C69_terminates",
    "C69_lane_model",
    "C69_ops_agree",
    "C69_srli_refuted",
    "C69_counter",
    "C69_tables"
   ],
   "note": "Both builds of the sampler on vectors, with assertions; the rejection loop may hang on a stream without bytes below 243, as in C46. The operations differ on lanes with the top bit (C69_srli_refuted), which the sampler does not see."
  },
  {
   "property": "C70",
   "status": "partial",
   "theorems": [
    "C70_run",
    "C70_validate_ok",
    "C70_perm_bytes",
    "C70_party1_reads_keys",
    "C70_party0_reads_keys",
    "C70_party1_refuted",
    "C70_party0_refuted",
    "C70_party1_partial",
    "C70_party0_partial"
   ],
   "note": "The sort and the permutation are the real protocols; the circuits are represented by the shares they return; the same statement with all their messages is proved in C75 (C75_party0, C75_party1). The join as it is leaks through perm.validate (refuted theorems)."
  },
  {
   "property": "C71",
   "status": "proved",
   "theorems": [
    "C71_up",
    "C71_down",
    "C71_leaf",
    "C71_dup",
    "C71_add",
    "C71_levels",
    "C71_run"
   ],
   "note": "The circuits of the tree are built without error and compute the steps of C24 for any operator and multiplexer that keep their contracts (both contracts are shown to be met by example builders); the operators of join and group-by; the run by Gmw on shares."
  },
  {
   "property": "C72",
   "status": "proved",
   "theorems": [
    "C72_shares",
    "C72_lanes",
    "C72_tree",
    "C72_dup",
    "C72_add"
   ],
   "note": "The run is given enough correlations by its caller; the operator's circuit and the multiplexer meet their contracts (C71). Matrices are modelled with the blocks per row that Gmw uses."
  },
  {
   "property": "C73",
   "status": "proved",
   "theorems": [
    "C73_same",
    "C73_hides_party1",
    "C73_hides_party0",
    "C73_run_party1",
    "C73_run_party0"
   ],
   "note": "The correlations of the party that does not look are assumed uniform among those fitting the other's, and exactly as many as each run asks for, as in C54. Uninitialised memory and the rest of each party's data are the same in both runs."
  },
  {
   "property": "C74",
   "status": "proved",
   "theorems": [
    "C74_levels",
    "C74_control",
    "C74_run",
    "C74_join",
    "C74_reveal"
   ],
   "note": "The join with its Gmw and AggTree runs; the library's multiplexer and one-bit and are assumed to compute what they should (lib_ok); keys must be told apart by the bits the circuit compares (see C32)."
  },
  {
   "property": "C75",
   "status": "proved",
   "theorems": [
    "C75_counts",
    "C75_party0",
    "C75_party1",
    "C75_party1_reads_keys",
    "C75_party0_reads_keys"
   ],
   "note": "Pairing of the other party's randomness and correlations, for the whole run of C74. Correlations are those of an ideal generator; validate is left out, and with it both parties read all keys (C75_party0_reads_keys, C75_party1_reads_keys)."
  },
  {
   "property": "C76",
   "status": "proved",
   "theorems": [
    "C76_open",
    "C76_view",
    "C76_no_flags_hangs",
    "C76_flags_ignored",
    "C76_rows_differ"
   ],
   "note": "For tables with at least one row; the two mismatches of the flags are stated as they are (C76_no_flags_hangs, C76_flags_ignored)."
  },
  {
   "property": "C77",
   "status": "proved",
   "theorems": [
    "C77_opens",
    "C77_party0",
    "C77_party1"
   ],
   "note": "For the whole run of C74 and C75 followed by revealRemote/revealLocal, without validate. Right rows without a match are opened too: revealLocal does not remove them."
  },
  {
   "property": "C78",
   "status": "proved",
   "theorems": [
    "C78_levels",
    "C78_run",
    "C78_where",
    "C78_hides",
    "C78_opens",
    "C78_open_hides"
   ],
   "note": "C78_levels: a levelling exists for every clause. C78_run, C78_where: the run returns shares of the filtered table. C78_hides: the messages and the output pair up for any two shares of the other party. C78_opens, C78_open_hides: with the opening. The removal of inactive rows is C34/C35_extract. Clauses with an inverted output wire are excluded from C78_where (C35_inverted_refuted); selections other than all columns in order throw (C35_selection_refuted)."
  },
  {
   "property": "C79",
   "status": "proved",
   "theorems": [
    "C79_levels",
    "C79_sums",
    "C79_run",
    "C79_shares",
    "C79_reveal"
   ],
   "note": "The group by with its Gmw and AggTree runs under the conditions of C33 (without them the statement is false, see C33's refutations). The library's multiplexer and adder are assumed to compute what they should (gb_lib_ok, met by the multiplexer and ripple carry adder of the example); sort and permutations by their proved functionality."
  },
  {
   "property": "C80",
   "status": "proved",
   "theorems": [
    "C80_same",
    "C80_hides_party0",
    "C80_hides_party1"
   ],
   "note": "C80_same: the run is that of C79. C80_hides_party0/1: for any two queries of the other party with the same public shape. The messages of the radix sort and of the two permutations are outside the view (their outputs are fresh sharings, and the permutation itself is not seen by either party); the correlations are those of an ideal generator. Unlike C79 it needs no condition that the keys are told apart."
  },
  {
   "property": "C81",
   "status": "proved",
   "theorems": [
    "C81_opens",
    "C81_party0",
    "C81_party1",
    "C81_all_active_shows",
    "C81_sums_only_refuted"
   ],
   "note": "C81_opens: the table that is opened. C81_party0/1: secrecy up to that table, both receivers, under the conditions of C79 (C81 has the scope of C80: messages of sort and permutations outside the view). C81_sums_only_refuted: no more than the grouped sums is false; C81_all_active_shows: if all rows are active the opened table determines every row. See DESIGN.md section 6."
  }
 ]
}