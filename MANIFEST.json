{
 "claims": [
  {
   "property": "C01",
   "status": "proved",
   "theorems": [
    "C01_packed_integer_round_trip",
    "C01_from_2_pow_56_refuted"
   ],
   "note": "Refuted theorem: 2^56 is outside the packer's domain."
  },
  {
   "property": "C02",
   "status": "proved",
   "theorems": [
    "C02_direct_integer_round_trip",
    "C02_zero_refuted"
   ],
   "note": "Zero writes no byte."
  },
  {
   "property": "C03",
   "status": "proved",
   "theorems": [
    "C03_reversed_packed_integer_round_trip"
   ],
   "note": ""
  },
  {
   "property": "C04",
   "status": "proved",
   "theorems": [
    "C04_unary_round_trip"
   ],
   "note": ""
  },
  {
   "property": "C05",
   "status": "proved",
   "theorems": [
    "C05_binary_code_round_trip",
    "C05_wide_range_refuted"
   ],
   "note": ""
  },
  {
   "property": "C06",
   "status": "proved",
   "theorems": [
    "C06_interpolative_round_trip"
   ],
   "note": ""
  },
  {
   "property": "C07",
   "status": "proved",
   "theorems": [
    "C07_logarithms",
    "C07_most_significant_bit",
    "C07_logCeiling_wide_refuted"
   ],
   "note": ""
  },
  {
   "property": "C08",
   "status": "proved",
   "theorems": [
    "C08_store_runs",
    "C08_run_counters",
    "C08_runs_unique",
    "C08_empty_refuted"
   ],
   "note": ""
  },
  {
   "property": "C14",
   "status": "proved",
   "theorems": [
    "C14_range_coder_round_trip"
   ],
   "note": "All probabilities 0..4096, chosen adaptively from the coded history."
  },
  {
   "property": "C15",
   "status": "proved",
   "theorems": [
    "C15_range_coder_counter"
   ],
   "note": ""
  },
  {
   "property": "C16",
   "status": "proved",
   "theorems": [
    "C16_predictions_codable"
   ],
   "note": ""
  },
  {
   "property": "C17",
   "status": "proved",
   "theorems": [
    "C17_negative_shift_refuted",
    "C17_index_refuted"
   ],
   "note": "The property is false of the code; the refutation is proved."
  },
  {
   "property": "C18",
   "status": "proved",
   "theorems": [
    "C18_reset_is_fresh",
    "C18_default_model_refuted"
   ],
   "note": "Holds for the integer-code, gap, u and b models; refuted for the default model."
  },
  {
   "property": "C25",
   "status": "proved",
   "theorems": [
    "C25_output_stream"
   ],
   "note": "Buffered writer with any positive buffer size; positional patching and getPos included."
  },
  {
   "property": "C26",
   "status": "proved",
   "theorems": [
    "C26_input_stream",
    "C26_end_of_data",
    "C26_one_byte_left_refuted"
   ],
   "note": "Bit/byte/block reads against the plain bit string; the end-of-data test is exact except with exactly one byte left, where it is refuted."
  },
  {
   "property": "C27",
   "status": "proved",
   "theorems": [
    "C27_circular_buffer"
   ],
   "note": ""
  },
  {
   "property": "C24",
   "status": "proved",
   "theorems": [
    "C24_bwt_header_round_trip",
    "C24_starting_points_count",
    "C24_no_starting_points_refuted"
   ],
   "note": ""
  },
  {
   "property": "C28",
   "status": "proved",
   "theorems": [
    "C28_slices",
    "C28_largest_block_size_refuted"
   ],
   "note": "The clamp value used by the compressor fails the assertion (refuted part)."
  },
  {
   "property": "C29",
   "status": "proved",
   "theorems": [
    "C29_sections",
    "C29_empty_block_refuted"
   ],
   "note": "Holds for non-empty blocks; the empty block is refuted."
  },
  {
   "property": "C09",
   "status": "proved",
   "theorems": [
    "C09_complete_prefix_code",
    "C09_single_symbol",
    "C09_length_bound"
   ],
   "note": ""
  },
  {
   "property": "C10",
   "status": "proved",
   "theorems": [
    "C10_optimal"
   ],
   "note": "Against every prefix-free assignment of bit strings to the occurring symbols."
  },
  {
   "property": "C11",
   "status": "proved",
   "theorems": [
    "C11_canonical_codes",
    "C11_incomplete_code_refuted"
   ],
   "note": "Holds for complete tables and the one-symbol table; Kraft's inequality alone is refuted."
  },
  {
   "property": "C12",
   "status": "proved",
   "theorems": [
    "C12_table_round_trip",
    "C12_long_code_refuted"
   ],
   "note": "Lengths below 128; the encoder's lengths are at most 91 by C09_length_bound."
  },
  {
   "property": "C13",
   "status": "proved",
   "theorems": [
    "C13_block_round_trip",
    "C13_long_run_refuted"
   ],
   "note": "All blocks below 2 GiB whose runs are shorter than 2^29; longer runs are refuted."
  },
  {
   "property": "C36",
   "status": "proved",
   "theorems": [
    "C36_fast_inverse",
    "C36_every_block"
   ],
   "note": "For every text of 1 .. 2^31-2 bytes and every correct suffix sorter (oracle)."
  },
  {
   "property": "C37",
   "status": "proved",
   "theorems": [
    "C37_mtl_inverse"
   ],
   "note": "Same; any number of starting points asked for (the code uses 1..256)."
  },
  {
   "property": "C38",
   "status": "proved",
   "theorems": [
    "C38_statistics"
   ],
   "note": ""
  },
  {
   "property": "C32",
   "status": "proved",
   "theorems": [
    "C32_special_pairs"
   ],
   "note": "Up to 255 special symbols, which is what the header can hold."
  },
  {
   "property": "C33",
   "status": "proved",
   "theorems": [
    "C33_postprocess_undoes_precompress",
    "C33_through_header",
    "C33_growth_refuted"
   ],
   "note": "For every block on which the precompressor finishes without a failed assertion and every round written in place has room in its buffer (the condition of C34, decided by roundsFit); blocks below 2^31 bytes, at most a million rounds. The condition is needed: the code does not check that the buffer has room. That the precompressor finishes every block is false: C33_growth_refuted has a block of 89954 bytes that grows beyond its memory in the first round."
  },
  {
   "property": "C35",
   "status": "proved",
   "theorems": [
    "C35_table",
    "C35_remove_reads_outside",
    "C35_increase_after_remove_refuted"
   ],
   "note": "Order and lookups for all permitted sequences, taking the word behind the array as gcc lays it out; the claim that reads stay inside the table is refuted for every first removal."
  },
  {
   "property": "C30",
   "status": "proved",
   "theorems": [
    "C30_header_round_trip",
    "C30_end_marker",
    "C30_stand_alone",
    "C30_size_zero_refuted",
    "C33_through_header"
   ],
   "note": "For all grammars meeting the explicit condition [writable] and all positive sizes; C33_through_header proves it for every grammar the precompressor builds."
  },
  {
   "property": "C31",
   "status": "proved",
   "theorems": [
    "C31_grammar_round_trip",
    "C33_postprocess_undoes_precompress",
    "C33_through_header"
   ],
   "note": "For all grammars meeting the explicit condition [writable]; C33_postprocess_undoes_precompress proves that every grammar the precompressor builds meets it."
  },
  {
   "property": "C34",
   "status": "proved",
   "theorems": [
    "C34_in_place_equals_buffered",
    "C34_full_buffer_refuted",
    "C34_short_block_refuted",
    "C34_two_bytes_refuted"
   ],
   "note": "For every table, block and buffer size, if the buffer has room for the symbols written as two bytes and two more; without that the claim is refuted."
  },
  {
   "property": "C39",
   "status": "proved",
   "theorems": [
    "C39_huffman_round_trip",
    "C39_huffman_no_preprocessing",
    "C39_wavelet_round_trip",
    "C39_wavelet_exactly",
    "C39_wavelet_six_bytes_refuted",
    "C39_three_bytes_refuted",
    "C39_two_bytes_refuted",
    "C39_growth_refuted"
   ],
   "note": "Huffman and wavelet coders. With pair replacement for blocks meeting the condition of C33 that do not grow; without the condition there are counterexamples (the refuted theorems). Without pair replacement it is also proved that compress finishes with the Huffman coder, and for the wavelet coders other than m and M exactly when it does (C39_wavelet_exactly)."
  },
  {
   "property": "C40",
   "status": "proved",
   "theorems": [
    "C39_huffman_round_trip",
    "C39_huffman_no_preprocessing",
    "C39_wavelet_round_trip"
   ],
   "note": "Under the conditions of C39."
  },
  {
   "property": "C41",
   "status": "proved",
   "theorems": [
    "C41_truncated_refuted"
   ],
   "note": "The property is false: the empty file, and every archive without its last byte, lead to undefined behaviour (an integer without end)."
  },
  {
   "property": "C42",
   "status": "proved",
   "theorems": [
    "C42_small_limit_refuted",
    "C42_no_slices_refuted"
   ],
   "note": "The property is false: with a BWT block size of zero every file gives the archive of the empty file; with pair replacement the slicing never ends."
  },
  {
   "property": "C19",
   "status": "proved",
   "theorems": [
    "C19_fixed_codes",
    "C19_gamma_codes"
   ],
   "note": ""
  },
  {
   "property": "C20",
   "status": "proved",
   "theorems": [
    "C20_message"
   ],
   "note": "For every string shorter than 2^31 whose tree is built without undefined behaviour (see C23) and every outcome of the floating point comparisons."
  },
  {
   "property": "C21",
   "status": "proved",
   "theorems": [
    "C21_shape"
   ],
   "note": "Runs below 2^30: from there on binaryCode is undefined (C05)."
  },
  {
   "property": "C22",
   "status": "proved",
   "theorems": [
    "C22_block",
    "C22_coders"
   ],
   "note": "The encoder is assumed to finish: C23_blocks says exactly when it does for the models other than those selected by m and M (C17)."
  },
  {
   "property": "C23",
   "status": "proved",
   "theorems": [
    "C23_end_of_frequencies_refuted",
    "C23_exactly",
    "C23_always_built",
    "C23_never_built",
    "C23_blocks"
   ],
   "note": "The wished-for property, that the encoder never leaves the list, is false; proved is exactly when it does, for every outcome of the floating point comparisons."
  },
  {
   "property": "C43",
   "status": "proved",
   "theorems": [
    "C43_priority_queue",
    "C43_order"
   ],
   "note": "Weights are compared as unbounded numbers; deleting from an empty heap is undefined."
  },
  {
   "property": "C44",
   "status": "proved",
   "theorems": [
    "C44_round_trip",
    "C44_no_options",
    "C44_three_bytes_refuted",
    "C44_block_size_refuted"
   ],
   "note": "The programs without their command line parsing and verbose output. With pair replacement under the condition of C33 on each block; without it there is a counterexample."
  },
  {
   "property": "C45",
   "status": "proved",
   "theorems": [
    "C45_suffix_array"
   ],
   "note": "All branches of sais.hxx 46-742 for isbwt == false. int is unbounded in the model and allocation succeeds; C, B and D are arrays of their own."
  },
  {
   "property": "C46",
   "status": "proved",
   "theorems": [
    "C46_rows",
    "C46_inverse",
    "C46_same_archive",
    "C46_huffman_round_trip",
    "C46_huffman_no_preprocessing",
    "C46_wavelet_round_trip"
   ],
   "note": "No assumption about a suffix sorter. Simplifications as for C45; the conditions of C39 on the blocks remain for pair replacement."
  },
  {
   "property": "C47",
   "status": "proved",
   "theorems": [
    "C47_section",
    "C47_archive",
    "C47_archive_sais"
   ],
   "note": "For the Huffman coder without pair replacement. The constant 1.3 = 9/8 plus the code table of a section, of which there is one per 10000 bytes."
  },
  {
   "property": "C48",
   "status": "proved",
   "theorems": [
    "C48_sizes",
    "C48_quotient",
    "C48_buffer",
    "C48_round_trip",
    "C48_huffman",
    "C48_same_archive",
    "C48_much_memory_refuted",
    "C48_wrapped_limit_refuted"
   ],
   "note": "Command line parsing is not modelled. Doubles are IEEE binary64 (SpecFloat). Round trip whenever the program finishes; with the wavelet coders and with pair replacement it may not (C23, C34)."
  },
  {
   "property": "C49",
   "status": "proved",
   "theorems": [
    "C49_round",
    "C49_blocks",
    "C49_buffers",
    "C49_restores",
    "C49_program",
    "C49_four_bytes_refuted"
   ],
   "note": "Complements the refutations of C33, C34 and C39: few repetitions are sufficient for the condition those theorems need. Termination is not part of the claim."
  },
  {
   "property": "C50",
   "status": "proved",
   "theorems": [
    "C50_decides",
    "C50_finishes",
    "C50_ratio",
    "C50_program"
   ],
   "note": "Totality, the complement of C33, C39 and C49, which speak about results. The condition on the last byte is needed because of C34_full_buffer_refuted."
  },
  {
   "property": "C51",
   "status": "proved",
   "theorems": [
    "C51_plain",
    "C51_pairs",
    "C51_header"
   ],
   "note": "Bounds from above only; nothing is claimed about how well files are compressed. Lengths of the file modulo the block size of 3 and 4 are left out with --prepr, because C49 and C50 leave them out."
  },
  {
   "property": "C52",
   "status": "proved",
   "theorems": [
    "C52_predictors",
    "C52_even",
    "C52_round_trip",
    "C52_frequence",
    "C52_frequence_refuted",
    "C52_composed",
    "C52_automata",
    "C52_reset",
    "C52_reset_refuted",
    "C52_dmc",
    "C52_dmc_recursion_refuted"
   ],
   "note": "DMC is claimed safe only where its recursion ends; when it ends is not characterised. The models are templates that no function of the program returns."
  },
  {
   "property": "C53",
   "status": "proved",
   "theorems": [
    "C53_exactly",
    "C53_blocks",
    "C53_five_bytes",
    "C53_six_bytes_refuted"
   ],
   "note": "Without --prepr. The coders m and M are excluded (C17). The sorter is assumed to sort except with --bwt s, where SA-IS makes the same archive."
  },
  {
   "property": "C54",
   "status": "proved",
   "theorems": [
    "C54_never_chosen",
    "C54_zero_refuted"
   ],
   "note": "Finding: not intended by the code, without consequence for the round trip."
  },
  {
   "property": "C55",
   "status": "proved",
   "theorems": [
    "C55_kraft",
    "C55_three",
    "C55_lost_refuted",
    "C55_null_refuted"
   ],
   "note": "Nothing is claimed about the optimality of the lengths, nor about when the function returns for five symbols or more.  The function has no caller."
  },
  {
   "property": "C56",
   "status": "proved",
   "theorems": [
    "C56_memory_round_trip",
    "C56_overlong",
    "C56_end_symbol_refuted"
   ],
   "note": "The memory version has no caller in the program."
  },
  {
   "property": "C57",
   "status": "proved",
   "theorems": [
    "C57_optimal",
    "C57_same",
    "C57_one",
    "C57_none_refuted"
   ],
   "note": "The sum of the frequencies is below 2^64. Only the unit tests call the function."
  },
  {
   "property": "C58",
   "status": "proved",
   "theorems": [
    "C58_total",
    "C58_rank",
    "C58_children"
   ],
   "note": "For blocks whose tree is built (C23 says when it is). size_t is unbounded in the model."
  }
 ]
}