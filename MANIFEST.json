{"claims": [
 {"property": "C01", "status": "proved", "theorems": ["C01_edge_list_exact"], "note": "All well-formed files, team sizes, interleavings; files whose size is a multiple of the page size are excluded (C09)."},
 {"property": "C02", "status": "proved", "theorems": ["C02_edge_list_deterministic", "C02_edge_list_weighted_deterministic", "C02_weighted_drop_refuted", "C02_weighted_drop_any_order", "C02_weighted_drop_in_order", "C02_weighted_drop_racy"], "note": "Deterministic: unweighted with all flags, weighted when nothing is dropped. Weighted with dropped entries: C02_weighted_drop_any_order bounds what every interleaving can give, C02_weighted_drop_in_order and C02_weighted_drop_racy show that both the right and a wrong result occur (C02_weighted_drop_refuted is a small instance with two threads)."},
 {"property": "C03", "status": "proved", "theorems": ["C03_edge_list_flags"], "note": "All 8 flag combinations against the per-entry rule."},
 {"property": "C04", "status": "proved", "theorems": ["C04_edge_list_weights"], "note": "Unsigned, signed, floating-point weights; fp arithmetic is a parameter (rounding not modelled)."},
 {"property": "C05", "status": "proved", "theorems": ["C05_edge_list_dims"], "note": "Exact values of nrows, ncols, n."},
 {"property": "C06", "status": "proved", "theorems": ["C06_edge_list_race_free", "C06_edge_list_race_free_weighted"], "note": "No UB outcome, every cell written once, by one thread."},
 {"property": "C07", "status": "proved", "theorems": ["C07_edge_list_layout"], "note": "Same labels, any comments/blank lines/separators/CR/trailing text."},
 {"property": "C08", "status": "proved", "theorems": ["C08_counted_but_not_stored", "C08_dropped_with_flags", "C08_weight_without_labels", "C08_weight_overrun", "C08_trailing_text_is_enough"], "note": "Finding. Five theorems, one per case of the statement."},
 {"property": "C09", "status": "proved", "theorems": ["C09_page_multiple_overrun", "C09_other_sizes", "C09_every_format", "C09_tensor"], "note": "Finding: UB for every page-multiple text file, in each text format and through each constructor; the positive half for edge lists with arbitrary bytes is C43_arbitrary_bytes, for well-formed files the off_page hypothesis of C01/C33/C34/C36."},
 {"property": "C10", "status": "proved", "theorems": ["C10_weighted_drop_overrun"], "note": "Finding: store past the weights array."},
 {"property": "C11", "status": "proved", "theorems": ["C11_read_int_modular", "C11_read_int_signed"], "note": "Unsigned/narrow types modulo 2^bits; wide signed types UB on overflow."},
 {"property": "C12", "status": "proved", "theorems": ["C12_write_size_exact", "C12_canonical_unique", "C12_minimum_refuted"], "note": "C12_minimum_refuted is the exception in the statement."},
 {"property": "C13", "status": "proved", "theorems": ["C13_coo_write_text", "C13_coo_write_text_int_weights", "C13_static_schedule", "C13_empty_throws"], "note": "Any interleaving; order of lines under static distribution."},
 {"property": "C14", "status": "proved", "theorems": ["C14_text_round_trip", "C14_text_round_trip_unsigned_weights", "C14_text_round_trip_signed_weights", "C14_text_round_trip_float_weights"], "note": "Unweighted, unsigned, signed and floating-point weights; any team sizes."},
 {"property": "C15", "status": "proved", "theorems": ["C15_coo_round_trip", "C15_coo_file_to_csr"], "note": "Any team sizes; also loading the COO file as a CSR."},
 {"property": "C16", "status": "proved", "theorems": ["C16_csr_round_trip", "C16_csr_file_to_coo"], "note": "Also loading the CSR file as a COO."},
 {"property": "C17", "status": "proved", "theorems": ["C17_tensor_round_trip"], "note": ""},
 {"property": "C18", "status": "proved", "theorems": ["C18_digraph_round_trip"], "note": ""},
 {"property": "C19", "status": "proved", "theorems": ["C19_sizes_checked", "C19_saved_rejected", "C19_magic_checked", "C19_magic_checked_csr", "C19_magic_checked_others"], "note": "Sizes and magic of all formats."},
 {"property": "C20", "status": "proved", "theorems": ["C20_coo_layout", "C20_csr_layout", "C20_digraph_layout", "C20_tensor_layout"], "note": "Byte-exact layout, every byte written once."},
 {"property": "C21", "status": "proved", "theorems": ["C21_detection"], "note": "Full decision table."},
 {"property": "C22", "status": "proved", "theorems": ["C22_coo_to_csr"], "note": "Atomic counting and scatter as interleaved small steps."},
 {"property": "C23", "status": "proved", "theorems": ["C23_sort"], "note": "std::sort is any function meeting its contract."},
 {"property": "C24", "status": "proved", "theorems": ["C24_without_dups", "C24_least_weight"], "note": ""},
 {"property": "C25", "status": "proved", "theorems": ["C25_csr_to_coo", "C25_race_free"], "note": ""},
 {"property": "C26", "status": "proved", "theorems": ["C26_csr_to_coo_flags", "C26_not_implemented", "C26_self_loops_not_implemented"], "note": ""},
 {"property": "C27", "status": "proved", "theorems": ["C27_saved_indeterminate", "C27_dimensions_unassigned"], "note": "Finding: nrows/ncols indeterminate."},
 {"property": "C28", "status": "proved", "theorems": ["C28_coo_csr_coo"], "note": ""},
 {"property": "C29", "status": "proved", "theorems": ["C29_degree_neighbors", "C29_degrees_sum"], "note": ""},
 {"property": "C30", "status": "proved", "theorems": ["C30_in_out"], "note": ""},
 {"property": "C31", "status": "proved", "theorems": ["C31_transpose", "C31_involution"], "note": ""},
 {"property": "C32", "status": "proved", "theorems": ["C32_value_semantics", "C32_copies_independent", "C32_free_twice", "C32_no_leak", "C32_empty_blocks_leak", "C32_csr_copy_shares", "C32_csr_vector_copy_independent", "C32_csr_double_free", "C32_csr_free_empty", "C32_allocate"], "note": "Value semantics proved by simulation for all client programs; the CSR part states the sharing and double frees."},
 {"property": "C33", "status": "proved", "theorems": ["C33_matrix_market", "C33_matrix_market_weighted", "C33_plain", "C33_dropped_rejected", "C33_other_banner"], "note": ""},
 {"property": "C34", "status": "proved", "theorems": ["C34_zero_based", "C34_coo", "C34_header_checked"], "note": "Comment-free bodies."},
 {"property": "C35", "status": "proved", "theorems": ["C35_one_based", "C35_one_more", "C35_page_multiple"], "note": "Finding."},
 {"property": "C36", "status": "proved", "theorems": ["C36_tensor_text", "C36_tensor_weighted"], "note": ""},
 {"property": "C37", "status": "proved", "theorems": ["C37_order_of_first_line", "C37_trailing_text_adds_one", "C37_carriage_return", "C37_exponent", "C37_unterminated_overrun", "C37_short_last_line", "C37_unterminated_single_label", "C37_unterminated_trailing_text", "C37_unterminated_weighted", "C37_page_multiple_overrun", "C37_team_dependent"], "note": "Findings, one theorem per case."},
 {"property": "C38", "status": "proved", "theorems": ["C38_tensor_write_text", "C38_tensor_write_int_weights", "C38_tensor_write_float_weights", "C38_empty_throws", "C38_tensor_round_trip", "C38_tensor_round_trip_unsigned_weights", "C38_tensor_round_trip_signed_weights", "C38_tensor_round_trip_float_weights"], "note": ""},
 {"property": "C39", "status": "proved", "theorems": ["C39_all_but_the_first_byte", "C39_exact", "C39_null_byte", "C39_page_multiple_overrun"], "note": "Finding for an occurrence at the first byte."},
 {"property": "C40", "status": "proved", "theorems": ["C40_open_and_seek", "C40_read_value", "C40_read_past_mapping", "C40_write_value"], "note": ""},
 {"property": "C41", "status": "proved", "theorems": ["C41_float_format"], "note": "Sizes and placement; the digits of a floating weight are a parameter here and are modelled in C58."},
 {"property": "C42", "status": "proved", "theorems": ["C42_literal", "C42_literal_at_end", "C42_integer"], "note": "Exact arithmetic (rationals); rounding is C56."},
 {"property": "C43", "status": "proved", "theorems": ["C43_edge_list_contents", "C43_mm_arbitrary_bytes", "C43_mm_contents", "C43_edge_list_graphs", "C43_mm_graphs", "C43_mm_matrix", "C43_edge_list_matrix", "C43_arbitrary_bytes", "C43_graph_arbitrary_bytes", "C43_coo_ends", "C43_csr_ends", "C43_digraph_ends", "C43_tensor_ends"], "note": "Termination: all constructors, all byte strings, with the exception stated (C50). Memory safety on arbitrary bytes for unweighted edge lists, Matrix Market and adjacency files; contents (COO, CSR, DiGraph and Matrix) for unweighted edge lists and Matrix Market files whose last byte is no digit."},
 {"property": "C45", "status": "proved", "theorems": ["C45_largest_label_refuted"], "note": "Finding."},
 {"property": "C46", "status": "proved", "theorems": ["C46_coo_from_csr_file_refuted"], "note": "Finding."},
 {"property": "C47", "status": "proved", "theorems": ["C47_truncated_coo", "C47_truncated_csr", "C47_truncated_tensor", "C47_cut_coo", "C47_cut_csr", "C47_cut_digraph", "C47_cut_tensor", "C47_digraph_first", "C47_digraph_between", "C47_short_coo", "C47_header_coo", "C47_short_csr", "C47_header_csr", "C47_short_tensor", "C47_header_tensor", "C47_digraph_second"], "note": "Finding. C47_short_* and C47_header_* cover a cut within the header of a COO, CSR or Tensor; C47_digraph_between and C47_digraph_second a DiGraph file that ends where its second CSR begins or within the header of it, and C47_digraph_first within the arrays of its first CSR; a cut within the header of the first CSR of a DiGraph is not covered."},
 {"property": "C48", "status": "proved", "theorems": ["C48_tensor_count_overflow"], "note": "Finding."},
 {"property": "C49", "status": "proved", "theorems": ["C49_max_labels"], "note": ""},
 {"property": "C50", "status": "proved", "theorems": ["C50_counting_never_ends", "C50_comment_at_end_hangs"], "note": "Finding: divergence proved for every fuel."},
 {"property": "C51", "status": "proved", "theorems": ["C51_vector_weights_dangle", "C51_other_storage"], "note": "Finding: use after free."},
 {"property": "C52", "status": "proved", "theorems": ["C52_files", "C52_move_assign_needs_seek", "C52_move_assign_keeps_name", "C52_move_ctor_loses_file", "C52_move_ctor_closes_other", "C52_move_ctor_loses_name"], "note": "Findings about the move constructor and move assignment; the positive part is a simulation over all programs."},
 {"property": "C53", "status": "proved", "theorems": ["C53_zero_based_rejected", "C53_one_based_rejected", "C53_one_based_misnumbered"], "note": "Finding: leading isolated vertices."},
 {"property": "C54", "status": "proved", "theorems": ["C54_rows", "C54_notes_harmless", "C54_comment_lines_shift"], "note": "Finding: comment lines become empty rows. Comments that touch a number or contain digits are outside the theorems; two Examples show that they misbehave."},
 {"property": "C55", "status": "proved", "theorems": ["C55_zero_based_rejected", "C55_one_based_truncated"], "note": "Finding."},
 {"property": "C56", "status": "proved", "theorems": ["C56_double_integer", "C56_float_integer", "C56_decimal_not_nearest", "C56_negative_exponent_not_nearest", "C56_float_integer_not_nearest", "C56_double_fraction_nearest", "C56_double_scaled_nearest", "C56_double_error"], "note": "IEEE binary64/binary32 (SpecFloat). The three theorems of P_DoubleNear.v use the axioms of the standard library's reals (listed in DESIGN.md); contract of std::pow(10., z) is a hypothesis, met by a correctly rounded instance. Findings: _not_nearest."},
 {"property": "C57", "status": "proved", "theorems": ["C57_log_coo_to_csr", "C57_log_dups", "C57_log_coo", "C57_log_graph", "C57_coo_to_csr", "C57_sort", "C57_without_dups", "C57_edge_list", "C57_edge_list_weighted", "C57_csr_to_coo", "C57_graph", "C57_graph_flags_refuted", "C57_tensor", "C57_tensor_weighted", "C57_find_offsets", "C57_parallel_write", "C57_parallel_read", "C57_log_io", "C57_weighted_drop_races"], "note": "Logs per barrier interval; C57_log_*: the logs are complete. C57_graph also says when the flags race; C57_graph_flags_refuted exhibits the race; C57_weighted_drop_races: every dropping weighted read with enough threads races. Text writers: stores_apart in C13 and C38."},
 {"property": "C58", "status": "proved", "theorems": ["C58_double_text", "C58_float_text", "C58_small_weights_vanish", "C58_special_text", "C58_double_round_trip", "C58_float_round_trip", "C58_double_round_trip_error", "C58_nearest_refuted", "C58_not_a_number_refuted", "C58_tensor_double_round_trip", "C58_tensor_float_round_trip", "C58_tensor_double_round_trip_error"], "note": "Uses the axioms of the standard library's reals (through Flocq), except C58_special_text and the two _refuted. The contract of std::pow(10., z) is a hypothesis of the round trips, met by a correctly rounded instance. Findings: small weights vanish, _nearest_refuted, _not_a_number_refuted."},
 {"property": "C59", "status": "proved", "theorems": ["C59_weighted_matrix_market", "C59_digraph_from_matrix_market", "C59_digraph_from_adjacency", "C59_adjacency_rows", "C59_csr_from_edge_list", "C59_csr_weighted", "C59_digraph_from_edge_list", "C59_digraph_weighted", "C59_csr_from_matrix_market", "C59_simple_graph", "C59_undirected"], "note": "Labels up to imax-2 (the n+1 offsets must be indexable, see C45). Weighted variants for CSR and DiGraph, edge list and Matrix Market; duplicates without weights."},
 {"property": "C60", "status": "proved", "theorems": ["C60_lines_are_paired", "C60_one_thread", "C60_many_threads", "C60_team_dependent"], "note": "Finding. Labels must fit the weight type (hypothesis wholds), otherwise a signed weight overflows."},
 {"property": "C61", "status": "proved", "theorems": ["C61_coo", "C61_csr", "C61_digraph_out_edges_from_noise", "C61_tensor_weight_size_checked", "C61_tensor_missing_weights", "C61_tensor_weights_ignored"], "note": "Findings. C61_tensor_weights_ignored assumes pages of at most 64 KiB and an order and m whose 256-fold fits Ordinal."},
 {"property": "C62", "status": "proved", "theorems": ["C62_one_thread", "C62_apart", "C62_lost"], "note": "Finding. One thread (the only deterministic case); C62_depends shows two and three threads."},
 {"property": "C63", "status": "proved", "theorems": ["C63_coo_built", "C63_csr_built", "C63_coo_refused", "C63_coo_refused_managed", "C63_csr_refused", "C63_graph_mismatch", "C63_graph_mismatch_coo", "C63_flags_from_graph", "C63_digraph_second"], "note": "Includes findings (arrays on raw pointers lost when a constructor throws). Allocations refused because of a negative length are not followed."},
 {"property": "C64", "status": "proved", "theorems": ["C64_moves", "C64_next", "C64_next_int_or_nl", "C64_tests", "C64_looks", "C64_steps", "C64_end"], "note": "Includes findings (six operations read the byte at the end of the range)."},
 {"property": "C65", "status": "proved", "theorems": ["C65_integer_conversion", "C65_coo_to_csr", "C65_coo_to_csr_narrow", "C65_csr_to_coo", "C65_csr_to_coo_narrow", "C65_round_trip", "C65_in_out"], "note": "The conversion of a weight is a parameter of the theorems (a partial function, undefined for instance where a floating-point number does not fit an integer type)."},
 {"property": "C66", "status": "proved", "theorems": ["C66_from_edge_list", "C66_from_weighted_edge_list", "C66_from_matrix_market", "C66_from_weighted_matrix_market", "C66_no_dimensions", "C66_rejected"], "note": "Includes findings (unswapped dimensions of the CSC; indeterminate dimensions after .graph or saved CSR)."},
 {"property": "C67", "status": "proved", "theorems": ["C67_stores", "C67_coo_left", "C67_coo", "C67_csr_left", "C67_csr", "C67_digraph_left", "C67_digraph", "C67_tensor_left", "C67_tensor"], "note": "An interrupted save is seen byte store by byte store (finer than the hardware). Fewer than 4 bytes stored, and a DiGraph whose first size bytes are missing, are only covered by the statement about the bytes. Includes findings (not detected on load; empty COO)."},
 {"property": "C68", "status": "proved", "theorems": ["C68_states", "C68_tensor_states", "C68_coo_left", "C68_coo_left_weighted", "C68_tensor_left", "C68_tensor_left_weighted", "C68_coo_between", "C68_coo_between_weighted", "C68_tensor_between", "C68_tensor_between_weighted", "C68_coo_loads"], "note": "One byte per store. The file is created with its length by new_file before the first store. C68_coo_loads is for unsigned labels and no weights. Includes findings (made-up entries, a finished entry lost)."},
 {"property": "C69", "status": "proved", "theorems": ["C69_text_chain", "C69_csr_chain", "C69_digraph_chain", "C69_coo_file_to_digraph", "C69_csr_file_to_digraph", "C69_coo_file_graphs", "C69_graph_chain", "C69_mm_chain", "C69_tensor_chain"], "note": "Composes C15/C16/C18, C22/C25, C13/C14 and C59; the lemmas result_full and built show that what the constructors build meets the hypotheses of the binary round trips. For (d) with a CSR file see C69_csr_file_to_digraph (label and ordinal type of the same size, C46). The COO made of a CSR is written as text, not stored: its dimensions are indeterminate (C27). (e) composes C36, C17 and C38; (f) is C69_mm_chain, composing C10, C15, C22 and C13; (g) is C69_graph_chain, composing C34, C16, C25, C22 and C59."},
 {"property": "C70", "status": "proved", "theorems": ["C70_coo", "C70_coo_undefined", "C70_csr", "C70_digraph", "C70_matrix_market"], "note": "Finding. Labels equal to the largest value; C45 has the labels one below it in graphs."},
 {"property": "C71", "status": "proved", "theorems": ["C71_coo", "C71_undefined", "C71_write_undefined", "C71_one_based", "C71_saved"], "note": "Finding, consequence of C35. The COO is the one coo_open of Load.v builds; that reading an indeterminate cell is undefined is the meaning of cell_of. (c) is about every COO in the state (a) describes (first_rows), without weights (the format has none)."}
]}
