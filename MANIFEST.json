{"claims": [
 {"property": "C01", "status": "proved", "theorems": ["C01_bytes_of_address", "C01_bytes_roundtrip", "C01_address_of_bytes", "C01_other_lengths_rejected"], "note": ""},
 {"property": "C02", "status": "proved", "theorems": ["C02_display", "C02_roundtrip"], "note": ""},
 {"property": "C03", "status": "proved", "theorems": ["C03_accepts", "C03_chunk_count", "C03_first_bad_chunk"], "note": ""},
 {"property": "C04", "status": "proved", "theorems": ["C04_display_full", "C04_display_short", "C04_roundtrip", "C04_lonely_rejected", "C04_always_roundtrips_refuted", "C04_injective"], "note": ""},
 {"property": "C05", "status": "proved", "theorems": ["C05_accepts", "C05_returns", "C05_full_form", "C05_short_form", "C05_short_form_at_edge_rejected", "C05_only_proper_forms_refuted"], "note": ""},
 {"property": "C06", "status": "proved", "theorems": ["C06_groups_of_address", "C06_address_of_groups", "C06_groups_roundtrip", "C06_other_lengths_rejected"], "note": ""},
 {"property": "C07", "status": "proved", "theorems": ["C07_add_address", "C07_add_offset", "C07_add_offset_v4_signed"], "note": ""},
 {"property": "C08", "status": "proved", "theorems": ["C08_subtract_v4", "C08_subtract_offset_v4", "C08_subtract_v6_refuted", "C08_subtract_v6_exact", "C08_subtract_offset_v6_exact", "C08_negative_offset_v6"], "note": ""},
 {"property": "C09", "status": "proved", "theorems": ["C09_offsets_return", "C09_offsets_return_refuted", "C09_least_offset", "C09_recursion_depth"], "note": "see the comments at the theorems: the code panics or recurses without end for i32::MIN, and IPv6 subtraction has a borrow defect; both are characterised and refuted by witness"},
 {"property": "C10", "status": "proved", "theorems": ["C10_compare", "C10_equal", "C10_bitwise", "C10_negate", "C10_bit_counts"], "note": ""},
 {"property": "C11", "status": "proved", "theorems": ["C11_full_string_refuted", "C11_full_string_empty"], "note": ""},
 {"property": "C12", "status": "proved", "theorems": ["C12_mask_recognition", "C12_mixed_mask"], "note": ""},
 {"property": "C13", "status": "proved", "theorems": ["C13_mask_construction", "C13_recognise_constructed", "C13_construct_recognised"], "note": ""},
 {"property": "C14", "status": "proved", "theorems": ["C14_bytes_to_bits", "C14_bytes_bits_bytes", "C14_bits_bytes_bits", "C14_binary_string"], "note": ""},
 {"property": "C15", "status": "proved", "theorems": ["C15_weave_unravel", "C15_unravel_weave"], "note": ""},
 {"property": "C16", "status": "proved", "theorems": ["C16_unravel_gathers", "C16_unravel_cidr", "C16_unravel_mask"], "note": ""},
 {"property": "C17", "status": "proved", "theorems": ["C17_with_mask", "C17_with_prefix", "C17_with_prefix_total"], "note": ""},
 {"property": "C18", "status": "proved", "theorems": ["C18_strict_mask", "C18_strict_prefix"], "note": ""},
 {"property": "C19", "status": "proved", "theorems": ["C19_contains", "C19_contains_cidr"], "note": ""},
 {"property": "C20", "status": "proved", "theorems": ["C20_superset", "C20_subset"], "note": ""},
 {"property": "C21", "status": "proved", "theorems": ["C21_partial_order", "C21_extensionality"], "note": ""},
 {"property": "C22", "status": "proved", "theorems": ["C22_intersects_cidr", "C22_intersects_complete", "C22_intersects_exact", "C22_intersects_mixed_refuted"], "note": "exact for CIDR networks; for other masks the code computes an interval test (C22_intersects_exact) that is complete but not sound (C22_intersects_mixed_refuted)"},
 {"property": "C23", "status": "proved", "theorems": ["C23_address_count", "C23_host_count"], "note": ""},
 {"property": "C24", "status": "proved", "theorems": ["C24_first_host", "C24_first_host_cidr"], "note": ""},
 {"property": "C25", "status": "proved", "theorems": ["C25_broadcast", "C25_last_addr"], "note": ""},
 {"property": "C26", "status": "proved", "theorems": ["C26_last_host", "C26_hosts_together"], "note": ""},
 {"property": "C27", "status": "proved", "theorems": ["C27_next_base", "C27_next_base_cidr"], "note": ""},
 {"property": "C28", "status": "proved", "theorems": ["C28_nest_or_disjoint"], "note": ""},
 {"property": "C29", "status": "proved", "theorems": ["C29_same_network", "C29_printed_mask_v6", "C29_printed_wildcard_v6"], "note": ""},
 {"property": "C30", "status": "proved", "theorems": ["C30_display", "C30_roundtrip", "C30_roundtrip_v4", "C30_unreadable", "C30_always_roundtrips_refuted"], "note": ""},
 {"property": "C31", "status": "proved", "theorems": ["C31_returns", "C31_well_formed"], "note": ""},
 {"property": "C32", "status": "proved", "theorems": ["C32_accepts", "C32_unrecognized", "C32_bad_address", "C32_bad_mask", "C32_bad_prefix", "C32_huge_prefix"], "note": ""},
 {"property": "C33", "status": "proved", "theorems": ["C33_accepts", "C33_nothing", "C33_first_error", "C33_mixed", "C33_returns"], "note": ""},
 {"property": "C34", "status": "proved", "theorems": ["C34_address", "C34_unknown", "C34_returns", "C34_subnet"], "note": ""},
 {"property": "C35", "status": "proved", "theorems": ["C35_covers_exactly"], "note": ""},
 {"property": "C36", "status": "proved", "theorems": ["C36_shortest", "C36_unique"], "note": ""},
 {"property": "C37", "status": "proved", "theorems": ["C37_returns_iff", "C37_top_panics", "C37_full_range", "C37_total_refuted"], "note": ""},
 {"property": "C38", "status": "proved", "theorems": ["C38_symmetric"], "note": ""},
 {"property": "C39", "status": "proved", "theorems": ["C39_same_addresses", "C39_not_longer"], "note": ""},
 {"property": "C40", "status": "proved", "theorems": ["C40_returns"], "note": ""},
 {"property": "C41", "status": "proved", "theorems": ["C41_irredundant", "C41_mixed_refuted"], "note": ""},
 {"property": "C42", "status": "proved", "theorems": ["C42_shortest", "C42_in_one"], "note": ""},
 {"property": "C43", "status": "proved", "theorems": ["C43_canonical"], "note": ""},
 {"property": "C44", "status": "proved", "theorems": ["C44_sorted", "C44_deterministic"], "note": ""},
 {"property": "C45", "status": "proved", "theorems": ["C45_idempotent", "C45_mixed_refuted"], "note": ""},
 {"property": "C46", "status": "proved", "theorems": ["C46_returns", "C46_one_per_request", "C46_environment"], "note": ""},
 {"property": "C47", "status": "proved", "theorems": ["C47_piece", "C47_smallest"], "note": ""},
 {"property": "C48", "status": "proved", "theorems": ["C48_disjoint_run", "C48_larger_first", "C48_starts_at_base"], "note": ""},
 {"property": "C49", "status": "proved", "theorems": ["C49_inside_iff", "C49_always_inside_refuted"], "note": ""},
 {"property": "C50", "status": "proved", "theorems": ["C50_succeeds_iff", "C50_finds_fit", "C50_top_refuted"], "note": ""},
 {"property": "C51", "status": "proved", "theorems": ["C51_unused", "C51_too_small", "C51_used_up", "C51_top_panics", "C51_no_split", "C51_partition_refuted"], "note": ""},
 {"property": "C52", "status": "proved", "theorems": ["C52_supernet", "C52_supernet_cidr", "C52_superset_mixed_refuted"], "note": ""},
 {"property": "C53", "status": "proved", "theorems": ["C53_subnets", "C53_subnets_cidr"], "note": ""},
 {"property": "C54", "status": "proved", "theorems": ["C54_same_size", "C54_own_mask", "C54_there_and_back"], "note": ""},
 {"property": "C55", "status": "proved", "theorems": ["C55_lists_exactly", "C55_iterator"], "note": ""},
 {"property": "C56", "status": "proved", "theorems": ["C56_returns", "C56_report", "C56_printer"], "note": ""},
 {"property": "C57", "status": "proved", "theorems": ["C57_text", "C57_digits"], "note": ""},
 {"property": "C58", "status": "proved", "theorems": ["C58_mask_colours", "C58_single_colour", "C58_class_sound", "C58_class_first_four", "C58_class_complete_refuted"], "note": ""},
 {"property": "C59", "status": "proved", "theorems": ["C59_class_label", "C59_class_exact"], "note": ""},
 {"property": "C60", "status": "proved", "theorems": ["C60_same_marks", "C60_same_text", "C60_same_lines_refuted"], "note": ""},
 {"property": "C61", "status": "proved", "theorems": ["C61_padding", "C61_length", "C61_written"], "note": ""},
 {"property": "C62", "status": "proved", "theorems": ["C62_status", "C62_failure_told", "C62_success_silent", "C62_usage", "C62_show", "C62_show_error", "C62_enumerate", "C62_minimize", "C62_minimize_error", "C62_derange", "C62_derange_error", "C62_resize", "C62_resize_error", "C62_split", "C62_split_error", "C62_ends_iff"], "note": ""},
 {"property": "C63", "status": "proved", "theorems": ["C63_host_count", "C63_host_count_error"], "note": "that a negative count or the first unreadable count is reported is C62_split_error"},
 {"property": "C64", "status": "proved", "theorems": ["C64_derange", "C64_derange_network", "C64_resize", "C64_enumerate", "C64_split", "C64_union"], "note": ""},
 {"property": "C65", "status": "proved", "theorems": ["C65_contains_enumerate", "C65_contains_host", "C65_enumerate_count", "C65_superset_count"], "note": ""},
 {"property": "C66", "status": "proved", "theorems": ["C66_there_and_back", "C66_back_and_there", "C66_all_networks"], "note": ""},
 {"property": "C67", "status": "proved", "theorems": ["C67_same_run", "C67_same_status", "C67_same_output", "C67_word_refuted", "C67_ties_refuted", "C67_described_once"], "note": "for repeated host counts only the status is fixed (C67_same_status, C67_ties_refuted); C46_environment says what can differ"},
 {"property": "C68", "status": "proved", "theorems": ["C68_minimize_again", "C68_readable_v4", "C68_derange_minimize", "C68_enumerate_minimize"], "note": ""},
 {"property": "C69", "status": "proved", "theorems": ["C69_colour_test", "C69_palette"], "note": ""},
 {"property": "C70", "status": "proved", "theorems": ["C70_seen", "C70_ascii"], "note": ""},
 {"property": "C71", "status": "proved", "theorems": ["C71_tidy", "C71_literal", "C71_plain", "C71_names"], "note": ""},
 {"property": "C72", "status": "proved", "theorems": ["C72_utf8", "C72_ends_iff", "C72_status"], "note": ""},
 {"property": "C73", "status": "proved", "theorems": ["C73_wording", "C73_distinct", "C73_told_apart"], "note": ""},
 {"property": "C74", "status": "proved", "theorems": ["C74_same_process", "C74_same_stdout", "C74_minimize", "C74_derange", "C74_enumerate"], "note": ""},
 {"property": "C75", "status": "proved", "theorems": ["C75_shape", "C75_count"], "note": ""},
 {"property": "C76", "status": "proved", "theorems": ["C76_meaning", "C76_derange", "C76_minimize", "C76_grow", "C76_resize", "C76_enumerate"], "note": ""},
 {"property": "C77", "status": "proved", "theorems": ["C77_told", "C77_text", "C77_text_families", "C77_minimize", "C77_minimize_cidr", "C77_inclusion", "C77_enumerate", "C77_derange", "C77_resize", "C77_split"], "note": ""},
 {"property": "C78", "status": "proved", "theorems": ["C78_exact", "C78_no_halves", "C78_parts", "C78_not_inside"], "note": ""},
 {"property": "C79", "status": "proved", "theorems": ["C79_minimize", "C79_minimize_gain", "C79_derange", "C79_resize", "C79_split"], "note": ""},
 {"property": "C80", "status": "proved", "theorems": ["C80_minimize", "C80_derange", "C80_split", "C80_split_inside"], "note": ""},
 {"property": "C81", "status": "proved", "theorems": ["C81_moved", "C81_minimize", "C81_derange_mirror", "C81_derange_block", "C81_resize", "C81_split"], "note": ""},
 {"property": "C82", "status": "proved", "theorems": ["C82_embedded", "C82_answers", "C82_enumerate", "C82_minimize", "C82_derange", "C82_resize", "C82_split", "C82_split_back_refuted"], "note": ""},
 {"property": "C83", "status": "proved", "theorems": ["C83_derange", "C83_split", "C83_cases", "C83_process"], "note": ""},
 {"property": "C84", "status": "proved", "theorems": ["C84_meets", "C84_resize_down", "C84_resize_up", "C84_resize_detour", "C84_derange", "C84_enumerate", "C84_split_where", "C84_split_again", "C84_split_later"], "note": ""},
 {"property": "C85", "status": "proved", "theorems": ["C85_fits", "C85_beginning", "C85_stdout", "C85_stderr", "C85_status", "C85_reliable_refuted"], "note": ""},
 {"property": "C86", "status": "proved", "theorems": ["C86_enumerate", "C86_show", "C86_derange", "C86_minimize", "C86_minimize_more", "C86_range", "C86_union"], "note": ""},
 {"property": "C87", "status": "proved", "theorems": ["C87_number", "C87_v4", "C87_v6", "C87_decided", "C87_address", "C87_subnet", "C87_netspec", "C87_nonsense", "C87_show", "C87_minimize", "C87_enumerate", "C87_derange", "C87_resize", "C87_split"], "note": ""},
 {"property": "C88", "status": "proved", "theorems": ["C88_spelled", "C88_net_spelled", "C88_depicted", "C88_ranged", "C88_resized", "C88_placed", "C88_sound", "C88_complete", "C88_exact", "C88_total", "C88_unique", "C88_process"], "note": ""},
 {"property": "C89", "status": "proved", "theorems": ["C89_obliging", "C89_beginning", "C89_ended", "C89_status"], "note": ""},
 {"property": "C90", "status": "proved", "theorems": ["C90_orders", "C90_key", "C90_sort", "C90_cidr", "C90_inside", "C90_equal", "C90_families", "C90_zero", "C90_declared"], "note": ""},
 {"property": "C91", "status": "proved", "theorems": ["C91_sound", "C91_complete", "C91_total", "C91_unique", "C91_process", "C91_exit_code"], "note": ""},
 {"property": "C92", "status": "proved", "theorems": ["C92_tells_apart", "C92_in_a_row", "C92_networks", "C92_variants"], "note": ""},
 {"property": "C93", "status": "proved", "theorems": ["C93_exact", "C93_lowest"], "note": ""},
 {"property": "C94", "status": "proved", "theorems": ["C94_in_turn", "C94_no_text", "C94_prompt", "C94_beginning", "C94_status"], "note": ""},
 {"property": "C95", "status": "proved", "theorems": ["C95_exact", "C95_escapes", "C95_piped", "C95_same", "C95_alike"], "note": ""},
 {"property": "C96", "status": "proved", "theorems": ["C96_texts", "C96_table", "C96_fits"], "note": ""},
 {"property": "C97", "status": "proved", "theorems": ["C97_spelled", "C97_apart", "C97_layout", "C97_messages"], "note": ""},
 {"property": "C98", "status": "proved", "theorems": ["C98_show", "C98_enumerate", "C98_minimize", "C98_derange", "C98_resize", "C98_split", "C98_messages", "C98_something"], "note": ""},
 {"property": "C99", "status": "proved", "theorems": ["C99_same_run", "C99_same_end", "C99_range", "C99_where", "C99_lost"], "note": ""},
 {"property": "C100", "status": "proved", "theorems": ["C100_run", "C100_process", "C100_describe"], "note": ""},
 {"property": "C101", "status": "proved", "theorems": ["C101_split_subnet", "C101_split", "C101_enumerate", "C101_show"], "note": ""},
 {"property": "C102", "status": "proved", "theorems": ["C102_architecture", "C102_errors", "C102_32_bits_refused", "C102_byte_order_refuted", "C102_header_only"], "note": ""},
 {"property": "C103", "status": "proved", "theorems": ["C103_line", "C103_depends", "C103_errors", "C103_order"], "note": ""},
 {"property": "C104", "status": "proved", "theorems": ["C104_data", "C104_documents", "C104_succeeds", "C104_control", "C104_md5sums"], "note": ""},
 {"property": "C105", "status": "proved", "theorems": ["C105_package", "C105_errors", "C105_anywhere"], "note": ""},
 {"property": "C106", "status": "proved", "theorems": ["C106_debian", "C106_arch", "C106_arch_allowed", "C106_arch_equal_refuted"], "note": ""}
]}
