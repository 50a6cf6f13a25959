{
 "claims": [
  {
   "property": "C01",
   "status": "proved",
   "theorems": [
    "C01_table_refines_map"
   ],
   "note": ""
  },
  {
   "property": "C02",
   "status": "proved",
   "theorems": [
    "C02_table_iteration_exact"
   ],
   "note": ""
  },
  {
   "property": "C03",
   "status": "proved",
   "theorems": [
    "C03_intern_identity"
   ],
   "note": ""
  },
  {
   "property": "C04",
   "status": "proved",
   "theorems": [
    "C04_vector_refines_list"
   ],
   "note": ""
  },
  {
   "property": "C05",
   "status": "proved",
   "theorems": [
    "C05_data_refines_bytes"
   ],
   "note": ""
  },
  {
   "property": "C06",
   "status": "proved",
   "theorems": [
    "C06_uleb128_roundtrip",
    "C06_leb128_roundtrip",
    "C06_varuint32_roundtrip"
   ],
   "note": ""
  },
  {
   "property": "C07",
   "status": "partial",
   "theorems": [
    "C07_uleb_reader_partial",
    "C07_varuint32_reader_partial",
    "C07_leb_reader_partial",
    "C07_leb_reader_refuted",
    "C07_uleb_reader_refuted"
   ],
   "note": "Not covered, or false of the code: values outside 0..2^31-1: -1 is read as 126, and large unsigned values shift an `int` out of range (both refuted)"
  },
  {
   "property": "C08",
   "status": "proved",
   "theorems": [
    "C08_chunks_well_formed"
   ],
   "note": ""
  },
  {
   "property": "C09",
   "status": "proved",
   "theorems": [
    "C09_escape_roundtrip"
   ],
   "note": ""
  },
  {
   "property": "C10",
   "status": "proved",
   "theorems": [
    "C10_wrap_is_conversion",
    "C10_wrap_u64",
    "C10_wrap_idempotent",
    "C10_is_imm_range"
   ],
   "note": ""
  },
  {
   "property": "C11",
   "status": "proved",
   "theorems": [
    "C11_join_paths_walk"
   ],
   "note": ""
  },
  {
   "property": "C12",
   "status": "partial",
   "theorems": [
    "C12_line_counter",
    "C12_logical_lines_partial",
    "C12_double_splice_refuted"
   ],
   "note": "Not covered, or false of the code: a line ending in two backslashes is spliced twice (refuted)"
  },
  {
   "property": "C13",
   "status": "proved",
   "theorems": [
    "C13_accepted_files_select_right_groups",
    "C13_nested_files_are_accepted",
    "C13_misnested_files_are_rejected",
    "C13_loop_ends"
   ],
   "note": ""
  },
  {
   "property": "C14",
   "status": "proved",
   "theorems": [
    "C14_value_of_expression",
    "C14_accepted_is_grammatical",
    "C14_terminates"
   ],
   "note": ""
  },
  {
   "property": "C15",
   "status": "proved",
   "theorems": [
    "C15_expansion_terminates"
   ],
   "note": ""
  },
  {
   "property": "C16",
   "status": "partial",
   "theorems": [
    "C16_no_history_partial",
    "C16_history_refuted"
   ],
   "note": "Not covered, or false of the code: with mutually recursive object-like macros the expansion depends on what was expanded before (refuted); function-like macros not covered"
  },
  {
   "property": "C17",
   "status": "proved",
   "theorems": [
    "C17_longest_punctuator"
   ],
   "note": ""
  },
  {
   "property": "C18",
   "status": "proved",
   "theorems": [
    "C18_sizes",
    "C18_struct",
    "C18_union"
   ],
   "note": ""
  },
  {
   "property": "C19",
   "status": "proved",
   "theorems": [
    "C19_bit_fields",
    "C19_packed"
   ],
   "note": ""
  },
  {
   "property": "C20",
   "status": "partial",
   "theorems": [
    "C20_read",
    "C20_store_partial",
    "C20_neighbour_refuted",
    "C20_width_64_refuted"
   ],
   "note": "Not covered, or false of the code: stores to fields of width 64 (undefined shift) and to signed fields as wide as their type inside a wider unit (neighbour overwritten), both refuted"
  },
  {
   "property": "C21",
   "status": "proved",
   "theorems": [
    "C21_operands",
    "C21_comparison"
   ],
   "note": ""
  },
  {
   "property": "C22",
   "status": "partial",
   "theorems": [
    "C22_addsub_partial",
    "C22_unsigned_refuted",
    "C22_rank_refuted",
    "C22_overflow_refuted"
   ],
   "note": "Not covered, or false of the code: two constants of which one is unsigned: wrong type and value, host overflow (refuted)"
  },
  {
   "property": "C23",
   "status": "proved",
   "theorems": [
    "C23_num_bop"
   ],
   "note": ""
  },
  {
   "property": "C24",
   "status": "partial",
   "theorems": [
    "C24_comparison_partial",
    "C24_not_partial",
    "C24_nan_refuted"
   ],
   "note": "Not covered, or false of the code: NaN: `!(a < b)` becomes `a >= b` (refuted)"
  },
  {
   "property": "C25",
   "status": "proved",
   "theorems": [
    "C25_reflexive",
    "C25_symmetric",
    "C25_transitive",
    "C25_compatible_types_accepted",
    "C25_accepted_types_compatible"
   ],
   "note": ""
  },
  {
   "property": "C26",
   "status": "proved",
   "theorems": [
    "C26_terminates",
    "C26_innermost",
    "C26_undeclared",
    "C26_stable"
   ],
   "note": ""
  },
  {
   "property": "C27",
   "status": "proved",
   "theorems": [
    "C27_used"
   ],
   "note": ""
  },
  {
   "property": "C28",
   "status": "partial",
   "theorems": [
    "C28_dispatch_partial",
    "C28_constant_partial",
    "C28_accepted_partial",
    "C28_defined_partial",
    "C28_unsigned_refuted",
    "C28_overflow_refuted",
    "C28_narrow_refuted",
    "C28_duplicate_refuted",
    "C28_accepted_refuted"
   ],
   "note": "Not covered, or false of the code: 64-bit unsigned values on both sides of 2^63, host overflow in the comparison, and types narrower than int (refuted)"
  },
  {
   "property": "C29",
   "status": "partial",
   "theorems": [
    "C29_build_partial",
    "C29_build_unary",
    "C29_fold_partial",
    "C29_fold_defined",
    "C29_build_defined_partial",
    "C29_build_defined_refuted",
    "C29_same_size_refuted",
    "C29_narrowing_refuted"
   ],
   "note": "Not covered, or false of the code: constants left non-canonical by casts, and host overflow for unsigned multiplication (refuted)"
  },
  {
   "property": "C30",
   "status": "proved",
   "theorems": [
    "C30_invert",
    "C30_swap"
   ],
   "note": ""
  },
  {
   "property": "C31",
   "status": "partial",
   "theorems": [
    "C31_three_phis_partial",
    "C31_no_cycle_partial",
    "C31_in_order_partial",
    "C31_late_partial",
    "C31_rotation_partial",
    "C31_frame",
    "C31_two_swaps_refuted",
    "C31_crash_refuted"
   ],
   "note": "Not covered, or false of the code: two swaps in one block are miscompiled, and one pattern of four phis dereferences null (refuted)"
  },
  {
   "property": "C32",
   "status": "proved",
   "theorems": [
    "C32_predecessors",
    "C32_liveness"
   ],
   "note": ""
  },
  {
   "property": "C33",
   "status": "proved",
   "theorems": [
    "C33_disjoint",
    "C33_interval",
    "C33_occupied",
    "C33_arguments",
    "C33_used",
    "C33_total"
   ],
   "note": ""
  },
  {
   "property": "C34",
   "status": "partial",
   "theorems": [
    "C34_li_partial",
    "C34_li_sp_refuted"
   ],
   "note": "Not covered, or false of the code: `li sp` outside 12 bits moves the stack pointer, `li x0` (refuted)"
  },
  {
   "property": "C35",
   "status": "partial",
   "theorems": [
    "C35_encoding_partial",
    "C35_rejects_partial",
    "C35_add_zero_refuted",
    "C35_sw_refuted",
    "C35_offset_refuted",
    "C35_srliw_refuted",
    "C35_zero_refuted"
   ],
   "note": "Not covered, or false of the code: six kinds of wrong encodings (refuted)"
  },
  {
   "property": "C36",
   "status": "partial",
   "theorems": [
    "C36_accepts",
    "C36_ends",
    "C36_value_partial",
    "C36_sub_refuted",
    "C36_div_refuted",
    "C36_label_refuted"
   ],
   "note": "Not covered, or false of the code: 10-3 is 13, 10/2 is 12, b+4-a is b-a (refuted)"
  },
  {
   "property": "C37",
   "status": "proved",
   "theorems": [
    "C37_x64",
    "C37_aarch64",
    "C37_riscv64"
   ],
   "note": ""
  },
  {
   "property": "C38",
   "status": "partial",
   "theorems": [
    "C38_x64_ends",
    "C38_aarch64_ends",
    "C38_riscv64_ends",
    "C38_x64",
    "C38_aarch64",
    "C38_riscv64_partial",
    "C38_jump_refuted"
   ],
   "note": "Not covered, or false of the code: compressed RISC-V jump keeps a stale bit of its first offset (refuted)"
  },
  {
   "property": "C39",
   "status": "partial",
   "theorems": [
    "C39_placed_once",
    "C39_no_overlap",
    "C39_aligned",
    "C39_loaded",
    "C39_bss_partial",
    "C39_segments",
    "C39_tables",
    "C39_align_zero_refuted",
    "C39_bss_size_refuted",
    "C39_text_align_refuted",
    "C39_data_align_refuted",
    "C39_nobits_first_refuted",
    "C39_other_names_refuted",
    "C39_congruent_refuted"
   ],
   "note": "Not covered, or false of the code: align 0, padding in .bss, large alignments, NOBITS before PROGBITS, other section names, program with only .bss (refuted)"
  },
  {
   "property": "C40",
   "status": "partial",
   "theorems": [
    "C40_relocated_partial",
    "C40_frame",
    "C40_adrp_add",
    "C40_pc32_range_refuted",
    "C40_adrp_range_refuted",
    "C40_bl_range_refuted",
    "C40_bl_unaligned_refuted",
    "C40_branch_range_refuted",
    "C40_jal_odd_refuted",
    "C40_hi20_range_refuted",
    "C40_jal_rd_refuted",
    "C40_tail_call_refuted",
    "C40_lo12_pair_refuted"
   ],
   "note": "Not covered, or false of the code: missing range checks and unaligned targets, JAL link register, tail calls, LO12 pairing (refuted)"
  },
  {
   "property": "C41",
   "status": "partial",
   "theorems": [
    "C41_errors",
    "C41_unresolved",
    "C41_binding",
    "C41_relocation",
    "C41_order_independent",
    "C41_weak_undefined_refuted",
    "C41_common_size_refuted",
    "C41_common_address_refuted",
    "C41_section_symbol_refuted"
   ],
   "note": "Not covered, or false of the code: weak undefined symbols, common symbols, section symbols (refuted)"
  },
  {
   "property": "C42",
   "status": "proved",
   "theorems": [
    "C42_qsort_sorts"
   ],
   "note": ""
  },
  {
   "property": "C43",
   "status": "proved",
   "theorems": [
    "C43_bsearch_finds"
   ],
   "note": ""
  },
  {
   "property": "C44",
   "status": "partial",
   "theorems": [
    "C44_history_partial",
    "C44_contents_kept_partial",
    "C44_realloc_partial",
    "C44_null_only_when_exhausted_partial",
    "C44_memory_is_reused_partial",
    "C44_huge_request_refuted",
    "C44_negative_sbrk_refuted",
    "C44_calloc_overflow_refuted"
   ],
   "note": "Not covered, or false of the code: requests near SIZE_MAX and calloc overflow (refuted)"
  },
  {
   "property": "C45",
   "status": "proved",
   "theorems": [
    "C45_strtol_value",
    "C45_strtol_no_digits",
    "C45_strtoull_value",
    "C45_strtoul_value",
    "C45_atoi_value"
   ],
   "note": ""
  },
  {
   "property": "C46",
   "status": "proved",
   "theorems": [
    "C46_memmove_any_overlap",
    "C46_memcpy_disjoint",
    "C46_memset"
   ],
   "note": ""
  },
  {
   "property": "C47",
   "status": "partial",
   "theorems": [
    "C47_strlen",
    "C47_strnlen",
    "C47_strcmp",
    "C47_strncmp",
    "C47_memcmp",
    "C47_strncasecmp",
    "C47_strspn",
    "C47_strcspn",
    "C47_strpbrk",
    "C47_strcpy",
    "C47_strcat",
    "C47_strncat",
    "C47_strchr_partial",
    "C47_strrchr_partial",
    "C47_memchr_partial",
    "C47_strstr_partial",
    "C47_strncpy_partial",
    "C47_strchr_refuted",
    "C47_memchr_refuted",
    "C47_strstr_refuted",
    "C47_strncpy_refuted",
    "C47_stpcpy_refuted",
    "C47_memccpy_refuted",
    "C47_strcasecmp_refuted"
   ],
   "note": "Not covered, or false of the code: strchr/memchr for 128..255, strstr of two empty strings, padding of strncpy, result of stpcpy, memccpy, strcasecmp (refuted)"
  },
  {
   "property": "C48",
   "status": "partial",
   "theorems": [
    "C48_strtok_splits_partial",
    "C48_strtok_refuted"
   ],
   "note": "Not covered, or false of the code: when the last token reaches the terminator the next call reads beyond the string (refuted)"
  },
  {
   "property": "C49",
   "status": "partial",
   "theorems": [
    "C49_returns_count_partial",
    "C49_negative_width_refuted"
   ],
   "note": "Not covered, or false of the code: negative `*` width (refuted)"
  },
  {
   "property": "C50",
   "status": "proved",
   "theorems": [
    "C50_signed_decimal",
    "C50_unsigned_decimal",
    "C50_hexadecimal"
   ],
   "note": ""
  },
  {
   "property": "C51",
   "status": "partial",
   "theorems": [
    "C51_snprintf_partial",
    "C51_snprintf_zero",
    "C51_sprintf",
    "C51_size_truncated_refuted"
   ],
   "note": "Not covered, or false of the code: sizes of 2^32 and more (refuted)"
  },
  {
   "property": "C52",
   "status": "partial",
   "theorems": [
    "C52_never_overruns",
    "C52_delivers",
    "C52_flush_delivers",
    "C52_line_buffered",
    "C52_failures_partial",
    "C52_short_write_refuted",
    "C52_count_refuted",
    "C52_size_zero_refuted"
   ],
   "note": "Not covered, or false of the code: short writes, counts, size 0 (refuted)"
  },
  {
   "property": "C53",
   "status": "partial",
   "theorems": [
    "C53_stream_partial",
    "C53_stream_full_partial",
    "C53_ungetc_order_refuted",
    "C53_ungetc_lost_refuted",
    "C53_ungetc_char_refuted",
    "C53_read_error_refuted",
    "C53_duplicate_refuted",
    "C53_size_zero_refuted"
   ],
   "note": "Not covered, or false of the code: fread after ungetc, second ungetc, negative char, failing read, size 0 (refuted)"
  },
  {
   "property": "C54",
   "status": "partial",
   "theorems": [
    "C54_memstream_partial",
    "C54_flush_publishes_partial",
    "C54_empty_stream_refuted",
    "C54_one_gigabyte_refuted",
    "C54_out_of_memory_refuted"
   ],
   "note": "Not covered, or false of the code: nothing written, 1 GiB, failing realloc (refuted)"
  },
  {
   "property": "C55",
   "status": "partial",
   "theorems": [
    "C55_image",
    "C55_two_members_refuted",
    "C55_union_bit_field_refuted",
    "C55_wide_bit_field_refuted",
    "C55_empty_union_refuted"
   ],
   "note": "Not covered, or false of the code: two union members, bit-field in union, 64-bit bit-field, empty union (refuted)"
  },
  {
   "property": "C56",
   "status": "partial",
   "theorems": [
    "C56_gathers",
    "C56_stale_index_refuted"
   ],
   "note": "Not covered, or false of the code: an index naming a member without the symbol makes the linker loop (refuted)"
  },
  {
   "property": "C57",
   "status": "proved",
   "theorems": [
    "C57_table",
    "C57_strings"
   ],
   "note": ""
  },
  {
   "property": "C58",
   "status": "partial",
   "theorems": [
    "C58_hex_prefix_refuted",
    "C58_base_zero_refuted",
    "C58_strtoul_space_refuted",
    "C58_strtoull_minus_refuted"
   ],
   "note": "Not covered, or false of the code: four deviations (refuted)"
  },
  {
   "property": "C59",
   "status": "partial",
   "theorems": [
    "C59_output_as_prescribed_partial",
    "C59_output_unique",
    "C59_space_before_sign_refuted",
    "C59_number_precision_refuted",
    "C59_number_truncated_refuted",
    "C59_left_hex_refuted",
    "C59_left_zero_refuted",
    "C59_plus_unsigned_refuted",
    "C59_empty_precision_refuted",
    "C59_char_width_refuted",
    "C59_lone_percent_refuted"
   ],
   "note": "Not covered, or false of the code: nine deviations (refuted); `%p`, `*` and floating point not covered"
  },
  {
   "property": "C60",
   "status": "partial",
   "theorems": [
    "C60_puts_partial",
    "C60_puts_empty_refuted"
   ],
   "note": "Not covered, or false of the code: an empty string (refuted)"
  },
  {
   "property": "C61",
   "status": "partial",
   "theorems": [
    "C61_ftell_partial",
    "C61_fseek_partial",
    "C61_seek_cur_refuted",
    "C61_tell_unget_refuted"
   ],
   "note": "Not covered, or false of the code: SEEK_CUR with read-ahead, ftell after ungetc (refuted)"
  },
  {
   "property": "C62",
   "status": "proved",
   "theorems": [
    "C62_mode",
    "C62_stream"
   ],
   "note": ""
  },
  {
   "property": "C63",
   "status": "partial",
   "theorems": [
    "C63_fgets_partial",
    "C63_getline",
    "C63_fgets_one_refuted"
   ],
   "note": "Not covered, or false of the code: fgets with size 1 (refuted)"
  },
  {
   "property": "C64",
   "status": "partial",
   "theorems": [
    "C64_eof_reported",
    "C64_eof_partial",
    "C64_terminal_refuted",
    "C64_early_refuted"
   ],
   "note": "Not covered, or false of the code: devices with short reads, indicator set early (refuted)"
  },
  {
   "property": "C65",
   "status": "proved",
   "theorems": [
    "C65_exit"
   ],
   "note": ""
  },
  {
   "property": "C66",
   "status": "partial",
   "theorems": [
    "C66_skipped_condition_refuted"
   ],
   "note": "Not covered, or false of the code: conditions in skipped groups are evaluated (refuted)"
  },
  {
   "property": "C67",
   "status": "partial",
   "theorems": [
    "C67_comment_in_skipped_directive_refuted",
    "C67_directive_after_comment_refuted"
   ],
   "note": "Not covered, or false of the code: comments around directives (refuted)"
  },
  {
   "property": "C68",
   "status": "partial",
   "theorems": [
    "C68_unsigned_refuted",
    "C68_unevaluated_operand_refuted",
    "C68_division_by_zero_refuted"
   ],
   "note": "Not covered, or false of the code: unsigned operands, unevaluated operands, division by zero (refuted)"
  },
  {
   "property": "C69",
   "status": "proved",
   "theorems": [
    "C69_arguments",
    "C69_no_arguments",
    "C69_variable_arguments"
   ],
   "note": ""
  },
  {
   "property": "C70",
   "status": "partial",
   "theorems": [
    "C70_empty_argument_refuted",
    "C70_space_argument_refuted"
   ],
   "note": "Not covered, or false of the code: empty arguments are rejected (refuted)"
  },
  {
   "property": "C71",
   "status": "proved",
   "theorems": [
    "C71_replacement",
    "C71_invocation"
   ],
   "note": ""
  },
  {
   "property": "C72",
   "status": "partial",
   "theorems": [
    "C72_argument_alone_refuted"
   ],
   "note": "Not covered, or false of the code: an argument is expanded with the text after the invocation (refuted)"
  },
  {
   "property": "C73",
   "status": "partial",
   "theorems": [
    "C73_empty_operand_refuted",
    "C73_cat_string_refuted"
   ],
   "note": "Not covered, or false of the code: empty operands of `##`, pasting a string (refuted)"
  },
  {
   "property": "C74",
   "status": "partial",
   "theorems": [
    "C74_va_opt_refuted"
   ],
   "note": "Not covered, or false of the code: parameters inside are not replaced (refuted)"
  },
  {
   "property": "C75",
   "status": "proved",
   "theorems": [
    "C75_object_like_macros",
    "C75_texts_end"
   ],
   "note": ""
  },
  {
   "property": "C76",
   "status": "proved",
   "theorems": [
    "C76_identifier",
    "C76_preprocessor_identifier"
   ],
   "note": ""
  },
  {
   "property": "C77",
   "status": "proved",
   "theorems": [
    "C77_integer_constant"
   ],
   "note": ""
  },
  {
   "property": "C78",
   "status": "proved",
   "theorems": [
    "C78_string_literals",
    "C78_character_constant"
   ],
   "note": ""
  },
  {
   "property": "C79",
   "status": "proved",
   "theorems": [
    "C79_blanks"
   ],
   "note": ""
  },
  {
   "property": "C80",
   "status": "proved",
   "theorems": [
    "C80_constant_type"
   ],
   "note": ""
  },
  {
   "property": "C81",
   "status": "proved",
   "theorems": [
    "C81_handed_back"
   ],
   "note": ""
  },
  {
   "property": "C82",
   "status": "partial",
   "theorems": [
    "C82_malformed_numbers_refuted"
   ],
   "note": "Not covered, or false of the code: accepted silently (refuted)"
  },
  {
   "property": "C83",
   "status": "partial",
   "theorems": [
    "C83_escapes_refuted"
   ],
   "note": "Not covered, or false of the code: four deviations (refuted)"
  },
  {
   "property": "C84",
   "status": "partial",
   "theorems": [
    "C84_character_type_refuted"
   ],
   "note": "Not covered, or false of the code: char instead of int (refuted)"
  },
  {
   "property": "C85",
   "status": "partial",
   "theorems": [
    "C85_unsigned_long_refuted"
   ],
   "note": "Not covered, or false of the code: undefined shift in the compiler (refuted)"
  },
  {
   "property": "C86",
   "status": "partial",
   "theorems": [
    "C86_bool_refuted",
    "C86_union_refuted"
   ],
   "note": "Not covered, or false of the code: _Bool bit-fields, union alignment (refuted)"
  },
  {
   "property": "C87",
   "status": "partial",
   "theorems": [
    "C87_postfix",
    "C87_prefix_partial",
    "C87_compound_partial",
    "C87_assign_refuted",
    "C87_prefix_refuted"
   ],
   "note": "Not covered, or false of the code: prefix forms at position >= 31 and value of an assignment (refuted)"
  },
  {
   "property": "C88",
   "status": "partial",
   "theorems": [
    "C88_neg_partial",
    "C88_pos",
    "C88_not",
    "C88_shift",
    "C88_neg_refuted"
   ],
   "note": "Not covered, or false of the code: -0x8000000000000000UL (refuted)"
  },
  {
   "property": "C89",
   "status": "partial",
   "theorems": [
    "C89_conditional_partial",
    "C89_unsigned_refuted",
    "C89_floating_refuted",
    "C89_bool_refuted"
   ],
   "note": "Not covered, or false of the code: mixed signedness, float/double, two _Bool (refuted)"
  },
  {
   "property": "C90",
   "status": "partial",
   "theorems": [
    "C90_rounding_refuted"
   ],
   "note": "Not covered, or false of the code: not rounded to their type (refuted)"
  },
  {
   "property": "C91",
   "status": "partial",
   "theorems": [
    "C91_times_zero_refuted",
    "C91_sum_type_refuted"
   ],
   "note": "Not covered, or false of the code: x*0.0, type of double+float (refuted)"
  },
  {
   "property": "C92",
   "status": "proved",
   "theorems": [
    "C92_logical"
   ],
   "note": ""
  },
  {
   "property": "C93",
   "status": "partial",
   "theorems": [
    "C93_volatile_refuted",
    "C93_parameter_const_refuted",
    "C93_enum_refuted",
    "C93_no_prototype_refuted",
    "C93_incomplete_struct_refuted"
   ],
   "note": "Not covered, or false of the code: volatile, const parameters, enums, old-style functions, incomplete structs (refuted)"
  },
  {
   "property": "C94",
   "status": "partial",
   "theorems": [
    "C94_generic_partial",
    "C94_qualifier_refuted",
    "C94_function_refuted",
    "C94_volatile_refuted"
   ],
   "note": "Not covered, or false of the code: qualifiers, functions, volatile (refuted)"
  },
  {
   "property": "C95",
   "status": "partial",
   "theorems": [
    "C95_pointer",
    "C95_array",
    "C95_nested_refuted",
    "C95_array_refuted"
   ],
   "note": "Not covered, or false of the code: const lost below the first level, const arrays (refuted)"
  },
  {
   "property": "C96",
   "status": "proved",
   "theorems": [
    "C96_explicit_casts"
   ],
   "note": ""
  },
  {
   "property": "C97",
   "status": "proved",
   "theorems": [
    "C97_struct_tags",
    "C97_enum_tags",
    "C97_typedef_names"
   ],
   "note": ""
  },
  {
   "property": "C98",
   "status": "partial",
   "theorems": [
    "C98_typedef_partial",
    "C98_typedef_refuted",
    "C98_enum_tag_refuted",
    "C98_enum_constant_refuted",
    "C98_incomplete_struct_refuted"
   ],
   "note": "Not covered, or false of the code: inner typedef ignored, inner enum rejected, incomplete struct rebinding (refuted)"
  },
  {
   "property": "C99",
   "status": "partial",
   "theorems": [
    "C99_swap_float",
    "C99_invert_float_partial",
    "C99_invert_float_refuted"
   ],
   "note": "Not covered, or false of the code: inversion with NaN (refuted)"
  },
  {
   "property": "C100",
   "status": "partial",
   "theorems": [
    "C100_merge_partial",
    "C100_merge_refuted"
   ],
   "note": "Not covered, or false of the code: first addition overwriting its operand (refuted)"
  },
  {
   "property": "C101",
   "status": "partial",
   "theorems": [
    "C101_result_partial",
    "C101_call_partial",
    "C101_flow",
    "C101_call_refuted",
    "C101_result_refuted"
   ],
   "note": "Not covered, or false of the code: first instruction of a block (refuted)"
  },
  {
   "property": "C102",
   "status": "partial",
   "theorems": [
    "C102_declare",
    "C102_tight_literal_refuted",
    "C102_narrow_value_refuted"
   ],
   "note": "Not covered, or false of the code: string filling an array without its terminator, narrow negative value in a bit-field (refuted)"
  },
  {
   "property": "C103",
   "status": "proved",
   "theorems": [
    "C103_given",
    "C103_accepted",
    "C103_unique",
    "C103_standard",
    "C103_ends",
    "C103_array_length",
    "C103_literal_length",
    "C103_string"
   ],
   "note": "Not covered, or false of the code: compound literals inside initialisers; types with unnamed bit-fields of nonzero width, unions whose first member is unnamed"
  },
  {
   "property": "C104",
   "status": "partial",
   "theorems": [
    "C104_string_part_refuted",
    "C104_braced_scalar_refuted",
    "C104_string_inside_refuted",
    "C104_unnamed_refuted",
    "C104_endless_refuted",
    "C104_out_of_range_refuted",
    "C104_literal_length_refuted",
    "C104_literal_rejected_refuted",
    "C104_literal_string_refuted"
   ],
   "note": "Not covered, or false of the code: refuted: part of a string replaced, scalar in braces after a designator, string for an array of arrays after a designator, unnamed bit-field, endless search, index out of range, three cases of compound literals"
  },
  {
   "property": "C105",
   "status": "proved",
   "theorems": [
    "C105_copy",
    "C105_clear"
   ],
   "note": "Not covered, or false of the code: which code paths call them (assignment, arguments, return values)"
  },
  {
   "property": "C106",
   "status": "partial",
   "theorems": [
    "C106_implicit",
    "C106_bool_refuted"
   ],
   "note": "Not covered, or false of the code: pointers to pointers (C95); when the diagnostic is an error and when a warning. Refuted: a pointer assigned to a _Bool"
  },
  {
   "property": "C107",
   "status": "partial",
   "theorems": [
    "C107_x64_partial",
    "C107_aarch64_partial",
    "C107_riscv64_partial",
    "C107_jcc_refuted",
    "C107_mov_refuted",
    "C107_far_refuted",
    "C107_long_refuted",
    "C107_branch_refuted"
   ],
   "note": "Not covered, or false of the code: the addresses of symbols are given (C108 and the linker's C39/C41 supply them). Refuted: x64 conditional jumps to other objects, x64 loads that name a symbol, jumps to another section of the same file, `.long` with a symbol, RISC-V `beqz` to another object"
  },
  {
   "property": "C108",
   "status": "partial",
   "theorems": [
    "C108_x64_partial",
    "C108_aarch64_partial",
    "C108_riscv64_partial",
    "C108_own_labels",
    "C108_empty_refuted"
   ],
   "note": "Not covered, or false of the code: binding, type and section index of a symbol. Refuted: an empty aligned section before another"
  },
  {
   "property": "C109",
   "status": "proved",
   "theorems": [
    "C109_same"
   ],
   "note": "Not covered, or false of the code: none for the pass; the effects of instructions are a parameter"
  },
  {
   "property": "C110",
   "status": "partial",
   "theorems": [
    "C110_emitted_partial",
    "C110_reached",
    "C110_dead_refuted",
    "C110_stale_refuted"
   ],
   "note": "Not covered, or false of the code: that labels are distinct strings. Refuted: code that is dead only after constants are propagated keeps jumps to labels that are left out; a jump to the next block left by the last round"
  },
  {
   "property": "C111",
   "status": "partial",
   "theorems": [
    "C111_same_partial",
    "C111_observable_refuted"
   ],
   "note": "Not covered, or false of the code: `vreg_table`. Refuted: observable instructions with a result other than calls (volatile loads, assignments to volatile variables, asm statements)"
  },
  {
   "property": "C112",
   "status": "partial",
   "theorems": [
    "C112_value",
    "C112_condition",
    "C112_cast_refuted"
   ],
   "note": "Not covered, or false of the code: floating point, structs and their copies, variable arguments, bit-fields (C20), inlined functions, `_Bool` objects, variables in memory as variables (they are loads and stores), block-valued expressions. Refuted: `(unsigned)(i = -1) == 4294967295u` is compiled to 0"
  },
  {
   "property": "C113",
   "status": "proved",
   "theorems": [
    "C113_result",
    "C113_only_result",
    "C113_progress",
    "C113_divergence",
    "C113_labels",
    "C113_blocks"
   ],
   "note": "Not covered, or false of the code: `asm`, variable-length arrays, scopes (variables are numbered apart); as C112"
  },
  {
   "property": "C114",
   "status": "proved",
   "theorems": [
    "C114_total",
    "C114_same",
    "C114_once",
    "C114_initialised",
    "C114_flow",
    "C114_phis"
   ],
   "note": "Not covered, or false of the code: the vectors of versions kept for the register allocator. The first block must not be the target of a jump: its phis would be left out (code generation never makes such a jump)"
  },
  {
   "property": "C115",
   "status": "partial",
   "theorems": [
    "C115_total",
    "C115_same",
    "C115_form",
    "C115_after_ssa",
    "C115_ends_refuted"
   ],
   "note": "Not covered, or false of the code: functions in which some path reads a register before it is assigned: for them `C115_ends_refuted` shows that the compiler may not end; whether behaviour is kept when it ends is open"
  },
  {
   "property": "C116",
   "status": "partial",
   "theorems": [
    "C116_total",
    "C116_same",
    "C116_gone",
    "C116_easy_partial",
    "C116_stale_refuted"
   ],
   "note": "Not covered, or false of the code: blocks with four or more phis that depend on one another (C31). Refuted: with predecessors that are out of date after a jump on a constant was removed (`C116_stale_refuted`: `int f(int p) { int x = p, y, c = 0; do { y = x; x = x + 1; } while (c); return y; }` returns p + 1 with -O)"
  },
  {
   "property": "C117",
   "status": "partial",
   "theorems": [
    "C117_reduced",
    "C117_same_partial"
   ],
   "note": "Not covered, or false of the code: functions from which a jump on a constant was removed: refuted (`C116_stale_refuted`); blocks with four or more phis that depend on one another (C31)"
  },
  {
   "property": "C118",
   "status": "proved",
   "theorems": [
    "C118_grouped",
    "C118_argument",
    "C118_one_tree",
    "C118_accepted",
    "C118_ends"
   ],
   "note": "Not covered, or false of the code: _Generic, statement expressions' inside, va_arg and the type checks are not modelled; sequences in which sizeof is applied to an unparenthesised compound literal are excluded (see C119)."
  },
  {
   "property": "C119",
   "status": "partial",
   "theorems": [
    "C119_constant_partial",
    "C119_constant_refuted",
    "C119_sizeof_refuted"
   ],
   "note": "Not covered, or false of the code: Fails for conditional expressions as constants and for sizeof of a compound literal."
  },
  {
   "property": "C120",
   "status": "partial",
   "theorems": [
    "C120_message_partial",
    "C120_message_refuted"
   ],
   "note": "Not covered, or false of the code: Fails: after the message for a missing operand the NULL operand is dereferenced."
  },
  {
   "property": "C121",
   "status": "proved",
   "theorems": [
    "C121_any_order",
    "C121_one_type"
   ],
   "note": ""
  },
  {
   "property": "C122",
   "status": "partial",
   "theorems": [
    "C122_qualified_partial",
    "C122_floating_refuted",
    "C122_twice_refuted"
   ],
   "note": "Not covered, or false of the code: Fails: floating types lose their qualifiers; a qualifier given twice stops the compiler."
  },
  {
   "property": "C123",
   "status": "proved",
   "theorems": [
    "C123_declared",
    "C123_one_type",
    "C123_graph",
    "C123_ends"
   ],
   "note": ""
  },
  {
   "property": "C124",
   "status": "partial",
   "theorems": [
    "C124_accepted_partial",
    "C124_parentheses_refuted",
    "C124_function_parameter_refuted",
    "C124_length_refuted",
    "C124_variable_length_refuted",
    "C124_open_rows_refuted",
    "C124_qualifier_refuted"
   ],
   "note": "Not covered, or false of the code: Fails: `int ((a))[3]` is an int; `int f(char (int))` and `int f(int n, int a[n + 1])` get an error; `a` in `int f(int n, int a[n])` is const; `int f(int n, int a[][n]) {}` fails an assertion; `int f(int a[const])` crashes."
  },
  {
   "property": "C125",
   "status": "partial",
   "theorems": [
    "C125_message_partial",
    "C125_signs_refuted",
    "C125_char_int_refuted",
    "C125_float_double_refuted"
   ],
   "note": "Not covered, or false of the code: Fails: `signed unsigned`, `char int` and `float double` are accepted. Sets with a named type are left out."
  },
  {
   "property": "C126",
   "status": "proved",
   "theorems": [
    "C126_grouped",
    "C126_one_body",
    "C126_ends"
   ],
   "note": "Not covered, or false of the code: asm statements; the types of conditions and of returned values."
  },
  {
   "property": "C127",
   "status": "partial",
   "theorems": [
    "C127_accepted_partial",
    "C127_missing_refuted"
   ],
   "note": "Not covered, or false of the code: Fails: a loop without body before a closing brace, `while (x) }`, is accepted; `if (x) }` and `switch (x) }` go on to a null pointer."
  },
  {
   "property": "C128",
   "status": "partial",
   "theorems": [
    "C128_zero_partial",
    "C128_case_refuted",
    "C128_label_refuted"
   ],
   "note": "Not covered, or false of the code: Fails when a label or case is within a statement after a jump, or in a branch that a constant condition excludes: `switch (x) { default: return 1; if (0) { case 1: g(); } }` and `while (1) { goto out; { out: break; } }`. These are excluded by `in_sight`. A body that ends with asm is excluded too, as in the source; calls of noreturn functions are taken not to return."
  },
  {
   "property": "C129",
   "status": "partial",
   "theorems": [
    "C129_value_partial",
    "C129_noreturn_partial",
    "C129_case_refuted"
   ],
   "note": "Not covered, or false of the code: Fails in the same cases."
  },
  {
   "property": "C130",
   "status": "proved",
   "theorems": [
    "C130_block",
    "C130_result"
   ],
   "note": "Not covered, or false of the code: That the allocator gives registers as `fits` asks (C33 and C101 are about the allocator); the text of the instructions and their encoding by the assembler. Loads, stores, calls and floating-point arithmetic are not in the list."
  },
  {
   "property": "C131",
   "status": "proved",
   "theorems": [
    "C131_jump",
    "C131_float_jump",
    "C131_float_value",
    "C131_index"
   ],
   "note": "Not covered, or false of the code: The address of the label (C38, C107)."
  },
  {
   "property": "C132",
   "status": "partial",
   "theorems": [
    "C132_to_float_partial",
    "C132_to_float_refuted",
    "C132_to_int_partial",
    "C132_to_unsigned_refuted",
    "C132_to_unsigned_long_refuted"
   ],
   "note": "Not covered, or false of the code: Fails for unsigned 4-byte numbers whose register has bits in the upper half, which a cast from 8 bytes leaves there, and for floating-point numbers in the upper half of unsigned int and unsigned long."
  },
  {
   "property": "C133",
   "status": "proved",
   "theorems": [
    "C133_same",
    "C133_form",
    "C133_instructions"
   ],
   "note": "Not covered, or false of the code: An operation must not have its destination as second operand (code generation takes a new register for each result)."
  },
  {
   "property": "C134",
   "status": "proved",
   "theorems": [
    "C134_caller",
    "C134_apart",
    "C134_callee",
    "C134_hidden",
    "C134_arrive"
   ],
   "note": "Not covered, or false of the code: Structures of up to 16 bytes are passed in memory by this compiler, in registers by the ABI; `type_ok` says that sizes are those of the code's types and alignments at most 8. How `ei_pusharg` fills the registers is not modelled."
  },
  {
   "property": "C135",
   "status": "partial",
   "theorems": [
    "C135_walk",
    "C135_struct_return_refuted",
    "C135_struct_param_refuted"
   ],
   "note": "Not covered, or false of the code: Fails in a function that returns a structure (its hidden pointer is not counted), and when there is a structure among the named parameters (its words on the stack are not counted)."
  },
  {
   "property": "C136",
   "status": "proved",
   "theorems": [
    "C136_inside",
    "C136_apart",
    "C136_room",
    "C136_alloca"
   ],
   "note": "Not covered, or false of the code: Alignment is relative to the base pointer, a multiple of 8 (larger alignments are not met by the code: the base pointer is 16-aligned only by chance of the saved registers). A block from alloca is aligned to 16 only if the room for calls is. Sizes of 2^31 and more."
  },
  {
   "property": "C137",
   "status": "proved",
   "theorems": [
    "C137_restore",
    "C137_aligned"
   ],
   "note": "Not covered, or false of the code: Functions with asm statements only have no prologue in the source and are left out."
  },
  {
   "property": "C138",
   "status": "proved",
   "theorems": [
    "C138_survive",
    "C138_room",
    "C138_living"
   ],
   "note": "Not covered, or false of the code: Registers for arguments and results (rax, rdi, ...) are never in use across a call, which the allocator has to see to (`detect_extra_occupied`, see C101)."
  },
  {
   "property": "C139",
   "status": "partial",
   "theorems": [
    "C139_integers",
    "C139_floats_refuted"
   ],
   "note": "Not covered, or false of the code: Fails for floating-point numbers: their registers are saved 8 bytes apart instead of 16."
  },
  {
   "property": "C140",
   "status": "partial",
   "theorems": [
    "C140_encoded_partial",
    "C140_not_byte_refuted",
    "C140_high_byte_refuted",
    "C140_extend_high_byte_refuted"
   ],
   "note": "Not covered, or false of the code: Fails for neg and not of 8-bit registers and for ah, bh, ch, dh with encoders that emit REX (refutations); constants that need more bits than the instruction has are left out (`fine_reg` says exactly what is covered). That opcode table entries and the decoder agree with the hardware rests on reading the manual."
  },
  {
   "property": "C141",
   "status": "partial",
   "theorems": [
    "C141_encoded_partial",
    "C141_subq_refuted",
    "C141_r12_refuted",
    "C141_index_size_refuted",
    "C141_rbp_refuted",
    "C141_direct_refuted",
    "C141_segment_refuted",
    "C141_offset_refuted"
   ],
   "note": "Not covered, or false of the code: Fails for subq with an offset, for lea/add/sub/inc/dec with base r12 or r13, for indexed addresses with rbp or r13 and no offset, for indexed mov of less than 64 bits with r8 to r15, for absolute addresses with r8 to r15, for fs with registers other than rax, and for offsets beyond 32 bits (refutations for the main ones; `fine_mem` says exactly what is covered)."
  },
  {
   "property": "C142",
   "status": "partial",
   "theorems": [
    "C142_room",
    "C142_abort_refuted"
   ],
   "note": "Not covered, or false of the code: The asserts of add and sub with a scaled index fail for scales 1 and 8 (refutation). Which instructions abort otherwise is not characterised."
  },
  {
   "property": "C143",
   "status": "proved",
   "theorems": [
    "C143_setjmp_x64",
    "C143_setjmp_aarch64",
    "C143_setjmp_riscv",
    "C143_longjmp_x64",
    "C143_longjmp_aarch64",
    "C143_longjmp_riscv"
   ],
   "note": "Not covered, or false of the code: The wasm implementation, the control words of the x87 and SSE units. On RISC-V the int argument is sign-extended in its register, as the ABI says. That the compiler emits nothing but the asm statement and a return is read off the source, not proved."
  },
  {
   "property": "C144",
   "status": "partial",
   "theorems": [
    "C144_order_partial",
    "C144_cxa_order_partial",
    "C144_results",
    "C144_fini",
    "C144_nested_refuted",
    "C144_32_refuted",
    "C144_mixed_refuted"
   ],
   "note": "Not covered, or false of the code: Fails: functions registered during exit are not called, the ninth registration fails (C asks for 32), and functions of atexit and __cxa_atexit are not ordered among each other. The system call that ends the process, and exit called again from a function called at exit (undefined in C), are left out."
  },
  {
   "property": "C145",
   "status": "proved",
   "theorems": [
    "C145_getenv"
   ],
   "note": "Not covered, or false of the code: How the environment gets to the program (`_start.c`)."
  },
  {
   "property": "C146",
   "status": "partial",
   "theorems": [
    "C146_basename_partial",
    "C146_dirname_partial",
    "C146_basename_refuted",
    "C146_dirname_refuted",
    "C146_dirname_end_refuted"
   ],
   "note": "Not covered, or false of the code: Fails for paths that end in a slash, for entries of the root directory and for several slashes before the last component; a NULL path, which POSIX allows, is not modelled (the code dereferences it)."
  },
  {
   "property": "C147",
   "status": "partial",
   "theorems": [
    "C147_sequence",
    "C147_range",
    "C147_period",
    "C147_srand",
    "C147_start_refuted"
   ],
   "note": "Not covered, or false of the code: Fails for programs that do not call srand. drand48 and erand48 (floating point) are left out."
  }
 ]
}