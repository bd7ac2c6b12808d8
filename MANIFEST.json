{
 "claims": [
  {
   "property": "C01",
   "status": "proved",
   "theorems": [
    "C01_integer_binary",
    "C01_integer_unary"
   ],
   "note": "all pairs of 64-bit integers and all operators"
  },
  {
   "property": "C02",
   "status": "partial",
   "theorems": [
    "C02_folding_preserves_partial",
    "C02_untaken_branch_refuted"
   ],
   "note": "refuted in full: folding the branch of ?: that is not taken can throw (substr). Proved: whenever folding completes the result is preserved in every state with the same parse-time context and no message is lost"
  },
  {
   "property": "C03",
   "status": "partial",
   "theorems": [
    "C03_grammar",
    "C03_minimal_parentheses_partial",
    "C03_nested_unary_refuted"
   ],
   "note": "refuted for nested unary operators (\"!!x\" is not parsed); proved for every grammar sentence and for every tree printed with minimal parentheses when the operand of a unary operator is parenthesised if it is itself unary"
  },
  {
   "property": "C04",
   "status": "partial",
   "theorems": [
    "C04_accepted_is_grammatical_partial",
    "C04_accepted_up_to_groups_partial",
    "C04_dropped_tokens_refuted"
   ],
   "note": "refuted: \"(*) - 3\" is accepted as -3; proved for all token sequences in which every '(' opens a well formed group or argument list"
  },
  {
   "property": "C05",
   "status": "partial",
   "theorems": [
    "C05_print_parse_partial",
    "C05_string_refuted",
    "C05_smallest_integer_refuted",
    "C05_call_refuted"
   ],
   "note": "refuted for strings with quotes, the smallest integer and calls; proved (text level, spliced before any following text) for trees over integers, names, plain strings, '.', unary/binary/conditional/degree operators"
  },
  {
   "property": "C06",
   "status": "partial",
   "theorems": [
    "C06_logical_partial",
    "C06_not_partial",
    "C06_float_refuted"
   ],
   "note": "refuted for && and || with a float operand (result is the bit pattern of 1.0). Proved for all comparisons on all types, ! on numbers, && and || on integers"
  },
  {
   "property": "C07",
   "status": "proved",
   "theorems": [
    "C07_comparisons",
    "C07_transitive"
   ],
   "note": "integers, strings, floats without NaN, and mixed numbers; transitivity within one type"
  },
  {
   "property": "C08",
   "status": "partial",
   "theorems": [
    "C08_min_int",
    "C08_max_int",
    "C08_min_float_partial",
    "C08_max_float_partial",
    "C08_max_refuted"
   ],
   "note": "refuted: max of negative floats is DBL_MIN. Proved for integers in full, for floats with the side conditions stated"
  },
  {
   "property": "C09",
   "status": "proved",
   "theorems": [
    "C09_scoping",
    "C09_names",
    "C09_predefined"
   ],
   "note": "every history of references, definitions, equs, generated labels and clears; names without NUL characters"
  },
  {
   "property": "C10",
   "status": "proved",
   "theorems": [
    "C10_label_or_equ",
    "C10_same_object"
   ],
   "note": "every history without a clear in between"
  },
  {
   "property": "C11",
   "status": "proved",
   "theorems": [
    "C11_generated_distinct"
   ],
   "note": "up to 2^64 generated names in one assembly"
  },
  {
   "property": "C12",
   "status": "partial",
   "theorems": [
    "C12_macro_labels_partial",
    "C12_macro_labels_refuted"
   ],
   "note": "refuted: macros a and a_b with labels @@b_l and @@l give the same name. Proved for labels of the same macro and for macro names without _ and @"
  },
  {
   "property": "C13",
   "status": "partial",
   "theorems": [
    "C13_expansion_partial",
    "C13_declaration_partial",
    "C13_lookahead",
    "C13_cross_file_refuted",
    "C13_case_refuted",
    "C13_empty_refuted"
   ],
   "note": "refuted: cyclic static equs across files, -equ with an upper-case name standing for itself and empty values. Proved: termination and full expansion for every other declaration history"
  },
  {
   "property": "C14",
   "status": "partial",
   "theorems": [
    "C14_macro_body_partial",
    "C14_self_argument_refuted"
   ],
   "note": "refuted: an argument that mentions the parameter name loops. Proved when no argument mentions a parameter, macro label or equ name"
  },
  {
   "property": "C15",
   "status": "proved",
   "theorems": [
    "C15_total",
    "C15_balanced",
    "C15_select",
    "C15_select_plain",
    "C15_context"
   ],
   "note": "All texts: the first branch that holds at every level is assembled, for conditions known while parsing and for the others however they turn out; the stack is balanced. Statements are arbitrary functions of context and state; .elseifdef without a name is excluded (C72)."
  },
  {
   "property": "C16",
   "status": "partial",
   "theorems": [
    "C16_literal_value_partial",
    "C16_literal_sound",
    "C16_large_literal_refuted"
   ],
   "note": "refuted above 2^63-1 (signed overflow, undefined behaviour); proved exact for all smaller literals in all notations, and that only literals with digits of their base are read as numbers"
  },
  {
   "property": "C17",
   "status": "partial",
   "theorems": [
    "C17_addresses",
    "C17_seek_answer",
    "C17_rejected",
    "C17_header_without_file_refuted"
   ],
   "note": "refuted: .headersize without an open file uses the null pointer; for every history in which that does not happen the addresses, the answers to seeks and the effect of rejected operations are proved"
  },
  {
   "property": "C18",
   "status": "proved",
   "theorems": [
    "C18_write",
    "C18_accepted",
    "C18_rejected"
   ],
   "note": "all units, values, both byte orders of target and host, all histories"
  },
  {
   "property": "C19",
   "status": "partial",
   "theorems": [
    "C19_layout_partial",
    "C19_loadelf_refuted"
   ],
   "note": "refuted: for data directly after .loadelf (C19_loadelf_refuted). Proved for all other programs of the modelled commands, including imported objects and the function for their constructors: every accepted program is laid out by one pass with its final labels; expressions are arbitrary functions of labels, position and table."
  },
  {
   "property": "C20",
   "status": "proved",
   "theorems": [
    "C20_terminates",
    "C20_passes",
    "C20_passes_determined",
    "C20_parse_error"
   ],
   "note": "Termination within 100 passes, the passes determined, no output and nothing open after an error of parsing or of the last pass."
  },
  {
   "property": "C21",
   "status": "proved",
   "theorems": [
    "C21_encode_follows",
    "C21_thumb_size"
   ],
   "note": "Every modelled command kind, including nested sequences, areas, blocks and macros: encoding keeps step with the last validation and writes what place says. Also instruction sizes per architecture (C21_thumb_size)."
  },
  {
   "property": "C22",
   "status": "partial",
   "theorems": [
    "C22_align_partial",
    "C22_align_refuted",
    "C22_aligna",
    "C22_fill",
    "C22_skip"
   ],
   "note": "refuted: .align at a negative address goes past the next multiple. Proved: .align at addresses from zero, .aligna, .fill, .skip for all addresses."
  },
  {
   "property": "C23",
   "status": "partial",
   "theorems": [
    "C23_area_partial",
    "C23_end_refuted",
    "C23_outside_refuted"
   ],
   "note": "refuted: a plain area without fill byte ends at the end of its contents; contents may leave the area with .org and write outside. Proved: the contents end within the area, filling is exact, position afterwards."
  },
  {
   "property": "C24",
   "status": "partial",
   "theorems": [
    "C24_inside_partial",
    "C24_disjoint_partial",
    "C24_growing_region_refuted",
    "C24_overlapping_regions_refuted"
   ],
   "note": "refuted in general: a region that grows after a block was placed in it, and overlapping regions; proved for passes in which hosts hold still (disjointness for regions that do not overlap)"
  },
  {
   "property": "C25",
   "status": "partial",
   "theorems": [
    "C25_range_partial",
    "C25_kept_position_refuted"
   ],
   "note": "refuted: a kept position may exceed the maximum; minimum always holds, maximum holds unless the position is kept"
  },
  {
   "property": "C26",
   "status": "proved",
   "theorems": [
    "C26_values",
    "C26_size",
    "C26_output"
   ],
   "note": "All lists of integer, number and string arguments; all unit sizes, byte orders, terminators and tables; output through the modelled file manager. NaN arguments excluded (no definite bit pattern)."
  },
  {
   "property": "C27",
   "status": "proved",
   "theorems": [
    "C27_longest_match",
    "C27_no_match",
    "C27_error",
    "C27_load"
   ],
   "note": "entries non-empty and free of NUL; file reading as in C58"
  },
  {
   "property": "C28",
   "status": "proved",
   "theorems": [
    "C28_last_table",
    "C28_reload_refuted",
    "C28_clear_refuted"
   ],
   "note": "for .loadtable; refuted below it: loading twice into the same EncodingTable object keeps entries of the first table, and encoding after clear() is undefined"
  },
  {
   "property": "C29",
   "status": "proved",
   "theorems": [
    "C29_encode",
    "C29_decode",
    "C29_tokenizer",
    "C29_prefix_free"
   ],
   "note": "all code points and all byte strings; surrogates are encoded like any other code point"
  },
  {
   "property": "C30",
   "status": "proved",
   "theorems": [
    "C30_crc16",
    "C30_crc32",
    "C30_crc16_detects",
    "C30_crc32_detects",
    "C30_checksum"
   ],
   "note": "all byte sequences; also every change within 2 (crc16) or 4 (crc32) consecutive bytes is detected; the plain checksum is exact up to the int range"
  },
  {
   "property": "C31",
   "status": "proved",
   "theorems": [
    "C31_immediate_search",
    "C32_arm_dp_immediate"
   ],
   "note": "search function for all 2^32 constants, and end to end for every data-processing immediate row of the opcode table"
  },
  {
   "property": "C32",
   "status": "proved",
   "theorems": [
    "C32_arm_dp_immediate"
   ],
   "note": "for logical instructions the shifter carry and V are outside the claim"
  },
  {
   "property": "C33",
   "status": "proved",
   "theorems": [
    "C33_arm_branch_target"
   ],
   "note": "instruction address word aligned; the single distance 2^31 is undefined behaviour of the range check"
  },
  {
   "property": "C34",
   "status": "partial",
   "theorems": [
    "C34_branch_partial",
    "C34_blx_far_refuted",
    "C34_odd_address_refuted"
   ],
   "note": "refuted in full: blx to a far target and odd target addresses; branches in range decode to the written target"
  },
  {
   "property": "C35",
   "status": "partial",
   "theorems": [
    "C35_branch_partial",
    "C35_jump_partial",
    "C35_range_refuted",
    "C35_unaligned_refuted",
    "C35_nop_refuted",
    "C35_region_refuted"
   ],
   "note": "refuted in full: distance 0x20000, targets that are not aligned, jumps to another region, a branch behind an inserted nop; all other accepted branches and jumps go to the written address"
  },
  {
   "property": "C36",
   "status": "partial",
   "theorems": [
    "C36_target",
    "C36_reach_partial",
    "C36_furthest_refuted",
    "C36_high_refuted"
   ],
   "note": "refuted: the branch furthest back (-256, -4096 bytes) is rejected, and so is every target from 2^31 on. Proved: every accepted branch or pc-relative load refers to the address asked for; every other address in reach below 2^31 is accepted."
  },
  {
   "property": "C37",
   "status": "partial",
   "theorems": [
    "C37_arm_shift_dp_partial",
    "C37_arm_shift_register_partial",
    "C37_arm_no_shift",
    "C37_arm_shift_mem_partial",
    "C37_arm_ror32_refuted",
    "C37_arm_shift_truncation_refuted",
    "C37_arm_rrx_register_refuted"
   ],
   "note": "refuted: ror #32 corrupts rd, amounts are truncated to 32 bits, rrx by register accepted; proved for all other constant shifts"
  },
  {
   "property": "C38",
   "status": "partial",
   "theorems": [
    "C38_pool_partial",
    "C38_sharing_partial",
    "C38_sharing_refuted"
   ],
   "note": "refuted: from the tenth pass on equal values do not share a slot. Proved: each load has a slot with its value, in reach, no unused slots, none left over (C19); sharing in the first ten passes."
  },
  {
   "property": "C39",
   "status": "partial",
   "theorems": [
    "C39_arm_coprocessor_partial",
    "C39_arm_mcr_opcode_refuted"
   ],
   "note": "refuted: mcr/mrc opcode numbers 8..15 overwrite bit 24; proved for all in-range operands"
  },
  {
   "property": "C40",
   "status": "partial",
   "theorems": [
    "C40_fields_partial",
    "C40_ins_refuted",
    "C40_one_operand_refuted",
    "C40_vcmov_refuted",
    "C40_sqrt_refuted"
   ],
   "note": "refuted in full: ins beyond bit 31, one-operand wsbh and the like, vcmovf, PS2 sqrt.s; every other accepted line of every processor is proved to be the reference encoding with every operand in its own field"
  },
  {
   "property": "C41",
   "status": "proved",
   "theorems": [
    "C41_fields",
    "C41_distinct",
    "C41_every_instruction"
   ],
   "note": "Every accepted line decodes, with an independent SH-2 decoder, to the instruction and operands that were written; equal halfwords are the same instruction; every instruction of the decoder can be written."
  },
  {
   "property": "C42",
   "status": "partial",
   "theorems": [
    "C42_immediate_partial",
    "C42_range_refuted"
   ],
   "note": "refuted in full: numbers up to 65535 in magnitude are accepted for signed fields, and numbers are first cut to 32 bits; every number the instruction can represent is read back exactly"
  },
  {
   "property": "C43",
   "status": "proved",
   "theorems": [
    "C43_hi_lo",
    "C43_lui_addiu",
    "C43_lui_access"
   ],
   "note": "hi/lo as evaluated by the expression evaluator for every integer, and lui/addiu and lui/load-store pairs run on the machine of MipsCpu.v"
  },
  {
   "property": "C44",
   "status": "proved",
   "theorems": [
    "C44_li",
    "C44_halves"
   ],
   "note": "li/la and the .u/.l halves for every accepted integer, every state and every register except r0; li.s (floats) is outside the statement"
  },
  {
   "property": "C45",
   "status": "partial",
   "theorems": [
    "C45_access_partial",
    "C45_load_partial",
    "C45_store_partial",
    "C45_halves_partial",
    "C45_r0_refuted",
    "C45_at_refuted"
   ],
   "note": "refuted: lw r0,addr accesses the wrong address, sw at,addr stores the wrong value; proved for all other registers (kind, register and address of the access for all 27 mnemonics and halves; the loaded/stored value for the 8-, 16- and 32-bit ones)"
  },
  {
   "property": "C46",
   "status": "partial",
   "theorems": [
    "C46_set_partial",
    "C46_same_refuted"
   ],
   "note": "refuted: rd = rs with a number that has to be loaded first; proved for all other operands"
  },
  {
   "property": "C47",
   "status": "proved",
   "theorems": [
    "C47_branch",
    "C47_temporary"
   ],
   "note": "all ten comparisons, likely or not, register or number; the target is right too except in the cases refuted under C35"
  },
  {
   "property": "C48",
   "status": "proved",
   "theorems": [
    "C48_rotate",
    "C48_abs"
   ],
   "note": "rol/ror/abs on all CPUs; d <> r0 and no operand is the assembler temporary; dabs (64-bit) is not covered"
  },
  {
   "property": "C49",
   "status": "partial",
   "theorems": [
    "C49_ulhu_partial",
    "C49_ulh_partial",
    "C49_ulw_partial",
    "C49_usw_partial",
    "C49_ush_partial",
    "C49_ulh_refuted",
    "C49_offset_refuted"
   ],
   "note": "refuted: ulh with a lower byte above 0x7F, offsets above 0x7FFF; proved for ulhu, ulw, ush, usw and for ulh with lower byte below 0x80, offsets -0x8000..0x7FFF"
  },
  {
   "property": "C50",
   "status": "partial",
   "theorems": [
    "C50_words_partial",
    "C50_pairs_partial",
    "C50_low_partial",
    "C50_dangling_partial",
    "C50_jumps_partial",
    "C50_addend_refuted",
    "C50_common_refuted",
    "C50_pair_overflow_refuted",
    "C50_region_refuted"
   ],
   "note": "refuted: addends of RELA relocations are ignored, references to common symbols get their alignment, a pair with the value 0x7FFF8000 overflows (undefined behaviour), jumps into other regions are not reported. Proved for all other references of successful imports: words, jumps inside the region, HI16/LO16 pairs (mismatched pairs make the import fail), single LO16 and HI16."
  },
  {
   "property": "C51",
   "status": "partial",
   "theorems": [
    "C51_words_partial",
    "C51_branches_partial",
    "C51_thumb_calls_partial",
    "C51_thumb_blx_refuted",
    "C51_thumb_big_endian_refuted",
    "C51_blx_to_arm_refuted",
    "C51_addend_refuted",
    "C51_common_refuted",
    "C51_distance_refuted"
   ],
   "note": "refuted: RELA addends, common symbols, Thumb calls of ARM functions at addresses = 2 mod 4, big endian Thumb calls, existing blx with an ARM target, overflow of the distance. Proved for all other references of successful imports."
  },
  {
   "property": "C52",
   "status": "partial",
   "theorems": [
    "C52_words_partial",
    "C52_common_refuted"
   ],
   "note": "refuted for references to common symbols; proved for all other references of successful imports (addends included)."
  },
  {
   "property": "C53",
   "status": "partial",
   "theorems": [
    "C53_layout_partial",
    "C53_disjoint_partial",
    "C53_bytes_partial",
    "C53_gaps_partial",
    "C53_success_partial",
    "C53_alignment_0_refuted"
   ],
   "note": "refuted for sections with sh_addralign 0 (division by zero); proved for all alignments > 0, with contents and gaps, and success of imports without relocations."
  },
  {
   "property": "C54",
   "status": "partial",
   "theorems": [
    "C54_modules",
    "C54_lines_partial",
    "C54_sorted",
    "C54_functions_partial",
    "C54_twice_refuted",
    "C54_open_function_refuted",
    "C54_size_lost_refuted"
   ],
   "note": "refuted: same label in two modules is written twice, a function open across a module change is undefined, the size is lost when two functions share a start; proved per module, and for the whole file without modules"
  },
  {
   "property": "C55",
   "status": "partial",
   "theorems": [
    "C55_error_status",
    "C55_error_stays",
    "C55_dropped_queue",
    "C55_balanced",
    "C55_suppressed_error_refuted",
    "C55_late_queue"
   ],
   "note": "refuted: errors while errors are suppressed do not set the error status (they are dropped); proved without suppression"
  },
  {
   "property": "C56",
   "status": "proved",
   "theorems": [
    "C56_contents",
    "C56_defined",
    "C56_get_word",
    "C56_get_dword",
    "C56_word_round_trip",
    "C56_dword_round_trip",
    "C56_word_outside",
    "C56_dword_outside"
   ],
   "note": "all histories of operations on existing positions; bytes added by resize are unspecified; sizes below 2^64"
  },
  {
   "property": "C57",
   "status": "partial",
   "theorems": [
    "C57_fixed_partial",
    "C57_nops",
    "C57_warned_partial",
    "C57_reset_refuted",
    "C57_required_refuted"
   ],
   "note": "refuted: .resetdelay disables the check for the rest of the text, and instructions that only write the loaded register also get a nop; proved for all texts (macros included) without .resetdelay: no word reads what the preceding word loads with .fixloaddelay, one word per instruction and a warning per such pair without it. mfc0/mfc2 are not loads in this sense"
  },
  {
   "property": "C58",
   "status": "partial",
   "theorems": [
    "C58_memory",
    "C58_file_marked_partial",
    "C58_file_partial",
    "C58_stray_cr_refuted",
    "C58_ascii_refuted",
    "C58_short_file_refuted"
   ],
   "note": "refuted: a lone CR loses the next character, ASCII files are read as half, files of 1 or 2 bytes are never finished; proved for well-formed UTF-8/UTF-16 files and for memory input; Shift-JIS not modelled"
  },
  {
   "property": "C59",
   "status": "partial",
   "theorems": [
    "C59_generated_clash_refuted"
   ],
   "note": "refuted: a user label __armips_label_00000000__ is the first generated name"
  },
  {
   "property": "C60",
   "status": "partial",
   "theorems": [
    "C60_overlap_partial",
    "C60_same_start_refuted"
   ],
   "note": "refuted: areas with the same start replace each other without a warning; proved for all registered areas"
  },
  {
   "property": "C61",
   "status": "partial",
   "theorems": [
    "C61_no_room_partial",
    "C61_room_not_found_refuted"
   ],
   "note": "refuted: free space behind the first free address is not considered; proved: every first free address is out of range or too near the end"
  },
  {
   "property": "C62",
   "status": "partial",
   "theorems": [
    "C62_decode_partial",
    "C62_pool",
    "C62_lists_partial",
    "C62_truncation_refuted",
    "C62_list_refuted",
    "C62_load_pc_refuted",
    "C62_list_unsigned"
   ],
   "note": "refuted in full: immediates and register lists that do not fit are silently truncated for some rows, ldr rd,[r15]; decode theorem for all remaining rows"
  },
  {
   "property": "C63",
   "status": "proved",
   "theorems": [
    "C63_literal",
    "C63_writable",
    "C63_unterminated"
   ],
   "note": ""
  },
  {
   "property": "C64",
   "status": "proved",
   "theorems": [
    "C64_blank",
    "C64_line_end",
    "C64_only"
   ],
   "note": ""
  },
  {
   "property": "C65",
   "status": "partial",
   "theorems": [
    "C65_lines_partial",
    "C65_lines_refuted",
    "C65_empty_line_refuted"
   ],
   "note": "refuted in full: a trailing equ swallows the next line, empty last line; proved when the first part has no lexical error, no pending equ and a non-empty last line"
  },
  {
   "property": "C66",
   "status": "partial",
   "theorems": [
    "C66_ends",
    "C66_survives_partial",
    "C66_comment_refuted",
    "C66_quote_refuted",
    "C66_number_refuted",
    "C66_utf8_refuted"
   ],
   "note": "refuted in full: unclosed block comment throws, lone quote, 2^63 literal, truncated UTF-8; proved: always ends, and no accident on plain text"
  },
  {
   "property": "C67",
   "status": "partial",
   "theorems": [
    "C67_distinct_partial",
    "C67_vmfvc_refuted",
    "C67_ulv_refuted"
   ],
   "note": "refuted for the PSP: vmfv/vmfvc, vmtv/vmtvc, ulv.q/lvl.q/lvr.q, usv.q/svl.q/svr.q share words; proved for all other pairs"
  },
  {
   "property": "C68",
   "status": "partial",
   "theorems": [
    "C68_value_partial",
    "C68_range_refuted",
    "C68_indirect_refuted"
   ],
   "note": "refuted: mov #200 loads -56, and #-2 uses 254, @(-2,r1) reads 30 bytes ahead, mov @r1,r2 copies the register. Proved: numbers in the range of their operand keep their value."
  },
  {
   "property": "C69",
   "status": "partial",
   "theorems": [
    "C69_exported_partial",
    "C69_all_exported_partial",
    "C69_common_refuted"
   ],
   "note": "refuted for common symbols (references disagree with the value); proved for all other exported symbols."
  },
  {
   "property": "C70",
   "status": "partial",
   "theorems": [
    "C70_in_force_partial",
    "C70_table_refuted",
    "C70_order_refuted"
   ],
   "note": "refuted: table and byte order left over from the end of the previous pass are in force until the first directive. Proved: with an architecture and a table at the beginning everything is determined by what precedes."
  },
  {
   "property": "C71",
   "status": "partial",
   "theorems": [
    "C71_no_trace_partial",
    "C71_definitions",
    "C71_mode_refuted",
    "C71_settings_refuted",
    "C71_error_refuted"
   ],
   "note": "refuted: .thumb/.arm, architecture directives and other settings act in branches not taken; macro definitions there can be errors. Proved for definitions, instructions and inclusions."
  },
  {
   "property": "C72",
   "status": "partial",
   "theorems": [
    "C72_closed_partial",
    "C72_closed_refuted"
   ],
   "note": "refuted: .elseifdef/.elseifndef without a name ends the conditional silently. Proved for all texts without such a condition."
  },
  {
   "property": "C73",
   "status": "proved",
   "theorems": [
    "C73_complete",
    "C73_sound",
    "C73_one_reading"
   ],
   "note": "Mnemonic recognition is sound and complete against an independent spelling relation for every row, and no text has two readings."
  },
  {
   "property": "C74",
   "status": "partial",
   "theorems": [
    "C74_read_partial",
    "C74_once",
    "C74_row_once",
    "C74_digits_refuted",
    "C74_minus_refuted",
    "C74_status_refuted"
   ],
   "note": "refuted: numbers of twenty digits after a shift name end in an uncaught exception, a post-indexed register with a minus sign is taken for an expression, and text after the letters of a status register is ignored. Proved for all lines: the row chosen is the first whose layout the tokens fit, lines are rejected exactly if they fit none, the reading is unique, and the only crash is the one with nineteen or more digits."
  },
  {
   "property": "C75",
   "status": "partial",
   "theorems": [
    "C75_line_partial",
    "C75_user_refuted",
    "C75_smlal_refuted",
    "C75_odd_refuted",
    "C75_cop_refuted",
    "C75_rrx_refuted",
    "C75_ror_refuted",
    "C75_shift_refuted",
    "C75_strh_refuted",
    "C75_swi_refuted"
   ],
   "note": "refuted: user-mode transfers without offset, smlal of bottom halves, odd registers of doubleword transfers, coprocessor opcodes above 7, rrx by register, ror by 32, shift amounts truncated to 32 bits, halfword stores to an address, negative software interrupts. Proved for all other lines of all rows, from tokens to word: accepted exactly if the operands fit, and the word decodes to the instruction asked for."
  },
  {
   "property": "C76",
   "status": "proved",
   "theorems": [
    "C76_import",
    "C76_inside",
    "C76_symbols",
    "C76_constructors"
   ],
   "note": "For all programs and places of the import; labels of constructor sections have names of their own (apart), which getUniqueLabelName gives."
  },
  {
   "property": "C77",
   "status": "proved",
   "theorems": [
    "C77_objects",
    "C77_libraries",
    "C77_alone"
   ],
   "note": "objects and libraries written by the spec's writer, for all sequences of records in a possible order"
  },
  {
   "property": "C78",
   "status": "partial",
   "theorems": [
    "C78_refuted",
    "C78_ends_partial",
    "C78_unknown_partial"
   ],
   "note": "refuted: data without a segment and cut off records are undefined behaviour, a library member of size 0 is read for ever; proved: reading an object ends, records of unknown kind are refused"
  },
  {
   "property": "C79",
   "status": "partial",
   "theorems": [
    "C79_refuted",
    "C79_placement_partial",
    "C79_labels_partial",
    "C79_bytes_partial"
   ],
   "note": "refuted: the first block is at the import address even if that is no multiple of 4, and labels from 0x80000000 on are negative; proved: no overlap, alignment from an aligned start, untouched bytes, labels modulo the cast of the address to int"
  },
  {
   "property": "C80",
   "status": "proved",
   "theorems": [
    "C80_words",
    "C80_pairs"
   ],
   "note": "for imports in their final pass (labels unchanged by it); the upper half alone is stated for objects with empty lower halves, pairs for any"
  },
  {
   "property": "C81",
   "status": "partial",
   "theorems": [
    "C81_refuted",
    "C81_accepted_partial"
   ],
   "note": "refuted: halves for one symbol with different displacements are sorted together and reported as a mismatch; proved when all halves for one thing have one displacement"
  },
  {
   "property": "C82",
   "status": "partial",
   "theorems": [
    "C82_refuted",
    "C82_reported_partial"
   ],
   "note": "refuted: two members of a library may define the same name, the last wins; proved: names defined before the import are reported"
  },
  {
   "property": "C83",
   "status": "partial",
   "theorems": [
    "C83_refuted",
    "C83_members_partial",
    "C83_alone"
   ],
   "note": "refuted: a name of 15 characters keeps its slash, a short last member is read past the end, a short member can be mistaken for an object (C83_refuted). Proved for archives with names of at most 14 characters and members of at least 4 bytes (C83_members_partial), and for a single object (C83_alone)"
  },
  {
   "property": "C84",
   "status": "partial",
   "theorems": [
    "C84_refuted",
    "C84_object_partial",
    "C84_archive_partial"
   ],
   "note": "refuted: symbol names come from the last string table, not from the one of the symbol table; of two relocation sections for one section only the first is used (C84_refuted). Proved for all objects and archives of objects with one symbol table, no further string tables and one relocation section for each section"
  },
  {
   "property": "C85",
   "status": "partial",
   "theorems": [
    "C85_refuted",
    "C85_foreign_partial",
    "C85_unfit_partial",
    "C85_archive_partial"
   ],
   "note": "refuted: a truncated file is undefined behaviour, an archive can be read for ever (C85_refuted). Proved: foreign files, objects of another type, machine or byte order, and archives with such objects are refused"
  },
  {
   "property": "C86",
   "status": "partial",
   "theorems": [
    "C86_kept_partial",
    "C86_sections",
    "C86_refuted",
    "C86_alignment_refuted"
   ],
   "note": "refuted: the bytes of a segment without sections are lost (C86_refuted), and places in the file do not keep their alignment to the addresses (C86_alignment_refuted). Proved for every program whose segments have sections, every order of the parts and of sorted sections: everything else is kept, and the bytes of sections are (C86_sections)."
  },
  {
   "property": "C87",
   "status": "partial",
   "theorems": [
    "C87_patched_partial",
    "C87_outcome_partial",
    "C87_states",
    "C87_start",
    "C87_parts",
    "C87_end_refuted",
    "C87_across_refuted",
    "C87_loose_refuted"
   ],
   "note": "refuted: data up to the last byte of the last section is an error (C87_end_refuted), data over the end of a segment is undefined behaviour (C87_across_refuted), data for a section in no segment is lost without an error (C87_loose_refuted). Proved for all programs and all sequences of patches without an error: the saved memory is exactly the old one with the patches; and the exact condition for an error."
  },
  {
   "property": "C88",
   "status": "partial",
   "theorems": [
    "C88_virtual_partial",
    "C88_written",
    "C88_physical_partial",
    "C88_physical_refuted",
    "C88_open_refuted"
   ],
   "note": "refuted: the physical address leaves out the place in the section (C88_physical_refuted; what it is exactly: C88_physical_partial), and a pass starts where the last one ended (C88_open_refuted). Proved for virtual addresses for all programs and positions."
  },
  {
   "property": "C89",
   "status": "partial",
   "theorems": [
    "C89_mips_partial",
    "C89_none_partial",
    "C89_empty_refuted",
    "C89_arguments_refuted",
    "C89_sh_refuted",
    "C89_arm_refuted"
   ],
   "note": "refuted: a section without constructors is called into, constructors that use the argument area of their caller destroy the saved return address, the SuperH function takes the end of a section from after the table, the ARM text is not accepted; proved: on MIPS with non-empty sections and constructors that keep the frame every constructor is called once, in order, and the function returns"
  },
  {
   "property": "C90",
   "status": "proved",
   "theorems": [
    "C90_command_line",
    "C90_unambiguous",
    "C90_exit_code"
   ],
   "note": "for all lists of words without NUL characters (an argument has none); the value of a label is what stringToInt gives, see C91"
  },
  {
   "property": "C91",
   "status": "partial",
   "theorems": [
    "C91_label_value_partial",
    "C91_labels_partial",
    "C91_equs_partial",
    "C91_value_refuted",
    "C91_case_refuted",
    "C91_recursion_refuted",
    "C91_dropped_refuted"
   ],
   "note": "refuted: a value of -definelabel that is not a plain number is misread (-5 gives -25, 1+1 gives 51, an empty one is undefined), names that differ by case only are accepted, an upper case name may stand for itself, a label with the name of an equ is dropped. Proved: numbers, labels with names of their own, and equs with lower case names"
  },
  {
   "property": "C92",
   "status": "partial",
   "theorems": [
    "C92_nearest_partial",
    "C92_small",
    "C92_special",
    "C92_back",
    "C92_integers",
    "C92_nearest_refuted"
   ],
   "note": "refuted: numbers below 2^-14 become zero even if 2^-14 is the nearest half (C92_nearest_refuted). Proved: nearest for all others, what becomes of small ones, zero, infinities and NaN, halves stay, integers rounded once"
  },
  {
   "property": "C93",
   "status": "partial",
   "theorems": [
    "C93_sources",
    "C93_sources_accepted",
    "C93_destinations",
    "C93_destinations_accepted",
    "C93_rotations",
    "C93_rotations_accepted_partial",
    "C93_rotations_refuted",
    "C93_constants",
    "C93_constants_accepted_partial",
    "C93_constants_refuted"
   ],
   "note": "refuted: sqrt(0.5) in the table of vcst is never accepted; a rotation with zeros only is refused although the unit can do it for up to two lanes. Proved: what is accepted means what is written in every lane, and everything else the unit can do is accepted"
  },
  {
   "property": "C94",
   "status": "partial",
   "theorems": [
    "C94_value_partial",
    "C94_evaluated_partial",
    "C94_definition",
    "C94_blocks",
    "C94_evaluated_refuted",
    "C94_warning_refuted",
    "C94_labels_refuted"
   ],
   "note": "refuted: both branches of a condition are folded when the content is instantiated, so a call can end in an uncaught exception or a false warning; static and local labels in the content are resolved at the call. Proved: any value obtained without an error is the meaning, any meaning is obtained unless folding fails, and which definitions are accepted"
  },
  {
   "property": "C95",
   "status": "partial",
   "theorems": [
    "C95_nested",
    "C95_accepted",
    "C95_ends_partial",
    "C95_definition",
    "C95_brackets_refuted",
    "C95_endless_refuted",
    "C95_endless_many_refuted"
   ],
   "note": "refuted: unbalanced curly and square brackets are accepted; a call that ends a macro's content without the end of a statement is read for ever. Exactly what is accepted is proved, and that nested arguments are taken apart."
  },
  {
   "property": "C96",
   "status": "partial",
   "theorems": [
    "C96_calls_partial",
    "C96_first_names_refuted",
    "C96_own_names_refuted"
   ],
   "note": "refuted: names given to labels in the first call are renamed in later calls; an argument that is the name of a label of the content. Proved for any sequence of calls whose arguments keep apart."
  },
  {
   "property": "C97",
   "status": "proved",
   "theorems": [
    "C97_read",
    "C97_row_once",
    "C97_once",
    "C97_variables"
   ],
   "note": "For all token sequences, architectures and first values of the variables; register lists are checked against the row only where characters are unsigned."
  },
  {
   "property": "C98",
   "status": "partial",
   "theorems": [
    "C98_line_partial",
    "C98_lists_unsigned",
    "C98_list_refuted",
    "C98_truncation_refuted",
    "C98_load_pc_refuted"
   ],
   "note": "refuted: with signed characters push {r8} is assembled as a push of nothing, numbers of more than 32 bits are truncated, ldr rd,[pc] uses a number that was never set. Proved for all other lines at even addresses (blx to the one target of C34_blx_far_refuted left out), in both directions."
  },
  {
   "property": "C99",
   "status": "proved",
   "theorems": [
    "C99_once",
    "C99_order",
    "C99_data",
    "C99_bytes"
   ],
   "note": "all names, architectures and modes; bytes by C26; the directives of the architectures themselves are read before the table and are left out"
  },
  {
   "property": "C100",
   "status": "partial",
   "theorems": [
    "C100_line_partial",
    "C100_reported_partial",
    "C100_unknown",
    "C100_message",
    "C100_encoding_refuted"
   ],
   "note": "refuted: .table and .include accept an encoding name outside the list and guess the encoding. Proved for all other lines: command exactly for the forms of the manual, any other line reported"
  },
  {
   "property": "C101",
   "status": "partial",
   "theorems": [
    "C101_read",
    "C101_insert_partial",
    "C101_macro_partial",
    "C101_expression",
    "C101_gaps_partial",
    "C101_gaps_refuted",
    "C101_insert_refuted"
   ],
   "note": "refuted: the values are put in one after the other over the whole text, so a value that has the name of a later gap is changed (.msg \"%alignment%\" gives 2 or 4), and a gap of the ARM constructor function has a misspelled name and stays open; proved: for all values without anything that looks like a gap, which includes the texts of all expressions with such names and strings, the text is the template with all gaps filled at once"
  },
  {
   "property": "C102",
   "status": "proved",
   "theorems": [
    "C102_line",
    "C102_reported",
    "C102_names"
   ],
   "note": "all lines with the name of a directive of the architecture; what the commands do afterwards is in other properties"
  },
  {
   "property": "C103",
   "status": "partial",
   "theorems": [
    "C103_accepted",
    "C103_kept",
    "C103_defined_partial",
    "C103_info_refuted",
    "C103_others",
    "C103_twice",
    "C103_addresses"
   ],
   "note": "refuted: the info (ARM or Thumb) of an imported symbol that is no ARM function is read from memory that was never set; everything else about the imported symbols is proved"
  }
 ]
}