{
 "claims": [
  {
   "property": "C01",
   "status": "proved",
   "theorems": [
    "C01_decode_assemble",
    "C01_decode_assemble_relative"
   ],
   "note": ""
  },
  {
   "property": "C02",
   "status": "proved",
   "theorems": [
    "C02_decode_length"
   ],
   "note": ""
  },
  {
   "property": "C03",
   "status": "proved",
   "theorems": [
    "C03_size_written"
   ],
   "note": ""
  },
  {
   "property": "C04",
   "status": "proved",
   "theorems": [
    "C04_branch_target",
    "C04_long_branch_reaches_bank"
   ],
   "note": "Targets outside 0..2^24-1 fail an assertion (C04_branch_target)."
  },
  {
   "property": "C05",
   "status": "proved",
   "theorems": [
    "C05_roundtrip",
    "C05_relative_refuted",
    "C05_listing",
    "C05_folded_size_refuted"
   ],
   "note": "Every decoded instruction with a non-relative operand is read back as itself (C05_roundtrip). Relative operands print as numbers, which do not parse (C05_relative_refuted). In a cleaned-up listing every line but PER reads back and assembles to the image's bytes (C05_listing); a folded ADD/SUB may show a size that contradicts its state (C05_folded_size_refuted)."
  },
  {
   "property": "C06",
   "status": "proved",
   "theorems": [
    "C06_resolved_width",
    "C06_processor_agrees",
    "C06_consistency_exact"
   ],
   "note": ""
  },
  {
   "property": "C07",
   "status": "proved",
   "theorems": [
    "C07_deduce_exact",
    "C07_every_opcode"
   ],
   "note": ""
  },
  {
   "property": "C08",
   "status": "proved",
   "theorems": [
    "C08_literals",
    "C08_any",
    "C08_expressions",
    "C08_long_refuted"
   ],
   "note": "Beyond the int range C08_any says what every digit string is read as; C08_long_refuted shows that such literals silently change value."
  },
  {
   "property": "C09",
   "status": "proved",
   "theorems": [
    "C09_total",
    "C09_comment",
    "C09_whitespace",
    "C09_case"
   ],
   "note": ""
  },
  {
   "property": "C10",
   "status": "proved",
   "theorems": [
    "C10_grammar",
    "C10_rest",
    "C10_roundtrip",
    "C10_text"
   ],
   "note": "Grammar characterisation at token level and a text version for any spelling and whitespace."
  },
  {
   "property": "C11",
   "status": "partial",
   "theorems": [
    "C11_safe",
    "C11_accounts_partial",
    "C11_stray_refuted",
    "C11_overflow_refuted"
   ],
   "note": "Termination and staying in bounds hold for all lines; every item is accounted for unless a stray colon occurs, in which case the rest is dropped (C11_stray_refuted). Constant operands may overflow int (C11_overflow_refuted)."
  },
  {
   "property": "C12",
   "status": "proved",
   "theorems": [
    "C12_evaluation",
    "C12_evaluation_sound",
    "C12_depends_on_names"
   ],
   "note": "Exact characterisation: value, zero-divisor error, overflow."
  },
  {
   "property": "C13",
   "status": "proved",
   "theorems": [
    "C13_add_wrapped",
    "C13_subtract_wrapped"
   ],
   "note": ""
  },
  {
   "property": "C14",
   "status": "proved",
   "theorems": [
    "C14_cast",
    "C14_cast_idempotent",
    "C14_arithmetic_conversion"
   ],
   "note": ""
  },
  {
   "property": "C15",
   "status": "proved",
   "theorems": [
    "C15_consistency",
    "C15_merge",
    "C15_keeps"
   ],
   "note": ""
  },
  {
   "property": "C16",
   "status": "proved",
   "theorems": [
    "C16_flag_names",
    "C16_round_trip",
    "C16_printed_names"
   ],
   "note": ""
  },
  {
   "property": "C17",
   "status": "proved",
   "theorems": [
    "C17_merge"
   ],
   "note": ""
  },
  {
   "property": "C18",
   "status": "partial",
   "theorems": [
    "C18_step_partial",
    "C18_branch_partial",
    "C18_stack_refuted",
    "C18_xce_refuted",
    "C18_registers_refuted"
   ],
   "note": "Mode bits and saved status bytes proved for fall-through and taken branches; false for register values, for PHB/PHD/PHK/PLB/PLD/TCS/TXS, and for XCE on bits known only 'as on entry' (refuted theorems)."
  },
  {
   "property": "C19",
   "status": "partial",
   "theorems": [
    "C19_constant",
    "C19_constant_refuted",
    "C19_exchanged",
    "C19_flags",
    "C19_narrow_partial",
    "C19_wide_partial",
    "C19_wide_refuted",
    "C19_original_refuted"
   ],
   "note": "Proved for P, for 8-bit registers, and for 16-bit registers without a tracked number; false otherwise (refuted theorems). C19_constant, C19_constant_refuted, C19_exchanged: the same for constants pushed by PEA."
  },
  {
   "property": "C20",
   "status": "proved",
   "theorems": [
    "C20_terminates",
    "C20_bound_irrelevant",
    "C20_program",
    "C20_program_bound"
   ],
   "note": ""
  },
  {
   "property": "C21",
   "status": "partial",
   "theorems": [
    "C21_refuted",
    "C21_reached",
    "C21_exactly_reached",
    "C21_suffix",
    "C21_forward_partial",
    "C21_steady_partial",
    "C21_stable_partial"
   ],
   "note": "The full claim is false of the code (C21_refuted: re-visiting a statement overwrites the recorded state). Proved for all programs: arrivals only at reached statements, operands with a size suffix; all immediate operands for modules without backward branches, for modules in one mode, and for any module whose recorded states another round of the analysis would not change (C21_stable_partial)."
  },
  {
   "property": "C22",
   "status": "proved",
   "theorems": [
    "C22_layout",
    "C22_program"
   ],
   "note": ""
  },
  {
   "property": "C23",
   "status": "proved",
   "theorems": [
    "C23_lookup",
    "C23_values",
    "C23_qualified",
    "C23_passes"
   ],
   "note": ""
  },
  {
   "property": "C24",
   "status": "proved",
   "theorems": [
    "C24_load"
   ],
   "note": ""
  },
  {
   "property": "C25",
   "status": "proved",
   "theorems": [
    "C25_label_rejected",
    "C25_branch_rejected"
   ],
   "note": "The feature is not implemented; proved is that every use is rejected."
  },
  {
   "property": "C26",
   "status": "proved",
   "theorems": [
    "C26_claims",
    "C26_representation",
    "C26_chunk"
   ],
   "note": "A claim longer than a bank overlaps itself and returns false."
  },
  {
   "property": "C27",
   "status": "proved",
   "theorems": [
    "C27_insert",
    "C27_lookup"
   ],
   "note": ""
  },
  {
   "property": "C28",
   "status": "proved",
   "theorems": [
    "C28_no_overlap"
   ],
   "note": ""
  },
  {
   "property": "C29",
   "status": "proved",
   "theorems": [
    "C29_dependencies",
    "C29_order",
    "C29_exact"
   ],
   "note": ""
  },
  {
   "property": "C30",
   "status": "proved",
   "theorems": [
    "C30_permutation",
    "C30_output",
    "C30_told",
    "C30_tool",
    "C30_conventions_refuted",
    "C30_names_refuted"
   ],
   "note": "Output, assembled addresses, jump targets and the text of the assembly tool do not depend on the order of the files; the choice between differing names or conventions for one address does (refuted forms), and only that."
  },
  {
   "property": "C31",
   "status": "partial",
   "theorems": [
    "C31_mapping",
    "C31_exhirom_partial",
    "C31_exhirom_refuted",
    "C31_exhirom_actual",
    "C31_range",
    "C31_injective",
    "C31_onto"
   ],
   "note": "LoROM and HiROM fully proved; ExHiROM is wrong in banks 80-FF (C31_exhirom_refuted), and what it does there instead is proved (C31_exhirom_actual)."
  },
  {
   "property": "C32",
   "status": "partial",
   "theorems": [
    "C32_read_partial",
    "C32_read_succeeds",
    "C32_read_refuted",
    "C32_read_any",
    "C32_values"
   ],
   "note": "Fully proved up to one bank (65536 bytes); longer reads can return too few bytes (C32_read_refuted), and what reads of any length return is proved (C32_read_any)."
  },
  {
   "property": "C33",
   "status": "partial",
   "theorems": [
    "C33_identity_partial",
    "C33_identity_refuted",
    "C33_identity_any",
    "C33_overwrite_partial",
    "C33_overwrite_any",
    "C33_overwrite_refuted",
    "C33_construction_refuted"
   ],
   "note": "Proved for the sinks' Write functions within a bank, and what they do for any length (C33_identity_any, C33_overwrite_any); the overwriting sink writes one past the end at offset = size, and its constructor dereferences null (refuted theorems)."
  },
  {
   "property": "C34",
   "status": "proved",
   "theorems": [
    "C34_terminates"
   ],
   "note": "In every state of the disassembler, for every image that can be read in finite time."
  },
  {
   "property": "C35",
   "status": "proved",
   "theorems": [
    "C35_failed"
   ],
   "note": "The set of entry points and the symbol counter are changed by a failed request; instructions, labels and conventions are not."
  },
  {
   "property": "C36",
   "status": "partial",
   "theorems": [
    "C36_closed",
    "C36_runs",
    "C36_labels",
    "C36_far",
    "C36_jump_refuted",
    "C36_far_refuted",
    "C36_suffix_refuted"
   ],
   "note": "Closure under fall-through and relative branches, decoding and covering states proved for all request sequences, and all executions from requested addresses are covered (C36_runs). Targets of direct jumps are not collected but returned (C36_jump_refuted, C36_far), with flags that may be wrong for routines that yield (C36_far_refuted). C47 closes this gap for quick_disassemble."
  },
  {
   "property": "C37",
   "status": "partial",
   "theorems": [
    "C37_succeeds",
    "C37_folds",
    "C37_bytes",
    "C37_per_refuted",
    "C37_wrap_refuted"
   ],
   "note": "Cleanup succeeds with unique labels; it removes exactly unlabelled ADC/SBC after CLC/SEC; every remaining line assembles to the image's bytes. Needs that no fused ADD/SUB begins in the last byte of a bank, and excludes PER: without these the statement is refuted (C37_wrap_refuted, C37_per_refuted)."
  },
  {
   "property": "C38",
   "status": "proved",
   "theorems": [
    "C38_data_directives"
   ],
   "note": ""
  },
  {
   "property": "C39",
   "status": "partial",
   "theorems": [
    "C39_causes",
    "C39_never_null",
    "C39_calm",
    "C39_overflow_refuted",
    "C39_assertion_refuted",
    "C39_container_refuted"
   ],
   "note": "The full statement is false of the code: C39_overflow_refuted, C39_assertion_refuted and C39_container_refuted give source texts that overflow, trip an assertion or read outside a container. Proved for all files: every undefined behaviour has one of the causes listed in SpecSafe.v (C39_causes), none is a null dereference, and arithmetic-free programs with stated widths have none at all (C39_calm). The model covers files given as lists of lines and a sink whose Write returns."
  },
  {
   "property": "C40",
   "status": "partial",
   "theorems": [
    "C40_mnemonic_names",
    "C40_suffix_names",
    "C40_directive_names",
    "C40_directive_names_refuted"
   ],
   "note": "Holds for mnemonics, suffixes and all directives except .REMOTE, whose printed name is empty (C40_directive_names_refuted)."
  },
  {
   "property": "C41",
   "status": "proved",
   "theorems": [
    "C41_opcode_table",
    "C41_encode_exact"
   ],
   "note": ""
  },
  {
   "property": "C42",
   "status": "proved",
   "theorems": [
    "C42_load"
   ],
   "note": "On file contents; the file operations are assumed to succeed."
  },
  {
   "property": "C43",
   "status": "proved",
   "theorems": [
    "C43_output"
   ],
   "note": ""
  },
  {
   "property": "C44",
   "status": "proved",
   "theorems": [
    "C44_constants"
   ],
   "note": ""
  },
  {
   "property": "C45",
   "status": "proved",
   "theorems": [
    "C45_sink"
   ],
   "note": ""
  },
  {
   "property": "C46",
   "status": "proved",
   "theorems": [
    "C46_reassembles",
    "C46_tool",
    "C46_per",
    "C46_carry",
    "C46_refuted"
   ],
   "note": "Whenever a listing assembles it gives back the bytes (C46_reassembles, C46_tool). A pair wrongly fused at the end of a bank overlaps what follows, so such a listing never assembles and needs no exception. The stronger claim that a listing always assembles is false (C46_refuted); two causes are characterised (C46_per, C46_carry), C62 has the conditions."
  },
  {
   "property": "C47",
   "status": "proved",
   "theorems": [
    "C47_covers"
   ],
   "note": ""
  },
  {
   "property": "C48",
   "status": "partial",
   "theorems": [
    "C48_main",
    "C48_crashes",
    "C48_reports",
    "C48_more",
    "C48_refuted"
   ],
   "note": "The claim is false of the code: C48_refuted; C48_more says exactly what happens instead, C48_main, C48_crashes and C48_reports say it of the program with its arguments, files and exit status."
  },
  {
   "property": "C49",
   "status": "proved",
   "theorems": [
    "C49_dump",
    "C49_long",
    "C49_total"
   ],
   "note": ""
  },
  {
   "property": "C50",
   "status": "proved",
   "theorems": [
    "C50_output",
    "C50_straight",
    "C50_halts",
    "C50_halts_lorom",
    "C50_endless_refuted",
    "C50_resumed_refuted"
   ],
   "note": "C50_output, C50_straight, C50_halts. Beyond the property and false: that it ends on every image (C50_endless_refuted), that the states printed behind an exit instruction are right (C50_resumed_refuted)."
  },
  {
   "property": "C51",
   "status": "proved",
   "theorems": [
    "C51_lines",
    "C51_space",
    "C51_fake",
    "C51_returns",
    "C51_dump",
    "C51_listing"
   ],
   "note": "C51_lines, C51_space, C51_fake, C51_returns; C51_dump and C51_listing for the printed text (assuming that no error text contains a newline)."
  },
  {
   "property": "C52",
   "status": "proved",
   "theorems": [
    "C52_exact",
    "C52_again",
    "C52_negation_refuted",
    "C52_remote_refuted"
   ],
   "note": "C52_exact is an equivalence; C52_again for what interactive_parse answers. Refuted without the condition: C52_negation_refuted (op-(1) reads as a difference), C52_remote_refuted (the directive's name is not printed)."
  },
  {
   "property": "C53",
   "status": "proved",
   "theorems": [
    "C53_same_results",
    "C53_errors_located",
    "C53_duplicate_refuted",
    "C53_printed"
   ],
   "note": "C53_same_results: erasing locations gives the assembler of the other claims. C53_errors_located lists every error and where it is reported, names being looked up the way the passes do; files need non-empty paths. C53_duplicate_refuted: the claim fails for a name exported twice, which is reported at a statement index. C53_printed: what is printed determines line and message."
  },
  {
   "property": "C54",
   "status": "proved",
   "theorems": [
    "C54_opcode_table"
   ],
   "note": "A statement about all 256 opcodes, by computation against the processor's opcode matrix of Spec65816."
  },
  {
   "property": "C55",
   "status": "proved",
   "theorems": [
    "C55_round_trip",
    "C55_least_refuted"
   ],
   "note": "The project's own test Parse.round_trip for every value, bank and name instead of 0 and `label`. The least int is the one exception (C55_least_refuted)."
  },
  {
   "property": "C56",
   "status": "proved",
   "theorems": [
    "C56_hexadecimal",
    "C56_decimal",
    "C56_digits",
    "C56_printed_refuted"
   ],
   "note": "Exact for every text. The dollar sign that the tools print in front of addresses makes them unreadable as arguments (C56_printed_refuted)."
  },
  {
   "property": "C57",
   "status": "proved",
   "theorems": [
    "C57_requests",
    "C57_map",
    "C57_turned_down",
    "C57_undefined",
    "C57_cases",
    "C57_no_image",
    "C57_usage",
    "C57_dumb",
    "C57_misnamed_refuted"
   ],
   "note": "All cases of the arguments, from the command line to the passes of C46/C47. A blank address is used uninitialised (C57_undefined); dumb_disassemble prints the address as its own name (C57_misnamed_refuted)."
  },
  {
   "property": "C58",
   "status": "proved",
   "theorems": [
    "C58_compares",
    "C58_status",
    "C58_usage_refuted",
    "C58_overwrites_refuted",
    "C58_spares",
    "C58_reports"
   ],
   "note": "Both directions, from the files on disk to the exit status; C58_reports and C58_spares for the failures. Status 0 is also returned for too few arguments (C58_usage_refuted), and any other output path is undefined behaviour (C58_overwrites_refuted)."
  },
  {
   "property": "C59",
   "status": "proved",
   "theorems": [
    "C59_session",
    "C59_safe",
    "C59_again"
   ],
   "note": "Every input; overflow of constant operands is the only way not to end (see C11)."
  },
  {
   "property": "C60",
   "status": "proved",
   "theorems": [
    "C60_dump",
    "C60_arguments",
    "C60_listing"
   ],
   "note": "Through files: C51 extended by the arguments, the loading of the image and the exit status. The conditions of C51_listing (that the listing assembles, symbols below 2^31) remain."
  },
  {
   "property": "C61",
   "status": "proved",
   "theorems": [
    "C61_reached",
    "C61_tool"
   ],
   "note": "All sequences of requests, successful or not, with any conventions; for quick_disassemble any number of passes. Paths lead through collected instructions only."
  },
  {
   "property": "C62",
   "status": "proved",
   "theorems": [
    "C62_assembles",
    "C62_tool",
    "C62_pull",
    "C62_overlap",
    "C62_apart",
    "C62_suffix",
    "C62_main"
   ],
   "note": "For disassemblies meeting the conditions of SpecRelist.listable (writable modes at entries, no PER, known suffix and pull widths, no overlaps). C62_tool is the round trip of the two tools. C62_pull, C62_overlap, C62_suffix show failures without the conditions (C46_per, C46_carry the others). C62_main: the file written by quick_disassemble_main is accepted by quick_assemble_main with status 0. C62_apart: a listing that assembles has no two instructions that share a byte."
  },
  {
   "property": "C63",
   "status": "proved",
   "theorems": [
    "C63_causes",
    "C63_defined",
    "C63_rom",
    "C63_tool",
    "C63_widths_refuted"
   ],
   "note": "C63_causes and C63_defined for the library, C63_tool for quick_disassemble; C63_rom shows that ROM images meet the hypothesis on the source. Conventions may not contain \"original\" bits (none can be written). C63_widths_refuted: seeds that state both widths do not make quick_disassemble defined."
  },
  {
   "property": "C64",
   "status": "proved",
   "theorems": [
    "C64_follows",
    "C64_complete",
    "C64_refuted",
    "C64_jump"
   ],
   "note": "C64_follows under the condition that the modes are analysed correctly (no loops, or no mode changes, or suffixes, or a stable analysis, see C21); C64_refuted: false without it. C64_complete: conversely the processor does whatever the source can do (operands of REP and SEP constant). C64_jump for jumps and calls of labels. No path may run into a .halt or branch to an .equ; the program does not overwrite itself; calls keep the convention written at the call."
  },
  {
   "property": "C65",
   "status": "proved",
   "theorems": [
    "C65_found",
    "C65_rom",
    "C65_circle"
   ],
   "note": "C65_found for any memory and image, C65_rom for an image that quick_assemble finds to agree with the source. C65_circle: assembling the listing writes those bytes again. Conditions as in C64, and the requests of the disassembler are the .entry directives with their flags, its conventions those written at the calls, and it meets no instruction whose stack effect it does not follow (see C36)."
  },
  {
   "property": "C66",
   "status": "proved",
   "theorems": [
    "C66_program",
    "C66_labels",
    "C66_unchecked_refuted"
   ],
   "note": "C66_program for any program whose jumps lead to true .entry directives, C66_labels with that condition in terms of the source. That the assembler does not check the modes at a jump against the .entry it leads to is C66_unchecked_refuted. Calls come back (if they do) with the declared convention, as in C64; returns themselves and indirect jumps are not followed."
  },
  {
   "property": "C67",
   "status": "proved",
   "theorems": [
    "C67_found",
    "C67_again"
   ],
   "note": "C67_found and C67_again. Conditions as in C66; calls without conventions (quick_disassemble knows none); no instruction whose stack effect the disassembler does not follow; for C67_again that the listing assembles (see C62)."
  },
  {
   "property": "C68",
   "status": "proved",
   "theorems": [
    "C68_sink",
    "C68_expect",
    "C68_verdict",
    "C68_error",
    "C68_masked_refuted"
   ],
   "note": "C68_sink, C68_expect, C68_verdict, C68_error. The project's own whole-program tests are the cases. That the sink hides the assembler's own overlap check is C68_masked_refuted. The text of an error is a parameter (which kinds contain the message)."
  },
  {
   "property": "C69",
   "status": "proved",
   "theorems": [
    "C69_family",
    "C69_operand"
   ],
   "note": "C69_family against the opcode lists of the processors, C69_operand for everything decoded. The project's unit tests (nsasm/..._test.cc) are run on the model in RepoTests.v."
  },
  {
   "property": "C70",
   "status": "proved",
   "theorems": [
    "C70_print",
    "C70_writes",
    "C70_value_refuted"
   ],
   "note": "C70_print and C70_writes; C70_value_refuted: a constant is shown modulo 2^24, so different constants can look the same."
  },
  {
   "property": "C71",
   "status": "proved",
   "theorems": [
    "C71_targets",
    "C71_returns",
    "C71_names",
    "C71_named_refuted"
   ],
   "note": "C71_targets, C71_returns, C71_names. C71_named_refuted: a jump through a name is not reported, though the same jump with a number is. Which of several names of one file is told for an address is left open (the code walks a hash map)."
  },
  {
   "property": "C72",
   "status": "proved",
   "theorems": [
    "C72_names",
    "C72_text",
    "C72_layout",
    "C72_modes_refuted",
    "C72_merged_refuted"
   ],
   "note": "At the level of statements (C72_names) and of tokens (C72_text); mode names must be kept and names stay distinct (refuted otherwise). Which of several exported labels of one address is reported depends on hash order in the code; the model keeps the first."
  },
  {
   "property": "C73",
   "status": "proved",
   "theorems": [
    "C73_link",
    "C73_anywhere",
    "C73_join",
    "C73_interface"
   ],
   "note": "The sink must judge each write by itself, as all sinks of the tools do."
  },
  {
   "property": "C74",
   "status": "proved",
   "theorems": [
    "C74_program",
    "C74_same",
    "C74_read",
    "C74_past_end_refuted",
    "C74_mismatch",
    "C74_line"
   ],
   "note": "That a read past the end names an address is refuted (C74_past_end_refuted). Messages of LoadRomFile and CreateFile are not modelled. C74_program: which line of the program is blamed when a program is compared with an image."
  },
  {
   "property": "C75",
   "status": "proved",
   "theorems": [
    "C75_same",
    "C75_characters",
    "C75_line",
    "C75_shown_refuted",
    "C75_advice",
    "C75_advice_refuted",
    "C75_program"
   ],
   "note": "That the message shows some token of the line is refuted for names of directives (C75_shown_refuted); that some size is taken when an explicit size is asked for is refuted (C75_advice_refuted)."
  },
  {
   "property": "C76",
   "status": "proved",
   "theorems": [
    "C76_same",
    "C76_truth",
    "C76_remedy",
    "C76_program"
   ],
   "note": "Errors of the kind \"logic error\", for instructions that the parser never makes, are excluded by hypothesis in C76_truth and C76_remedy."
  },
  {
   "property": "C77",
   "status": "proved",
   "theorems": [
    "C77_same",
    "C77_names",
    "C77_known",
    "C77_program"
   ],
   "note": "Errors of the kind \"logic error\" are not excluded, but arise only for names that some module exports."
  },
  {
   "property": "C78",
   "status": "proved",
   "theorems": [
    "C78_same",
    "C78_duplicate"
   ],
   "note": "The numbers are indices of statements and not line numbers (C53_duplicate_refuted)."
  },
  {
   "property": "C79",
   "status": "proved",
   "theorems": [
    "C79_same",
    "C79_says",
    "C79_file",
    "C79_accepted"
   ],
   "note": "Labels of plus and minus signs, which the parser never makes, are left out. The location of the error is that of C53."
  },
  {
   "property": "C80",
   "status": "proved",
   "theorems": [
    "C80_same",
    "C80_overlap",
    "C80_address_refuted"
   ],
   "note": "That the address in the message was written before is refuted (C80_address_refuted)."
  },
  {
   "property": "C81",
   "status": "proved",
   "theorems": [
    "C81_program"
   ],
   "note": "That no path of the analysis leads to a line reported as not reached is not part of this theorem."
  }
 ]
}