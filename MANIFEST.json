{
 "claims": [
  {
   "property": "C01",
   "status": "proved",
   "theorems": [
    "C01_alu16"
   ],
   "note": ""
  },
  {
   "property": "C02",
   "status": "proved",
   "theorems": [
    "C02_alu8",
    "C02_zero_flag_refuted"
   ],
   "note": "the zero-flag deviation is part of the statement; the refuted theorem is its witness"
  },
  {
   "property": "C03",
   "status": "proved",
   "theorems": [
    "C03_jcc",
    "C03_parity_stops",
    "C03_cmp_meaning"
   ],
   "note": ""
  },
  {
   "property": "C04",
   "status": "proved",
   "theorems": [
    "C04_byte",
    "C04_word"
   ],
   "note": ""
  },
  {
   "property": "C05",
   "status": "proved",
   "theorems": [
    "C05_word",
    "C05_byte",
    "C05_in_bounds"
   ],
   "note": ""
  },
  {
   "property": "C06",
   "status": "proved",
   "theorems": [
    "C06_modrm"
   ],
   "note": ""
  },
  {
   "property": "C07",
   "status": "proved",
   "theorems": [
    "C07_step",
    "C07_faithful",
    "C07_data",
    "C07_run",
    "C07_override_size_refuted"
   ],
   "note": "deviations from the 8086 are spelled out in Sim86Variant.v"
  },
  {
   "property": "C08",
   "status": "proved",
   "theorems": [
    "C08_same_machine",
    "C08_same_run",
    "C08_sar_refuted",
    "C08_idiv_refuted"
   ],
   "note": ""
  },
  {
   "property": "C09",
   "status": "proved",
   "theorems": [
    "C09_push_pop"
   ],
   "note": ""
  },
  {
   "property": "C10",
   "status": "proved",
   "theorems": [
    "C10_strlen"
   ],
   "note": "machine code of strlen (identical to what the modelled compiler emits for lib.h, checked by vm_compute) run on the 8086 semantics; code, stack and string may not overlap"
  },
  {
   "property": "C11",
   "status": "proved",
   "theorems": [
    "C11_equal",
    "C11_ascii",
    "C11_order_refuted"
   ],
   "note": "equality exact for all strings; sign proved correct for bytes below 128; refuted in general"
  },
  {
   "property": "C12",
   "status": "proved",
   "theorems": [
    "C12_memset",
    "C12_memcpy",
    "C12_memcpy_overlap"
   ],
   "note": "all sizes 0..65535; overlapping copy proved equal to the ascending byte copy"
  },
  {
   "property": "C13",
   "status": "proved",
   "theorems": [
    "C13_words",
    "C13_strings",
    "C13_many_refuted"
   ],
   "note": "ParseArgs modelled as a function on memory; the overwriting case shown by witness"
  },
  {
   "property": "C14",
   "status": "proved",
   "theorems": [
    "C14_C15_vsprintf",
    "C14_decimal",
    "C14_compiler",
    "C14_min_refuted",
    "C14_buffer_refuted",
    "C14_zero_sign_refuted"
   ],
   "note": "vsprintf of lib.h for every format of the supported conversions, VSPrintf of scc.c for %d; -32768 shown wrong"
  },
  {
   "property": "C15",
   "status": "proved",
   "theorems": [
    "C14_C15_vsprintf",
    "C15_hex",
    "C15_compiler",
    "C15_wide_refuted"
   ],
   "note": "widths 1..64; from 65 on the shift count wraps (witness)"
  },
  {
   "property": "C16",
   "status": "proved",
   "theorems": [
    "C16_reads",
    "C16_nul_refuted"
   ],
   "note": "whole compiler, up to the loop bounds of the model; the refuted theorem shows why NUL bytes are excluded"
  },
  {
   "property": "C17",
   "status": "proved",
   "theorems": [
    "C17_history",
    "C17_injective",
    "C17_token"
   ],
   "note": ""
  },
  {
   "property": "C18",
   "status": "proved",
   "theorems": [
    "C18_number",
    "C18_char",
    "C18_at_sign_refuted",
    "C18_long_refuted"
   ],
   "note": "the refuted theorems are the witnesses of the exceptions in the statement"
  },
  {
   "property": "C19",
   "status": "proved",
   "theorems": [
    "C19_trivia",
    "C19_unterminated"
   ],
   "note": ""
  },
  {
   "property": "C20",
   "status": "proved",
   "theorems": [
    "C20_operator"
   ],
   "note": "the two inputs that are no operator at all, // /* and .. followed by something else, are excluded in the statement"
  },
  {
   "property": "C21",
   "status": "proved",
   "theorems": [
    "C21_add",
    "C21_min_refuted"
   ],
   "note": "the refuted theorem is the exception in the statement"
  },
  {
   "property": "C22",
   "status": "proved",
   "theorems": [
    "C22_scale",
    "C22_zero",
    "C22_zero_refuted"
   ],
   "note": "the refuted theorem runs a whole program that multiplies by 0"
  },
  {
   "property": "C23",
   "status": "proved",
   "theorems": [
    "C23_unsigned",
    "C23_signed",
    "C23_signed_pow2",
    "C23_floor",
    "C23_pow2_refuted"
   ],
   "note": ""
  },
  {
   "property": "C24",
   "status": "proved",
   "theorems": [
    "C24_jmp",
    "C24_jcc",
    "C24_label"
   ],
   "note": "jumps to local labels; the guard in C24_label excludes exactly the stale-byte case of C25"
  },
  {
   "property": "C25",
   "status": "proved",
   "theorems": [
    "C25_stale"
   ],
   "note": "statement about the resolving function; the buffers are not claimed to arise from a source text"
  },
  {
   "property": "C26",
   "status": "proved",
   "theorems": [
    "C26_jmp",
    "C26_jcc"
   ],
   "note": ""
  },
  {
   "property": "C27",
   "status": "proved",
   "theorems": [
    "C27_compare",
    "C27_value",
    "C26_jcc",
    "C24_label"
   ],
   "note": ""
  },
  {
   "property": "C28",
   "status": "proved",
   "theorems": [
    "C28_value",
    "C28_total",
    "C28_others"
   ],
   "note": ""
  },
  {
   "property": "C29",
   "status": "proved",
   "theorems": [
    "C29_operand",
    "C29_load",
    "C29_store"
   ],
   "note": ""
  },
  {
   "property": "C30",
   "status": "proved",
   "theorems": [
    "C30_operators",
    "C30_idiv_refuted"
   ],
   "note": ""
  },
  {
   "property": "C31",
   "status": "proved",
   "theorems": [
    "C31_test",
    "C31_skip",
    "C31_flags",
    "C31_mul_refuted",
    "C31_add0_refuted"
   ],
   "note": "operands in registers; the failing cases are shown by whole programs"
  },
  {
   "property": "C32",
   "status": "proved",
   "theorems": [
    "C32_expression"
   ],
   "note": "Successful compilation is a hypothesis. Excluded operand values (ExprSpec.right_op): adding or subtracting the constant -32768, multiplying by the constant 0, dividing by a constant power of two a negative number it does not divide, by the constant -32768, and -32768 / 1 or % 1 at run time; C22_zero_refuted, C23_pow2_refuted and C30_idiv_refuted show why."
  },
  {
   "property": "C33",
   "status": "proved",
   "theorems": [
    "C33_grouping",
    "C33_compiled"
   ],
   "note": "&&, ||, ?:, assignment and comma are not part of the sequences"
  },
  {
   "property": "C34",
   "status": "proved",
   "theorems": [
    "C34_sizeof",
    "C34_declared",
    "C34_sizes",
    "C34_inside",
    "C34_apart",
    "C34_member_local",
    "C34_member_address"
   ],
   "note": "Struct and array declarations run the compiler's own functions without reading the tokens; types nested less than 48 deep."
  },
  {
   "property": "C35",
   "status": "proved",
   "theorems": [
    "C35_scoping",
    "C35_restored",
    "C35_use",
    "C35_params",
    "C35_late_refuted"
   ],
   "note": "Within the compiler's table limits; the unchecked limit of four names per function that turn out to be global is refuted by a program."
  },
  {
   "property": "C36",
   "status": "proved",
   "theorems": [
    "C36_declared",
    "C36_size",
    "C36_step",
    "C36_inside",
    "C36_apart",
    "C36_index",
    "C36_index_local"
   ],
   "note": "The emitted code is followed for constant subscripts on a local array and on an address in AX."
  },
  {
   "property": "C37",
   "status": "partial",
   "theorems": [
    "C37_frame_partial",
    "C37_switch_refuted"
   ],
   "note": "False of switch with a declaration in front of the first case (refuted by a program). Proved for if, while, do, for, break, continue, return and blocks without local variables, on every execution (locals at the start of the function body: C65). Missing: inner blocks with local variables, switch without declarations, goto."
  },
  {
   "property": "C38",
   "status": "proved",
   "theorems": [
    "C38_references",
    "C38_forms",
    "C38_appends",
    "C38_function_address_refuted",
    "C38_placement"
   ],
   "note": "For every sequence of the emission functions; that the parser performs only such sequences is read off the model, not proved. A function must not be defined right behind a call of it (the compiler ends every function with POP BP; RET or a jump)."
  },
  {
   "property": "C39",
   "status": "proved",
   "theorems": [
    "C39_refuted"
   ],
   "note": "Exhibits a program, run on the 8086 model."
  },
  {
   "property": "C40",
   "status": "proved",
   "theorems": [
    "C40_constant",
    "C40_do_while_refuted"
   ],
   "note": ""
  },
  {
   "property": "C41",
   "status": "proved",
   "theorems": [
    "C41_replace",
    "C41_append",
    "C41_scc_long",
    "C41_explicit",
    "C41_directory_refuted",
    "C41_same_file_refuted",
    "C41_source_refuted",
    "C41_long_refuted"
   ],
   "note": "scc and scpp; the refuted theorems give the wrong results"
  },
  {
   "property": "C42",
   "status": "proved",
   "theorems": [
    "C42_preprocess",
    "C42_first_true"
   ],
   "note": "whole files of text lines, object-like #define, #undef and nested conditional groups; function-like macros, #include, comments and line splices are modelled but outside the theorem"
  },
  {
   "property": "C43",
   "status": "proved",
   "theorems": [
    "C43_if",
    "C43_refuted"
   ],
   "note": "all operators; the refuted theorem gives the deviations from C"
  },
  {
   "property": "C44",
   "status": "proved",
   "theorems": [
    "C44_output"
   ],
   "note": ""
  },
  {
   "property": "C45",
   "status": "proved",
   "theorems": [
    "C45_reader",
    "C45_nul_refuted"
   ],
   "note": ""
  },
  {
   "property": "C46",
   "status": "proved",
   "theorems": [
    "C46_terminates",
    "C46_own_name"
   ],
   "note": "up to ten names, the nesting scpp supports"
  },
  {
   "property": "C47",
   "status": "proved",
   "theorems": [
    "C47_bodies",
    "C47_others",
    "C47_refuted",
    "C47_ring_refuted"
   ],
   "note": ""
  },
  {
   "property": "C48",
   "status": "proved",
   "theorems": [
    "C48_program",
    "C48_instruction",
    "C48_refuted"
   ],
   "note": "whole files: text, limits of the tables, instructions, labels and data; EQU, local labels, RESB/RESW and DW with labels are modelled but outside the theorem"
  },
  {
   "property": "C49",
   "status": "proved",
   "theorems": [
    "C49_labels",
    "C48_program",
    "C49_refuted"
   ],
   "note": ""
  },
  {
   "property": "C50",
   "status": "proved",
   "theorems": [
    "C50_undefined",
    "C50_silent"
   ],
   "note": ""
  },
  {
   "property": "C51",
   "status": "proved",
   "theorems": [
    "C51_symbols",
    "C51_probing"
   ],
   "note": ""
  },
  {
   "property": "C52",
   "status": "proved",
   "theorems": [
    "C52_value",
    "C52_program"
   ],
   "note": ""
  },
  {
   "property": "C53",
   "status": "proved",
   "theorems": [
    "C53_pixels",
    "C53_read",
    "C53_outside_refuted"
   ],
   "note": ""
  },
  {
   "property": "C54",
   "status": "proved",
   "theorems": [
    "C54_cosine",
    "C54_circle",
    "C54_keys",
    "C54_inverse"
   ],
   "note": "accuracy stated as the addition theorem with explicit error, not against the real cosine"
  },
  {
   "property": "C55",
   "status": "proved",
   "theorems": [
    "C55_and_refuted"
   ],
   "note": "existence claim, by two whole programs"
  },
  {
   "property": "C56",
   "status": "proved",
   "theorems": [
    "C56_peek",
    "C56_poke",
    "C56_clock"
   ],
   "note": "machine code on the 8086 semantics"
  },
  {
   "property": "C57",
   "status": "proved",
   "theorems": [
    "C57_terrain",
    "C57_filled",
    "C57_hangs_refuted"
   ],
   "note": ""
  },
  {
   "property": "C58",
   "status": "proved",
   "theorems": [
    "C58_setup",
    "C58_tank",
    "C58_turn",
    "C58_text",
    "C58_info"
   ],
   "note": ""
  },
  {
   "property": "C59",
   "status": "proved",
   "theorems": [
    "C59_ends",
    "C59_effect",
    "C59_overflow_refuted"
   ],
   "note": ""
  },
  {
   "property": "C60",
   "status": "proved",
   "theorems": [
    "C60_reread",
    "C60_output",
    "C60_refuted"
   ],
   "note": ""
  },
  {
   "property": "C61",
   "status": "proved",
   "theorems": [
    "C61_name",
    "C61_use_refuted"
   ],
   "note": "The unrestricted claim is false of the compiler; refuted by programs."
  },
  {
   "property": "C62",
   "status": "proved",
   "theorems": [
    "C62_base",
    "C62_size_refuted"
   ],
   "note": "Exact condition; the unrestricted claim is refuted by programs."
  },
  {
   "property": "C63",
   "status": "proved",
   "theorems": [
    "C63_statement"
   ],
   "note": "Successful compilation is a hypothesis, and that the emitter is in the state it has at the start of a function body. Conditions are comparisons, negations or non-zero constants (a constant at the end of a do loop must be 0, see C40; other ints as conditions, see C31). Nothing follows a break, continue or return in its block. Expressions must stay in the fragment of C32 on the values that occur; assignments and increments are statements or parts of a for, not operands."
  },
  {
   "property": "C64",
   "status": "proved",
   "theorems": [
    "C64_function"
   ],
   "note": "Successful compilation is a hypothesis. The name must be new: functions declared or called before their definition are not covered here (their calls are patched, see C38). Parameters are plain ints, local variables are the subject of C65, and the globals used have their address already (initialised ones). Conditions on the body as in C63."
  },
  {
   "property": "C65",
   "status": "proved",
   "theorems": [
    "C65_locals"
   ],
   "note": "Successful compilation is a hypothesis. The locals are plain ints with initialisers at the start of the body (not in inner blocks, not uninitialised, not static); an initialiser does not mention its own name. The name of the function is new and no local has that name. Statements and globals as in C63 and C64."
  },
  {
   "property": "C66",
   "status": "proved",
   "theorems": [
    "C66_call",
    "C66_assignment"
   ],
   "note": "Successful compilation is a hypothesis. At most four arguments (more take further chunks of the stack, with a copy in between), which contain no calls themselves; the function is called by its name, returns int and has its address already (calls of functions defined later are patched, see C38). The call is a whole expression or the whole right side of an assignment to a variable."
  },
  {
   "property": "C67",
   "status": "proved",
   "theorems": [
    "C67_agree",
    "C67_agree_locals"
   ],
   "note": "Puts together C64, C65 and C66 and inherits their limits: successful compilation is a hypothesis, at most four arguments, no calls inside of arguments or of the body of f. The function comes before the call in memory, and its global variables lie outside of the code and of the part of the stack used."
  },
  {
   "property": "C68",
   "status": "proved",
   "theorems": [
    "C68_result",
    "C68_agrees",
    "C68_refuted"
   ],
   "note": "Stated for one pass of the loop of ParseExpr1 over an operator whose left operand has been read; the right operand is whatever the parser reads, of any size. Pointers, char operands and comparisons are left out. C68_refuted has the programs (also i >> u with a negative i, which is shifted as unsigned)."
  },
  {
   "property": "C69",
   "status": "proved",
   "theorems": [
    "C69_constant",
    "C69_sizeof",
    "C69_refuted"
   ],
   "note": "Successful parsing of the operands is a hypothesis. The invariant (SccDead.v) covers the whole expression and declaration parser. C69_refuted has the programs whose variables are misplaced and the valid programs that are refused."
  },
  {
   "property": "C70",
   "status": "proved",
   "theorems": [
    "C70_refuted"
   ],
   "note": "Refutation by programs; C70_ex has the same programs without a call, or with the conditional on the left, which compute the right values."
  },
  {
   "property": "C71",
   "status": "proved",
   "theorems": [
    "C71_conditional"
   ],
   "note": "Successful compilation is a hypothesis. The claim is for operands that are constant or whose outermost operator is arithmetic; calls there go wrong (C70). Case: C71_ex, both outcomes."
  },
  {
   "property": "C72",
   "status": "proved",
   "theorems": [
    "C72_logic"
   ],
   "note": "Successful compilation is a hypothesis. The claim is for operands that are comparisons or negations and depend on variables. Case: C72_ex, && in AX and || in the flags, every outcome."
  },
  {
   "property": "C73",
   "status": "proved",
   "theorems": [
    "C73_skipped",
    "C73_refuted"
   ],
   "note": "That no test is emitted is proved for every label and state, the wrong decisions by programs. Cases: C73_case, and C73_ex with programs that decide right."
  },
  {
   "property": "C74",
   "status": "proved",
   "theorems": [
    "C74_code",
    "C74_refuted"
   ],
   "note": "Successful compilation is a hypothesis. Where the truth of each operand is found is proved for all comparisons, the wrong answers by programs. Cases: C74_ex, both outcomes, and C74_right with programs that are right."
  }
 ]
}