c("C01","proved","C01_alu16")
c("C02","proved","C02_alu8 C02_zero_flag_refuted","the zero-flag deviation is part of the statement; the refuted theorem is its witness")
c("C03","proved","C03_jcc C03_parity_stops C03_cmp_meaning")
c("C04","proved","C04_byte C04_word")
c("C05","proved","C05_word C05_byte C05_in_bounds")
c("C06","proved","C06_modrm")
c("C07","proved","C07_step C07_faithful C07_data C07_run C07_override_size_refuted","deviations from the 8086 are spelled out in Sim86Variant.v")
c("C08","proved","C08_same_machine C08_same_run C08_sar_refuted C08_idiv_refuted")
c("C09","proved","C09_push_pop")
c("C16","proved","C16_reads C16_nul_refuted","whole compiler, up to the loop bounds of the model; the refuted theorem shows why NUL bytes are excluded")
c("C17","proved","C17_history C17_injective C17_token")
c("C18","proved","C18_number C18_char C18_at_sign_refuted C18_long_refuted","the refuted theorems are the witnesses of the exceptions in the statement")
c("C19","proved","C19_trivia C19_unterminated")
c("C20","proved","C20_operator","the two inputs that are no operator at all, // /* and .. followed by something else, are excluded in the statement")
c("C21","proved","C21_add C21_min_refuted","the refuted theorem is the exception in the statement")
c("C22","proved","C22_scale C22_zero C22_zero_refuted","the refuted theorem runs a whole program that multiplies by 0")
c("C23","proved","C23_unsigned C23_signed C23_signed_pow2 C23_floor C23_pow2_refuted")
c("C24","proved","C24_jmp C24_jcc C24_label","jumps to local labels; the guard in C24_label excludes exactly the stale-byte case of C25")
c("C25","proved","C25_stale","statement about the resolving function; the buffers are not claimed to arise from a source text")
c("C26","proved","C26_jmp C26_jcc")
c("C27","proved","C27_compare C27_value C26_jcc C24_label")
c("C28","proved","C28_value C28_total C28_others")
c("C29","proved","C29_operand C29_load C29_store")
c("C30","proved","C30_operators C30_idiv_refuted")
c("C31","proved","C31_test C31_skip C31_flags C31_mul_refuted C31_add0_refuted","operands in registers; the failing cases are shown by whole programs")
c("C40","proved","C40_constant C40_do_while_refuted")
c("C55","proved","C55_and_refuted","existence claim, by two whole programs")
c("C10","proved","C10_strlen","machine code of strlen (identical to what the modelled compiler emits for lib.h, checked by vm_compute) run on the 8086 semantics; code, stack and string may not overlap")
c("C11","proved","C11_equal C11_ascii C11_order_refuted","equality exact for all strings; sign proved correct for bytes below 128; refuted in general")
c("C12","proved","C12_memset C12_memcpy C12_memcpy_overlap","all sizes 0..65535; overlapping copy proved equal to the ascending byte copy")
c("C13","proved","C13_words C13_strings C13_many_refuted","ParseArgs modelled as a function on memory; the overwriting case shown by witness")
c("C14","proved","C14_C15_vsprintf C14_decimal C14_compiler C14_min_refuted C14_buffer_refuted C14_zero_sign_refuted","vsprintf of lib.h for every format of the supported conversions, VSPrintf of scc.c for %d; -32768 shown wrong")
c("C15","proved","C14_C15_vsprintf C15_hex C15_compiler C15_wide_refuted","widths 1..64; from 65 on the shift count wraps (witness)")
c("C56","proved","C56_peek C56_poke C56_clock","machine code on the 8086 semantics")
c("C41","proved","C41_replace C41_append C41_scc_long C41_explicit C41_directory_refuted C41_same_file_refuted C41_source_refuted C41_long_refuted","scc and scpp; the refuted theorems give the wrong results")
c("C53","proved","C53_pixels C53_read C53_outside_refuted","")
c("C54","proved","C54_cosine C54_circle C54_keys C54_inverse","accuracy stated as the addition theorem with explicit error, not against the real cosine")
c("C57","proved","C57_terrain C57_filled C57_hangs_refuted","")
c("C58","proved","C58_setup C58_tank C58_turn C58_text C58_info","")
c("C59","proved","C59_ends C59_effect C59_overflow_refuted","")
c("C48","proved","C48_program C48_instruction C48_refuted","whole files: text, limits of the tables, instructions, labels and data; EQU, local labels, RESB/RESW and DW with labels are modelled but outside the theorem")
c("C49","proved","C49_labels C48_program C49_refuted","")
c("C50","proved","C50_undefined C50_silent","")
c("C51","proved","C51_symbols C51_probing","")
c("C52","proved","C52_value C52_program","")

c("C42","proved","C42_preprocess C42_first_true","whole files of text lines, object-like #define, #undef and nested conditional groups; function-like macros, #include, comments and line splices are modelled but outside the theorem")
c("C43","proved","C43_if C43_refuted","all operators; the refuted theorem gives the deviations from C")
c("C44","proved","C44_output","")
c("C45","proved","C45_reader C45_nul_refuted","")
c("C46","proved","C46_terminates C46_own_name","up to ten names, the nesting scpp supports")
c("C47","proved","C47_bodies C47_others C47_refuted C47_ring_refuted","")
c("C60","proved","C60_reread C60_output C60_refuted","")
c("C34","proved","C34_sizeof C34_declared C34_sizes C34_inside C34_apart C34_member_local C34_member_address","Struct and array declarations run the compiler's own functions without reading the tokens; types nested less than 48 deep.")
c("C35","proved","C35_scoping C35_restored C35_use C35_params C35_late_refuted","Within the compiler's table limits; the unchecked limit of four names per function that turn out to be global is refuted by a program.")
c("C36","proved","C36_declared C36_size C36_step C36_inside C36_apart C36_index C36_index_local","The emitted code is followed for constant subscripts on a local array and on an address in AX.")
c("C39","proved","C39_refuted","Exhibits a program, run on the 8086 model.")
c("C61","proved","C61_name C61_use_refuted","The unrestricted claim is false of the compiler; refuted by programs.")
c("C62","proved","C62_base C62_size_refuted","Exact condition; the unrestricted claim is refuted by programs.")
c("C32","proved","C32_expression","Successful compilation is a hypothesis. Excluded operand values (ExprSpec.right_op): adding or subtracting the constant -32768, multiplying by the constant 0, dividing by a constant power of two a negative number it does not divide, by the constant -32768, and -32768 / 1 or % 1 at run time; C22_zero_refuted, C23_pow2_refuted and C30_idiv_refuted show why.")
c("C33","proved","C33_grouping C33_compiled","&&, ||, ?:, assignment and comma are not part of the sequences")
c("C38","proved","C38_references C38_forms C38_appends C38_function_address_refuted C38_placement","For every sequence of the emission functions; that the parser performs only such sequences is read off the model, not proved. A function must not be defined right behind a call of it (the compiler ends every function with POP BP; RET or a jump).")
c("C37","partial","C37_frame_partial C37_switch_refuted","False of switch with a declaration in front of the first case (refuted by a program). Proved for if, while, do, for, break, continue, return and blocks without local variables, on every execution (locals at the start of the function body: C65). Missing: inner blocks with local variables, switch without declarations, goto.")
c("C63","proved","C63_statement","Successful compilation is a hypothesis, and that the emitter is in the state it has at the start of a function body. Conditions are comparisons, negations or non-zero constants (a constant at the end of a do loop must be 0, see C40; other ints as conditions, see C31). Nothing follows a break, continue or return in its block. Expressions must stay in the fragment of C32 on the values that occur; assignments and increments are statements or parts of a for, not operands.")
c("C64","proved","C64_function","Successful compilation is a hypothesis. The name must be new: functions declared or called before their definition are not covered here (their calls are patched, see C38). Parameters are plain ints, local variables are the subject of C65, and the globals used have their address already (initialised ones). Conditions on the body as in C63.")
c("C65","proved","C65_locals","Successful compilation is a hypothesis. The locals are plain ints with initialisers at the start of the body (not in inner blocks, not uninitialised, not static); an initialiser does not mention its own name. The name of the function is new and no local has that name. Statements and globals as in C63 and C64.")
c("C66","proved","C66_call C66_assignment","Successful compilation is a hypothesis. At most four arguments (more take further chunks of the stack, with a copy in between), which contain no calls themselves; the function is called by its name, returns int and has its address already (calls of functions defined later are patched, see C38). The call is a whole expression or the whole right side of an assignment to a variable.")
c("C67","proved","C67_agree C67_agree_locals","Puts together C64, C65 and C66 and inherits their limits: successful compilation is a hypothesis, at most four arguments, no calls inside of arguments or of the body of f. The function comes before the call in memory, and its global variables lie outside of the code and of the part of the stack used.")
c("C68","proved","C68_result C68_agrees C68_refuted","Stated for one pass of the loop of ParseExpr1 over an operator whose left operand has been read; the right operand is whatever the parser reads, of any size. Pointers, char operands and comparisons are left out. C68_refuted has the programs (also i >> u with a negative i, which is shifted as unsigned).")
c("C69","proved","C69_constant C69_sizeof C69_refuted","Successful parsing of the operands is a hypothesis. The invariant (SccDead.v) covers the whole expression and declaration parser. C69_refuted has the programs whose variables are misplaced and the valid programs that are refused.")
c("C70","proved","C70_refuted","Refutation by programs; C70_ex has the same programs without a call, or with the conditional on the left, which compute the right values.")
c("C71","proved","C71_conditional","Successful compilation is a hypothesis. The claim is for operands that are constant or whose outermost operator is arithmetic; calls there go wrong (C70). Case: C71_ex, both outcomes.")
c("C72","proved","C72_logic","Successful compilation is a hypothesis. The claim is for operands that are comparisons or negations and depend on variables. Case: C72_ex, && in AX and || in the flags, every outcome.")
c("C73","proved","C73_skipped C73_refuted","That no test is emitted is proved for every label and state, the wrong decisions by programs. Cases: C73_case, and C73_ex with programs that decide right.")
c("C74","proved","C74_code C74_refuted","Successful compilation is a hypothesis. Where the truth of each operand is found is proved for all comparisons, the wrong answers by programs. Cases: C74_ex, both outcomes, and C74_right with programs that are right.")
