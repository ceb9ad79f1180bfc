{"id": "C01", "title": "Simulated 16-bit ALU operations follow the 8086", "statement": "For every pair of 16-bit operands and every incoming carry, the simulator's ADD/OR/ADC/SBB/AND/SUB/XOR/CMP write the 16-bit result, carry, zero, sign and overflow flags that the 8086 defines; this holds in the host build too, whatever garbage the host integers carry above bit 15.", "quantifier": "all operand values (as host integers of either build width), all incoming flag words, all eight operations", "why_tests_cant": "2^33 operand/carry combinations per operation, times the unbounded garbage a 32-bit host register may hold above bit 15; tests sample a handful.", "anchors": ["sim86.c:DoOp", "sim86.c:TRIM"]}
{"id": "C02", "title": "Simulated 8-bit ALU operations: result, carry, sign and overflow are right; zero is not", "statement": "For every pair of 8-bit operands the 8-bit forms yield the right byte, carry, sign and overflow flags. The zero flag is right exactly when the untruncated sum is not 256 (ADD/ADC) and the untruncated difference is not -256 (SBB): an 8-bit addition that wraps to zero is reported as non-zero, contrary to the 8086.", "quantifier": "all 8-bit operand pairs, incoming carries and operations", "why_tests_cant": "the failing pairs are those with l + r + carry = 0x100; sampled tests of 8-bit additions rarely wrap to exactly zero.", "anchors": ["sim86.c:DoOp"]}
{"id": "C03", "title": "Conditional jumps decide as the 8086 does", "statement": "For every flags word and every one of the 16 condition codes (except parity, which stops the simulator) the simulator takes a conditional jump if and only if the 8086 would; after CMP of two 16-bit values the signed and unsigned conditions decide <, <=, >, >=, =, != of those values.", "quantifier": "all flag words, all condition codes, all pairs of 16-bit values", "why_tests_cant": "the statement ranges over all 2^32 operand pairs for every condition.", "anchors": ["sim86.c:JCC", "sim86.c:DoOp"]}
{"id": "C04", "title": "Byte and word registers alias as on the 8086", "statement": "Writing a byte register changes exactly its half of the 16-bit register it belongs to; writing a word register changes both halves; no other register changes; reading returns what was written modulo the operand size.", "quantifier": "all register indices, sizes, values and register files", "why_tests_cant": "aliasing bugs show only on particular register/garbage combinations of an unbounded host integer.", "anchors": ["sim86.c:ReadReg", "sim86.c:WriteReg"]}
{"id": "C05", "title": "Simulated memory is a 1 MiB little-endian byte array with segment wrap-around", "statement": "A 16-bit write followed by a 16-bit read at the same segment:offset returns the value modulo 65536, changes exactly two bytes, and every address used is below 1 MiB for any (even negative or overflowing) register contents.", "quantifier": "all segment values, offsets (any host integer), values and memories", "why_tests_cant": "address arithmetic must stay in bounds for every register content, including values no compiled program produces.", "anchors": ["sim86.c:MAKEADDR", "sim86.c:Read8", "sim86.c:Write8", "sim86.c:Read16", "sim86.c:Write16"]}
{"id": "C06", "title": "Effective addresses are computed as on the 8086", "statement": "For every ModRM byte with a memory operand and every displacement, the offset and default segment used by the simulator are those of the 8086 addressing-mode table, modulo 65536.", "quantifier": "all 192 memory ModRM bytes, all displacement bytes, all register contents", "why_tests_cant": "the combination of mode, displacement sign and register wrap-around is far larger than any test suite.", "anchors": ["sim86.c:ModRM", "sim86.c:ReadRM"]}
{"id": "C07", "title": "Every simulated instruction refines the 8086 in the 16-bit build", "statement": "For every machine state and every instruction in the subset the simulator accepts, one step of the simulator (compiled with 16-bit int), and every run of such steps, yields the state the 8086 specification gives, up to a fixed list of deviations: the 8-bit zero flag of C02; flags of INC/DEC/NEG/shifts/MUL/DIV/REP CMPSB/REPNE SCASB; PUSH SP storing the old SP; indirect CALL reading its operand after the push; shift counts taken modulo 16; MUL/IMUL clearing DX; 16-bit dividends only. A segment-override prefix additionally makes opcodes that rely on the default operand size (MOV r/m,imm16, MOV with segment registers, INC/DEC r16, shifts, F7, FF) operate on a byte: these prefixed encodings are outside the accepted subset and a witness is given.", "quantifier": "all machine states, all encodings of the covered opcodes", "why_tests_cant": "quantifies over whole machine states and all encodings.", "anchors": ["sim86.c:main", "sim86.c:ALUOp", "sim86.c:MOV", "sim86.c:DoPush", "sim86.c:DoPop"]}
{"id": "C08", "title": "The host build simulates the same machine as the 16-bit build, except where it does not trim", "statement": "If two simulator states agree modulo 65536 in every register, one step of the 32-bit host build and one step of the 16-bit build agree modulo 65536 again, for every accepted instruction except shifts, DIV/IDIV and REP-prefixed string instructions, and so do runs of any length; for SAR and IDIV there are states reachable by a plain MOV from memory on which they differ.", "quantifier": "all pairs of related states, all instructions", "why_tests_cant": "host registers are never masked, so the garbage above bit 15 depends on the whole execution history.", "anchors": ["sim86.c:main", "sim86.c:DoOp", "sim86.c:TRIM"]}
{"id": "C09", "title": "Push and pop are inverse", "statement": "For every register state and value, PUSH followed by POP returns the value modulo 65536, restores SP modulo 65536 and changes no memory outside the two bytes below the old top of stack.", "quantifier": "all machine states and values, including SP wrap-around", "why_tests_cant": "SP wrap-around at 0/1 and aliasing with code are corner states.", "anchors": ["sim86.c:DoPush", "sim86.c:DoPop"]}
{"id": "C10", "title": "strlen in lib.h returns the length of every string", "statement": "Running the machine code of the library strlen on any memory in which the argument points at a string whose terminator lies before the pointer would wrap returns the number of bytes before the first NUL, and writes no memory.", "quantifier": "all memories, all argument pointers, all string lengths", "why_tests_cant": "the routine is raw opcode bytes with a backward jump; correctness is a loop invariant over unbounded strings.", "anchors": ["lib.h:strlen"]}
{"id": "C11", "title": "strcmp in lib.h is zero exactly on equal strings, and is not an ordering", "statement": "Running the library strcmp on two terminated strings returns 0 if and only if the strings are equal; its sign is not the C ordering of the first differing bytes (a witness exists), so only the equality use is safe.", "quantifier": "all memories and string pairs", "why_tests_cant": "the result is an 8-bit difference sign-extended; the wrong sign appears only for byte pairs at distance 128 or more.", "anchors": ["lib.h:strcmp"]}
{"id": "C12", "title": "memcpy and memset in lib.h write exactly the requested range", "statement": "Running the library memset/memcpy fills/copies exactly `size` bytes for every size from 0 to 65535 and changes no other byte (memcpy: non-overlapping ranges, ascending copy otherwise).", "quantifier": "all sizes, pointers, values and memories, including size 0 and 16-bit pointer wrap-around", "why_tests_cant": "off-by-one and wrap-around at size 0 / 65535 cannot be covered by sampled sizes.", "anchors": ["lib.h:memcpy", "lib.h:memset"]}
{"id": "C13", "title": "ParseArgs splits every DOS command tail into its words", "statement": "For every command tail the argument vector produced is exactly the sequence of maximal runs of characters above space (as signed characters, so bytes from 128 on separate words), preceded by a fixed argv[0] and followed by a null entry; with at most 16 entries every word is also left intact and NUL-terminated in place. With more words the vector overwrites the text of the first ones (a witness exists).", "quantifier": "all command tails of 0..127 bytes", "why_tests_cant": "there are 256^127 command tails; the overwriting needs more words than any test passes.", "anchors": ["lib.h:_start", "lib.h:ParseArgs"]}
{"id": "C14", "title": "Decimal formatting prints every 16-bit integer except -32768", "statement": "The %d conversions of the library vsprintf and of the compiler's own formatter produce the decimal representation of every int in -32767..32767, padded on the left to the requested width with the requested fill; -32768 is printed as garbage when int is 16 bits.", "quantifier": "all 16-bit integers, widths and fill characters", "why_tests_cant": "exhaustive over value x width is not a unit test; the failing value is a single point.", "anchors": ["lib.h:vsprintf", "scc.c:VSPrintf"]}
{"id": "C15", "title": "Hexadecimal formatting prints every value", "statement": "%X prints exactly the requested number of upper-case hexadecimal digits (default 4), whose value is the argument modulo 16^digits.", "quantifier": "all integers and widths", "why_tests_cant": "all values and widths.", "anchors": ["lib.h:vsprintf", "scc.c:CvtHex"]}
{"id": "C16", "title": "Compilation does not depend on how the source file is read", "statement": "For every source file without NUL bytes and every way the operating system may split it into reads of 1 to 512 bytes, the compiler's result (success with the same program image and map file, or rejection) is the same.", "quantifier": "all NUL-free byte sequences, all sequences of read sizes", "why_tests_cant": "the schedule of short reads is chosen by the operating system; a test sees one schedule.", "anchors": ["scc.c:NextChar", "scc.c:InBuf"]}
{"id": "C17", "title": "Identifiers are interned: same spelling, same token, and only then", "statement": "After any sequence of identifiers, looking up a spelling returns the token number it was first given; two different spellings never share a token; every keyword spelling returns its keyword token; a full table is reported rather than looped on or overwritten.", "quantifier": "all sequences of identifier spellings within the table limits", "why_tests_cant": "hash collisions and probe chains depend on the whole history of identifiers.", "anchors": ["scc.c:GetToken", "scc.c:AddBuiltins", "scc.c:IdHash"]}
{"id": "C18", "title": "Integer and character literals denote their C value", "statement": "Every decimal, octal (leading 0) and hexadecimal literal of at most 8 further digits, and every character literal, yields its C value modulo the compiler's int width, and the lexer stops at the first character not belonging to it; the exceptions are literals directly followed by '@' or '`', which are taken for the digit 9.", "quantifier": "all literal spellings followed by any text", "why_tests_cant": "unboundedly many spellings.", "anchors": ["scc.c:GetNum", "scc.c:Unescape", "scc.c:GetToken"]}
{"id": "C19", "title": "White space and comments never change the token stream", "statement": "Inserting any sequence of blanks, newlines, // comments and /* */ comments between two tokens yields the same tokens; an unterminated block comment is reported as an error instead of looping.", "quantifier": "all token sequences and all white-space/comment sequences", "why_tests_cant": "all possible comment bodies, including ones with stars, slashes and chunk boundaries.", "anchors": ["scc.c:SkipWhitespace", "scc.c:GetToken"]}
{"id": "C20", "title": "Operators are lexed by longest match", "statement": "For every input starting with an operator character, the token returned is the longest operator of the language that is a prefix of the input, and exactly its characters are consumed.", "quantifier": "all inputs beginning with an operator character", "why_tests_cant": "all continuations of every operator prefix.", "anchors": ["scc.c:GetToken"]}
{"id": "C21", "title": "Adding a constant to a register adds that constant", "statement": "The code emitted for adding any constant to any 16-bit register, executed on an 8086 from any state, adds the constant modulo 65536 to that register and changes no other register or memory; the single exception is the most negative int (-32768 in the self-hosted compiler), for which the emitted code subtracts 2.", "quantifier": "all constants of the compiler's int type, all registers, all machine states", "why_tests_cant": "five encodings are chosen by magnitude; the wrong case is one constant in one build.", "anchors": ["scc.c:EmitAddRegConst"]}
{"id": "C22", "title": "Multiplying by a constant multiplies, except by zero", "statement": "The code emitted for scaling a value by any non-zero constant computes the product modulo 65536 on an 8086; for the constant 0 no code is emitted and the value is left unchanged.", "quantifier": "all constants, all values", "why_tests_cant": "shift sequences versus MUL are chosen by the bit pattern of the constant; one constant is miscompiled.", "anchors": ["scc.c:EmitScaleAx"]}
{"id": "C23", "title": "Dividing by a constant", "statement": "The code emitted for dividing by a non-zero constant computes the C quotient for unsigned operands (constant -32768..65535 taken modulo 65536), and for signed operands (constant -32768..32767, quotient representable) unless the constant is a power of two or the most negative int; for a signed operand and a constant 2^k it computes the floor of the quotient, which differs from C exactly when the dividend is negative and not a multiple.", "quantifier": "all constants and dividends, both signednesses", "why_tests_cant": "the deviation depends on sign and remainder of the run-time value.", "anchors": ["scc.c:EmitDivAxConst"]}
{"id": "C24", "title": "Every resolved reference reaches its label", "statement": "When a label is placed, every pending jump to it is rewritten so that executing the bytes at the jump site transfers control to the label exactly when the original jump would have, for short, near and fused conditional jumps and for the removed jump-to-next, provided the byte after a fused jump belongs to emitted code; bytes outside the jump sites are unchanged.", "quantifier": "all code buffers, all chains of pending references, all label positions", "why_tests_cant": "the number and distances of references and the form they are rewritten to depend on the whole function body.", "anchors": ["scc.c:DoFixups", "scc.c:AddFixup", "scc.c:EmitLocalLabel", "scc.c:EmitLocalJump", "scc.c:EmitJcc", "scc.c:EmitJmp"]}
{"id": "C25", "title": "Stale bytes behind the output position can change the program", "statement": "Resolving a fused conditional jump inspects a byte that has not been emitted yet; there is a code buffer, differing only in bytes beyond the output position, for which the resolved code returns from the function although the condition is false.", "quantifier": "existence of two buffers equal up to the output position", "why_tests_cant": "needs a stale byte left by an earlier string literal at exactly that position.", "anchors": ["scc.c:DoFixups"]}
{"id": "C26", "title": "Backward jumps reach their label", "statement": "Emitting a conditional or unconditional jump to an already placed label produces bytes that, when executed, continue at the label address (if the condition holds) and at the following instruction otherwise, for every distance.", "quantifier": "all label addresses, jump addresses and condition codes", "why_tests_cant": "boundary distances -128/-126/127.", "anchors": ["scc.c:EmitLocalJump", "scc.c:EmitJcc", "scc.c:EmitJmp"]}
{"id": "C27", "title": "Comparison operators select the right condition", "statement": "For every comparison operator and signedness, the code emitted for comparing two values followed by the conditional jump takes the jump exactly when the C comparison of the 16-bit values (signed or unsigned) is true, and negating the condition negates the decision.", "quantifier": "all operand pairs, six operators, both signednesses", "why_tests_cant": "all 2^32 pairs for every operator.", "anchors": ["scc.c:GetSimpleALU", "scc.c:DoBinOp", "scc.c:DoCond", "scc.c:DoRhsConstBinOp"]}
{"id": "C28", "title": "Constant expressions fold to their C value", "statement": "Folding + - * / % << >> & | ^ of two constants yields the C value in the compiler's int type whenever that is defined; division by zero, INT_MIN / -1 and shift counts outside the width are the only inputs on which folding has no value at all; every other operator is rejected.", "quantifier": "all pairs of int constants and all foldable operators", "why_tests_cant": "all pairs.", "anchors": ["scc.c:DoConstBinOp"]}
{"id": "C29", "title": "Memory operands encode the variable they name", "statement": "The ModRM operand emitted for a local at any frame offset, for a global, and for a pointer held in a register decodes on the 8086 to the address of that variable, choosing the 8-bit displacement exactly when it fits.", "quantifier": "all frame offsets, all registers", "why_tests_cant": "all 65536 offsets with the boundary between the two encodings.", "anchors": ["scc.c:EmitModrm", "scc.c:EmitLoadAx", "scc.c:EmitStoreAx", "scc.c:EmitStoreConst"]}
{"id": "C30", "title": "Run-time binary operators compute the C operator", "statement": "The instruction sequence emitted for each binary operator on two values in registers computes, on an 8086, the C result on 16-bit signed or unsigned operands for every operand pair on which C defines it, except the quotient -32768 / 1, on which the 8086 faults.", "quantifier": "all operators, operand pairs and signednesses", "why_tests_cant": "all operand pairs.", "anchors": ["scc.c:DoBinOp", "scc.c:GetSimpleALU"]}
{"id": "C31", "title": "Truth of an arithmetic result", "statement": "When the compiler skips the explicit zero test because the last instruction set the zero flag, that flag must reflect the value; this holds after add, subtract, and, or, xor and shifts by a non-zero count, and fails after multiplication, division, and adding zero, where a condition can be decided on a stale flag.", "quantifier": "all operand values and incoming flags", "why_tests_cant": "the wrong decision depends on a flag left by an unrelated earlier instruction.", "anchors": ["scc.c:ToBool", "scc.c:ParseExpr1", "scc.c:LastZFInst"]}
{"id": "C32", "title": "Expressions compile to code that computes them", "statement": "For every int expression built from decimal, octal or hexadecimal numbers, int variables (locals, parameters, and globals whose address is known), parentheses, unary - ~ + (and ! of constants and comparisons), the ten arithmetic, shift and bitwise operators and the six comparisons, written with any blanks and comments, of which the operators are in the fragment where single operators are compiled correctly: if the one-pass compiler accepts it, the code it emits, run on an 8086, leaves the C value in the accumulator, restores the stack pointer, and changes no memory except the stack words below the stack pointer, at most one per pending operator. Declarations are not changed and the compiler stops exactly at the end of the expression.", "quantifier": "all expressions of the fragment of any size and depth, all spellings, all variable values and placements, all machine states with enough stack", "why_tests_cant": "unbounded expression nesting; register reuse and delayed pushes depend on the whole shape of the expression.", "anchors": ["scc.c:ParseExpr1", "scc.c:DoRhs", "scc.c:FlushPushAx", "scc.c:DoBinOp", "scc.c:LvalToRval", "scc.c:EmitMovRImm"]}
{"id": "C33", "title": "Operator precedence and associativity", "statement": "A sequence of operands and binary arithmetic, shift, relational, equality and bitwise operators has exactly one grouping that follows the C grammar (tighter operators first, equal levels to the left), and the code the compiler emits for the sequence computes the value of that grouping, for every operator mix and length.", "quantifier": "all operator sequences of any length, all operands of the fragment of C32", "why_tests_cant": "unboundedly many operator sequences.", "anchors": ["scc.c:ParseExpr1", "scc.c:OperatorPrecedence"]}
{"id": "C34", "title": "sizeof and struct/union layout", "statement": "For every declared struct the members are laid out in order without overlap and without padding and sizeof is the sum of member sizes; every union member is at offset 0 and sizeof is the maximum; array sizes multiply over all bounds; char is 1 byte, int and pointers are 2.", "quantifier": "all member lists, nested aggregate types and array bounds", "why_tests_cant": "unbounded nesting of aggregates.", "anchors": ["scc.c:SizeofType", "scc.c:StructMembers", "scc.c:ParseDeclSpecs"]}
{"id": "C35", "title": "Block scoping", "statement": "After any sequence of block entries, exits and declarations a name refers to its innermost live declaration, leaving a block restores every outer meaning, and declarations of other names are never disturbed.", "quantifier": "all well-nested sequences of scope operations", "why_tests_cant": "histories of shadowing over unboundedly many blocks.", "anchors": ["scc.c:PushScope", "scc.c:PopScope", "scc.c:AddVarDecl", "scc.c:Lookup"]}
{"id": "C36", "title": "Multi-dimensional arrays index row-major", "statement": "Indexing a declared array of any dimensions through the compiler's type representation scales each index by the product of the inner dimensions, so distinct in-range index tuples address distinct non-overlapping elements inside the array.", "quantifier": "all dimension lists and in-range index tuples", "why_tests_cant": "all dimensions and indices.", "anchors": ["scc.c:ParseDeclarator", "scc.c:ParsePostfixExpression", "scc.c:SizeofType"]}
{"id": "C37", "title": "Function frames are balanced", "statement": "Every path through emitted block entry/exit, goto, break, continue and return restores the stack pointer relation the target expects: the tracked frame offset at a label equals the run-time distance of SP from BP on every jump to it. This is false for a declaration in the body of a switch in front of the first case.", "quantifier": "all nestings of blocks, jumps and pending stack adjustments", "why_tests_cant": "depends on the combination of delayed stack adjustments with arbitrary control flow.", "anchors": ["scc.c:FlushSpAdj", "scc.c:Pending", "scc.c:PopScope", "scc.c:EmitLocalJump"]}
{"id": "C38", "title": "Global data: placement and references", "statement": "Uninitialised globals are placed after the code without overlap, and every reference to a global, and every call of a function, emitted before or after its definition ends up holding its final address (or the distance to it), whatever is emitted, jumped over or removed in between. The address of a function, as opposed to a call, is right only when taken after its definition.", "quantifier": "all sequences of references and definitions", "why_tests_cant": "forward-reference chains are threaded through the code buffer and depend on the whole program.", "anchors": ["scc.c:EmitGlobalRef", "scc.c:EmitGlobalLabel", "scc.c:DoFixups", "scc.c:main"]}
{"id": "C39", "title": "The recorded address of the first function", "statement": "If the entry function is the first one defined, the jump to it is removed after its address was recorded, so references to it by address use an address 3 bytes too high.", "quantifier": "existence of a program", "why_tests_cant": "only recursion into, or taking the address of, the entry function reveals it.", "anchors": ["scc.c:EmitGlobalLabel", "scc.c:DoFixups", "scc.c:main"]}
{"id": "C40", "title": "Constant-condition loops", "statement": "For if, while and for with a constant condition the jump over the body is emitted exactly when the constant is 0; for do-while with a constant condition no jump back is emitted whatever the constant is, so do ... while (1) runs its body once.", "quantifier": "all constants", "why_tests_cant": "requires running a loop that never ends.", "anchors": ["scc.c:DoCondHasExpr", "scc.c:ParseStatement"]}
{"id": "C41", "title": "Output file names", "statement": "Without an explicit output name the tools write to the input name with its extension replaced (or appended when it has none); for a name with a dot only in a directory component the result is wrong.", "quantifier": "all file names", "why_tests_cant": "all path shapes.", "anchors": ["scc.c:MakeOutputFilename", "scpp.c:MakeOutputFilename"]}
{"id": "C42", "title": "Conditional groups select text as the standard prescribes", "statement": "For every nesting of #if/#ifdef/#ifndef/#elif/#else/#endif within the nesting limit, exactly the groups selected by the first true condition of each live conditional are processed; skipped groups contribute nothing.", "quantifier": "all well-formed sequences of conditional directives and truth values", "why_tests_cant": "unbounded sequences and nestings.", "anchors": ["scpp.c:HandleDirective", "scpp.c:CondActive", "scpp.c:NewCond", "scpp.c:PPMain"]}
{"id": "C43", "title": "#if expressions: operators and grouping", "statement": "Every binary operator of #if computes its C value, except > which is evaluated as <; operators of equal precedence associate to the right, so a - b - c is evaluated as a - (b - c); mixed precedence levels group as in C.", "quantifier": "all operand values and operator sequences", "why_tests_cant": "unboundedly many operator sequences.", "anchors": ["scpp.c:EvalExpr1", "scpp.c:OperatorPrecedence", "scpp.c:EvalUnary"]}
{"id": "C44", "title": "Preprocessed output is written completely and in order", "statement": "For every sequence of output strings the bytes written to the output file are their concatenation, independent of buffer boundaries.", "quantifier": "all sequences of output strings", "why_tests_cant": "buffer boundary positions depend on the whole output.", "anchors": ["scpp.c:OutputStr", "scpp.c:PPMain"]}
{"id": "C45", "title": "Preprocessor input is independent of read splitting", "statement": "The character sequence delivered by the preprocessor's reader is the file contents for every way reads are split.", "quantifier": "all NUL-free files and read schedules", "why_tests_cant": "short reads are chosen by the operating system.", "anchors": ["scpp.c:ReadChar"]}
{"id": "C46", "title": "Macro expansion of a macro's own name stops", "statement": "Expanding any object-like macro whose replacement mentions itself directly or through other macros terminates and leaves the inner occurrence unexpanded.", "quantifier": "all sets of object-like macro definitions, all token sequences", "why_tests_cant": "unbounded cyclic definition graphs.", "anchors": ["scpp.c:ReplaceId", "scpp.c:GetToken"]}
{"id": "C47", "title": "The preprocessor's token pool stays well-formed", "statement": "Every macro's stored replacement list survives definition and removal of other macros; removing the same macro twice corrupts the pool (a cyclic free list).", "quantifier": "all sequences of #define/#undef", "why_tests_cant": "allocation reuse depends on the whole history.", "anchors": ["scpp.c:AddToken", "scpp.c:FreeTokenList", "scpp.c:HandleDirective"]}
{"id": "C48", "title": "Assembled instructions mean what they say", "statement": "For every instruction form the assembler accepts (register, memory, immediate operands of every value) the bytes emitted decode on the 8086 to that instruction with those operands, and instructions follow each other in memory as in the source, for sources without EQU constants and without names beginning with a dot. Deviations, each with a witness: segment overrides other than ES, shift counts other than 1, [BP+forward label] without displacement, loading a segment register from a constant, operands of different sizes, and subtracted registers or labels in addresses.", "quantifier": "all mnemonics, operand forms and operand values", "why_tests_cant": "all displacement/immediate values and operand combinations.", "anchors": ["sas.c:HandleALU", "sas.c:HandleMOV", "sas.c:OutputModRM", "sas.c:ParseOperand", "sas.c:HandleInstruction"]}
{"id": "C49", "title": "Label references are resolved to the label", "statement": "After assembling any sequence of labels (not beginning with a dot), data and instructions, every 16-bit reference by an instruction to a label that is defined holds the label's address (or distance), whether it came before or after the definition; an 8-bit reference does so when the distance fits in a signed byte. References by DW to later labels and references to local labels across a global label are not resolved (witnesses).", "quantifier": "all sequences of label definitions and references", "why_tests_cant": "forward references and label order depend on the whole program; overflowing short jumps are silent.", "anchors": ["sas.c:ReferenceLabel", "sas.c:AddFixupHere", "sas.c:HandleRel8", "sas.c:HandleRel16", "sas.c:main"]}
{"id": "C50", "title": "Undefined and out-of-range labels are accepted silently", "statement": "Every jump or call to a label that is never defined assembles without an error; so does a short jump to a label too far away, which then goes backward.", "quantifier": "all jumps and calls to undefined labels; existence of programs for the short jump", "why_tests_cant": "the assembler reports success.", "anchors": ["sas.c:main", "sas.c:AddFixupHere"]}
{"id": "C51", "title": "Assembler symbols never collide", "statement": "Looking up any symbol in the assembler's hash table returns the entry registered for the same (length-limited) spelling, for every insertion history; probing visits every slot.", "quantifier": "all insertion sequences", "why_tests_cant": "probe sequences depend on the whole history.", "anchors": ["sas.c:AddId", "sas.c:LookupId", "sas.c:HashStr"]}
{"id": "C52", "title": "Assembler constant expressions", "statement": "Constant expressions in the assembler evaluate with the documented precedence and left associativity to their C value modulo the int width.", "quantifier": "all expression strings", "why_tests_cant": "unbounded expressions.", "anchors": ["sas.c:ParseExpr", "sas.c:ParsePrimary", "sas.c:ParseUnary"]}
{"id": "C53", "title": "Pixels of the CGA frame buffer are independent", "statement": "Setting a pixel makes reading that pixel return the colour and leaves every other pixel unchanged, for all coordinates on the 320x200 screen; every access stays inside the 16 KiB frame buffer.", "quantifier": "all coordinates and colours, all frame buffers", "why_tests_cant": "64000 x 64000 pixel pairs.", "anchors": ["swar.c:PutPixel", "swar.c:ReadPixel", "swar.c:main"]}
{"id": "C54", "title": "The game's integer sine and cosine", "statement": "ICos is even about the half-period and ICos/ISin values are bounded and agree with the table on every angle the game can reach; the turret angle and power stay within their limits after any sequence of key presses.", "quantifier": "all angles, all key sequences", "why_tests_cant": "all histories of key presses.", "anchors": ["swar.c:ICos", "swar.c:ISin", "swar.c:UpdateTurrent"]}
{"id": "C55", "title": "Constant operands of && and ||", "statement": "A constant operand of && or || is not evaluated into the accumulator before it is tested: there are programs in which a && 0 yields 1 and 1 && a yields 0.", "quantifier": "existence of programs", "why_tests_cant": "the result depends on what the accumulator happens to hold.", "anchors": ["scc.c:ParseExpr1", "scc.c:ToBool", "scc.c:LvalToRval"]}
{"id": "C56", "title": "Far memory access and the clock in lib.h", "statement": "FarPeek returns the byte at segment:offset zero-extended, FarPoke stores the low byte of its value there and changes nothing else, clock returns the BIOS tick word at 0:46C; each returns to its caller with stack and frame pointer restored.", "quantifier": "all segments, offsets, values, memories and register contents (the stack and the code not being the target)", "why_tests_cant": "the routines are machine code bytes in the source; a test runs them on a few addresses.", "anchors": ["lib.h:FarPeek", "lib.h:FarPoke", "lib.h:clock"]}
{"id": "C57", "title": "The game's terrain", "statement": "From every 16-bit random seed except eight, terrain generation ends with 320 heights in 20..180 whose neighbours differ by at most 3, and filling it in paints exactly the pixels at or below the height of their column; from the eight exceptional seeds (clock values) generation never ends and the game hangs.", "quantifier": "all 65536 seeds; all pictures", "why_tests_cant": "a test starts from a few clock values; the hang needs one of eight in 65536.", "anchors": ["swar.c:Rand", "swar.c:main"]}
{"id": "C58", "title": "Drawing tanks, barrels and text", "statement": "Drawing a tank paints exactly its body rectangle and the six points of its barrel; turning the barrel clears the old points and paints the new ones; text paints exactly its character cells from the font; all accesses stay on the screen and the status line always fits its buffer.", "quantifier": "all terrains, angles 0..128, powers 0..100, fonts, strings fitting the screen and pictures", "why_tests_cant": "there are thousands of positions and angles, in 16-bit fixed point arithmetic that wraps around for the right tank.", "anchors": ["swar.c:DrawTank", "swar.c:DrawTurret", "swar.c:DrawBody", "swar.c:UpdateTurrent", "swar.c:DrawStr", "swar.c:DrawChar", "swar.c:ShowTankInfo"]}
{"id": "C59", "title": "Every shot ends and damages only what it hits", "statement": "For every legal tank and every picture a shot ends within 701 steps without leaving the frame buffer; its result is the colour of the pixel it hit, which is cleared, and below the text line no other pixel changes. A vertical shot from the highest ground overflows 16 bits and vanishes (witness).", "quantifier": "all positions, angles, powers and pictures", "why_tests_cant": "the flight depends on position, angle, power and the whole picture.", "anchors": ["swar.c:Fire"]}
{"id": "C60", "title": "Preprocessed text reads back as the tokens put out", "statement": "If no two neighbouring tokens of the expanded text run together when written without space, reading the output yields exactly the tokens that the expansion put out. Without that condition it fails: an empty macro or a comment between two tokens does not keep them apart (witness).", "quantifier": "all files of text lines, object-like macros and conditional groups", "why_tests_cant": "neighbours are brought together by expansion in unboundedly many ways.", "anchors": ["scpp.c:PPMain", "scpp.c:OutputStr", "scpp.c:RawGetToken"]}
{"id": "C61", "title": "Typedef names", "statement": "A typedef name used in a declaration stands for exactly the type it was declared with; this must also hold for parameters, members, arrays and casts, but there the type additionally carries the storage place of the typedef declaration itself, so such programs are rejected or compiled to wrong code.", "quantifier": "all typedef declarations and uses", "why_tests_cant": "whether a use goes wrong depends on where the typedef stood and how the name is used.", "anchors": ["scc.c:ParseDeclSpecs", "scc.c:LookupTypedef", "scc.c:ParseExternalDefition", "scc.c:ParseStatement"]}
{"id": "C62", "title": "Several declarators in one declaration", "statement": "In a declaration with several declarators each one is built on the declared base type; the compiler recovers the base type from the previous declarator, which gives the right one exactly when that declarator is no array, or an array with one bound and no pointer stars.", "quantifier": "all base types, numbers of stars and lists of bounds of the first declarator", "why_tests_cant": "all combinations of stars and bounds.", "anchors": ["scc.c:SaveBaseType", "scc.c:ParseDeclarator", "scc.c:NextDecl"]}
{"id": "C63", "title": "Statements compile to code that does what they mean", "statement": "For every statement built from the empty statement, assignments x = e and compound assignments x op= e (op one of + - * / % & | ^ << >>) of int expressions (the fragment of C32) to int variables, ++x, --x, x++ and x--, if, if-else, while, do-while, for with any of its parts missing, break, continue, return with a value, and blocks, nested in any way, with comparisons, negations or non-zero constants as conditions: if the one-pass compiler accepts it at the start of a function body without local variables, then whenever the statement, started with some values of the variables, ends, the code ends too, having set the variables to the values C prescribes; control is then behind the code with SP and BP unchanged, or, after a return, at the caller with the value in AX and BP restored; no other memory has changed except stack words below SP. The compiler stops exactly at the end of the statement.", "quantifier": "all statements of the fragment of any size and nesting, all spellings, all executions of any length, all variable values and placements, all machine states with enough stack", "why_tests_cant": "unbounded nesting and unbounded runs; jumps are patched backwards through chains of forward references, and jumps to the next instruction and around jumps are removed again.", "anchors": ["scc.c:ParseStatement", "scc.c:DoCond", "scc.c:DoLoopStatements", "scc.c:EmitJmp", "scc.c:EmitLocalLabel", "scc.c:DoFixups", "scc.c:ParseAssignmentExpression", "scc.c:DoIncDecOp", "scc.c:ParsePostfixExpression"]}
{"id": "C64", "title": "A function definition compiles to a function", "statement": "For every definition int f(int a, ...) { ... } or void f(int a, ...) { ... } with any number of int parameters and a body from the statements of C63 over the parameters and initialised global int variables: if the compiler, outside of functions and with f a new name, accepts it, then it stops exactly behind the closing brace, is again outside of functions, has recorded the address of f, and the code at that address obeys the calling convention: called with a return address on the stack and the arguments above it (the first one nearest), whenever the body, started with these values, ends, the machine arrives at the return address with the returned value in AX, BP and the segment registers as the caller had them, SP behind the return address, globals and parameters with the values C prescribes, and no other memory changed except stack words below the return address.", "quantifier": "all function definitions of the fragment, with any number of parameters, any body of any size, any spelling of the text; all argument values, all executions of any length, all machine states with enough stack", "why_tests_cant": "all functions, all arguments and all lengths of a run; caller and callee have to agree on the frame, and the tables of the compiler have to be restored after every body.", "anchors": ["scc.c:ParseExternalDefition", "scc.c:ParseDeclSpecs", "scc.c:ParseDeclarator", "scc.c:AddVarDecl", "scc.c:EmitGlobalLabel", "scc.c:PushScope", "scc.c:PopScope", "scc.c:ParseStatement"]}
{"id": "C65", "title": "Functions with local variables", "statement": "For every definition int f(int a, ...) { int x = e; ... statements } or void f(...) { ... } whose body starts with any number of int locals with initialisers and goes on with any statements of C63 over the locals, the parameters and initialised global int variables: if the compiler, outside of functions and with f a new name, accepts it, then it stops behind the closing brace, is again outside of functions and has recorded the address of f; and called there with a return address and the arguments on the stack, whenever evaluating the initialisers in order and then running the statements ends, the machine arrives at the return address with the returned value in AX, BP and the segment registers as the caller had them and SP behind the return address - no matter how many locals are on the stack and whether the end or a return in the middle of nested loops is reached. Each initialiser sees the locals before it; a local hides a parameter or global of the same name, which keeps its value; all other variables have the values C prescribes, and no other memory has changed except stack words below the return address.", "quantifier": "all function definitions of the fragment, with any number of parameters and up to 380 locals, any initialisers, any body of any size, any spelling of the text; all argument values, all executions of any length, all machine states with enough stack", "why_tests_cant": "the stack pointer is adjusted lazily and returns jump to a common end only when there are locals; whether every path through every body removes exactly the locals cannot be tried out.", "anchors": ["scc.c:ParseExternalDefition", "scc.c:ParseStatement", "scc.c:ParseDeclarator", "scc.c:AddVarDecl", "scc.c:FlushSpAdj", "scc.c:FlushPushAx", "scc.c:PushScope", "scc.c:PopScope", "scc.c:EmitLocalLabel"]}
{"id": "C66", "title": "Calls of functions", "statement": "For every call f(e1, ..., en) that is a whole expression, with at most four arguments, each an int expression of the fragment of C32, of a function returning int whose address is known: if the compiler accepts it, the emitted code evaluates the arguments one after the other and arrives at the first instruction of f with the return address on top of the stack and directly above it the values of the arguments in order, BP and the segment registers unchanged and no other memory changed except stack words below SP; the return address is that of the code behind the call. And for x = f(e1, ..., en) with an int variable x: whatever f does, if it comes back to the return address with SP just behind it and BP unchanged, then x becomes the value f has left in AX, SP is what it was before the whole assignment, and nothing else is changed on the way.", "quantifier": "all calls with up to four arguments, all argument expressions of any size and any spelling, all variable values and placements, all machine states with enough stack, all behaviours of the called function", "why_tests_cant": "the stack is adjusted lazily on both sides of the call, arguments are stored by offsets from BP while their own evaluation pushes below them; all combinations of argument expressions cannot be tried.", "anchors": ["scc.c:ParsePostfixExpression", "scc.c:HandlePrimaryId", "scc.c:EmitGlobalRefRel", "scc.c:FlushSpAdj", "scc.c:EmitStoreAx", "scc.c:EmitStoreConst", "scc.c:ParseExpr1"]}
{"id": "C67", "title": "A call and the function called agree", "statement": "For every function of int variables that the compiler accepts (a definition as in C64, or with local variables as in C65) and every later assignment x = f(e1, ..., en) with as many arguments as f has parameters, at most four: the code emitted for the assignment, run in the same memory as the code emitted for the function, sets x to the value that the body of f returns when it is started with the values of the arguments in the parameters and the current values of the global variables; the global variables f uses get the values the body gives them, SP and BP are as before, and no other memory is changed except stack words below SP.", "quantifier": "all function definitions of that form, all assignments calling them, all spellings, all values of the variables and arguments for which the body returns, all machine states with enough stack", "why_tests_cant": "the caller and the function are compiled apart and agree only on a convention (order and place of the arguments, who removes them, where the result is, which registers survive); tests check it for single pairs of call and function.", "anchors": ["scc.c:ParsePostfixExpression", "scc.c:ParseExternalDefition", "scc.c:ParseDeclSpecs", "scc.c:FlushSpAdj", "scc.c:EmitStoreAx", "scc.c:ParseExpr1"]}
{"id": "C68", "title": "The type of the result of an operator", "statement": "C gives the result of + - * / % & ^ | the type unsigned as soon as one operand is unsigned, and the result of a shift the type of its left operand. The compiler follows neither rule: for int and unsigned operands the result always has the type of the right operand, and is an int when the right operand is a literal. So the result has C's type exactly when the right operand has it, and there are programs that compute a wrong value: (u + 1) / i and (u + i) / i divide signed although u is unsigned.", "quantifier": "all ten operators, all left operands of type int or unsigned (values, variables, literals), all right operands of type int or unsigned however they are written, all states of the compiler", "why_tests_cant": "the wrong type only shows when the result is an operand of a division, right shift or comparison with values above 32767; tests with small values cannot tell the types apart.", "anchors": ["scc.c:ParseExpr1", "scc.c:DoBinOp", "scc.c:DoRhsConstBinOp", "scc.c:DoRhsLvalBinOp", "scc.c:LvalToRval", "scc.c:GetVal"]}
{"id": "C69", "title": "Operands that are not evaluated", "statement": "With a constant condition, c ? a : b adds to the program exactly what the selected operand adds, and leaves the type and value of that operand; the other operand adds no byte and changes no byte already emitted, whatever it is. sizeof of an expression or type adds nothing and is an int constant. The claim does not extend to the stack book-keeping: after an unselected operand or a sizeof operand like (a+1)*(a+2) the next local variable shares its place with the previous one, and operands with &&, || or ?: in such a place are refused.", "quantifier": "all conditions, all operands of any size and form, all states of the compiler", "why_tests_cant": "whether a byte slips out depends on every emitting function honouring the dead-code mark in every state; tests try a few operands.", "anchors": ["scc.c:HandleCondOp", "scc.c:ParseMaybeDead", "scc.c:ParseUnaryExpression", "scc.c:EmitChecks", "scc.c:GetStoredVal", "scc.c:EmitLocalLabel"]}
{"id": "C70", "title": "A left operand waiting for a conditional operand", "statement": "x op (c ? a : b) and x op (c && a) compute op on x and the value of the conditional. This does not hold if an operand that is evaluated only sometimes is a function call: there are programs in which the saved x is taken from the stack although it was not put there.", "quantifier": "existence of programs", "why_tests_cant": "the value is right for one outcome of the condition and wrong for the other.", "anchors": ["scc.c:HandleCondOp", "scc.c:ParsePostfixExpression", "scc.c:GetStoredVal", "scc.c:ParseExpr1"]}
{"id": "C71", "title": "The value of a conditional expression", "statement": "For every comparison or negation c over int variables, and all a and b that are constant or whose outermost operator is arithmetic, the code compiled for c ? a : b leaves in AX the value of a if c holds when the code runs and the value of b if not; the type of the result is int, the variables and the stack are as before, and only the stack below the stack pointer was written to. Operands that are a variable alone or a comparison, and operands that contain calls, are not covered.", "quantifier": "every text of such an expression, every condition, both operands, every start state of the compiler at the beginning of a function body, every state of the machine with the code loaded and room on the stack", "why_tests_cant": "two forward jumps are emitted, rewritten and shortened when their labels are placed; what they become depends on the length of the code between, and both outcomes have to meet with the value in the same register.", "anchors": ["scc.c:HandleCondOp", "scc.c:DoCondHasExpr", "scc.c:ForceToReg", "scc.c:DoFixups", "scc.c:ParseExpr1"]}
{"id": "C72", "title": "The value of && and ||", "statement": "For all comparisons or negations c and d over int variables, the code compiled for c && d and c || d gives 1 or 0 as C says, either in AX or as a condition code that the compiler records; if c decides the result, nothing is asked of d, which need not have a value. The variables and the stack are as before, and only the stack below the stack pointer was written to. Operands that are constant, a number or a variable alone, and longer chains are not covered.", "quantifier": "every text of such an expression, every pair of conditions, every start state of the compiler at the beginning of a function body, every state of the machine with the code loaded and room on the stack", "why_tests_cant": "which of two shapes of code is emitted depends on whether the condition codes of the operands happen to be equal; in one of them the flags set by either operand are read in the same way after the label, in the other a jump over two bytes has to land on the instruction after the label.", "anchors": ["scc.c:ParseExpr1", "scc.c:EmitJcc", "scc.c:EmitLocalLabel", "scc.c:DoFixups"]}
{"id": "C73", "title": "The truth of a conditional expression can be wrong", "statement": "Used as a condition, c ? a : b should count as true exactly if its value is not zero. It does not: where b ends with an operator, the compiler emits no test after the label at which both operands meet, for every label and every state of the compiler in which an operator has just ended, and the decision is made on whatever flags were left when c holds. Programs with (i == j ? 5 : j - 1) as the condition of an if, under ! and before && go the wrong way when i equals j.", "quantifier": "every label, every state of the compiler with an int in AX whose last operator ended at the current address; the wrong decisions are shown on programs", "why_tests_cant": "the shortcut that leaves the test out is right in straight-line code; it is wrong only where a jump arrives from code that left other flags, and then only for some values.", "anchors": ["scc.c:ToBool", "scc.c:LastZFInst", "scc.c:EmitLocalLabel", "scc.c:HandleCondOp"]}
{"id": "C74", "title": "Comparisons as operands of a conditional expression", "statement": "c ? a : b should be a if c holds and b if not, also for comparisons a and b. It is not: for all comparisons or negations c, a and b over int variables, the compiled code leaves the truth of the operand that was evaluated in the flags, but under a condition code of its own for each operand, and the compiler records only that of b. So the result is right where c does not hold, and where c holds if both codes give the same. Programs with i == 1 ? i < j : i > j, returned or as the condition of an if, give the wrong answer, and i == 1 ? i < j : 7 is wrong whatever i is.", "quantifier": "every text of such an expression, every condition and operands, every start state of the compiler at the beginning of a function body, every state of the machine with the code loaded and room on the stack; the wrong answers are shown on programs", "why_tests_cant": "the result is right for one outcome of the condition, and for the other it depends on which two comparisons were written and on the values they compare.", "anchors": ["scc.c:HandleCondOp", "scc.c:ForceToReg", "scc.c:GetVal", "scc.c:EmitLocalLabel"]}
