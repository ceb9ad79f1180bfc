# Formal model of mras0/scc: design

## Method

The C sources in `/repo` (`scc.c`, `scpp.c`, `sas.c`, `sim86.c`, `lib.h`, `swar.c`) are read as
text and re-expressed, function by function, as total computable Gallina functions in
`rocq/theories`.  Every definition of the model carries a comment with the file and lines it models.

* C `int` is modelled by `Z` with an explicit width.  The project is built in two ways: by a host
  compiler (`int` is 32 bits) and by scc itself (`int` is 16 bits).  Functions whose result depends
  on this take the width `W` as a parameter; theorems say for which widths they hold.
* Arrays that C zero-initialises are total maps with default 0 (`Base.arr`).
* Undefined behaviour (`UB`), the tool's own fatal-error routine (`Fatal`) and running out of the
  model's recursion fuel (`OutOfFuel`) are three *different* outcomes beside `Ok`; no theorem about
  a normal result can be satisfied by one of them.
* The specification of the processor (`Spec8086.v`) is written independently of the simulator model
  and of the compiler's emission functions.  Theorems about emitted code execute the emitted bytes
  on that specification, including fetching and decoding them from memory.  Flags the 8086 leaves
  undefined come from an arbitrary oracle: `reaches P t` means that every run from t, whatever the
  undefined flags are, meets a state with P.
* Theorems for the properties are in the `Props_*.v` files, each followed by examples meeting its
  hypotheses and by `Print Assumptions`.
* Where the full claim is false of the code, the property states the claim that is true, and a
  theorem ending in `_refuted` shows the failing case, mostly by compiling a C program with the
  model of the compiler and running it on `Spec8086.v` (`SccWitness.returns`).

## Trusted base

* Coq 8.16.1's kernel, including `vm_compute`.
* `Print Assumptions` of every theorem listed in `MANIFEST.json` prints
  "Closed under the global context": no axioms.  `vcheck` lists seven constants of
  `Coq.ssr.ssrunder.Under_rel` (`Over_rel`, `Under_rel_from_rel`, `over_rel`, `over_rel_done`,
  `Under_rel`, `Under_relE`, `under_rel_done`); these belong to a sealed module of the standard
  library that is loaded with `ssreflect`; no theorem depends on them.
* The reading of the C sources recorded in the comments of the model, and `Spec8086.v` as a
  description of the 8086.
* The specifications: `ExprSpec.v`, `GroupSpec.v`, `ScopeSpec.v`, `TypeSpec.v`, `SasSpec.v`,
  `SppSpec.v`, and the definitions at the top of each `Props_*.v`.

### How the reading of the sources was checked

Nothing was compiled from `/repo`.  `tools/validate.py` runs the models by `vm_compute` on the
project's own test inputs, read as text, and compares with the reference files shipped beside them:
the model of scc on `test/scc/scc10.c` (22792 bytes of machine code), the model of sas on
`sasm.asm` and `scc-self.asm` (7410 and 19766 bytes, with 16- and 32-bit int) and the model of scpp
on all 65 inputs of `test/scpp`; all results are equal byte for byte (for scpp: up to carriage
returns).  The bytes of the library functions in `LibH.v` are compared by `vm_compute` with what the
modelled compiler emits for the text of `lib.h`, and the model of `vsprintf` was compared with that
code run on `Spec8086.v`.

## What is modelled, and what is not

| source | modelled | not modelled, or simplified |
|--------|----------|-----------------------------|
| `sim86.c` | registers, memory, flags, ModRM, all instructions, decode/execute loop (`Sim86.v`) | verbose output, profiling; DOS file calls of INT 21h appear as an event; loading the file |
| `lib.h` | machine-code functions as bytes, `ParseArgs`, `vsprintf` (`LibH.v`) | DOS calls (open/read/write/exit) |
| `scc.c` | everything from reading characters to the output image and the map file: tokenizer, identifier table, types, scopes, declarations, expressions, statements, fixups (`SccState`, `SccEmit`, `SccLex`, `SccDecl`, `SccExpr`, `SccStmt`; `compile W F fuel src sched`) | texts of error messages, line numbers; `VSPrintf` is in `LibH.v`; recursion and loops are bounded by explicit fuel (`OutOfFuel`) |
| `sas.c` | everything from characters to the output file (`Sas.v`) | the 512-byte read buffer and line numbers; label chains are lists, and a label at address -1 with pending references is UB |
| `scpp.c` | everything from characters to the output text (`Spp.v`), the reader's and the writer's buffers separately (`SppIn.v`, `SppOut.v`) | `write()` is taken to write all it is given; files are an association list |
| `swar.c` | pixels, trigonometry, random numbers, terrain, tanks, shots, key handling (`Swar.v`), with the semantics of scc (16-bit `int`) | the font (an arbitrary one), reading keys, delays, switching the video mode |
| `main` functions | the choice of file names (`Names.v`) | argument parsing, opening files |

Limits of the theorems, beyond the hypotheses visible in them:

* C34, C36, C61, C62: declarations run the compiler's own functions without reading the tokens
  (the names and declarators are given); types nested less than 48 deep.  C36 follows the emitted
  code for constant subscripts.
* C32, C33: successful compilation is a hypothesis; `&&`, `||`, `?:`, assignment, `++`, calls,
  pointers, `char` and `unsigned` are outside the fragment, as are global variables whose address is
  not known yet.  Operand values on which a single operator is miscompiled are excluded by
  `ExprSpec.right_op`, each exclusion being refuted by a program under C22, C23 or C30.
* C63, C64, C65, C37: locals only at the start of the function body, as `int x = e;` (C65); `switch`, `goto`, labels and
  declarations in inner blocks, expression statements other than `x = e`, `x op= e`, `++x`, `--x`, `x++` and `x--`, assignments inside
  expressions, and statements in dead code are in the model but outside the theorem.  Which values of `x op= e`
  are excluded is said by `StmtSpec.right_asn` (those of `x op e` for `*`, `/`, `%` and the shifts, none otherwise).
* C66: five or more arguments, calls inside of arguments, calls through pointers, and calls while a
  value waits in AX or BX are in the model but outside the theorem.  What the called function does is
  a hypothesis of `C66_assignment`; C64 and C65 prove such facts for functions, and C67 puts the two
  together. Functions that call functions themselves (and recursion) are not covered.
* C71: the expression stands at the start of a function body; operands that are a variable alone, a comparison or
  that contain calls, and conditions that are constant, a number or a variable alone, are in the model but outside
  the theorem.
* C72: the expression stands at the start of a function body; both operands are comparisons or negations and depend
  on variables. Chains such as `a && b && c` and constant operands are not covered.
* C74: the expression stands at the start of a function body; a comparison beside an operand that is not one is
  covered by the programs of `C74_refuted` and `C74_right` only.
* C42-C47, C60: function-like macros, `#include`, comments and line splices are in the model but
  outside the whole-file theorems.
* C48, C49: names beginning with a dot, `EQU`, `RESB`/`RESW` and `DW` with labels are in the model
  but outside the whole-file theorems.
* C54: the accuracy of the cosine table is stated as the addition theorem with an explicit error, not
  against the real cosine.

## Properties

| id | modelled code | how it is proved |
|----|---------------|------------------|
| C01-C06, C09 | ALU, registers, memory, ModRM of sim86 for both widths of int | bit-level lemmas; exhaustive sweeps on 8-bit domains lifted by lemma |
| C07 | one step of sim86, and runs | every opcode byte against `Spec8086`; the deviations are a specification of their own (`Sim86Variant.v`); witness for segment prefixes |
| C08 | sim86 with 16- and 32-bit int | relational proof; witnesses for SAR and IDIV |
| C10-C12, C56 | bytes of the lib.h functions | loop invariants over `Spec8086` runs |
| C13 | ParseArgs | refinement to maximal runs of characters; witness for overwriting |
| C14, C15 | vsprintf, VSPrintf | induction on format and digits, against positional notation |
| C16, C45 | read buffers | simulation with the character list for every split, for the whole compiler |
| C17, C51 | identifier and symbol hash tables | invariant over insertion histories |
| C18-C20 | tokenizer | refinement to declarative lexing rules |
| C21-C23, C30 | code for constants and operators | run on `Spec8086`; witnesses |
| C24-C26, C40 | labels, jumps, fixups | chain invariant; run before and after resolving |
| C27, C31, C55 | comparisons, zero flag, `&&`/`||` of constants | flags of the emitted code; program witnesses |
| C28 | constant folding | against exact arithmetic |
| C29 | operands in memory | decoding on `Spec8086` |
| C32 | the expression parser and code generator, from text | logical relation between emission state (pending AX, saved BX, pushed words) and machine; induction over the parser's fuel and the token list |
| C33 | precedence climbing | existence and uniqueness of the tree for every operand sequence (`GroupSpec.v`), then C32 |
| C34, C36 | SizeofType, struct members, array types | induction on types |
| C35 | scope stack | refinement to a stack of maps for every sequence of events |
| C37 | stack and frame pointer across statements | consequence of C63 (partial); witness for switch |
| C38 | references to globals, `place_bss` | invariant (a sorted list of all reference and jump cells with the chains threaded through them) over every sequence of emission steps; induction on the table |
| C63 | the statement parser, loops, jumps and their fixups, from text | specification with big-step semantics (`StmtSpec.v`); invariant over code with waiting jumps (`SccImg.v`: which bytes of the final code are already there and where the waiting jumps will go); induction over the parser's fuel, and over the execution for loops |
| C64 | whole function definitions: specifiers, declarator, parameters, label, frame, body, scope | effect of the start and end of a function on the tables (`SccArgs.v`), the parser of the head (`SccHead.v`), then C63 with PUSH BP; MOV BP,SP in front and POP BP; RET behind (`SccFun.v`) |
| C65 | declarations with initialisers, the lazily adjusted stack pointer, `return` with locals, the common end of a function | a frame invariant (`SccLoc.v`, `SccLoc2.v`: places of the variables and the stack pointer relative to BP) kept by each declaration, C63's induction for the statements with a non-zero frame, and the end of the function reached by falling through or by jumps to the return label (`SccLoc3.v`, `SccLoc4.v`) |
| C66 | calls: the argument loop, `CALL`, the postponed `SUB SP`/`ADD SP` around it, assignment of the result | the logical relation of C32 with a stack adjustment still to be emitted in front of the code (`SccHold.v`, `SccFlush.v`); induction over the argument list (`SccCall.v`), the call and its surroundings in the parser (`SccCall2.v`), the code after the return (`SccCall3.v`) |
| C67 | the calling convention: a function as in C64/C65 and an assignment that calls it | composition: the state in which C66 enters the function meets what C64/C65 ask of a called function, and the state they return in meets what C66 asks of the return (`Props_SccBoth.v`) |
| C68 | the type (`CurrentType`) a binary operator leaves, against C's usual arithmetic conversions | every emitting function keeps the type (`kp`), then the branches of `binary_op` one after the other (`Props_SccSign.v`); programs for the difference by evaluation |
| C69 | dead code: `ParseMaybeDead`, `sizeof`, every emitting function under `IsDeadCode` | an invariant of the whole expression and declaration parser (`SccDead.v`: live code stays live; if code was dead and still is, the program is unchanged), by induction on the nesting as in `SccRel.v`; programs for the book-keeping by evaluation |
| C70 | a left operand saved across `? :`, `&&` | programs by evaluation |
| C71 | `c ? a : b` whose operands are constant or arithmetic | the framework of the statements (marks of open jumps, `SccStm.v`) applied to `HandleCondOp` (`SccLeft.v`, `SccTern.v`), then a machine is built from the start state as for C63 |
| C72 | `c && d` and `c \|\| d` on conditions | as C71, for the part of `ParseExpr1` that handles `&&` and `\|\|` (`SccLogic.v`); both shapes of code, the result in the flags and the result in AX |
| C73 | the truth of `c ? a : b` | that no test is emitted: direct, from the lemma on labels of `SccStm.v`; wrong decisions: programs by evaluation |
| C74 | comparisons as operands of `c ? a : b` | as C71, with both operands left in the flags (`SccArms.v`); the condition code of the first operand is given by an existential, the same for all states of the machine; wrong answers: programs by evaluation |
| C39, C61, C62 | entry jump; typedef; several declarators | exact condition and program witnesses |
| C41 | output file names | direct; witnesses |
| C42, C43, C46, C47, C60 | scpp: conditionals, #if expressions, macros, token pool, output | whole-file refinement to a recursive specification (`SppSpec.v`); witnesses |
| C44 | output buffer of scpp | invariant |
| C48-C50, C52 | sas: instructions, labels, expressions | whole-file theorem: assembled bytes decode to the instructions of the source; witnesses |
| C53, C54, C57-C59 | swar | arithmetic, sweeps over 16-bit seeds by `vm_compute`, invariants |

## Findings: where the code does not do what a user expects

Each is a theorem (`_refuted`) in the file given.

* `Props_Sim86.v`: the 8-bit zero flag; segment prefix changes the operand size; SAR and IDIV differ between builds.
* `Props_Lib.v`: strcmp is no ordering; more than 16 arguments overwrite each other; `%d` of -32768; `%65X`; the compiler's message buffer overflows.
* `Props_SccLex.v`: `1@` is 19; a NUL byte in the source; long numbers are split.
* `Props_SccEmit.v`: adding -32768; `a * 0` is `a`; `-3 / 4` is -1; a condition decided on a stale zero flag after `*` and `+ 0`; `a && 0` is 1; `do ... while (1)` runs once; resolving a jump reads bytes not yet emitted; -32768 / 1 faults.
* `Props_SccDecl.v`: the address of the first function is 3 too high; the fifth name per function that turns out to be global corrupts the scopes; typedef names in parameters, members and casts; `int a[2][3], b;`.
* `Props_SccStmt.v`: a declaration in the body of a switch in front of the first case unbalances the stack.
* `Props_SccGlob.v`: the address of a function taken before its definition is resolved like a call.
* `Props_Names.v`: dots in directories; output over the source; long names.
* `Props_Sas.v`: segment overrides, shift counts, [BP+label], sizes, DW of later labels, local labels; undefined labels are accepted.
* `Props_Spp.v`: `>` in #if means `<`; `a - b - c` groups to the right; empty macros join tokens; undefining twice corrupts the pool.
* `Props_Swar.v`: eight seeds hang the terrain generator; a vertical shot overflows; pixels outside the screen.

## Wrong programs

`seeded/LOG.jsonl` records edits of the model that mimic realistic bugs, the claim each breaks, the
theorems whose proofs then fail, and the theorems tightened because they did not.
