{"id": "C01", "title": "Optimised programs behave like unoptimised ones", "statement": "For every program the compiler emits, running the code produced with the optimizer on gives the same sequence of output bytes, memory contents and external calls as running the code produced with '-n' (optimizer off), as long as the unoptimised run never uses an undefined accumulator value.", "quantifier": "All bytecode programs, all run-time states, all numbers of executed instructions.", "why_tests_cant": "The optimizer applies about 150 rewrite patterns repeatedly, in any combination; a test program exercises a handful of combinations and a handful of run-time values.", "anchors": ["src/compiler/peephole.cc: peephole::peephole", "src/compiler/peephole.cc: copy/del/ins helpers", "src/compiler/compile.cc: compiler::compile_file"]}
{"id": "C02", "title": "Constant expressions fold to the value the machine would compute", "statement": "When the optimizer replaces an operation on two integer constants (+ - * / MOD & ! EXOR, unary minus, *2, *256, +1, -1, ABS/SGN-like forms) by a constant, that constant is the value the run-time routine for that operation computes on the same 16-bit operands, including overflow, division by zero and -32768.", "quantifier": "All pairs of 16-bit operands.", "why_tests_cant": "There are 2^32 operand pairs per operation and the corner cases (wrap, /0, -32768) are exactly those usually left out.", "anchors": ["src/compiler/peephole.cc: rules 905-1064", "src/interp/mul.asm", "src/interp/div.asm", "src/interp/addsub.asm", "src/interp/absneg.asm"]}
{"id": "C03", "title": "Comparisons against constants keep their truth value", "statement": "When the optimizer rewrites a comparison with a constant (turning <= into <, swapping operands, or replacing the comparison by a fixed truth value), the rewritten form gives the same truth value for every value of the other operand.", "quantifier": "All 16-bit constants and all 16-bit values of the variable operand.", "why_tests_cant": "A wrong boundary constant only shows for one or two constants out of 65536, with specific variable values.", "anchors": ["src/compiler/peephole.cc: rules 1066-1256", "src/interp/for.asm: EXE_LT, EXE_GT"]}
{"id": "C04", "title": "Branch simplification takes the same branch", "statement": "Folding, inverting, threading or removing conditional and unconditional jumps, calls and returns never changes which statement is executed next.", "quantifier": "All control-flow graphs, all truth values.", "why_tests_cant": "Depends on arbitrary control-flow shapes such as jump chains, jumps to returns and cycles of jumps.", "anchors": ["src/compiler/peephole.cc: replace_label_targets", "src/compiler/peephole.cc: rules 1318-1486"]}
{"id": "C05", "title": "The optimizer always terminates", "statement": "Each optimisation pass over the program ends, and the repetition of passes ends, for every input program.", "quantifier": "All bytecode programs of any length.", "why_tests_cant": "Non-termination only appears for particular cyclic programs; a test suite that terminates says nothing about the others.", "anchors": ["src/compiler/peephole.cc: peephole::peephole main loop", "src/compiler/peephole.cc: replace_label_targets"]}
{"id": "C06", "title": "No dangling jump targets after optimisation", "statement": "If every label that is jumped to or called is defined exactly once before optimisation, the same holds afterwards: the assembler never reports an undefined or duplicate label because of the optimizer.", "quantifier": "All bytecode programs with well-formed labels.", "why_tests_cant": "Label removal interacts with dead-code removal and jump threading in unbounded combinations.", "anchors": ["src/compiler/peephole.cc: remove_unused_labels", "src/compiler/peephole.cc: replace_label_targets", "src/compiler/peephole.cc: rules 1318-1486"]}
{"id": "C07", "title": "Number encodings keep the value and use the short form", "statement": "Translating the various encodings of integer constants to the general one and back at the end of optimisation keeps the value of every constant, every constant from 0 to 255 ends in a one-byte form, and nothing else in the program changes.", "quantifier": "All programs and all 16-bit constants.", "why_tests_cant": "Unbounded programs; the boundary constants 0, 1, 255, 256, 65535 appear in every position.", "anchors": ["src/compiler/peephole.cc: expand_numbers", "src/compiler/peephole.cc: shorten_numbers"]}
{"id": "C08", "title": "Fused push and store instructions mean the same as the pairs they replace", "statement": "Splitting a fused 'push and load' instruction into its two parts, and fusing the pairs again after optimisation, does not change the effect of the program on stack, accumulator or store address.", "quantifier": "All programs and run-time states.", "why_tests_cant": "Must hold at every position in every program, also when a jump target sits between the two halves.", "anchors": ["src/compiler/peephole.cc: expand_push", "src/compiler/peephole.cc: fold_push", "src/compiler/peephole.cc: fold_saddr"]}
{"id": "C09", "title": "Optimisation never makes a program bigger", "statement": "The number of bytes of bytecode after optimisation is never larger than the number of bytes before it.", "quantifier": "All bytecode programs.", "why_tests_cant": "Programs are unbounded and rules can enable each other.", "anchors": ["src/compiler/peephole.cc: all rules", "src/compiler/codew.h: codew::to_asm"]}
{"id": "C10", "title": "I/O channel switches that are removed are redundant", "statement": "When the optimizer removes a channel selection, the selected channel at that point is already the one being selected, on every execution that reaches it.", "quantifier": "All bytecode programs and all execution paths.", "why_tests_cant": "Every path through loops and subroutine calls must agree on the channel.", "anchors": ["src/compiler/peephole.cc: trace_iochn", "src/interp/a800/iochn.asm"]}
{"id": "C11", "title": "Joining printed constants keeps the printed bytes", "statement": "Merging consecutive constant prints (characters and strings, with print colours) sends exactly the same bytes to the screen in the same order, and no merged string is longer than the 255-byte limit.", "quantifier": "All sequences of constant prints, all strings and all colour bytes.", "why_tests_cant": "Sequences have unbounded length and colours toggle anywhere among them.", "anchors": ["src/compiler/peephole.cc: rules 1488-1537", "src/compiler/peephole.cc: print_chars", "src/interp/print_str.asm"]}
{"id": "C12", "title": "Integer multiplication is multiplication modulo 65536", "statement": "Multiplying two integers at run time gives the low 16 bits of the product, for signed and unsigned readings alike, and the routine always terminates leaving the evaluation stack one entry shorter.", "quantifier": "All pairs of 16-bit operands.", "why_tests_cant": "2^32 operand pairs.", "anchors": ["src/interp/mul.asm"]}
{"id": "C13", "title": "Integer division truncates toward zero", "statement": "A/B at run time is the quotient truncated toward zero of the signed operands, for every B other than 0; A/0 gives -1 for A >= 0 and 1 for A < 0; -32768 / -1 gives -32768.", "quantifier": "All pairs of 16-bit operands.", "why_tests_cant": "2^32 operand pairs.", "anchors": ["src/interp/div.asm"]}
{"id": "C14", "title": "MOD takes the sign of the dividend and complements division", "statement": "For every B other than 0, A MOD B has the sign of A, absolute value below |B|, and A = (A/B)*B + A MOD B modulo 65536.", "quantifier": "All pairs of 16-bit operands.", "why_tests_cant": "2^32 operand pairs.", "anchors": ["src/interp/div.asm"]}
{"id": "C15", "title": "Addition, subtraction, negation, ABS, SGN, shifts and bit operations are exact modulo 65536", "statement": "Each of these run-time operations computes its mathematical result on 16-bit two's complement values, wrapping on overflow; ABS(-32768) is -32768 and SGN is -1, 0 or 1.", "quantifier": "All operands.", "why_tests_cant": "2^32 operand pairs per operation.", "anchors": ["src/interp/addsub.asm", "src/interp/absneg.asm", "src/interp/negax.asm", "src/interp/sgn.asm", "src/interp/shl8.asm", "src/interp/ushl.asm", "src/interp/bitand.asm", "src/interp/bitor.asm", "src/interp/bitexor.asm"]}
{"id": "C16", "title": "Integer comparisons are signed and total", "statement": "<, >, <=, >=, =, <> on integers give 1 exactly when the relation holds between the signed 16-bit values and 0 otherwise, also when the difference of the operands overflows.", "quantifier": "All pairs of 16-bit operands.", "why_tests_cant": "Comparisons by subtraction break only when the difference overflows.", "anchors": ["src/interp/for.asm: EXE_LT, EXE_GT, EXE_EQ, EXE_NEQ", "src/interp/comp0.asm"]}
{"id": "C17", "title": "FOR loops visit exactly start, start+step, ... up to the limit", "statement": "A FOR loop whose body does not change the control variable runs once for every value start + k*step that does not pass the limit, in order, as long as the additions do not overflow; it runs zero times if start is already past the limit.", "quantifier": "All start, limit and step values, any number of iterations.", "why_tests_cant": "Unbounded iteration counts and 2^48 parameter combinations, including negative steps.", "anchors": ["src/interp/for.asm", "src/syntax/basic.syn"]}
{"id": "C18", "title": "INC and DEC change a 16-bit variable by exactly one, touching nothing else", "statement": "INC/DEC of a variable adds/subtracts 1 modulo 65536 in its two memory bytes, carries into the high byte correctly, and changes no other memory.", "quantifier": "All memory contents and addresses.", "why_tests_cant": "Carry between bytes occurs for one value in 256.", "anchors": ["src/interp/inc.asm", "src/interp/dec.asm"]}
{"id": "C19", "title": "String comparison is lexicographic", "statement": "Comparing two strings orders them byte by byte (unsigned), a proper prefix being smaller, and two strings are equal exactly when lengths and bytes agree.", "quantifier": "All strings of length 0 to 255.", "why_tests_cant": "Unbounded set of pairs; prefix and byte 128..255 cases are rare in tests.", "anchors": ["src/interp/cmpstr.asm"]}
{"id": "C20", "title": "String assignment and concatenation", "statement": "Assigning copies length and all bytes; A$ =+ B$ appends B$ to A$ cut at 255 total characters; both are correct when source and destination are the same string and leave other memory unchanged.", "quantifier": "All strings, all memory layouts allowed by the allocator.", "why_tests_cant": "Aliasing and the 255 limit combine in ways tests sample only sparsely.", "anchors": ["src/interp/copystr.asm"]}
{"id": "C21", "title": "Substring selection", "statement": "A$[p,n] is the n characters of A$ starting at position p, cut at the end of the string; it is empty when p is 0 or beyond the string, or n is not positive.", "quantifier": "All strings, all 16-bit positions and counts.", "why_tests_cant": "2^32 position/count pairs per string, with 8-bit clamping inside.", "anchors": ["src/interp/strindex.asm"]}
{"id": "C22", "title": "MOVE and -MOVE copy memory as documented", "statement": "MOVE a,b,n copies n bytes going up, -MOVE copies going down: with disjoint regions both copy exactly; MOVE is also exact when the destination is below the source and -MOVE when it is above; nothing outside the destination changes.", "quantifier": "All addresses and lengths (0 to 65535), all memory contents.", "why_tests_cant": "Page-crossing and overlap cases depend on 48 bits of parameters.", "anchors": ["src/interp/move.asm", "src/interp/nmove.asm"]}
{"id": "C23", "title": "MSET fills exactly the given range", "statement": "MSET a,n,v stores v in the n bytes from a on and changes nothing else, for every n including 0 and multiples of 256.", "quantifier": "All addresses, lengths, values and memory contents.", "why_tests_cant": "Page-loop boundary conditions over 2^32 parameters.", "anchors": ["src/interp/mset.asm", "src/interp/clearmem.asm: mem_set"]}
{"id": "C24", "title": "DIM never hands out overlapping memory", "statement": "Each DIM reserves a zeroed block of the requested size directly above all earlier blocks, or stops with an out-of-memory error; live arrays never overlap each other.", "quantifier": "All sequences of allocations of any sizes.", "why_tests_cant": "Histories of allocations are unbounded, and failure happens only near the memory top.", "anchors": ["src/interp/clearmem.asm: alloc_array", "src/interp/varstore.asm: EXE_DIM"]}
{"id": "C25", "title": "VAL reads back what it should", "statement": "VAL of a string made of optional blanks, optional minus sign and decimal digits denoting a value from 0 to 65535 in magnitude gives that value without error; strings without digits or with larger values set the error flag.", "quantifier": "All strings up to 255 characters.", "why_tests_cant": "Unbounded inputs: leading zeros, blanks, signs, and overflow in the tenth power.", "anchors": ["src/interp/a800/val.asm", "src/interp/a5200/val.asm"]}
{"id": "C26", "title": "STR$ writes the shortest decimal form", "statement": "STR$ of an integer is its signed decimal representation without leading zeros, and VAL of it gives back the integer.", "quantifier": "All 16-bit integers.", "why_tests_cant": "Round trips across two hand-written conversion routines.", "anchors": ["src/interp/a5200/str.asm", "src/interp/a5200/val.asm"]}
{"id": "C27", "title": "RAND stays in range", "statement": "RAND(n) returns a value from 0 to n-1 for every n from 1 to 32767, whatever bytes the hardware random generator delivers, and every value in the range is possible.", "quantifier": "All n and all streams of random bytes.", "why_tests_cant": "The stream of random bytes is unbounded and nondeterministic.", "anchors": ["src/interp/atari/rand.asm"]}
{"id": "C28", "title": "Source lines are read completely", "statement": "Reading a source file line by line loses no character: joining the lines gives back the file up to line-end translation, for Unix, DOS and Atari line ends, also without final newline.", "quantifier": "All files (byte sequences).", "why_tests_cant": "Files are unbounded byte sequences with arbitrary mixtures of line ends.", "anchors": ["src/compiler/compile.cc: readLine"]}
{"id": "C29", "title": "Integer literals denote their value", "statement": "A decimal literal up to 65535 and a hexadecimal literal up to $FFFF denote their value; larger ones are rejected; a preceding minus in constant position gives the two's complement.", "quantifier": "All digit strings of any length.", "why_tests_cant": "Digit strings are unbounded; overflow and rejection boundaries must be exact.", "anchors": ["src/compiler/parser.h: get_hex, get_dec, get_number"]}
{"id": "C30", "title": "String literals denote their characters", "statement": "A quoted literal, with doubled quotes and $xx escapes, denotes exactly the intended byte sequence, and writing any byte sequence as a literal the way the listing does and parsing it again gives the same byte sequence.", "quantifier": "All byte strings.", "why_tests_cant": "Unbounded strings over 256 byte values with escape interactions.", "anchors": ["src/compiler/parser-actions.cc: SMB_E_CONST_STRING", "src/compiler/parser.h: add_s_str", "src/compiler/parser.cc"]}
{"id": "C31", "title": "Assembler text of emitted data is faithful", "statement": "Every byte, word, string and label written to the assembler output reads back, by the assembler's rules, as the same bytes in the same order.", "quantifier": "All emitted code elements and all byte strings.", "why_tests_cant": "Control characters, quotes and bytes 128..255 may appear at any position.", "anchors": ["src/compiler/codew.h: codew::to_asm, escape"]}
{"id": "C32", "title": "Minimised listings respect the line width and order", "statement": "The shortened listing contains every statement of the long listing in the same order, separated by ':' or line ends, and puts statements together on a line only when the line stays within the requested width.", "quantifier": "All sequences of statements and all widths 1 to 256.", "why_tests_cant": "Unbounded sequences of statements with arbitrary lengths.", "anchors": ["src/compiler/compile.cc", "src/compiler/parser.h"]}
{"id": "C33", "title": "Error excerpts stay inside the line", "statement": "The excerpt of the source line shown with an error is a window of the line containing the error column, with the marker under that column, for every line length and column.", "quantifier": "All line lengths and columns.", "why_tests_cant": "Off-by-one errors appear only for long lines with errors at particular columns.", "anchors": ["src/compiler/compile.cc: compile_file error output"]}
{"id": "C34", "title": "Every loop jump lands on a defined place", "statement": "When a program compiles without error, each forward or backward jump emitted for IF/ELSE/ELIF, WHILE, REPEAT, DO, FOR, EXIT and PROC refers to a place defined exactly once in the emitted code.", "quantifier": "All statement sequences, any nesting depth.", "why_tests_cant": "Nesting and interleaving are unbounded.", "anchors": ["src/compiler/parser.h: push_loop, pop_loop, check_loops", "src/compiler/parser-actions.cc: SMB_E_*"]}
{"id": "C35", "title": "EXIT leaves exactly the innermost loop", "statement": "EXIT jumps to the first statement after the end of the innermost enclosing loop (not IF), or returns from the PROC when there is no enclosing loop in it.", "quantifier": "All nestings of loops, conditionals and procedures.", "why_tests_cant": "Unbounded nesting with EXIT at any depth and any number of EXITs.", "anchors": ["src/compiler/parser-actions.cc: SMB_E_EXIT_LOOP, SMB_E_POP_*"]}
{"id": "C36", "title": "Variables never share storage", "statement": "Different variables get different, non-overlapping memory slots, float variables three words wide, and the same name always refers to the same slot for the rest of the program.", "quantifier": "All sequences of variable uses.", "why_tests_cant": "Any number and order of declarations of any types.", "anchors": ["src/compiler/parser-actions.cc: SMB_E_VAR_CREATE, SMB_E_VAR_SEARCH, SMB_E_VAR_SET_TYPE", "src/compiler/parser.h: vars"]}
{"id": "C37", "title": "PROC calls always pass the declared number of parameters", "statement": "In a program accepted by the compiler, every EXEC of a procedure and its PROC definition agree on the number of parameters, in whatever order they appear.", "quantifier": "All programs: any order of calls and definitions, any parameter counts.", "why_tests_cant": "Forward references allow calls before and after the definition in any mixture.", "anchors": ["src/compiler/vartype.cc: labelType", "src/compiler/parser-actions.cc: SMB_E_PROC_CHECK, SMB_E_LABEL_DEF", "src/compiler/parser.h"]}
{"id": "C38", "title": "Failed alternatives leave no code behind", "statement": "When the parser tries one alternative of a statement and falls back to another, the emitted bytecode and listing are those of the successful alternative only.", "quantifier": "All grammars and all inputs.", "why_tests_cant": "Backtracking depth and position are unbounded.", "anchors": ["src/compiler/parser.cc: parse_table", "src/compiler/parser.h: saved_pos, restore"]}
{"id": "C39", "title": "Parsing always ends", "statement": "For every source line and every syntax table the parser terminates, reporting an error when nesting exceeds its fixed limit instead of recursing without bound.", "quantifier": "All grammars (also left-recursive ones) and all input lines.", "why_tests_cant": "Left recursion and nesting depth are unbounded.", "anchors": ["src/compiler/parser.cc: parse_table"]}
{"id": "C40", "title": "Expressions compile to code that computes them", "statement": "The code emitted for an integer expression leaves its mathematical value (modulo 65536, with the language's precedence and truth-value conventions) as result and leaves the evaluation stack as it was.", "quantifier": "All integer expressions of any size and all variable values.", "why_tests_cant": "Expression trees are unbounded.", "anchors": ["src/syntax/basic.syn: EXPR tables", "src/compiler/parser.cc"]}
{"id": "C41", "title": "Syntax table optimisation accepts the same language", "statement": "Merging, inlining, tail-calling and deleting syntax tables gives tables that accept the same inputs and emit the same code as before.", "quantifier": "All syntax tables and all inputs.", "why_tests_cant": "Grammars and inputs are unbounded.", "anchors": ["src/compiler/synt-optimize.cc", "src/compiler/synt-sm.cc: optimize, tail_call, inline_call, delete_call"]}
{"id": "C42", "title": "Syntax preprocessor keeps exactly the enabled lines", "statement": "Conditional blocks in syntax files keep the lines whose enclosing conditions all hold and drop all others, for any nesting.", "quantifier": "All files and all sets of defined symbols.", "why_tests_cant": "Nesting depth is unbounded.", "anchors": ["src/compiler/synt-preproc.cc"]}
{"id": "C43", "title": "Output file names are derived safely", "statement": "Replacing a file's extension keeps the directory and base name, never returns the input name unchanged for a different extension, and splitting a search path list and joining it gives back the list.", "quantifier": "All strings used as file names.", "why_tests_cant": "Dots and separators may appear at any position.", "anchors": ["src/compiler/os.cc: add_extension, get_extension_lower, file_name, dir_name, full_path", "src/compiler/main.cc: parse_path_list"]}
{"id": "C44", "title": "Jump threading follows chains to their end", "statement": "A jump to a jump is redirected to the final destination of the chain, which is reached by the original program in the same state.", "quantifier": "All programs, chains of any length.", "why_tests_cant": "Chains and cycles of jumps are unbounded.", "anchors": ["src/compiler/peephole.cc: replace_label_targets"]}
{"id": "C45", "title": "Unreachable code removal only removes unreachable code", "statement": "Code deleted after an unconditional transfer of control, up to the next label, is never executed in the original program.", "quantifier": "All programs and executions.", "why_tests_cant": "Reachability ranges over all executions.", "anchors": ["src/compiler/peephole.cc: rules 1384-1486"]}
{"id": "C46", "title": "Floating point constants are encoded as the nearest valid BCD number", "statement": "The six bytes emitted for a floating point constant are a valid BCD number (all digits 0 to 9, normalised in base 100) within half a unit in the last place of the value.", "quantifier": "All finite values within the representable range.", "why_tests_cant": "The value range is continuous; rounding up across a power of 100 happens rarely.", "anchors": ["src/compiler/atarifp.h: update, tobcd", "src/compiler/atarifp.cc: to_string"]}
{"id": "C47", "title": "Token usage order gives short codes to frequent tokens without clashes", "statement": "The statistics report counts each token and each token pair exactly as often as it occurs in the emitted code.", "quantifier": "All bytecode programs.", "why_tests_cant": "Programs are unbounded.", "anchors": ["src/compiler/codestat.cc"]}
{"id": "C48", "title": "Procedures follow the main program", "statement": "The emitted program consists of the main code, a final END, then the code of every procedure in order of definition, and no statement of a procedure is reached by falling through from the main code.", "quantifier": "All programs with any number and placement of procedures.", "why_tests_cant": "Definitions may be interleaved with main code arbitrarily.", "anchors": ["src/compiler/parser.h: full_code, new_proc_data"]}
{"id": "C49", "title": "Loops compile to code with the documented meaning", "statement": "The code emitted for IF/ELIF/ELSE, WHILE, REPEAT, DO, FOR and EXIT executes statements in the order the language defines, for every nesting.", "quantifier": "All structured programs of any size and all run-time states.", "why_tests_cant": "Structured programs are unbounded and loops may run any number of times.", "anchors": ["src/syntax/basic.syn: STATEMENT tables", "src/compiler/parser-actions.cc: SMB_E_PUSH_*, SMB_E_POP_*"]}
{"id": "C50", "title": "The 6502 interpreter carries out the meaning of the byte code", "statement": "For every program made of the arithmetic, comparison, logic, variable, memory, constant, string literal, jump, call, return and output tokens, placed in memory by the linker: from a machine state that represents a state of the byte code machine, each turn of the interpreter loop (fetch at cptr, dispatch through the jump table, the routine of the token) reaches a state that represents the next state of the byte code machine, with the same bytes sent to the same channels in the same order. So the machine ends exactly when the program ends, with the same output and memory, runs forever when it does, and there is only one such run.", "quantifier": "All programs of these tokens, all placements of run-time, code and variables that the linker file allows, all memories, worlds and handlers of the operating system that obey their contract, all numbers of steps; accesses inside the memory of the program and at most 40 values on the evaluation stack.", "why_tests_cant": "It covers every composition of tokens and the self-modifying pointers between them (operand bytes of cptr and sptr, carry into the high byte of cptr, stack index wrap, registers that one routine leaves for the next), in unbounded runs.", "anchors": ["src/interpreter.asm: next_instruction, pushAX, inc_cptr", "src/interp/*.asm: EXE_ routines", "src/deftok.inc", "src/standalone.asm", "compiler/fastbasic.cfg", "src/interp/print_str.asm", "src/interp/a800/putchar.asm"]}
{"id": "C52", "title": "The parser never reads code that is not there", "statement": "No input program makes the compiler's parser remove the last element of an empty code vector: compilation ends with a program or an error message, never in undefined behaviour of back() or pop_back().", "quantifier": "All source texts, both syntax table sets (integer and floating point).", "why_tests_cant": "Which code is present when an action runs depends on the whole path through the grammar, including alternatives that failed before.", "anchors": ["src/compiler/parser.h: remove_last", "src/compiler/parser.cc: parse_table", "src/compiler/parser-actions.cc", "src/syntax/*.syn"]}
{"id": "C53", "title": "Target files are read completely", "statement": "Reading a target file handles every line of it exactly once: comments and blank lines are skipped, each other line is split into its key and its arguments, and no word of a line is lost or joined with another.", "quantifier": "All target file contents, with any spacing, line lengths and end of file.", "why_tests_cant": "The result depends on every combination of separators and on how the last line ends; tests use the few target files of the distribution.", "anchors": ["src/compiler/target.cc: load", "src/compiler/target.cc: good_lines and word splitting"]}
{"id": "C54", "title": "The native compiler's memory areas survive growth", "statement": "The compiler that runs on the Atari keeps output, variable names, label names and label references in four areas one after the other. Taking n bytes at the end of one area moves the later areas up and keeps the contents of all of them; if that would reach the top of the memory it ends with the out of memory error and changes nothing.", "quantifier": "All contents and sizes of the areas, every n from 0 to 255, each area, any top of memory, both builds (integer and floating point).", "why_tests_cant": "The outcome depends on where each area is, on page crossings of the overlapping move and on the distance to the top of memory.", "anchors": ["src/alloc.asm: alloc_area_8", "src/interp/move.asm: move_dwn", "src/memptr.asm"]}
{"id": "C55", "title": "Number literals in the native compiler", "statement": "The native compiler reads a decimal or hexadecimal literal as its value modulo 65536 when it is at most 65535 in size, and refuses everything else; it reads the same literals as the cross compiler.", "quantifier": "All texts and positions in the line, all output buffer fill levels, both builds.", "why_tests_cant": "Literals of any length, every boundary of the shift-and-add loops and every following character matter.", "anchors": ["src/actions.asm: E_NUMBER_WORD, read_hex", "src/interp/a800/val.asm: read_word", "src/compiler/parser-actions.cc: get_number"]}
{"id": "C56", "title": "Name tables of the native compiler", "statement": "The tables of variable and label names of the native compiler hold exactly the names created, in order and with their types; looking a name up gives the number of its first entry (floating point variables take three numbers), creating a new name adds it at the end and changes nothing else, and creating a variable that exists fails.", "quantifier": "All tables, names and following texts, both builds, any free memory.", "why_tests_cant": "Names that are prefixes of others, tables crossing pages, and every combination of types and lengths.", "anchors": ["src/vars.asm: list_search, var_getlen, name_new", "src/actions.asm: E_VAR_CREATE, E_VAR_WORD, E_VAR_SEARCH, E_VAR_SET_TYPE, E_LABEL_CREATE"]}
{"id": "C57", "title": "Blocks of the native compiler", "statement": "The native compiler closes every loop, condition and procedure with its own start: the jump back goes to the place where the block started, every EXIT, every jump at the start of a FOR or WHILE, every condition, ELIF and ELSE goes to the code after the end (or after the next ELIF or ELSE), all moved by the relocation offset; an end that does not match the innermost block, an EXIT without a loop and more than 42 open blocks are errors; no other code is changed.", "quantifier": "All stacks of open blocks, all numbers of EXIT and ELIF, all fill levels of the output buffer, all relocation offsets, both builds.", "why_tests_cant": "The stack has 42 entries of nine types, EXIT inserts entries in the middle of it, and the places to fill in are anywhere in the code.", "anchors": ["src/actions.asm: push_codep, pop_codep, check_loop_exit, E_EXIT_LOOP, E_POP_WHILE, E_POP_LOOP, E_POP_FOR, E_POP_IF, pop_patch_codep, E_ELSEIF"]}
{"id": "C58", "title": "Labels of the native compiler", "statement": "In the native compiler every call of a procedure, before or after its definition, gets the address of the only definition of its label, moved by the relocation offset: a definition fills in all the calls before it, a call after it takes the address from the list, a second definition fails, tables move behind the code of each statement without changing this, and at the end of the program a call of a label without definition or an open block is an error; no other code is changed.", "quantifier": "All lists of records, all calls made so far, all labels, all stacks of open blocks, all fill levels of the output buffer and of the memory, all relocation offsets, both builds.", "why_tests_cant": "The list has any number of records of 255 labels, in any order, at any place of the memory; the search compares 16 bit addresses byte by byte and the records move at every statement.", "anchors": ["src/actions.asm: next_laddr, laddr_search_start, add_laddr_list, E_LABEL_DEF, E_DO_EXEC", "src/parse.asm: parse_eof, lbl_chk_nxt", "src/alloc.asm: alloc_prog"]}
{"id": "C59", "title": "String literals of the native compiler", "statement": "The text after an opening quote is compiled by the native compiler exactly if it is a string: characters up to a quote, two quotes standing for one, and after the closing quote any number of character codes in hexadecimal and further quoted parts. The output gets the length and the bytes of the string, the text goes on after the literal, a string that does not fit into the output buffer is an error, and every literal that the cross compiler accepts gives the same bytes.", "quantifier": "All rests of lines, all fill levels of the output buffer, all contents of memory, both builds.", "why_tests_cant": "Literals have any length and any mix of quotes, doubled quotes and codes, and the length byte is written after the bytes, at a place computed from the fill level.", "anchors": ["src/actions.asm: E_CONST_STRING, E_NUMBER_BYTE", "src/compiler/parser-actions.cc: get_const_string"]}
{"id": "C60", "title": "Lines read by the native compiler", "statement": "The native compiler takes the source line by line: each line goes to the line buffer with the letters outside of quotes in upper case and all other characters unchanged, the line number goes up by one, the source address moves to the next line, and no other memory is changed; after the last line the check of the end of the program follows.", "quantifier": "All lines of up to 255 characters, all source addresses behind the buffers, all line numbers, all contents of memory, both builds.", "why_tests_cant": "Every character is handled according to the number of quotes before it, and the address and the line number carry between their bytes at some lines only.", "anchors": ["src/parse.asm: parse_line, ucase_line"]}
{"id": "C61", "title": "Syntax tables in the native compiler", "statement": "The parser of the native compiler does with a statement what its syntax table means: the lines of a table are tried in order, small letters of a word may be cut short by a dot, a table that is called skips the blanks before it, output of a line that fails is undone and the text is taken again from the start of the line, and the first line that matches decides. The output is handed to alloc_prog; when no line matches, error 28 is given with the farthest place of a failure, and output over 255 bytes gives error 12. A colon after a statement starts another one, anything else the next line. A table means at most one result.", "quantifier": "All tables in the format of the syntax compiler, all texts of a line, all output so far, all routines in machine language that keep their contract, all addresses of tables and output, all contents of memory.", "why_tests_cant": "The tables call each other without bound, and the text and output to go back to are kept on the processor stack for each table entered.", "anchors": ["src/parse.asm: parse_start, parser_sub, ploop, match_char, pcall, pexit_ok, pexit_err, ploop_nextline, skip_nextline, parser_fetch"]}
{"id": "C62", "title": "Ends of statements and kept variables in the native compiler", "statement": "In the native compiler a statement ends, after blanks, at the end of the line, at a colon, which is left for the next statement, or at an apostrophe, after which the rest of the line is a comment; any other character is refused. A comment takes the line to its end from wherever it starts, also at the end of the line itself, and changes nothing but the position. Variables put aside for later come back last in, first out, over the end of their stack of 256 bytes too.", "quantifier": "All lines, positions and contents of memory, all variables kept, both builds.", "why_tests_cant": "A comment that starts at the end of the line is searched around the whole page of the line buffer, where leftovers of longer lines stand; and the stack of variables wraps around after some hundreds of statements only.", "anchors": ["src/actions.asm: E_REM, E_EOL, E_PUSH_VAR, E_POP_VAR"]}
