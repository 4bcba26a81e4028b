{
 "claims": [
  {
   "property": "C01",
   "status": "partial",
   "theorems": [
    "C01_optimizer_partial",
    "C01_optimizer_colours_partial",
    "C01_optimizer_refuted",
    "C01_instances_refuted"
   ],
   "note": "Whole optimizer, all programs and runs. False as stated: wrong rule instances (<= 32637/32767, constant MOD 0, channel -1, wrong traced colour, CHR$ under a colour) are excluded and each is refuted by a program."
  },
  {
   "property": "C02",
   "status": "partial",
   "theorems": [
    "C02_folding_partial",
    "C02_machine",
    "C02_unary",
    "C02_compare_zero",
    "C02_folding_refuted"
   ],
   "note": "All operands; false for constant x MOD 0 with |x| >= 256, refuted."
  },
  {
   "property": "C03",
   "status": "partial",
   "theorems": [
    "C03_less_equal_partial",
    "C03_less_equal_refuted",
    "C03_greater_equal",
    "C03_not_zero",
    "C03_zero",
    "C03_negated",
    "C03_rules"
   ],
   "note": "False for x <= 32767 and x <= 32637 (peephole.cc:1230), refuted; proved for all other constants."
  },
  {
   "property": "C04",
   "status": "proved",
   "theorems": [
    "C04_branches",
    "C04_targets",
    "C04_labels"
   ],
   "note": "All rules on jumps, calls and returns, jump threading, label removal."
  },
  {
   "property": "C05",
   "status": "partial",
   "theorems": [
    "C05_pass_ends",
    "C05_no_exception",
    "C05_passes_end_partial",
    "C05_terminates_refuted"
   ],
   "note": "Each pass ends; the repetition of passes ends without jump cycles; it does not end for three procedures calling each other in tail position."
  },
  {
   "property": "C06",
   "status": "proved",
   "theorems": [
    "C06_labels"
   ],
   "note": ""
  },
  {
   "property": "C07",
   "status": "proved",
   "theorems": [
    "C07_expand",
    "C07_shorten",
    "C07_short"
   ],
   "note": ""
  },
  {
   "property": "C08",
   "status": "proved",
   "theorems": [
    "C08_split",
    "C08_fuse_push",
    "C08_fuse_store"
   ],
   "note": ""
  },
  {
   "property": "C09",
   "status": "partial",
   "theorems": [
    "C09_size_partial",
    "C09_size_refuted"
   ],
   "note": "False in general, refuted by a 7 byte program; proved bound: four times the size."
  },
  {
   "property": "C10",
   "status": "partial",
   "theorems": [
    "C10_channel_partial",
    "C10_channel_refuted"
   ],
   "note": "False for a selection of channel -1, refuted."
  },
  {
   "property": "C11",
   "status": "partial",
   "theorems": [
    "C11_character",
    "C11_byte",
    "C11_strings",
    "C11_single",
    "C11_length",
    "C11_colour_refuted"
   ],
   "note": "Joining is right when the traced colour is the colour in use; the trace is wrong for colours computed at run time, refuted."
  },
  {
   "property": "C12",
   "status": "proved",
   "theorems": [
    "C12_mul"
   ],
   "note": "All operands and memories, from the 6502 code of mul.asm."
  },
  {
   "property": "C13",
   "status": "proved",
   "theorems": [
    "C13_div"
   ],
   "note": "From the 6502 code of div.asm, including division by 0 and -32768/-1."
  },
  {
   "property": "C14",
   "status": "proved",
   "theorems": [
    "C14_mod"
   ],
   "note": "From the 6502 code of div.asm."
  },
  {
   "property": "C15",
   "status": "proved",
   "theorems": [
    "C15_binary",
    "C15_unary",
    "C15_logic"
   ],
   "note": ""
  },
  {
   "property": "C16",
   "status": "proved",
   "theorems": [
    "C16_compare",
    "C16_compare_not"
   ],
   "note": "<= and >= as the two routines the compiler emits for them."
  },
  {
   "property": "C17",
   "status": "proved",
   "theorems": [
    "C17_for",
    "C17_values",
    "C17_no_overflow_check"
   ],
   "note": "Any body that keeps the control variable and the loop data; also loops that never end because the overflow is not detected."
  },
  {
   "property": "C18",
   "status": "proved",
   "theorems": [
    "C18_inc_dec"
   ],
   "note": "Variables outside the interpreter's own code."
  },
  {
   "property": "C19",
   "status": "proved",
   "theorems": [
    "C19_order"
   ],
   "note": "Strings outside the scratch cells of the interpreter; the result compares with 0 as the strings do."
  },
  {
   "property": "C20",
   "status": "proved",
   "theorems": [
    "C20_assign",
    "C20_append",
    "C20_self"
   ],
   "note": "Destination with its own block or with a new one from the allocator; out of memory stops the program."
  },
  {
   "property": "C21",
   "status": "proved",
   "theorems": [
    "C21_part"
   ],
   "note": "Source string clear of the result buffer or starting in it."
  },
  {
   "property": "C22",
   "status": "partial",
   "theorems": [
    "C22_move",
    "C22_nmove_partial",
    "C22_nmove_short",
    "C22_nmove_refuted"
   ],
   "note": "MOVE for every length; -MOVE for lengths up to 65280. For longer blocks the claim is false: C22_nmove_short shows that only n - 65280 bytes are copied."
  },
  {
   "property": "C23",
   "status": "proved",
   "theorems": [
    "C23_mset"
   ],
   "note": ""
  },
  {
   "property": "C24",
   "status": "proved",
   "theorems": [
    "C24_dim",
    "C24_disjoint"
   ],
   "note": "Also the blocks of string variables."
  },
  {
   "property": "C25",
   "status": "partial",
   "theorems": [
    "C25_val_partial",
    "C25_val_refuted",
    "C25_val5_partial",
    "C25_val5_refuted"
   ],
   "note": "Atari 8-bit VAL: exact result and error flag for every text up to 127 characters; longer strings are cut by the line buffer (C25_val_refuted, 128 characters). The ROM routine SKBLANK is modelled after its documentation. Atari 5200 VAL: exact result for all strings; false for texts that end with their only digit, which are refused, and for a sign alone, which is taken for 0 (C25_val5_refuted)."
  },
  {
   "property": "C26",
   "status": "partial",
   "theorems": [
    "C26_str",
    "C26_back_partial",
    "C26_back_refuted"
   ],
   "note": "STR$ of the Atari 5200 is the shortest decimal form, for all integers. VAL gives it back for all integers but -9 to 9, where the 5200 VAL refuses the single digit (C26_back_refuted). STR$ of the Atari 8-bit calls the floating point ROM and is not modelled."
  },
  {
   "property": "C27",
   "status": "proved",
   "theorems": [
    "C27_range",
    "C27_even",
    "C27_any",
    "C27_zero"
   ],
   "note": "For every n from 1 to 32767 and every stream of bytes (finite, then zeros; a stream on which the loop never ends is thereby excluded). C27_even gives the exact distribution."
  },
  {
   "property": "C28",
   "status": "proved",
   "theorems": [
    "C28_nothing_lost",
    "C28_lines"
   ],
   "note": "For every file; exact lines and line numbers for every mixture of well formed lines."
  },
  {
   "property": "C29",
   "status": "partial",
   "theorems": [
    "C29_decimal_partial",
    "C29_hexadecimal",
    "C29_only",
    "C29_refuted"
   ],
   "note": "All literals of any length except -0, which is refused (C29_refuted)."
  },
  {
   "property": "C30",
   "status": "proved",
   "theorems": [
    "C30_literal",
    "C30_long_listing",
    "C30_short_listing",
    "C30_adjacent_refuted"
   ],
   "note": "C30_adjacent_refuted: two literals side by side are merged in the short listing."
  },
  {
   "property": "C31",
   "status": "partial",
   "theorems": [
    "C31_faithful_partial",
    "C31_refuted"
   ],
   "note": "All elements; strings of at most 255 characters, longer ones are refused by the assembler (C31_refuted)."
  },
  {
   "property": "C32",
   "status": "proved",
   "theorems": [
    "C32_short_listing"
   ],
   "note": ""
  },
  {
   "property": "C33",
   "status": "proved",
   "theorems": [
    "C33_excerpt"
   ],
   "note": ""
  },
  {
   "property": "C34",
   "status": "partial",
   "theorems": [
    "C34_unique",
    "C34_targets_partial",
    "C34_refuted"
   ],
   "note": "No loop label is defined twice, for every program. Every jump of a loop has a target defined exactly once in every program where no failed alternative of the syntax tables opens or closes a loop. Without that condition it is false: WHILEA=\"x\"=\"y\" leaves WEND with a jump to a label that is not defined."
  },
  {
   "property": "C35",
   "status": "partial",
   "theorems": [
    "C35_exit_partial",
    "C35_words"
   ],
   "note": "For every program that compiles and in which no failed alternative has opened or closed a loop (clean), the code of the main program and of each procedure is that of a tree of loops and conditionals in which every EXIT jumps to the end of the innermost loop of its tree, or to the end of its procedure. Missing: programs that are not clean (C34_refuted is such a program)."
  },
  {
   "property": "C36",
   "status": "partial",
   "theorems": [
    "C36_placed",
    "C36_disjoint",
    "C36_same_slot",
    "C36_operand",
    "C36_byte_partial",
    "C36_byte_refuted"
   ],
   "note": "Places, sizes, stability and operands for all programs and both sets of tables. The operand byte is unique up to 256 words of variables; the compiler accepts more and then two variables share the byte (C36_byte_refuted)."
  },
  {
   "property": "C37",
   "status": "partial",
   "theorems": [
    "C37_parameters_partial",
    "C37_refuted",
    "C37_call_partial",
    "C37_definition",
    "C37_agree",
    "C37_takes"
   ],
   "note": "Proved for arbitrary tables and programs: in a compiled program all calls and definitions of one name have the same number of parameters, in any order, unless the name is made a DATA label (C37_parameters_partial). For the real tables: at every call the number checked is the number of argument expressions in the text, and the code before the CALL pushes exactly their values (C37_call_partial; arguments with floating point operations are left out); at every definition it is the number of parameter names in the text (C37_definition); so calls and definition agree in the text (C37_agree), and the code after the label of the procedure pops exactly that many values into the named variables, last one first (C37_takes). C37_refuted: EXEC X followed by DATA X()=... is accepted, so the call has no procedure."
  },
  {
   "property": "C38",
   "status": "partial",
   "theorems": [
    "C38_alternative_partial",
    "C38_failure_partial",
    "C38_adds",
    "C38_refuted"
   ],
   "note": "For the compiler's tables: the alternative that matches started at the same input, listing and code as the table, and a table that fails leaves all of these as they were, provided no procedure or data block was started or ended by the failed alternatives. C38_refuted: without that proviso it is false, PROCX=1 opens a procedure and is then compiled into it as an assignment. Missing: symbol tables (variables, labels, loops) are not restored by the code and the theorem does not say they are; table DATA_FILE, which takes its caller's code, is excluded."
  },
  {
   "property": "C39",
   "status": "proved",
   "theorems": [
    "C39_depth",
    "C39_ends",
    "C39_left_recursion"
   ],
   "note": "All tables and all inputs."
  },
  {
   "property": "C40",
   "status": "partial",
   "theorems": [
    "C40_expr_partial",
    "C40_condition_partial",
    "C40_string_partial",
    "C40_precedence_partial",
    "C40_precedence_refuted"
   ],
   "note": "Every text accepted by EXPR, FORCE_BOOL_EXPR and STR_EXPR (both table sets, any parser state) is an expression of the grammar in SpecExpr.v and its code computes the value of the tree and keeps the stack, for every run-time library. Precedence is refuted for a comparison that follows AND/OR ending in a comparison of strings. Not given a value: floating point code, USR, ASC of a literal, @@PRINT_COLOR."
  },
  {
   "property": "C41",
   "status": "partial",
   "theorems": [
    "C41_same_partial",
    "C41_compiler",
    "C41_merged",
    "C41_refuted",
    "C41_self_refuted"
   ],
   "note": "For every list of tables with lines in which no deleted table is called where it alone skips blanks, merged or not, every text parsed before is parsed with the same result after, and what is parsed after is parsed before if more tables may be open. With the compiler's own tables the optimized tables compile every program exactly as before (C41_compiler). Missing: the limit of 200 open tables is reached later after merging. False for empty tables between literals and for tables without lines (C41_refuted); a table that only its own last line uses is undefined behaviour (C41_self_refuted)."
  },
  {
   "property": "C42",
   "status": "partial",
   "theorems": [
    "C42_lines_partial",
    "C42_kept",
    "C42_newlines",
    "C42_refuted"
   ],
   "note": "Lines whose conditions all hold are always kept and the number of lines never changes. Exactly the other lines are dropped when no condition holds inside a dropped block; otherwise it is false: the inner block ends the outer one."
  },
  {
   "property": "C43",
   "status": "partial",
   "theorems": [
    "C43_extension_partial",
    "C43_refuted",
    "C43_header",
    "C43_different",
    "C43_distinct",
    "C43_paths",
    "C43_list",
    "C43_join",
    "C43_directory",
    "C43_file_name"
   ],
   "note": "Proved when the last dot is after the last separator, or there is no dot. False for a dot in a directory name with no extension: src.d/prog becomes src.o."
  },
  {
   "property": "C44",
   "status": "proved",
   "theorems": [
    "C44_threaded",
    "C44_same_state"
   ],
   "note": ""
  },
  {
   "property": "C45",
   "status": "proved",
   "theorems": [
    "C45_dead",
    "C45_all"
   ],
   "note": ""
  },
  {
   "property": "C46",
   "status": "partial",
   "theorems": [
    "C46_nearest_partial",
    "C46_text",
    "C46_carry",
    "C46_refuted",
    "C46_ends"
   ],
   "note": "For every double from 1E-99 to below 1E98 that is not within half a unit below a power of 100, the bytes are a normalised decimal number within 1/2 + 1/100000 units (product and quotient are rounded once each before llrint), and the listing prints exactly the value of the bytes. False just below a power of 100: the first byte is $A0 (C46_carry, C46_refuted). The ends of the range are C46_ends: 1E98 is accepted and encoded as 9.99E99. Missing: the reading of the constant from the source text (std::pow), which is an argument of the parser model."
  },
  {
   "property": "C47",
   "status": "partial",
   "theorems": [
    "C47_tokens",
    "C47_pairs_partial",
    "C47_pairs_refuted"
   ],
   "note": "Tokens counted exactly; pairs never over-counted and exact for constant operands, but not counted after other operands (C47_pairs_refuted)."
  },
  {
   "property": "C48",
   "status": "partial",
   "theorems": [
    "C48_shape_partial",
    "C48_exists"
   ],
   "note": "The code is main program, END, then the vectors of all procedures and data once each, in order of their first line, and no procedure is open at the end. Missing: vectors with the same first line come in an order that std::sort leaves unspecified; a vector touched by a failed alternative holds filler cells of line 0."
  },
  {
   "property": "C49",
   "status": "partial",
   "theorems": [
    "C49_meaning_partial",
    "C49_tree"
   ],
   "note": "For every clean program the code is that of a tree, and in every run-time environment and from every memory the code ends if and only if the tree ends, with the same effects, memory and world, and everything seen while it runs (also when it never ends) is what the tree does up to some point. Missing: programs that are not clean, and programs that call the name of DATA (C37_refuted)."
  },
  {
   "property": "C50",
   "status": "proved",
   "theorems": [
    "C50_step",
    "C50_run",
    "C50_ends",
    "C50_forever",
    "C50_one_run",
    "C50_end_stops"
   ],
   "note": "The loop of interpreter.asm and every routine of the tokens named, instruction by instruction. Outside: the operating system (a handler with a contract), the tokens GET, GETKEY, CHR$, string index and the library tokens, wrapping of the 256-byte hardware stack."
  },
  {
   "property": "C52",
   "status": "proved",
   "theorems": [
    "C52_defined"
   ],
   "note": "For both table sets and every program; a static check of the tables (height of the code above the start of each table) is proved sound and evaluated on the tables."
  },
  {
   "property": "C53",
   "status": "partial",
   "theorems": [
    "C53_words",
    "C53_key",
    "C53_lines_partial",
    "C53_refuted"
   ],
   "note": "All lines that end in a newline are handled, with the words separated as written. False for a last line without newline: it is lost."
  },
  {
   "property": "C54",
   "status": "proved",
   "theorems": [
    "C54_alloc"
   ],
   "note": "alloc_area_8 with move_dwn, instruction by instruction, for both builds. The tables end at most at 65280 and the output buffer is at 1024 or higher."
  },
  {
   "property": "C55",
   "status": "partial",
   "theorems": [
    "C55_number_word",
    "C55_number_byte",
    "C55_agrees_partial",
    "C55_refuted",
    "C55_source"
   ],
   "note": "What E_NUMBER_WORD and E_NUMBER_BYTE read is proved completely. Agreement with the cross compiler is proved for texts in upper case without plus sign, -0 or decimal point after the digits; false for +1 and -0, which only the native compiler reads. E_NUMBER_FP is not modelled. C55_source: every number of the cross compiler in the source, in upper or lower case, is read with the same value after the line reader."
  },
  {
   "property": "C56",
   "status": "partial",
   "theorems": [
    "C56_create_partial",
    "C56_number_variable",
    "C56_variable",
    "C56_type",
    "C56_label_partial",
    "C56_refuted"
   ],
   "note": "Proved for names of at most 129 characters, followed by a character that is no point and no name character in inverse video, and fewer than 255 numbers in use. False for names of 130 characters or more: the copy loop ends at once."
  },
  {
   "property": "C57",
   "status": "proved",
   "theorems": [
    "C57_open",
    "C57_loop",
    "C57_while",
    "C57_for",
    "C57_endif",
    "C57_else",
    "C57_exit",
    "C57_proc",
    "C57_mismatch"
   ],
   "note": "Each action of the native compiler at the start or the end of a block, for every stack of open blocks. Which action runs at which statement is the syntax table, not this property. Places to fill in are assumed to be in the code written so far and apart from one another, as the actions that open blocks make them."
  },
  {
   "property": "C58",
   "status": "proved",
   "theorems": [
    "C58_call",
    "C58_define",
    "C58_twice",
    "C58_statement",
    "C58_end"
   ],
   "note": "An invariant over the records and the calls made so far, kept by each action, and what it says at the end of the program. Which action runs at which statement is the syntax table, not this property; a statement that is tried, calls a label and is then refused leaves a record, which is outside of the invariant's list of calls."
  },
  {
   "property": "C59",
   "status": "partial",
   "theorems": [
    "C59_string",
    "C59_agrees_partial",
    "C59_refuted",
    "C59_source"
   ],
   "note": "What E_CONST_STRING reads and writes is proved completely. Every literal of the cross compiler (in upper case outside of quotes, as the line buffer has it, C60) is read with the same bytes; the converse is false: the native compiler takes the low byte of codes over $FF, which the cross compiler refuses. C59_source: the same for a string in the source, through the line reader."
  },
  {
   "property": "C60",
   "status": "proved",
   "theorems": [
    "C60_line",
    "C60_end"
   ],
   "note": "INTLBUF of the ROM is modelled as setting INBUFF to LBUFF. Lines of more than 127 characters are written past the end of LBUFF, as in the code; a line of more than 255 characters without end is not covered."
  },
  {
   "property": "C61",
   "status": "proved",
   "theorems": [
    "C61_parse",
    "C61_next",
    "C61_one"
   ],
   "note": "The routines in machine language are given by a premise on the code at call_ax1. The check of the processor stack (error 12 when less than 16 bytes are left) is left out of the model. A table that calls itself without end has no meaning in the specification and the theorem says nothing about it."
  },
  {
   "property": "C62",
   "status": "proved",
   "theorems": [
    "C62_rem",
    "C62_eol",
    "C62_push",
    "C62_pop"
   ],
   "note": "The ROM routine SKBLANK is modelled after its documentation. More than 256 variables kept at once are not covered; the stack then forgets the first."
  }
 ]
}
