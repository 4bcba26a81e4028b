# FastBasic: formal model and proofs

Source: `/repo` (dmsc/fastbasic, C++ cross-compiler and 6502 run-time).  The code is
read as text only.  All models and proofs are in Rocq/Coq 8.16.1, under
`rocq/theories`, logical name `Verif`.

## Trusted base

* Coq's kernel, and the standard library.
* What `Print Assumptions` prints under each theorem of the `Thm*.v` files.  No axiom is
  added by this development.
* The transcription of C++ and 6502 source into Gallina.  Every definition of a model
  file names the file and lines it models and the simplifications made.
* The meaning given to 6502 instructions (`Cpu.v`) and to C++ integer conversions
  (16-bit wrap for `int16_t`).

## Layout

| Part | Files | Models |
|------|-------|--------|
| A. bytecode | `Codew.v`, `Vm.v` | code elements of `codew.h`; meaning of bytecode |
| B. optimizer | `Peephole*.v` | all of `peephole.cc` |
| C. run-time | `Cpu.v` (processor), `Rt.v` (routines), `CpuWp.v` (program logic), `RtArith.v` `RtCmp.v` `RtMul.v` `RtDiv.v` `RtFor.v` `RtMem.v` `RtStr*.v` `RtCopy.v` `RtFill.v` `RtRand.v` `RtVal.v` (proofs), `Rt5.v` `Rt5Str.v` `Rt5Val.v` (Atari 5200), `RtLoop.v` (interpreter loop, output), `SpecLoop.v` (specification), `Loop*.v` (proofs) | `interpreter.asm`, 6502 routines of `src/interp` |
| D. source text | `Text.v` (model), `SpecText.v` (specification), `TextPf.v` `TextAsm.v` `TextList.v` (proofs); `Fp.v` (model), `SpecFp.v` (specification), `FpRound.v` `FpPf.v` `FpText.v` (proofs) | `atarifp.h`, `atarifp.cc`, `readLine`, number and string literals, listings, assembler text, error excerpts, `codestat.cc` |
| E. front end | `Front.v` (parser), `Tables.v` (generated from `src/syntax/*.syn`), `SpecFront.v` `SpecExpr.v` `SpecCall.v` (specification), `Front*.v` `Peg.v` `Expr*.v` (proofs) | `parser.cc`, `parser.h`, `parser-actions.cc`, `looptype.cc`, `vartype.cc`, parts of `compile.cc`, all syntax tables (integer and floating point) |
| F. syntax tool, host | `Tools.v`, `Synt.v` (model), `SpecSynt.v` (specification), `SyntPf.v` `SyntMerge.v` `SyntDel.v` `SyntAll.v` (proofs) | `synt-optimize.cc` and its functions of `synt-sm.cc`, `synt-preproc.cc`, name functions of `os.cc`, header name of `syntp.cc`, path list of `main.cc`, line and word splitting of `target.cc` |
| G. native compiler | `Native.v` `NativeParse.v` `NativeTable.v` (model), `SpecNative.v` `SpecLit.v` `SpecBlock.v` `SpecLabel.v` `SpecString.v` `SpecLine.v` `SpecTable.v` (specification), `CpuSub.v` `NativeAlloc.v` `NativeNum.v` `NativeName.v` `NativeVar.v` `NativeLit.v` `NativeBlock.v` `NativeBlock2.v` `NativeLabel.v` `NativeLabel2.v` `NativeString.v` `NativeLine.v` `NativeTablePf.v` (proofs) | the compiler that runs on the Atari: `alloc.asm`, `vars.asm`, the actions of `actions.asm`, reading of lines, the loop over the syntax tables, output and end of program of `parse.asm`, instruction by instruction |
| theorems | `Thm*.v` | statements of the properties, each closed by a lemma, with examples |

`Thm*.v` files hold the property theorems; the specification of each is stated there or
in a `Spec*.v` file without using helpers of the model.

## Modelling decisions

### Bytecode meaning (`Vm.v`)

A program is the list of code elements (`codew`).  The machine has the accumulator
(`AX`), the store address (`saddr`), an evaluation stack, byte memory, the I/O channel,
the print colour, an output trace and an abstract outside world.  `AX` and `saddr` may be
*undefined*: instructions that leave unspecified values in them make them undefined, and
instructions that need them get stuck.  A run that gets stuck is outside the theorem.
The following are stuck on purpose, because the compiler never emits code doing them and
the optimizer relies on that: conditional jumps and logical operators on values other
than 0 and 1; passing a label, or returning from a procedure, with a channel or colour
other than 0; using `MOD 0`.  Literal strings and one-character strings are values, not
addresses, so the place where the assembler puts a literal is not observable.
Instructions that the optimizer does not mention are an arbitrary function of the
machine state (the same for both programs).

### Optimizer (`Peephole*.v`)

Every rule is transcribed with the same index arithmetic as the source (`del`, `set_w`,
`copy`, ...).  The main loop is a zipper: elements before `i`, elements from `i` on.  The
loop records which rules were applied with which tracked colour or channel.  Rules that
are wrong for some constants are transcribed as they are; the correctness theorem assumes
that no wrong instance was recorded, and separate `_refuted` theorems show a program for
which each wrong instance changes the behaviour.

### 6502 (`Cpu.v`)

Deep embedding: instruction type with addressing modes, registers A, X, Y, flags C, Z, N,
V, memory as a total function on addresses 0..65535, program as a list of instructions
with symbolic labels.  Routines are transcribed instruction by instruction.  Decimal mode
and interrupts are not modelled; self-modifying operands are replaced by the variable
they stand for.

### Native compiler (`Native.v`)

The same 6502 model.  The zero page cells of the compiler start at an arbitrary `nz`; the
build option `FASTBASIC_FP` is the parameter `fp`, and code skipped with a BIT opcode is a
jump.  The labels `err_nomem` and `parser_error`, which print a message and leave the
compiler, are outside: a theorem says that the run gets there.  Not modelled: the check
of the processor stack and the jump by RTS to a routine in the loop over the syntax tables,
the contents of the tables, the editor, `E_NUMBER_FP` and reading of files.  The ROM routine `INTLBUF` is a stub in the model that sets `INBUFF` to the line buffer.

## Plan per property

| Id | Model | Proof |
|----|-------|-------|
| C01 | A, B | forward simulation for each rule, composed over passes by induction; full statement false (see findings), proved for runs whose recorded rule instances are sound |
| C02 | B, C | folding functions equal the arithmetic specification, which the 6502 routines are proved to compute |
| C03 | B | case split on the boundary constant, arithmetic; 32767 / 32637 case refuted |
| C04 | A, B | part of the simulation, stated for the control-flow rules alone |
| C05 | B | measure for one pass; non-termination of the repeat loop on a jump cycle refutes the full statement |
| C06 | B | invariant through every rule: referenced labels are a subset of defined ones, labels stay unique |
| C07 | B | value-preservation of the two passes over all programs |
| C08 | A, B | simulation for the splitting and fusing passes |
| C09 | B | byte-size measure per rule; counterexample if a rule can grow the code |
| C10 | A, B | invariant relating the traced channel to the machine's channel |
| C11 | A, B | output equality for joined prints; wrong tracked colour refuted |
| C12 | C | loop invariant of the shift-and-add loop |
| C13, C14 | C | loop invariant of the restoring division, sign handling |
| C15, C16 | C | symbolic execution, arithmetic |
| C17 | C | invariant over iterations using the `FOR`/`FOR_NEXT` code |
| C18 | C | symbolic execution |
| C19 - C21 | C | loop invariants over string bytes in memory |
| C22, C23 | C | loop invariants over pages and bytes |
| C24 | C | invariant over allocation sequences |
| C25 | C | loop invariant over the characters, decimal digit lists; false beyond 127 characters (refuted) |
| C26 | C | Atari 5200 `STR$`: loop invariant of the division by ten, digit lists; reading back single digits refuted |
| C27 | C | loop invariant for any stream of random bytes; `C27_zero`: RAND(0) gives 0 |
| C28 | D | induction over the file |
| C29 | D | induction over digits; literal `-0` is refused (refuted) |
| C30 | D | the parser accepts exactly the literals of an inductive definition; round trip of both listings; two literals side by side are merged by the short listing (refuted) |
| C31 | D | round trip with a reader for assembler lines; strings over 255 characters refuted |
| C32 | D | induction over statements |
| C33 | D | arithmetic of the excerpt window |
| C34 | E | `C34_unique` (weight of each label over code and open loops, every program), `C34_targets_partial` (a static check of what the code ends with, and an invariant kept while no failed alternative opens or closes a loop), `C34_refuted` by `WHILEA="x"="y"` |
| C35 | E | `C35_exit_partial`: the code of every part of a clean program is that of a tree (SpecStruct.v) in which EXIT jumps to the end of the innermost loop or of its procedure; `C35_words`: that jump is what the word EXIT emits. A static check of the tables gives the order of the actions of each statement |
| C36 | E | invariants kept by every action of the parser, for any tables; a static check of the tables gives the exact layout; 257 variables share bytes (refuted) |
| C37 | E | `C37_parameters_partial` (invariant over the trace of actions, arbitrary tables), `C37_call_partial`, `C37_definition`, `C37_agree` (the numbers checked are those of the expressions and names in the text, SpecCall.v), `C37_takes` (the code of the start of a procedure pops them into its variables), `C37_refuted` (a called name made a DATA label) |
| C38 | E | `C38_alternative_partial`, `C38_failure_partial`, `C38_adds`: soundness of a static height check of the tables, induction over fuel; `C38_refuted` by `PROCX=1` |
| C39 | E | measure on levels and on the rest of the line, for arbitrary tables |
| C40 | A, E | the expression tables as a grammar (Peg.v, proved equal to the parser); by induction on the parser's depth every accepted text has a tree in the grammar of SpecExpr.v and the emitted code computes its value in Vm.v, for both table sets, all states and all run-times that satisfy `library`; the tree follows the precedence of operators (`bound`), but a comparison after AND/OR ending in a comparison of strings takes the whole as its operand (refuted with a witness). Floating point code, USR, ASC of a literal: no value given |
| C41 | F | `C41_same_partial` (any tables with lines, blanks condition): each step of the merge replaces a line that is only a call by the lines of the table, an invariant over both loops says that kept tables call no deleted one; empty tables by simulation of lines; `C41_compiler` (exact, tables of the compiler), `C41_merged` (with merging); `C41_refuted`: deleting an empty table changes the blanks accepted, a table without lines is deleted as if it accepted all; `C41_self_refuted`: a table joined to itself is undefined behaviour |
| C42 | F | `C42_lines_partial`: induction over lines when no condition holds inside a dropped block; `C42_kept`, `C42_newlines` for all inputs; `C42_refuted`: a condition that holds inside a dropped block ends the dropping early |
| C43 | F | `C43_extension_partial`, `C43_header`, `C43_different`, `C43_distinct`, `C43_paths`, `C43_list`, `C43_join`, `C43_directory`, `C43_file_name`: string lemmas; `C43_refuted`: `src.d/prog` becomes `src.o` |
| C44, C45 | A, B | part of the simulation |
| C46 | D | `C46_nearest_partial`, `C46_text`, `C46_carry`, `C46_ends`, `C46_refuted`: the encoder on binary64 numbers (SpecFloat of the standard library); rounding of product and quotient bounded in the rationals (FpRound.v), loop over the table of powers by induction; a number within half a unit below a power of 100 gets the byte `$A0` (refuted) |
| C47 | D | counting by induction; pairs after a variable operand are not counted (refuted) |
| C48 | E | `C48_shape_partial`, `C48_exists`: invariant on the open procedures over the run of the parser |
| C49 | A, E | `C49_meaning_partial`, `C49_tree`: big-step meaning of the trees of C35 (SpecStruct.v), with an outcome for a run cut at any point; both directions by simulation with the machine of Vm.v (StructRun.v by induction on the meaning, StructBack.v by induction on the number of steps) |
| C50 | A, C | `C50_step`, `C50_run`, `C50_ends`, `C50_forever`, `C50_one_run`, `C50_end_stops`: the loop of `interpreter.asm` and the output routines (RtLoop.v) added to the routines of Rt.v; SpecLoop.v says when a 6502 state represents a state of Vm.v and what the linker and the operating system promise; one simulation lemma per token (Loop*.v), runs by induction on the number of steps. The hardware stack is a list, so its wrap after 256 bytes is not modelled. The proof showed that `PUSH` loses AX (`pushAX` ends with the high byte in A); Vm.v says so now |
| C52 | E | `C52_defined`: the same height check, evaluated on both table sets |
| C53 | F | `C53_words`, `C53_key`, `C53_lines_partial`: induction over the text; `C53_refuted`: the last line is lost when it does not end in a newline |
| C54 | G | `C54_alloc`: symbolic execution with the proof of `move_dwn` (C22) used through `CpuSub.v` (a routine proved for a smaller program holds in a larger one) |
| C55 | G, D | `C55_number_word`, `C55_number_byte`: loop invariants; `C55_agrees_partial`: the literals are those of `get_number`; `C55_refuted`: `+1` and `-0` are read by the native compiler only; `C55_source`: numbers in the source, in upper or lower case, through the line reader of C60 |
| C56 | G | `C56_create_partial`, `C56_number_variable`, `C56_variable`, `C56_type`, `C56_label_partial`: induction over the table and the name; `C56_refuted`: a name of 130 characters is not stored |
| C57 | G | `C57_open`, `C57_loop`, `C57_while`, `C57_for`, `C57_endif`, `C57_else`, `C57_exit`, `C57_proc`, `C57_mismatch`: the stack of open blocks as a list; induction over the exits, over the ELIFs, over the search for the innermost loop and over the move of the stack |
| C58 | G | `C58_call`, `C58_define`, `C58_twice`, `C58_statement`, `C58_end`: the list of records and the calls made so far, an invariant that each action keeps; induction over the list for the search, for the addresses filled in and for the check at the end |
| C59 | G, D | `C59_string`: the literal as an inductive relation (`SpecString.v`), induction over the length of the text with the two loops of `E_CONST_STRING`; `C59_agrees_partial`: literals of `get_const_string` are read alike; `C59_refuted`: `"x"$141` is taken by the native compiler only; `C59_source`: strings in the source, through the line reader of C60, by induction over the literal of the cross compiler |
| C60 | G | `C60_line`: invariant of the loop of `ucase_line` (the part of the line before Y is copied, X is the parity of its quotes); `C60_end`: a run of the program without the line reader is one with it (`run_wider`) |
| C61 | G | the meaning of a table as two inductive relations, ordered choice (`SpecTable.v`); `C61_parse`: mutual induction over them, with the code that returns from a table as continuation and an invariant for text, output, farthest failure and unchanged memory; `C61_next`: the separator; `C61_one`: a table means at most one result |
| C62 | G | `C62_rem`: induction over the distance to an end of line, modulo 256, so that a comment at the end of the line is covered; `C62_eol`: cases of the character after the blanks; `C62_push`, `C62_pop`: the stack as a list, at addresses modulo 256 |
