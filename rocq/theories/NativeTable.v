(* The loop over the syntax tables in the compiler that runs on the Atari, src/parse.asm, instruction by
   instruction. *)
From Verif Require Export NativeParse.
Open Scope string_scope.
Open Scope list_scope.
Open Scope Z_scope.

Section Code.
Variable nz : Z.
(* where SM_TABLE_ADDR is, how many of its entries are for routines in machine language, PARSE_START: these
   come from the tool that makes the tables *)
Variables tab na start : Z.
Notation pptr := (pptr nz).
Notation opos := (opos nz).
Notation bmax := (bmax nz).
(* src/parse.asm:153-164, 261-453; 28 is ERR_PARSE, src/errors.asm:26-39.  Code that falls through to code of
   [c_emit] is a jump.  Left out: the check of the processor stack in lines 273 to 275 (error 12 when less
   than 16 bytes are left).  Simplified: call_ax1 (lines 388-392), which jumps to the address in A and X by
   RTS, is outside of this code; what runs there is given as code with this label. *)
Definition c_table : code :=
  [ Lb "parser_fetch"; In (INC (Mem pptr)); In (Br NE "fetch.1"); In (INC (Mem (pptr + 1)));
    Lb "fetch.1"; In (LDY (Imm 0)); In (LDA (IndY pptr)); In RTS;
    Lb "emit_sub"; In (JSR "parser_fetch"); In (JMP "parser_emit_byte");
    Lb "parse_start"; In (LDX (Imm (start mod 256))); In (LDY (Imm (start / 256)));
    Lb "parser_sub"; In PHA; In (LDA (Mem pptr)); In PHA; In (STX (Mem pptr)); In (STY (Mem (pptr + 1))); In (JSR "SKBLANK");
    Lb "ploop_line"; In (LDA (Mem CIX)); In PHA; In (LDA (Mem opos)); In PHA;
    Lb "ploop"; In (JSR "parser_fetch");
    Lb "ploop_nofetch"; In (Br MI "pcall"); In (CMP (Imm 31));
    Lb "ploop_tax"; In TAX; In (Br CS "match_char"); In (Br EQ "pexit_err"); In DEX; In (Br EQ "pexit_ok"); In DEX; In (Br EQ "pemit_ret");
    Lb "pemit"; In (JSR "emit_sub"); In DEX; In (Br NE "pemit"); In (Br EQ "ploop");
    Lb "match_char"; In (LDY (Mem CIX)); In (CMP (Imm 97)); In (Br CC "match"); In (LDA (Imm 46)); In (CMP (IndY INBUFF));
    In (Br EQ "matched_dot"); In TXA; In (EOR (Imm 32));
    Lb "match"; In (CMP (IndY INBUFF)); In (Br NE "ploop_nextline"); In (INC (Mem CIX)); In (Br NE "ploop");
    Lb "pcall"; In ASLa; In TAY; In (LDA (MemY (tab + 1))); In (LDX (MemY tab)); In (CPY (Imm (2 * na))); In (Br CC "pcall_ml");
    In TAY; In (LDA (Mem (pptr + 1))); In (Br CS "parser_sub");
    Lb "pemit_ret"; In (JSR "emit_sub");
    Lb "pexit_ok"; In PLA; In PLA; In PLA; In (STA (Mem pptr)); In PLA; In (STA (Mem (pptr + 1))); In (Br NE "ploop");
    In (JSR "alloc_prog");
    Lb "parsed"; In (LDY (Mem CIX)); In (INC (Mem CIX)); In (LDA (IndY INBUFF)); In (EOR (Imm 58)); In (Br EQ "parse_start");
    In (JMP "parse_line");
    Lb "pcall_ml"; In (JSR "call_ax1"); In (Br CC "ploop"); In (Br CS "ploop_nextline");
    Lb "matched_dot"; In INY; In (STY (Mem CIX));
    Lb "skip_chars"; In (JSR "parser_fetch"); In (Br MI "ploop_nofetch"); In (CMP (Imm 31)); In (Br CS "skip_chars"); In (Br CC "ploop_tax");
    Lb "pexit_err"; In PLA; In PLA; In PLA; In (STA (Mem pptr)); In PLA; In (Br EQ "set_parse_error"); In (STA (Mem (pptr + 1)));
    Lb "ploop_nextline"; In (LDY (Mem CIX)); In (CPY (Mem bmax)); In (Br CC "next.1"); In (STY (Mem bmax));
    Lb "next.1"; In PLA; In (STA (Mem opos)); In PLA; In (STA (Mem CIX)); In (LDY (Imm 0));
    Lb "skip_nextline"; In INY; In (LDA (IndY pptr)); In (CMP (Imm 31)); In (Br CS "skip_nextline"); In TAX;
    In DEX; In (Br EQ "go_ploop"); In DEX; In (Br EQ "skip_ret");
    Lb "skip_token"; In INY; In DEX; In (Br NE "skip_token"); In (Br EQ "skip_nextline");
    Lb "skip_ret"; In INY;
    Lb "go_ploop"; In TYA; In (ADC (Mem pptr)); In (STA (Mem pptr)); In (Br CC "go.1"); In (INC (Mem (pptr + 1)));
    Lb "go.1"; In (JMP "ploop_line");
    Lb "set_parse_error"; In (LDY (Imm 28)); In (JMP "parser_error") ].
End Code.

(* the loop with the routines that it uses, and any code for the routines of the table; the memory allocation
   and the reading of lines, to where the loop leaves, are in [nline] *)
Definition ntable (nz tab na start : Z) (acts : list code) : list code := [ c_rom; c_emit nz; c_table nz tab na start ] ++ acts.
