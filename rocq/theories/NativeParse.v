(* The parser of the compiler that runs on the Atari, src/parse.asm: the reading of lines of the
   source, instruction by instruction; the loop over the syntax tables is in NativeTable.v. *)
From Verif Require Export Native.
Open Scope string_scope.
Open Scope list_scope.
Open Scope Z_scope.

Section Code.
Variable nz : Z.
(* src/parse.asm:51-52, 58 *)
Definition bmax : Z := nz + 18.
Definition pptr : Z := nz + 19.
Definition linenum : Z := nz + 22.

(* src/parse.asm:202-258, with a jump to the code that follows; INTLBUF is in [c_rom] *)
Definition c_line : code :=
  [ Lb "parse_line"; In (LDX (Imm 0)); In (STX (Mem CIX)); In (STX (Mem bmax));
    In (LDA (Mem (buf_ptr nz))); In (CMP (Mem (end_ptr nz))); In (LDA (Mem (buf_ptr nz + 1))); In (SBC (Mem (end_ptr nz + 1)));
    In (Br CS "parse_eof");
    In (INC (Mem linenum)); In (Br NE "line.1"); In (INC (Mem (linenum + 1)));
    Lb "line.1"; In (JSR "INTLBUF"); In (LDY (Imm 255));
    Lb "ucase.loop"; In INY; In (LDA (IndY (buf_ptr nz)));
    Lb "ucase.redo"; In (STA (IndY INBUFF)); In (CMP (Imm 155)); In (Br EQ "ucase.end");
    In (CMP (Imm 34)); In (Br NE "ucase.skip"); In TXA; In (EOR (Imm 1)); In TAX;
    Lb "ucase.skip"; In (CPX (Imm 1)); In (Br EQ "ucase.loop"); In (SBC (Imm 96)); In (CMP (Imm 26)); In (Br CS "ucase.loop");
    In (ADC (Imm 65)); In (Br CC "ucase.redo");
    Lb "ucase.end"; In TYA; In (ADC (Mem (buf_ptr nz))); In (STA (Mem (buf_ptr nz))); In (Br CC "line.2"); In (INC (Mem (buf_ptr nz + 1)));
    Lb "line.2"; In (LDA (Imm 0)); In (JMP "parse_start") ].
End Code.

(* the native compiler up to the syntax tables *)
Definition nline (fp : bool) (L : lay) (nz : Z) : list code := native fp L nz ++ [ c_line nz ].
