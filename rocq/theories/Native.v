(* The compiler that runs on the Atari itself (IDE and command line): memory areas, tables of
   names, numbers, labels and loops, from src/alloc.asm, src/vars.asm, src/actions.asm and
   src/parse.asm, instruction by instruction.  Each list is one source file.  Together with
   the run-time [rt] of Rt.v this is the program; "err_nomem" and "parser_error", which print
   a message and leave the compiler, are outside. *)
From Verif Require Export Rt.
Open Scope string_scope.
Open Scope list_scope.
Open Scope Z_scope.

Section Code.
Variable L : lay.
(* Start of the zero page cells of the compiler.  The linker puts the cells of each file after
   those of the file before, in the order of Makefile:181-186, 203: actions.asm, memptr.asm,
   parse.asm, vars.asm, alloc.asm; those of interpreter.asm come after. *)
Variable nz : Z.

(* src/actions.asm:111-116 *)
Definition reloc_addr : Z := nz.
Definition last_label_num : Z := nz + 2.
Definition laddr_search_num : Z := nz + 3.
(* src/memptr.asm:33-56; var_ptr is label_buf, label_ptr is laddr_buf, laddr_ptr is mem_end *)
Definition end_ptr : Z := nz + 4.
Definition prog_ptr : Z := nz + 6.
Definition var_buf : Z := nz + 8.
Definition label_buf : Z := nz + 10.
Definition laddr_buf : Z := nz + 12.
Definition mem_end : Z := nz + 14.
(* src/parse.asm:50-63 *)
Definition buf_ptr : Z := nz + 16.
Definition opos : Z := nz + 21.
Definition loop_sp : Z := nz + 24.
Definition var_sp : Z := nz + 25.
Definition label_count : Z := nz + 26.
Definition var_count : Z := nz + 27.
(* src/vars.asm:43-49 *)
Definition name : Z := nz + 28.
Definition var : Z := nz + 30.
Definition len : Z := nz + 32.
Definition search_count : Z := nz + 33.
(* src/alloc.asm:71-72 *)
Definition save_x : Z := nz + 34.

(* src/alloc.asm:86-160.  alloc_prog skips the first instruction of alloc_laddr by the opcode
   of BIT; the flags that this sets are not used, and it is a jump here. *)
Definition c_alloc : code :=
  [ Lb "alloc_prog"; In (LDA (Mem opos)); In (LDX (Imm 0)); In (STX (Mem opos)); In (JMP "alloc_area_8");
    Lb "alloc_laddr"; In (LDX (Imm 8));
    Lb "alloc_area_8"; In (STA (Mem (tmp1 L))); In CLC; In (ADC (Mem mem_end)); In TAY;
    In (LDA (Imm 0)); In (ADC (Mem (mem_end + 1)));
    In (CPY (Mem MEMTOP)); In (SBC (Mem (MEMTOP + 1))); In (Br CC "alloc.mem_ok"); In (JMP "err_nomem");
    Lb "alloc.mem_ok"; In (STX (Mem save_x));
    In (LDA (MemX prog_ptr)); In (STA (Mem move_source)); In (ADC (Mem (tmp1 L))); In (STA (Mem move_dest));
    In (LDA (MemX (prog_ptr + 1))); In (STA (Mem (move_source + 1))); In (ADC (Imm 0));
    In (STA (Mem (move_dest + 1)));
    In (LDA (Mem mem_end)); In SEC; In (SBC (MemX prog_ptr)); In PHA; In (LDA (Mem (mem_end + 1)));
    In (SBC (MemX (prog_ptr + 1))); In TAX; In PLA; In (JSR "move_dwn");
    In (LDX (Mem save_x));
    Lb "alloc.loop"; In CLC; In (LDA (MemX prog_ptr)); In (ADC (Mem (tmp1 L))); In (STA (MemX prog_ptr));
    In (Br CC "alloc.skip"); In (INC (MemX (prog_ptr + 1)));
    Lb "alloc.skip"; In INX; In INX; In (CPX (Imm 10)); In (Br NE "alloc.loop"); In RTS ].

(* src/vars.asm:57-236.  The `.byte $2C` that skips the two PLA is a jump; so is the .ifdef for
   floating point, where fp says if it is defined. *)
Definition c_vars (fp : bool) : code :=
  [ Lb "check_char"; In (CMP (Imm 48)); In (Br CC "ret_sec"); In (CMP (Imm 58)); In (Br CC "check.exit");
    Lb "check.first"; In (CMP (Imm 95)); In (Br EQ "ret_clc"); In (SBC (Imm 64)); In (CMP (Imm 26));
    Lb "check.exit"; In RTS;
    Lb "label_search"; In (LDY (Mem label_count)); In (LDX (Imm 4)); In (Br NE "list_search");
    Lb "var_search"; In (LDX (Imm 2)); In (LDY (Mem var_count));
    Lb "list_search"; In (STY (Mem search_count)); In (LDA (MemX prog_ptr)); In (STA (Mem var));
    In (LDA (MemX (prog_ptr + 1))); In (STA (Mem (var + 1))); In (JSR "var_getlen");
    In (LDX (Imm 255)); In (Br NE "search.start");
    Lb "search.loop"; In (LDY (Imm 0));
    Lb "search.cmp"; In (LDA (IndY var)); In (EOR (IndY name)); In ASLa; In (Br NE "search.skip");
    In INY; In (Br CC "search.cmp"); In (CPY (Mem len)); In (Br NE "search.next");
    In (LDA (IndY var));
    Lb "ret_clc"; In CLC; In RTS;
    Lb "search.skip"; In (LDA (IndY var)); In ASLa; In INY; In (Br CC "search.skip");
    Lb "search.next"; In (JMP (if fp then "search.fp" else "search.no_float"));
    Lb "search.fp"; In (LDA (IndY var)); In (Br PL "search.no_float"); In INX; In INX; Lb "search.no_float";
    In TYA; In SEC; In (ADC (Mem var)); In (STA (Mem var)); In (Br CC "search.start"); In (INC (Mem (var + 1)));
    Lb "search.start"; In INX; In (CPX (Mem search_count)); In (Br NE "search.loop");
    Lb "ret_sec"; In SEC; In RTS;
    Lb "var_getlen"; In (JSR "SKBLANK"); In (LDA (IndY INBUFF)); In (JSR "check.first");
    In TYA; In (LDY (Imm 0)); In (Br CS "getlen.exit_2");
    In (ADC (Mem INBUFF)); In (STA (Mem name)); In (LDA (Mem (INBUFF + 1))); In (ADC (Imm 0)); In (STA (Mem (name + 1)));
    Lb "getlen.next"; In (INC (Mem CIX)); In INY; In (LDA (IndY name)); In (JSR "check_char"); In (Br CC "getlen.next");
    In (CMP (Imm 46)); In (Br EQ "getlen.exit_2"); In (JMP "getlen.end");
    Lb "getlen.exit_2"; In DropRet;
    Lb "getlen.end"; In (STY (Mem len)); In SEC; In RTS;
    Lb "name_new"; In (LDA (MemX prog_ptr)); In (STA (Mem var)); In (LDA (MemX (prog_ptr + 1))); In (STA (Mem (var + 1)));
    In (LDA (Mem len)); In (Br EQ "getlen.exit_2"); In CLC; In (ADC (Imm 1)); In (JSR "alloc_area_8");
    In (LDY (Mem len)); In (LDA (Imm 0)); In (STA (IndY var)); In DEY; In (LDA (Imm 128));
    Lb "name_new.loop"; In (ORA (IndY name)); In (STA (IndY var)); In (LDA (Imm 0)); In DEY; In (Br PL "name_new.loop");
    In RTS ].

(* src/parse.asm:121-151, 159, 164-173: the end of the program and the output of the parser; 39 is
   ERR_NO_ELOOP, src/errors.asm:26-39 *)
Definition c_emit : code :=
  [ Lb "rts1"; In RTS;
    Lb "parser_emit_byte"; In (LDY (Mem opos)); In (STA (IndY prog_ptr));
    Lb "parser_inc_opos"; In (INC (Mem opos)); In (Br NE "rts1"); In (LDY (Imm 12)); In (JMP "parser_error");
    Lb "lbl_chk_nxt"; In (LDA (IndY laddr_buf)); In (Br EQ "parser_error");
    In (LDA (Mem laddr_buf)); In (ADC (Imm 4)); In (STA (Mem laddr_buf)); In (Br CC "parse_eof"); In (INC (Mem (laddr_buf + 1)));
    Lb "parse_eof"; In (LDY (Imm 1)); In (LDA (Mem laddr_buf)); In (CMP (Mem mem_end)); In (LDA (Mem (laddr_buf + 1)));
    In (SBC (Mem (mem_end + 1))); In (Br NE "lbl_chk_nxt"); In (LDY (Imm 39)); In (LDA (Mem loop_sp)); In (Br NE "parser_error");
    In CLC; In (JMP "parser_emit_byte") ].

(* src/actions.asm:105-108 *)
Definition loop_stk : Z := 1024.
Definition var_stk : Z := 1152.

(* src/actions.asm:122-292, 314-378, 414-859, without E_NUMBER_FP.  `.byte $2C`, which skips the
   next instruction, and the .ifdef for floating point are jumps. *)
Definition c_actions (fp : bool) : code :=
  [ Lb "get_last_tok"; In (DEC (Mem opos)); In (LDY (Mem opos)); In (LDA (IndY prog_ptr)); In RTS;
    Lb "get_codep"; In (LDA (Mem prog_ptr)); In (LDX (Mem (prog_ptr + 1))); In CLC; In (ADC (Mem opos));
    In (Br CC "codep.ok"); In INX; In CLC; Lb "codep.ok"; In RTS;
    Lb "E_REM"; In (LDY (Mem CIX));
    Lb "rem.loop"; In INY; In (LDA (IndY INBUFF)); In (CMP (Imm 155)); In (Br NE "rem.loop"); In (STY (Mem CIX));
    Lb "rem.ok"; In CLC; In RTS;
    Lb "E_EOL"; In (JSR "SKBLANK"); In (LDA (IndY INBUFF)); In (CMP (Imm 155)); In (Br EQ "rem.ok");
    In (CMP (Imm 39)); In (Br EQ "rem.loop"); In (CMP (Imm 58)); In (Br EQ "rem.ok");
    Lb "eol.xit"; In SEC; Lb "eol.ret"; In RTS;
    Lb "E_NUMBER_WORD"; In (JSR "SKBLANK"); In (LDA (IndY INBUFF)); In (EOR (Imm 36)); In (Br EQ "read_hex");
    In (JSR "read_word"); In (Br CS "eol.ret");
    In (JMP (if fp then "number.fp" else "number.emit"));
    Lb "number.fp"; In (STA (Mem (tmp1 L))); In (LDA (IndY INBUFF)); In (CMP (Imm 46)); In (Br EQ "eol.xit");
    In (LDA (Mem (tmp1 L)));
    Lb "number.emit"; In (STY (Mem CIX)); In (JMP "emit_AX");
    Lb "read_hex"; In (STA (Mem (tmp1 L))); In (STA (Mem (tmp1 L + 1))); In TAX;
    Lb "hex.nloop"; In INY; In (LDA (IndY INBUFF)); In (EOR (Imm 48)); In (CMP (Imm 10)); In (Br CC "hex.digit");
    In (SBC (Imm 119)); In (CMP (Imm 250)); In (Br CC "hex.xit");
    Lb "hex.digit"; In ASLa; In ASLa; In ASLa; In ASLa; In (LDX (Imm 3));
    Lb "hex.1"; In ASLa; In (ROL (Mem (tmp1 L))); In (ROL (Mem (tmp1 L + 1))); In (Br CS "eol.xit"); In DEX;
    In (Br PL "hex.1"); In (Br MI "hex.nloop");
    Lb "hex.xit"; In INX; In (Br NE "eol.xit"); In (LDA (Mem (tmp1 L))); In (LDX (Mem (tmp1 L + 1)));
    In (Br CC "number.emit");
    Lb "E_NUMBER_BYTE"; In (JSR "E_NUMBER_WORD"); In (Br CS "byte.xit"); In (DEC (Mem opos)); In (CPX (Imm 1));
    Lb "byte.xit"; In RTS;
    Lb "E_CONST_STRING"; In (LDX (Imm 0)); In (JSR "parser_emit_byte"); In (STY (Mem (tmp2 L)));
    Lb "string.nloop"; In (LDY (Mem CIX)); In (LDA (IndY INBUFF)); In (CMP (Imm 34)); In (Br EQ "string.eos");
    In (CMP (Imm 155)); In (Br EQ "string.xrts");
    Lb "string.store"; In (JSR "parser_emit_byte");
    Lb "string.incb"; In (INC (Mem CIX)); In INX; In (Br NE "string.nloop");
    Lb "string.eos"; In INY; In (LDA (IndY INBUFF)); In (INC (Mem CIX)); In (CMP (Imm 34)); In (Br EQ "string.store");
    Lb "string.chk"; In (EOR (Imm 36)); In (Br EQ "string.cbyte"); In (LDY (Mem (tmp2 L))); In TXA;
    In (STA (IndY prog_ptr)); In CLC; Lb "string.xrts"; In RTS;
    Lb "string.cbyte"; In (STX (Mem (tmp2 L + 1))); In (JSR "read_hex"); In (Br CS "string.xrts"); In (DEC (Mem opos));
    In (LDX (Mem (tmp2 L + 1))); In (LDY (Mem CIX)); In (LDA (IndY INBUFF)); In (CMP (Imm 34)); In (Br EQ "string.incb");
    In INX; In (Br NE "string.chk");
    Lb "E_VAR_SEARCH"; In (JSR "get_last_tok"); In (JMP "var_word.1");
    Lb "E_VAR_WORD"; In (LDA (Imm 1)); Lb "var_word.1"; In (STA (Mem (tmp3 L))); In (JSR "var_search");
    In (Br CS "var_word.exit"); In (CMP (Mem (tmp3 L))); In (Br EQ "emit_varn");
    Lb "var_word.not_found"; In SEC; Lb "var_word.exit"; In RTS;
    Lb "E_VAR_CREATE"; In (JSR "var_search"); In (Br CC "var_word.not_found"); In (LDX (Imm 4)); In (JSR "name_new");
    In (LDX (Mem var_count)); In (INC (Mem var_count));
    Lb "emit_varn"; In TXA; In CLC; In (JMP "parser_emit_byte");
    Lb "E_VAR_SET_TYPE"; In (JSR "get_last_tok");
    In (JMP (if fp then "var_type.fp" else "var_type.no_float"));
    Lb "var_type.fp"; In (Br PL "var_type.no_float"); In (INC (Mem var_count)); In (INC (Mem var_count));
    Lb "var_type.no_float"; In (LDY (Imm 255)); In (DEC (Mem (label_buf + 1))); In (STA (IndY label_buf)); In (INC (Mem (label_buf + 1)));
    In LSRa; In RTS;
    Lb "E_LABEL_SET_TYPE"; In (JSR "get_last_tok"); In (LDY (Imm 255)); In (DEC (Mem (laddr_buf + 1)));
    In (STA (IndY laddr_buf)); In (INC (Mem (laddr_buf + 1))); In RTS;
    Lb "next_laddr"; In (LDA (Mem (tmp1 L))); In (ADC (Imm 4)); In (Br CC "laddr.comp"); In (INC (Mem (tmp1 L + 1)));
    Lb "laddr.comp"; In (STA (Mem (tmp1 L))); In (CMP (Mem mem_end)); In (LDA (Mem (tmp1 L + 1)));
    In (SBC (Mem (mem_end + 1))); In (Br CS "laddr.xit");
    In (LDY (Imm 0)); In (LDA (IndY (tmp1 L))); In (EOR (Mem laddr_search_num)); In (Br NE "next_laddr"); In INY;
    In (LDA (IndY (tmp1 L))); In PHP; In INY; In (LDA (IndY (tmp1 L))); In TAX; In INY; In (LDA (IndY (tmp1 L))); In PLP;
    Lb "laddr.xit"; In RTS;
    Lb "laddr_search_start"; In (LDA (Mem laddr_buf)); In (LDY (Mem (laddr_buf + 1))); In (STY (Mem (tmp1 L + 1)));
    In (STX (Mem laddr_search_num)); In (Br NE "laddr.comp");
    Lb "add_laddr_list"; In PHA; In (LDA (Mem mem_end)); In (STA (Mem (tmp2 L))); In (LDA (Mem (mem_end + 1)));
    In (STA (Mem (tmp2 L + 1))); In (LDA (Imm 4)); In (JSR "alloc_laddr");
    In (LDY (Imm 0)); In (LDA (Mem laddr_search_num)); In (STA (IndY (tmp2 L))); In PLA; In INY; In (STA (IndY (tmp2 L)));
    In (JSR "get_codep"); In (LDY (Imm 3)); In (STA (IndY (tmp2 L))); In DEY; In TXA; In (STA (IndY (tmp2 L))); In RTS;
    Lb "E_LABEL_DEF"; In (LDA (Imm 1)); In (JSR "push_codep"); In (LDX (Mem last_label_num)); In (JSR "laddr_search_start");
    In (Br CS "def.nfound");
    Lb "def.cloop"; In (Br MI "xit_label_err"); In (JSR "patch_codep"); In TYA; In (STA (IndY (tmp1 L)));
    In (JSR "next_laddr"); In (Br CC "def.cloop");
    Lb "def.nfound"; In (LDA (Imm 128)); In (Br MI "add_laddr_list");
    Lb "E_LABEL"; In (JSR "get_last_tok"); In (STA (Mem (tmp3 L))); In (JSR "label_search"); In (Br CS "label.xit");
    In (CMP (Mem (tmp3 L))); In (Br EQ "label.start");
    Lb "xit_label_err"; In SEC; Lb "label.xit"; In RTS;
    Lb "E_DO_EXEC"; In (LDX (Mem last_label_num));
    Lb "label.start"; In (JSR "laddr_search_start"); In (Br CS "label.nfound");
    Lb "label.cloop"; In (Br MI "emit_addr"); In (JSR "next_laddr"); In (Br CC "label.cloop");
    Lb "label.nfound"; In (LDA (Imm 0)); In (JSR "add_laddr_list"); In (Br CC "emit_addr"); In RTS;
    Lb "E_LABEL_CREATE"; In (JSR "label_search"); In (STX (Mem last_label_num)); In (Br CC "create.ret");
    In (LDX (Imm 6)); In (JSR "name_new"); In (INC (Mem label_count)); In CLC; Lb "create.ret"; In RTS;
    Lb "pop_emit_addr"; In (JSR "pop_codep");
    Lb "emit_addr"; In (ADC (Mem reloc_addr)); In PHA; In TXA; In (ADC (Mem (reloc_addr + 1))); In TAX; In PLA;
    Lb "emit_AX"; In CLC; In (JSR "parser_emit_byte"); In TXA; In (JMP "parser_emit_byte");
    Lb "E_PUSH_VAR"; In (JSR "get_last_tok"); In (LDX (Mem var_sp)); In (STA (MemX var_stk)); In (INC (Mem var_sp)); In RTS;
    Lb "E_POP_VAR"; In (DEC (Mem var_sp)); In (LDX (Mem var_sp)); In (LDA (MemX var_stk)); In (JMP "parser_emit_byte");
    Lb "E_PUSH_LT"; In (JSR "get_last_tok");
    Lb "push_codep"; In (LDY (Mem loop_sp));
    Lb "push_codep_y"; In INY; In INY; In INY; In (Br MI "loop_error"); In (STY (Mem loop_sp));
    In (STA (MemY (loop_stk - 3))); In PHA; In (JSR "get_codep"); In (STA (MemY (loop_stk - 2))); In TXA;
    In (STA (MemY (loop_stk - 1))); In PLA; In ASLa; In (Br MI "push.xit");
    Lb "inc_opos_2"; In (JSR "parser_inc_opos"); In (JSR "parser_inc_opos");
    Lb "push.xit"; In CLC; In RTS;
    Lb "loop_error"; In (LDY (Imm 20)); In (JMP "parser_error");
    Lb "pop_codep"; In (LDY (Mem loop_sp)); In (Br EQ "loop_error");
    Lb "pop.retry"; In (CMP (MemY (loop_stk - 3))); In (Br EQ "pop.get"); In (CMP (Imm 130)); In (Br NE "loop_error");
    In (LDA (Imm 129)); In (Br NE "pop.retry");
    Lb "pop.get"; In DEY; In DEY; In DEY; In (STY (Mem loop_sp)); In (LDX (MemY (loop_stk + 2)));
    In (LDA (MemY (loop_stk + 1))); Lb "pop.rtsclc"; In CLC; In RTS;
    Lb "E_POP_PROC_2"; In (LDA (Imm 64)); In (JSR "pop_codep");
    Lb "check_loop_exit"; In (LDY (Mem loop_sp)); In (Br EQ "pop.rtsclc"); In (LDA (MemY (loop_stk - 3)));
    In (Br NE "pop.rtsclc"); In (JSR "pop.get"); In (JSR "patch_codep"); In (JMP "check_loop_exit");
    Lb "E_EXIT_LOOP"; In (LDY (Mem loop_sp)); In TYA;
    Lb "exit.retry"; In DEY; In DEY; In DEY; In (Br MI "loop_error"); In (LDX (MemY loop_stk)); In (Br MI "exit.retry");
    In (CPX (Imm 2)); In (Br CC "loop_error"); In (STY (Mem laddr_search_num)); In (ADC (Imm 2)); In (Br MI "loop_error");
    In PHA; In TAY;
    Lb "exit.move"; In DEY; In (LDA (MemY (loop_stk - 3))); In (STA (MemY loop_stk)); In (CPY (Mem laddr_search_num));
    In (Br NE "exit.move"); In (LDA (Imm 0)); In (JSR "push_codep_y"); In PLA; In (STA (Mem loop_sp)); In RTS;
    Lb "E_POP_WHILE"; In (LDA (Imm 128)); In (JSR "inc_opos_2"); In (JSR "pop_patch_codep"); In (LDA (Imm 67));
    In (DEC (Mem opos)); In (DEC (Mem opos)); In (JSR "pop_emit_addr"); In (JMP "check_loop_exit");
    Lb "E_POP_LOOP"; In (LDA (Imm 65)); In (JMP "repeat.1");
    Lb "E_POP_REPEAT"; In (LDA (Imm 66)); Lb "repeat.1"; In (JSR "pop_emit_addr"); In (JMP "check_loop_exit");
    Lb "E_POP_FOR"; In (DEC (Mem opos)); In (LDA (Imm 192)); In (JSR "pop_emit_addr"); In (LDA (Imm 2));
    In (JSR "pop_patch_codep"); In (JMP "check_loop_exit");
    Lb "E_POP_IF"; In (LDA (Imm 130));
    Lb "if.check_elif"; In (JSR "pop_patch_codep"); In (LDY (Mem loop_sp)); In (Br EQ "if.no_elif"); In (LDA (Imm 131));
    In (CMP (MemY (loop_stk - 3))); In (Br EQ "if.check_elif"); Lb "if.no_elif"; In CLC; In RTS;
    Lb "E_POP_PROC_DATA"; In (LDA (Imm 1));
    Lb "pop_patch_codep"; In (JSR "pop_codep");
    Lb "patch_codep"; In (STA (Mem (tmp2 L))); In (STX (Mem (tmp2 L + 1))); In (JSR "get_codep"); In (LDY (Imm 0));
    In (ADC (Mem reloc_addr)); In (STA (IndY (tmp2 L))); In INY; In TXA; In (ADC (Mem (reloc_addr + 1)));
    In (STA (IndY (tmp2 L))); In CLC; In RTS;
    Lb "E_ELSEIF"; In (LDA (Imm 129)); In (JSR "pop_codep"); In PHA; In (STX (Mem (tmp1 L + 1))); In (JSR "E_PUSH_LT");
    In PLA; In (LDX (Mem (tmp1 L + 1))); In (Br NE "patch_codep") ].
End Code.

(* the modelled part of the native compiler *)
Definition native (fp : bool) (L : lay) (nz : Z) : list code :=
  rt L ++ [ c_alloc L nz; c_vars nz fp; c_emit nz; c_actions L nz fp ].
