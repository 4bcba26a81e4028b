(* The integer routines of the run-time, src/interpreter.asm and src/interp, instruction by
   instruction.  Each list is one source file; [rt] is the program.  The label
   "next_instruction", where the interpreter reads the next token, is outside the program.
   The code without NO_SMCODE is modelled (Atari 8-bit).

   Memory layout, from compiler/fastbasic.cfg and src/interpreter.asm: the INTERP segment is
   at $80, the evaluation stack at $480, the line buffer at $580.  The zero page variables
   are anywhere in their segment, $9C to $D3. *)
From Verif Require Export Cpu.
Open Scope string_scope.
Open Scope list_scope.
Open Scope Z_scope.

(* addresses chosen by the linker *)
Record lay := mklay {
  zp : Z;     (* src/interpreter.asm:54-66, the zero page variables *)
  saddr : Z;  (* src/interp/saddr.asm:35-36 *)
  aptr : Z;   (* src/standalone.asm:36 array_ptr *)
  smc : Z;    (* cells of operands changed by the code, in the RUNTIME segment *)
  heap : Z    (* compiler/fastbasic.cfg:55 __HEAP_RUN__, page aligned *)
}.
(* compiler/fastbasic.cfg:31-57 *)
Definition apart (a n b m : Z) : Prop := a + n <= b \/ b + m <= a.
Definition lay_ok (L : lay) : Prop :=
  156 <= zp L /\ zp L + 10 <= 212 /\ 156 <= saddr L /\ saddr L + 2 <= 212 /\
  156 <= aptr L /\ aptr L + 2 <= 212 /\
  apart (zp L) 10 (saddr L) 2 /\ apart (zp L) 10 (aptr L) 2 /\ apart (saddr L) 2 (aptr L) 2 /\
  8192 <= smc L /\ smc L + 32 <= heap L /\ heap L + 512 <= 48160 /\ heap L mod 256 = 0.

(* src/interpreter.asm:54-66 *)
Notation tmp1 L := (zp L).
Notation tmp2 L := (zp L + 2).
Notation tmp3 L := (zp L + 4).
Notation divmod_sign L := (zp L + 6).
Notation IOCHN L := (zp L + 7).
Notation IOERROR L := (zp L + 8).
Notation PRINT_COLOR L := (zp L + 9).
(* src/interpreter.asm:103-139, the operands inside the code of the INTERP segment, $80 to $9B *)
Definition cptr : Z := 131.
Definition sptr : Z := 142.
Definition move_source : Z := 147.
Definition move_dest : Z := 150.
Definition move_ins : Z := 152.
(* src/interpreter.asm:70-84 *)
Definition stack_l : Z := 1152.
Definition stack_h : Z := 1192.
(* src/interp/a800/input.asm:37 *)
Definition line_buf : Z := 1408.
(* Addresses of the Atari OS: MEMTOP, CIX, INBUFF *)
Definition MEMTOP : Z := 741.
Definition CIX : Z := 242.
Definition INBUFF : Z := 243.

Section Code.
Variable L : lay.

(* src/interpreter.asm:104-106 the first instruction, and 207-214 pushAX *)
Definition c_interp : code :=
  [ Lb "next_ins_incsp"; In (INC (Mem sptr)); In (JMP "next_instruction");
    Lb "pushAX"; In (STA (MemY (stack_l - 1))); In TXA; In (STA (MemY (stack_h - 1)));
    In (DEC (Mem sptr)); In RTS ].
(* src/interpreter.asm:124-132 *)
Definition c_move_loop : code :=
  [ Lb "move_loop"; In (LDA (SmW move_source)); In (STA (SmW move_dest)); In (SmDey move_ins);
    In (Br NE "move_loop"); In RTS ].
(* src/interp/negax.asm:35-46 *)
Definition c_negax : code :=
  [ Lb "neg_AX"; In CLC; In (EOR (Imm 255)); In (ADC (Imm 1)); In PHA; In TXA;
    In (EOR (Imm 255)); In (ADC (Imm 0)); In TAX; In PLA; In RTS ].
(* src/interp/addsub.asm:35-47 *)
Definition c_addsub : code :=
  [ Lb "EXE_SUB"; In (JSR "neg_AX");
    Lb "EXE_ADD"; In CLC; In (ADC (MemY stack_l)); In PHA; In TXA; In (ADC (MemY stack_h)); In TAX;
    In PLA; In (JMP "next_ins_incsp") ].
(* src/interp/absneg.asm:35-40 *)
Definition c_absneg : code :=
  [ Lb "EXE_ABS"; In (CPX (Imm 0)); In (Br PL "absneg.xit");
    Lb "EXE_NEG"; In (JSR "neg_AX"); Lb "absneg.xit"; In (JMP "next_instruction") ].
(* src/interp/bitand.asm:35-43, bitor.asm:35-43, bitexor.asm:35-43 *)
Definition c_bit : code :=
  [ Lb "EXE_BIT_AND"; In (AND (MemY stack_l)); In PHA; In TXA; In (AND (MemY stack_h)); In TAX;
    In PLA; In (JMP "next_ins_incsp");
    Lb "EXE_BIT_OR"; In (ORA (MemY stack_l)); In PHA; In TXA; In (ORA (MemY stack_h)); In TAX;
    In PLA; In (JMP "next_ins_incsp");
    Lb "EXE_BIT_EXOR"; In (EOR (MemY stack_l)); In PHA; In TXA; In (EOR (MemY stack_h)); In TAX;
    In PLA; In (JMP "next_ins_incsp") ].
(* src/interp/land.asm:35-38, lor.asm:35-38, lnot.asm:34-37 *)
Definition c_logic : code :=
  [ Lb "EXE_L_AND"; In (AND (MemY stack_l)); In (JMP "next_ins_incsp");
    Lb "EXE_L_OR"; In (ORA (MemY stack_l)); In (JMP "next_ins_incsp");
    Lb "EXE_L_NOT"; In (EOR (Imm 1)); In (JMP "next_instruction") ].
(* src/interp/sgn.asm:34-46 *)
Definition c_sgn : code :=
  [ Lb "EXE_SGN"; In (CPX (Imm 0)); In (Br MI "sgn.neg"); In (Br NE "sgn.pos"); In TAX;
    In (Br EQ "sgn.xit");
    Lb "sgn.pos"; In (LDA (Imm 1)); In (LDX (Imm 0)); In (Br EQ "sgn.xit");
    Lb "sgn.neg"; In (LDA (Imm 255)); In TAX;
    Lb "sgn.xit"; In (JMP "next_instruction") ].
(* src/interp/ushl.asm:34-42, shl8.asm:34-38 *)
Definition c_shift : code :=
  [ Lb "EXE_USHL"; In ASLa; In TAY; In TXA; In ROLa; In TAX; In TYA; In (JMP "next_instruction");
    Lb "EXE_SHL8"; In TAX; In (LDA (Imm 0)); In (JMP "next_instruction") ].
(* src/interp/comp0.asm:36-66 *)
Definition c_comp0 : code :=
  [ Lb "pushXX_set0"; In (LDY (Mem sptr)); In TXA;
    Lb "EXE_PUSH_0"; In (JSR "pushAX");
    Lb "EXE_0"; In (LDA (Imm 0)); In TAX; In (JMP "next_instruction");
    Lb "EXE_PUSH_1"; In (JSR "pushAX");
    Lb "EXE_1"; In (LDA (Imm 1)); In (LDX (Imm 0)); In (JMP "next_instruction");
    Lb "EXE_COMP_0"; In TAY; In (Br NE "EXE_1"); In TXA; In (Br NE "EXE_1");
    In (JMP "next_instruction") ].
(* src/interp/mul.asm:35-71 *)
Definition c_mul : code :=
  [ Lb "EXE_MUL"; In (STA (Mem (tmp3 L)));
    In (LDA (MemY stack_h)); In LSRa; In (STA (Mem (tmp1 L + 1))); In (LDA (MemY stack_l)); In RORa;
    In (STA (Mem (tmp1 L)));
    In (LDA (Imm 0)); In (STA (Mem (tmp2 L + 1))); In (LDY (Imm 16));
    Lb "mul.L0"; In (Br CC "mul.L1");
    In CLC; In (ADC (Mem (tmp3 L))); In (STA (Mem (tmp2 L)));
    In TXA; In (ADC (Mem (tmp2 L + 1))); In (STA (Mem (tmp2 L + 1))); In (LDA (Mem (tmp2 L)));
    Lb "mul.L1"; In (ROR (Mem (tmp2 L + 1))); In RORa; In (ROR (Mem (tmp1 L + 1)));
    In (ROR (Mem (tmp1 L))); In DEY; In (Br NE "mul.L0");
    In (LDA (Mem (tmp1 L))); In (LDX (Mem (tmp1 L + 1))); In (JMP "next_ins_incsp") ].
(* src/interp/div.asm:35-136 *)
Definition c_div : code :=
  [ Lb "EXE_DIV"; In (JSR "divmod_sign_adjust"); In (LDA (Mem (tmp3 L))); In (LDX (Mem (tmp3 L + 1)));
    In (BIT (Mem (divmod_sign L))); In (Br PL "div.pos");
    Lb "div.neg"; In (JSR "neg_AX"); Lb "div.pos"; In (JMP "next_ins_incsp");
    Lb "EXE_MOD"; In (JSR "divmod_sign_adjust"); In (LDX (Mem (tmp2 L + 1)));
    In (BIT (Mem (divmod_sign L))); In (Br VS "div.neg"); In (JMP "next_ins_incsp");
    Lb "divmod_sign_adjust"; In (LDY (Imm 0)); In (CPX (Imm 128)); In (Br CC "div.y_pos");
    In (LDY (Imm 128)); In (JSR "neg_AX");
    Lb "div.y_pos"; In (STA (Mem (tmp1 L))); In (STX (Mem (tmp1 L + 1))); In (STY (Mem (divmod_sign L)));
    In (LDY (Mem sptr)); In (LDA (MemY stack_l)); In (LDX (MemY stack_h)); In (Br PL "div.x_pos");
    In (JSR "neg_AX"); In (DEC (Mem (divmod_sign L)));
    Lb "div.x_pos"; In (STA (Mem (tmp3 L))); In (STX (Mem (tmp3 L + 1)));
    Lb "udiv16"; In (LDY (Imm 16)); In (LDA (Imm 0)); In (STA (Mem (tmp2 L + 1)));
    In (LDX (Mem (tmp1 L + 1))); In (Br EQ "udiv16x8");
    Lb "div.L0"; In (ASL (Mem (tmp3 L))); In (ROL (Mem (tmp3 L + 1))); In ROLa;
    In (ROL (Mem (tmp2 L + 1)));
    In TAX; In (CMP (Mem (tmp1 L))); In (LDA (Mem (tmp2 L + 1))); In (SBC (Mem (tmp1 L + 1)));
    In (Br CC "div.L1");
    In (STA (Mem (tmp2 L + 1))); In TXA; In (SBC (Mem (tmp1 L))); In TAX; In (INC (Mem (tmp3 L)));
    Lb "div.L1"; In TXA; In DEY; In (Br NE "div.L0"); In RTS;
    Lb "udiv16x8";
    Lb "div.L2"; In (ASL (Mem (tmp3 L))); In (ROL (Mem (tmp3 L + 1))); In ROLa; In (Br CS "div.L3");
    In (CMP (Mem (tmp1 L))); In (Br CC "div.L4");
    Lb "div.L3"; In (SBC (Mem (tmp1 L))); In (INC (Mem (tmp3 L)));
    Lb "div.L4"; In DEY; In (Br NE "div.L2"); In RTS ].
(* src/interp/for.asm:36-155.  The byte $90 makes the following CLC the operand of a branch
   that is not taken, it is written as a jump over it. *)
Definition c_for : code :=
  [ Lb "EXE_FOR"; In (JSR "pushAX"); In DEY; In SEC; In (JMP "for.go");
    Lb "EXE_FOR_NEXT"; In CLC;
    Lb "for.go"; In (LDA (MemY (stack_h + 2))); In (STA (Mem (tmp3 L + 1)));
    In (LDA (MemY (stack_l + 2))); In (STA (Mem (tmp3 L)));
    In (LDA (MemY stack_l)); In (LDX (MemY stack_h)); In PHP; In (LDY (Imm 0));
    In (Br CC "for.do_add"); In (LDA (Imm 255)); In TAX;
    Lb "for.do_add"; In (ADC (IndY (tmp3 L))); In (STA (IndY (tmp3 L))); In PHA; In INY; In TXA;
    In (ADC (IndY (tmp3 L))); In (STA (IndY (tmp3 L))); In TAX; In PLA;
    In (LDY (Mem sptr)); In (DEC (Mem sptr)); In INY;
    In PLP; In (Br MI "EXE_GT");
    Lb "EXE_LT"; In CLC; In (SBC (MemY stack_l)); In TXA; In (SBC (MemY stack_h));
    In (Br VC "LTGT_set01");
    Lb "LTGT_set10"; In (Br MI "set1");
    Lb "set0"; In (LDA (Imm 0)); In TAX; In (JMP "next_ins_incsp");
    Lb "EXE_GT"; In (CMP (MemY stack_l)); In TXA; In (SBC (MemY stack_h)); In (Br VC "LTGT_set10");
    Lb "LTGT_set01"; In (Br MI "set0");
    Lb "set1"; In (LDA (Imm 1)); In (LDX (Imm 0)); In (JMP "next_ins_incsp");
    Lb "EXE_NEQ"; In (CMP (MemY stack_l)); In (Br NE "set1"); In TXA; In (EOR (MemY stack_h));
    In (Br NE "set1"); In (Br EQ "set0");
    Lb "EXE_EQ"; In (CMP (MemY stack_l)); In (Br NE "set0"); In TXA; In (EOR (MemY stack_h));
    In (Br NE "set0"); In (Br EQ "set1") ].
(* src/interp/for_exit.asm:36-45 *)
Definition c_for_exit : code :=
  [ Lb "EXE_FOR_EXIT"; In (INC (Mem sptr));
    Lb "next_ins_incsp_2"; In (INC (Mem sptr)); In (JMP "next_ins_incsp") ].
(* src/interp/inc.asm:35-64 and dec.asm:35-66.  The operands of loadL, loadH,
   loadL1, loadL2 are at smc, smc+1 and smc+2. *)
Definition c_incdec : code :=
  [ Lb "EXE_INCVAR"; In (JSR "get_op_var");
    Lb "EXE_INC"; In (STX (Mem (smc L + 1))); In (STX (Mem (smc L))); In TAX;
    In (INC (SmX 0 (smc L))); In (Br NE "inc.1"); In (INC (SmX 1 (smc L + 1)));
    Lb "inc.1"; In (JMP "next_instruction");
    Lb "EXE_DECVAR"; In (JSR "get_op_var");
    Lb "EXE_DEC"; In (STX (Mem (smc L + 1))); In (STX (Mem (smc L))); In (STX (Mem (smc L + 2))); In TAX;
    In (LDA (SmX 0 (smc L))); In (Br NE "dec.loadL2"); In (DEC (SmX 1 (smc L + 1)));
    Lb "dec.loadL2"; In (DEC (SmX 0 (smc L + 2))); In (JMP "next_instruction") ].
(* src/interp/push.asm:35-38, pop.asm:35-39, saddr.asm:39-45, poke.asm:34-38, dpoke.asm:34-41 *)
Definition c_stack : code :=
  [ Lb "EXE_PUSH"; In (JSR "pushAX"); In (JMP "next_instruction");
    Lb "EXE_POP"; In (LDA (MemY stack_l)); In (LDX (MemY stack_h)); In (JMP "next_ins_incsp");
    Lb "EXE_VAR_SADDR"; In (JSR "get_op_var");
    Lb "EXE_SADDR"; In (STA (Mem (saddr L))); In (STX (Mem (saddr L + 1))); In (JMP "next_instruction");
    Lb "EXE_POKE"; In (LDY (Imm 0)); In (STA (IndY (saddr L))); In (JMP "next_instruction");
    Lb "EXE_DPOKE"; In (LDY (Imm 0)); In (STA (IndY (saddr L))); In INY; In TXA;
    In (STA (IndY (saddr L))); In (JMP "next_instruction") ].
(* src/interp/peek.asm:34-48 and dpeek.asm:35-61.  The operand of load is at smc+3, those of
   loadH and loadL at smc+4, smc+5. *)
Definition c_peek : code :=
  [ Lb "EXE_PEEK"; In (STX (Mem (smc L + 3))); In TAX; In (LDA (SmX 0 (smc L + 3))); In (LDX (Imm 0));
    In (JMP "next_instruction");
    Lb "EXE_PUSH_VAR_LOAD"; In (JSR "pushAX");
    Lb "EXE_VAR_LOAD"; In (JSR "get_op_var");
    Lb "EXE_DPEEK"; In (STX (Mem (smc L + 4))); In (STX (Mem (smc L + 5))); In TAY;
    In (LDX (SmY 1 (smc L + 4))); In (LDA (SmY 0 (smc L + 5))); In (JMP "next_instruction") ].
(* src/interp/const.asm:36-82 *)
Definition c_const : code :=
  [ Lb "EXE_PUSH_NUM"; In (JSR "pushAX");
    Lb "EXE_NUM"; In (LDY (Imm 1)); In (LDA (IndY cptr)); In TAX; In DEY; In (LDA (IndY cptr));
    Lb "inc_cptr_2"; In (LDY (Mem cptr)); In (CPY (Imm 254)); In INY; In INY; In (STY (Mem cptr));
    In (Br CS "inc_cptr_hi"); In (JMP "next_instruction");
    Lb "EXE_PUSH_BYTE"; In (JSR "pushAX");
    Lb "EXE_BYTE"; In (LDX (Imm 0)); In (LDA (IndX cptr));
    Lb "inc_cptr_1"; In (INC (Mem cptr)); In (Br EQ "inc_cptr_hi"); In (JMP "next_instruction");
    Lb "EXE_CSTRING"; In (LDY (Imm 0)); In SEC; In (LDA (Mem cptr)); In TAX; In (ADC (IndY cptr));
    In (STA (Mem cptr)); In TXA; In (LDX (Mem (cptr + 1))); In (Br CC "const.xit");
    Lb "inc_cptr_hi"; In (INC (Mem (cptr + 1)));
    Lb "const.xit"; In (JMP "next_instruction") ].
(* src/interp/varaddr.asm:39-60.  The operand var_page is at smc+6. *)
Definition c_varaddr : code :=
  [ Lb "EXE_VAR_ADDR"; In (JSR "get_op_var"); In (JMP "next_instruction");
    Lb "get_op_var"; In (LDY (Imm 0)); In (LDA (IndY cptr)); In (INC (Mem cptr)); In (Br NE "varaddr.1");
    In (INC (Mem (cptr + 1)));
    Lb "varaddr.1"; In (LDX (Mem (smc L + 6))); In ASLa; In (Br CC "varaddr.2"); In INX;
    Lb "varaddr.2"; In RTS ].
(* src/interp/varstore.asm:35-70.  The operands of save_h and save_l are at smc+7, smc+8. *)
Definition c_varstore : code :=
  [ Lb "EXE_VAR_STORE_0"; In (LDA (Imm 0)); In TAX; In (Br EQ "EXE_VAR_STORE");
    Lb "EXE_DIM"; In (JSR "alloc_array"); In (LDA (Mem move_dest)); In (LDX (Mem (move_dest + 1)));
    Lb "EXE_VAR_STORE"; In PHA; In (STX (Mem (tmp2 L + 1))); In (JSR "get_op_var");
    In (STX (Mem (smc L + 8))); In (STX (Mem (smc L + 7))); In TAX; In PLA;
    In (STA (SmX 0 (smc L + 7))); In (LDA (Mem (tmp2 L + 1))); In (STA (SmX 1 (smc L + 8)));
    In (JMP "next_instruction") ].
(* src/interp/varadd.asm:35-53 *)
Definition c_varadd : code :=
  [ Lb "EXE_ADD_VAR"; In (STA (Mem (tmp2 L))); In (STX (Mem (tmp2 L + 1))); In (JSR "get_op_var");
    In (STA (Mem (tmp1 L))); In (STX (Mem (tmp1 L + 1))); In (LDY (Imm 0)); In (LDA (IndY (tmp1 L)));
    In CLC; In (ADC (Mem (tmp2 L))); In PHA; In INY; In (LDA (IndY (tmp1 L)));
    In (ADC (Mem (tmp2 L + 1))); In TAX; In PLA; In (JMP "next_instruction") ].
(* src/interp/const_poke.asm:35-55 and peekb.asm:35-41 *)
Definition c_constpoke : code :=
  [ Lb "EXE_BYTE_POKE"; In (LDY (Imm 0)); In TAX; In (LDA (IndY cptr)); In TAY; In (STX (MemY 0));
    In (JMP "inc_cptr_1");
    Lb "EXE_NUM_POKE"; In TAX; In (LDY (Imm 1)); In (LDA (IndY cptr)); In (STA (Mem (saddr L + 1)));
    In DEY; In (LDA (IndY cptr)); In (STA (Mem (saddr L))); In TXA; In (STA (IndY (saddr L)));
    In (JMP "inc_cptr_2");
    Lb "EXE_BYTE_PEEK"; In (LDX (Imm 0)); In (LDA (IndX cptr)); In TAY; In (LDA (MemY 0));
    In (JMP "inc_cptr_1") ].
(* src/interp/jump.asm:35-80.  EXE_END, which leaves the interpreter, is outside the program. *)
Definition c_jump : code :=
  [ Lb "EXE_CALL"; In (LDA (Mem cptr)); In CLC; In (ADC (Imm 2)); In PHA; In (LDA (Mem (cptr + 1)));
    In (ADC (Imm 0)); In PHA;
    Lb "EXE_JUMP"; In (LDY (Imm 1)); In (LDA (IndY cptr)); In TAX; In DEY; In (LDA (IndY cptr));
    Lb "interpreter_jump_ax"; In (STX (Mem (cptr + 1)));
    Lb "jump.sto"; In (STA (Mem cptr)); In (JMP "next_instruction");
    Lb "EXE_CNJUMP"; In (EOR (Imm 1));
    Lb "EXE_CJUMP"; In LSRa; In (Br CC "EXE_JUMP"); In (LDA (Mem cptr)); In (ADC (Imm 1));
    In (Br CC "jump.sto"); In (INC (Mem (cptr + 1))); In (Br CS "jump.sto") ].
(* src/interp/return.asm:34-50 *)
Definition c_return : code :=
  [ Lb "EXE_CNRET"; In (EOR (Imm 1));
    Lb "EXE_CRET"; In LSRa; In (Br CS "return.skip");
    Lb "EXE_RET"; In PLA; In (STA (Mem (cptr + 1))); In PLA; In (STA (Mem cptr));
    Lb "return.skip"; In (JMP "next_instruction") ].
(* src/interp/cmpstr.asm:35-79 *)
Definition c_cmpstr : code :=
  [ Lb "EXE_CMP_STR"; In (STA (Mem (tmp1 L))); In (STX (Mem (tmp1 L + 1)));
    In (LDA (MemY stack_l)); In (STA (Mem (tmp2 L))); In (LDX (MemY stack_h)); In (STX (Mem (tmp2 L + 1)));
    In (LDX (Imm 1)); In (LDY (Imm 0)); In (LDA (IndY (tmp1 L))); In (CMP (IndY (tmp2 L)));
    In (Br EQ "cmpstr.l1_equal"); In (Br CC "cmpstr.l1_shorter"); In DEX; In (LDA (IndY (tmp2 L)));
    Lb "cmpstr.l1_equal"; In DEX;
    Lb "cmpstr.l1_shorter"; In (STA (Mem (tmp3 L)));
    Lb "cmpstr.next_char"; In (CPY (Mem (tmp3 L))); In (Br EQ "cmpstr.xit"); In INY;
    In (LDA (IndY (tmp1 L))); In (CMP (IndY (tmp2 L))); In (Br EQ "cmpstr.next_char");
    In (LDX (Imm 1)); In (Br CC "cmpstr.xit"); In (LDX (Imm 255));
    Lb "cmpstr.xit"; In (INC (Mem sptr)); In (JMP "pushXX_set0") ].
(* src/interp/copystr.asm:38-109 *)
Definition c_copystr : code :=
  [ Lb "get_pointers"; In (STA (Mem move_source)); In (STX (Mem (move_source + 1)));
    In (LDY (Imm 1)); In (LDA (IndY (saddr L))); In (Br EQ "copystr.alloc");
    In (STA (Mem (move_dest + 1))); In DEY; In (LDA (IndY (saddr L))); In (STA (Mem move_dest)); In RTS;
    Lb "copystr.alloc"; In (LDA (Mem (aptr L + 1))); In (STA (IndY (saddr L))); In DEY;
    In (LDA (Mem (aptr L))); In (STA (IndY (saddr L))); In TYA; In (LDX (Imm 1)); In (JMP "alloc_array");
    Lb "EXE_COPY_STR"; In (JSR "get_pointers"); In (LDA (IndY move_source)); In (STA (IndY move_dest));
    In TAY; In (Br EQ "copystr.xit");
    Lb "copystr.cloop"; In (JSR "move_loop"); Lb "copystr.xit"; In (JMP "next_instruction");
    Lb "EXE_CAT_STR"; In (JSR "get_pointers"); In (LDA (IndY move_dest)); In (STA (Mem (tmp1 L)));
    In CLC; In (ADC (IndY move_source)); In (Br CC "copystr.ok_len"); In (LDA (Imm 255));
    Lb "copystr.ok_len"; In (STA (IndY move_dest)); In SEC; In (SBC (Mem (tmp1 L)));
    In (Br EQ "copystr.xit"); In TAY; In (LDA (Mem (tmp1 L))); In CLC; In (ADC (Mem move_dest));
    In (STA (Mem move_dest)); In (Br CC "copystr.cloop"); In (INC (Mem (move_dest + 1)));
    In (Br CS "copystr.cloop") ].
(* src/interp/strindex.asm:39-88 *)
Definition c_stridx : code :=
  [ Lb "EXE_STR_IDX"; In (CPX (Imm 0)); In (Br MI "stridx.zero"); In (Br EQ "stridx.ok1");
    In (LDA (Imm 255));
    Lb "stridx.ok1"; In (STA (Mem (tmp3 L + 1))); In (LDX (MemY stack_h)); In (Br NE "stridx.zero");
    In (LDX (MemY (stack_l + 1))); In (STX (Mem (tmp1 L))); In (LDX (MemY (stack_h + 1)));
    In (STX (Mem (tmp1 L + 1))); In (LDA (MemY stack_l)); In TAY; In DEY; In (LDX (Imm 255));
    In (LDA (IndX (tmp1 L + 1))); In (STA (Mem (tmp3 L)));
    Lb "stridx.copy"; In INX; In (LDA (IndY (tmp1 L))); In (STA (MemX (line_buf - 1)));
    In (CPY (Mem (tmp3 L))); In (Br CS "stridx.xit"); In INY; In (CPX (Mem (tmp3 L + 1)));
    In (Br CC "stridx.copy");
    Lb "stridx.xit"; In (STX (Mem (line_buf - 1))); In (LDA (Imm ((line_buf - 1) mod 256)));
    In (LDX (Imm ((line_buf - 1) / 256))); In (JMP "next_ins_incsp_2");
    Lb "stridx.zero"; In (LDX (Imm 0)); In (Br EQ "stridx.xit") ].
(* src/interp/move.asm:37-82 *)
Definition c_move : code :=
  [ Lb "EXE_MOVE"; In (JSR "move_get_ptr"); In INX; In TAY; In CLC; In (ADC (Mem move_source));
    In (STA (Mem move_source)); In (Br CS "move.1"); In (DEC (Mem (move_source + 1)));
    Lb "move.1"; In TYA; In CLC; In (ADC (Mem move_dest)); In (STA (Mem move_dest)); In (Br CS "move.2");
    In (DEC (Mem (move_dest + 1)));
    Lb "move.2"; In (LDA (Imm 200)); In (STA (Mem move_ins)); In TYA; In (Br EQ "move.cpage");
    In (EOR (Imm 255)); In TAY; In INY;
    Lb "move.cloop"; In (JSR "move_loop");
    Lb "move.cpage"; In (INC (Mem (move_source + 1))); In (INC (Mem (move_dest + 1))); In DEX;
    In (Br NE "move.cloop"); In (LDA (Imm 136)); In (STA (Mem move_ins)); In (JMP "next_ins_incsp_2") ].
(* src/interp/nmove.asm:40-141 *)
Definition c_nmove : code :=
  [ Lb "EXE_NMOVE"; In (JSR "move_get_ptr"); In (JSR "move_dwn"); In (JMP "next_ins_incsp_2");
    Lb "move_get_ptr"; In PHA; In (LDA (MemY stack_l)); In (STA (Mem move_dest)); In (LDA (MemY stack_h));
    In (STA (Mem (move_dest + 1))); In (LDA (MemY (stack_l + 1))); In (STA (Mem move_source));
    In (LDA (MemY (stack_h + 1))); In (STA (Mem (move_source + 1))); In PLA; In RTS;
    Lb "move_dwn"; In CLC; In (STA (Mem (tmp3 L))); In TXA; In (ADC (Mem (tmp3 L))); In TAY;
    In (Br CC "nmove.1"); In INX; In INY;
    Lb "nmove.1"; In (Br EQ "nmove.xit"); In (STX (Mem (tmp3 L))); In DEX;
    In CLC; In (LDA (Mem move_source)); In (SBC (Mem (tmp3 L))); In (STA (Mem move_source)); In TXA;
    In (ADC (Mem (move_source + 1))); In (STA (Mem (move_source + 1)));
    In CLC; In (LDA (Mem move_dest)); In (SBC (Mem (tmp3 L))); In (STA (Mem move_dest)); In TXA;
    In (ADC (Mem (move_dest + 1))); In (STA (Mem (move_dest + 1))); In INX; In INX;
    Lb "nmove.cloop"; In (JSR "move_loop"); In (INC (Mem move_source)); In (Br EQ "nmove.2");
    In (DEC (Mem (move_source + 1)));
    Lb "nmove.2"; In (INC (Mem move_dest)); In (Br EQ "nmove.3"); In (DEC (Mem (move_dest + 1)));
    Lb "nmove.3"; In DEY; In DEX; In (Br NE "nmove.cloop");
    Lb "nmove.xit"; In RTS ].
(* src/interp/mset.asm:35-50 *)
Definition c_mset : code :=
  [ Lb "EXE_MSET"; In (LDX (MemY (stack_l + 1))); In (STX (Mem move_dest)); In (LDX (MemY (stack_h + 1)));
    In (STX (Mem (move_dest + 1))); In (LDX (MemY stack_l)); In (STX (Mem (tmp1 L)));
    In (LDX (MemY stack_h)); In TAY; In (JSR "mem_set"); In (JMP "next_ins_incsp_2") ].
(* src/interp/clearmem.asm:89-136.  err_nomem, which prints a message and ends the program, is
   outside. *)
Definition c_clearmem : code :=
  [ Lb "alloc_array"; In (STA (Mem (tmp1 L))); In (STX (Mem (tmp1 L + 1))); In (LDA (Mem (aptr L)));
    In (STA (Mem move_dest)); In CLC; In (ADC (Mem (tmp1 L))); In (STA (Mem (aptr L))); In TAY;
    In (LDA (Mem (aptr L + 1))); In (STA (Mem (move_dest + 1))); In (ADC (Mem (tmp1 L + 1)));
    In (STA (Mem (aptr L + 1))); In (Br CS "err_nomem"); In (CPY (Mem MEMTOP));
    In (SBC (Mem (MEMTOP + 1))); In (Br CS "err_nomem");
    Lb "mem_set_0"; In (LDY (Imm 0));
    Lb "mem_set"; In TXA; In CLC; In (ADC (Mem (move_dest + 1))); In (STA (Mem (move_dest + 1))); In TYA;
    In INX; In (LDY (Mem (tmp1 L))); In (Br EQ "mem_set.nxt"); In (Br NE "mem_set.loop");
    Lb "mem_set.pgloop"; In (DEC (Mem (move_dest + 1)));
    Lb "mem_set.loop"; In DEY; In (STA (IndY move_dest)); In (Br NE "mem_set.loop");
    Lb "mem_set.nxt"; In DEX; In (Br NE "mem_set.pgloop"); In RTS ].
(* src/interp/atari/rand.asm:36-64 *)
Definition c_rand : code :=
  [ Lb "EXE_RAND"; In (LDY (Imm 0)); In (STX (Mem (tmp1 L + 1)));
    Lb "rand.get_l"; In INY; In (CPY (Imm 16)); In ROLa; In (ROL (Mem (tmp1 L + 1)));
    In (Br PL "rand.get_l"); In (STA (Mem (tmp1 L)));
    Lb "rand.retry"; In (LDX Rnd); In (CPX (Mem (tmp1 L))); In (LDA Rnd); In (STA (Mem (tmp2 L)));
    In (SBC (Mem (tmp1 L + 1))); In (Br CS "rand.retry"); In TXA;
    Lb "rand.scale"; In (LSR (Mem (tmp2 L))); In RORa; In DEY; In (Br NE "rand.scale");
    In (LDX (Mem (tmp2 L))); In (JMP "next_instruction") ].
(* src/interp/a800/streol.asm:38-58 *)
Definition c_streol : code :=
  [ Lb "get_str_eol"; In (STA (Mem INBUFF)); In (STX (Mem (INBUFF + 1))); In (LDY (Imm 0));
    In (STY (Mem CIX)); In (LDA (IndY INBUFF)); In TAY; In (Br PL "streol.ok"); In (LDY (Imm 127));
    Lb "streol.ok"; In (LDA (Imm 155));
    Lb "streol.copy"; In (STA (MemY line_buf)); In (LDA (IndY INBUFF)); In DEY;
    In (Br PL "streol.copy"); In (JMP "INTLBUF") ].
(* src/interp/a800/val.asm:38-126 *)
Definition c_val : code :=
  [ Lb "EXE_VAL"; In (JSR "get_str_eol"); In (JSR "read_word"); In (Br CC "val.1"); In (LDY (Imm 18));
    In (STY (Mem (IOERROR L))); Lb "val.1"; In (JMP "next_instruction");
    Lb "read_word"; In (JSR "SKBLANK"); In (LDA (IndY INBUFF)); In (CMP (Imm 45)); In (Br EQ "val.do_minus");
    In CLC; In (EOR (Imm 43)); In (Br NE "val.convert");
    Lb "val.do_minus"; In INY;
    Lb "val.convert"; In PHP; In (STY (Mem (tmp2 L + 1))); In (LDA (Imm 0)); In TAX;
    Lb "val.loop"; In (STA (Mem (tmp1 L))); In (STX (Mem (tmp1 L + 1))); In (LDA (IndY INBUFF));
    In (EOR (Imm 48)); In (CMP (Imm 10)); In (STA (Mem (tmp2 L))); In (LDA (Mem (tmp1 L)));
    In (Br CS "val.xit_n"); In INY; In (CPX (Imm 26)); In (Br CS "val.ebig");
    In ASLa; In (ROL (Mem (tmp1 L + 1))); In ASLa; In (ROL (Mem (tmp1 L + 1))); In (ADC (Mem (tmp1 L)));
    In (STA (Mem (tmp1 L))); In TXA; In (ADC (Mem (tmp1 L + 1))); In (ASL (Mem (tmp1 L))); In ROLa; In TAX;
    In (Br CS "val.ebig"); In (LDA (Mem (tmp2 L))); In (ADC (Mem (tmp1 L))); In (Br CC "val.loop");
    In INX; In (Br NE "val.loop");
    Lb "val.ebig"; In PLP; In SEC; In RTS;
    Lb "val.xit_n"; In (CPY (Mem (tmp2 L + 1))); In (Br EQ "val.ebig"); In PLP; In (Br CC "val.ok");
    In (JSR "neg_AX"); In CLC; Lb "val.ok"; In RTS ].
(* Two routines of the Atari OS ROM, which are not in /repo, after their documentation: $DA51
   points INBUFF to the line buffer, $DBA1 skips blanks from position CIX on. *)
Definition c_rom : code :=
  [ Lb "INTLBUF"; In (LDA (Imm (line_buf / 256))); In (STA (Mem (INBUFF + 1)));
    In (LDA (Imm (line_buf mod 256))); In (STA (Mem INBUFF)); In RTS;
    Lb "SKBLANK"; In (LDY (Mem CIX)); In (LDA (Imm 32));
    Lb "SKBLANK.1"; In (CMP (IndY INBUFF)); In (Br NE "SKBLANK.2"); In INY; In (Br NE "SKBLANK.1");
    Lb "SKBLANK.2"; In (STY (Mem CIX)); In RTS ].
End Code.

(* the modelled part of the run-time *)
Definition rt (L : lay) : list code :=
  [ c_interp; c_move_loop; c_negax; c_addsub; c_absneg; c_bit; c_logic; c_sgn; c_shift; c_comp0;
    c_mul L; c_div L; c_for L; c_for_exit; c_incdec L; c_stack L; c_peek L;
    c_const; c_varaddr L; c_varstore L; c_varadd L; c_constpoke L; c_jump; c_return; c_cmpstr L; c_copystr L;
    c_stridx L; c_move; c_nmove L; c_mset L; c_clearmem L; c_rand L; c_streol; c_val L; c_rom ].
