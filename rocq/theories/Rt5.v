(* Conversions between integers and strings in the Atari 5200 run-time (NO_SMCODE), instruction by
   instruction, as in Rt.v.  The zero page variables are anywhere in their segment, $3A to $FF. *)
From Verif Require Export Rt.

(* compiler/fastbasic-a5200.cfg:32 *)
Definition zp5_ok (z : Z) : Prop := 58 <= z /\ z + 12 <= 256.
(* src/interpreter.asm:54-66 with NO_SMCODE; [z] is the address of tmp1 *)
Notation tmp2_5 z := (z + 2).
Notation tmp3_5 z := (z + 4).
Notation tmp4_5 z := (z + 6).
Notation IOERROR_5 z := (z + 10).
(* src/a5200cart.asm:88 *)
Definition line_buf_5 : Z := 640.

Section Code.
Variable z : Z.
(* src/interp/a5200/val.asm:35-137 *)
Definition c_val5 : code :=
  [ Lb "EXE_VAL"; In (STA (Mem (tmp3_5 z))); In (STX (Mem (tmp3_5 z + 1)));
    In (LDY (Imm 0)); In (STY (Mem (IOERROR_5 z))); In (LDA (IndY (tmp3_5 z))); In (STA (Mem (tmp4_5 z)));
    In (LDA (Imm 32));
    Lb "val.skp"; In (CPY (Mem (tmp4_5 z))); In (Br CS "val.set_err"); In INY; In (CMP (IndY (tmp3_5 z)));
    In (Br EQ "val.skp");
    Lb "val.skp_end"; In (LDA (IndY (tmp3_5 z))); In (CMP (Imm 45)); In (Br EQ "val.do_minus");
    In CLC; In (EOR (Imm 43)); In (Br NE "val.convert");
    Lb "val.do_minus"; In INY;
    Lb "val.convert"; In PHP; In (STY (Mem (tmp2_5 z + 1))); In DEY; In (LDA (Imm 0)); In TAX;
    Lb "val.loop"; In (STA (Mem z)); In (STX (Mem (z + 1)));
    In (CPY (Mem (tmp4_5 z))); In (Br EQ "val.xit_n"); In INY; In (LDA (IndY (tmp3_5 z)));
    In (EOR (Imm 48)); In (CMP (Imm 10)); In (STA (Mem (tmp2_5 z))); In (LDA (Mem z));
    In (Br CS "val.xit_n"); In (CPX (Imm 26)); In (Br CS "val.ebig");
    In ASLa; In (ROL (Mem (z + 1))); In ASLa; In (ROL (Mem (z + 1))); In (ADC (Mem z));
    In (STA (Mem z)); In TXA; In (ADC (Mem (z + 1))); In (ASL (Mem z)); In ROLa; In TAX;
    In (Br CS "val.ebig"); In (LDA (Mem (tmp2_5 z))); In (ADC (Mem z)); In (Br CC "val.loop");
    In INX; In (Br NE "val.loop");
    Lb "val.ebig"; In PLP;
    Lb "val.set_err"; In (LDY (Imm 18)); In (STY (Mem (IOERROR_5 z))); In (Br NE "val.end");
    Lb "val.xit_n"; In (CPY (Mem (tmp2_5 z + 1))); In (Br EQ "val.ebig"); In PLP; In (Br CC "val.end");
    In (JSR "neg_AX");
    Lb "val.end"; In (JMP "next_instruction") ].
(* src/interp/a5200/str.asm:37-90 *)
Definition c_str5 : code :=
  [ Lb "EXE_INT_STR"; In (CPX (Imm 128)); In PHP; In (Br CC "str.positive"); In (JSR "neg_AX");
    Lb "str.positive"; In (STA (Mem z)); In (STX (Mem (z + 1))); In (LDY (Imm 7));
    Lb "str.L1"; In (LDA (Imm 0)); In CLV; In (LDX (Imm 16));
    Lb "str.L2"; In (CMP (Imm 5)); In (Br CC "str.L3"); In (SBC (Imm 133)); In SEC;
    Lb "str.L3"; In (ROL (Mem z)); In (ROL (Mem (z + 1))); In ROLa; In DEX; In (Br NE "str.L2");
    In (ORA (Imm 48)); In (STA (MemY line_buf_5)); In DEY; In (Br VS "str.L1");
    In PLP; In (Br CC "str.ok"); In (LDA (Imm 45)); In (STA (MemY line_buf_5)); In DEY;
    Lb "str.ok"; In TYA; In (EOR (Imm 7)); In (STA (MemY line_buf_5));
    In (LDX (Imm (line_buf_5 / 256))); In TYA; In CLC; In (ADC (Imm (line_buf_5 mod 256)));
    In (Br CC "str.ret"); In INX;
    Lb "str.ret"; In (JMP "next_instruction") ].
End Code.
(* the modelled part *)
Definition rt5 (z : Z) : list code := [ c_negax; c_val5 z; c_str5 z ].
