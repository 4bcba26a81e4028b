(* The interpreter loop of src/interpreter.asm, the tokens that send bytes to a channel, and
   the bytes of a program in memory.  Together with Rt.v this is the whole machine that
   runs the byte code: a 6502 with the run-time. *)
From Verif Require Import Vm Text.
From Verif Require Export Rt.
Open Scope string_scope.
Open Scope list_scope.
Open Scope Z_scope.

(* src/interpreter.asm:106-113, at $82.  The operand of the LDY at cload is cptr, that of
   the LDY at ldsptr is sptr, and the STY writes the low byte of the operand of the
   indirect jump, at $90.  The jump itself is outside, see [turn]. *)
Definition jump_lo : Z := 144.
Definition c_next : code :=
  [ Lb "next_instruction"; In (LDY (SmA cptr)); In (INC (Mem cptr)); In (Br NE "adj");
    In (INC (Mem (cptr + 1)));
    Lb "adj"; In (STY (Mem jump_lo)); In (LDY (Mem sptr)); In (JMP "jump") ].
(* src/interp/a800/iochn.asm:35-48 *)
Definition c_iochn (L : lay) : code :=
  [ Lb "EXE_IOCHN"; In (JSR "IOCHN_16"); In (STX (Mem (IOCHN L))); In (JMP "next_instruction");
    Lb "IOCHN_16"; In ASLa; In ASLa; In ASLa; In ASLa; In TAX; In RTS ].
(* src/interp/put.asm:35-37, putbyte.asm:35-39 *)
Definition c_put : code :=
  [ Lb "EXE_PUT"; In (JSR "putc"); In (JMP "next_instruction");
    Lb "EXE_BYTE_PUT"; In (LDX (Imm 0)); In (LDA (IndX cptr)); In (JSR "putc"); In (JMP "inc_cptr_1") ].
(* src/interp/print_str.asm:37-52 *)
Definition c_print_str (L : lay) : code :=
  [ Lb "EXE_PRINT_STR"; In (STA (Mem (tmp1 L))); In (STX (Mem (tmp1 L + 1)));
    Lb "print_str.ptmp"; In (LDY (Imm 0)); In (LDA (IndY (tmp1 L))); In (Br EQ "print_str.nil");
    In (STA (Mem (tmp2 L)));
    Lb "print_str.loop"; In INY; In (LDA (IndY (tmp1 L))); In (EOR (Mem (PRINT_COLOR L)));
    In (JSR "putc"); In (CPY (Mem (tmp2 L))); In (Br NE "print_str.loop");
    Lb "print_str.nil"; In (JMP "next_instruction") ].
(* src/interp/a800/putchar.asm:50-56.  putc_direct, which enters the handler of the channel
   in the operating system, is outside. *)
Definition c_putc (L : lay) : code :=
  [ Lb "putc"; In (STY (Mem (tmp3 L + 1))); In (JSR "putc_direct"); In (STY (Mem (IOERROR L)));
    In (LDY (Mem (tmp3 L + 1))); In RTS ].
Definition rt_io (L : lay) : list code := [ c_iochn L; c_put; c_print_str L; c_putc L ].
(* the modelled part of the run-time *)
Definition rt_all (L : lay) : list code := rt L ++ rt_io L.

(* A program in memory: where the linker put the run-time, the byte code and the table of
   tokens (src/deftok.inc:31-42, the number of a token is the place of its routine in
   JUMPTAB). *)
Record image := mkimage {
  lay_of : lay;
  base : Z;               (* compiler/fastbasic.cfg:53 BYTECODE *)
  num_of : tok -> Z;      (* TOK_name *)
  routine : Z -> string   (* JUMPTAB *)
}.
(* src/deftok.inc:34: the routine of TOK_name is EXE_name *)
Definition exe (t : tok) : string :=
  ("EXE_" ++ substring 4 (String.length (tok_name t)) (tok_name t))%string.

(* The bytes that ca65 makes of an element (src/compiler/codew.h:196-220 writes .byte, .word;
   compile.cc writes the length before a string).  [sym] gives the value of a symbol. *)
Definition lohi (n : Z) : list Z := [u16 n mod 256; u16 n / 256].
Definition assemble1 (num : tok -> Z) (sym : string -> Z) (c : codew) : list Z :=
  match c with
  | CTok t => [num t]
  | Codew.CByte n => [u8 n]
  | CByteS s => [u8 (sym s)]
  | CWord n => lohi n
  | CWordS s => lohi (sym s)
  | CVarn n => [u8 n]
  | CLabel _ => []
  | CFp x => x
  | CStr s => u8 (Z.of_nat (List.length s)) :: s
  end.
Definition assemble (num : tok -> Z) (sym : string -> Z) (p : list codew) : list Z :=
  flat_map (assemble1 num sym) p.

Section Machine.
Context {W : Type}.
Variable I : image.
Notation P := (rt_all (lay_of I)).
(* The handler of the operating system that putc_direct enters, as a function of the world
   and the processor. *)
Variable handler : W -> cpu -> W * cpu.

(* The processor, the rest of the world and the effects so far, last one first. *)
Definition mach : Type := cpu * W * list event.
(* Running the code [k] up to the label [x], with the handler for bytes sent to a channel. *)
Inductive drive : code -> mach -> string -> mach -> Prop :=
| drive_end n k s w o x s' : run P n k s = Exit x s' -> x <> "putc_direct" ->
    drive k (s, w, o) x (s', w, o)
| drive_put n k s w o s1 k1 st x r : run P n k s = Exit "putc_direct" s1 ->
    S s1 = CRet k1 :: st ->
    drive k1 (snd (handler w (setS st s1)), fst (handler w (setS st s1)),
              Put (M s1 (IOCHN (lay_of I))) (A s1) :: o) x r ->
    drive k (s, w, o) x r.
(* One turn of the interpreter: it reads a token, jumps through JUMPTAB (src/interpreter.asm:113)
   and comes back. *)
Inductive turn : mach -> mach -> Prop :=
| turn_i s w o s1 r : calls [c_next] "next_instruction" s "jump" s1 ->
    drive (entry P (routine I (M s1 jump_lo))) (s1, w, o) "next_instruction" r ->
    turn (s, w, o) r.
Inductive turns : nat -> mach -> mach -> Prop :=
| turns_0 a : turns 0 a a
| turns_S n a b c : turn a b -> turns n b c -> turns (Datatypes.S n) a c.
(* The interpreter reads the token END, whose routine leaves it (src/interp/jump.asm:58-64). *)
Definition at_end (a : mach) : Prop :=
  exists s1, calls [c_next] "next_instruction" (fst (fst a)) "jump" s1 /\
    routine I (M s1 jump_lo) = "EXE_END".
End Machine.
