(* The 6502 processor, as far as the run-time of src/interp uses it.

   Simplifications: no decimal mode, no interrupts, no timing.  Memory is a total function
   from addresses to bytes.  The hardware stack is a list of cells apart from memory: a
   return address is kept as the code to go on with, so code that edits return addresses
   is not modelled.  Program text is not in memory: code that changes its own operands is
   modelled with addressing modes that take the operand from a memory cell. *)
From Coq Require Export ZArith Bool Lia List String.
Export ListNotations.
Open Scope Z_scope.

(* Addressing modes.  Zero page and absolute addresses are not told apart; the address of
   an indexed zero page operand does not wrap, no routine modelled here relies on that. *)
Inductive mode :=
| Imm (n : Z)       (* lda #n *)
| Mem (a : Z)       (* lda a *)
| MemX (a : Z)      (* lda a,x *)
| MemY (a : Z)      (* lda a,y *)
| IndY (a : Z)      (* lda (a),y *)
| IndX (a : Z)      (* lda (a,x) *)
| SmX (lo hi : Z)   (* lda $FFlo,x with the high byte of the operand at address hi *)
| SmY (lo hi : Z)   (* lda $FFlo,y with the high byte of the operand at address hi *)
| SmW (a : Z)       (* lda $FFFF,y with the operand at addresses a and a+1 *)
| SmA (a : Z)       (* lda $FFFF with the operand at addresses a and a+1 *)
| Rnd.              (* lda RANDOM: the hardware delivers another byte at each read *)

Inductive cond := CC | CS | NE | EQ | PL | MI | VC | VS.

Inductive instr :=
| LDA (m : mode) | LDX (m : mode) | LDY (m : mode)
| STA (m : mode) | STX (m : mode) | STY (m : mode)
| ADC (m : mode) | SBC (m : mode) | AND (m : mode) | ORA (m : mode) | EOR (m : mode)
| CMP (m : mode) | CPX (m : mode) | CPY (m : mode) | BIT (m : mode)
| INC (m : mode) | DEC (m : mode) | INX | DEX | INY | DEY
| ASL (m : mode) | LSR (m : mode) | ROL (m : mode) | ROR (m : mode)
| ASLa | LSRa | ROLa | RORa
| TAX | TAY | TXA | TYA | PHA | PLA | PHP | PLP | CLC | SEC | CLV
| DropRet           (* PLA twice on a return address; A and the flags, which get parts of it, are left alone here *)
| SmDey (a : Z)     (* the instruction whose opcode is at address a, DEY or INY *)
| Br (c : cond) (l : string) | JMP (l : string) | JSR (l : string) | RTS.

(* a line of assembler source: a label or an instruction *)
Inductive line := Lb (l : string) | In (i : instr).
Definition code := list line.

(* a cell of the hardware stack *)
Inductive cell := CByte (b : Z) | CFlags (c z n v : bool) | CRet (k : code).

Record cpu := mkcpu {
  A : Z; X : Z; Y : Z;
  fC : bool; fZ : bool; fN : bool; fV : bool;
  M : Z -> Z;
  S : list cell;
  rnd : list Z  (* the bytes the random generator will deliver *)
}.

Definition b8 (z : Z) : Z := z mod 256.
Definition b16 (z : Z) : Z := z mod 65536.
Definition upd (f : Z -> Z) (a v : Z) : Z -> Z := fun x => if x =? a then v else f x.
Definition cin (c : bool) : Z := if c then 1 else 0.
(* a byte read as a signed number *)
Definition sb (z : Z) : Z := if z <? 128 then z else z - 256.

(* the address of an operand *)
Definition ea (m : mode) (s : cpu) : Z :=
  match m with
  | Imm _ | Rnd => 0
  | Mem a => a
  | MemX a => b16 (a + X s)
  | MemY a => b16 (a + Y s)
  | IndY a => b16 (M s a + 256 * M s (a + 1) + Y s)
  | IndX a => M s (b8 (a + X s)) + 256 * M s (b8 (a + X s + 1))
  | SmX lo hi => b16 (lo + 256 * M s hi + X s)
  | SmY lo hi => b16 (lo + 256 * M s hi + Y s)
  | SmW a => b16 (M s a + 256 * M s (a + 1) + Y s)
  | SmA a => b16 (M s a + 256 * M s (a + 1))
  end.
(* the operand *)
Definition rd (m : mode) (s : cpu) : Z :=
  match m with
  | Imm n => n
  | Rnd => hd 0 (rnd s)
  | _ => M s (ea m s)
  end.
(* the state after reading it *)
Definition used (m : mode) (s : cpu) : cpu :=
  match m with
  | Rnd => mkcpu (A s) (X s) (Y s) (fC s) (fZ s) (fN s) (fV s) (M s) (S s) (tl (rnd s))
  | _ => s
  end.

Definition setA (v : Z) (s : cpu) : cpu :=
  mkcpu v (X s) (Y s) (fC s) (v =? 0) (128 <=? v) (fV s) (M s) (S s) (rnd s).
Definition setX (v : Z) (s : cpu) : cpu :=
  mkcpu (A s) v (Y s) (fC s) (v =? 0) (128 <=? v) (fV s) (M s) (S s) (rnd s).
Definition setY (v : Z) (s : cpu) : cpu :=
  mkcpu (A s) (X s) v (fC s) (v =? 0) (128 <=? v) (fV s) (M s) (S s) (rnd s).
Definition setC (c : bool) (s : cpu) : cpu :=
  mkcpu (A s) (X s) (Y s) c (fZ s) (fN s) (fV s) (M s) (S s) (rnd s).
Definition setV (v : bool) (s : cpu) : cpu :=
  mkcpu (A s) (X s) (Y s) (fC s) (fZ s) (fN s) v (M s) (S s) (rnd s).
Definition setM (a v : Z) (s : cpu) : cpu :=
  mkcpu (A s) (X s) (Y s) (fC s) (fZ s) (fN s) (fV s) (upd (M s) a v) (S s) (rnd s).
(* a store that also sets the flags (INC, ASL ...) *)
Definition setMf (a v : Z) (s : cpu) : cpu :=
  mkcpu (A s) (X s) (Y s) (fC s) (v =? 0) (128 <=? v) (fV s) (upd (M s) a v) (S s) (rnd s).
Definition setS (l : list cell) (s : cpu) : cpu :=
  mkcpu (A s) (X s) (Y s) (fC s) (fZ s) (fN s) (fV s) (M s) l (rnd s).

Definition adc (v : Z) (s : cpu) : cpu :=
  let t := A s + v + cin (fC s) in
  let t' := sb (A s) + sb v + cin (fC s) in
  setA (b8 t) (setC (256 <=? t) (setV (negb ((-128 <=? t') && (t' <=? 127))) s)).
Definition sbc (v : Z) (s : cpu) : cpu :=
  let t := A s - v - (1 - cin (fC s)) in
  let t' := sb (A s) - sb v - (1 - cin (fC s)) in
  setA (b8 t) (setC (0 <=? t) (setV (negb ((-128 <=? t') && (t' <=? 127))) s)).
Definition cmp (r v : Z) (s : cpu) : cpu :=
  let t := b8 (r - v) in
  mkcpu (A s) (X s) (Y s) (v <=? r) (t =? 0) (128 <=? t) (fV s) (M s) (S s) (rnd s).
Definition bit (v : Z) (s : cpu) : cpu :=
  mkcpu (A s) (X s) (Y s) (fC s) (Z.land (A s) v =? 0) (128 <=? v) (64 <=? v mod 128)
    (M s) (S s) (rnd s).
(* shifts: result and new carry *)
Definition asl (v : Z) : Z * bool := (b8 (2 * v), 128 <=? v).
Definition lsr (v : Z) : Z * bool := (v / 2, Z.odd v).
Definition rol (v : Z) (c : bool) : Z * bool := (b8 (2 * v + cin c), 128 <=? v).
Definition ror (v : Z) (c : bool) : Z * bool := (v / 2 + 128 * cin c, Z.odd v).
Definition putM (m : mode) (p : Z * bool) (s : cpu) : cpu :=
  setMf (ea m s) (fst p) (setC (snd p) s).
Definition putA (p : Z * bool) (s : cpu) : cpu := setA (fst p) (setC (snd p) s).

Definition holds (c : cond) (s : cpu) : bool :=
  match c with
  | CC => negb (fC s) | CS => fC s
  | NE => negb (fZ s) | EQ => fZ s
  | PL => negb (fN s) | MI => fN s
  | VC => negb (fV s) | VS => fV s
  end.

(* an instruction that goes on with the next one; [None]: not possible *)
Definition exec (i : instr) (s : cpu) : option cpu :=
  match i with
  | LDA m => Some (setA (rd m s) (used m s))
  | LDX m => Some (setX (rd m s) (used m s))
  | LDY m => Some (setY (rd m s) (used m s))
  | STA m => Some (setM (ea m s) (A s) s)
  | STX m => Some (setM (ea m s) (X s) s)
  | STY m => Some (setM (ea m s) (Y s) s)
  | ADC m => Some (adc (rd m s) s)
  | SBC m => Some (sbc (rd m s) s)
  | AND m => Some (setA (Z.land (A s) (rd m s)) s)
  | ORA m => Some (setA (Z.lor (A s) (rd m s)) s)
  | EOR m => Some (setA (Z.lxor (A s) (rd m s)) s)
  | CMP m => Some (cmp (A s) (rd m s) s)
  | CPX m => Some (cmp (X s) (rd m s) s)
  | CPY m => Some (cmp (Y s) (rd m s) s)
  | BIT m => Some (bit (rd m s) s)
  | INC m => Some (setMf (ea m s) (b8 (rd m s + 1)) s)
  | DEC m => Some (setMf (ea m s) (b8 (rd m s - 1)) s)
  | INX => Some (setX (b8 (X s + 1)) s)
  | DEX => Some (setX (b8 (X s - 1)) s)
  | INY => Some (setY (b8 (Y s + 1)) s)
  | DEY => Some (setY (b8 (Y s - 1)) s)
  | ASL m => Some (putM m (asl (rd m s)) s)
  | LSR m => Some (putM m (lsr (rd m s)) s)
  | ROL m => Some (putM m (rol (rd m s) (fC s)) s)
  | ROR m => Some (putM m (ror (rd m s) (fC s)) s)
  | ASLa => Some (putA (asl (A s)) s)
  | LSRa => Some (putA (lsr (A s)) s)
  | ROLa => Some (putA (rol (A s) (fC s)) s)
  | RORa => Some (putA (ror (A s) (fC s)) s)
  | TAX => Some (setX (A s) s)
  | TAY => Some (setY (A s) s)
  | TXA => Some (setA (X s) s)
  | TYA => Some (setA (Y s) s)
  | PHA => Some (setS (CByte (A s) :: S s) s)
  | PLA => match S s with CByte b :: r => Some (setA b (setS r s)) | _ => None end
  | PHP => Some (setS (CFlags (fC s) (fZ s) (fN s) (fV s) :: S s) s)
  | PLP =>
      match S s with
      | CFlags c z n v :: r => Some (mkcpu (A s) (X s) (Y s) c z n v (M s) r (rnd s))
      | _ => None
      end
  | DropRet => match S s with CRet _ :: r => Some (setS r s) | _ => None end
  | CLC => Some (setC false s)
  | SEC => Some (setC true s)
  | CLV => Some (setV false s)
  | SmDey a =>
      if M s a =? 136 then Some (setY (b8 (Y s - 1)) s)
      else if M s a =? 200 then Some (setY (b8 (Y s + 1)) s)
      else None
  | Br _ _ | JMP _ | JSR _ | RTS => None
  end.

(* The code after a label, in one source file.  No file goes on into the next one. *)
Fixpoint find_in (l : string) (p : code) : option code :=
  match p with
  | [] => None
  | Lb x :: r => if String.eqb x l then Some r else find_in l r
  | _ :: r => find_in l r
  end.
Fixpoint find_lb (l : string) (p : list code) : option code :=
  match p with
  | [] => None
  | f :: p => match find_in l f with Some c => Some c | None => find_lb l p end
  end.

(* Running code until it jumps to (or calls) a label outside the program, at most n steps. *)
Inductive outcome := Exit (l : string) (s : cpu) | Stuck | More.
Definition goto (p : list code) (l : string) (k : code -> outcome) (s : cpu) : outcome :=
  match find_lb l p with Some c => k c | None => Exit l s end.
Fixpoint run (p : list code) (n : nat) (k : code) (s : cpu) : outcome :=
  match n with
  | O => More
  | Datatypes.S n =>
      match k with
      | [] => Stuck
      | Lb _ :: k => run p n k s
      | In (Br c l) :: k => if holds c s then goto p l (fun c => run p n c s) s else run p n k s
      | In (JMP l) :: k => goto p l (fun c => run p n c s) s
      | In (JSR l) :: k =>
          goto p l (fun c => run p n c (setS (CRet k :: S s) s)) (setS (CRet k :: S s) s)
      | In RTS :: _ =>
          match S s with CRet k :: r => run p n k (setS r s) | _ => Stuck end
      | In i :: k => match exec i s with Some s' => run p n k s' | None => Stuck end
      end
  end.
(* the code after the label *)
Definition entry (p : list code) (l : string) : code :=
  match find_lb l p with Some c => c | None => [] end.
(* The routine at label [l] ends by jumping to the outside label [x], in the state s'. *)
Definition calls (p : list code) (l : string) (s : cpu) (x : string) (s' : cpu) : Prop :=
  exists n, run p n (entry p l) s = Exit x s'.
