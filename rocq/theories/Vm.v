(* The bytecode machine: what each token does when the program runs.
   Models src/interpreter.asm and the integer tokens of src/interp/*.asm, at the level
   of one bytecode instruction (the 6502 code of the arithmetic tokens is modelled
   instruction by instruction in Cpu.v and the Rt files).

   Simplifications, all of them:
   - The evaluation stack and the return stack have no limit (40 entries and the 6502
     stack page in the runtime).
   - Constant strings and the strings returned by CHR$ and by string indexing are
     values of their own ([VStr]), they have no address; arithmetic on them is stuck.
   - IOCHN and PRINT_COLOR are registers of their own, not memory cells.
   - A register that a token clobbers and the compiler never reads afterwards is
     [None]; reading it is stuck.
   - The tokens not named in peephole.cc are external functions ([e_ext]).
   - The addresses of labels and variables and the values of symbols are parameters. *)
From Verif Require Export Codew Peephole.

(* A value of the accumulator AX or of the evaluation stack. *)
Inductive value :=
| VInt (z : Z)
| VStr (s : bytes).

(* Numbers are 16 bits wide. *)
Definition norm (v : value) : value :=
  match v with VInt z => VInt (u16 z) | VStr s => VStr s end.

(* An observable effect: a byte sent to an I/O channel, or any effect of an external
   token. *)
Inductive event :=
| Put (ch b : Z)
| Ext (name : string) (data : list Z).

(* Everything outside of the program: devices and the tokens not modelled here. *)
Record env (W : Type) := mkenv {
  e_var : Z -> Z;            (* address of a variable *)
  e_sym : string -> Z;       (* value of a symbol or label used as a number *)
  (* effect of sending a byte on the rest of the world and on memory (IOERROR) *)
  e_put : Z -> Z -> W -> (Z -> Z) -> W * (Z -> Z);
  (* GET on a channel, and GET of a key *)
  e_get : Z -> W -> (Z -> Z) -> Z * (W * (Z -> Z));
  e_getkey : W -> (Z -> Z) -> Z * (W * (Z -> Z));
  (* external tokens: number of operands, use of AX, use of saddr, effect *)
  e_ar : string -> nat;
  e_ax : string -> bool;
  e_sad : string -> bool;
  e_ext : string -> list codew -> option value -> option value -> list value ->
          (Z -> Z) -> W -> Z -> Z ->
          option (list value * option value * (Z -> Z) * W * list (list Z))
}.
Arguments e_var {W}. Arguments e_sym {W}. Arguments e_put {W}. Arguments e_get {W}.
Arguments e_getkey {W}. Arguments e_ar {W}. Arguments e_ax {W}. Arguments e_sad {W}.
Arguments e_ext {W}.

(* Machine registers (interpreter.asm: AX, stack_l/stack_h, saddr, IOCHN, PRINT_COLOR)
   and memory, with the effects so far, last one first. *)
Record st (W : Type) := mkst {
  ax : option value;
  sad : option value;
  stk : list value;
  mem : Z -> Z;
  ioch : Z;
  col : Z;
  wld : W;
  out : list event
}.
Arguments mkst {W}. Arguments ax {W}. Arguments sad {W}. Arguments stk {W}.
Arguments mem {W}. Arguments ioch {W}. Arguments col {W}. Arguments wld {W}.
Arguments out {W}.

(* Memory access: 8 bit cells, 16 bit addresses that wrap. *)
Definition peek (m : Z -> Z) (a : Z) : Z := u8 (m (u16 a)).
Definition poke (m : Z -> Z) (a v : Z) : Z -> Z :=
  fun x => if x =? u16 a then u8 v else m x.
Definition dpeek (m : Z -> Z) (a : Z) : Z := peek m a + 256 * peek m (a + 1).
Definition dpoke (m : Z -> Z) (a v : Z) : Z -> Z :=
  poke (poke m a v) (a + 1) (u16 v / 256).
(* The string at an address: length byte and characters. *)
Fixpoint cells (m : Z -> Z) (a : Z) (n : nat) : bytes :=
  match n with O => [] | S n => peek m a :: cells m (a + 1) n end.
Definition str_at (m : Z -> Z) (a : Z) : bytes := cells m (a + 1) (Z.to_nat (peek m a)).

(* interp/div.asm EXE_DIV: signed division, truncated; the quotient of a division by 0
   is -1, or 1 if the dividend is negative *)
Definition div16 (a b : Z) : Z :=
  u16 (if s16 b =? 0 then (if s16 a <? 0 then 1 else -1) else Z.quot (s16 a) (s16 b)).
(* interp/div.asm EXE_MOD: remainder with the sign of the dividend; the remainder of a
   division by 0 is the low byte of the absolute value, with the sign of the dividend *)
Definition mod16 (a b : Z) : Z :=
  u16 (if s16 b =? 0
       then (if s16 a <? 0 then - (Z.abs (s16 a) mod 256) else s16 a mod 256)
       else Z.rem (s16 a) (s16 b)).
Definition b2z (b : bool) : Z := if b then 1 else 0.

(* interp/strindex.asm: the part of [s] from position [p], of at most [n] characters *)
Definition str_idx (s : bytes) (p n : Z) : bytes :=
  if (s16 n <? 0) || (255 <? u16 p) || (u16 p =? 0) then []
  else firstn (Z.to_nat (Z.min 255 (s16 n))) (skipn (Z.to_nat (u16 p - 1)) s).

(* Outcome of one instruction. *)
Inductive ires (W : Type) :=
| IStuck
| INext (k : list codew) (m : st W)
| IJump (l : string) (m : st W)
| ICall (l : string) (k : list codew) (m : st W)
| IRet (m : st W)
| IEnd (m : st W).
Arguments IStuck {W}. Arguments INext {W}. Arguments IJump {W}. Arguments ICall {W}.
Arguments IRet {W}. Arguments IEnd {W}.

Section Machine.
Context {W : Type}.
Variable E : env W.
Notation st := (st W).
Notation ires := (ires W).

Definition set_ax (v : option value) (m : st) : st :=
  mkst v (sad m) (stk m) (mem m) (ioch m) (col m) (wld m) (out m).
Definition set_sad (v : option value) (m : st) : st :=
  mkst (ax m) v (stk m) (mem m) (ioch m) (col m) (wld m) (out m).
Definition set_stk (s : list value) (m : st) : st :=
  mkst (ax m) (sad m) s (mem m) (ioch m) (col m) (wld m) (out m).
Definition set_mem (f : Z -> Z) (m : st) : st :=
  mkst (ax m) (sad m) (stk m) f (ioch m) (col m) (wld m) (out m).
Definition set_ioch (c : Z) (m : st) : st :=
  mkst (ax m) (sad m) (stk m) (mem m) c (col m) (wld m) (out m).
Definition set_col (c : Z) (m : st) : st :=
  mkst (ax m) (sad m) (stk m) (mem m) (ioch m) c (wld m) (out m).
Definition set_wm (p : W * (Z -> Z)) (m : st) : st :=
  mkst (ax m) (sad m) (stk m) (snd p) (ioch m) (col m) (fst p) (out m).

(* putc (interp/*/putchar.asm): send a byte to the current channel *)
Definition putb (b : Z) (m : st) : st :=
  let p := e_put E (ioch m) (u8 b) (wld m) (mem m) in
  mkst (ax m) (sad m) (stk m) (snd p) (ioch m) (col m) (fst p)
    (Put (ioch m) (u8 b) :: out m).
(* interp/print_str.asm: each character is sent with the print colour applied *)
Fixpoint puts (s : bytes) (m : st) : st :=
  match s with
  | [] => m
  | b :: r => puts r (putb (Z.lxor b (col m)) m)
  end.

(* Operands: the next elements of the code *)
Definition op_word (r : list codew) (f : Z -> list codew -> ires) : ires :=
  match r with
  | CWord n :: r => f (u16 n) r
  | CWordS s :: r => f (u16 (e_sym E s)) r
  | _ => IStuck
  end.
Definition op_byte (r : list codew) (f : Z -> list codew -> ires) : ires :=
  match r with
  | CByte n :: r => f (u8 n) r
  | CByteS s :: r => if String.eqb s PRINT_COLOR then IStuck else f (u8 (e_sym E s)) r
  | _ => IStuck
  end.
(* interp/varaddr.asm:45-62 get_op_var *)
Definition op_var (r : list codew) (f : Z -> list codew -> ires) : ires :=
  match r with CVarn n :: r => f (u16 (e_var E n)) r | _ => IStuck end.
Definition op_lbl (r : list codew) (f : string -> list codew -> ires) : ires :=
  match r with CWordS l :: r => f l r | _ => IStuck end.
(* The operands of an external token *)
Definition is_opd (c : codew) : bool :=
  match c with CTok _ => false | CLabel _ => false | _ => true end.
Fixpoint take_ops (n : nat) (r : list codew) : option (list codew * list codew) :=
  match n with
  | O => Some ([], r)
  | S n =>
      match r with
      | c :: r => if is_opd c then
                    match take_ops n r with
                    | Some (o, r) => Some (c :: o, r)
                    | None => None
                    end
                  else None
      | [] => None
      end
  end.

(* Tokens that compute on AX, or on the stack top and AX *)
Definition with_ax (m : st) (f : Z -> ires) : ires :=
  match ax m with Some (VInt a) => f a | _ => IStuck end.
Definition unop (r : list codew) (m : st) (f : Z -> Z) : ires :=
  with_ax m (fun a => INext r (set_ax (Some (VInt (u16 (f a)))) m)).
Definition binop (r : list codew) (m : st) (f : Z -> Z -> Z) : ires :=
  with_ax m (fun a =>
    match stk m with
    | VInt b :: s => INext r (set_ax (Some (VInt (u16 (f b a)))) (set_stk s m))
    | _ => IStuck
    end).
Definition is_bool (a : Z) : bool := (a =? 0) || (a =? 1).
Definition boolop (r : list codew) (m : st) (f : Z -> Z -> Z) : ires :=
  with_ax m (fun a =>
    match stk m with
    | VInt b :: s =>
        if is_bool a && is_bool b
        then INext r (set_ax (Some (VInt (f b a))) (set_stk s m))
        else IStuck
    | _ => IStuck
    end).
Definition with_bool (m : st) (f : bool -> ires) : ires :=
  with_ax m (fun a => if a =? 0 then f false else if a =? 1 then f true else IStuck).
Definition load (v : Z) (r : list codew) (m : st) : ires :=
  INext r (set_ax (Some (VInt v)) m).
Definition push (m : st) (f : st -> ires) : ires :=
  match ax m with Some v => f (set_stk (v :: stk m) m) | None => IStuck end.
Definition with_sad (m : st) (f : Z -> ires) : ires :=
  match sad m with Some (VInt a) => f a | _ => IStuck end.
(* both registers are dead *)
Definition clear (m : st) : st := set_ax None (set_sad None m).

(* the register given to an external token, if it uses it *)
Definition need (b : bool) (v : option value) : option (option value) :=
  if b then match v with Some _ => Some v | None => None end else Some None.

(* One bytecode instruction; the file for each token is src/interp/<name>.asm as given
   in the comments.  A label costs nothing, but the compiler assumes that the channel
   and the print colour are 0 there (peephole.cc:408), which is checked. *)
Definition quiet (m : st) : bool := (ioch m =? 0) && (col m =? 0).

Definition istep (k : list codew) (m : st) : ires :=
  match k with
  | CLabel _ :: r => if quiet m then INext r m else IStuck
  | CTok t :: r =>
      match t with
      (* const.asm, comp0.asm *)
      | T_NUM => op_word r (fun v r => load v r m)
      | T_BYTE => op_byte r (fun v r => load v r m)
      | T_0 => load 0 r m
      | T_1 => load 1 r m
      | T_PUSH_NUM => push m (fun m => op_word r (fun v r => load v r m))
      | T_PUSH_BYTE => push m (fun m => op_byte r (fun v r => load v r m))
      | T_PUSH_0 => push m (fun m => load 0 r m)
      | T_PUSH_1 => push m (fun m => load 1 r m)
      (* push.asm; pushAX leaves the high byte in A *)
      | T_PUSH => push m (fun m => INext r (set_ax None m))
      (* absneg.asm, ushl.asm, shl8.asm *)
      | T_NEG => unop r m (fun a => - a)
      | T_USHL => unop r m (fun a => 2 * a)
      | T_SHL8 => unop r m (fun a => 256 * a)
      (* mul.asm, div.asm, addsub.asm, bitand.asm, bitor.asm, bitexor.asm *)
      | T_MUL => binop r m Z.mul
      | T_DIV => binop r m div16
      | T_MOD => binop r m mod16
      | T_ADD => binop r m Z.add
      | T_SUB => binop r m Z.sub
      | T_BIT_AND => binop r m Z.land
      | T_BIT_OR => binop r m Z.lor
      | T_BIT_EXOR => binop r m Z.lxor
      (* for.asm *)
      | T_EQ => binop r m (fun b a => b2z (s16 b =? s16 a))
      | T_NEQ => binop r m (fun b a => b2z (negb (s16 b =? s16 a)))
      | T_LT => binop r m (fun b a => b2z (s16 b <? s16 a))
      | T_GT => binop r m (fun b a => b2z (s16 a <? s16 b))
      (* comp0.asm, lnot.asm, land.asm, lor.asm *)
      | T_COMP_0 => unop r m (fun a => b2z (negb (u16 a =? 0)))
      | T_L_NOT => with_bool m (fun b => load (b2z (negb b)) r m)
      | T_L_AND => boolop r m Z.land
      | T_L_OR => boolop r m Z.lor
      (* varadd.asm, varaddr.asm, varstore.asm, saddr.asm *)
      | T_VAR_LOAD => op_var r (fun v r => load (dpeek (mem m) v) r m)
      | T_PUSH_VAR_LOAD =>
          push m (fun m => op_var r (fun v r => load (dpeek (mem m) v) r m))
      | T_ADD_VAR => op_var r (fun v r => unop r m (fun a => a + dpeek (mem m) v))
      | T_VAR_ADDR => op_var r (fun v r => load v r m)
      | T_VAR_SADDR =>
          op_var r (fun v r => INext r (set_ax (Some (VInt v)) (set_sad (Some (VInt v)) m)))
      | T_SADDR => with_ax m (fun a => INext r (set_sad (Some (VInt a)) m))
      | T_VAR_STORE =>
          op_var r (fun v r => with_ax m (fun a =>
            INext r (set_mem (dpoke (mem m) v a) (clear m))))
      | T_VAR_STORE_0 =>
          op_var r (fun v r => INext r (set_mem (dpoke (mem m) v 0) (clear m)))
      (* peek.asm, peekb.asm, poke.asm, dpoke.asm, const_poke.asm *)
      | T_PEEK =>
          match ax m with
          | Some (VInt a) => load (peek (mem m) a) r m
          | Some (VStr s) => load (u8 (Z.of_nat (length s))) r m
          | None => IStuck
          end
      | T_BYTE_PEEK => op_byte r (fun v r => load (peek (mem m) v) r m)
      | T_POKE =>
          with_sad m (fun s => with_ax m (fun a =>
            INext r (set_mem (poke (mem m) s a) (clear m))))
      | T_DPOKE =>
          with_sad m (fun s => with_ax m (fun a =>
            INext r (set_mem (dpoke (mem m) s a) (clear m))))
      | T_BYTE_POKE =>
          with_ax m (fun a =>
            match r with
            | CByteS s :: r' =>
                if String.eqb s PRINT_COLOR
                then INext r' (set_col (u8 a) (set_ax None m))
                else op_byte r (fun v r =>
                       INext r (set_mem (poke (mem m) v a) (set_ax None m)))
            | _ => op_byte r (fun v r =>
                       INext r (set_mem (poke (mem m) v a) (set_ax None m)))
            end)
      | T_NUM_POKE =>
          with_ax m (fun a =>
            op_word r (fun v r => INext r (set_mem (poke (mem m) v a) (clear m))))
      (* inc.asm, dec.asm *)
      | T_INC =>
          with_ax m (fun a =>
            INext r (set_mem (dpoke (mem m) a (u16 (dpeek (mem m) a + 1))) (clear m)))
      | T_DEC =>
          with_ax m (fun a =>
            INext r (set_mem (dpoke (mem m) a (u16 (dpeek (mem m) a - 1))) (clear m)))
      | T_INCVAR =>
          op_var r (fun a r =>
            INext r (set_mem (dpoke (mem m) a (u16 (dpeek (mem m) a + 1))) (clear m)))
      | T_DECVAR =>
          op_var r (fun a r =>
            INext r (set_mem (dpoke (mem m) a (u16 (dpeek (mem m) a - 1))) (clear m)))
      (* put.asm, putbyte.asm, a800/getkey.asm, a800/get.asm, a800/iochn.asm *)
      | T_PUT => with_ax m (fun a => INext r (putb a (set_ax None m)))
      | T_BYTE_PUT => op_byte r (fun v r => INext r (putb v (set_ax None m)))
      | T_GET =>
          let (v, p) := e_get E (ioch m) (wld m) (mem m) in
          INext r (set_ax (Some (VInt (u16 v))) (set_wm p m))
      | T_GETKEY =>
          let (v, p) := e_getkey E (wld m) (mem m) in
          INext r (set_ax (Some (VInt (u16 v))) (set_wm p m))
      | T_IOCHN =>
          with_ax m (fun a => INext r (set_ioch (u8 (16 * a)) (set_ax None m)))
      (* const.asm (CSTRING), print_str.asm, chr.asm, strindex.asm *)
      | T_CSTRING =>
          match r with
          | CStr s :: r =>
              if Z.of_nat (length s) <? 256
              then INext r (set_ax (Some (VStr s)) m) else IStuck
          | _ => IStuck
          end
      | T_PRINT_STR =>
          match ax m with
          | Some (VStr s) => INext r (puts s (set_ax None m))
          | Some (VInt a) => INext r (puts (str_at (mem m) a) (set_ax None m))
          | None => IStuck
          end
      | T_CHR => with_ax m (fun a => INext r (set_ax (Some (VStr [u8 a])) m))
      | T_STR_IDX =>
          with_ax m (fun n =>
            match stk m with
            | VInt p :: VStr s :: q =>
                INext r (set_ax (Some (VStr (str_idx s p n))) (set_stk q m))
            | VInt p :: VInt a :: q =>
                INext r (set_ax (Some (VStr (str_idx (str_at (mem m) a) p n)))
                           (set_stk q m))
            | _ => IStuck
            end)
      (* jump.asm, return.asm; AX is lost *)
      | T_JUMP => op_lbl r (fun l _ => IJump l (set_ax None m))
      | T_CJUMP =>
          op_lbl r (fun l r => with_bool m (fun b =>
            if b then INext r (set_ax None m) else IJump l (set_ax None m)))
      | T_CNJUMP =>
          op_lbl r (fun l r => with_bool m (fun b =>
            if b then IJump l (set_ax None m) else INext r (set_ax None m)))
      | T_CALL => op_lbl r (fun l r => ICall l r (set_ax None m))
      | T_RET => if quiet m then IRet (set_ax None m) else IStuck
      | T_CRET =>
          with_bool m (fun b =>
            if b then INext r (set_ax None m)
            else if quiet m then IRet (set_ax None m) else IStuck)
      | T_CNRET =>
          with_bool m (fun b =>
            if b then if quiet m then IRet (set_ax None m) else IStuck
            else INext r (set_ax None m))
      | T_END => IEnd m
      | T_Other n =>
          match take_ops (e_ar E n) r, need (e_ax E n) (ax m), need (e_sad E n) (sad m) with
          | Some (o, r), Some a, Some s =>
              match e_ext E n o a s (stk m) (mem m) (wld m) (ioch m) (col m) with
              | Some (k', a', f, w, ev) =>
                  INext r (mkst (option_map norm a') (if e_sad E n then None else sad m)
                             (map norm k') f (ioch m) (col m) w (map (Ext n) ev ++ out m))
              | None => IStuck
              end
          | _, _, _ => IStuck
          end
      end
  | _ => IStuck
  end.

(* The code from the label [l] on; jumps go there (in the assembled program the label
   is an address, there is one label of each name). *)
Fixpoint find_label (l : string) (p : list codew) : option (list codew) :=
  match p with
  | [] => None
  | CLabel x :: r => if String.eqb x l then Some p else find_label l r
  | _ :: r => find_label l r
  end.

(* A running program: code still to run, return addresses, machine. *)
Record cfg := mkcfg { pc : list codew; ret : list (list codew); mac : st }.

Inductive sres :=
| SStuck
| SFin (m : st)
| SNext (c : cfg).

(* interpreter.asm:99-115 nxtins: one turn of the interpreter loop *)
Definition step (p : list codew) (c : cfg) : sres :=
  match istep (pc c) (mac c) with
  | IStuck => SStuck
  | INext k m => SNext (mkcfg k (ret c) m)
  | IJump l m =>
      match find_label l p with
      | Some k => SNext (mkcfg k (ret c) m)
      | None => SStuck
      end
  | ICall l r m =>
      match find_label l p with
      | Some k => SNext (mkcfg k (r :: ret c) m)
      | None => SStuck
      end
  | IRet m =>
      match ret c with
      | k :: f => SNext (mkcfg k f m)
      | [] => SStuck
      end
  | IEnd m => SFin m
  end.

Inductive steps (p : list codew) : nat -> cfg -> cfg -> Prop :=
| steps_0 c : steps p 0 c c
| steps_S n c c1 c2 : step p c = SNext c1 -> steps p n c1 c2 -> steps p (S n) c c2.

(* interpreter.asm: the start of a program *)
Definition start (p : list codew) (f : Z -> Z) (w : W) : cfg :=
  mkcfg p [] (mkst None None [] f 0 0 w []).

(* The behaviour of a program from a memory [f] and a world [w]. *)
(* What is left of a run: its effects in order, the memory and the outside world. *)
Definition seen (m : st) : list event * (Z -> Z) * W := (rev (out m), mem m, wld m).
(* It ends with exactly the effects, the memory and the world [x]. *)
Definition ends (p : list codew) (f : Z -> Z) (w : W) (x : list event * (Z -> Z) * W)
  : Prop :=
  exists n c m, steps p n (start p f w) c /\ step p c = SFin m /\ x = seen m.
(* It produces at least the effects [o], in this order, as its first effects. *)
Definition produces (p : list codew) (f : Z -> Z) (w : W) (o : list event) : Prop :=
  exists n c o', steps p n (start p f w) c /\ rev (out (mac c)) = o ++ o'.
(* It never gets stuck: no read of a dead register, no stack underflow, no missing
   label, no malformed instruction, channel and colour 0 at labels and returns. *)
Definition safe (p : list codew) (f : Z -> Z) (w : W) : Prop :=
  forall n c, steps p n (start p f w) c -> step p c <> SStuck.

(* [q] can replace [p]: whenever [p] runs safely, so does [q], it ends if and only if [p]
   does, with the same effects, memory and world, and produces the same effects when it runs forever. *)
Definition replaces (p q : list codew) (f : Z -> Z) (w : W) : Prop :=
  safe p f w ->
  safe q f w /\
  (forall x, ends q f w x <-> ends p f w x) /\
  (forall o, produces q f w o <-> produces p f w o).

End Machine.
