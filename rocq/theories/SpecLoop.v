(* How a state of the 6502 represents a state of the byte code machine (Vm.v), and which
   steps of the byte code machine the run-time is expected to carry out. *)
From Verif Require Import Vm.
From Verif Require Export RtLoop PeepBytes.
Open Scope string_scope.
Open Scope list_scope.
Open Scope Z_scope.

Section Spec.
Context {W : Type}.
Variable E : env W.
Variable I : image.
Variable p : list codew.
Notation L := (lay_of I).
Notation B := (base I).

(* ---- memory ---- *)
(* cells of the byte code *)
Definition incode (a : Z) : Prop := B <= a < B + size p.
(* Cells that belong to the program that runs: not the hardware stack, the interpreter, its
   variables, the evaluation stack, nor what was loaded from $2000 up to the variables.
   The error number is the program's. *)
Definition public (a : Z) : Prop :=
  0 <= a < 65536 /\ ~ 128 <= a < 156 /\ ~ zp L <= a < zp L + 8 /\ a <> zp L + 9 /\
  ~ saddr L <= a < saddr L + 2 /\ ~ 256 <= a < 512 /\ ~ 1152 <= a < 1232 /\
  ~ 8192 <= a < heap L.
Definition readable (a : Z) : Prop := public a \/ incode a.

(* ---- values ---- *)
(* a position in the code and its address *)
Definition at_addr (k : list codew) (n : Z) : Prop := exists pre, p = pre ++ k /\ n = B + size pre.
(* A number is itself, a constant string is where it is in the code. *)
Definition means (v : value) (n : Z) : Prop :=
  match v with
  | VInt a => n = a /\ 0 <= a < 65536
  | VStr x => (List.length x < 256)%nat /\ exists r, at_addr (CStr x :: r) n
  end.
Definition holds_value (v : option value) (n : Z) : Prop :=
  match v with Some v => means v n | None => True end.
Definition word_at (m : Z -> Z) (a : Z) : Z := m a + 256 * m (a + 1).
(* entry [i] of the evaluation stack, from the top *)
Definition entry_at (m : Z -> Z) (i : Z) : Z := m (stack_l + m sptr + i) + 256 * m (stack_h + m sptr + i).
(* The return addresses of GOSUBs and procedures on the hardware stack, above [st]. *)
Inductive frames (st : list cell) : list (list codew) -> list cell -> Prop :=
| frames_0 : frames st [] st
| frames_S k ks l h r : at_addr k (l + 256 * h) -> 0 <= l < 256 -> 0 <= h < 256 ->
    frames st ks r -> frames st (k :: ks) (Cpu.CByte h :: Cpu.CByte l :: r).

(* ---- states ---- *)
Definition bytes_at (m : Z -> Z) (a : Z) (l : list Z) : Prop :=
  forall i x, nth_error l i = Some x -> m (a + Z.of_nat i) = x.
Record holds_state (f : Z -> Z) (io co : Z) (k : list value) (sd : option value) (m : Z -> Z) : Prop := mkholds {
  h_bytes : forall a, 0 <= m a < 256;
  h_code : bytes_at m B (assemble (num_of I) (e_sym E) p);
  h_mem : forall a, readable a -> m a = u8 (f a);
  h_io : m (IOCHN L) = io;
  h_col : m (PRINT_COLOR L) = co;
  h_page : m (smc L + 6) = heap L / 256;      (* src/interp/varaddr.asm: var_page *)
  h_depth : m sptr = 40 - Z.of_nat (List.length k) /\ (List.length k <= 40)%nat;
  h_stack : forall i v, nth_error k i = Some v -> means v (entry_at m (Z.of_nat i));
  h_sad : holds_value sd (word_at m (saddr L))
}.
Record related (st : list cell) (c : cfg) (a : mach (W := W)) : Prop := mkrelated {
  r_regs : 0 <= A (fst (fst a)) < 256 /\ 0 <= X (fst (fst a)) < 256 /\ 0 <= Y (fst (fst a)) < 256;
  r_pc : at_addr (pc c) (word_at (M (fst (fst a))) cptr);
  r_ret : frames st (ret c) (S (fst (fst a)));
  r_ax : holds_value (ax (mac c)) (A (fst (fst a)) + 256 * X (fst (fst a)));
  r_state : holds_state (mem (mac c)) (ioch (mac c)) (col (mac c)) (stk (mac c)) (sad (mac c)) (M (fst (fst a)));
  r_world : snd (fst a) = wld (mac c);
  r_out : snd a = out (mac c)
}.

(* ---- the program and its environment ---- *)
(* The linker: numbers of tokens, values of symbols, variables after the program
   (src/standalone.asm:57-90, two bytes for each variable). *)
Record linked : Prop := mklinked {
  l_lay : lay_ok L;
  l_place : 8192 <= B /\ B + size p < heap L /\ apart (smc L) 32 B (size p);
  l_tok : forall t, List.In (CTok t) p -> 0 <= num_of I t < 256 /\ routine I (num_of I t) = exe t;
  l_label : forall l k, find_label l p = Some k -> u16 (e_sym E l) = B + (size p - size k);
  l_color : u8 (e_sym E Peephole.PRINT_COLOR) = PRINT_COLOR L;
  l_var : forall n, List.In (CVarn n) p -> 0 <= n < 256 /\ e_var E n = heap L + 2 * n;
  l_fp : forall x, List.In (CFp x) p -> List.length x = 6%nat;
  l_str : forall x, List.In (CStr x) p -> Forall (fun b => 0 <= b < 256) x
}.
(* The operating system: sending a byte to a channel has the effect that the environment
   says, and may change memory in the cells [dev] only. *)
Record serves (dev : Z -> bool) (handler : W -> cpu -> W * cpu) : Prop := mkserves {
  s_dev : forall a, dev a = true -> public a;
  s_put : forall ch b w f a, dev a = false -> u8 (snd (e_put E ch b w f) a) = u8 (f a);
  s_error : dev (IOERROR L) = true;
  s_handler : forall w s f, (forall a, 0 <= M s a < 256) -> (forall a, readable a -> M s a = u8 (f a)) ->
    let r := handler w s in
    let q := e_put E (M s (IOCHN L)) (A s) w f in
    0 <= A (snd r) < 256 /\ 0 <= X (snd r) < 256 /\ 0 <= Y (snd r) < 256 /\
    (forall a, 0 <= M (snd r) a < 256) /\ S (snd r) = S s /\ fst r = fst q /\
    (forall a, dev a = false -> M (snd r) a = M s a) /\
    (forall a, dev a = true -> (if a =? IOERROR L then Y (snd r) else M (snd r) a) = u8 (snd q a))
}.

(* ---- the steps that are expected ---- *)
(* The run-time's own tokens, the ones modelled. *)
Definition native (t : tok) : bool :=
  match t with
  | T_GET | T_GETKEY | T_CHR | T_STR_IDX | T_Other _ => false
  | _ => true
  end.
(* the addresses that the first instruction of the code reads and writes *)
Definition two (a : Z) : list Z := [u16 a; u16 (a + 1)].
Definition opt (v : option value) (f : Z -> list Z) : list Z :=
  match v with Some (VInt a) => f a | _ => [] end.
Definition operand (k : list codew) (f : Z -> list Z) : list Z :=
  match k with
  | CVarn n :: _ => f (e_var E n)
  | Codew.CByte n :: _ => f (u8 n)
  | CByteS s :: _ => f (u8 (e_sym E s))
  | CWord n :: _ => f n
  | CWordS s :: _ => f (e_sym E s)
  | _ => []
  end.
Fixpoint span (a : Z) (n : nat) : list Z :=
  match n with O => [] | Datatypes.S n => u16 a :: span (a + 1) n end.
Definition reads (k : list codew) (m : st W) : list Z :=
  match k with
  | CTok t :: r =>
      match t with
      | T_VAR_LOAD | T_PUSH_VAR_LOAD | T_ADD_VAR => operand r two
      | T_PEEK => opt (ax m) (fun a => [u16 a])
      | T_BYTE_PEEK => operand r (fun a => [a])
      | T_PRINT_STR => opt (ax m) (fun a => span a (1 + Z.to_nat (peek (mem m) a)))
      | _ => []
      end
  | _ => []
  end.
Definition writes (k : list codew) (m : st W) : list Z :=
  match k with
  | CTok t :: r =>
      match t with
      | T_VAR_STORE | T_VAR_STORE_0 | T_INCVAR | T_DECVAR => operand r two
      | T_POKE => opt (sad m) (fun a => [u16 a])
      | T_DPOKE => opt (sad m) two
      | T_INC | T_DEC => opt (ax m) two
      | T_NUM_POKE => operand r (fun a => [u16 a])
      | T_BYTE_POKE =>
          match r with
          | CByteS s :: _ => if String.eqb s Peephole.PRINT_COLOR then [] else operand r (fun a => [a])
          | _ => operand r (fun a => [a])
          end
      | _ => []
      end
  | _ => []
  end.
(* A step that the run-time carries out: a modelled token, with accesses inside of the
   memory of the program.  A string that is printed is not changed by the device. *)
Definition expected (dev : Z -> bool) (c : cfg) : Prop :=
  match pc c with CTok t :: _ => native t = true | _ => True end /\
  Forall readable (reads (pc c) (mac c)) /\ Forall public (writes (pc c) (mac c)) /\
  match pc c with
  | CTok T_PRINT_STR :: _ => Forall (fun a => dev a = false) (reads (pc c) (mac c))
  | _ => True
  end.
End Spec.
