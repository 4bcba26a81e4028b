(* Integer expressions of the language: trees, the text that denotes each of them, and
   their value.  Nothing here depends on the parser or its tables; names and addresses of
   variables and labels, and the functions of the run-time, are parameters. *)
From Verif Require Import Codew Text SpecText Vm.

(* ---- Trees ---- *)
(* manual.md, "Expressions": bit, product and sum operators, comparisons, NOT, AND, OR. *)
Inductive bop := BitAnd | BitOr | BitExor | Mul | Div | Mod | Add | Sub.
Inductive cop := Le | Ge | Ne | Lt | Gt | Eq.
Inductive fn := Abs | Sgn | Peek | Dpeek | Rand | Paddle | Ptrig | Stick | Strig | Pmadr.
Inductive fn0 := Time | Fre | Err | Key | Serr.
Inductive sfn := Len | Val | Asc.
(* An array: a variable that points to it, or the label of data. *)
Inductive base := BVar (n : Z) | BLab (l : string).

Inductive exp :=
| ENum (n : Z)                       (* a number *)
| ESym (byte : bool) (s : string)    (* @name and @@name, symbols of the assembler *)
| EVar (n : Z)                       (* the integer variable of this number *)
| EElem (byte : bool) (b : base) (e : exp)
| ENeg (e : exp) | EPos (e : exp) | EPar (e : exp) | ENot (e : exp)
| EBin (o : bop) (a b : exp)
| ECmp (o : cop) (a b : exp)
| ESCmp (o : cop) (a b : str)
| EAnd (a b : exp) | EOr (a b : exp)
| EFn (f : fn) (e : exp) | EFn0 (f : fn0) | ESfn (f : sfn) (s : str)
| EUsr (e : exp) (es : exps)
| EAdrS (par : bool) (s : str)       (* ADR( ) or & of a string *)
| EAdrB (b : base)                   (* of an array *)
| EAdrV (n : Z)                      (* of a variable *)
with str :=
| SLit (b : bytes) | SChr (e : exp) | SStr (e : exp) | SPtr (e : exp)
| SVar (n : Z) | SElem (n : Z) (e : exp)
| SIdx (s : str) (p n : exp) | SFrom (s : str) (p : exp) | SPar (s : str)
with exps := ENil | ECons (e : exp) (es : exps).

(* ---- How the last part of a tree ends ---- *)
(* NOT without parentheses takes as much of the text as it can: what follows an operand
   that ends in such a NOT cannot be an operator that NOT would have taken.  A comparison
   of strings cannot be continued. *)
Inductive ending := Done | InNot | AfterStr.
Fixpoint tail (e : exp) : ending :=
  match e with
  | ENeg e | EPos e | EFn _ e => tail e
  | ENot e => match tail e with AfterStr => AfterStr | _ => InNot end
  | EBin _ _ b | ECmp _ _ b | EAnd _ b | EOr _ b => tail b
  | ESCmp _ _ t => match stail t with InNot => InNot | _ => AfterStr end
  | ESfn _ s | EAdrS false s => stail s
  | _ => Done
  end
with stail (s : str) : ending :=
  match s with
  | SChr e | SStr e => match tail e with InNot => InNot | _ => Done end
  | _ => Done
  end.
(* A comparison of strings, perhaps after NOT. *)
Fixpoint bare (e : exp) : bool :=
  match e with
  | ESCmp _ _ t => match stail t with InNot => false | _ => true end
  | ENot e => bare e
  | _ => false
  end.
(* AND and OR whose last operand is one. *)
Fixpoint dangling (e : exp) : bool :=
  match e with
  | EAnd _ b | EOr _ b => bare b || dangling b
  | _ => false
  end.
Fixpoint odd (e : exp) : bool :=
  match e with
  | ECmp _ a _ => dangling a || odd a
  | _ => false
  end.

(* ---- Words and numbers ---- *)
Definition blank (c : Z) : Prop := c = 32 \/ c = 9.
Definition same_letter (c d : Z) : Prop :=
  c = d \/ 65 <= c <= 90 /\ d = c + 32 \/ 97 <= c <= 122 /\ d = c - 32.
(* The spelling of a keyword: letters in any case; from a small letter on, the rest can
   be replaced by a dot. *)
Inductive spell : bytes -> bytes -> bytes -> Prop :=
| spell_end r : spell [] r r
| spell_char c w d i r : same_letter c d -> spell w i r -> spell (c :: w) (d :: i) r
| spell_dot c w r : 97 <= c <= 122 -> spell (c :: w) (46 :: r) r.
(* A keyword with blanks before it. *)
Definition word (w : string) (i r : bytes) : Prop :=
  exists b j, Forall blank b /\ i = b ++ j /\ spell (chars w) j r.
(* A number in decimal or hexadecimal. *)
Definition number (i : bytes) (n : Z) (r : bytes) : Prop :=
  exists ds cs, ds <> [] /\
   (i = 36 :: cs ++ r /\ Forall2 hex_char ds cs /\ n = SpecText.value 16 ds \/
    i = cs ++ r /\ Forall2 dec_char ds cs /\ n = SpecText.value 10 ds \/
    i = 45 :: cs ++ r /\ Forall2 dec_char ds cs /\ n = (- SpecText.value 10 ds) mod 65536).
(* A name: letters, digits and underscores, in any case, and as many of them as there
   are; blanks before and after. *)
Definition name_letter (c : Z) : Prop := 65 <= c <= 90 \/ 97 <= c <= 122 \/ c = 95.
Definition name_more (c : Z) : Prop := name_letter c \/ 48 <= c <= 57.
Definition big (c : Z) : Z := if (97 <=? c) && (c <=? 122) then c - 32 else c.
Definition ident (i : bytes) (n : string) (r : bytes) : Prop :=
  exists b c cs t, Forall blank b /\ Forall blank t /\ i = b ++ c :: cs ++ t ++ r /\
    name_letter c /\ Forall name_more cs /\ (forall d, hd_error (t ++ r) = Some d -> ~ name_more d) /\
    chars n = map big (c :: cs).

Definition bop_word (o : bop) : string :=
  match o with
  | BitAnd => "&" | BitOr => "!" | BitExor => "Exor" | Mul => "*" | Div => "/" | Mod => "Mod"
  | Add => "+" | Sub => "-"
  end%string.
Definition cop_word (o : cop) : string :=
  match o with Le => "<=" | Ge => ">=" | Ne => "<>" | Lt => "<" | Gt => ">" | Eq => "=" end%string.
(* Binding strength, 1 the strongest. *)
Definition bop_level (o : bop) : nat :=
  match o with BitAnd | BitOr | BitExor => 1 | Mul | Div | Mod => 2 | Add | Sub => 3 end.
Definition fn_word (f : fn) : string :=
  match f with
  | Abs => "Abs" | Sgn => "SGn" | Peek => "Peek" | Dpeek => "Dpeek" | Rand => "Rand"
  | Paddle => "PAddle" | Ptrig => "PTrig" | Stick => "Stick" | Strig => "STRig" | Pmadr => "PMadr"
  end%string.
Definition fn0_word (f : fn0) : string :=
  match f with Time => "Time" | Fre => "Fre()" | Err => "Err()" | Key => "Key()" | Serr => "SErr()" end%string.
Definition sfn_word (f : sfn) : string := match f with Len => "Len" | Val => "Val" | Asc => "ASc" end%string.

(* ---- The text of a tree ---- *)
(* Types of variables, and of labels of data. *)
Definition ty_word := 1.
Definition ty_words := 2.
Definition ty_bytes := 3.
Definition ty_strings := 4.
Definition ty_floats := 5.
Definition ty_string := 6.
Definition ty_float := 7.
Definition lab_words := 128.
Definition lab_bytes := 129.

Section Text.
(* Number and type of each variable, type of each label. *)
Variable V : string -> option (Z * Z).
Variable L : string -> option Z.

(* The name of a variable of the type. *)
Definition var (t : Z) (i : bytes) (n : Z) (r : bytes) : Prop :=
  exists x, ident i x r /\ V x = Some (n, t).
(* The name of an array. *)
Definition array (byte : bool) (i : bytes) (b : base) (r : bytes) : Prop :=
  match b with
  | BVar n => var (if byte then ty_bytes else ty_words) i n r
  | BLab l => exists x, ident i x r /\ L x = Some (if byte then lab_bytes else lab_words)
                        /\ l = append "fb_lbl_" x
  end.

(* [gram l i r e]: the text [i] is an expression of level [l] for the tree [e], and then
   [r].  Levels: 0 terms, 1 to 3 operators, 4 comparisons, 5 NOT, 6 AND, 7 OR, 8 all. *)
Inductive gram : nat -> bytes -> bytes -> exp -> Prop :=
| g_lead l c i r e : blank c -> gram l i r e -> gram l (c :: i) r e
| g_trail l c i r e : blank c -> gram l i (c :: r) e -> gram l i r e
| g_up l i r e : gram l i r e -> gram (S l) i r e
| g_num i n r : number i n r -> gram 0 i r (ENum n)
| g_symb i j n r : word "@@" i j -> ident j n r -> gram 0 i r (ESym true n)
| g_symw i j n r : word "@" i j -> ident j n r -> gram 0 i r (ESym false n)
| g_var i n r : var ty_word i n r -> gram 0 i r (EVar n)
| g_elem byte i b j k m e r : array byte i b j -> word "(" j k -> gram 8 k m e -> word ")" m r ->
    gram 0 i r (EElem byte b e)
| g_neg i j r e : word "-" i j -> gram 0 j r e -> gram 0 i r (ENeg e)
| g_pos i j r e : word "+" i j -> gram 0 j r e -> gram 0 i r (EPos e)
| g_par i j k r e : word "(" i j -> gram 8 j k e -> word ")" k r -> gram 0 i r (EPar e)
| g_not0 i j r e : word "Not" i j -> gram 5 j r e -> gram 0 i r (ENot e)
| g_fn f i j r e : word (fn_word f) i j -> gram 0 j r e -> gram 0 i r (EFn f e)
| g_fn0 f i r : word (fn0_word f) i r -> gram 0 i r (EFn0 f)
| g_sfn f i j r s : word (sfn_word f) i j -> sgram j r s -> gram 0 i r (ESfn f s)
| g_usr i j k m r e es : word "USR(" i j -> gram 8 j k e -> args k m es -> word ")" m r ->
    gram 0 i r (EUsr e es)
| g_adr_s i j k r s : word "ADR(" i j -> sgram j k s -> word ")" k r -> gram 0 i r (EAdrS true s)
| g_ref_s i j r s : word "&" i j -> sgram j r s -> gram 0 i r (EAdrS false s)
| g_adr_b i j k r byte b : word "ADR(" i j -> array byte j b k -> word ")" k r -> gram 0 i r (EAdrB b)
| g_ref_b i j r byte b : word "&" i j -> array byte j b r -> gram 0 i r (EAdrB b)
| g_adr_t i j k m r n t : word "ADR(" i j -> var t j n k -> t = ty_strings \/ t = ty_floats ->
    word (if t =? ty_floats then "%" else "") k m -> word ")" m r -> gram 0 i r (EAdrB (BVar n))
| g_ref_t i j k r n t : word "&" i j -> var t j n k -> t = ty_strings \/ t = ty_floats ->
    word (if t =? ty_floats then "%" else "") k r -> gram 0 i r (EAdrB (BVar n))
| g_adr_v i j k m r n t : word "ADR(" i j -> var t j n k -> t = ty_word \/ t = ty_float ->
    word (if t =? ty_float then "%" else "") k m -> word ")" m r -> gram 0 i r (EAdrV n)
| g_ref_v i j k r n t : word "&" i j -> var t j n k -> t = ty_word \/ t = ty_float ->
    word (if t =? ty_float then "%" else "") k r -> gram 0 i r (EAdrV n)
| g_bin o l i j k r a b : bop_level o = S l -> gram (S l) i j a -> tail a <> InNot ->
    word (bop_word o) j k -> gram l k r b -> gram (S l) i r (EBin o a b)
| g_cmp o i j k r a b : gram 4 i j a -> tail a <> InNot -> word (cop_word o) j k -> gram 3 k r b ->
    gram 4 i r (ECmp o a b)
| g_scmp o i j k r s t : sgram i j s -> word (cop_word o) j k -> sgram k r t ->
    gram 4 i r (ESCmp o s t)
| g_not i j r e : word "Not" i j -> gram 5 j r e -> gram 5 i r (ENot e)
| g_and i j k r a b : gram 6 i j a -> word "And" j k -> gram 5 k r b -> gram 6 i r (EAnd a b)
| g_or i j k r a b : gram 7 i j a -> word "Or" j k -> gram 6 k r b -> gram 7 i r (EOr a b)
(* Only after a comparison of strings: a comparison of the result of AND or OR. *)
| g_odd o i j k r a b : gram 8 i j a -> dangling a = true \/ odd a = true ->
    word (cop_word o) j k -> gram 3 k r b -> gram 8 i r (ECmp o a b)
with sgram : bytes -> bytes -> str -> Prop :=
| s_lead c i r s : blank c -> sgram i r s -> sgram (c :: i) r s
| s_trail c i r s : blank c -> sgram i (c :: r) s -> sgram i r s
| s_lit i j b r : word """" i j -> Lit_in j b r -> sgram i r (SLit b)
| s_chr i j r e : word "CHR$" i j -> gram 0 j r e -> sgram i r (SChr e)
| s_str i j r e : word "STR$" i j -> gram 0 j r e -> sgram i r (SStr e)
| s_ptr i j k m r e : word "$" i j -> word "(" j k -> gram 8 k m e -> word ")" m r -> sgram i r (SPtr e)
| s_var i j n r : var ty_string i n j -> word "$" j r -> sgram i r (SVar n)
| s_elem i j k m p n e r : var ty_strings i n j -> word "$" j k -> word "(" k m -> gram 8 m p e ->
    word ")" p r -> sgram i r (SElem n e)
| s_idx i j k m p q r s a b : sgram i j s -> word "[" j k -> gram 8 k m a -> word "," m p ->
    gram 8 p q b -> word "]" q r -> sgram i r (SIdx s a b)
| s_from i j k m r s a : sgram i j s -> word "[" j k -> gram 8 k m a -> word "]" m r -> sgram i r (SFrom s a)
| s_par i j k r s : word "(" i j -> sgram j k s -> word ")" k r -> sgram i r (SPar s)
with args : bytes -> bytes -> exps -> Prop :=
| a_lead c i r es : blank c -> args i r es -> args (c :: i) r es
| a_nil i : args i i ENil
| a_cons i j k r e es : word "," i j -> gram 8 j k e -> args k r es -> args i r (ECons e es).
End Text.

(* ---- Values ---- *)
Section Meaning.
Context {W : Type}.
Variable X : Vm.env W.
(* Functions of the run-time that are not described here: TIME, RAND, VAL and STR$. *)
Variable F : string -> option value -> (Z -> Z) -> W -> option (value * (Z -> Z) * W).

(* The memory and the rest of the world change while an expression is computed. *)
Definition world := ((Z -> Z) * W)%type.
Definition sem := world -> option (value * world).
Definition ret (v : value) : sem := fun m => Some (v, m).
Definition none : sem := fun _ => None.
Definition bind (a : sem) (k : value -> sem) : sem :=
  fun m => match a m with Some (v, m) => k v m | None => None end.
Definition with_int (v : value) (k : Z -> sem) : sem := match v with VInt a => k a | VStr _ => none end.
Definition int (a : sem) (k : Z -> sem) : sem := bind a (fun v => with_int v k).
(* Numbers are kept modulo 65536. *)
Definition num (z : Z) : sem := ret (VInt (z mod 65536)).
Definition signed (z : Z) : Z := if z mod 65536 <? 32768 then z mod 65536 else z mod 65536 - 65536.
Definition byte_at (f : Z -> Z) (a : Z) : Z := f (a mod 65536) mod 256.
Definition word_at (f : Z -> Z) (a : Z) : Z := byte_at f a + 256 * byte_at f (a + 1).
Definition read_byte (a : Z) : sem := fun m => num (byte_at (fst m) a) m.
Definition read_word (a : Z) : sem := fun m => num (word_at (fst m) a) m.
(* The characters of a string: a length byte and its characters, or a literal. *)
Fixpoint chars_at (f : Z -> Z) (a : Z) (n : nat) : bytes :=
  match n with O => [] | S n => byte_at f a :: chars_at f (a + 1) n end.
Definition text_of (v : value) (f : Z -> Z) : bytes :=
  match v with
  | VInt a => chars_at f (a + 1) (Z.to_nat (byte_at f a))
  | VStr s => s
  end.
Definition part (s : bytes) (p n : Z) : bytes :=
  if (signed n <? 0) || (p mod 65536 <? 1) || (255 <? p mod 65536) then []
  else firstn (Z.to_nat (Z.min 255 (signed n))) (skipn (Z.to_nat (p mod 65536 - 1)) s).
Fixpoint order (a b : bytes) : comparison :=
  match a, b with
  | [], [] => Datatypes.Eq
  | [], _ => Datatypes.Lt
  | _, [] => Datatypes.Gt
  | x :: a, y :: b => match x ?= y with Datatypes.Eq => order a b | o => o end
  end.
Definition call (n : string) (v : option value) : sem :=
  fun m => match F n v (fst m) (snd m) with
           | Some (v, f, w) => Some (Vm.norm v, (f, w))
           | None => None
           end.

Definition bop_value (o : bop) (a b : Z) : Z :=
  match o with
  | BitAnd => Z.land a b
  | BitOr => Z.lor a b
  | BitExor => Z.lxor a b
  | Mul => a * b
  (* div.asm: the quotient is truncated; without divisor, -1, or 1 for a negative number *)
  | Div => if signed b =? 0 then (if signed a <? 0 then 1 else -1) else Z.quot (signed a) (signed b)
  (* the remainder has the sign of the dividend; without divisor, one of 256 *)
  | Mod => if signed b =? 0
           then (if signed a <? 0 then - (Z.abs (signed a) mod 256) else signed a mod 256)
           else Z.rem (signed a) (signed b)
  | Add => a + b
  | Sub => a - b
  end.
Definition cop_value (o : cop) (c : comparison) : bool :=
  match o, c with
  | Le, Datatypes.Gt => false | Le, _ => true
  | Ge, Datatypes.Lt => false | Ge, _ => true
  | Ne, Datatypes.Eq => false | Ne, _ => true
  | Lt, Datatypes.Lt => true | Lt, _ => false
  | Gt, Datatypes.Gt => true | Gt, _ => false
  | Eq, Datatypes.Eq => true | Eq, _ => false
  end.
(* Truth values: 1 and 0; any number except 0 is true. *)
Definition truth (b : bool) : sem := num (if b then 1 else 0).
Definition holds (a : Z) : bool := negb (a =? 0).
Definition base_value (b : base) : sem :=
  match b with BVar n => read_word (e_var X n) | BLab l => num (e_sym X l) end.
Definition peek_value (v : value) : sem :=
  match v with VInt a => read_byte a | VStr s => num (Z.of_nat (List.length s) mod 256) end.
(* PADDLE, PTRIG, STICK and STRIG read shadow registers of the operating system. *)
Definition port (a mask n : Z) : sem := read_byte (a + Z.land mask n).

Fixpoint eval (e : exp) : sem :=
  match e with
  | ENum n => num n
  | ESym true s => if String.eqb s "PRINT_COLOR" then none else num (e_sym X s mod 256)
  | ESym false s => num (e_sym X s)
  | EVar n => read_word (e_var X n)
  | EElem byte b e =>
      int (base_value b) (fun a => int (eval e) (fun i =>
        if byte then read_byte (a + i) else read_word (a + 2 * i)))
  | ENeg e => int (eval e) (fun a => num (- a))
  | EPos e | EPar e => eval e
  | ENot e => int (eval e) (fun a => truth (negb (holds a)))
  | EBin o a b => int (eval a) (fun x => int (eval b) (fun y => num (bop_value o x y)))
  | ECmp o a b => int (eval a) (fun x => int (eval b) (fun y =>
      truth (cop_value o (signed x ?= signed y))))
  | ESCmp o s t => bind (seval s) (fun x => bind (seval t) (fun y m =>
      truth (cop_value o (order (text_of x (fst m)) (text_of y (fst m)))) m))
  | EAnd a b => int (eval a) (fun x => int (eval b) (fun y => truth (holds x && holds y)))
  | EOr a b => int (eval a) (fun x => int (eval b) (fun y => truth (holds x || holds y)))
  | EFn f e =>
      bind (eval e) (fun v =>
        match f with
        | Abs => with_int v (fun a => num (Z.abs (signed a)))
        | Sgn => with_int v (fun a => num (Z.sgn (signed a)))
        | Peek => peek_value v
        | Dpeek => with_int v read_word
        | Rand => call "TOK_RAND" (Some v)
        | Paddle => with_int v (port 624 7)
        | Ptrig => with_int v (port 636 7)
        | Stick => with_int v (port 632 3)
        | Strig => with_int v (port 644 3)
        | Pmadr => with_int v (fun a =>
            int (read_byte (e_sym X "PMGMODE")) (fun g => int (read_byte (e_sym X "PMGBASE")) (fun h =>
              num ((a + 4) * (2 * g) + 256 * h))))
        end)
  | EFn0 f =>
      match f with
      | Time => call "TOK_TIME" None
      | Fre => int (read_word (e_sym X "MEMTOP")) (fun a =>
               int (read_word (e_sym X "BASIC_TOP" mod 256)) (fun b => num (a - b)))
      | Err => read_byte (e_sym X "IOERROR" mod 256)
      | Key => int (read_byte 764) (fun a => num (Z.lxor a 255))
      | Serr => read_byte 771
      end
  | ESfn f s =>
      bind (seval s) (fun v =>
        match f with
        | Len => peek_value v
        | Val => call "TOK_VAL" (Some v)
        (* no value for a literal: it has no address here *)
        | Asc => with_int v (fun a => read_byte (a + 1))
        end)
  | EUsr _ _ => none
  | EAdrS _ s => seval s
  | EAdrB b => base_value b
  | EAdrV n => num (e_var X n)
  end
with seval (s : str) : sem :=
  match s with
  | SLit b => if Z.of_nat (List.length b) <? 256 then ret (VStr b) else none
  | SChr e => int (eval e) (fun a => ret (VStr [a mod 256]))
  | SStr e => bind (eval e) (fun v => call "TOK_INT_STR" (Some v))
  | SPtr e => eval e
  | SVar n => read_word (e_var X n)
  | SElem n e => int (read_word (e_var X n)) (fun a => int (eval e) (fun i => read_word (a + 2 * i)))
  | SIdx s p n => bind (seval s) (fun v => int (eval p) (fun p => int (eval n) (fun n m =>
      ret (VStr (part (text_of v (fst m)) p n)) m)))
  | SFrom s p => bind (seval s) (fun v => int (eval p) (fun p m =>
      ret (VStr (part (text_of v (fst m)) p 255)) m))
  | SPar s => seval s
  end.
(* The truth value of an expression, for conditions. *)
Definition cond (e : exp) : sem := int (eval e) (fun a => truth (holds a)).

(* ---- The run-time functions ---- *)
(* A token without operands that computes [g] from the accumulator. *)
Definition token (n : string) (takes : bool)
  (g : option value -> (Z -> Z) -> W -> option (value * (Z -> Z) * W)) : Prop :=
  e_ar X n = O /\ e_ax X n = takes /\ e_sad X n = false /\
  forall a k f w io co, e_ext X n [] a None k f w io co =
    match g a f w with Some (v, f, w) => Some (k, Some v, f, w, []) | None => None end.
Definition pure1 (h : (Z -> Z) -> Z -> Z) (a : option value) (f : Z -> Z) (w : W) :=
  match a with Some (VInt z) => Some (VInt (h f z), f, w) | _ => None end.
(* The run-time computes ABS, SGN, DPEEK and comparisons of strings as it should (see
   ThmRt1 and ThmRt2), and TIME, RAND, VAL and STR$ are [F]. *)
Record library : Prop := mklibrary {
  lib_abs : token "TOK_ABS" true (pure1 (fun _ a => Z.abs (signed a)));
  lib_sgn : token "TOK_SGN" true (pure1 (fun _ a => Z.sgn (signed a)));
  lib_dpeek : token "TOK_DPEEK" true (pure1 word_at);
  lib_time : token "TOK_TIME" false (fun _ => F "TOK_TIME" None);
  lib_rand : token "TOK_RAND" true (F "TOK_RAND");
  lib_val : token "TOK_VAL" true (F "TOK_VAL");
  lib_str : token "TOK_INT_STR" true (F "TOK_INT_STR");
  (* a number on the stack that compares with 0 as the strings do *)
  lib_cmp : e_ar X "TOK_CMP_STR" = O /\ e_ax X "TOK_CMP_STR" = true /\ e_sad X "TOK_CMP_STR" = false /\
    forall x y k f w io co, exists c,
      e_ext X "TOK_CMP_STR" [] (Some y) None (x :: k) f w io co = Some (VInt c :: k, Some (VInt 0), f, w, []) /\
      (signed c ?= 0) = order (text_of x f) (text_of y f)
}.

(* ---- Code that computes a value ---- *)
(* From every state of the machine and in every program, the code [c] ends with the value
   in the accumulator and leaves the evaluation stack, the store address, the channel,
   the colour and the effects as they were. *)
Definition goes (p : list codew) (a b : cfg) : Prop := exists n, steps X p n a b.
Definition good (v : value) : Prop := match v with VInt z => 0 <= z < 65536 | VStr _ => True end.
Definition computes (c : list codew) (a : sem) : Prop :=
  forall m v f w, a (mem m, wld m) = Some (v, (f, w)) -> Forall good (stk m) ->
  good v /\ forall p k rs,
  goes p (mkcfg (c ++ k) rs m)
         (mkcfg k rs (mkst (Some v) (sad m) (stk m) f (ioch m) (col m) w (out m))).
End Meaning.

(* Code with floating point operations is not considered. *)
Definition is_fp (c : codew) : bool :=
  match c with CTok (T_Other n) => String.prefix "TOK_FP_" n || String.eqb n "TOK_INT_FP" | _ => false end.
Definition uses_fp (c : list codew) : bool := existsb is_fp c.
