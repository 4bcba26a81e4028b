(* Specification of the source text, literals and listings, independent of the
   model of the compiler. *)
From Verif Require Import Codew.

(* A source line as the language defines it: characters and string literals, perhaps
   a comment, and one of the three line ends. *)
Inductive piece : Set :=
| Ch (c : Z)              (* a character of the program *)
| Lit (s : bytes).        (* a string literal with these characters between quotes *)

Inductive eol : Set := Unix | Dos | Atari.

Record srcline : Set := { pieces : list piece; remark : option (Z * bytes); ending : eol }.

Definition piece_text (p : piece) : bytes :=
  match p with Ch c => [c] | Lit s => 34 :: s ++ [34] end.
Definition remark_text (r : option (Z * bytes)) : bytes :=
  match r with None => [] | Some (m, s) => m :: s end.
Definition eol_file (e : eol) : bytes :=
  match e with Unix => [10] | Dos => [13; 10] | Atari => [155] end.
Definition eol_text (e : eol) : bytes := match e with Atari => [155] | _ => [10] end.

(* Characters of the line in the file. *)
Definition body_text (l : srcline) : bytes :=
  flat_map piece_text (pieces l) ++ remark_text (remark l).
Definition line_file (l : srcline) : bytes := body_text l ++ eol_file (ending l).
Definition line_text (l : srcline) : bytes := body_text l ++ eol_text (ending l).

(* A character that is part of no line end, literal or comment mark. *)
Definition plain_char (c : Z) : Prop :=
  c <> 34 /\ c <> 39 /\ c <> 10 /\ c <> 13 /\ c <> 155.

(* At the start of a statement (only blanks since the start of the line or a colon)? *)
Fixpoint at_start (st : bool) (ps : list piece) : bool :=
  match ps with
  | [] => st
  | Ch c :: t => at_start (if c =? 58 then true else if c =? 32 then st else false) t
  | Lit _ :: t => at_start false t
  end.

(* A dot at the start of a statement begins a comment, so it is no plain character. *)
Fixpoint good_pieces (st : bool) (ps : list piece) : Prop :=
  match ps with
  | [] => True
  | Ch c :: t => plain_char c /\ (st = true -> c <> 46) /\
                 good_pieces (if c =? 58 then true else if c =? 32 then st else false) t
  | Lit s :: t => ~ In 34 s /\ good_pieces false t
  end.

Definition good_remark (st : bool) (r : option (Z * bytes)) : Prop :=
  match r with
  | None => True
  | Some (m, s) => (m = 39 \/ m = 46 /\ st = true) /\
                   forall c, In c s -> c <> 10 /\ c <> 13 /\ c <> 155
  end.

Definition good_line (l : srcline) : Prop :=
  good_pieces true (pieces l) /\ good_remark (at_start true (pieces l)) (remark l).

(* Lines of the file that the source line takes: one, and one more for each newline
   inside a literal. *)
Definition newlines (s : bytes) : Z := Z.of_nat (count_occ Z.eq_dec s 10).
Definition line_count (l : srcline) : Z :=
  fold_right (fun p n => match p with Lit s => newlines s + n | Ch _ => n end) 1 (pieces l).

(* The lines with their numbers. *)
Fixpoint numbered (ln : Z) (ls : list srcline) : list (Z * bytes) :=
  match ls with
  | [] => []
  | l :: t => (ln, line_text l) :: numbered (ln + line_count l) t
  end.

(* Value of a string of digits. *)
Definition value (base : Z) (ds : list Z) : Z := fold_left (fun v d => v * base + d) ds 0.

(* The character of a decimal digit, and the two of a hexadecimal one. *)
Definition dec_char (d c : Z) : Prop := 0 <= d <= 9 /\ c = 48 + d.
Definition hex_char (d c : Z) : Prop :=
  0 <= d <= 9 /\ c = 48 + d \/ 10 <= d <= 15 /\ (c = 55 + d \/ c = 87 + d).
Definition digit_char (base : Z) : Z -> Z -> Prop :=
  if base =? 16 then hex_char else dec_char.

(* The text does not begin with a digit. *)
Definition no_digit (base : Z) (rest : bytes) : Prop :=
  forall c, hd_error rest = Some c -> forall d, ~ digit_char base d c.

(* What the characters after an opening quote denote: [Lit_in] between quotes,
   [Lit_out] after a closing quote and some $hh escapes.  The second list is the
   string denoted, the third the text after the literal. *)
Inductive Lit_in : bytes -> bytes -> bytes -> Prop :=
| Li_char c t s r : c <> 34 -> Lit_in t s r -> Lit_in (c :: t) (c :: s) r
| Li_quote t s r : Lit_in t s r -> Lit_in (34 :: 34 :: t) (34 :: s) r
| Li_end r : hd_error r <> Some 34 -> hd_error r <> Some 36 -> Lit_in (34 :: r) [] r
| Li_esc t s r : Lit_out t s r -> Lit_in (34 :: t) s r
with Lit_out : bytes -> bytes -> bytes -> Prop :=
| Lo_more ds cs t s r : ds <> [] -> Forall2 hex_char ds cs -> value 16 ds <= 255 ->
    Lit_out t s r -> Lit_out (36 :: cs ++ t) (value 16 ds :: s) r
| Lo_again ds cs t s r : ds <> [] -> Forall2 hex_char ds cs -> value 16 ds <= 255 ->
    Lit_in t s r -> Lit_out (36 :: cs ++ 34 :: t) (value 16 ds :: s) r
| Lo_end ds cs r : ds <> [] -> Forall2 hex_char ds cs -> value 16 ds <= 255 ->
    no_digit 16 r -> hd_error r <> Some 34 -> hd_error r <> Some 36 ->
    Lit_out (36 :: cs ++ r) [value 16 ds] r.

(* ---- The assembler's reading of a line ---- *)
(* Bytes that a line puts in memory: a known byte, the value of a symbol, the low or
   high byte of a symbol, the number of a variable. *)
Inductive cell : Set :=
| Byte (b : Z) | SymByte (s : bytes) | SymLo (s : bytes) | SymHi (s : bytes)
| VarByte (s : bytes).

Definition is_digit (c : Z) : bool := (48 <=? c) && (c <=? 57).
Definition is_upper (c : Z) : bool := (65 <=? c) && (c <=? 90).
Definition is_lower (c : Z) : bool := (97 <=? c) && (c <=? 122).
Definition name_start (c : Z) : bool := is_upper c || is_lower c || (c =? 95).
Definition name_char (c : Z) : bool := name_start c || is_digit c.

(* Operands: decimal and $hexadecimal numbers, strings in quotes (a quote cannot be
   part of one), symbols; separated by commas and blanks.  A number must fit in the
   size of the directive. *)
Inductive opstate : Set :=
| OStart | ONum (v : Z) | OHex (v : Z) (any : bool) | OStr | OAfter | OName (n : bytes).

Definition op_number (wide : bool) (v : Z) : option (list cell) :=
  if wide then if v <=? 65535 then Some [Byte (v mod 256); Byte (v / 256)] else None
  else if v <=? 255 then Some [Byte v] else None.
Definition op_name (wide : bool) (n : bytes) : list cell :=
  if wide then [SymLo n; SymHi n] else [SymByte n].
Definition op_hex (c : Z) : option Z :=
  if is_digit c then Some (c - 48)
  else if (65 <=? c) && (c <=? 70) then Some (c - 55)
  else if (97 <=? c) && (c <=? 102) then Some (c - 87) else None.

(* What a finished operand gives. *)
Definition op_done (wide : bool) (q : opstate) : option (list cell) :=
  match q with
  | OStart => None
  | ONum v => op_number wide v
  | OHex v any => if any then op_number wide v else None
  | OStr => None
  | OAfter => Some []
  | OName n => Some (op_name wide n)
  end.

Definition opt_app (a b : option (list cell)) : option (list cell) :=
  match a, b with Some x, Some y => Some (x ++ y) | _, _ => None end.

Fixpoint operands (wide : bool) (t : bytes) (q : opstate) : option (list cell) :=
  match t with
  | [] => op_done wide q
  | c :: t =>
    match q with
    | OStart =>
      if c =? 32 then operands wide t OStart
      else if is_digit c then operands wide t (ONum (c - 48))
      else if c =? 36 then operands wide t (OHex 0 false)
      else if c =? 34 then operands wide t OStr
      else if name_start c then operands wide t (OName [c])
      else None
    | OStr =>
      if c =? 34 then operands wide t OAfter
      else opt_app (if wide then None else Some [Byte c]) (operands wide t OStr)
    | _ =>
      if c =? 44 then opt_app (op_done wide q) (operands wide t OStart)
      else match q with
           | ONum v => if is_digit c then operands wide t (ONum (v * 10 + (c - 48))) else None
           | OHex v _ => match op_hex c with
                         | Some d => operands wide t (OHex (v * 16 + d) true)
                         | None => None
                         end
           | OName n => if name_char c then operands wide t (OName (n ++ [c])) else None
           | _ => None
           end
    end
  end.

(* The meaning of a line: data, or the definition of a label. *)
Inductive asmline : Set := Data (d : list cell) | Define (n : bytes).

Fixpoint after (p t : bytes) : option bytes :=
  match p with
  | [] => Some t
  | a :: p => match t with
              | b :: t => if a =? b then after p t else None
              | [] => None
              end
  end.

Definition t_byte : bytes := [9; 46; 98; 121; 116; 101; 9].              (* .byte *)
Definition t_word : bytes := [9; 46; 119; 111; 114; 100; 9].             (* .word *)
Definition t_var : bytes := [9; 109; 97; 107; 101; 118; 97; 114; 9; 34]. (* makevar and a quote *)

Fixpoint name_until (stop : Z) (t : bytes) : option bytes :=
  match t with
  | [] => None
  | c :: t => if c =? stop then match t with [] => Some [] | _ => None end
              else if name_char c
                   then match name_until stop t with Some n => Some (c :: n) | None => None end
                   else None
  end.

Definition read_asm (t : bytes) : option asmline :=
  match after t_byte t with
  | Some u => match operands false u OStart with Some d => Some (Data d) | None => None end
  | None =>
  match after t_word t with
  | Some u => match operands true u OStart with Some d => Some (Data d) | None => None end
  | None =>
  match after t_var t with
  | Some u => match name_until 34 u with Some n => Some (Data [VarByte n]) | None => None end
  | None => match name_until 58 t with Some n => Some (Define n) | None => None end
  end end end.

Definition is_name (n : bytes) : Prop :=
  match n with [] => False | c :: t => name_start c = true /\ forallb name_char t = true end.

(* ---- Files ---- *)
(* Text obtained from a file by dropping some CR that stand before a LF. *)
Inductive crlf : bytes -> bytes -> Prop :=
| crlf_nil : crlf [] []
| crlf_keep c f t : crlf f t -> crlf (c :: f) (c :: t)
| crlf_drop f t : crlf (10 :: f) (10 :: t) -> crlf (13 :: 10 :: f) (10 :: t).

(* ---- Listings and excerpts ---- *)
(* Statements of one line, with a separator between them. *)
Fixpoint join (sep : bytes) (g : list bytes) : bytes :=
  match g with
  | [] => []
  | [x] => x
  | x :: t => x ++ sep ++ join sep t
  end.

Definition nonempty (b : bytes) : bool := match b with [] => false | _ => true end.

(* Several statements share a line only when the line is shorter than the width. *)
Definition fits (width : Z) (g : list bytes) : Prop :=
  (1 < List.length g)%nat -> Z.of_nat (List.length (join [58] g)) < width.

(* Lines are as full as possible: the first statement of the next line did not fit. *)
Fixpoint full (width : Z) (gs : list (list bytes)) : Prop :=
  match gs with
  | g :: ((h :: _) as t) =>
    (match h with
     | x :: _ => width <= Z.of_nat (List.length (join [58] g)) + 1 + Z.of_nat (List.length x)
     | [] => False
     end) /\ full width t
  | _ => True
  end.

(* The line without a final newline. *)
Definition chomp (s : bytes) : bytes :=
  if 10 =? last s 0 then removelast s else s.

(* Characters as shown in an error message. *)
Definition shown (c : Z) : Z := if (32 <=? c) && (c <=? 126) then c else 46.

(* ---- Statistics ---- *)
(* Occurrences of a token. *)
Fixpoint occurs (t : tok) (code : list codew) : Z :=
  match code with
  | [] => 0
  | CTok u :: r => (if tok_eqb t u then 1 else 0) + occurs t r
  | _ :: r => occurs t r
  end.

(* Occurrences of token [o] followed by token [t] with only operands between them. *)
Fixpoint follows (t o : tok) (prev : option tok) (code : list codew) : Z :=
  match code with
  | [] => 0
  | CTok u :: r =>
    (match prev with Some p => if tok_eqb t u && tok_eqb o p then 1 else 0 | None => 0 end)
    + follows t o (Some u) r
  | _ :: r => follows t o prev r
  end.

(* Code whose operands are all constants of TOK_BYTE and TOK_NUM. *)
Fixpoint const_operands (prev : option tok) (code : list codew) : Prop :=
  match code with
  | [] => True
  | CTok u :: r => const_operands (Some u) r
  | CByte _ :: r => prev = Some T_BYTE /\ const_operands prev r
  | CByteS _ :: r => (prev = Some T_BYTE \/ prev = Some T_BYTE_POKE) /\ const_operands prev r
  | CWord _ :: r => prev = Some T_NUM /\ const_operands prev r
  | CWordS _ :: r => (prev = Some T_NUM \/ prev = Some T_NUM_POKE) /\ const_operands prev r
  | _ => False
  end.

