(* Text handling of the compiler: reading source lines, number and string
   literals, listings, assembler text, error excerpts and statistics.
   Models src/compiler/compile.cc, codew.h, codestat.cc and parts of parser.h and
   parser-actions.cc.  Characters are numbers 0..255; where the C++ code compares a
   signed "char", the comment of the definition says how it reads here. *)
From Verif Require Import Codew.

(* Characters used below, by their ASCII codes. *)
Definition LF := 10.
Definition CR := 13.
Definition EOL9B := 155.
Definition QUOTE := 34.
Definition DOLLAR := 36.
Definition BLANK := 32.
Definition COLON := 58.
Definition DOT := 46.
Definition APOS := 39.
Definition MINUS := 45.

(* compile.cc:67-82: effect of a character that ends neither a line nor a string,
   on (in_start, in_comment, in_string). *)
Definition rl_flags (st com : bool) (c : Z) : bool * bool * bool :=
  let com1 := if st then (if (c =? DOT) || (c =? APOS) then true else com) else com in
  let st1 := if st then (c =? BLANK) else st in
  if com1 then (st1, com1, false)
  else if c =? APOS then (st1, true, false)
  else if c =? COLON then (true, com1, false)
  else if c =? QUOTE then (st1, com1, true)
  else (st1, com1, false).

(* readLine, compile.cc:32-85.  Gives (result, text of the line, rest of the file).
   [n] is num_lines. *)
Fixpoint rl_loop (inp : bytes) (str com st : bool) (n : Z) : Z * bytes * bytes :=
  match inp with
  | [] => (0, [], [])
  | c :: t =>
    if str then
      let '(r, l, u) := rl_loop t (negb (c =? QUOTE)) com st
                                (if c =? LF then n + 1 else n) in
      (r, c :: l, u)
    else
      let keep :=
        if (c =? LF) || (c =? EOL9B) then (n + 1, [c], t)
        else
          let '(st1, com1, str1) := rl_flags st com c in
          let '(r, l, u) := rl_loop t str1 com1 st1 n in
          (r, c :: l, u) in
      if c =? CR then
        match t with
        | d :: u => if d =? LF then (n + 1, [d], u) else keep
        | [] => keep
        end
      else keep
  end.

Definition read_line (inp : bytes) : Z * bytes * bytes := rl_loop inp false false true 0.

(* The loop of compiler::compile_file over the lines, compile.cc:200-213: gives for
   each line its number and its text.  Parsing is left out.  [fuel] bounds the number
   of lines; [None] when it runs out. *)
Fixpoint read_file (fuel : nat) (ln : Z) (inp : bytes) : option (list (Z * bytes)) :=
  match fuel with
  | O => None
  | S k =>
    let '(r, l, u) := read_line inp in
    if (r =? 0) && (match l with [] => true | _ => false end) then Some []
    else match read_file k (ln + r) u with
         | Some ls => Some ((ln, l) :: ls)
         | None => None
         end
  end.

(* parser-actions.cc:36-43: value of a hexadecimal digit.  Characters 128..255 are
   negative in the C++ code and no digits there either. *)
Definition hex_digit (c : Z) : option Z :=
  if (48 <=? c) && (c <=? 57) then Some (c - 48)
  else if (97 <=? c) && (c <=? 102) then Some (10 + (c - 97))
  else if (65 <=? c) && (c <=? 70) then Some (10 + (c - 65))
  else None.

(* parser-actions.cc:60. *)
Definition dec_digit (c : Z) : option Z :=
  if (48 <=? c) && (c <=? 57) then Some (c - 48) else None.

(* The loops of get_hex (parser-actions.cc:29-51) and get_dec (53-71).  [any] tells
   that a digit was read.  The loop leaves as soon as the number exceeds 65535, so the
   32 bit "unsigned" never wraps. *)
Fixpoint num_loop (dig : Z -> option Z) (base : Z) (inp : bytes) (num : Z) (any : bool)
  : Z * bytes :=
  match inp with
  | [] => (if any then num else 65536, [])
  | c :: t =>
    match dig c with
    | Some d =>
      let num := num * base + d in
      if 65535 <? num then (num, t) else num_loop dig base t num true
    | None => (if any then num else 65536, inp)
    end
  end.

Definition get_hex (inp : bytes) : Z * bytes := num_loop hex_digit 16 inp 0 false.
Definition get_dec (inp : bytes) : Z * bytes := num_loop dec_digit 10 inp 0 false.

(* parser.h:394-408 for a character that is no letter, ')' or ']': take it if it is
   the next one. *)
Definition eat (c : Z) (inp : bytes) : option bytes :=
  match inp with
  | p :: t => if p =? c then Some t else None
  | [] => None
  end.

(* get_number, parser-actions.cc:73-119, without the text for the listings.  65536
   and more is a failure. *)
Definition get_number (inp : bytes) : Z * bytes :=
  match eat DOLLAR inp with
  | Some t => let '(h, u) := get_hex t in if 65535 <? h then (65536, u) else (h, u)
  | None =>
    let '(sign, t) := match eat MINUS inp with Some t => (true, t) | None => (false, inp) end in
    let '(num, u) := get_dec t in
    if (65535 <? num) || (num <? 0) then (65536, u)
    else match eat DOT u with
         | Some _ => (65536, inp)
         | None => (if sign then 65536 - num else num, u)
         end
  end.

(* The do-while loop of get_const_string, parser-actions.cc:199-205, after a dollar
   sign: [None] for a bad number.  [fuel] bounds the number of escapes. *)
Fixpoint esc_loop (fuel : nat) (inp acc : bytes) : option (bytes * bytes) :=
  match fuel with
  | O => None
  | S k =>
    let '(c, u) := get_hex inp in
    if 255 <? c then None
    else match eat DOLLAR u with
         | Some u => esc_loop k u (acc ++ [c])
         | None => Some (acc ++ [c], u)
         end
  end.

(* get_const_string, parser-actions.cc:189-227, without the listing: the string and
   the rest of the line.  [fuel] bounds the iterations. *)
Fixpoint const_string (fuel : nat) (inp acc : bytes) : option (bytes * bytes) :=
  match fuel with
  | O => None
  | S k =>
    match inp with
    | [] => None
    | c :: t =>
      if c =? QUOTE then
        match eat QUOTE t with
        | Some u => const_string k u (acc ++ [QUOTE])
        | None =>
          match eat DOLLAR t with
          | Some u =>
            match esc_loop (List.length inp) u acc with
            | None => None
            | Some (acc, u) =>
              match eat QUOTE u with
              | Some u => const_string k u acc
              | None => Some (acc, u)
              end
            end
          | None => Some (acc, t)
          end
        end
      else const_string k t (acc ++ [c])
    end
  end.

Definition get_const_string (inp : bytes) : option (bytes * bytes) :=
  const_string (S (List.length inp)) inp [].

(* hexd, parser.h:436. *)
Definition hexd (c : Z) : Z :=
  let d := c mod 16 in if d <? 10 then 48 + d else 55 + d.

(* parser.h:513, codew.h:51: "c < 32 || c > 126" with a signed char: the control
   characters, 127 and 128..255. *)
Definition unprintable (c : Z) : bool := (c <? 32) || (126 <? c).

Definition esc2 (c : Z) : bytes := [DOLLAR; hexd (c / 16); hexd c].

(* add_text_str, parser.h:504-535: text appended to the long listing. *)
Fixpoint text_str (s : bytes) (inq : bool) : bytes :=
  match s with
  | [] => if inq then [QUOTE] else []
  | c :: t =>
    if inq then
      if c =? QUOTE then QUOTE :: QUOTE :: text_str t true
      else if unprintable c then QUOTE :: esc2 c ++ text_str t false
      else c :: text_str t true
    else
      if unprintable c || (c =? QUOTE) then esc2 c ++ text_str t false
      else QUOTE :: c :: text_str t true
  end.

(* add_s_str, parser.h:472-503: text appended to the short listing.  The test
   "(unsigned) c == 155" is made on a signed char, so it never holds for a character
   (155 is -101, and becomes 4294967195); the branches it guards are left out. *)
Fixpoint short_str (s : bytes) : bytes :=
  match s with
  | [] => [QUOTE]
  | c :: t => if c =? QUOTE then QUOTE :: QUOTE :: short_str t else c :: short_str t
  end.

(* std::to_string of a number that is not negative. *)
Fixpoint dec_digits (fuel : nat) (n : Z) : bytes :=
  match fuel with
  | O => []
  | S k => if n <? 10 then [48 + n] else dec_digits k (n / 10) ++ [48 + n mod 10]
  end.

Definition to_string (n : Z) : bytes :=
  if n <? 0 then MINUS :: dec_digits (Z.to_nat (- n) + 1) (- n)
  else dec_digits (Z.to_nat n + 1) n.

(* Characters of a Coq string, used for the names in the assembler text. *)
Definition chars (s : string) : bytes :=
  map (fun c => Z.of_N (N_of_ascii c)) (list_ascii_of_string s).

(* codew::escape, codew.h:45-71. *)
Fixpoint escape (s : bytes) (quote : bool) : bytes :=
  match s with
  | [] => if quote then [QUOTE] else []
  | c :: t =>
    if unprintable c || (c =? QUOTE) then
      (if quote then [QUOTE] else []) ++ [44; BLANK] ++ to_string c ++ escape t false
    else
      (if quote then [] else [44; BLANK; QUOTE]) ++ c :: escape t true
  end.

(* The part of parse_line that writes the short listing, compile.cc:121-140: one
   statement with text [txt]; [line] is short_line; gives the new line and what is
   written. *)
Definition short_step (width : Z) (line txt : bytes) : bytes * list bytes :=
  match txt with
  | [] => (line, [])
  | _ =>
    match line with
    | [] => (txt, [])
    | _ =>
      if Z.of_nat (List.length line) + 1 + Z.of_nat (List.length txt) <? width
      then (line ++ [COLON] ++ txt, [])
      else (txt, [line])
    end
  end.

(* All statements one after the other, and the last line, compile.cc:252-254. *)
Fixpoint short_list (width : Z) (line : bytes) (txts : list bytes) : list bytes :=
  match txts with
  | [] => match line with [] => [] | _ => [line] end
  | t :: ts => let '(line, out) := short_step width line t in
               out ++ short_list width line ts
  end.

(* The file: each line is followed by 155. *)
Definition short_file (ls : list bytes) : bytes := flat_map (fun l => l ++ [EOL9B]) ls.

(* get_short, parser.h:84-92: trailing blanks are dropped. *)
Fixpoint drop_blanks (r : bytes) : bytes :=
  match r with
  | c :: t => if c =? BLANK then drop_blanks t else r
  | [] => []
  end.
Definition get_short (stext : bytes) : bytes := rev (drop_blanks (rev stext)).

(* printable, compile.cc:155-163: signed comparison, so 128..255 give a dot too. *)
Definition printable (c : Z) : Z :=
  if c <? 32 then DOT else if c <? 127 then c else DOT.

(* Lines written for an error at column [pos] of line [s], compile.cc:216-243: the
   excerpt and the marker, both without the two leading blanks and the newline. *)
Definition excerpt (s : bytes) (pos : Z) : bytes * bytes :=
  let len := Z.of_nat (List.length s) in
  let max := if (0 <? len) && (nth (Z.to_nat (len - 1)) s 0 =? LF) then len - 1 else len in
  let pos := if max <? pos then max else pos in
  let mn := if 76 <? max then (if 50 <? pos then pos - 50 else 0) else 0 in
  let mx := if 76 <? max then (if 76 <? max - mn then mn + 76 else max) else max in
  let part a b := map printable (firstn (Z.to_nat (b - a)) (skipn (Z.to_nat a) s)) in
  (part mn pos ++ [BLANK] ++ part pos mx,
   repeat MINUS (Z.to_nat (pos - mn)) ++ [94]).

(* The name of a token as the C++ code keeps it (codew.h:41). *)
Definition tok_name (t : tok) : string :=
  match t with
  | T_NUM => "TOK_NUM" | T_BYTE => "TOK_BYTE" | T_0 => "TOK_0" | T_1 => "TOK_1"
  | T_NEG => "TOK_NEG" | T_USHL => "TOK_USHL" | T_SHL8 => "TOK_SHL8"
  | T_PUSH => "TOK_PUSH" | T_PUSH_BYTE => "TOK_PUSH_BYTE"
  | T_PUSH_NUM => "TOK_PUSH_NUM" | T_PUSH_0 => "TOK_PUSH_0"
  | T_PUSH_1 => "TOK_PUSH_1" | T_PUSH_VAR_LOAD => "TOK_PUSH_VAR_LOAD"
  | T_VAR_LOAD => "TOK_VAR_LOAD" | T_VAR_STORE => "TOK_VAR_STORE"
  | T_VAR_STORE_0 => "TOK_VAR_STORE_0" | T_VAR_ADDR => "TOK_VAR_ADDR"
  | T_VAR_SADDR => "TOK_VAR_SADDR" | T_SADDR => "TOK_SADDR"
  | T_MUL => "TOK_MUL" | T_DIV => "TOK_DIV" | T_MOD => "TOK_MOD"
  | T_ADD => "TOK_ADD" | T_SUB => "TOK_SUB" | T_ADD_VAR => "TOK_ADD_VAR"
  | T_BIT_AND => "TOK_BIT_AND" | T_BIT_OR => "TOK_BIT_OR"
  | T_BIT_EXOR => "TOK_BIT_EXOR" | T_EQ => "TOK_EQ" | T_NEQ => "TOK_NEQ"
  | T_LT => "TOK_LT" | T_GT => "TOK_GT" | T_COMP_0 => "TOK_COMP_0"
  | T_L_NOT => "TOK_L_NOT" | T_L_AND => "TOK_L_AND" | T_L_OR => "TOK_L_OR"
  | T_POKE => "TOK_POKE" | T_DPOKE => "TOK_DPOKE" | T_PEEK => "TOK_PEEK"
  | T_BYTE_PEEK => "TOK_BYTE_PEEK" | T_BYTE_POKE => "TOK_BYTE_POKE"
  | T_NUM_POKE => "TOK_NUM_POKE" | T_PUT => "TOK_PUT"
  | T_BYTE_PUT => "TOK_BYTE_PUT" | T_GET => "TOK_GET" | T_GETKEY => "TOK_GETKEY"
  | T_INC => "TOK_INC" | T_DEC => "TOK_DEC" | T_INCVAR => "TOK_INCVAR"
  | T_DECVAR => "TOK_DECVAR" | T_CSTRING => "TOK_CSTRING"
  | T_PRINT_STR => "TOK_PRINT_STR" | T_CHR => "TOK_CHR"
  | T_STR_IDX => "TOK_STR_IDX" | T_JUMP => "TOK_JUMP" | T_CJUMP => "TOK_CJUMP"
  | T_CNJUMP => "TOK_CNJUMP" | T_CALL => "TOK_CALL" | T_RET => "TOK_RET"
  | T_CRET => "TOK_CRET" | T_CNRET => "TOK_CNRET" | T_END => "TOK_END"
  | T_IOCHN => "TOK_IOCHN"
  | T_Other n => n
  end%string.

(* atari_fp::hex, atarifp.h:36-43, and to_asm, 82-87, from the six bytes on. *)
Definition hex_byte (x : Z) : bytes := [DOLLAR; hexd (x / 16); hexd x].
Fixpoint fp_asm (xs : bytes) : bytes :=
  match xs with
  | [] => []
  | [x] => hex_byte x
  | x :: t => hex_byte x ++ [44; BLANK] ++ fp_asm t
  end.

(* codew::to_asm, codew.h:196-220.  [vname] gives the name of a variable from its
   number: the element keeps both (codew.h:125-133), the model only the number. *)
Definition to_asm (vname : Z -> string) (c : codew) : bytes :=
  let byte := [9] ++ chars ".byte" ++ [9] in
  let word := [9] ++ chars ".word" ++ [9] in
  match c with
  | CTok t => byte ++ chars (tok_name t)
  | CByte n => byte ++ to_string (n mod 256)
  | CWord n => word ++ to_string (n mod 65536)
  | CVarn n => [9] ++ chars "makevar" ++ [9] ++ [QUOTE] ++ chars (vname n) ++ [QUOTE]
  | CByteS s => byte ++ chars s
  | CWordS s => word ++ chars s
  | CFp x => byte ++ fp_asm x
  | CLabel s => chars s ++ [COLON]
  | CStr s => byte ++ to_string (Z.of_nat (List.length s)) ++ escape s false
  end.

(* Counters of codestat.cc:28-30: a map with default 0 as an association list. *)
Section Count.
  Context {K : Type} (eqb : K -> K -> bool).
  Fixpoint inc (k : K) (m : list (K * Z)) : list (K * Z) :=
    match m with
    | [] => [(k, 1)]
    | (a, n) :: t => if eqb k a then (a, n + 1) :: t else (a, n) :: inc k t
    end.
  Fixpoint count (k : K) (m : list (K * Z)) : Z :=
    match m with
    | [] => 0
    | (a, n) :: t => if eqb k a then n else count k t
    end.
End Count.

Definition pair_eqb (a b : tok * tok) : bool :=
  tok_eqb (fst a) (fst b) && tok_eqb (snd a) (snd b).
Definition tnum_eqb (a b : tok * Z) : bool := tok_eqb (fst a) (fst b) && (snd a =? snd b).

(* The three maps of opstat and the variable "old" ([None] when empty), codestat.cc:28-35. *)
Record stat := mkStat {
  c1 : list (tok * Z); c2 : list (tok * tok * Z); c3 : list (tok * Z * Z);
  old : option tok }.

(* Body of the loop, codestat.cc:36-67.  The pair is (this token, the one before). *)
Definition stat_step (s : stat) (c : codew) : stat :=
  match c with
  | CTok t =>
    mkStat (inc tok_eqb t (c1 s))
           (match old s with Some o => inc pair_eqb (t, o) (c2 s) | None => c2 s end)
           (c3 s) (Some t)
  | _ =>
    match c, old s with
    | CByte n, Some T_BYTE => mkStat (c1 s) (c2 s) (inc tnum_eqb (T_BYTE, n) (c3 s)) (old s)
    | CByteS _, Some T_BYTE => s
    | CByteS _, Some T_BYTE_POKE => s
    | CWord n, Some T_NUM => mkStat (c1 s) (c2 s) (inc tnum_eqb (T_NUM, n) (c3 s)) (old s)
    | CWordS _, Some T_NUM => s
    | CWordS _, Some T_NUM_POKE => s
    | CByte _, Some T_VAR_LOAD => s
    | CByte _, Some T_VAR_ADDR => s
    | _, _ => mkStat (c1 s) (c2 s) (c3 s) None
    end
  end.

Definition opstat (code : list codew) : stat :=
  fold_left stat_step code (mkStat [] [] [] None).
