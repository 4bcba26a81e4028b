(* The parser of the compiler: parsing state, parsing actions, table interpreter and
   the loop over the source lines.  Models src/compiler/parser.h, parser.cc,
   parser-actions.cc, looptype.cc, vartype.cc and parts of compile.cc.

   Left out everywhere: the debug messages, and the error texts with their position
   (saved_errors, max_pos), which never influence what is parsed or emitted. *)
From Coq Require Import Permutation.
From Verif Require Import Codew Text.

(* A C++ string as a name (labels, variables); characters 0..255. *)
Definition name_of (b : bytes) : string :=
  string_of_list_ascii (map (fun c => ascii_of_N (Z.to_N c)) b).

(* std::map as an association list: [v.find], [v[k] = x]. *)
Fixpoint find {A} (k : string) (m : list (string * A)) : option A :=
  match m with
  | [] => None
  | (a, x) :: t => if String.eqb k a then Some x else find k t
  end.
Fixpoint assign {A} (k : string) (x : A) (m : list (string * A)) : list (string * A) :=
  match m with
  | [] => [(k, x)]
  | (a, y) :: t => if String.eqb k a then (a, x) :: t else (a, y) :: assign k x t
  end.

(* looptype.h:25-43. *)
Inductive loopt : Set :=
| LT_PROC_DATA | LT_EXIT | LT_LAST_JUMP | LT_PROC_2 | LT_DO_LOOP | LT_REPEAT
| LT_WHILE_1 | LT_FOR_1 | LT_WHILE_2 | LT_FOR_2 | LT_IF | LT_ELSE | LT_ELIF.

Definition loopt_eqb (a b : loopt) : bool :=
  match a, b with
  | LT_PROC_DATA, LT_PROC_DATA | LT_EXIT, LT_EXIT | LT_LAST_JUMP, LT_LAST_JUMP
  | LT_PROC_2, LT_PROC_2 | LT_DO_LOOP, LT_DO_LOOP | LT_REPEAT, LT_REPEAT
  | LT_WHILE_1, LT_WHILE_1 | LT_FOR_1, LT_FOR_1 | LT_WHILE_2, LT_WHILE_2
  | LT_FOR_2, LT_FOR_2 | LT_IF, LT_IF | LT_ELSE, LT_ELSE | LT_ELIF, LT_ELIF => true
  | _, _ => false
  end.

(* get_looptype, looptype.cc:58-85; [None] is the exception. *)
Definition get_looptype (t : string) : option loopt :=
  if String.eqb t "LT_PROC_DATA" then Some LT_PROC_DATA
  else if String.eqb t "LT_PROC_2" then Some LT_PROC_2
  else if String.eqb t "LT_DO_LOOP" then Some LT_DO_LOOP
  else if String.eqb t "LT_REPEAT" then Some LT_REPEAT
  else if String.eqb t "LT_WHILE_1" then Some LT_WHILE_1
  else if String.eqb t "LT_WHILE_2" then Some LT_WHILE_2
  else if String.eqb t "LT_FOR_1" then Some LT_FOR_1
  else if String.eqb t "LT_FOR_2" then Some LT_FOR_2
  else if String.eqb t "LT_EXIT" then Some LT_EXIT
  else if String.eqb t "LT_IF" then Some LT_IF
  else if String.eqb t "LT_ELSE" then Some LT_ELSE
  else if String.eqb t "LT_ELIF" then Some LT_ELIF
  else None.

(* loop_add_indent, looptype.cc:87-110. *)
Definition loop_add_indent (l : loopt) : bool :=
  match l with
  | LT_PROC_2 | LT_DO_LOOP | LT_REPEAT | LT_WHILE_1 | LT_FOR_1 | LT_IF | LT_ELSE => true
  | _ => false
  end.

(* vartype.h:25-35: VT_UNDEF = 0 and so on. *)
Definition VT_UNDEF := 0.
Definition VT_WORD := 1.
Definition VT_ARRAY_WORD := 2.
Definition VT_ARRAY_BYTE := 3.
Definition VT_ARRAY_STRING := 4.
Definition VT_ARRAY_FLOAT := 5.
Definition VT_STRING := 6.
Definition VT_FLOAT := 7.

(* get_vartype, vartype.cc:24-43. *)
Definition get_vartype (t : string) : Z :=
  if String.eqb t "VT_UNDEF" then VT_UNDEF
  else if String.eqb t "VT_WORD" then VT_WORD
  else if String.eqb t "VT_ARRAY_WORD" then VT_ARRAY_WORD
  else if String.eqb t "VT_ARRAY_BYTE" then VT_ARRAY_BYTE
  else if String.eqb t "VT_ARRAY_STRING" then VT_ARRAY_STRING
  else if String.eqb t "VT_ARRAY_FLOAT" then VT_ARRAY_FLOAT
  else if String.eqb t "VT_STRING" then VT_STRING
  else if String.eqb t "VT_FLOAT" then VT_FLOAT
  else VT_UNDEF.

(* var_type_is_array, vartype.cc:88-104. *)
Definition var_type_is_array (t : Z) : bool :=
  (t =? VT_ARRAY_WORD) || (t =? VT_ARRAY_BYTE) || (t =? VT_ARRAY_STRING)
  || (t =? VT_ARRAY_FLOAT).

(* get_vt_size, vartype.cc:69-86. *)
Definition get_vt_size (t : Z) : Z :=
  if t =? VT_FLOAT then 6 else if t =? VT_UNDEF then 0 else 2.

(* class labelType, vartype.h:47-66, vartype.cc:106-161: type and segment. *)
Definition labelt := (Z * string)%type.
Definition label0 : labelt := (0, ""%string).
Definition label_set_type (t : string) (l : labelt) : option labelt :=
  if String.eqb t "VT_ARRAY_WORD" then Some (128, snd l)
  else if String.eqb t "VT_ARRAY_BYTE" then Some (129, snd l)
  else None.
Definition is_defined (l : labelt) : bool := 64 <=? fst l.
Definition is_proc (l : labelt) : bool := fst l <? 128.
Definition num_params (l : labelt) : Z := Z.land (fst l) 63 - 1.
(* add_proc_params: the new label and the result. *)
Definition add_proc_params (params : Z) (l : labelt) : labelt * bool :=
  let l := if fst l =? 0 then (params + 1, snd l) else l in
  (l, num_params l =? params).
Definition define (l : labelt) : labelt := (Z.lor (fst l) 64, snd l).

(* expand_line, parser.h:62-71. *)
Record expand := mkExp {
  text : bytes; stext : bytes; indent : Z; next_indent : Z; remove_parens : Z }.

(* An element of the code with its line number (codew.h:43). *)
Definition cell := (codew * Z)%type.

(* class parse, parser.h:143-167.  The members "str" and "pos" are kept as the part of
   the line that follows the position: [inp].  "code" points to the vector of the last
   name of "proc_stack", or to that of the empty name: see [cur].  Code vectors,
   "var_stk", "proc_stack" and "jumps" are lists with the last element first.
   [last_var] is the static variable last_var_name of parser-actions.cc:440.  "lvl" is
   an argument of the table interpreter below. *)
Record pst := mkPst {
  inp : bytes;
  var_stk : list cell;
  linenum : Z;
  procs : list (string * list cell);
  proc_stack : list string;
  vars : list (string * Z);
  labels : list (string * labelt);
  jumps : list (loopt * string * Z);
  label_num : Z;
  last_label : string;
  cur_params : Z;
  last_var : string;
  exp : expand }.

Definition set_inp x s := mkPst x (var_stk s) (linenum s) (procs s) (proc_stack s)
  (vars s) (labels s) (jumps s) (label_num s) (last_label s) (cur_params s) (last_var s) (exp s).
Definition set_var_stk x s := mkPst (inp s) x (linenum s) (procs s) (proc_stack s)
  (vars s) (labels s) (jumps s) (label_num s) (last_label s) (cur_params s) (last_var s) (exp s).
Definition set_linenum x s := mkPst (inp s) (var_stk s) x (procs s) (proc_stack s)
  (vars s) (labels s) (jumps s) (label_num s) (last_label s) (cur_params s) (last_var s) (exp s).
Definition set_procs x s := mkPst (inp s) (var_stk s) (linenum s) x (proc_stack s)
  (vars s) (labels s) (jumps s) (label_num s) (last_label s) (cur_params s) (last_var s) (exp s).
Definition set_proc_stack x s := mkPst (inp s) (var_stk s) (linenum s) (procs s) x
  (vars s) (labels s) (jumps s) (label_num s) (last_label s) (cur_params s) (last_var s) (exp s).
Definition set_vars x s := mkPst (inp s) (var_stk s) (linenum s) (procs s) (proc_stack s)
  x (labels s) (jumps s) (label_num s) (last_label s) (cur_params s) (last_var s) (exp s).
Definition set_labels x s := mkPst (inp s) (var_stk s) (linenum s) (procs s) (proc_stack s)
  (vars s) x (jumps s) (label_num s) (last_label s) (cur_params s) (last_var s) (exp s).
Definition set_jumps x s := mkPst (inp s) (var_stk s) (linenum s) (procs s) (proc_stack s)
  (vars s) (labels s) x (label_num s) (last_label s) (cur_params s) (last_var s) (exp s).
Definition set_label_num x s := mkPst (inp s) (var_stk s) (linenum s) (procs s) (proc_stack s)
  (vars s) (labels s) (jumps s) x (last_label s) (cur_params s) (last_var s) (exp s).
Definition set_last_label x s := mkPst (inp s) (var_stk s) (linenum s) (procs s) (proc_stack s)
  (vars s) (labels s) (jumps s) (label_num s) x (cur_params s) (last_var s) (exp s).
Definition set_cur_params x s := mkPst (inp s) (var_stk s) (linenum s) (procs s) (proc_stack s)
  (vars s) (labels s) (jumps s) (label_num s) (last_label s) x (last_var s) (exp s).
Definition set_last_var x s := mkPst (inp s) (var_stk s) (linenum s) (procs s) (proc_stack s)
  (vars s) (labels s) (jumps s) (label_num s) (last_label s) (cur_params s) x (exp s).
Definition set_exp x s := mkPst (inp s) (var_stk s) (linenum s) (procs s) (proc_stack s)
  (vars s) (labels s) (jumps s) (label_num s) (last_label s) (cur_params s) (last_var s) x.

(* parser.h:169-173.  current_params has no initial value in the C++ code. *)
Definition exp0 : expand := mkExp [] [] 0 0 0.
Definition pst0 : pst :=
  mkPst [] [] 0 [(""%string, [])] [] [] [] [] 0 "" 0 "" exp0.

(* Result of an action: true, false, an exception, undefined behaviour (back() or
   pop_back() of an empty vector), or no fuel left (only in the model). *)
Inductive res :=
| Ok (s : pst) | Fail (s : pst) | Throw | Undef | NoFuel.

(* The name of the code vector that "code" points to, parser.h:584-600. *)
Definition cur (s : pst) : string :=
  match proc_stack s with [] => ""%string | l :: _ => l end.
Definition code (s : pst) : list cell :=
  match find (cur s) (procs s) with Some c => c | None => [] end.
Definition set_code (c : list cell) (s : pst) : pst :=
  set_procs (assign (cur s) c (procs s)) s.

(* emit_*, parser.h:536-583. *)
Definition emit (c : codew) (s : pst) : pst := set_code ((c, linenum s) :: code s) s.

(* remove_last, parser.h:307-312. *)
Definition remove_last (s : pst) : option (cell * pst) :=
  match code s with
  | [] => None
  | c :: t => Some (c, set_code t s)
  end.

(* get_str, codew.h:168-174: a string as a name; [None] is the exception. *)
Definition get_str (c : codew) : option string :=
  match c with
  | CByteS s | CWordS s | CLabel s => Some s
  | CStr b => Some (name_of b)
  | _ => None
  end.

(* remove_last().get_str() with the continuation of the action. *)
Definition take_str (s : pst) (k : string -> pst -> res) : res :=
  match remove_last s with
  | None => Undef
  | Some ((c, _), s) => match get_str c with None => Throw | Some n => k n s end
  end.

(* push_proc and pop_proc, parser.h:584-600; procs[l] creates the vector.  [None] is
   the exception. *)
Definition push_proc (l : string) (s : pst) : pst :=
  let s := set_proc_stack (l :: proc_stack s) s in
  match find l (procs s) with
  | Some _ => s
  | None => set_procs (assign l [] (procs s)) s
  end.
Definition pop_proc (l : string) (s : pst) : option pst :=
  match proc_stack s with
  | [] => None
  | p :: t => if String.eqb p l then Some (set_proc_stack t s) else None
  end.

(* new_label, push_loop, parser.h:175-189. *)
Definition jump_label (n : Z) : string := append "jump_lbl_" (name_of (to_string n)).
Definition push_loop (t : loopt) (s : pst) : string * pst :=
  let s := set_label_num (label_num s + 1) s in
  let l := jump_label (label_num s) in
  let s := set_jumps ((t, l, linenum s) :: jumps s) s in
  let e := exp s in
  (l, if loop_add_indent t
      then set_exp (mkExp (text e) (stext e) (indent e) (next_indent e + 2) (remove_parens e)) s
      else s).

(* peek_loop, parser.h:190-196. *)
Definition loop_match (t last : loopt) : bool :=
  loopt_eqb last t || (loopt_eqb t LT_ELSE && loopt_eqb last LT_IF).
Definition peek_loop (t : loopt) (s : pst) : bool :=
  match jumps s with
  | [] => false
  | (last, _, _) :: _ => loop_match t last
  end.

(* pop_loop, parser.h:197-225: the label, [None] for the empty string. *)
Definition pop_loop (t : loopt) (s : pst) : option string * pst :=
  match jumps s with
  | [] => (None, s)
  | (last, l, _) :: js =>
    if loop_match t last then
      let e := exp s in
      let s := if loop_add_indent t
               then set_exp (mkExp (text e) (stext e) (next_indent e - 2) (next_indent e - 2)
                                   (remove_parens e)) s
               else s in
      (Some l, set_jumps js s)
    else (None, s)
  end.

(* save and restore, parser.h:255 and 296-306: resizing fills with TOK_END. *)
Definition saved := (bytes * nat * expand)%type.
Definition save (s : pst) : saved := (inp s, List.length (code s), exp s).
Definition resize (n : nat) (c : list cell) : list cell :=
  repeat (CTok T_END, 0) (n - List.length c) ++ skipn (List.length c - n) c.
Definition restore (v : saved) (s : pst) : pst :=
  let '(i, n, e) := v in
  set_exp e (set_code (resize n (code s)) (set_inp i s)).

(* Upper case, as in parser.h:359, 399-402 and parser.cc:62-70. *)
Definition upper (c : Z) : Z := if (97 <=? c) && (c <=? 122) then c - 32 else c.

(* skipws, parser.h:388-393. *)
Fixpoint skip_blanks (b : bytes) : bytes :=
  match b with
  | c :: t => if (c =? BLANK) || (c =? 9) then skip_blanks t else b
  | [] => []
  end.
Definition skipws (s : pst) : pst := set_inp (skip_blanks (inp s)) s.

(* expect, parser.h:394-415: the rest of the line after the character. *)
Definition accept (c : Z) (b : bytes) : option bytes :=
  match b with
  | p :: t => if upper p =? upper c then Some t else None
  | [] => None
  end.

(* peek, parser.h:372-387, with its test "p >= 'a' && p >= 'z'" (signed characters). *)
Definition peek (c : Z) (b : bytes) : bool :=
  match b with
  | p :: _ => (if (122 <=? p) && (p <=? 127) then p - 32 else p) =? upper c
  | [] => false
  end.

(* eol, parser.h:416-435. *)
Definition eat_eol (b : bytes) : option bytes :=
  match b with
  | c :: t =>
    if (c =? EOL9B) || (c =? LF) then Some t
    else if c =? CR then match t with d :: u => if d =? LF then Some u else None | [] => None end
    else None
  | [] => None
  end.

(* get_ident, parser.h:339-371: the name in upper case and the rest. *)
Definition letter (c : Z) : bool := ((65 <=? c) && (c <=? 90)) || (c =? 95).
Fixpoint ident_loop (b : bytes) : option (bytes * bytes) :=
  match b with
  | [] => Some ([], [])
  | p :: t =>
    let c := upper p in
    if letter c || ((48 <=? c) && (c <=? 57)) then
      match ident_loop t with
      | Some (n, u) => Some (c :: n, u)
      | None => None
      end
    else if c =? DOT then None
    else Some ([], b)
  end.
Definition get_ident (b : bytes) : option (string * bytes) :=
  let b := skip_blanks b in
  match b with
  | p :: _ =>
    if letter (upper p) then
      match ident_loop b with
      | Some (n, u) => Some (name_of n, skip_blanks u)
      | None => None
      end
    else None
  | [] => None
  end.

(* add_space, parser.h:93-132, and add_text, 437-442. *)
Definition word_char (l : Z) : bool :=
  ((48 <=? l) && (l <=? 57)) || ((65 <=? l) && (l <=? 90)) || ((97 <=? l) && (l <=? 122))
  || (l =? 95) || (l =? DOLLAR).
Definition add_space (c : Z) (num : nat) (t : bytes) : bytes :=
  let l := last t 0 in
  if (l =? 0) || (l =? BLANK) || (l =? 40) || (l =? 91) || (l =? 35) then t
  else if ((c =? DOLLAR) && (num <=? 1)%nat) || (c =? 91) || (c =? 40) || (c =? 37) then
    if word_char l then t else t ++ [BLANK]
  else if (c =? 44) || (c =? 41) || (c =? 93) then t
  else t ++ [BLANK].
Definition set_text x e := mkExp x (stext e) (indent e) (next_indent e) (remove_parens e).
Definition set_stext x e := mkExp (text e) x (indent e) (next_indent e) (remove_parens e).
Definition add_text (b : bytes) (s : pst) : pst :=
  let e := exp s in
  let t := match b with [] => text e | c :: _ => add_space c (List.length b) (text e) end in
  set_exp (set_text (t ++ b) e) s.

(* add_s_int, add_s_fp, add_s_var, add_s_lit, parser.h:443-471. *)
Definition add_s (b : bytes) (s : pst) : pst :=
  set_exp (set_stext (stext (exp s) ++ b) (exp s)) s.
Definition short_int (x : Z) : bytes :=
  let x := x mod 65536 in
  if 65536 - 9999 <? x then to_string (x - 65536) else to_string x.
Definition add_s_var (n : bytes) (s : pst) : pst := add_s (n ++ [BLANK]) s.
Definition s_lit (c : Z) (e : expand) : expand :=
  if (c =? 41) && negb (remove_parens e =? 0)
  then mkExp (text e) (stext e) (indent e) (next_indent e) (remove_parens e - 1)
  else
    let st := stext e in
    let st :=
      if ((c <? 65) || (90 <? c)) && ((c <? 48) || (57 <? c)) && negb (c =? 95) then
        if (match st with [] => false | _ => last st 0 =? BLANK end) then removelast st else st
      else st in
    set_stext (st ++ [c]) e.

(* add_s_str and add_text_str, parser.h:472-535: see Text.v. *)
Definition add_strings (b : bytes) (s : pst) : pst :=
  let e := exp s in
  set_exp (mkExp (text e ++ text_str b true) (stext e ++ short_str b) (indent e)
                 (next_indent e) (remove_parens e)) s.

(* parse_literal, parser.cc:72-114: matching. *)
Fixpoint match_lit (lit b : bytes) : option bytes :=
  match lit with
  | [] => Some b
  | ch :: t =>
    if (97 <=? ch) && (ch <=? 122) then
      match accept ch b with
      | Some u => match_lit t u
      | None => accept DOT b
      end
    else
      match accept ch b with
      | Some u => match_lit t u
      | None => None
      end
  end.
(* The loop at parser.cc:104-112. *)
Fixpoint short_lit (lit : bytes) (e : expand) : expand :=
  match lit with
  | [] => e
  | c :: t => if (97 <=? c) && (c <=? 122) then s_lit DOT e else short_lit t (s_lit c e)
  end.
Definition inc_parens e := mkExp (text e) (stext e) (indent e) (next_indent e) (remove_parens e + 1).
Definition parse_literal (lit : string) (s : pst) : res :=
  match match_lit (chars lit) (inp s) with
  | None => Fail s
  | Some u =>
    let s := add_text (map upper (chars lit)) (set_inp u s) in
    let e := exp s in
    Ok (set_exp (if String.eqb lit "EXEc" then short_lit (chars "@") e
                 else if String.eqb lit "PRInt" then short_lit (chars "?") e
                 else if String.eqb lit "ADR(" then short_lit (chars "&") (inc_parens e)
                 else short_lit (chars lit) e) s)
  end.

(* What the parser takes from outside: the conversion of the text of a floating point
   number (validity, six bytes and canonical text; parser-actions.cc:532-589 and
   atarifp.h, from the characters on), and the contents of the files named in DATA
   statements (parser-actions.cc:717-740). *)
Record env := mkEnv { fp_conv : bytes -> bool * bytes * bytes; data_file : bytes -> option bytes }.

(* get_number, parser-actions.cc:73-119, with the listings: the number (65536 and more
   for a failure) and the state. *)
Definition get_num (s : pst) : Z * pst :=
  let '(n, u) := get_number (inp s) in
  if 65535 <? n then (n, s)
  else
    let s' := set_inp u s in
    match eat DOLLAR (inp s) with
    | Some _ =>
      let sn := DOLLAR :: (if 255 <? n then [hexd (n / 4096); hexd (n / 256)] else [])
                ++ [hexd (n / 16); hexd n] in
      (n, add_s (short_int n) (add_text sn s'))
    | None =>
      (* "sign ? -num : num"; 65536 - num is what get_number gives for a sign. *)
      let v := match eat MINUS (inp s) with Some _ => n - 65536 | None => n end in
      (n, add_s (short_int v) (add_text (to_string v) s'))
    end.

(* get_asm_word_constant and get_asm_byte_constant, parser-actions.cc:121-159. *)
Definition asm_const (at_ : bytes) (mk : string -> codew) (s : pst) : option pst :=
  match match_lit at_ (inp s) with
  | Some u =>
    match get_ident u with
    | Some (n, u) =>
      let s := add_s_var (at_ ++ chars n) (add_text (at_ ++ chars n) (set_inp u s)) in
      Some (skipws (emit (mk n) s))
    | None => None
    end
  | None => None
  end.

(* E_NUMBER_WORD and E_NUMBER_BYTE, parser-actions.cc:161-187. *)
Definition a_number (at_ : bytes) (mks : string -> codew) (mk : Z -> codew) (max : Z) (s : pst) : res :=
  let s := skipws s in
  match asm_const at_ mks s with
  | Some s => Ok s
  | None =>
    let '(n, s) := get_num s in
    if max <? n then Fail s else Ok (skipws (emit (mk n) s))
  end.
Definition a_number_word := a_number [64] CWordS CWord 65535.
Definition a_number_byte := a_number [64; 64] CByteS CByte 255.

(* E_CONST_STRING, parser-actions.cc:229-236. *)
Definition a_const_string (s : pst) : res :=
  match get_const_string (inp s) with
  | Some (b, u) => Ok (emit (CStr b) (add_strings b (set_inp u s)))
  | None => Fail s
  end.

(* E_REM, parser-actions.cc:238-250. *)
Fixpoint rem_loop (b : bytes) : bytes * bytes :=
  match b with
  | [] => ([], [])
  | c :: t => if (c =? LF) || (c =? EOL9B) then ([], t)
              else let '(x, u) := rem_loop t in (c :: x, u)
  end.
Definition a_rem (s : pst) : res :=
  let e := exp s in
  let e := match stext e with [c] => if c =? DOT then set_stext [] e else e | _ => e end in
  let '(x, u) := rem_loop (inp s) in
  Ok (set_exp (set_text (text e ++ x) e) (set_inp u s)).

(* E_EOL, parser-actions.cc:252-262. *)
Definition a_eol (s : pst) : res :=
  let s := skipws s in
  match accept APOS (inp s) with
  | Some u => a_rem (add_text [APOS] (set_inp u s))
  | None =>
    match inp s with
    | [] => Ok s
    | _ => if peek COLON (inp s) then Ok s
           else match eat_eol (inp s) with Some u => Ok (set_inp u s) | None => Fail s end
    end
  end.

(* E_PUSH_VAR and E_POP_VAR, parser-actions.cc:264-280. *)
Definition a_push_var (s : pst) : res :=
  match remove_last s with
  | None => Undef
  | Some (c, s) => Ok (set_var_stk (c :: var_stk s) s)
  end.
Definition a_pop_var (s : pst) : res :=
  match var_stk s with
  | [] => Throw
  | c :: t => Ok (set_var_stk t (set_code (c :: code s) s))
  end.

(* E_PUSH_LT, parser-actions.cc:282-314. *)
Definition a_push_lt (s : pst) : res :=
  take_str s (fun n s =>
    match get_looptype n with
    | None => Throw
    | Some t =>
      let '(l, s) := push_loop t s in
      match t with
      | LT_DO_LOOP | LT_REPEAT | LT_WHILE_1 | LT_FOR_1 => Ok (emit (CLabel l) s)
      | LT_WHILE_2 | LT_FOR_2 | LT_IF => Ok (emit (CWordS l) s)
      | LT_EXIT | LT_ELSE | LT_ELIF | LT_PROC_2 | LT_LAST_JUMP => Ok s
      | LT_PROC_DATA =>
        match remove_last s with
        | None => Undef
        | Some (_, s) => Ok (push_proc l s)
        end
      end
    end).

Definition lbl_x (l : string) : string := append l "_x".

(* E_POP_LOOP, parser-actions.cc:316-326, and E_POP_REPEAT, 428-438. *)
Definition a_pop_simple (t : loopt) (s : pst) : res :=
  match pop_loop t s with
  | (None, s) => Fail s
  | (Some l, s) => Ok (emit (CLabel (lbl_x l)) (emit (CWordS l) s))
  end.
Definition a_pop_loop := a_pop_simple LT_DO_LOOP.
Definition a_pop_repeat := a_pop_simple LT_REPEAT.

(* E_POP_WHILE, parser-actions.cc:328-340. *)
Definition a_pop_while (s : pst) : res :=
  let '(l1, s) := pop_loop LT_WHILE_2 s in
  let '(l2, s) := pop_loop LT_WHILE_1 s in
  match l1, l2 with
  | Some l1, Some l2 =>
    Ok (emit (CLabel (lbl_x l2)) (emit (CLabel l1) (emit (CWordS l2) s)))
  | _, _ => Fail s
  end.

(* E_POP_IF, parser-actions.cc:342-353; the loop ends because each step takes one
   element of "jumps". *)
Fixpoint pop_elifs (n : nat) (s : pst) : pst :=
  match n with
  | O => s
  | S k =>
    if peek_loop LT_ELIF s then
      match pop_loop LT_ELIF s with
      | (Some l, s) => pop_elifs k (emit (CLabel l) s)
      | (None, s) => s
      end
    else s
  end.
Definition a_pop_if (s : pst) : res :=
  match pop_loop LT_ELSE s with
  | (None, s) => Fail s
  | (Some l, s) => Ok (pop_elifs (List.length (jumps s)) (emit (CLabel l) s))
  end.

(* E_ELSEIF, parser-actions.cc:355-367. *)
Definition a_elseif (s : pst) : res :=
  match pop_loop LT_IF s with
  | (None, s) => Fail s
  | (Some l1, s) =>
    take_str s (fun n s =>
      match get_looptype n with
      | None => Throw
      | Some t => let '(l2, s) := push_loop t s in Ok (emit (CLabel l1) (emit (CWordS l2) s))
      end)
  end.

(* E_EXIT_LOOP, parser-actions.cc:369-389. *)
Fixpoint exit_label (js : list (loopt * string * Z)) : option string :=
  match js with
  | [] => None
  | (t, l, _) :: js =>
    match t with
    | LT_ELIF | LT_IF | LT_ELSE | LT_FOR_2 | LT_WHILE_2 => exit_label js
    | LT_PROC_DATA | LT_EXIT => None
    | _ => Some l
    end
  end.
Definition a_exit_loop (s : pst) : res :=
  match exit_label (jumps s) with
  | None => Fail s
  | Some l => Ok (emit (CWordS (lbl_x l)) s)
  end.

(* E_POP_PROC_DATA and E_POP_PROC_2, parser-actions.cc:391-411. *)
Definition a_pop_proc_data (s : pst) : res :=
  match pop_loop LT_PROC_DATA s with
  | (None, s) => Fail s
  | (Some l, s) => match pop_proc l s with None => Throw | Some s => Ok s end
  end.
Definition a_pop_proc_2 (s : pst) : res :=
  match pop_loop LT_PROC_2 s with
  | (None, s) => Fail s
  | (Some l, s) => Ok (emit (CLabel (lbl_x l)) s)
  end.

(* E_POP_FOR, parser-actions.cc:413-426. *)
Definition a_pop_for (s : pst) : res :=
  let '(l2, s) := pop_loop LT_FOR_1 s in
  let '(l1, s) := pop_loop LT_FOR_2 s in
  match l1, l2 with
  | Some l1, Some l2 =>
    match remove_last s with
    | None => Undef
    | Some (_, s) =>
      Ok (emit (CLabel (lbl_x l2)) (emit (CLabel l1) (emit (CWordS l2) s)))
    end
  | _, _ => Fail s
  end.

(* emit_varn, parser.h:571-578. *)
Definition varn (v : Z) : codew := CVarn (v / 256).

(* E_VAR_CREATE, parser-actions.cc:441-457. *)
Definition a_var_create (s : pst) : res :=
  match get_ident (inp s) with
  | None => Fail s
  | Some (n, u) =>
    match find n (vars s) with
    | Some _ => Fail s
    | None =>
      let v := 256 * Z.of_nat (List.length (vars s)) in
      let s := set_last_var n (set_vars (vars s ++ [(n, v)]) (set_inp u s)) in
      Ok (add_s_var (chars n) (add_text (chars n) (emit (varn v) s)))
    end
  end.

(* E_VAR_SET_TYPE, parser-actions.cc:459-480. *)
Definition fake (m : list (string * Z)) : list (string * Z) :=
  assign (append "-fake-" (name_of (to_string (Z.of_nat (List.length m))))) 0 m.
Definition a_var_set_type (s : pst) : res :=
  take_str (skipws s) (fun n s =>
    let t := get_vartype n in
    let v := match find (last_var s) (vars s) with Some v => v | None => 0 end in
    let m := assign (last_var s) (v / 256 * 256 + t) (vars s) in
    let m := if t =? VT_FLOAT then fake (fake m) else m in
    let s := set_vars m s in
    if var_type_is_array t then Ok s else Fail s).

(* var_check, parser-actions.cc:482-499, E_VAR_WORD and E_VAR_SEARCH, 501-513. *)
Definition var_check (t : Z) (s : pst) : res :=
  match get_ident (inp s) with
  | None => Fail s
  | Some (n, u) =>
    match find n (vars s) with
    | None => Fail s
    | Some v =>
      if v mod 256 =? t
      then Ok (emit (varn v) (add_s_var (chars n) (add_text (chars n) (set_inp u s))))
      else Fail s
    end
  end.
Definition a_var_word := var_check VT_WORD.
Definition a_var_search (s : pst) : res :=
  take_str s (fun n s => var_check (get_vartype n) s).

(* get_fp_number and parse_fp_exp, parser-actions.cc:516-577: the extent of the number.
   The first function scans digits and dots and tells if there was a digit. *)
Fixpoint fp_digits (b : bytes) (ok : bool) : bool * bytes * bytes :=
  match b with
  | [] => (ok, [], [])
  | c :: t =>
    if (48 <=? c) && (c <=? 57) then let '(o, x, u) := fp_digits t true in (o, c :: x, u)
    else if c =? DOT then let '(o, x, u) := fp_digits t ok in (o, c :: x, u)
    else (ok, [], b)
  end.
Definition digit (b : bytes) : option (Z * bytes) :=
  match b with
  | c :: t => if (48 <=? c) && (c <=? 57) then Some (c, t) else None
  | [] => None
  end.
Definition fp_exp (b : bytes) : bytes * bytes :=
  match accept 69 b with
  | None => ([], b)
  | Some t =>
    let '(sg, t) := match accept MINUS t with
                    | Some u => ([MINUS], u)
                    | None => ([], match accept 43 t with Some u => u | None => t end)
                    end in
    match digit t with
    | None => ([], b)
    | Some (d, u) => match digit u with
                     | None => (69 :: sg ++ [d], u)
                     | Some (d2, u) => (69 :: sg ++ [d; d2], u)
                     end
    end
  end.
(* E_NUMBER_FP, parser-actions.cc:579-589. *)
Definition a_number_fp (E : env) (s : pst) : res :=
  let s := skipws s in
  let '(sg, b) := match accept MINUS (inp s) with
                  | Some u => ([MINUS], u)
                  | None => ([], inp s)
                  end in
  let '(ok, x, u) := fp_digits b false in
  if ok then
    let '(y, u) := fp_exp u in
    let '(valid, six, sn) := fp_conv E (sg ++ x ++ y) in
    let s := add_s sn (add_text sn (set_inp u s)) in
    if valid then Ok (skipws (emit (CFp six) s)) else Fail s
  else Fail s.

(* labels[name], creating the entry. *)
Definition get_label (n : string) (s : pst) : labelt :=
  match find n (labels s) with Some l => l | None => label0 end.
Definition set_label (n : string) (l : labelt) (s : pst) : pst :=
  set_labels (assign n l (labels s)) s.
Definition lbl_name (n : string) : string := append "fb_lbl_" n.

(* E_LABEL_DEF, parser-actions.cc:591-605. *)
Definition a_label_def (s : pst) : res :=
  let '(l, s) := push_loop LT_PROC_DATA s in
  match remove_last s with
  | None => Undef
  | Some (_, s) =>
    let s := push_proc l s in
    let n := last_label s in
    let s := set_label n (get_label n s) s in
    if is_defined (get_label n s) then Fail s
    else Ok (emit (CLabel (lbl_name n)) (set_cur_params 0 s))
  end.

(* E_LABEL, parser-actions.cc:607-626. *)
Definition a_label (s : pst) : res :=
  take_str s (fun t s =>
    match label_set_type t label0 with
    | None => Throw
    | Some lt =>
      match get_ident (inp s) with
      | None => Fail s
      | Some (n, u) =>
        match find n (labels s) with
        | None => Fail s
        | Some l =>
          if fst l =? fst lt
          then Ok (emit (CWordS (lbl_name n))
                     (add_s_var (chars n) (add_text (chars n) (set_inp u s))))
          else Fail s
        end
      end
    end).

(* E_COUNT_PARAM, parser-actions.cc:628-633. *)
Definition a_count_param (s : pst) : res := Fail (set_cur_params (cur_params s + 1) s).

(* E_LABEL_CREATE, parser-actions.cc:637-654. *)
Definition a_label_create (s : pst) : res :=
  match get_ident (inp s) with
  | None => Fail s
  | Some (n, u) =>
    let s := set_label n (get_label n s) (set_inp u s) in
    if is_proc (get_label n s)
    then Ok (set_cur_params 0 (set_last_label n (add_s_var (chars n) (add_text (chars n) s))))
    else Fail s
  end.

(* E_DO_EXEC, parser-actions.cc:656-668, and E_PROC_CHECK, 670-682. *)
Definition a_do_exec (s : pst) : res :=
  let n := last_label s in
  let '(l, ok) := add_proc_params (cur_params s) (get_label n s) in
  if ok then Ok (emit (CWordS (lbl_name n)) (set_label n l s)) else Throw.
Definition a_proc_check (s : pst) : res :=
  let n := last_label s in
  let '(l, ok) := add_proc_params (cur_params s - 1) (get_label n s) in
  if ok then Ok (set_label n (define l) s) else Throw.

(* E_LABEL_SET_TYPE, parser-actions.cc:684-691. *)
Definition a_label_set_type (s : pst) : res :=
  take_str (skipws s) (fun t s =>
    let n := last_label s in
    match label_set_type t (get_label n s) with
    | None => Throw
    | Some l => Ok (set_label n l s)
    end).

(* E_DATA_SET_ROM_SEG and E_DATA_SET_SEGMENT, parser-actions.cc:693-714. *)
Definition set_segment (seg : string) (s : pst) : pst :=
  set_label (last_label s) (fst (get_label (last_label s) s), seg) s.
Definition a_data_set_rom_seg (s : pst) : res := Ok (set_segment "CODE" (skipws s)).
Definition a_data_set_segment (s : pst) : res :=
  let s := skipws s in
  match get_ident (inp s) with
  | Some (seg, u) => Ok (set_segment seg (set_inp u s))
  | None => Fail s
  end.

(* E_DATA_FILE, parser-actions.cc:717-740: at most 65536 bytes. *)
Definition a_data_file (E : env) (s : pst) : res :=
  let s := skipws s in
  match get_const_string (inp s) with
  | None => Fail s
  | Some (b, u) =>
    let s := add_strings b (set_inp u s) in
    match data_file E b with
    | None => Throw
    | Some d => Ok (fold_left (fun s c => emit (CByte c) s) (firstn (Z.to_nat 65536) d) s)
    end
  end.

(* The table of actions, parser-actions.cc:743-785; other names give false. *)
Definition call_action (E : env) (a : string) (s : pst) : res :=
  if String.eqb a "E_CONST_STRING" then a_const_string s
  else if String.eqb a "E_COUNT_PARAM" then a_count_param s
  else if String.eqb a "E_DATA_FILE" then a_data_file E s
  else if String.eqb a "E_DO_EXEC" then a_do_exec s
  else if String.eqb a "E_ELSEIF" then a_elseif s
  else if String.eqb a "E_EOL" then a_eol s
  else if String.eqb a "E_EXIT_LOOP" then a_exit_loop s
  else if String.eqb a "E_LABEL" then a_label s
  else if String.eqb a "E_LABEL_CREATE" then a_label_create s
  else if String.eqb a "E_LABEL_DEF" then a_label_def s
  else if String.eqb a "E_LABEL_SET_TYPE" then a_label_set_type s
  else if String.eqb a "E_DATA_SET_ROM_SEG" then a_data_set_rom_seg s
  else if String.eqb a "E_DATA_SET_SEGMENT" then a_data_set_segment s
  else if String.eqb a "E_NUMBER_BYTE" then a_number_byte s
  else if String.eqb a "E_NUMBER_FP" then a_number_fp E s
  else if String.eqb a "E_NUMBER_WORD" then a_number_word s
  else if String.eqb a "E_POP_FOR" then a_pop_for s
  else if String.eqb a "E_POP_IF" then a_pop_if s
  else if String.eqb a "E_POP_LOOP" then a_pop_loop s
  else if String.eqb a "E_POP_PROC_2" then a_pop_proc_2 s
  else if String.eqb a "E_POP_PROC_DATA" then a_pop_proc_data s
  else if String.eqb a "E_POP_REPEAT" then a_pop_repeat s
  else if String.eqb a "E_POP_VAR" then a_pop_var s
  else if String.eqb a "E_POP_WHILE" then a_pop_while s
  else if String.eqb a "E_PROC_CHECK" then a_proc_check s
  else if String.eqb a "E_PUSH_LT" then a_push_lt s
  else if String.eqb a "E_PUSH_VAR" then a_push_var s
  else if String.eqb a "E_REM" then a_rem s
  else if String.eqb a "E_VAR_CREATE" then a_var_create s
  else if String.eqb a "E_VAR_SEARCH" then a_var_search s
  else if String.eqb a "E_VAR_SET_TYPE" then a_var_set_type s
  else if String.eqb a "E_VAR_WORD" then a_var_word s
  else Fail s.

(* statemachine::pcode, synt-sm.h:55-90.  The data to emit (dcode, 37-54) is kept as
   the code elements that emit_bytes (parser.cc:37-60) makes from it. *)
Inductive pcode : Set :=
| PLit (lit : string)
| PEmit (d : list codew)
| PEmitRet (d : list codew)
| PTab (name : string)
| PExt (action : string)
| PRet.

(* sm_list: the lines of each table (synt-sm.h:92-97, synt-sm-list.h). *)
Definition pline := list pcode.
Definition tables := list (string * list pline).

(* emit_bytes, parser.cc:37-60. *)
Definition emits (d : list codew) (s : pst) : pst := fold_left (fun s c => emit c s) d s.

(* parse_line, parser.cc:116-146; [call] is parse_table. *)
Fixpoint run_line (E : env) (call : string -> pst -> res) (l : pline) (s : pst) : res :=
  match l with
  | [] => Ok s
  | c :: t =>
    match c with
    | PLit x => match parse_literal x s with
                | Ok s => run_line E call t s
                | r => r
                end
    | PEmit d => run_line E call t (emits d s)
    | PEmitRet d => Ok (emits d s)
    | PExt a => match call_action E a s with
                | Ok s => run_line E call t s
                | r => r
                end
    | PTab n => match call n s with
                | Ok s => run_line E call t s
                | r => r
                end
    | PRet => Ok s
    end
  end.

(* The loop over the lines of a table, parser.cc:158-168. *)
Fixpoint run_alts (E : env) (call : string -> pst -> res) (v : saved) (ls : list pline) (s : pst)
  : res :=
  match ls with
  | [] => Fail s
  | l :: t =>
    match run_line E call l s with
    | Fail s => run_alts E call v t (restore v s)
    | r => r
    end
  end.

(* parser.h:47. *)
Definition MAX_RECURSE_LEVEL := 200.

(* parse_table, parser.cc:148-172, with check_level, parser.h:258-263.  [lvl] is the
   member "lvl" on entry: it is decremented on each return, and an exception ends the
   compilation. *)
Fixpoint parse_table (E : env) (tb : tables) (fuel : nat) (lvl : Z) (name : string) (s : pst) : res :=
  match fuel with
  | O => NoFuel
  | S k =>
    match find name tb with
    | None => Throw
    | Some ls =>
      if MAX_RECURSE_LEVEL <? lvl then Throw
      else let s := skipws s in
           run_alts E (parse_table E tb k (lvl + 1)) (save s) ls s
    end
  end.

(* parse_start, parser.cc:174-178, with enough fuel for the levels allowed. *)
Definition LEVELS : nat := 202.
Definition parse_start (E : env) (tb : tables) (s : pst) : res :=
  parse_table E tb LEVELS 0 "PARSE_START" s.

(* expand_line::get, parser.h:73-82, and get_short, 83-92. *)
Definition get_long (e : expand) : bytes * expand :=
  (repeat BLANK (Z.to_nat (indent e)) ++ text e,
   mkExp [] (stext e) (next_indent e) (next_indent e) (remove_parens e)).
Definition get_short_text (e : expand) : bytes * expand :=
  (get_short (stext e), mkExp (text e) [] (indent e) (next_indent e) 0).

(* Outcome of a line or a program: the state and the listed statements, an error
   message, undefined behaviour or lack of fuel. *)
Inductive outcome :=
| Done (s : pst) (lst : list bytes) | Error | Bad | Stuck.

(* The loop of parse_line, compile.cc:88-146.  [short] tells if the short listing is
   wanted; what is listed is the text of each statement. *)
Fixpoint line_loop (E : env) (tb : tables) (short : bool) (fuel : nat) (s : pst) (lst : list bytes)
  : outcome :=
  match inp s with
  | [] => Done s lst
  | _ =>
    match fuel with
    | O => Stuck
    | S k =>
      match parse_start E tb s with
      | Ok s =>
        if match inp s with [] => true | _ => peek COLON (inp s) end then
          let '(t, e) := if short then get_short_text (exp s) else get_long (exp s) in
          let s := set_exp e s in
          let s := match accept COLON (inp s) with Some u => set_inp u s | None => s end in
          line_loop E tb short k s (lst ++ [t])
        else Error
      | Fail _ | Throw => Error
      | Undef => Bad
      | NoFuel => Stuck
      end
    end
  end.

(* new_line, parser.h:245-253. *)
Definition new_line (l : bytes) (ln : Z) (s : pst) : pst :=
  let e := exp s in
  set_inp l (set_linenum ln (set_var_stk []
    (set_exp (mkExp [] [] (indent e) (next_indent e) (remove_parens e)) s))).
Definition parse_line (E : env) (tb : tables) (short : bool) (ln : Z) (l : bytes) (s : pst)
  (lst : list bytes) : outcome :=
  line_loop E tb short (S (List.length l)) (new_line l ln s) lst.

(* The loop of compile_file, compile.cc:200-213, on the lines given by [read_file]. *)
Fixpoint parse_lines (E : env) (tb : tables) (short : bool) (ls : list (Z * bytes)) (s : pst)
  (lst : list bytes) : outcome :=
  match ls with
  | [] => Done s lst
  | (ln, l) :: t =>
    match parse_line E tb short ln l s lst with
    | Done s lst => parse_lines E tb short t s lst
    | r => r
    end
  end.

(* compile.cc:196-264: all the lines, check_loops (parser.h:226-243) and the last
   TOK_END. *)
Definition compile (E : env) (tb : tables) (short : bool) (ls : list (Z * bytes)) : outcome :=
  match parse_lines E tb short ls pst0 [] with
  | Done s lst => match jumps s with [] => Done (emit (CTok T_END) s) lst | _ => Error end
  | r => r
  end.

(* full_code, parser.h:601-624.  std::sort is not stable, so the order of the vectors
   whose first elements have the same line is not determined: this is the relation
   between the state and the code it may give. *)
Definition first_line (c : list cell) : Z := match c with (_, n) :: _ => n | [] => 0 end.
Fixpoint by_line (ps : list (list cell)) : Prop :=
  match ps with
  | [] => True
  | p :: t => Forall (fun q => first_line p <= first_line q) t /\ by_line t
  end.
Definition main_code (s : pst) : list cell :=
  let p := match find ""%string (procs s) with Some c => c | None => [] end in
  rev (match p with
       | (CTok T_END, _) :: _ => p
       | _ => (CTok T_END, 0) :: p
       end).
Definition proc_codes (s : pst) : list (list cell) :=
  filter (fun c => match c with [] => false | _ => true end)
    (map (fun p => rev (snd p)) (filter (fun p => negb (String.eqb (fst p) "")) (procs s))).
Definition full_code (s : pst) (out : list cell) : Prop :=
  exists ps, Permutation ps (proc_codes s) /\ by_line ps
             /\ out = main_code s ++ concat ps.

(* The variables in the output, compile.cc:314-330: a std::map from the value (number
   and type) to the name, without the names that are empty or start with '-'; then one
   ".res" per variable.  [layout] gives the distance of each variable to __HEAP_RUN__;
   the HEAP segment of the main module is taken to start there.  emplace keeps the
   first name when two have the same value; the names come in another order in the C++
   map, which only matters in that case. *)
Definition shown (n : string) : bool :=
  match n with
  | EmptyString => false
  | String c _ => negb (Ascii.eqb c "-"%char)
  end.
Fixpoint emplace (v : Z) (n : string) (m : list (Z * string)) : list (Z * string) :=
  match m with
  | [] => [(v, n)]
  | (w, k) :: t => if v <? w then (v, n) :: m
                   else if v =? w then m
                   else (w, k) :: emplace v n t
  end.
Definition vlist (m : list (string * Z)) : list (Z * string) :=
  fold_left (fun a p => if shown (fst p) then emplace (snd p) (fst p) a else a) m [].
Fixpoint place (a : Z) (l : list (Z * string)) : list (string * Z) :=
  match l with
  | [] => []
  | (v, n) :: t => (n, a) :: place (a + get_vt_size (v mod 256)) t
  end.
Definition layout (s : pst) : list (string * Z) := place 0 (vlist (vars s)).
(* The macro makevar, compile.cc:309-312. *)
Definition makevar (a : Z) : Z := a / 2 mod 256.
