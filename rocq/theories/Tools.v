(* Helpers of the compiler driver: the preprocessor of syntax files
   (src/compiler/synt-preproc.cc), names of files (os.cc, main.cc, syntp.cc) and the
   lines of target files (target.cc).  Strings are lists of characters 0..255. *)
From Verif Require Import Codew Text Front.

(* ---- synt-preproc.cc ---- *)
Definition HASH := 35.
Definition AT := 64.
Definition BANG := 33.

(* One letter in both cases, as in "c == 'i' || c == 'I'" (synt-preproc.cc:46-88). *)
Definition is_ch (up c : Z) : bool := (c =? up) || (c =? up + 32).

(* defs.find(...) != defs.end(), synt-preproc.cc:67-70: the set of symbols as a list. *)
Definition beqb (a b : bytes) : bool := if list_eq_dec Z.eq_dec a b then true else false.
Definition defined (defs : list bytes) (w : bytes) : bool := existsb (beqb w) defs.

(* The end of the word after "#@if ", synt-preproc.cc:64-75: how much "skip" grows. *)
Definition word_skip (defs : list bytes) (word : bytes) : Z :=
  match word with
  | c :: ((_ :: _) as w) =>
    if c =? BANG then (if defined defs w then 1 else 0) else if defined defs word then 0 else 1
  | [] => 0
  | _ => if defined defs word then 0 else 1
  end.

(* The state machine, synt-preproc.cc:39-90: new st, skip and word after character c. *)
Definition pp_step (defs : list bytes) (st skip : Z) (word : bytes) (c : Z) : Z * Z * bytes :=
  if st =? 0 then (if c =? HASH then 1 else 0, skip, word)
  else if st =? 1 then (if c =? AT then 2 else 0, skip, word)
  else if st =? 2 then (if is_ch 73 c then 3 else if is_ch 69 c then 6 else 0, skip, word)
  else if st =? 3 then (if is_ch 70 c then 4 else 0, skip, word)
  else if st =? 4 then (if c =? BLANK then 5 else 0, skip, word)
  else if st =? 5 then
    if (97 <=? c) && (c <=? 122) then (5, skip, word ++ [c - 32])
    else if ((65 <=? c) && (c <=? 90)) || (c =? 95)
            || ((match word with [] => true | _ => false end) && (c =? BANG))
         then (5, skip, word ++ [c])
         else (0, skip + word_skip defs word, [])
  else if st =? 6 then (if is_ch 78 c then 7 else 0, skip, word)
  else if st =? 7 then (if is_ch 68 c then 8 else 0, skip, word)
  else if st =? 8 then (if is_ch 73 c then 9 else 0, skip, word)
  else if st =? 9 then (if is_ch 70 c then 10 else 0, skip, word)
  else (0, if skip =? 0 then 0 else skip - 1, word).

(* read_input, synt-preproc.cc:30-95, from a state of the machine. *)
Fixpoint pp_loop (defs : list bytes) (inp : bytes) (st skip : Z) (word : bytes) : bytes :=
  match inp with
  | [] => []
  | c :: t =>
    let '(st, skip, word) := pp_step defs st skip word c in
    let r := pp_loop defs t st skip word in
    if (skip =? 0) || (c =? LF) || (c =? HASH) then c :: r else r
  end.
Definition read_input (defs : list bytes) (inp : bytes) : bytes := pp_loop defs inp 0 0 [].

(* ---- os.cc ---- *)
Definition SLASH := 47.

(* find_last_of: the parts before and after the last character of the set; [None] is
   npos.  Used by os.cc:55-101 and syntp.cc:70. *)
Fixpoint find_last (p : Z -> bool) (l : bytes) : option (bytes * Z * bytes) :=
  match l with
  | [] => None
  | c :: t =>
    match find_last p t with
    | Some (a, x, b) => Some (c :: a, x, b)
    | None => if p c then Some ([], c, t) else None
    end
  end.

(* add_extension, os.cc:87-94, and get_extension_lower, os.cc:96-105. *)
Definition add_extension (name ext : bytes) : bytes :=
  match find_last (fun c => c =? DOT) name with
  | None => name ++ ext
  | Some ([], _, _) => name ++ ext
  | Some (a, _, _) => a ++ ext
  end.
Definition lower (c : Z) : Z := if (65 <=? c) && (c <=? 90) then c + 32 else c.
Definition get_extension_lower (name : bytes) : bytes :=
  match find_last (fun c => c =? DOT) name with
  | None | Some ([], _, _) => []
  | Some (_, _, b) => map lower b
  end.

(* full_path, file_name and dir_name, os.cc:50-85, with the separator of Unix and no
   drive letters. *)
Definition is_sep (c : Z) : bool := c =? SLASH.
Definition full_path (path filename : bytes) : bytes :=
  match path with
  | [] => [DOT; SLASH] ++ filename
  | _ =>
    match find_last is_sep path with
    | None => path ++ SLASH :: filename
    | Some (_, _, []) => path ++ filename
    | Some (_, _, _) => path ++ SLASH :: filename
    end
  end.
Definition file_name (path : bytes) : bytes :=
  match find_last is_sep path with
  | Some (_, c, b) => c :: b
  | None => path
  end.
Definition dir_name (path : bytes) : bytes :=
  match find_last is_sep path with
  | Some ([], _, _) => firstn 1 path
  | Some (a, _, _) => a
  | None => [DOT]
  end.

(* open_output_header, syntp.cc:69-73: the name of the header file. *)
Definition header_name (name ext : bytes) : bytes :=
  match find_last (fun c => (c =? DOT) || (c =? SLASH)) name with
  | None => name ++ ext
  | Some (a, c, _) => if c =? SLASH then name ++ ext else a ++ ext
  end.

(* parse_path_list, main.cc:79-95. *)
Fixpoint parse_path_list (str : bytes) : list bytes :=
  match str with
  | [] => [[]]
  | c :: t =>
    if c =? COLON then [] :: parse_path_list t
    else match parse_path_list t with
         | [] => [[c]]
         | p :: ps => (c :: p) :: ps
         end
  end.

(* ---- target.cc ---- *)
Definition is_space (c : Z) : bool := (c =? 32) || (c =? 9) || (c =? 13) || (c =? 10).

(* getline(f, line).good(), target.cc:72: the lines that end with a newline; what comes
   after the last newline is not used. *)
Fixpoint good_lines (inp line : bytes) : list bytes :=
  match inp with
  | [] => []
  | c :: t => if c =? LF then rev line :: good_lines t [] else good_lines t (c :: line)
  end.
Definition target_lines (inp : bytes) : list bytes := good_lines inp [].

(* find_first_not_of and find_first_of on the rest of the line. *)
Fixpoint skip_space (l : bytes) : bytes :=
  match l with [] => [] | c :: t => if is_space c then skip_space t else l end.
Fixpoint take_word (l : bytes) : bytes * bytes :=
  match l with
  | [] => ([], [])
  | c :: t => if is_space c then ([], l) else let '(w, r) := take_word t in (c :: w, r)
  end.
(* Key and arguments of a line, target.cc:75-84; [None] for blank lines and comments. *)
Definition key_args (line : bytes) : option (bytes * bytes) :=
  match skip_space line with
  | [] => None
  | c :: t =>
    if c =? HASH then None
    else let '(key, r) := take_word (c :: t) in Some (key, skip_space r)
  end.
(* The words of "ca65" and "syntax" arguments, target.cc:103-121; [fuel] bounds their
   number. *)
Fixpoint split_words (fuel : nat) (args : bytes) : list bytes :=
  match args, fuel with
  | [], _ | _, O => []
  | _, S k => let '(w, r) := take_word args in w :: split_words k (skip_space r)
  end.
Definition arg_words (args : bytes) : list bytes := split_words (S (List.length args)) args.
