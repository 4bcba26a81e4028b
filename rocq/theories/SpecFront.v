(* Words used to state the properties of the parser (C34 to C40, C48, C49, C52). *)
From Verif Require Import Codew Text Front Tables.

(* Programs for the examples: lines numbered from 1, each with its end. *)
Definition prog (ls : list string) : list (Z * bytes) :=
  map (fun p => (Z.of_nat (fst p) + 1, chars (snd p) ++ [LF])) (combine (seq 0 (List.length ls)) ls).
(* No floating point numbers and no files. *)
Definition no_env : env := mkEnv (fun _ => (false, [], [])) (fun _ => None).

(* The program compiles. *)
Definition compiles (o : outcome) : bool := match o with Done _ _ => true | _ => false end.
Lemma compiles_done o : compiles o = true -> exists s lst, o = Done s lst.
Proof. destruct o as [s l| | |]; try discriminate. eauto. Qed.

(* The two sets of tables of the compiler: integer and floating point. *)
Definition real (tb : tables) : Prop := tb = tables_int \/ tb = tables_fp.

(* Storage of a variable, by its type: floating point variables use 6 bytes, all others
   2 (manual.md:536-547; strings and arrays keep a pointer). *)
Definition is_float (v : Z) : bool := v mod 256 =? 7.
Definition bytes_of (v : Z) : Z := if is_float v then 6 else 2.

(* The variable [n] of the program, of number and type [v], lies at [a]. *)
Definition lies (s : pst) (n : string) (v a : Z) : Prop :=
  In (n, v) (vars s) /\ find n (layout s) = Some a.
(* A name that a program can write: it starts with a letter or an underscore. *)
Definition user_name (n : string) : Prop :=
  match n with
  | EmptyString => False
  | String c _ => let k := Z.of_N (N_of_ascii c) in 65 <= k <= 90 \/ k = 95
  end.

(* ---- What happens during a compilation ---- *)
(* The actions performed, in order, each with the state in which it starts; actions of
   alternatives that fail later are included.  These functions follow the parser
   (run_line, run_alts, parse_table, line_loop and parse_lines of Front.v) step by step
   and use its own functions for the states in between. *)
Definition event := (string * pst)%type.
Fixpoint ev_line (E : env) (call : string -> pst -> res) (ev : string -> pst -> list event)
  (l : pline) (s : pst) : list event :=
  match l with
  | [] => []
  | c :: t =>
    match c with
    | PLit x => match parse_literal x s with Ok s => ev_line E call ev t s | _ => [] end
    | PEmit d => ev_line E call ev t (emits d s)
    | PEmitRet d => []
    | PExt a => (a, s) :: match call_action E a s with Ok s => ev_line E call ev t s | _ => [] end
    | PTab n => ev n s ++ match call n s with Ok s => ev_line E call ev t s | _ => [] end
    | PRet => []
    end
  end.
Fixpoint ev_alts (E : env) (call : string -> pst -> res) (ev : string -> pst -> list event)
  (v : saved) (ls : list pline) (s : pst) : list event :=
  match ls with
  | [] => []
  | l :: t => ev_line E call ev l s
              ++ match run_line E call l s with
                 | Fail s => ev_alts E call ev v t (restore v s)
                 | _ => []
                 end
  end.
Fixpoint ev_table (E : env) (tb : tables) (fuel : nat) (lvl : Z) (name : string) (s : pst) : list event :=
  match fuel with
  | O => []
  | S k =>
    match find name tb with
    | None => []
    | Some ls =>
      if MAX_RECURSE_LEVEL <? lvl then []
      else ev_alts E (parse_table E tb k (lvl + 1)) (ev_table E tb k (lvl + 1)) (save (skipws s)) ls (skipws s)
    end
  end.
Fixpoint ev_loop (E : env) (tb : tables) (short : bool) (fuel : nat) (s : pst) : list event :=
  match inp s, fuel with
  | [], _ | _, O => []
  | _, S k =>
    ev_table E tb LEVELS 0 "PARSE_START" s
    ++ match parse_start E tb s with
       | Ok s =>
         let e := snd (if short then get_short_text (exp s) else get_long (exp s)) in
         let s := set_exp e s in
         ev_loop E tb short k (match accept COLON (inp s) with Some u => set_inp u s | None => s end)
       | _ => []
       end
  end.
Fixpoint ev_lines (E : env) (tb : tables) (short : bool) (ls : list (Z * bytes)) (s : pst) : list event :=
  match ls with
  | [] => []
  | (ln, l) :: t =>
    ev_loop E tb short (S (List.length l)) (new_line l ln s)
    ++ match parse_line E tb short ln l s [] with
       | Done s _ => ev_lines E tb short t s
       | _ => []
       end
  end.
Definition events (E : env) (tb : tables) (short : bool) (ls : list (Z * bytes)) : list event :=
  ev_lines E tb short ls pst0.

(* The calls of procedures and their definitions, with the number of parameters, and the
   labels made data. *)
Definition proc_uses (evs : list event) : list (string * Z) :=
  flat_map (fun e => if String.eqb (fst e) "E_DO_EXEC" then [(last_label (snd e), cur_params (snd e))]
                     else if String.eqb (fst e) "E_PROC_CHECK"
                          then [(last_label (snd e), cur_params (snd e) - 1)]
                     else []) evs.
Definition data_labels (evs : list event) : list string :=
  flat_map (fun e => if String.eqb (fst e) "E_LABEL_SET_TYPE" then [last_label (snd e)] else []) evs.

(* ---- The place of the parser ---- *)
(* The code vector of the given name; "" is the main program. *)
Definition vector (v : string) (s : pst) : list cell :=
  match find v (procs s) with Some c => c | None => [] end.
(* Two states at the same place: the same input ahead, the same listing, line and vector
   to write to, and the same code in every vector. *)
Definition same_place (s s' : pst) : Prop :=
  inp s' = inp s /\ exp s' = exp s /\ linenum s' = linenum s /\ proc_stack s' = proc_stack s /\
  forall v, vector v s' = vector v s.
(* No action changes the vector that is written to. *)
Definition calm (E : env) (evs : list event) : Prop :=
  Forall (fun e => match call_action E (fst e) (snd e) with
                   | Ok s | Fail s => proc_stack s = proc_stack (snd e)
                   | _ => True
                   end) evs.

(* ---- Labels of loops ---- *)
(* The names that the parser gives to places in loops: no name that a program can write
   starts so, because those are in upper case. *)
Definition jump_name (w : string) : bool := String.prefix "jump_lbl_" w.

(* ---- Runs where no failed alternative opens or closes a loop ---- *)
(* The number of labels made and the number of open loops tell if a loop was opened or
   closed.  The functions follow the parser like those for the events above. *)
Definition same_open (s s' : pst) : bool :=
  (label_num s =? label_num s') && Nat.eqb (List.length (jumps s)) (List.length (jumps s')).
Fixpoint clean_line (E : env) (call : string -> pst -> res) (cl : string -> pst -> bool)
  (l : pline) (s : pst) : bool :=
  match l with
  | [] => true
  | c :: t =>
    match c with
    | PLit x => match parse_literal x s with Ok s => clean_line E call cl t s | _ => true end
    | PEmit d => clean_line E call cl t (emits d s)
    | PEmitRet d => true
    | PExt a => match call_action E a s with Ok s => clean_line E call cl t s | _ => true end
    | PTab n => cl n s && match call n s with Ok s => clean_line E call cl t s | _ => true end
    | PRet => true
    end
  end.
Fixpoint clean_alts (E : env) (call : string -> pst -> res) (cl : string -> pst -> bool)
  (v : saved) (ls : list pline) (s : pst) : bool :=
  match ls with
  | [] => true
  | l :: t => clean_line E call cl l s
              && match run_line E call l s with
                 | Fail s1 => same_open s s1 && clean_alts E call cl v t (restore v s1)
                 | _ => true
                 end
  end.
Fixpoint clean_table (E : env) (tb : tables) (fuel : nat) (lvl : Z) (name : string) (s : pst) : bool :=
  match fuel with
  | O => true
  | S k =>
    match find name tb with
    | None => true
    | Some ls =>
      if MAX_RECURSE_LEVEL <? lvl then true
      else clean_alts E (parse_table E tb k (lvl + 1)) (clean_table E tb k (lvl + 1)) (save (skipws s)) ls (skipws s)
    end
  end.
Fixpoint clean_loop (E : env) (tb : tables) (short : bool) (fuel : nat) (s : pst) : bool :=
  match inp s, fuel with
  | [], _ | _, O => true
  | _, S k =>
    clean_table E tb LEVELS 0 "PARSE_START" s
    && match parse_start E tb s with
       | Ok s =>
         let e := snd (if short then get_short_text (exp s) else get_long (exp s)) in
         let s := set_exp e s in
         clean_loop E tb short k (match accept COLON (inp s) with Some u => set_inp u s | None => s end)
       | _ => true
       end
  end.
Fixpoint clean_lines (E : env) (tb : tables) (short : bool) (ls : list (Z * bytes)) (s : pst) : bool :=
  match ls with
  | [] => true
  | (ln, l) :: t =>
    clean_loop E tb short (S (List.length l)) (new_line l ln s)
    && match parse_line E tb short ln l s [] with
       | Done s _ => clean_lines E tb short t s
       | _ => true
       end
  end.
Definition clean (E : env) (tb : tables) (short : bool) (ls : list (Z * bytes)) : bool :=
  clean_lines E tb short ls pst0.
