(* Model of src/compiler/peephole.cc (class peephole).

   The vector "code" with the index "current" becomes a list: in rules, [s] is the
   part of the code from index "current" on, so that index [i] of a helper here is
   index "i + current" of the vector, as in the C++ helpers.  Line numbers of the
   elements are left out (see Codew.v). *)
From Verif Require Export Codew.

(* Name of the zero-page location of the print colour, used in peephole.cc:303,521,536. *)
Definition PRINT_COLOR : string := "PRINT_COLOR".

(* peephole.cc:33-37 mtok *)
Definition mtok (s : list codew) (i : nat) (t : tok) : bool :=
  match nth_error s i with Some (CTok t') => tok_eqb t' t | _ => false end.
(* peephole.cc:38-42 mcbyte *)
Definition mcbyte (s : list codew) (i : nat) (n : string) : bool :=
  match nth_error s i with Some (CByteS x) => String.eqb x n | _ => false end.
(* peephole.cc:48-52 mlabel *)
Definition mlabel (s : list codew) (i : nat) : bool :=
  match nth_error s i with Some (CLabel _) => true | _ => false end.
(* std::string::find("lbl") != npos, used in peephole.cc:57 *)
Definition has_lbl (x : string) : bool :=
  match String.index 0 "lbl" x with Some _ => true | None => false end.
(* peephole.cc:53-58 mlblw *)
Definition mlblw (s : list codew) (i : nat) : bool :=
  match nth_error s i with Some (CWordS x) => has_lbl x | _ => false end.
(* peephole.cc:59-63 mword *)
Definition mword (s : list codew) (i : nat) : bool :=
  match nth_error s i with Some (CWord _) => true | _ => false end.
(* peephole.cc:64-68 mbyte *)
Definition mbyte (s : list codew) (i : nat) : bool :=
  match nth_error s i with Some (CByte _) => true | _ => false end.
(* peephole.cc:69-77 mstring: length of the string, 256 if not a string *)
Definition mstring (s : list codew) (i : nat) : Z :=
  match nth_error s i with Some (CStr x) => Z.of_nat (length x) | _ => 256 end.
(* peephole.cc:78-85 lbl *)
Definition lbl (s : list codew) (i : nat) : string :=
  match nth_error s i with Some (CLabel x) => x | _ => EmptyString end.
(* peephole.cc:86-92 wlbl *)
Definition wlbl (s : list codew) (i : nat) : string :=
  match nth_error s i with
  | Some (CWordS x) => if has_lbl x then x else EmptyString
  | _ => EmptyString
  end.
(* peephole.cc:93-100 val, codew.h:174-180 get_val.  get_val throws for an element
   that is not a number; every use is behind mword or mbyte, so that case returns the
   out-of-range value here. *)
Definition val (s : list codew) (i : nat) : Z :=
  match nth_error s i with
  | Some (CByte n) => s16 n
  | Some (CWord n) => s16 n
  | _ => -32768
  end.
(* peephole.cc:101-108 varn, codew.h:181-187 get_varn; None is the exception thrown
   for an element that is not a variable. *)
Definition varn (s : list codew) (i : nat) : option Z :=
  match nth_error s i with
  | Some (CVarn n) => Some n
  | Some _ => None
  | None => Some 32768
  end.
(* peephole.cc:109-116 str: only used on elements that are strings *)
Definition strat (s : list codew) (i : nat) : bytes :=
  match nth_error s i with Some (CStr x) => x | _ => [] end.

(* peephole.cc:117-124 del *)
Fixpoint del {A} (i : nat) (s : list A) : list A :=
  match s, i with
  | [], _ => []
  | _ :: r, O => r
  | x :: r, S j => x :: del j r
  end.
(* std::vector::insert, used in peephole.cc:125-148,160 (an index past the end is
   undefined behaviour in C++, here it appends; no rule does it) *)
Fixpoint ins {A} (i : nat) (x : A) (s : list A) : list A :=
  match i, s with
  | O, _ => x :: s
  | S j, [] => [x]
  | S j, y :: r => y :: ins j x r
  end.
(* code[idx + current] = x, used in peephole.cc:168-192 (past the end: undefined
   behaviour in C++, no change here; no rule does it) *)
Fixpoint upd {A} (i : nat) (x : A) (s : list A) : list A :=
  match s, i with
  | [], _ => []
  | _ :: r, O => x :: r
  | y :: r, S j => y :: upd j x r
  end.
(* peephole.cc:125-132 ins_w *)
Definition ins_w (i : nat) (x : Z) (s : list codew) := ins i (CWord (s16 x)) s.
(* peephole.cc:133-140 ins_b *)
Definition ins_b (i : nat) (x : Z) (s : list codew) := ins i (CByte (u8 x)) s.
(* peephole.cc:141-148 ins_tok *)
Definition ins_tok (i : nat) (t : tok) (s : list codew) := ins i (CTok t) s.
(* peephole.cc:149-154 const_op *)
Definition const_op (s : list codew) (t : tok) : bool :=
  mtok s 0 T_NUM && mword s 1 && mtok s 2 T_PUSH && mtok s 3 T_NUM && mword s 4 &&
  mtok s 5 t.
(* peephole.cc:155-167 copy *)
Fixpoint copy (idx from num : nat) (s : list codew) : list codew :=
  match num with
  | O => s
  | S n =>
      match nth_error s from with
      | Some x =>
          let s := ins idx x s in
          let idx := S idx in
          let from := S from in
          let from := if Nat.leb idx from then S from else from in
          copy idx from n s
      | None => s
      end
  end.
(* peephole.cc:168-172 set_ws.  codew::cword turns a string of digits into a number
   (codew.h:101); the argument is always the name of a label, never of that form. *)
Definition set_ws (i : nat) (x : string) (s : list codew) := upd i (CWordS x) s.
(* peephole.cc:173-177 set_w *)
Definition set_w (i : nat) (x : Z) (s : list codew) := upd i (CWord (u16 x)) s.
(* peephole.cc:178-182 set_b *)
Definition set_b (i : nat) (x : Z) (s : list codew) := upd i (CByte (u8 x)) s.
(* peephole.cc:183-187 set_tok *)
Definition set_tok (i : nat) (t : tok) (s : list codew) := upd i (CTok t) s.
(* peephole.cc:188-192 set_string *)
Definition set_string (i : nat) (x : bytes) (s : list codew) := upd i (CStr x) s.

(* peephole.cc:195-223 expand_numbers.  The loop skips the operand it has just
   written ("i++"), the recursion continues after it. *)
Fixpoint expand_numbers (s : list codew) : list codew :=
  match s with
  | [] => []
  | CTok T_BYTE :: CByte n :: r => CTok T_NUM :: CWord (u16 (s16 n)) :: expand_numbers r
  | CTok T_1 :: r => CTok T_NUM :: CWord (s16 1) :: expand_numbers r
  | CTok T_0 :: r => CTok T_NUM :: CWord (s16 0) :: expand_numbers r
  | c :: r => c :: expand_numbers r
  end.

(* peephole.cc:225-256 shorten_numbers *)
Fixpoint shorten_numbers (s : list codew) : list codew :=
  match s with
  | [] => []
  | CTok T_NUM :: CWord n :: r =>
      if s16 n =? 0 then CTok T_0 :: shorten_numbers r
      else if s16 n =? 1 then CTok T_1 :: shorten_numbers r
      else if s16 n =? -1 then CTok T_1 :: CTok T_NEG :: shorten_numbers r
      else if (0 <=? s16 n) && (s16 n <? 256)
           then CTok T_BYTE :: CByte (u8 (s16 n)) :: shorten_numbers r
      else CTok T_NUM :: CWord n :: shorten_numbers r
  | c :: r => c :: shorten_numbers r
  end.

(* peephole.cc:258-294 expand_push.  After TOK_VAR_SADDR the operand is copied without
   looking at it: it is never a token. *)
Fixpoint expand_push (s : list codew) : list codew :=
  match s with
  | [] => []
  | CTok T_PUSH_BYTE :: r => CTok T_PUSH :: CTok T_BYTE :: expand_push r
  | CTok T_PUSH_NUM :: r => CTok T_PUSH :: CTok T_NUM :: expand_push r
  | CTok T_PUSH_0 :: r => CTok T_PUSH :: CTok T_0 :: expand_push r
  | CTok T_PUSH_1 :: r => CTok T_PUSH :: CTok T_1 :: expand_push r
  | CTok T_PUSH_VAR_LOAD :: r => CTok T_PUSH :: CTok T_VAR_LOAD :: expand_push r
  | CTok T_VAR_SADDR :: o :: r => CTok T_VAR_ADDR :: o :: CTok T_SADDR :: expand_push r
  | c :: r => c :: expand_push r
  end.

(* What the optimizer did, for the theorems: a rule (by the line where it starts in
   peephole.cc), the elements before the rewritten place (last first), the tracked
   colour or channel, and the code from that place on.  The C++ code keeps no such
   record. *)
Record ev := mkev { e_line : Z; e_pre : list codew; e_trk : Z; e_suf : list codew }.

(* "Track current print color", peephole.cc:303-309 and 536-542 *)
Definition track (c : Z) (s : list codew) : Z :=
  if mtok s 2 T_BYTE_POKE && mcbyte s 3 PRINT_COLOR
  then if mtok s 0 T_NUM && mword s 1 then val s 1 else -1
  else c.

(* The effect on the tracked colour of passing the first [n] positions of [s]. *)
Fixpoint track_n (n : nat) (c : Z) (s : list codew) : Z :=
  match n, s with
  | S n, _ :: r => track_n n (track c s) r
  | _, _ => c
  end.

(* The BYTE_PUTs inserted by peephole.cc:317-322 *)
Fixpoint byte_puts (c : Z) (x : bytes) : list codew :=
  match x with
  | [] => []
  | a :: y => CTok T_BYTE_PUT :: CByte (u8 (Z.lxor a c)) :: byte_puts c y
  end.

(* peephole.cc:296-325 print_chars.  Replacing a string leaves index i on the first
   inserted element, so the loop goes on with the second one: when the string is empty
   the element following it is not looked at.  [p] is the code already passed, last
   element first. *)
Fixpoint print_chars (p : list codew) (c : Z) (s : list codew) : list codew * list ev :=
  match s with
  | [] => (rev p, [])
  | x :: r =>
      let c := track c s in
      match x, r with
      | CTok T_CSTRING, CStr t :: CTok T_PRINT_STR :: r3 =>
          if (0 <=? c) && (Z.of_nat (length t) <? 3) then
            let e := mkev 310 p c s in
            let b := byte_puts c t in
            match b, r3 with
            | [], [] => (rev p, [e])
            | [], y :: r4 => let (o, l) := print_chars (y :: p) c r4 in (o, e :: l)
            | _ :: b', _ =>
                let (o, l) := print_chars (rev b ++ p)
                                (track_n (length b') c (b' ++ r3)) r3 in (o, e :: l)
            end
          else print_chars (x :: p) c r
      | _, _ => print_chars (x :: p) c r
      end
  end.

(* peephole.cc:327-366 fold_push.  The last test (VAR_LOAD) is not an "else": it also
   looks after a PUSH_0 or PUSH_1 that has just been made (see DESIGN.md). *)
Fixpoint fold_push (s : list codew) : list codew :=
  match s with
  | [] => []
  | CTok T_PUSH :: CTok T_BYTE :: CTok T_VAR_LOAD :: r =>
      CTok T_PUSH_VAR_LOAD :: fold_push r
  | CTok T_PUSH :: CTok T_BYTE :: r => CTok T_PUSH_BYTE :: fold_push r
  | CTok T_PUSH :: CTok T_NUM :: CTok T_VAR_LOAD :: r =>
      CTok T_PUSH_VAR_LOAD :: fold_push r
  | CTok T_PUSH :: CTok T_NUM :: r => CTok T_PUSH_NUM :: fold_push r
  | CTok T_PUSH :: CTok T_1 :: CTok T_VAR_LOAD :: r => CTok T_PUSH_VAR_LOAD :: fold_push r
  | CTok T_PUSH :: CTok T_1 :: r => CTok T_PUSH_1 :: fold_push r
  | CTok T_PUSH :: CTok T_0 :: CTok T_VAR_LOAD :: r => CTok T_PUSH_VAR_LOAD :: fold_push r
  | CTok T_PUSH :: CTok T_0 :: r => CTok T_PUSH_0 :: fold_push r
  | CTok T_PUSH :: CTok T_VAR_LOAD :: r => CTok T_PUSH_VAR_LOAD :: fold_push r
  | c :: r => c :: fold_push r
  end.

(* peephole.cc:368-379 fold_saddr *)
Fixpoint fold_saddr (s : list codew) : list codew :=
  match s with
  | [] => []
  | CTok T_VAR_ADDR :: o :: CTok T_SADDR :: r => CTok T_VAR_SADDR :: o :: fold_saddr r
  | c :: r => c :: fold_saddr r
  end.

(* peephole.cc:383-389, the set of label expressions *)
Fixpoint label_refs (s : list codew) : list string :=
  match s with
  | [] => []
  | CWordS x :: r => x :: label_refs r
  | _ :: r => label_refs r
  end.
Definition mem_str (x : string) (l : list string) : bool := existsb (String.eqb x) l.
(* peephole.cc:381-400 remove_unused_labels *)
Definition remove_unused_labels (s : list codew) : list codew :=
  filter (fun c => match c with CLabel x => mem_str x (label_refs s) | _ => true end) s.

(* peephole.cc:402-440 trace_iochn.  [p] is the output so far, last element first.  The
   last branch of the C++ code (430-438) can't be reached, its condition implies the
   second one. *)
Fixpoint trace_iochn (p : list codew) (ch : Z) (s : list codew)
  : list codew * list ev :=
  match s with
  | [] => (rev p, [])
  | CTok T_NUM :: CWord n :: CTok T_IOCHN :: r =>
      if ch =? s16 n then
        let (o, l) := trace_iochn p ch r in (o, mkev 412 p ch s :: l)
      else trace_iochn (CTok T_IOCHN :: CWord n :: CTok T_NUM :: p) (s16 n) r
  | c :: r =>
      let ch := match c with
                | CLabel _ => 0
                | CTok T_CALL => 0
                | CTok T_IOCHN => -1
                | _ => ch
                end in
      trace_iochn (c :: p) ch r
  end.

(* peephole.cc:447, the map of jump targets; "__TOK_RET__" is [TgRet] *)
Inductive tgt := TgRet | TgLbl (s : string).
(* peephole.cc:453-463, the code after a label [l]: the last of the labels following
   it, replaced by the target of a RET or JUMP *)
Fixpoint label_tgt (last : option tgt) (s : list codew) : option tgt :=
  match s with
  | CLabel x :: r => label_tgt (Some (TgLbl x)) r
  | CTok T_RET :: _ => Some TgRet
  | CTok T_JUMP :: CWordS x :: _ => if has_lbl x then Some (TgLbl x) else last
  | _ => last
  end.
(* peephole.cc:448-465 *)
Fixpoint build_tgt (m : list (string * tgt)) (s : list codew) : list (string * tgt) :=
  match s with
  | [] => m
  | CLabel l :: r =>
      build_tgt (match label_tgt None r with Some t => (l, t) :: m | None => m end) r
  | _ :: r => build_tgt m r
  end.
Fixpoint find_tgt (m : list (string * tgt)) (l : string) : option tgt :=
  match m with
  | [] => None
  | (k, t) :: r => if String.eqb k l then Some t else find_tgt r l
  end.
(* the return that replaces a jump to a return, peephole.cc:479-493 *)
Definition ret_of (t : tok) : option tok :=
  match t with
  | T_JUMP => Some T_RET
  | T_CJUMP => Some T_CRET
  | T_CNJUMP => Some T_CNRET
  | _ => None
  end.
(* peephole.cc:466-499 *)
Fixpoint repl_tgt (m : list (string * tgt)) (s : list codew) : list codew :=
  match s with
  | [] => []
  | CTok t :: CWordS x :: r =>
      match ret_of t with
      | Some t' =>
          if has_lbl x then
            match find_tgt m x with
            | Some TgRet => CTok t' :: repl_tgt m r
            | Some (TgLbl y) => CTok t :: CWordS y :: repl_tgt m r
            | None => CTok t :: CWordS x :: repl_tgt m r
            end
          else CTok t :: CWordS x :: repl_tgt m r
      | None => CTok t :: CWordS x :: repl_tgt m r
      end
  | c :: r => c :: repl_tgt m r
  end.
(* peephole.cc:444-500 replace_label_targets *)
Definition replace_label_targets (s : list codew) : list codew :=
  repl_tgt (build_tgt [] s) s.

(* Result of trying one rule: not applicable, changed to, applicable but nothing was
   left to delete, or exception thrown. *)
Inductive rres :=
| RNo
| RYes (s : list codew)
| RSkip
| RThrow.

(* peephole.cc:545-552 *)
Definition r546 (c : Z) (s : list codew) : rres :=
  if mtok s 0 T_NUM && mword s 1 && mtok s 2 T_NEG then
    let s := del 2 s in
    RYes (set_w 1 (- val s 1) s)
  else RNo.
(* peephole.cc:553-560 *)
Definition r554 (c : Z) (s : list codew) : rres :=
  if mtok s 0 T_NUM && mword s 1 && mtok s 2 T_USHL then
    let s := del 2 s in
    RYes (set_w 1 (2 * val s 1) s)
  else RNo.
(* peephole.cc:561-569 *)
Definition r562 (c : Z) (s : list codew) : rres :=
  if mtok s 0 T_NUM && mword s 1 && mtok s 2 T_SHL8 then
    let s := del 2 s in
    RYes (set_w 1 (256 * val s 1) s)
  else RNo.
(* peephole.cc:570-580 *)
Definition r571 (c : Z) (s : list codew) : rres :=
  if mtok s 0 T_PUSH && mtok s 1 T_NUM && mword s 2 && (val s 2 =? 256) &&
     mtok s 3 T_MUL then
    RYes (set_tok 0 T_SHL8 (del 1 (del 2 (del 3 s))))
  else RNo.
(* peephole.cc:581-591 *)
Definition r582 (c : Z) (s : list codew) : rres :=
  if mtok s 0 T_PUSH && mtok s 1 T_NUM && mword s 2 && (val s 2 =? 4) &&
     mtok s 3 T_MUL then
    RYes (set_tok 0 T_USHL (set_tok 1 T_USHL (del 2 (del 3 s))))
  else RNo.
(* peephole.cc:592-602 *)
Definition r593 (c : Z) (s : list codew) : rres :=
  if mtok s 0 T_PUSH && mtok s 1 T_NUM && mword s 2 && (val s 2 =? 2) &&
     mtok s 3 T_MUL then
    RYes (set_tok 0 T_USHL (del 1 (del 2 (del 3 s))))
  else RNo.
(* peephole.cc:603-613 *)
Definition r604 (c : Z) (s : list codew) : rres :=
  if mtok s 0 T_PUSH && mtok s 1 T_NUM && mword s 2 && (val s 2 =? 1) &&
     mtok s 3 T_MUL then
    RYes (del 0 (del 1 (del 2 (del 3 s))))
  else RNo.
(* peephole.cc:614-624 *)
Definition r615 (c : Z) (s : list codew) : rres :=
  if mtok s 0 T_PUSH && mtok s 1 T_NUM && mword s 2 && (val s 2 =? 1) &&
     mtok s 3 T_DIV then
    RYes (del 0 (del 1 (del 2 (del 3 s))))
  else RNo.
(* peephole.cc:625-635 *)
Definition r626 (c : Z) (s : list codew) : rres :=
  if mtok s 0 T_PUSH && mtok s 1 T_NUM && mword s 2 && (val s 2 =? 0) &&
     mtok s 3 T_ADD then
    RYes (del 0 (del 1 (del 2 (del 3 s))))
  else RNo.
(* peephole.cc:636-645 *)
Definition r637 (c : Z) (s : list codew) : rres :=
  if mtok s 0 T_NUM && mword s 1 && (val s 1 =? 0) && mtok s 2 T_ADD_VAR then
    RYes (set_tok 0 T_VAR_LOAD (del 0 (del 1 s)))
  else RNo.
(* peephole.cc:646-656 *)
Definition r647 (c : Z) (s : list codew) : rres :=
  if mtok s 0 T_PUSH && mtok s 1 T_NUM && mword s 2 && (val s 2 =? 0) &&
     mtok s 3 T_SUB then
    RYes (del 0 (del 1 (del 2 (del 3 s))))
  else RNo.
(* peephole.cc:657-667 *)
Definition r658 (c : Z) (s : list codew) : rres :=
  if mtok s 0 T_PUSH && mtok s 1 T_NUM && mword s 2 && (val s 2 =? 0) &&
     mtok s 3 T_NEQ then
    RYes (set_tok 0 T_COMP_0 (del 1 (del 2 (del 3 s))))
  else RNo.
(* peephole.cc:668-678 *)
Definition r669 (c : Z) (s : list codew) : rres :=
  if mtok s 0 T_PUSH && mtok s 1 T_NUM && mword s 2 && (val s 2 =? 0) &&
     mtok s 3 T_EQ then
    RYes (set_tok 1 T_L_NOT (set_tok 0 T_COMP_0 (del 2 (del 3 s))))
  else RNo.
(* peephole.cc:679-690 *)
Definition r680 (c : Z) (s : list codew) : rres :=
  if const_op s T_ADD then
    let s := set_tok 0 T_NUM s in
    let s := set_w 1 (val s 1 + val s 4) s in
    RYes (del 2 (del 3 (del 4 (del 5 s))))
  else RNo.
(* peephole.cc:691-702 *)
Definition r692 (c : Z) (s : list codew) : rres :=
  if const_op s T_SUB then
    let s := set_tok 0 T_NUM s in
    let s := set_w 1 (val s 1 - val s 4) s in
    RYes (del 2 (del 3 (del 4 (del 5 s))))
  else RNo.
(* peephole.cc:703-712 *)
Definition r704 (c : Z) (s : list codew) : rres :=
  if mtok s 0 T_NUM && mword s 1 && (val s 1 =? 0) && mtok s 2 T_VAR_STORE then
    RYes (del 0 (del 1 (set_tok 2 T_VAR_STORE_0 s)))
  else RNo.
(* peephole.cc:713-725 *)
Definition r715 (c : Z) (s : list codew) : rres :=
  if mtok s 0 T_VAR_ADDR && mtok s 2 T_SADDR && mtok s 3 T_GET && mtok s 4 T_DPOKE then
    RYes (del 3 (del 4 (del 5 (set_tok 1 T_VAR_STORE (ins_tok 0 T_GET s)))))
  else RNo.
(* peephole.cc:726-738 *)
Definition r728 (c : Z) (s : list codew) : rres :=
  if mtok s 0 T_VAR_ADDR && mtok s 2 T_SADDR && mtok s 3 T_GETKEY && mtok s 4 T_DPOKE
  then
    RYes (del 3 (del 4 (del 5 (set_tok 1 T_VAR_STORE (ins_tok 0 T_GETKEY s)))))
  else RNo.
(* peephole.cc:739-748 *)
Definition r741 (c : Z) (s : list codew) : rres :=
  if mtok s 0 T_NUM && mword s 1 && mtok s 2 T_PUT then
    let s := set_tok 0 T_BYTE_PUT s in
    let s := set_b 1 (Z.land (val s 1) 255) s in
    RYes (del 2 s)
  else RNo.
(* peephole.cc:749-757 *)
Definition r751 (c : Z) (s : list codew) : rres :=
  if mtok s 0 T_BYTE && mtok s 2 T_PUT then
    RYes (del 2 (set_tok 0 T_BYTE_PUT s))
  else RNo.
(* peephole.cc:758-768 *)
Definition r760 (c : Z) (s : list codew) : rres :=
  if mtok s 0 T_NUM && mword s 1 && (val s 1 <? 256) && (0 <=? val s 1) &&
     mtok s 2 T_PEEK then
    let s := set_tok 0 T_BYTE_PEEK s in
    let s := set_b 1 (val s 1) s in
    RYes (del 2 s)
  else RNo.
(* peephole.cc:769-777 *)
Definition r771 (c : Z) (s : list codew) : rres :=
  if mtok s 0 T_BYTE && mtok s 2 T_PEEK then
    RYes (del 2 (set_tok 0 T_BYTE_PEEK s))
  else RNo.
(* peephole.cc:778-793 *)
Definition r781 (c : Z) (s : list codew) : rres :=
  if mtok s 0 T_NUM && mword s 1 && mtok s 2 T_SADDR && mtok s 3 T_NUM && mword s 4 &&
     mtok s 5 T_POKE && (0 <=? val s 1) && (val s 1 <=? 255) then
    let x := val s 1 in
    let s := set_w 1 (Z.land (val s 4) 255) s in
    let s := set_b 4 x s in
    let s := set_tok 3 T_BYTE_POKE s in
    RYes (del 2 (del 5 s))
  else RNo.
(* peephole.cc:794-810 *)
Definition r796 (c : Z) (s : list codew) : rres :=
  if mtok s 0 T_NUM && mword s 1 && mtok s 2 T_SADDR && mtok s 3 T_VAR_LOAD &&
     mtok s 5 T_POKE && (0 <=? val s 1) && (val s 1 <=? 255) then
    let x := val s 1 in
    let s := set_tok 0 T_VAR_LOAD s in
    let s := copy 1 4 1 s in
    let s := del 2 s in
    let s := set_b 4 x s in
    let s := set_tok 3 T_BYTE_POKE s in
    RYes (del 2 (del 5 s))
  else RNo.
(* peephole.cc:811-826 *)
Definition r814 (c : Z) (s : list codew) : rres :=
  if mtok s 0 T_BYTE && mtok s 2 T_SADDR && mtok s 3 T_NUM && mword s 4 &&
     mtok s 5 T_POKE then
    let s := copy 4 1 1 s in
    let s := set_w 1 (Z.land (val s 5) 255) s in
    let s := set_tok 0 T_NUM s in
    let s := set_tok 3 T_BYTE_POKE s in
    RYes (del 2 (del 5 (del 6 s)))
  else RNo.
(* peephole.cc:827-840 *)
Definition r829 (c : Z) (s : list codew) : rres :=
  if mtok s 0 T_BYTE && mtok s 2 T_SADDR && mtok s 3 T_VAR_LOAD && mtok s 5 T_POKE then
    let s := copy 0 3 2 s in
    let s := set_tok 2 T_BYTE_POKE s in
    RYes (del 4 (del 5 (del 6 (del 7 s))))
  else RNo.
(* peephole.cc:841-854 *)
Definition r843 (c : Z) (s : list codew) : rres :=
  if mtok s 0 T_NUM && mtok s 2 T_SADDR && mtok s 3 T_NUM && mword s 4 &&
     mtok s 5 T_POKE then
    let s := copy 4 1 1 s in
    let s := set_w 1 (Z.land (val s 5) 255) s in
    let s := set_tok 3 T_NUM_POKE s in
    RYes (del 2 (del 5 (del 6 s)))
  else RNo.
(* peephole.cc:855-870 *)
Definition r857 (c : Z) (s : list codew) : rres :=
  if mtok s 0 T_NUM && mword s 1 && mtok s 2 T_SADDR && mtok s 3 T_VAR_LOAD &&
     mtok s 5 T_POKE then
    let x := val s 1 in
    let s := set_tok 0 T_VAR_LOAD s in
    let s := copy 1 4 1 s in
    let s := del 2 s in
    let s := set_w 4 x s in
    let s := set_tok 3 T_NUM_POKE s in
    RYes (del 2 (del 5 s))
  else RNo.
(* peephole.cc:904-915 *)
Definition r905 (c : Z) (s : list codew) : rres :=
  if const_op s T_MUL then
    let s := set_tok 0 T_NUM s in
    let s := set_w 1 (val s 1 * val s 4) s in
    RYes (del 2 (del 3 (del 4 (del 5 s))))
  else RNo.
(* peephole.cc:919-926; C++ division truncates toward 0 *)
Definition fold_div (a b : Z) : Z :=
  if negb (b =? 0) then s16 (Z.quot a b) else if a <? 0 then 1 else -1.
(* peephole.cc:916-935 *)
Definition r917 (c : Z) (s : list codew) : rres :=
  if const_op s T_DIV then
    let d := fold_div (val s 1) (val s 4) in
    let s := set_tok 0 T_NUM s in
    let s := set_w 1 d s in
    RYes (del 2 (del 3 (del 4 (del 5 s))))
  else RNo.
(* peephole.cc:939-944 *)
Definition fold_mod (a b : Z) : Z :=
  if negb (b =? 0) then s16 (Z.rem a b) else a.
(* peephole.cc:936-953 *)
Definition r937 (c : Z) (s : list codew) : rres :=
  if const_op s T_MOD then
    let d := fold_mod (val s 1) (val s 4) in
    let s := set_tok 0 T_NUM s in
    let s := set_w 1 d s in
    RYes (del 2 (del 3 (del 4 (del 5 s))))
  else RNo.
(* peephole.cc:954-965 *)
Definition r955 (c : Z) (s : list codew) : rres :=
  if const_op s T_BIT_AND then
    let s := set_tok 0 T_NUM s in
    let s := set_w 1 (Z.land (val s 1) (val s 4)) s in
    RYes (del 2 (del 3 (del 4 (del 5 s))))
  else RNo.
(* peephole.cc:966-977 *)
Definition r967 (c : Z) (s : list codew) : rres :=
  if const_op s T_BIT_OR then
    let s := set_tok 0 T_NUM s in
    let s := set_w 1 (Z.lor (val s 1) (val s 4)) s in
    RYes (del 2 (del 3 (del 4 (del 5 s))))
  else RNo.
(* peephole.cc:978-990 *)
Definition r980 (c : Z) (s : list codew) : rres :=
  if const_op s T_BIT_EXOR then
    let s := set_tok 0 T_NUM s in
    let s := set_w 1 (Z.lxor (val s 1) (val s 4)) s in
    RYes (del 2 (del 3 (del 4 (del 5 s))))
  else RNo.
(* peephole.cc:991-1002, goes on with the following rules *)
Definition r995 (c : Z) (s : list codew) : rres :=
  if mtok s 0 T_PUSH && (mtok s 1 T_VAR_LOAD || mtok s 1 T_NUM) && mtok s 3 T_SUB &&
     mtok s 4 T_PUSH && (mtok s 5 T_VAR_LOAD || mtok s 5 T_NUM) && mtok s 7 T_SUB then
    RYes (del 3 (ins_tok 7 T_ADD s))
  else RNo.
(* peephole.cc:1003-1011 *)
Definition r1004 (c : Z) (s : list codew) : rres :=
  if mtok s 0 T_PUSH && mtok s 1 T_VAR_LOAD && mtok s 3 T_ADD then
    RYes (del 0 (del 3 (set_tok 1 T_ADD_VAR s)))
  else RNo.
(* peephole.cc:1012-1026 *)
Definition r1014 (c : Z) (s : list codew) : rres :=
  if mtok s 0 T_VAR_LOAD && mtok s 2 T_PUSH && mtok s 3 T_NUM && mword s 4 &&
     mtok s 5 T_ADD then
    let s := set_tok 0 T_NUM s in
    let s := set_tok 2 T_ADD_VAR s in
    let s := copy 3 1 1 s in
    let s := del 4 s in
    let s := set_w 1 (val s 4) s in
    RYes (del 4 (del 5 s))
  else RNo.
(* peephole.cc:1027-1042 *)
Definition r1029 (c : Z) (s : list codew) : rres :=
  if mtok s 0 T_VAR_LOAD && mtok s 2 T_PUSH && mtok s 3 T_VAR_LOAD && mtok s 5 T_USHL &&
     mtok s 6 T_ADD then
    let s := copy 1 4 1 s in
    let s := copy 5 2 1 s in
    let s := del 6 s in
    let s := del 2 s in
    let s := set_tok 2 T_USHL s in
    let s := set_tok 3 T_ADD_VAR s in
    RYes (del 5 (del 6 s))
  else RNo.
(* peephole.cc:1043-1064 *)
Definition r1051 (c : Z) (s : list codew) : rres :=
  if mtok s 0 T_VAR_LOAD && mtok s 2 T_PUSH && mtok s 3 T_NUM && mword s 4 &&
     mtok s 5 T_ADD_VAR && mtok s 7 T_USHL && mtok s 8 T_ADD then
    let s := ins_w 9 1 s in
    let s := copy 9 1 1 s in
    let s := del 10 s in
    let s := set_tok 8 T_ADD_VAR s in
    RYes (del 0 (del 1 (del 2 s)))
  else RNo.
(* the test varn(i) == varn(j), which throws on other elements *)
Definition same_var (s : list codew) (i j : nat) (yes : rres) : rres :=
  match varn s i, varn s j with
  | Some a, Some b => if a =? b then yes else RNo
  | _, _ => RThrow
  end.
(* peephole.cc:1065-1077 *)
Definition r1068 (c : Z) (s : list codew) : rres :=
  if mtok s 0 T_VAR_LOAD && mtok s 2 T_PUSH && mtok s 3 T_VAR_LOAD && mtok s 5 T_ADD then
    same_var s 1 4 (RYes (del 3 (del 4 (del 5 (set_tok 2 T_USHL s)))))
  else RNo.
(* peephole.cc:1078-1094 *)
Definition r1081 (c : Z) (s : list codew) : rres :=
  if mtok s 0 T_VAR_LOAD && mtok s 2 T_PUSH && mtok s 3 T_NUM && mword s 4 &&
     (val s 4 =? 1) && mtok s 5 T_ADD && mtok s 6 T_VAR_STORE then
    same_var s 1 7
      (RYes (del 2 (del 3 (del 4 (del 5 (del 6 (del 7 (set_tok 0 T_INCVAR s))))))))
  else RNo.
(* peephole.cc:1095-1115 *)
Definition r1099 (c : Z) (s : list codew) : rres :=
  if mtok s 0 T_VAR_ADDR && mtok s 2 T_SADDR && mtok s 3 T_VAR_LOAD && mtok s 5 T_PUSH &&
     mtok s 6 T_NUM && mword s 7 && (val s 7 =? 1) && mtok s 8 T_ADD && mtok s 9 T_DPOKE
  then
    same_var s 1 4
      (RYes (del 2 (del 3 (del 4 (del 5 (del 6 (del 7 (del 8 (del 9
        (set_tok 0 T_INCVAR s))))))))))
  else RNo.
(* peephole.cc:1116-1124 *)
Definition r1118 (c : Z) (s : list codew) : rres :=
  if mtok s 0 T_VAR_ADDR && mtok s 2 T_INC then
    RYes (del 2 (set_tok 0 T_INCVAR s))
  else RNo.
(* peephole.cc:1125-1132 *)
Definition r1127 (c : Z) (s : list codew) : rres :=
  if mtok s 0 T_SADDR && mtok s 1 T_INC then RYes (del 0 s) else RNo.
(* peephole.cc:1133-1149 *)
Definition r1136 (c : Z) (s : list codew) : rres :=
  if mtok s 0 T_VAR_LOAD && mtok s 2 T_PUSH && mtok s 3 T_NUM && mword s 4 &&
     (val s 4 =? 1) && mtok s 5 T_SUB && mtok s 6 T_VAR_STORE then
    same_var s 1 7
      (RYes (del 2 (del 3 (del 4 (del 5 (del 6 (del 7 (set_tok 0 T_DECVAR s))))))))
  else RNo.
(* peephole.cc:1150-1170 *)
Definition r1154 (c : Z) (s : list codew) : rres :=
  if mtok s 0 T_VAR_ADDR && mtok s 2 T_SADDR && mtok s 3 T_VAR_LOAD && mtok s 5 T_PUSH &&
     mtok s 6 T_NUM && mword s 7 && (val s 7 =? 1) && mtok s 8 T_SUB && mtok s 9 T_DPOKE
  then
    same_var s 1 4
      (RYes (del 2 (del 3 (del 4 (del 5 (del 6 (del 7 (del 8 (del 9
        (set_tok 0 T_DECVAR s))))))))))
  else RNo.
(* peephole.cc:1171-1179 *)
Definition r1173 (c : Z) (s : list codew) : rres :=
  if mtok s 0 T_VAR_ADDR && mtok s 2 T_DEC then
    RYes (del 2 (set_tok 0 T_DECVAR s))
  else RNo.
(* peephole.cc:1180-1187 *)
Definition r1182 (c : Z) (s : list codew) : rres :=
  if mtok s 0 T_SADDR && mtok s 1 T_DEC then RYes (del 0 s) else RNo.
(* peephole.cc:1188-1195 *)
Definition r1190 (c : Z) (s : list codew) : rres :=
  if mtok s 0 T_L_NOT && mtok s 1 T_L_NOT then
    RYes (del 1 (set_tok 0 T_COMP_0 s))
  else RNo.
(* peephole.cc:1196-1203 *)
Definition r1198 (c : Z) (s : list codew) : rres :=
  if mtok s 0 T_EQ && mtok s 1 T_L_NOT then
    RYes (del 1 (set_tok 0 T_NEQ s))
  else RNo.
(* peephole.cc:1204-1211 *)
Definition r1206 (c : Z) (s : list codew) : rres :=
  if mtok s 0 T_NEQ && mtok s 1 T_L_NOT then
    RYes (del 1 (set_tok 0 T_EQ s))
  else RNo.
(* peephole.cc:1212-1224 *)
Definition r1217 (c : Z) (s : list codew) : rres :=
  if (mtok s 0 T_NEQ || mtok s 0 T_L_AND || mtok s 0 T_L_OR || mtok s 0 T_L_NOT ||
      mtok s 0 T_COMP_0 || mtok s 0 T_EQ || mtok s 0 T_LT || mtok s 0 T_GT) &&
     mtok s 1 T_COMP_0 then
    RYes (del 1 s)
  else RNo.
(* peephole.cc:1225-1247, goes on with the following rules *)
Definition r1227 (c : Z) (s : list codew) : rres :=
  if mtok s 0 T_NUM && mword s 1 && mtok s 2 T_GT && mtok s 3 T_L_NOT then
    if val s 1 =? 32637 then
      RYes (set_tok 3 T_COMP_0 (set_tok 2 T_BIT_OR (set_w 1 1 (set_tok 0 T_NUM s))))
    else
      let s := set_tok 0 T_NUM s in
      let s := set_w 1 (val s 1 + 1) s in
      RYes (del 3 (set_tok 2 T_LT s))
  else RNo.
(* peephole.cc:1248-1256 *)
Definition r1251 (c : Z) (s : list codew) : rres :=
  if mtok s 0 T_NUM && mword s 1 && mtok s 2 T_STR_IDX && (255 <? val s 1) then
    RYes (set_w 1 255 s)
  else RNo.
(* peephole.cc:1317-1339, goes on with the following rules *)
Definition r1319 (c : Z) (s : list codew) : rres :=
  if mtok s 0 T_NUM && mword s 1 && mtok s 2 T_LT && mtok s 3 T_L_NOT then
    if val s 1 =? -32768 then
      RYes (set_tok 3 T_COMP_0 (set_tok 2 T_BIT_OR (set_w 1 1 (set_tok 0 T_NUM s))))
    else
      let s := set_tok 0 T_NUM s in
      let s := set_w 1 (val s 1 - 1) s in
      RYes (del 3 (set_tok 2 T_GT s))
  else RNo.
(* peephole.cc:1340-1346 *)
Definition r1341 (c : Z) (s : list codew) : rres :=
  if mtok s 0 T_NUM && mword s 1 && mtok s 2 T_COMP_0 then
    RYes (del 2 (set_w 1 (if val s 1 =? 0 then 0 else 1) s))
  else RNo.
(* peephole.cc:1347-1364 *)
Definition r1348 (c : Z) (s : list codew) : rres :=
  if mtok s 0 T_NUM && mword s 1 && mtok s 2 T_CNJUMP then
    if val s 1 =? 0 then RYes (del 0 (del 1 (del 2 (del 3 s))))
    else RYes (del 0 (del 1 (set_tok 2 T_JUMP s)))
  else RNo.
(* peephole.cc:1365-1382 *)
Definition r1366 (c : Z) (s : list codew) : rres :=
  if mtok s 0 T_NUM && mword s 1 && mtok s 2 T_CJUMP then
    if negb (val s 1 =? 0) then RYes (del 0 (del 1 (del 2 (del 3 s))))
    else RYes (del 0 (del 1 (set_tok 2 T_JUMP s)))
  else RNo.
(* peephole.cc:1383-1390 *)
Definition r1385 (c : Z) (s : list codew) : rres :=
  if mtok s 0 T_CALL && mtok s 2 T_RET then RYes (del 2 (set_tok 0 T_JUMP s)) else RNo.
(* peephole.cc:1391-1398 *)
Definition r1393 (c : Z) (s : list codew) : rres :=
  if mtok s 0 T_L_NOT && mtok s 1 T_CJUMP then
    RYes (del 0 (set_tok 1 T_CNJUMP s)) else RNo.
(* peephole.cc:1399-1406 *)
Definition r1401 (c : Z) (s : list codew) : rres :=
  if mtok s 0 T_L_NOT && mtok s 1 T_CNJUMP then
    RYes (del 0 (set_tok 1 T_CJUMP s)) else RNo.
(* peephole.cc:1407-1417 *)
Definition r1410 (c : Z) (s : list codew) : rres :=
  if mtok s 0 T_CJUMP && mtok s 2 T_JUMP && mlabel s 4 &&
     String.eqb (lbl s 4) (wlbl s 1) then
    RYes (del 0 (del 1 (set_tok 2 T_CNJUMP s))) else RNo.
(* peephole.cc:1418-1428 *)
Definition r1421 (c : Z) (s : list codew) : rres :=
  if mtok s 0 T_CJUMP && mtok s 2 T_RET && mlabel s 3 &&
     String.eqb (lbl s 3) (wlbl s 1) then
    RYes (del 0 (del 1 (set_tok 2 T_CNRET s))) else RNo.
(* peephole.cc:1429-1439 *)
Definition r1432 (c : Z) (s : list codew) : rres :=
  if mtok s 0 T_CNJUMP && mtok s 2 T_JUMP && mlabel s 4 &&
     String.eqb (lbl s 4) (wlbl s 1) then
    RYes (del 0 (del 1 (set_tok 2 T_CJUMP s))) else RNo.
(* peephole.cc:1440-1450 *)
Definition r1443 (c : Z) (s : list codew) : rres :=
  if mtok s 0 T_CNJUMP && mtok s 2 T_RET && mlabel s 3 &&
     String.eqb (lbl s 3) (wlbl s 1) then
    RYes (del 0 (del 1 (set_tok 2 T_CRET s))) else RNo.
(* peephole.cc:1451-1457 *)
Definition r1452 (c : Z) (s : list codew) : rres :=
  if mtok s 0 T_L_NOT && mtok s 1 T_CRET then
    RYes (del 0 (set_tok 1 T_CNRET s)) else RNo.
(* peephole.cc:1458-1464 *)
Definition r1459 (c : Z) (s : list codew) : rres :=
  if mtok s 0 T_L_NOT && mtok s 1 T_CNRET then
    RYes (del 0 (set_tok 1 T_CRET s)) else RNo.
(* peephole.cc:1465-1473 *)
Definition r1468 (c : Z) (s : list codew) : rres :=
  if mtok s 0 T_JUMP && mlabel s 2 && String.eqb (lbl s 2) (wlbl s 1) then
    RYes (del 0 (del 1 s)) else RNo.
(* peephole.cc:1474-1479; del does nothing past the end of the code *)
Definition r1475 (c : Z) (s : list codew) : rres :=
  if mtok s 0 T_JUMP && negb (mlabel s 2) then
    if Nat.ltb 2 (length s) then RYes (del 2 s) else RSkip
  else RNo.
(* peephole.cc:1480-1485 *)
Definition r1481 (c : Z) (s : list codew) : rres :=
  if (mtok s 0 T_RET || mtok s 0 T_END) && negb (mlabel s 1) then
    if Nat.ltb 1 (length s) then RYes (del 1 s) else RSkip
  else RNo.
(* peephole.cc:1486-1493 *)
Definition r1488 (c : Z) (s : list codew) : rres :=
  if mtok s 0 T_CHR && mtok s 1 T_PRINT_STR then
    RYes (del 1 (set_tok 0 T_PUT s)) else RNo.
(* peephole.cc:1494-1506, goes on with the following rules *)
Definition r1498 (c : Z) (s : list codew) : rres :=
  if mtok s 0 T_CSTRING && (mstring s 1 <? 255) && mtok s 2 T_PRINT_STR &&
     mtok s 3 T_NUM && mword s 4 && mtok s 5 T_PUT && (0 <=? c) then
    let s := set_string 1 (strat s 1 ++ [u8 (Z.lxor (val s 4) c)]) s in
    RYes (del 3 (del 4 (del 5 s)))
  else RNo.
(* peephole.cc:1507-1518, goes on with the following rules *)
Definition r1511 (c : Z) (s : list codew) : rres :=
  if mtok s 0 T_CSTRING && (mstring s 1 <? 255) && mtok s 2 T_PRINT_STR &&
     mtok s 3 T_BYTE_PUT && (mbyte s 4 || mword s 4) && (0 <=? c) then
    let s := set_string 1 (strat s 1 ++ [u8 (Z.lxor (val s 4) c)]) s in
    RYes (del 3 (del 4 s))
  else RNo.
(* peephole.cc:1519-1530, last rule of the loop body *)
Definition r1522 (c : Z) (s : list codew) : rres :=
  if mtok s 0 T_CSTRING && mtok s 2 T_PRINT_STR && mtok s 3 T_CSTRING &&
     mtok s 5 T_PRINT_STR && (mstring s 1 + mstring s 4 <? 256) then
    let s := set_string 1 (strat s 1 ++ strat s 4) s in
    RYes (del 3 (del 4 (del 5 s)))
  else RNo.

(* What follows a rule that was applied: "i--; continue", "continue", or the next
   rules of the loop body. *)
Inductive act := AStay | ANext | AFall.

(* The loop body after the colour tracking, peephole.cc:544-1530, in source order. *)
Definition rules : list (Z * (Z -> list codew -> rres) * act) :=
  [ (546, r546, AStay); (554, r554, AStay); (562, r562, AStay); (571, r571, AStay);
    (582, r582, AStay); (593, r593, AStay); (604, r604, AStay); (615, r615, AStay);
    (626, r626, AStay); (637, r637, AStay); (647, r647, AStay); (658, r658, AStay);
    (669, r669, AStay); (680, r680, AStay); (692, r692, AStay); (704, r704, AStay);
    (715, r715, AStay); (728, r728, AStay); (741, r741, AStay); (751, r751, AStay);
    (760, r760, AStay); (771, r771, AStay); (781, r781, AStay); (796, r796, AStay);
    (814, r814, AStay); (829, r829, AStay); (843, r843, AStay); (857, r857, AStay);
    (905, r905, AStay); (917, r917, AStay); (937, r937, AStay); (955, r955, AStay);
    (967, r967, AStay); (980, r980, AStay); (995, r995, AFall);
    (1004, r1004, AStay); (1014, r1014, AStay); (1029, r1029, AStay);
    (1051, r1051, AStay); (1068, r1068, AStay); (1081, r1081, AStay);
    (1099, r1099, AStay); (1118, r1118, AStay); (1127, r1127, AStay);
    (1136, r1136, AStay); (1154, r1154, AStay); (1173, r1173, AStay);
    (1182, r1182, AStay); (1190, r1190, ANext); (1198, r1198, ANext);
    (1206, r1206, ANext); (1217, r1217, ANext); (1227, r1227, AFall);
    (1251, r1251, ANext); (1319, r1319, AFall); (1341, r1341, ANext);
    (1348, r1348, ANext); (1366, r1366, ANext); (1385, r1385, ANext);
    (1393, r1393, ANext); (1401, r1401, ANext); (1410, r1410, ANext);
    (1421, r1421, ANext); (1432, r1432, ANext); (1443, r1443, ANext);
    (1452, r1452, ANext); (1459, r1459, ANext); (1468, r1468, ANext);
    (1475, r1475, ANext); (1481, r1481, ANext); (1488, r1488, ANext);
    (1498, r1498, AFall); (1511, r1511, AFall); (1522, r1522, AFall) ]%Z.

(* Running the loop body: stay at the same index, go to the next, or exception. *)
Inductive bres :=
| BStay (s : list codew) (l : list ev)
| BNext (s : list codew) (l : list ev)
| BThrow.

Definition add_ev (e : ev) (b : bres) : bres :=
  match b with
  | BStay s l => BStay s (e :: l)
  | BNext s l => BNext s (e :: l)
  | BThrow => BThrow
  end.

(* peephole.cc:544-1530: try the rules in order *)
Fixpoint run_rules (rs : list (Z * (Z -> list codew -> rres) * act)) (p : list codew)
  (c : Z) (s : list codew) : bres :=
  match rs with
  | [] => BNext s []
  | (n, f, a) :: rs =>
      match f c s with
      | RNo => run_rules rs p c s
      | RSkip => BNext s []
      | RThrow => BThrow
      | RYes s' =>
          let e := mkev n p c s in
          match a with
          | AStay => BStay s' [e]
          | ANext => BNext s' [e]
          | AFall => add_ev e (run_rules rs p c s')
          end
      end
  end.

(* peephole.cc:519-533: setting the print colour to what it is known to be *)
Definition same_color (c : Z) (s : list codew) : bool :=
  mtok s 0 T_NUM && mword s 1 && mtok s 2 T_BYTE_POKE && mcbyte s 3 PRINT_COLOR &&
  (val s 1 =? c).

(* Result of the optimizer. *)
Inductive res (A : Type) :=
| Done (x : A) (l : list ev)
| Throw
| OutOfFuel.
Arguments Done {A}. Arguments Throw {A}. Arguments OutOfFuel {A}.

Definition add_evs {A} (l : list ev) (r : res A) : res A :=
  match r with Done x l' => Done x (l ++ l') | r => r end.

(* peephole.cc:515-1531, the loop over the index i.  [p] holds the elements before i,
   last first; [s] those from i on. *)
Fixpoint rule_loop (fuel : nat) (p : list codew) (c : Z) (s : list codew)
  : res (list codew) :=
  match fuel with
  | O => OutOfFuel
  | S fuel =>
      match s with
      | [] => Done (rev p) []
      | _ =>
          if same_color c s then
            add_evs [mkev 524 p c s]
              (rule_loop fuel p c (del 0 (del 1 (del 2 (del 3 s)))))
          else
            let c := track c s in
            match run_rules rules p c s with
            | BThrow => Throw
            | BStay s' l => add_evs l (rule_loop fuel p c s')
            | BNext [] l => Done (rev p) l
            | BNext (x :: s') l => add_evs l (rule_loop fuel (x :: p) c s')
            end
      end
  end.

(* Whether two code lists are equal, used for the flag "changed". *)
Definition codew_eq_dec (a b : codew) : {a = b} + {a <> b}.
Proof.
  decide equality; try apply Z.eq_dec; try apply string_dec;
    try apply (list_eq_dec Z.eq_dec).
  decide equality; apply string_dec.
Defined.
Definition code_eqb (a b : list codew) : bool :=
  if list_eq_dec codew_eq_dec a b then true else false.

(* One turn of the do/while loop, peephole.cc:507-1532.  The flag "changed" is set by
   every edit; each edit of the first three steps and each recorded rule changes the
   code, so the flag is: the code changed in the first steps, or something was
   recorded. *)
Definition pass (s : list codew) : res (list codew * bool) :=
  let s1 := remove_unused_labels s in
  let s2 := replace_label_targets s1 in
  let (s3, l3) := trace_iochn [] 0 s2 in
  match rule_loop (S (length s3)) [] 0 s3 with
  | Done s4 l4 =>
      Done (s4, negb (code_eqb s s2) || negb (Nat.eqb (length (l3 ++ l4)) 0)) (l3 ++ l4)
  | Throw => Throw
  | OutOfFuel => OutOfFuel
  end.

(* peephole.cc:507-1532, the do/while loop *)
Fixpoint passes (fuel : nat) (s : list codew) : res (list codew) :=
  match fuel with
  | O => OutOfFuel
  | S fuel =>
      match pass s with
      | Done (s', ch) l => if ch then add_evs l (passes fuel s') else Done s' l
      | Throw => Throw
      | OutOfFuel => OutOfFuel
      end
  end.

(* peephole.cc:503-1537, the whole optimizer *)
Definition peephole (fuel : nat) (s : list codew) : res (list codew) :=
  match passes fuel (expand_numbers (expand_push s)) with
  | Done s l =>
      let (s, l') := print_chars [] 0 s in
      Done (fold_saddr (fold_push (shorten_numbers s))) (l ++ l')
  | r => r
  end.
