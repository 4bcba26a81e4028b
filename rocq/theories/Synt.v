(* The optimizer of the syntax tables: src/compiler/synt-optimize.cc and the functions of
   src/compiler/synt-sm.cc that it uses.  Left out: the messages.

   A table (class statemachine, synt-sm.h:103-113) is kept as its lines and its member
   "complete"; the data of an "emit" is kept as code elements, see Front.v.  The map of
   tables (synt-sm-list.h) is an association list in the order of the map. *)
From Verif Require Import Codew Text Front.
Open Scope string_scope.
Open Scope list_scope.

Definition sm := (list pline * bool)%type.
Definition sml := list (string * sm).

(* The tables as the parser sees them (get_code, synt-sm.h:136). *)
Definition tables_of (sl : sml) : tables := map (fun p => (fst p, fst (snd p))) sl.

(* The test of has_call and delete_call: a call to the table [n]. *)
Definition is_call (n : string) (c : pcode) : bool :=
  match c with PTab m => String.eqb m n | _ => false end.

(* has_call, synt-sm.cc:247-255. *)
Definition has_call (n : string) (m : sm) : nat :=
  list_sum (map (fun l => List.length (filter (is_call n) l)) (fst m)).

(* is_empty, synt-sm.cc:257-261. *)
Definition is_empty (m : sm) : bool :=
  match fst m with
  | [] => true
  | [[PRet]] => true
  | _ => false
  end.

(* delete_call, synt-sm.cc:263-274. *)
Definition delete_call (n : string) (m : sm) : sm :=
  (map (filter (fun c => negb (is_call n c))) (fst m), snd m).

(* The line is only a call to [n]: synt-sm.cc:281-282, 293-294 and 368-369. *)
Definition call_line (n : string) (l : pline) : bool :=
  match l with
  | [PTab m; PRet] => String.eqb m n
  | _ => false
  end.

(* end_call, synt-sm.cc:276-286. *)
Definition end_call (n : string) (m : sm) : bool :=
  match rev (fst m) with
  | l :: _ => call_line n l
  | [] => false
  end.

(* just_call, synt-sm.cc:288-298. *)
Definition just_call (n : string) (m : sm) : bool := existsb (call_line n) (fst m).

(* tail_call, synt-sm.cc:345-357; [None] is the error. *)
Definition tail_call (from m : sm) : option sm :=
  if snd m then None
  else match fst m with
       | [] => None
       | _ => Some (removelast (fst m) ++ fst from, snd from)
       end.

(* inline_call, synt-sm.cc:359-379; [None] is the error. *)
Definition inline_call (n : string) (from m : sm) : option sm :=
  if snd from then None
  else Some (flat_map (fun l => if call_line n l then fst from else [l]) (fst m), snd m).

(* statemachine::optimize, synt-sm.cc:383-398: the element before the position of the loop
   is [c0]. *)
Fixpoint join_emits (c0 : pcode) (l : pline) : pline :=
  match l with
  | [] => [c0]
  | c1 :: t => match c0, c1 with
               | PEmit a, PEmit b => join_emits (PEmit (a ++ b)) t
               | _, _ => c0 :: join_emits c1 t
               end
  end.
(* synt-sm.cc:399-412. *)
Fixpoint emit_returns (c0 : pcode) (l : pline) : pline :=
  match l with
  | [] => [c0]
  | c1 :: t => match c0, c1 with
               | PEmit a, PRet => emit_returns (PEmitRet a) t
               | _, _ => c0 :: emit_returns c1 t
               end
  end.
Definition on_line (f : pcode -> pline -> pline) (l : pline) : pline :=
  match l with [] => [] | c :: t => f c t end.
Definition sm_optimize (m : sm) : sm :=
  (map (on_line emit_returns) (map (on_line join_emits) (fst m)), snd m).

(* State of syntax_merge: the tables, and the names to delete. *)
Definition mstate := (sml * list string)%type.
(* How its loops end: normally, returning false, or with undefined behaviour. *)
Inductive mres := MOk (st : mstate) | MFalse (sl : sml) | MUndef.

(* One step of the inner loop, synt-optimize.cc:52-76, for the table [k] and the table
   [n] that is used once.  When a table is joined to itself, tail_call changes the vector
   that it is reading: undefined behaviour. *)
Definition merge_into (n k : string) (st : mstate) : mres :=
  let '(sl, del) := st in
  match find n sl, find k sl with
  | Some from, Some m =>
    if end_call n m then
      if String.eqb n k then MUndef
      else match tail_call from m with
           | Some m' => MOk (assign k m' sl, del ++ [n])
           | None => MFalse sl
           end
    else if just_call n m then
      match inline_call n from m with
      | Some m' => MOk (assign k m' sl, del ++ [n])
      | None => MFalse sl
      end
    else MOk st
  | _, _ => MOk st
  end.
Fixpoint merge_inner (n : string) (ks : list string) (st : mstate) : mres :=
  match ks with
  | [] => MOk st
  | k :: t => match merge_into n k st with
              | MOk st => merge_inner n t st
              | r => r
              end
  end.

(* The number of uses of a table, synt-optimize.cc:39-43. *)
Definition uses (n : string) (sl : sml) : nat :=
  (if String.eqb n "PARSE_START" then 1 else 0)
  + list_sum (map (fun p => has_call n (snd p)) sl).

(* The outer loop, synt-optimize.cc:37-78.  The keys do not change in it. *)
Fixpoint merge_outer (ns : list string) (st : mstate) : mres :=
  match ns with
  | [] => MOk st
  | n :: t =>
    match uses n (fst st) with
    | O => MFalse (fst st)
    | 1%nat => match merge_inner n (map fst (fst st)) st with
               | MOk st => merge_outer t st
               | r => r
               end
    | _ => merge_outer t st
    end
  end.

(* erase of all the names, synt-optimize.cc:79-81 and 116-118. *)
Definition erase (del : list string) (sl : sml) : sml :=
  filter (fun p => negb (existsb (String.eqb (fst p)) del)) sl.

(* syntax_merge, synt-optimize.cc:24-84: the tables after it and its result; [None] is
   undefined behaviour. *)
Definition syntax_merge (sl : sml) : option (sml * bool) :=
  match merge_outer (map fst sl) (sl, []) with
  | MOk (sl, del) => Some (erase del sl, true)
  | MFalse sl => Some (sl, false)
  | MUndef => None
  end.

(* The loop that deletes the empty tables, synt-optimize.cc:96-114. *)
Fixpoint empty_loop (ns : list string) (st : mstate) : mstate :=
  match ns with
  | [] => st
  | n :: t =>
    let '(sl, del) := st in
    empty_loop t
      (match find n sl with
       | Some m => if is_empty m
                   then (map (fun p => (fst p, delete_call n (snd p))) sl, del ++ [n])
                   else st
       | None => st
       end)
  end.
Definition delete_empty (sl : sml) : sml :=
  let '(sl, del) := empty_loop (map fst sl) (sl, []) in erase del sl.

(* syntax_optimize, synt-optimize.cc:86-125.  Both callers ignore the result (syntp.cc:171,
   target.cc:156), so the tables after it are kept also when it is false. *)
Definition syntax_optimize (merge : bool) (sl : sml) : option (sml * bool) :=
  match (if merge then syntax_merge sl else Some (sl, true)) with
  | None => None
  | Some (sl, false) => Some (sl, false)
  | Some (sl, true) =>
    Some (map (fun p => (fst p, sm_optimize (snd p))) (delete_empty sl), true)
  end.

(* A table read from the syntax files: "complete" is true when the last line has no literal
   and no call (canFail, synt-sm.cc:181-240; "pass" alone is such a line). *)
Definition cannot_fail (l : pline) : bool :=
  forallb (fun c => match c with PLit _ | PTab _ | PExt _ => false | _ => true end) l.
Definition sm_of (ls : list pline) : sm :=
  (ls, match rev ls with l :: _ => cannot_fail l | [] => false end).

(* The map of tables, in the order of the names. *)
Fixpoint insert (p : string * sm) (l : sml) : sml :=
  match l with
  | [] => [p]
  | q :: t => if String.leb (fst p) (fst q) then p :: l else q :: insert p t
  end.
Definition sm_list_of (tb : tables) : sml :=
  fold_right (fun p l => insert (fst p, sm_of (snd p)) l) [] tb.
