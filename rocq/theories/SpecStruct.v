(* Structured programs: what the loops and conditions of a program are in its code, and
   what they mean when it runs (C35, C49).  Nothing here uses the parser. *)
From Verif Require Import Codew Text Front Vm SpecFront.

(* ---- The parts of a code vector ---- *)
(* Elements that are neither part of a loop nor of a condition: no place, no jump and no
   return, and no reference to a place of a loop. *)
Definition simple (c : codew) : bool :=
  match c with
  | CTok T_JUMP | CTok T_CJUMP | CTok T_CNJUMP | CTok T_RET | CTok T_CRET | CTok T_CNRET => false
  | CLabel _ => false
  | CWordS w => negb (jump_name w)
  | _ => true
  end.
(* A program as a tree.  [Code] is one element of other code.  The names are those that the
   compiler gave to the places. *)
Inductive stm :=
| Code (c : codew)
| Exit
| Do (l : string) (b : list stm)                       (* DO b LOOP *)
| Repeat (l : string) (b : list stm)                   (* REPEAT b UNTIL: the condition ends b *)
| While (l k : string) (q b : list stm)                (* WHILE q b WEND *)
| If (l : string) (b : list stm)                       (* IF b ENDIF: the condition is before *)
| IfElse (l k : string) (b e : list stm)               (* IF b ELSE e ENDIF, and IF b ELIF e *)
| For (l k : string) (b : list stm).                   (* FOR b NEXT *)

Definition exit_of (l : string) : string := append l "_x".
Definition FOR := CTok (T_Other "TOK_FOR").
Definition FOR_NEXT := CTok (T_Other "TOK_FOR_NEXT").
Definition FOR_EXIT := CTok (T_Other "TOK_FOR_EXIT").

(* The code of a tree; [x] is the loop or procedure around it, that EXIT leaves. *)
Inductive gen : option string -> list stm -> list codew -> Prop :=
| gen_nil x : gen x [] []
| gen_cons x s p d c : gen1 x s d -> gen x p c -> gen x (s :: p) (d ++ c)
with gen1 : option string -> stm -> list codew -> Prop :=
| gen_code x c : simple c = true -> gen1 x (Code c) [c]
| gen_exit l : gen1 (Some l) Exit [CTok T_JUMP; CWordS (exit_of l)]
| gen_do x l b c : jump_name l = true -> gen (Some l) b c ->
    gen1 x (Do l b) ([CLabel l] ++ c ++ [CTok T_JUMP; CWordS l; CLabel (exit_of l)])
| gen_repeat x l b c : jump_name l = true -> gen (Some l) b c ->
    gen1 x (Repeat l b) ([CLabel l] ++ c ++ [CTok T_CJUMP; CWordS l; CLabel (exit_of l)])
| gen_while x l k q b c d : jump_name l = true -> jump_name k = true -> gen (Some l) q c -> gen (Some l) b d ->
    gen1 x (While l k q b)
      ([CLabel l] ++ c ++ [CTok T_CJUMP; CWordS k] ++ d ++ [CTok T_JUMP; CWordS l; CLabel k; CLabel (exit_of l)])
| gen_if x l b c : jump_name l = true -> gen x b c ->
    gen1 x (If l b) ([CTok T_CJUMP; CWordS l] ++ c ++ [CLabel l])
| gen_ifelse x l k b e c d : jump_name l = true -> jump_name k = true -> gen x b c -> gen x e d ->
    gen1 x (IfElse l k b e)
      ([CTok T_CJUMP; CWordS l] ++ c ++ [CTok T_JUMP; CWordS k; CLabel l] ++ d ++ [CLabel k])
| gen_for x l k b c : jump_name l = true -> jump_name k = true -> gen (Some l) b c ->
    gen1 x (For l k b)
      ([FOR; CTok T_CNJUMP; CWordS k; CLabel l] ++ c
       ++ [FOR_NEXT; CTok T_CJUMP; CWordS l; CLabel k; CLabel (exit_of l); FOR_EXIT]).

(* A part of the program: the main program, a procedure, or data.  A procedure that starts
   at [w] ends with ENDPROC, where EXIT goes from outside of the loops in it. *)
Inductive part := Main | Procedure (w l : string) | Data (w : string).
Inductive part_code : part -> list stm -> list codew -> Prop :=
| u_main p c : gen None p c -> part_code Main p c
| u_proc w l p c : jump_name w = false -> jump_name l = true -> gen (Some l) p c ->
    part_code (Procedure w l) p (CLabel w :: c ++ [CLabel (exit_of l); CTok T_RET])
| u_data w p c : jump_name w = false -> gen None p c -> part_code (Data w) p (CLabel w :: c).

(* The statements of the procedure [f] of the program [P]: the code at its label is theirs,
   then it returns. *)
Definition proc_at (P : list codew) (f : string) (q : list stm) : Prop :=
  exists l c r, find_label f P = Some (CLabel f :: (c ++ [CLabel (exit_of l); CTok T_RET]) ++ r) /\
  jump_name l = true /\ gen (Some l) q c.
(* [f] is called in [P]. *)
Definition calls (P : list codew) (f : string) : Prop := exists a b, P = a ++ CTok T_CALL :: CWordS f :: b.

(* ---- What a tree does ---- *)
Section Meaning.
Context {W : Type}.
Variable X : env W.
(* The statements of the procedure that starts at a label. *)
Variable body : string -> list stm -> Prop.

(* How a list of statements ends: at its end, with EXIT, or with the end of the program; or
   it has come to some point and does not say how it goes on. *)
Inductive outc :=
| ONormal (m : st W) | OExit (m : st W) | OEnd (m : st W) | OCut (m : st W).
Definition abrupt (o : outc) : Prop := match o with ONormal _ => False | _ => True end.
Definition leaves (o : outc) : Prop := match o with OEnd _ | OCut _ => True | _ => False end.

(* The condition just computed; testing it loses the accumulator. *)
Definition test (m : st W) (b : bool) (m' : st W) : Prop :=
  ax m = Some (VInt (if b then 1 else 0)) /\ m' = set_ax None m.
Definition lost (m : st W) : st W := set_ax None m.
(* Between statements the channel and the colour of PRINT are 0. *)
Definition calm (m : st W) : Prop := ioch m = 0 /\ col m = 0.
(* One token; those that start a turn of FOR have no operands. *)
Definition does (t : codew) (m m' : st W) : Prop := istep X [t] m = INext [] m'.

Inductive exec : list stm -> st W -> outc -> Prop :=
| x_nil m : exec [] m (ONormal m)
| x_cut p m : exec p m (OCut m)
(* an instruction of other code, with the operands it takes *)
| x_code d r p m m' o : istep X d m = INext r m' -> exec (map Code r ++ p) m' o ->
    exec (map Code d ++ p) m o
(* EXEC: the procedure returns at its end and with EXIT *)
| x_call d f r p q m m1 m2 o : istep X d m = ICall f r m1 -> body f q -> calm m1 ->
    exec q m1 (ONormal m2) -> calm m2 -> exec (map Code r ++ p) (lost m2) o -> exec (map Code d ++ p) m o
| x_call_exit d f r p q m m1 m2 o : istep X d m = ICall f r m1 -> body f q -> calm m1 ->
    exec q m1 (OExit m2) -> calm m2 -> exec (map Code r ++ p) (lost m2) o -> exec (map Code d ++ p) m o
| x_call_leave d f r p q m m1 o : istep X d m = ICall f r m1 -> body f q -> calm m1 ->
    exec q m1 o -> leaves o -> exec (map Code d ++ p) m o
| x_end d p m m' : istep X d m = IEnd m' -> exec (map Code d ++ p) m (OEnd m')
| x_exit p m : exec (Exit :: p) m (OExit (lost m))
(* DO: for ever, until EXIT *)
| x_do l b p m m1 o : calm m -> exec b m (ONormal m1) -> exec (Do l b :: p) (lost m1) o ->
    exec (Do l b :: p) m o
| x_do_exit l b p m m1 o : calm m -> exec b m (OExit m1) -> calm m1 -> exec p m1 o -> exec (Do l b :: p) m o
| x_do_leave l b p m o : calm m -> exec b m o -> leaves o -> exec (Do l b :: p) m o
(* REPEAT: until the condition holds *)
| x_repeat l b p m m1 m2 o : calm m -> exec b m (ONormal m1) -> test m1 false m2 ->
    exec (Repeat l b :: p) m2 o -> exec (Repeat l b :: p) m o
| x_until l b p m m1 m2 o : calm m -> exec b m (ONormal m1) -> test m1 true m2 -> calm m2 ->
    exec p m2 o -> exec (Repeat l b :: p) m o
| x_repeat_exit l b p m m1 o : calm m -> exec b m (OExit m1) -> calm m1 -> exec p m1 o ->
    exec (Repeat l b :: p) m o
| x_repeat_leave l b p m o : calm m -> exec b m o -> leaves o -> exec (Repeat l b :: p) m o
(* WHILE: as long as the condition holds *)
| x_while l k q b p m m1 m2 m3 o : calm m -> exec q m (ONormal m1) -> test m1 true m2 ->
    exec b m2 (ONormal m3) -> exec (While l k q b :: p) (lost m3) o -> exec (While l k q b :: p) m o
| x_wend l k q b p m m1 m2 o : calm m -> exec q m (ONormal m1) -> test m1 false m2 -> calm m2 ->
    exec p m2 o -> exec (While l k q b :: p) m o
| x_while_exit l k q b p m m1 m2 m3 o : calm m -> exec q m (ONormal m1) -> test m1 true m2 ->
    exec b m2 (OExit m3) -> calm m3 -> exec p m3 o -> exec (While l k q b :: p) m o
| x_while_leave l k q b p m m1 m2 o : calm m -> exec q m (ONormal m1) -> test m1 true m2 ->
    exec b m2 o -> leaves o -> exec (While l k q b :: p) m o
| x_while_exit_q l k q b p m m3 o : calm m -> exec q m (OExit m3) -> calm m3 -> exec p m3 o ->
    exec (While l k q b :: p) m o
| x_while_leave_q l k q b p m o : calm m -> exec q m o -> leaves o -> exec (While l k q b :: p) m o
(* IF: one of the branches *)
| x_if l b p m m1 m2 o : test m true m1 -> exec b m1 (ONormal m2) -> calm m2 -> exec p m2 o ->
    exec (If l b :: p) m o
| x_if_not l b p m m1 o : test m false m1 -> calm m1 -> exec p m1 o -> exec (If l b :: p) m o
| x_if_abrupt l b p m m1 o : test m true m1 -> exec b m1 o -> abrupt o -> exec (If l b :: p) m o
| x_then l k b e p m m1 m2 o : test m true m1 -> exec b m1 (ONormal m2) -> calm m2 -> exec p (lost m2) o ->
    exec (IfElse l k b e :: p) m o
| x_else l k b e p m m1 m2 o : test m false m1 -> calm m1 -> exec e m1 (ONormal m2) -> calm m2 ->
    exec p m2 o -> exec (IfElse l k b e :: p) m o
| x_then_abrupt l k b e p m m1 o : test m true m1 -> exec b m1 o -> abrupt o -> exec (IfElse l k b e :: p) m o
| x_else_abrupt l k b e p m m1 o : test m false m1 -> calm m1 -> exec e m1 o -> abrupt o ->
    exec (IfElse l k b e :: p) m o
(* FOR: TOK_FOR tells if there is nothing to do, TOK_FOR_NEXT if it was the last time;
   TOK_FOR_EXIT follows in each case *)
| x_for_none l k b p m m1 m2 o : does FOR m m1 -> test m1 true m2 -> calm m2 ->
    exec (Code FOR_EXIT :: p) m2 o -> exec (For l k b :: p) m o
| x_for l k b p m m1 m2 o : does FOR m m1 -> test m1 false m2 -> turns l b p m2 o ->
    exec (For l k b :: p) m o
| x_for_cut l k b p m m1 : does FOR m m1 -> exec (For l k b :: p) m (OCut m1)
(* the turns of FOR, and what follows *)
with turns : string -> list stm -> list stm -> st W -> outc -> Prop :=
| x_turn l b p m m1 m2 m3 o : calm m -> exec b m (ONormal m1) -> does FOR_NEXT m1 m2 -> test m2 false m3 ->
    turns l b p m3 o -> turns l b p m o
| x_last l b p m m1 m2 m3 o : calm m -> exec b m (ONormal m1) -> does FOR_NEXT m1 m2 -> test m2 true m3 ->
    calm m3 -> exec (Code FOR_EXIT :: p) m3 o -> turns l b p m o
| x_for_exit l b p m m1 o : calm m -> exec b m (OExit m1) -> calm m1 ->
    exec (Code FOR_EXIT :: p) m1 o -> turns l b p m o
| x_next_cut l b p m m1 m2 : calm m -> exec b m (ONormal m1) -> does FOR_NEXT m1 m2 -> turns l b p m (OCut m2)
| x_for_leave l b p m o : calm m -> exec b m o -> leaves o -> turns l b p m o.
End Meaning.
