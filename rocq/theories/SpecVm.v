(* Vocabulary for theorems about code that runs straight, without jumps. *)
From Verif Require Import Vm SpecArith.

Section Runs.
Context {W : Type}.
Variable E : env W.
(* Starting at the code [k] in the machine [m], the program reaches [k'] in the machine
   [m'] without jumping. *)
Inductive runs : list codew -> st W -> list codew -> st W -> Prop :=
| runs_0 k m : runs k m k m
| runs_S k m k1 m1 k2 m2 : istep E k m = INext k1 m1 -> runs k1 m1 k2 m2 -> runs k m k2 m2.

(* the machine [m] with the word [z] in the accumulator and the stack [s] *)
Definition result (m : st W) (z : Z) (s : list value) : st W :=
  mkst (Some (VInt z)) (sad m) s (mem m) (ioch m) (col m) (wld m) (out m).

(* sending the bytes one after the other; the accumulator is lost *)
Fixpoint send (l : bytes) (m : st W) : st W :=
  match l with
  | [] => mkst None (sad m) (stk m) (mem m) (ioch m) (col m) (wld m) (out m)
  | b :: l =>
      let p := e_put E (ioch m) b (wld m) (mem m) in
      send l (mkst (ax m) (sad m) (stk m) (snd p) (ioch m) (col m) (fst p)
                (Put (ioch m) b :: out m))
  end.
End Runs.

(* the token of an operator *)
Definition arith_tok (o : arith) : tok :=
  match o with
  | Add => T_ADD | Sub => T_SUB | Mul => T_MUL | Div => T_DIV | Mod => T_MOD
  | And => T_BIT_AND | Or => T_BIT_OR | Xor => T_BIT_EXOR
  end.

(* Reading the integer constants of a program: a constant is loaded by NUM, BYTE, 0 or 1,
   and negated by each NEG that follows.  Everything else is kept as it is. *)
Inductive item := IConst (v : Z) | IElem (c : codew).
(* what is at the start of the code: a constant with an operand, a constant without one, a
   negation, or something else *)
Inductive kind := KOperand (v : Z) | KSingle (v : Z) | KNeg | KElem.
Definition kind_of (c : codew) (r : list codew) : kind :=
  match c, r with
  | CTok T_NUM, CWord n :: _ => KOperand (word n)
  | CTok T_BYTE, CByte n :: _ => KOperand n
  | CTok T_0, _ => KSingle 0
  | CTok T_1, _ => KSingle 1
  | CTok T_NEG, _ => KNeg
  | _, _ => KElem
  end.
Definition flush (p : option Z) (l : list item) : list item :=
  match p with Some v => IConst v :: l | None => l end.
Fixpoint consts (p : option Z) (s : list codew) : list item :=
  match s with
  | [] => flush p []
  | c :: r =>
      match kind_of c r, p with
      | KOperand v, _ => flush p (match r with _ :: r => consts (Some v) r | [] => [] end)
      | KSingle v, _ => flush p (consts (Some v) r)
      | KNeg, Some v => consts (Some (word (- v))) r
      | _, _ => flush p (IElem c :: consts None r)
      end
  end.
