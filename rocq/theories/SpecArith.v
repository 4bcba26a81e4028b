(* Specification of 16 bit integer arithmetic, stated without the model: machine words are
   the integers from 0 to 65535, read as two's complement numbers when signs matter. *)
From Coq Require Import ZArith Bool Lia List.
Open Scope Z_scope.

(* the word of an integer, and the signed number of a word *)
Definition word (z : Z) : Z := z mod 65536.
Definition signed (w : Z) : Z := if w <? 32768 then w else w - 65536.

(* the binary operators of the language *)
Inductive arith := Add | Sub | Mul | Div | Mod | And | Or | Xor.

(* the sign of the first operand is given to a magnitude *)
Definition with_sign (a m : Z) : Z := if a <? 0 then - m else m.

(* division of magnitudes, the sign is that of the product of the operands; a division by
   zero gives -1, or 1 if the dividend is negative *)
Definition div_spec (a b : Z) : Z :=
  if b =? 0 then (if a <? 0 then 1 else -1)
  else with_sign (a * b) (Z.abs a / Z.abs b).
(* remainder of magnitudes, with the sign of the dividend; the remainder by zero keeps the
   low byte of the magnitude of the dividend only *)
Definition mod_spec (a b : Z) : Z :=
  if b =? 0 then with_sign a (Z.abs a mod 256)
  else with_sign a (Z.abs a mod Z.abs b).

(* the result on two words *)
Definition op_spec (o : arith) (x y : Z) : Z :=
  match o with
  | Add => word (x + y)
  | Sub => word (x - y)
  | Mul => word (x * y)
  | Div => word (div_spec (signed x) (signed y))
  | Mod => word (mod_spec (signed x) (signed y))
  | And => Z.land x y
  | Or => Z.lor x y
  | Xor => Z.lxor x y
  end.

(* comparisons, of signed numbers *)
Inductive comp := Eq | Ne | Lt | Gt | Le | Ge.
Definition comp_spec (c : comp) (x y : Z) : bool :=
  match c with
  | Eq => signed x =? signed y
  | Ne => negb (signed x =? signed y)
  | Lt => signed x <? signed y
  | Gt => signed y <? signed x
  | Le => signed x <=? signed y
  | Ge => signed y <=? signed x
  end.
Definition truth (b : bool) : Z := if b then 1 else 0.

Lemma signed_range w : 0 <= w < 65536 -> -32768 <= signed w < 32768.
Proof. unfold signed. destruct (w <? 32768) eqn:K; lia. Qed.
Lemma word_signed w : 0 <= w < 65536 -> word (signed w) = w.
Proof.
  unfold word, signed. intros H. destruct (w <? 32768) eqn:K.
  - apply Z.mod_small. lia.
  - replace (w - 65536) with (w + (-1) * 65536) by lia. rewrite Z.mod_add by lia.
    apply Z.mod_small. lia.
Qed.
