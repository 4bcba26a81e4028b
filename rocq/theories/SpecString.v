(* Specification of the string literals of the native compiler, independent of its model. *)
From Coq Require Import ZArith List.
Import ListNotations.
Open Scope Z_scope.

(* Hexadecimal digits, in upper case, and their value. *)
Definition digit16 (d c : Z) : Prop := 0 <= d <= 9 /\ c = 48 + d \/ 10 <= d <= 15 /\ c = 55 + d.
Definition value16 (ds : list Z) : Z := fold_left (fun v d => 16 * v + d) ds 0.
Definition no_digit16 (u : list Z) : Prop := match u with c :: _ => forall d, ~ digit16 d c | [] => True end.

(* What the text after an opening quote denotes: the bytes of the string, and the text after the literal.
   Two quotes are one in the string.  After a closing quote there may be characters given by their code,
   $ and digits, of which the lower byte counts, and then a quote opens the string again. *)
Inductive quoted : list Z -> list Z -> list Z -> Prop :=
| Q_char c l bs u : c <> 34 -> c <> 155 -> quoted l bs u -> quoted (c :: l) (c :: bs) u
| Q_quote l bs u : quoted l bs u -> quoted (34 :: 34 :: l) (34 :: bs) u
| Q_end u : hd 155 u <> 34 -> hd 155 u <> 36 -> quoted (34 :: u) [] u
| Q_codes l bs u : codes (36 :: l) bs u -> quoted (34 :: 36 :: l) bs u
with codes : list Z -> list Z -> list Z -> Prop :=
| C_code ds cs l bs u : ds <> [] -> Forall2 digit16 ds cs -> no_digit16 l -> value16 ds <= 65535 ->
    after l bs u -> codes (36 :: cs ++ l) (value16 ds mod 256 :: bs) u
with after : list Z -> list Z -> list Z -> Prop :=
| A_again l bs u : quoted l bs u -> after (34 :: l) bs u
| A_more l bs u : codes (36 :: l) bs u -> after (36 :: l) bs u
| A_stop u : hd 155 u <> 34 -> hd 155 u <> 36 -> after u [] u.
