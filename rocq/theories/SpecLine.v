(* Specification of the lines that the native compiler reads, independent of its model. *)
From Coq Require Import ZArith List Bool.
Import ListNotations.
Open Scope Z_scope.

(* A line with the letters outside of quotes in upper case; [q] tells if it starts inside of quotes. *)
Fixpoint upper (q : bool) (l : list Z) : list Z :=
  match l with
  | [] => []
  | c :: r => if c =? 34 then c :: upper (negb q) r
              else (if negb q && (97 <=? c) && (c <=? 122) then c - 32 else c) :: upper q r
  end.
