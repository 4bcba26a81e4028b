(* Specification of the number literals of the native compiler, independent of its model; digits and
   their values are those of SpecText. *)
From Verif Require Import Codew SpecText.

(* Literals, of digits ds with the characters cs.  Hexadecimal digits are in upper case; with
   floating point a number before a decimal point is not for this routine. *)
Definition literal (fp : bool) (l : list Z) (w : Z) (u : list Z) : Prop :=
  exists ds cs, ds <> [] /\
   (l = 36 :: cs ++ u /\ Forall2 hex_char ds cs /\ (forall c, In c cs -> c <= 70) /\
      (forall c, hd_error u = Some c -> c <= 70 -> forall d, ~ hex_char d c) /\ value 16 ds <= 65535 /\ w = value 16 ds \/
    exists sg, l = sg ++ cs ++ u /\ Forall2 dec_char ds cs /\ no_digit 10 u /\ (fp = true -> hd_error u <> Some 46) /\ value 10 ds <= 65535 /\
      (sg = [] /\ w = value 10 ds \/ sg = [43] /\ w = value 10 ds \/ sg = [45] /\ w = (- value 10 ds) mod 65536)).
