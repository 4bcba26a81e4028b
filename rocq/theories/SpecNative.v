(* Specification of the native compiler's tables, independent of its model: names, entries of a
   table of names, and where they are in memory. *)
From Coq Require Import ZArith List Bool.
Import ListNotations.
Open Scope Z_scope.

(* letters in upper case, _ and, not at the start, digits *)
Definition name_start (c : Z) : bool := (65 <=? c) && (c <=? 90) || (c =? 95).
Definition name_char (c : Z) : bool := (48 <=? c) && (c <=? 57) || name_start c.
Definition a_name (n : list Z) : Prop :=
  match n with [] => False | c :: r => name_start c = true /\ forallb name_char r = true end.
(* A text starts with a name: the name, as long as it can be, and the rest. *)
Definition starts (l n u : list Z) : Prop :=
  l = n ++ u /\ a_name n /\ match u with c :: _ => name_char c = false | [] => True end.

(* An entry of a table: the name, the last character with 128 added, and the type. *)
Fixpoint marked (n : list Z) : list Z :=
  match n with [] => [] | [c] => [c + 128] | c :: r => c :: marked r end.
Definition entry_bytes (e : list Z * Z) : list Z := marked (fst e) ++ [snd e].
Definition entries_bytes (es : list (list Z * Z)) : list Z := flat_map entry_bytes es.
Definition bytes_at (m : Z -> Z) (a : Z) (l : list Z) : Prop :=
  forall k, (k < length l)%nat -> m (a + Z.of_nat k) = nth k l 0.
Definition entry_ok (e : list Z * Z) : Prop := a_name (fst e) /\ (length (fst e) <= 250)%nat /\ 0 <= snd e < 256.

(* The number of an entry: each counts one; with floating point, variables of a type over 127
   count three. *)
Definition weight (fp : bool) (e : list Z * Z) : Z := if fp && (128 <=? snd e) then 3 else 1.
Definition count (fp : bool) (es : list (list Z * Z)) : Z := fold_right (fun e n => weight fp e + n) 0 es.
(* The first entry of a name, with its number. *)
Definition found (fp : bool) (es : list (list Z * Z)) (n : list Z) (i ty : Z) : Prop :=
  exists es1 es2, es = es1 ++ (n, ty) :: es2 /\ ~ In n (map fst es1) /\ i = count fp es1.

(* The memory of the compiler.  Five pointers, 2 bytes each from nz + 6 on, limit four areas: the
   output buffer, the table of variables, the table of labels and the list of references. *)
Definition word_of (m : Z -> Z) (a : Z) : Z := m a + 256 * m (a + 1).
Definition pointer (nz : Z) (m : Z -> Z) (j : Z) : Z := word_of m (nz + 6 + 2 * j).
Definition tables (nz : Z) (m : Z -> Z) (vs ls : list (list Z * Z)) (rs : list Z) : Prop :=
  let p := pointer nz m in
  p 0 + 256 <= p 1 /\
  bytes_at m (p 1) (entries_bytes vs) /\ p 2 = p 1 + Z.of_nat (length (entries_bytes vs)) /\
  bytes_at m (p 2) (entries_bytes ls) /\ p 3 = p 2 + Z.of_nat (length (entries_bytes ls)) /\
  bytes_at m (p 3) rs /\ p 4 = p 3 + Z.of_nat (length rs).
(* Four areas one after the other, with these contents. *)
Definition areas (nz : Z) (m : Z -> Z) (a : list (list Z)) : Prop :=
  length a = 4%nat /\
  forall i, (i < 4)%nat -> bytes_at m (pointer nz m (Z.of_nat i)) (nth i a []) /\
    pointer nz m (Z.of_nat i + 1) = pointer nz m (Z.of_nat i) + Z.of_nat (length (nth i a [])).
(* The areas after more space was taken before pointer j: area j - 1 has the bytes [x] more. *)
Definition widened (j : nat) (x : list Z) (a a' : list (list Z)) : Prop :=
  length a' = 4%nat /\ forall i, (i < 4)%nat -> nth i a' [] = nth i a [] ++ (if Nat.eqb (S i) j then x else []).

(* The line to compile, in the line buffer at 1408 and ended by 155; the position is in cell 242. *)
Definition rest_of_line (m : Z -> Z) (l : list Z) : Prop :=
  word_of m 243 = 1408 /\ 0 <= m 242 /\ m 242 + Z.of_nat (length l) <= 255 /\ bytes_at m (1408 + m 242) (l ++ [155]).

(* The compiler between two actions: bytes in the cells, the self-modified instruction of the memory
   move (cell 152) in its first state, the text [l] to come, the tables, and the counts of names.  The
   output buffer is over the line buffer, and the tables end below the top of the memory, in cell 741. *)
Definition compiling (fp : bool) (nz : Z) (m : Z -> Z) (vs ls : list (list Z * Z)) (rs l : list Z) : Prop :=
  (forall a, 0 <= m a < 256) /\ m 152 = 136 /\ rest_of_line m l /\
  tables nz m vs ls rs /\ Forall entry_ok vs /\ Forall entry_ok ls /\
  1664 <= pointer nz m 0 /\ pointer nz m 4 <= word_of m 741 <= 65000 /\
  m (nz + 27) = count fp vs /\ m (nz + 26) = count fp ls.
(* n bytes more are in the output buffer (its length is in cell nz + 21) and what was there is still there. *)
Definition output (nz n : Z) (m m' : Z -> Z) : Prop :=
  pointer nz m' 0 = pointer nz m 0 /\ m' (nz + 21) = m (nz + 21) + n /\
  forall b, pointer nz m 0 <= b < pointer nz m 0 + m (nz + 21) -> m' b = m b.
(* The text starts, after blanks, with a name; what follows it ends it also when its upper bit is
   ignored, and is no point. *)
Definition names (l n u : list Z) : Prop :=
  exists k l1, l = repeat 32 k ++ l1 /\ starts l1 n u /\
  match u with c :: _ => name_char (c mod 128) = false /\ c <> 46 /\ c <> 110 | [] => True end.
