(* Specification of the labels of the native compiler, independent of its model: records of places
   where a label is defined or used. *)
From Coq Require Import ZArith List Bool.
From Verif Require Import SpecNative SpecBlock.
Import ListNotations.
Open Scope Z_scope.

(* A record: the number of a label, what the place is, and the place in the code.  0 is an address that
   is not known yet, 1 one that is known now, 128 the definition. *)
Definition record_bytes (r : Z * Z * Z) : list Z := let '(n, k, w) := r in [n; k; w / 256; w mod 256].
Definition record_ok (r : Z * Z * Z) : Prop := 0 <= fst (fst r) < 256 /\ 0 <= snd (fst r) < 256 /\ 0 <= snd r < 65536.
Notation number r := (fst (fst r)).
Notation kind r := (snd (fst r)).
Notation place r := (snd r).
(* The list of records is the last area of the compiler's memory. *)
Definition records (nz : Z) (m : Z -> Z) (rs : list (Z * Z * Z)) : Prop :=
  pointer nz m 4 = pointer nz m 3 + 4 * Z.of_nat (length rs) /\ bytes_at m (pointer nz m 3) (flat_map record_bytes rs) /\ Forall record_ok rs.
(* The definition of label n makes known what it is at its uses. *)
Definition known (n : Z) (r : Z * Z * Z) : Z * Z * Z := if number r =? n then (number r, 1, place r) else r.
(* The memory areas are one after the other, over the line buffer and below the top of the memory (cell 741),
   and the output has 256 bytes; cell 152 is the instruction of the memory move that modifies itself. *)
Definition arranged (nz : Z) (m : Z -> Z) : Prop :=
  (forall a, 0 <= m a < 256) /\ m 152 = 136 /\ 1664 <= pointer nz m 0 /\ pointer nz m 0 + 256 <= pointer nz m 1 /\
  pointer nz m 1 <= pointer nz m 2 /\ pointer nz m 2 <= pointer nz m 3 /\ pointer nz m 3 <= pointer nz m 4 /\ pointer nz m 4 <= word_of m 741 <= 65000.
(* The calls of labels compiled so far, each with the number of the label and the place of the address in
   the code.  An address is not known, and has a record, or it is that of the only definition. *)
Definition linked (nz : Z) (m : Z -> Z) (rs : list (Z * Z * Z)) (calls : list (Z * Z)) : Prop :=
  slots nz m (map snd calls) /\
  (forall n a, In (n, a) calls -> In (n, 0, a) rs \/ exists d, In (n, 128, d) rs /\ word_of m a = (d + word_of m nz) mod 65536) /\
  (forall n k w, In (n, k, w) rs -> k = 128 /\ w <= here nz m \/ (k = 0 \/ k = 1) /\ In (n, w) calls) /\
  (forall n d, In (n, 128, d) rs -> forall k w, In (n, k, w) rs -> k = 128 /\ w = d \/ k = 1).
(* After an action: n bytes more of code, only the words [ws] of it written, and these blocks open. *)
Definition coded (nz n : Z) (ws : list Z) (es : list (Z * Z)) (m m' : Z -> Z) : Prop :=
  arranged nz m' /\ blocks nz m' es /\ (forall i, 0 <= i <= 3 -> pointer nz m' i = pointer nz m i) /\ word_of m' nz = word_of m nz /\
  m' (nz + 21) = m (nz + 21) + n /\ here nz m' = here nz m + n /\
  (forall b, 1152 <= b < pointer nz m 3 -> (forall a, In a ws -> b <> a /\ b <> a + 1) -> m' b = m b).
