(* Specification of the blocks of the native compiler, independent of its model: the stack of open
   loops and conditions, and addresses put into the code. *)
From Coq Require Import ZArith List Bool.
From Verif Require Import SpecNative.
Import ListNotations.
Open Scope Z_scope.

(* The stack at 1024: for each open block its type and a place in the code, the last one at the end;
   cell nz + 24 has the size.  There is space for 42. *)
Definition blocks (nz : Z) (m : Z -> Z) (es : list (Z * Z)) : Prop :=
  m (nz + 24) = 3 * Z.of_nat (length es) /\ (length es <= 42)%nat /\
  bytes_at m 1024 (flat_map (fun e => [fst e; snd e mod 256; snd e / 256]) es) /\
  Forall (fun e => 0 <= fst e < 256 /\ 0 <= snd e < 65536) es.
(* The place where the next byte of code goes, and the address it will have when the program runs. *)
Definition here (nz : Z) (m : Z -> Z) : Z := pointer nz m 0 + m (nz + 21).
Definition target (nz : Z) (m : Z -> Z) : Z := (here nz m + word_of m nz) mod 65536.
(* Nothing changes but the words [ws], the stack and its size, the length of the output and some
   temporary cells, which are from t on. *)
Definition same_but (t nz : Z) (ws : list Z) (m m' : Z -> Z) : Prop :=
  forall b, b <> nz + 21 -> b <> nz + 24 -> ~ t <= b < t + 10 -> ~ 1024 <= b < 1152 ->
  (forall a, In a ws -> b <> a /\ b <> a + 1) -> m' b = m b.
(* Places of addresses not known yet: in the code, and apart from one another. *)
Definition slots (nz : Z) (m : Z -> Z) (xs : list Z) : Prop :=
  Forall (fun a => 1664 <= a /\ a + 2 <= here nz m) xs /\ ForallOrdPairs (fun a b => a + 2 <= b \/ b + 2 <= a) xs.
(* An action can start: bytes in the cells, and the output buffer over the line buffer. *)
Definition coding (nz : Z) (m : Z -> Z) : Prop := (forall a, 0 <= m a < 256) /\ 1664 <= pointer nz m 0 <= 65000.
(* Space for an address after a place of the code, or none. *)
Definition space (t : Z) : Z := if Z.testbit t 6 then 0 else 2.
(* The innermost loop or procedure: the types of conditions, and of the second entries of FOR and WHILE,
   are over 127, and those of exits, data and jumps over procedures are 0 and 1. *)
Definition innermost (es es1 : list (Z * Z)) (t w : Z) (es2 : list (Z * Z)) : Prop :=
  es = es1 ++ (t, w) :: es2 /\ 2 <= t < 128 /\ Forall (fun e => 128 <= fst e) es2.
(* Entries of EXIT and of ELIF. *)
Definition all_of (t : Z) (xs : list Z) : list (Z * Z) := map (fun w => (t, w)) xs.
Definition no_last (t : Z) (es : list (Z * Z)) : Prop := forall es1 w, es <> es1 ++ [(t, w)].
(* After an action: these blocks are open, n bytes more of code (or fewer), only the words [ws] of it written. *)
Definition after (t nz : Z) (n : Z) (ws : list Z) (m m' : Z -> Z) (es : list (Z * Z)) : Prop :=
  (forall a, 0 <= m' a < 256) /\ blocks nz m' es /\ m' (nz + 21) = m (nz + 21) + n /\ here nz m' = here nz m + n /\ same_but t nz ws m m'.
