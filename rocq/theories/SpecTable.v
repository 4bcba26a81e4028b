(* What a syntax table means: ordered choice between the lines of a table, without going back into a table that
   has matched. *)
From Coq Require Import ZArith List.
Import ListNotations.
Open Scope Z_scope.

Inductive item :=
| Lit (c : Z)           (* a character of the text; a small letter stands for a letter of a word that may be abbreviated *)
| Emit (bs : list Z)    (* output *)
| Call (k : Z)          (* another table *)
| Act (k : Z).          (* a routine *)
(* a line of a table, with the last byte of its output if any *)
Definition tline : Type := list item * option Z.

(* the bytes of a table *)
Definition item_bytes (i : item) : list Z :=
  match i with Lit c => [c] | Emit bs => (Z.of_nat (length bs) + 2) :: bs | Call k | Act k => [128 + k] end.
Definition items_bytes (l : list item) : list Z := flat_map item_bytes l.
Definition end_bytes (e : option Z) : list Z := match e with None => [1] | Some t => [2; t] end.
Definition tline_bytes (l : tline) : list Z := items_bytes (fst l) ++ end_bytes (snd l).
Definition table_bytes (t : list tline) : list Z := flat_map tline_bytes t ++ [0].
(* na entries are routines, the others up to nt tables *)
Definition item_ok (na nt : Z) (i : item) : Prop :=
  match i with
  | Lit c => 31 <= c < 128
  | Emit bs => (1 <= length bs <= 28)%nat
  | Call k => na <= k < nt
  | Act k => 0 <= k < na
  end.
Definition tline_ok (na nt : Z) (l : tline) : Prop := Forall (item_ok na nt) (fst l) /\ (length (tline_bytes l) <= 250)%nat.

Fixpoint blanks (l : list Z) : list Z := match l with 32 :: r => blanks r | _ => l end.
Definition letter (c : Z) : Z := if 97 <=? c then c - 32 else c.
(* the rest of a word after a dot *)
Fixpoint word_end (l : list item) : list item := match l with Lit _ :: r => word_end r | _ => l end.

(* what a routine does with a text and the output so far: it goes on with a text and adds output, it fails at
   some text, or the output is too long *)
Inductive ares := Aok (l bs : list Z) | Ano (l : list Z) | Afull.
(* what a table does: text, output and farthest place of a failure; or the text where it failed *)
Inductive tres := Ok (l o : list Z) (f : Z) | No (l : list Z) (f : Z) | Full.

Section Meaning.
Variable n : Z.                                (* characters of the line *)
Variable T : Z -> list tline.                  (* the tables *)
Variable act : Z -> list Z -> list Z -> ares.  (* the routines *)
Definition place (l : list Z) : Z := n - Z.of_nat (length l).
Definition size (o : list Z) : Z := Z.of_nat (length o).
Inductive items : list item -> list Z -> list Z -> Z -> tres -> Prop :=
| I_end l o f : items [] l o f (Ok l o f)
| I_lit c its l o f r : items its l o f r -> items (Lit c :: its) (letter c :: l) o f r
| I_dot c its l o f r : 97 <= c -> items (word_end its) l o f r -> items (Lit c :: its) (46 :: l) o f r
| I_no c its l o f : hd 155 l <> letter c -> (97 <= c -> hd 155 l <> 46) -> items (Lit c :: its) l o f (No l f)
| I_emit bs its l o f r : size o + size bs <= 255 -> items its l (o ++ bs) f r -> items (Emit bs :: its) l o f r
| I_full bs its l o f : 255 < size o + size bs -> items (Emit bs :: its) l o f Full
| I_call k its l o f l' o' f' r : table (T k) (blanks l) o f (Ok l' o' f') -> items its l' o' f' r -> items (Call k :: its) l o f r
| I_call_no k its l o f l' f' : table (T k) (blanks l) o f (No l' f') -> items (Call k :: its) l o f (No l' f')
| I_call_full k its l o f : table (T k) (blanks l) o f Full -> items (Call k :: its) l o f Full
| I_act k its l o f l' bs r : act k l o = Aok l' bs -> items its l' (o ++ bs) f r -> items (Act k :: its) l o f r
| I_act_no k its l o f l' : act k l o = Ano l' -> items (Act k :: its) l o f (No l' f)
| I_act_full k its l o f : act k l o = Afull -> items (Act k :: its) l o f Full
with table : list tline -> list Z -> list Z -> Z -> tres -> Prop :=
| T_end l o f : table [] l o f (No l f)
| T_ok its t l o f l' o' f' : items its l o f (Ok l' o' f') -> table ((its, None) :: t) l o f (Ok l' o' f')
| T_last its b t l o f l' o' f' : items its l o f (Ok l' o' f') -> size o' < 255 -> table ((its, Some b) :: t) l o f (Ok l' (o' ++ [b]) f')
| T_last_full its b t l o f l' o' f' : items its l o f (Ok l' o' f') -> 255 <= size o' -> table ((its, Some b) :: t) l o f Full
| T_next its e t l o f l' f' r : items its l o f (No l' f') -> table t l o (Z.max f' (place l')) r -> table ((its, e) :: t) l o f r
| T_full its e t l o f : items its l o f Full -> table ((its, e) :: t) l o f Full.
End Meaning.
