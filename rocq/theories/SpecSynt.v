(* Specification for C41: parsing with syntax tables without a limit of levels, and what is
   asked of the blanks around a call to a table that the optimizer deletes. *)
From Verif Require Import Codew Text Front.
Open Scope list_scope.

(* The result of parsing with the table [n] when at most [k] tables are open at a time;
   [NoFuel] when more are needed. *)
Fixpoint parse_deep (E : env) (tb : tables) (k : nat) (n : string) (s : pst) : res :=
  match k with
  | O => NoFuel
  | S k =>
    match find n tb with
    | None => Throw
    | Some ls => run_alts E (parse_deep E tb k) (save (skipws s)) ls (skipws s)
    end
  end.

(* The next thing that is not an emit or a call to a deleted table is a call to a table,
   which skips the blanks. *)
Fixpoint next_skips (gone : string -> bool) (l : pline) : bool :=
  match l with
  | PEmit _ :: t => next_skips gone t
  | PTab n :: t => if gone n then next_skips gone t else true
  | _ => false
  end.

(* No deleted table is called where it may skip blanks that nothing else skips: blanks are
   known to be skipped at the start of a line of a table ([known]). *)
Fixpoint spaced (gone : string -> bool) (known : bool) (l : pline) : bool :=
  match l with
  | [] => true
  | PEmit _ :: t => spaced gone known t
  | PTab n :: t => if gone n then (known || next_skips gone t) && spaced gone known t
                   else spaced gone false t
  | _ :: t => spaced gone false t
  end.
