(* What floating point constants mean, without the code: the numbers of the double format,
   the numbers of the Atari format and the decimal numbers as text. *)
From Coq Require Import ZArith QArith Qpower List SpecFloat.
Import ListNotations.
Open Scope Z_scope.

(* A double. *)
Definition fval (x : spec_float) : Q :=
  match x with
  | S754_finite s m e => (if s then -1 else 1) * inject_Z (Zpos m) * Qpower 2 e
  | _ => 0
  end%Q.
Definition ten (k : Z) : Q := Qpower 10 k.

(* The Atari format: sign and exponent of base 100 with excess 64, then five bytes with
   two decimal digits each; the point is after the first byte. *)
Definition bcd_byte (b : Z) : Prop := 0 <= b /\ b / 16 <= 9 /\ b mod 16 <= 9.
Definition bcd (b : Z) : Z := 10 * (b / 16) + b mod 16.
Definition bcd_int (m : list Z) : Z := fold_left (fun a b => 100 * a + bcd b) m 0.
(* One unit of the last digit. *)
Definition bcd_unit (e : Z) : Q := ten (2 * (e mod 128 - 64) - 8).
Definition bcd_value (e : Z) (m : list Z) : Q :=
  ((if 128 <=? e then -1 else 1) * inject_Z (bcd_int m) * bcd_unit e)%Q.
(* Numbers that are not zero have a first byte that is not zero. *)
Definition bcd_number (e : Z) (m : list Z) : Prop :=
  0 <= e < 256 /\ length m = 5%nat /\ Forall bcd_byte m /\ bcd (hd 0 m) <> 0.

(* The integer at the start of a text: number of digits, value and rest. *)
Fixpoint nat_text (l : list Z) (n v : Z) : Z * Z * list Z :=
  match l with
  | c :: t => if (48 <=? c) && (c <=? 57) then nat_text t (n + 1) (10 * v + (c - 48))
              else (n, v, l)
  | [] => (n, v, l)
  end.
(* Exponents: nothing, or E, optional minus sign and one or two digits. *)
Definition exp_text (l : list Z) : option Z :=
  match l with
  | [] => Some 0
  | 69 :: 45 :: t =>
    match nat_text t 0 0 with
    | (n, v, []) => if (n =? 1) || (n =? 2) then Some (- v) else None
    | _ => None
    end
  | 69 :: t =>
    match nat_text t 0 0 with
    | (n, v, []) => if (n =? 1) || (n =? 2) then Some v else None
    | _ => None
    end
  | _ => None
  end.
(* Numbers without sign: digits, optional point and digits, exponent. *)
Definition abs_text (l : list Z) : option Q :=
  let '(n, v, t) := nat_text l 0 0 in
  let '(k, v, t) := match t with
                    | 46 :: t => nat_text t 0 v
                    | _ => (0, v, t)
                    end in
  match exp_text t with
  | Some x => if n + k =? 0 then None else Some (inject_Z v * ten (x - k))%Q
  | None => None
  end.
(* The value of a text with a decimal number. *)
Definition text_value (l : list Z) : option Q :=
  match l with
  | 45 :: t => option_map Qopp (abs_text t)
  | _ => abs_text l
  end.
