(* Floating point constants (src/compiler/atarifp.h, atarifp.cc).  The type double is the
   binary64 format of the standard library's SpecFloat, with its operations: a number is
   S754_finite sign m e for m * 2^e. *)
From Coq Require Export SpecFloat.
From Verif Require Import Codew.
Open Scope Z_scope.

(* The format of double; its values are the numbers with [valid_binary] true. *)
Notation prec := 53.
Notation emax := 1024.
Definition dbl := spec_float.
Definition is_dbl (x : dbl) : bool := valid_binary prec emax x.
Definition dlt (x y : dbl) : bool := SFltb x y.

(* A literal such as 1e-98 is the double nearest to the decimal number (C++ leaves the
   choice to the compiler, all that use IEEE numbers round to nearest). *)
Definition lit10 (k : Z) : dbl :=
  if 0 <=? k then binary_round prec emax false (Z.to_pos (10 ^ k)) 0
  else let '(m, e, l) := SFdiv_core_binary prec emax 1 0 (10 ^ (- k)) 0 in
       binary_round_aux prec emax false m e l.

(* expTab, atarifp.cc:23-32: the powers of ten from -98 to 98 in steps of two. *)
Definition exp_tab : list dbl :=
  map (fun i => lit10 (-98 + 2 * Z.of_nat i)) (seq 0 99).

(* tobcd, atarifp.h:44; the result is a uint8_t. *)
Definition tobcd (n : Z) : Z := (n / 10 * 16 + n mod 10) mod 256.

(* std::llrint in the default rounding mode, on a positive number. *)
Definition llrint (x : dbl) : Z :=
  match x with
  | S754_finite false m e =>
    if 0 <=? e then Zpos m * 2 ^ e
    else let q := Zpos m / 2 ^ (- e) in
         match Z.compare (2 * (Zpos m mod 2 ^ (- e))) (2 ^ (- e)) with
         | Lt => q
         | Gt => q + 1
         | Eq => if Z.even q then q else q + 1
         end
  | _ => 0
  end.

(* The five bytes of n, atarifp.h:63-72. *)
Definition mant_of (n : Z) : list Z :=
  [tobcd (n / 100000000); tobcd (n / 1000000 mod 100); tobcd (n / 10000 mod 100);
   tobcd (n / 100 mod 100); tobcd (n mod 100)].

(* The loop of update, atarifp.h:58-75: [e] is the exponent byte. *)
Fixpoint up_loop (x : dbl) (tab : list dbl) (e : Z) : Z * list Z :=
  match tab with
  | [] => (e, [0; 0; 0; 0; 0])
  | c :: tab =>
    if dlt x c
    then (e, mant_of (llrint (SFdiv prec emax (SFmul prec emax x (lit10 10)) c)))
    else up_loop x tab (e + 1)
  end.

(* update, atarifp.h:45-76: the exponent byte and the mantissa. *)
Definition update (num : dbl) : Z * list Z :=
  let sg := if dlt num (S754_zero false) then 128 else 0 in
  let x := if sg =? 0 then num else SFopp num in
  if dlt x (lit10 (-99)) then (sg, [0; 0; 0; 0; 0])
  else if SFleb (lit10 98) x then (sg + 113, [153; 153; 153; 153; 153])
  else up_loop x exp_tab (sg + 14).

(* valid, atarifp.h:81. *)
Definition fp_valid (num : dbl) : bool :=
  SFleb (SFopp (lit10 98)) num && SFleb num (lit10 98).

(* The six bytes of to_asm, atarifp.h:82-87. *)
Definition six (num : dbl) : list Z := let '(e, m) := update num in e :: m.

(* ---- to_string, atarifp.cc:35-129 ---- *)
(* The ten digits, atarifp.cc:44-52; characters over nine for wrong bytes. *)
Definition digits (m : list Z) : list Z :=
  flat_map (fun b => [48 + b / 16; 48 + b mod 16]) m.
(* Zeroes at the end, atarifp.cc:58-64: the digits that stay (at least one). *)
Fixpoint drop0 (r : list Z) : list Z :=
  match r with
  | 48 :: ((_ :: _) as t) => drop0 t
  | _ => r
  end.
Definition trim0 (d : list Z) : list Z := rev (drop0 (rev d)).
(* '0' + n / 10 if n > 9, '0' + n % 10: atarifp.cc:111-113 and 124-126. *)
Definition two (n : Z) : list Z :=
  (if 9 <? n then [48 + Z.quot n 10] else []) ++ [48 + Z.rem n 10].

(* The text without its sign, atarifp.cc:75-128; [i] is the last index of the digits. *)
Definition fp_text (dig : list Z) (iexp i : Z) : list Z :=
  if (iexp <? 0) && (- i - 1 <=? iexp) then
    let n := Z.to_nat (iexp + i + 1) in firstn n dig ++ 46 :: skipn n dig
  else if iexp + 2 =? - i then [46; 48] ++ dig
  else if iexp =? 0 then dig
  else if iexp =? 1 then dig ++ [48]
  else if iexp =? 2 then dig ++ [48; 48]
  else if iexp <? -99 then
    firstn 1 dig ++ 46 :: (if 0 <? i then skipn 1 dig else []) ++ [69; 45] ++ two (- iexp - i)
  else dig ++ 69 :: (if iexp <? 0 then 45 :: two (- iexp) else two iexp).

Definition to_string (em : Z * list Z) : list Z :=
  let '(e, m) := em in
  if e mod 128 =? 0 then [48]
  else
    let d := trim0 (digits m) in
    let iexp := e mod 128 * 2 - 136 + (10 - Z.of_nat (List.length d)) in
    let sg := if 128 <=? e then [45] else [] in
    match d with
    | 48 :: t => sg ++ fp_text t iexp (Z.of_nat (List.length t) - 1)
    | _ => sg ++ fp_text d iexp (Z.of_nat (List.length d) - 1)
    end.
