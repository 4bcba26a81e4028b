(* Code elements of the compiler: src/compiler/codew.h. *)
From Coq Require Export ZArith Bool String Ascii Lia List.
From Coq Require Export ZifyBool ZifyNat ZifyN.
Export ListNotations.
Open Scope Z_scope.
Open Scope list_scope.
Ltac Zify.zify_post_hook ::= Z.div_mod_to_equations.

(* Token names, codew.h:41 (field "str" of a "tok" element).  The C++ code keeps
   the name as a string; the names that peephole.cc mentions are constructors here,
   "T_NUM" standing for "TOK_NUM", and all the others are [T_Other name]. *)
Inductive tok : Set :=
| T_NUM | T_BYTE | T_0 | T_1 | T_NEG | T_USHL | T_SHL8
| T_PUSH | T_PUSH_BYTE | T_PUSH_NUM | T_PUSH_0 | T_PUSH_1 | T_PUSH_VAR_LOAD
| T_VAR_LOAD | T_VAR_STORE | T_VAR_STORE_0 | T_VAR_ADDR | T_VAR_SADDR | T_SADDR
| T_MUL | T_DIV | T_MOD | T_ADD | T_SUB | T_ADD_VAR
| T_BIT_AND | T_BIT_OR | T_BIT_EXOR
| T_EQ | T_NEQ | T_LT | T_GT | T_COMP_0 | T_L_NOT | T_L_AND | T_L_OR
| T_POKE | T_DPOKE | T_PEEK | T_BYTE_PEEK | T_BYTE_POKE | T_NUM_POKE
| T_PUT | T_BYTE_PUT | T_GET | T_GETKEY
| T_INC | T_DEC | T_INCVAR | T_DECVAR
| T_CSTRING | T_PRINT_STR | T_CHR | T_STR_IDX
| T_JUMP | T_CJUMP | T_CNJUMP | T_CALL | T_RET | T_CRET | T_CNRET | T_END
| T_IOCHN
| T_Other (name : string).

(* A number for each named token, only used to compare tokens. *)
Definition tok_id (t : tok) : N :=
  match t with
  | T_NUM => 0 | T_BYTE => 1 | T_0 => 2 | T_1 => 3 | T_NEG => 4 | T_USHL => 5
  | T_SHL8 => 6 | T_PUSH => 7 | T_PUSH_BYTE => 8 | T_PUSH_NUM => 9 | T_PUSH_0 => 10
  | T_PUSH_1 => 11 | T_PUSH_VAR_LOAD => 12 | T_VAR_LOAD => 13 | T_VAR_STORE => 14
  | T_VAR_STORE_0 => 15 | T_VAR_ADDR => 16 | T_VAR_SADDR => 17 | T_SADDR => 18
  | T_MUL => 19 | T_DIV => 20 | T_MOD => 21 | T_ADD => 22 | T_SUB => 23
  | T_ADD_VAR => 24 | T_BIT_AND => 25 | T_BIT_OR => 26 | T_BIT_EXOR => 27
  | T_EQ => 28 | T_NEQ => 29 | T_LT => 30 | T_GT => 31 | T_COMP_0 => 32
  | T_L_NOT => 33 | T_L_AND => 34 | T_L_OR => 35 | T_POKE => 36 | T_DPOKE => 37
  | T_PEEK => 38 | T_BYTE_PEEK => 39 | T_BYTE_POKE => 40 | T_NUM_POKE => 41
  | T_PUT => 42 | T_BYTE_PUT => 43 | T_GET => 44 | T_GETKEY => 45 | T_INC => 46
  | T_DEC => 47 | T_INCVAR => 48 | T_DECVAR => 49 | T_CSTRING => 50
  | T_PRINT_STR => 51 | T_CHR => 52 | T_STR_IDX => 53 | T_JUMP => 54
  | T_CJUMP => 55 | T_CNJUMP => 56 | T_CALL => 57 | T_RET => 58 | T_CRET => 59
  | T_CNRET => 60 | T_END => 61 | T_IOCHN => 62
  | T_Other _ => 63
  end%N.

(* Comparison of token names, codew.h:151. *)
Definition tok_eqb (a b : tok) : bool :=
  match a, b with
  | T_Other x, T_Other y => String.eqb x y
  | _, _ => N.eqb (tok_id a) (tok_id b)
  end.

(* A byte string: characters as numbers 0..255 (C++ std::string). *)
Definition bytes := list Z.

(* codew.h:28-43.  The line number "lnum" is left out: it is only printed as a
   comment in the assembler output.  The FP number is kept as its six bytes. *)
Inductive codew : Set :=
| CTok (t : tok)
| CByte (n : Z)
| CByteS (s : string)
| CWord (n : Z)
| CWordS (s : string)
| CVarn (n : Z)
| CLabel (s : string)
| CFp (x : bytes)
| CStr (s : bytes).

(* Conversion to int16_t / to its unsigned reading. *)
Definition s16 (n : Z) : Z := (n + 32768) mod 65536 - 32768.
Definition u16 (n : Z) : Z := n mod 65536.
Definition u8 (n : Z) : Z := n mod 256.

Lemma tok_eqb_eq a b : tok_eqb a b = true <-> a = b.
Proof.
  split.
  - destruct a, b; cbn; intro H; try discriminate; try reflexivity.
    apply String.eqb_eq in H; now subst.
  - intros ->. destruct b; cbn; try reflexivity. apply String.eqb_refl.
Qed.

Lemma tok_eqb_refl a : tok_eqb a a = true.
Proof. now apply tok_eqb_eq. Qed.

Lemma tok_eqb_neq a b : tok_eqb a b = false <-> a <> b.
Proof.
  destruct (tok_eqb a b) eqn:E.
  - apply tok_eqb_eq in E; subst. split; [discriminate | congruence].
  - split; [|reflexivity]. intros _ ->. rewrite tok_eqb_refl in E; discriminate.
Qed.

Lemma s16_u16 n : s16 (u16 n) = s16 n.
Proof. unfold s16, u16. lia. Qed.
Lemma u16_s16 n : u16 (s16 n) = u16 n.
Proof. unfold s16, u16. lia. Qed.
Lemma u16_idem n : u16 (u16 n) = u16 n.
Proof. unfold u16. lia. Qed.
Lemma s16_idem n : s16 (s16 n) = s16 n.
Proof. unfold s16. lia. Qed.
Lemma u16_range n : 0 <= u16 n < 65536.
Proof. unfold u16. lia. Qed.
Lemma s16_range n : -32768 <= s16 n <= 32767.
Proof. unfold s16. lia. Qed.
Lemma u16_eq_s16 a b : s16 a = s16 b -> u16 a = u16 b.
Proof. unfold u16, s16. lia. Qed.
