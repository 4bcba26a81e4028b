(* Properties C28 to C33 and C47: source text, literals, listings, assembler text,
   error excerpts and statistics. *)
From Verif Require Import Codew Text SpecText TextPf TextAsm TextList.

(* ---- C28 ---- *)
(* Every file is read to its end, and joining the lines gives back the file except
   for some CR before LF. *)
Theorem C28_nothing_lost : forall file : bytes,
  exists lines, read_file (S (List.length file)) 1 file = Some lines /\
                crlf file (concat (map snd lines)).
Proof. intro file. apply read_file_total. lia. Qed.

(* A file made of well formed lines, with Unix, DOS or Atari line ends in any mixture
   and perhaps a last line without end, is read as exactly these lines, with their
   numbers. *)
Theorem C28_lines : forall (ls : list srcline) (tail : bytes),
  Forall good_line ls -> (tail = [] \/ exists l, good_line l /\ tail = body_text l) ->
  let file := flat_map line_file ls ++ tail in
  read_file (S (List.length file)) 1 file =
  Some (numbered 1 ls ++
        match tail with
        | [] => []
        | _ => [(fold_left (fun n l => n + line_count l) ls 1, tail)]
        end).
Proof. intros ls tail F T file. apply read_file_lines; auto. Qed.

(* Case: a comment with a quote and a colon, a literal with a newline and CR LF inside,
   the three line ends, and a last line without end. *)
Definition ls28 : list srcline :=
  [ {| pieces := map Ch [65; 61; 49; 58; 32]; remark := Some (46, [34; 58]); ending := Dos |};
    {| pieces := [Ch 63; Lit [97; 10; 98; 13; 10; 99]; Ch 58; Ch 66]; remark := Some (39, [34]);
       ending := Atari |};
    {| pieces := map Ch [66; 46; 67]; remark := None; ending := Unix |} ].
Definition last28 : srcline := {| pieces := [Ch 63; Lit [120]]; remark := None; ending := Unix |}.

Example C28_case :
  Forall good_line ls28 /\ good_line last28 /\
  read_file 100 1 (flat_map line_file ls28 ++ body_text last28) =
  Some [(1, [65; 61; 49; 58; 32; 46; 34; 58; 10]);
        (2, [63; 34; 97; 10; 98; 13; 10; 99; 34; 58; 66; 39; 34; 155]);
        (5, [66; 46; 67; 10]);
        (6, [63; 34; 120; 34])].
Proof.
  split; [|split; [|vm_compute; reflexivity]].
  - assert (P : forall c, In c [65; 61; 49; 58; 32; 63; 66; 67; 46] -> plain_char c)
      by (intros c H; cbn in H; unfold plain_char; lia).
    assert (A : forall b, true = true -> b <> 46 -> b <> 46) by auto.
    constructor; [|constructor; [|constructor; [|constructor]]]; split; cbn.
    + repeat (split; [apply P; cbn; lia|split; [lia|]]). exact I.
    + split; [right; auto|]. intros c [<-|[<-|[]]]; lia.
    + split; [apply P; cbn; lia|split; [lia|]]. split; [lia|].
      repeat (split; [apply P; cbn; lia|split; [lia|]]). exact I.
    + split; [left; auto|]. intros c [<-|[]]; lia.
    + repeat (split; [apply P; cbn; lia|split; [lia|]]). exact I.
    + exact I.
  - split; cbn; [|exact I]. split; [unfold plain_char; lia|]. split; [lia|]. split; [lia|exact I].
Qed.

(* ---- C29 ---- *)
(* A decimal literal of any length denotes its value when that is at most 65535, and
   is refused otherwise; a minus sign gives the two's complement.  The text after the
   literal is neither a digit nor a decimal point. *)
Theorem C29_decimal_partial : forall ds cs rest, ds <> [] -> Forall2 dec_char ds cs ->
  no_digit 10 rest -> hd_error rest <> Some 46 ->
  let v := value 10 ds in
  (v <= 65535 -> get_number (cs ++ rest) = (v, rest)) /\
  (v <= 65535 -> 0 < v -> get_number (45 :: cs ++ rest) = ((- v) mod 65536, rest)) /\
  (65535 < v -> fst (get_number (cs ++ rest)) = 65536 /\
                fst (get_number (45 :: cs ++ rest)) = 65536).
Proof.
  intros ds cs rest N F R D v.
  pose proof (dec_value_pos ds cs F) as P. fold v in P.
  assert (S1 : eat DOLLAR (cs ++ rest) = None).
  { destruct F as [|d c ds cs C F]; [congruence|]. apply (eat_dec _ _ _ C). reflexivity. }
  assert (S2 : eat MINUS (cs ++ rest) = None).
  { destruct F as [|d c ds cs C F]; [congruence|]. apply (eat_dec _ _ _ C). reflexivity. }
  assert (S3 : eat DOT rest = None) by now apply eat_none_i.
  unfold get_number. rewrite S1, S2.
  assert (S4 : eat DOLLAR (45 :: cs ++ rest) = None) by reflexivity.
  assert (S5 : eat MINUS (45 :: cs ++ rest) = Some (cs ++ rest)) by reflexivity.
  rewrite S4, S5. split; [|split].
  - intro V. rewrite (get_dec_fit ds cs) by auto. fold v.
    replace ((65535 <? v) || (v <? 0)) with false by lia. now rewrite S3.
  - intros V Z0. rewrite (get_dec_fit ds cs) by auto. fold v.
    replace ((65535 <? v) || (v <? 0)) with false by lia. rewrite S3. f_equal. lia.
  - intro V. pose proof (get_dec_big ds cs rest F V) as B.
    destruct (get_dec (cs ++ rest)) as [w u]. cbn [fst] in B.
    replace ((65535 <? w) || (w <? 0)) with true by lia. auto.
Qed.

Theorem C29_hexadecimal : forall ds cs rest, ds <> [] -> Forall2 hex_char ds cs ->
  no_digit 16 rest ->
  let v := value 16 ds in
  (v <= 65535 -> get_number (36 :: cs ++ rest) = (v, rest)) /\
  (65535 < v -> fst (get_number (36 :: cs ++ rest)) = 65536).
Proof.
  intros ds cs rest N F R v. unfold get_number.
  assert (S1 : eat DOLLAR (36 :: cs ++ rest) = Some (cs ++ rest)) by reflexivity.
  rewrite S1. split; intro V.
  - rewrite (get_hex_fit ds cs) by auto. fold v. replace (65535 <? v) with false by lia. reflexivity.
  - pose proof (get_hex_big ds cs rest F V) as B.
    destruct (get_hex (cs ++ rest)) as [w u]. cbn [fst] in B.
    replace (65535 <? w) with true by lia. reflexivity.
Qed.

(* Nothing else is a number: what is accepted begins with such a literal. *)
Theorem C29_only : forall inp v u, get_number inp = (v, u) -> v <= 65535 ->
  exists ds cs, ds <> [] /\
   (inp = 36 :: cs ++ u /\ Forall2 hex_char ds cs /\ v = value 16 ds \/
    inp = cs ++ u /\ Forall2 dec_char ds cs /\ v = value 10 ds \/
    inp = 45 :: cs ++ u /\ Forall2 dec_char ds cs /\ v = (- value 10 ds) mod 65536).
Proof.
  intros inp v u E V. unfold get_number in E.
  destruct (eat DOLLAR inp) as [t|] eqn:D.
  - apply eat_some in D. subst inp. destruct (get_hex t) as [h w] eqn:G.
    destruct (65535 <? h) eqn:B; [injection E as <- <-; lia|]. injection E as <- <-.
    apply get_hex_inv in G; [|lia]. destruct G as (ds & cs & -> & N & F & -> & R).
    exists ds, cs. auto.
  - assert (G : forall sign t, (let '(num, w) := get_dec t in
      if (65535 <? num) || (num <? 0) then (65536, w)
      else match eat DOT w with Some _ => (65536, inp) | None => (if sign : bool then 65536 - num else num, w) end)
      = (v, u) ->
      exists ds cs, ds <> [] /\ t = cs ++ u /\ Forall2 dec_char ds cs /\
        v = if sign then (- value 10 ds) mod 65536 else value 10 ds).
    { clear E. intros sign t E. destruct (get_dec t) as [num w] eqn:G.
      destruct ((65535 <? num) || (num <? 0)) eqn:B; [injection E as <- <-; lia|].
      destruct (eat DOT w); [injection E as <- <-; lia|].
      assert (Ev : v = if sign then 65536 - num else num) by congruence.
      assert (Eu : u = w) by congruence. subst u. clear E.
      apply get_dec_inv in G; [|lia]. destruct G as (ds & cs & -> & N & F & -> & R).
      exists ds, cs. repeat split; auto. destruct sign; [|exact Ev].
      pose proof (dec_value_pos ds cs F). lia. }
    destruct (eat MINUS inp) as [t|] eqn:M.
    + apply eat_some in M. destruct (G true t E) as (ds & cs & N & -> & F & W).
      subst inp. exists ds, cs. auto 6.
    + destruct (G false inp E) as (ds & cs & N & A & F & W). exists ds, cs. auto 6.
Qed.

Example C29_case :
  get_number [54; 53; 53; 51; 53; 44] = (65535, [44]) /\
  fst (get_number [54; 53; 53; 51; 54; 44]) = 65536 /\
  get_number [45; 48; 48; 49; 58] = (65535, [58]) /\
  get_number [36; 102; 70; 48; 49; 32] = (65281, [32]) /\
  fst (get_number [36; 49; 48; 48; 48; 48]) = 65536 /\
  value 10 [6; 5; 5; 3; 5] = 65535 /\ value 16 [15; 15; 0; 1] = 65281.
Proof. vm_compute. repeat split. Qed.

(* The two's complement of 0 is 0, but a literal -0 is refused. *)
Theorem C29_refuted :
  ~ (forall ds cs rest, ds <> [] -> Forall2 dec_char ds cs -> no_digit 10 rest ->
     hd_error rest <> Some 46 -> value 10 ds <= 65535 ->
     get_number (45 :: cs ++ rest) = ((- value 10 ds) mod 65536, rest)).
Proof.
  intro H. specialize (H [0] [48] []). vm_compute in H.
  assert (X : (65536, @nil Z) = (0, [])); [|discriminate X].
  apply H; try discriminate; auto.
  - constructor; [|constructor]. split; [split; discriminate|reflexivity].
Qed.

(* ---- C30 ---- *)
(* The parser reads after an opening quote exactly the literals of the language, as
   the characters they denote. *)
Theorem C30_literal : forall inp s rest,
  get_const_string inp = Some (s, rest) <-> Lit_in inp s rest.
Proof. exact get_const_string_spec. Qed.

(* Each string, written as in the long listing, is read back.  The listing puts a blank
   or a separator after a literal, so the text that follows is neither a quote, a dollar
   sign nor a hexadecimal digit. *)
Theorem C30_long_listing : forall s rest, Forall (fun c => 0 <= c <= 255) s ->
  no_digit 16 rest -> hd_error rest <> Some 34 -> hd_error rest <> Some 36 ->
  get_const_string (text_str s true ++ rest) = Some (s, rest).
Proof.
  intros s rest F N Q D. apply get_const_string_spec.
  now apply (text_str_lit rest N Q D s F).
Qed.

(* The same for the short listing. *)
Theorem C30_short_listing : forall s rest,
  hd_error rest <> Some 34 -> hd_error rest <> Some 36 ->
  get_const_string (short_str s ++ rest) = Some (s, rest).
Proof. intros s rest Q D. apply get_const_string_spec. now apply short_str_lit. Qed.

Example C30_case :
  let s := [34; 65; 155; 34; 0; 66; 34; 34; 255] in
  text_str s true = [34; 34; 65; 34; 36; 57; 66; 36; 50; 50; 36; 48; 48; 34; 66; 34; 34; 34; 34;
                     34; 36; 70; 70] /\
  get_const_string (text_str s true ++ [32; 65]) = Some (s, [32; 65]) /\
  get_const_string (short_str s ++ [65]) = Some (s, [65]).
Proof. vm_compute. repeat split. Qed.

(* The short listing writes nothing between two literals that PRINT accepts side by
   side (basic.syn, PRINT_NO_EOL), and the two are then read as one. *)
Theorem C30_adjacent_refuted :
  ~ (forall s t, get_const_string (short_str s ++ [34] ++ short_str t) =
                 Some (s, [34] ++ short_str t)).
Proof. intro H. specialize (H [97] [98]). discriminate H. Qed.

(* ---- C31 ---- *)
(* The bytes that an element of the program stands for. *)
Definition meaning (vname : Z -> string) (c : codew) : asmline :=
  match c with
  | CTok t => Data [SymByte (chars (tok_name t))]
  | CByte n => Data [Byte (n mod 256)]
  | CByteS s => Data [SymByte (chars s)]
  | CWord n => Data [Byte (n mod 256); Byte ((n / 256) mod 256)]
  | CWordS s => Data [SymLo (chars s); SymHi (chars s)]
  | CVarn n => Data [VarByte (chars (vname n))]
  | CLabel s => Define (chars s)
  | CFp x => Data (map Byte x)
  | CStr s => Data (Byte (Z.of_nat (List.length s)) :: map Byte s)
  end.

(* Names are identifiers, strings have at most 255 characters. *)
Definition writable (vname : Z -> string) (c : codew) : Prop :=
  match c with
  | CTok (T_Other n) => is_name (chars n)
  | CByteS s | CWordS s | CLabel s => is_name (chars s)
  | CVarn n => is_name (chars (vname n))
  | CFp x => List.length x = 6%nat /\ Forall (fun b => 0 <= b <= 255) x
  | CStr s => (List.length s <= 255)%nat /\ Forall (fun b => 0 <= b <= 255) s
  | _ => True
  end.

Theorem C31_faithful_partial : forall vname c, writable vname c ->
  read_asm (to_asm vname c) = Some (meaning vname c).
Proof.
  intros vname c W.
  assert (B : forall u, read_asm (t_byte ++ u) =
    match operands false u OStart with Some d => Some (Data d) | None => None end) by reflexivity.
  assert (WD : forall u, read_asm (t_word ++ u) =
    match operands true u OStart with Some d => Some (Data d) | None => None end) by reflexivity.
  assert (V : forall u, read_asm (t_var ++ u) =
    match name_until 34 u with Some n => Some (Data [VarByte n]) | None => None end) by reflexivity.
  destruct c as [t|n|s|n|s|n|s|x|s]; cbn [meaning].
  - change (to_asm vname (CTok t)) with (t_byte ++ chars (tok_name t)). rewrite B.
    rewrite op_name_read; [reflexivity|].
    destruct t; try (split; reflexivity). exact W.
  - change (to_asm vname (CByte n)) with (t_byte ++ to_string (n mod 256)). rewrite B.
    rewrite <- (app_nil_r (to_string _)). rewrite op_number_read by lia.
    cbn [operands op_done]. unfold op_number. replace (n mod 256 <=? 255) with true by lia.
    reflexivity.
  - change (to_asm vname (CByteS s)) with (t_byte ++ chars s). rewrite B.
    rewrite op_name_read by exact W. reflexivity.
  - change (to_asm vname (CWord n)) with (t_word ++ to_string (n mod 65536)). rewrite WD.
    rewrite <- (app_nil_r (to_string _)). rewrite op_number_read by lia.
    cbn [operands op_done]. unfold op_number. replace (n mod 65536 <=? 65535) with true by lia.
    replace ((n mod 65536) mod 256) with (n mod 256) by lia.
    replace (n mod 65536 / 256) with ((n / 256) mod 256) by lia. reflexivity.
  - change (to_asm vname (CWordS s)) with (t_word ++ chars s). rewrite WD.
    rewrite op_name_read by exact W. reflexivity.
  - change (to_asm vname (CVarn n)) with (t_var ++ chars (vname n) ++ [34]). rewrite V.
    rewrite until_name by (auto using is_name_all; reflexivity). reflexivity.
  - change (to_asm vname (CLabel s)) with (chars s ++ [58]). cbn in W.
    assert (U : name_until 58 (chars s ++ [58]) = Some (chars s))
      by (apply until_name; auto using is_name_all).
    unfold read_asm. destruct (chars s) as [|a l]; [destruct W|]. destruct W as (S & _).
    destruct (name_start_ne a S) as (_ & _ & _ & _ & N9).
    assert (A : forall p, after (9 :: p) ((a :: l) ++ [58]) = None).
    { intro p. cbn [app after]. replace (9 =? a) with false by lia. reflexivity. }
    unfold t_byte, t_word, t_var. rewrite !A. rewrite U. reflexivity.
  - change (to_asm vname (CFp x)) with (t_byte ++ fp_asm x). rewrite B.
    destruct W as (L & F). rewrite op_fp; auto. intros ->. discriminate L.
  - change (to_asm vname (CStr s)) with
      (t_byte ++ to_string (Z.of_nat (List.length s)) ++ escape s false). rewrite B.
    destruct W as (L & F). rewrite op_number_read by lia.
    destruct (op_escape s F) as (_ & E).
    rewrite (E (ONum (Z.of_nat (List.length s))) [Byte (Z.of_nat (List.length s))]);
      try discriminate; [reflexivity|].
    cbn [op_done]. unfold op_number. replace (Z.of_nat (List.length s) <=? 255) with true by lia.
    reflexivity.
Qed.

Example C31_case :
  let s := [155; 34; 65; 44; 32; 59; 0; 66; 255] in
  to_asm (fun _ => "X"%string) (CStr s) =
    chars "	.byte	9, 155, 34, ""A, ;"", 0, ""B"", 255" /\
  writable (fun _ => "X"%string) (CStr s) /\
  read_asm (to_asm (fun _ => "X"%string) (CStr s)) = Some (Data (map Byte (9 :: s))) /\
  read_asm (to_asm (fun _ => "X"%string) (CWord (-2))) = Some (Data [Byte 254; Byte 255]).
Proof.
  split; [vm_compute; reflexivity|split; [|split; vm_compute; reflexivity]].
  split; [cbn; lia|]. repeat constructor; discriminate.
Qed.

(* A string of more than 255 characters, which the parser accepts, gives a line that the
   assembler refuses. *)
Theorem C31_refuted :
  exists src s, get_const_string src = Some (s, []) /\
  read_asm (to_asm (fun _ => ""%string) (CStr s)) = None.
Proof.
  exists (repeat 65 256 ++ [34]), (repeat 65 256). split; vm_compute; reflexivity.
Qed.

(* ---- C32 ---- *)
(* The lines of the short listing are groups of the statements that have a text, in
   order, with colons inside a group; a line with several statements is shorter than
   the width, and no statement that fitted on the line before starts a new one. *)
Theorem C32_short_listing : forall width (txts : list bytes),
  exists groups : list (list bytes),
    short_list width [] txts = map (join [58]) groups /\
    filter nonempty txts = concat groups /\
    Forall (fun g => g <> [] /\ fits width g) groups /\
    full width groups.
Proof. exact short_list_ok. Qed.

Example C32_case :
  short_list 9 [] [[65; 66]; []; [67]; [68; 69; 70]; [71; 72; 73; 74; 75; 76; 77; 78; 79; 80]; [81]] =
  [[65; 66; 58; 67; 58; 68; 69; 70]; [71; 72; 73; 74; 75; 76; 77; 78; 79; 80]; [81]].
Proof. vm_compute. reflexivity. Qed.

(* ---- C33 ---- *)
(* The excerpt is a window of at most 76 characters of the line, cut by a blank at the
   error column (the end of the line if the column is beyond it), and the marker stands
   below that blank. *)
Theorem C33_excerpt : forall (line : bytes) (pos : Z), 0 <= pos ->
  exists left right before after,
    chomp line = before ++ left ++ right ++ after /\
    Z.of_nat (List.length (before ++ left)) = Z.min pos (Z.of_nat (List.length (chomp line))) /\
    excerpt line pos = (map shown left ++ [32] ++ map shown right,
                        repeat 45 (List.length left) ++ [94]) /\
    (List.length (left ++ right) <= 76)%nat /\
    ((List.length (chomp line) <= 76)%nat -> before = [] /\ after = []).
Proof.
  intros line pos P. destruct (excerpt_ok line pos P) as (l & r & b & a & H1 & H2 & H3 & H4 & H5 & _).
  exists l, r, b, a. repeat split; auto; try (now apply H5).
  rewrite H3.
  assert (E : forall c, printable c = shown c).
  { intro c. unfold printable, shown. destruct (c <? 32) eqn:E1, (c <? 127) eqn:E2.
    - replace (32 <=? c) with false by lia. reflexivity.
    - lia.
    - replace (32 <=? c) with true by lia. replace (c <=? 126) with true by lia. reflexivity.
    - replace (c <=? 126) with false by lia. now rewrite andb_false_r. }
  rewrite !(map_ext _ _ E). reflexivity.
Qed.

Example C33_case :
  excerpt ([80; 82; 1; 88; 155] ++ [10]) 3 = ([80; 82; 46; 32; 88; 46], [45; 45; 45; 94]) /\
  List.length (fst (excerpt (repeat 65 60 ++ [66] ++ repeat 67 60) 60)) = 77%nat /\
  excerpt (repeat 65 60 ++ [66] ++ repeat 67 60) 60 =
  (repeat 65 50 ++ [32; 66] ++ repeat 67 25, repeat 45 50 ++ [94]).
Proof. vm_compute. repeat split. Qed.

(* ---- C47 ---- *)
(* Each token is counted as often as it occurs. *)
Theorem C47_tokens : forall code t, count tok_eqb t (c1 (opstat code)) = occurs t code.
Proof. intros code t. unfold opstat. now rewrite opstat_c1. Qed.

(* A pair is never counted more often than it occurs, and exactly so in code whose
   operands are constants. *)
Theorem C47_pairs_partial : forall code t o,
  count pair_eqb (t, o) (c2 (opstat code)) <= follows t o None code /\
  (const_operands None code ->
   count pair_eqb (t, o) (c2 (opstat code)) = follows t o None code).
Proof.
  intros code t o. unfold opstat. split.
  - pose proof (opstat_c2 t o code (mkStat [] [] [] None) None (or_introl eq_refl)). cbn in H. exact H.
  - intro C. rewrite opstat_c2_exact by exact C. reflexivity.
Qed.

(* The operand of TOK_VAR_LOAD is a variable number and not a byte, so the pair of
   TOK_VAR_LOAD and the token after it is not counted. *)
Theorem C47_pairs_refuted :
  exists code, follows T_ADD T_VAR_LOAD None code = 1 /\
               count pair_eqb (T_ADD, T_VAR_LOAD) (c2 (opstat code)) = 0.
Proof. exists [CTok T_VAR_LOAD; CVarn 0; CTok T_ADD]. vm_compute. auto. Qed.

Example C47_case :
  let code := [CTok T_BYTE; CByte 3; CTok T_PUSH; CTok T_NUM; CWord 500; CTok T_ADD;
               CTok T_PUSH; CTok T_NUM; CWordS "X"; CTok T_ADD] in
  const_operands None code /\
  count tok_eqb T_NUM (c1 (opstat code)) = 2 /\
  count pair_eqb (T_ADD, T_NUM) (c2 (opstat code)) = 2 /\
  count pair_eqb (T_PUSH, T_BYTE) (c2 (opstat code)) = 1.
Proof. vm_compute. repeat split; auto. Qed.

Print Assumptions C28_nothing_lost.
Print Assumptions C28_lines.
Print Assumptions C29_decimal_partial.
Print Assumptions C29_hexadecimal.
Print Assumptions C29_only.
Print Assumptions C29_refuted.
Print Assumptions C30_literal.
Print Assumptions C30_long_listing.
Print Assumptions C30_short_listing.
Print Assumptions C30_adjacent_refuted.
Print Assumptions C31_faithful_partial.
Print Assumptions C31_refuted.
Print Assumptions C32_short_listing.
Print Assumptions C33_excerpt.
Print Assumptions C47_tokens.
Print Assumptions C47_pairs_partial.
Print Assumptions C47_pairs_refuted.
