(* Theorems about string literals in the compiler that runs on the Atari, property C59. *)
From Verif Require Import Codew Text ThmText SpecText TextPf SpecNative NativeString.
From Verif Require Import ThmNative NativeVar RtCases.

Lemma quoted_det : forall n l, (List.length l <= n)%nat ->
  (forall b u b' u', quoted l b u -> quoted l b' u' -> b = b' /\ u = u') /\ (forall b u b' u', after l b u -> after l b' u' -> b = b' /\ u = u').
Proof.
  induction n as [n IH] using lt_wf_ind. intros l LL.
  assert (AF : forall b u b' u', after l b u -> after l b' u' -> b = b' /\ u = u').
  { intros b u b' u' H H'. destruct l as [|c l]; [inversion H; inversion H'; subst; auto|]. cbn [List.length] in LL. destruct (Z.eq_dec c 34) as [->|N34]; [|destruct (Z.eq_dec c 36) as [->|N36]].
    - inversion H; subst; cbn [hd] in *; [|congruence]. inversion H'; subst; cbn [hd] in *; [|congruence]. destruct (IH (List.length l) ltac:(lia) l ltac:(lia)) as (D & _). eapply D; eauto.
    - apply after_codes in H as (_ & _ & b1 & -> & H). apply after_codes in H' as (_ & _ & b2 & -> & H'). pose proof (skip_hexes_length l).
      destruct (IH (List.length (skip_hexes l)) ltac:(lia) (skip_hexes l) ltac:(lia)) as (_ & D). destruct (D _ _ _ _ H H') as (-> & ->). auto.
    - inversion H; inversion H'; subst; cbn [hd] in *; try congruence. auto. }
  split; [|exact AF]. intros b u b' u' H H'. destruct l as [|c l]; [inversion H|]. cbn [List.length] in LL. destruct (IH (List.length l) ltac:(lia) l ltac:(lia)) as (D & DA).
  destruct (Z.eq_dec c 34) as [->|N34].
  - destruct (Z.eq_dec (hd 155 l) 34) as [E|NE].
    + destruct l as [|c l]; [discriminate|]. cbn [hd List.length] in *. subst c. apply quoted_quote in H as (b1 & -> & H). apply quoted_quote in H' as (b2 & -> & H').
      destruct (IH (List.length l) ltac:(lia) l ltac:(lia)) as (D2 & _). destruct (D2 _ _ _ _ H H') as (-> & ->). auto.
    + apply (quoted_after l NE) in H as (b1 & -> & H). apply (quoted_after l NE) in H' as (b2 & -> & H'). destruct (DA _ _ _ _ H H') as (-> & ->). auto.
  - destruct (Z.eq_dec c 155) as [->|N155]; [inversion H; congruence|]. apply (quoted_char c l N34 N155) in H as (b1 & -> & H). apply (quoted_char c l N34 N155) in H' as (b2 & -> & H').
    destruct (D _ _ _ _ H H') as (-> & ->). auto.
Qed.
Lemma quoted_one l b u b' u' : quoted l b u -> quoted l b' u' -> b = b' /\ u = u'.
Proof. apply (quoted_det (List.length l)). lia. Qed.

(* ==== C59 ==== *)
(* The text after an opening quote, to compile with o bytes in the output buffer.  If it is a string of n bytes,
   the output gets n and these bytes and the text goes on after the literal; the buffer of 256 bytes may be
   too small, error 12: always with o + 1 + n over 255, never under 255, and with 255 depending on how the last
   byte is written.  If it is no string the action fails, or finds the buffer full before. *)
Theorem C59_string : forall fp L nz, native_ok L nz -> forall s l, registers s -> returns s -> rest_of_line (M s) l -> 1664 <= pointer nz (M s) 0 <= 65280 ->
  let p := pointer nz (M s) 0 in let o := M s (nz + 21) in
  let taken bs u s' := fC s' = false /\ bytes_in (M s') /\ bytes_at (M s') (p + o) (Z.of_nat (List.length bs) :: bs) /\ output nz (1 + Z.of_nat (List.length bs)) (M s) (M s') /\ rest_of_line (M s') u in
  (forall bs u, quoted l bs u -> o + 1 + Z.of_nat (List.length bs) < 255 -> exists s', calls (native fp L nz) "E_CONST_STRING" s "back" s' /\ taken bs u s') /\
  (forall bs u, quoted l bs u -> 255 < o + 1 + Z.of_nat (List.length bs) -> exists s', calls (native fp L nz) "E_CONST_STRING" s "parser_error" s' /\ Y s' = 12) /\
  (forall bs u, quoted l bs u -> exists e s', calls (native fp L nz) "E_CONST_STRING" s e s' /\ (e = "back"%string /\ taken bs u s' \/ e = "parser_error"%string /\ Y s' = 12)) /\
  ((forall bs u, ~ quoted l bs u) -> exists e s', calls (native fp L nz) "E_CONST_STRING" s e s' /\
     (e = "back"%string /\ fC s' = true /\ (forall b, p <= b < p + o -> M s' b = M s b) \/ e = "parser_error"%string /\ Y s' = 12 /\ 255 <= o + 1 + Z.of_nat (List.length l))).
Proof.
  intros fp L nz OK s l (BA & BX & BY & WM) (st & ST) RL P0 p o taken.
  apply line_rest in RL as (EI & B0 & LN). pose proof OK as ((?&?&_) & ? & ? & _).
  destruct s as [sa sx sy sc sz sn sv m sst sr]. cbn [A X Y M S] in *. subst sst.
  assert (EP : p = wordat m (nz + 6)) by (unfold p, pointer, word_of, wordat; now rewrite Z.add_0_r).
  assert (BO : 0 <= o < 256) by apply WM. assert (P1 : 1664 <= p <= 65280) by exact P0.
  (* what the routine does *)
  assert (TK : forall bs u a' x' y' z' f' v' m', bytes_in m' -> str_frame L nz (zp L + 2) (p + o) p m' m -> bytes_at m' (p + o) (Z.of_nat (List.length bs) :: bs) -> m' (nz + 21) = o + 1 + Z.of_nat (List.length bs) ->
    RtVal.line m' (m' 242) u -> taken bs u (mkcpu a' x' y' false z' f' v' m' st sr)).
  { intros bs u a' x' y' z' f' v' m' W' F' B' O' L'. unfold str_frame, NativeString.str_work in F'. unfold taken. cbn [fC M]. split; [reflexivity|]. split; [exact W'|]. split; [exact B'|]. split.
    - unfold output. fold p. fold o. split; [|split; [lia|]].
      + unfold p, pointer, word_of. rewrite !F' by lia. reflexivity.
      + intros b HB. apply F'; lia.
    - apply line_rest. split; [|split; [apply W'|exact L']]. unfold wordat in *. rewrite !F' by lia. exact EI. }
  assert (FF : forall m', str_frame L nz (zp L + 2) (p + o) p m' m -> forall b, p <= b < p + o -> m' b = m b) by (intros m' F' b HB; unfold str_frame, NativeString.str_work in F'; apply F'; lia).
  assert (MAIN : forall R : string -> cpu -> Prop, 
    (forall bs u s', quoted l bs u -> o + 1 + Z.of_nat (List.length bs) <= 255 -> taken bs u s' -> R "back"%string s') ->
    ((forall bs u, ~ quoted l bs u) -> forall s', fC s' = true -> (forall b, p <= b < p + o -> M s' b = m b) -> R "back"%string s') ->
    ((forall bs u, quoted l bs u -> 255 <= o + 1 + Z.of_nat (List.length bs)) -> 255 <= o + 1 + Z.of_nat (List.length l) -> forall s', Y s' = 12 -> R "parser_error"%string s') ->
    wp (native fp L nz) (entry (native fp L nz) "E_CONST_STRING") (mkcpu sa sx sy sc sz sn sv m (CRet [In (JMP "back")] :: st) sr) R).
  { intros R R1 R2 R3. apply (string_ok L nz OK fp) with (l := l) (i := m 242) (p := p); auto; try lia.
    - intros bs u HQ LE a' x' y' z' f' v' m' W' F' B' O' L'. apply wp_exit; [reflexivity|]. apply R1 with (bs := bs) (u := u); auto.
    - intros NQ a' x' y' z' f' v' m' W' F'. apply wp_exit; [reflexivity|]. apply R2; auto. }
  split; [|split; [|split]].
  - intros bs u HQ LT. apply wp_calls. apply MAIN.
    + intros bs' u' s' HQ' _ T. destruct (quoted_one _ _ _ _ _ HQ HQ') as (-> & ->). auto.
    + intros NQ. destruct (NQ _ _ HQ).
    + intros G. specialize (G _ _ HQ). lia.
  - intros bs u HQ GT. apply wp_calls. apply MAIN; auto.
    + intros bs' u' s' HQ' LE. destruct (quoted_one _ _ _ _ _ HQ HQ') as (-> & ->). lia.
    + intros NQ. destruct (NQ _ _ HQ).
  - intros bs u HQ.
    assert (C : forall R, wp (native fp L nz) (entry (native fp L nz) "E_CONST_STRING") (mkcpu sa sx sy sc sz sn sv m (CRet [In (JMP "back")] :: st) sr) R -> exists e s', calls (native fp L nz) "E_CONST_STRING" (mkcpu sa sx sy sc sz sn sv m (CRet [In (JMP "back")] :: st) sr) e s' /\ R e s').
    { intros R HW. destruct HW as (n & e & s' & HR & HQ'). exists e, s'. split; [exists n; exact HR|exact HQ']. }
    apply C. apply MAIN.
    + intros bs' u' s' HQ' _ T. destruct (quoted_one _ _ _ _ _ HQ HQ') as (-> & ->). auto.
    + intros NQ. destruct (NQ _ _ HQ).
    + auto.
  - intros NQ.
    assert (C : forall R, wp (native fp L nz) (entry (native fp L nz) "E_CONST_STRING") (mkcpu sa sx sy sc sz sn sv m (CRet [In (JMP "back")] :: st) sr) R -> exists e s', calls (native fp L nz) "E_CONST_STRING" (mkcpu sa sx sy sc sz sn sv m (CRet [In (JMP "back")] :: st) sr) e s' /\ R e s').
    { intros R HW. destruct HW as (n & e & s' & HR & HQ'). exists e, s'. split; [exists n; exact HR|exact HQ']. }
    apply C. apply MAIN.
    + intros bs' u' s' HQ'. destruct (NQ _ _ HQ').
    + auto.
    + auto.
Qed.
Print Assumptions C59_string.

(* Outside of quotes no letter is in lower case, as the compiler on the Atari changes its line; [q] tells if the
   text starts inside of quotes. *)
Fixpoint upper_outside (q : bool) (l : bytes) : Prop :=
  match l with
  | [] => True
  | c :: r => if c =? 34 then upper_outside (negb q) r else (q = false -> ~ 97 <= c <= 122) /\ upper_outside q r
  end.
Lemma upper_hex ds cs t : Forall2 hex_char ds cs -> upper_outside false (cs ++ t) -> Forall2 digit16 ds cs /\ upper_outside false t.
Proof.
  induction 1 as [|d c ds cs H F IH]; cbn [app upper_outside]; intro U; [auto|].
  assert (c =? 34 = false) as EC by (unfold hex_char in H; lia). rewrite EC in U. destruct U as (U1 & U2). specialize (U1 eq_refl). destruct (IH U2) as (I1 & I2).
  split; [|exact I2]. constructor; [|exact I1]. unfold hex_char in H. unfold digit16. lia.
Qed.
Lemma value_16 ds : value16 ds = SpecText.value 16 ds.
Proof. unfold value16, SpecText.value. generalize 0. induction ds as [|d ds IH]; intro v; cbn [fold_left]; [reflexivity|]. rewrite IH. f_equal. lia. Qed.
Lemma value16_pos ds cs : Forall2 digit16 ds cs -> 0 <= value16 ds.
Proof.
  intro F. unfold value16. assert (G : forall v, 0 <= v -> 0 <= fold_left (fun v d => 16 * v + d) ds v); [|apply G; lia].
  induction F as [|d c ds cs H F IH]; intros v V; cbn [fold_left]; [exact V|]. apply IH. unfold digit16 in H. lia.
Qed.
Scheme Lit_in_ind2 := Induction for Lit_in Sort Prop with Lit_out_ind2 := Induction for Lit_out Sort Prop.
Lemma lit_quoted l s u : Lit_in l s u -> (forall c, List.In c l -> c <> 155) -> upper_outside true l -> quoted l s u.
Proof.
  revert l s u.
  apply (Lit_in_ind2 (fun l s u _ => (forall c, List.In c l -> c <> 155) -> upper_outside true l -> quoted l s u)
    (fun l s u _ => (forall c, List.In c l -> c <> 155) -> upper_outside false l -> exists t, l = 36 :: t /\ codes l s u)).
  - intros c t s r N _ IH N155 U. apply Q_char; [exact N|apply N155; now left|]. apply IH; [intros; apply N155; now right|]. cbn [upper_outside] in U. rewrite (proj2 (Z.eqb_neq c 34) N) in U. apply U.
  - intros t s r _ IH N155 U. apply Q_quote. apply IH; [intros; apply N155; now do 2 right|exact U].
  - intros r N1 N2 _ _. apply Q_end; destruct r as [|c r]; cbn in *; congruence.
  - intros t s r _ IH N155 U. destruct IH as (t' & -> & IH); [intros; apply N155; now right|exact U|]. now apply Q_codes.
  - intros ds cs t s r N F V _ IH N155 U. change (upper_outside false (36 :: cs ++ t)) with ((false = false -> ~ 97 <= 36 <= 122) /\ upper_outside false (cs ++ t)) in U. destruct U as (_ & U).
    destruct (upper_hex _ _ _ F U) as (F' & U'). destruct IH as (t' & -> & IH); [intros; apply N155; right; apply in_or_app; now right|exact U'|].
    eexists. split; [reflexivity|]. rewrite <- value_16 in *. pose proof (value16_pos _ _ F'). replace (value16 ds) with (value16 ds mod 256) by (apply Z.mod_small; lia). apply C_code; auto; [intros d D; unfold digit16 in D; lia|lia|now apply A_more].
  - intros ds cs t s r N F V _ IH N155 U. change (upper_outside false (36 :: cs ++ 34 :: t)) with ((false = false -> ~ 97 <= 36 <= 122) /\ upper_outside false (cs ++ 34 :: t)) in U. destruct U as (_ & U).
    destruct (upper_hex _ _ _ F U) as (F' & U'). eexists. split; [reflexivity|]. rewrite <- value_16 in *. pose proof (value16_pos _ _ F'). replace (value16 ds) with (value16 ds mod 256) by (apply Z.mod_small; lia).
    apply C_code; auto; [intros d D; unfold digit16 in D; lia|lia|]. apply A_again. apply IH; [|exact U']. intros; apply N155; right; apply in_or_app; right; now right.
  - intros ds cs r N F V NO N1 N2 N155 U. change (upper_outside false (36 :: cs ++ r)) with ((false = false -> ~ 97 <= 36 <= 122) /\ upper_outside false (cs ++ r)) in U. destruct U as (_ & U).
    destruct (upper_hex _ _ _ F U) as (F' & U'). eexists. split; [reflexivity|]. rewrite <- value_16 in *. pose proof (value16_pos _ _ F'). replace (value16 ds) with (value16 ds mod 256) by (apply Z.mod_small; lia).
    apply C_code; auto; [|lia|apply A_stop; destruct r as [|c r]; cbn in *; congruence].
    destruct r as [|c r]; [exact I|]. intros d D. apply (NO c eq_refl d). unfold digit16 in D. change (hex_char d c). unfold hex_char. lia.
Qed.
(* Every string that the cross compiler takes is one for the compiler on the Atari, with the same bytes and
   the same text after it. *)
Theorem C59_agrees_partial : forall inp bs u, (forall c, List.In c inp -> c <> 155) -> upper_outside true inp -> get_const_string inp = Some (bs, u) ->
  forall bs' u', quoted inp bs' u' <-> bs' = bs /\ u' = u.
Proof.
  intros inp bs u N U G bs' u'. apply get_const_string_spec in G. pose proof (lit_quoted _ _ _ G N U) as HQ. split; [intro H; destruct (quoted_one _ _ _ _ _ H HQ); auto|intros (-> & ->); exact HQ].
Qed.
Print Assumptions C59_agrees_partial.
(* The compiler on the Atari takes others: of the code $141 it takes the lower byte. *)
Theorem C59_refuted : ~ (forall inp bs u, (forall c, List.In c inp -> c <> 155) -> upper_outside true inp -> quoted inp bs u -> get_const_string inp = Some (bs, u)).
Proof.
  intro H. assert (G : quoted [34; 36; 49; 52; 49] [65] []).
  { apply Q_codes. change [65] with (value16 [1; 4; 1] mod 256 :: []). change [36; 49; 52; 49] with (36 :: [49; 52; 49] ++ []). apply C_code; [discriminate| |exact I|vm_compute; discriminate|apply A_stop; discriminate].
    repeat constructor; unfold digit16; lia. }
  apply H in G; [vm_compute in G; discriminate G| |].
  - intros c I. cbn in I. intuition lia.
  - cbn [upper_outside]. change (34 =? 34) with true. change (36 =? 34) with false. change (49 =? 34) with false. change (52 =? 34) with false. cbn [negb]. intuition lia.
Qed.
Print Assumptions C59_refuted.

(* a string with a quote and two codes, a code over 255, a string without end, and buffers with room for nothing and for one character *)
Definition c59 (o l : list Z) : list (Z * Z) := native_cells 40000 o l [] [] [].
Example C59_case :
  (let l := [97; 34; 34; 98; 34; 36; 52; 49; 36; 57; 66; 34; 99; 34; 43; 49] in let s := s54 0 0 (c59 [9; 3] l) in
     registers s /\ returns s /\ rest_of_line (M s) l /\ 1664 <= pointer 156 (M s) 0 <= 65280 /\ M s 177 = 2 /\ upper_outside true l /\
     quoted l [97; 34; 98; 65; 155; 99] [43; 49] /\ get_const_string l = Some ([97; 34; 98; 65; 155; 99], [43; 49]) /\
     native_shows 2000 "E_CONST_STRING" s [177; 8192; 8193; 8194; 8195; 8196; 8197; 8198; 8199; 8200; 242] = Some ("back", false, [9; 9; 3; 6; 97; 34; 98; 65; 155; 99; 17])) /\
  native_shows 2000 "E_CONST_STRING" (s54 0 0 (c59 [9; 3] [34; 36; 49; 52; 49])) [177; 8194; 8195] = Some ("back", false, [4; 1; 65]) /\
  native_shows 2000 "E_CONST_STRING" (s54 0 0 (c59 [9; 3] [97; 98; 99])) [8192; 8193] = Some ("back", true, [9; 3]) /\
  native_shows 2000 "E_CONST_STRING" (s54 0 0 (c59 (repeat 1 253) [97; 98; 34])) [] = Some ("parser_error", false, []) /\
  native_shows 2000 "E_CONST_STRING" (s54 0 0 (c59 (repeat 1 253) [97; 34])) [177; 8445; 8446] = Some ("back", false, [255; 1; 97]) /\
  native_shows 2000 "E_CONST_STRING" (s54 0 0 (c59 (repeat 1 253) [34; 36; 52; 49])) [] = Some ("parser_error", false, []).
Proof.
  assert (R : forall m l, word_of m 243 = 1408 -> (0 <=? m 242) = true -> (m 242 + Z.of_nat (List.length l) <=? 255) = true -> bytes_atb m (1408 + m 242) (l ++ [155]) = true -> rest_of_line m l).
  { intros m l H1 H2 H3 H4. apply Z.leb_le in H2, H3. split; [exact H1|]. split; [exact H2|]. split; [exact H3|]. apply bytes_atb_ok. exact H4. }
  split; [|vm_compute; repeat split; reflexivity]. intros l s.
  split; [unfold s; regs_tac|]. split; [exists []; reflexivity|]. split; [apply R; vm_compute; reflexivity|]. split; [vm_compute; split; congruence|]. split; [vm_compute; reflexivity|].
  assert (G : get_const_string l = Some ([97; 34; 98; 65; 155; 99], [43; 49])) by (vm_compute; reflexivity).
  assert (U : upper_outside true l) by (unfold l; repeat (cbn [upper_outside negb]; match goal with |- context [?a =? 34] => let b := eval vm_compute in (a =? 34) in change (a =? 34) with b end; cbv iota; try (split; [lia|])); intuition lia).
  split; [exact U|]. split; [|split; [exact G|vm_compute; reflexivity]].
  apply (C59_agrees_partial l _ _) with (3 := G); auto. intros c I. cbn in I. intuition lia.
Qed.
