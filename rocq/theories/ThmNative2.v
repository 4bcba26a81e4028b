(* Theorems about number literals in the compiler that runs on the Atari, property C55. *)
From Verif Require Import Codew Text ThmText SpecText TextPf SpecLit NativeLit NativeString.
From Verif Require Import ThmNative NativeVar SpecNative RtCases.

Lemma skip_some k l1 : hd 155 l1 <> 32 -> skip_blanks (repeat 32 k ++ l1) = l1.
Proof. intro H. induction k as [|k IH]; cbn [repeat app skip_blanks]; [|exact IH]. destruct l1 as [|c l1]; [reflexivity|]. cbn [hd skip_blanks] in *. now rewrite (proj2 (Z.eqb_neq c 32)). Qed.

(* ==== C55 ==== *)
(* A literal after blanks: its value is put into the output as a word and the text goes on after it, or the
   buffer of 256 bytes is full, error 12.  If there is no literal the action fails. *)
Theorem C55_number_word : forall fp L nz, native_ok L nz -> forall s k l1, registers s -> returns s ->
  rest_of_line (M s) (repeat 32 k ++ l1) -> hd 155 l1 <> 32 -> 1664 <= pointer nz (M s) 0 <= 65280 ->
  let p := pointer nz (M s) 0 in let o := M s (nz + 21) in
  (forall w u, literal fp l1 w u -> o < 254 ->
     exists s', calls (native fp L nz) "E_NUMBER_WORD" s "back" s' /\ fC s' = false /\ bytes_in (M s') /\ word_of (M s') (p + o) = w /\ output nz 2 (M s) (M s') /\ rest_of_line (M s') u) /\
  (forall w u, literal fp l1 w u -> 254 <= o -> exists s', calls (native fp L nz) "E_NUMBER_WORD" s "parser_error" s' /\ Y s' = 12) /\
  ((forall w u, ~ literal fp l1 w u) -> exists s', calls (native fp L nz) "E_NUMBER_WORD" s "back" s' /\ fC s' = true /\ output nz 0 (M s) (M s')).
Proof.
  intros fp L nz OK s k l1 (BA & BX & BY & WM) (st & ST) RL H32 P0 p o.
  apply line_rest in RL as (EI & B0 & LN). pose proof OK as ((?&?&_) & ? & ? & _).
  destruct s as [sa sx sy sc sz sn sv m sst sr]. cbn [A X Y M S] in *. subst sst.
  assert (EP : p = wordat m (prog_ptr nz)) by (unfold p, pointer, word_of, wordat; ncells; now rewrite Z.add_0_r).
  assert (EPM : forall m', (forall b, nz + 6 <= b <= nz + 7 -> m' b = m b) -> pointer nz m' 0 = p) by (intros m' F; unfold p, pointer, word_of; rewrite !F by lia; reflexivity).
  assert (BO : 0 <= o < 256) by apply WM.
  split; [|split].
  - intros w u LI OP. apply literal_number in LI.
    assert (C : exists s', calls (native fp L nz) "E_NUMBER_WORD" (mkcpu sa sx sy sc sz sn sv m (CRet [In (JMP "back")] :: st) sr) "back" s' /\
      (fC s' = false /\ bytes_in (M s') /\ word_of (M s') (p + o) = w /\ output nz 2 m (M s') /\ rest_of_line (M s') u)); [|exact C].
    apply wp_calls. eapply number_word_ok with (p := p) (l := repeat 32 k ++ l1) (i := m 242); auto; try lia. rewrite skip_some by exact H32. rewrite LI. split; [|ncells; unfold o in *; lia].
    intros _ a' y' z' f' v' m' _ _ W' EW B2 L2 O2 F2. ncells. fold o in EW, O2, F2. unfold num_work, bcell, loopcell in F2. ncells. consts. step1. split; [reflexivity|]. cbn [fC M]. split; [reflexivity|]. split; [exact W'|]. split; [exact EW|]. split.
    + unfold output. split; [|split; [exact O2|]].
      * fold p. apply EPM. intros b HB. apply F2; lia.
      * fold p. fold o. intros b HB. apply F2; lia.
    + apply line_rest. split; [|auto]. unfold wordat. rewrite !F2 by lia. exact EI.
  - intros w u LI OP. apply literal_number in LI. apply wp_calls. eapply number_word_ok with (p := p) (l := repeat 32 k ++ l1) (i := m 242); auto; try lia. rewrite skip_some by exact H32. rewrite LI.
    split; [ncells; unfold o in *; lia|]. intros _ s' E. auto.
  - intro NL.
    assert (C : exists s', calls (native fp L nz) "E_NUMBER_WORD" (mkcpu sa sx sy sc sz sn sv m (CRet [In (JMP "back")] :: st) sr) "back" s' /\ (fC s' = true /\ output nz 0 m (M s'))); [|exact C].
    apply wp_calls. eapply number_word_ok with (p := p) (l := repeat 32 k ++ l1) (i := m 242); auto; try lia. rewrite skip_some by exact H32.
    destruct (nat_number fp l1) as [[w u]|] eqn:E; [exfalso; apply literal_number in E; exact (NL w u E)|].
    intros a' x' y' z' f' v' m' _ _ _ W' F. assert (G : forall b, ~ bcell L b -> m' b = m b) by exact F. unfold bcell, loopcell in G. ncells. consts. step1. split; [reflexivity|]. cbn [fC M]. split; [reflexivity|]. unfold output. split; [|split].
    + apply EPM. intros b HB. apply G. lia.
    + rewrite G; lia.
    + intros b HB. apply G. fold p in HB. lia.
Qed.
Print Assumptions C55_number_word.

(* Where a byte is needed: a literal from 0 to 255 gives one byte; with all others, or none, the action fails.
   The buffer must have room for two. *)
Theorem C55_number_byte : forall fp L nz, native_ok L nz -> forall s k l1, registers s -> returns s ->
  rest_of_line (M s) (repeat 32 k ++ l1) -> hd 155 l1 <> 32 -> 1664 <= pointer nz (M s) 0 <= 65280 ->
  let p := pointer nz (M s) 0 in let o := M s (nz + 21) in
  (forall w u, literal fp l1 w u -> w <= 255 -> o < 254 ->
     exists s', calls (native fp L nz) "E_NUMBER_BYTE" s "back" s' /\ fC s' = false /\ bytes_in (M s') /\ M s' (p + o) = w /\ output nz 1 (M s) (M s') /\ rest_of_line (M s') u) /\
  (forall w u, literal fp l1 w u -> 254 <= o -> exists s', calls (native fp L nz) "E_NUMBER_BYTE" s "parser_error" s' /\ Y s' = 12) /\
  ((forall w u, literal fp l1 w u -> 255 < w /\ o < 254) ->
     exists s', calls (native fp L nz) "E_NUMBER_BYTE" s "back" s' /\ fC s' = true /\ (forall b, p <= b < p + o -> M s' b = M s b)).
Proof.
  intros fp L nz OK s k l1 (BA & BX & BY & WM) (st & ST) RL H32 P0 p o.
  apply line_rest in RL as (EI & B0 & LN). pose proof OK as ((?&?&_) & ? & ? & _).
  destruct s as [sa sx sy sc sz sn sv m sst sr]. cbn [A X Y M S] in *. subst sst.
  assert (EP : p = wordat m (prog_ptr nz)) by (unfold p, pointer, word_of, wordat; ncells; now rewrite Z.add_0_r).
  assert (BO : 0 <= o < 256) by apply WM. assert (P1 : 1664 <= p <= 65280) by exact P0.
  assert (MAIN : forall R : cpu -> Prop,
    (forall w u, literal fp l1 w u -> o < 254 /\ forall s', fC s' = (1 <=? w / 256) -> bytes_in (M s') -> word_of (M s') (p + o) = w -> output nz 1 m (M s') -> rest_of_line (M s') u -> R s') ->
    ((forall w u, ~ literal fp l1 w u) -> forall s', fC s' = true -> (forall b, p <= b < p + o -> M s' b = m b) -> R s') ->
    exists s', calls (native fp L nz) "E_NUMBER_BYTE" (mkcpu sa sx sy sc sz sn sv m (CRet [In (JMP "back")] :: st) sr) "back" s' /\ R s').
  { intros R R1 R2. apply wp_calls. eapply number_byte_ok with (p := p) (l := repeat 32 k ++ l1) (i := m 242); auto; try lia. rewrite skip_some by exact H32.
    destruct (nat_number fp l1) as [[w u]|] eqn:E.
    - apply literal_number in E. destruct (R1 w u E) as (LT & R1'). split; [|ncells; fold o; lia]. ncells. fold o.
      intros _ a' x' y' z' f' v' m' W' EW B2 L2 O2 F2. unfold num_work, bcell, loopcell in F2. ncells. apply wp_exit; [reflexivity|]. split; [reflexivity|]. apply R1'; auto; cbn [M].
      + unfold output. fold p. fold o. split; [unfold p, pointer, word_of; rewrite !F2 by lia; reflexivity|]. split; [exact O2|]. intros b HB. apply F2; lia.
      + apply line_rest. split; [|auto]. unfold wordat in *. rewrite !F2 by lia. exact EI.
    - assert (NL : forall w u, ~ literal fp l1 w u) by (intros w u LI; apply literal_number in LI; congruence).
      intros a' x' y' z' f' v' m' W' F. assert (G : forall b, ~ bcell L b -> m' b = m b) by exact F. unfold bcell, loopcell in G. apply wp_exit; [reflexivity|]. split; [reflexivity|]. apply R2; auto. intros b HB. cbn [M]. apply G. lia. }
  assert (ONE : forall w u w' u', literal fp l1 w u -> literal fp l1 w' u' -> w = w' /\ u = u') by (intros w u w' u' A1 A2; apply literal_number in A1, A2; rewrite A1 in A2; injection A2; auto).
  split; [|split].
  - intros w u LI BW LO. apply MAIN.
    + intros w' u' LI'. destruct (ONE _ _ _ _ LI LI') as (<- & <-). split; [exact LO|]. intros s' C' W' EW O' RL'. pose proof (W' (p + o)). pose proof (W' (p + o + 1)). unfold word_of in EW.
      split; [|split; [exact W'|split; [lia|auto]]]. rewrite C'. apply Z.leb_gt. rewrite Z.div_small; lia.
    + intros NL. destruct (NL _ _ LI).
  - intros w u LI OP. apply literal_number in LI. apply wp_calls. eapply number_byte_ok with (p := p) (l := repeat 32 k ++ l1) (i := m 242); auto; try lia. rewrite skip_some by exact H32. rewrite LI.
    split; [ncells; unfold o in *; lia|]. intros _ s' E. auto.
  - intros G. apply MAIN.
    + intros w u LI. destruct (G w u LI) as (GT & LO). split; [exact LO|]. intros s' C' W' EW (_ & _ & O') _. split; [|exact O']. rewrite C'. apply Z.leb_le. apply Z.div_le_lower_bound; lia.
    + auto.
Qed.
Print Assumptions C55_number_byte.

Lemma number_inv inp v u : get_number inp = (v, u) -> v <= 65535 ->
  exists ds cs, ds <> [] /\
   (inp = 36 :: cs ++ u /\ Forall2 hex_char ds cs /\ no_digit 16 u /\ v = SpecText.value 16 ds \/
    no_digit 10 u /\ SpecText.value 10 ds <= 65535 /\ Forall2 dec_char ds cs /\ (inp = cs ++ u /\ v = SpecText.value 10 ds \/ inp = 45 :: cs ++ u /\ v = (- SpecText.value 10 ds) mod 65536)).
Proof.
  intros E V. unfold get_number in E.
  destruct (eat DOLLAR inp) as [t|] eqn:D.
  - apply eat_some in D. subst inp. destruct (get_hex t) as [h w] eqn:G.
    destruct (65535 <? h) eqn:B; [injection E as <- <-; lia|]. injection E as <- <-.
    apply get_hex_inv in G; [|lia]. destruct G as (ds & cs & -> & N & F & -> & R).
    exists ds, cs. auto 6.
  - assert (G : forall sign t, (let '(num, w) := get_dec t in
      if (65535 <? num) || (num <? 0) then (65536, w)
      else match eat DOT w with Some _ => (65536, inp) | None => (if sign : bool then 65536 - num else num, w) end)
      = (v, u) ->
      exists ds cs, ds <> [] /\ t = cs ++ u /\ Forall2 dec_char ds cs /\ no_digit 10 u /\ SpecText.value 10 ds <= 65535 /\
        v = if sign then (- SpecText.value 10 ds) mod 65536 else SpecText.value 10 ds).
    { clear E. intros sign t E. destruct (get_dec t) as [num w] eqn:G.
      destruct ((65535 <? num) || (num <? 0)) eqn:B; [injection E as <- <-; lia|].
      destruct (eat DOT w); [injection E as <- <-; lia|].
      assert (Ev : v = if sign then 65536 - num else num) by congruence.
      assert (Eu : u = w) by congruence. subst u. clear E.
      apply get_dec_inv in G; [|lia]. destruct G as (ds & cs & -> & N & F & -> & R).
      pose proof (value_pos ds cs F). exists ds, cs. split; [exact N|]. split; [reflexivity|]. split; [exact F|]. split; [exact R|]. split; [lia|]. destruct sign; [|exact Ev]. lia. }
    destruct (eat MINUS inp) as [t|] eqn:MI.
    + apply eat_some in MI. destruct (G true t E) as (ds & cs & N & -> & F & R & BV & W).
      subst inp. exists ds, cs. split; [exact N|]. right. auto 6.
    + destruct (G false inp E) as (ds & cs & N & A & F & R & BV & W). exists ds, cs. split; [exact N|]. right. auto 6.
Qed.
(* Both compilers read the same literals, with the same value and the same text after them, when letters
   are in upper case and the literal has no plus sign and is not minus zero. *)
Theorem C55_agrees_partial : forall fp inp w u, (forall c, List.In c inp -> ~ 97 <= c <= 102) -> hd_error inp <> Some 43 ->
  (hd_error inp = Some 45 -> w <> 0) -> hd_error u <> Some 46 -> (literal fp inp w u <-> get_number inp = (w, u) /\ w <= 65535).
Proof.
  intros fp inp w u UP NP NZ ND. split.
  - intros (ds & cs & N & [(-> & F & UC & R & V & ->)|(sg & -> & F & R & _ & V & SG)]).
    + split; [|exact V]. apply C29_hexadecimal; auto. intros c HC d HD. refine (R c HC _ d HD). change (hex_char d c) in HD. unfold hex_char in HD.
      destruct u as [|c0 u]; [discriminate|]. injection HC as ->. assert (~ 97 <= c <= 102) by (apply UP; right; apply in_or_app; right; now left). lia.
    + pose proof (value_pos _ _ F) as VP. destruct (C29_decimal_partial ds cs u N F R ND) as (D1 & D2 & _). destruct SG as [(-> & ->)|[(-> & ->)|(-> & ->)]].
      * split; [apply D1|]; auto.
      * exfalso. apply NP. reflexivity.
      * assert (SpecText.value 10 ds <> 0). { intro E. apply (NZ eq_refl). rewrite E. reflexivity. }
        split; [apply D2; auto; lia|]. pose proof (Z.mod_pos_bound (- SpecText.value 10 ds) 65536 ltac:(lia)). lia.
  - intros (G & V). destruct (number_inv _ _ _ G V) as (ds & cs & N & [(E & F & R & EV)|(R & BV & F & E)]).
    + exists ds, cs. split; [exact N|]. left. split; [exact E|]. split; [exact F|]. split; [|split; [|lia]].
      * intros c I. subst inp. assert (~ 97 <= c <= 102) by (apply UP; right; apply in_or_app; now left). clear - F I H. induction F as [|d x ds cs HX F IH]; [destruct I|]. destruct I as [->|I]; [|auto]. unfold hex_char in HX. lia.
      * intros c HC _. exact (R c HC).
    + exists ds, cs. split; [exact N|]. right. destruct E as [(E & EV)|(E & EV)]; [exists []|exists [45]]; auto 12.
Qed.
Print Assumptions C55_agrees_partial.

(* Without these conditions they do not: the compiler on the Atari takes +1 and -0. *)
Theorem C55_refuted :
  ~ (forall inp w u, (forall c, List.In c inp -> ~ 97 <= c <= 102) -> (hd_error inp = Some 45 -> w <> 0) -> hd_error u <> Some 46 ->
     (literal true inp w u <-> get_number inp = (w, u) /\ w <= 65535)) /\
  ~ (forall inp w u, (forall c, List.In c inp -> ~ 97 <= c <= 102) -> hd_error inp <> Some 43 -> hd_error u <> Some 46 ->
     (literal true inp w u <-> get_number inp = (w, u) /\ w <= 65535)).
Proof.
  split; intro H.
  - assert (G : literal true [43; 49] 1 []).
    { exists [1], [49]. split; [discriminate|]. right. exists [43]. split; [reflexivity|]. split; [constructor; [unfold dec_char; lia|constructor]|]. split; [intros c HC; discriminate|]. split; [discriminate|]. split; [vm_compute; discriminate|]. right. left. split; reflexivity. }
    apply H in G; [|intros c [<-|[<-|[]]]; lia|discriminate|discriminate]. destruct G as (G & _). vm_compute in G. discriminate G.
  - assert (G : literal true [45; 48] 0 []).
    { exists [0], [48]. split; [discriminate|]. right. exists [45]. split; [reflexivity|]. split; [constructor; [unfold dec_char; lia|constructor]|]. split; [intros c HC; discriminate|]. split; [discriminate|]. split; [vm_compute; discriminate|]. right. right. split; reflexivity. }
    apply H in G; [|intros c [<-|[<-|[]]]; lia|discriminate|discriminate]. destruct G as (G & _). vm_compute in G. discriminate G.
Qed.
Print Assumptions C55_refuted.

(* the texts $FF,1 and -12 and 65536, after two blanks, and an output buffer that is full *)
Definition c55 (o l : list Z) : list (Z * Z) := native_cells 40000 o (repeat 32 2 ++ l) [] [] [].
Example C55_case :
  (let s := s54 0 0 (c55 [9; 3] [36; 70; 70; 44; 49]) in registers s /\ returns s /\ rest_of_line (M s) (repeat 32 2 ++ [36; 70; 70; 44; 49]) /\ 1664 <= pointer 156 (M s) 0 <= 65280 /\ M s 177 < 254 /\
     literal true [36; 70; 70; 44; 49] 255 [44; 49] /\ get_number [36; 70; 70; 44; 49] = (255, [44; 49]) /\
     native_shows 900 "E_NUMBER_WORD" s [177; 8192; 8193; 8194; 8195; 242] = Some ("back", false, [4; 9; 3; 255; 0; 8])) /\
  (let s := s54 0 0 (c55 [9; 3] [45; 49; 50]) in rest_of_line (M s) (repeat 32 2 ++ [45; 49; 50]) /\ literal true [45; 49; 50] 65524 [] /\ get_number [45; 49; 50] = (65524, []) /\
     native_shows 900 "E_NUMBER_WORD" s [177; 8192; 8193; 8194; 8195; 242] = Some ("back", false, [4; 9; 3; 244; 255; 8])) /\
  (let s := s54 0 0 (c55 (repeat 1 254) [45; 49; 50]) in rest_of_line (M s) (repeat 32 2 ++ [45; 49; 50]) /\ M s 177 = 254 /\
     native_shows 900 "E_NUMBER_WORD" s [] = Some ("parser_error", false, [])) /\
  native_shows 2000 "E_NUMBER_WORD" (s54 0 0 (c55 [9; 3] [54; 53; 53; 51; 54])) [177] = Some ("back", true, [2]) /\
  native_shows 2000 "E_NUMBER_BYTE" (s54 0 0 (c55 [9; 3] [36; 70; 70; 44; 49])) [177; 8192; 8193; 8194; 242] = Some ("back", false, [3; 9; 3; 255; 8]) /\
  native_shows 2000 "E_NUMBER_BYTE" (s54 0 0 (c55 [9; 3] [45; 49; 50])) [8192; 8193] = Some ("back", true, [9; 3]).
Proof.
  assert (R : forall m l, word_of m 243 = 1408 -> (0 <=? m 242) = true -> (m 242 + Z.of_nat (List.length l) <=? 255) = true -> bytes_atb m (1408 + m 242) (l ++ [155]) = true -> rest_of_line m l).
  { intros m l H1 H2 H3 H4. apply Z.leb_le in H2, H3. split; [exact H1|]. split; [exact H2|]. split; [exact H3|]. apply bytes_atb_ok. exact H4. }
  split; [|split; [|split; [|split; [|split]]]]; cbv zeta.
  - split; [regs_tac|]. split; [exists []; reflexivity|]. split; [apply R; vm_compute; reflexivity|]. split; [vm_compute; split; congruence|]. split; [vm_compute; reflexivity|]. split; [|split; vm_compute; reflexivity].
    apply literal_number. vm_compute. reflexivity.
  - split; [apply R; vm_compute; reflexivity|]. split; [apply literal_number; vm_compute; reflexivity|]. split; vm_compute; reflexivity.
  - split; [apply R; vm_compute; reflexivity|]. split; vm_compute; reflexivity.
  - vm_compute. reflexivity.
  - vm_compute. reflexivity.
  - vm_compute. reflexivity.
Qed.
