(* Proofs about the text handling of the compiler (Text.v). *)
From Verif Require Import Codew Text SpecText.

(* ---- readLine ---- *)

Lemma crlf_refl f : crlf f f.
Proof. induction f; constructor; auto. Qed.

Lemma crlf_app f1 t1 f2 t2 : crlf f1 t1 -> crlf f2 t2 -> crlf (f1 ++ f2) (t1 ++ t2).
Proof.
  induction 1; intro H2; cbn; auto.
  - constructor; auto.
  - constructor. specialize (IHcrlf H2). exact IHcrlf.
Qed.

(* One call takes a prefix of the file. *)
Lemma rl_prefix : forall inp str com st n r l u,
  rl_loop inp str com st n = (r, l, u) ->
  exists f, inp = f ++ u /\ crlf f l /\ (List.length u <= List.length inp)%nat /\
  (inp <> [] -> l <> []) /\
  (r = 0 /\ u = [] \/ n < r) .
Proof.
  assert (G : forall k inp, (List.length inp <= k)%nat -> forall str com st n r l u,
    rl_loop inp str com st n = (r, l, u) ->
    exists f, inp = f ++ u /\ crlf f l /\ (inp <> [] -> l <> []) /\
    (r = 0 /\ u = [] \/ n < r)).
  { induction k; intros inp K str com st n r l u E.
    - destruct inp; [|cbn in K; lia]. cbn in E. injection E as <- <- <-.
      exists []. repeat split; auto using crlf_nil.
    - destruct inp as [|c t]; cbn in E.
      { injection E as <- <- <-. exists []. repeat split; auto using crlf_nil. }
      cbn in K. assert (K' : (List.length t <= k)%nat) by lia.
      destruct str.
      + destruct (rl_loop t _ com st _) as [[r1 l1] u1] eqn:E1.
        injection E as <- <- <-. apply IHk in E1; [|lia].
        destruct E1 as (f & -> & C & N & R). exists (c :: f).
        split; [reflexivity|split; [now constructor|split; [discriminate|]]].
        destruct R as [R|R]; [left; exact R|right]. destruct (c =? LF); lia.
      + assert (keep : forall r l u,
          (if (c =? LF) || (c =? EOL9B) then (n + 1, [c], t)
           else let '(st1, com1, str1) := rl_flags st com c in
                let '(r, l, u) := rl_loop t str1 com1 st1 n in (r, c :: l, u)) = (r, l, u) ->
          exists f, c :: t = f ++ u /\ crlf f l /\ (c :: t <> [] -> l <> []) /\
          (r = 0 /\ u = [] \/ n < r)).
        { clear r l u E. intros r l u E. destruct ((c =? LF) || (c =? EOL9B)).
          - injection E as <- <- <-. exists [c]. repeat split.
            + constructor. constructor.
            + discriminate.
            + right; lia.
          - destruct (rl_flags st com c) as [[st1 com1] str1].
            destruct (rl_loop t str1 com1 st1 n) as [[r1 l1] u1] eqn:E1.
            injection E as <- <- <-. apply IHk in E1; [|lia].
            destruct E1 as (f & -> & C & N & R). exists (c :: f).
            split; [reflexivity|split; [now constructor|split; [discriminate|exact R]]]. }
        destruct (c =? CR) eqn:EC; [|auto].
        destruct t as [|d v]; [auto|].
        destruct (d =? LF) eqn:ED; [|auto].
        injection E as <- <- <-. exists [c; d]. repeat split.
        * apply Z.eqb_eq in EC, ED. subst. constructor. constructor. constructor.
        * discriminate.
        * right; lia. }
  intros inp str com st n r l u E. destruct (G _ inp (Nat.le_refl _) _ _ _ _ _ _ _ E)
    as (f & -> & C & N & R).
  exists f. repeat split; auto. rewrite app_length. lia.
Qed.

Lemma read_line_shorter inp r l u : read_line inp = (r, l, u) -> inp <> [] ->
  (List.length u < List.length inp)%nat.
Proof.
  intros E N. unfold read_line in E. apply rl_prefix in E.
  destruct E as (f & -> & C & _ & NE & _). rewrite app_length.
  destruct f; [|cbn; lia]. exfalso. inversion C; subst. apply NE; auto.
Qed.

Lemma read_file_total : forall fuel ln inp, (List.length inp < fuel)%nat ->
  exists ls, read_file fuel ln inp = Some ls /\ crlf inp (concat (map snd ls)).
Proof.
  induction fuel; intros ln inp L; [lia|]. cbn.
  destruct (read_line inp) as [[r l] u] eqn:E.
  destruct inp as [|c t].
  { cbn in E. injection E as <- <- <-. cbn. exists []. split; auto. constructor. }
  assert (NE : c :: t <> []) by discriminate.
  pose proof (read_line_shorter _ _ _ _ E NE) as SH.
  unfold read_line in E. apply rl_prefix in E.
  destruct E as (f & E & C & _ & NL & R).
  assert (l <> []) by auto.
  replace ((r =? 0) && match l with [] => true | _ => false end) with false
    by (destruct l; [congruence|]; now rewrite andb_false_r).
  cbn in L, SH. destruct (IHfuel (ln + r) u) as (ls & E2 & C2); [lia|].
  rewrite E2. exists ((ln, l) :: ls). split; auto.
  rewrite E. cbn. apply crlf_app; auto.
Qed.

(* ---- exact reading of well formed lines ---- *)

Lemma rl_lit : forall s t com st n, ~ In 34 s ->
  rl_loop (s ++ 34 :: t) true com st n =
  let '(r, l, u) := rl_loop t false com st (n + newlines s) in (r, s ++ 34 :: l, u).
Proof.
  unfold newlines. induction s as [|c s IH]; intros t com st n H.
  - cbn [app rl_loop]. change (34 =? QUOTE) with true. change (34 =? LF) with false.
    cbn [negb count_occ]. rewrite Z.add_0_r. destruct (rl_loop t _ com st n) as [[r l] u]. reflexivity.
  - cbn [app rl_loop]. assert (c <> 34) by (intros ->; apply H; now left).
    replace (c =? QUOTE) with false by (unfold QUOTE; lia). cbn [negb].
    rewrite IH by (intro; apply H; now right).
    cbn [count_occ]. unfold LF. destruct (Z.eq_dec c 10) as [->|N].
    + change (10 =? 10) with true. cbv iota.
      replace (n + 1 + Z.of_nat (count_occ Z.eq_dec s 10))
        with (n + Z.of_nat (S (count_occ Z.eq_dec s 10))) by lia.
      destruct (rl_loop t false com st _) as [[r l] u]. reflexivity.
    + replace (c =? 10) with false by lia.
      destruct (rl_loop t false com st _) as [[r l] u]. reflexivity.
Qed.

(* One character that ends nothing. *)
Lemma rl_char c t com st n : c <> 10 -> c <> 13 -> c <> 155 ->
  rl_loop (c :: t) false com st n =
  let '(st1, com1, str1) := rl_flags st com c in
  let '(r, l, u) := rl_loop t str1 com1 st1 n in (r, c :: l, u).
Proof.
  intros A B C. cbn [rl_loop]. unfold LF, CR, EOL9B.
  replace (c =? 10) with false by lia. replace (c =? 13) with false by lia.
  replace (c =? 155) with false by lia. reflexivity.
Qed.

Lemma rl_end e t com st n : 
  rl_loop (eol_file e ++ t) false com st n = (n + 1, eol_text e, t).
Proof. destruct e; reflexivity. Qed.

Lemma rl_remark : forall s e t st n, (forall c, In c s -> c <> 10 /\ c <> 13 /\ c <> 155) ->
  rl_loop (s ++ eol_file e ++ t) false true st n = (n + 1, s ++ eol_text e, t).
Proof.
  induction s as [|c s IH]; intros e t st n H; cbn [app].
  - apply rl_end.
  - destruct (H c) as (A & B & C); [now left|]. rewrite rl_char by auto.
    unfold rl_flags. destruct st; [destruct ((c =? DOT) || (c =? APOS))|];
    (rewrite IH; [reflexivity|intros; apply H; now right]).
Qed.

Lemma rl_pieces : forall ps r e t st n, good_pieces st ps -> good_remark (at_start st ps) r ->
  rl_loop (flat_map piece_text ps ++ remark_text r ++ eol_file e ++ t) false false st n =
  (fold_right (fun p n => match p with Lit s => newlines s + n | Ch _ => n end) (n + 1) ps,
   flat_map piece_text ps ++ remark_text r ++ eol_text e, t).
Proof.
  induction ps as [|p ps IH]; intros r e t st n G R.
  - cbn [flat_map app fold_right]. destruct r as [[m s]|]; cbn [remark_text app].
    2: apply rl_end.
    cbn in R. destruct R as (M & S).
    rewrite rl_char by lia.
    assert (F : exists st1, rl_flags st false m = (st1, true, false)).
    { unfold rl_flags, DOT, APOS, BLANK. destruct M as [->|(-> & ->)].
      - destruct st; cbn; eauto.
      - cbn; eauto. }
    destruct F as (st1 & ->). rewrite rl_remark by auto. reflexivity.
  - destruct p as [c|s].
    + cbn in G. destruct G as (P & D & G). cbn [flat_map piece_text].
      rewrite <- app_assoc. cbn [app]. destruct P as (P1 & P2 & P3 & P4 & P5).
      rewrite rl_char by auto.
      assert (F : rl_flags st false c =
                  (if c =? 58 then true else if c =? 32 then st else false, false, false)).
      { unfold rl_flags, DOT, APOS, BLANK, COLON, QUOTE.
        replace (c =? 39) with false by lia. replace (c =? 34) with false by lia.
        destruct st.
        - replace (c =? 46) with false by (specialize (D eq_refl); lia). cbn [orb].
          destruct (c =? 58) eqn:E; destruct (c =? 32); reflexivity.
        - destruct (c =? 58); destruct (c =? 32); reflexivity. }
      rewrite F. cbn in R. rewrite IH by auto. reflexivity.
    + cbn in G. destruct G as (Q & G). cbn [flat_map piece_text].
      rewrite <- app_assoc. cbn [app]. rewrite rl_char by lia.
      assert (F : rl_flags st false 34 = (false, false, true)) by (destruct st; reflexivity).
      rewrite F. rewrite <- app_assoc. cbn [app]. rewrite rl_lit by auto. cbn in R.
      rewrite IH by auto. cbn [fold_right]. rewrite <- !app_assoc. cbn [app].
      replace (fold_right _ (n + newlines s + 1) ps)
        with (newlines s + fold_right (fun p n => match p with Lit s => newlines s + n | Ch _ => n end) (n + 1) ps)
        by (clear; induction ps as [|[|]]; cbn [fold_right]; lia).
      reflexivity.
Qed.

Lemma read_line_ok l t : good_line l ->
  read_line (line_file l ++ t) = (line_count l, line_text l, t).
Proof.
  intros (G & R). unfold read_line, line_file, body_text, line_text.
  unfold body_text. rewrite <- !app_assoc. rewrite rl_pieces by auto. reflexivity.
Qed.

(* The last line may have no end. *)
Lemma rl_remark_open : forall s st n, (forall c, In c s -> c <> 10 /\ c <> 13 /\ c <> 155) ->
  rl_loop s false true st n = (0, s, []).
Proof.
  induction s as [|c s IH]; intros st n H; [reflexivity|].
  destruct (H c) as (A & B & C); [now left|]. rewrite rl_char by auto.
  unfold rl_flags. destruct st; [destruct ((c =? DOT) || (c =? APOS))|];
    (rewrite IH; [reflexivity|intros; apply H; now right]).
Qed.

Lemma rl_pieces_open : forall ps r st n, good_pieces st ps -> good_remark (at_start st ps) r ->
  rl_loop (flat_map piece_text ps ++ remark_text r) false false st n =
  (0, flat_map piece_text ps ++ remark_text r, []).
Proof.
  induction ps as [|p ps IH]; intros r st n G R.
  - cbn [flat_map app]. destruct r as [[m s]|]; cbn [remark_text app]; [|reflexivity].
    cbn in R. destruct R as (M & S). rewrite rl_char by lia.
    assert (F : exists st1, rl_flags st false m = (st1, true, false)).
    { unfold rl_flags, DOT, APOS, BLANK. destruct M as [->|(-> & ->)].
      - destruct st; cbn; eauto.
      - cbn; eauto. }
    destruct F as (st1 & ->). rewrite rl_remark_open by auto. reflexivity.
  - destruct p as [c|s].
    + cbn in G. destruct G as (P & D & G). cbn [flat_map piece_text].
      rewrite <- app_assoc. cbn [app]. destruct P as (P1 & P2 & P3 & P4 & P5).
      rewrite rl_char by auto.
      assert (F : rl_flags st false c =
                  (if c =? 58 then true else if c =? 32 then st else false, false, false)).
      { unfold rl_flags, DOT, APOS, BLANK, COLON, QUOTE.
        replace (c =? 39) with false by lia. replace (c =? 34) with false by lia.
        destruct st.
        - replace (c =? 46) with false by (specialize (D eq_refl); lia). cbn [orb].
          destruct (c =? 58) eqn:E; destruct (c =? 32); reflexivity.
        - destruct (c =? 58); destruct (c =? 32); reflexivity. }
      rewrite F. cbn in R. rewrite IH by auto. reflexivity.
    + cbn in G. destruct G as (Q & G). cbn [flat_map piece_text].
      rewrite <- app_assoc. cbn [app]. rewrite rl_char by lia.
      assert (F : rl_flags st false 34 = (false, false, true)) by (destruct st; reflexivity).
      rewrite F. rewrite <- app_assoc. cbn [app]. rewrite rl_lit by auto. cbn in R.
      rewrite IH by auto. rewrite <- ?app_assoc. reflexivity.
Qed.

Lemma line_text_ne l : line_text l <> [].
Proof. unfold line_text. intro H. apply app_eq_nil in H. destruct H as (_ & H). now destruct (ending l). Qed.

Lemma read_file_lines : forall ls fuel ln tail, Forall good_line ls ->
  (tail = [] \/ exists l, good_line l /\ tail = body_text l) ->
  (List.length (flat_map line_file ls ++ tail) < fuel)%nat ->
  read_file fuel ln (flat_map line_file ls ++ tail) =
  Some (numbered ln ls ++ match tail with [] => [] | _ =>
     [(fold_left (fun n l => n + line_count l) ls ln, tail)] end).
Proof.
  induction ls as [|l ls IH]; intros fuel ln tail F T L.
  - cbn [flat_map app numbered fold_left]. cbn [flat_map app] in L.
    destruct fuel as [|fuel]; [lia|]. cbn [read_file].
    destruct T as [->|(l & (G & R) & T)]; [reflexivity|].
    destruct tail as [|c t]; [reflexivity|].
    rewrite T at 1. unfold body_text, read_line.
    rewrite rl_pieces_open by auto. fold (body_text l). rewrite <- T.
    cbn [andb]. rewrite andb_false_r. destruct fuel as [|fuel]; [cbn in L; lia|].
    reflexivity.
  - inversion F as [|? ? G F']; subst. cbn [flat_map] in *. rewrite <- app_assoc in *.
    destruct fuel as [|fuel]; [lia|]. cbn [read_file].
    assert (N : line_file l ++ flat_map line_file ls ++ tail <> []).
    { intro H. apply app_eq_nil in H. destruct H as (H & _). unfold line_file in H.
      apply app_eq_nil in H. destruct H as (_ & H). now destruct (ending l). }
    pose proof (read_line_ok l (flat_map line_file ls ++ tail) G) as E.
    pose proof (read_line_shorter _ _ _ _ E N) as SH. rewrite E.
    replace ((line_count l =? 0) && match line_text l with [] => true | _ => false end)
      with false by (pose proof (line_text_ne l); destruct (line_text l); [congruence|]; now rewrite andb_false_r).
    rewrite IH by (auto; lia). reflexivity.
Qed.

(* ---- numbers ---- *)
Lemma hex_digit_char d c : hex_char d c -> hex_digit c = Some d.
Proof.
  unfold hex_char, hex_digit. intros [(A & ->)|(A & [->| ->])].
  - replace (48 <=? 48 + d) with true by lia. replace (48 + d <=? 57) with true by lia.
    cbn [andb]. f_equal; lia.
  - replace (55 + d <=? 57) with false by lia. rewrite andb_false_r.
    replace (97 <=? 55 + d) with false by lia. cbn [andb].
    replace (65 <=? 55 + d) with true by lia. replace (55 + d <=? 70) with true by lia.
    cbn [andb]. f_equal; lia.
  - replace (87 + d <=? 57) with false by lia. rewrite andb_false_r.
    replace (97 <=? 87 + d) with true by lia. replace (87 + d <=? 102) with true by lia.
    cbn [andb]. f_equal; lia.
Qed.

Lemma hex_digit_inv c d : hex_digit c = Some d -> hex_char d c.
Proof.
  unfold hex_digit, hex_char. destruct ((48 <=? c) && (c <=? 57)) eqn:E1.
  { intro H. assert (d = c - 48) by congruence. left. lia. }
  destruct ((97 <=? c) && (c <=? 102)) eqn:E2.
  { intro H. assert (d = 10 + (c - 97)) by congruence. right. lia. }
  destruct ((65 <=? c) && (c <=? 70)) eqn:E3; [|discriminate].
  intro H. assert (d = 10 + (c - 65)) by congruence. right. lia.
Qed.

Lemma dec_digit_char d c : dec_char d c -> dec_digit c = Some d.
Proof.
  unfold dec_char, dec_digit. intros (A & ->).
  replace (48 <=? 48 + d) with true by lia. replace (48 + d <=? 57) with true by lia.
  cbn [andb]. f_equal; lia.
Qed.

Lemma dec_digit_inv c d : dec_digit c = Some d -> dec_char d c.
Proof.
  unfold dec_digit, dec_char. destruct ((48 <=? c) && (c <=? 57)) eqn:E1; [|discriminate].
  intro H. assert (d = c - 48) by congruence. lia.
Qed.

Section Num.
  Variables (dig : Z -> option Z) (base : Z) (char : Z -> Z -> Prop).
  Hypothesis B : 1 <= base.
  Hypothesis dig_char : forall d c, char d c -> dig c = Some d.
  Hypothesis char_dig : forall c d, dig c = Some d -> char d c.
  Hypothesis char_pos : forall d c, char d c -> 0 <= d.

  Definition fold (num : Z) (ds : list Z) : Z := fold_left (fun v d => v * base + d) ds num.

  Lemma fold_mono : forall ds cs num, Forall2 char ds cs -> 0 <= num -> num <= fold num ds.
  Proof using B dig_char char_dig char_pos.
    unfold fold. induction ds as [|d ds IH]; intros cs num F N; cbn; [lia|].
    inversion F as [|? c ? cs' C F']; subst. pose proof (char_pos _ _ C) as CP.
    assert (num <= num * base + d) by (pose proof (Z.mul_le_mono_nonneg_l 1 base num N B); lia).
    specialize (IH cs' (num * base + d) F' ltac:(lia)). lia.
  Qed.

  Lemma num_loop_fit : forall ds cs rest num any, Forall2 char ds cs -> 0 <= num ->
    (forall c, hd_error rest = Some c -> dig c = None) -> fold num ds <= 65535 ->
    num_loop dig base (cs ++ rest) num any =
    (if any || negb (match ds with [] => true | _ => false end) then fold num ds else 65536, rest).
  Proof using B dig_char char_dig char_pos.
    induction ds as [|d ds IH]; intros cs rest num any F N R L.
    - inversion F; subst. cbn [app]. unfold fold in *. cbn [fold_left] in *. rewrite orb_false_r.
      destruct rest as [|c t]; [reflexivity|]. cbn [num_loop]. now rewrite (R c eq_refl).
    - inversion F as [|? c ? cs' C F']; subst. cbn [app num_loop]. rewrite (dig_char _ _ C).
      pose proof (char_pos _ _ C) as CP.
      assert (0 <= num * base + d) by nia.
      pose proof (fold_mono ds cs' (num * base + d) F' H) as M.
      assert (L' : fold (num * base + d) ds <= 65535) by exact L.
      replace (65535 <? num * base + d) with false by lia.
      rewrite (IH cs' rest) by auto. cbn [orb negb]. rewrite orb_true_r. reflexivity.
  Qed.

  Lemma num_loop_big : forall ds cs rest num any, Forall2 char ds cs -> 0 <= num ->
    65535 < fold num ds -> num <= 65535 ->
    65535 < fst (num_loop dig base (cs ++ rest) num any).
  Proof using B dig_char char_dig char_pos.
    induction ds as [|d ds IH]; intros cs rest num any F N L K.
    - unfold fold in L. cbn in L. lia.
    - inversion F as [|? c ? cs' C F']; subst. cbn [app num_loop]. rewrite (dig_char _ _ C).
      pose proof (char_pos _ _ C) as CP.
      assert (0 <= num * base + d) by nia.
      destruct (65535 <? num * base + d) eqn:E; [cbn; lia|].
      apply (IH cs'); auto. lia.
  Qed.

  (* What a successful read has taken. *)
  Lemma num_loop_inv : forall inp num any v u, 0 <= num <= 65535 ->
    num_loop dig base inp num any = (v, u) -> v <= 65535 ->
    exists ds cs, inp = cs ++ u /\ Forall2 char ds cs /\ v = fold num ds /\
      (any = true \/ ds <> []) /\ (forall c, hd_error u = Some c -> dig c = None).
  Proof using B dig_char char_dig char_pos.
    induction inp as [|c t IH]; intros num any v u N E V; cbn [num_loop] in E.
    - injection E as <- <-. exists [], []. destruct any; [|lia].
      repeat split; auto. discriminate.
    - destruct (dig c) as [d|] eqn:D.
      + pose proof (char_dig _ _ D) as CD. pose proof (char_pos _ _ CD) as CP.
        destruct (65535 <? num * base + d) eqn:G.
        { injection E as <- <-. lia. }
        apply IH in E; [|nia|auto]. destruct E as (ds & cs & -> & F & -> & A & R).
        exists (d :: ds), (c :: cs). repeat split; auto. right; discriminate.
      + injection E as <- <-. exists [], []. destruct any; [|lia].
        repeat split; auto. cbn. intros c' H; injection H as <-. exact D.
  Qed.
End Num.

Lemma no_digit_hex rest : no_digit 16 rest <-> forall c, hd_error rest = Some c -> hex_digit c = None.
Proof.
  unfold no_digit, digit_char. cbn [Z.eqb Pos.eqb]. split; intros H c E.
  - destruct (hex_digit c) eqn:D; auto. apply hex_digit_inv in D. destruct (H c E _ D).
  - intros d X. apply hex_digit_char in X. rewrite (H c E) in X. discriminate.
Qed.
Lemma no_digit_dec rest : no_digit 10 rest <-> forall c, hd_error rest = Some c -> dec_digit c = None.
Proof.
  unfold no_digit, digit_char. cbn [Z.eqb Pos.eqb]. split; intros H c E.
  - destruct (dec_digit c) eqn:D; auto. apply dec_digit_inv in D. destruct (H c E _ D).
  - intros d X. apply dec_digit_char in X. rewrite (H c E) in X. discriminate.
Qed.

Lemma hex_pos d c : hex_char d c -> 0 <= d. Proof. unfold hex_char; lia. Qed.
Lemma dec_pos d c : dec_char d c -> 0 <= d. Proof. unfold dec_char; lia. Qed.

Lemma get_hex_fit ds cs rest : ds <> [] -> Forall2 hex_char ds cs -> no_digit 16 rest ->
  value 16 ds <= 65535 -> get_hex (cs ++ rest) = (value 16 ds, rest).
Proof.
  intros N F R V. unfold get_hex.
  rewrite (num_loop_fit hex_digit 16 hex_char ltac:(lia) hex_digit_char hex_digit_inv hex_pos
             ds cs rest 0 false F); auto; [|lia|now apply no_digit_hex].
  destruct ds; [congruence|reflexivity].
Qed.
Lemma get_dec_fit ds cs rest : ds <> [] -> Forall2 dec_char ds cs -> no_digit 10 rest ->
  value 10 ds <= 65535 -> get_dec (cs ++ rest) = (value 10 ds, rest).
Proof.
  intros N F R V. unfold get_dec.
  rewrite (num_loop_fit dec_digit 10 dec_char ltac:(lia) dec_digit_char dec_digit_inv dec_pos
             ds cs rest 0 false F); auto; [|lia|now apply no_digit_dec].
  destruct ds; [congruence|reflexivity].
Qed.
Lemma get_hex_big ds cs rest : Forall2 hex_char ds cs -> 65535 < value 16 ds ->
  65535 < fst (get_hex (cs ++ rest)).
Proof.
  intros F V. unfold get_hex.
  apply (num_loop_big hex_digit 16 hex_char ltac:(lia) hex_digit_char hex_digit_inv hex_pos ds); auto; lia.
Qed.
Lemma get_dec_big ds cs rest : Forall2 dec_char ds cs -> 65535 < value 10 ds ->
  65535 < fst (get_dec (cs ++ rest)).
Proof.
  intros F V. unfold get_dec.
  apply (num_loop_big dec_digit 10 dec_char ltac:(lia) dec_digit_char dec_digit_inv dec_pos ds); auto; lia.
Qed.
Lemma get_hex_inv inp v u : get_hex inp = (v, u) -> v <= 65535 ->
  exists ds cs, inp = cs ++ u /\ ds <> [] /\ Forall2 hex_char ds cs /\ v = value 16 ds /\ no_digit 16 u.
Proof.
  intros E V. unfold get_hex in E.
  apply (num_loop_inv hex_digit 16 hex_char ltac:(lia) hex_digit_char hex_digit_inv hex_pos) in E; [|lia|auto].
  destruct E as (ds & cs & A & F & W & [X|X] & R); [discriminate|].
  exists ds, cs. repeat split; auto. now apply no_digit_hex.
Qed.
Lemma get_dec_inv inp v u : get_dec inp = (v, u) -> v <= 65535 ->
  exists ds cs, inp = cs ++ u /\ ds <> [] /\ Forall2 dec_char ds cs /\ v = value 10 ds /\ no_digit 10 u.
Proof.
  intros E V. unfold get_dec in E.
  apply (num_loop_inv dec_digit 10 dec_char ltac:(lia) dec_digit_char dec_digit_inv dec_pos) in E; [|lia|auto].
  destruct E as (ds & cs & A & F & W & [X|X] & R); [discriminate|].
  exists ds, cs. repeat split; auto. now apply no_digit_dec.
Qed.

Lemma value_pos base ds : 0 <= base -> (forall d, In d ds -> 0 <= d) -> 0 <= value base ds.
Proof.
  intros B. unfold value. assert (G : forall v, 0 <= v -> (forall d, In d ds -> 0 <= d) ->
    0 <= fold_left (fun v d => v * base + d) ds v).
  { induction ds as [|d ds IH]; intros v V H; cbn; auto. apply IH.
    - specialize (H d (or_introl eq_refl)). nia.
    - intros; apply H; now right. }
  intros; apply G; auto; lia.
Qed.
Lemma hex_value_pos ds cs : Forall2 hex_char ds cs -> 0 <= value 16 ds.
Proof.
  intro F. apply value_pos; [lia|]. induction F; intros d [].
  - subst. eapply hex_pos; eauto.
  - auto.
Qed.
Lemma dec_value_pos ds cs : Forall2 dec_char ds cs -> 0 <= value 10 ds.
Proof.
  intro F. apply value_pos; [lia|]. induction F; intros d [].
  - subst. eapply dec_pos; eauto.
  - auto.
Qed.

(* The first character of a decimal number is neither $, - nor a dot. *)
Lemma eat_dec c d cs : dec_char d c -> forall x, x < 48 -> eat x (c :: cs) = None.
Proof. intros (A & ->) x X. unfold eat. replace (48 + d =? x) with false by lia. reflexivity. Qed.

(* ---- string literals ---- *)

(* ---- string literals ---- *)
Lemma eat_some c inp u : eat c inp = Some u -> inp = c :: u.
Proof. destruct inp as [|p t]; cbn; [discriminate|]. destruct (Z.eqb_spec p c); congruence. Qed.
Lemma eat_none c inp : eat c inp = None -> hd_error inp <> Some c.
Proof. destruct inp as [|p t]; cbn; [discriminate|]. destruct (Z.eqb_spec p c); congruence. Qed.
Lemma eat_none_i c inp : hd_error inp <> Some c -> eat c inp = None.
Proof. destruct inp as [|p t]; cbn; auto. destruct (Z.eqb_spec p c); congruence. Qed.
Lemma eat_cons c u : eat c (c :: u) = Some u.
Proof. cbn. now rewrite Z.eqb_refl. Qed.

Lemma esc_sound : forall fuel inp acc s u, esc_loop fuel inp acc = Some (s, u) ->
  exists s', s = acc ++ s' /\
  (forall u' s2 r, eat QUOTE u = Some u' -> Lit_in u' s2 r -> Lit_out (36 :: inp) (s' ++ s2) r) /\
  (eat QUOTE u = None -> Lit_out (36 :: inp) s' u).
Proof.
  induction fuel; intros inp acc s u E; [discriminate|]. cbn [esc_loop] in E.
  destruct (get_hex inp) as [c v] eqn:G. destruct (255 <? c) eqn:L; [discriminate|].
  apply get_hex_inv in G; [|lia]. destruct G as (ds & cs & -> & N & F & -> & R).
  destruct (eat DOLLAR v) as [w|] eqn:D.
  - apply IHfuel in E. destruct E as (s' & -> & E1 & E2). apply eat_some in D. subst v.
    exists (value 16 ds :: s'). rewrite <- app_assoc. split; [reflexivity|]. split.
    + intros u' s2 r Q I. cbn [app]. apply Lo_more; auto; [lia|]. eapply E1; eauto.
    + intro Q. apply Lo_more; auto; lia.
  - injection E as <- <-. exists [value 16 ds]. split; [reflexivity|]. split.
    + intros u' s2 r Q I. apply eat_some in Q. subst v. cbn [app]. apply Lo_again; auto. lia.
    + intro Q. apply Lo_end; auto; [lia| |]; now apply eat_none.
Qed.

Lemma const_string_sound : forall fuel inp acc s r, const_string fuel inp acc = Some (s, r) ->
  exists s', s = acc ++ s' /\ Lit_in inp s' r.
Proof.
  induction fuel; intros inp acc s r E; [discriminate|]. cbn [const_string] in E.
  destruct inp as [|c t]; [discriminate|]. destruct (Z.eqb_spec c QUOTE) as [->|C].
  - destruct (eat QUOTE t) as [u|] eqn:Q.
    { apply IHfuel in E. destruct E as (s' & -> & I). apply eat_some in Q. subst t.
      exists (QUOTE :: s'). rewrite <- app_assoc. split; [reflexivity|]. now apply Li_quote. }
    destruct (eat DOLLAR t) as [u|] eqn:D.
    + destruct (esc_loop _ u acc) as [[acc' v]|] eqn:X; [|discriminate].
      apply esc_sound in X. destruct X as (s1 & -> & X1 & X2).
      apply eat_some in D. subst t. destruct (eat QUOTE v) as [w|] eqn:W.
      * apply IHfuel in E. destruct E as (s2 & -> & I). exists (s1 ++ s2).
        rewrite <- app_assoc. split; [reflexivity|]. apply Li_esc. eapply X1; eauto.
      * injection E as <- <-. exists s1. split; [reflexivity|]. apply Li_esc. now apply X2.
    + injection E as <- <-. exists []. rewrite app_nil_r. split; [reflexivity|].
      apply Li_end; now apply eat_none.
  - apply IHfuel in E. destruct E as (s' & -> & I). exists (c :: s').
    rewrite <- app_assoc. split; [reflexivity|]. now apply Li_char.
Qed.

Scheme Lit_in_mut := Minimality for Lit_in Sort Prop
  with Lit_out_mut := Minimality for Lit_out Sort Prop.
Combined Scheme Lit_mut from Lit_in_mut, Lit_out_mut.

Lemma lit_out_dollar t s r : Lit_out t s r -> exists u, t = 36 :: u.
Proof. inversion 1; eauto. Qed.

Lemma hex_first ds cs d c : Forall2 hex_char (d :: ds) (c :: cs) -> c <> 34 /\ c <> 36.
Proof. inversion 1; subst. unfold hex_char in *. lia. Qed.

Lemma no_digit_lt x t : x < 48 -> no_digit 16 (x :: t).
Proof.
  intros H c E d. cbn in E. injection E as <-. unfold digit_char, hex_char.
  cbn [Z.eqb Pos.eqb]. lia.
Qed.

Lemma const_string_complete :
  (forall inp s r, Lit_in inp s r -> forall fuel acc, (List.length inp < fuel)%nat ->
     const_string fuel inp acc = Some (acc ++ s, r)) /\
  (forall inp s r, Lit_out inp s r -> forall t, inp = 36 :: t -> forall fuel k acc,
     (List.length t < fuel)%nat -> (List.length t < k)%nat ->
     match esc_loop fuel t acc with
     | None => None
     | Some (acc, u) =>
       match eat QUOTE u with Some u => const_string k u acc | None => Some (acc, u) end
     end = Some (acc ++ s, r)).
Proof.
  apply Lit_mut.
  - intros c t s r C _ IH fuel acc L. destruct fuel; [lia|]. cbn [List.length] in L.
    cbn [const_string]. replace (c =? QUOTE) with false by (unfold QUOTE; lia).
    rewrite IH by lia. now rewrite <- app_assoc.
  - intros t s r _ IH fuel acc L. destruct fuel; [lia|]. cbn [List.length] in L.
    cbn [const_string]. change (34 =? QUOTE) with true. change 34 with QUOTE. rewrite eat_cons.
    rewrite IH by lia. now rewrite <- app_assoc.
  - intros r Q D fuel acc L. destruct fuel; [lia|]. cbn [List.length] in L.
    cbn [const_string]. change (34 =? QUOTE) with true. cbv iota.
    rewrite (eat_none_i QUOTE r) by exact Q. rewrite (eat_none_i DOLLAR r) by exact D.
    now rewrite app_nil_r.
  - intros t s r O IH fuel acc L. destruct fuel; [lia|]. cbn [List.length] in L.
    destruct (lit_out_dollar _ _ _ O) as (u & ->).
    cbn [const_string]. change (34 =? QUOTE) with true. cbv iota.
    rewrite (eat_none_i QUOTE) by (cbn; discriminate).
    change 36 with DOLLAR. rewrite eat_cons. cbn [List.length] in L.
    apply (IH u eq_refl); cbn [List.length]; lia.
  - intros ds cs t s r N F V O IH t' E fuel k acc L K. injection E as <-.
    destruct (lit_out_dollar _ _ _ O) as (u & ->).
    destruct fuel; [lia|]. cbn [esc_loop].
    rewrite (get_hex_fit ds cs) by (auto using no_digit_lt with zarith; lia).
    replace (255 <? value 16 ds) with false by lia.
    change 36 with DOLLAR. rewrite eat_cons.
    rewrite app_length in L, K. cbn [List.length] in L, K.
    rewrite (IH u eq_refl) by lia. now rewrite <- app_assoc.
  - intros ds cs t s r N F V O IH t' E fuel k acc L K. injection E as <-.
    destruct fuel; [lia|]. cbn [esc_loop].
    rewrite (get_hex_fit ds cs) by (auto using no_digit_lt with zarith; lia).
    replace (255 <? value 16 ds) with false by lia.
    rewrite (eat_none_i DOLLAR) by (cbn; discriminate).
    change 34 with QUOTE. rewrite eat_cons.
    rewrite app_length in L, K. cbn [List.length] in L, K.
    rewrite IH by lia. now rewrite <- app_assoc.
  - intros ds cs r N F V R Q D t' E fuel k acc L K. injection E as <-.
    destruct fuel; [lia|]. cbn [esc_loop].
    rewrite (get_hex_fit ds cs) by (auto; lia).
    replace (255 <? value 16 ds) with false by lia.
    rewrite (eat_none_i DOLLAR r) by exact D. rewrite (eat_none_i QUOTE r) by exact Q.
    reflexivity.
Qed.

Lemma get_const_string_spec inp s r :
  get_const_string inp = Some (s, r) <-> Lit_in inp s r.
Proof.
  unfold get_const_string. split; intro H.
  - apply const_string_sound in H. destruct H as (s' & -> & I). exact I.
  - destruct const_string_complete as (C & _). rewrite (C _ _ _ H) by lia. reflexivity.
Qed.

(* Listings. *)
Lemma hexd_char c : hex_char (c mod 16) (hexd c).
Proof. unfold hex_char, hexd. cbn zeta. destruct (c mod 16 <? 10) eqn:E; lia. Qed.

Lemma esc2_ok c rest s r : 0 <= c <= 255 ->
  Lit_out rest s r -> Lit_out (esc2 c ++ rest) (c :: s) r.
Proof.
  intros B O. assert (V : value 16 [(c / 16) mod 16; c mod 16] = c) by (unfold value; cbn [fold_left]; lia).
  rewrite <- V at 2. unfold esc2. cbn [app].
  change (hexd (c / 16) :: hexd c :: rest) with ([hexd (c / 16); hexd c] ++ rest).
  apply Lo_more; auto; [discriminate| |lia].
  constructor; [apply hexd_char|]. constructor; [apply hexd_char|constructor].
Qed.
Lemma esc2_again c rest s r : 0 <= c <= 255 ->
  Lit_in rest s r -> Lit_out (esc2 c ++ 34 :: rest) (c :: s) r.
Proof.
  intros B O. assert (V : value 16 [(c / 16) mod 16; c mod 16] = c) by (unfold value; cbn [fold_left]; lia).
  rewrite <- V at 2. unfold esc2. cbn [app].
  change (hexd (c / 16) :: hexd c :: 34 :: rest) with ([hexd (c / 16); hexd c] ++ 34 :: rest).
  apply Lo_again; auto; [discriminate| |lia].
  constructor; [apply hexd_char|]. constructor; [apply hexd_char|constructor].
Qed.
Lemma esc2_end c r : 0 <= c <= 255 -> no_digit 16 r -> hd_error r <> Some 34 ->
  hd_error r <> Some 36 -> Lit_out (esc2 c ++ r) [c] r.
Proof.
  intros B ND Q D. assert (V : value 16 [(c / 16) mod 16; c mod 16] = c) by (unfold value; cbn [fold_left]; lia).
  rewrite <- V at 2. unfold esc2. cbn [app].
  change (hexd (c / 16) :: hexd c :: r) with ([hexd (c / 16); hexd c] ++ r).
  apply Lo_end; auto; [discriminate| |lia].
  constructor; [apply hexd_char|]. constructor; [apply hexd_char|constructor].
Qed.

Lemma text_str_lit rest : no_digit 16 rest -> hd_error rest <> Some 34 ->
  hd_error rest <> Some 36 ->
  forall s, Forall (fun c => 0 <= c <= 255) s ->
  Lit_in (text_str s true ++ rest) s rest /\
  (forall c, 0 <= c <= 255 -> Lit_out (esc2 c ++ text_str s false ++ rest) (c :: s) rest).
Proof.
  intros ND Q D. induction s as [|x s IH]; intro F.
  - split; [now apply Li_end|]. intros c B. cbn [text_str app]. now apply esc2_end.
  - inversion F as [|? ? X F']; subst. destruct (IH F') as (A & B). clear IH. split.
    + cbn [text_str]. destruct (Z.eqb_spec x QUOTE) as [->|N].
      { cbn [app]. now apply Li_quote. }
      destruct (unprintable x).
      { cbn [app]. rewrite <- app_assoc. apply Li_esc. now apply B. }
      cbn [app]. now apply Li_char.
    + intros c C. cbn [text_str]. destruct (unprintable x || (x =? QUOTE)) eqn:U.
      * rewrite <- !app_assoc. apply esc2_ok; auto.
      * cbn [app]. apply esc2_again; auto. apply Li_char; auto.
        unfold QUOTE in U. lia.
Qed.

Lemma short_str_lit rest : hd_error rest <> Some 34 -> hd_error rest <> Some 36 ->
  forall s, Lit_in (short_str s ++ rest) s rest.
Proof.
  intros Q D. induction s as [|x s IH].
  - now apply Li_end.
  - cbn [short_str]. destruct (Z.eqb_spec x QUOTE) as [->|N]; cbn [app].
    + now apply Li_quote.
    + now apply Li_char.
Qed.
