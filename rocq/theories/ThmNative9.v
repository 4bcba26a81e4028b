(* Strings from the source of a program to the compiler on the Atari: the line reader and the string literals
   together, and the same for numbers, properties C59 and C55. *)
From Verif Require Import Codew Text SpecText TextPf ThmText SpecString SpecLit SpecLine NativeLit ThmNative2 ThmNative5.

Definition up (c : Z) : Z := if (97 <=? c) && (c <=? 122) then c - 32 else c.
Lemma upper_no q c l : c <> 34 -> upper q (c :: l) = (if q then c else up c) :: upper q l.
Proof. intros N. cbn [upper]. rewrite (proj2 (Z.eqb_neq c 34) N). destruct q; reflexivity. Qed.
Lemma up_same c k : 0 <= k < 65 -> (up c = k <-> c = k).
Proof. intros B. unfold up. destruct (Z.leb_spec 97 c), (Z.leb_spec c 122); cbn [andb]; lia. Qed.
Lemma upper_hd l k : 0 <= k < 65 -> hd 155 l <> k -> hd 155 (upper false l) <> k.
Proof.
  intros B N. destruct l as [|c l]; [exact N|]. cbn [hd] in N. destruct (Z.eq_dec c 34) as [->|E]; [exact N|]. rewrite upper_no by exact E. cbn [hd]. rewrite up_same by exact B. exact N.
Qed.
Lemma up_hex d c : hex_char d c -> c <> 34 /\ digit16 d (up c).
Proof. unfold hex_char, digit16, up. intros H. destruct (Z.leb_spec 97 c), (Z.leb_spec c 122); cbn [andb]; lia. Qed.
Lemma upper_codes ds cs t : Forall2 hex_char ds cs -> upper false (cs ++ t) = map up cs ++ upper false t /\ Forall2 digit16 ds (map up cs).
Proof.
  induction 1 as [|d c ds cs H F IH]; [split; [reflexivity|constructor]|]. destruct (up_hex _ _ H) as (N & D). destruct IH as (I1 & I2). cbn [app map]. rewrite upper_no by exact N. rewrite I1. split; [reflexivity|]. constructor; assumption.
Qed.
Lemma lit_upper l s u : Lit_in l s u -> (forall c, List.In c l -> c <> 155) -> quoted (upper true l) s (upper false u).
Proof.
  assert (HD : forall r k, hd_error r <> Some k -> k <> 155 -> hd 155 r <> k) by (intros [|c r] k H N; cbn in *; congruence).
  revert l s u.
  apply (Lit_in_ind2 (fun l s u _ => (forall c, List.In c l -> c <> 155) -> quoted (upper true l) s (upper false u))
    (fun l s u _ => (forall c, List.In c l -> c <> 155) -> exists t, upper false l = 36 :: t /\ codes (36 :: t) s (upper false u))).
  - intros c t s r N _ IH N155. rewrite upper_no by exact N. apply Q_char; [exact N|apply N155; now left|]. apply IH. intros; apply N155; now right.
  - intros t s r _ IH N155. change (upper true (34 :: 34 :: t)) with (34 :: 34 :: upper true t). apply Q_quote. apply IH. intros; apply N155; now do 2 right.
  - intros r N1 N2 _. change (upper true (34 :: r)) with (34 :: upper false r). apply Q_end; (apply upper_hd; [lia|]; apply HD; [assumption|lia]).
  - intros t s r _ IH N155. change (upper true (34 :: t)) with (34 :: upper false t). destruct IH as (t' & -> & IH); [intros; apply N155; now right|]. now apply Q_codes.
  - intros ds cs t s r N F V _ IH N155. rewrite upper_no by lia. destruct (upper_codes ds cs t F) as (-> & F'). destruct IH as (t' & E & IH); [intros; apply N155; right; apply in_or_app; now right|]. rewrite E. rewrite <- value_16 in *. pose proof (value16_pos _ _ F').
    eexists. split; [reflexivity|]. change (36 :: map up cs ++ 36 :: t') with (36 :: map up cs ++ (36 :: t')). replace (SpecString.value16 ds) with (SpecString.value16 ds mod 256) by (apply Z.mod_small; lia).
    apply C_code; auto; [intros d D; unfold digit16 in D; lia|lia|now apply A_more].
  - intros ds cs t s r N F V _ IH N155. rewrite upper_no by lia. destruct (upper_codes ds cs (34 :: t) F) as (-> & F'). change (upper false (34 :: t)) with (34 :: upper true t). rewrite <- value_16 in *. pose proof (value16_pos _ _ F').
    eexists. split; [reflexivity|]. replace (SpecString.value16 ds) with (SpecString.value16 ds mod 256) by (apply Z.mod_small; lia).
    apply C_code; auto; [intros d D; unfold digit16 in D; lia|lia|]. apply A_again. apply IH. intros; apply N155; right; apply in_or_app; right; now right.
  - intros ds cs r N F V NO N1 N2 N155. rewrite upper_no by lia. destruct (upper_codes ds cs r F) as (-> & F'). rewrite <- value_16 in *. pose proof (value16_pos _ _ F').
    eexists. split; [reflexivity|]. replace (SpecString.value16 ds) with (SpecString.value16 ds mod 256) by (apply Z.mod_small; lia).
    apply C_code; auto; [|lia|apply A_stop; (apply upper_hd; [lia|]; apply HD; [assumption|lia])].
    destruct r as [|c r]; [exact I|]. destruct (Z.eq_dec c 34) as [->|E]; [intros d D; unfold digit16 in D; lia|]. rewrite upper_no by exact E. intros d D. apply (NO c eq_refl d). change (hex_char d c). unfold digit16, up in D. unfold hex_char.
    destruct (Z.leb_spec 97 c), (Z.leb_spec c 122); cbn [andb] in D; lia.
Qed.

(* quotes before a place of a line *)
Definition quotes (l : list Z) : nat := List.length (filter (Z.eqb 34) l).
Lemma upper_app : forall a q b, upper q (a ++ b) = upper q a ++ upper (if Nat.even (quotes a) then q else negb q) b.
Proof.
  induction a as [|c a IH]; intros q b; [reflexivity|]. cbn [app]. unfold quotes. cbn [filter]. destruct (Z.eqb_spec 34 c) as [<-|N].
  - cbn [upper List.length]. change (34 =? 34) with true. cbv iota. rewrite IH. fold (quotes a). rewrite Nat.even_succ, <- Nat.negb_even. destruct (Nat.even (quotes a)); cbn [negb app]; rewrite ?Bool.negb_involutive; reflexivity.
  - rewrite !upper_no by congruence. rewrite IH. reflexivity.
Qed.
(* ==== C59 ==== *)
(* A line of the source with a string that the cross compiler takes, after pre and the opening quote: the line
   that the compiler on the Atari makes of it (C60) has a string at the same place, with the same bytes, and after it
   comes what it makes of the rest of the line. *)
Theorem C59_source : forall pre inp bs u, (forall c, List.In c inp -> c <> 155) -> Nat.even (quotes pre) = true -> get_const_string inp = Some (bs, u) ->
  exists l, upper false (pre ++ 34 :: inp) = upper false pre ++ 34 :: l /\ forall bs' u', quoted l bs' u' <-> bs' = bs /\ u' = upper false u.
Proof.
  intros pre inp bs u N155 EV G. exists (upper true inp). split; [rewrite upper_app, EV; reflexivity|]. apply get_const_string_spec in G. pose proof (lit_upper _ _ _ G N155) as HQ.
  intros bs' u'. split; [intro H; destruct (quoted_one _ _ _ _ _ H HQ); auto|intros (-> & ->); exact HQ].
Qed.
Print Assumptions C59_source.
(* the line  print "aB"$9b"c",x  *)
Example C59_source_case : let pre := [112; 114; 105; 110; 116; 32] in let inp := [97; 66; 34; 36; 57; 98; 34; 99; 34; 44; 120] in
  (forall c, List.In c inp -> c <> 155) /\ Nat.even (quotes pre) = true /\ get_const_string inp = Some ([97; 66; 155; 99], [44; 120]) /\
  upper false (pre ++ 34 :: inp) = [80; 82; 73; 78; 84; 32; 34; 97; 66; 34; 36; 57; 66; 34; 99; 34; 44; 88].
Proof. cbv zeta. split; [intros c H; cbn in H; intuition lia|]. split; [reflexivity|]. split; vm_compute; reflexivity. Qed.

Lemma number_point inp w u : get_number inp = (w, u) -> w <= 65535 -> hd_error inp <> Some 36 -> hd_error u <> Some 46.
Proof.
  intros E W N. unfold get_number in E. destruct (eat DOLLAR inp) as [t|] eqn:D; [apply eat_some in D; subst inp; now elim N|]. clear N D.
  assert (G : forall (sign : bool) t, (let '(num, w) := get_dec t in
      if (65535 <? num) || (num <? 0) then (65536, w)
      else match eat DOT w with Some _ => (65536, inp) | None => (if sign then 65536 - num else num, w) end) = (w, u) -> hd_error u <> Some 46).
  { intros sign t H. destruct (get_dec t) as [num r]. destruct ((65535 <? num) || (num <? 0)); [injection H as <- <-; lia|]. destruct (eat DOT r) eqn:X; [injection H as <- <-; lia|].
    assert (u = r) as -> by congruence. intros Y. destruct r as [|c r]; [discriminate|]. injection Y as ->. vm_compute in X. discriminate X. }
  destruct (eat MINUS inp); [apply (G true) in E|apply (G false) in E]; exact E.
Qed.
(* ==== C55 ==== *)
(* A number that the cross compiler takes, in upper or lower case: in the line of the compiler on the Atari it is a
   number with the same value, and after it comes what is made of the rest of the line. *)
Theorem C55_source : forall fp inp w u, get_number inp = (w, u) -> w <= 65535 ->
  forall w' u', literal fp (upper false inp) w' u' <-> w' = w /\ u' = upper false u.
Proof.
  intros fp inp w u G W.
  assert (DEC : forall ds cs, Forall2 dec_char ds cs -> upper false (cs ++ u) = cs ++ upper false u).
  { intros ds cs F. induction F as [|d c ds cs H F IH]; [reflexivity|]. cbn [app]. unfold dec_char in H. rewrite upper_no by lia. rewrite IH. f_equal. apply up_same; lia. }
  assert (HC : forall c k, hd_error (upper false u) = Some c -> 0 <= k < 65 -> c = k -> hd_error u = Some k).
  { intros c k H B E. destruct u as [|d u]; [discriminate|]. destruct (Z.eq_dec d 34) as [->|N]; [injection H as <-; subst k; reflexivity|]. rewrite upper_no in H by exact N. injection H as H. cbn [hd_error]. f_equal. rewrite <- H in E. exact (proj1 (up_same _ _ B) E). }
  assert (LI : literal fp (upper false inp) w (upper false u)).
  { destruct (number_inv _ _ _ G W) as (ds & cs & N & [(-> & F & NO & V)|(NO & V & F & SG)]).
    - destruct (upper_codes ds cs u F) as (E & F'). rewrite upper_no by lia. change (up 36) with 36. rewrite E. exists ds, (map up cs). split; [exact N|]. left. split; [reflexivity|].
      split; [|split; [|split; [|split; [lia|exact V]]]].
      + clear - F'. revert F'. generalize (map up cs). intros es F'. induction F' as [|d c ds es H F IH]; constructor; auto. unfold digit16 in H. unfold hex_char. lia.
      + clear - F'. revert F'. generalize (map up cs). intros es F'. induction F' as [|d c ds es H F IH]; [intros c []|]. intros c' [<-|HI]; [unfold digit16 in H; lia|auto].
      + intros c H LE d D. destruct u as [|c0 u]; [discriminate|]. apply (NO c0 eq_refl d). change (hex_char d c0). destruct (Z.eq_dec c0 34) as [->|N34]; [injection H as <-; exact D|]. rewrite upper_no in H by exact N34. injection H as <-.
        revert LE D. unfold hex_char, up. destruct (Z.leb_spec 97 c0), (Z.leb_spec c0 122); cbn [andb]; lia.
    - assert (NO' : no_digit 10 (upper false u)).
      { intros c H d D. change (dec_char d c) in D. unfold dec_char in D. pose proof (HC c c H ltac:(lia) eq_refl) as H'. apply (NO c H' d). exact D. }
      assert (ND' : fp = true -> hd_error (upper false u) <> Some 46) by (intros _ H; refine (number_point inp w u G W _ (HC 46 46 H ltac:(lia) eq_refl)); intros H36; destruct F as [|d0 c0 ds cs F0 F]; [now elim N|]; unfold dec_char in F0; destruct SG as [(E0 & _)|(E0 & _)]; rewrite E0 in H36; cbn in H36; injection H36; lia).
      exists ds, cs. split; [exact N|]. right. destruct SG as [(-> & ->)|(-> & ->)].
      + exists []. rewrite (DEC _ _ F). cbn [app]. auto 10.
      + exists [45]. rewrite upper_no by lia. change (up 45) with 45. rewrite (DEC _ _ F). cbn [app]. auto 10. }
  intros w' u'. split; [|intros (-> & ->); exact LI]. intros LI'. apply literal_number in LI, LI'. rewrite LI in LI'. injection LI' as <- <-. auto.
Qed.
Print Assumptions C55_source.
(* the text $1f+x *)
Example C55_source_case : get_number [36; 49; 102; 43; 120] = (31, [43; 120]) /\ upper false [36; 49; 102; 43; 120] = [36; 49; 70; 43; 88].
Proof. split; vm_compute; reflexivity. Qed.
