(* Proofs about the assembler text. *)
From Verif Require Import Codew Text SpecText TextPf.

Lemma value_app base ds d : value base (ds ++ [d]) = value base ds * base + d.
Proof. unfold value. now rewrite fold_left_app. Qed.

Lemma dec_digits_ok : forall fuel n, 0 <= n < Z.of_nat fuel ->
  exists ds, ds <> [] /\ Forall2 dec_char ds (dec_digits fuel n) /\ value 10 ds = n.
Proof.
  induction fuel; intros n L; [lia|]. cbn [dec_digits]. destruct (n <? 10) eqn:E.
  - exists [n]. split; [discriminate|]. split.
    + constructor; [|constructor]. unfold dec_char. lia.
    + unfold value; cbn [fold_left]. lia.
  - destruct (IHfuel (n / 10)) as (ds & N & F & V); [lia|].
    exists (ds ++ [n mod 10]). split; [now destruct ds|]. split.
    + apply Forall2_app; auto. constructor; [|constructor]. unfold dec_char. lia.
    + rewrite value_app, V. lia.
Qed.

Lemma to_string_ok n : 0 <= n ->
  exists ds, ds <> [] /\ Forall2 dec_char ds (to_string n) /\ value 10 ds = n.
Proof.
  intros N. unfold to_string. replace (n <? 0) with false by lia.
  apply dec_digits_ok. lia.
Qed.

Lemma op_num : forall ds cs, Forall2 dec_char ds cs -> forall wide v t,
  operands wide (cs ++ t) (ONum v) = operands wide t (ONum (fold_left (fun v d => v * 10 + d) ds v)).
Proof.
  induction 1 as [|d c ds cs (A & ->) F IH]; intros wide v t; [reflexivity|].
  cbn [app operands fold_left]. replace (48 + d =? 44) with false by lia.
  unfold is_digit. replace (48 <=? 48 + d) with true by lia.
  replace (48 + d <=? 57) with true by lia. cbn [andb].
  replace (48 + d - 48) with d by lia. apply IH.
Qed.

Lemma op_number_read wide n t : 0 <= n ->
  operands wide (to_string n ++ t) OStart = operands wide t (ONum n).
Proof.
  intro N. destruct (to_string_ok n N) as (ds & NE & F & V). rewrite <- V at 2.
  destruct F as [|d c ds cs (A & ->) F]; [congruence|].
  cbn [app operands]. replace (48 + d =? 32) with false by lia.
  unfold is_digit. replace (48 <=? 48 + d) with true by lia.
  replace (48 + d <=? 57) with true by lia. cbn [andb].
  rewrite (op_num ds cs F). replace (48 + d - 48) with d by lia. unfold value.
  cbn [fold_left]. reflexivity.
Qed.

Lemma op_escape : forall s, Forall (fun c => 0 <= c <= 255) s ->
  operands false (escape s true) OStr = Some (map Byte s) /\
  (forall q d, op_done false q = Some d -> q <> OStr -> q <> OStart ->
   operands false (escape s false) q = Some (d ++ map Byte s)).
Proof.
  induction s as [|c s IH]; intro F.
  - split; [reflexivity|]. intros q d D N1 N2. cbn [escape operands map].
    rewrite app_nil_r. exact D.
  - inversion F as [|? ? B F']; subst. destruct (IH F') as (I1 & I2). clear IH. split.
    + cbn [escape]. destruct (unprintable c || (c =? QUOTE)) eqn:U.
      * unfold QUOTE, BLANK. cbn [app operands Z.eqb Pos.eqb]. cbn [op_done].
        rewrite op_number_read by lia.
        rewrite (I2 (ONum c) [Byte c]); try discriminate.
        2:{ cbn [op_done]. unfold op_number. replace (c <=? 255) with true by lia. reflexivity. }
        reflexivity.
      * cbn [app operands]. unfold QUOTE in U. replace (c =? 34) with false by lia.
        rewrite I1. reflexivity.
    + intros q d D N1 N2. cbn [escape]. destruct (unprintable c || (c =? QUOTE)) eqn:U.
      * unfold BLANK. cbn [app].
        assert (E : forall t, operands false (44 :: 32 :: t) q = opt_app (Some d) (operands false t OStart)).
        { intro t. destruct q; try congruence; cbn [operands Z.eqb Pos.eqb]; rewrite D; reflexivity. }
        rewrite E. rewrite op_number_read by lia.
        rewrite (I2 (ONum c) [Byte c]); try discriminate.
        2:{ cbn [op_done]. unfold op_number. replace (c <=? 255) with true by lia. reflexivity. }
        reflexivity.
      * unfold BLANK, QUOTE. cbn [app].
        assert (E : forall t, operands false (44 :: 32 :: 34 :: t) q = opt_app (Some d) (operands false t OStr)).
        { intro t. destruct q; try congruence; cbn [operands Z.eqb Pos.eqb]; rewrite D; reflexivity. }
        rewrite E. cbn [operands]. unfold QUOTE in U. replace (c =? 34) with false by lia.
        rewrite I1. reflexivity.
Qed.

Lemma op_names wide : forall n a, forallb name_char n = true ->
  operands wide n (OName a) = Some (op_name wide (a ++ n)).
Proof.
  induction n as [|c n IH]; intros a H.
  - cbn. now rewrite app_nil_r.
  - cbn [forallb] in H. apply andb_prop in H. destruct H as (C & H).
    cbn [operands]. assert (c <> 44).
    { intros ->. discriminate. }
    replace (c =? 44) with false by lia. rewrite C. rewrite IH by auto.
    now rewrite <- app_assoc.
Qed.

Lemma name_start_ne c : name_start c = true -> c <> 32 /\ is_digit c = false /\ c <> 36 /\ c <> 34 /\ c <> 9.
Proof. unfold name_start, is_upper, is_lower, is_digit. lia. Qed.

Lemma op_name_read wide n : is_name n -> operands wide n OStart = Some (op_name wide n).
Proof.
  destruct n as [|c n]; [intros []|]. intros (S & H). cbn [operands].
  destruct (name_start_ne c S) as (A & B & C & D & _).
  replace (c =? 32) with false by lia. rewrite B.
  replace (c =? 36) with false by lia. replace (c =? 34) with false by lia.
  rewrite S. now rewrite op_names.
Qed.

Lemma until_name stop : name_char stop = false -> forall n, forallb name_char n = true ->
  name_until stop (n ++ [stop]) = Some n.
Proof.
  intros S. induction n as [|c n IH]; intro H.
  - cbn. now rewrite Z.eqb_refl.
  - cbn [forallb] in H. apply andb_prop in H. destruct H as (C & H).
    cbn [app name_until]. destruct (Z.eqb_spec c stop); [congruence|].
    rewrite C, IH by auto. reflexivity.
Qed.

Lemma is_name_all n : is_name n -> forallb name_char n = true.
Proof.
  destruct n as [|c n]; [intros []|]. intros (S & H). cbn [forallb].
  rewrite H, andb_true_r. unfold name_char. now rewrite S.
Qed.

Lemma op_hexd wide v any x t : operands wide (hexd x :: t) (OHex v any) = operands wide t (OHex (v * 16 + x mod 16) true).
Proof.
  cbn [operands]. pose proof (Z.mod_pos_bound x 16 ltac:(lia)).
  unfold hexd. cbn zeta. destruct (x mod 16 <? 10) eqn:E.
  - replace (48 + x mod 16 =? 44) with false by lia. unfold op_hex, is_digit.
    replace (48 <=? 48 + x mod 16) with true by lia.
    replace (48 + x mod 16 <=? 57) with true by lia. cbn [andb].
    do 2 f_equal. lia.
  - replace (55 + x mod 16 =? 44) with false by lia. unfold op_hex, is_digit.
    replace (55 + x mod 16 <=? 57) with false by lia. rewrite andb_false_r.
    replace (65 <=? 55 + x mod 16) with true by lia.
    replace (55 + x mod 16 <=? 70) with true by lia. cbn [andb].
    do 2 f_equal. lia.
Qed.

Lemma op_fp : forall xs, xs <> [] -> Forall (fun c => 0 <= c <= 255) xs ->
  operands false (fp_asm xs) OStart = Some (map Byte xs).
Proof.
  assert (H : forall x t, 0 <= x <= 255 ->
    operands false (hex_byte x ++ t) OStart = operands false t (OHex x true)).
  { intros x t B. unfold hex_byte. cbn [app].
    assert (E : forall t, operands false (DOLLAR :: t) OStart = operands false t (OHex 0 false))
      by reflexivity.
    rewrite E, !op_hexd.
    do 2 f_equal. lia. }
  induction xs as [|x xs IH]; intros N F; [congruence|].
  inversion F as [|? ? B F']; subst. destruct xs as [|y xs].
  - cbn [fp_asm]. rewrite <- (app_nil_r (hex_byte x)). rewrite H by auto.
    cbn [operands op_done]. unfold op_number. replace (x <=? 255) with true by lia. reflexivity.
  - replace (fp_asm (x :: y :: xs)) with (hex_byte x ++ [44; BLANK] ++ fp_asm (y :: xs)) by reflexivity.
    rewrite H by auto. cbn [app operands]. change (44 =? 44) with true.
    change (BLANK =? 32) with true. cbv iota.
    rewrite IH; auto; try discriminate. cbn [op_done]. unfold op_number.
    replace (x <=? 255) with true by lia. reflexivity.
Qed.
