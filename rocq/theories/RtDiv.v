(* The division loops and the sign handling around them. *)
From Verif Require Export RtArith.

(* k bits of the dividend n are done: h its high bits, q and R the quotient and remainder of
   h by d; the register T holds the low bits and q *)
Definition dinv (n d k T R : Z) : Prop := exists h q l,
  n = h * 2 ^ (16 - k) + l /\ 0 <= l < 2 ^ (16 - k) /\ T = l * 2 ^ k + q /\ 0 <= q < 2 ^ k /\
  h = q * d + R /\ 0 <= R < d.
Lemma dinv_0 n d : 0 <= n < 65536 -> 0 < d -> dinv n d 0 n 0.
Proof. intros. exists 0, 0, n. change (2 ^ (16 - 0)) with 65536. change (2 ^ 0) with 1. lia. Qed.
Lemma dinv_16 n d T R : dinv n d 16 T R -> T = n / d /\ R = n mod d.
Proof.
  intros (h & q & l & E & BL & ET & BQ & EH & BR). change (2 ^ (16 - 16)) with 1 in *.
  assert (l = 0) by lia. subst l. assert (n = d * T + R) by lia.
  split; [apply Z.div_unique with R|apply Z.mod_unique with T]; auto; lia.
Qed.
Lemma dinv_bound n d k T R : 0 <= k <= 16 -> dinv n d k T R -> 0 <= T < 65536 /\ 0 <= R < d.
Proof.
  intros K (h & q & l & E & BL & ET & BQ & EH & BR). split; [|exact BR].
  assert (65536 = 2 ^ (16 - k) * 2 ^ k) as X
    by (rewrite <- Z.pow_add_r by lia; replace (16 - k + k) with 16 by lia; reflexivity).
  rewrite X. nia.
Qed.
Lemma dinv_step n d k T R : 0 <= k < 16 -> dinv n d k T R ->
  forall R2, R2 = 2 * R + T / 32768 -> forall g, g = (if d <=? R2 then 1 else 0) ->
  dinv n d (k + 1) (b16 (2 * T) + g) (R2 - g * d).
Proof.
  intros K (h & q & l & E & BL & ET & BQ & EH & BR) R2 E2 g Eg.
  set (u := 2 ^ (16 - (k + 1))) in *. set (w := 2 ^ k) in *.
  assert (2 ^ (16 - k) = 2 * u) as U2
    by (unfold u; rewrite <- Z.pow_succ_r by lia; f_equal; lia).
  assert (u * w = 32768) as UW
    by (unfold u, w; rewrite <- Z.pow_add_r by lia; replace (16 - (k + 1) + k) with 15 by lia; reflexivity).
  assert (2 ^ (k + 1) = 2 * w) as W2 by (unfold w; rewrite Z.pow_add_r by lia; lia).
  assert (0 < u) by (apply Z.pow_pos_nonneg; lia). assert (0 < w) by (apply Z.pow_pos_nonneg; lia).
  rewrite U2 in *. set (b := l / u). set (l' := l mod u).
  assert (l = u * b + l') as El by (apply Z.div_mod; lia).
  assert (0 <= l' < u) as Bl' by (apply Z.mod_pos_bound; lia).
  assert (0 <= b <= 1) as Bb by nia.
  assert (0 <= l' * w + q < 32768) as BT by nia.
  assert (T = 32768 * b + (l' * w + q)) as ET' by (rewrite ET, El; nia).
  assert (T / 32768 = b) as EB by (symmetry; apply Z.div_unique with (l' * w + q); auto).
  rewrite EB in E2.
  exists (2 * h + b), (2 * q + g), l'. fold u. rewrite W2.
  assert (g = 0 \/ g = 1) as Hg by (rewrite Eg; destruct (d <=? R2); lia).
  assert (b16 (2 * T) = 2 * (l' * w + q)) as -> by (unfold b16; symmetry; apply Z.mod_unique with b; [left; lia|lia]).
  split; [nia|]. split; [exact Bl'|]. split; [ring|]. split; [lia|].
  split; [rewrite EH, E2; ring|].
  subst g. destruct (d <=? R2) eqn:G; zb; lia.
Qed.
(* the same for a divisor 0 in the 8 bit loop: ones are shifted in and the low byte of the
   dividend is left *)
Definition zinv (n k T R : Z) : Prop := exists h l,
  n = h * 2 ^ (16 - k) + l /\ 0 <= l < 2 ^ (16 - k) /\ T = l * 2 ^ k + (2 ^ k - 1) /\ 0 <= h < 2 ^ k /\
  R = h mod 256.
Lemma zinv_0 n : 0 <= n < 65536 -> zinv n 0 n 0.
Proof. intros. exists 0, n. change (2 ^ (16 - 0)) with 65536. change (2 ^ 0) with 1. cbn. lia. Qed.
Lemma zinv_16 n T R : zinv n 16 T R -> T = 65535 /\ R = n mod 256.
Proof.
  intros (h & l & E & BL & ET & BQ & ER). change (2 ^ (16 - 16)) with 1 in *. change (2 ^ 16) with 65536 in *.
  assert (l = 0) by lia. subst l. replace n with h by lia. split; [lia|exact ER].
Qed.
Lemma zinv_bound n k T R : 0 <= k <= 16 -> zinv n k T R -> 0 <= T < 65536 /\ 0 <= R < 256.
Proof.
  intros K (h & l & E & BL & ET & BQ & ER). split; [|rewrite ER; apply Z.mod_pos_bound; lia].
  assert (65536 = 2 ^ (16 - k) * 2 ^ k) as X
    by (rewrite <- Z.pow_add_r by lia; replace (16 - k + k) with 16 by lia; reflexivity).
  assert (0 < 2 ^ k) by (apply Z.pow_pos_nonneg; lia).
  rewrite X. nia.
Qed.
Lemma zinv_step n k T R : 0 <= k < 16 -> zinv n k T R ->
  zinv n (k + 1) (b16 (2 * T) + 1) (b8 (2 * R + T / 32768)).
Proof.
  intros K (h & l & E & BL & ET & BQ & ER).
  set (u := 2 ^ (16 - (k + 1))) in *. set (w := 2 ^ k) in *.
  assert (2 ^ (16 - k) = 2 * u) as U2
    by (unfold u; rewrite <- Z.pow_succ_r by lia; f_equal; lia).
  assert (u * w = 32768) as UW
    by (unfold u, w; rewrite <- Z.pow_add_r by lia; replace (16 - (k + 1) + k) with 15 by lia; reflexivity).
  assert (2 ^ (k + 1) = 2 * w) as W2 by (unfold w; rewrite Z.pow_add_r by lia; lia).
  assert (0 < u) by (apply Z.pow_pos_nonneg; lia). assert (0 < w) by (apply Z.pow_pos_nonneg; lia).
  rewrite U2 in *. set (b := l / u). set (l' := l mod u).
  assert (l = u * b + l') as El by (apply Z.div_mod; lia).
  assert (0 <= l' < u) as Bl' by (apply Z.mod_pos_bound; lia).
  assert (0 <= b <= 1) as Bb by nia.
  assert (0 <= l' * w + (w - 1) < 32768) as BT by nia.
  assert (T = 32768 * b + (l' * w + (w - 1))) as ET' by (rewrite ET, El; nia).
  assert (T / 32768 = b) as EB by (symmetry; apply Z.div_unique with (l' * w + (w - 1)); auto).
  rewrite EB.
  exists (2 * h + b), l'. fold u. rewrite W2.
  assert (b16 (2 * T) = 2 * (l' * w + (w - 1))) as -> by (unfold b16; symmetry; apply Z.mod_unique with b; [left; lia|lia]).
  split; [nia|]. split; [exact Bl'|]. split; [ring|]. split; [lia|].
  rewrite ER. unfold b8. clear. zm.
Qed.

Section T.
Variable L : lay.
Hypothesis OK : lay_ok L.
Notation P := (rt L).
Notation w1 mm := (mm (tmp1 L) + 256 * mm (tmp1 L + 1)).
Notation w3 mm := (mm (tmp3 L) + 256 * mm (tmp3 L + 1)).
(* cells the loops change *)
Definition dcell (b : Z) : Prop := b = tmp2 L + 1 \/ b = tmp3 L \/ b = tmp3 L + 1.

Definition rts16 : code := In RTS :: Lb "udiv16x8" :: entry P "udiv16x8".
Lemma shl8_facts v : 0 <= v < 256 -> forall k, 0 <= k <= 1 ->
  0 <= (if 128 <=? v then 1 else 0) <= 1 /\ 2 * v + k = b8 (2 * v + k) + 256 * (if 128 <=? v then 1 else 0).
Proof. intros. destruct (128 <=? v) eqn:?; zb; zm. Qed.
Lemma div16_iter x y a c z f v mm st r Q :
  0 <= a < 256 -> 0 < y < 256 -> bytes_in mm -> w1 mm <= 32768 ->
  a + 256 * mm (tmp2 L + 1) < w1 mm ->
  (forall a' x' c' f' v' mm', 0 <= a' < 256 -> 0 <= x' < 256 -> bytes_in mm' ->
     (forall b, ~ dcell b -> mm' b = mm b) ->
     forall R2, R2 = 2 * (a + 256 * mm (tmp2 L + 1)) + w3 mm / 32768 ->
     forall g, g = (if w1 mm <=? R2 then 1 else 0) ->
     w3 mm' = b16 (2 * w3 mm) + g -> a' + 256 * mm' (tmp2 L + 1) = R2 - g * w1 mm ->
     wp P (if y =? 1 then rts16 else entry P "div.L0")
        (mkcpu a' x' (y - 1) c' (y =? 1) f' v' mm' st r) Q) ->
  wp P (entry P "div.L0") (mkcpu a x y c z f v mm st r) Q.
Proof.
  intros BA BY WM BD BR H. pose proof OK as (?&?&?&?&?&?&?&?&?&?&?&?&?).
  pose proof (WM (tmp1 L)). pose proof (WM (tmp1 L + 1)). pose proof (WM (tmp3 L)).
  pose proof (WM (tmp2 L + 1)). pose proof (WM (tmp3 L + 1)).
  assert ((y - 1 =? 0) = (y =? 1)) as EY
    by (destruct (y =? 1) eqn:?; zb; [apply Z.eqb_eq|apply Z.eqb_neq]; lia).
  destruct (shl8_facts _ H15 0) as (K0 & F0); [lia|].
  destruct (shl8_facts _ H17 (if 128 <=? mm (tmp3 L) then 1 else 0)) as (K1 & F1); [lia|].
  destruct (shl8_facts _ BA (if 128 <=? mm (tmp3 L + 1) then 1 else 0)) as (K2 & F2); [lia|].
  destruct (shl8_facts _ H16 (if 128 <=? a then 1 else 0)) as (K3 & F3); [lia|].
  rewrite Z.add_0_r in F0.
  set (k0 := if 128 <=? mm (tmp3 L) then 1 else 0) in *.
  set (k1 := if 128 <=? mm (tmp3 L + 1) then 1 else 0) in *.
  set (k2 := if 128 <=? a then 1 else 0) in *.
  set (k3 := if 128 <=? mm (tmp2 L + 1) then 1 else 0) in *.
  entry_tac. steps. fold k0 k1 k2.
  assert (w3 mm / 32768 = k1) as EK.
  { symmetry. apply Z.div_unique with (w3 mm - 32768 * k1); [left|lia].
    unfold k1. destruct (128 <=? mm (tmp3 L + 1)) eqn:?; zb; lia. }
  rewrite EK in H. clear EK.
  set (t0 := b8 (2 * mm (tmp3 L))) in *. set (t1 := b8 (2 * mm (tmp3 L + 1) + k0)) in *.
  set (a2 := b8 (2 * a + k1)) in *. set (r2 := b8 (2 * mm (tmp2 L + 1) + k2)) in *.
  assert (0 <= t0 < 256) by apply b8_range. assert (0 <= t1 < 256) by apply b8_range.
  assert (0 <= a2 < 256) by apply b8_range. assert (0 <= r2 < 256) by apply b8_range.
  assert (b16 (2 * w3 mm) = t0 + 256 * t1) as E16
    by (unfold b16; symmetry; apply Z.mod_unique with k1; [left; lia|lia]).
  rewrite E16 in H. clear E16.
  assert (k3 = 0) as Z3 by lia.
  assert (k0 + t0 <= 255) as NI by (clear - F0 H15 K0 H18; zm).
  clearbody k0 k1 k2 k3 t0 t1 a2 r2.
  assert (forall a' x' c' f' v' mm', 0 <= a' < 256 -> 0 <= x' < 256 -> bytes_in mm' ->
     (forall b, ~ dcell b -> mm' b = mm b) ->
     forall g, g = (if w1 mm <=? a2 + 256 * r2 then 1 else 0) ->
     w3 mm' = t0 + 256 * t1 + g -> a' + 256 * mm' (tmp2 L + 1) = a2 + 256 * r2 - g * w1 mm ->
     wp P (In (Br NE "div.L0") :: rts16) (mkcpu a' x' (y - 1) c' (y =? 1) f' v' mm' st r) Q) as G.
  { intros a' x' c' f' v' mm' U1 U2 U3 U4 g Eg U5 U6.
    specialize (H a' x' c' f' v' mm' U1 U2 U3 U4 (a2 + 256 * r2) ltac:(lia) g Eg U5 U6).
    step1; destruct (y =? 1); try discriminate K; exact H. }
  clear H. unfold rts16 in G.
  step1; destruct (mm (tmp1 L) <=? a2) eqn:C1; zb.
  - steps. rewrite (b8_small (y - 1)), EY by lia. apply G with (g := 0); try lia.
    + bytes_tac.
    + intros b NB. unfold dcell in NB. norm. reflexivity.
    + destruct (_ <=? _) eqn:?; zb; lia.
    + norm. lia.
    + norm. lia.
  - steps. rewrite (b8_small (y - 1)), EY by lia. apply G with (g := 0); try lia.
    + bytes_tac.
    + intros b NB. unfold dcell in NB. norm. reflexivity.
    + destruct (_ <=? _) eqn:?; zb; lia.
    + norm. lia.
    + norm. lia.
  - steps. rewrite (b8_small (y - 1)), EY by lia.
    replace (0 <=? r2 - mm (tmp1 L + 1) - (1 - 1)) with true by (symmetry; apply Z.leb_le; lia).
    apply G with (g := 1); try lia; try apply b8_range.
    + bytes_tac.
    + intros b NB. unfold dcell in NB. norm. reflexivity.
    + destruct (_ <=? _) eqn:?; zb; lia.
    + norm. rewrite b8_small by lia. lia.
    + norm. rewrite !b8_small by lia. lia.
  - steps. rewrite (b8_small (y - 1)), EY by lia.
    replace (0 <=? r2 - mm (tmp1 L + 1) - (1 - 0)) with true by (symmetry; apply Z.leb_le; lia).
    apply G with (g := 1); try lia; try apply b8_range.
    + bytes_tac.
    + intros b NB. unfold dcell in NB. norm. reflexivity.
    + destruct (_ <=? _) eqn:?; zb; lia.
    + norm. rewrite b8_small by lia. lia.
    + norm. rewrite (b8_small (r2 - _ - _)) by lia. zm.
Qed.
Lemma div16_loop n d mm0 st r Q : 0 <= n < 65536 -> 0 < d <= 32768 -> w1 mm0 = d ->
  (forall a x y c z f v mm, 0 <= a < 256 -> 0 <= x < 256 -> 0 <= y < 256 -> bytes_in mm ->
     (forall b, ~ dcell b -> mm b = mm0 b) ->
     w3 mm = n / d -> a + 256 * mm (tmp2 L + 1) = n mod d ->
     wp P rts16 (mkcpu a x y c z f v mm st r) Q) ->
  forall j a x c z f v mm, (j < 16)%nat -> 0 <= a < 256 -> bytes_in mm ->
  (forall b, ~ dcell b -> mm b = mm0 b) ->
  dinv n d (15 - Z.of_nat j) (w3 mm) (a + 256 * mm (tmp2 L + 1)) ->
  wp P (entry P "div.L0") (mkcpu a x (Z.of_nat j + 1) c z f v mm st r) Q.
Proof.
  intros BN BD ED H. pose proof OK as (?&?&?&?&?&?&?&?&?&?&?&?&?).
  induction j as [|j IH]; intros a x c z f v mm J BA WM U E.
  all: assert (w1 mm = d) as EW by (rewrite <- ED, !U; unfold dcell; try lia; reflexivity).
  all: pose proof E as E0; apply dinv_bound in E0 as (BT & BR); [|lia].
  - apply div16_iter; auto; try lia.
    intros a' x' c' f' v' mm' B1 B2 W' U' R2 ER g Eg E3 E4.
    change (Z.of_nat 0 + 1 =? 1) with true. cbn iota. rewrite EW in *.
    pose proof E as E'; eapply dinv_step in E'; [|lia|exact ER|exact Eg]. rewrite <- E3, <- E4 in E'.
    change (15 - Z.of_nat 0 + 1) with 16 in E'. apply dinv_16 in E' as (V1 & V2).
    apply H; auto; [cbn; lia|intros b NB; rewrite U', U; auto].
  - apply div16_iter; auto; try lia.
    intros a' x' c' f' v' mm' B1 B2 W' U' R2 ER g Eg E3 E4.
    replace (Z.of_nat (Datatypes.S j) + 1 =? 1) with false by (symmetry; apply Z.eqb_neq; lia).
    replace (Z.of_nat (Datatypes.S j) + 1 - 1) with (Z.of_nat j + 1) by lia. rewrite EW in *.
    pose proof E as E'; eapply dinv_step in E'; [|lia|exact ER|exact Eg]. rewrite <- E3, <- E4 in E'.
    replace (15 - Z.of_nat (Datatypes.S j) + 1) with (15 - Z.of_nat j) in E' by lia.
    apply IH; auto; [lia|intros b NB; rewrite U', U; auto].
Qed.

Lemma div8_iter x y a c z f v mm st r Q :
  0 <= a < 256 -> 0 < y < 256 -> bytes_in mm ->
  (forall a' c' f' v' mm', 0 <= a' < 256 -> bytes_in mm' ->
     (forall b, ~ dcell b -> mm' b = mm b) -> mm' (tmp2 L + 1) = mm (tmp2 L + 1) ->
     forall R2, R2 = 2 * a + w3 mm / 32768 ->
     forall g, g = (if mm (tmp1 L) <=? R2 then 1 else 0) ->
     w3 mm' = b16 (2 * w3 mm) + g -> a' = b8 (R2 - g * mm (tmp1 L)) ->
     wp P (if y =? 1 then [In RTS] else entry P "div.L2")
        (mkcpu a' x (y - 1) c' (y =? 1) f' v' mm' st r) Q) ->
  wp P (entry P "div.L2") (mkcpu a x y c z f v mm st r) Q.
Proof.
  intros BA BY WM H. pose proof OK as (?&?&?&?&?&?&?&?&?&?&?&?&?).
  pose proof (WM (tmp1 L)). pose proof (WM (tmp3 L)). pose proof (WM (tmp3 L + 1)).
  assert ((y - 1 =? 0) = (y =? 1)) as EY
    by (destruct (y =? 1) eqn:?; zb; [apply Z.eqb_eq|apply Z.eqb_neq]; lia).
  destruct (shl8_facts _ H14 0) as (K0 & F0); [lia|].
  destruct (shl8_facts _ H15 (if 128 <=? mm (tmp3 L) then 1 else 0)) as (K1 & F1); [lia|].
  destruct (shl8_facts _ BA (if 128 <=? mm (tmp3 L + 1) then 1 else 0)) as (K2 & F2); [lia|].
  rewrite Z.add_0_r in F0.
  set (k0 := if 128 <=? mm (tmp3 L) then 1 else 0) in *.
  set (k1 := if 128 <=? mm (tmp3 L + 1) then 1 else 0) in *.
  entry_tac. steps. fold k0 k1.
  assert (w3 mm / 32768 = k1) as EK.
  { symmetry. apply Z.div_unique with (w3 mm - 32768 * k1); [left|lia].
    unfold k1. destruct (128 <=? mm (tmp3 L + 1)) eqn:?; zb; lia. }
  rewrite EK in H. clear EK.
  set (t0 := b8 (2 * mm (tmp3 L))) in *. set (t1 := b8 (2 * mm (tmp3 L + 1) + k0)) in *.
  set (a2 := b8 (2 * a + k1)) in *.
  assert (0 <= t0 < 256) as Ht0 by apply b8_range. assert (0 <= t1 < 256) by apply b8_range.
  assert (0 <= a2 < 256) by apply b8_range.
  assert (b16 (2 * w3 mm) = t0 + 256 * t1) as E16
    by (unfold b16; symmetry; apply Z.mod_unique with k1; [left; lia|lia]).
  rewrite E16 in H. clear E16.
  assert (k0 + t0 <= 255) as NI by (clear - F0 H14 K0 Ht0; zm).
  clearbody k0 k1 t0 t1 a2.
  assert (forall a' c' f' v' mm', 0 <= a' < 256 -> bytes_in mm' ->
     (forall b, ~ dcell b -> mm' b = mm b) -> mm' (tmp2 L + 1) = mm (tmp2 L + 1) ->
     forall g, g = (if mm (tmp1 L) <=? 2 * a + k1 then 1 else 0) ->
     w3 mm' = t0 + 256 * t1 + g -> a' = b8 (2 * a + k1 - g * mm (tmp1 L)) ->
     wp P [In (Br NE "div.L2"); In RTS] (mkcpu a' x (y - 1) c' (y =? 1) f' v' mm' st r) Q) as G.
  { intros a' c' f' v' mm' U1 U2 U3 U4 g Eg U5 U6.
    specialize (H a' c' f' v' mm' U1 U2 U3 U4 (2 * a + k1) eq_refl g Eg U5 U6).
    step1; destruct (y =? 1); try discriminate K; exact H. }
  clear H.
  step1.
  - rewrite K in *. steps. rewrite (b8_small (y - 1)), EY by lia.
    apply G with (g := 1); try lia; try apply b8_range.
    + bytes_tac.
    + intros b NB. unfold dcell in NB. norm. reflexivity.
    + norm. lia.
    + destruct (_ <=? _) eqn:?; zb; lia.
    + norm. rewrite b8_small by lia. lia.
    + zm.
  - rewrite K in *. steps. step1; zb.
    + steps. rewrite (b8_small (y - 1)), EY by lia.
      apply G with (g := 0); try lia; try apply b8_range.
      * bytes_tac.
      * intros b NB. unfold dcell in NB. norm. reflexivity.
      * norm. lia.
      * destruct (_ <=? _) eqn:?; zb; lia.
      * norm. lia.
      * zm.
    + steps. rewrite (b8_small (y - 1)), EY by lia.
      replace (mm (tmp1 L) <=? a2) with true by (symmetry; apply Z.leb_le; lia).
      apply G with (g := 1); try lia; try apply b8_range.
      * bytes_tac.
      * intros b NB. unfold dcell in NB. norm. reflexivity.
      * norm. lia.
      * destruct (_ <=? _) eqn:?; zb; lia.
      * norm. rewrite b8_small by lia. lia.
      * zm.
Qed.
(* the quotient and the remainder of magnitudes the routine gives *)
Definition uquot (n d : Z) : Z := if d =? 0 then 65535 else n / d.
Definition urem (n d : Z) : Z := if d =? 0 then n mod 256 else n mod d.
Definition binv (n d k T R : Z) : Prop := if d =? 0 then zinv n k T R else dinv n d k T R.
Lemma div8_loop n d mm0 st r Q : 0 <= n < 65536 -> 0 <= d < 256 -> mm0 (tmp1 L) = d ->
  (forall a x y c z f v mm, 0 <= a < 256 -> 0 <= x < 256 -> 0 <= y < 256 -> bytes_in mm ->
     (forall b, ~ dcell b -> mm b = mm0 b) -> mm (tmp2 L + 1) = mm0 (tmp2 L + 1) ->
     w3 mm = uquot n d -> a = urem n d ->
     wp P [In RTS] (mkcpu a x y c z f v mm st r) Q) ->
  forall j a x c z f v mm, (j < 16)%nat -> 0 <= a < 256 -> 0 <= x < 256 -> bytes_in mm ->
  (forall b, ~ dcell b -> mm b = mm0 b) -> mm (tmp2 L + 1) = mm0 (tmp2 L + 1) ->
  binv n d (15 - Z.of_nat j) (w3 mm) a ->
  wp P (entry P "div.L2") (mkcpu a x (Z.of_nat j + 1) c z f v mm st r) Q.
Proof.
  intros BN BD ED H. pose proof OK as (?&?&?&?&?&?&?&?&?&?&?&?&?).
  assert (forall k T R, 0 <= k < 16 -> binv n d k T R -> 0 <= R < 256 -> forall R2, R2 = 2 * R + T / 32768 ->
    forall g, g = (if d <=? R2 then 1 else 0) -> binv n d (k + 1) (b16 (2 * T) + g) (b8 (R2 - g * d))) as ST.
  { intros k T R HK I HR R2 E2 g Eg. unfold binv in *. destruct (d =? 0) eqn:D0; zb.
    - pose proof (zinv_bound _ _ _ _ ltac:(split; [exact (proj1 HK)|apply Z.lt_le_incl, HK]) I) as (BT & _).
      subst d. rewrite D0 in *. replace (0 <=? R2) with true in Eg by (symmetry; apply Z.leb_le; zm).
      subst g. replace (R2 - 1 * 0) with R2 by lia. rewrite E2. apply zinv_step; auto.
    - pose proof (dinv_step _ _ _ _ _ HK I R2 E2 g Eg) as N.
      apply dinv_bound in N as N'; [|lia]. rewrite (b8_small (R2 - g * d)) by lia. exact N. }
  assert (forall k T R, 0 <= k <= 16 -> binv n d k T R -> 0 <= T < 65536) as BB.
  { intros k T R HK I. unfold binv in I. destruct (d =? 0);
      [apply zinv_bound in I|apply dinv_bound in I]; auto; apply I. }
  induction j as [|j IH]; intros a x c z f v mm J BA BX WM U U2 E.
  all: assert (mm (tmp1 L) = d) as EW by (rewrite <- ED, !U; unfold dcell; try lia; reflexivity).
  - apply div8_iter; auto; try lia.
    intros a' c' f' v' mm' B1 W' U' U2' R2 ER g Eg E3 E4.
    change (Z.of_nat 0 + 1 =? 1) with true. cbn iota. rewrite EW in *.
    pose proof E as E'. eapply ST in E'; [|lia|exact BA|exact ER|exact Eg]. rewrite <- E3, <- E4 in E'.
    change (15 - Z.of_nat 0 + 1) with 16 in E'.
    assert (w3 mm' = uquot n d /\ a' = urem n d) as (V1 & V2).
    { unfold binv, uquot, urem in *. destruct (d =? 0); [apply zinv_16, E'|apply dinv_16, E']. }
    apply H; auto; [cbn; lia|intros b NB; rewrite U', U; auto|congruence].
  - apply div8_iter; auto; try lia.
    intros a' c' f' v' mm' B1 W' U' U2' R2 ER g Eg E3 E4.
    replace (Z.of_nat (Datatypes.S j) + 1 =? 1) with false by (symmetry; apply Z.eqb_neq; lia).
    replace (Z.of_nat (Datatypes.S j) + 1 - 1) with (Z.of_nat j + 1) by lia. rewrite EW in *.
    pose proof E as E'. eapply ST in E'; [|lia|exact BA|exact ER|exact Eg]. rewrite <- E3, <- E4 in E'.
    replace (15 - Z.of_nat (Datatypes.S j) + 1) with (15 - Z.of_nat j) in E' by lia.
    apply IH; auto; [lia|intros b NB; rewrite U', U; auto|congruence].
Qed.
(* the subroutine on magnitudes *)
Lemma wp_udiv n d a x y c z f v mm k st r Q :
  bytes_in mm -> w3 mm = n -> w1 mm = d -> d <= 32768 ->
  (forall a x y c z f v mm', 0 <= a < 256 -> 0 <= x < 256 -> 0 <= y < 256 -> bytes_in mm' ->
     (forall b, ~ dcell b -> mm' b = mm b) ->
     w3 mm' = uquot n d -> a + 256 * mm' (tmp2 L + 1) = urem n d ->
     wp P k (mkcpu a x y c z f v mm' st r) Q) ->
  wp P (entry P "udiv16") (mkcpu a x y c z f v mm (CRet k :: st) r) Q.
Proof.
  intros WM EN ED BD H. pose proof OK as (?&?&?&?&?&?&?&?&?&?&?&?&?).
  pose proof (WM (tmp1 L)). pose proof (WM (tmp1 L + 1)). pose proof (WM (tmp3 L)).
  pose proof (WM (tmp3 L + 1)).
  entry_tac. steps. step1; zb.
  - step1. at_label "div.L2".
    apply div8_loop with (n := n) (d := d) (mm0 := upd mm (tmp2 L + 1) 0) (j := 15%nat); auto; try lia.
    + norm. lia.
    + intros a1 x1 y1 c1 z1 f1 v1 mm1 B1 B2 B3 W1 F1 F2 V1 V2. step1. apply H; auto.
      * intros b NB. rewrite F1 by exact NB. apply upd_ne. unfold dcell in NB. lia.
      * rewrite F2, upd_eq by reflexivity. lia.
    + bytes_tac.
    + norm. unfold binv. change (15 - Z.of_nat 15) with 0. rewrite EN.
      destruct (d =? 0) eqn:?; zb; [apply zinv_0|apply dinv_0]; lia.
  - step1. at_label "div.L0".
    apply div16_loop with (n := n) (d := d) (mm0 := upd mm (tmp2 L + 1) 0) (j := 15%nat); auto; try lia.
    + norm. lia.
    + intros a1 x1 y1 c1 z1 f1 v1 mm1 B1 B2 B3 W1 F1 V1 V2. unfold rts16. step1. apply H; auto.
      * intros b NB. rewrite F1 by exact NB. apply upd_ne. unfold dcell in NB. lia.
      * unfold uquot. destruct (d =? 0) eqn:?; zb; auto; lia.
      * unfold urem. destruct (d =? 0) eqn:?; zb; auto; lia.
    + bytes_tac.
    + norm. change (15 - Z.of_nat 15) with 0. rewrite EN.
      apply dinv_0; lia.
Qed.

Lemma abs_neg w b : 32768 <= w < 65536 -> b = word (- w) -> b = Z.abs (signed w) /\ 0 < b <= 32768.
Proof. unfold word, signed. intros H ->. destruct (w <? 32768) eqn:?; zb; zm. Qed.
Lemma abs_pos w : 0 <= w < 32768 -> w = Z.abs (signed w).
Proof. unfold signed. intros H. destruct (w <? 32768) eqn:?; zb; lia. Qed.
Definition sign_of_div (n d : Z) : Z :=
  if signed n <? 0 then (if signed d <? 0 then 127 else 255) else (if signed d <? 0 then 128 else 0).
Lemma wp_adjust a x y c z f v mm k st r Q :
  0 <= a < 256 -> 0 <= x < 256 -> bytes_in mm ->
  forall n d, n = mm (1152 + mm 142) + 256 * mm (1192 + mm 142) -> d = a + 256 * x ->
  (forall a x y c z f v mm', 0 <= a < 256 -> 0 <= x < 256 -> 0 <= y < 256 -> bytes_in mm' ->
     (forall b, ~ scratch L b -> mm' b = mm b) ->
     w3 mm' = uquot (Z.abs (signed n)) (Z.abs (signed d)) ->
     a + 256 * mm' (tmp2 L + 1) = urem (Z.abs (signed n)) (Z.abs (signed d)) ->
     mm' (divmod_sign L) = sign_of_div n d ->
     wp P k (mkcpu a x y c z f v mm' st r) Q) ->
  wp P (entry P "divmod_sign_adjust") (mkcpu a x y c z f v mm (CRet k :: st) r) Q.
Proof.
  intros BA BX WM n d EN ED H. pose proof OK as (?&?&?&?&?&?&?&?&?&?&?&?&?).
  pose proof (WM 142). pose proof (WM (1152 + mm 142)). pose proof (WM (1192 + mm 142)).
  (* from the label x_pos on *)
  assert (forall a' x' y' c z f v mm2 sg, 0 <= a' < 256 -> 0 <= x' < 256 -> 0 <= sg < 256 -> bytes_in mm2 ->
    (forall b, ~ scratch L b -> mm2 b = mm b) -> w1 mm2 = Z.abs (signed d) -> mm2 (divmod_sign L) = sg ->
    sg = sign_of_div n d -> a' + 256 * x' = Z.abs (signed n) ->
    wp P (entry P "div.x_pos") (mkcpu a' x' y' c z f v mm2 (CRet k :: st) r) Q) as X.
  { intros a' x' y' c1 z1 f1 v1 mm2 sg B1 B2 B3 W2 F2 E1 E2 E3 E4. entry_tac. do 3 step1.
    at_label "udiv16".
    apply wp_udiv with (n := Z.abs (signed n)) (d := Z.abs (signed d)).
    - bytes_tac.
    - norm. exact E4.
    - norm. exact E1.
    - pose proof (signed_range d). lia.
    - intros a3 x3 y3 c3 z3 f3 v3 mm3 V1 V2 V3 V4 V5 V6 V7. apply H; auto.
      + intros b NB. rewrite V5 by (unfold dcell, scratch in *; lia). unfold scratch in NB. norm.
        apply F2. unfold scratch. lia.
      + rewrite V5 by (unfold dcell; lia). norm. congruence. }
  assert (forall a' x' c z f v mm2 sg, 0 <= a' < 256 -> 0 <= x' < 256 -> bytes_in mm2 ->
    (forall b, ~ scratch L b -> mm2 b = mm b) ->
    sg = (if signed d <? 0 then 128 else 0) -> a' + 256 * x' = Z.abs (signed d) ->
    wp P (entry P "div.y_pos") (mkcpu a' x' sg c z f v mm2 (CRet k :: st) r) Q) as Y.
  { intros a' x' c1 z1 f1 v1 mm2 sg B1 B2 W2 F2 ES EA. entry_tac.
    assert (mm2 142 = mm 142) as G1 by (apply F2; unfold scratch; lia).
    assert (mm2 (1152 + mm 142) = mm (1152 + mm 142)) as G2 by (apply F2; unfold scratch; lia).
    assert (mm2 (1192 + mm 142) = mm (1192 + mm 142)) as G3 by (apply F2; unfold scratch; lia).
    assert (0 <= sg < 256) by (subst sg; destruct (_ <? _); lia).
    steps. consts. rewrite G1. norm. rewrite G2, G3. 
    step1; zb.
    - assert (0 <= n < 32768) by lia.
      at_label "div.x_pos".
      apply X with (sg := sg); auto.
      + bytes_tac.
      + intros b NB. unfold scratch in NB. norm. apply F2. unfold scratch. lia.
      + norm. exact EA.
      + norm. reflexivity.
      + unfold sign_of_div. rewrite ES. replace (signed n <? 0) with false; [reflexivity|].
        symmetry. apply Z.ltb_ge. unfold signed. destruct (n <? 32768) eqn:?; zb; lia.
      + rewrite <- EN. apply abs_pos. lia.
    - assert (32768 <= n < 65536) by lia. negcall.
      rewrite <- EN in V. apply abs_neg in V as (V & _); [|lia].
      step1. norm. step1.
      at_label "div.x_pos".
      apply X with (sg := b8 (sg - 1)); auto; try apply b8_range.
      + bytes_tac.
      + intros b NB. unfold scratch in NB. norm. apply F2. unfold scratch. lia.
      + norm. exact EA.
      + norm. reflexivity.
      + unfold sign_of_div. rewrite ES. replace (signed n <? 0) with true; [destruct (signed d <? 0); reflexivity|].
        symmetry. apply Z.ltb_lt. unfold signed. destruct (n <? 32768) eqn:?; zb; lia. }
  clear X H.
  entry_tac. steps. step1; zb.
  - at_label "div.y_pos".
    apply Y; auto.
    + replace (signed d <? 0) with false; [reflexivity|].
      symmetry. apply Z.ltb_ge. unfold signed. destruct (d <? 32768) eqn:?; zb; lia.
    + rewrite <- ED. apply abs_pos. lia.
  - steps. negcall. rewrite <- ED in V. apply abs_neg in V as (V & _); [|lia].
    step1. at_label "div.y_pos".
    apply Y; auto.
    replace (signed d <? 0) with true; [reflexivity|].
    symmetry. apply Z.ltb_lt. unfold signed. destruct (d <? 32768) eqn:?; zb; lia.
Qed.

Lemma div_sign n d : 0 <= n < 65536 -> 0 <= d < 65536 ->
  word (div_spec (signed n) (signed d)) =
  let q := uquot (Z.abs (signed n)) (Z.abs (signed d)) in
  if 128 <=? sign_of_div n d then word (- q) else q.
Proof.
  intros BN BD. unfold div_spec, uquot, sign_of_div, with_sign.
  pose proof (signed_range n BN). pose proof (signed_range d BD).
  set (sn := signed n) in *. set (sd := signed d) in *. clearbody sn sd.
  destruct (sd =? 0) eqn:D0; zb.
  - subst sd. replace (Z.abs 0 =? 0) with true by reflexivity. replace (0 <? 0) with false by reflexivity.
    destruct (sn <? 0) eqn:?; reflexivity.
  - replace (Z.abs sd =? 0) with false by (symmetry; apply Z.eqb_neq; lia). cbn zeta.
    assert (0 <= Z.abs sn / Z.abs sd <= 32768).
    { split; [apply Z.div_pos; lia|]. apply Z.div_le_upper_bound; nia. }
    assert (sn <> 0 \/ Z.abs sn / Z.abs sd = 0) as N0.
    { destruct (Z.eq_dec sn 0) as [->|]; [right|left; auto]. apply Z.div_0_l. lia. }
    set (q := Z.abs sn / Z.abs sd) in *. clearbody q.
    assert (word q = q) as W by (apply Z.mod_small; lia).
    destruct (sn <? 0) eqn:?, (sd <? 0) eqn:?, (sn * sd <? 0) eqn:?; zb; cbn -[word Z.opp Z.mul]; auto; try nia.
    assert (q = 0) as -> by nia. reflexivity.
Qed.
Lemma mod_sign n d : 0 <= n < 65536 -> 0 <= d < 65536 ->
  word (mod_spec (signed n) (signed d)) =
  let q := urem (Z.abs (signed n)) (Z.abs (signed d)) in
  if 64 <=? sign_of_div n d mod 128 then word (- q) else q.
Proof.
  intros BN BD. unfold mod_spec, urem, sign_of_div, with_sign.
  pose proof (signed_range n BN). pose proof (signed_range d BD).
  set (sn := signed n) in *. set (sd := signed d) in *. clearbody sn sd.
  destruct (sd =? 0) eqn:D0; zb.
  - subst sd. replace (Z.abs 0 =? 0) with true by reflexivity. replace (0 <? 0) with false by reflexivity.
    destruct (sn <? 0) eqn:?; [reflexivity|]. change (64 <=? 0 mod 128) with false.
    cbn iota zeta. apply Z.mod_small. pose proof (Z.mod_pos_bound (Z.abs sn) 256 ltac:(lia)). lia.
  - replace (Z.abs sd =? 0) with false by (symmetry; apply Z.eqb_neq; lia). cbn zeta.
    pose proof (Z.mod_pos_bound (Z.abs sn) (Z.abs sd) ltac:(lia)).
    set (q := Z.abs sn mod Z.abs sd) in *. clearbody q.
    destruct (sn <? 0) eqn:?, (sd <? 0) eqn:?; zb;
      match goal with |- context [64 <=? ?k mod 128] => let v := eval vm_compute in (64 <=? k mod 128) in
        change (64 <=? k mod 128) with v end; cbn iota; try reflexivity; apply Z.mod_small; lia.
Qed.
Lemma bit_sign n d : (if 128 <=? sign_of_div n d then false else true) = negb (128 <=? sign_of_div n d).
Proof. destruct (128 <=? _); reflexivity. Qed.

Lemma wp_end k a x y c z f v mm s0 val st r : wf s0 -> M s0 sptr < 255 -> st = S s0 -> r = rnd s0 ->
  0 <= a < 256 -> 0 <= x < 256 -> 0 <= y < 256 -> bytes_in mm ->
  (forall b, ~ scratch L b -> mm b = M s0 b) -> a + 256 * x = val ->
  wp P (In (JMP "next_ins_incsp") :: k) (mkcpu a x y c z f v mm st r)
    (fun y s' => y = "next_instruction" /\ gives L s0 val 1 s').
Proof.
  intros (_ & _ & _ & W0) T -> -> B1 B2 B3 W F V. pose proof OK as (?&?&?&?&?&?&?&?&?&?&?&?&?).
  assert (mm sptr = M s0 sptr) as E by (apply F; unfold scratch, sptr; lia). consts.
  pose proof (W0 142).
  apply incsp; [split; [|split; [|split]]; cbn [A X Y M S rnd]; auto|cbn [M]; consts; lia|].
  intros ? ?. split; [reflexivity|]. apply gives_intro; cbn [A X Y M S rnd]; consts; auto.
  - bytes_tac.
  - norm. lia.
  - intros b NB NS. norm. auto.
Qed.

Theorem div_ok s : ready s -> M s sptr < 255 ->
  exists s', calls P "EXE_DIV" s "next_instruction" s' /\
             gives L s (word (div_spec (signed (top s)) (signed (AX s)))) 1 s'.
Proof.
  intros R T. start OK s R. rewrite div_sign by lia.
  eapply wp_jsr; [reflexivity|]; cpu_red.
  at_label "divmod_sign_adjust".
  eapply wp_adjust; auto.
  intros a1 x1 y1 c1 z1 f1 v1 mm B1 B2 B3 W F V1 V2 V3. cbn zeta.
  steps. rewrite V3. step1; zb.
  - apply wp_end; auto; try apply W; [repeat split; cbn; auto; try lia; apply WM|].
    destruct (128 <=? _) eqn:?; zb; [lia|exact V1].
  - step1. negcall. steps. apply wp_end; auto; [repeat split; cbn; auto; try lia; apply WM|].
    destruct (128 <=? _) eqn:?; zb; [rewrite V; f_equal; lia|lia].
Qed.
Theorem mod_ok s : ready s -> M s sptr < 255 ->
  exists s', calls P "EXE_MOD" s "next_instruction" s' /\
             gives L s (word (mod_spec (signed (top s)) (signed (AX s)))) 1 s'.
Proof.
  intros R T. start OK s R. rewrite mod_sign by lia.
  eapply wp_jsr; [reflexivity|]; cpu_red.
  at_label "divmod_sign_adjust".
  eapply wp_adjust; auto.
  intros a1 x1 y1 c1 z1 f1 v1 mm B1 B2 B3 W F V1 V2 V3. cbn zeta.
  steps. rewrite V3. step1; zb.
  - negcall. steps. apply wp_end; auto; [repeat split; cbn; auto; try lia; apply WM|].
    destruct (64 <=? _) eqn:?; zb; [rewrite V; f_equal; lia|lia].
  - apply wp_end; auto; try apply W; [repeat split; cbn; auto; try lia; apply WM|].
    destruct (64 <=? _) eqn:?; zb; [lia|exact V2].
Qed.
End T.
