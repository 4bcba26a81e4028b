(* VAL of the Atari 5200 run-time. *)
From Verif Require Export Rt5Str.

(* what it takes for a number: like [number] and [with_sign], but a number of one digit at the end
   of the string is refused, and a sign at the end is taken for zero *)
Definition number5 (l : list Z) : option Z :=
  match l with
  | [] => Some 0
  | [d] => None
  | _ => number l
  end.
Definition with_sign5 (l : list Z) : option Z :=
  match l with
  | c :: r => if c =? 45 then option_map Z.opp (number5 r) else if c =? 43 then number5 r else number5 l
  | [] => None
  end.
Definition val5_of (l : list Z) : option Z := with_sign5 (skip_blanks l).

Section T.
Variable z5 : Z.
Hypothesis OK : zp5_ok z5.
Notation P := (rt5 z5).
Definition work5 (b : Z) : Prop := z5 <= b <= z5 + 7 \/ b = z5 + 10.
Variables (p n0 : Z).
Hypothesis B0 : 0 <= n0 < 256.
Hypothesis BP : 0 <= p /\ p + n0 < 65536.
Hypothesis AV : forall j, 0 <= j <= n0 -> ~ work5 (p + j).

(* l is what is left of the string after i characters *)
Definition txt (m : Z -> Z) (i : Z) (l : list Z) : Prop :=
  i + Z.of_nat (List.length l) = n0 /\ 0 <= i /\ m (z5 + 6) = n0 /\ m (z5 + 4) + 256 * m (z5 + 4 + 1) = p /\
  forall k, (k < List.length l)%nat -> m (p + 1 + i + Z.of_nat k) = nth k l 0.
Lemma txt_ext m m' i l : (forall b, z5 + 4 <= b <= z5 + 6 \/ ~ work5 b -> m' b = m b) -> txt m i l -> txt m' i l.
Proof.
  intros F (E & BI & E6 & E4 & H). split; [exact E|]. split; [exact BI|]. rewrite !F by (left; lia). split; [exact E6|]. split; [exact E4|].
  intros k K. rewrite F; [apply H; exact K|]. right. replace (p + 1 + i + Z.of_nat k) with (p + (1 + i + Z.of_nat k)) by lia. apply AV. lia.
Qed.
Lemma txt_cons m i c l : txt m i (c :: l) -> m (p + 1 + i) = c /\ txt m (i + 1) l.
Proof.
  intros (E & BI & E6 & E4 & H). cbn [List.length] in *. split.
  - pose proof (H O ltac:(lia)) as H0. cbn [nth] in H0. rewrite <- H0. f_equal. lia.
  - split; [lia|]. split; [lia|]. split; [exact E6|]. split; [exact E4|]. intros k K. pose proof (H (Datatypes.S k) ltac:(lia)) as H0. cbn [nth] in H0. rewrite <- H0. f_equal. lia.
Qed.

(* src/interp/a5200/val.asm:76-118 *)
Lemma val5_loop (Q : string -> cpu -> Prop) st r : forall l i w a x c z f v m,
  txt m i l -> 0 <= a < 256 -> 0 <= x < 256 -> a + 256 * x = w -> bytes_in m ->
  (decimal w (digits l) <= 65535 -> forall a' x' c' z' f' v' m', 0 <= a' < 256 -> 0 <= x' < 256 ->
     a' + 256 * x' = decimal w (digits l) -> bytes_in m' -> (forall b, ~ z5 <= b <= z5 + 2 -> m' b = m b) ->
     wp P (entry P "val.xit_n") (mkcpu a' x' (if (List.length (digits l) =? List.length l)%nat then n0 else i + Z.of_nat (List.length (digits l)) + 1) c' z' f' v' m' st r) Q) ->
  (65535 < decimal w (digits l) -> forall a' x' y' c' z' f' v' m', 0 <= a' < 256 -> 0 <= x' < 256 -> 0 <= y' < 256 ->
     bytes_in m' -> (forall b, ~ z5 <= b <= z5 + 2 -> m' b = m b) ->
     wp P (entry P "val.ebig") (mkcpu a' x' y' c' z' f' v' m' st r) Q) ->
  wp P (entry P "val.loop") (mkcpu a x i c z f v m st r) Q.
Proof.
  destruct OK as (O1 & O2).
  induction l as [|d l IH]; intros i w a x c z f v m TX BA BX EV WM K1 K2; pose proof TX as (T1 & T2 & T6 & T4 & _);
    cbn [List.length] in *; entry5; step1; step1;
    set (m1 := upd _ (z5 + 1) x);
    (assert (bytes_in m1) as W1 by (unfold m1; bytes_tac));
    (assert (forall b, ~ z5 <= b <= z5 + 2 -> m1 b = m b) as F1 by (intros b NB; unfold m1; norm; reflexivity));
    (assert (m1 z5 = a /\ m1 (z5 + 1) = x) as (G1 & G2) by (unfold m1; norm; auto)); clearbody m1;
    step1; rewrite (F1 (z5 + 6)), T6 by lia.
  - replace i with n0 by lia. rewrite Z.sub_diag. change (b8 0 =? 0) with true. step1; [|discriminate]. at_label "val.xit_n".
    cbn [digits List.length decimal fold_left Nat.eqb] in *. apply K1; auto. lia.
  - destruct (txt_cons _ _ _ _ TX) as (EC & TX2).
    rewrite (proj2 (Z.eqb_neq (b8 (i - n0)) 0)) by zm. step1; [discriminate|]. step1. rewrite (b8_small (i + 1)) by lia. step1.
    rewrite (F1 (z5 + 4)), (F1 (z5 + 4 + 1)), T4 by lia. rewrite (b16_small (p + (i + 1))) by lia.
    rewrite (F1 (p + (i + 1))) by (assert (~ work5 (p + (i + 1))) by (apply AV; lia); unfold work5 in *; lia).
    replace (p + (i + 1)) with (p + 1 + i) by lia. rewrite EC. pose proof (WM (p + 1 + i)) as BD. rewrite EC in BD.
    pose proof (lxor_digit d BD) as (D1 & D2).
    assert (0 <= Z.lxor d 48 < 256) as BDX by (apply lxor_byte; lia).
    step1. step1. rewrite D1. step1. step1. norm. rewrite G1. cbn [digits] in *. destruct (is_digit d) eqn:ED; cbn [negb] in *.
    + rewrite (D2 eq_refl) in *. step1; [discriminate|].
      apply andb_prop in ED as (ED1 & ED2). zb. step1.
      set (m2 := upd m1 (z5 + 2) (d - 48)).
      assert (m2 z5 = a /\ m2 (z5 + 1) = x /\ m2 (z5 + 2) = d - 48) as (H1 & H2 & H3) by (unfold m2; norm; auto).
      assert (bytes_in m2) as W2 by (unfold m2; bytes_tac).
      assert (forall b, ~ z5 <= b <= z5 + 2 -> m2 b = m b) as F2 by (intros b NB; unfold m2; norm; apply F1; exact NB).
      clearbody m2. clear F1 W1 G1 G2 m1.
      assert (10 * w + (d - 48) <= decimal w (d - 48 :: digits l)) as DGE by (apply (decimal_ge (digits l)); [apply digits_range|lia]).
      assert (65535 < 10 * w + (d - 48) -> forall a' x' y' c' z' f' v' m', 0 <= a' < 256 -> 0 <= x' < 256 -> 0 <= y' < 256 ->
         bytes_in m' -> (forall b, ~ z5 <= b <= z5 + 2 -> m' b = m b) -> wp P (entry P "val.ebig") (mkcpu a' x' y' c' z' f' v' m' st r) Q) as EB
        by (intros HB; apply K2; lia).
      step1; zb; [at_label "val.ebig"; apply EB; auto; lia|].
      step1. step1. rewrite H2. rewrite (b8_small (2 * x + _)) by (destruct (128 <=? a); lia).
      set (h1 := 2 * x + (if 128 <=? a then 1 else 0)). set (q1 := b8 (2 * a)).
      assert (q1 + 256 * h1 = 2 * w /\ 0 <= q1 < 256 /\ 0 <= h1 < 52) as (E1 & B1 & B1')
        by (unfold q1, h1; destruct (128 <=? a) eqn:?; zb; zm). clearbody q1 h1.
      step1. step1. norm. rewrite (b8_small (2 * h1 + _)) by (destruct (128 <=? q1); lia).
      replace (128 <=? h1) with false by (symmetry; apply Z.leb_gt; lia).
      set (h2 := 2 * h1 + (if 128 <=? q1 then 1 else 0)). set (q2 := b8 (2 * q1)).
      assert (q2 + 256 * h2 = 4 * w /\ 0 <= q2 < 256 /\ 0 <= h2 < 104) as (E2 & B2 & B2')
        by (unfold q2, h2; destruct (128 <=? q1) eqn:?; zb; zm). clearbody q2 h2.
      step1. norm. rewrite H1. rewrite !Z.add_0_r. step1. step1. step1. norm.
      set (h3 := b8 (x + h2 + _)). set (q3 := b8 (q2 + a)).
      assert (q3 + 256 * h3 = 5 * w /\ 0 <= q3 < 256 /\ 0 <= h3 < 256) as (E3 & B3 & B3')
        by (unfold q3, h3; destruct (256 <=? q2 + a) eqn:?; zb; zm). clearbody q3 h3.
      step1. norm. step1. set (h4 := b8 (2 * h3 + _)). set (q4 := b8 (2 * q3)).
      assert (q4 + 256 * h4 = (10 * w) mod 65536 /\ 0 <= q4 < 256 /\ 0 <= h4 < 256) as (E4 & B4 & B4')
        by (unfold q4, h4; destruct (128 <=? q3) eqn:?; zb; zm).
      assert ((128 <=? h3) = (65536 <=? 10 * w)) as CB by (apply Bool.eq_iff_eq_true; rewrite !Z.leb_le; lia).
      rewrite CB. clearbody q4 h4. step1. set (m3 := upd _ z5 q4).
      assert (bytes_in m3) as W3 by (unfold m3; bytes_tac).
      assert (forall b, ~ z5 <= b <= z5 + 2 -> m3 b = m b) as F3 by (intros b NB; unfold m3; norm; apply F2; exact NB).
      assert (m3 z5 = q4 /\ m3 (z5 + 2) = d - 48) as (H4 & H5) by (unfold m3; norm; auto).
      assert (txt m3 (i + 1) l) as L3 by (revert TX2; apply txt_ext; intros b HB; apply F3; unfold work5 in HB; lia).
      clearbody m3. destruct (65536 <=? 10 * w) eqn:EW; zb; step1; try discriminate.
      { at_label "val.ebig". apply EB; auto; lia. }
      rewrite Z.mod_small in E4 by lia. step1. rewrite H5. step1. rewrite H4.
      assert (forall a' x' c' z' f' v', 0 <= a' < 256 -> 0 <= x' < 256 -> a' + 256 * x' = 10 * w + (d - 48) ->
        wp P (entry P "val.loop") (mkcpu a' x' (i + 1) c' z' f' v' m3 st r) Q) as LP.
      { intros a' x' c' z' f' v' BA' BX' E'. apply (IH (i + 1) (10 * w + (d - 48))); auto; try lia.
        - intros BD'. intros a1 x1 c1 z1 f1 v1 m4 A1 X1 E1' W4 F4. cbn [List.length] in K1.
          replace (i + 1 + Z.of_nat (List.length (digits l)) + 1) with (i + Z.of_nat (Datatypes.S (List.length (digits l))) + 1) by lia.
          apply K1; auto. intros b NB. rewrite F4, F3; auto.
        - intros BD' a1 x1 y1 c1 z1 f1 v1 m4 A1 X1 Y1 W4 F4.
          apply K2; auto. intros b NB. rewrite F4, F3; auto. }
      step1; zb.
      { at_label "val.loop". rewrite b8_small by lia. apply LP; lia. }
      step1. step1; zb.
      { at_label "val.loop". apply LP; try apply b8_range; zm. }
      step1. at_label "val.ebig". apply EB; auto; try apply b8_range; try zm.
    + step1; [|discriminate]. at_label "val.xit_n".
      cbn [decimal fold_left List.length Nat.eqb] in *. replace (i + 1) with (i + Z.of_nat 0 + 1) by lia. apply K1; auto; [lia|bytes_tac|].
      intros b NB. norm. apply F1. exact NB.
Qed.

Lemma digits_le l : (List.length (digits l) <= List.length l)%nat.
Proof. induction l as [|d l IH]; cbn; [lia|]. destruct (is_digit d); cbn; lia. Qed.
Lemma decimal_one d : decimal 0 [d] = d.
Proof. unfold decimal. cbn [fold_left]. lia. Qed.

(* src/interp/a5200/val.asm:35-137, from the zero in IOERROR and the length in tmp4 on *)
Lemma val5_body (Q : string -> cpu -> Prop) st r l m :
  txt m 0 l -> bytes_in m -> m (z5 + 10) = 0 ->
  (forall a' x' y' c' z' f' v' m', 0 <= a' < 256 -> 0 <= x' < 256 -> 0 <= y' < 256 -> bytes_in m' ->
     (forall b, ~ work5 b -> m' b = m b) ->
     match val5_of l with
     | Some w => a' + 256 * x' = word w /\ m' (z5 + 10) = 0
     | None => m' (z5 + 10) = 18
     end -> Q "next_instruction" (mkcpu a' x' y' c' z' f' v' m' st r)) ->
  forall x y c z f v, 0 <= x < 256 -> y = 0 ->
  wp P (entry P "val.skp") (mkcpu 32 x y c z f v m st r) Q.
Proof.
  destruct OK as (O1 & O2). intros TX WM E10 K.
  assert (forall a' x' y' c' z' f' v' m', 0 <= a' < 256 -> 0 <= x' < 256 -> bytes_in m' -> (forall b, ~ work5 b -> m' b = m b) ->
    val5_of l = None -> wp P (entry P "val.set_err") (mkcpu a' x' y' c' z' f' v' m' st r) Q) as ERR.
  { intros a' x' y' c' z' f' v' m' BA BX W' F' EN. entry5. step1. step1. step1; [|discriminate]. step1. apply K; auto; [lia|bytes_tac| |].
    - intros b NB. rewrite upd_ne by (unfold work5 in NB; lia). auto.
    - rewrite EN. norm. reflexivity. }
  assert (forall (neg : bool) l' i a' x' z' f' v', txt m i l' -> 0 <= x' < 256 ->
    val5_of l = (if neg then option_map Z.opp (number5 l') else number5 l') ->
    wp P (entry P "val.convert") (mkcpu a' x' (b8 (i + 1)) neg z' f' v' m st r) Q) as CONV.
  { intros neg l' i a' x' z' f' v' TX' BX' EV. pose proof TX' as (T1 & T2 & T6 & T4 & _). entry5. step1. step1. step1.
    replace (b8 (b8 (i + 1) - 1)) with i by zm. step1. step1. step1. at_label "val.loop".
    set (m1 := upd m (z5 + 2 + 1) (b8 (i + 1))).
    assert (bytes_in m1) as W1 by (unfold m1; bytes_tac).
    assert (forall b, b <> z5 + 3 -> m1 b = m b) as F1 by (intros b NB; unfold m1; norm; reflexivity).
    assert (m1 (z5 + 2 + 1) = b8 (i + 1)) as Y1 by (unfold m1; norm; reflexivity).
    assert (txt m1 i l') as TX1 by (revert TX'; apply txt_ext; intros b HB; apply F1; unfold work5 in HB; lia).
    clearbody m1. pose proof (digits_range l') as DR. pose proof (decimal_ge _ 0 DR ltac:(lia)) as DG.
    assert (forall a2 x2 y2 c2 z2 f2 v2 m2, 0 <= a2 < 256 -> 0 <= x2 < 256 -> bytes_in m2 -> (forall b, ~ z5 <= b <= z5 + 2 -> m2 b = m1 b) ->
       val5_of l = None -> wp P (entry P "val.ebig") (mkcpu a2 x2 y2 c2 z2 f2 v2 m2 (CFlags neg z' f' v' :: st) r) Q) as EB.
    { intros a2 x2 y2 c2 z2 f2 v2 m2 A2 X2 W2 F2 EN. entry5. step1. step1. at_label "val.set_err". apply ERR; auto.
      intros b NB. unfold work5 in NB. rewrite F2, F1 by lia. reflexivity. }
    apply (val5_loop Q _ r l' i 0); auto; try lia.
    - intros DB a2 x2 c2 z2 f2 v2 m2 A2 X2 E2 W2 F2. pose proof (digits_le l') as LD.
      set (yy := if (List.length (digits l') =? List.length l')%nat then n0 else i + Z.of_nat (List.length (digits l')) + 1).
      assert (0 <= yy < 256) as BY.
      { unfold yy. destruct (Nat.eqb_spec (List.length (digits l')) (List.length l')); lia. }
      assert ((b8 (yy - b8 (i + 1)) =? 0) = match number5 l' with None => true | Some _ => false end /\
        forall w, number5 l' = Some w -> w = decimal 0 (digits l')) as (EY & EV2).
      { assert (number l' = match digits l' with [] => None | ds => Some (decimal 0 ds) end) as EN.
        { unfold number. clear - DB. destruct (digits l'); [reflexivity|]. rewrite (proj2 (Z.leb_le _ _) DB). reflexivity. }
        unfold yy. destruct l' as [|d1 [|d2 l2]].
        - cbn [number5 digits List.length Nat.eqb] in *. split; [|intros w E; injection E as <-; reflexivity].
          apply Z.eqb_neq. replace n0 with i by lia. destruct (Z.eq_dec i 255) as [->|]; [discriminate|]. zm.
        - cbn [number5]. split; [|discriminate]. apply Z.eqb_eq. cbn [digits List.length] in *. destruct (is_digit d1); cbn [List.length Nat.eqb]; zm.
        - unfold number5. rewrite EN. destruct (digits (d1 :: d2 :: l2)) as [|e1 es] eqn:ED.
          + cbn [List.length Nat.eqb] in *. split; [|discriminate]. apply Z.eqb_eq. zm.
          + split; [|intros w E; injection E as <-; reflexivity]. apply Z.eqb_neq. cbn [List.length] in *.
            destruct (Nat.eqb_spec (Datatypes.S (List.length es)) (Datatypes.S (Datatypes.S (List.length l2)))) as [EL|NL]; zm. }
      clearbody yy. entry5. step1. rewrite (F2 (z5 + 2 + 1)), Y1, EY by lia.
      assert (forall b, ~ work5 b -> m2 b = m b) as F3 by (intros b NB; unfold work5 in NB; rewrite F2, F1 by lia; reflexivity).
      assert (m2 (z5 + 10) = 0) as E10' by (rewrite F2, F1 by lia; exact E10).
      destruct (number5 l') as [w|].
      + step1; [discriminate|]. step1. rewrite (EV2 w eq_refl) in *. destruct neg; step1; try discriminate.
        * eapply wp_jsr; [reflexivity|]. cpu_red. at_label "neg_AX". apply neg5; auto.
          intros a3 x3 c3 z3 f3 v3 E3 A3 X3. step1. step1. apply K; auto. rewrite EV. cbn [option_map]. split; [|exact E10']. rewrite E3, E2. reflexivity.
        * step1. apply K; auto. rewrite EV. split; [|exact E10']. rewrite E2. unfold word. rewrite Z.mod_small; [reflexivity|lia].
      + step1; [|discriminate]. at_label "val.ebig". apply EB; auto. rewrite EV. destruct neg; reflexivity.
    - intros DB a2 x2 y2 c2 z2 f2 v2 m2 A2 X2 Y2 W2 F2. apply EB; auto.
      enough (number5 l' = None) as EN by (rewrite EV, EN; destruct neg; reflexivity).
      unfold number5. destruct l' as [|d1 [|d2 l2]]; [cbn in DB; lia|reflexivity|]. unfold number.
      destruct (digits (d1 :: d2 :: l2)) as [|e1 es] eqn:ED; [reflexivity|]. rewrite (proj2 (Z.leb_gt _ _)) by exact DB. reflexivity. }
  intros x y c z f v BX ->.
  assert (forall l' i x' c' z' f' v', 0 <= x' < 256 -> txt m i l' -> val5_of l = val5_of l' ->
    wp P (entry P "val.skp") (mkcpu 32 x' i c' z' f' v' m st r) Q) as SK.
  { induction l' as [|d q IH]; intros i x' c' z' f' v' BX' TX' EV; pose proof TX' as (T1 & T2 & T6 & T4 & _); entry5; step1; rewrite T6;
      cbn [List.length] in T1.
    - replace i with n0 by lia. rewrite Z.leb_refl. step1; [|discriminate]. at_label "val.set_err". apply ERR; auto; try lia. 
    - rewrite (proj2 (Z.leb_gt n0 i)) by lia. step1; [discriminate|]. step1. rewrite (b8_small (i + 1)) by lia.
      destruct (txt_cons _ _ _ _ TX') as (EC & TX2). step1. rewrite T4. rewrite (b16_small (p + (i + 1))) by lia.
      replace (p + (i + 1)) with (p + 1 + i) by lia. rewrite EC. pose proof (WM (p + 1 + i)) as BD. rewrite EC in BD.
      step1; zb.
      + assert (d = 32) as -> by (unfold b8 in *; Z.div_mod_to_equations; lia). at_label "val.skp". apply IH; auto.
      + assert (d <> 32) as ND by (intros ->; apply K1; reflexivity).
        assert (val5_of l = with_sign5 (d :: q)) as EV2.
        { rewrite EV. unfold val5_of. cbn [skip_blanks]. apply Z.eqb_neq in ND. rewrite ND. reflexivity. }
        clear EV. unfold with_sign5 in EV2. step1. step1. rewrite T4. rewrite (b16_small (p + (i + 1))) by lia. replace (p + (i + 1)) with (p + 1 + i) by lia. rewrite EC.
        step1. step1; zb.
        * assert (d = 45) as -> by (unfold b8 in *; Z.div_mod_to_equations; lia). at_label "val.do_minus". entry5. step1. step1. at_label "val.convert".
          change (45 <=? 45) with true. apply (CONV true q (i + 1)); auto.
        * assert (d <> 45) as N45 by (intros ->; apply K2; reflexivity). rewrite (proj2 (Z.eqb_neq d 45) N45) in EV2.
          step1. step1. step1; zb.
          -- assert (d <> 43) as N43 by (intros ->; apply K3; reflexivity). rewrite (proj2 (Z.eqb_neq d 43) N43) in EV2. at_label "val.convert".
             rewrite <- (b8_small (i + 1)) by lia. apply (CONV false (d :: q) i); auto.
          -- assert (d = 43) as -> by (apply Z.lxor_eq; exact K3). step1. step1. step1. at_label "val.convert". apply (CONV false q (i + 1)); auto. }
  apply SK with (l' := l); auto.
Qed.
End T.

Theorem val5_ok z5 : zp5_ok z5 -> forall s, wf s -> apart_from (M s) (AX s) (work5 z5) ->
  exists s', calls (rt5 z5) "EXE_VAL" s "next_instruction" s' /\ wf s' /\
    match val5_of (str_at (M s) (AX s)) with
    | Some w => AX s' = word w /\ M s' (IOERROR_5 z5) = 0
    | None => M s' (IOERROR_5 z5) = 18
    end /\
    (forall b, ~ work5 z5 b -> M s' b = M s b) /\ S s' = S s /\ rnd s' = rnd s.
Proof.
  intros OK s (WA & WX & WY & WM) (P0 & P1 & P2). pose proof OK as (O1 & O2). destruct s as [a x y c z f v m st r]. unfold AX in *. cbn [A X Y M S rnd] in *.
  set (p := a + 256 * x) in *. pose proof (WM p) as BN. apply wp_calls. entry5. step1. step1. step1. step1. step1.
  set (m1 := upd _ (z5 + 10) 0).
  assert (forall b, ~ work5 z5 b -> m1 b = m b) as F1 by (intros b NB; unfold work5 in NB; unfold m1; norm; reflexivity).
  assert (m1 (z5 + 4) + 256 * m1 (z5 + 4 + 1) = p) as E4 by (unfold m1; norm; reflexivity).
  rewrite E4. rewrite b16_small by lia. rewrite Z.add_0_r. assert (m1 p = m p) as Em by (apply F1; replace p with (p + 0) by lia; apply P2; lia). rewrite Em. step1. step1. step1. at_label "val.skp".
  apply (val5_body z5 OK p (m p) BN ltac:(lia) P2) with (l := str_at m p); auto; try lia.
  - split; [rewrite str_len; lia|]. split; [lia|]. split; [norm; reflexivity|]. split; [norm; exact E4|].
    intros k K. rewrite str_len in K. assert (~ work5 z5 (p + 1 + 0 + Z.of_nat k)) as NW.
    { replace (p + 1 + 0 + Z.of_nat k) with (p + (1 + Z.of_nat k)) by lia. apply P2. lia. }
    rewrite upd_ne by (unfold work5 in NW; lia). rewrite F1 by exact NW. rewrite str_nth by lia. f_equal. lia.
  - unfold m1. bytes_tac.
  - unfold m1. norm. reflexivity.
  - intros a' x' y' c' z' f' v' m' A1 X1 Y1 W1 FF V. split; [reflexivity|]. unfold AX. cbn [A X Y M S rnd].
    split; [apply wf_intro; auto|]. split; [exact V|]. split; [|auto]. intros b NB. rewrite FF by exact NB. unfold work5 in NB. rewrite upd_ne by lia. apply F1. exact NB.
Qed.
