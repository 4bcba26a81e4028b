(* STR$ of the Atari 5200 run-time. *)
From Verif Require Export Rt5 RtArith RtVal.

Ltac entry5 :=
  match goal with |- wp ?P (entry ?P ?l) _ _ =>
    let c := eval cbv [entry find_lb find_in rt5 c_negax c_val5 c_str5 String.eqb Ascii.eqb Bool.eqb] in (entry P l) in
    change (entry P l) with c
  end.

Section T.
Variable z5 : Z.
Hypothesis OK : zp5_ok z5.
Notation P := (rt5 z5).

Lemma neg5 k (Q : string -> cpu -> Prop) a x y c z f v m st r : 0 <= a < 256 -> 0 <= x < 256 ->
  (forall a' x' c z n v, a' + 256 * x' = word (- (a + 256 * x)) -> 0 <= a' < 256 -> 0 <= x' < 256 ->
     wp P k (mkcpu a' x' y c z n v m st r) Q) ->
  wp P (entry P "neg_AX") (mkcpu a x y c z f v m (CRet k :: st) r) Q.
Proof.
  intros BA BX H. entry5. do 10 step1. apply H.
  - rewrite !lxor_255 by lia. destruct (256 <=? 255 - a + 1 + 0) eqn:K; zm.
  - apply b8_range.
  - apply b8_range.
Qed.

(* one step of the division by ten: the remainder is below 10 *)
Lemma step10 (Q : string -> cpu -> Prop) st r y x h m c z f v :
  0 <= h < 10 -> 0 < x < 256 -> bytes_in m ->
  (forall c' f' m', bytes_in m' -> (forall b, b <> z5 -> b <> z5 + 1 -> m' b = m b) ->
     wordat m' z5 = word (2 * wordat m z5) + cin (5 <=? h) ->
     wp P (In (Br NE "str.L2") :: skipn 5 (entry P "str.L3"))
       (mkcpu (2 * (h mod 5) + wordat m z5 / 32768) (x - 1) y c' (x - 1 =? 0) f' ((5 <=? h) || v)%bool m' st r) Q) ->
  wp P (entry P "str.L2") (mkcpu h x y c z f v m st r) Q.
Proof.
  destruct OK as (O1 & O2). intros BH BX WM K. pose proof (WM z5) as B0. pose proof (WM (z5 + 1)) as B1. unfold wordat in *.
  assert (forall a c' z' f' v', c' = (5 <=? h) -> 2 * (h mod 5) = b8 (2 * a) -> 0 <= a < 256 -> v' = ((5 <=? h) || v)%bool ->
    wp P (entry P "str.L3") (mkcpu a x y c' z' f' v' m st r) Q) as G.
  { intros a c' z' f' v' -> EA BA ->.
    lazymatch goal with |- wp _ _ ?s ?Q => change (wp P ([In (ROL (Mem z5)); In (ROL (Mem (z5 + 1))); In ROLa; In DEX; In (Br NE "str.L2")] ++ skipn 5 (entry P "str.L3")) s Q) end.
    cbn [app]. step1. step1. norm. step1. step1. rewrite (b8_small (x - 1)) by lia.
    replace (b8 (2 * a + (if 128 <=? m (z5 + 1) then 1 else 0))) with (2 * (h mod 5) + (m z5 + 256 * m (z5 + 1)) / 32768)
      by (rewrite EA; destruct (128 <=? m (z5 + 1)) eqn:E; zb; zm).
    apply K.
    - bytes_tac.
    - intros b N1 N2. norm. reflexivity.
    - norm. destruct (5 <=? h), (128 <=? m z5) eqn:E; zb; zm. }
  entry5. step1. step1; zb.
  - at_label "str.L3". apply G; auto; [zm|lia|]. rewrite (proj2 (Z.leb_gt 5 h)) by lia. reflexivity.
  - step1. step1. step1. at_label "str.L3". assert ((5 <=? h) = true) as E by (apply Z.leb_le; lia). apply G; auto.
    + rewrite E. zm.
    + apply b8_range.
    + rewrite E. unfold sb. rewrite (proj2 (Z.ltb_lt h 128)) by lia. change (133 <? 128) with false.
      rewrite (proj2 (Z.leb_gt _ 127)) by lia. rewrite andb_false_r. reflexivity.
Qed.
(* division by ten: h has been divided, the k bits of l are to come *)
Lemma div10 (Q : string -> cpu -> Prop) st r y : forall k h l m c z f v,
  (k <= 15)%nat -> let w := Z.of_nat (Datatypes.S k) in
  0 <= h < 2 ^ (16 - w) -> 0 <= l < 2 ^ w -> bytes_in m ->
  wordat m z5 = l * 2 ^ (16 - w) + h / 10 -> v = negb (h / 10 =? 0) ->
  (forall c' z' f' m', bytes_in m' -> (forall b, b <> z5 -> b <> z5 + 1 -> m' b = m b) ->
     let n := h * 2 ^ w + l in wordat m' z5 = n / 10 ->
     wp P (skipn 5 (entry P "str.L3")) (mkcpu (n mod 10) 0 y c' z' f' (negb (n / 10 =? 0)) m' st r) Q) ->
  wp P (entry P "str.L2") (mkcpu (h mod 10) w y c z f v m st r) Q.
Proof.
  assert (forall h b v, 0 <= h -> 0 <= b < 2 -> v = negb (h / 10 =? 0) ->
    cin (5 <=? h mod 10) = (2 * h + b) / 10 - 2 * (h / 10) /\ 2 * ((h mod 10) mod 5) + b = (2 * h + b) mod 10 /\
    ((5 <=? h mod 10) || v)%bool = negb ((2 * h + b) / 10 =? 0)) as ST.
  { intros h b v H1 H2 ->. unfold cin.
    assert ((2 * h + b) / 10 = 2 * (h / 10) + (if 5 <=? h mod 10 then 1 else 0) /\ 2 * ((h mod 10) mod 5) + b = (2 * h + b) mod 10) as (E1 & E2).
    { destruct (5 <=? h mod 10) eqn:E; zb; Z.div_mod_to_equations; lia. }
    split; [lia|]. split; [lia|]. rewrite E1. pose proof (Z.div_pos h 10 H1 ltac:(lia)). apply Bool.eq_iff_eq_true.
    rewrite orb_true_iff, !negb_true_iff, !Z.eqb_neq. destruct (5 <=? h mod 10); intuition lia. }
  induction k as [|k IH]; intros h l m c z f v BK w BH BL WM EW EV K; subst w.
  - change (Z.of_nat 1) with 1 in *. change (16 - 1) with 15 in *. change (2 ^ 1) with 2 in *. change (2 ^ 15) with 32768 in *.
    apply step10; auto; [apply Z.mod_pos_bound; lia|lia|].
    intros c' f' m' W' F' E'. change (1 - 1 =? 0) with true. step1; [discriminate|].
    assert (0 <= h / 10 < 32768) as BQ by (Z.div_mod_to_equations; lia).
    assert (wordat m z5 / 32768 = l) as El by (rewrite EW; Z.div_mod_to_equations; lia). rewrite El in *.
    assert (word (2 * wordat m z5) = 2 * (h / 10)) as E1 by (rewrite EW; unfold word; Z.div_mod_to_equations; lia).
    destruct (ST h l v ltac:(lia) BL EV) as (T1 & T2 & T3). rewrite T2, T3. rewrite (Z.mul_comm 2 h) in *.
    change (1 - 1) with 0. apply K; auto. lia.
  - set (w := Z.of_nat (Datatypes.S k)) in *. replace (Z.of_nat (Datatypes.S (Datatypes.S k))) with (w + 1) in * by lia.
    assert (1 <= w <= 15) as BW by lia. cbv zeta in IH.
    set (g := 2 ^ w) in *. set (p := 2 ^ (16 - (w + 1))) in *.
    assert (2 ^ (16 - w) = 2 * p) as Ep by (unfold p; rewrite <- Z.pow_succ_r by lia; f_equal; lia).
    assert (2 ^ (w + 1) = 2 * g) as Eg by (unfold g; rewrite <- Z.pow_succ_r by lia; f_equal; lia).
    assert (g * p = 32768) as GP by (unfold g, p; rewrite <- Z.pow_add_r by lia; replace (w + (16 - (w + 1))) with 15 by lia; reflexivity).
    assert (0 < g /\ 0 < p) as (G0 & P0) by (split; apply Z.pow_pos_nonneg; lia).
    rewrite Ep in IH. rewrite Eg in BL, K. clearbody g p.
    set (b := l / g). set (l' := l mod g).
    assert (l = g * b + l' /\ 0 <= l' < g /\ 0 <= b < 2) as (El & Bl & Bb).
    { unfold b, l'. pose proof (Z.div_mod l g ltac:(lia)). pose proof (Z.mod_pos_bound l g G0). split; [lia|]. split; [lia|].
      split; [apply Z.div_pos; lia|apply Z.div_lt_upper_bound; lia]. }
    clearbody b l'. assert (0 <= h / 10 < p) as BQ by (split; [apply Z.div_pos; lia|apply Z.div_lt_upper_bound; lia]).
    assert (wordat m z5 = 32768 * b + (l' * p + h / 10)) as EW2 by (rewrite EW, El; nia).
    assert (0 <= l' * p + h / 10 < 32768) as BT by nia.
    apply step10; auto; [apply Z.mod_pos_bound; lia|lia|].
    intros c' f' m' W' F' E'. rewrite (proj2 (Z.eqb_neq (w + 1 - 1) 0)) by lia. step1; [|discriminate].
    at_label "str.L2". replace (w + 1 - 1) with w by lia.
    assert (wordat m z5 / 32768 = b) as Eb by (rewrite EW2; Z.div_mod_to_equations; lia). rewrite Eb in *.
    assert (word (2 * wordat m z5) = 2 * (l' * p + h / 10)) as E1 by (rewrite EW2; unfold word; Z.div_mod_to_equations; lia).
    destruct (ST h b v ltac:(lia) Bb EV) as (T1 & T2 & T3). rewrite T2, T3.
    apply (IH (2 * h + b) l'); auto; try lia.
    intros c2 z2 f2 m2 W2 F2. replace ((2 * h + b) * g + l') with (h * (2 * g) + l) by (rewrite El; ring). cbv zeta. intros E2.
    apply K; auto. intros x N1 N2. rewrite F2, F'; auto.
Qed.

(* the characters of the digits end at line_buf + 7 *)
Definition shown (m : Z -> Z) (y : Z) (ds : list Z) : Prop :=
  y + Z.of_nat (List.length ds) = 7 /\
  forall i, (i < List.length ds)%nat -> m (641 + y + Z.of_nat i) = 48 + nth i ds 0.
Lemma lor_48 d : 0 <= d < 10 -> Z.lor d 48 = 48 + d.
Proof.
  intros B. assert (d = 0 \/ d = 1 \/ d = 2 \/ d = 3 \/ d = 4 \/ d = 5 \/ d = 6 \/ d = 7 \/ d = 8 \/ d = 9) as H by lia.
  repeat destruct H as [->|H]; try reflexivity. subst. reflexivity.
Qed.
Lemma str_digits (Q : string -> cpu -> Prop) st r N : forall k n acc y m a x c z f v,
  0 <= n < 10 ^ Z.of_nat (Datatypes.S k) -> Z.of_nat (Datatypes.S k) <= y -> shown m y acc -> Forall digit acc ->
  (acc <> [] -> n <> 0) -> N = n * 10 ^ Z.of_nat (List.length acc) + value acc -> bytes_in m -> wordat m z5 = n -> n < 65536 ->
  (forall ds y' a' x' c' z' f' v' m', ds <> [] -> Forall digit ds -> value ds = N -> (hd 0 ds = 0 -> ds = [0]) ->
     y - Z.of_nat (Datatypes.S k) <= y' -> shown m' y' ds -> bytes_in m' ->
     (forall b, b <> z5 -> b <> z5 + 1 -> ~ 640 <= b <= 647 -> m' b = m b) ->
     wp P (skipn 9 (entry P "str.L3")) (mkcpu a' x' y' c' z' f' v' m' st r) Q) ->
  wp P (entry P "str.L1") (mkcpu a x y c z f v m st r) Q.
Proof.
  destruct OK as (O1 & O2).
  induction k as [|k IH]; intros n acc y m a x c z f v BN BY (SH1 & SH2) FA NZ EN WM EW BN2 K.
  all: entry5; step1; step1; step1; step1; at_label "str.L2".
  all: assert (0 <= n < 2 ^ 16) as B16 by (change (2 ^ 16) with 65536; lia).
  all: change 0 with (0 mod 10) at 2; change 16 with (Z.of_nat 16) at 2.
  all: apply (div10 Q st r y 15 0 n); auto; try (change (16 - Z.of_nat 16) with 0; rewrite ?EW; change (2 ^ 0) with 1; change (0 / 10) with 0; lia).
  all: intros c1 z1 f1 m1 W1 F1; cbv zeta; rewrite Z.mul_0_l, Z.add_0_l; intros E1.
  all: lazymatch goal with |- wp _ _ ?s ?Q => change (wp P ([In (ORA (Imm 48)); In (STA (MemY line_buf_5)); In DEY; In (Br VS "str.L1")] ++ skipn 9 (entry P "str.L3")) s Q) end.
  all: pose proof (Z.mod_pos_bound n 10 ltac:(lia)) as BD; unfold line_buf_5; cbn [app]; step1; rewrite (lor_48 (n mod 10)) by lia; step1; step1; rewrite (b8_small (y - 1)) by lia; rewrite (b16_small (640 + y)) by lia.
  all: set (m2 := upd m1 (640 + y) _).
  all: assert (bytes_in m2) as W2 by (unfold m2; bytes_tac).
  all: assert (shown m2 (y - 1) (n mod 10 :: acc)) as SH.
  1,3: split; [cbn [List.length]; lia|]; intros i I; destruct i as [|i]; cbn [nth List.length] in *;
    [unfold m2; replace (641 + (y - 1) + Z.of_nat 0) with (640 + y) by lia; norm; reflexivity|
     replace (641 + (y - 1) + Z.of_nat (Datatypes.S i)) with (641 + y + Z.of_nat i) by lia; rewrite <- SH2 by lia;
     unfold m2; rewrite upd_ne by lia; apply F1; lia].
  all: assert (Forall digit (n mod 10 :: acc)) as FA2 by (constructor; [unfold digit; lia|exact FA]).
  all: assert (wordat m2 z5 = n / 10) as EW2 by (unfold wordat, m2 in *; rewrite !upd_ne by lia; exact E1).
  all: assert (N = n / 10 * 10 ^ Z.of_nat (List.length (n mod 10 :: acc)) + value (n mod 10 :: acc)) as EN2.
  1,3: cbn [List.length value]; rewrite Nat2Z.inj_succ, Z.pow_succ_r by lia; rewrite EN; pose proof (Z.div_mod n 10 ltac:(lia)) as DM;
     replace (n * 10 ^ Z.of_nat (List.length acc)) with ((10 * (n / 10) + n mod 10) * 10 ^ Z.of_nat (List.length acc)) by (f_equal; lia); ring.
  all: assert (forall b, b <> z5 -> b <> z5 + 1 -> ~ 640 <= b <= 647 -> m2 b = m b) as F2
    by (intros b N1 N2 N3; unfold m2; rewrite upd_ne by lia; apply F1; auto).
  all: assert (n / 10 = 0 -> forall a' x' c' z' f' v', wp P (skipn 9 (entry P "str.L3")) (mkcpu a' x' (y - 1) c' z' f' v' m2 st r) Q) as LAST.
  1,3: intros Z0 a' x' c' z' f' v'; apply (K (n mod 10 :: acc)); auto; [discriminate|rewrite EN2, Z0; ring| |lia];
    cbn [hd]; intros H0; destruct acc as [|d acc]; [rewrite H0; reflexivity|];
    exfalso; apply (NZ ltac:(discriminate)); Z.div_mod_to_equations; lia.
  all: clearbody m2.
  - assert (n / 10 = 0) as Z0 by (change (10 ^ Z.of_nat 1) with 10 in BN; apply Z.div_small; lia).
    rewrite Z0. step1; [discriminate|]. apply LAST. exact Z0.
  - destruct (n / 10 =? 0) eqn:EZ; zb; cbn [negb]; step1; try discriminate.
    + apply LAST. exact EZ.
    + at_label "str.L1".
      assert (10 ^ Z.of_nat (Datatypes.S (Datatypes.S k)) = 10 * 10 ^ Z.of_nat (Datatypes.S k)) as E10
        by (rewrite (Nat2Z.inj_succ (Datatypes.S k)), Z.pow_succ_r by lia; reflexivity).
      apply (IH (n / 10) (n mod 10 :: acc)); auto; try lia.
      * split; [apply Z.div_pos; lia|apply Z.div_lt_upper_bound; lia].
      * apply Z.div_lt_upper_bound; lia.
      * intros ds y' a' x' c' z' f' v' m' D1 D2 D3 D4 D5 D6 D7 D8. apply (K ds); auto; [lia|].
        intros b N1 N2 N3. rewrite D8, F2; auto.
Qed.

Lemma str_at_intro m p (l : list Z) : m p = Z.of_nat (List.length l) ->
  (forall i, (i < List.length l)%nat -> m (p + 1 + Z.of_nat i) = nth i l 0) -> str_at m p = l.
Proof.
  intros E H. unfold str_at. rewrite E, Nat2Z.id. apply nth_ext with (d := 0) (d' := 0).
  - rewrite map_length, seq_length. reflexivity.
  - intros n Hn. rewrite map_length, seq_length in Hn. rewrite (nth_indep _ 0 (m (p + 1 + Z.of_nat O))) by (rewrite map_length, seq_length; exact Hn).
    rewrite (map_nth (fun i => m (p + 1 + Z.of_nat i)) (seq 0 (List.length l)) O n). rewrite seq_nth by exact Hn. apply H. exact Hn.
Qed.
(* src/interp/a5200/str.asm:37-90 *)
Theorem str5_ok s : wf s ->
  exists s' ds, calls P "EXE_INT_STR" s "next_instruction" s' /\ wf s' /\
    ds <> [] /\ Forall digit ds /\ (hd 0 ds = 0 -> ds = [0]) /\ value ds = Z.abs (signed (AX s)) /\
    str_at (M s') (AX s') = (if signed (AX s) <? 0 then [45] else []) ++ map (fun d => 48 + d) ds /\
    640 <= AX s' <= 647 /\
    (forall b, b <> z5 -> b <> z5 + 1 -> ~ 640 <= b <= 647 -> M s' b = M s b) /\ S s' = S s /\ rnd s' = rnd s.
Proof.
  destruct OK as (O1 & O2). intros (WA & WX & WY & WM). destruct s as [a x y c z f v m st r]. unfold AX in *. cbn [A X Y M S rnd] in *.
  set (n := signed (a + 256 * x)). set (neg := 128 <=? x).
  assert ((n <? 0) = neg /\ Z.abs n <= 32768 /\ (if neg then Z.abs n = word (- (a + 256 * x)) else Z.abs n = a + 256 * x)) as (EN & BN & EV).
  { unfold n, neg, signed, word. destruct (128 <=? x) eqn:E; zb; [rewrite (proj2 (Z.ltb_ge (a + 256 * x) 32768)) by lia|rewrite (proj2 (Z.ltb_lt (a + 256 * x) 32768)) by lia];
    (split; [first [apply Z.ltb_lt|apply Z.ltb_ge]; lia|]); (split; [lia|]); Z.div_mod_to_equations; lia. }
  enough (wp P (entry P "EXE_INT_STR") (mkcpu a x y c z f v m st r) (fun e s' => e = "next_instruction" /\ exists ds,
    wf s' /\ ds <> [] /\ Forall digit ds /\ (hd 0 ds = 0 -> ds = [0]) /\ value ds = Z.abs n /\
    str_at (M s') (AX s') = (if n <? 0 then [45] else []) ++ map (fun d => 48 + d) ds /\ 640 <= AX s' <= 647 /\
    (forall b, b <> z5 -> b <> z5 + 1 -> ~ 640 <= b <= 647 -> M s' b = m b) /\ S s' = st /\ rnd s' = r)) as W.
  { apply wp_calls in W as (s' & C & ds & H). exists s', ds. split; [exact C|]. exact H. }
  clearbody n.
  (* from the positive number on *)
  assert (forall a1 x1 y1 c1 z1 f1 v1 cz cf cv, a1 + 256 * x1 = Z.abs n -> 0 <= a1 < 256 -> 0 <= x1 < 256 ->
    wp P (entry P "str.positive") (mkcpu a1 x1 y1 c1 z1 f1 v1 m (CFlags neg cz cf cv :: st) r) (fun e s' => e = "next_instruction" /\ exists ds,
    wf s' /\ ds <> [] /\ Forall digit ds /\ (hd 0 ds = 0 -> ds = [0]) /\ value ds = Z.abs n /\
    str_at (M s') (AX s') = (if n <? 0 then [45] else []) ++ map (fun d => 48 + d) ds /\ 640 <= AX s' <= 647 /\
    (forall b, b <> z5 -> b <> z5 + 1 -> ~ 640 <= b <= 647 -> M s' b = m b) /\ S s' = st /\ rnd s' = r)) as G.
  { intros a1 x1 y1 c1 z1 f1 v1 cz cf cv EA BA BX. entry5. step1. step1. step1. step1. at_label "str.L1".
    apply (str_digits _ _ _ (Z.abs n) 4 (Z.abs n) []); auto; try lia.
    - split; [reflexivity|]. intros i I. cbn in I. lia.
    - cbn [List.length value]. change (10 ^ Z.of_nat 0) with 1. lia.
    - bytes_tac.
    - unfold wordat. norm. exact EA.
    - change (Z.of_nat 5) with 5. intros ds y2 a2 x2 c2 z2 f2 v2 m2 NE FD VD HD BY2 (SH1 & SH2) W2 F2.
      assert (0 < List.length ds)%nat as LD by (destruct ds; [congruence|cbn; lia]).
      (* the end, with the length *)
      assert (forall y3 c3 z3 f3 v3 m3 a3 (l : list Z), 0 <= y3 -> y3 + Z.of_nat (List.length l) = 7 ->
        (forall i, (i < List.length l)%nat -> m3 (641 + y3 + Z.of_nat i) = nth i l 0) ->
        l = (if n <? 0 then [45] else []) ++ map (fun d => 48 + d) ds -> bytes_in m3 ->
        (forall b, b <> z5 -> b <> z5 + 1 -> ~ 640 <= b <= 647 -> m3 b = m b) ->
        wp P (entry P "str.ok") (mkcpu a3 x2 y3 c3 z3 f3 v3 m3 st r) (fun e s' => e = "next_instruction" /\ exists ds,
        wf s' /\ ds <> [] /\ Forall digit ds /\ (hd 0 ds = 0 -> ds = [0]) /\ value ds = Z.abs n /\
        str_at (M s') (AX s') = (if n <? 0 then [45] else []) ++ map (fun d => 48 + d) ds /\ 640 <= AX s' <= 647 /\
        (forall b, b <> z5 -> b <> z5 + 1 -> ~ 640 <= b <= 647 -> M s' b = m b) /\ S s' = st /\ rnd s' = r)) as E.
      { intros y3 c3 z3 f3 v3 m3 a3 l B3 EL HL El W3 F3. entry5. unfold line_buf_5.
        assert (Z.lxor y3 7 = 7 - y3) as EX.
        { assert (y3 = 0 \/ y3 = 1 \/ y3 = 2 \/ y3 = 3 \/ y3 = 4 \/ y3 = 5 \/ y3 = 6 \/ y3 = 7) as H by lia.
          repeat destruct H as [->|H]; try reflexivity. subst. reflexivity. }
        step1. step1. rewrite EX. step1. rewrite (b16_small (640 + y3)) by lia. step1. change (640 / 256) with 2. step1. step1. change (640 mod 256) with 128.
        step1. rewrite (b8_small (y3 + 128 + 0)) by lia. rewrite (proj2 (Z.leb_gt 256 _)) by lia. step1; [|discriminate]. step1.
        split; [reflexivity|]. exists ds. unfold AX. cbn [A X Y M S rnd]. replace (y3 + 128 + 0 + 256 * 2) with (640 + y3) by lia.
        split; [apply wf_intro; auto; try lia; bytes_tac|]. do 4 (split; [assumption|]).
        split; [|split; [lia|split; [intros b N1 N2 N3; norm; apply F3; auto|auto]]].
        rewrite <- El. apply str_at_intro; [norm; lia|]. intros i I. rewrite upd_ne by lia. rewrite <- HL by exact I. f_equal. lia. }
      assert (forall b, b <> z5 -> b <> z5 + 1 -> ~ 640 <= b <= 647 -> m2 b = m b) as F2'.
      { intros b N1 N2 N3. rewrite F2 by auto. norm. reflexivity. }
      lazymatch goal with |- wp _ _ ?s ?Q => change (wp P ([In PLP; In (Br CC "str.ok"); In (LDA (Imm 45)); In (STA (MemY line_buf_5)); In DEY; Lb "str.ok"] ++ entry P "str.ok") s Q) end.
      cbn [app]. unfold line_buf_5. step1. step1.
      + destruct neg eqn:EG; [discriminate|]. at_label "str.ok". apply (E y2 _ _ _ _ m2 _ (map (fun d => 48 + d) ds)); auto; try lia.
        * rewrite map_length. lia.
        * intros i I. rewrite map_length in I. rewrite SH2 by exact I. rewrite (nth_indep (map (fun d => 48 + d) ds) 0 (48 + 0)) by (rewrite map_length; exact I).
          rewrite (map_nth (fun d => 48 + d)). reflexivity.
        * rewrite EN. reflexivity.
      + destruct neg eqn:EG; [|discriminate]. step1. step1. rewrite (b16_small (640 + y2)) by lia. step1. rewrite (b8_small (y2 - 1)) by lia. step1. at_label "str.ok".
        apply (E (y2 - 1) _ _ _ _ _ _ (45 :: map (fun d => 48 + d) ds)); auto; try lia.
        * cbn [List.length]. rewrite map_length. lia.
        * intros [|i] I; cbn [List.length nth] in *; [replace (641 + (y2 - 1) + Z.of_nat 0) with (640 + y2) by lia; norm; reflexivity|].
          rewrite map_length in I. replace (641 + (y2 - 1) + Z.of_nat (Datatypes.S i)) with (641 + y2 + Z.of_nat i) by lia. rewrite upd_ne by lia.
          rewrite SH2 by lia. rewrite (nth_indep (map (fun d => 48 + d) ds) 0 (48 + 0)) by (rewrite map_length; lia). rewrite (map_nth (fun d => 48 + d)). reflexivity.
        * rewrite EN. reflexivity.
        * bytes_tac.
        * intros b N1 N2 N3. norm. apply F2'; auto. }
  entry5. step1. step1. step1.
  - at_label "str.positive". assert (neg = false) as EG by (unfold neg; zb; apply Z.leb_gt; lia). rewrite EG in EV. apply G; auto.
  - assert (neg = true) as EG by (unfold neg; zb; apply Z.leb_le; lia). rewrite EG in EV. step1. at_label "neg_AX". apply neg5; auto.
    intros a1 x1 c1 z1 f1 v1 E1 BA BX. step1. at_label "str.positive". apply G; auto. lia.
Qed.
End T.
