(* VAL: from a string to a number. *)
From Verif Require Export RtStr3.

(* ---- the number a text denotes: blanks, a sign, decimal digits, anything ---- *)
Fixpoint skip_blanks (l : list Z) : list Z :=
  match l with c :: r => if c =? 32 then skip_blanks r else l | [] => [] end.
Definition is_digit (c : Z) : bool := (48 <=? c) && (c <=? 57).
Fixpoint digits (l : list Z) : list Z :=
  match l with c :: r => if is_digit c then c - 48 :: digits r else [] | [] => [] end.
Definition decimal (v : Z) (ds : list Z) : Z := fold_left (fun v d => 10 * v + d) ds v.
Definition number (l : list Z) : option Z :=
  match digits l with
  | [] => None
  | ds => if decimal 0 ds <=? 65535 then Some (decimal 0 ds) else None
  end.
Definition with_sign (l : list Z) : option Z :=
  match l with
  | c :: r => if c =? 45 then option_map Z.opp (number r) else if c =? 43 then number r else number l
  | [] => None
  end.
Definition val_of (l : list Z) : option Z := with_sign (skip_blanks l).
(* what follows the number *)
Fixpoint skip_digits (l : list Z) : list Z :=
  match l with c :: r => if is_digit c then skip_digits r else l | [] => [] end.
Definition skip_sign (l : list Z) : list Z :=
  match l with c :: r => if (c =? 45) || (c =? 43) then r else l | [] => [] end.
Definition after_number (l : list Z) : list Z := skip_digits (skip_sign (skip_blanks l)).

(* the value of a list of decimal digits *)
Fixpoint value (ds : list Z) : Z :=
  match ds with [] => 0 | d :: r => d * 10 ^ Z.of_nat (List.length r) + value r end.
Definition digit (d : Z) : Prop := 0 <= d <= 9.

Lemma value_decimal ds : forall v, decimal v ds = v * 10 ^ Z.of_nat (List.length ds) + value ds.
Proof.
  induction ds as [|d ds IH]; intros v; unfold decimal; cbn [fold_left value List.length].
  - rewrite Z.pow_0_r. lia.
  - fold (decimal (10 * v + d) ds). rewrite IH, Nat2Z.inj_succ, Z.pow_succ_r by lia. ring.
Qed.
Lemma value_nonneg ds : Forall digit ds -> 0 <= value ds.
Proof.
  induction 1 as [|d ds D _ IH]; cbn [value]; [lia|]. unfold digit in D.
  pose proof (Z.pow_nonneg 10 (Z.of_nat (List.length ds)) ltac:(lia)). nia.
Qed.
Lemma digits_range l : Forall (fun d => 0 <= d <= 9) (digits l).
Proof.
  induction l as [|c l IH]; cbn [digits]; [constructor|]. destruct (is_digit c) eqn:E; [|constructor].
  apply andb_prop in E as (E1 & E2). constructor; auto; lia.
Qed.
Lemma decimal_ge ds : forall v, Forall (fun d => 0 <= d <= 9) ds -> 0 <= v -> v <= decimal v ds.
Proof.
  induction ds as [|d ds IH]; intros v F B; unfold decimal; cbn [fold_left]; [lia|]. inversion F; subst.
  specialize (IH (10 * v + d) ltac:(auto) ltac:(lia)). fold (decimal (10 * v + d) ds). lia.
Qed.
Lemma skip_len l : (List.length (skip_blanks l) <= List.length l)%nat.
Proof. induction l as [|c l IH]; cbn; [lia|]. destruct (c =? 32); cbn; lia. Qed.
Lemma lxor_digit c : 0 <= c < 256 -> (10 <=? Z.lxor c 48) = negb (is_digit c) /\ (is_digit c = true -> Z.lxor c 48 = c - 48).
Proof.
  intros B. assert (forallb (fun n => let c := Z.of_nat n in Bool.eqb (10 <=? Z.lxor c 48) (negb (is_digit c)) &&
    implb (is_digit c) (Z.lxor c 48 =? c - 48)) (seq 0 256) = true) as H by (vm_compute; reflexivity).
  rewrite forallb_forall in H. specialize (H (Z.to_nat c)). rewrite in_seq, Z2Nat.id in H by lia.
  specialize (H ltac:(lia)). cbv zeta in H. apply andb_prop in H as (H1 & H2).
  apply Bool.eqb_prop in H1. split; [exact H1|]. intros D. rewrite D in H2. cbn in H2. lia.
Qed.

Section T.
Variable L : lay.
Hypothesis OK : lay_ok L.
Notation P := (rt L).

(* the rest [l] of the line in the buffer from position i on, with its end mark *)
Definition line (m : Z -> Z) (i : Z) (l : list Z) : Prop :=
  i + Z.of_nat (List.length l) <= 255 /\
  (forall k, (k < List.length l)%nat -> m (1408 + i + Z.of_nat k) = nth k l 0) /\
  m (1408 + i + Z.of_nat (List.length l)) = 155.
Lemma line_cons m i c l : line m i (c :: l) -> m (1408 + i) = c /\ line m (i + 1) l.
Proof.
  intros (B & N & E). cbn [List.length] in *. split.
  - specialize (N O ltac:(lia)). cbn in N. rewrite Z.add_0_r in N. exact N.
  - split; [lia|]. split.
    + intros k K. specialize (N (Datatypes.S k) ltac:(lia)). cbn [nth] in N. rewrite <- N. f_equal. lia.
    + rewrite <- E. f_equal. lia.
Qed.
Lemma line_nil m i : line m i [] -> m (1408 + i) = 155.
Proof. intros (_ & _ & E). cbn in E. rewrite Z.add_0_r in E. exact E. Qed.
Lemma line_ext m m' i l : 0 <= i -> (forall b, 1408 <= b <= 1663 -> m' b = m b) -> line m i l -> line m' i l.
Proof.
  intros BI F (B & N & E). split; [exact B|]. split; [intros k K|]; rewrite F by lia; auto.
Qed.

Lemma line_digits l : forall m i, line m i l -> line m (i + Z.of_nat (List.length (digits l))) (skip_digits l).
Proof.
  induction l as [|c l IH]; intros m i LN; cbn [digits skip_digits]; [now rewrite Z.add_0_r|].
  destruct (is_digit c); [|now rewrite Z.add_0_r]. apply line_cons in LN as (_ & LN). cbn [List.length]. rewrite Nat2Z.inj_succ.
  replace (i + Z.succ (Z.of_nat (List.length (digits l)))) with (i + 1 + Z.of_nat (List.length (digits l))) by lia. auto.
Qed.

(* src/interp/a800/streol.asm:38-58 *)
Lemma streol_ok k (Q : string -> cpu -> Prop) st r a x y c z f v m p :
  0 <= a < 256 -> 0 <= x < 256 -> bytes_in m -> p = a + 256 * x -> p + m p < 65536 ->
  (forall i, 0 <= i <= m p -> ~ 242 <= p + i <= 244) -> (p <= 1407 \/ 1536 <= p) ->
  (forall a' x' y' c' z' f' v' m', 0 <= a' < 256 -> 0 <= x' < 256 -> 0 <= y' < 256 -> bytes_in m' ->
     m' 242 = 0 -> wordat m' 243 = 1408 -> line m' 0 (firstn 127 (str_at m p)) ->
     (forall b, ~ 242 <= b <= 244 -> ~ 1408 <= b <= 1535 -> m' b = m b) ->
     wp P k (mkcpu a' x' y' c' z' f' v' m' st r) Q) ->
  wp P (entry P "get_str_eol") (mkcpu a x y c z f v m (CRet k :: st) r) Q.
Proof.
  intros BA BX WM EP PB NI AL K. set (n := Z.min (m p) 127).
  pose proof (WM p) as BP. assert (0 <= n <= 127) as BN by lia.
  set (t := fun j => if j =? n then 155 else m (p + 1 + j)).
  assert (forall j m' a' x' c' z' f' v', (Z.of_nat j <= n) -> 0 <= x' < 256 -> bytes_in m' -> a' = t (Z.of_nat j) ->
    m' 242 = 0 -> wordat m' 243 = p ->
    (forall i, Z.of_nat j < i <= n -> m' (1408 + i) = t i) ->
    (forall b, ~ 242 <= b <= 244 -> ~ 1408 + Z.of_nat j < b <= 1408 + n -> m' b = m b) ->
    wp P (entry P "streol.copy") (mkcpu a' x' (Z.of_nat j) c' z' f' v' m' (CRet k :: st) r) Q) as GO.
  { induction j as [|j IH]; intros m' a' x' c' z' f' v' BJ BX' W' EA E1 E2 T' F';
    entry_tac; consts; unfold wordat in E2; change (243 + 1) with 244 in *;
    (assert (0 <= a' < 256) as BA' by (subst a'; unfold t; destruct (_ =? n); [lia|apply WM]));
    step1; (rewrite (b16_small (1408 + _)) by lia); step1;
    (rewrite !(upd_ne m' (1408 + _) a' 243), !(upd_ne m' (1408 + _) a' 244), E2 by lia).
    - step1. change (b8 (Z.of_nat 0 - 1)) with 255. step1; [zb; lia|].
      change (1408 + Z.of_nat 0) with 1408 in *.
      step1. consts. step1. step1. step1. step1. change (243 + 1) with 244. set (m2 := upd _ 243 _). step1. apply K; [vm_compute; split; congruence|exact BX'|lia| | | | |].
      + unfold m2. bytes_tac; vm_compute; split; congruence.
      + unfold m2. norm. exact E1.
      + unfold wordat, m2. change (243 + 1) with 244. norm. reflexivity.
      + assert (List.length (firstn 127 (str_at m p)) = Z.to_nat n) as LN by (rewrite firstn_length, str_len; unfold n; lia).
        split; [rewrite LN; lia|]. rewrite LN. rewrite Z2Nat.id by lia.
        assert (forall i, 0 <= i <= n -> m2 (1408 + i) = t i) as TT.
        { intros i I. unfold m2. norm. destruct (Z.eq_dec i 0) as [->|NE]; [norm; exact EA|norm; apply T'; lia]. }
        replace (1408 + 0) with 1408 by lia. split.
        * intros i I. rewrite TT by lia. unfold t. destruct (Z.of_nat i =? n) eqn:?; zb; [lia|].
          rewrite nth_firstn_lt by lia. rewrite str_nth by lia. reflexivity.
        * rewrite TT by lia. unfold t. rewrite Z.eqb_refl. reflexivity.
      + intros b N1 N2. unfold m2. norm. apply F'; lia.
    - step1. rewrite (b8_small (Z.of_nat (Datatypes.S j) - 1)) by lia. replace (Z.of_nat (Datatypes.S j) - 1) with (Z.of_nat j) by lia.
      step1; zb; [|lia]. at_label "streol.copy". apply IH; auto; try lia.
      + bytes_tac.
      + rewrite b16_small by lia. rewrite upd_ne by lia. rewrite F' by (try apply NI; lia).
        unfold t. destruct (Z.of_nat j =? n) eqn:?; zb; [lia|]. f_equal. lia.
      + norm. exact E1.
      + unfold wordat. change (243 + 1) with 244. norm. exact E2.
      + intros i I. destruct (Z.eq_dec i (Z.of_nat (Datatypes.S j))) as [->|NE]; [norm; exact EA|norm; apply T'; lia].
      + intros b N1 N2. norm. apply F'; lia. }
  entry_tac. consts. change (243 + 1) with 244. do 4 step1. set (m1 := upd _ 242 0).
  assert (bytes_in m1) as W1 by (unfold m1; bytes_tac).
  assert (forall b, ~ 242 <= b <= 244 -> m1 b = m b) as F1 by (intros b NB; unfold m1; norm; reflexivity).
  assert (m1 242 = 0) as E1 by (unfold m1; norm; reflexivity).
  assert (m1 243 + 256 * m1 244 = p) as E2 by (unfold m1; norm; auto).
  clearbody m1. step1. change (243 + 1) with 244. rewrite E2. rewrite (b16_small (p + 0)) by lia. rewrite (F1 (p + 0)) by (apply NI; lia). rewrite Z.add_0_r.
  assert (forall y' a' x' c' z' f' v', y' = n -> 0 <= x' < 256 ->
    wp P (entry P "streol.ok") (mkcpu a' x' y' c' z' f' v' m1 (CRet k :: st) r) Q) as GO2.
  { intros y' a' x' c' z' f' v' -> BX'. entry_tac. consts. step1. step1. at_label "streol.copy".
    rewrite <- (Z2Nat.id n) by lia. apply GO; auto; try lia.
    - unfold t. rewrite Z2Nat.id, Z.eqb_refl by lia. reflexivity. }
  step1. step1; zb.
  - at_label "streol.ok". apply GO2; auto. lia.
  - step1. step1. at_label "streol.ok". apply GO2; auto. lia.
Qed.

Definition vcell (b : Z) : Prop := tmp1 L <= b <= tmp2 L.
(* src/interp/a800/val.asm:73-112 *)
Lemma val_loop (Q : string -> cpu -> Prop) st r : forall l i w a x c z f v m,
  0 <= i -> line m i l -> 0 <= a < 256 -> 0 <= x < 256 -> a + 256 * x = w -> bytes_in m -> wordat m 243 = 1408 ->
  (decimal w (digits l) <= 65535 -> forall a' x' c' z' f' v' m', 0 <= a' < 256 -> 0 <= x' < 256 ->
     a' + 256 * x' = decimal w (digits l) -> bytes_in m' -> agree vcell m' m ->
     wp P (entry P "val.xit_n") (mkcpu a' x' (i + Z.of_nat (List.length (digits l))) c' z' f' v' m' st r) Q) ->
  (65535 < decimal w (digits l) -> forall a' x' y' c' z' f' v' m', 0 <= a' < 256 -> 0 <= x' < 256 -> 0 <= y' < 256 ->
     bytes_in m' -> agree vcell m' m ->
     wp P (entry P "val.ebig") (mkcpu a' x' y' c' z' f' v' m' st r) Q) ->
  wp P (entry P "val.loop") (mkcpu a x i c z f v m st r) Q.
Proof.
  pose proof OK as (?&?&_).
  assert (forall i m l, 0 <= i -> line m i l -> m (1408 + i) = hd 155 l) as HD.
  { intros i m [|c l] BI LN; [apply line_nil; auto|apply line_cons in LN; apply LN]. }
  induction l as [|d l IH]; intros i w a x c z f v m BI LN BA BX EV WM EI K1 K2;
    pose proof (HD i m _ BI LN) as EC; pose proof (proj1 LN) as BL; cbn [List.length hd] in *;
    entry_tac; consts; unfold wordat in EI; change (243 + 1) with 244 in *;
    step1; step1; step1; change (243 + 1) with 244; norm; rewrite EI; norm; rewrite EC; step1; step1;
    set (m1 := upd _ (tmp1 L + 1) x);
    (assert (bytes_in m1) as W1 by (unfold m1; bytes_tac));
    (assert (agree vcell m1 m) as F1 by (intros b NB; unfold m1, vcell in *; norm; reflexivity)).
  - change (Z.lxor 155 48) with 171. step1. step1. norm.
    replace (m1 (tmp1 L)) with a by (unfold m1; norm; reflexivity). step1; [|discriminate]. at_label "val.xit_n".
    cbn [digits decimal fold_left List.length] in *. replace i with (i + Z.of_nat 0) at 1 by lia. apply K1; auto; [lia|bytes_tac|].
    intros b NB. unfold vcell in NB. norm. apply F1. exact NB.
  - pose proof (WM (1408 + i)) as BD. rewrite EC in BD. pose proof (lxor_digit d BD) as (D1 & D2).
    assert (0 <= Z.lxor d 48 < 256) as BDX by (apply lxor_byte; lia).
    step1. step1. norm. replace (m1 (tmp1 L)) with a by (unfold m1; norm; reflexivity).
    rewrite D1. cbn [digits] in *. destruct (is_digit d) eqn:ED; cbn [negb] in *.
    + rewrite (D2 eq_refl) in *. step1; [discriminate|].
      apply andb_prop in ED as (ED1 & ED2). zb.
      step1. rewrite (b8_small (i + 1)) by lia. step1. 
      set (m2 := upd m1 (tmp2 L) (d - 48)).
      assert (m2 (tmp1 L) = a /\ m2 (tmp1 L + 1) = x /\ m2 (tmp2 L) = d - 48) as (G1 & G2 & G3) by (unfold m2, m1; norm; auto).
      assert (bytes_in m2) as W2 by (unfold m2; bytes_tac).
      assert (agree vcell m2 m) as F2 by (intros b NB; unfold m2, vcell in *; norm; apply F1; exact NB).
      clearbody m2. clear F1 W1 m1.
      assert (10 * w + (d - 48) <= decimal w (d - 48 :: digits l)) as DGE by (apply (decimal_ge (digits l)); [apply digits_range|lia]).
      assert (65535 < 10 * w + (d - 48) -> forall a' x' y' c' z' f' v' m', 0 <= a' < 256 -> 0 <= x' < 256 -> 0 <= y' < 256 ->
         bytes_in m' -> agree vcell m' m -> wp P (entry P "val.ebig") (mkcpu a' x' y' c' z' f' v' m' st r) Q) as EB
        by (intros HB; apply K2; lia).
      step1; zb; [at_label "val.ebig"; apply EB; auto; lia|].
      step1. step1. rewrite G2. rewrite (b8_small (2 * x + _)) by (destruct (128 <=? a); lia).
      set (h1 := 2 * x + (if 128 <=? a then 1 else 0)). set (q1 := b8 (2 * a)).
      assert (q1 + 256 * h1 = 2 * w /\ 0 <= q1 < 256 /\ 0 <= h1 < 52) as (E1 & B1 & B1')
        by (unfold q1, h1; destruct (128 <=? a) eqn:?; zb; zm). clearbody q1 h1.
      step1. step1. norm. rewrite (b8_small (2 * h1 + _)) by (destruct (128 <=? q1); lia).
      replace (128 <=? h1) with false by (symmetry; apply Z.leb_gt; lia).
      set (h2 := 2 * h1 + (if 128 <=? q1 then 1 else 0)). set (q2 := b8 (2 * q1)).
      assert (q2 + 256 * h2 = 4 * w /\ 0 <= q2 < 256 /\ 0 <= h2 < 104) as (E2 & B2 & B2')
        by (unfold q2, h2; destruct (128 <=? q1) eqn:?; zb; zm). clearbody q2 h2.
      step1. norm. rewrite G1. rewrite !Z.add_0_r. step1. step1. step1. norm.
      set (h3 := b8 (x + h2 + _)). set (q3 := b8 (q2 + a)).
      assert (q3 + 256 * h3 = 5 * w /\ 0 <= q3 < 256 /\ 0 <= h3 < 256) as (E3 & B3 & B3')
        by (unfold q3, h3; destruct (256 <=? q2 + a) eqn:?; zb; zm). clearbody q3 h3.
      step1. norm. step1. set (h4 := b8 (2 * h3 + _)). set (q4 := b8 (2 * q3)).
      assert (q4 + 256 * h4 = (10 * w) mod 65536 /\ 0 <= q4 < 256 /\ 0 <= h4 < 256) as (E4 & B4 & B4')
        by (unfold q4, h4; destruct (128 <=? q3) eqn:?; zb; zm).
      assert ((128 <=? h3) = (65536 <=? 10 * w)) as CB by (apply Bool.eq_iff_eq_true; rewrite !Z.leb_le; lia).
      rewrite CB. clearbody q4 h4. step1. set (m3 := upd _ (tmp1 L) q4).
      assert (bytes_in m3) as W3 by (unfold m3; bytes_tac).
      assert (agree vcell m3 m) as F3 by (intros b NB; unfold m3, vcell in *; norm; apply F2; exact NB).
      assert (m3 (tmp1 L) = q4 /\ m3 (tmp2 L) = d - 48) as (G4 & G5) by (unfold m3; norm; auto).
      assert (line m3 (i + 1) l /\ wordat m3 243 = 1408) as (L3 & I3).
      { split; [|unfold wordat; change (243 + 1) with 244; rewrite !F3 by (unfold vcell; lia); exact EI].
        apply line_cons in LN as (_ & LN). revert LN. apply line_ext; [lia|]. intros b HB. apply F3. unfold vcell. lia. }
      clearbody m3. destruct (65536 <=? 10 * w) eqn:EW; zb; step1; try discriminate.
      { at_label "val.ebig". apply EB; auto; lia. }
      rewrite Z.mod_small in E4 by lia. step1. rewrite G5. step1. rewrite G4.
      assert (forall a' x' c' z' f' v', 0 <= a' < 256 -> 0 <= x' < 256 -> a' + 256 * x' = 10 * w + (d - 48) ->
        wp P (entry P "val.loop") (mkcpu a' x' (i + 1) c' z' f' v' m3 st r) Q) as LP.
      { intros a' x' c' z' f' v' BA' BX' E'. apply (IH (i + 1) (10 * w + (d - 48))); auto; try lia.
        - intros BD'. intros a1 x1 c1 z1 f1 v1 m4 A1 X1 E1' W4 F4. cbn [List.length] in K1.
          replace (i + 1 + Z.of_nat (List.length (digits l))) with (i + Z.of_nat (Datatypes.S (List.length (digits l)))) by lia.
          apply K1; auto. intros b NB. rewrite F4, F3; auto.
        - intros BD' a1 x1 y1 c1 z1 f1 v1 m4 A1 X1 Y1 W4 F4.
          apply K2; auto. intros b NB. rewrite F4, F3; auto. }
      step1; zb.
      { at_label "val.loop". rewrite b8_small by lia. apply LP; lia. }
      step1. step1; zb.
      { at_label "val.loop". apply LP; try apply b8_range; zm. }
      step1. at_label "val.ebig". apply EB; auto; try apply b8_range; zm.
    + step1; [|discriminate]. at_label "val.xit_n".
      cbn [decimal fold_left List.length] in *. replace i with (i + Z.of_nat 0) at 1 by lia. apply K1; auto; [lia|bytes_tac|].
      intros b NB. unfold vcell in NB. norm. apply F1. exact NB.
Qed.

Definition bcell (b : Z) : Prop := b = 242 \/ tmp1 L <= b <= tmp2 L + 1.
(* src/interp/a800/val.asm:50-126 *)
Lemma read_word_ok k (Q : string -> cpu -> Prop) st r l i0 a x y c z f v m :
  0 <= a < 256 -> 0 <= x < 256 -> bytes_in m -> 0 <= i0 -> line m i0 l -> m 242 = i0 -> wordat m 243 = 1408 ->
  (forall a' x' y' c' z' f' v' m', 0 <= a' < 256 -> 0 <= x' < 256 -> 0 <= y' < 256 -> bytes_in m' -> agree bcell m' m ->
     match val_of l with
     | Some w => c' = false /\ a' + 256 * x' = word w /\ line m' y' (after_number l)
     | None => c' = true
     end -> wp P k (mkcpu a' x' y' c' z' f' v' m' st r) Q) ->
  wp P (entry P "read_word") (mkcpu a x y c z f v m (CRet k :: st) r) Q.
Proof.
  pose proof OK as (?&?&_). intros BA BX WM B0 LN E0 EI K.
  (* from the sign on *)
  assert (forall (neg : bool) l' i a' x' z' f' v' m', 0 <= i -> 0 <= x' < 256 -> bytes_in m' -> agree bcell m' m -> line m' i l' ->
    val_of l = (if neg then option_map Z.opp (number l') else number l') -> after_number l = skip_digits l' ->
    wp P (entry P "val.convert") (mkcpu a' x' i neg z' f' v' m' (CRet k :: st) r) Q) as CONV.
  { intros neg l' i a' x' z' f' v' m' BI BX' W' F' LN' EV EA. entry_tac. consts. step1. step1. step1. step1. step1.
    at_label "val.loop". set (m1 := upd m' (tmp2 L + 1) i).
    assert (bytes_in m1) as W1 by (unfold m1; bytes_tac; pose proof (proj1 LN'); lia).
    assert (agree bcell m1 m) as F1 by (intros b NB; unfold m1; rewrite upd_ne by (unfold bcell in NB; lia); auto).
    assert (m1 (tmp2 L + 1) = i) as Y1 by (unfold m1; norm; reflexivity).
    assert (line m1 i l') as L1 by (revert LN'; apply line_ext; [lia|]; intros b HB; unfold m1; norm; reflexivity).
    clearbody m1. pose proof (digits_range l') as DR. pose proof (decimal_ge _ 0 DR ltac:(lia)) as DG.
    assert (forall a2 x2 y2 c2 z2 f2 v2 m2, 0 <= a2 < 256 -> 0 <= x2 < 256 -> 0 <= y2 < 256 -> bytes_in m2 -> agree bcell m2 m ->
       val_of l = None -> wp P (entry P "val.ebig") (mkcpu a2 x2 y2 c2 z2 f2 v2 m2 (CFlags neg z' f' v' :: CRet k :: st) r) Q) as EB.
    { intros a2 x2 y2 c2 z2 f2 v2 m2 A2 X2 Y2 W2 F2 EN. entry_tac. step1. step1. step1. apply K; auto. rewrite EN. reflexivity. }
    apply (val_loop Q _ r l' i 0); auto; try lia.
    - unfold wordat in *. rewrite !F1 by (unfold bcell; lia). exact EI.
    - intros DB a2 x2 c2 z2 f2 v2 m2 A2 X2 E2 W2 F2. pose proof (proj1 LN') as BL.
      assert (List.length (digits l') <= List.length l')%nat as LD.
      { clear. induction l' as [|d l' IH]; cbn; [lia|]. destruct (is_digit d); cbn; lia. }
      assert (agree bcell m2 m) as F3 by (intros b NB; rewrite F2 by (unfold vcell, bcell in *; lia); auto).
      assert (line m2 (i + Z.of_nat (List.length (digits l'))) (after_number l)) as LA.
      { rewrite EA. apply line_digits. revert L1. apply line_ext; [lia|]. intros b HB. apply F2. unfold vcell. lia. }
      entry_tac. step1. rewrite (F2 (tmp2 L + 1)) by (unfold vcell; lia). rewrite Y1.
      step1; zb.
      + at_label "val.ebig". apply EB; auto; [lia|]. assert (digits l' = []) as DN.
        { rewrite b8_small in K0 by lia. destruct (digits l'); [reflexivity|cbn [List.length] in *; lia]. }
        rewrite EV. unfold number. rewrite DN. destruct neg; reflexivity.
      + assert (number l' = Some (decimal 0 (digits l'))) as EN.
        { unfold number. destruct (digits l') as [|d ds] eqn:ED.
          - cbn [List.length] in K0. replace (i + Z.of_nat 0 - i) with 0 in K0 by lia. exfalso. apply K0. reflexivity.
          - rewrite (proj2 (Z.leb_le _ _) DB). reflexivity. }
        rewrite EN in EV. step1. destruct neg; step1; try discriminate.
        * negcall. step1. step1. step1. apply K; auto; [lia|]. rewrite EV. cbn [option_map]. split; [reflexivity|]. split; [rewrite V, E2; reflexivity|exact LA].
        * step1. apply K; auto; [lia|]. rewrite EV. split; [reflexivity|]. split; [rewrite E2; unfold word; rewrite Z.mod_small; [reflexivity|lia]|exact LA].
    - intros DB a2 x2 y2 c2 z2 f2 v2 m2 A2 X2 Y2 W2 F2. apply EB; auto.
      + intros b NB; rewrite F2 by (unfold vcell, bcell in *; lia); auto.
      + rewrite EV. unfold number. destruct (digits l') as [|d ds]; [unfold decimal in DB; cbn in DB; lia|].
        rewrite (proj2 (Z.leb_gt _ _)) by exact DB. destruct neg; reflexivity. }
  (* after the blanks *)
  assert (forall l' i a' x' y' c' z' f' v' m', 0 <= i -> 0 <= x' < 256 -> bytes_in m' -> agree bcell m' m -> line m' i l' ->
    val_of l = with_sign l' -> after_number l = skip_digits (skip_sign l') ->
    y' = i -> wp P (tl (entry P "read_word")) (mkcpu a' x' y' c' z' f' v' m' (CRet k :: st) r) Q) as SIGN.
  { intros l' i a' x' y' c' z' f' v' m' BI BX' W' F' LN' EV EA ->.
    assert (m' (1408 + i) = hd 155 l') as EC by (destruct l'; [apply line_nil; auto|apply line_cons in LN'; apply LN']).
    assert (0 <= hd 155 l' < 256) as BC by (rewrite <- EC; apply W').
    pose proof (proj1 LN') as BL. 
    lazymatch goal with |- wp _ _ ?s ?Q => change (wp P ([In (LDA (IndY INBUFF)); In (CMP (Imm 45)); In (Br EQ "val.do_minus");
      In CLC; In (EOR (Imm 43)); In (Br NE "val.convert")] ++ Lb "val.do_minus" :: entry P "val.do_minus") s Q) end. cbn [app].
    consts. unfold wordat in EI. change (243 + 1) with 244 in *. step1. change (243 + 1) with 244.
    rewrite (F' 243), (F' 244) by (unfold bcell; lia). rewrite EI. norm. rewrite EC. step1.
    assert (forall neg z2 f2 v2 a2 q d, l' = d :: q -> val_of l = (if neg : bool then option_map Z.opp (number q) else number q) -> after_number l = skip_digits q ->
      wp P (entry P "val.do_minus") (mkcpu a2 x' i neg z2 f2 v2 m' (CRet k :: st) r) Q) as DM.
    { intros neg z2 f2 v2 a2 q d -> EQ EA2. apply line_cons in LN' as (_ & LN'). entry_tac. step1. rewrite b8_small by (cbn [List.length] in BL; lia).
      step1. at_label "val.convert". apply CONV with (l' := q); auto; lia. }
    assert (hd 155 l' <> 45 -> hd 155 l' <> 43 -> val_of l = number l' /\ after_number l = skip_digits l') as ELSE.
    { intros N1 N2. rewrite EV, EA. destruct l' as [|d q]; [auto|]. cbn [hd] in *. unfold with_sign, skip_sign.
      apply Z.eqb_neq in N1, N2. rewrite N1, N2. auto. }
    step1; zb.
    - assert (hd 155 l' = 45) as H45 by (unfold b8 in *; Z.div_mod_to_equations; lia).
      destruct l' as [|d q]; [discriminate|]. cbn [hd] in H45. subst d. at_label "val.do_minus".
      cbn [hd]. change (45 <=? 45) with true. apply (DM true) with (q := q) (d := 45); auto.
    - assert (hd 155 l' <> 45) as H45 by (intros E; rewrite E in *; apply K0; reflexivity).
      step1. step1. step1; zb.
      + assert (hd 155 l' <> 43) as H43 by (intros E; rewrite E in *; apply K1; reflexivity).
        destruct (ELSE H45 H43). at_label "val.convert". apply (CONV false l'); auto.
      + assert (hd 155 l' = 43) as H43 by (apply Z.lxor_eq; exact K1).
        destruct l' as [|d q]; [discriminate|]. cbn [hd] in H43. subst d. step1. at_label "val.do_minus".
        apply (DM false) with (q := q) (d := 43); auto. }
  (* the blanks *)
  entry_tac. eapply wp_jsr; [reflexivity|]. cpu_red. consts. step1. rewrite E0. step1.
  set (st' := CRet _ :: CRet k :: st).
  assert (forall l' i x' c' z' f' v', 0 <= i -> 0 <= x' < 256 -> line m i l' -> val_of l = val_of l' -> after_number l = after_number l' ->
    wp P (entry P "SKBLANK.1") (mkcpu 32 x' i c' z' f' v' m st' r) Q) as SK.
  { induction l' as [|d q IH]; intros i x' c' z' f' v' BI BX' LN' EV EA; pose proof (proj1 LN') as BL;
    entry_tac; consts; unfold wordat in EI; change (243 + 1) with 244 in *; step1; change (243 + 1) with 244; rewrite EI; norm.
    - rewrite (line_nil m i LN'). change (b8 (32 - 155) =? 0) with false. step1; [|discriminate].
      step1. step1. change CIX with 242. subst st'. apply SIGN with (l' := []) (i := i); auto; try lia.
      + bytes_tac.
      + intros b NB. unfold bcell in NB. norm. reflexivity.
      + revert LN'. apply line_ext; [lia|]. intros b HB. norm. reflexivity.
    - pose proof (WM (1408 + i)) as BD. pose proof (line_cons _ _ _ _ LN') as (EC & LN2). rewrite EC in *. cbn [List.length] in BL.
      step1; zb.
      + assert (d <> 32) as ND by (intros ->; apply K0; reflexivity).
        step1. step1. change CIX with 242. subst st'. apply SIGN with (l' := d :: q) (i := i); auto; try lia.
        * bytes_tac.
        * intros b NB. unfold bcell in NB. norm. reflexivity.
        * revert LN'. apply line_ext; [lia|]. intros b HB. norm. reflexivity.
        * rewrite EV. unfold val_of. cbn [skip_blanks]. apply Z.eqb_neq in ND. rewrite ND. reflexivity.
        * rewrite EA. unfold after_number. cbn [skip_blanks]. apply Z.eqb_neq in ND. rewrite ND. reflexivity.
      + assert (d = 32) as -> by (unfold b8 in *; Z.div_mod_to_equations; lia).
        step1. rewrite (b8_small (i + 1)) by lia. step1; zb; [|lia]. at_label "SKBLANK.1". apply IH; auto; lia. }
  step1. at_label "SKBLANK.1". apply SK with (l' := l); auto; lia.
Qed.

Theorem val_ok s : ready s ->
  apart_from (M s) (AX s) (fun b => 242 <= b <= 244) -> (AX s <= 1407 \/ 1536 <= AX s) ->
  exists s', calls P "EXE_VAL" s "next_instruction" s' /\ wf s' /\ M s' sptr = M s sptr /\
    match val_of (firstn 127 (str_at (M s) (AX s))) with
    | Some w => AX s' = word w /\ M s' (IOERROR L) = M s (IOERROR L)
    | None => M s' (IOERROR L) = 18
    end /\
    (forall b, ~ scratch L b -> b <> IOERROR L -> ~ 242 <= b <= 244 -> ~ 1408 <= b <= 1535 -> M s' b = M s b) /\
    S s' = S s /\ rnd s' = rnd s.
Proof.
  intros R (P0 & P1 & P2) AL. start OK s R. consts. set (p := a + 256 * x) in *.
  eapply wp_jsr; [reflexivity|]. cpu_red. at_label "get_str_eol". apply streol_ok with (p := p); auto.
  intros a1 x1 y1 c1 z1 f1 v1 m1 A1 X1 Y1 W1 E1 I1 L1 F1.
  eapply wp_jsr; [reflexivity|]. cpu_red. at_label "read_word". apply read_word_ok with (l := firstn 127 (str_at m p)) (i0 := 0); auto; [lia|].
  intros a2 x2 y2 c2 z2 f2 v2 m2 A2 X2 Y2 W2 F2 V.
  assert (forall b, ~ scratch L b -> ~ 242 <= b <= 244 -> ~ 1408 <= b <= 1535 -> m2 b = m b) as F.
  { intros b N1 N2 N3. rewrite F2 by (unfold scratch, bcell in *; lia). apply F1; auto. }
  assert (m2 142 = m 142 /\ m2 (IOERROR L) = m (IOERROR L)) as (SP & IO) by (split; apply F; unfold scratch; lia).
  destruct (val_of _) as [w|].
  - destruct V as (-> & V & _). step1; [|discriminate]. step1. split; [reflexivity|]. unfold AX. cbn [A X Y M S rnd].
    split; [apply wf_intro; auto|]. split; [exact SP|]. split; [auto|]. split; auto.
  - subst c2. step1; [discriminate|]. step1. step1. step1. step1. split; [reflexivity|]. unfold AX. cbn [A X Y M S rnd].
    split; [apply wf_intro; auto; [lia|bytes_tac]|]. split; [norm; exact SP|]. split; [norm; reflexivity|].
    split; [|auto]. intros b N1 N2 N3 N4. norm. auto.
Qed.
End T.
