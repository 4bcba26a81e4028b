(* Proofs about atarifp.h: the constants are encoded as the nearest number. *)
From Coq Require Import QArith Qpower Qabs Lqa Lia.
From Verif Require Import Codew Fp FpRound SpecFp.
Open Scope Z_scope.

Definition u : Q := P (-53).

(* ---- the table of powers ---- *)
Definition okc (c : dbl) (k : Z) : bool :=
  match c with
  | S754_finite false m e =>
    is_dbl c && Qle_bool (Qabs (pv m e - ten k)) (ten k * u)
    && (Qle_bool (pv m e) (ten k)
        || ((2 ^ 52 <? Zpos m) && negb (Qle_bool (ten k) ($(Zpos m - 1) * P e))))
  | _ => false
  end.
Fixpoint tab_ok (tab : list dbl) (k : Z) : bool :=
  match tab with
  | [] => true
  | c :: t => okc c k && tab_ok t (k + 2)
  end.
Lemma exp_tab_ok : tab_ok exp_tab (-98) = true.
Proof. vm_compute. reflexivity. Qed.
Lemma min_ok : okc (lit10 (-99)) (-99) = true.
Proof. vm_compute. reflexivity. Qed.
Lemma max_ok : okc (lit10 98) 98 = true.
Proof. vm_compute. reflexivity. Qed.
Lemma lit10_10 : exists m e, lit10 10 = S754_finite false m e /\ (pv m e == ten 10)%Q.
Proof. eexists _, _. split; [vm_compute; reflexivity | vm_compute; reflexivity]. Qed.

(* ---- comparisons ---- *)
Lemma dbl_canon m e :
  is_dbl (S754_finite false m e) = true ->
  -1074 <= e <= 971 /\ Zpos m < 2 ^ 53 /\ (2 ^ 52 <= Zpos m \/ e = -1074).
Proof.
  unfold is_dbl, valid_binary, bounded, canonical_mantissa. intros H.
  apply andb_prop in H. destruct H as [H1 H2]. apply Zeq_bool_eq in H1. apply Zle_bool_imp_le in H2.
  unfold fexp, emin in H1. pose proof (digits2_bound m) as B.
  set (d := Zpos (digits2_pos m)) in *.
  assert (0 < d) by lia.
  split; [lia | split].
  - apply Z.lt_le_trans with (2 ^ d); [lia |]. apply Z.pow_le_mono_r; lia.
  - destruct (Z.eq_dec e (-1074)) as [-> | N]; [right; reflexivity | left].
    apply Z.le_trans with (2 ^ (d - 1)); [| lia]. apply Z.pow_le_mono_r; lia.
Qed.

Lemma pv_lt m1 e1 m2 e2 :
  Zpos m1 < 2 ^ 53 -> 2 ^ 52 <= Zpos m2 -> e1 < e2 -> (pv m1 e1 < pv m2 e2)%Q.
Proof.
  intros A B C. unfold pv.
  apply Qlt_le_trans with ($(2 ^ 53) * P e1)%Q.
  { apply Qmult_lt_compat_r; [apply P_pos | rewrite <- Zlt_Qlt; exact A]. }
  apply Qle_trans with ($(2 ^ 52) * P e2)%Q.
  - replace e2 with (e1 + 1 + (e2 - e1 - 1)) by lia. rewrite P_plus, P_plus, P_1.
    pose proof (P_ge1 (e2 - e1 - 1) ltac:(lia)). pose proof (P_pos e1).
    change ($(2 ^ 53))%Q with ($(2 ^ 52) * 2)%Q.
    assert (0 < $(2 ^ 52))%Q by reflexivity.
    set (a := inject_Z (2 ^ 52)) in *. set (b := P e1) in *. set (c := P (e2 - e1 - 1)) in *.
    clearbody a b c.
    assert (0 < a * b)%Q by (apply Qmult_lt_0_compat; assumption). nra.
  - apply Qmult_le_compat_r; [rewrite <- Zle_Qle; exact B | apply Qlt_le_weak, P_pos].
Qed.

Lemma dlt_pos m1 e1 m2 e2 :
  is_dbl (S754_finite false m1 e1) = true -> is_dbl (S754_finite false m2 e2) = true ->
  if dlt (S754_finite false m1 e1) (S754_finite false m2 e2)
  then (pv m1 e1 < pv m2 e2)%Q else (pv m2 e2 <= pv m1 e1)%Q.
Proof.
  intros D1 D2. apply dbl_canon in D1, D2.
  destruct D1 as (A1 & B1 & C1), D2 as (A2 & B2 & C2).
  unfold dlt, SFltb, SFcompare.
  destruct (Z.compare_spec e1 e2) as [E | E | E].
  - subst e2. unfold pv.
    change (Pcompare m1 m2 Eq) with (Pos.compare m1 m2).
    destruct (Pos.compare_spec m1 m2) as [M | M | M].
    + subst. apply Qle_refl.
    + apply Qmult_lt_compat_r; [apply P_pos | rewrite <- Zlt_Qlt; exact M].
    + apply Qmult_le_compat_r; [rewrite <- Zle_Qle; lia | apply Qlt_le_weak, P_pos].
  - apply pv_lt; [exact B1 | lia | exact E].
  - apply Qlt_le_weak. apply pv_lt; [exact B2 | lia | exact E].
Qed.

Lemma pred_le m e mc ec :
  is_dbl (S754_finite false m e) = true -> is_dbl (S754_finite false mc ec) = true ->
  2 ^ 52 < Zpos mc -> (pv m e < pv mc ec)%Q -> (pv m e <= $(Zpos mc - 1) * P ec)%Q.
Proof.
  intros D1 D2 M L. apply dbl_canon in D1, D2.
  destruct D1 as (A1 & B1 & C1), D2 as (A2 & B2 & C2).
  destruct (Z.lt_trichotomy e ec) as [E | [E | E]].
  - apply Qle_trans with ($(2 ^ 52) * P ec)%Q.
    + apply Qle_trans with ($(2 ^ 53) * P e)%Q.
      { apply Qmult_le_compat_r; [rewrite <- Zle_Qle; lia | apply Qlt_le_weak, P_pos]. }
      replace ec with (e + 1 + (ec - e - 1)) by lia. rewrite P_plus, P_plus, P_1.
      pose proof (P_ge1 (ec - e - 1) ltac:(lia)). pose proof (P_pos e).
      change ($(2 ^ 53))%Q with ($(2 ^ 52) * 2)%Q.
      assert (0 < $(2 ^ 52))%Q by reflexivity.
      set (a := inject_Z (2 ^ 52)) in *. set (b := P e) in *. set (c := P (ec - e - 1)) in *.
      clearbody a b c.
      assert (0 < a * b)%Q by (apply Qmult_lt_0_compat; assumption). nra.
    + apply Qmult_le_compat_r; [rewrite <- Zle_Qle; lia | apply Qlt_le_weak, P_pos].
  - subst ec. unfold pv in *. apply Qmult_lt_r in L; [| apply P_pos]. rewrite <- Zlt_Qlt in L.
    apply Qmult_le_compat_r; [rewrite <- Zle_Qle; lia | apply Qlt_le_weak, P_pos].
  - exfalso. assert (pv mc ec < pv m e)%Q by (apply pv_lt; [exact B2 | lia | exact E]). lra.
Qed.

(* What the check of a constant gives. *)
Lemma okc_inv c k : okc c k = true ->
  exists mc ec, c = S754_finite false mc ec /\ is_dbl c = true
    /\ (ten k * (1 - u) <= pv mc ec)%Q /\ (pv mc ec <= ten k * (1 + u))%Q
    /\ forall m e, is_dbl (S754_finite false m e) = true ->
       (pv m e < pv mc ec)%Q -> (pv m e < ten k)%Q.
Proof.
  unfold okc. destruct c as [| | | [] m e]; try discriminate. intros H.
  apply andb_prop in H. destruct H as [H H3]. apply andb_prop in H. destruct H as [H1 H2].
  apply Qle_bool_imp_le, Qabs_Qle_condition in H2.
  exists m, e. split; [reflexivity |]. split; [exact H1 |].
  set (t := ten k) in *. set (w := u) in *. set (x := pv m e) in *.
  split; [lra |]. split; [lra |].
  intros m0 e0 D L. apply orb_prop in H3. destruct H3 as [H3 | H3].
  - apply Qle_bool_imp_le in H3. lra.
  - apply andb_prop in H3. destruct H3 as [H3 H4]. apply Z.ltb_lt in H3.
    pose proof (pred_le m0 e0 m e D H1 H3 L) as PL.
    apply negb_true_iff in H4.
    destruct (Qlt_le_dec ($(Zpos m - 1) * P e)%Q t) as [LT | LE].
    + lra.
    + apply Qle_bool_iff in LE. congruence.
Qed.

Lemma llrint_ok m e : (Qabs ($(llrint (S754_finite false m e)) - pv m e) <= 1 # 2)%Q.
Proof.
  unfold llrint. destruct (Z.leb_spec 0 e) as [E | E].
  - unfold pv. rewrite inj_mul, <- P_int by exact E.
    assert (($(Zpos m) * P e - $(Zpos m) * P e == 0)%Q) as -> by ring. discriminate.
  - set (k := 2 ^ (- e)). assert (K : 0 < k) by (apply Z.pow_pos_nonneg; lia).
    pose proof (Z.div_mod (Zpos m) k ltac:(lia)) as DM.
    pose proof (Z.mod_pos_bound (Zpos m) k K) as RB.
    set (q := Zpos m / k) in *. set (r := Zpos m mod k) in *.
    assert (KP : ($k * P e == 1)%Q).
    { unfold k. rewrite <- P_int by lia. apply P_inv. }
    assert (V : (pv m e == $q + $r * P e)%Q).
    { unfold pv. rewrite DM, inj_add, inj_mul.
      transitivity ($q * ($k * P e) + $r * P e)%Q; [ring | rewrite KP; ring]. }
    rewrite V. clear V DM.
    pose proof (P_pos e) as PE.
    assert (R0 : (0 <= $r)%Q) by (change 0%Q with $0; rewrite <- Zle_Qle; lia).
    assert (Q1 : ($(q + 1) == $q + 1)%Q) by apply inj_add.
    assert (T2 : ($(2 * r) == 2 * $r)%Q) by apply inj_mul.
    set (p := P e) in *. clearbody p.
    apply Qabs_Qle_condition.
    destruct (Z.compare_spec (2 * r) k) as [C | C | C].
    + assert (C' : (2 * $r == $k)%Q) by (rewrite <- T2, C; reflexivity).
      assert (2 * ($r * p) == 1)%Q
        by (transitivity ((2 * $r) * p)%Q; [ring | rewrite C'; exact KP]).
      destruct (Z.even q); rewrite ?Q1; lra.
    + rewrite Zlt_Qlt in C. rewrite T2 in C.
      assert ($r * p < 1 # 2)%Q by nra. assert (0 <= $r * p)%Q by nra. lra.
    + rewrite Zlt_Qlt in C. rewrite T2 in C.
      assert (RK : ($r < $k)%Q) by (rewrite <- Zlt_Qlt; lia).
      assert (1 # 2 < $r * p)%Q by nra. assert ($r * p < 1)%Q by nra. rewrite Q1. lra.
Qed.

(* ---- the conversion ---- *)
Lemma u_small : (0 < u)%Q /\ (u < 1 # 9000000000000000)%Q.
Proof. split; reflexivity. Qed.
Lemma ten_pos k : (0 < ten k)%Q.
Proof. apply Qpower_0_lt. reflexivity. Qed.
Lemma ten_plus a b : (ten (a + b) == ten a * ten b)%Q.
Proof. apply Qpower_plus. discriminate. Qed.
Lemma ten_mono a b : a <= b -> (ten a <= ten b)%Q.
Proof. intros H. apply Qpower_le_compat_l; [exact H | discriminate]. Qed.

(* The quotient for a number [x] below the constant near 10^k. *)
Lemma quotient m e c k :
  -98 <= k <= 98 ->
  okc c k = true -> (ten (-100) <= pv m e)%Q -> (pv m e <= ten k)%Q -> (ten (k - 3) <= pv m e)%Q ->
  let t := (pv m e * ten (10 - k))%Q in
  let n := llrint (SFdiv prec emax (SFmul prec emax (S754_finite false m e) (lit10 10)) c) in
  (Qabs ($n - t) <= (1 # 2) + (1 # 100000))%Q.
Proof.
  intros K C LO HI LO2 t n. destruct (okc_inv c k C) as (mc & ec & -> & DC & C1 & C2 & _).
  destruct lit10_10 as (m10 & e10 & EQ10 & V10). destruct u_small as [U1 U2].
  pose proof (ten_pos k) as TK.
  assert (MAXV : (pv m e <= ten 98)%Q).
  { apply Qle_trans with (ten k); [exact HI | apply ten_mono; lia]. }
  destruct (mul_ok m e m10 e10) as (mp & ep & EQP & EP).
  { rewrite V10. assert (P (-900) <= ten (-100) * ten 10)%Q by (vm_compute; discriminate).
    pose proof (ten_pos 10). set (a := pv m e) in *. set (b := ten 10) in *. set (w := ten (-100)) in *.
    clearbody a b w. nra. }
  { rewrite V10. assert (ten 98 * ten 10 <= P 900)%Q by (vm_compute; discriminate).
    pose proof (ten_pos 10). set (a := pv m e) in *. set (b := ten 10) in *. set (w := ten 98) in *.
    clearbody a b w. nra. }
  rewrite V10 in EP. fold u in EP.
  assert (TT : (t * ten k == pv m e * ten 10)%Q).
  { unfold t. replace 10 with (10 - k + k) at 2 by lia. rewrite (ten_plus (10 - k) k). ring. }
  set (x := (pv m e * ten 10)%Q) in *.
  assert (X0 : (0 < x)%Q) by (apply Qmult_lt_0_compat; [apply pv_pos | apply ten_pos]).
  assert (T0 : (0 < t)%Q) by (apply Qmult_lt_0_compat; [apply pv_pos | apply ten_pos]).
  assert (T1 : (t <= 10000000000)%Q).
  { apply Qmult_le_r with (ten k); [exact TK |]. rewrite TT. unfold x.
    change (ten 10) with 10000000000%Q. lra. }
  assert (T2 : (1000000 <= t)%Q).
  { apply Qmult_le_r with (ten k); [exact TK |]. rewrite TT. unfold x.
    apply Qle_trans with (ten (k - 3) * ten 10)%Q.
    - replace k with (k - 3 + 3) at 1 by lia. rewrite ten_plus.
      change (ten 10) with 10000000000%Q. change (ten 3) with 1000%Q. pose proof (ten_pos (k - 3)). lra.
    - apply Qmult_le_compat_r; [exact LO2 | apply Qlt_le_weak, ten_pos]. }
  apply Qabs_Qle_condition in EP.
  set (c := pv mc ec) in *. set (p := pv mp ep) in *.
  assert (C0 : (0 < c)%Q) by apply pv_pos.
  (* p / c *)
  set (y := (p / c)%Q).
  assert (YC : (y * c == p)%Q) by (unfold y; field; lra).
  assert (Y1 : (y <= t * (1 + 3 * u))%Q).
  { apply Qmult_le_r with c; [exact C0 |]. rewrite YC.
    apply Qle_trans with (x * (1 + u))%Q; [lra |].
    rewrite <- TT.
    apply Qle_trans with (t * (1 + 3 * u) * (ten k * (1 - u)))%Q.
    - assert (0 < t * ten k)%Q by (apply Qmult_lt_0_compat; assumption).
      assert (1 + u <= (1 + 3 * u) * (1 - u))%Q by (vm_compute; discriminate).
      set (a := ten k) in *. set (w := u) in *. clearbody a w t.
      assert (E : (t * (1 + 3 * w) * (a * (1 - w)) == t * a * ((1 + 3 * w) * (1 - w)))%Q) by ring.
      rewrite E. set (b := ((1 + 3 * w) * (1 - w))%Q) in *. clearbody b. nra.
    - assert (0 < t * (1 + 3 * u))%Q by (apply Qmult_lt_0_compat; [exact T0 | reflexivity]).
      set (a := (t * (1 + 3 * u))%Q) in *. set (b := (ten k * (1 - u))%Q) in *. clearbody a b. nra. }
  assert (Y2 : (t * (1 - 3 * u) <= y)%Q).
  { apply Qmult_le_r with c; [exact C0 |]. rewrite YC.
    apply Qle_trans with (x * (1 - u))%Q; [| lra].
    rewrite <- TT.
    apply Qle_trans with (t * (1 - 3 * u) * (ten k * (1 + u)))%Q.
    - assert (0 < t * (1 - 3 * u))%Q by (apply Qmult_lt_0_compat; [exact T0 | reflexivity]).
      set (a := (t * (1 - 3 * u))%Q) in *. set (b := (ten k * (1 + u))%Q) in *. clearbody a b. nra.
    - assert (0 < t * ten k)%Q by (apply Qmult_lt_0_compat; assumption).
      assert ((1 - 3 * u) * (1 + u) <= 1 - u)%Q by (vm_compute; discriminate).
      set (a := ten k) in *. set (w := u) in *. clearbody a w t.
      assert (E : (t * (1 - 3 * w) * (a * (1 + w)) == t * a * ((1 - 3 * w) * (1 + w)))%Q) by ring.
      rewrite E. set (b := ((1 - 3 * w) * (1 + w))%Q) in *. clearbody b. nra. }
  assert (U3 : (t * (3 * u) < 1 # 250000)%Q).
  { apply Qle_lt_trans with (10000000000 * (3 * u))%Q; [| reflexivity].
    apply Qmult_le_compat_r; [exact T1 |]. vm_compute. discriminate. }
  destruct (div_ok mp ep mc ec y YC) as (mq & eq & EQQ & EQ).
  { apply Qle_trans with 1%Q; [vm_compute; discriminate |]. lra. }
  { apply Qle_trans with 100000000000%Q; [| vm_compute; discriminate]. lra. }
  fold u in EQ. apply Qabs_Qle_condition in EQ.
  assert (U4 : (y * u < 1 # 500000)%Q).
  { apply Qle_lt_trans with (10000000001 * u)%Q; [| reflexivity].
    apply Qmult_le_compat_r; [lra | apply Qlt_le_weak; exact U1]. }
  pose proof (llrint_ok mq eq) as LL.
  unfold n. rewrite EQ10, EQP, EQQ.
  set (z := llrint (S754_finite false mq eq)) in *. apply Qabs_Qle_condition in LL.
  apply Qabs_Qle_condition. lra.
Qed.

Lemma loop_ok m0 e0 : is_dbl (S754_finite false m0 e0) = true ->
  let x := S754_finite false m0 e0 in
  forall tab k e,
  tab_ok tab k = true -> (exists c, In c tab /\ dlt x c = true) ->
  exists j c, 0 <= j < Z.of_nat (List.length tab)
    /\ up_loop x tab e
       = (e + j, mant_of (llrint (SFdiv prec emax (SFmul prec emax x (lit10 10)) c)))
    /\ okc c (k + 2 * j) = true /\ (pv m0 e0 < ten (k + 2 * j))%Q
    /\ (j = 0 \/ (ten (k + 2 * j - 2) * (1 - u) <= pv m0 e0)%Q).
Proof.
  intros D x. induction tab as [| c tab IH]; intros k e T [c' [I L]]; [destruct I |].
  cbn [tab_ok] in T. apply andb_prop in T. destruct T as [T1 T2].
  destruct (okc_inv c k T1) as (mc & ec & EC & DC & C1 & C2 & C3).
  pose proof (dlt_pos m0 e0 mc ec D ltac:(rewrite <- EC; exact DC)) as CMP.
  rewrite <- EC in CMP. cbn [up_loop]. fold x in CMP.
  destruct (dlt x c) eqn:E.
  - exists 0, c. split; [cbn [List.length]; lia |]. split; [f_equal; lia |].
    replace (k + 2 * 0) with k by lia. split; [exact T1 |]. split; [apply C3; assumption | left; reflexivity].
  - destruct I as [-> | I]; [congruence |].
    destruct (IH (k + 2) (e + 1) T2) as (j & c2 & J & EQ & OK & LT & LOW); [exists c'; auto |].
    exists (j + 1), c2. split; [cbn [List.length]; lia |].
    split; [rewrite EQ; f_equal; lia |].
    replace (k + 2 * (j + 1)) with (k + 2 + 2 * j) by lia.
    split; [exact OK |]. split; [exact LT |]. right.
    destruct LOW as [-> | LOW].
    + replace (k + 2 + 2 * 0 - 2) with k by lia. lra.
    + exact LOW.
Qed.

Lemma inj_lt a b : a < b -> ($a < $b)%Q. Proof. intros H. rewrite <- Zlt_Qlt. exact H. Qed.
Lemma lt_inj a b : ($a < $b)%Q -> a < b. Proof. intros H. rewrite <- Zlt_Qlt in H. exact H. Qed.

Lemma leb_dlt m1 e1 m2 e2 :
  SFleb (S754_finite false m1 e1) (S754_finite false m2 e2)
  = negb (dlt (S754_finite false m2 e2) (S754_finite false m1 e1)).
Proof.
  unfold dlt, SFltb, SFleb, SFcompare.
  change (Pcompare m1 m2 Eq) with (Pos.compare m1 m2).
  change (Pcompare m2 m1 Eq) with (Pos.compare m2 m1).
  rewrite (Z.compare_antisym e1 e2), (Pos.compare_antisym m1 m2).
  destruct (e1 ?= e2); cbn [CompOpp]; try reflexivity.
  destruct (m1 ?= m2)%positive; reflexivity.
Qed.

(* The sign, the place in the table and the rounded mantissa. *)
Lemma update_ok s m e :
  let num := S754_finite s m e in
  is_dbl num = true ->
  (ten (-99) <= pv m e)%Q -> SFleb (lit10 98) (S754_finite false m e) = false ->
  exists j n, 0 <= j <= 98
    /\ update num = ((if s then 128 else 0) + 14 + j, mant_of n)
    /\ 100000000 <= n <= 10000000000
    /\ (pv m e < ten (2 * j - 98))%Q
    /\ (j = 0 \/ (ten (2 * j - 100) * (1 - u) <= pv m e)%Q)
    /\ (Qabs ($n - pv m e * ten (108 - 2 * j)) <= (1 # 2) + (1 # 100000))%Q.
Proof.
  intros num D LO BIG. set (x := S754_finite false m e) in *.
  assert (DX : is_dbl x = true) by exact D.
  assert (SG : (if dlt num (S754_zero false) then 128 else 0) = if s then 128 else 0)
    by (unfold num; destruct s; reflexivity).
  unfold update. cbv zeta. rewrite !SG.
  assert (OPP : (if (if s then 128 else 0) =? 0 return dbl then num else SFopp num) = x)
    by (unfold num; destruct s; reflexivity).
  rewrite OPP.
  assert (NZ : dlt x (lit10 (-99)) = false).
  { destruct (okc_inv _ _ min_ok) as (mc & ec & EC & DC & _ & _ & C3).
    pose proof (dlt_pos m e mc ec DX ltac:(rewrite <- EC; exact DC)) as CMP.
    rewrite <- EC in CMP. fold x in CMP. destruct (dlt x (lit10 (-99))); [| reflexivity].
    pose proof (C3 m e DX CMP). lra. }
  rewrite NZ, BIG.
  assert (IN : exists c, In c exp_tab /\ dlt x c = true).
  { exists (lit10 98). split.
    - unfold exp_tab. apply in_map_iff. exists 98%nat. split; [reflexivity |].
      apply in_seq. lia.
    - destruct (okc_inv _ _ max_ok) as (mc & ec & EC & _).
      rewrite EC in BIG |- *. unfold x in *. rewrite leb_dlt in BIG. apply negb_false_iff in BIG. exact BIG. }
  destruct (loop_ok m e DX exp_tab (-98) ((if s then 128 else 0) + 14) exp_tab_ok IN)
    as (j & c & J & EQ & OK & LT & LOW).
  change (Z.of_nat (List.length exp_tab)) with 99 in J.
  fold x in EQ. rewrite EQ.
  set (n := llrint (SFdiv prec emax (SFmul prec emax x (lit10 10)) c)).
  exists j, n. split; [lia |]. split; [reflexivity |].
  replace (-98 + 2 * j) with (2 * j - 98) in OK, LT by lia.
  replace (-98 + 2 * j - 2) with (2 * j - 100) in LOW by lia.
  destruct u_small as [U1 U2].
  assert (L0 : (ten (2 * j - 100) * (1 - u) <= pv m e)%Q).
  { destruct LOW as [-> | LOW]; [| exact LOW]. apply Qle_trans with (ten (-99)); [vm_compute; discriminate | exact LO]. }
  assert (ER : (Qabs ($n - pv m e * ten (108 - 2 * j)) <= (1 # 2) + (1 # 100000))%Q).
  { replace (108 - 2 * j) with (10 - (2 * j - 98)) by lia.
    apply quotient; [lia | exact OK | | lra |].
    - apply Qle_trans with (ten (-99)); [vm_compute; discriminate | exact LO].
    - replace (2 * j - 98 - 3) with (2 * j - 100 + (-1)) by lia. rewrite ten_plus.
      change (ten (-1)) with (1 # 10)%Q. pose proof (ten_pos (2 * j - 100)).
      set (a := ten (2 * j - 100)) in *. set (w := u) in *. clearbody a w. nra. }
  split; [| repeat split; assumption].
  apply Qabs_Qle_condition in ER.
  pose proof (ten_pos (108 - 2 * j)) as TP.
  assert (T1 : (pv m e * ten (108 - 2 * j) < 10000000000)%Q).
  { apply Qlt_le_trans with (ten (2 * j - 98) * ten (108 - 2 * j))%Q.
    - apply Qmult_lt_compat_r; assumption.
    - rewrite <- ten_plus. replace (2 * j - 98 + (108 - 2 * j)) with 10 by lia. discriminate. }
  assert (T2 : (100000000 * (1 - u) <= pv m e * ten (108 - 2 * j))%Q).
  { apply Qle_trans with (ten (2 * j - 100) * (1 - u) * ten (108 - 2 * j))%Q.
    - assert (E : (ten (2 * j - 100) * (1 - u) * ten (108 - 2 * j)
                  == ten (2 * j - 100) * ten (108 - 2 * j) * (1 - u))%Q) by ring.
      rewrite E, <- ten_plus. replace (2 * j - 100 + (108 - 2 * j)) with 8 by lia. apply Qle_refl.
    - apply Qmult_le_compat_r; [exact L0 | apply Qlt_le_weak; exact TP]. }
  split.
  - assert (99999999 < n); [| lia]. apply lt_inj. change ($99999999)%Q with 99999999%Q. lra.
  - assert (n < 10000000001); [| lia]. apply lt_inj. change ($10000000001)%Q with 10000000001%Q. lra.
Qed.

(* ---- the bytes ---- *)
Lemma tobcd_ok a : 0 <= a < 100 -> bcd_byte (tobcd a) /\ bcd (tobcd a) = a.
Proof.
  intros H. unfold tobcd, bcd_byte, bcd.
  pose proof (Z.mod_pos_bound a 10 ltac:(lia)). pose proof (Z.div_mod a 10 ltac:(lia)).
  assert (0 <= a / 10 < 10) by (split; [apply Z.div_pos | apply Z.div_lt_upper_bound]; lia).
  rewrite (Z.mod_small (a / 10 * 16 + a mod 10) 256) by lia.
  assert (E1 : (a / 10 * 16 + a mod 10) / 16 = a / 10)
    by (symmetry; apply Z.div_unique with (a mod 10); lia).
  assert (E2 : (a / 10 * 16 + a mod 10) mod 16 = a mod 10)
    by (symmetry; apply Z.mod_unique with (a / 10); lia).
  rewrite E1, E2. lia.
Qed.
Lemma mant_ok n : 0 <= n < 10000000000 ->
  List.length (mant_of n) = 5%nat /\ Forall bcd_byte (mant_of n) /\ bcd_int (mant_of n) = n
  /\ bcd (hd 0 (mant_of n)) = n / 100000000.
Proof.
  intros H.
  assert (M : forall a, 0 <= a mod 100 < 100) by (intros; apply Z.mod_pos_bound; lia).
  assert (0 <= n / 100000000 < 100) by (split; [apply Z.div_pos | apply Z.div_lt_upper_bound]; lia).
  destruct (tobcd_ok (n / 100000000)) as [A1 B1]; [lia |].
  destruct (tobcd_ok (n / 1000000 mod 100)) as [A2 B2]; [apply M |].
  destruct (tobcd_ok (n / 10000 mod 100)) as [A3 B3]; [apply M |].
  destruct (tobcd_ok (n / 100 mod 100)) as [A4 B4]; [apply M |].
  destruct (tobcd_ok (n mod 100)) as [A5 B5]; [apply M |].
  split; [reflexivity |]. split; [unfold mant_of; repeat (apply Forall_cons; [assumption |]); apply Forall_nil |].
  unfold mant_of, bcd_int. cbn [fold_left hd]. rewrite B1, B2, B3, B4, B5.
  split; [| reflexivity].
  pose proof (Z.div_mod n 100 ltac:(lia)).
  pose proof (Z.div_mod (n / 100) 100 ltac:(lia)) as D2. rewrite Z.div_div in D2 by lia.
  pose proof (Z.div_mod (n / 10000) 100 ltac:(lia)) as D3. rewrite Z.div_div in D3 by lia.
  pose proof (Z.div_mod (n / 1000000) 100 ltac:(lia)) as D4. rewrite Z.div_div in D4 by lia.
  change (100 * 100) with 10000 in *. change (10000 * 100) with 1000000 in *.
  change (1000000 * 100) with 100000000 in *. lia.
Qed.
