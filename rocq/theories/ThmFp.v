(* C46: floating point constants. *)
From Coq Require Import QArith Qpower Qabs Lqa Lia.
From Verif Require Import Codew Fp SpecFp FpRound FpPf FpText.
Open Scope Z_scope.

Lemma fval_abs s m e : (Qabs (fval (S754_finite s m e)) == pv m e)%Q.
Proof.
  unfold fval. pose proof (pv_pos m e) as H. unfold pv, P in H.
  destruct s.
  - setoid_replace (-1 * inject_Z (Zpos m) * Qpower 2 e)%Q with (- (inject_Z (Zpos m) * Qpower 2 e))%Q by ring.
    rewrite Qabs_opp, Qabs_pos by (apply Qlt_le_weak, H). reflexivity.
  - setoid_replace (1 * inject_Z (Zpos m) * Qpower 2 e)%Q with (inject_Z (Zpos m) * Qpower 2 e)%Q by ring.
    rewrite Qabs_pos by (apply Qlt_le_weak, H). reflexivity.
Qed.

(* All numbers of the range that are not just below a power of 100. *)
Definition in_range (num : dbl) : Prop :=
  (ten (-99) <= Qabs (fval num))%Q /\ (Qabs (fval num) < ten 98)%Q.
Definition not_below (num : dbl) : Prop :=
  forall k, (Qabs (fval num) < ten (2 * k))%Q ->
            (Qabs (fval num) <= ten (2 * k) * (1 - (51 # 1000000000000)))%Q.

Lemma finite_of num : (ten (-99) <= Qabs (fval num))%Q -> exists s m e, num = S754_finite s m e.
Proof.
  pose proof (ten_pos (-99)) as T. set (t := ten (-99)) in *. clearbody t. intros H.
  assert (Z0 : (Qabs 0 == 0)%Q) by reflexivity.
  destruct num as [s | s | | s m e]; cbn [fval] in H; try (rewrite Z0 in H; lra).
  exists s, m, e. reflexivity.
Qed.
Lemma exp_small s j : 0 <= j <= 98 ->
  ((if s : bool then 128 else 0) + 14 + j) mod 128 = 14 + j
  /\ (128 <=? (if s then 128 else 0) + 14 + j) = s.
Proof.
  intros H. destruct s.
  - replace (128 + 14 + j) with (14 + j + 1 * 128) by lia. rewrite Z.mod_add, Z.mod_small by lia.
    split; [reflexivity | apply Z.leb_le; lia].
  - rewrite Z.mod_small by lia. split; [lia | apply Z.leb_gt; lia].
Qed.

Lemma below_max m e :
  is_dbl (S754_finite false m e) = true -> (pv m e <= ten 98 * (1 - (51 # 1000000000000)))%Q ->
  SFleb (lit10 98) (S754_finite false m e) = false.
Proof.
  intros D H. destruct (SFleb (lit10 98) (S754_finite false m e)) eqn:E; [| reflexivity]. exfalso.
  destruct (okc_inv _ _ max_ok) as (mc & ec & EC & DC & C1 & _ & _).
  assert (X : (ten 98 * (1 - (51 # 1000000000000)) < ten 98 * (1 - u))%Q) by reflexivity.
  assert (pv m e < pv mc ec)%Q by lra.
  rewrite EC in E, DC. rewrite leb_dlt in E. apply negb_true_iff in E.
  pose proof (dlt_pos m e mc ec D DC) as CMP. rewrite E in CMP. lra.
Qed.

(* C46.  Missing: the numbers within 0.51 units below a power of 100, where the claim is
   false (C46_carry, C46_refuted), the two ends of the range (C46_ends), and a bound of
   exactly half a unit: the operations on doubles add up to 0.00001 units. *)
Theorem C46_nearest_partial num :
  is_dbl num = true -> in_range num -> not_below num ->
  let '(e, m) := update num in
  bcd_number e m /\
  (Qabs (bcd_value e m - fval num) <= ((1 # 2) + (1 # 100000)) * bcd_unit e)%Q.
Proof.
  intros D [LO HI] NB. unfold not_below in NB.
  destruct (finite_of num LO) as (s & m & e & ->).
  rewrite fval_abs in LO, HI.
  assert (B : (pv m e <= ten 98 * (1 - (51 # 1000000000000)))%Q).
  { specialize (NB 49). rewrite fval_abs in NB. apply NB. exact HI. }
  destruct (update_ok s m e D LO (below_max m e D B)) as (j & n & J & EQ & N & LT & LOW & ER).
  rewrite EQ.
  assert (NN : n < 10000000000).
  { specialize (NB (j - 49)). rewrite fval_abs in NB. replace (2 * (j - 49)) with (2 * j - 98) in NB by lia.
    specialize (NB LT). apply Qabs_Qle_condition in ER.
    assert (T : (pv m e * ten (108 - 2 * j) <= 10000000000 * (1 - (51 # 1000000000000)))%Q).
    { apply Qle_trans with (ten (2 * j - 98) * (1 - (51 # 1000000000000)) * ten (108 - 2 * j))%Q.
      - apply Qmult_le_compat_r; [exact NB | apply Qlt_le_weak, ten_pos].
      - setoid_replace (ten (2 * j - 98) * (1 - (51 # 1000000000000)) * ten (108 - 2 * j))%Q
          with (ten (2 * j - 98) * ten (108 - 2 * j) * (1 - (51 # 1000000000000)))%Q by ring.
        rewrite <- ten_plus. replace (2 * j - 98 + (108 - 2 * j)) with 10 by lia. discriminate. }
    apply lt_inj. change (inject_Z 10000000000) with 10000000000%Q. lra. }
  destruct (mant_ok n ltac:(lia)) as (L5 & FB & BI & HD).
  destruct (exp_small s j J) as [E1 E2].
  split.
  - split; [destruct s; lia |]. split; [exact L5 |]. split; [exact FB |].
    rewrite HD. assert (1 <= n / 100000000); [| lia]. apply Z.div_le_lower_bound; lia.
  - unfold bcd_value, bcd_unit. rewrite E1, E2, BI.
    replace (2 * (14 + j - 64) - 8) with (- (108 - 2 * j)) by lia.
    set (w := ten (108 - 2 * j)) in *. set (v := ten (- (108 - 2 * j))).
    assert (VW : (v * w == 1)%Q).
    { unfold v, w. rewrite <- ten_plus. replace (- (108 - 2 * j) + (108 - 2 * j)) with 0 by lia. reflexivity. }
    assert (V0 : (0 < v)%Q) by apply ten_pos.
    assert (X : (Qabs ((if s then -1 else 1) * inject_Z n * v - fval (S754_finite s m e))
                 == Qabs (inject_Z n - pv m e * w) * v)%Q).
    { rewrite <- (Qabs_pos v) at 2 by (apply Qlt_le_weak, V0). rewrite <- Qabs_Qmult.
      assert (Y : ((inject_Z n - pv m e * w) * v == inject_Z n * v - pv m e)%Q).
      { transitivity (inject_Z n * v - pv m e * (v * w))%Q; [ring | rewrite VW; ring]. }
      rewrite Y. unfold fval, pv, P. destruct s.
      - rewrite <- Qabs_opp. apply Qabs_wd. ring.
      - apply Qabs_wd. ring. }
    rewrite X. apply Qmult_le_compat_r; [exact ER | apply Qlt_le_weak, V0].
Qed.

(* The hypotheses hold for 3.25 and its bytes are 3.25. *)
Definition num46 : dbl := S754_finite true 7318349394477056 (-51).
Example C46_case :
  is_dbl num46 = true /\ in_range num46 /\ not_below num46
  /\ (fval num46 == - (13 # 4))%Q /\ update num46 = (192, [3; 37; 0; 0; 0])
  /\ to_string (update num46) = [45; 51; 46; 50; 53].
Proof.
  assert (V : (Qabs (fval num46) == 13 # 4)%Q) by (vm_compute; reflexivity).
  split; [reflexivity |]. split; [| split; [| split; [| split]]].
  - split; rewrite V; [vm_compute; discriminate | vm_compute; reflexivity].
  - intros k H. rewrite V in *.
    assert (K : 0 < k).
    { destruct (Z_lt_ge_dec 0 k) as [L | L]; [exact L |].
      pose proof (ten_mono (2 * k) 0 ltac:(lia)) as M. change (ten 0) with 1%Q in M. lra. }
    pose proof (ten_mono 2 (2 * k) ltac:(lia)) as M. change (ten 2) with 100%Q in M. lra.
  - vm_compute. reflexivity.
  - vm_compute. reflexivity.
  - vm_compute. reflexivity.
Qed.

(* The text of the listing has the value of the bytes. *)
Theorem C46_text num :
  is_dbl num = true -> in_range num -> not_below num ->
  let '(e, m) := update num in
  exists q, text_value (to_string (e, m)) = Some q /\ (q == bcd_value e m)%Q.
Proof.
  intros D R NB. pose proof (C46_nearest_partial num D R NB) as N. destruct R as [LO HI].
  destruct (finite_of num LO) as (s & m & e & ->). rewrite fval_abs in LO, HI.
  assert (B : (pv m e <= ten 98 * (1 - (51 # 1000000000000)))%Q).
  { specialize (NB 49). rewrite fval_abs in NB. apply NB. exact HI. }
  destruct (update_ok s m e D LO (below_max m e D B)) as (j & n & J & EQ & NN & LT & LOW & ER).
  rewrite EQ in *. destruct N as [BN _]. destruct (exp_small s j J) as [E1 E2].
  apply to_string_ok; [exact BN | lia |].
  rewrite E1. intros J0. assert (j = 0) by lia. subst j.
  assert (T : (1000000000 <= pv m e * ten (108 - 2 * 0))%Q).
  { apply Qle_trans with (ten (-99) * ten 108)%Q; [vm_compute; discriminate |].
    apply Qmult_le_compat_r; [exact LO | apply Qlt_le_weak, ten_pos]. }
  apply Qabs_Qle_condition in ER.
  assert (N9 : 999999999 < n) by (apply lt_inj; change (inject_Z 999999999) with 999999999%Q; lra).
  destruct (Z.eq_dec n 10000000000) as [-> | NE]; [vm_compute; discriminate |].
  destruct (mant_ok n ltac:(lia)) as (_ & _ & _ & HD). rewrite HD.
  apply Z.div_le_lower_bound; lia.
Qed.

(* All the numbers from 0.49 units below a power of 100 to just below it get bytes that are
   not decimal. *)
Theorem C46_carry num k :
  is_dbl num = true -> -49 <= k <= 49 ->
  (ten (2 * k) * (1 - (49 # 1000000000000)) <= Qabs (fval num))%Q ->
  (Qabs (fval num) <= ten (2 * k) * (1 - (1 # 1000000000000000)))%Q ->
  exists e, update num = (e, [160; 0; 0; 0; 0]) /\ ~ bcd_number e [160; 0; 0; 0; 0].
Proof.
  intros D K LO HI.
  assert (LO2 : (ten (-99) <= Qabs (fval num))%Q).
  { apply Qle_trans with (ten (2 * k) * (1 - (49 # 1000000000000)))%Q; [| exact LO].
    pose proof (ten_mono (-98) (2 * k) ltac:(lia)) as M.
    assert (ten (-99) <= ten (-98) * (1 - (49 # 1000000000000)))%Q by (vm_compute; discriminate).
    set (a := ten (-99)) in *. set (b := ten (-98)) in *. clearbody a b. lra. }
  destruct (finite_of num LO2) as (s & m & e & ->). rewrite fval_abs in LO, HI, LO2.
  assert (BM : SFleb (lit10 98) (S754_finite false m e) = false).
  { destruct (SFleb (lit10 98) (S754_finite false m e)) eqn:E; [| reflexivity]. exfalso.
    destruct (okc_inv _ _ max_ok) as (mc & ec & EC & DC & C1 & _ & _).
    assert (X : (ten 98 * (1 - (1 # 1000000000000000)) < ten 98 * (1 - u))%Q) by reflexivity.
    pose proof (ten_mono (2 * k) 98 ltac:(lia)) as M.
    rewrite EC in E, DC. rewrite leb_dlt in E. apply negb_true_iff in E.
    pose proof (dlt_pos m e mc ec D DC) as CMP. rewrite E in CMP.
    set (a := ten 98) in *. set (w := u) in *. clearbody a w. lra. }
  destruct (update_ok s m e D LO2 BM) as (j & n & J & EQ & N & LT & LOW & ER).
  pose proof (ten_pos (2 * k)) as TK. destruct u_small as [U1 U2].
  assert (JK : 2 * j - 98 = 2 * k).
  { assert (2 * k - 2 < 2 * j - 98 /\ 2 * j - 100 < 2 * k); [| lia]. split.
    - destruct (Z_lt_ge_dec (2 * k - 2) (2 * j - 98)) as [L | L]; [exact L |]. exfalso.
      pose proof (ten_mono (2 * j - 98) (2 * k - 2) ltac:(lia)) as M.
      replace (2 * k) with (2 * k - 2 + 2) in LO, TK by lia. rewrite ten_plus in LO.
      change (ten 2) with 100%Q in LO. pose proof (ten_pos (2 * k - 2)). lra.
    - destruct (Z_lt_ge_dec (2 * j - 100) (2 * k)) as [L | L]; [exact L |]. exfalso.
      destruct LOW as [-> | LOW]; [lia |].
      pose proof (ten_mono (2 * k) (2 * j - 100) ltac:(lia)) as M.
      set (a := ten (2 * j - 100)) in *. set (b := ten (2 * k)) in *. set (w := u) in *.
      clearbody a b w. nra. }
  assert (T : (10000000000 * (1 - (49 # 1000000000000)) <= pv m e * ten (108 - 2 * j))%Q).
  { apply Qle_trans with (ten (2 * k) * (1 - (49 # 1000000000000)) * ten (108 - 2 * j))%Q.
    - setoid_replace (ten (2 * k) * (1 - (49 # 1000000000000)) * ten (108 - 2 * j))%Q
        with (ten (2 * k) * ten (108 - 2 * j) * (1 - (49 # 1000000000000)))%Q by ring.
      rewrite <- ten_plus. replace (2 * k + (108 - 2 * j)) with 10 by lia. discriminate.
    - apply Qmult_le_compat_r; [exact LO | apply Qlt_le_weak, ten_pos]. }
  apply Qabs_Qle_condition in ER.
  assert (N9 : 9999999999 < n).
  { apply lt_inj. change (inject_Z 9999999999) with 9999999999%Q. lra. }
  assert (n = 10000000000) by lia. subst n.
  eexists. split; [rewrite EQ; reflexivity |].
  intros (_ & _ & F & _). inversion F as [| ? ? (_ & H & _)]; subst. vm_compute in H. apply H. reflexivity.
Qed.

(* 99.999999999999 is in the range, and its first byte has the digits ten and zero; the
   text of the listing is ":0". *)
Definition num46b : dbl := S754_finite false 7036874417766330 (-46).
Theorem C46_refuted : exists num,
  is_dbl num = true /\ fp_valid num = true /\ in_range num
  /\ (let '(e, m) := update num in
      ~ bcd_number e m /\ to_string (e, m) = [58; 48] /\ text_value (to_string (e, m)) = None).
Proof.
  exists num46b. split; [reflexivity |]. split; [vm_compute; reflexivity |].
  split; [split; [vm_compute; discriminate | vm_compute; reflexivity] |].
  assert (E : update num46b = (64, [160; 0; 0; 0; 0])) by (vm_compute; reflexivity).
  rewrite E. split; [| split; vm_compute; reflexivity].
  intros (_ & _ & F & _). inversion F as [| ? ? (_ & H & _)]; subst. vm_compute in H. apply H. reflexivity.
Qed.

(* The ends of the range: numbers below 1E-99 give zero, with the sign of the number (bytes
   that are not the usual zero); the greatest valid number, 1E98, gives a number almost
   100 times greater. *)
Definition greatest : list Z := [153; 153; 153; 153; 153].
Theorem C46_ends num :
  is_dbl num = true -> fp_valid num = true ->
  ((Qabs (fval num) < ten (-99))%Q ->
   exists e, update num = (e, [0; 0; 0; 0; 0]) /\ (e = 0 \/ (e = 128 /\ (fval num < 0)%Q)))
  /\ (num = lit10 98 \/ num = SFopp (lit10 98) ->
      exists e, update num = (e, greatest)
        /\ (99 * Qabs (fval num) < Qabs (bcd_value e greatest))%Q).
Proof.
  intros D V. split.
  - intros L. destruct num as [s | s | | s m e].
    + exists 0. split; [destruct s; vm_compute; reflexivity | left; reflexivity].
    + destruct s; vm_compute in V; discriminate.
    + vm_compute in V. discriminate.
    + rewrite fval_abs in L. set (x := S754_finite false m e).
      assert (T : dlt x (lit10 (-99)) = true).
      { destruct (okc_inv _ _ min_ok) as (mc & ec & EC & DC & _).
        assert (X : (ten (-99) <= fval (lit10 (-99)))%Q) by (vm_compute; discriminate).
        rewrite EC in X, DC |- *. pose proof (dlt_pos m e mc ec D DC) as CMP. fold x in CMP.
        destruct (dlt x (S754_finite false mc ec)); [reflexivity |].
        unfold fval in X. unfold pv, P in *. lra. }
      exists (if s then 128 else 0). split.
      * unfold update. cbv zeta.
        assert (SG : (if dlt (S754_finite s m e) (S754_zero false) then 128 else 0) = if s then 128 else 0)
          by (destruct s; reflexivity).
        rewrite !SG.
        assert (OPP : (if (if s then 128 else 0) =? 0 return dbl then S754_finite s m e else SFopp (S754_finite s m e)) = x)
          by (destruct s; reflexivity).
        rewrite OPP, T. reflexivity.
      * destruct s; [right | left; reflexivity]. split; [reflexivity |].
        pose proof (pv_pos m e) as H. unfold pv, P in H. unfold fval. lra.
  - intros [-> | ->].
    + exists 113. split; [vm_compute; reflexivity |]. vm_compute; reflexivity.
    + exists 241. split; [vm_compute; reflexivity |]. vm_compute; reflexivity.
Qed.
Example C46_ends_case :
  is_dbl (S754_finite true 1 (-1074)) = true /\ fp_valid (S754_finite true 1 (-1074)) = true
  /\ (Qabs (fval (S754_finite true 1 (-1074))) < ten (-99))%Q
  /\ update (S754_finite true 1 (-1074)) = (128, [0; 0; 0; 0; 0])
  /\ is_dbl (lit10 98) = true /\ fp_valid (lit10 98) = true.
Proof. repeat split; vm_compute; reflexivity. Qed.
Example C46_carry_case :
  is_dbl num46b = true /\ (ten 2 * (1 - (49 # 1000000000000)) <= Qabs (fval num46b))%Q
  /\ (Qabs (fval num46b) <= ten 2 * (1 - (1 # 1000000000000000)))%Q.
Proof. split; [reflexivity |]. split; vm_compute; discriminate. Qed.

Print Assumptions C46_nearest_partial.
Print Assumptions C46_text.
Print Assumptions C46_carry.
Print Assumptions C46_refuted.
Print Assumptions C46_ends.
