(* The multiplication and division of SpecFloat are right up to half a unit in the last
   place, for the numbers that atarifp.h meets. *)
From Coq Require Import QArith Qpower Qabs Lqa Lia.
From Verif Require Import Codew Fp.
Open Scope Z_scope.

Notation "$ m" := (inject_Z m) (at level 1, format "$ m").
Definition P (e : Z) : Q := Qpower 2 e.

Lemma two_nz : ~ (2 == 0)%Q. Proof. discriminate. Qed.
Lemma P_pos e : (0 < P e)%Q.
Proof. apply Qpower_0_lt. reflexivity. Qed.
Lemma P_plus a b : (P (a + b) == P a * P b)%Q.
Proof. apply Qpower_plus, two_nz. Qed.
Lemma P_0 : (P 0 == 1)%Q. Proof. reflexivity. Qed.
Lemma P_1 : (P 1 == 2)%Q. Proof. reflexivity. Qed.
Lemma P_int n : 0 <= n -> (P n == $(2 ^ n))%Q.
Proof. intros H. unfold P. rewrite Zpower_Qpower by exact H. reflexivity. Qed.
Lemma P_ge1 n : 0 <= n -> (1 <= P n)%Q.
Proof.
  intros H. rewrite P_int by exact H. change 1%Q with $1. rewrite <- Zle_Qle.
  pose proof (Z.pow_pos_nonneg 2 n). lia.
Qed.
Lemma P_mono a b : a <= b -> (P a <= P b)%Q.
Proof.
  intros H. replace b with (a + (b - a)) by lia. rewrite P_plus.
  pose proof (P_ge1 (b - a) ltac:(lia)). pose proof (P_pos a). nra.
Qed.
Lemma P_inv e : (P (- e) * P e == 1)%Q.
Proof. rewrite <- P_plus. replace (- e + e) with 0 by lia. reflexivity. Qed.

Lemma inj_add a b : ($(a + b) == $a + $b)%Q. Proof. rewrite inject_Z_plus. reflexivity. Qed.
Lemma inj_mul a b : ($(a * b) == $a * $b)%Q. Proof. rewrite inject_Z_mult. reflexivity. Qed.

(* Digits. *)
Lemma digits2_bound p :
  2 ^ (Zpos (digits2_pos p) - 1) <= Zpos p < 2 ^ Zpos (digits2_pos p).
Proof.
  induction p as [p IH | p IH |]; cbn [digits2_pos]; try (cbn; lia);
    rewrite Pos2Z.inj_succ, Z.pow_succ_r by lia;
    replace (Z.succ (Zpos (digits2_pos p)) - 1) with (Z.succ (Zpos (digits2_pos p) - 1)) by lia;
    rewrite Z.pow_succ_r by lia; lia.
Qed.
Lemma digits2_unique p d : 0 < d -> 2 ^ (d - 1) <= Zpos p < 2 ^ d -> Zpos (digits2_pos p) = d.
Proof.
  intros D H. pose proof (digits2_bound p) as B. set (k := Zpos (digits2_pos p)) in *.
  assert (0 < k) by lia.
  destruct (Z.lt_trichotomy k d) as [L | [L | L]]; [| exact L |].
  - assert (2 ^ k <= 2 ^ (d - 1)) by (apply Z.pow_le_mono_r; lia). lia.
  - assert (2 ^ d <= 2 ^ (k - 1)) by (apply Z.pow_le_mono_r; lia). lia.
Qed.

(* Where a number is between two multiples of 2^e. *)
Definition loc_ok (v : Q) (m : Z) (r s : bool) (e : Z) : Prop :=
  match r, s with
  | false, false => (v == $m * P e)%Q
  | false, true => ($m * P e < v)%Q /\ (v < ($m + (1 # 2)) * P e)%Q
  | true, false => (v == ($m + (1 # 2)) * P e)%Q
  | true, true => (($m + (1 # 2)) * P e < v)%Q /\ (v < ($m + 1) * P e)%Q
  end.
Definition rec_ok (v : Q) (x : shr_record) (e : Z) : Prop :=
  loc_ok v (shr_m x) (shr_r x) (shr_s x) e.

Lemma shr_1_ok v x e :
  0 <= shr_m x -> rec_ok v x e ->
  shr_m (shr_1 x) = shr_m x / 2 /\ rec_ok v (shr_1 x) (e + 1).
Proof.
  destruct x as [m r s]. cbn [shr_m]. intros M H. split.
  { destruct m as [| [p | p |] | p]; cbn [shr_1 shr_m]; try lia; try reflexivity. }
  unfold rec_ok in *. cbn [shr_m shr_r shr_s] in H.
  assert (E : (P e == P (e + 1) * (1 # 2))%Q).
  { rewrite P_plus, P_1. lra. }
  pose proof (P_pos (e + 1)) as PP. unfold loc_ok in H.
  set (p := P (e + 1)) in *. set (p0 := P e) in *.
  assert (XI : forall q, ($(Zpos q~1) == 2 * $(Zpos q) + 1)%Q).
  { intros q. rewrite Pos2Z.inj_xI, inj_add, inj_mul. reflexivity. }
  assert (XO : forall q, ($(Zpos q~0) == 2 * $(Zpos q))%Q).
  { intros q. rewrite Pos2Z.inj_xO, inj_mul. reflexivity. }
  assert (X1 : ($1 == 1)%Q) by reflexivity. assert (X0 : ($0 == 0)%Q) by reflexivity.
  destruct m as [| [m | m |] | m]; [| | | | lia];
    [| specialize (XI m) | specialize (XO m) |];
    cbn [shr_1]; unfold loc_ok; cbn [shr_m shr_r shr_s]; fold p;
    destruct r, s; cbn [orb];
    repeat match type of H with _ /\ _ => destruct H as [H H'] end;
    repeat split; clearbody p p0;
    repeat match goal with
    | |- context [inject_Z ?z] => let q := fresh "q" in set (q := inject_Z z) in *; clearbody q
    | H : context [inject_Z ?z] |- _ => let q := fresh "q" in set (q := inject_Z z) in *; clearbody q
    end; try nra.
Qed.

Lemma iter_ok v n : forall x e,
  0 <= shr_m x -> rec_ok v x e ->
  shr_m (iter_pos shr_1 n x) = shr_m x / 2 ^ Zpos n
  /\ rec_ok v (iter_pos shr_1 n x) (e + Zpos n).
Proof.
  assert (D : forall a b c, 0 <= b -> 0 <= c -> a / 2 ^ b / 2 ^ c = a / 2 ^ (b + c)).
  { intros a b c B C.
    rewrite Z.pow_add_r, Z.div_div
      by first [lia | apply Z.pow_nonzero; lia | apply Z.pow_pos_nonneg; lia].
    reflexivity. }
  assert (N : forall a b, 0 <= a -> 0 <= b -> 0 <= a / 2 ^ b).
  { intros a b A B. apply Z.div_pos; [exact A | apply Z.pow_pos_nonneg; lia]. }
  induction n as [n IH | n IH |]; intros x e M H; cbn [iter_pos].
  - destruct (shr_1_ok v x e M H) as [M1 H1].
    assert (0 <= shr_m (shr_1 x)) by (rewrite M1; apply (N _ 1); lia).
    destruct (IH (shr_1 x) (e + 1) ltac:(assumption) H1) as [M2 H2].
    destruct (IH (iter_pos shr_1 n (shr_1 x)) (e + 1 + Zpos n)) as [M3 H3];
      [rewrite M2; apply N; lia | exact H2 |].
    split.
    + rewrite M3, M2, M1. change (shr_m x / 2) with (shr_m x / 2 ^ 1). 
      rewrite (D (shr_m x) 1 (Zpos n)), (D (shr_m x) (1 + Zpos n) (Zpos n)) by lia.
      replace (1 + Zpos n + Zpos n) with (Zpos n~1) by lia. reflexivity.
    + replace (e + Zpos n~1) with (e + 1 + Zpos n + Zpos n) by lia. exact H3.
  - destruct (IH x e M H) as [M2 H2].
    destruct (IH (iter_pos shr_1 n x) (e + Zpos n)) as [M3 H3];
      [rewrite M2; apply N; lia | exact H2 |].
    split.
    + rewrite M3, M2, (D (shr_m x) (Zpos n) (Zpos n)) by lia. replace (Zpos n + Zpos n) with (Zpos n~0) by lia. reflexivity.
    + replace (e + Zpos n~0) with (e + Zpos n + Zpos n) by lia. exact H3.
  - destruct (shr_1_ok v x e M H) as [M1 H1]. split; [exact M1 | exact H1].
Qed.

Lemma rne_ok v x e :
  rec_ok v x e ->
  let r := round_nearest_even (shr_m x) (loc_of_shr_record x) in
  (shr_m x <= r <= shr_m x + 1)
  /\ ($r * P e - v <= (1 # 2) * P e)%Q /\ (v - $r * P e <= (1 # 2) * P e)%Q
  /\ ($(shr_m x) * P e <= v)%Q.
Proof.
  destruct x as [m r s]. unfold rec_ok, loc_ok. cbn [shr_m shr_r shr_s]. intros H.
  pose proof (P_pos e) as PP.
  assert (I : ($(m + 1) == $m + 1)%Q) by apply inj_add.
  destruct r, s; cbn [loc_of_shr_record round_nearest_even]; cbv zeta;
    try destruct (Z.even m); (split; [lia |]);
    repeat match type of H with _ /\ _ => destruct H as [H H'] end;
    rewrite ?I; set (p := P e) in *; set (x := inject_Z m) in *; clearbody p x;
    (split; [| split]); nra.
Qed.

Lemma fexp_normal k : -1074 <= k - 53 -> fexp prec emax k = k - 53.
Proof. intros H. unfold fexp, emin. lia. Qed.

Lemma round_aux v mx ex lx :
  0 < mx -> rec_ok v (shr_record_of_loc mx lx) ex ->
  lx = loc_Exact \/ 53 <= Zdigits2 mx ->
  -1074 <= Zdigits2 mx + ex - 53 -> Zdigits2 mx + ex <= 960 ->
  exists m e, binary_round_aux prec emax false mx ex lx = S754_finite false m e
    /\ (Qabs.Qabs ($(Zpos m) * P e - v) <= v * P (-53))%Q.
Proof.
  intros M R X LO HI. destruct mx as [| mx |]; try lia. cbn [Zdigits2] in *.
  pose proof (digits2_bound mx) as B. set (d := Zpos (digits2_pos mx)) in *.
  assert (SM : shr_m (shr_record_of_loc (Zpos mx) lx) = Zpos mx)
    by (destruct lx as [| []]; reflexivity).
  unfold binary_round_aux, shr_fexp. cbn [Zdigits2]. fold d.
  rewrite fexp_normal by exact LO.
  replace (d + ex - 53 - ex) with (d - 53) by lia.
  destruct (Z_lt_ge_dec d 53) as [L | L].
  { destruct X as [-> | X]; [| lia].
    assert (S0 : shr (shr_record_of_loc (Zpos mx) loc_Exact) ex (d - 53)
             = (shr_record_of_loc (Zpos mx) loc_Exact, ex)).
    { unfold shr. destruct (d - 53) eqn:E; try reflexivity. lia. }
    rewrite S0. cbn [shr_record_of_loc shr_m loc_of_shr_record round_nearest_even Zdigits2].
    fold d. rewrite fexp_normal by exact LO.
    replace (d + ex - 53 - ex) with (d - 53) by lia.
    change (Build_shr_record (Zpos mx) false false) with (shr_record_of_loc (Zpos mx) loc_Exact).
    rewrite S0. cbn [shr_record_of_loc shr_m].
    replace (ex <=? emax - prec) with true by (symmetry; apply Zle_imp_le_bool; lia).
    exists mx, ex. split; [reflexivity |].
    unfold rec_ok, loc_ok in R. cbn in R.
    assert (($(Zpos mx) * P ex - v == 0)%Q) as -> by lra.
    rewrite R. pose proof (P_pos ex). pose proof (P_pos (-53)).
    assert (0 < $(Zpos mx))%Q by reflexivity. cbn. apply Qlt_le_weak. 
    apply Qmult_lt_0_compat; [apply Qmult_lt_0_compat |]; assumption. }
  set (x0 := shr_record_of_loc (Zpos mx) lx) in *.
  assert (S1 : exists x1, shr x0 ex (d - 53) = (x1, d + ex - 53)
             /\ shr_m x1 = Zpos mx / 2 ^ (d - 53) /\ rec_ok v x1 (d + ex - 53)).
  { unfold shr. destruct (d - 53) as [| n |] eqn:E; [| | lia].
    - exists x0. repeat split.
      + f_equal. lia.
      + rewrite SM. rewrite Z.pow_0_r, Z.div_1_r. reflexivity.
      + replace (d + ex - 53) with ex by lia. exact R.
    - destruct (iter_ok v n x0 ex) as [A1 A2]; [lia | exact R |].
      exists (iter_pos shr_1 n x0). repeat split.
      + f_equal. lia.
      + rewrite A1, SM. reflexivity.
      + replace (d + ex - 53) with (ex + Zpos n) by lia. exact A2. }
  destruct S1 as (x1 & -> & M1 & R1). clear R.
  assert (B1 : 2 ^ 52 <= shr_m x1 < 2 ^ 53).
  { rewrite M1. split.
    - apply Z.div_le_lower_bound; [apply Z.pow_pos_nonneg; lia |].
      rewrite <- Z.pow_add_r by lia. replace (d - 53 + 52) with (d - 1) by lia. lia.
    - apply Z.div_lt_upper_bound; [apply Z.pow_pos_nonneg; lia |].
      rewrite <- Z.pow_add_r by lia. replace (d - 53 + 53) with d by lia. lia. }
  destruct (rne_ok v x1 _ R1) as (B2 & E1 & E2 & E3).
  set (r := round_nearest_even (shr_m x1) (loc_of_shr_record x1)) in *.
  set (E := d + ex - 53) in *.
  assert (ERR : (Qabs.Qabs ($r * P E - v) <= v * P (-53))%Q).
  { assert (H : ((1 # 2) * P E <= v * P (-53))%Q).
    { apply Qle_trans with ($(2 ^ 52) * P E * P (-53))%Q.
      - assert (EQ : ($(2 ^ 52) * P (-53) == 1 # 2)%Q) by reflexivity.
        assert (EQ2 : ($(2 ^ 52) * P E * P (-53) == $(2 ^ 52) * P (-53) * P E)%Q) by ring.
        rewrite EQ2, EQ. apply Qle_refl.
      - apply Qmult_le_compat_r; [| apply Qlt_le_weak, P_pos].
        apply Qle_trans with ($(shr_m x1) * P E)%Q; [| exact E3].
        apply Qmult_le_compat_r; [| apply Qlt_le_weak, P_pos].
        rewrite <- Zle_Qle. lia. }
    apply Qabs.Qabs_Qle_condition. lra. }
  destruct (Z.eq_dec r (2 ^ 53)) as [RE | RE].
  - rewrite RE in *. change (Zdigits2 (2 ^ 53)) with 54.
    rewrite fexp_normal by lia. replace (54 + E - 53 - E) with 1 by lia.
    change (shr (shr_record_of_loc (2 ^ 53) loc_Exact) E 1)
      with (Build_shr_record 4503599627370496 false false, E + 1).
    cbn [shr_m].
    replace (E + 1 <=? emax - prec) with true by (symmetry; apply Zle_imp_le_bool; lia).
    exists 4503599627370496%positive, (E + 1). split; [reflexivity |].
    assert (EQ : ($4503599627370496 * P (E + 1) == $(2 ^ 53) * P E)%Q).
    { rewrite P_plus, P_1. change ($(2 ^ 53))%Q with ($4503599627370496 * 2)%Q. ring. }
    rewrite EQ. exact ERR.
  - assert (RR : 2 ^ 52 <= r < 2 ^ 53) by lia.
    destruct r as [| r |]; [cbn in RR; lia | | cbn in RR; lia].
    cbn [Zdigits2]. rewrite (digits2_unique r 53) by (cbn in RR |- *; lia).
    rewrite fexp_normal by lia. replace (53 + E - 53 - E) with 0 by lia.
    cbn [shr shr_record_of_loc shr_m].
    replace (E <=? emax - prec) with true by (symmetry; apply Zle_imp_le_bool; lia).
    exists r, E. split; [reflexivity | exact ERR].
Qed.

(* The value of a positive number. *)
Definition pv (m : positive) (e : Z) : Q := ($(Zpos m) * P e)%Q.
Lemma pv_pos m e : (0 < pv m e)%Q.
Proof. apply Qmult_lt_0_compat; [reflexivity | apply P_pos]. Qed.

Lemma P_lt_inv a b : (P a < P b)%Q -> a < b.
Proof.
  intros H. destruct (Z_lt_ge_dec a b) as [L | L]; [exact L |].
  pose proof (P_mono b a ltac:(lia)). lra.
Qed.
Lemma pv_digits m e :
  (P (Zpos (digits2_pos m) + e - 1) <= pv m e)%Q /\ (pv m e < P (Zpos (digits2_pos m) + e))%Q.
Proof.
  pose proof (digits2_bound m) as B. set (d := Zpos (digits2_pos m)) in *. unfold pv.
  replace (d + e - 1) with (d - 1 + e) by lia. rewrite (P_plus (d - 1)), (P_plus d), (P_int (d - 1)), (P_int d) by lia.
  split.
  - apply Qmult_le_compat_r; [rewrite <- Zle_Qle; lia | apply Qlt_le_weak, P_pos].
  - apply Qmult_lt_compat_r; [apply P_pos | rewrite <- Zlt_Qlt; lia].
Qed.

Lemma mul_ok m1 e1 m2 e2 :
  let v := (pv m1 e1 * pv m2 e2)%Q in
  (P (-900) <= v)%Q -> (v <= P 900)%Q ->
  exists m e, SFmul prec emax (S754_finite false m1 e1) (S754_finite false m2 e2)
              = S754_finite false m e
    /\ (Qabs.Qabs (pv m e - v) <= v * P (-53))%Q.
Proof.
  intros v LO HI. cbn [SFmul xorb].
  assert (V : (v == pv (m1 * m2) (e1 + e2))%Q).
  { unfold v, pv. rewrite Pos2Z.inj_mul, inj_mul, P_plus. ring. }
  destruct (pv_digits (m1 * m2) (e1 + e2)) as [D1 D2]. rewrite <- V in D1, D2.
  apply round_aux.
  - reflexivity.
  - cbn [shr_record_of_loc]. exact V.
  - left. reflexivity.
  - assert (-900 < Zdigits2 (Zpos (m1 * m2)) + (e1 + e2)); [| lia].
    apply P_lt_inv. cbn [Zdigits2]. lra.
  - assert (Zdigits2 (Zpos (m1 * m2)) + (e1 + e2) - 1 < 901); [| lia].
    apply P_lt_inv. cbn [Zdigits2].
    assert (P 900 < P 901)%Q by reflexivity. lra.
Qed.

Lemma new_location_ok v q r m2 e :
  0 < m2 -> 0 <= r < m2 -> (v * $m2 == ($q * $m2 + $r) * P e)%Q ->
  rec_ok v (shr_record_of_loc q (new_location m2 r)) e.
Proof.
  intros M R E. pose proof (P_pos e) as PP.
  assert (M2 : (0 < $m2)%Q) by (change 0%Q with $0; rewrite <- Zlt_Qlt; exact M).
  assert (DIV : forall x y : Q, (x * $m2 < y * $m2)%Q -> (x < y)%Q).
  { intros x y H. apply Qmult_lt_r in H; assumption. }
  assert (DIVE : forall x y : Q, (x * $m2 == y * $m2)%Q -> (x == y)%Q).
  { intros x y H. apply Qmult_inj_r in H; [exact H |]. lra. }
  assert (INJ : forall a b, a < b -> ($a < $b)%Q) by (intros; rewrite <- Zlt_Qlt; assumption).
  assert (HALF : ($(2 * r) == 2 * $r)%Q) by apply inj_mul.
  assert (LOW : 0 < r -> ($q * P e < v)%Q).
  { intros H. apply DIV. rewrite E. pose proof (INJ 0 r H) as H0. change $0 with 0%Q in H0. nra. }
  assert (UP : (v < ($q + 1) * P e)%Q).
  { apply DIV. rewrite E. pose proof (INJ r m2 ltac:(lia)). nra. }
  assert (LT : 2 * r < m2 -> (v < ($q + (1 # 2)) * P e)%Q).
  { intros H. apply DIV. rewrite E. pose proof (INJ _ _ H) as H0. rewrite HALF in H0. nra. }
  assert (GT : m2 < 2 * r -> (($q + (1 # 2)) * P e < v)%Q).
  { intros H. apply DIV. rewrite E. pose proof (INJ _ _ H) as H0. rewrite HALF in H0. nra. }
  assert (EQ : m2 = 2 * r -> (v == ($q + (1 # 2)) * P e)%Q).
  { intros H. apply DIVE. rewrite E. rewrite H, HALF. ring. }
  assert (ZE : r = 0 -> (v == $q * P e)%Q).
  { intros ->. apply DIVE. rewrite E. change $0 with 0%Q. ring. }
  unfold new_location, new_location_even, new_location_odd.
  destruct (Z.even m2) eqn:EV.
  - destruct (Zeq_bool r 0) eqn:Z0.
    + apply Zeq_bool_eq in Z0. cbn. exact (ZE Z0).
    + apply Zeq_bool_neq in Z0.
      destruct (Z.compare_spec (2 * r) m2); cbn; unfold rec_ok, loc_ok; cbn.
      * apply EQ. lia.
      * split; [apply LOW | apply LT]; lia.
      * split; [apply GT; lia | exact UP].
  - assert (OD : exists k, m2 = 2 * k + 1).
    { pose proof (Zeven.Zodd_ex m2) as O. destruct O as [k Hk].
      - apply Zeven.Zodd_bool_iff. rewrite <- Z.negb_even, EV. reflexivity.
      - exists k. exact Hk. }
    destruct OD as [k OD].
    destruct (Zeq_bool r 0) eqn:Z0.
    + apply Zeq_bool_eq in Z0. cbn. exact (ZE Z0).
    + apply Zeq_bool_neq in Z0.
      destruct (Z.compare_spec (2 * r + 1) m2); cbn; unfold rec_ok, loc_ok; cbn;
        (split; [first [apply LOW; lia | apply GT; lia] | first [apply LT; lia | exact UP]]).
Qed.

Lemma div_ok m1 e1 m2 e2 v :
  (v * pv m2 e2 == pv m1 e1)%Q ->
  (P (-900) <= v)%Q -> (v <= P 900)%Q ->
  exists m e, SFdiv prec emax (S754_finite false m1 e1) (S754_finite false m2 e2)
              = S754_finite false m e
    /\ (Qabs.Qabs (pv m e - v) <= v * P (-53))%Q.
Proof.
  intros V LO HI. cbn [SFdiv xorb].
  pose proof (digits2_bound m1) as B1. pose proof (digits2_bound m2) as B2.
  destruct (pv_digits m1 e1) as [D1 D2]. destruct (pv_digits m2 e2) as [D3 D4].
  unfold SFdiv_core_binary. cbn [Zdigits2].
  set (d1 := Zpos (digits2_pos m1)) in *. set (d2 := Zpos (digits2_pos m2)) in *.
  set (k := d1 + e1 - (d2 + e2)).
  assert (K1 : -901 < k).
  { assert (-900 < k + 1); [| lia]. apply P_lt_inv.
    assert (v < P (k + 1))%Q; [| lra].
    apply Qmult_lt_r with (pv m2 e2); [apply pv_pos |]. rewrite V.
    apply Qlt_le_trans with (P (d1 + e1)); [exact D2 |].
    replace (d1 + e1) with (k + 1 + (d2 + e2 - 1)) by (unfold k; lia). rewrite P_plus.
    pose proof (P_pos (k + 1)). nra. }
  assert (K2 : k < 902).
  { assert (k - 1 < 901); [| lia]. apply P_lt_inv.
    assert (P (k - 1) < v)%Q.
    2: { assert (P 900 < P 901)%Q by reflexivity. lra. }
    apply Qmult_lt_r with (pv m2 e2); [apply pv_pos |]. rewrite V.
    apply Qlt_le_trans with (P (d1 + e1 - 1)); [| exact D1].
    replace (d1 + e1 - 1) with (k - 1 + (d2 + e2)) by (unfold k; lia). rewrite P_plus.
    pose proof (P_pos (k - 1)). nra. }
  rewrite fexp_normal by lia.
  set (e' := Z.min (k - 53) (e1 - e2)). set (s := e1 - e2 - e').
  assert (S0 : 0 <= s) by lia.
  replace (match s with Z0 => Zpos m1 | Zpos _ => Z.shiftl (Zpos m1) s | Zneg _ => 0 end)
    with (Zpos m1 * 2 ^ s).
  2: { destruct s eqn:ES; [rewrite Z.pow_0_r; lia | | lia].
       rewrite Z.shiftl_mul_pow2 by lia. reflexivity. }
  pose proof (Z_div_mod (Zpos m1 * 2 ^ s) (Zpos m2) ltac:(lia)) as DM.
  destruct (Z.div_eucl (Zpos m1 * 2 ^ s) (Zpos m2)) as [q r]. destruct DM as [Q0 R0].
  assert (QB : 2 ^ 52 <= q).
  { assert (X : 2 ^ (d2 + 52) <= Zpos m1 * 2 ^ s).
    { apply Z.le_trans with (2 ^ (d1 - 1) * 2 ^ s).
      - rewrite <- Z.pow_add_r by lia. apply Z.pow_le_mono_r; lia.
      - apply Z.mul_le_mono_nonneg_r; [apply Z.pow_nonneg; lia | lia]. }
    rewrite Z.pow_add_r in X by lia.
    assert (2 ^ 52 < q + 1); [| lia].
    apply Z.mul_lt_mono_pos_l with (Zpos m2); [lia |].
    assert (Zpos m2 * 2 ^ 52 < 2 ^ d2 * 2 ^ 52) by (apply Z.mul_lt_mono_pos_r; lia).
    lia. }
  assert (RE : rec_ok v (shr_record_of_loc q (new_location (Zpos m2) r)) e').
  { apply new_location_ok; [lia | lia |].
    rewrite <- inj_mul, <- inj_add.
    replace (q * Zpos m2 + r) with (Zpos m1 * 2 ^ s) by lia.
    rewrite inj_mul, <- P_int by exact S0.
    pose proof (P_pos e2) as PE.
    apply Qmult_inj_r with (P e2); [lra |].
    unfold pv in V.
    transitivity ($(Zpos m1) * P e1)%Q; [rewrite <- V; ring |].
    replace e1 with (s + e' + e2) at 1 by lia. rewrite !P_plus. ring. }
  destruct q as [| q | q]; [cbn in QB; lia | | lia].
  assert (VQ : ($(Zpos q) * P e' <= v)%Q).
  { pose proof (rne_ok v _ e' RE) as (_ & _ & _ & H).
    destruct (new_location (Zpos m2) r) as [| []]; exact H. }
  assert (VQ2 : (v < ($(Zpos q) + 1) * P e')%Q).
  { pose proof (P_pos e') as PE. unfold rec_ok, loc_ok in RE.
    set (x := inject_Z (Zpos q)) in *.
    destruct (new_location (Zpos m2) r) as [| []]; cbn [shr_record_of_loc shr_m shr_r shr_s] in RE;
      fold x in RE; set (p := P e') in *; clearbody x p;
      repeat match type of RE with _ /\ _ => destruct RE as [RE RE'] end; nra. }
  destruct (pv_digits q e') as [D5 D6]. unfold pv in D5, D6.
  apply round_aux.
  - reflexivity.
  - exact RE.
  - right. cbn [Zdigits2]. pose proof (digits2_bound q) as B3.
    destruct (Z_lt_ge_dec (Zpos (digits2_pos q)) 53) as [L | L]; [| lia].
    assert (2 ^ Zpos (digits2_pos q) <= 2 ^ 52) by (apply Z.pow_le_mono_r; lia). lia.
  - assert (-1000 < Zdigits2 (Zpos q) + e'); [| lia]. cbn [Zdigits2].
    apply P_lt_inv.
    assert (LL : (P e' <= $(Zpos q) * P e')%Q).
    { pose proof (P_pos e'). assert (1 <= $(Zpos q))%Q by (change 1%Q with $1; rewrite <- Zle_Qle; lia). nra. }
    assert (P (-1000) < (1 # 2) * P (-900))%Q by reflexivity. lra.
  - assert (Zdigits2 (Zpos q) + e' - 1 < 901); [| lia].
    apply P_lt_inv. cbn [Zdigits2].
    assert (P 900 < P 901)%Q by reflexivity. lra.
Qed.
