(* The multiplication loop. *)
From Verif Require Export RtArith.

(* one step on the numbers: F holds the partial product, the rest of the first operand and
   the carry *)
Lemma mul_step m N F k : 0 <= k < 16 -> 0 <= m < 65536 ->
  F = m / 2 ^ k + N * 2 ^ (17 - k) * (m mod 2 ^ k) ->
  F / 2 + (F mod 2) * N * 65536 = m / 2 ^ (k + 1) + N * 2 ^ (17 - (k + 1)) * (m mod 2 ^ (k + 1)).
Proof.
  intros K B E. set (d := m / 2 ^ k) in *. set (r := m mod 2 ^ k) in *.
  assert (0 < 2 ^ k) by (apply Z.pow_pos_nonneg; lia).
  assert (m = 2 ^ k * d + r) as Em by (apply Z.div_mod; lia).
  assert (0 <= r < 2 ^ k) by (apply Z.mod_pos_bound; lia).
  rewrite Z.pow_add_r, Z.pow_1_r by lia.
  assert (m / (2 ^ k * 2) = d / 2) as -> by (rewrite <- Z.div_div by lia; reflexivity).
  assert (m mod (2 ^ k * 2) = r + 2 ^ k * (d mod 2)) as ->.
  { symmetry. apply Z.mod_unique with (d / 2); [left; assert (d mod 2 = 0 \/ d mod 2 = 1) as [-> | ->] by zm; lia|].
    rewrite Em at 1. pose proof (Z.div_mod d 2 ltac:(lia)) as Ed. rewrite Ed at 1. ring. }
  replace (2 ^ (17 - k)) with (2 * 2 ^ (17 - (k + 1))) in E
    by (rewrite <- Z.pow_succ_r by lia; f_equal; lia).
  replace 65536 with (2 ^ (17 - (k + 1)) * 2 ^ k) by (rewrite <- Z.pow_add_r by lia; replace (17 - (k + 1) + k) with 16 by lia; reflexivity).
  set (P := 2 ^ (17 - (k + 1))) in *.
  replace F with (d + (N * P * r) * 2) by (rewrite E; ring).
  rewrite Z.div_add, Z.mod_add by lia. ring.
Qed.
Lemma odd_b a : Z.odd a = true -> a mod 2 = 1.
Proof. rewrite Zmod_odd. intros ->. reflexivity. Qed.
Lemma odd_f a : Z.odd a = false -> a mod 2 = 0.
Proof. rewrite Zmod_odd. intros ->. reflexivity. Qed.
Lemma odd_mod a : (if Z.odd a then 1 else 0) = a mod 2.
Proof. rewrite Zmod_odd. destruct (Z.odd a); reflexivity. Qed.

Section T.
Variable L : lay.
Hypothesis OK : lay_ok L.
Notation P := (rt L).

(* the numbers in the registers in the loop *)
Definition macc (a : Z) (mm : Z -> Z) (c : bool) : Z :=
  2 * ((a + 256 * mm (tmp2 L + 1)) * 65536 + (mm (tmp1 L) + 256 * mm (tmp1 L + 1))) + cin c.
Definition mul_out : code :=
  [In (LDA (Mem (tmp1 L))); In (LDX (Mem (tmp1 L + 1))); In (JMP "next_ins_incsp")].

Lemma mul_iter x N y a c z f v mm st r Q :
  0 <= a < 256 -> 0 <= x < 256 -> 0 < y < 256 -> bytes_in mm -> N = mm (tmp3 L) + 256 * x ->
  (forall a' c' f' v' mm', 0 <= a' < 256 -> bytes_in mm' ->
     (forall b, ~ scratch L b \/ b = tmp3 L -> mm' b = mm b) ->
     macc a' mm' c' = macc a mm c / 2 + (macc a mm c mod 2) * N * 65536 ->
     wp P (if y =? 1 then mul_out else entry P "mul.L0")
        (mkcpu a' x (y - 1) c' (y =? 1) f' v' mm' st r) Q) ->
  wp P (entry P "mul.L0") (mkcpu a x y c z f v mm st r) Q.
Proof.
  intros BA BX BY WM EN H. pose proof OK as (?&?&?&?&?&?&?&?&?&?&?&?&?).
  assert (macc a mm c mod 2 = cin c /\ macc a mm c / 2 = (a + 256 * mm (tmp2 L + 1)) * 65536 + (mm (tmp1 L) + 256 * mm (tmp1 L + 1))) as (E1 & E2).
  { unfold macc. destruct c; zm. }
  rewrite E1, E2 in H.
  pose proof (WM (tmp1 L)). pose proof (WM (tmp1 L + 1)). pose proof (WM (tmp2 L)).
  pose proof (WM (tmp2 L + 1)). pose proof (WM (tmp3 L)).
  assert ((y - 1 =? 0) = (y =? 1)) as EY
    by (destruct (y =? 1) eqn:?; zb; [apply Z.eqb_eq|apply Z.eqb_neq]; lia).
  assert (forall a' c' f' v' mm', 0 <= a' < 256 -> bytes_in mm' ->
     (forall b, ~ scratch L b \/ b = tmp3 L -> mm' b = mm b) ->
     macc a' mm' c' = (a + 256 * mm (tmp2 L + 1)) * 65536 + (mm (tmp1 L) + 256 * mm (tmp1 L + 1)) + cin c * N * 65536 ->
     wp P (In (Br NE "mul.L0") :: mul_out) (mkcpu a' x (y - 1) c' (y =? 1) f' v' mm' st r) Q) as G.
  { intros a' c' f' v' mm' U1 U2 U3 U4. specialize (H a' c' f' v' mm' U1 U2 U3 U4).
    step1; destruct (y =? 1); try discriminate K; exact H. }
  clear H. assert (forall b, 0 <= b < 256 -> 0 <= b mod 2 <= 1 /\ b = 2 * (b / 2) + b mod 2 /\ 0 <= b / 2 < 128) as D by (intros; zm).
  entry_tac. step1; zb.
  - destruct c; [discriminate|]. steps. rewrite (b8_small (y - 1)), EY, !odd_mod by lia.
    pose proof (D _ BA). pose proof (D _ H13). pose proof (D _ H14). pose proof (D _ H16).
    apply G.
    + lia.
    + bytes_tac.
    + intros b U. unfold scratch in U. norm. reflexivity.
    + unfold macc, cin. norm. rewrite odd_mod. lia.
  - destruct c; [|discriminate]. steps. rewrite (b8_small (y - 1)), EY, !odd_mod by lia.
    rewrite EN in G. unfold mul_out in G.
    set (s0 := a + mm (tmp3 L) + 0) in *. set (k0 := if 256 <=? s0 then 1 else 0) in *.
    set (s1 := x + mm (tmp2 L + 1) + k0) in *. set (k1 := if 256 <=? s1 then 1 else 0) in *.
    assert (s0 = b8 s0 + 256 * k0 /\ 0 <= k0 <= 1) as (S0 & ?) by (unfold k0; destruct (256 <=? s0) eqn:?; zb; unfold s0 in *; zm).
    assert (s1 = b8 s1 + 256 * k1 /\ 0 <= k1 <= 1) as (S1 & ?) by (unfold k1; destruct (256 <=? s1) eqn:?; zb; unfold s1 in *; zm).
    pose proof (b8_range s0) as R0. pose proof (b8_range s1) as R1.
    pose proof (D _ R0). pose proof (D _ R1). pose proof (D _ H13). pose proof (D _ H14).
    apply G.
    + lia.
    + bytes_tac.
    + intros b U. unfold scratch in U. norm. reflexivity.
    + unfold macc, cin. norm. rewrite odd_mod. assert (b8 s0 + 256 * k0 = a + mm (tmp3 L)) by (rewrite <- S0; unfold s0; lia).
      assert (b8 s1 + 256 * k1 = x + mm (tmp2 L + 1) + k0) by (rewrite <- S1; unfold s1; lia). lia.
Qed.

Lemma mul_loop x N m0 mm0 st r Q : 0 <= x < 256 -> 0 <= m0 < 65536 -> N = mm0 (tmp3 L) + 256 * x ->
  (forall a y c z f v mm, 0 <= a < 256 -> 0 <= y < 256 -> bytes_in mm -> (forall b, ~ scratch L b -> mm b = mm0 b) ->
     mm (tmp1 L) + 256 * mm (tmp1 L + 1) = word (m0 * N) ->
     wp P mul_out (mkcpu a x y c z f v mm st r) Q) ->
  forall j a c z f v mm, (j < 16)%nat -> 0 <= a < 256 -> bytes_in mm ->
  (forall b, ~ scratch L b \/ b = tmp3 L -> mm b = mm0 b) ->
  (let k := 15 - Z.of_nat j in macc a mm c = m0 / 2 ^ k + N * 2 ^ (17 - k) * (m0 mod 2 ^ k)) ->
  wp P (entry P "mul.L0") (mkcpu a x (Z.of_nat j + 1) c z f v mm st r) Q.
Proof.
  intros BX BM EN H. induction j as [|j IH]; intros a c z f v mm J BA WM U E; cbn zeta in E.
  - apply mul_iter with N; auto; try lia; [rewrite U; auto|].
    intros a' c' f' v' mm' B' W' U' E'. change (Z.of_nat 0 + 1 =? 1) with true. cbn iota.
    apply H; auto; [cbn; lia| |].
    + intros b NB. rewrite U', U; auto.
    + rewrite (mul_step m0 N (macc a mm c) (15 - Z.of_nat 0)) in E' by (auto; lia).
      change (15 - Z.of_nat 0 + 1) with 16 in E'. change (2 ^ 16) with 65536 in E'. change (2 ^ (17 - 16)) with 2 in E'.
      rewrite Z.div_small, Z.mod_small in E' by lia. unfold macc in E'.
      pose proof (W' (tmp1 L)). pose proof (W' (tmp1 L + 1)).
      assert ((m0 * N) = (a' + 256 * mm' (tmp2 L + 1)) * 65536 + (mm' (tmp1 L) + 256 * mm' (tmp1 L + 1))) as ->
        by (destruct c'; unfold cin in E'; lia).
      unfold word. rewrite (Z.add_comm (_ * 65536)), Z.mod_add, Z.mod_small by lia. reflexivity.
  - apply mul_iter with N; auto; try lia; [rewrite U; auto|].
    intros a' c' f' v' mm' B' W' U' E'. replace (Z.of_nat (Datatypes.S j) + 1 =? 1) with false
      by (symmetry; apply Z.eqb_neq; lia).
    replace (Z.of_nat (Datatypes.S j) + 1 - 1) with (Z.of_nat j + 1) by lia.
    apply IH; auto; [lia|intros b NB; rewrite U', U; auto|].
    cbn zeta. rewrite E', (mul_step m0 N (macc a mm c) (15 - Z.of_nat (Datatypes.S j))) by (auto; lia).
    replace (15 - Z.of_nat (Datatypes.S j) + 1) with (15 - Z.of_nat j) by lia. reflexivity.
Qed.

Theorem mul_ok s : ready s -> M s sptr < 255 ->
  exists s', calls P "EXE_MUL" s "next_instruction" s' /\ gives L s (word (top s * AX s)) 1 s'.
Proof.
  intros R T. start OK s R. steps.
  at_label "mul.L0".
  apply mul_loop with (m0 := m (1152 + m 142) + 256 * m (1192 + m 142)) (N := a + 256 * x) (mm0 := upd m (tmp3 L) a) (j := 15%nat);
    try lia.
  - rewrite upd_eq; reflexivity.
  - intros a0 y0 c0 z0 f0 v0 mm BA BY WM' F V. unfold mul_out. steps.
    assert (forall b, ~ scratch L b -> mm b = m b) as F'.
    { intros b NB. rewrite F by exact NB. apply upd_ne. unfold scratch in NB. lia. }
    assert (mm 142 = m 142) as F142 by (apply F'; unfold scratch; lia).
    apply incsp; [split; [|split; [|split]]; cbn [A X Y M S rnd]; auto; apply WM'|cbn [M]; consts; lia|].
    intros ? ?. split; [reflexivity|]. apply gives_intro; cbn [A X Y M S rnd]; consts;
      [reflexivity|reflexivity|exact V|apply WM'|apply WM'|exact BY| | |].
    + rewrite F142. bytes_tac.
    + norm. lia.
    + intros b NB NS. norm. auto.
  - assert (0 <= m (1152 + m 142) / 2 < 128 /\ 0 <= m (1192 + m 142) / 2 < 128) by zm. rewrite odd_mod.
    assert (0 <= m (1192 + m 142) mod 2 <= 1) by zm. bytes_tac.
  - intros b NB. unfold scratch in NB. destruct (Z.eq_dec b (tmp3 L)).
    + norm. reflexivity.
    + norm. reflexivity.
  - cbn zeta. change (15 - Z.of_nat 15) with 0. change (2 ^ 0) with 1. rewrite Z.div_1_r, Z.mod_1_r.
    unfold macc, cin. norm. rewrite !odd_mod. zm.
Qed.
End T.
