(* Strings: part of a string. *)
From Verif Require Export RtStr2.

Section T.
Variable L : lay.
Hypothesis OK : lay_ok L.
Notation P := (rt L).

(* src/interp/strindex.asm:64-77 *)
Lemma idx_loop (Q : string -> cpu -> Prop) st r m0 p len cnt pos R :
  bytes_in m0 -> wordat m0 (tmp1 L) = p -> m0 (tmp3 L) = len -> m0 (tmp3 L + 1) = cnt -> p + len < 65536 ->
  1407 <= p \/ p + len < 1407 -> 1 <= pos < 256 ->
  0 <= R <= 255 -> (R = 0 \/ pos - 1 + R <= len) -> (len <= pos - 1 + R \/ cnt <= R) -> R <= cnt ->
  (forall mk a y c z f v, 0 <= a < 256 -> 0 <= y < 256 -> bytes_in mk ->
     (forall b, ~ 1407 <= b <= 1407 + R -> mk b = m0 b) ->
     (forall j, 1 <= j <= R -> mk (1407 + j) = m0 (p + pos - 1 + j)) ->
     wp P (entry P "stridx.xit") (mkcpu a R y c z f v mk st r) Q) ->
  forall d k mk a c z f v, 0 <= k -> R = k + Z.of_nat d -> bytes_in mk ->
    (forall b, ~ 1407 <= b <= 1407 + k - 1 -> mk b = m0 b) ->
    (forall j, 1 <= j < k -> mk (1407 + j) = m0 (p + pos - 1 + j)) ->
    wp P (entry P "stridx.copy") (mkcpu a (b8 (k - 1)) (pos - 1 + k) c z f v mk st r) Q.
Proof.
  destruct OK as (Z1&Z2&_).
  intros W0 E1 E3 E4 BP AL BPOS BR R1 R2 R3 K. pose proof (W0 (tmp1 L)). pose proof (W0 (tmp1 L + 1)).
  unfold wordat in E1. assert (0 <= p < 65536) as BP0 by lia. assert (0 <= len < 256) as BLEN by (subst len; apply W0).
  clear H H0.
  induction d as [|d IH]; intros k mk a c z f v BK ER Wk Fk Jk;
    (assert (pos - 1 + k < 256) as BY by lia);
    (assert (forall t, zp L <= t < zp L + 6 -> mk t = m0 t) as FZ by (intros; apply Fk; lia));
    entry_tac; consts; step1;
    (replace (b8 (b8 (k - 1) + 1)) with k by (unfold b8; Z.div_mod_to_equations; lia)); step1;
    rewrite (FZ (tmp1 L)), (FZ (tmp1 L + 1)), E1 by lia; set (ch := mk (b16 (p + (pos - 1 + k)))); step1; change (1408 - 1) with 1407;
    rewrite (b16_small (1407 + k)) by lia; step1; rewrite (upd_ne mk (1407 + k) ch (tmp3 L)), (FZ (tmp3 L)), E3 by lia;
    (assert (bytes_in (upd mk (1407 + k) ch)) as Wk1 by (apply bytes_upd; auto; apply Wk));
    (assert (forall b, ~ 1407 <= b <= 1407 + k -> upd mk (1407 + k) ch b = m0 b) as Fk1 by (intros b NB; rewrite upd_ne by lia; apply Fk; lia));
    (assert (forall j, 1 <= j <= k -> upd mk (1407 + k) ch (1407 + j) = m0 (p + pos - 1 + j)) as Jk1
      by (intros j Hj; destruct (Z.eq_dec j k) as [->|NE]; [rewrite upd_eq by lia; unfold ch; rewrite b16_small by lia; rewrite Fk by lia; f_equal; lia|rewrite upd_ne by lia; apply Jk; lia]));
    clear FZ; set (mk1 := upd mk (1407 + k) ch) in *;
    (assert (mk1 (tmp3 L + 1) = cnt) as E5 by (rewrite Fk1 by lia; exact E4)); clearbody mk1.
  - assert (k = R) as -> by lia. step1; zb.
    + at_label "stridx.xit". apply K; auto; [apply Wk|lia].
    + step1. step1. rewrite E5. step1; zb; [lia|].
      step1. at_label "stridx.xit". apply K; auto; [apply Wk|apply b8_range].
  - assert (pos - 1 + k < len /\ k < cnt) as (LT1 & LT2) by lia.
    step1; zb; [lia|]. step1. step1. rewrite E5. step1; zb; [|lia].
    at_label "stridx.copy". rewrite (b8_small (pos - 1 + k + 1)) by lia. replace (pos - 1 + k + 1) with (pos - 1 + (k + 1)) by lia.
    set (yn := pos - 1 + (k + 1)).
    replace k with (b8 (k + 1 - 1)) by (replace (k + 1 - 1) with k by lia; apply b8_small; lia). subst yn.
    apply IH; auto; try lia.
    + intros b NB. apply Fk1. lia.
    + intros j Hj. apply Jk1; lia.
Qed.

Theorem str_idx_ok s : ready s -> M s sptr < 254 ->
  apart_from (M s) (below s) (scratch L) -> (1407 <= below s \/ below s + M s (below s) < 1407) ->
  exists s', calls P "EXE_STR_IDX" s "next_instruction" s' /\
    AX s' = 1407 /\ wf s' /\ M s' sptr = M s sptr + 2 /\
    str_at (M s') 1407 = part (str_at (M s) (below s)) (top s) (signed (AX s)) /\
    (forall b, b <> sptr -> ~ scratch L b -> ~ 1407 <= b <= 1407 + M s' 1407 -> M s' b = M s b) /\
    S s' = S s /\ rnd s' = rnd s.
Proof.
  intros R B (P0 & P1 & P2) AL. unfold below in *. set (cnt := signed (AX s)).
  set (res := part _ _ _). pose proof (part_len (str_at (M s) (M s (stack_l + M s sptr + 1) + 256 * M s (stack_h + M s sptr + 1))) (top s) cnt) as RL.
  fold res in RL. rewrite str_len in RL.
  pose proof (fun i => part_nth (str_at (M s) (M s (stack_l + M s sptr + 1) + 256 * M s (stack_h + M s sptr + 1))) (top s) cnt i) as RN. fold res in RN.
  start OK s R. consts. pose proof (WM 142).
  pose proof (WM (1152 + m 142 + 1)). pose proof (WM (1192 + m 142 + 1)).
  set (p := m (1152 + m 142 + 1) + 256 * m (1192 + m 142 + 1)) in *.
  set (pos := m (1152 + m 142) + 256 * m (1192 + m 142)) in *. pose proof (WM p). rewrite Z2Nat.id in RL by lia.
  set (Q := fun (x0 : string) (s' : cpu) => _).
  assert (forall mk a y c z f v, 0 <= a < 256 -> 0 <= y < 256 -> bytes_in mk ->
     let R := Z.of_nat (List.length res) in
     (forall b, ~ 1407 <= b <= 1407 + R -> ~ scratch L b -> mk b = m b) ->
     (forall j, (j < List.length res)%nat -> mk (1407 + 1 + Z.of_nat j) = nth j res 0) ->
     wp P (entry P "stridx.xit") (mkcpu a R y c z f v mk st r) Q) as XIT.
  { intros mk a' y' c' z' f' v' BA BY Wk RR Fk Jk. unfold RR in *. clear RR. entry_tac. consts. do 4 step1. change (1408 - 1) with 1407. norm.
    assert (List.length res <= 255)%nat as LR by (destruct (pos <=? 0) eqn:?; zb; lia).
    step1. consts. assert (mk 142 = m 142) as E142 by (apply Fk; unfold scratch; lia).
    norm. rewrite E142, (b8_small (m 142 + 1)) by lia.
    apply incsp; cbn [A X Y M S rnd]; consts.
    { apply wf_intro; [change (1407 mod 256) with 127; lia|change (1407 / 256) with 5; lia|lia|bytes_tac]. }
    { norm. lia. }
    intros z1 n1. unfold Q, AX. cbn [A X Y M S rnd]. norm. split; [reflexivity|]. split; [reflexivity|].
    split; [apply wf_intro; [change (1407 mod 256) with 127; lia|change (1407 / 256) with 5; lia|lia|bytes_tac]|].
    split; [lia|]. split.
    - apply str_is; [norm; lia|]. intros i I. norm. apply Jk. lia.
    - split; [|auto]. intros b N1 N2 N3. norm. apply Fk; auto. }
  assert (forall x' y' c' z' f' v' a' mk, 0 <= a' < 256 -> 0 <= y' < 256 -> res = [] -> bytes_in mk -> (forall b, ~ scratch L b -> mk b = m b) -> 
    wp P (entry P "stridx.zero") (mkcpu a' x' y' c' z' f' v' mk st r) Q) as ZERO.
  { intros x' y' c' z' f' v' a' mk BA BY E0 Wk Fk. entry_tac. do 2 step1; [|discriminate]. at_label "stridx.xit".
    specialize (XIT mk a' y' c' (0 =? 0) (128 <=? 0) v' BA BY Wk). rewrite E0 in XIT. apply XIT; [intros b _ NB; apply Fk; exact NB|cbn; intros; lia]. }
  assert (signed (a + 256 * x) = if 128 <=? x then a + 256 * x - 65536 else a + 256 * x) as CE
    by (unfold signed; destruct (128 <=? x) eqn:?, (a + 256 * x <? 32768) eqn:?; zb; lia).
  assert (RZ : (pos <= 0 \/ cnt <= 0 \/ m p < pos) -> res = []).
  { intros D. destruct res; [reflexivity|]. cbn [List.length] in RL. destruct (pos <=? 0) eqn:?; zb; lia. }
  assert (forall x' c' z' f' v' a', 0 <= a' < 256 -> (a' = cnt \/ a' = 255 /\ 256 <= cnt) ->
    wp P (entry P "stridx.ok1") (mkcpu a' x' (m 142) c' z' f' v' m st r) Q) as MAIN.
  { intros x' c' z' f' v' a' BA' EA. entry_tac. consts. step1. step1. norm.
    step1; zb.
    { at_label "stridx.zero". apply ZERO; auto; [apply RZ; unfold pos; lia|bytes_tac|].
      intros b NB. apply upd_ne. unfold scratch in NB. lia. }
    do 8 (step1; norm). set (m3 := upd _ (tmp1 L + 1) _).
    assert (tmp1 L + 1 < 256) as BT by lia.
    assert (wordat m3 (tmp1 L) = p) as E3 by (unfold wordat, m3, p; norm; replace (1152 + 1 + m 142) with (1152 + m 142 + 1) by lia; replace (1192 + 1 + m 142) with (1192 + m 142 + 1) by lia; reflexivity).
    assert (bytes_in m3) as W3 by (unfold m3; bytes_tac).
    assert (forall b, ~ scratch L b -> m3 b = m b) as F3 by (intros b NB; unfold m3, scratch in *; norm; reflexivity).
    assert (m3 (tmp3 L + 1) = a') as C3 by (unfold m3; norm; reflexivity).
    clearbody m3.
    step1. replace (b8 (tmp1 L + 1 + 255)) with (tmp1 L) by (unfold b8; Z.div_mod_to_equations; lia).
    replace (b8 (tmp1 L + 1 + 255 + 1)) with (tmp1 L + 1) by (unfold b8; Z.div_mod_to_equations; lia).
    change (m3 (tmp1 L) + 256 * m3 (tmp1 L + 1)) with (wordat m3 (tmp1 L)). rewrite E3.
    assert (m3 p = m p) as LP by (apply F3; rewrite <- (Z.add_0_r p); apply P2; lia). rewrite LP. step1.
    set (m4 := upd m3 (tmp3 L) (m p)).
    assert (bytes_in m4) as W4 by (unfold m4; bytes_tac).
    assert (forall b, ~ scratch L b -> m4 b = m b) as F4 by (intros b NB; unfold m4; rewrite upd_ne by (unfold scratch in NB; lia); auto).
    assert (wordat m4 (tmp1 L) = p) as E4 by (unfold m4, wordat in *; norm; exact E3).
    assert (m4 (tmp3 L) = m p) as G4 by (unfold m4; norm; reflexivity).
    assert (m4 (tmp3 L + 1) = a') as C4 by (unfold m4; norm; exact C3).
    clearbody m4. clear m3 E3 W3 F3 C3 LP. step1.
    destruct (Z.eq_dec pos 0) as [P00|P01].
    - assert (m (1152 + m 142) = 0) as -> by lia. change (b8 (0 - 1)) with 255. step1. change (b8 (255 + 1)) with 0. step1. step1.
      change (b16 (1408 - 1 + 0)) with 1407. step1. rewrite (upd_ne m4 1407 _ (tmp3 L)), G4 by lia. step1; zb; [|lia]. at_label "stridx.xit". rewrite (RZ ltac:(lia)) in *.
      refine (XIT _ _ _ _ _ _ _ _ _ _ _ _); [apply W4|lia|apply bytes_upd; [apply W4|auto]| |cbn; intros; lia].
      cbn. intros b NB NS. norm. auto.
    - assert (1 <= pos < 256) as BPOS by (pose proof (WM (1152 + m 142)); lia).
      assert (m (1152 + m 142) = pos) as -> by lia. rewrite b8_small by lia.
      destruct (pos <=? 0) eqn:EP in RL; zb; [lia|]. set (R := Z.of_nat (List.length res)) in *.
      at_label "stridx.copy". replace 255 with (b8 (0 - 1)) by reflexivity. replace (pos - 1) with (pos - 1 + 0) at 1 by lia.
      apply (idx_loop Q st r m4 p (m p) a' pos R) with (d := Z.to_nat R); auto; try lia.
      intros mk a0 y0 c0 z0 f0 v0 BA0 BY0 Wk Fk Jk. apply XIT; auto.
      + intros b NB NS. rewrite Fk by exact NB. auto.
      + intros j Hj. rewrite RN by lia. rewrite str_nth by lia.
        replace (1407 + 1 + Z.of_nat j) with (1407 + (Z.of_nat j + 1)) by lia. rewrite Jk by lia.
        rewrite F4.
        * f_equal. lia.
        * replace (p + pos - 1 + (Z.of_nat j + 1)) with (p + (pos + Z.of_nat j)) by lia. apply P2. lia. }
  step1. rewrite Z.sub_0_r, b8_small by lia. step1; zb.
  { at_label "stridx.zero". apply ZERO; auto. apply RZ. right; left. unfold cnt. rewrite CE. destruct (128 <=? x) eqn:?; zb; lia. }
  step1; zb.
  { at_label "stridx.ok1". apply MAIN; [lia|]. left. unfold cnt. rewrite CE. destruct (128 <=? x) eqn:?; zb; lia. }
  step1. step1. at_label "stridx.ok1". apply MAIN; [lia|]. right. unfold cnt. rewrite CE. destruct (128 <=? x) eqn:?; zb; lia.
Qed.
End T.
