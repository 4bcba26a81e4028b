(* The actions at the ends of loops and conditions of the native compiler. *)
From Verif Require Export NativeBlock.

Section B.
Variable L : lay.
Variable nz : Z.
Hypothesis OK : native_ok L nz.
Variable fp : bool.
Notation P := (native fp L nz).
Notation ptr m j := (wordat m (nz + 6 + 2 * j)).
Notation sb := (same_but (zp L) nz).
Notation exits xs := (map (fun w : Z => (0, w)) xs).
Notation eb := (fun e : Z * Z => [fst e; snd e mod 256; snd e / 256]).
Notation elifs xs := (map (fun w : Z => (131, w)) xs).

Ltac to_code l :=
  match goal with |- wp ?P _ ?s ?Q =>
    let c := eval cbv [native app entry find_lb find_in rt c_interp c_move_loop c_negax c_addsub c_absneg c_bit
       c_logic c_sgn c_shift c_comp0 c_mul c_div c_for c_for_exit c_incdec c_stack c_peek
       c_const c_varaddr c_varstore c_varadd c_constpoke c_jump c_return c_cmpstr c_copystr c_stridx c_move c_nmove
       c_mset c_clearmem c_rand c_streol c_val c_rom c_alloc c_vars c_emit c_actions
       String.eqb Ascii.eqb Bool.eqb] in (entry P l) in
    change (wp P c s Q)
  end.
Ltac to_label l := lazymatch goal with |- wp ?p _ ?s ?Q => change (wp p (entry p l) s Q) end.
Ltac jsr l kk := match goal with |- wp _ (In (JSR _) :: ?c) _ _ => set (kk := c) end; eapply wp_jsr; [reflexivity|]; cpu_red; to_label l.

Lemma snoc_inj (es es1 : list (Z * Z)) t w t1 w1 : es ++ [(t, w)] = es1 ++ [(t1, w1)] -> es1 = es /\ t1 = t /\ w1 = w.
Proof. intro HE. apply app_inj_tail in HE as (-> & HE). injection HE as -> ->. auto. Qed.
Lemma slots_later m m' xs : slots nz m xs -> here nz m <= here nz m' -> slots nz m' xs.
Proof. intros (S1 & S2) H. split; [|exact S2]. eapply Forall_impl; [|exact S1]. cbn. intros a (A1 & A2). lia. Qed.

(* src/actions.asm:777-788: LOOP (t0 = 65) and UNTIL (t0 = 66) *)
Lemma back_ok k (Q : string -> cpu -> Prop) st r es xs t0 w x y c z f v m : bytes_in m -> 1664 <= pointer nz m 0 <= 65000 -> here nz m + 2 <= 65535 -> 0 <= t0 < 130 ->
  (forall es1 w, es <> es1 ++ [(0, w)]) -> blocks nz m ((es ++ exits xs) ++ [(t0, w)]) -> slots nz m xs ->
  (m (nz + 21) < 254 -> forall a' x' y' z' f' v' m', bytes_in m' -> blocks nz m' es -> wordat m' (here nz m) = (w + word_of m nz) mod 65536 -> m' (nz + 21) = m (nz + 21) + 2 -> here nz m' = here nz m + 2 ->
     Forall (fun w => wordat m' w = target nz m') xs -> sb (here nz m :: xs) m m' -> wp P k (mkcpu a' x' y' false z' f' v' m' st r) Q) ->
  (254 <= m (nz + 21) -> forall s', Y s' = 12 -> Q "parser_error" s') ->
  wp P (entry P "repeat.1") (mkcpu t0 x y c z f v m (CRet k :: st) r) Q.
Proof.
  pose proof OK as ((?&?&_) & ? & ? & _). intros WM BP BH BT TOP BL SL K E. to_code "repeat.1". jsr "pop_emit_addr" kk. pose proof (WM (nz + 21)) as BO. assert (LH : 1664 <= here nz m) by (unfold here; lia).
  apply pop_emit_ok with (es := (es ++ exits xs) ++ [(t0, w)]); auto; try lia.
  - intros es1 t w' HE PT LT a1 x1 y1 z1 f1 v1 m1 W1 BL1 EW O1 F1. apply snoc_inj in HE as (-> & -> & ->). unfold kk. clear kk. step1. to_label "check_loop_exit".
    assert (P1' : pointer nz m1 0 = pointer nz m 0) by (unfold pointer, word_of; rewrite !F1 by lia; reflexivity). assert (H1' : here nz m1 = here nz m + 2) by (unfold here; lia).
    assert (R1' : word_of m1 nz = word_of m nz) by (unfold word_of; rewrite !F1 by lia; reflexivity).
    assert (SL1 : slots nz m1 xs) by (eapply slots_later; [exact SL|lia]). pose proof SL as (SLA & _). rewrite Forall_forall in SLA.
    apply exits_ok with (es := es) (xs := xs); auto; [lia|].
    intros a2 x2 y2 z2 f2 v2 m2 W2 BL2 SB2 O2 F2 PA. assert (FX : Forall (fun a => 256 <= a) xs) by (apply Forall_forall; intros a HA; specialize (SLA a HA); lia).
    destruct (sb_here L nz OK m1 m2 xs SB2 FX O2) as (H2' & T2' & _). apply K; auto; try lia.
    + rewrite <- EW. unfold wordat. rewrite !SB2; auto; try lia; intros a HA; specialize (SLA a HA); lia.
    + rewrite T2'. exact PA.
    + intros b N1 N2 N3 N4 N5. destruct (N5 _ (or_introl eq_refl)). rewrite SB2, F1; auto. intros a HA. apply N5. now right.
  - intros NP. exfalso. apply (NP _ _ _ eq_refl). left. reflexivity.
Qed.
(* src/actions.asm:699-716: ENDPROC *)
Lemma proc2_ok k (Q : string -> cpu -> Prop) st r es xs w a x y c z f v m : bytes_in m -> here nz m <= 65535 ->
  (forall es1 w, es <> es1 ++ [(0, w)]) -> blocks nz m ((es ++ exits xs) ++ [(64, w)]) -> slots nz m xs ->
  (forall a' x' y' z' f' v' m', bytes_in m' -> blocks nz m' es -> m' (nz + 21) = m (nz + 21) -> here nz m' = here nz m ->
     Forall (fun w => wordat m' w = target nz m') xs -> sb xs m m' -> wp P k (mkcpu a' x' y' false z' f' v' m' st r) Q) ->
  wp P (entry P "E_POP_PROC_2") (mkcpu a x y c z f v m (CRet k :: st) r) Q.
Proof.
  pose proof OK as ((?&?&_) & ? & ? & _). intros WM BH TOP BL SL K. to_code "E_POP_PROC_2". step1. jsr "pop_codep" kk.
  apply pop_ok with (es := (es ++ exits xs) ++ [(64, w)]); auto; try lia.
  - intros es1 t w' HE PT z1 f1 m1 W1 BL1 F1. apply snoc_inj in HE as (-> & -> & ->). unfold kk. clear kk. step1. to_label "check_loop_exit".
    assert (P1' : pointer nz m1 0 = pointer nz m 0) by (unfold pointer, word_of; rewrite !F1 by lia; reflexivity). assert (H1' : here nz m1 = here nz m) by (unfold here; rewrite P1', F1 by lia; reflexivity).
    assert (SL1 : slots nz m1 xs) by (eapply slots_later; [exact SL|lia]). pose proof SL as (SLA & _). rewrite Forall_forall in SLA.
    apply exits_ok with (es := es) (xs := xs); auto; [lia|].
    intros a2 x2 y2 z2 f2 v2 m2 W2 BL2 SB2 O2 F2 PA. assert (FX : Forall (fun a => 256 <= a) xs) by (apply Forall_forall; intros a' HA; specialize (SLA a' HA); lia).
    destruct (sb_here L nz OK m1 m2 xs SB2 FX O2) as (H2' & T2' & _). apply K; auto; try lia.
    + rewrite O2. apply F1. lia.
    + rewrite T2'. exact PA.
    + intros b N1 N2 N3 N4 N5. rewrite SB2, F1; auto.
  - intros NP. exfalso. apply (NP _ _ _ eq_refl). left. reflexivity.
Qed.
(* src/actions.asm:821-845: END of data and of procedures (t0 = 1), and used by the others *)
Lemma pop_patch_ok k (Q : string -> cpu -> Prop) st r es t0 t w x y c z f v m : bytes_in m -> here nz m <= 65535 -> 0 <= t0 < 256 -> pops t0 t -> blocks nz m (es ++ [(t, w)]) -> 1664 <= w < 65535 ->
  (forall a' x' z' f' v' m', bytes_in m' -> blocks nz m' es -> wordat m' w = target nz m -> sb [w] m m' -> m' (nz + 21) = m (nz + 21) -> wp P k (mkcpu a' x' 1 false z' f' v' m' st r) Q) ->
  wp P (entry P "pop_patch_codep") (mkcpu t0 x y c z f v m (CRet k :: st) r) Q.
Proof.
  pose proof OK as ((?&?&_) & ? & ? & _). intros WM BH BT PT BL BW K. to_code "pop_patch_codep". jsr "pop_codep" kk.
  apply pop_ok with (es := es ++ [(t, w)]); auto; try lia.
  - intros es1 t' w' HE PT' z1 f1 m1 W1 BL1 F1. apply snoc_inj in HE as (-> & -> & ->). unfold kk. clear kk. step1. to_label "patch_codep".
    assert (P1' : pointer nz m1 0 = pointer nz m 0) by (unfold pointer, word_of; rewrite !F1 by lia; reflexivity). assert (H1' : here nz m1 = here nz m) by (unfold here; rewrite P1', F1 by lia; reflexivity).
    assert (T1' : target nz m1 = target nz m) by (unfold target, word_of; rewrite H1', !F1 by lia; reflexivity).
    apply patch_ok with (w := w); auto; try lia; try zm. intros a2 x2 z2 f2 v2 m2 BA2 BX2 W2 EW SB2 EO2 ES2 F2 _ _. apply K; auto.
    + eapply blocks_same; eauto.
    + congruence.
    + intros b N1 N2 N3 N4 N5. rewrite SB2, F1; auto.
    + rewrite EO2. apply F1. lia.
  - intros NP. exfalso. apply (NP _ _ _ eq_refl PT).
Qed.
(* src/actions.asm:761-775: WEND *)
Lemma while_ok k (Q : string -> cpu -> Prop) st r es xs w1 w2 a x y c z f v m : bytes_in m -> 1664 <= pointer nz m 0 <= 65000 -> here nz m + 2 <= 65535 ->
  (forall es1 w, es <> es1 ++ [(0, w)]) -> blocks nz m ((es ++ exits xs) ++ [(67, w1); (128, w2)]) -> slots nz m (xs ++ [w2]) ->
  (m (nz + 21) < 254 -> forall a' x' y' z' f' v' m', bytes_in m' -> blocks nz m' es -> wordat m' (here nz m) = (w1 + word_of m nz) mod 65536 -> m' (nz + 21) = m (nz + 21) + 2 -> here nz m' = here nz m + 2 ->
     Forall (fun w => wordat m' w = target nz m') (xs ++ [w2]) -> sb (here nz m :: xs ++ [w2]) m m' -> wp P k (mkcpu a' x' y' false z' f' v' m' st r) Q) ->
  (254 <= m (nz + 21) -> forall s', Y s' = 12 -> Q "parser_error" s') ->
  wp P (entry P "E_POP_WHILE") (mkcpu a x y c z f v m (CRet k :: st) r) Q.
Proof.
  pose proof OK as ((?&?&_) & ? & ? & _). intros WM BP BH TOP BL SL K E. pose proof (WM (nz + 21)) as BO. assert (LH : 1664 <= here nz m) by (unfold here; lia).
  to_code "E_POP_WHILE". step1. jsr "inc_opos_2" kk. apply inc2_ok; auto. intros LT z1 f1 m1 W1 O1 F1. unfold kk. clear kk.
  assert (P1' : pointer nz m1 0 = pointer nz m 0) by (unfold pointer, word_of; rewrite !F1 by lia; reflexivity). assert (H1' : here nz m1 = here nz m + 2) by (unfold here; lia).
  pose proof SL as (SLA & SLB). apply fop_snoc in SLB as (SLB & APW). apply Forall_app in SLA as (SLA & SLW). inversion SLW as [|? ? (LW1 & LW2) _].
  assert (BL1 : blocks nz m1 (((es ++ exits xs) ++ [(67, w1)]) ++ [(128, w2)])) by (rewrite <- (app_assoc _ [_]); eapply blocks_same; [exact BL| |]; intros; apply F1; lia).
  jsr "pop_patch_codep" kk. eapply pop_patch_ok with (es := (es ++ exits xs) ++ [(67, w1)]) (t := 128) (w := w2); auto; try lia; try (left; reflexivity).
  intros a2 x2 z2 f2 v2 m2 W2 BL2 EW2 SB2 O2. unfold kk. clear kk.
  destruct (sb_here L nz OK m1 m2 [w2] SB2 ltac:(constructor; [lia|constructor]) O2) as (H2' & T2' & P2').
  step1. ncells. step1. step1. norm. rewrite !(b8_small (_ - 1)) by (rewrite ?b8_small; lia). 
  set (m3 := upd _ (nz + 21) (m2 (nz + 21) - 1 - 1)). assert (W3 : bytes_in m3) by (unfold m3; bytes_tac).
  assert (O3 : m3 (nz + 21) = m (nz + 21)) by (unfold m3; norm; lia). assert (F3 : forall b, b <> nz + 21 -> m3 b = m2 b) by (intros b NB; unfold m3; norm; reflexivity). clearbody m3.
  assert (P3' : pointer nz m3 0 = pointer nz m 0) by (rewrite <- P1', <- P2'; unfold pointer, word_of; rewrite !F3 by lia; reflexivity). assert (H3' : here nz m3 = here nz m) by (unfold here; lia).
  assert (BL3 : blocks nz m3 ((es ++ exits xs) ++ [(67, w1)])) by (eapply blocks_same; [exact BL2| |]; intros; apply F3; lia).
  assert (G : forall b, nz <= b < nz + 2 -> m3 b = m b) by (intros b HB; rewrite F3, SB2, F1 by (try lia; intros a' [<-|[]]; lia); reflexivity).
  assert (R3' : word_of m3 nz = word_of m nz) by (unfold word_of; rewrite !G by lia; reflexivity).
  assert (SL3 : slots nz m3 xs) by (split; [rewrite H3'; exact SLA|exact SLB]).
  jsr "pop_emit_addr" kk. apply pop_emit_ok with (es := (es ++ exits xs) ++ [(67, w1)]); auto; try lia.
  - intros es1 t w' HE PT LT3 a4 x4 y4 z4 f4 v4 m4 W4 BL4 EW O4 F4. apply snoc_inj in HE as (-> & -> & ->). unfold kk. clear kk. step1. to_label "check_loop_exit". rewrite H3' in *.
    assert (P4' : pointer nz m4 0 = pointer nz m 0) by (rewrite <- P3'; unfold pointer, word_of; rewrite !F4 by lia; reflexivity). assert (H4' : here nz m4 = here nz m + 2) by (unfold here; lia).
    assert (R4' : word_of m4 nz = word_of m nz) by (rewrite <- R3'; unfold word_of; rewrite !F4 by lia; reflexivity).
    assert (SL4 : slots nz m4 xs) by (eapply slots_later; [exact SL3|lia]). rewrite Forall_forall in SLA, APW.
    apply exits_ok with (es := es) (xs := xs); auto; [lia|].
    intros a5 x5 y5 z5 f5 v5 m5 W5 BL5 SB5 O5 F5 PA. assert (FX : Forall (fun a => 256 <= a) xs) by (apply Forall_forall; intros a' HA; specialize (SLA a' HA); lia).
    destruct (sb_here L nz OK m4 m5 xs SB5 FX O5) as (H5' & T5' & _).
    assert (R1' : word_of m1 nz = word_of m nz) by (unfold word_of; rewrite !F1 by lia; reflexivity).
    assert (TT : target nz m1 = target nz m4) by (unfold target; rewrite H1', H4', R1', R4'; reflexivity).
    apply K; auto; try lia.
    + rewrite <- R3', <- EW. unfold wordat. rewrite !SB5; auto; try lia; intros a' HA; specialize (SLA a' HA); lia.
    + rewrite T5'. apply Forall_app. split; [exact PA|]. constructor; [|constructor]. rewrite <- TT, <- EW2. unfold wordat.
      rewrite (SB5 w2), (SB5 (w2 + 1)), (F4 w2), (F4 (w2 + 1)), (F3 w2), (F3 (w2 + 1)) by (try lia; intros a' HA; specialize (APW a' HA); cbv beta in APW; lia). reflexivity.
    + intros b N1 N2 N3 N4 N5. destruct (N5 _ (or_introl eq_refl)). assert (N6 : forall a', List.In a' xs -> b <> a' /\ b <> a' + 1) by (intros a' HA; apply N5; right; apply in_or_app; now left).
      assert (N7 : b <> w2 /\ b <> w2 + 1) by (apply N5; right; apply in_or_app; right; now left). rewrite SB5, F4, F3, SB2, F1; auto; try lia. intros a' [<-|[]]. exact N7.
  - intros NP. exfalso. apply (NP _ _ _ eq_refl). left. reflexivity.
Qed.
(* src/actions.asm:790-803: NEXT *)
Lemma for_ok k (Q : string -> cpu -> Prop) st r es xs w1 w2 a x y c z f v m : bytes_in m -> 1664 <= pointer nz m 0 <= 65000 -> here nz m + 1 <= 65535 -> 0 < m (nz + 21) ->
  (forall es1 w, es <> es1 ++ [(0, w)]) -> blocks nz m ((es ++ exits xs) ++ [(2, w2); (192, w1)]) -> slots nz m (xs ++ [w2]) -> Forall (fun w => w + 3 <= here nz m) (xs ++ [w2]) ->
  (m (nz + 21) < 255 -> forall a' x' y' z' f' v' m', bytes_in m' -> blocks nz m' es -> wordat m' (here nz m - 1) = (w1 + word_of m nz) mod 65536 -> m' (nz + 21) = m (nz + 21) + 1 -> here nz m' = here nz m + 1 ->
     Forall (fun w => wordat m' w = target nz m') (xs ++ [w2]) -> sb (here nz m - 1 :: xs ++ [w2]) m m' -> wp P k (mkcpu a' x' y' false z' f' v' m' st r) Q) ->
  (m (nz + 21) = 255 -> forall s', Y s' = 12 -> Q "parser_error" s') ->
  wp P (entry P "E_POP_FOR") (mkcpu a x y c z f v m (CRet k :: st) r) Q.
Proof.
  pose proof OK as ((?&?&_) & ? & ? & _). intros WM BP BH PO TOP BL SL SH K E. pose proof (WM (nz + 21)) as BO. assert (LH : 1664 < here nz m) by (unfold here; lia).
  to_code "E_POP_FOR". ncells. step1. rewrite b8_small by lia. step1.
  set (m1 := upd m (nz + 21) (m (nz + 21) - 1)). assert (W1 : bytes_in m1) by (unfold m1; bytes_tac).
  assert (O1 : m1 (nz + 21) = m (nz + 21) - 1) by (unfold m1; norm; lia). assert (F1 : forall b, b <> nz + 21 -> m1 b = m b) by (intros b NB; unfold m1; norm; reflexivity). clearbody m1.
  assert (P1' : pointer nz m1 0 = pointer nz m 0) by (unfold pointer, word_of; rewrite !F1 by lia; reflexivity). assert (H1' : here nz m1 = here nz m - 1) by (unfold here; lia).
  assert (R1' : word_of m1 nz = word_of m nz) by (unfold word_of; rewrite !F1 by lia; reflexivity).
  assert (BL1 : blocks nz m1 (((es ++ exits xs) ++ [(2, w2)]) ++ [(192, w1)])) by (rewrite <- (app_assoc _ [_]); eapply blocks_same; [exact BL| |]; intros; apply F1; lia).
  pose proof SL as (SLA & SLB). apply fop_snoc in SLB as (SLB & APW). apply Forall_app in SLA as (SLA & SLW). inversion SLW as [|? ? (LW1 & LW2) _]. apply Forall_app in SH as (SHA & SHW). inversion SHW as [|? ? LW3 _].
  jsr "pop_emit_addr" kk. apply pop_emit_ok with (es := ((es ++ exits xs) ++ [(2, w2)]) ++ [(192, w1)]); auto; try lia.
  2:{ intros es1 t w' HE PT GE. apply E. lia. }
  2:{ intros NP. exfalso. apply (NP _ _ _ eq_refl). left. reflexivity. }
  intros es1 t w' HE PT LT3 a4 x4 y4 z4 f4 v4 m4 W4 BL4 EW O4 F4. apply snoc_inj in HE as (-> & -> & ->). unfold kk. clear kk. rewrite H1' in *.
  assert (P4' : pointer nz m4 0 = pointer nz m 0) by (rewrite <- P1'; unfold pointer, word_of; rewrite !F4 by lia; reflexivity). assert (H4' : here nz m4 = here nz m + 1) by (unfold here; lia).
  assert (R4' : word_of m4 nz = word_of m nz) by (rewrite <- R1'; unfold word_of; rewrite !F4 by lia; reflexivity).
  step1. jsr "pop_patch_codep" kk. eapply pop_patch_ok with (es := es ++ exits xs) (t := 2) (w := w2); auto; try lia; try (left; reflexivity).
  intros a2 x2 z2 f2 v2 m2 W2 BL2 EW2 SB2 O2. unfold kk. clear kk.
  destruct (sb_here L nz OK m4 m2 [w2] SB2 ltac:(constructor; [lia|constructor]) O2) as (H2' & T2' & P2').
  assert (SL2 : slots nz m2 xs) by (split; [|exact SLB]; rewrite Forall_forall in SLA |- *; intros a' HA; specialize (SLA a' HA); lia).
  step1. to_label "check_loop_exit". rewrite Forall_forall in SLA, APW, SHA. apply exits_ok with (es := es) (xs := xs); auto; [lia|].
  intros a5 x5 y5 z5 f5 v5 m5 W5 BL5 SB5 O5 F5 PA. assert (FX : Forall (fun a => 256 <= a) xs) by (apply Forall_forall; intros a' HA; specialize (SLA a' HA); lia).
  destruct (sb_here L nz OK m2 m5 xs SB5 FX O5) as (H5' & T5' & _).
  apply K; auto; try lia.
  - rewrite <- R1', <- EW. unfold wordat. rewrite (SB5 (here nz m - 1)), (SB5 (here nz m - 1 + 1)), (SB2 (here nz m - 1)), (SB2 (here nz m - 1 + 1)); auto; try lia; intros a' HA; try (specialize (SHA a' HA); lia); destruct HA as [<-|[]]; lia.
  - rewrite T5'. apply Forall_app. split; [exact PA|]. constructor; [|constructor]. rewrite T2', <- EW2. unfold wordat.
    rewrite (SB5 w2), (SB5 (w2 + 1)) by (try lia; intros a' HA; specialize (APW a' HA); cbv beta in APW; lia). reflexivity.
  - intros b N1 N2 N3 N4 N5. destruct (N5 _ (or_introl eq_refl)). assert (N6 : forall a', List.In a' xs -> b <> a' /\ b <> a' + 1) by (intros a' HA; apply N5; right; apply in_or_app; now left).
    assert (N7 : b <> w2 /\ b <> w2 + 1) by (apply N5; right; apply in_or_app; right; now left). rewrite SB5, SB2, F4, F1; auto; try lia. intros a' [<-|[]]. exact N7.
Qed.
(* src/actions.asm:805-819: ENDIF *)
Lemma elifs_ok k (Q : string -> cpu -> Prop) st r es : (forall es1 w, es <> es1 ++ [(131, w)]) -> forall xs t0 t w x y c z f v m, bytes_in m -> here nz m <= 65535 -> 0 <= t0 < 256 -> pops t0 t -> blocks nz m ((es ++ elifs xs) ++ [(t, w)]) -> slots nz m (xs ++ [w]) ->
  (forall a' x' y' z' f' v' m', bytes_in m' -> blocks nz m' es -> sb (xs ++ [w]) m m' -> m' (nz + 21) = m (nz + 21) -> Forall (fun w => wordat m' w = target nz m) (xs ++ [w]) ->
     wp P k (mkcpu a' x' y' false z' f' v' m' st r) Q) ->
  wp P (entry P "if.check_elif") (mkcpu t0 x y c z f v m (CRet k :: st) r) Q.
Proof.
  pose proof OK as ((?&?&_) & ? & ? & _). intros TOP. induction xs as [|w' xs IH] using rev_ind; intros t0 t w x y c z f v m WM HB BT PT BL SL K;
    pose proof SL as (SLA & SLB); apply fop_snoc in SLB as (SLB & APW); apply Forall_app in SLA as (SLA & SLW); inversion SLW as [|? ? (LW1 & LW2) _]; subst;
    to_code "if.check_elif"; jsr "pop_patch_codep" kk.
  - cbn [map] in BL. rewrite app_nil_r in BL. eapply pop_patch_ok with (es := es) (t := t) (w := w); auto; try lia. intros a2 x2 z2 f2 v2 m2 W2 BL2 EW2 SB2 O2. unfold kk. clear kk.
    assert (FIN : forall a' x' y' c' z' f' v', wp P (entry P "if.no_elif") (mkcpu a' x' y' c' z' f' v' m2 (CRet k :: st) r) Q).
    { intros. to_code "if.no_elif". step1. step1. apply K; auto. constructor; [exact EW2|constructor]. }
    ncells. step1. destruct es as [|e0 es0 _] using rev_ind.
    + destruct BL2 as (B1 & _). change (3 * Z.of_nat (List.length (@nil (Z * Z)))) with 0 in B1. rewrite B1. step1; zb; [|lia]. to_label "if.no_elif". apply FIN.
    + destruct e0 as [t1 w1]. pose proof (blocks_top nz _ _ _ _ BL2) as (E0 & BN & E1 & E2 & E3 & BT' & BW & _). set (n := 3 * Z.of_nat (List.length es0)) in *. rewrite E0. step1; zb; [unfold n in *; lia|].
      step1. unfold loop_stk. step1. norm. replace (1024 - 3 + (n + 3)) with (1024 + n) by lia. rewrite E1. step1; zb; [exfalso; assert (T1 : t1 = 131) by (unfold b8 in *; zm); apply (TOP es0 w1); rewrite T1; reflexivity|]. step1. to_label "if.no_elif". apply FIN.
  - rewrite map_app in BL. cbn [map] in BL. rewrite app_assoc in BL. eapply pop_patch_ok with (es := (es ++ elifs xs) ++ [(131, w')]) (t := t) (w := w); auto; try lia. intros a2 x2 z2 f2 v2 m2 W2 BL2 EW2 SB2 O2. unfold kk. clear kk.
    pose proof (blocks_top nz _ _ _ _ BL2) as (E0 & BN & E1 & E2 & E3 & BT' & BW & _). set (n := 3 * Z.of_nat (List.length (es ++ elifs xs))) in *.
    destruct (sb_here L nz OK m m2 [w] SB2 ltac:(constructor; [lia|constructor]) O2) as (H2' & T2' & P2').
    ncells. step1. rewrite E0. step1; zb; [unfold n in *; lia|]. step1. unfold loop_stk. step1. norm. replace (1024 - 3 + (n + 3)) with (1024 + n) by lia. rewrite E1. step1; zb; [|unfold b8 in *; zm].
    to_label "if.check_elif". eapply IH with (w := w') (t := 131); auto; try lia; [left; reflexivity|split; [rewrite H2'; exact SLA|exact SLB]|].
    intros a5 x5 y5 z5 f5 v5 m5 W5 BL5 SB5 O5 PA. rewrite T2' in PA. apply K; auto; try lia.
    + intros b N1 N2 N3 N4 N5. rewrite SB5, SB2; auto; [|intros a' HA; apply N5; apply in_or_app; now left]. intros a' HA. apply N5. apply in_or_app. now right.
    + apply Forall_app. split; [exact PA|]. constructor; [|constructor]. rewrite <- EW2. unfold wordat. rewrite Forall_forall in APW. 
      rewrite (SB5 w), (SB5 (w + 1)) by (try lia; intros a' HA; specialize (APW a' HA); cbv beta in APW; lia). reflexivity.
Qed.

(* src/actions.asm:640-666 *)
Lemma push_lt_ok k (Q : string -> cpu -> Prop) st r es a x y c z f v m : bytes_in m -> here nz m <= 65535 -> blocks nz m es -> 1664 <= pointer nz m 0 <= 65000 -> 0 < m (nz + 21) ->
  let t := m (here nz m - 1) in
  ((List.length es < 42)%nat -> m (nz + 21) - 1 + space t <= 255 -> forall a' x' y' z' f' v' m', bytes_in m' -> m' (nz + 21) = m (nz + 21) - 1 + space t -> blocks nz m' (es ++ [(t, here nz m - 1)]) -> sb [] m m' ->
     (forall b, tmp1 L <= b < tmp1 L + 10 -> m' b = m b) -> wp P k (mkcpu a' x' y' false z' f' v' m' st r) Q) ->
  ((List.length es < 42)%nat -> 255 < m (nz + 21) - 1 + space t -> forall s', Y s' = 12 -> Q "parser_error" s') ->
  (List.length es = 42%nat -> forall s', Y s' = 20 -> Q "parser_error" s') ->
  wp P (entry P "E_PUSH_LT") (mkcpu a x y c z f v m (CRet k :: st) r) Q.
Proof.
  pose proof OK as ((?&?&_) & ? & ? & _). intros WM HB BL BP OP t K E1 E2. pose proof (WM (nz + 21)) as BO. pose proof (WM (here nz m - 1)) as BT.
  to_code "E_PUSH_LT". jsr "get_last_tok" kk. assert (PP : wordat m (nz + 6 + 2 * 0) = pointer nz m 0) by reflexivity.
  apply last_tok_ok; auto; [rewrite PP; lia|]. intros y' BY'. rewrite PP. unfold opos. ncells. change (pointer nz m 0 + m (nz + 21) - 1) with (here nz m - 1). unfold kk. clear kk. step1. to_label "push_codep".
  set (m1 := upd m (nz + 21) (m (nz + 21) - 1)). assert (W1 : bytes_in m1) by (unfold m1; bytes_tac).
  assert (O1 : m1 (nz + 21) = m (nz + 21) - 1) by (unfold m1; norm; lia). assert (F1 : forall b, b <> nz + 21 -> m1 b = m b) by (intros b NB; unfold m1; norm; reflexivity). clearbody m1.
  assert (P1' : pointer nz m1 0 = pointer nz m 0) by (unfold pointer, word_of; rewrite !F1 by lia; reflexivity). assert (H1' : here nz m1 = here nz m - 1) by (unfold here; lia). fold t.
  apply push_ok with (es := es); auto; try lia.
  - eapply blocks_same; [exact BL| |]; intros; apply F1; lia.
  - rewrite O1, H1'. intros LE OP' a' x' y1 z' f' v' m' W' O' BL' SB' T'. apply K; auto; [intros b N1 N2 N3 N4 N5; rewrite SB', F1; auto|intros b HB'; rewrite T', F1; auto; lia].
  - rewrite O1. exact E1.
Qed.
(* src/actions.asm:847-858: ELSE and ELIF *)
Lemma elseif_ok k (Q : string -> cpu -> Prop) st r es w a x y c z f v m : bytes_in m -> here nz m + 2 <= 65535 -> blocks nz m (es ++ [(129, w)]) -> 1664 <= pointer nz m 0 <= 65000 -> 0 < m (nz + 21) -> 1664 <= w -> w + 2 <= here nz m ->
  let t := m (here nz m - 1) in
  (m (nz + 21) - 1 + space t <= 255 -> forall a' x' y' z' f' v' m', bytes_in m' -> m' (nz + 21) = m (nz + 21) - 1 + space t -> blocks nz m' (es ++ [(t, here nz m - 1)]) -> sb [w] m m' -> wordat m' w = target nz m' ->
     wp P k (mkcpu a' x' y' false z' f' v' m' st r) Q) ->
  (255 < m (nz + 21) - 1 + space t -> forall s', Y s' = 12 -> Q "parser_error" s') ->
  wp P (entry P "E_ELSEIF") (mkcpu a x y c z f v m (CRet k :: st) r) Q.
Proof.
  pose proof OK as ((?&?&_) & ? & ? & _). intros WM HB BL BP OP BW1 BW2 t K E1. pose proof (WM (nz + 21)) as BO.
  to_code "E_ELSEIF". step1. jsr "pop_codep" kk. apply pop_ok with (es := es ++ [(129, w)]); auto; try lia.
  2:{ intros NP. exfalso. apply (NP _ _ _ eq_refl). left. reflexivity. }
  intros es1 t' w' HE PT z1 f1 m1 W1 BL1 F1. apply snoc_inj in HE as (-> & -> & ->). unfold kk. clear kk. step1. step1.
  set (m2 := upd m1 (tmp1 L + 1) (w / 256)). assert (W2 : bytes_in m2) by (unfold m2; bytes_tac; zm).
  assert (X2 : m2 (tmp1 L + 1) = w / 256) by (unfold m2; norm; reflexivity). assert (F2 : forall b, b <> tmp1 L + 1 -> m2 b = m1 b) by (intros b NB; unfold m2; norm; reflexivity). clearbody m2.
  assert (P2' : pointer nz m2 0 = pointer nz m 0) by (unfold pointer, word_of; rewrite !F2, !F1 by (lia); reflexivity). assert (O2 : m2 (nz + 21) = m (nz + 21)) by (rewrite F2, F1; lia).
  assert (H2' : here nz m2 = here nz m) by (unfold here; lia). assert (T2' : m2 (here nz m2 - 1) = t) by (rewrite H2', F2, F1; unfold t, here in *; try reflexivity; lia).
  assert (BL2 : blocks nz m2 es) by (eapply blocks_same; [exact BL1| |]; intros; apply F2; lia).
  jsr "E_PUSH_LT" kk. apply push_lt_ok with (es := es); auto; rewrite ?T2', ?O2, ?H2'; try lia.
  - intros LE OP' a3 x3 y3 z3 f3 v3 m3 W3 O3 BL3 SB3 T3. unfold kk. clear kk. step1. step1. rewrite T3, X2 by lia. 
    destruct (sb_here L nz OK m2 (upd m3 (nz + 21) (m (nz + 21))) [] ltac:(intros b N1 N2 N3 N4 N5; norm; apply SB3; auto) (Forall_nil _) ltac:(norm; lia)) as (_ & _ & P3').
    assert (P3 : pointer nz m3 0 = pointer nz m 0) by (rewrite <- P2', <- P3'; unfold pointer, word_of; norm; reflexivity). assert (H3' : here nz m3 = here nz m - 1 + space t) by (unfold here; lia).
    assert (SS : 0 <= space t <= 2) by (unfold space; destruct (Z.testbit t 6); lia).
    step1; zb; [|zm]. to_label "patch_codep". apply patch_ok with (w := w); auto; try lia; try zm. intros a5 x5 z5 f5 v5 m5 BA5 BX5 W5 EW SB5 EO5 ES5 F5 _ _.
    destruct (sb_here L nz OK m3 m5 [w] SB5 ltac:(constructor; [lia|constructor]) EO5) as (H5' & T5' & _). apply K; auto; try lia.
    + eapply blocks_same; eauto.
    + intros b N1 N2 N3 N4 N5. rewrite SB5, SB3, F2, F1; auto; try lia.
  - intros _. exact E1.
  - intros LE. exfalso. pose proof (proj1 (proj2 BL)) as LL. rewrite app_length in LL. cbn in LL. lia.
Qed.

(* src/actions.asm:718-731: looks for the innermost loop *)
Notation leaves := innermost.
Lemma retry_ok k (Q : string -> cpu -> Prop) st r es m : bytes_in m -> blocks nz m es ->
  (forall es1 t w es2 z' f' v', leaves es es1 t w es2 -> wp P (In (STY (Mem (laddr_search_num nz))) :: match entry P "exit.retry" with _ :: _ :: _ :: _ :: _ :: _ :: _ :: _ :: _ :: c => c | _ => [] end)
      (mkcpu (3 * Z.of_nat (List.length es)) t (3 * Z.of_nat (List.length es1)) true z' f' v' m (CRet k :: st) r) Q) ->
  ((forall es1 t w es2, ~ leaves es es1 t w es2) -> forall s', Y s' = 20 -> M s' = m -> Q "parser_error" s') ->
  forall p q, es = p ++ q -> Forall (fun e => 128 <= fst e) q -> forall x c z f v,
  wp P (entry P "exit.retry") (mkcpu (3 * Z.of_nat (List.length es)) x (3 * Z.of_nat (List.length p)) c z f v m (CRet k :: st) r) Q.
Proof.
  pose proof OK as ((?&?&_) & ? & ? & _). intros WM BL K E.
  assert (ERR : forall a' x' y' c' z' f' v', (forall es1 t w es2, ~ leaves es es1 t w es2) -> wp P (entry P "loop_error") (mkcpu a' x' y' c' z' f' v' m (CRet k :: st) r) Q) by (intros; to_code "loop_error"; step1; step1; apply E; auto).
  pose proof (proj1 (proj2 BL)) as LL. 
  induction p as [|[t w] p IH] using rev_ind; intros q HE FQ x c z f v; to_code "exit.retry".
  - cbn [List.length]. change (3 * Z.of_nat 0) with 0. do 3 step1. change (b8 (b8 (b8 (0 - 1) - 1) - 1)) with 253. step1; zb; [|lia]. to_label "loop_error". apply ERR. intros es1 t w es2 (HL & BT & _). cbn [app] in HE. subst q. rewrite HL in FQ.
    apply Forall_app in FQ as (_ & FQ). inversion FQ. cbn [fst] in *. lia.
  - assert (HE' : es = p ++ (t, w) :: q) by (rewrite HE, <- app_assoc; reflexivity). assert (LP : (List.length p < 42)%nat) by (rewrite HE', app_length in LL; cbn [List.length] in LL; lia).
    rewrite app_length. cbn [List.length]. replace (3 * Z.of_nat (List.length p + 1)) with (3 * Z.of_nat (List.length p) + 3) by lia. set (n := 3 * Z.of_nat (List.length p)) in *. assert (BN : 0 <= n <= 123) by (unfold n; lia).
    assert (ET : m (1024 + n) = t /\ 0 <= t < 256).
    { destruct BL as (_ & _ & B3 & B4). rewrite HE' in B3, B4. rewrite flat_map_app in B3. apply bytes_at_app in B3 as (_ & B3). rewrite stack_length in B3. cbn [flat_map app fst snd] in B3. apply bytes_at_cons in B3 as (B3 & _).
      apply Forall_app in B4 as (_ & B4). inversion B4 as [|? ? (X1 & X2)]. cbn [fst snd] in *. split; [|exact X1]. rewrite <- B3. f_equal. unfold n. lia. }
    destruct ET as (ET & BT). do 3 step1. rewrite !(b8_small (_ - 1)) by (rewrite ?b8_small; rewrite ?b8_small; lia). replace (n + 3 - 1 - 1 - 1) with n by lia.
    step1; zb; [lia|]. unfold loop_stk. step1. norm. rewrite ET. step1; zb.
    + to_label "exit.retry". apply (IH ((t, w) :: q)); auto.
    + step1. step1; zb.
      * assert (NL : forall es1 t w es2, ~ leaves es es1 t w es2); [|to_label "loop_error"; apply ERR; exact NL].
        intros es1 t1 w1 es2 (HL & BT1 & FL). rewrite HL in HE'. apply app_eq_app in HE' as (l & [(_ & HX)|(_ & HX)]).
        -- destruct l as [|e l]; [injection HX; intros; lia|]. cbn [app] in HX. injection HX as HX0 HX. rewrite HX in FQ. apply Forall_app in FQ as (_ & FQ). inversion FQ. cbn [fst] in *. lia.
        -- destruct l as [|e l]; [injection HX; intros; lia|]. cbn [app] in HX. injection HX as HX0 HX. rewrite HX in FL. apply Forall_app in FL as (_ & FL). inversion FL. cbn [fst] in *. lia.
      * replace (2 <=? t) with true by (symmetry; apply Z.leb_le; lia). apply (K p t w q). split; [exact HE'|]. split; [lia|exact FQ].
Qed.

(* src/actions.asm:743-750: moves the entries from the loop on up *)
Lemma move_ok k (Q : string -> cpu -> Prop) st r N s x m : bytes_in m -> 0 <= s < N -> N <= 127 -> m (laddr_search_num nz) = s ->
  (forall a' c' z' f' v' m', bytes_in m' -> (forall i, s <= i < N -> m' (1024 + i) = m (1024 + i - 3)) -> (forall b, ~ 1024 + s <= b < 1024 + N -> m' b = m b) ->
     wp P (In (LDA (Imm 0)) :: match entry P "exit.move" with _ :: _ :: _ :: _ :: _ :: _ :: c => c | _ => [] end) (mkcpu a' x s c' z' f' v' m' (CByte k :: st) r) Q) ->
  forall j y, y = s + 1 + Z.of_nat j -> y <= N -> forall a c z f v m1, bytes_in m1 -> (forall i, y <= i < N -> m1 (1024 + i) = m (1024 + i - 3)) -> (forall b, ~ 1024 + y <= b < 1024 + N -> m1 b = m b) ->
  wp P (entry P "exit.move") (mkcpu a x y c z f v m1 (CByte k :: st) r) Q.
Proof.
  pose proof OK as ((?&?&_) & ? & ? & _). intros WM BS BN ES K. induction j as [|j IH]; intros y HY LY a c z f v m1 W1 EQ1 FR1; to_code "exit.move"; step1; rewrite b8_small by lia;
    unfold loop_stk; step1; norm; step1; replace (m1 (1024 - 3 + (y - 1))) with (m (1024 + (y - 1) - 3)) by (rewrite FR1 by lia; f_equal; lia);
    rewrite b16_small by lia; set (m2 := upd m1 (1024 + (y - 1)) (m (1024 + (y - 1) - 3)));
    assert (W2 : bytes_in m2) by (unfold m2; bytes_tac; apply WM);
    assert (EQ2 : forall i, y - 1 <= i < N -> m2 (1024 + i) = m (1024 + i - 3)) by (intros i HI; unfold m2; destruct (Z.eq_dec i (y - 1)) as [->|NE]; [rewrite upd_eq by lia; reflexivity|rewrite upd_ne by lia; apply EQ1; lia]);
    assert (FR2 : forall b, ~ 1024 + (y - 1) <= b < 1024 + N -> m2 b = m b) by (intros b HB; unfold m2; rewrite upd_ne by lia; apply FR1; lia); clearbody m2;
    step1; change (laddr_search_num nz) with (nz + 3) in *; rewrite ?(FR2 (nz + 3)) by lia; rewrite ES.
  - step1; zb; [unfold b8 in *; zm|]. replace (y - 1) with s in * by lia. apply K; auto.
  - step1; zb; [|unfold b8 in *; zm]. to_label "exit.move". apply IH; auto; lia.
Qed.
(* src/actions.asm:718-759: EXIT *)
Lemma exit_ok k (Q : string -> cpu -> Prop) st r es a x y c z f v m : bytes_in m -> here nz m <= 65535 -> blocks nz m es -> 1664 <= pointer nz m 0 ->
  (forall es1 t w es2, leaves es es1 t w es2 -> (List.length es < 42)%nat -> m (nz + 21) + 2 <= 255 -> forall a' x' y' z' f' v' m', bytes_in m' -> m' (nz + 21) = m (nz + 21) + 2 -> blocks nz m' (es1 ++ (0, here nz m) :: (t, w) :: es2) ->
     (forall b, b <> nz + 21 -> b <> nz + 24 -> b <> laddr_search_num nz -> ~ 1024 <= b < 1152 -> m' b = m b) -> wp P k (mkcpu a' x' y' false z' f' v' m' st r) Q) ->
  (forall es1 t w es2, leaves es es1 t w es2 -> (List.length es < 42)%nat -> 255 < m (nz + 21) + 2 -> forall s', Y s' = 12 -> Q "parser_error" s') ->
  ((forall es1 t w es2, leaves es es1 t w es2 -> List.length es = 42%nat) -> forall s', Y s' = 20 -> Q "parser_error" s') ->
  wp P (entry P "E_EXIT_LOOP") (mkcpu a x y c z f v m (CRet k :: st) r) Q.
Proof.
  pose proof OK as ((?&?&_) & ? & ? & _). intros WM HB BL BP K E1 E2. pose proof BL as (B1 & B2 & B3 & B4). pose proof (WM (nz + 21)) as BO.
  to_code "E_EXIT_LOOP". ncells. do 3 step1. rewrite B1. to_label "exit.retry". apply retry_ok with (es := es) (q := []); auto; [|intros NL s' HS _; apply E2; auto; intros; exfalso; eapply NL; eauto|now rewrite app_nil_r].
  intros es1 t w es2 z1 f1 v1 LV. pose proof LV as (HE & BT & FQ).
  assert (LE : List.length es = (List.length es1 + 1 + List.length es2)%nat) by (rewrite HE, app_length; cbn [List.length]; lia).
  set (n := 3 * Z.of_nat (List.length es)) in *. set (s := 3 * Z.of_nat (List.length es1)) in *. assert (BS : 0 <= s /\ s + 3 <= n /\ n <= 126) by (unfold s, n; lia).
  match goal with |- wp _ (?i :: ?l) _ _ => let c := eval cbv [native app entry find_lb find_in rt c_interp c_move_loop c_negax c_addsub c_absneg c_bit
       c_logic c_sgn c_shift c_comp0 c_mul c_div c_for c_for_exit c_incdec c_stack c_peek
       c_const c_varaddr c_varstore c_varadd c_constpoke c_jump c_return c_cmpstr c_copystr c_stridx c_move c_nmove
       c_mset c_clearmem c_rand c_streol c_val c_rom c_alloc c_vars c_emit c_actions
       String.eqb Ascii.eqb Bool.eqb] in l in change l with c end.
  step1. ncells. step1. rewrite b8_small by lia. replace (n + 2 + 1) with (n + 3) by lia.
  step1; zb. { to_code "loop_error". step1. step1. apply E2; auto. intros. unfold n in *. lia. }
  step1. step1. step1.
  set (m1 := upd m _ s). assert (W1 : bytes_in m1) by (unfold m1; bytes_tac). assert (S1 : m1 (laddr_search_num nz) = s) by (unfold m1; ncells; norm; reflexivity).
  assert (F1 : forall b, b <> laddr_search_num nz -> m1 b = m b) by (intros b NB; ncells; unfold m1; norm; reflexivity). clearbody m1.
  to_label "exit.move". apply move_ok with (N := n + 3) (s := s) (m := m1) (j := Z.to_nat (n + 2 - s)); auto; try lia.
  intros a2 c2 z2 f2 v2 m2 W2 MV F2.
  match goal with |- wp _ (?i :: ?l) _ _ => let c := eval cbv [native app entry find_lb find_in rt c_interp c_move_loop c_negax c_addsub c_absneg c_bit
       c_logic c_sgn c_shift c_comp0 c_mul c_div c_for c_for_exit c_incdec c_stack c_peek
       c_const c_varaddr c_varstore c_varadd c_constpoke c_jump c_return c_cmpstr c_copystr c_stridx c_move c_nmove
       c_mset c_clearmem c_rand c_streol c_val c_rom c_alloc c_vars c_emit c_actions
       String.eqb Ascii.eqb Bool.eqb] in l in change l with c end.
  assert (F3 : forall b, b <> laddr_search_num nz -> ~ 1024 <= b < 1152 -> m2 b = m b) by (intros b N1 N2; rewrite F2, F1; auto; lia).
  assert (P2' : pointer nz m2 0 = pointer nz m 0) by (unfold pointer, word_of; rewrite !F3 by (ncells; lia); reflexivity). assert (O2 : m2 (nz + 21) = m (nz + 21)) by (rewrite F3; ncells; lia).
  assert (H2' : here nz m2 = here nz m) by (unfold here; lia).
  step1. jsr "push_codep_y" kk. apply push_y_ok; auto; try lia; rewrite ?O2, ?H2'; change (space 0) with 2.
  - intros LY OP a4 x4 z4 f4 v4 m4 W4 O4 S4 E41 E42 E43 F4. unfold kk. clear kk. step1. ncells. step1. step1. set (m5 := upd m4 _ (n + 3)). assert (W5 : bytes_in m5) by (unfold m5; bytes_tac).
    assert (F5 : forall b, b <> nz + 24 -> m5 b = m4 b) by (intros b NB; unfold m5; norm; reflexivity). assert (S5 : m5 (nz + 24) = n + 3) by (unfold m5; norm; reflexivity). clearbody m5.
    assert (BH : 0 <= here nz m < 65536) by (unfold here in *; lia).
    apply (K es1 t w es2); auto; try lia.
    + rewrite F5; lia.
    + assert (LT : (List.length es < 42)%nat) by (unfold n in *; lia). subst es. rewrite flat_map_app in B3. apply bytes_at_app in B3 as (BA & BB). rewrite stack_length in BB. replace (1024 + Z.of_nat (3 * List.length es1)) with (1024 + s) in BB by (unfold s; lia). apply Forall_app in B4 as (FA & FB).
      split; [rewrite S5; unfold n; rewrite !app_length; cbn [List.length]; lia|]. split; [rewrite !app_length in LT |- *; cbn [List.length] in LT |- *; lia|].
      split; [|apply Forall_app; split; [exact FA|]; constructor; [cbn [fst snd]; lia|exact FB]].
      rewrite flat_map_app. apply bytes_at_app. split.
      * eapply bytes_at_ext; [|exact BA]. intros b HB'. rewrite stack_length in HB'. rewrite F5, F4, F2, F1; unfold s in *; ncells; lia.
      * rewrite stack_length. replace (1024 + Z.of_nat (3 * List.length es1)) with (1024 + s) by (unfold s; lia). change (flat_map eb ((0, here nz m) :: (t, w) :: es2)) with ([0; here nz m mod 256; here nz m / 256] ++ flat_map eb ((t, w) :: es2)). apply bytes_at_app. cbn [List.length]. split.
        -- apply bytes_at_cons. split; [rewrite F5 by lia; exact E41|]. apply bytes_at_cons. split; [rewrite F5 by lia; exact E42|]. apply bytes_at_cons. split; [rewrite F5 by lia; rewrite <- E43; f_equal; lia|]. intros i HI. cbn in HI. lia.
        -- intros i HI. rewrite <- (BB i HI). rewrite stack_length in HI. cbn [List.length] in HI.
           change (Z.of_nat 3) with 3. replace (1024 + s + 3 + Z.of_nat i) with (1024 + (s + 3 + Z.of_nat i)) by lia. rewrite F5, F4, MV, F1; try (ncells; unfold n, s in *; lia). f_equal. lia.
    + intros b N1 N2 N3 N4. rewrite F5, F4, F3; auto. lia.
  - intros LY OP. eapply E1; eauto. unfold n in *. lia.
Qed.

(* src/actions.asm:670-858: an end of a block of another type, or without a block *)
Lemma wrong_ok k (Q : string -> cpu -> Prop) st r es a x y c z f v m l t0 : bytes_in m -> blocks nz m es -> 1664 <= pointer nz m 0 <= 65000 ->
  List.In (l, t0) [("E_POP_LOOP", 65); ("E_POP_REPEAT", 66); ("E_POP_PROC_2", 64); ("E_POP_PROC_DATA", 1); ("E_POP_FOR", 192); ("E_POP_IF", 130); ("E_ELSEIF", 129); ("E_POP_WHILE", 128)]%string ->
  (forall es1 t w, es = es1 ++ [(t, w)] -> ~ pops t0 t) -> (l <> "E_POP_WHILE" \/ m (nz + 21) < 254)%string ->
  (forall s', Y s' = 20 -> Q "parser_error" s') ->
  wp P (entry P l) (mkcpu a x y c z f v m (CRet k :: st) r) Q.
Proof.
  pose proof OK as ((?&?&_) & ? & ? & _). intros WM BL BP HL NP HW E.
  assert (POP : forall k' st' t x' y' c' z' f' v' m', t = t0 -> 0 <= t0 < 256 -> bytes_in m' -> blocks nz m' es -> wp P (entry P "pop_codep") (mkcpu t x' y' c' z' f' v' m' (CRet k' :: st') r) Q).
  { intros. subst t. apply pop_ok with (es := es); auto. intros es1 t w HE PT. exfalso. eapply NP; eauto. }
  repeat (destruct HL as [HL|HL]; [injection HL as <- <-|]); [..|destruct HL].
  - to_code "E_POP_LOOP". step1. step1. to_code "repeat.1". jsr "pop_emit_addr" kk. to_code "pop_emit_addr". jsr "pop_codep" kl. apply POP; auto; lia.
  - to_code "E_POP_REPEAT". step1. step1. jsr "pop_emit_addr" kk. to_code "pop_emit_addr". jsr "pop_codep" kl. apply POP; auto; lia.
  - to_code "E_POP_PROC_2". step1. jsr "pop_codep" kl. apply POP; auto; lia.
  - to_code "E_POP_PROC_DATA". step1. step1. jsr "pop_codep" kl. apply POP; auto; lia.
  - to_code "E_POP_FOR". ncells. step1. step1. jsr "pop_emit_addr" kk. to_code "pop_emit_addr". jsr "pop_codep" kl. apply POP; auto; try lia; [bytes_tac; apply b8_range|]. eapply blocks_same; [exact BL| |]; intros; norm; reflexivity.
  - to_code "E_POP_IF". step1. step1. jsr "pop_patch_codep" kk. to_code "pop_patch_codep". jsr "pop_codep" kl. apply POP; auto; lia.
  - to_code "E_ELSEIF". step1. jsr "pop_codep" kl. apply POP; auto; lia.
  - destruct HW as [HW|HW]; [congruence|]. to_code "E_POP_WHILE". step1. jsr "inc_opos_2" kk. apply inc2_ok; auto; [|lia]. intros _ z1 f1 m1 W1 O1 F1. unfold kk. jsr "pop_patch_codep" kl. to_code "pop_patch_codep". jsr "pop_codep" km. apply POP; auto; try lia.
    eapply blocks_same; [exact BL| |]; intros; apply F1; lia.
Qed.

End B.
