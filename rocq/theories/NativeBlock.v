(* Loops and conditions of the native compiler. *)
From Verif Require Export NativeVar SpecBlock.

Section B.
Variable L : lay.
Variable nz : Z.
Hypothesis OK : native_ok L nz.
Variable fp : bool.
Notation P := (native fp L nz).
Notation ptr m j := (wordat m (nz + 6 + 2 * j)).
Notation sb := (same_but (zp L) nz).

Ltac to_code l :=
  match goal with |- wp ?P _ ?s ?Q =>
    let c := eval cbv [native app entry find_lb find_in rt c_interp c_move_loop c_negax c_addsub c_absneg c_bit
       c_logic c_sgn c_shift c_comp0 c_mul c_div c_for c_for_exit c_incdec c_stack c_peek
       c_const c_varaddr c_varstore c_varadd c_constpoke c_jump c_return c_cmpstr c_copystr c_stridx c_move c_nmove
       c_mset c_clearmem c_rand c_streol c_val c_rom c_alloc c_vars c_emit c_actions
       String.eqb Ascii.eqb Bool.eqb] in (entry P l) in
    change (wp P c s Q)
  end.
Ltac to_label l := lazymatch goal with |- wp ?p _ ?s ?Q => change (wp p (entry p l) s Q) end.

Lemma sb_refl ws m : sb ws m m.
Proof. intros b. auto. Qed.
Lemma sb_trans ws1 ws2 m m1 m2 : sb ws1 m m1 -> sb ws2 m1 m2 -> sb (ws1 ++ ws2) m m2.
Proof. intros H1 H2 b B1 B2 B3 B4 B5. rewrite H2, H1; auto; intros a HA; apply B5, in_or_app; auto. Qed.
Lemma sb_here m m' ws : sb ws m m' -> Forall (fun a => 256 <= a) ws -> m' (nz + 21) = m (nz + 21) -> here nz m' = here nz m /\ target nz m' = target nz m /\ pointer nz m' 0 = pointer nz m 0.
Proof.
  pose proof OK as ((?&?&_) & ? & ? & _). intros S F E. rewrite Forall_forall in F.
  assert (G : forall b, nz <= b < nz + 20 -> m' b = m b) by (intros b B; apply S; try lia; intros a HA; apply F in HA; lia).
  unfold target, here, pointer, word_of. rewrite E, !G by lia. auto.
Qed.

(* src/actions.asm:130-139 *)
Lemma codep_ok k (Q : string -> cpu -> Prop) st r a x y c z f v m : bytes_in m -> here nz m < 65536 ->
  (forall a' x' z' f' v', 0 <= a' < 256 -> 0 <= x' < 256 -> a' + 256 * x' = here nz m -> wp P k (mkcpu a' x' y false z' f' v' m st r) Q) ->
  wp P (entry P "get_codep") (mkcpu a x y c z f v m (CRet k :: st) r) Q.
Proof.
  pose proof OK as ((?&?&_) & ? & ? & _). intros WM HB K. to_code "get_codep". ncells. unfold here, pointer, word_of in *. replace (nz + 6 + 2 * 0) with (nz + 6) in * by lia.
  pose proof (WM (nz + 6)). pose proof (WM (nz + 6 + 1)). pose proof (WM (nz + 21)). do 4 step1. step1; zb.
  - to_code "codep.ok". rewrite (proj2 (Z.leb_gt 256 (m (nz + 6) + m (nz + 21) + 0))) by lia. step1. apply K; zm.
  - do 2 step1. step1. rewrite (b8_small (_ + 1)) by zm. step1. apply K; zm.
Qed.
(* src/actions.asm:826-842 *)
Lemma patch_ok k (Q : string -> cpu -> Prop) st r a x y c z f v m w : bytes_in m -> here nz m < 65536 -> 0 <= a < 256 -> 0 <= x < 256 -> a + 256 * x = w -> 1664 <= w < 65535 ->
  (forall a' x' z' f' v' m', 0 <= a' < 256 -> 0 <= x' < 256 -> bytes_in m' -> wordat m' w = target nz m -> sb [w] m m' -> m' (nz + 21) = m (nz + 21) -> m' (nz + 24) = m (nz + 24) -> (forall b, 1024 <= b < 1152 -> m' b = m b) ->
     m' (tmp1 L) = m (tmp1 L) -> m' (tmp1 L + 1) = m (tmp1 L + 1) ->
     wp P k (mkcpu a' x' 1 false z' f' v' m' st r) Q) ->
  wp P (entry P "patch_codep") (mkcpu a x y c z f v m (CRet k :: st) r) Q.
Proof.
  pose proof OK as ((?&?&_) & ? & ? & _). intros WM HB BA BX EW BW K. to_code "patch_codep". ncells. consts. step1. step1. match goal with |- wp _ (In (JSR _) :: ?c) _ _ => set (kk := c) end.
  set (m1 := upd (upd m (tmp1 L + 2) a) (tmp1 L + 2 + 1) x). assert (W1 : bytes_in m1) by (unfold m1; bytes_tac).
  assert (F1 : forall b, b <> tmp1 L + 2 -> b <> tmp1 L + 3 -> m1 b = m b) by (intros b N1 N2; unfold m1; norm; reflexivity).
  assert (H1' : here nz m1 = here nz m) by (unfold here, pointer, word_of; rewrite !F1 by lia; reflexivity).
  assert (E1 : m1 (tmp1 L + 2) + 256 * m1 (tmp1 L + 2 + 1) = w) by (unfold m1; norm; lia). clearbody m1.
  eapply wp_jsr; [reflexivity|]. cpu_red. to_label "get_codep". apply codep_ok; [exact W1|lia|]. intros a1 x1 z1 f1 v1 BA1 BX1 E. rewrite H1' in E. unfold kk. ncells.
  pose proof (WM nz). pose proof (WM (nz + 1)). assert (R0 : m1 nz = m nz) by (apply F1; lia). assert (R1 : m1 (nz + 1) = m (nz + 1)) by (apply F1; lia).
  do 3 step1. do 6 (step1; norm). change (b8 (0 + 1)) with 1. rewrite E1. rewrite (b16_small (w + 1)) by lia. rewrite (Z.add_0_r w), !R0, !R1.
  set (m2 := upd _ (w + 1) _). apply K; auto; try apply b8_range.
  - unfold m2. bytes_tac; apply b8_range.
  - unfold m2, wordat, target, word_of. norm. unfold b8. rewrite <- E. destruct (Z.leb_spec 256 (a1 + m nz + 0)); zm.
  - intros b B1 B2 B3 B4 B5. destruct (B5 w (or_introl eq_refl)). unfold m2. norm. apply F1; lia.
  - unfold m2. norm. apply F1; lia.
  - unfold m2. norm. apply F1; lia.
  - intros b HB'. unfold m2. norm. apply F1; lia.
  - unfold m2. norm. apply F1; lia.
  - unfold m2. norm. apply F1; lia.
Qed.

Notation eb := (fun e : Z * Z => [fst e; snd e mod 256; snd e / 256]).
Lemma stack_length es : List.length (flat_map eb es) = (3 * List.length es)%nat.
Proof. induction es as [|e es IH]; [reflexivity|]. cbn [flat_map app List.length]. rewrite IH. lia. Qed.
Lemma blocks_top m es t a : blocks nz m (es ++ [(t, a)]) -> let n := 3 * Z.of_nat (List.length es) in
  m (nz + 24) = n + 3 /\ n + 3 <= 126 /\ m (1024 + n) = t /\ m (1024 + n + 1) = a mod 256 /\ m (1024 + n + 2) = a / 256 /\ 0 <= t < 256 /\ 0 <= a < 65536 /\ Forall (fun e => 0 <= fst e < 256 /\ 0 <= snd e < 65536) es /\ bytes_at m 1024 (flat_map eb es).
Proof.
  intros (B1 & B2 & B3 & B4) n. rewrite app_length in *. cbn [List.length] in *. rewrite flat_map_app in B3. apply bytes_at_app in B3 as (B5 & B3). rewrite stack_length in B3. cbn [flat_map app fst snd] in B3.
  replace (1024 + Z.of_nat (3 * List.length es)) with (1024 + n) in B3 by (unfold n; lia).
  apply bytes_at_cons in B3 as (E1 & B3). apply bytes_at_cons in B3 as (E2 & B3). apply bytes_at_cons in B3 as (E3 & _). apply Forall_app in B4 as (B6 & B4). inversion B4 as [|? ? (X1 & X2)]. cbn [fst snd] in *.
  replace (1024 + n + 1 + 1) with (1024 + n + 2) in E3 by lia. unfold n in *. repeat (split; [lia || auto|]). auto.
Qed.
Lemma blocks_less m m' es e : blocks nz m (es ++ [e]) -> (forall b, 1024 <= b < 1152 -> m' b = m b) -> m' (nz + 24) = 3 * Z.of_nat (List.length es) -> blocks nz m' es.
Proof.
  destruct e as [t a]. intros B F E. pose proof (proj1 (proj2 B)) as BL. apply blocks_top in B as (_ & N & _ & _ & _ & _ & _ & FA & BA). rewrite app_length in BL. cbn in BL.
  split; [exact E|]. split; [lia|]. split; [|exact FA]. eapply bytes_at_ext; [|exact BA]. intros b HB. apply F. rewrite stack_length in HB. lia.
Qed.
Lemma blocks_same m m' es : blocks nz m es -> (forall b, 1024 <= b < 1152 -> m' b = m b) -> m' (nz + 24) = m (nz + 24) -> blocks nz m' es.
Proof.
  intros (B1 & B2 & B3 & B4) F E. split; [congruence|]. split; [exact B2|]. split; [|exact B4]. eapply bytes_at_ext; [|exact B3]. intros b HB. apply F. rewrite stack_length in HB. lia.
Qed.
(* src/actions.asm:686-694 *)
Lemma get_ok k (Q : string -> cpu -> Prop) st r es t w a x c z f v m : bytes_in m -> blocks nz m (es ++ [(t, w)]) ->
  (forall z' f' m', bytes_in m' -> blocks nz m' es -> (forall b, b <> nz + 24 -> m' b = m b) ->
     wp P k (mkcpu (w mod 256) (w / 256) (3 * Z.of_nat (List.length es)) false z' f' v m' st r) Q) ->
  wp P (entry P "pop.get") (mkcpu a x (m (nz + 24)) c z f v m (CRet k :: st) r) Q.
Proof.
  pose proof OK as ((?&?&_) & ? & ? & _). intros WM BL K. pose proof (blocks_top _ _ _ _ BL) as (E0 & BN & E1 & E2 & E3 & BT & BW & _). set (n := 3 * Z.of_nat (List.length es)) in *.
  rewrite E0. to_code "pop.get". ncells. unfold loop_stk. do 3 step1. rewrite !(b8_small (_ - 1)) by (rewrite ?b8_small; rewrite ?b8_small; lia). replace (n + 3 - 1 - 1 - 1) with n by lia.
  step1. step1. norm. step1. norm. replace (1024 + 2 + n) with (1024 + n + 2) by lia. replace (1024 + 1 + n) with (1024 + n + 1) by lia. rewrite E2, E3. do 3 step1.
  set (m1 := upd m (nz + 24) n). apply K.
  - unfold m1. bytes_tac; unfold n; lia.
  - eapply blocks_less; [exact BL| |]; unfold m1; [intros b HB|]; norm; reflexivity.
  - intros b NB. unfold m1. norm. reflexivity.
Qed.
(* src/actions.asm:669-694 *)
Definition pops (t0 t : Z) : Prop := t = t0 \/ t0 = 130 /\ t = 129.
Lemma pop_ok k (Q : string -> cpu -> Prop) st r es t0 x y c z f v m : bytes_in m -> blocks nz m es -> 0 <= t0 < 256 ->
  (forall es1 t w, es = es1 ++ [(t, w)] -> pops t0 t -> forall z' f' m', bytes_in m' -> blocks nz m' es1 -> (forall b, b <> nz + 24 -> m' b = m b) -> 
     wp P k (mkcpu (w mod 256) (w / 256) (3 * Z.of_nat (List.length es1)) false z' f' v m' st r) Q) ->
  ((forall es1 t w, es = es1 ++ [(t, w)] -> ~ pops t0 t) -> forall s', Y s' = 20 -> (forall b, M s' b = m b) -> Q "parser_error" s') ->
  wp P (entry P "pop_codep") (mkcpu t0 x y c z f v m (CRet k :: st) r) Q.
Proof.
  pose proof OK as ((?&?&_) & ? & ? & _). intros WM BL BT K E.
  assert (ERR : forall a' y' c' z' f', (forall es1 t w, es = es1 ++ [(t, w)] -> ~ pops t0 t) -> wp P (entry P "loop_error") (mkcpu a' x y' c' z' f' v m (CRet k :: st) r) Q).
  { intros a' y' c' z' f' N. to_code "loop_error". step1. step1. apply E; auto. }
  to_code "pop_codep". ncells. step1. destruct es as [|e0 es0] using rev_ind.
  - clear K. destruct BL as (B1 & _). change (3 * Z.of_nat (List.length (@nil (Z * Z)))) with 0 in B1. rewrite B1. step1; zb; [|lia]. to_label "loop_error". apply ERR. intros es1 t w BAD. destruct es1; discriminate.
  - clear IHes0. destruct e0 as [t w]. pose proof (blocks_top _ _ _ _ BL) as (E0 & BN & E1 & E2 & E3 & BT' & BW & _). set (n := 3 * Z.of_nat (List.length es0)) in *.
    assert (U : forall es1 t1 w1, es0 ++ [(t, w)] = es1 ++ [(t1, w1)] -> es1 = es0 /\ t1 = t /\ w1 = w) by (intros es1 t1 w1 HE; apply app_inj_tail in HE as (-> & HE); injection HE as -> ->; auto).
    assert (GET : pops t0 t -> forall a' c' z' f', wp P (entry P "pop.get") (mkcpu a' x (m (nz + 24)) c' z' f' v m (CRet k :: st) r) Q).
    { intros PT a' c' z' f'. apply get_ok with (es := es0) (t := t) (w := w); auto. intros. eapply K; eauto. }
    rewrite E0 in *. step1; zb; [unfold n in *; lia|]. step1. unfold loop_stk. step1. norm. replace (1024 - 3 + (n + 3)) with (1024 + n) by lia. rewrite E1. step1; zb.
    + to_label "pop.get". apply GET. left. zm.
    + step1. step1; zb.
      * to_label "loop_error". apply ERR. intros es1 t1 w1 HE. apply U in HE as (-> & -> & ->). unfold pops. intros [->|(-> & ->)]; [apply K1; zm|apply K2; zm].
      * step1. step1; [|zb; lia]. to_label "pop.retry". to_code "pop.retry". assert (t0 = 130) by zm. subst t0. unfold loop_stk. step1. norm. replace (1024 - 3 + (n + 3)) with (1024 + n) by lia. rewrite E1. step1; zb.
        -- to_label "pop.get". apply GET. right. split; [reflexivity|]. zm.
        -- step1. change (129 =? 130) with false. step1; [|discriminate]. to_label "loop_error". apply ERR. intros es1 t1 w1 HE. apply U in HE as (-> & -> & ->). unfold pops. intros [->|(_ & ->)]; [apply K1; zm|apply K4; reflexivity].
Qed.

Lemma fop_snoc (R : Z -> Z -> Prop) xs a : ForallOrdPairs R (xs ++ [a]) -> ForallOrdPairs R xs /\ Forall (fun x => R x a) xs.
Proof.
  induction xs as [|x xs IH]; cbn [app]; intro F; [split; constructor|]. inversion F as [|? ? H1 H2]. apply IH in H2 as (H2 & H3). apply Forall_app in H1 as (H1 & H4). inversion H4.
  split; constructor; auto.
Qed.
(* src/actions.asm:701-713 *)
Lemma exits_ok k (Q : string -> cpu -> Prop) st r es : (forall es1 w, es <> es1 ++ [(0, w)]) -> forall xs a x y c z f v m, bytes_in m -> here nz m <= 65535 -> blocks nz m (es ++ map (fun w => (0, w)) xs) -> slots nz m xs ->
  (forall a' x' y' z' f' v' m', bytes_in m' -> blocks nz m' es -> sb xs m m' -> m' (nz + 21) = m (nz + 21) -> (forall b, 1024 <= b < 1152 -> m' b = m b) -> Forall (fun w => wordat m' w = target nz m) xs ->
     wp P k (mkcpu a' x' y' false z' f' v' m' st r) Q) ->
  wp P (entry P "check_loop_exit") (mkcpu a x y c z f v m (CRet k :: st) r) Q.
Proof.
  pose proof OK as ((?&?&_) & ? & ? & _). intros TOP. induction xs as [|w xs IH] using rev_ind; intros a x y c z f v m WM HB BL (SL1 & SL2) K.
  - cbn [map] in BL. rewrite app_nil_r in BL.
    assert (FIN : forall a' x' y' c' z' f' v', wp P (entry P "pop.rtsclc") (mkcpu a' x' y' c' z' f' v' m (CRet k :: st) r) Q).
    { intros. to_code "pop.rtsclc". step1. step1. apply K; auto. apply sb_refl. }
    to_code "check_loop_exit". ncells. step1. destruct es as [|e0 es0 _] using rev_ind.
    + destruct BL as (B1 & _). change (3 * Z.of_nat (List.length (@nil (Z * Z)))) with 0 in B1. rewrite B1. step1; zb; [|lia]. to_label "pop.rtsclc". apply FIN.
    + destruct e0 as [t w]. pose proof (blocks_top _ _ _ _ BL) as (E0 & BN & E1 & E2 & E3 & BT' & BW & _). set (n := 3 * Z.of_nat (List.length es0)) in *. rewrite E0. step1; zb; [unfold n in *; lia|].
      unfold loop_stk. step1. norm. replace (1024 - 3 + (n + 3)) with (1024 + n) by lia. rewrite E1. step1; zb; [|exfalso; apply (TOP es0 w); congruence]. to_label "pop.rtsclc". apply FIN.
  - rewrite map_app in BL. cbn [map] in BL. rewrite app_assoc in BL. pose proof (blocks_top _ _ _ _ BL) as (E0 & BN & E1 & E2 & E3 & BT' & BW & _). set (n := 3 * Z.of_nat (List.length (es ++ map (fun w0 => (0, w0)) xs))) in *.
    apply Forall_app in SL1 as (SL1 & SLW). inversion SLW as [|? ? (LW1 & LW2) _]. apply fop_snoc in SL2 as (SL2 & AP).
    to_code "check_loop_exit". ncells. step1. step1; zb; [lia|]. unfold loop_stk. step1. rewrite E0. norm. replace (1024 - 3 + (n + 3)) with (1024 + n) by lia. rewrite E1. step1; zb; [lia|].
    match goal with |- wp _ (In (JSR _) :: ?c) _ _ => set (kk := c) end. eapply wp_jsr; [reflexivity|]. cpu_red. to_label "pop.get". rewrite <- E0.
    apply get_ok with (es := es ++ map (fun w0 => (0, w0)) xs) (t := 0) (w := w); auto. intros z1 f1 m1 W1 BL1 F1. unfold kk. clear kk.
    match goal with |- wp _ (In (JSR _) :: ?c) _ _ => set (kk := c) end. eapply wp_jsr; [reflexivity|]. cpu_red. to_label "patch_codep".
    assert (H1' : here nz m1 = here nz m) by (unfold here, pointer, word_of; rewrite !F1 by lia; reflexivity).
    assert (T1' : target nz m1 = target nz m) by (unfold target, word_of; rewrite H1', !F1 by lia; reflexivity).
    apply patch_ok with (w := w); auto; try lia; try zm. intros a2 x2 z2 f2 v2 m2 BA2 BX2 W2 EW SB2 EO2 ES2 F2 _ _. unfold kk. step1. to_label "check_loop_exit".
    destruct (sb_here m1 m2 [w] SB2 ltac:(constructor; [lia|constructor]) EO2) as (H2' & T2' & _).
    apply IH; auto.
    + lia.
    + eapply blocks_same; eauto.
    + split; [|exact SL2]. rewrite H2', H1'. exact SL1.
    + intros a3 x3 y3 z3 f3 v3 m3 W3 BL3 SB3 EO3 F3 PA. rewrite T2', T1' in PA. apply K; auto.
      * intros b B1 B2 B3 B4 B5. rewrite SB3, SB2, F1; auto.
        -- intros a' [<-|[]]. apply B5, in_or_app. right. now left.
        -- intros a' HA. apply B5, in_or_app. now left.
      * rewrite EO3, EO2, F1 by lia. reflexivity.
      * intros b HB'. rewrite F3, F2, F1 by lia. reflexivity.
      * apply Forall_app. split; [exact PA|]. constructor; [|constructor]. rewrite <- T1', <- EW. rewrite Forall_forall in AP.
        unfold wordat. rewrite !SB3; auto; try lia; intros a' HA; specialize (AP a' HA); lia.
Qed.
(* src/parse.asm:168-173, src/actions.asm:661-665 *)
Lemma inc2_ok k (Q : string -> cpu -> Prop) st r a x y c z f v m : bytes_in m ->
  (m (nz + 21) < 254 -> forall z' f' m', bytes_in m' -> m' (nz + 21) = m (nz + 21) + 2 -> (forall b, b <> nz + 21 -> m' b = m b) -> wp P k (mkcpu a x y false z' f' v m' st r) Q) ->
  (254 <= m (nz + 21) -> forall s', Y s' = 12 -> Q "parser_error" s') ->
  wp P (entry P "inc_opos_2") (mkcpu a x y c z f v m (CRet k :: st) r) Q.
Proof.
  pose proof OK as ((?&?&_) & ? & ? & _). intros WM K E. pose proof (WM (nz + 21)) as BO.
  assert (INC1 : forall k' st' z' f' c' m', 0 <= m' (nz + 21) < 256 -> (m' (nz + 21) < 255 -> forall z1 f1, wp P k' (mkcpu a x y c' z1 f1 v (upd m' (nz + 21) (m' (nz + 21) + 1)) st' r) Q) ->
    (m' (nz + 21) = 255 -> forall s', Y s' = 12 -> Q "parser_error" s') -> wp P (entry P "parser_inc_opos") (mkcpu a x y c' z' f' v m' (CRet k' :: st') r) Q).
  { intros k' st' z' f' c' m' BO' K' E'. to_code "parser_inc_opos". ncells. step1. destruct (Z.eq_dec (m' (nz + 21)) 255) as [E1|E1].
    - rewrite E1. change (b8 (255 + 1)) with 0. step1; [discriminate|]. step1. step1. apply E'; auto.
    - rewrite b8_small by lia. step1; zb; [|lia]. to_code "rts1". step1. apply K'. lia. }
  to_code "inc_opos_2". match goal with |- wp _ (In (JSR _) :: ?c) _ _ => set (kk := c) end. eapply wp_jsr; [reflexivity|]. cpu_red. to_label "parser_inc_opos".
  apply INC1; auto; [|intros; apply E; auto; lia]. intros L1 z1 f1. unfold kk. clear kk.
  match goal with |- wp _ (In (JSR _) :: ?c) _ _ => set (kk := c) end. eapply wp_jsr; [reflexivity|]. cpu_red. to_label "parser_inc_opos".
  apply INC1; norm; [lia| |intros; apply E; auto; lia]. intros L2 z2 f2. unfold kk. do 3 step1.
  apply K; [lia| | |].
  - bytes_tac.
  - norm. lia.
  - intros b NB. norm. reflexivity.
Qed.
(* src/actions.asm:646-666 *)
Lemma push_y_ok k (Q : string -> cpu -> Prop) st r t x y c z f v m : bytes_in m -> here nz m <= 65535 -> 0 <= t < 256 -> 0 <= y < 128 ->
  (y <= 124 -> m (nz + 21) + space t <= 255 -> forall a' x' z' f' v' m', bytes_in m' -> m' (nz + 21) = m (nz + 21) + space t -> m' (nz + 24) = y + 3 -> m' (1024 + y) = t -> m' (1024 + y + 1) = here nz m mod 256 -> m' (1024 + y + 2) = here nz m / 256 ->
     (forall b, b <> nz + 21 -> b <> nz + 24 -> ~ 1024 + y <= b < 1024 + y + 3 -> m' b = m b) -> wp P k (mkcpu a' x' (y + 3) false z' f' v' m' st r) Q) ->
  (y <= 124 -> 255 < m (nz + 21) + space t -> forall s', Y s' = 12 -> Q "parser_error" s') ->
  (124 < y -> forall s', Y s' = 20 -> M s' = m -> Q "parser_error" s') ->
  wp P (entry P "push_codep_y") (mkcpu t x y c z f v m (CRet k :: st) r) Q.
Proof.
  pose proof OK as ((?&?&_) & ? & ? & _). intros WM HB BT BY K E1 E2. pose proof (WM (nz + 21)) as BO. to_code "push_codep_y". do 3 step1. rewrite !(b8_small (_ + 1)) by (rewrite ?b8_small; rewrite ?b8_small; lia).
  replace (y + 1 + 1 + 1) with (y + 3) by lia. step1; zb.
  { to_code "loop_error". step1. step1. apply E2; auto. lia. }
  ncells. unfold loop_stk. step1. step1. norm. step1. replace (1024 - 3 + (y + 3)) with (1024 + y) by lia.
  set (m1 := upd (upd m (nz + 24) (y + 3)) (1024 + y) t). assert (W1 : bytes_in m1) by (unfold m1; bytes_tac).
  assert (F1 : forall b, b <> nz + 24 -> b <> 1024 + y -> m1 b = m b) by (intros b N1 N2; unfold m1; norm; reflexivity).
  assert (S1 : m1 (nz + 24) = y + 3) by (unfold m1; norm; reflexivity). assert (S2 : m1 (1024 + y) = t) by (unfold m1; norm; reflexivity). clearbody m1.
  assert (H1' : here nz m1 = here nz m) by (unfold here, pointer, word_of; rewrite !F1 by lia; reflexivity).
  match goal with |- wp _ (In (JSR _) :: ?c) _ _ => set (kk := c) end. eapply wp_jsr; [reflexivity|]. cpu_red. to_label "get_codep". apply codep_ok; [exact W1|lia|]. intros a1 x1 z1 f1 v1 BA1 BX1 E. rewrite H1' in E. unfold kk. clear kk.
  unfold loop_stk. step1. norm. step1. step1. norm. step1. 
  replace (1024 - 2 + (y + 3)) with (1024 + y + 1) by lia. replace (1024 - 1 + (y + 3)) with (1024 + y + 2) by lia.
  set (m2 := upd (upd m1 (1024 + y + 1) a1) (1024 + y + 2) x1). assert (W2 : bytes_in m2) by (unfold m2; bytes_tac).
  assert (F2 : forall b, b <> nz + 24 -> ~ 1024 + y <= b < 1024 + y + 3 -> m2 b = m b) by (intros b N1 N2; unfold m2; norm; apply F1; lia).
  assert (S3 : m2 (nz + 24) = y + 3) by (unfold m2; norm; exact S1). assert (S4 : m2 (1024 + y) = t) by (unfold m2; norm; exact S2).
  assert (S5 : m2 (1024 + y + 1) = here nz m mod 256) by (unfold m2; norm; zm). assert (S6 : m2 (1024 + y + 2) = here nz m / 256) by (unfold m2; norm; zm). clearbody m2. clear m1 W1 F1 S1 S2 H1'.
  step1. assert (TB : (128 <=? b8 (2 * t)) = Z.testbit t 6).
  { assert (H8 : forallb (fun a => let c := Z.of_nat a in Bool.eqb (128 <=? b8 (2 * c)) (Z.testbit c 6)) (seq 0 256) = true) by (vm_compute; reflexivity).
    rewrite forallb_forall in H8. specialize (H8 (Z.to_nat t)). rewrite in_seq in H8. specialize (H8 ltac:(lia)). cbv zeta in H8. rewrite Z2Nat.id in H8 by lia. apply Bool.eqb_prop in H8. exact H8. }
  unfold space in *. rewrite TB. destruct (Z.testbit t 6).
  - step1; [|discriminate]. to_code "push.xit". step1. step1. apply K; auto; try lia. rewrite F2 by lia. lia.
  - step1; [discriminate|]. step1. to_label "inc_opos_2". apply inc2_ok; [exact W2| |]; rewrite (F2 (nz + 21)) by lia.
    + intros LT z3 f3 m3 W3 O3 F3. apply K; auto; try lia; try (rewrite F3 by lia; auto). intros b N1 N2 N3. rewrite F3, F2; auto.
    + intros GE s' ES. apply E1; auto; lia.
Qed.

Lemma blocks_more m m' es t w : blocks nz m es -> (List.length es < 42)%nat -> 0 <= t < 256 -> 0 <= w < 65536 -> let n := 3 * Z.of_nat (List.length es) in
  m' (nz + 24) = n + 3 -> m' (1024 + n) = t -> m' (1024 + n + 1) = w mod 256 -> m' (1024 + n + 2) = w / 256 -> (forall b, 1024 <= b < 1024 + n -> m' b = m b) -> blocks nz m' (es ++ [(t, w)]).
Proof.
  intros (B1 & B2 & B3 & B4) LE BT BW n E0 E1 E2 E3 F. split; [rewrite E0, app_length; cbn [List.length]; unfold n; lia|]. split; [rewrite app_length; cbn [List.length]; lia|]. split.
  - rewrite flat_map_app. apply bytes_at_app. split; [eapply bytes_at_ext; [|exact B3]; intros b HB; apply F; rewrite stack_length in HB; unfold n; lia|].
    rewrite stack_length. cbn [flat_map app fst snd]. replace (1024 + Z.of_nat (3 * List.length es)) with (1024 + n) by (unfold n; lia).
    apply bytes_at_cons. split; [exact E1|]. apply bytes_at_cons. split; [exact E2|]. apply bytes_at_cons. split; [rewrite <- E3; f_equal; lia|]. intros k K. cbn in K. lia.
  - apply Forall_app. split; [exact B4|]. constructor; [auto|constructor].
Qed.
(* src/actions.asm:643-666 *)
Lemma push_ok k (Q : string -> cpu -> Prop) st r es t x y c z f v m : bytes_in m -> here nz m <= 65535 -> blocks nz m es -> 0 <= t < 256 -> 1664 <= pointer nz m 0 ->
  ((List.length es < 42)%nat -> m (nz + 21) + space t <= 255 -> forall a' x' y' z' f' v' m', bytes_in m' -> m' (nz + 21) = m (nz + 21) + space t -> blocks nz m' (es ++ [(t, here nz m)]) -> sb [] m m' ->
     (forall b, tmp1 L <= b < tmp1 L + 10 -> m' b = m b) -> wp P k (mkcpu a' x' y' false z' f' v' m' st r) Q) ->
  ((List.length es < 42)%nat -> 255 < m (nz + 21) + space t -> forall s', Y s' = 12 -> Q "parser_error" s') ->
  (List.length es = 42%nat -> forall s', Y s' = 20 -> Q "parser_error" s') ->
  wp P (entry P "push_codep") (mkcpu t x y c z f v m (CRet k :: st) r) Q.
Proof.
  pose proof OK as ((?&?&_) & ? & ? & _). intros WM HB BL BT BP K E1 E2. pose proof BL as (B1 & B2 & _). pose proof (WM (nz + 21)). to_code "push_codep". ncells. step1. step1. to_label "push_codep_y". rewrite B1.
  apply push_y_ok; auto; try lia.
  - intros LY OP a' x' z' f' v' m' W' O' S1 S2 S3 S4 F. apply K; auto; try lia.
    + eapply blocks_more; eauto; try lia; [unfold here in *; lia|]. intros b HB'. apply F; lia.
    + intros b N1 N2 N3 N4 _. apply F; lia.
    + intros b HB'. apply F; lia.
  - intros LY OP. apply E1; lia.
  - intros LY s' HY _. apply E2; auto. lia.
Qed.
(* src/actions.asm:601-620 *)
Lemma emit_addr_ok k (Q : string -> cpu -> Prop) st r w y z f v m : bytes_in m -> 1664 <= pointer nz m 0 <= 65000 -> 0 <= w < 65536 ->
  (m (nz + 21) < 254 -> forall a' x' y' z' f' v' m', bytes_in m' -> wordat m' (here nz m) = (w + word_of m nz) mod 65536 -> m' (nz + 21) = m (nz + 21) + 2 -> m' (nz + 24) = m (nz + 24) ->
     (forall b, b <> here nz m -> b <> here nz m + 1 -> b <> nz + 21 -> m' b = m b) -> wp P k (mkcpu a' x' y' false z' f' v' m' st r) Q) ->
  (254 <= m (nz + 21) -> forall s', Y s' = 12 -> Q "parser_error" s') ->
  wp P (entry P "emit_addr") (mkcpu (w mod 256) (w / 256) y false z f v m (CRet k :: st) r) Q.
Proof.
  pose proof OK as ((?&?&_) & ? & ? & _). intros WM BP BW K E. to_code "emit_addr". ncells. pose proof (WM nz). pose proof (WM (nz + 1)). pose proof (WM (nz + 21)). 
  do 7 step1. to_label "emit_AX".
  assert (EP : pointer nz m 0 = wordat m (prog_ptr nz)) by (unfold pointer, word_of, wordat; ncells; now rewrite Z.add_0_r).
  apply emit_AX_ok with (p := pointer nz m 0); auto; try apply b8_range; try lia.
  ncells. intros LT y' z' f' m' BY' W' E1 E2 E3 F. fold (here nz m) in *. apply K; auto.
  - unfold wordat. rewrite E1, E2. unfold word_of, b8. destruct (Z.leb_spec 256 (w mod 256 + m nz + 0)); zm.
  - apply F; try lia; unfold here; lia.
Qed.
(* src/actions.asm:599-620 *)
Lemma pop_emit_ok k (Q : string -> cpu -> Prop) st r es t0 x y c z f v m : bytes_in m -> 1664 <= pointer nz m 0 <= 65000 -> blocks nz m es -> 0 <= t0 < 256 ->
  (forall es1 t w, es = es1 ++ [(t, w)] -> pops t0 t -> m (nz + 21) < 254 -> forall a' x' y' z' f' v' m', bytes_in m' -> blocks nz m' es1 -> wordat m' (here nz m) = (w + word_of m nz) mod 65536 -> m' (nz + 21) = m (nz + 21) + 2 ->
     (forall b, b <> here nz m -> b <> here nz m + 1 -> b <> nz + 21 -> b <> nz + 24 -> m' b = m b) -> wp P k (mkcpu a' x' y' false z' f' v' m' st r) Q) ->
  (forall es1 t w, es = es1 ++ [(t, w)] -> pops t0 t -> 254 <= m (nz + 21) -> forall s', Y s' = 12 -> Q "parser_error" s') ->
  ((forall es1 t w, es = es1 ++ [(t, w)] -> ~ pops t0 t) -> forall s', Y s' = 20 -> Q "parser_error" s') ->
  wp P (entry P "pop_emit_addr") (mkcpu t0 x y c z f v m (CRet k :: st) r) Q.
Proof.
  pose proof OK as ((?&?&_) & ? & ? & _). intros WM BP BL BT K E1 E2. to_code "pop_emit_addr". match goal with |- wp _ (In (JSR _) :: ?c) _ _ => set (kk := c) end. eapply wp_jsr; [reflexivity|]. cpu_red. to_label "pop_codep".
  apply pop_ok with (es := es); auto.
  intros es1 t w HE PT z1 f1 m1 W1 BL1 F1. unfold kk. step1. to_label "emit_addr". pose proof (proj2 (proj2 (proj2 BL))) as FA. rewrite HE in FA. apply Forall_app in FA as (_ & FA). inversion FA as [|? ? (_ & BW) _]. cbn [snd] in BW.
  assert (H1' : here nz m1 = here nz m) by (unfold here, pointer, word_of; rewrite !F1 by lia; reflexivity). assert (P1' : pointer nz m1 0 = pointer nz m 0) by (unfold pointer, word_of; rewrite !F1 by lia; reflexivity).
  pose proof (WM (nz + 21)) as BO. assert (BH : 1664 <= here nz m) by (unfold here; lia).
  apply emit_addr_ok; auto; try lia.
  - rewrite H1', (F1 (nz + 21)) by lia. intros LT a' x' y' z' f' v' m' W' EW O' S' F'. eapply K; eauto.
    + eapply blocks_same; [exact BL1| |exact S']. intros b HB. apply F'; unfold here in *; lia.
    + rewrite EW. unfold word_of. rewrite !F1 by lia. reflexivity.
    + intros b N1 N2 N3 N4. rewrite F', F1 by auto. reflexivity.
  - rewrite (F1 (nz + 21)) by lia. intros GE. eapply E1; eauto.
Qed.
End B.
