(* Labels of the native compiler: the list of definitions and references. *)
From Verif Require Export NativeBlock2 SpecLabel.

Section B.
Variable L : lay.
Variable nz : Z.
Hypothesis OK : native_ok L nz.
Variable fp : bool.
Notation P := (native fp L nz).
Notation ptr m j := (wordat m (nz + 6 + 2 * j)).
Notation sb := (same_but (zp L) nz).
Notation nums rs := (map (fun r : Z * Z * Z => fst (fst r)) rs).

Ltac to_code l :=
  match goal with |- wp ?P _ ?s ?Q =>
    let c := eval cbv [native app entry find_lb find_in rt c_interp c_move_loop c_negax c_addsub c_absneg c_bit
       c_logic c_sgn c_shift c_comp0 c_mul c_div c_for c_for_exit c_incdec c_stack c_peek
       c_const c_varaddr c_varstore c_varadd c_constpoke c_jump c_return c_cmpstr c_copystr c_stridx c_move c_nmove
       c_mset c_clearmem c_rand c_streol c_val c_rom c_alloc c_vars c_emit c_actions
       String.eqb Ascii.eqb Bool.eqb] in (entry P l) in
    change (wp P c s Q)
  end.
Ltac to_label l := lazymatch goal with |- wp ?p _ ?s ?Q => change (wp p (entry p l) s Q) end.
Ltac jsr l kk := match goal with |- wp _ (In (JSR _) :: ?c) _ _ => set (kk := c) end; eapply wp_jsr; [reflexivity|]; cpu_red; to_label l.

Lemma records_length rs : List.length (flat_map record_bytes rs) = (4 * List.length rs)%nat.
Proof. induction rs as [|[[n k] w] rs IH]; [reflexivity|]. cbn [flat_map record_bytes app List.length]. rewrite IH. lia. Qed.

(* src/actions.asm:435-440 *)
Lemma next_step (Q : string -> cpu -> Prop) st r p a x y z f v m : bytes_in m -> wordat m (tmp1 L) = p -> p + 4 < 65536 ->
  (forall c' z' f' v' m', bytes_in m' -> m' (tmp1 L + 1) = (p + 4) / 256 -> (forall b, b <> tmp1 L + 1 -> m' b = m b) -> wp P (entry P "laddr.comp") (mkcpu ((p + 4) mod 256) x y c' z' f' v' m' st r) Q) ->
  wp P (entry P "next_laddr") (mkcpu a x y false z f v m st r) Q.
Proof.
  pose proof OK as ((?&?&_) & ? & ? & _). intros WM EP BP K. pose proof (WM (tmp1 L)). pose proof (WM (tmp1 L + 1)). unfold wordat in EP. to_code "next_laddr". step1. step1. step1; zb.
  - to_label "laddr.comp". replace (b8 (m (tmp1 L) + 4 + 0)) with ((p + 4) mod 256) by (unfold b8; zm). apply K; auto. zm.
  - step1. rewrite (b8_small (_ + 1)) by zm. step1. to_label "laddr.comp". replace (b8 (m (tmp1 L) + 4 + 0)) with ((p + 4) mod 256) by (unfold b8; zm). apply K.
    + bytes_tac.
    + norm. zm.
    + intros b NB. norm. reflexivity.
Qed.

(* src/actions.asm:441-462: from a place of the list on, looks for the next record of the label *)
Lemma comp_ok k (Q : string -> cpu -> Prop) st r n : forall rs p x y c z f v m, bytes_in m -> m (tmp1 L + 1) = p / 256 -> m (nz + 3) = n -> ptr m 4 = p + 4 * Z.of_nat (List.length rs) -> ptr m 4 <= 65000 -> 1664 <= p ->
  bytes_at m p (flat_map record_bytes rs) -> Forall record_ok rs ->
  (forall rs1 kd w rs2, rs = rs1 ++ (n, kd, w) :: rs2 -> ~ List.In n (nums rs1) -> forall v' m', bytes_in m' -> wordat m' (tmp1 L) = p + 4 * Z.of_nat (List.length rs1) -> (forall b, b <> tmp1 L -> b <> tmp1 L + 1 -> m' b = m b) ->
     wp P k (mkcpu (w mod 256) (w / 256) 3 false (kd =? 0) (128 <=? kd) v' m' st r) Q) ->
  (~ List.In n (nums rs) -> forall a' y' z' f' v' m', bytes_in m' -> (forall b, b <> tmp1 L -> b <> tmp1 L + 1 -> m' b = m b) -> wp P k (mkcpu a' x y' true z' f' v' m' st r) Q) ->
  wp P (entry P "laddr.comp") (mkcpu (p mod 256) x y c z f v m (CRet k :: st) r) Q.
Proof.
  pose proof OK as ((?&?&_) & ? & ? & _). induction rs as [|[[n0 kd] w] rs IH]; intros p x y c z f v m WM EH EN EP BP LP BA FR KF KN;
    pose proof (WM (nz + 14)); pose proof (WM (nz + 15)); assert (EP4 : ptr m 4 = m (nz + 14) + 256 * m (nz + 15)) by (unfold wordat; change (2 * 4) with 8; replace (nz + 6 + 8) with (nz + 14) by lia; replace (nz + 14 + 1) with (nz + 15) by lia; reflexivity).
  - cbn [List.length] in EP. rewrite EP in *. to_code "laddr.comp". ncells. step1. step1. norm. step1. norm. rewrite EH. step1. norm. replace (nz + 14 + 1) with (nz + 15) by lia.
    assert (G : m (nz + 14) = p mod 256 /\ m (nz + 15) = p / 256) by (split; zm). destruct G as (G1 & G2). rewrite G1, G2. rewrite (proj2 (Z.leb_le (p mod 256) (p mod 256))) by lia.
    step1; zb; [|zm]. to_code "laddr.xit". rewrite (proj2 (Z.leb_le 0 (p / 256 - p / 256 - (1 - 1)))) by lia. step1. apply KN; [intros []|bytes_tac; zm|]. intros b N1 N2. norm. reflexivity.
  - cbn [List.length] in EP. pose proof (Forall_inv FR) as (R1 & R2 & R3). pose proof (Forall_inv_tail FR) as FR'. cbn [fst snd] in *. cbn [flat_map record_bytes app] in BA. apply bytes_at_cons in BA as (B0 & BA). apply bytes_at_cons in BA as (B1 & BA). apply bytes_at_cons in BA as (B2 & BA). apply bytes_at_cons in BA as (B3 & BA).
    replace (p + 1 + 1 + 1 + 1) with (p + 4) in BA by lia. replace (p + 1 + 1 + 1) with (p + 3) in B3 by lia. replace (p + 1 + 1) with (p + 2) in B2 by lia.
    to_code "laddr.comp". ncells. step1. step1. norm. step1. norm. rewrite EH. step1. norm. replace (nz + 14 + 1) with (nz + 15) by lia.
    assert (LT : p / 256 - m (nz + 15) - (1 - (if m (nz + 14) <=? p mod 256 then 1 else 0)) < 0) by (destruct (Z.leb_spec (m (nz + 14)) (p mod 256)); zm).
    set (dd := p / 256 - m (nz + 15) - (1 - (if m (nz + 14) <=? p mod 256 then 1 else 0))) in *. clearbody dd. step1; zb; [lia|]. rewrite (proj2 (Z.leb_gt 0 dd)) by lia. set (m1 := upd m (tmp1 L) (p mod 256)). assert (W1 : bytes_in m1) by (unfold m1; bytes_tac; zm). assert (F1 : forall b, b <> tmp1 L -> m1 b = m b) by (intros b NB; unfold m1; norm; reflexivity).
    assert (EP1 : m1 (tmp1 L) + 256 * m1 (tmp1 L + 1) = p) by (unfold m1; norm; zm). clearbody m1.
    step1. step1. rewrite EP1, Z.add_0_r. rewrite b16_small by lia. rewrite (F1 p), B0 by lia. step1. rewrite (F1 (nz + 3)) by lia. rewrite EN. step1; zb.
    + to_label "next_laddr". eapply next_step with (p := p); auto; [lia|]. intros c' z' f' v' m' W' E' F'. apply IH; auto.
      * rewrite F', F1 by lia. exact EN.
      * unfold wordat in *. rewrite !F', !F1 by lia. lia.
      * unfold wordat in *. rewrite !F', !F1 by lia. lia.
      * lia.
      * eapply bytes_at_ext; [|exact BA]. intros b HB. rewrite F', F1 by lia. reflexivity.
      * intros rs1 kd' w' rs2 HE NI v2 m2 W2 E2 F2. apply (KF ((n0, kd, w) :: rs1) kd' w' rs2); auto.
        -- cbn [app]. now f_equal.
        -- cbn [map fst]. intros [HN|HN]; [|exact (NI HN)]. apply K0. rewrite HN. apply Z.lxor_nilpotent.
        -- cbn [List.length]. lia.
        -- intros b N1 N2. rewrite F2, F', F1; auto.
      * intros NI a2 y2 z2 f2 v2 m2 W2 F2. apply KN; auto; [|intros b N1 N2; rewrite F2, F', F1; auto]. cbn [map fst]. intros [HN|HN]; [|exact (NI HN)]. apply K0. rewrite HN. apply Z.lxor_nilpotent.
    + assert (N0 : n0 = n) by (apply Z.lxor_eq; lia). step1. change (b8 (0 + 1)) with 1. step1. rewrite EP1. rewrite (b16_small (p + 1)) by lia. rewrite (F1 (p + 1)), B1 by lia. step1. step1. change (b8 (1 + 1)) with 2. step1. rewrite EP1. rewrite (b16_small (p + 2)) by lia. rewrite (F1 (p + 2)), B2 by lia.
      step1. step1. change (b8 (2 + 1)) with 3. step1. rewrite EP1. rewrite (b16_small (p + 3)) by lia. rewrite (F1 (p + 3)), B3 by lia. step1. step1. step1. apply (KF [] kd w rs); [cbn [app]; now rewrite N0|intros []|exact W1|cbn [List.length]; unfold wordat; lia|intros; apply F1; auto].
Qed.
(* src/actions.asm:464-469 *)
Lemma search_start_ok k (Q : string -> cpu -> Prop) st r n rs a y c z f v m : bytes_in m -> 0 <= n < 256 -> ptr m 4 = ptr m 3 + 4 * Z.of_nat (List.length rs) -> ptr m 4 <= 65000 -> 1664 <= ptr m 3 ->
  bytes_at m (ptr m 3) (flat_map record_bytes rs) -> Forall record_ok rs ->
  (forall rs1 kd w rs2, rs = rs1 ++ (n, kd, w) :: rs2 -> ~ List.In n (nums rs1) -> forall v' m', bytes_in m' -> m' (nz + 3) = n -> wordat m' (tmp1 L) = ptr m 3 + 4 * Z.of_nat (List.length rs1) -> (forall b, b <> nz + 3 -> b <> tmp1 L -> b <> tmp1 L + 1 -> m' b = m b) ->
     wp P k (mkcpu (w mod 256) (w / 256) 3 false (kd =? 0) (128 <=? kd) v' m' st r) Q) ->
  (~ List.In n (nums rs) -> forall a' y' z' f' v' m', bytes_in m' -> m' (nz + 3) = n -> (forall b, b <> nz + 3 -> b <> tmp1 L -> b <> tmp1 L + 1 -> m' b = m b) -> wp P k (mkcpu a' n y' true z' f' v' m' st r) Q) ->
  wp P (entry P "laddr_search_start") (mkcpu a n y c z f v m (CRet k :: st) r) Q.
Proof.
  pose proof OK as ((?&?&_) & ? & ? & _). intros WM BN EP BP LP BA FR KF KN. to_code "laddr_search_start". ncells. pose proof (WM (nz + 12)). pose proof (WM (nz + 12 + 1)).
  assert (EP3 : ptr m 3 = m (nz + 12) + 256 * m (nz + 12 + 1)) by (unfold wordat; change (2 * 3) with 6; replace (nz + 6 + 6) with (nz + 12) by lia; reflexivity).
  step1. step1. step1. step1. step1; zb; [|lia]. to_label "laddr.comp". set (m1 := upd _ _ n). assert (W1 : bytes_in m1) by (unfold m1; bytes_tac).
  assert (F1 : forall b, b <> nz + 3 -> b <> tmp1 L -> b <> tmp1 L + 1 -> m1 b = m b) by (intros b N1 N2 N3; unfold m1; norm; reflexivity).
  assert (E1 : m1 (nz + 3) = n) by (unfold m1; norm; reflexivity). assert (E2 : m1 (tmp1 L + 1) = m (nz + 12 + 1)) by (unfold m1; norm; reflexivity). clearbody m1.
  replace (m (nz + 12)) with (ptr m 3 mod 256) by zm. apply comp_ok with (n := n) (rs := rs); auto.
  - rewrite E2. zm.
  - unfold wordat in *. rewrite !(F1 (nz + 6 + 2 * 4)), !(F1 (nz + 6 + 2 * 4 + 1)) by lia. lia.
  - unfold wordat in *. rewrite !(F1 (nz + 6 + 2 * 4)), !(F1 (nz + 6 + 2 * 4 + 1)) by lia. lia.
  - eapply bytes_at_ext; [|exact BA]. intros b HB. apply F1; lia.
  - intros rs1 kd w rs2 HE NI v2 m2 W2 E3 F2. apply (KF rs1 kd w rs2); auto; [rewrite F2 by lia; exact E1|]. intros b N1 N2 N3. rewrite F2, F1; auto.
  - intros NI a2 y2 z2 f2 v2 m2 W2 F2. apply KN; auto; [rewrite F2 by lia; exact E1|]. intros b N1 N2 N3. rewrite F2, F1; auto.
Qed.

(* What add_laddr_list, src/actions.asm:473-499, does: a record at the end of the list. *)
Definition recorded (n kd : Z) (m m' : Z -> Z) : Prop :=
  (forall i, 0 <= i <= 3 -> ptr m' i = ptr m i) /\ ptr m' 4 = ptr m 4 + 4 /\ bytes_at m' (ptr m 4) (record_bytes (n, kd, here nz m)) /\
  (forall b, ~ alloc_work L nz b -> ~ nz + 6 <= b < nz + 16 -> b <> tmp2 L -> b <> tmp2 L + 1 -> ~ ptr m 4 <= b < ptr m 4 + 4 -> m' b = m b).
(* src/actions.asm:473-499 *)
Lemma add_ok k (Q : string -> cpu -> Prop) st r n kd x y c z f v m : bytes_in m -> m move_ins = 136 -> 0 <= kd < 256 -> m (nz + 3) = n ->
  (forall i, 0 <= i < 4 -> ptr m i <= ptr m (i + 1)) -> 1664 <= ptr m 0 -> ptr m 4 <= 65000 -> here nz m <= 65535 -> here nz m <= ptr m 4 ->
  (ptr m 4 + 4 < wordat m MEMTOP -> forall x' y' z' f' v' m', 0 <= x' < 256 -> bytes_in m' -> m' move_ins = 136 -> recorded n kd m m' -> wp P k (mkcpu x' x' y' false z' f' v' m' st r) Q) ->
  (wordat m MEMTOP <= ptr m 4 + 4 -> forall s', Q "err_nomem" s') ->
  wp P (entry P "add_laddr_list") (mkcpu kd x y c z f v m (CRet k :: st) r) Q.
Proof.
  pose proof OK as ((?&?&_) & ? & ? & _). intros WM MI BK EN SO P0 P4 HB HP K E. to_code "add_laddr_list". ncells. pose proof (WM (nz + 14)). pose proof (WM (nz + 14 + 1)).
  assert (EP4 : ptr m 4 = m (nz + 14) + 256 * m (nz + 14 + 1)) by (unfold wordat; change (2 * 4) with 8; replace (nz + 6 + 8) with (nz + 14) by lia; reflexivity).
  do 6 step1. norm. set (m1 := upd _ (tmp2 L + 1) _). assert (W1 : bytes_in m1) by (unfold m1; bytes_tac).
  assert (F1 : forall b, b <> tmp2 L -> b <> tmp2 L + 1 -> m1 b = m b) by (intros b N1 N2; unfold m1; norm; reflexivity).
  assert (E1 : wordat m1 (tmp2 L) = ptr m 4) by (unfold m1, wordat at 1; norm; lia). clearbody m1.
  assert (PE : forall i, 0 <= i <= 4 -> ptr m1 i = ptr m i) by (intros i HI; unfold wordat; rewrite !F1 by lia; reflexivity).
  jsr "alloc_laddr" kk. to_code "alloc_laddr". step1. step1. to_label "alloc_area_8". change 8 with (2 * 4). consts.
  assert (MT : wordat m1 741 = wordat m 741) by (unfold wordat; rewrite !F1 by lia; reflexivity).
  apply (NativeAlloc.alloc_ok L nz OK fp); auto; rewrite ?PE by lia; try lia.
  - consts. rewrite F1 by lia. exact MI.
  - intros i HI. rewrite !PE by lia. apply SO. exact HI.
  - consts. rewrite MT. intros ROOM a2 x2 y2 c2 z2 f2 v2 m2 BA2 BX2 BY2 W2 MI2 (MV1 & _ & MV3). unfold kk. clear kk.
    assert (F2 : forall b, ~ alloc_work L nz b -> ~ nz + 6 <= b < nz + 16 -> b <> tmp2 L -> b <> tmp2 L + 1 -> m2 b = m b) by (intros b N1 N2 N3 N4; rewrite MV3; auto; rewrite PE by lia; lia).
    assert (E2 : m2 (tmp2 L) + 256 * m2 (tmp2 L + 1) = ptr m 4) by (rewrite <- E1; unfold wordat; rewrite !MV3; try reflexivity; rewrite ?PE by lia; unfold alloc_work, loopcell; ncells; lia).
    assert (P2 : forall i, 0 <= i <= 3 -> ptr m2 i = ptr m i) by (intros i HI; rewrite MV1, PE by lia; replace (4 <=? i) with false by (symmetry; apply Z.leb_gt; lia); lia).
    assert (P24 : ptr m2 4 = ptr m 4 + 4) by (rewrite MV1, PE by lia; reflexivity).
    assert (N2 : m2 (nz + 3) = n) by (rewrite F2; unfold alloc_work, loopcell; ncells; lia). assert (O2 : m2 (nz + 21) = m (nz + 21)) by (rewrite F2; unfold alloc_work, loopcell; ncells; lia).
    assert (H2' : here nz m2 = here nz m) by (unfold here; rewrite O2; change (pointer nz m2 0) with (ptr m2 0); rewrite P2 by lia; reflexivity).
    assert (BN : 0 <= n < 256) by (rewrite <- EN; apply WM).
    ncells. assert (SO4 : ptr m 0 <= ptr m 4) by (pose proof (SO 0 ltac:(lia)); pose proof (SO 1 ltac:(lia)); pose proof (SO 2 ltac:(lia)); pose proof (SO 3 ltac:(lia)); change (0 + 1) with 1 in *; change (1 + 1) with 2 in *; change (2 + 1) with 3 in *; change (3 + 1) with 4 in *; lia).
    assert (EE : exists e, e = ptr m 4) by (eexists; reflexivity). destruct EE as (e & EE). rewrite <- EE in *.
    step1. step1. step1. rewrite E2. rewrite !b16_small by lia. rewrite N2. rewrite Z.add_0_r.
    step1. step1. change (b8 (0 + 1)) with 1. step1. norm. replace (m2 (tmp2 L) + 256 * m2 (tmp2 L + 1) + 1) with (e + 1) by lia.
    set (m3 := upd (upd m2 e n) (e + 1) kd). assert (W3 : bytes_in m3) by (unfold m3; bytes_tac).
    assert (F3 : forall b, ~ e <= b < e + 2 -> m3 b = m2 b) by (intros b NB; unfold m3; norm; reflexivity). assert (H3' : here nz m3 = here nz m) by (rewrite <- H2'; unfold here, pointer, word_of; rewrite !F3 by lia; reflexivity).
    assert (G0 : m3 e = n) by (unfold m3; norm; reflexivity). assert (G1 : m3 (e + 1) = kd) by (unfold m3; norm; reflexivity). assert (E3 : m3 (tmp2 L) + 256 * m3 (tmp2 L + 1) = e) by (rewrite !F3 by lia; exact E2). clearbody m3.
    jsr "get_codep" kk. apply codep_ok; auto; [lia|]. intros a4 x4 z4 f4 v4 BA4 BX4 EH. unfold kk. clear kk. rewrite H3' in EH.
    step1. step1. rewrite E3. rewrite (b16_small (e + 3)) by lia. step1. change (b8 (3 - 1)) with 2. step1. step1. norm. replace (m3 (tmp2 L) + 256 * m3 (tmp2 L + 1) + 2) with (e + 2) by lia. step1.
    apply K; auto.
    + bytes_tac.
    + norm. rewrite F3 by lia. exact MI2.
    + red. rewrite <- EE. split; [intros i HI; rewrite <- (P2 i HI); unfold wordat; norm; rewrite !F3 by lia; reflexivity|]. split; [rewrite <- P24; unfold wordat; norm; rewrite !F3 by lia; reflexivity|]. split.
      * cbn [record_bytes]. apply bytes_at_cons. split; [norm; exact G0|]. apply bytes_at_cons. split; [norm; exact G1|]. apply bytes_at_cons. split; [norm; zm|]. apply bytes_at_cons. split; [norm; zm|]. intros i HI. cbn in HI. lia.
      * intros b N1 N3 N4 N5 N6. norm. rewrite F3, F2; auto. lia.
  - consts. rewrite MT. intros FULL. intros. apply E. exact FULL.
Qed.

(* src/actions.asm:540-556: the address of a label is that of its definition, or not known *)
Lemma cloop_ok (Q : string -> cpu -> Prop) st r n : forall j rs2 kd w p y z v m, (List.length rs2 <= j)%nat -> bytes_in m -> wordat m (tmp1 L) = p -> m (nz + 3) = n -> ptr m 4 = p + 4 + 4 * Z.of_nat (List.length rs2) -> ptr m 4 <= 65000 -> 1664 <= p ->
  bytes_at m (p + 4) (flat_map record_bytes rs2) -> Forall record_ok rs2 ->
  (forall kd' d, 128 <= kd' -> List.In (n, kd', d) ((n, kd, w) :: rs2) -> forall y' z' f' v' m', bytes_in m' -> (forall b, b <> tmp1 L -> b <> tmp1 L + 1 -> m' b = m b) ->
     wp P (entry P "emit_addr") (mkcpu (d mod 256) (d / 256) y' false z' f' v' m' st r) Q) ->
  ((forall kd' d, List.In (n, kd', d) ((n, kd, w) :: rs2) -> kd' < 128) -> forall a' x' y' z' f' v' m', bytes_in m' -> (forall b, b <> tmp1 L -> b <> tmp1 L + 1 -> m' b = m b) ->
     wp P (entry P "label.nfound") (mkcpu a' x' y' true z' f' v' m' st r) Q) ->
  wp P (entry P "label.cloop") (mkcpu (w mod 256) (w / 256) y false z (128 <=? kd) v m st r) Q.
Proof.
  pose proof OK as ((?&?&_) & ? & ? & _). induction j as [|j IH]; intros rs2 kd w p y z v m LJ WM ET EN EP BP LP BA FR KD KN; to_code "label.cloop";
    (destruct (Z.leb_spec 128 kd) as [G|G]; [step1; zb; [|discriminate]; to_label "emit_addr"; apply (KD kd w G); [now left|exact WM|reflexivity]|step1; zb; [discriminate|]]);
    jsr "next_laddr" kk; (eapply next_step with (p := p); [exact WM|exact ET|lia|]); intros c' z' f' v' m' W' E' F';
    (apply comp_ok with (n := n) (rs := rs2);
      [exact W'|exact E'|rewrite F' by lia; exact EN|unfold wordat in *; rewrite !F' by lia; lia|unfold wordat in *; rewrite !F' by lia; lia|lia
      |eapply bytes_at_ext; [|exact BA]; intros b HB; apply F'; rewrite records_length in HB; lia|exact FR| |]);
    try (intros NI a2 y2 z2 f2 v2 m2 W2 F2; unfold kk; clear kk; step1; zb; [discriminate|]; step1; to_label "label.nfound"; apply KN;
      [intros kd' d [HI|HI]; [injection HI; intros; lia|]; exfalso; apply NI; apply (in_map (fun r : Z * Z * Z => fst (fst r))) in HI; exact HI|exact W2|intros b N1 N2; rewrite F2, F'; auto]).
  - intros rs1 kd' w' rs3 HE. exfalso. rewrite HE, app_length in LJ. cbn [List.length] in LJ. lia.
  - intros rs1 kd' w' rs3 HE NI v2 m2 W2 E2 F2. unfold kk. clear kk. step1; zb; [|discriminate]. to_label "label.cloop".
    rewrite HE in FR, BA. apply Forall_app in FR as (FR1 & FR2). rewrite flat_map_app in BA. apply bytes_at_app in BA as (_ & BA). rewrite records_length in BA. cbn [flat_map record_bytes app] in BA. do 4 apply bytes_at_cons in BA as (_ & BA).
    set (p' := p + 4 + 4 * Z.of_nat (List.length rs1)) in *. replace (p + 4 + Z.of_nat (4 * List.length rs1) + 1 + 1 + 1 + 1) with (p' + 4) in BA by (unfold p'; lia).
    assert (LE : Z.of_nat (List.length rs2) = Z.of_nat (List.length rs1) + 1 + Z.of_nat (List.length rs3)) by (rewrite HE, app_length; cbn [List.length]; lia).
    assert (F3 : forall b, b <> tmp1 L -> b <> tmp1 L + 1 -> m2 b = m b) by (intros b N1 N2; rewrite F2, F'; auto).
    eapply IH with (rs2 := rs3) (p := p'); auto.
    + lia.
    + rewrite F3 by lia. exact EN.
    + unfold p', wordat in *. rewrite !F3 by lia. lia.
    + unfold wordat in *. rewrite !F3 by lia. lia.
    + unfold p'. lia.
    + eapply bytes_at_ext; [|exact BA]. intros b HB. apply F3; unfold p' in *; lia.
    + exact (Forall_inv_tail FR2).
    + intros kd2 d2 G2 HI y3 z3 f3 v3 m3 W3 F4. apply (KD kd2 d2 G2); [right; rewrite HE; apply in_or_app; right; exact HI|exact W3|intros b N1 N2; rewrite F4, F3; auto].
    + intros NK a3 x3 y3 z3 f3 v3 m3 W3 F4. apply KN; [|exact W3|intros b N1 N2; rewrite F4, F3; auto]. intros kd2 d2 [HI|HI]; [injection HI; intros; lia|]. rewrite HE in HI. apply in_app_or in HI as [HI|HI]; [|apply (NK kd2 d2 HI)].
      exfalso. apply NI. apply (in_map (fun r : Z * Z * Z => fst (fst r))) in HI. exact HI.
Qed.
(* src/actions.asm:507-521: puts the address into the places where the label was used *)
Lemma known_app n l1 l2 : map (known n) (l1 ++ l2) = map (known n) l1 ++ map (known n) l2. Proof. apply map_app. Qed.
Lemma known_other n rs : ~ List.In n (nums rs) -> map (known n) rs = rs.
Proof. induction rs as [|[[n0 kd] w] rs IH]; [reflexivity|]. cbn [map fst snd]. intros NI. rewrite IH by (intros HX; apply NI; now right). unfold known. cbn [fst snd]. rewrite (proj2 (Z.eqb_neq n0 n)) by (intros HX; apply NI; now left). reflexivity. Qed.
(* two places in the code are the same or do not overlap *)
Definition apart (a b : Z) : Prop := a = b \/ a + 2 <= b \/ b + 2 <= a.
Lemma dloop_ok (Q : string -> cpu -> Prop) st r n B : B <= 65000 -> forall j rs2 kd w p y z v m, (List.length rs2 <= j)%nat -> bytes_in m -> wordat m (tmp1 L) = p -> m (nz + 3) = n -> ptr m 4 = p + 4 + 4 * Z.of_nat (List.length rs2) -> ptr m 4 <= 65000 -> 1664 <= p -> B <= p -> here nz m < 65536 ->
  bytes_at m p (flat_map record_bytes ((n, kd, w) :: rs2)) -> Forall record_ok ((n, kd, w) :: rs2) ->
  (forall kd' d, List.In (n, kd', d) ((n, kd, w) :: rs2) -> kd' < 128 -> 1664 <= d /\ d + 2 <= B) ->
  (forall kd1 d1 kd2 d2, List.In (n, kd1, d1) ((n, kd, w) :: rs2) -> List.In (n, kd2, d2) ((n, kd, w) :: rs2) -> kd1 < 128 -> kd2 < 128 -> apart d1 d2) ->
  (forall kd' d, 128 <= kd' -> List.In (n, kd', d) ((n, kd, w) :: rs2) -> forall a' x' y' c' z' f' v' m', wp P (entry P "xit_label_err") (mkcpu a' x' y' c' z' f' v' m' st r) Q) ->
  ((forall kd' d, List.In (n, kd', d) ((n, kd, w) :: rs2) -> kd' < 128) -> forall a' x' y' z' f' v' m', bytes_in m' -> bytes_at m' p (flat_map record_bytes (map (known n) ((n, kd, w) :: rs2))) ->
     (forall kd' d, List.In (n, kd', d) ((n, kd, w) :: rs2) -> wordat m' d = target nz m) ->
     (forall b, ~ tmp1 L <= b < tmp1 L + 10 -> ~ p <= b < ptr m 4 -> (forall kd' d, List.In (n, kd', d) ((n, kd, w) :: rs2) -> b <> d /\ b <> d + 1) -> m' b = m b) ->
     wp P (entry P "def.nfound") (mkcpu a' x' y' true z' f' v' m' st r) Q) ->
  wp P (entry P "def.cloop") (mkcpu (w mod 256) (w / 256) y false z (128 <=? kd) v m st r) Q.
Proof.
  pose proof OK as ((?&?&_) & ? & ? & _). intros HB65.
  induction j as [|j IH]; intros rs2 kd w p y z v m LJ WM ET EN EP BP LP LB HH BA FR LOW AP KD KN; to_code "def.cloop";
    (destruct (Z.leb_spec 128 kd) as [G|G]; [step1; zb; [|discriminate]; to_label "xit_label_err"; apply (KD kd w G); now left|step1; zb; [discriminate|]]);
    pose proof (LOW kd w (or_introl eq_refl) G) as (LW1 & LW2); pose proof (Forall_inv FR) as (R1 & R2 & R3); cbn [fst snd] in R1, R2, R3;
    pose proof BA as BA0; cbn [flat_map record_bytes app] in BA; apply bytes_at_cons in BA as (B0 & BA); apply bytes_at_cons in BA as (B1 & BA); apply bytes_at_cons in BA as (B2 & BA); apply bytes_at_cons in BA as (B3 & BA);
    replace (p + 1 + 1 + 1 + 1) with (p + 4) in BA by lia; replace (p + 1 + 1 + 1) with (p + 3) in B3 by lia; replace (p + 1 + 1) with (p + 2) in B2 by lia;
    jsr "patch_codep" kk; (eapply patch_ok with (w := w); [exact OK|exact WM|exact HH|zm|zm|zm|lia|]); intros a5 x5 z5 f5 v5 m5 BA5 BX5 W5 EW SB5 EO5 ES5 F5 T51 T52; unfold kk; clear kk;
    assert (F6 : forall b, b <> w -> b <> w + 1 -> ~ tmp1 L + 2 <= b < tmp1 L + 10 -> m5 b = m b)
      by (intros b N1 N2 N3; destruct (Z.eq_dec b (nz + 21)) as [->|]; [exact EO5|]; destruct (Z.eq_dec b (nz + 24)) as [->|]; [exact ES5|]; destruct (Z.eq_dec b (tmp1 L)) as [->|]; [exact T51|];
          destruct (Z.eq_dec b (tmp1 L + 1)) as [->|]; [exact T52|]; assert (D : 1024 <= b < 1152 \/ ~ 1024 <= b < 1152) by lia; destruct D; [now apply F5|]; apply SB5; auto; [lia|intros a0 [<-|[]]; auto]);
    step1; step1; assert (ET5 : m5 (tmp1 L) + 256 * m5 (tmp1 L + 1) = p) by (rewrite T51, T52; exact ET); rewrite ET5; rewrite (b16_small (p + 1)) by lia;
    set (m6 := upd m5 (p + 1) 1); assert (W6 : bytes_in m6) by (unfold m6; bytes_tac); assert (E6 : m6 (p + 1) = 1) by (unfold m6; norm; reflexivity);
    assert (F7 : forall b, b <> p + 1 -> m6 b = m5 b) by (intros b NB; unfold m6; norm; reflexivity); clearbody m6;
    jsr "next_laddr" kk; (eapply next_step with (p := p); [exact W6|unfold wordat; rewrite !F7 by lia; exact ET5|lia|]); intros c' z' f' v' m' W' E' F';
    assert (F8 : forall b, b <> w -> b <> w + 1 -> b <> p + 1 -> ~ tmp1 L <= b < tmp1 L + 10 -> m' b = m b) by (intros b N1 N2 N3 N4; rewrite F', F7, F6; auto; lia);
    assert (EW' : wordat m' w = target nz m) by (rewrite <- EW; unfold wordat; rewrite !F', !F7 by lia; reflexivity);
    assert (E1' : m' (p + 1) = 1) by (rewrite F' by lia; exact E6);
    (apply comp_ok with (n := n) (rs := rs2);
      [exact W'|exact E'|rewrite F8 by lia; exact EN|unfold wordat in *; rewrite !F8 by lia; lia|unfold wordat in *; rewrite !F8 by lia; lia|lia
      |eapply bytes_at_ext; [|exact BA]; intros b HB; apply F8; rewrite records_length in HB; lia|exact (Forall_inv_tail FR)| |]);
    try (intros NI a2 y2 z2 f2 v2 m2 W2 F2; unfold kk; clear kk; step1; zb; [discriminate|]; step1; to_label "def.nfound"; 
      assert (ONLY : forall kd' d, List.In (n, kd', d) ((n, kd, w) :: rs2) -> kd' = kd /\ d = w)
        by (intros kd' d [HI|HI]; [injection HI; intros; lia|]; exfalso; apply NI; apply (in_map (fun r : Z * Z * Z => fst (fst r))) in HI; exact HI);
      apply KN;
      [intros kd' d HI; apply ONLY in HI; lia|exact W2| | |];
      [cbn [map]; rewrite known_other by exact NI; unfold known; cbn [fst snd]; rewrite Z.eqb_refl; cbn [flat_map record_bytes app];
       apply bytes_at_cons; split; [rewrite F2, F8 by lia; exact B0|]; apply bytes_at_cons; split; [rewrite F2 by lia; exact E1'|]; apply bytes_at_cons; split; [replace (p + 1 + 1) with (p + 2) by lia; rewrite F2, F8 by lia; exact B2|];
       apply bytes_at_cons; split; [replace (p + 1 + 1 + 1) with (p + 3) by lia; rewrite F2, F8 by lia; exact B3|]; replace (p + 1 + 1 + 1 + 1) with (p + 4) by lia; eapply bytes_at_ext; [|exact BA]; intros b HB; rewrite records_length in HB; rewrite F2, F8 by lia; reflexivity
      |intros kd' d HI; apply ONLY in HI as (_ & ->); rewrite <- EW'; unfold wordat; rewrite !F2 by lia; reflexivity
      |intros b N1 N2 N3; destruct (N3 kd w (or_introl eq_refl)); rewrite F2, F8; auto; lia]).
  - intros rs1 kd' w' rs3 HE. exfalso. rewrite HE, app_length in LJ. cbn [List.length] in LJ. lia.
  - intros rs1 kd' w' rs3 HE NI v2 m2 W2 E2 F2. unfold kk. clear kk. step1; zb; [|discriminate]. to_label "def.cloop".
    rewrite HE in BA. rewrite flat_map_app in BA. apply bytes_at_app in BA as (BA1 & BA). rewrite records_length in BA.
    set (p' := p + 4 + 4 * Z.of_nat (List.length rs1)) in *. replace (p + 4 + Z.of_nat (4 * List.length rs1)) with p' in BA by (unfold p'; lia).
    assert (LE : Z.of_nat (List.length rs2) = Z.of_nat (List.length rs1) + 1 + Z.of_nat (List.length rs3)) by (rewrite HE, app_length; cbn [List.length]; lia).
    assert (F3 : forall b, b <> w -> b <> w + 1 -> b <> p + 1 -> ~ tmp1 L <= b < tmp1 L + 10 -> m2 b = m b) by (intros b N1 N2 N3 N4; rewrite F2, F8; auto; lia).
    assert (SUB : forall r, List.In r ((n, kd', w') :: rs3) -> List.In r ((n, kd, w) :: rs2)) by (intros r0 HI; right; rewrite HE; apply in_or_app; now right).
    assert (TG : target nz m2 = target nz m) by (unfold target, here, pointer, word_of; rewrite !F3 by lia; reflexivity).
    assert (PP4 : ptr m2 4 = ptr m 4) by (unfold wordat; rewrite !F3 by lia; reflexivity).
    eapply IH with (rs2 := rs3) (p := p'); auto.
    + lia.
    + rewrite F3 by lia. exact EN.
    + unfold p'. lia.
    + lia.
    + unfold p'. lia.
    + unfold p'. lia.
    + unfold here, pointer, word_of in *. rewrite !F3 by lia. exact HH.
    + eapply bytes_at_ext; [|exact BA]. intros b HB. apply F3; unfold p' in *; lia.
    + apply Forall_inv_tail in FR. rewrite HE in FR. now apply Forall_app in FR as (_ & FR).
    + intros kd2 d2 HI G2. apply (LOW kd2 d2); auto.
    + intros kd1 d1 kd2 d2 HI1 HI2 G1 G2. apply (AP kd1 d1 kd2 d2); auto.
    + intros kd2 d2 G2 HI. apply (KD kd2 d2 G2). auto.
    + rewrite TG. intros NK a3 x3 y3 z3 f3 v3 m3 W3 BT3 WT3 F4.
      assert (ALL : forall kd2 d2, List.In (n, kd2, d2) ((n, kd, w) :: rs2) -> d2 = w /\ kd2 = kd \/ List.In (n, kd2, d2) ((n, kd', w') :: rs3)).
      { intros kd2 d2 [HI|HI]; [injection HI; intros; left; split; congruence|]. right. rewrite HE in HI. apply in_app_or in HI as [HI|HI]; [|exact HI]. exfalso. apply NI. apply (in_map (fun r : Z * Z * Z => fst (fst r))) in HI. exact HI. }
      assert (LT : forall kd2 d2, List.In (n, kd2, d2) ((n, kd, w) :: rs2) -> kd2 < 128) by (intros kd2 d2 HI; destruct (ALL _ _ HI) as [(_ & ->)|HI2]; [lia|apply (NK _ _ HI2)]).
      assert (F9 : forall b, ~ tmp1 L <= b < tmp1 L + 10 -> ~ p' <= b < ptr m 4 -> (forall kd2 d2, List.In (n, kd2, d2) ((n, kd', w') :: rs3) -> b <> d2 /\ b <> d2 + 1) -> m3 b = m2 b) by (intros b N1 N2 N3; rewrite PP4 in F4; apply F4; auto).
      assert (HIGH : forall b, p <= b < p' -> m3 b = m2 b). { intros b HB. apply F9; try (unfold p' in *; lia). intros kd2 d2 HI. pose proof (LOW kd2 d2 (SUB _ HI) (NK _ _ HI)). lia. }
      apply KN; auto.
      * cbn [map]. rewrite HE, known_app, known_other by exact NI. unfold known at 1. cbn [fst snd]. rewrite Z.eqb_refl. cbn [flat_map record_bytes app].
        apply bytes_at_cons; split; [rewrite HIGH, F3 by (unfold p'; lia); exact B0|]; apply bytes_at_cons; split; [rewrite HIGH, F2 by (unfold p'; lia); exact E1'|]; apply bytes_at_cons; split; [replace (p + 1 + 1) with (p + 2) by lia; rewrite HIGH, F3 by (unfold p'; lia); exact B2|];
        apply bytes_at_cons; split; [replace (p + 1 + 1 + 1) with (p + 3) by lia; rewrite HIGH, F3 by (unfold p'; lia); exact B3|]; replace (p + 1 + 1 + 1 + 1) with (p + 4) by lia.
        rewrite flat_map_app. apply bytes_at_app. split; [eapply bytes_at_ext; [|exact BA1]; intros b HB; rewrite records_length in HB; rewrite HIGH, F3 by (unfold p'; lia); reflexivity|].
        rewrite records_length. replace (p + 4 + Z.of_nat (4 * List.length rs1)) with p' by (unfold p'; lia). exact BT3.
      * intros kd2 d2 HI. destruct (ALL _ _ HI) as [(-> & ->)|HI2]; [|now apply (WT3 kd2)]. 
        destruct (in_dec Z.eq_dec w (map snd (filter (fun r => fst (fst r) =? n) ((n, kd', w') :: rs3)))) as [IN|NIN].
        -- apply in_map_iff in IN as ([[n2 kd2] w2] & HW & HF). apply filter_In in HF as (HF & HN). cbn [fst snd] in HW, HN. apply Z.eqb_eq in HN. rewrite HN, HW in HF. now apply (WT3 kd2).
        -- rewrite <- EW'. assert (NO : forall kd2 d2, List.In (n, kd2, d2) ((n, kd', w') :: rs3) -> d2 + 2 <= w \/ w + 2 <= d2).
           { intros kd2 d2 HI2. destruct (AP kd2 d2 kd w (SUB _ HI2) (or_introl eq_refl) (NK _ _ HI2) G) as [->|HX]; [|lia]. exfalso. apply NIN. apply in_map_iff. exists (n, kd2, w). split; [reflexivity|]. apply filter_In. split; [exact HI2|]. cbn [fst snd]. apply Z.eqb_refl. }
           unfold wordat. rewrite (F9 w), (F9 (w + 1)), !F2 by (try (unfold p' in *; lia); intros kd2 d2 HI2; specialize (NO kd2 d2 HI2); lia). reflexivity.
      * intros b N1 N2 N3. destruct (N3 kd w (or_introl eq_refl)). rewrite F9, F3; auto; try (unfold p' in *; lia).
        intros kd2 d2 HI. apply (N3 kd2). auto.
Qed.

End B.
