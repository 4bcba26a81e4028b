(* String literals and numbers of one byte in the native compiler: what E_CONST_STRING and E_NUMBER_BYTE
   take and put into the program. *)
From Verif Require Export NativeNum SpecNative SpecString.

Lemma hex_of_digit c d : hex_of c = Some d <-> digit16 d c.
Proof.
  unfold hex_of, is_digit, digit16. destruct (Z.leb_spec 48 c); destruct (Z.leb_spec c 57); destruct (Z.leb_spec 65 c); destruct (Z.leb_spec c 70); cbn [andb];
    (split; [intro E; try discriminate E; injection E as <-; lia|intro E; try (f_equal; lia); exfalso; lia]).
Qed.
Lemma hexes_of ds cs l : Forall2 digit16 ds cs -> no_digit16 l -> hexes (cs ++ l) = ds /\ skip_hexes (cs ++ l) = l.
Proof.
  intros F N. induction F as [|d c ds cs H F (E1 & E2)]; cbn [app].
  - destruct l as [|c l]; [auto|]. cbn [hexes skip_hexes]. destruct (hex_of c) as [d|] eqn:E; [|auto]. apply hex_of_digit in E. destruct (N d E).
  - cbn [hexes skip_hexes]. apply hex_of_digit in H. rewrite H, E1, E2. auto.
Qed.
Lemma hexes_cut l : exists cs, l = cs ++ skip_hexes l /\ Forall2 digit16 (hexes l) cs /\ no_digit16 (skip_hexes l).
Proof.
  induction l as [|c l (cs & E & F & N)]; cbn [hexes skip_hexes].
  - exists []. split; [reflexivity|]. split; [constructor|exact I].
  - destruct (hex_of c) as [d|] eqn:H.
    + apply hex_of_digit in H. exists (c :: cs). split; [cbn; now rewrite <- E|]. split; [constructor; auto|exact N].
    + exists []. split; [reflexivity|]. split; [constructor|]. intros d D. apply hex_of_digit in D. congruence.
Qed.
Lemma codes_inv l bs u : codes (36 :: l) bs u <-> hexes l <> [] /\ hexval 0 (hexes l) <= 65535 /\ exists bs', bs = [hexval 0 (hexes l) mod 256] ++ bs' /\ after (skip_hexes l) bs' u.
Proof.
  split.
  - intro H. inversion H as [ds cs l' bs' u' N F D V R E1 E2]. subst. destruct (hexes_of ds cs l' F D) as (-> & ->). split; [exact N|]. split; [exact V|]. exists bs'. auto.
  - intros (N & V & bs' & -> & R). destruct (hexes_cut l) as (cs & E & F & D). rewrite E at 1. cbn [app]. apply C_code; auto.
Qed.
Lemma skip_hexes_length l : (List.length (hexes l) + List.length (skip_hexes l) = List.length l)%nat.
Proof. induction l as [|c l IH]; [reflexivity|]. cbn [hexes skip_hexes]. destruct (hex_of c); cbn [List.length]; lia. Qed.

Section S.
Variable L : lay.
Variable nz : Z.
Hypothesis OK : native_ok L nz.
Variable fp : bool.
Notation P := (native fp L nz).

Ltac to_code l :=
  match goal with |- wp ?P _ ?s ?Q =>
    let c := eval cbv [native app entry find_lb find_in rt c_interp c_move_loop c_negax c_addsub c_absneg c_bit
       c_logic c_sgn c_shift c_comp0 c_mul c_div c_for c_for_exit c_incdec c_stack c_peek
       c_const c_varaddr c_varstore c_varadd c_constpoke c_jump c_return c_cmpstr c_copystr c_stridx c_move c_nmove
       c_mset c_clearmem c_rand c_streol c_val c_rom c_alloc c_vars c_emit c_actions
       String.eqb Ascii.eqb Bool.eqb] in (entry P l) in
    change (wp P c s Q)
  end.
Ltac to_label l := lazymatch goal with |- wp ?p _ ?s ?Q => change (wp p (entry p l) s Q) end.
Ltac jsr l kk := match goal with |- wp _ (In (JSR _) :: ?c) _ _ => set (kk := c) end; eapply wp_jsr; [reflexivity|]; cpu_red; to_label l.

(* cells that change besides the program *)
Definition str_work (b : Z) : Prop := b = 242 \/ b = tmp1 L \/ b = tmp1 L + 1 \/ b = tmp2 L + 1 \/ b = nz + 21.
(* from the place e of the output on, with the length at q *)
Definition str_frame (q e p : Z) (m' m : Z -> Z) : Prop :=
  forall b, b <> q -> (b < e \/ p + 255 < b) -> ~ str_work b -> m' b = m b.

(* the three ways to end, for the text l read by R and the output at p, with the length at q *)
Definition ends3 (k : code) (Q : string -> cpu -> Prop) st r (R : list Z -> list Z -> list Z -> Prop) (l : list Z) (p q : Z) (m : Z -> Z) : Prop :=
  (forall bs u, R l bs u -> m (nz + 21) + Z.of_nat (List.length bs) <= 255 -> forall a' x' y' z' f' v' m', bytes_in m' -> str_frame q (p + m (nz + 21)) p m' m ->
     m' q = p + m (nz + 21) - q - 1 + Z.of_nat (List.length bs) -> bytes_at m' (p + m (nz + 21)) bs -> m' (nz + 21) = m (nz + 21) + Z.of_nat (List.length bs) -> line m' (m' 242) u ->
     wp P k (mkcpu a' x' y' false z' f' v' m' st r) Q) /\
  ((forall bs u, ~ R l bs u) -> forall a' x' y' z' f' v' m', bytes_in m' -> str_frame q (p + m (nz + 21)) p m' m -> wp P k (mkcpu a' x' y' true z' f' v' m' st r) Q) /\
  ((forall bs u, R l bs u -> 255 <= m (nz + 21) + Z.of_nat (List.length bs)) -> 255 <= m (nz + 21) + Z.of_nat (List.length l) -> forall s', Y s' = 12 -> Q "parser_error" s').
Lemma ends3_step k Q st r R R' e l l' p q m m' : ends3 k Q st r R l p q m -> (forall bs' u, R l bs' u <-> exists bs, bs' = e ++ bs /\ R' l' bs u) ->
  (List.length e + List.length l' <= List.length l)%nat -> bytes_at m' (p + m (nz + 21)) e -> m' (nz + 21) = m (nz + 21) + Z.of_nat (List.length e) -> m (nz + 21) + Z.of_nat (List.length e) <= 255 ->
  nz + 35 < p -> zp L + 10 < p -> 242 < p -> p <= q < p + m (nz + 21) -> str_frame q (p + m (nz + 21)) p m' m -> ends3 k Q st r R' l' p q m'.
Proof.
  pose proof OK as ((?&?&_) & ? & ? & _). intros (K1 & K2 & K3) RR LE BA EO BO P0 P1 P2 BQ F.
  assert (FF : forall m2, str_frame q (p + m' (nz + 21)) p m2 m' -> str_frame q (p + m (nz + 21)) p m2 m) by (intros m2 F2 b N1 N2 N3; rewrite F2; [apply F; auto|auto|lia|auto]).
  split; [|split].
  - intros bs u HR LB a' x' y' z' f' v' m2 W2 F2 EQ BB EO2 LN2. rewrite EO in LB, EQ, EO2. apply K1 with (bs := e ++ bs) (u := u); auto.
    + apply RR. eauto.
    + rewrite app_length. lia.
    + rewrite EQ, app_length. lia.
    + intros j J. rewrite app_length in J. destruct (Nat.lt_ge_cases j (List.length e)) as [JE|JE].
      * rewrite app_nth1 by exact JE. rewrite F2; [apply BA; exact JE|lia|lia|]. unfold str_work. lia.
      * rewrite app_nth2 by exact JE. rewrite <- (BB (j - List.length e)%nat) by lia. f_equal. lia.
    + rewrite EO2, app_length. lia.
  - intros NR a' x' y' z' f' v' m2 W2 F2. apply K2; auto. intros bs' u HR. apply RR in HR as (bs & _ & HR). exact (NR _ _ HR).
  - intros NR LL. apply K3; [|lia]. intros bs' u HR. apply RR in HR as (bs & -> & HR). apply NR in HR. rewrite app_length. lia.
Qed.

(* in the text, at position i, with the rest l *)
Definition str_at (l : list Z) (i p q : Z) (m : Z -> Z) : Prop :=
  bytes_in m /\ 0 <= i /\ m 242 = i /\ line m i l /\ wordat m 243 = 1408 /\ wordat m (nz + 6) = p /\ 1664 <= p <= 65280 /\ m (tmp2 L) = q - p /\ p <= q < p + m (nz + 21).
Lemma line_hd m i l : line m i l -> m (1408 + i) = hd 155 l.
Proof. intro LN. destruct l; [now apply line_nil|now apply line_cons in LN]. Qed.
Lemma quoted_char c l : c <> 34 -> c <> 155 -> forall bs' u, quoted (c :: l) bs' u <-> exists bs, bs' = [c] ++ bs /\ quoted l bs u.
Proof.
  intros N1 N2 bs' u. split.
  - intro H. inversion H; subst; try congruence; cbn [app]; eauto.
  - intros (bs & -> & H). now apply Q_char.
Qed.
Lemma quoted_quote l : forall bs' u, quoted (34 :: 34 :: l) bs' u <-> exists bs, bs' = [34] ++ bs /\ quoted l bs u.
Proof.
  intros bs' u. split.
  - intro H. inversion H; subst; cbn [hd] in *; try congruence; cbn [app]; eauto.
  - intros (bs & -> & H). now apply Q_quote.
Qed.
Lemma quoted_after l : hd 155 l <> 34 -> forall bs' u, quoted (34 :: l) bs' u <-> exists bs, bs' = [] ++ bs /\ after l bs u.
Proof.
  intros N bs' u. split.
  - intro H. inversion H; subst; cbn [hd] in *; try lia; cbn [app]; eexists; (split; [reflexivity|]); [now apply A_stop|now apply A_more].
  - intros (bs & -> & H). cbn [app]. inversion H; subst; cbn [hd] in *; try lia; [now apply Q_codes|now apply Q_end].
Qed.
Lemma after_codes l bs u : after (36 :: l) bs u <-> hexes l <> [] /\ hexval 0 (hexes l) <= 65535 /\ exists bs', bs = [hexval 0 (hexes l) mod 256] ++ bs' /\ after (skip_hexes l) bs' u.
Proof. rewrite <- codes_inv. split; intro H; [inversion H; subst; cbn [hd] in *; [assumption|congruence]|now apply A_more]. Qed.

(* src/actions.asm:247-292: inside of the quotes, and after a closing quote *)
Lemma string_loops k (Q : string -> cpu -> Prop) st r p q : forall n l, (List.length l <= n)%nat ->
  (forall i a y c z f v m, str_at l i p q m -> ends3 k Q st r quoted l p q m ->
     wp P (entry P "string.nloop") (mkcpu a (p + m (nz + 21) - q - 1) y c z f v m (CRet k :: st) r) Q) /\
  (hd 155 l <> 34 -> forall i c z f v m, str_at l i p q m -> ends3 k Q st r after l p q m ->
     wp P (entry P "string.chk") (mkcpu (hd 155 l) (p + m (nz + 21) - q - 1) i c z f v m (CRet k :: st) r) Q).
Proof.
  pose proof OK as ((?&?&_) & ? & ? & _). induction n as [n IH] using lt_wf_ind. intros l LL.
  assert (CHK : hd 155 l <> 34 -> forall i c z f v m, str_at l i p q m -> ends3 k Q st r after l p q m ->
     wp P (entry P "string.chk") (mkcpu (hd 155 l) (p + m (nz + 21) - q - 1) i c z f v m (CRet k :: st) r) Q).
  { intros N34 i c z f v m (WM & B0 & E0 & LN & EI & EP & BP & EQ & BQ) EN. assert (BC : 0 <= hd 155 l < 256) by (rewrite <- (line_hd _ _ _ LN); apply WM).
    pose proof (WM (nz + 21)) as BO. pose proof (WM (tmp2 L)) as BT. pose proof (proj1 LN) as BL. to_code "string.chk". ncells. consts. step1. step1; zb.
    - apply Z.lxor_eq in K. destruct l as [|c0 l]; [cbn in K; lia|]. cbn [hd] in *. subst c0. to_code "string.cbyte". change (Z.lxor 36 36) with 0. step1. norm.
      jsr "read_hex" kk. to_code "read_hex". do 3 (step1; norm). set (x := p + m (nz + 21) - q - 1) in *. set (m2 := upd _ (tmp1 L + 1) _).
      assert (W2 : bytes_in m2) by (unfold m2, x; bytes_tac). assert (F2 : forall b, b <> tmp1 L -> b <> tmp1 L + 1 -> b <> tmp2 L + 1 -> m2 b = m b) by (intros b N1 N2 N3; unfold m2; norm; reflexivity).
      assert (E2 : wordat m2 (tmp1 L) = 0) by (unfold wordat, m2; norm; reflexivity). assert (EX : m2 (tmp2 L + 1) = x) by (unfold m2; norm; reflexivity).
      clearbody m2. apply line_cons in LN as (_ & LN). cbn [List.length] in *.
      step1. to_label "hex.nloop". replace i with (i + 1 - 1) at 1 by lia. apply (hex_loop L nz OK fp Q _ _ l (i + 1) 0); auto; try lia.
      + revert LN. apply line_ext; [lia|]. intros b HB. apply F2; lia.
      + unfold wordat in *. rewrite !F2 by lia. exact EI.
      + intros [BAD|NE] LE a' x' z' f' v' m' BA' BX' EV W' F'; [lia|]. pose proof (skip_hexes_length l) as SL. pose proof (line_hexes _ _ _ LN) as LN3.
        set (j := i + 1 + Z.of_nat (List.length (hexes l))) in *. pose proof (proj1 LN3) as BL3. to_code "number.emit". consts. step1. step1. to_label "emit_AX". unfold wordat in EP.
        assert (F3 : forall b, ~ str_work b -> m' b = m b) by (intros b NB; unfold str_work in NB; rewrite F' by (unfold t1cell; lia); apply F2; lia).
        assert (O3 : m' (nz + 21) = m (nz + 21)) by (rewrite F' by (unfold t1cell; lia); apply F2; lia).
        assert (X3 : m' (tmp2 L + 1) = x) by (rewrite F' by (unfold t1cell; lia); exact EX). clear F' F2 W2 E2 EX m2.
        apply (emit_AX_ok L nz OK fp) with (p := p); auto; try lia.
        * bytes_tac.
        * unfold wordat. ncells. norm. unfold str_work in F3. rewrite !F3 by lia. lia.
        * ncells. norm. rewrite O3. intros LT y2 z2 f2 m2 B2 W2 E1 E2 E3 F2. unfold kk. consts. step1; [discriminate|]. step1. rewrite E3. rewrite b8_small by lia. step1. norm. step1. norm.
          assert (G2 : forall b, b <> nz + 21 -> (b < p + m (nz + 21) \/ p + 255 < b) -> b <> 242 -> m2 b = m' b) by (intros b N1 N2 N3; rewrite F2 by (ncells; lia); norm; reflexivity).
          rewrite (G2 (tmp2 L + 1)) by lia. rewrite X3. replace (m2 242) with j by (rewrite F2 by (ncells; lia); norm; reflexivity).
          set (m4 := upd m2 (nz + 21) _). assert (W4 : bytes_in m4) by (unfold m4; bytes_tac).
          assert (O4 : m4 (nz + 21) = m (nz + 21) + 1) by (unfold m4; norm; lia).
          assert (J4 : m4 242 = j) by (unfold m4; norm; rewrite F2 by (ncells; lia); norm; reflexivity).
          assert (V4 : m4 (p + m (nz + 21)) = hexval 0 (hexes l) mod 256) by (unfold m4; norm; rewrite E1; zm).
          assert (F4 : forall b, (b < p + m (nz + 21) \/ p + 255 < b) -> ~ str_work b -> m4 b = m b) by (intros b N1 N2; unfold str_work in N2; unfold m4; norm; rewrite G2 by lia; apply F3; unfold str_work; lia).
          clearbody m4. clear E1 E2 E3 F2 W2 G2 m2 F3 W' X3 O3 m'.
          set (l2 := skip_hexes l) in *. set (h := hexval 0 (hexes l)) in *.
          assert (LN4 : line m4 j l2) by (revert LN3; apply line_ext; [lia|]; intros b HB; apply F4; unfold str_work; lia).
          assert (EN4 : ends3 k Q st r after l2 p q m4).
          { apply ends3_step with (R := after) (l := 36 :: l) (e := [h mod 256]) (m := m); auto; try lia.
            - intros bs' u. split.
              + intro HA. apply after_codes in HA. apply HA.
              + intros (bs & -> & HA). apply after_codes. eauto.
            - cbn [List.length]. lia.
            - intros b HB. cbn [List.length] in HB. assert (b = 0)%nat as -> by lia. cbn [nth]. rewrite Z.add_0_r. exact V4.
            - cbn [List.length]. lia.
            - intros b N1 N2 N3. apply F4; auto. }
          assert (SA4 : str_at l2 j p q m4).
          { unfold str_at. unfold wordat in *. rewrite !(F4 243), !(F4 (243 + 1)), !(F4 (nz + 6)), !(F4 (nz + 6 + 1)), !(F4 (tmp2 L)) by (unfold str_work; lia). rewrite O4. repeat (split; [try assumption; try lia|]). lia. }
          assert (HD4 : m4 (1408 + j) = hd 155 l2) by (apply line_hd; exact LN4). assert (BC4 : 0 <= hd 155 l2 < 256) by (rewrite <- HD4; apply W4).
          assert (I4 : m4 243 + 256 * m4 244 = 1408) by (destruct SA4 as (_ & _ & _ & _ & I4 & _); exact I4).
          step1. change (243 + 1) with 244. rewrite I4. norm. rewrite HD4. step1. step1; zb.
          -- assert (E34 : hd 155 l2 = 34) by (unfold b8 in *; zm). destruct l2 as [|c0 l3] eqn:EL2; [cbn in E34; lia|]. cbn [hd] in E34. subst c0. cbn [List.length] in *.
             to_code "string.incb". consts. step1. rewrite J4. rewrite (b8_small (j + 1)) by lia. set (m5 := upd m4 242 _). step1. rewrite (b8_small (x + 1)) by lia. step1; zb; [|lia]. to_label "string.nloop".
             assert (O5 : m5 (nz + 21) = m (nz + 21) + 1) by (unfold m5; norm; exact O4).
             replace (x + 1) with (p + m5 (nz + 21) - q - 1) by lia. destruct (IH (List.length l3) ltac:(lia) l3 ltac:(lia)) as (IH1 & _). apply IH1 with (i := j + 1).
             ++ destruct SA4 as (_ & _ & _ & _ & I5 & P5 & _ & T5 & Q5). unfold str_at. unfold wordat in *. unfold m5. split; [bytes_tac|]. split; [lia|]. split; [norm; reflexivity|].
                split; [apply line_cons in LN4 as (_ & LN5); revert LN5; apply line_ext; [lia|]; intros b HB; norm; reflexivity|]. split; [norm; exact I5|]. split; [norm; exact P5|]. split; [lia|]. split; [norm; exact T5|]. norm. exact Q5.
             ++ apply ends3_step with (R := after) (l := 34 :: l3) (e := []) (m := m4); auto; cbn [List.length]; try lia.
                ** intros bs' u. split; [intro HA; inversion HA; subst; cbn [hd] in *; try lia; cbn [app]; eauto|intros (bs & -> & HA); now apply A_again].
                ** intros b HB. cbn in HB. lia.
                ** intros b N1 N2 N3. unfold m5. unfold str_work in N3. norm. reflexivity.
          -- assert (N34' : hd 155 l2 <> 34) by (intro E; apply K0; rewrite E; reflexivity). step1. rewrite (b8_small (x + 1)) by lia. step1; zb; [|lia]. to_label "string.chk".
             replace (x + 1) with (p + m4 (nz + 21) - q - 1) by lia. destruct (IH (List.length l2) ltac:(lia) l2 ltac:(lia)) as (_ & IH2). apply IH2; auto.
        * ncells. norm. rewrite O3. intros GE s' Y'. destruct EN as (_ & _ & EN). apply EN; auto; cbn [List.length]; [|destruct (hexes l); [congruence|cbn [List.length] in SL; lia]].
          intros bs u HA. apply after_codes in HA as (_ & _ & bs' & -> & _). cbn [app List.length]. lia.
      + intros D a' x' y' c' z' f' v' m' BA' BX' BY' W' F'. to_code "eol.xit". step1. step1. step1. unfold kk. step1; [|discriminate]. to_code "string.xrts". step1. destruct EN as (_ & EN & _). apply EN; auto.
        * intros bs u HA. apply after_codes in HA as (C1 & C2 & _). destruct D as [(_ & D)|D]; [congruence|lia].
        * intros b N1 N2 N3. unfold str_work in N3. rewrite F' by (unfold t1cell; lia). apply F2; lia.
    - assert (N36 : hd 155 l <> 36) by (intro E; apply K; rewrite E; reflexivity). step1. rewrite EQ. step1. unfold wordat in EP. step1. replace (nz + 6 + 1) with (nz + 6 + 1) by lia. rewrite EP. norm. replace (p + (q - p)) with q by lia.
      step1. step1. step1. destruct EN as (EN & _). apply EN with (bs := []) (u := l); cbn [List.length]; try lia.
      + apply A_stop; auto.
      + bytes_tac.
      + intros b N1 N2 N3. norm. reflexivity.
      + norm. lia.
      + intros b HB. cbn in HB. lia.
      + norm. lia.
      + norm. rewrite E0. revert LN. apply line_ext; [lia|]. intros b HB. norm. reflexivity. }
  split; [|exact CHK].
  intros i a y c z f v m SA EN. pose proof SA as (WM & B0 & E0 & LN & EI & EP & BP & EQ & BQ). assert (HD : m (1408 + i) = hd 155 l) by (apply line_hd; exact LN).
  assert (BC : 0 <= hd 155 l < 256) by (rewrite <- HD; apply WM). pose proof (WM (nz + 21)) as BO. pose proof (proj1 LN) as BL. unfold wordat in EI, EP. change (243 + 1) with 244 in EI.
  (* a byte of the string *)
  assert (STORE : forall d l' i' z1 f1 v1 c1 y1 m1, 0 <= d < 256 -> (forall bs' u, quoted l bs' u <-> exists bs, bs' = [d] ++ bs /\ quoted l' bs u) -> (List.length l' < List.length l)%nat -> 0 <= i' -> bytes_in m1 -> m1 242 = i' ->
    (forall b, b <> 242 -> m1 b = m b) -> line m1 (i' + 1) l' -> wp P (entry P "string.store") (mkcpu d (p + m (nz + 21) - q - 1) y1 c1 z1 f1 v1 m1 (CRet k :: st) r) Q).
  { intros d l' i' z1 f1 v1 c1 y1 m1 BD RR LT BI' W1 EI1 F1 LN1. pose proof (proj1 LN1) as BL1. to_code "string.store". jsr "parser_emit_byte" kk. assert (O1 : m1 (nz + 21) = m (nz + 21)) by (apply F1; lia).
    apply (emit_ok L nz OK fp) with (p := p); auto; try lia.
    - unfold wordat. ncells. rewrite !F1 by lia. lia.
    - ncells. rewrite O1. intros LT1 z2 f2. unfold kk. set (m2 := upd _ (nz + 21) _). step1. consts. step1. replace (m2 242) with i' by (unfold m2; norm; lia). rewrite (b8_small (i' + 1)) by lia. step1. rewrite b8_small by lia. step1; zb; [|lia].
      to_label "string.nloop". set (m3 := upd m2 242 _). assert (O3 : m3 (nz + 21) = m (nz + 21) + 1) by (unfold m3, m2; norm; reflexivity).
      assert (F3 : forall b, b <> p + m (nz + 21) -> b <> 242 -> b <> nz + 21 -> m3 b = m b) by (intros b N1 N2 N3; unfold m3, m2; norm; apply F1; exact N2).
      assert (W3 : bytes_in m3) by (unfold m3, m2; bytes_tac).
      replace (p + m (nz + 21) - q - 1 + 1) with (p + m3 (nz + 21) - q - 1) by lia. destruct (IH (List.length l') ltac:(lia) l' ltac:(lia)) as (IH1 & _). apply IH1 with (i := i' + 1).
      + unfold str_at. unfold wordat. rewrite O3, (F3 243), (F3 (243 + 1)), (F3 (nz + 6)), (F3 (nz + 6 + 1)), (F3 (tmp2 L)) by lia. change (243 + 1) with 244. split; [exact W3|]. split; [lia|]. split; [unfold m3; norm; reflexivity|]. split; [revert LN1; apply line_ext; [lia|]; intros b HB; rewrite F3 by lia; symmetry; apply F1; lia|].
        split; [exact EI|]. split; [exact EP|]. split; [lia|]. split; [exact EQ|lia].
      + apply ends3_step with (R := quoted) (l := l) (e := [d]) (m := m); auto; cbn [List.length]; try lia.
        * intros b HB. cbn [List.length] in HB. assert (b = 0)%nat as -> by lia. cbn [nth]. rewrite Z.add_0_r. unfold m3, m2. norm. reflexivity.
        * intros b N1 N2 N3. unfold str_work in N3. apply F3; lia.
    - ncells. rewrite O1. intros EF z2 f2. destruct EN as (_ & _ & EN). apply EN; [|lia|reflexivity]. intros bs' u HR. apply RR in HR as (bs & -> & _). cbn [app List.length]. lia. }
  to_code "string.nloop". consts. step1. rewrite E0. step1. change (243 + 1) with 244. rewrite EI. norm. rewrite HD. step1. step1; zb.
  - assert (E34 : hd 155 l = 34) by (unfold b8 in *; zm). destruct l as [|c0 l2]; [cbn in E34; lia|]. cbn [hd] in E34. subst c0. cbn [List.length] in *. apply line_cons in LN as (_ & LN2).
    assert (HD2 : m (1408 + (i + 1)) = hd 155 l2) by (apply line_hd; exact LN2). assert (BC2 : 0 <= hd 155 l2 < 256) by (rewrite <- HD2; apply WM).
    to_code "string.eos". consts. step1. rewrite (b8_small (i + 1)) by lia. step1. change (243 + 1) with 244. rewrite EI. norm. rewrite HD2. step1. rewrite E0. rewrite (b8_small (i + 1)) by lia. set (m1 := upd m 242 (i + 1)).
    assert (W1 : bytes_in m1) by (unfold m1; bytes_tac). assert (F1 : forall b, b <> 242 -> m1 b = m b) by (intros b NB; unfold m1; norm; reflexivity). assert (I1 : m1 242 = i + 1) by (unfold m1; norm; reflexivity).
    clearbody m1. assert (LN3 : line m1 (i + 1) l2) by (revert LN2; apply line_ext; [lia|]; intros b HB; apply F1; lia). step1. step1; zb.
    + assert (E34 : hd 155 l2 = 34) by (unfold b8 in *; zm). destruct l2 as [|c0 l3]; [cbn in E34; lia|]. cbn [hd] in E34 |- *. subst c0. apply line_cons in LN3 as (_ & LN3). cbn [List.length] in *.
      to_label "string.store". apply STORE with (l' := l3) (i' := i + 1); auto; try lia. apply quoted_quote.
    + assert (N34 : hd 155 l2 <> 34) by (intro E; apply K0; rewrite E; reflexivity). step1. to_label "string.chk". replace (m (nz + 21)) with (m1 (nz + 21)) by (apply F1; lia).
      destruct (IH (List.length l2) ltac:(lia) l2 ltac:(lia)) as (_ & IH2). apply IH2; auto.
      * unfold str_at, wordat. rewrite (F1 243), (F1 (243 + 1)), (F1 (nz + 6)), (F1 (nz + 6 + 1)), (F1 (tmp2 L)), (F1 (nz + 21)) by lia. change (243 + 1) with 244. split; [exact W1|]. split; [lia|]. split; [exact I1|]. split; [exact LN3|]. auto.
      * apply ends3_step with (R := quoted) (l := 34 :: l2) (e := []) (m := m); auto; cbn [List.length]; try lia.
        -- apply quoted_after; auto.
        -- intros b HB. cbn in HB. lia.
        -- rewrite F1 by lia. lia.
        -- intros b N1 N2 N3. apply F1. unfold str_work in N3. lia.
  - assert (N34 : hd 155 l <> 34) by (intro E; apply K; rewrite E; reflexivity). step1. step1; zb.
    + assert (E155 : hd 155 l = 155) by (unfold b8 in *; zm). rewrite E155. to_code "string.xrts". step1. change (155 <=? 155) with true. destruct EN as (_ & EN & _). apply EN; auto.
      * intros bs u HR. inversion HR; subst; cbn [hd] in *; congruence.
      * intros b N1 N2 N3. reflexivity.
    + assert (N155 : hd 155 l <> 155) by (intro E; apply K0; rewrite E; reflexivity). destruct l as [|c0 l2]; [cbn in N155; lia|]. cbn [hd List.length] in *. apply line_cons in LN as (_ & LN2). step1. to_label "string.store".
      apply STORE with (l' := l2) (i' := i); auto; try lia. apply quoted_char; auto.
Qed.

(* src/actions.asm:247-252 *)
Lemma string_ok k (Q : string -> cpu -> Prop) st r l i p a x y c z f v m : 0 <= a < 256 -> bytes_in m -> 0 <= i -> m 242 = i -> line m i l -> wordat m 243 = 1408 -> p = wordat m (nz + 6) -> 1664 <= p -> p <= 65280 ->
  let o := m (nz + 21) in
  (forall bs u, quoted l bs u -> o + 1 + Z.of_nat (List.length bs) <= 255 -> forall a' x' y' z' f' v' m', bytes_in m' -> str_frame (tmp2 L) (p + o) p m' m ->
     bytes_at m' (p + o) (Z.of_nat (List.length bs) :: bs) -> m' (nz + 21) = o + 1 + Z.of_nat (List.length bs) -> line m' (m' 242) u ->
     wp P k (mkcpu a' x' y' false z' f' v' m' st r) Q) ->
  ((forall bs u, ~ quoted l bs u) -> forall a' x' y' z' f' v' m', bytes_in m' -> str_frame (tmp2 L) (p + o) p m' m -> wp P k (mkcpu a' x' y' true z' f' v' m' st r) Q) ->
  ((forall bs u, quoted l bs u -> 255 <= o + 1 + Z.of_nat (List.length bs)) -> 255 <= o + 1 + Z.of_nat (List.length l) -> forall s', Y s' = 12 -> Q "parser_error" s') ->
  wp P (entry P "E_CONST_STRING") (mkcpu a x y c z f v m (CRet k :: st) r) Q.
Proof.
  pose proof OK as ((?&?&_) & ? & ? & _). intros BA WM B0 E0 LN EI EP P0 P1 o K1 K2 K3. pose proof (WM (nz + 21)) as BO. fold o in BO. to_code "E_CONST_STRING". step1. jsr "parser_emit_byte" kk.
  apply (emit_ok L nz OK fp) with (p := p); auto.
  - lia.
  - ncells. fold o. intros LT z1 f1. unfold kk. step1. step1. to_label "string.nloop". set (m1 := upd _ (tmp2 L) _).
    assert (W1 : bytes_in m1) by (unfold m1; bytes_tac). assert (F1 : str_frame (tmp2 L) (p + o) p m1 m) by (intros b N1 N2 N3; unfold str_work in N3; unfold m1; norm; reflexivity).
    assert (O1 : m1 (nz + 21) = o + 1) by (unfold m1; norm; reflexivity). assert (T1 : m1 (tmp2 L) = o) by (unfold m1; norm; reflexivity). assert (C1 : m1 242 = i) by (unfold m1; norm; exact E0). clearbody m1.
    assert (LN1 : line m1 i l) by (revert LN; apply line_ext; [lia|]; intros b HB; apply F1; unfold str_work; lia).
    assert (FF : forall m2, str_frame (p + o) (p + (o + 1)) p m2 m1 -> str_frame (tmp2 L) (p + o) p m2 m) by (intros m2 F2 b N1 N2 N3; rewrite F2 by (auto; lia); apply F1; auto).
    replace 0 with (p + m1 (nz + 21) - (p + o) - 1) at 1 by lia. destruct (string_loops k Q st r p (p + o) (List.length l) l ltac:(lia)) as (SL & _). apply SL with (i := i).
    + unfold str_at, wordat in *. rewrite O1. rewrite !(F1 243), !(F1 (243 + 1)), !(F1 (nz + 6)), !(F1 (nz + 6 + 1)) by (unfold str_work; lia). split; [exact W1|]. split; [lia|]. split; [exact C1|]. split; [exact LN1|]. split; [exact EI|]. split; [lia|]. split; [lia|]. split; lia.
    + unfold ends3. rewrite O1. split; [|split].
      * intros bs u HR LB a' x' y' z' f' v' m' W' F' EQ' BA' O' LN'. apply K1 with (bs := bs) (u := u); auto.
        intros b HB. cbn [List.length] in HB. destruct b as [|b]; cbn [nth].
        -- rewrite Z.add_0_r. rewrite EQ'. lia.
        -- rewrite <- BA' by lia. f_equal. lia.
      * intros NR a' x' y' z' f' v' m' W' F'. apply K2; auto.
      * exact K3.
  - ncells. fold o. intros EO z1 f1. apply K3; [|lia|reflexivity]. intros bs u _. lia.
Qed.
(* src/actions.asm:239-245 *)
Lemma number_byte_ok k (Q : string -> cpu -> Prop) st r l i a x y c z f v m p : 0 <= x < 256 -> bytes_in m -> 0 <= i -> line m i l -> m 242 = i -> wordat m 243 = 1408 ->
  p = wordat m (prog_ptr nz) -> 1664 <= p -> p <= 65280 ->
  match nat_number fp (skip_blanks l) with
  | Some (w, u) =>
    (m (opos nz) < 254 -> forall a' x' y' z' f' v' m', bytes_in m' -> wordat m' (p + m (opos nz)) = w -> 0 <= m' 242 -> line m' (m' 242) u ->
       m' (opos nz) = m (opos nz) + 1 -> (forall b, b <> p + m (opos nz) -> b <> p + m (opos nz) + 1 -> ~ num_work L nz b -> m' b = m b) ->
       wp P k (mkcpu a' x' y' (1 <=? w / 256) z' f' v' m' st r) Q) /\
    (254 <= m (opos nz) -> forall s', Y s' = 12 -> Q "parser_error" s')
  | None => forall a' x' y' z' f' v' m', bytes_in m' -> agree (bcell L) m' m -> wp P k (mkcpu a' x' y' true z' f' v' m' st r) Q
  end ->
  wp P (entry P "E_NUMBER_BYTE") (mkcpu a x y c z f v m (CRet k :: st) r) Q.
Proof.
  pose proof OK as ((?&?&_) & ? & ? & _). intros BX WM BI LN E0 EI EP P0 P1 K. pose proof (WM (opos nz)) as BO. to_code "E_NUMBER_BYTE". jsr "E_NUMBER_WORD" kk.
  apply (number_word_ok L nz OK fp) with (l := l) (i := i) (p := p); auto. destruct (nat_number fp (skip_blanks l)) as [[w u]|].
  - destruct K as (K1 & K2). split; [|exact K2]. intros LT a' y' z' f' v' m' BA' BY' W' EW C' L' O' F'. unfold kk. ncells. step1; [discriminate|]. step1. rewrite O'. rewrite b8_small by lia. step1. step1. step1.
    apply K1; auto.
    + bytes_tac.
    + unfold wordat in *. norm. exact EW.
    + norm. exact C'.
    + norm. revert L'. apply line_ext; [lia|]. intros b HB. norm. reflexivity.
    + norm. lia.
    + intros b N1 N2 N3. assert (b <> nz + 21) by (intros ->; apply N3; right; ncells; reflexivity). norm. auto.
  - intros a' x' y' z' f' v' m' BA' BX' BY' W' F'. unfold kk. step1; [|discriminate]. to_code "byte.xit". step1. apply K; auto.
Qed.
End S.
