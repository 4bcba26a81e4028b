(* Numbers in the native compiler: what E_NUMBER_WORD takes and puts into the program. *)
From Verif Require Export NativeAlloc RtVal.

(* hexadecimal digits in upper case *)
Definition hex_of (c : Z) : option Z :=
  if is_digit c then Some (c - 48) else if (65 <=? c) && (c <=? 70) then Some (c - 55) else None.
Fixpoint hexes (l : list Z) : list Z :=
  match l with c :: r => match hex_of c with Some d => d :: hexes r | None => [] end | [] => [] end.
Fixpoint skip_hexes (l : list Z) : list Z :=
  match l with c :: r => match hex_of c with Some _ => skip_hexes r | None => l end | [] => [] end.
Definition hexval (v : Z) (ds : list Z) : Z := fold_left (fun v d => 16 * v + d) ds v.
(* the number at the start of a text that begins with a digit, a sign or $, and what follows *)
Definition nat_number (fp : bool) (l : list Z) : option (Z * list Z) :=
  if hd 155 l =? 36 then
    match hexes (tl l) with
    | [] => None
    | ds => if hexval 0 ds <=? 65535 then Some (hexval 0 ds, skip_hexes (tl l)) else None
    end
  else match with_sign l with
       | Some w => let u := skip_digits (skip_sign l) in
                   if fp && (hd 155 u =? 46) then None else Some (word w, u)
       | None => None
       end.

Lemma lxor_hex c : 0 <= c < 256 ->
  match hex_of c with
  | Some d => 0 <= d <= 15 /\ (if Z.lxor c 48 <? 10 then d = Z.lxor c 48 else 250 <= b8 (Z.lxor c 48 - 119) /\ b8 (Z.lxor c 48 - 119) = 240 + d)
  | None => 10 <= Z.lxor c 48 /\ b8 (Z.lxor c 48 - 119) < 250
  end.
Proof.
  intros B. assert (forallb (fun n => let c := Z.of_nat n in
    match hex_of c with
    | Some d => (0 <=? d) && (d <=? 15) && (if Z.lxor c 48 <? 10 then d =? Z.lxor c 48 else (250 <=? b8 (Z.lxor c 48 - 119)) && (b8 (Z.lxor c 48 - 119) =? 240 + d))
    | None => (10 <=? Z.lxor c 48) && (b8 (Z.lxor c 48 - 119) <? 250)
    end) (seq 0 256) = true) as H by (vm_compute; reflexivity).
  rewrite forallb_forall in H. specialize (H (Z.to_nat c)). rewrite in_seq, Z2Nat.id in H by lia.
  specialize (H ltac:(lia)). cbv zeta in H. destruct (hex_of c).
  - apply andb_prop in H as (H1 & H2). apply andb_prop in H1. split; [lia|]. destruct (_ <? 10); lia.
  - apply andb_prop in H. lia.
Qed.
Lemma hexval_ge ds : forall v, Forall (fun d => 0 <= d <= 15) ds -> 0 <= v -> v <= hexval v ds.
Proof.
  induction ds as [|d ds IH]; intros v F B; unfold hexval; cbn [fold_left]; [lia|]. inversion F; subst.
  specialize (IH (16 * v + d) ltac:(auto) ltac:(lia)). fold (hexval (16 * v + d) ds). lia.
Qed.
Lemma hexes_range l : (forall c, List.In c l -> 0 <= c < 256) -> Forall (fun d => 0 <= d <= 15) (hexes l).
Proof.
  induction l as [|c l IH]; intro B; cbn [hexes]; [constructor|]. pose proof (lxor_hex c (B c ltac:(now left))) as H.
  destruct (hex_of c); constructor; [lia|]. apply IH. intros. apply B. now right.
Qed.

Section N.
Variable L : lay.
Variable nz : Z.
Hypothesis OK : native_ok L nz.
Variable fp : bool.
Notation P := (native fp L nz).

Ltac to_code l :=
  match goal with |- wp ?P _ ?s ?Q =>
    let c := eval cbv [native app entry find_lb find_in rt c_interp c_move_loop c_negax c_addsub c_absneg c_bit
       c_logic c_sgn c_shift c_comp0 c_mul c_div c_for c_for_exit c_incdec c_stack c_peek
       c_const c_varaddr c_varstore c_varadd c_constpoke c_jump c_return c_cmpstr c_copystr c_stridx c_move c_nmove
       c_mset c_clearmem c_rand c_streol c_val c_rom c_alloc c_vars c_emit c_actions
       String.eqb Ascii.eqb Bool.eqb] in (entry P l) in
    change (wp P c s Q)
  end.
Ltac to_label l := lazymatch goal with |- wp ?p _ ?s ?Q => change (wp p (entry p l) s Q) end.

(* src/parse.asm:164-173 *)
Lemma emit_ok k (Q : string -> cpu -> Prop) st r a x y c z f v m p : bytes_in m -> p = wordat m (prog_ptr nz) -> 1024 <= p -> p <= 65280 ->
  (m (opos nz) < 255 -> forall z' f', wp P k (mkcpu a x (m (opos nz)) c z' f' v (upd (upd m (p + m (opos nz)) a) (opos nz) (m (opos nz) + 1)) st r) Q) ->
  (m (opos nz) = 255 -> forall z' f', Q "parser_error" (mkcpu a x 12 c z' f' v (upd (upd m (p + m (opos nz)) a) (opos nz) 0) (CRet k :: st) r)) ->
  wp P (entry P "parser_emit_byte") (mkcpu a x y c z f v m (CRet k :: st) r) Q.
Proof.
  pose proof OK as ((?&?&_) & ? & ? & _). intros WM EP P0 P1 K E. to_code "parser_emit_byte". ncells. unfold wordat in EP.
  pose proof (WM (nz + 21)) as BO. step1. step1. rewrite <- EP. norm. do 2 (step1; norm).
  destruct (Z.eq_dec (m (nz + 21)) 255) as [E1|E1].
  - rewrite E1 in *. change (b8 (255 + 1)) with 0. step1; [discriminate|]. step1. step1. apply E; reflexivity.
  - rewrite b8_small by lia. step1; zb; [|lia]. step1. apply K. lia.
Qed.
(* src/actions.asm:615-620 *)
Lemma emit_AX_ok k (Q : string -> cpu -> Prop) st r a x y c z f v m p : bytes_in m -> 0 <= a < 256 -> 0 <= x < 256 -> p = wordat m (prog_ptr nz) -> 1024 <= p -> p <= 65280 ->
  (m (opos nz) < 254 -> forall y' z' f' m', 0 <= y' < 256 -> bytes_in m' -> m' (p + m (opos nz)) = a -> m' (p + m (opos nz) + 1) = x ->
     m' (opos nz) = m (opos nz) + 2 -> (forall b, b <> p + m (opos nz) -> b <> p + m (opos nz) + 1 -> b <> opos nz -> m' b = m b) ->
     wp P k (mkcpu x x y' false z' f' v m' st r) Q) ->
  (254 <= m (opos nz) -> forall s', Y s' = 12 -> Q "parser_error" s') ->
  wp P (entry P "emit_AX") (mkcpu a x y c z f v m (CRet k :: st) r) Q.
Proof.
  pose proof OK as ((?&?&_) & ? & ? & _). intros WM BA BX EP P0 P1 K E. to_code "emit_AX". pose proof (WM (opos nz)) as BO. step1. step1.
  to_label "parser_emit_byte". apply emit_ok with (p := p); auto.
  - intros LT z1 f1. step1. step1. to_label "parser_emit_byte". apply emit_ok with (p := p).
    + bytes_tac.
    + unfold wordat in *. ncells. norm. exact EP.
    + lia.
    + lia.
    + ncells. norm. intros LT2 z2 f2. rewrite !Z.add_assoc. apply K; try lia; try bytes_tac; try (norm; try reflexivity; lia).
      intros b N1 N2 N3. norm. reflexivity.
    + ncells. norm. intros EQ z2 f2. apply E; [lia|reflexivity].
  - intros EQ z1 f1. apply E; [lia|reflexivity].
Qed.

Definition t1cell (b : Z) : Prop := b = tmp1 L \/ b = tmp1 L + 1.
(* src/actions.asm:218-225: one bit *)
Lemma hex_step (Q : string -> cpu -> Prop) st r j a y c z f v m w : 0 <= j <= 3 -> 0 <= a < 256 -> bytes_in m -> wordat m (tmp1 L) = w ->
  (w < 32768 -> forall c' z' f' m', bytes_in m' -> wordat m' (tmp1 L) = 2 * w + (if 128 <=? a then 1 else 0) -> agree t1cell m' m ->
     wp P (if j =? 0 then entry P "hex.nloop" else entry P "hex.1") (mkcpu (b8 (2 * a)) (b8 (j - 1)) y c' z' f' v m' st r) Q) ->
  (32768 <= w -> forall c' z' f' m', bytes_in m' -> agree t1cell m' m ->
     wp P (entry P "eol.xit") (mkcpu (b8 (2 * a)) j y c' z' f' v m' st r) Q) ->
  wp P (entry P "hex.1") (mkcpu a j y c z f v m st r) Q.
Proof.
  pose proof OK as ((?&?&_) & ? & ? & _). intros BJ BA WM EW K1 K2. to_code "hex.1". unfold wordat in *. pose proof (WM (tmp1 L)). pose proof (WM (tmp1 L + 1)).
  do 3 (step1; norm). set (m1 := upd _ (tmp1 L + 1) _).
  assert (W1 : bytes_in m1) by (unfold m1; bytes_tac).
  assert (F1 : agree t1cell m1 m) by (intros b NB; unfold t1cell in NB; unfold m1; norm; reflexivity).
  assert (E1 : w < 32768 -> m1 (tmp1 L) + 256 * m1 (tmp1 L + 1) = 2 * w + (if 128 <=? a then 1 else 0)).
  { intro LT. unfold m1. norm. destruct (128 <=? a); destruct (128 <=? m (tmp1 L)) eqn:C2; zb; zm. }
  clearbody m1. step1; zb.
  - to_label "eol.xit". apply K2; auto. lia.
  - step1. assert (LT : w < 32768) by lia. specialize (K1 LT). destruct (j =? 0) eqn:EJ; zb.
    + subst j. change (b8 (0 - 1)) with 255 in *. step1; [discriminate|]. step1; [|discriminate]. to_label "hex.nloop". apply K1; auto.
    + rewrite (b8_small (j - 1)) in * by lia. step1; zb; [|lia]. to_label "hex.1". apply K1; auto.
Qed.
(* src/actions.asm:193-237 *)
Lemma hex_loop (Q : string -> cpu -> Prop) st r : forall l i w a x c z f v m, 1 <= i -> line m i l -> bytes_in m -> wordat m 243 = 1408 ->
  wordat m (tmp1 L) = w -> (x = 0 \/ x = 255) ->
  (x = 255 \/ hexes l <> [] -> hexval w (hexes l) <= 65535 -> forall a' x' z' f' v' m', 0 <= a' < 256 -> 0 <= x' < 256 -> a' + 256 * x' = hexval w (hexes l) ->
     bytes_in m' -> agree t1cell m' m ->
     wp P (entry P "number.emit") (mkcpu a' x' (i + Z.of_nat (List.length (hexes l))) false z' f' v' m' st r) Q) ->
  (x = 0 /\ hexes l = [] \/ 65535 < hexval w (hexes l) -> forall a' x' y' c' z' f' v' m', 0 <= a' < 256 -> 0 <= x' < 256 -> 0 <= y' < 256 -> bytes_in m' -> agree t1cell m' m ->
     wp P (entry P "eol.xit") (mkcpu a' x' y' c' z' f' v' m' st r) Q) ->
  wp P (entry P "hex.nloop") (mkcpu a x (i - 1) c z f v m st r) Q.
Proof.
  pose proof OK as ((?&?&_) & ? & ? & _).
  induction l as [|d l IH]; intros i w a x c z f v m BI LN WM EI EW EX K1 K2; to_code "hex.nloop"; consts; unfold wordat in EI; change (243 + 1) with 244 in *;
    pose proof (proj1 LN) as BL; cbn [List.length] in BL; step1; (replace (i - 1 + 1) with i by lia); (rewrite b8_small by lia); step1; change (243 + 1) with 244; rewrite EI; norm.
  - rewrite (line_nil m i LN). step1. step1. step1; [discriminate|]. step1. step1. change (b8 (Z.lxor 155 48 - 119 - (1 - (if 10 <=? Z.lxor 155 48 then 1 else 0)))) with 52.
    change (250 <=? 52) with false. step1; [|discriminate]. cbn [hexes List.length hexval fold_left] in *. pose proof (WM (tmp1 L)). pose proof (WM (tmp1 L + 1)). unfold wordat in EW.
    destruct EX as [-> | ->].
    + step1. change (b8 (0 + 1)) with 1. step1; [|discriminate]. to_label "eol.xit". apply K2; auto; try lia. intros b _. reflexivity.
    + step1. change (b8 (255 + 1)) with 0. step1; [discriminate|]. step1. step1. step1; [|discriminate]. to_label "number.emit".
      replace i with (i + Z.of_nat 0) at 1 by lia. apply K1; auto; try lia. intros b _. reflexivity.
  - pose proof (line_cons _ _ _ _ LN) as (EC & LN2). rewrite EC. pose proof (WM (1408 + i)) as BD. rewrite EC in BD. pose proof (lxor_hex d BD) as HX.
    assert (0 <= Z.lxor d 48 < 256) as BDX by (apply lxor_byte; lia). step1. step1. cbn [hexes] in *. pose proof (WM (tmp1 L)). pose proof (WM (tmp1 L + 1)).
    (* a digit *)
    assert (DIG : forall e a2 x2 c2 z2 f2 v2, hex_of d = Some e -> a2 mod 16 = e -> 0 <= a2 < 256 ->
      wp P (entry P "hex.digit") (mkcpu a2 x2 i c2 z2 f2 v2 m st r) Q).
    { intros e a2 x2 c2 z2 f2 v2 EH EM BA2. rewrite EH in *. destruct HX as (Be & _). to_code "hex.digit". do 5 step1.
      replace (b8 (2 * b8 (2 * b8 (2 * b8 (2 * a2))))) with (16 * e) by zm.
      match goal with |- wp _ _ (mkcpu _ _ _ ?cc ?zz ?ff _ _ _ _) _ => generalize cc zz ff end. intros c3 z3 f3.
      assert (HR : Forall (fun d => 0 <= d <= 15) (hexes l)).
      { apply hexes_range. intros c0 IC. destruct (In_nth _ _ 0 IC) as (q & Lq & <-). destruct LN2 as (_ & LN2 & _). rewrite <- LN2 by exact Lq. apply WM. }
      assert (GE : 0 <= w -> 16 * w + e <= hexval w (e :: hexes l)) by (intro; apply (hexval_ge (hexes l)); [exact HR|lia]).
      assert (W0 : 0 <= w) by (unfold wordat in EW; lia). specialize (GE W0).
      assert (OV : 65535 < 16 * w + e -> forall a' x' y' c' z' f' v' m', 0 <= a' < 256 -> 0 <= x' < 256 -> 0 <= y' < 256 -> bytes_in m' -> agree t1cell m' m ->
        wp P (entry P "eol.xit") (mkcpu a' x' y' c' z' f' v' m' st r) Q) by (intro; apply K2; right; lia).
      assert (AG : forall m1 m2 m3, agree t1cell m1 m2 -> agree t1cell m2 m3 -> agree t1cell m1 m3) by (intros m1 m2 m3 A1 A2 b NB; rewrite A1, A2; auto).
      assert (I128 : forall t u, (128 <= t -> u = 1) -> (t < 128 -> u = 0) -> (if 128 <=? t then 1 else 0) = u) by (intros t u I1 I2; destruct (128 <=? t) eqn:C; zb; symmetry; auto).
      step1. to_label "hex.1". apply hex_step with (w := w); auto; try lia.
      2: { intros BW c' z' f' m' W' F'. apply OV; auto; try apply b8_range; lia. }
      intros W1 c4 z4 f4 m4 W4 E4 F4. change (b8 (3 - 1)) with 2. change (if 3 =? 0 then entry P "hex.nloop" else entry P "hex.1") with (entry P "hex.1").
      eapply hex_step; [lia|apply b8_range|exact W4|exact E4| |].
      2: { intros BW c' z' f' m' W' F'. apply OV; auto; try apply b8_range; try lia; [destruct (128 <=? 16 * e); lia|eauto]. }
      intros W2 c5 z5 f5 m5 W5 E5 F5. change (b8 (2 - 1)) with 1. change (if 2 =? 0 then entry P "hex.nloop" else entry P "hex.1") with (entry P "hex.1").
      eapply hex_step; [lia|apply b8_range|exact W5|exact E5| |].
      2: { intros BW c' z' f' m' W' F'. apply OV; auto; try apply b8_range; try lia; [destruct (128 <=? 16 * e), (128 <=? b8 (2 * (16 * e))); lia|eauto]. }
      intros W3 c6 z6 f6 m6 W6 E6 F6. change (b8 (1 - 1)) with 0. change (if 1 =? 0 then entry P "hex.nloop" else entry P "hex.1") with (entry P "hex.1").
      eapply hex_step; [lia|apply b8_range|exact W6|exact E6| |].
      2: { intros BW c' z' f' m' W' F'. apply OV; auto; try apply b8_range; try lia;
           [destruct (128 <=? 16 * e), (128 <=? b8 (2 * (16 * e))), (128 <=? b8 (2 * b8 (2 * (16 * e)))); lia|eauto]. }
      intros WW c7 z7 f7 m7 W7 E7 F7. change (b8 (0 - 1)) with 255. change (if 0 =? 0 then entry P "hex.nloop" else entry P "hex.1") with (entry P "hex.nloop").
      assert (FF : agree t1cell m7 m) by eauto.
      assert (EV : wordat m7 (tmp1 L) = 16 * w + e).
      { rewrite E7. clear - Be. destruct (128 <=? 16 * e) eqn:C1; destruct (128 <=? b8 (2 * (16 * e))) eqn:C2; destruct (128 <=? b8 (2 * b8 (2 * (16 * e)))) eqn:C3;
          destruct (128 <=? b8 (2 * b8 (2 * b8 (2 * (16 * e))))) eqn:C4; zb; zm. }
      replace i with (i + 1 - 1) by lia. apply (IH (i + 1) (16 * w + e)); auto; try lia.
      - revert LN2. apply line_ext; [lia|]. intros b HB. apply FF. unfold t1cell. lia.
      - unfold wordat. change (243 + 1) with 244. rewrite !FF by (unfold t1cell; lia). exact EI.
      - intros _ LE a' x' z' f' v' m' A1 X1 E1 W' F'. cbn [List.length] in K1.
        replace (i + 1 + Z.of_nat (List.length (hexes l))) with (i + Z.of_nat (Datatypes.S (List.length (hexes l)))) by lia. apply K1; auto; [right; discriminate|eauto].
      - intros [(BAD & _)|GT] a' x' y' c' z' f' v' m' A1 X1 Y1 W' F'; [discriminate|]. apply K2; eauto. }
    destruct (hex_of d) as [e|] eqn:EH.
    + destruct HX as (Be & HX). step1; zb.
      * to_label "hex.digit". destruct (Z.lxor d 48 <? 10) eqn:C; zb; [|lia]. apply (DIG e); auto. rewrite <- HX. rewrite HX in Be. apply Z.mod_small. lia.
      * destruct (Z.lxor d 48 <? 10) eqn:C; zb; [lia|]. replace (10 <=? Z.lxor d 48) with true by (symmetry; apply Z.leb_le; lia).
        step1. replace (Z.lxor d 48 - 119 - (1 - 1)) with (Z.lxor d 48 - 119) by lia. step1. step1; zb; [lia|]. step1.
        to_label "hex.digit". apply (DIG e); auto; try apply b8_range. destruct HX as (_ & ->). zm.
    + destruct HX as (H10 & H250). replace (10 <=? Z.lxor d 48) with true by (symmetry; apply Z.leb_le; lia).
      step1; [discriminate|]. step1. replace (Z.lxor d 48 - 119 - (1 - 1)) with (Z.lxor d 48 - 119) by lia. step1. step1; zb; [|lia].
      replace (250 <=? b8 (Z.lxor d 48 - 119)) with false by (symmetry; apply Z.leb_gt; lia).
      cbn [List.length hexval fold_left] in *. unfold wordat in EW. pose proof (b8_range (Z.lxor d 48 - 119)).
      destruct EX as [-> | ->].
      * step1. change (b8 (0 + 1)) with 1. step1; [|discriminate]. to_label "eol.xit". apply K2; auto; try lia. intros b _. reflexivity.
      * step1. change (b8 (255 + 1)) with 0. step1; [discriminate|]. step1. step1. step1; [|discriminate]. to_label "number.emit".
        replace i with (i + Z.of_nat 0) at 1 by lia. apply K1; auto; try lia. intros b _. reflexivity.
Qed.

(* the blanks *)
Lemma skblank_ok k (Q : string -> cpu -> Prop) st r l i a x y c z f v m : bytes_in m -> 0 <= i -> line m i l -> m 242 = i -> wordat m 243 = 1408 ->
  (forall j c' z' f', i <= j -> line (upd m 242 j) j (skip_blanks l) ->
     wp P k (mkcpu 32 x j c' z' f' v (upd m 242 j) st r) Q) ->
  wp P (entry P "SKBLANK") (mkcpu a x y c z f v m (CRet k :: st) r) Q.
Proof.
  intros WM BI LN E0 EI K. to_code "SKBLANK". consts. step1. rewrite E0. step1.
  assert (SK : forall l' j c' z' f', i <= j -> line m j l' -> skip_blanks l = skip_blanks l' ->
    wp P (entry P "SKBLANK.1") (mkcpu 32 x j c' z' f' v m (CRet k :: st) r) Q).
  { induction l' as [|d q IH]; intros j c' z' f' BJ LN' ES; pose proof (proj1 LN') as BL; to_code "SKBLANK.1"; consts;
    unfold wordat in EI; change (243 + 1) with 244 in *; step1; change (243 + 1) with 244; rewrite EI; norm.
    - rewrite (line_nil m j LN'). change (b8 (32 - 155) =? 0) with false. step1; [|discriminate].
      step1. step1. change CIX with 242. apply K; auto. rewrite ES. revert LN'. apply line_ext; [lia|]. intros b HB. norm. reflexivity.
    - pose proof (WM (1408 + j)) as BD. pose proof (line_cons _ _ _ _ LN') as (EC & LN2). rewrite EC in *. cbn [List.length] in BL.
      step1; zb.
      + assert (d <> 32) as ND by (intros ->; apply K0; reflexivity).
        step1. step1. change CIX with 242. apply K; auto. rewrite ES. cbn [skip_blanks]. apply Z.eqb_neq in ND. rewrite ND.
        revert LN'. apply line_ext; [lia|]. intros b HB. norm. reflexivity.
      + assert (d = 32) as -> by (unfold b8 in *; Z.div_mod_to_equations; lia).
        step1. rewrite (b8_small (j + 1)) by lia. step1; zb; [|lia]. to_label "SKBLANK.1". apply IH; auto; lia. }
  step1. to_label "SKBLANK.1". apply SK with (l' := l); auto; lia.
Qed.
Lemma skip_blanks_idem l : skip_blanks (skip_blanks l) = skip_blanks l.
Proof. induction l as [|c l IH]; cbn; [reflexivity|]. destruct (c =? 32) eqn:E; [exact IH|]. cbn. now rewrite E. Qed.
Lemma line_hexes l : forall m i, line m i l -> line m (i + Z.of_nat (List.length (hexes l))) (skip_hexes l).
Proof.
  induction l as [|c l IH]; intros m i LN; cbn [hexes skip_hexes]; [now rewrite Z.add_0_r|].
  destruct (hex_of c); [|now rewrite Z.add_0_r]. apply line_cons in LN as (_ & LN). cbn [List.length]. rewrite Nat2Z.inj_succ.
  replace (i + Z.succ (Z.of_nat (List.length (hexes l)))) with (i + 1 + Z.of_nat (List.length (hexes l))) by lia. auto.
Qed.
Lemma native_more l c : find_lb l (rt L) = Some c -> find_lb l P = Some c.
Proof. apply find_lb_app. Qed.

(* cells that change besides the program *)
Definition num_work (b : Z) : Prop := bcell L b \/ b = opos nz.
(* src/actions.asm:167-189 *)
Lemma number_word_ok k (Q : string -> cpu -> Prop) st r l i a x y c z f v m p : 0 <= x < 256 -> bytes_in m -> 0 <= i -> line m i l -> m 242 = i -> wordat m 243 = 1408 ->
  p = wordat m (prog_ptr nz) -> 1664 <= p -> p <= 65280 ->
  match nat_number fp (skip_blanks l) with
  | Some (w, u) =>
    (m (opos nz) < 254 -> forall a' y' z' f' v' m', 0 <= a' < 256 -> 0 <= y' < 256 -> bytes_in m' -> wordat m' (p + m (opos nz)) = w -> 0 <= m' 242 -> line m' (m' 242) u ->
       m' (opos nz) = m (opos nz) + 2 -> (forall b, b <> p + m (opos nz) -> b <> p + m (opos nz) + 1 -> ~ num_work b -> m' b = m b) ->
       wp P k (mkcpu a' (w / 256) y' false z' f' v' m' st r) Q) /\
    (254 <= m (opos nz) -> forall s', Y s' = 12 -> Q "parser_error" s')
  | None => forall a' x' y' z' f' v' m', 0 <= a' < 256 -> 0 <= x' < 256 -> 0 <= y' < 256 -> bytes_in m' -> agree (bcell L) m' m ->
      wp P k (mkcpu a' x' y' true z' f' v' m' st r) Q
  end ->
  wp P (entry P "E_NUMBER_WORD") (mkcpu a x y c z f v m (CRet k :: st) r) Q.
Proof.
  pose proof OK as (OKL & _). pose proof OK as ((?&?&_) & ? & ? & _). intros BX WM BI LN E0 EI EP P0 P1 K. pose proof (WM (opos nz)) as BO.
  (* the end *)
  assert (EMIT : forall w u a' x' y' c' z' f' v' m', nat_number fp (skip_blanks l) = Some (w, u) -> 0 <= a' < 256 -> 0 <= x' < 256 -> 0 <= y' -> a' + 256 * x' = w -> bytes_in m' ->
    line m' y' u -> agree (bcell L) m' m -> wp P (entry P "number.emit") (mkcpu a' x' y' c' z' f' v' m' (CRet k :: st) r) Q).
  { intros w u a' x' y' c' z' f' v' m' EN BA' BX' BY' EW W' LN' F'. rewrite EN in K. destruct K as (K1 & K2). to_code "number.emit". step1. step1. to_label "emit_AX". consts.
    pose proof (proj1 LN') as BL. assert (Oo : m' (opos nz) = m (opos nz)) by (apply F'; unfold bcell; ncells; lia).
    unfold wordat in *. ncells.
    assert (RO : upd m' 242 y' (opos nz) = m (opos nz)) by (ncells; norm; exact Oo).
    apply emit_AX_ok with (p := p); auto; try lia; try rewrite RO.
    - bytes_tac.
    - unfold wordat. ncells. norm. rewrite !F' by (unfold bcell; lia). exact EP.
    - ncells. intros LT y2 z2 f2 m2 B2 W2 E1 E2 E3 F2. replace x' with (w / 256) at 2 by zm. apply K1; auto.
      + rewrite E1, E2. lia.
      + rewrite F2 by (ncells; lia). norm. lia.
      + rewrite F2 by (ncells; lia). norm. revert LN'. apply line_ext; [lia|]. intros b HB. rewrite F2 by (ncells; lia). norm. reflexivity.
      + intros b N1 N2 N3. unfold num_work in N3. ncells. rewrite F2 by lia. rewrite upd_ne by (unfold bcell in N3; lia). apply F'. tauto.
    - exact K2. }
  assert (FAIL : forall a' x' y' c' z' f' v' m', nat_number fp (skip_blanks l) = None -> 0 <= a' < 256 -> 0 <= x' < 256 -> 0 <= y' < 256 -> bytes_in m' ->
    agree (bcell L) m' m -> wp P (entry P "eol.xit") (mkcpu a' x' y' c' z' f' v' m' (CRet k :: st) r) Q).
  { intros a' x' y' c' z' f' v' m' EN BA' BX' BY' W' F'. rewrite EN in K. to_code "eol.xit". step1. step1. step1. apply K; auto. }
  to_code "E_NUMBER_WORD". eapply wp_jsr; [reflexivity|]. cpu_red. to_label "SKBLANK". apply skblank_ok with (l := l) (i := i); auto.
  intros j c1 z1 f1 BJ LJ. set (l1 := skip_blanks l) in *. pose proof (proj1 LJ) as BL.
  set (m1 := upd m 242 j) in *. assert (W1 : bytes_in m1) by (unfold m1; bytes_tac).
  assert (F1 : agree (bcell L) m1 m) by (intros b NB; unfold bcell in NB; unfold m1; norm; reflexivity).
  assert (C1 : m1 242 = j) by (unfold m1; norm; reflexivity).
  assert (I1 : wordat m1 243 = 1408) by (unfold wordat in *; rewrite !F1 by (unfold bcell; lia); exact EI).
  clearbody m1. clear E0 LN. assert (EC : m1 (1408 + j) = hd 155 l1) by (destruct l1; [apply line_nil; auto|apply line_cons in LJ; apply LJ]).
  assert (BC : 0 <= hd 155 l1 < 256) by (rewrite <- EC; apply W1).
  consts. step1. change (243 + 1) with 244. unfold wordat in I1. change (243 + 1) with 244 in I1. rewrite I1. norm. rewrite EC. step1. step1; zb.
  - apply Z.lxor_eq in K0. to_label "read_hex". to_code "read_hex". do 3 (step1; norm). 
    set (m2 := upd _ (tmp1 L + 1) _). assert (W2 : bytes_in m2) by (unfold m2; bytes_tac; change (Z.lxor (hd 155 l1) 36) with (Z.lxor (hd 155 l1) 36); rewrite K0; vm_compute; split; congruence).
    assert (F2 : agree t1cell m2 m1) by (intros b NB; unfold t1cell in NB; unfold m2; norm; reflexivity).
    assert (E2 : wordat m2 (tmp1 L) = 0) by (unfold wordat, m2; norm; rewrite K0; reflexivity).
    clearbody m2. replace j with (j + 1 - 1) at 1 by lia. destruct l1 as [|h l1]; [discriminate|]. cbn [hd] in *. clear EC. subst h. apply line_cons in LJ as (_ & LJ).
    assert (T2B : forall m3, agree t1cell m3 m2 -> agree (bcell L) m3 m) by (intros m3 F3 b NB; rewrite F3, F2, F1; auto; unfold bcell, t1cell in *; lia).
    change (Z.lxor 36 36) with 0. step1. to_label "hex.nloop". apply (hex_loop Q _ _ l1 (j + 1) 0); auto; try lia.
    + revert LJ. apply line_ext; [lia|]. intros b HB. apply F2. unfold t1cell. lia.
    + unfold wordat. change (243 + 1) with 244. rewrite !F2 by (unfold t1cell; lia). exact I1.
    + intros [BAD|NE] LE a' x' z' f' v' m' BA' BX' EV W' F'; [lia|]. apply EMIT with (w := hexval 0 (hexes l1)) (u := skip_hexes l1); auto; try lia.
      * unfold nat_number. change (hd 155 (36 :: l1) =? 36) with true. cbn [tl]. destruct (hexes l1) as [|h q]; [easy|]. rewrite (proj2 (Z.leb_le _ _) LE). reflexivity.
      * apply line_hexes. revert LJ. apply line_ext; [lia|]. intros b HB. rewrite F', F2 by (unfold t1cell; lia). reflexivity.
    + intros D a' x' y' c' z' f' v' m' BA' BX' BY' W' F'. apply FAIL; auto.
      unfold nat_number. change (hd 155 (36 :: l1) =? 36) with true. cbn [tl]. destruct (hexes l1) as [|h q]; [reflexivity|].
      destruct D as [(_ & BAD)|GT]; [discriminate|]. rewrite (proj2 (Z.leb_gt _ _) GT). reflexivity.
  - assert (NH : (hd 155 l1 =? 36) = false) by (apply Z.eqb_neq; intro E; apply K0; rewrite E; reflexivity).
    match goal with |- wp ?P (In (JSR ?l) :: ?c) (mkcpu ?a ?x ?y ?cc ?z ?f ?v ?mm ?ss ?rr) ?Q =>
      change (wp P (In (JSR l) :: c) (setS ss (mkcpu a x y cc z f v mm [] rr)) Q);
      apply (wp_sub (rt L) P "sub.ret" c ss Q native_more (rt_quiet L) eq_refl) end; [|discriminate].
    cpu_red. apply (read_word_ok L OKL) with (l := l1) (i0 := j); auto; try lia; try (apply lxor_byte; lia).
    intros a2 x2 y2 c2 z2 f2 v2 m2 BA2 BX2 BY2 W2 F2 V. apply wp_exit; [reflexivity|]. split; [reflexivity|].
    assert (F3 : agree (bcell L) m2 m) by (intros b NB; rewrite F2, F1; auto).
    unfold val_of, after_number in V. unfold l1 in V at 1. rewrite skip_blanks_idem in V. fold l1 in V.
    destruct (with_sign l1) as [w|] eqn:WS.
    + destruct V as (-> & EV & LA). unfold l1 in LA. rewrite skip_blanks_idem in LA. fold l1 in LA. set (u := skip_digits (skip_sign l1)) in *.
      assert (EU : m2 (1408 + y2) = hd 155 u) by (destruct u; [apply line_nil; auto|apply line_cons in LA; apply LA]).
      pose proof (proj1 LA) as BLu. step1; [discriminate|].
      assert (NN : nat_number fp l1 = if fp && (hd 155 u =? 46) then None else Some (word w, u)) by (unfold nat_number; now rewrite NH, WS).
      destruct fp eqn:FP.
      * eapply wp_jmp; [reflexivity|]. consts. do 2 (step1; norm).
        assert (I2 : m2 243 + 256 * m2 244 = 1408) by (rewrite !F3 by (unfold bcell; lia); unfold wordat in EI; exact EI).
        change (243 + 1) with 244. norm. rewrite I2. norm. rewrite EU. assert (BU : 0 <= hd 155 u < 256) by (rewrite <- EU; apply W2). step1.
        assert (W3 : bytes_in (upd m2 (tmp1 L) a2)) by bytes_tac. assert (F4 : agree (bcell L) (upd m2 (tmp1 L) a2) m) by (intros b NB; rewrite upd_ne by (unfold bcell in NB; lia); auto).
        step1.
        -- to_label "eol.xit". apply FAIL; auto; try lia. rewrite NN. replace (hd 155 u =? 46) with true; [reflexivity|]. symmetry. apply Z.eqb_eq. zb. zm.
        -- step1. norm. step1. to_label "number.emit". apply EMIT with (w := word w) (u := u); auto; try lia.
           { rewrite NN. replace (hd 155 u =? 46) with false; [reflexivity|]. symmetry. apply Z.eqb_neq. zb. intro E. rewrite E in *. apply K2. reflexivity. }
           revert LA. apply line_ext; [lia|]. intros b HB. norm. reflexivity.
      * eapply wp_jmp; [reflexivity|]. to_label "number.emit". apply EMIT with (w := word w) (u := u); auto; lia.
    + subst c2. step1; [|discriminate]. unfold nat_number in K. rewrite NH, WS in K. step1. apply K; auto.
Qed.
End N.
