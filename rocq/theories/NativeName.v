(* The tables of names of the native compiler. *)
From Verif Require Export NativeNum SpecNative.

Lemma xor_cmp u v : 0 <= u < 256 -> 0 <= v < 256 ->
  (b8 (2 * Z.lxor u v) =? 0) = (u mod 128 =? v mod 128) /\ (128 <=? Z.lxor u v) = xorb (128 <=? u) (128 <=? v).
Proof.
  intros U V. assert (H : forallb (fun a => forallb (fun b => let u := Z.of_nat a in let v := Z.of_nat b in
    Bool.eqb (b8 (2 * Z.lxor u v) =? 0) (u mod 128 =? v mod 128) && Bool.eqb (128 <=? Z.lxor u v) (xorb (128 <=? u) (128 <=? v)))
    (seq 0 256)) (seq 0 256) = true) by (vm_compute; reflexivity).
  rewrite forallb_forall in H. specialize (H (Z.to_nat u)). rewrite in_seq, forallb_forall in H. specialize (H ltac:(lia) (Z.to_nat v)).
  rewrite in_seq in H. specialize (H ltac:(lia)). cbv zeta in H. rewrite !Z2Nat.id in H by lia. apply andb_prop in H as (H1 & H2).
  apply Bool.eqb_prop in H1, H2. auto.
Qed.
Lemma name_char_range c : name_char c = true -> 48 <= c <= 95.
Proof. unfold name_char, name_start. rewrite ?orb_true_iff, ?andb_true_iff. lia. Qed.
Lemma bytes_at_app m a l1 l2 : bytes_at m a (l1 ++ l2) <-> bytes_at m a l1 /\ bytes_at m (a + Z.of_nat (List.length l1)) l2.
Proof.
  unfold bytes_at. rewrite app_length. split.
  - intro H. split; intros k K.
    + rewrite H by lia. now rewrite app_nth1.
    + replace (a + Z.of_nat (List.length l1) + Z.of_nat k) with (a + Z.of_nat (List.length l1 + k)) by lia. rewrite H by lia.
      rewrite app_nth2 by lia. f_equal. lia.
  - intros (H1 & H2) k K. destruct (Nat.lt_ge_cases k (List.length l1)).
    + rewrite app_nth1 by lia. auto.
    + rewrite app_nth2 by lia. rewrite <- H2 by lia. f_equal. lia.
Qed.
Lemma bytes_at_cons m a c l : bytes_at m a (c :: l) <-> m a = c /\ bytes_at m (a + 1) l.
Proof.
  change (c :: l) with ([c] ++ l). rewrite bytes_at_app. cbn [List.length]. change (Z.of_nat 1) with 1. split; intros (H1 & H2); (split; [|exact H2]).
  - specialize (H1 O ltac:(cbn; lia)). cbn in H1. now rewrite Z.add_0_r in H1.
  - intros k K. cbn in K. replace k with O by lia. cbn. now rewrite Z.add_0_r.
Qed.
Lemma bytes_at_ext m m' a l : (forall b, a <= b < a + Z.of_nat (List.length l) -> m' b = m b) -> bytes_at m a l -> bytes_at m' a l.
Proof. intros E H k K. rewrite E by lia. auto. Qed.
Lemma marked_length n : List.length (marked n) = List.length n.
Proof. induction n as [|c [|d n] IH]; auto. change (marked (c :: d :: n)) with (c :: marked (d :: n)). cbn [List.length] in *. lia. Qed.
Lemma entry_length e : List.length (entry_bytes e) = Datatypes.S (List.length (fst e)).
Proof. unfold entry_bytes. rewrite app_length, marked_length. cbn. lia. Qed.

Section N.
Variable L : lay.
Variable nz : Z.
Hypothesis OK : native_ok L nz.
Variable fp : bool.
Notation P := (native fp L nz).

Ltac to_code l :=
  match goal with |- wp ?P _ ?s ?Q =>
    let c := eval cbv [native app entry find_lb find_in rt c_interp c_move_loop c_negax c_addsub c_absneg c_bit
       c_logic c_sgn c_shift c_comp0 c_mul c_div c_for c_for_exit c_incdec c_stack c_peek
       c_const c_varaddr c_varstore c_varadd c_constpoke c_jump c_return c_cmpstr c_copystr c_stridx c_move c_nmove
       c_mset c_clearmem c_rand c_streol c_val c_rom c_alloc c_vars c_emit c_actions
       String.eqb Ascii.eqb Bool.eqb] in (entry P l) in
    change (wp P c s Q)
  end.
Ltac to_label l := lazymatch goal with |- wp ?p _ ?s ?Q => change (wp p (entry p l) s Q) end.

(* the text at the cursor, in the line buffer or not: q, then a character t that no name has *)
Definition text_at (m : Z -> Z) (a : Z) (q : list Z) (t : Z) : Prop := bytes_at m a (q ++ [t]).

(* src/vars.asm:123-127: to the end of the entry *)
Lemma skip_var (Q : string -> cpu -> Prop) st r ty va : forall n y a x c z f v m, n <> [] -> forallb name_char n = true -> 0 <= y ->
  bytes_in m -> wordat m (var nz) = va -> bytes_at m (va + y) (marked n ++ [ty]) -> y + Z.of_nat (List.length n) <= 255 -> 0 <= va <= 65280 ->
  (forall a' c' z' f', 0 <= a' < 256 -> wp P (entry P "search.next") (mkcpu a' x (y + Z.of_nat (List.length n)) c' z' f' v m st r) Q) ->
  wp P (entry P "search.skip") (mkcpu a x y c z f v m st r) Q.
Proof.
  induction n as [|d n IH]; intros y a x c z f v m NE NC BY WM EV BA BL BV K; [easy|]. cbn [forallb] in NC. apply andb_prop in NC as (ND & NC).
  apply name_char_range in ND. to_code "search.skip". ncells. unfold wordat in EV. cbn [List.length] in BL.
  step1. rewrite EV. rewrite b16_small by lia. destruct n as [|d2 n].
  - cbn [marked app] in BA. apply bytes_at_cons in BA as (E & _). rewrite E. step1. step1. rewrite (b8_small (y + 1)) by lia. step1; zb; [lia|]. step1. to_label "search.next".
    cbn [List.length] in K. change (Z.of_nat 1) with 1 in K. apply K. apply b8_range.
  - change (marked (d :: d2 :: n) ++ [ty]) with (d :: (marked (d2 :: n) ++ [ty])) in BA. apply bytes_at_cons in BA as (E & BA). rewrite E.
    step1. step1. rewrite (b8_small (y + 1)) by lia. step1; zb; [|lia]. to_label "search.skip". apply IH; auto; try lia; try discriminate.
    + replace (va + (y + 1)) with (va + y + 1) by lia. exact BA.
    + intros a' c' z' f' BA'. replace (y + 1 + Z.of_nat (List.length (d2 :: n))) with (y + Z.of_nat (List.length (d :: d2 :: n))) by (cbn [List.length]; lia). auto.
Qed.
(* src/vars.asm:104-121 *)
Lemma cmp_var k (Q : string -> cpu -> Prop) st r ty va na t : 0 <= t < 256 -> name_char (t mod 128) = false -> forall n q y a x c z f v m, n <> [] -> forallb name_char n = true ->
  forallb name_char q = true -> 0 <= y -> bytes_in m -> wordat m (var nz) = va -> wordat m (name nz) = na ->
  bytes_at m (va + y) (marked n ++ [ty]) -> text_at m (na + y) q t -> m (len nz) = y + Z.of_nat (List.length q) ->
  y + Z.of_nat (List.length n) <= 255 -> 0 <= va <= 65280 -> 0 <= na <= 65280 -> 0 <= ty < 256 ->
  (n = q -> forall y' z' f', 0 <= y' < 256 -> wp P k (mkcpu ty x y' false z' f' v m st r) Q) ->
  (n <> q -> forall a' c' z' f', 0 <= a' < 256 -> wp P (entry P "search.next") (mkcpu a' x (y + Z.of_nat (List.length n)) c' z' f' v m (CRet k :: st) r) Q) ->
  wp P (entry P "search.cmp") (mkcpu a x y c z f v m (CRet k :: st) r) Q.
Proof.
  intros BT NT. induction n as [|d n IH]; intros q y a x c z f v m NE NC QC BY WM EV EN BA TA EL BL BV BN BTy K1 K2; [easy|].
  pose proof NC as NC0. cbn [forallb] in NC. apply andb_prop in NC as (ND & NC).
  apply name_char_range in ND as RD. to_code "search.cmp". ncells. unfold wordat in EV, EN. cbn [List.length] in BL.
  step1. rewrite EV. rewrite b16_small by lia. step1. rewrite EN. rewrite b16_small by lia.
  set (e := m (va + y)). set (h := m (na + y)).
  assert (Be : 0 <= e < 256) by apply WM. assert (Bh : 0 <= h < 256) by apply WM. destruct (xor_cmp e h Be Bh) as (X1 & X2).
  step1. rewrite X1, X2.
  assert (Ee : e mod 128 = d) by (unfold e; destruct n as [|d2 n];
    [cbn [marked app] in BA; apply bytes_at_cons in BA as (-> & _)|change (marked (d :: d2 :: n) ++ [ty]) with (d :: (marked (d2 :: n) ++ [ty])) in BA; apply bytes_at_cons in BA as (-> & _)]; zm).
  assert (SKIP : d :: n <> q -> forall a' c' z' f', wp P (entry P "search.skip") (mkcpu a' x y c' z' f' v m (CRet k :: st) r) Q).
  { intros NQ a' c' z' f'. eapply skip_var with (n := d :: n) (va := va) (ty := ty); auto; try lia; try discriminate. }
  destruct q as [|d' q].
  - unfold text_at in TA. cbn [app] in TA. apply bytes_at_cons in TA as (Eh & _). fold h in Eh.
    step1; zb; [to_label "search.skip"; apply SKIP; discriminate|]. exfalso. rewrite Ee, Eh in K. rewrite K in ND. congruence.
  - cbn [forallb] in QC. apply andb_prop in QC as (QD & QC). apply name_char_range in QD. unfold text_at in TA. cbn [app] in TA. apply bytes_at_cons in TA as (Eh & TA). fold h in Eh.
    rewrite Ee. replace (h mod 128) with d' by (rewrite Eh; zm). replace (128 <=? h) with false by (symmetry; apply Z.leb_gt; lia). rewrite xorb_false_r.
    cbn [List.length] in EL. step1; zb; [to_label "search.skip"; apply SKIP; congruence|]. match goal with H : d = d' |- _ => rewrite <- H in *; clear H end. step1. rewrite (b8_small (y + 1)) by lia.
    destruct n as [|d2 n].
    + cbn [marked app] in BA. apply bytes_at_cons in BA as (E & BA). fold e in E. apply bytes_at_cons in BA as (ET & _). replace (128 <=? e) with true by (symmetry; apply Z.leb_le; lia).
      step1; [discriminate|]. step1. rewrite EL. pose proof (WM (nz + 32)).
      destruct q as [|d3 q].
      * cbn [List.length]. change (Z.of_nat 1) with 1. step1; zb; [exfalso; zm|]. step1. rewrite EV. rewrite b16_small by lia. replace (va + (y + 1)) with (va + y + 1) by lia. rewrite ET. step1. step1. step1.
        apply K1; auto. lia.
      * cbn [List.length] in *. step1; zb; [|exfalso; zm]. to_label "search.next".
        change (Z.of_nat 1) with 1 in K2. apply K2; [discriminate|apply b8_range].
    + change (marked (d :: d2 :: n) ++ [ty]) with (d :: (marked (d2 :: n) ++ [ty])) in BA. apply bytes_at_cons in BA as (E & BA). fold e in E. replace (128 <=? e) with false by (symmetry; apply Z.leb_gt; lia).
      step1; [|discriminate]. to_label "search.cmp". apply (IH q (y + 1)); auto; try lia; try discriminate.
      * replace (va + (y + 1)) with (va + y + 1) by lia. exact BA.
      * unfold text_at. replace (na + (y + 1)) with (na + y + 1) by lia. exact TA.
      * intros E2. apply K1. now rewrite E2.
      * intros E2 a' c' z' f' BA'. replace (y + 1 + Z.of_nat (List.length (d2 :: n))) with (y + Z.of_nat (List.length (d :: d2 :: n))) by (cbn [List.length]; lia).
        apply K2; auto. congruence.
Qed.

Lemma count_pos es : 0 <= count fp es.
Proof. induction es as [|e es IH]; unfold count in *; cbn [fold_right]; [lia|]. unfold weight at 1. destruct (fp && _); lia. Qed.
Definition snw (b : Z) : Prop := b = var nz \/ b = var nz + 1.
(* src/vars.asm:100-158: the search, from the entry number i on *)
Lemma search_loop k (Q : string -> cpu -> Prop) st r na t q : 0 <= t < 256 -> name_char (t mod 128) = false -> forallb name_char q = true -> 1408 <= na <= 1663 ->
  forall es i va a y c z f v m, Forall entry_ok es -> 0 <= i -> 0 <= y < 256 -> bytes_in m -> wordat m (var nz) = va -> 1664 <= va -> wordat m (name nz) = na ->
  bytes_at m va (entries_bytes es) -> text_at m na q t -> m (len nz) = Z.of_nat (List.length q) -> m (search_count nz) = i + count fp es ->
  va + Z.of_nat (List.length (entries_bytes es)) <= 65280 ->
  (forall es1 ty es2, es = es1 ++ (q, ty) :: es2 -> ~ List.In q (map fst es1) -> forall y' z' f' v' m', 0 <= y' < 256 -> bytes_in m' -> agree snw m' m ->
     wp P k (mkcpu ty (i + count fp es1) y' false z' f' v' m' st r) Q) ->
  (~ List.In q (map fst es) -> forall a' y' z' f' v' m', 0 <= a' < 256 -> 0 <= y' < 256 -> bytes_in m' -> agree snw m' m ->
     wp P k (mkcpu a' (i + count fp es) y' true z' f' v' m' st r) Q) ->
  0 <= a < 256 -> wp P (entry P "search.start") (mkcpu a (b8 (i - 1)) y c z f v m (CRet k :: st) r) Q.
Proof.
  pose proof OK as ((?&?&_) & ? & ? & _). intros BT NT QC BN.
  induction es as [|e es IH]; intros i va a y c z f v m ES BI BY WM EV BV EN BA TA EL EC BE K1 K2 BAa; pose proof (WM (search_count nz)) as BS.
  - to_code "search.start". change (count fp []) with 0 in *. step1. replace (b8 (b8 (i - 1) + 1)) with i by zm. step1. rewrite EC. step1; zb; [exfalso; zm|].
    step1. step1. step1. replace i with (i + 0) by lia. apply K2; auto; intros b _; reflexivity.
  - inversion ES as [|? ? EO ES2]; subst. destruct EO as (AN & LE & BTy). pose proof (count_pos es) as CP.
    assert (EC2 : count fp (e :: es) = weight fp e + count fp es) by reflexivity. rewrite EC2 in *.
    assert (BW : 1 <= weight fp e <= 3) by (unfold weight; destruct (fp && _); lia).
    to_code "search.start". step1. replace (b8 (b8 (i - 1) + 1)) with i by zm. step1. rewrite EC. step1; zb; [|exfalso; zm]. to_label "search.loop". to_code "search.loop". step1. step1. to_label "search.cmp".
    set (va := wordat m (var nz)) in *. set (na := wordat m (name nz)) in *.
    unfold entries_bytes in BA, BE. cbn [flat_map] in BA, BE. rewrite app_length, entry_length in BE.
    assert (BA2 := BA). apply bytes_at_app in BA as (BA & BB). rewrite entry_length in BB.
    destruct e as [n ty]. cbn [fst snd] in *. unfold entry_bytes in BA. cbn [fst snd] in BA.
    assert (NC : n <> [] /\ forallb name_char n = true).
    { destruct n as [|d n]; [destruct AN|]. split; [discriminate|]. destruct AN as (A1 & A2). cbn [forallb]. unfold name_char at 1. rewrite A1, A2. now rewrite orb_true_r. }
    destruct NC as (NE & NC).
    eapply (cmp_var k Q st r ty va na t BT NT n q 0); auto; try lia.
    + now rewrite Z.add_0_r.
    + now rewrite Z.add_0_r.
    + intros E y' z' f' BY'. replace i with (i + count fp []) by (change (count fp []) with 0; lia). subst n. apply (K1 [] ty es); auto. intros b _. reflexivity.
    + intros NQ a' c' z' f' BA'. rewrite Z.add_0_l. set (ln := Z.of_nat (List.length n)) in *.
      assert (NEXT : forall a2 c2 z2 f2, 0 <= a2 < 256 -> wp P (entry P "search.no_float") (mkcpu a2 (b8 (i + weight fp (n, ty) - 1)) ln c2 z2 f2 v m (CRet k :: st) r) Q).
      { intros a2 c2 z2 f2 BA3. to_code "search.no_float". ncells. pose proof (WM (nz + 30)). pose proof (WM (nz + 30 + 1)). unfold wordat in va. do 4 (step1; norm).
        set (va2 := va + ln + 1).
        assert (GO : forall a4 m4 c4 z4 f4 v4, 0 <= a4 < 256 -> bytes_in m4 -> wordat m4 (nz + 30) = va2 -> agree snw m4 m ->
          wp P (entry P "search.start") (mkcpu a4 (b8 (i + weight fp (n, ty) - 1)) ln c4 z4 f4 v4 m4 (CRet k :: st) r) Q).
        { intros a4 m4 c4 z4 f4 v4 BA4 W4 E4 F4. apply (IH (i + weight fp (n, ty)) va2); auto; try (unfold va2, ln in *; lia).
          - unfold wordat. ncells. rewrite !F4 by (unfold snw; ncells; lia). reflexivity.
          - apply bytes_at_ext with (m := m).
            + intros b Hb. apply F4. unfold snw, va2, ln in *. ncells. lia.
            + unfold va2, ln. replace (va + Z.of_nat (List.length n) + 1) with (va + Z.of_nat (Datatypes.S (List.length n))) by lia. exact BB.
          - unfold text_at. apply bytes_at_ext with (m := m); [|exact TA]. intros b Hb. apply F4. unfold snw. ncells. lia.
          - ncells. rewrite F4 by (unfold snw; ncells; lia). exact EL.
          - ncells. rewrite F4 by (unfold snw; ncells; lia). rewrite EC. lia.
          - unfold entries_bytes, va2, ln in *. lia.
          - intros es1 ty1 es2 -> NI y' z1 f1 v1 m' BY' W' F'.
            replace (i + weight fp (n, ty) + count fp es1) with (i + count fp ((n, ty) :: es1)) by (change (count fp ((n, ty) :: es1)) with (weight fp (n, ty) + count fp es1); lia).
            apply (K1 ((n, ty) :: es1) ty1 es2); auto; [cbn [map fst List.In]; intros [E|E]; [congruence|auto]|]. intros b NB. rewrite F', F4; auto.
          - intros NI a5 y' z1 f1 v1 m' BA5 BY' W' F'. rewrite <- Z.add_assoc. apply K2; auto; [cbn [map fst List.In]; intros [E|E]; [congruence|auto]|]. intros b NB. rewrite F', F4; auto. }
        assert (Bln : 0 <= ln <= 250) by (unfold ln; lia).
        step1; zb.
        - to_label "search.start". apply GO; [apply b8_range|bytes_tac| |].
          + unfold wordat. norm. unfold va2. zm.
          + intros b NB. unfold snw in NB. ncells. norm. reflexivity.
        - step1. norm. step1. to_label "search.start". apply GO; [apply b8_range|bytes_tac| |].
          + unfold wordat. norm. unfold va2. zm.
          + intros b NB. unfold snw in NB. ncells. norm. reflexivity. }
      to_code "search.next". unfold weight in NEXT, EC, BW. cbn [snd] in NEXT, EC, BW. destruct fp eqn:FP; cbn [andb] in NEXT, EC, BW.
      * eapply wp_jmp; [reflexivity|]. ncells. unfold wordat in va. step1. fold va. rewrite b16_small by (unfold ln in *; lia).
        assert (ET : m (va + ln) = ty).
        { apply bytes_at_app in BA as (_ & BA). rewrite marked_length in BA. apply bytes_at_cons in BA as (BA & _). exact BA. }
        rewrite ET. step1.
        -- to_label "search.no_float". replace (128 <=? ty) with false in NEXT by (destruct (128 <=? ty); [discriminate|reflexivity]).
           replace i with (i + 1 - 1) by lia. rewrite <- (b8_small (i + 1 - 1)) by lia. apply NEXT. exact BTy.
        -- replace (128 <=? ty) with true in * by (destruct (128 <=? ty); [reflexivity|discriminate]).
           step1. step1. step1. to_label "search.no_float". replace (b8 (b8 (i + 1) + 1)) with (b8 (i + 3 - 1)) by zm. apply NEXT. exact BTy.
      * eapply wp_jmp; [reflexivity|]. to_label "search.no_float". replace i with (i + 1 - 1) by lia. rewrite <- (b8_small (i + 1 - 1)) by lia. apply NEXT. exact BA'.
Qed.

(* src/vars.asm:57-69 *)
Lemma check_ok k (Q : string -> cpu -> Prop) st r c0 x y c z f v m (fst : bool) : 0 <= c0 < 256 ->
  (forall a' z' f' v', 0 <= a' < 256 -> (fst = false -> name_char c0 = false -> (a' = 46 <-> c0 = 46 \/ c0 = 110)) ->
     wp P k (mkcpu a' x y (negb ((if fst then name_start else name_char) c0)) z' f' v' m st r) Q) ->
  wp P (entry P (if fst then "check.first" else "check_char")) (mkcpu c0 x y c z f v m (CRet k :: st) r) Q.
Proof.
  intros B K.
  assert (SEC : (if fst then name_start else name_char) c0 = false -> (forall a' c' z' f' v', 0 <= a' < 256 -> (fst = false -> (a' = 46 <-> c0 = 46 \/ c0 = 110)) ->
    wp P (entry P "ret_sec") (mkcpu a' x y c' z' f' v' m (CRet k :: st) r) Q)).
  { intros E a' c' z' f' v' BA H. rewrite E in K. to_code "ret_sec". step1. step1. apply K; auto. }
  assert (CL : (if fst then name_start else name_char) c0 = true -> forall c' z' f' v', wp P (entry P "ret_clc") (mkcpu c0 x y c' z' f' v' m (CRet k :: st) r) Q).
  { intros E c' z' f' v'. rewrite E in K. to_code "ret_clc". step1. step1. apply K; auto. intros -> H. unfold name_char in *. rewrite H in E. discriminate. }
  assert (FIRST : (fst = false -> 58 <= c0) -> forall c' z' f', wp P (entry P "check.first") (mkcpu c0 x y c' z' f' v m (CRet k :: st) r) Q).
  { intros H58 c' z' f'. to_code "check.first". step1. step1; zb.
    - to_label "ret_clc". assert (c0 = 95) by zm. subst c0. apply CL. destruct fst; reflexivity.
    - assert (N95 : c0 <> 95) by (intros ->; apply K0; reflexivity). step1. step1. step1. step1.
      assert (R : (26 <=? b8 (c0 - 64 - (1 - (if 95 <=? c0 then 1 else 0)))) = negb ((if fst then name_start else name_char) c0)).
      { assert (NS : name_start c0 = (65 <=? c0) && (c0 <=? 90)) by (unfold name_start; apply Z.eqb_neq in N95; rewrite N95; apply orb_false_r).
        assert (N2 : (if fst then name_start else name_char) c0 = (65 <=? c0) && (c0 <=? 90)).
        { destruct fst; [exact NS|]. unfold name_char. rewrite NS. destruct (c0 <=? 57) eqn:C; zb; [exfalso; specialize (H58 eq_refl); lia|]. rewrite andb_false_r. reflexivity. }
        rewrite N2. destruct (95 <=? c0) eqn:C1; zb.
        - replace (c0 <=? 90) with false by (symmetry; apply Z.leb_gt; lia). rewrite andb_false_r. apply Z.leb_le. zm.
        - destruct (65 <=? c0) eqn:C2; zb; destruct (c0 <=? 90) eqn:C3; zb; cbn [andb negb]; first [apply Z.leb_le; zm | apply Z.leb_gt; zm]. }
      rewrite R. apply K; [apply b8_range|]. intros -> NC. specialize (H58 eq_refl).
      destruct (95 <=? c0) eqn:C1; zb; zm. }
  destruct fst.
  - apply FIRST. discriminate.
  - to_code "check_char". step1. step1; zb.
    + to_label "ret_sec". apply SEC; auto; [|intros _; lia]. unfold name_char, name_start.
      destruct (48 <=? c0) eqn:C1; zb; [lia|]. destruct (65 <=? c0) eqn:C2; zb; [lia|]. destruct (c0 =? 95) eqn:C3; zb; [lia|reflexivity].
    + step1. step1; zb.
      * step1. replace (58 <=? c0) with false by (symmetry; apply Z.leb_gt; lia). assert (E : name_char c0 = true) by (unfold name_char; rewrite orb_true_iff; left; apply andb_true_iff; lia).
        rewrite E in K. apply K; auto. discriminate.
      * step1. to_label "check.first". apply FIRST. lia.
Qed.

Fixpoint take_name (l : list Z) : list Z := match l with c :: r => if name_char c then c :: take_name r else [] | [] => [] end.
Fixpoint drop_name (l : list Z) : list Z := match l with c :: r => if name_char c then drop_name r else l | [] => [] end.
Definition get_w (b : Z) : Prop := b = 242 \/ b = len nz \/ name nz <= b <= name nz + 1.
(* the character after the name *)
Definition dot (t : Z) : bool := (t =? 46) || (t =? 110).

(* src/vars.asm:183-202 *)
Lemma getlen_loop k0 k (Q : string -> cpu -> Prop) st r j : 0 <= j -> forall u y a x c z f v m, 0 <= y -> bytes_in m -> wordat m (name nz) = 1408 + j -> m 242 = j + y -> line m (j + y + 1) u ->
  (let y' := y + 1 + Z.of_nat (List.length (take_name u)) in forall c0 a' c' z' f' v' m', c0 = (if dot (hd 155 (drop_name u)) then k else k0) ->
     0 <= a' < 256 -> bytes_in m' -> m' 242 = j + y' -> m' (len nz) = y' -> agree get_w m' m -> wordat m' (name nz) = 1408 + j -> line m' (j + y') (drop_name u) -> c' = true ->
     wp P c0 (mkcpu a' x y' c' z' f' v' m' (if dot (hd 155 (drop_name u)) then st else CRet k :: st) r) Q) ->
  wp P (entry P "getlen.next") (mkcpu a x y c z f v m (CRet k0 :: CRet k :: st) r) Q.
Proof.
  pose proof OK as ((?&?&_) & ? & ? & _). intro BJ.
  induction u as [|d u IH]; intros y a x c z f v m BY WM EN EC LN K; pose proof (proj1 LN) as BL; cbn [List.length] in BL; to_code "getlen.next"; consts; ncells; unfold wordat in EN;
    step1; rewrite EC; (rewrite (b8_small (j + y + 1)) by lia); step1; (rewrite (b8_small (y + 1)) by lia); step1; norm; rewrite EN; (replace (1408 + j + (y + 1)) with (1408 + (j + y + 1)) by lia); norm;
    set (m1 := upd m 242 (j + y + 1));
    (assert (W1 : bytes_in m1) by (unfold m1; bytes_tac));
    (assert (F1 : agree get_w m1 m) by (intros b NB; unfold get_w in NB; unfold m1; norm; reflexivity));
    (assert (C1 : m1 242 = j + y + 1) by (unfold m1; norm; reflexivity));
    (assert (N1 : wordat m1 (nz + 28) = 1408 + j) by (unfold wordat, m1; norm; exact EN)).
  - (* the end of the line *) assert (L1 : line m1 (j + y + 1) []) by (revert LN; apply line_ext; [lia|]; intros b HB; unfold m1; norm; reflexivity).
    rewrite (line_nil m _ LN). clearbody m1. cbn [take_name drop_name List.length hd] in *. change (dot 155) with false in *. cbv zeta in K. change (Z.of_nat 0) with 0 in K. rewrite Z.add_0_r in K.
    eapply wp_jsr; [reflexivity|]. cpu_red. to_label "check_char". apply (check_ok _ _ _ _ 155 _ _ _ _ _ _ _ false); [lia|]. intros a' z' f' v' BA' H46.
    change (negb (name_char 155)) with true. step1; [discriminate|]. step1. step1; zb.
    { exfalso. assert (a' = 46) by zm. destruct (H46 eq_refl eq_refl) as [H46' _]. specialize (H46' H3). lia. }
    step1. step1. step1. step1. ncells. apply K; auto; try lia.
    + bytes_tac.
    + norm. lia.
    + norm. reflexivity.
    + intros b NB. rewrite upd_ne by (unfold get_w in NB; ncells; lia). auto.
    + unfold wordat in *. norm. exact N1.
    + replace (j + (y + 1)) with (j + y + 1) by lia. revert L1. apply line_ext; [lia|]. intros b HB. norm. reflexivity.
  - pose proof (line_cons _ _ _ _ LN) as (ED & LN2). rewrite ED. pose proof (WM (1408 + (j + y + 1))) as BD. rewrite ED in BD.
    assert (L1 : line m1 (j + y + 1) (d :: u)) by (revert LN; apply line_ext; [lia|]; intros b HB; unfold m1; norm; reflexivity). clearbody m1.
    eapply wp_jsr; [reflexivity|]. cpu_red. to_label "check_char". apply (check_ok _ _ _ _ d _ _ _ _ _ _ _ false); [lia|]. intros a' z' f' v' BA' H46.
    cbn [take_name drop_name] in K. destruct (name_char d) eqn:ND; cbn [negb].
    + step1; [|discriminate]. to_label "getlen.next". apply IH; auto; try lia.
      * replace (j + (y + 1) + 1) with (j + y + 1 + 1) by lia. apply line_cons in L1. apply L1.
      * cbv zeta in *. cbn [List.length] in K. replace (y + 1 + 1 + Z.of_nat (List.length (take_name u))) with (y + 1 + Z.of_nat (Datatypes.S (List.length (take_name u)))) by lia.
        intros c0 a2 c2 z2 f2 v2 m2 E0 A2 W2 E2 L2 F2. apply K; auto. intros b NB. rewrite F2, F1; auto.
    + cbn [List.length hd] in K. cbv zeta in K. change (Z.of_nat 0) with 0 in K. rewrite Z.add_0_r in K. specialize (H46 eq_refl eq_refl).
      assert (ALL : forall S' c0 z2 f2 v2, c0 = (if dot d then k else k0) -> S' = (if dot d then st else CRet k :: st) ->
        wp P c0 (mkcpu a' x (y + 1) true z2 f2 v2 (upd m1 (nz + 32) (y + 1)) S' r) Q).
      { intros S' c0 z2 f2 v2 E0 ->. apply K; auto; try lia.
        - bytes_tac.
        - norm. lia.
        - norm. reflexivity.
        - intros b NB. rewrite upd_ne by (unfold get_w in NB; ncells; lia). auto.
        - unfold wordat in *. norm. exact N1.
        - replace (j + (y + 1)) with (j + y + 1) by lia. revert L1. apply line_ext; [lia|]. intros b HB. norm. reflexivity. }
      step1; [discriminate|]. step1. destruct (dot d) eqn:DD.
      * assert (a' = 46) as -> by (apply H46; unfold dot in DD; apply orb_prop in DD; lia). step1; [|discriminate]. step1. step1. step1. step1. step1. ncells. apply ALL; auto.
      * assert (a' <> 46) by (intro; apply H46 in H3; unfold dot in DD; apply orb_false_iff in DD; lia). step1; zb; [exfalso; zm|]. step1. step1. step1. step1. ncells. apply ALL; auto.
Qed.

Definition srch_w (b : Z) : Prop := b = 242 \/ name nz <= b <= search_count nz.
(* after a search of the name at the start of l1 *)
Definition named (m m' : Z -> Z) (l1 : list Z) : Prop :=
  bytes_in m' /\ agree srch_w m' m /\ m' (len nz) = Z.of_nat (List.length (take_name l1)) /\ 0 <= m' 242 /\ line m' (m' 242) (drop_name l1) /\
  (1408 <= wordat m' (name nz) /\ wordat m' (name nz) + Z.of_nat (List.length (take_name l1)) <= 1663) /\ text_at m' (wordat m' (name nz)) (take_name l1) (hd 155 (drop_name l1)).
Lemma take_chars l : forallb name_char (take_name l) = true.
Proof. induction l as [|c l IH]; cbn; [reflexivity|]. destruct (name_char c) eqn:E; cbn; [now rewrite E|reflexivity]. Qed.
Lemma take_drop l : take_name l ++ drop_name l = l.
Proof. induction l as [|c l IH]; cbn; [reflexivity|]. destruct (name_char c); cbn; [now rewrite IH|reflexivity]. Qed.
Lemma line_text l : forall m i, line m i l -> text_at m (1408 + i) (take_name l) (hd 155 (drop_name l)).
Proof.
  induction l as [|c l IH]; intros m i LN; cbn [take_name drop_name].
  - unfold text_at. cbn [app hd]. apply bytes_at_cons. split; [now apply line_nil|]. intros k K. cbn in K. lia.
  - apply line_cons in LN as (E & LN). destruct (name_char c).
    + unfold text_at. cbn [app]. apply bytes_at_cons. split; [exact E|]. replace (1408 + i + 1) with (1408 + (i + 1)) by lia. now apply IH.
    + unfold text_at. cbn [app hd]. apply bytes_at_cons. split; [exact E|]. intros k K. cbn in K. lia.
Qed.
Lemma line_drop l : forall m i, line m i l -> line m (i + Z.of_nat (List.length (take_name l))) (drop_name l).
Proof.
  induction l as [|c l IH]; intros m i LN; cbn [take_name drop_name]; [now rewrite Z.add_0_r|]. destruct (name_char c); [|now rewrite Z.add_0_r].
  apply line_cons in LN as (_ & LN). cbn [List.length]. replace (i + Z.of_nat (Datatypes.S (List.length (take_name l)))) with (i + 1 + Z.of_nat (List.length (take_name l))) by lia. auto.
Qed.
Lemma start_char c : name_start c = true -> name_char c = true.
Proof. unfold name_char. intros ->. apply orb_true_r. Qed.

(* src/vars.asm:71-202 *)
Lemma list_search_ok k (Q : string -> cpu -> Prop) st r tj es va l i a c z f v m : 0 <= tj <= 3 -> bytes_in m -> 0 <= i -> line m i l -> m 242 = i -> wordat m 243 = 1408 ->
  wordat m (nz + 6 + 2 * tj) = va -> 1664 <= va -> Forall entry_ok es -> bytes_at m va (entries_bytes es) -> va + Z.of_nat (List.length (entries_bytes es)) <= 65280 -> count fp es <= 255 ->
  let l1 := skip_blanks l in
  (name_start (hd 155 l1) = false -> forall a' x' y' z' f' v' m', 0 <= a' < 256 -> 0 <= x' < 256 -> 0 <= y' < 256 -> bytes_in m' -> agree srch_w m' m -> m' (len nz) = 0 ->
     wp P k (mkcpu a' x' y' true z' f' v' m' st r) Q) ->
  (name_start (hd 155 l1) = true -> dot (hd 155 (drop_name l1)) = true -> forall a' x' y' z' f' v' m', 0 <= a' < 256 -> 0 <= x' < 256 -> 0 <= y' < 256 ->
     named m m' l1 -> wp P k (mkcpu a' x' y' true z' f' v' m' st r) Q) ->
  (name_start (hd 155 l1) = true -> dot (hd 155 (drop_name l1)) = false -> name_char (hd 155 (drop_name l1) mod 128) = false /\
     (forall n ty, found fp es (take_name l1) n ty -> forall y' z' f' v' m', 0 <= y' < 256 -> named m m' l1 -> wp P k (mkcpu ty n y' false z' f' v' m' st r) Q) /\
     (~ List.In (take_name l1) (map fst es) -> forall a' y' z' f' v' m', 0 <= a' < 256 -> 0 <= y' < 256 -> named m m' l1 ->
        wp P k (mkcpu a' (count fp es) y' true z' f' v' m' st r) Q)) ->
  0 <= a < 256 -> wp P (entry P "list_search") (mkcpu a (2 * tj) (count fp es) c z f v m (CRet k :: st) r) Q.
Proof.
  pose proof OK as ((?&?&_) & ? & ? & _). intros BT WM BI LN EC EI EV BV EO BA BE BC l1 K1 K2 K3 BAa. pose proof (count_pos es) as CP.
  to_code "list_search". ncells. set (q := nz + 6 + 2 * tj) in *. pose proof (WM q). pose proof (WM (q + 1)). unfold wordat in EV.
  do 2 (step1; norm). replace (nz + 6 + 2 * tj) with q by reflexivity. step1. step1. replace (b16 (nz + 6 + 1 + 2 * tj)) with (q + 1) by (rewrite b16_small by lia; unfold q; lia). norm. step1.
  set (m1 := upd _ (nz + 30 + 1) _). assert (W1 : bytes_in m1) by (unfold m1; bytes_tac).
  assert (F1 : agree srch_w m1 m) by (intros b NB; unfold srch_w in NB; ncells; unfold m1; norm; reflexivity).
  assert (V1 : wordat m1 (nz + 30) = va) by (unfold wordat, m1; norm; exact EV).
  assert (S1 : m1 (nz + 33) = count fp es) by (unfold m1; norm; reflexivity).
  assert (C1 : m1 242 = i) by (unfold m1; norm; exact EC).
  clearbody m1. assert (LN1 : line m1 i l) by (revert LN; apply line_ext; [lia|]; intros b HB; apply F1; unfold srch_w; ncells; lia).
  assert (EC1 : forall m2, agree get_w m2 m1 -> m2 243 + 256 * m2 244 = 1408).
  { intros m2 F2. rewrite !F2 by (unfold get_w; ncells; lia). rewrite !F1 by (unfold srch_w; ncells; lia). exact EI. }
  (* the search, after the length *)
  match goal with |- wp _ (In (JSR _) :: ?c) _ _ => set (kk := c) end.
  eapply wp_jsr; [reflexivity|]. cpu_red. to_label "var_getlen". to_code "var_getlen".
  eapply wp_jsr; [reflexivity|]. cpu_red. to_label "SKBLANK". assert (AG0 : agree get_w m1 m1) by (intros b _; reflexivity).
  apply skblank_ok with (l := l) (i := i); auto.
  { apply (EC1 m1 AG0). }
  intros j c1 z1 f1 BJ LJ. fold l1 in LJ. pose proof (proj1 LJ) as BL. set (m2 := upd m1 242 j) in *.
  assert (W2 : bytes_in m2) by (unfold m2; bytes_tac). assert (F2 : agree get_w m2 m1) by (intros b NB; unfold get_w in NB; unfold m2; norm; reflexivity).
  assert (C2 : m2 242 = j) by (unfold m2; norm; reflexivity). clearbody m2. clear LN LN1.
  assert (EH : m2 (1408 + j) = hd 155 l1) by (destruct l1; [apply line_nil; auto|apply line_cons in LJ; apply LJ]).
  assert (BH : 0 <= hd 155 l1 < 256) by (rewrite <- EH; apply W2). pose proof (EC1 m2 F2) as I2.
  assert (W2S : forall m3, agree get_w m3 m1 -> agree srch_w m3 m).
  { intros m3 F3 b NB. rewrite F3, F1; auto. unfold srch_w, get_w in *. ncells. lia. }
  consts. step1. change (243 + 1) with 244. rewrite I2. norm. rewrite EH. eapply wp_jsr; [reflexivity|]. cpu_red. to_label "check.first".
  apply (check_ok _ _ _ _ (hd 155 l1) _ _ _ _ _ _ _ true); [lia|]. intros a3 z3 f3 v3 BA3 _. step1. step1. destruct (name_start (hd 155 l1)) eqn:NS; cbn [negb].
  2: { step1; [|discriminate]. step1. step1. step1. step1. step1. ncells. apply K1; auto; try lia.
       - bytes_tac.
       - intros b NB. rewrite upd_ne by (unfold srch_w in NB; ncells; lia). apply W2S; auto.
       - norm. reflexivity. }
  specialize (K2 eq_refl). specialize (K3 eq_refl). clear K1. destruct l1 as [|h u] eqn:EL1; [discriminate|]. cbn [hd] in NS. pose proof (start_char _ NS) as NCh.
  cbn [take_name drop_name] in K2, K3. rewrite NCh in K2, K3.
  step1; [discriminate|]. ncells. do 5 (step1; norm). change (243 + 1) with 244. step1.
  set (m3 := upd _ (nz + 28 + 1) _). assert (W3 : bytes_in m3) by (unfold m3; bytes_tac).
  assert (F3 : agree get_w m3 m2) by (intros b NB; unfold get_w in NB; ncells; unfold m3; norm; reflexivity).
  assert (E3 : wordat m3 (nz + 28) = 1408 + j).
  { unfold wordat, m3. norm. pose proof (W2 243). pose proof (W2 244). destruct (256 <=? j + m2 243 + 0) eqn:CC; zb; zm. }
  assert (C3 : m3 242 = j) by (unfold m3; norm; exact C2).
  assert (L3 : line m3 j (h :: u)) by (revert LJ; apply line_ext; [lia|]; intros b HB; unfold m3; norm; reflexivity).
  clearbody m3. to_label "getlen.next". cbn [List.length] in BL.
  apply getlen_loop with (j := j) (u := u); auto; try lia.
  { apply line_cons in L3 as (_ & L3). now rewrite Z.add_0_r. }
  cbv zeta. rewrite Z.add_0_l. intros c0 a4 c4 z4 f4 v4 m4 -> BA4 W4 C4 LN4 F4 N4 LL4 ->.
  set (nm := h :: take_name u) in *.
  assert (LNM : 1 + Z.of_nat (List.length (take_name u)) = Z.of_nat (List.length nm)) by (unfold nm; cbn [List.length]; lia).
  rewrite LNM in *.
  assert (NMD : named m m4 (h :: u)).
  { unfold named. cbn [take_name drop_name]. rewrite NCh. fold nm. ncells. rewrite N4. split; [exact W4|]. split.
    - apply W2S. intros b NB. rewrite F4, F3, F2; auto.
    - split; [exact LN4|]. rewrite C4. split; [lia|]. split; [exact LL4|]. split; [pose proof (proj1 LL4); lia|].
      assert (L4 : line m4 j (h :: u)).
      { revert L3. apply line_ext; [lia|]. intros b HB. apply F4. unfold get_w. ncells. lia. }
      apply line_text in L4. cbn [take_name drop_name] in L4. rewrite NCh in L4. exact L4. }
  assert (BLN : Z.of_nat (List.length nm) <= 255).
  { rewrite <- LN4. pose proof (W4 (nz + 32)). ncells. lia. }
  destruct (dot (hd 155 (drop_name u))) eqn:DT.
  { apply K2; auto; try lia. }
  specialize (K3 eq_refl). destruct K3 as (NT & KF & KN). unfold kk. step1. step1; [|discriminate]. to_label "search.start".
  destruct NMD as (N1 & N2 & N3 & N5 & N6 & N7 & N8). cbn [take_name drop_name] in *. rewrite NCh in *. fold nm in N3, N8.
  assert (NAMED : forall m5, bytes_in m5 -> agree snw m5 m4 -> named m m5 (h :: u)).
  { intros m5 W5 F5. unfold named. cbn [take_name drop_name]. rewrite NCh. fold nm. 
    assert (G : forall b, ~ snw b -> m5 b = m4 b) by exact F5. unfold snw in G. ncells.
    assert (EW : wordat m5 (nz + 28) = wordat m4 (nz + 28)) by (unfold wordat; rewrite !G by lia; reflexivity). rewrite EW.
    split; [exact W5|]. split; [intros b NB; rewrite G by (unfold srch_w in NB; ncells; lia); auto|]. rewrite !G by lia.
    split; [exact N3|]. split; [exact N5|]. split; [revert N6; apply line_ext; [lia|]; intros b HB; apply G; lia|]. split; [exact N7|].
    unfold text_at in *. apply bytes_at_ext with (m := m4); [|exact N8]. intros b HB. apply G. lia. }
  eapply (search_loop k Q st r (wordat m4 (name nz)) (hd 155 (drop_name u)) nm) with (es := es) (i := 0) (va := va); auto; try lia.
  - assert (HB := proj2 (proj2 N6)). assert (0 <= m4 (1408 + m4 242) < 256) by apply W4.
    assert (E155 : m4 (1408 + m4 242) = hd 155 (drop_name u)) by (destruct (drop_name u); [apply line_nil; auto|apply line_cons in N6; apply N6]). lia.
  - unfold nm. cbn [forallb]. rewrite NCh. apply take_chars.
  - unfold wordat. ncells. rewrite !F4, !F3, !F2 by (unfold get_w; ncells; lia). unfold wordat in V1. exact V1.
  - apply bytes_at_ext with (m := m); [|exact BA]. intros b HB. apply N2. unfold srch_w. ncells. lia.
  - ncells. rewrite F4, F3, F2 by (unfold get_w; ncells; lia). exact S1.
  - intros es1 ty es2 E NI y' z' f' v' m' BY' W' F'. rewrite Z.add_0_l. eapply KF; auto. exists es1, es2. auto.
Qed.

End N.
