(* Proofs about the loop over the syntax tables. *)
From Verif Require Export NativeTable NativeLine SpecTable.

Lemma blanks_skip l : blanks l = skip_blanks l.
Proof.
  induction l as [|c l IH]; [reflexivity|]. cbn [skip_blanks]. destruct (Z.eqb_spec c 32) as [->|N]; [exact IH|].
  destruct c as [|p|p]; try reflexivity. do 6 (destruct p as [p|p|]; try reflexivity). congruence.
Qed.
Lemma lxor_letter c : 97 <= c < 128 -> Z.lxor c 32 = c - 32.
Proof.
  intros B. assert (forallb (fun n => let c := Z.of_nat n in Z.lxor c 32 =? c - 32) (seq 97 31) = true) as H by (vm_compute; reflexivity).
  rewrite forallb_forall in H. specialize (H (Z.to_nat c)). rewrite in_seq, Z2Nat.id in H by lia. specialize (H ltac:(lia)). cbv zeta in H. apply Z.eqb_eq in H. exact H.
Qed.
Lemma items_cons i l : items_bytes (i :: l) = item_bytes i ++ items_bytes l.
Proof. reflexivity. Qed.

Scheme items_ind2 := Minimality for items Sort Prop with table_ind2 := Minimality for table Sort Prop.
Combined Scheme items_table_ind from items_ind2, table_ind2.
Definition grows (o : list Z) (r : tres) : Prop := match r with Ok _ o' _ => exists o1, o' = o ++ o1 | _ => True end.
Lemma parse_grows n T act : (forall i l o f r, items n T act i l o f r -> grows o r) /\ (forall t l o f r, table n T act t l o f r -> grows o r).
Proof.
  apply items_table_ind; intros; cbn [grows] in *; auto.
  - exists []. now rewrite app_nil_r.
  - destruct r; cbn [grows] in *; auto. destruct H1 as (o1 & ->). exists (bs ++ o1). now rewrite app_assoc.
  - destruct r; cbn [grows] in *; auto. destruct H0 as (o1 & ->), H2 as (o2 & ->). exists (o1 ++ o2). now rewrite app_assoc.
  - destruct r; cbn [grows] in *; auto. destruct H1 as (o1 & ->). exists (bs ++ o1). now rewrite app_assoc.
  - destruct H0 as (o1 & ->). exists (o1 ++ [b]). now rewrite app_assoc.
Qed.
Lemma word_end_ok na nt l : Forall (item_ok na nt) l -> Forall (item_ok na nt) (word_end l).
Proof. induction l as [|i l IH]; intros H; [exact H|]. pose proof (Forall_inv_tail H). destruct i; cbn [word_end]; auto. Qed.
Lemma word_end_split l : exists l1, l = l1 ++ word_end l.
Proof. induction l as [|i l (l1 & IH)]; [now exists []|]. destruct i as [c| | |]; cbn [word_end]; [exists (Lit c :: l1); cbn [app]; congruence|now exists []..]. Qed.

Section N.
Variables nz tab na nt start : Z.
Variable acts : list code.
Notation P := (ntable nz tab na start acts).
Variable m0 : Z -> Z.
Variable B : Z.
Variable t0 : list Z.
Variable extra : Z -> Prop.
Definition work (a : Z) : Prop := a = 242 \/ nz + 18 <= a <= nz + 21 \/ B <= a < B + 256 \/ extra a.
Hypothesis NZ : 156 <= nz <= 200.
Hypothesis NB : 1664 <= B <= 65280.
Hypothesis NA : 0 <= na <= 127.
Hypothesis NT : nt <= 128.
Hypothesis EI : wordat m0 243 = 1408.
Hypothesis EB : wordat m0 (nz + 6) = B.
Hypothesis LT : RtVal.line m0 0 t0.
Hypothesis TB : 1664 <= tab <= 65279.
Hypothesis TN : tab + 256 <= B \/ B + 256 <= tab.
Hypothesis EX : forall a, extra a -> ~ 243 <= a <= 244 /\ ~ nz + 6 <= a <= nz + 7 /\ ~ 1408 <= a <= 1663 /\ ~ tab <= a < tab + 256.
Hypothesis XE : find_lb "parser_error" P = None.
Hypothesis XA : find_lb "alloc_prog" P = None.
Notation n := (Z.of_nat (List.length t0)).

Lemma keep a : 243 <= a <= 244 \/ nz + 6 <= a <= nz + 7 \/ 1408 <= a <= 1663 \/ tab <= a < tab + 256 -> ~ work a.
Proof. intros H [W|[W|[W|W]]]; [lia|lia|lia|]. apply EX in W. lia. Qed.

(* the state of the parser: text, output, farthest place of an error, table pointer, number of bytes written *)
Record inv (m : Z -> Z) (l o : list Z) (f p q : Z) : Prop := mkinv {
  i_bytes : bytes_in m;
  i_line : RtVal.line m (m 242) l;
  i_pos : m 242 = n - Z.of_nat (List.length l);
  i_size : size o <= 255;
  i_opos : m (nz + 21) = q;
  i_out : bytes_at m B o;
  i_far : m (nz + 18) = f;
  i_ptr : wordat m (nz + 19) = p;
  i_same : forall a, ~ work a -> m a = m0 a }.
Definition code_at (p : Z) (bs : list Z) : Prop := 1664 <= p /\ p + Z.of_nat (List.length bs) <= 65535 /\ bytes_at m0 p bs /\ forall b, p <= b < p + Z.of_nat (List.length bs) -> ~ work b.
Lemma code_app p l1 l2 : code_at p (l1 ++ l2) -> code_at p l1 /\ code_at (p + Z.of_nat (List.length l1)) l2.
Proof.
  intros (H1 & H2 & H3 & H4). rewrite app_length in *. rewrite Nat2Z.inj_add in *. apply bytes_at_app in H3 as (H3 & H5).
  split; (split; [lia|]; split; [lia|]; split; [assumption|]); intros b HB; apply H4; lia.
Qed.
Lemma code_cons p c l : code_at p (c :: l) -> m0 p = c /\ code_at (p + 1) l /\ 1664 <= p /\ ~ work p.
Proof.
  intros H. pose proof H as (H1 & H2 & H3 & H4). apply (code_app p [c] l) in H as (_ & H). cbn [List.length] in *. change (Z.of_nat 1) with 1 in H. apply bytes_at_cons in H3 as (H3 & _).
  split; [exact H3|]. split; [exact H|]. split; [exact H1|]. apply H4. lia.
Qed.
Lemma code_byte m l o f p q a c bs : inv m l o f p q -> code_at a (c :: bs) -> m a = c.
Proof. intros I H. apply code_cons in H as (H & _ & _ & W). rewrite (i_same _ _ _ _ _ _ I a W). exact H. Qed.

(* changes of the state *)
Lemma inv_upd m m' l o f p q p' : inv m l o f p q -> bytes_in m' -> wordat m' (nz + 19) = p' -> (forall a, a <> nz + 19 -> a <> nz + 20 -> m' a = m a) -> inv m' l o f p' q.
Proof.
  intros I W E F. destruct I. assert (EQ : m' 242 = m 242) by (apply F; lia). constructor; auto.
  - rewrite EQ. eapply line_ext; [apply i_bytes0| |exact i_line0]. intros b HB. apply F; lia.
  - rewrite EQ. exact i_pos0.
  - rewrite F by lia. exact i_opos0.
  - eapply bytes_at_ext; [|exact i_out0]. intros b HB. apply F; lia.
  - rewrite F by lia. exact i_far0.
  - intros a NW. rewrite F; [apply i_same0; exact NW| |]; intros ->; apply NW; right; left; lia.
Qed.

Ltac to_code l :=
  match goal with |- wp ?P _ ?s ?Q =>
    let c := eval cbv [ntable c_table c_rom c_emit app entry find_lb find_in String.eqb Ascii.eqb Bool.eqb] in (entry P l) in
    change (wp P c s Q)
  end.
Ltac to_label l := lazymatch goal with |- wp ?p _ ?s ?Q => change (wp p (entry p l) s Q) end.
Ltac jsr l kk := match goal with |- wp _ (In (JSR _) :: ?c) _ _ => set (kk := c) end; eapply wp_jsr; [reflexivity|]; cpu_red; to_label l.
Ltac cells := unfold pptr, bmax in *; ncells; consts.

(* src/parse.asm:153-160 *)
Lemma fetch_ok k (Q : string -> cpu -> Prop) st r l o g p q b bs a x y c z f v m : inv m l o g p q -> code_at (p + 1) (b :: bs) ->
  (forall m' z', inv m' l o g (p + 1) q -> wp P k (mkcpu b x 0 c z' (128 <=? b) v m' st r) Q) ->
  wp P (entry P "parser_fetch") (mkcpu a x y c z f v m (CRet k :: st) r) Q.
Proof.
  intros I C K. pose proof (i_bytes _ _ _ _ _ _ I) as WM. pose proof (i_ptr _ _ _ _ _ _ I) as EP. pose proof C as (C1 & C2 & _). cbn [List.length] in C2. unfold wordat in EP.
  pose proof (WM (nz + 19)). pose proof (WM (nz + 19 + 1)).
  assert (GO : forall a' z' f' m', bytes_in m' -> wordat m' (nz + 19) = p + 1 -> (forall a, a <> nz + 19 -> a <> nz + 20 -> m' a = m a) -> wp P (entry P "fetch.1") (mkcpu a' x y c z' f' v m' (CRet k :: st) r) Q).
  { intros a' z' f' m' W' E' F'. pose proof (inv_upd _ m' _ _ _ _ _ _ I W' E' F') as I'. to_code "fetch.1". cells. unfold wordat in E'. step1. step1. rewrite E'. rewrite Z.add_0_r. norm. rewrite (code_byte _ _ _ _ _ _ _ _ _ I' C). step1. apply K. exact I'. }
  to_code "parser_fetch". cells. step1. step1; zb.
  - to_label "fetch.1". apply GO; [bytes_tac| |intros a' N1 N2; norm; reflexivity]. unfold wordat. norm. unfold b8 in *. zm.
  - step1. norm. step1. to_label "fetch.1". apply GO; [bytes_tac| |intros a' N1 N2; norm; reflexivity]. unfold wordat. norm. unfold b8 in *. zm.
Qed.
(* src/parse.asm:164-173 *)
Lemma table_emit_ok k (Q : string -> cpu -> Prop) st r l o g p a x y c z f v m : inv m l o g p (size o) -> 0 <= a < 256 ->
  (size o < 255 -> forall y' z' f' m', inv m' l (o ++ [a]) g p (size (o ++ [a])) -> wp P k (mkcpu a x y' c z' f' v m' st r) Q) ->
  (255 <= size o -> forall s', Y s' = 12 -> Q "parser_error" s') ->
  wp P (entry P "parser_emit_byte") (mkcpu a x y c z f v m (CRet k :: st) r) Q.
Proof.
  intros I BA K E. pose proof (i_bytes _ _ _ _ _ _ I) as WM. pose proof (i_same _ _ _ _ _ _ I) as SM. pose proof (i_opos _ _ _ _ _ _ I) as EO. pose proof (i_size _ _ _ _ _ _ I) as LO. pose proof (i_out _ _ _ _ _ _ I) as BO. unfold size in *.
  to_code "parser_emit_byte". cells. unfold wordat in EB. step1. rewrite EO. step1. rewrite !SM by (apply keep; lia). rewrite EB. norm. step1. step1. norm. rewrite EO. step1; zb.
  - assert (LO2 : Z.of_nat (List.length o) < 255) by (clear - K0 LO; unfold b8 in *; zm). rewrite b8_small by lia. step1. apply K; [exact LO2|]. destruct I. unfold size. rewrite app_length. cbn [List.length].
    set (m' := upd _ _ _). assert (F' : forall b, b <> nz + 21 -> b <> B + Z.of_nat (List.length o) -> m' b = m b) by (intros b N1 N2; unfold m'; norm; reflexivity).
    assert (EQ : m' 242 = m 242) by (apply F'; lia). constructor.
    + unfold m'. bytes_tac.
    + rewrite EQ. eapply line_ext; [apply i_bytes0| |exact i_line0]. intros b HB. apply F'; lia.
    + rewrite EQ. exact i_pos0.
    + unfold size. rewrite app_length. cbn [List.length]. lia.
    + unfold m'. norm. lia.
    + apply bytes_at_app. split; [eapply bytes_at_ext; [|exact BO]; intros b HB; apply F'; lia|]. apply bytes_at_cons. split; [unfold m'; norm; reflexivity|]. intros j J. cbn in J. lia.
    + rewrite F' by lia. exact i_far0.
    + unfold wordat in *. rewrite !F' by lia. exact i_ptr0.
    + intros b NW. rewrite F'; [apply SM; exact NW| |]; intros ->; apply NW; unfold work; lia.
  - step1. apply wp_exit; [exact XE|]. apply E; [unfold b8 in *; zm|reflexivity].
Qed.

(* the next byte of the table, after it is read *)
Definition disp (b : Z) (m : Z -> Z) (st : list cell) (r : list Z) (Q : string -> cpu -> Prop) : Prop :=
  (128 <= b -> forall x y c z f v, wp P (entry P "pcall") (mkcpu b x y c z f v m st r) Q) /\
  (b < 128 -> forall x y z f v, wp P (entry P "ploop_tax") (mkcpu b x y (31 <=? b) z f v m st r) Q).
Lemma nofetch_ok (Q : string -> cpu -> Prop) st r b x y c z v m : disp b m st r Q -> wp P (entry P "ploop_nofetch") (mkcpu b x y c z (128 <=? b) v m st r) Q.
Proof.
  intros (D1 & D2). to_code "ploop_nofetch". step1; zb; [to_label "pcall"; auto|]. step1. step1. to_label "ploop_tax". apply D2. lia.
Qed.
Lemma ploop_ok (Q : string -> cpu -> Prop) st r l o g p q b bs a x y c z f v m : inv m l o g p q -> code_at (p + 1) (b :: bs) -> (forall m', inv m' l o g (p + 1) q -> disp b m' st r Q) ->
  wp P (entry P "ploop") (mkcpu a x y c z f v m st r) Q.
Proof.
  intros I C K. to_code "ploop". jsr "parser_fetch" kk. eapply fetch_ok; eauto. intros m' z' I'. unfold kk. step1. to_label "ploop_nofetch". apply nofetch_ok. auto.
Qed.
(* src/parse.asm:307-310 *)
Lemma emits_ok (Q : string -> cpu -> Prop) st r l g b bs' : forall bs o p x a y c z f v m, bs <> [] -> x = size bs -> size bs <= 28 -> inv m l o g p (size o) -> code_at (p + 1) (bs ++ b :: bs') ->
  (size o + size bs <= 255 -> forall m', inv m' l (o ++ bs) g (p + size bs + 1) (size (o ++ bs)) -> disp b m' st r Q) ->
  (255 < size o + size bs -> forall s', Y s' = 12 -> Q "parser_error" s') ->
  wp P (entry P "pemit") (mkcpu a x y c z f v m st r) Q.
Proof.
  induction bs as [|d bs IH]; intros o p x a y c z f v m NE EX' LB I C K E; [easy|]. cbn [app] in C. assert (SZ : size (d :: bs) = size bs + 1) by (unfold size; cbn [List.length]; lia). assert (0 <= size bs) by (unfold size; lia).
  pose proof C as C0. apply code_cons in C as (ED & C & _ & ND). to_code "pemit". jsr "emit_sub" kk. to_code "emit_sub". jsr "parser_fetch" k2. eapply fetch_ok; eauto. intros m1 z1 I1. unfold k2. step1. to_label "parser_emit_byte".
  assert (BD : 0 <= d < 256). { rewrite <- (code_byte _ _ _ _ _ _ _ _ _ I C0). apply (i_bytes _ _ _ _ _ _ I). }
  apply table_emit_ok with (l := l) (o := o) (g := g) (p := p + 1); auto.
  - intros LO y2 z2 f2 m2 I2. unfold kk. assert (S1 : size (o ++ [d]) = size o + 1) by (unfold size; rewrite app_length; cbn [List.length]; lia). step1. step1; zb.
    + to_label "pemit". apply IH with (o := o ++ [d]) (p := p + 1); auto.
      * intros ->. apply K0. subst x. rewrite SZ. reflexivity.
      * rewrite b8_small; lia.
      * lia.
      * intros LO' m3 I3. rewrite <- app_assoc in I3. apply K; [lia|]. replace (p + size (d :: bs) + 1) with (p + 1 + size bs + 1) by lia. exact I3.
      * intros LO'. apply E. lia.
    + assert (bs = []) as ->. { destruct bs as [|d2 bs]; [reflexivity|]. exfalso. unfold size in SZ, LB, EX'. cbn [List.length] in *. rewrite b8_small in K0; lia. }
      change (size []) with 0 in SZ. step1; [|exfalso; zb; congruence]. to_label "ploop". apply ploop_ok with (l := l) (o := o ++ [d]) (g := g) (p := p + 1) (q := size (o ++ [d])) (b := b) (bs := bs'); auto. intros m3 I3. apply K; [lia|].
      replace (p + size [d] + 1) with (p + 1 + 1) by lia. exact I3.
  - intros LO s' EY. apply E; [lia|exact EY].
Qed.

Lemma inv_line m l o f p q : inv m l o f p q -> RtVal.line m0 (n - Z.of_nat (List.length l)) l /\ 0 <= n - Z.of_nat (List.length l).
Proof.
  intros I. destruct I. rewrite <- i_pos0. split; [|apply i_bytes0]. eapply line_ext; [apply i_bytes0| |exact i_line0]. intros b HB. symmetry. apply i_same0. apply keep. lia.
Qed.
Lemma inv_text m m' l l' o f p q : inv m l o f p q -> RtVal.line m0 (n - Z.of_nat (List.length l')) l' -> bytes_in m' -> m' 242 = n - Z.of_nat (List.length l') -> (forall a, a <> 242 -> m' a = m a) -> inv m' l' o f p q.
Proof.
  intros I LN W E F. destruct I. constructor; auto.
  - rewrite E. eapply line_ext; [rewrite <- E; apply W| |exact LN]. intros b HB. rewrite F by lia. apply i_same0. apply keep. lia.
  - rewrite F by lia. auto.
  - eapply bytes_at_ext; [|exact i_out0]. intros b HB. apply F; lia.
  - rewrite F by lia. auto.
  - unfold wordat in *. rewrite !F by lia. auto.
  - intros a NW. rewrite F; [apply i_same0; exact NW|]. intros ->. apply NW. now left.
Qed.
Lemma inv_inbuff m l o f p q : inv m l o f p q -> m 243 + 256 * m 244 = 1408.
Proof. intros I. rewrite !(i_same _ _ _ _ _ _ I) by (apply keep; lia). exact EI. Qed.
Lemma inv_prefix m l o o1 f p q : inv m l (o ++ o1) f p q -> inv m l o f p q.
Proof. intros I. destruct I. constructor; auto; [unfold size in *; rewrite app_length in *; lia|]. apply bytes_at_app in i_out0. apply i_out0. Qed.

(* the blanks *)
Lemma skb_ok k (Q : string -> cpu -> Prop) st r l o g p q a x y c z f v m : inv m l o g p q ->
  (forall a' y' c' z' f' m', inv m' (blanks l) o g p q -> wp P k (mkcpu a' x y' c' z' f' v m' st r) Q) ->
  wp P (entry P "SKBLANK") (mkcpu a x y c z f v m (CRet k :: st) r) Q.
Proof.
  intros I K. pose proof (inv_inbuff _ _ _ _ _ _ I) as EI1. pose proof (i_bytes _ _ _ _ _ _ I) as WM. pose proof (i_line _ _ _ _ _ _ I) as LN. pose proof (i_pos _ _ _ _ _ _ I) as E0. to_code "SKBLANK". consts. step1. step1. rewrite blanks_skip in K.
  assert (SK : forall l' j c' z' f', j = n - Z.of_nat (List.length l') -> 0 <= j -> RtVal.line m j l' -> skip_blanks l = skip_blanks l' ->
    wp P (entry P "SKBLANK.1") (mkcpu 32 x j c' z' f' v m (CRet k :: st) r) Q).
  { induction l' as [|d t IH]; intros j c' z' f' EJ BJ LN' ES; pose proof (proj1 LN') as BL; to_code "SKBLANK.1"; consts; step1; change (243 + 1) with 244; rewrite EI1; norm.
    - rewrite (line_nil m j LN'). change (b8 (32 - 155) =? 0) with false. step1; [|discriminate].
      step1. step1. change CIX with 242. apply K. apply inv_text with (m := m) (l := l); auto.
      + rewrite ES. cbn [skip_blanks List.length] in *. rewrite <- EJ. eapply line_ext; [lia| |exact LN']. intros b HB. symmetry. apply (i_same _ _ _ _ _ _ I). apply keep. lia.
      + bytes_tac.
      + rewrite ES. cbn [skip_blanks List.length]. norm. exact EJ.
      + intros b HB. norm. reflexivity.
    - pose proof (WM (1408 + j)) as BD. pose proof (line_cons _ _ _ _ LN') as (EC & LN2). rewrite EC in *. cbn [List.length] in BL, EJ.
      step1; zb.
      + assert (d <> 32) as ND by (intros ->; apply K0; reflexivity).
        step1. step1. change CIX with 242. apply K. cbn [skip_blanks] in ES. rewrite (proj2 (Z.eqb_neq d 32) ND) in ES. apply inv_text with (m := m) (l := l); auto.
        * rewrite ES. cbn [List.length]. rewrite <- EJ. eapply line_ext; [lia| |exact LN']. intros b HB. symmetry. apply (i_same _ _ _ _ _ _ I). apply keep. lia.
        * bytes_tac.
        * rewrite ES. cbn [List.length]. norm. exact EJ.
        * intros b HB. norm. reflexivity.
      + assert (d = 32) as -> by (unfold b8 in *; Z.div_mod_to_equations; lia).
        step1. rewrite (b8_small (j + 1)) by lia. step1; zb; [|lia]. to_label "SKBLANK.1". apply IH; auto; lia. }
  step1. to_label "SKBLANK.1". apply SK with (l' := l); auto. apply WM.
Qed.

(* src/parse.asm:381-386 *)
Lemma chars_ok (Q : string -> cpu -> Prop) st r l o g q b bs : 0 <= b < 31 -> forall its p a x y c z f v m, Forall (item_ok na nt) its -> inv m l o g p q -> code_at (p + 1) (items_bytes its ++ b :: bs) ->
  (forall m' p', p' + Z.of_nat (List.length (items_bytes (word_end its))) = p + 1 + Z.of_nat (List.length (items_bytes its)) -> inv m' l o g p' q -> disp (m0 p') m' st r Q) ->
  wp P (entry P "skip_chars") (mkcpu a x y c z f v m st r) Q.
Proof.
  intros BB. induction its as [|it its IH]; intros p a x y c z f v m OKI I C K; to_code "skip_chars"; jsr "parser_fetch" kk.
  - cbn [items_bytes flat_map app] in C. pose proof (code_cons _ _ _ C) as (E0 & _). eapply fetch_ok; eauto. intros m' z' I'. unfold kk. specialize (K m' (p + 1)). cbn [word_end items_bytes flat_map List.length] in K. specialize (K ltac:(lia) I'). rewrite E0 in K.
    step1; zb; [lia|]. step1. step1; zb; [lia|]. step1; [|exfalso; zb; lia]. to_label "ploop_tax". destruct K as (_ & K). apply K. lia.
  - pose proof (Forall_inv OKI) as O1. pose proof (Forall_inv_tail OKI) as O2. rewrite items_cons, <- app_assoc in C.
    assert (LIT : (exists d, it = Lit d) \/ word_end (it :: its) = it :: its) by (destruct it; eauto).
    destruct LIT as [(d & ->)|WE].
    + cbn [item_bytes app] in C. pose proof (code_cons _ _ _ C) as (E0 & C1 & _). eapply fetch_ok; eauto. intros m' z' I'. unfold kk. cbn [item_ok] in O1. step1; zb; [lia|]. step1. step1; zb; [|lia]. to_label "skip_chars".
      apply IH with (p := p + 1); auto. intros m2 p2 E2. apply K. cbn [word_end]. rewrite items_cons. cbn [item_bytes app List.length] in *. lia.
    + rewrite WE in K. assert (HD : exists d t, item_bytes it ++ items_bytes its ++ b :: bs = d :: t) by (destruct it; cbn [item_bytes app]; eauto). destruct HD as (d & t & HD). rewrite HD in C.
      pose proof (code_cons _ _ _ C) as (E0 & _). eapply fetch_ok; eauto. intros m' z' I'. unfold kk. specialize (K m' (p + 1) ltac:(lia) I'). rewrite E0 in K.
      step1; zb; [to_label "ploop_nofetch"; apply nofetch_ok; exact K|]. step1. 
      assert (d < 31). { pose proof (f_equal (hd 0) HD) as HD0. destruct it as [?|es|k|k]; cbn [item_bytes item_ok app hd] in *; [exfalso; clear - WE|clear HD; lia|clear HD; lia|clear HD; lia].
        cbn [word_end] in WE. assert (LW : forall q, (List.length (word_end q) <= List.length q)%nat) by (induction q as [|[]]; cbn [word_end List.length]; lia). specialize (LW its). rewrite WE in LW. cbn [List.length] in LW. lia. }
      step1; zb; [lia|]. step1; [|exfalso; zb; lia]. to_label "ploop_tax". destruct K as (_ & K). apply K. lia.
Qed.

(* src/parse.asm:436-439 *)
Lemma token_ok (Q : string -> cpu -> Prop) st r m v a : forall j x y c z f, x = Z.of_nat j -> (1 <= j)%nat -> x <= 28 -> 0 <= y -> y + x <= 255 ->
  (forall z' f', wp P (entry P "skip_nextline") (mkcpu a 0 (y + x) c z' f' v m st r) Q) -> wp P (entry P "skip_token") (mkcpu a x y c z f v m st r) Q.
Proof.
  induction j as [|j IH]; intros x y c z f EX' J X1 Y0 Y1 K; [lia|]. to_code "skip_token". step1. rewrite b8_small by lia. step1. rewrite b8_small by lia. step1; zb.
  - to_label "skip_token". apply IH; try lia. intros z' f'. replace (y + 1 + (x - 1)) with (y + x) by lia. apply K.
  - step1; [|exfalso; zb; lia]. to_label "skip_nextline". replace (x - 1) with 0 by lia. replace (y + 1) with (y + x) by lia. apply K.
Qed.
(* src/parse.asm:420-441 *)
Lemma next_ok (Q : string -> cpu -> Prop) st r l o g p q e bs m v : inv m l o g p q -> forall its j a x c z f, Forall (item_ok na nt) its -> 0 <= j -> code_at (p + 1 + j) (items_bytes its ++ end_bytes e ++ bs) ->
  j + Z.of_nat (List.length (items_bytes its ++ end_bytes e)) <= 255 ->
  (forall a' x' z' f', wp P (entry P "go_ploop") (mkcpu a' x' (j + Z.of_nat (List.length (items_bytes its ++ end_bytes e))) false z' f' v m st r) Q) ->
  wp P (entry P "skip_nextline") (mkcpu a x j c z f v m st r) Q.
Proof.
  intros I. pose proof (i_ptr _ _ _ _ _ _ I) as EP. unfold wordat in EP. pose proof (i_bytes _ _ _ _ _ _ I) as WM.
  induction its as [|it its IH]; intros j a x c z f OKI BJ C LJ K.
  - cbn [items_bytes flat_map app] in *. assert (HD : exists d t, end_bytes e ++ bs = d :: t /\ (d = 1 /\ e = None \/ d = 2 /\ exists b, e = Some b)) by (destruct e; cbn [end_bytes app]; eauto 8). destruct HD as (d & t & HD & DD). rewrite HD in C.
    pose proof C as (C1 & C2 & _). pose proof (code_byte _ _ _ _ _ _ _ _ _ I C) as E0. cbn [List.length] in *.
    assert (J1 : j + 1 <= 255) by (destruct e; cbn [end_bytes List.length] in LJ; lia).
    to_code "skip_nextline". cells. step1. rewrite b8_small by lia. step1. rewrite EP. norm. replace (p + (j + 1)) with (p + 1 + j) by lia. rewrite E0. step1. step1; zb; [lia|]. step1. step1.
    destruct DD as [(-> & ->)|(-> & b & ->)]; cbn [end_bytes List.length] in *.
    + change (b8 (1 - 1)) with 0. step1; [|discriminate]. to_label "go_ploop". change (31 <=? 1) with false. apply K.
    + change (b8 (2 - 1)) with 1. step1; [discriminate|]. step1. change (b8 (1 - 1)) with 0. step1; [|discriminate]. to_code "skip_ret". step1. rewrite b8_small by lia. step1. to_label "go_ploop". change (31 <=? 2) with false. replace (j + 1 + 1) with (j + Z.of_nat 2) by lia. apply K.
  - pose proof (Forall_inv OKI) as O1. pose proof (Forall_inv_tail OKI) as O2. rewrite items_cons in *. rewrite <- !app_assoc in *.
    assert (ONE : forall d, item_bytes it = [d] -> 31 <= d -> wp P (entry P "skip_nextline") (mkcpu a x j c z f v m st r) Q).
    { intros d ED B31. rewrite ED in *. cbn [app List.length] in *. pose proof C as (C1 & C2 & _). pose proof (code_byte _ _ _ _ _ _ _ _ _ I C) as E0. cbn [List.length] in C2. apply code_cons in C as (_ & C & _).
      to_code "skip_nextline". cells. step1. rewrite b8_small by lia. step1. rewrite EP. norm. replace (p + (j + 1)) with (p + 1 + j) by lia. rewrite E0. step1. step1; zb; [|lia]. to_label "skip_nextline". apply IH; auto; try lia.
      - replace (p + 1 + (j + 1)) with (p + 1 + j + 1) by lia. exact C.
      - intros a' x' z' f'. replace (j + 1 + Z.of_nat (List.length (items_bytes its ++ end_bytes e))) with (j + Z.of_nat (Datatypes.S (List.length (items_bytes its ++ end_bytes e)))) by lia. apply K. }
    destruct it as [d|es|k|k]; cbn [item_ok] in O1; try (apply (ONE _ eq_refl); lia). clear ONE.
    cbn [item_bytes app List.length] in *. pose proof C as (C1 & C2 & _). pose proof (code_byte _ _ _ _ _ _ _ _ _ I C) as E0. cbn [List.length] in C2. apply code_cons in C as (_ & C & _). apply code_app in C as (_ & C). rewrite !app_length in *.
    to_code "skip_nextline". cells. step1. rewrite b8_small by lia. step1. rewrite EP. norm. replace (p + (j + 1)) with (p + 1 + j) by lia. rewrite E0. step1. step1; zb; [lia|]. step1. step1. rewrite b8_small by lia. step1; zb; [lia|]. step1. rewrite b8_small by lia. step1; zb; [lia|]. step1. to_label "skip_token".
    replace (Z.of_nat (List.length es) + 2 - 1 - 1) with (Z.of_nat (List.length es)) by lia. apply token_ok with (j := List.length es); auto; try lia. intros z' f'. apply IH; auto; try lia.
    + replace (p + 1 + (j + 1 + Z.of_nat (List.length es))) with (p + 1 + j + 1 + Z.of_nat (List.length es)) by lia. exact C.
    + intros a' x' z2 f2. replace (j + 1 + Z.of_nat (List.length es) + Z.of_nat (List.length (items_bytes its) + List.length (end_bytes e))) with (j + Z.of_nat (Datatypes.S (List.length es + (List.length (items_bytes its) + List.length (end_bytes e))))) by lia. apply K.
Qed.
(* src/parse.asm:407-449 *)
Lemma nextline_ok (Q : string -> cpu -> Prop) st r l l' o g p q e bs its a x y c z f v m : inv m l' o g p q -> RtVal.line m0 (n - Z.of_nat (List.length l)) l -> 0 <= n - Z.of_nat (List.length l) ->
  Forall (item_ok na nt) its -> code_at (p + 1) (items_bytes its ++ end_bytes e ++ bs) -> Z.of_nat (List.length (items_bytes its ++ end_bytes e)) <= 250 ->
  (forall a' x' y' c' z' f' v' m', inv m' l o (Z.max g (place n l')) (p + Z.of_nat (List.length (items_bytes its ++ end_bytes e))) (size o) -> wp P (entry P "ploop_line") (mkcpu a' x' y' c' z' f' v' m' st r) Q) ->
  wp P (entry P "ploop_nextline") (mkcpu a x y c z f v m (CByte (size o) :: CByte (n - Z.of_nat (List.length l)) :: st) r) Q.
Proof.
  intros I LN L0 OKI C LJ K. pose proof (i_bytes _ _ _ _ _ _ I) as WM. pose proof (i_size _ _ _ _ _ _ I) as SO. pose proof (proj1 LN) as LN1. assert (0 <= size o) by (unfold size; lia).
  assert (GO : forall a' x' y' c' z' f' m', bytes_in m' -> m' (nz + 18) = Z.max g (place n l') -> (forall b, b <> nz + 18 -> m' b = m b) -> wp P (entry P "next.1") (mkcpu a' x' y' c' z' f' v m' (CByte (size o) :: CByte (n - Z.of_nat (List.length l)) :: st) r) Q).
  { intros a' x' y' c' z' f' m' W' E' F'. to_code "next.1". cells. do 5 step1. step1. to_label "skip_nextline". set (m2 := upd (upd m' _ _) _ _).
    assert (F2 : forall b, b <> 242 -> b <> nz + 21 -> m2 b = m' b) by (intros b N1 N2; unfold m2; norm; reflexivity).
    assert (I2 : inv m2 l o (Z.max g (place n l')) p (size o)).
    { apply inv_text with (m := upd m' (nz + 21) (size o)) (l := l'); auto.
      - destruct I. set (m3 := upd m' (nz + 21) (size o)). assert (F3 : forall b, b <> nz + 21 -> m3 b = m' b) by (intros b N1; unfold m3; norm; reflexivity). constructor; auto.
        + unfold m3. bytes_tac.
        + rewrite !F3, !F' by lia. eapply line_ext; [apply WM| |exact i_line0]. intros b HB. rewrite F3, F' by lia. reflexivity.
        + rewrite F3, F' by lia. exact i_pos0.
        + unfold m3. norm. reflexivity.
        + eapply bytes_at_ext; [|exact i_out0]. intros b HB. rewrite F3, F' by lia. reflexivity.
        + rewrite F3 by lia. exact E'.
        + unfold wordat in *. rewrite !F3, !F' by lia. exact i_ptr0.
        + intros b NW. rewrite F3, F'; [apply i_same0; exact NW| |]; intros ->; apply NW; right; left; lia.
      - unfold m2. bytes_tac.
      - intros b NB'. unfold m2. apply upd_ne. exact NB'. }
    clearbody m2. eapply next_ok with (its := its) (e := e) (bs := bs); eauto; try lia.
    - rewrite Z.add_0_r. exact C.
    - intros a3 x3 z3 f3. rewrite Z.add_0_l. set (k := Z.of_nat (List.length (items_bytes its ++ end_bytes e))) in *. pose proof (i_ptr _ _ _ _ _ _ I2) as EP. unfold wordat in EP. pose proof (i_bytes _ _ _ _ _ _ I2) as W2. pose proof (W2 (nz + 19)). pose proof (W2 (nz + 19 + 1)).
      assert (0 <= k) by (unfold k; lia). assert (p + k < 65536). { destruct C as (_ & C & _). rewrite app_assoc, app_length, Nat2Z.inj_add in C. fold k in C. lia. }
      assert (FIN : forall a4 c4 z4 f4 v4 m4, bytes_in m4 -> wordat m4 (nz + 19) = p + k -> (forall b, b <> nz + 19 -> b <> nz + 20 -> m4 b = m2 b) -> wp P (entry P "go.1") (mkcpu a4 x3 k c4 z4 f4 v4 m4 st r) Q).
      { intros a4 c4 z4 f4 v4 m4 W4 E4 F4. to_code "go.1". step1. to_label "ploop_line". apply K. eapply inv_upd; eauto. }
      to_code "go_ploop". cells. step1. step1. step1. step1; zb.
      + to_label "go.1". apply FIN; [bytes_tac| |intros b N1 N2; norm; reflexivity]. unfold wordat. norm. unfold b8 in *. zm.
      + step1. norm. step1. to_label "go.1". apply FIN; [bytes_tac| |intros b N1 N2; norm; reflexivity]. unfold wordat. norm. unfold b8 in *. zm. }
  pose proof (i_pos _ _ _ _ _ _ I) as EP. pose proof (i_far _ _ _ _ _ _ I) as EF. change (n - Z.of_nat (List.length l')) with (place n l') in EP. pose proof (WM 242) as BP. rewrite EP in BP.
  to_code "ploop_nextline". cells. step1. step1. rewrite EP, EF. step1; zb.
  - to_label "next.1". apply GO; auto. rewrite EF. lia.
  - step1. step1. to_label "next.1". apply GO; [bytes_tac|norm; lia|intros b N1; norm; reflexivity].
Qed.

Lemma inv_char m l o f p q : inv m l o f p q -> m (1408 + m 242) = hd 155 l.
Proof. intros I. pose proof (i_line _ _ _ _ _ _ I) as LN. destruct l as [|c l]; [apply line_nil; exact LN|]. apply line_cons in LN as (LN & _). exact LN. Qed.
Lemma inv_next m m' c l o f p q : inv m (c :: l) o f p q -> bytes_in m' -> m' 242 = m 242 + 1 -> (forall a, a <> 242 -> m' a = m a) -> inv m' l o f p q.
Proof.
  intros I W E F. pose proof (inv_line _ _ _ _ _ _ I) as (LN & _). pose proof (i_pos _ _ _ _ _ _ I) as EP. cbn [List.length] in *. apply line_cons in LN as (_ & LN).
  apply inv_text with (m := m) (l := c :: l); auto; [|lia]. replace (n - Z.of_nat (List.length l)) with (n - Z.of_nat (Datatypes.S (List.length l)) + 1) by lia. exact LN.
Qed.
(* src/parse.asm:322-326 *)
Lemma match_ok (Q : string -> cpu -> Prop) st r l o g p q key x c z f v m : inv m l o g p q -> 31 <= key < 128 ->
  (forall l', l = key :: l' -> forall a x y c z f v m', inv m' l' o g p q -> wp P (entry P "ploop") (mkcpu a x y c z f v m' st r) Q) ->
  (hd 155 l <> key -> forall a x y c z f v, wp P (entry P "ploop_nextline") (mkcpu a x y c z f v m st r) Q) ->
  wp P (entry P "match") (mkcpu key x (m 242) c z f v m st r) Q.
Proof.
  intros I BK K1 K2. pose proof (inv_inbuff _ _ _ _ _ _ I) as EI1. pose proof (i_bytes _ _ _ _ _ _ I) as WM. pose proof (inv_char _ _ _ _ _ _ I) as EC. pose proof (WM 242). pose proof (WM (1408 + m 242)) as BC. rewrite EC in BC.
  to_code "match". cells. step1. change (243 + 1) with 244. rewrite EI1. norm. rewrite EC. step1; zb.
  - to_label "ploop_nextline". apply K2. intros E. apply K. rewrite E. unfold b8. zm.
  - assert (EK : hd 155 l = key) by (clear - K BC BK; unfold b8 in *; zm). destruct l as [|d l']; cbn [hd] in EK; [lia|]. subst d. pose proof (proj1 (i_line _ _ _ _ _ _ I)) as LL. cbn [List.length] in LL.
    step1. rewrite b8_small by lia. step1; zb; [|lia]. to_label "ploop". apply (K1 l' eq_refl). eapply inv_next; [exact I|bytes_tac|norm; reflexivity|intros b HB; norm; reflexivity].
Qed.
(* src/parse.asm:313-326, 378-380 *)
Lemma char_ok (Q : string -> cpu -> Prop) st r l o g p q d y z f v c0 m : inv m l o g p q -> 31 <= d < 128 ->
  (forall l', l = letter d :: l' -> forall a x y c z f v m', inv m' l' o g p q -> wp P (entry P "ploop") (mkcpu a x y c z f v m' st r) Q) ->
  (97 <= d -> forall l', l = 46 :: l' -> forall a x y c z f v m', inv m' l' o g p q -> wp P (entry P "skip_chars") (mkcpu a x y c z f v m' st r) Q) ->
  (hd 155 l <> letter d -> (97 <= d -> hd 155 l <> 46) -> forall a x y c z f v, wp P (entry P "ploop_nextline") (mkcpu a x y c z f v m st r) Q) ->
  wp P (entry P "match_char") (mkcpu d d y c0 z f v m st r) Q.
Proof.
  intros I BK K1 K2 K3. pose proof (inv_inbuff _ _ _ _ _ _ I) as EI1. pose proof (i_bytes _ _ _ _ _ _ I) as WM. pose proof (inv_char _ _ _ _ _ _ I) as EC. pose proof (WM 242). pose proof (WM (1408 + m 242)) as BC. rewrite EC in BC. unfold letter in *.
  to_code "match_char". cells. step1. step1. step1; zb.
  - rewrite (proj2 (Z.leb_gt 97 d)) in * by lia. to_label "match". eapply match_ok; eauto. intros N. apply K3; [exact N|lia].
  - rewrite (proj2 (Z.leb_le 97 d)) in * by lia. step1. step1. change (243 + 1) with 244. rewrite EI1. norm. rewrite EC. step1; zb.
    + assert (EK : hd 155 l = 46) by (clear - K0 BC BK; unfold b8 in *; zm). destruct l as [|d' l']; cbn [hd] in EK; [lia|]. subst d'. pose proof (proj1 (i_line _ _ _ _ _ _ I)) as LL. cbn [List.length] in LL.
      to_code "matched_dot". cells. step1. rewrite b8_small by lia. step1. step1. to_label "skip_chars". apply (K2 K l' eq_refl). eapply inv_next; [exact I|bytes_tac|norm; reflexivity|intros b HB; norm; reflexivity].
    + assert (NK : hd 155 l <> 46) by (intros E; apply K0; rewrite E; reflexivity). step1. step1. rewrite lxor_letter by lia. step1. to_label "match". eapply match_ok; eauto; lia.
Qed.

(* src/parse.asm:268-277 *)
Lemma table_start_ok (Q : string -> cpu -> Prop) st r l o g p q w a x y c z f v m : inv m l o g p q -> 0 <= x < 256 -> 0 <= y < 256 -> w = x + 256 * y ->
  (forall a' x' y' c' z' f' v' m', inv m' (blanks l) o g w q -> wp P (entry P "ploop_line") (mkcpu a' x' y' c' z' f' v' m' (CByte (p mod 256) :: CByte a :: st) r) Q) ->
  wp P (entry P "parser_sub") (mkcpu a x y c z f v m st r) Q.
Proof.
  intros I BX BY -> K. pose proof (i_bytes _ _ _ _ _ _ I) as WM. pose proof (i_ptr _ _ _ _ _ _ I) as EP. unfold wordat in EP. pose proof (WM (nz + 19)). pose proof (WM (nz + 19 + 1)).
  to_code "parser_sub". cells. do 5 step1. jsr "SKBLANK" kk. replace (m (nz + 19)) with (p mod 256) by zm. apply skb_ok with (l := l) (o := o) (g := g) (p := x + 256 * y) (q := q).
  - apply inv_upd with (m := m) (p := p); auto; [bytes_tac|unfold wordat; norm; lia|intros b N1 N2; norm; reflexivity].
  - intros. unfold kk. step1. to_label "ploop_line". apply K. assumption.
Qed.
(* src/parse.asm:343-350 *)
Lemma exit_ok (Q : string -> cpu -> Prop) st r l o g p q lo hi e1 e2 a x y c z f v m : inv m l o g p q -> 0 <= lo < 256 -> 0 < hi < 256 ->
  (forall a' x' y' c' z' f' v' m', inv m' l o g (lo + 256 * hi) q -> wp P (entry P "ploop") (mkcpu a' x' y' c' z' f' v' m' st r) Q) ->
  wp P (entry P "pexit_ok") (mkcpu a x y c z f v m (CByte e1 :: CByte e2 :: CByte lo :: CByte hi :: st) r) Q.
Proof.
  intros I BL BH K. pose proof (i_bytes _ _ _ _ _ _ I) as WM. to_code "pexit_ok". cells. do 6 step1. step1; zb; [|lia]. to_label "ploop". apply K.
  apply inv_upd with (m := m) (p := p); auto; [bytes_tac|unfold wordat; norm; lia|intros b N1 N2; norm; reflexivity].
Qed.
(* src/parse.asm:394-403 *)
Lemma exit_err (Q : string -> cpu -> Prop) st r l o g p q lo hi e1 e2 a x y c z f v m : inv m l o g p q -> 0 <= lo < 256 -> 0 < hi < 256 ->
  (forall a' x' y' c' z' f' v' m', inv m' l o g (lo + 256 * hi) q -> wp P (entry P "ploop_nextline") (mkcpu a' x' y' c' z' f' v' m' st r) Q) ->
  wp P (entry P "pexit_err") (mkcpu a x y c z f v m (CByte e1 :: CByte e2 :: CByte lo :: CByte hi :: st) r) Q.
Proof.
  intros I BL BH K. pose proof (i_bytes _ _ _ _ _ _ I) as WM. to_code "pexit_err". cells. do 5 step1. step1; zb; [lia|]. step1. step1. to_label "ploop_nextline". apply K.
  apply inv_upd with (m := m) (p := p); auto; [bytes_tac|unfold wordat; norm; lia|intros b N1 N2; norm; reflexivity].
Qed.

Variable T : Z -> list tline.
Variable act : Z -> list Z -> list Z -> ares.
Hypothesis LD : forall k, na <= k < nt -> code_at (wordat m0 (tab + 2 * k) + 1) (table_bytes (T k)) /\ Forall (tline_ok na nt) (T k).
Hypothesis HA : forall k l o g p m st kk r Q z f v, 0 <= k < na -> inv m l o g p (size o) ->
  match act k l o with
  | Aok l' bs => forall a' x' y' z' f' v' m', inv m' l' (o ++ bs) g p (size (o ++ bs)) -> wp P kk (mkcpu a' x' y' false z' f' v' m' st r) Q
  | Ano l' => forall a' x' y' z' f' v' m' q, inv m' l' o g p q -> wp P kk (mkcpu a' x' y' true z' f' v' m' st r) Q
  | Afull => forall s', Y s' = 12 -> Q "parser_error" s'
  end -> wp P (In (JSR "call_ax1") :: kk) (mkcpu (m0 (tab + 2 * k + 1)) (m0 (tab + 2 * k)) (2 * k) false z f v m st r) Q.

Definition ki (p e : Z) (tail : list Z) (st : list cell) (r : list Z) (Q : string -> cpu -> Prop) (o : list Z) (res : tres) : Prop :=
  match res with
  | Ok l' o' f' => forall m', inv m' l' o' f' e (size o') -> disp (m0 e) m' st r Q
  | No l' f' => forall m' p' q its' a x y c z f v, inv m' l' o f' p' q -> Forall (item_ok na nt) its' -> code_at (p' + 1) (items_bytes its' ++ tail) -> p' + 1 + Z.of_nat (List.length (items_bytes its')) = e -> p <= p' ->
      wp P (entry P "ploop_nextline") (mkcpu a x y c z f v m' st r) Q
  | Full => forall s', Y s' = 12 -> Q "parser_error" s'
  end.
Definition kt (st : list cell) (r : list Z) (Q : string -> cpu -> Prop) (o : list Z) (res : tres) : Prop :=
  match res with
  | Ok l' o' f' => forall m' p' e1 e2 a x y c z f v, inv m' l' o' f' p' (size o') -> wp P (entry P "pexit_ok") (mkcpu a x y c z f v m' (CByte e1 :: CByte e2 :: st) r) Q
  | No l' f' => forall m' p' e1 e2 a x y c z f v, inv m' l' o f' p' (size o) -> wp P (entry P "pexit_err") (mkcpu a x y c z f v m' (CByte e1 :: CByte e2 :: st) r) Q
  | Full => forall s', Y s' = 12 -> Q "parser_error" s'
  end.
Lemma ki_less p p' e tail st r Q o o' res : ki p e tail st r Q o res -> p <= p' -> (exists o1, o' = o ++ o1) -> ki p' e tail st r Q o' res.
Proof. intros K LP (o1 & ->). destruct res; cbn [ki] in *; auto. intros. apply (K m' p'0 q its'); auto; [eapply inv_prefix; eassumption|lia]. Qed.
Lemma code_first p bs c l : code_at p bs -> bs = c :: l -> m0 p = c.
Proof. intros C ->. apply code_cons in C. apply C. Qed.
(* calls of tables and routines *)
Lemma call_ok (Q : string -> cpu -> Prop) st r l o g p k x y c z f v m : inv m l o g p (size o) -> na <= k < nt -> 1664 <= p < 65536 ->
  (forall a' x' y' c' z' f' v' m', inv m' (blanks l) o g (wordat m0 (tab + 2 * k)) (size o) -> wp P (entry P "ploop_line") (mkcpu a' x' y' c' z' f' v' m' (CByte (p mod 256) :: CByte (p / 256) :: st) r) Q) ->
  wp P (entry P "pcall") (mkcpu (128 + k) x y c z f v m st r) Q.
Proof.
  intros I BK BP K. pose proof (i_bytes _ _ _ _ _ _ I) as WM. pose proof (i_same _ _ _ _ _ _ I) as SM. pose proof (i_ptr _ _ _ _ _ _ I) as EP. unfold wordat in EP. pose proof (WM (nz + 19)). pose proof (WM (nz + 19 + 1)).
  to_code "pcall". cells. step1. replace (b8 (2 * (128 + k))) with (2 * k) by (unfold b8; zm). step1. step1. norm. step1. norm. step1. step1; zb; [lia|]. step1. step1. step1; [|exfalso; zb; lia]. to_label "parser_sub".
  replace (tab + 1 + 2 * k) with (tab + 2 * k + 1) by lia. rewrite !(SM (tab + 2 * k)), !(SM (tab + 2 * k + 1)) by (apply keep; lia). replace (m (nz + 19 + 1)) with (p / 256) by zm.
  pose proof (WM (tab + 2 * k)) as B1. pose proof (WM (tab + 2 * k + 1)) as B2. rewrite SM in B1, B2 by (apply keep; lia).
  apply table_start_ok with (l := l) (o := o) (g := g) (p := p) (q := size o) (w := wordat m0 (tab + 2 * k)); auto.
Qed.
Ltac nope := exfalso; match goal with H : _ <> 0 |- _ => apply H; reflexivity end.
Lemma pact_ok (Q : string -> cpu -> Prop) st r l o g p k x y c z f v m : inv m l o g p (size o) -> 0 <= k < na ->
  match act k l o with
  | Aok l' bs => forall a' x' y' c' z' f' v' m', inv m' l' (o ++ bs) g p (size (o ++ bs)) -> wp P (entry P "ploop") (mkcpu a' x' y' c' z' f' v' m' st r) Q
  | Ano l' => forall a' x' y' c' z' f' v' m' q, inv m' l' o g p q -> wp P (entry P "ploop_nextline") (mkcpu a' x' y' c' z' f' v' m' st r) Q
  | Afull => forall s', Y s' = 12 -> Q "parser_error" s'
  end -> wp P (entry P "pcall") (mkcpu (128 + k) x y c z f v m st r) Q.
Proof.
  intros I BK K. pose proof (i_same _ _ _ _ _ _ I) as SM.
  to_code "pcall". cells. step1. replace (b8 (2 * (128 + k))) with (2 * k) by (unfold b8; zm). step1. step1. norm. step1. norm. step1. step1; zb; [|lia]. to_code "pcall_ml".
  replace (tab + 1 + 2 * k) with (tab + 2 * k + 1) by lia. rewrite !(SM (tab + 2 * k)), !(SM (tab + 2 * k + 1)) by (apply keep; lia). rewrite (proj2 (Z.leb_gt (2 * na) (2 * k))) by lia.
  eapply HA; eauto. destruct (act k l o) as [l' bs|l'|]; [| |exact K].
  - intros a' x' y' z' f' v' m' I'. step1; [|discriminate]. to_label "ploop". apply K. exact I'.
  - intros a' x' y' z' f' v' m' q I'. step1; [discriminate|]. step1; [|discriminate]. to_label "ploop_nextline". eapply K. exact I'.
Qed.
(* src/parse.asm:280-285: the start of a line of a table *)
Lemma start_ok (Q : string -> cpu -> Prop) st r l o f p b bs a x y c z g v m : inv m l o f p (size o) -> code_at (p + 1) (b :: bs) ->
  (forall m', inv m' l o f (p + 1) (size o) -> disp (m0 (p + 1)) m' (CByte (size o) :: CByte (n - Z.of_nat (List.length l)) :: st) r Q) ->
  wp P (entry P "ploop_line") (mkcpu a x y c z g v m st r) Q.
Proof.
  intros I C K. pose proof (code_cons _ _ _ C) as (E0 & _). to_code "ploop_line". cells. do 4 step1. step1. to_label "ploop". rewrite (i_opos _ _ _ _ _ _ I), (i_pos _ _ _ _ _ _ I). eapply ploop_ok; eauto. intros m2 I2. rewrite <- E0. auto.
Qed.
Lemma tbytes its e t : flat_map tline_bytes ((its, e) :: t) ++ [0] = items_bytes its ++ end_bytes e ++ flat_map tline_bytes t ++ [0].
Proof. cbn [flat_map]. unfold tline_bytes at 1. cbn [fst snd]. now rewrite <- !app_assoc. Qed.
Lemma table_parse_ok :
  (forall its l o f res, items n T act its l o f res -> forall b tail e st r Q m p, 0 <= b < 31 -> Forall (item_ok na nt) its -> inv m l o f p (size o) -> code_at p (items_bytes its ++ b :: tail) ->
     p + Z.of_nat (List.length (items_bytes its)) = e -> ki p e (b :: tail) st r Q o res -> disp (m0 p) m st r Q) /\
  (forall t l o f res, table n T act t l o f res -> forall st r Q m p a x y c z g v, Forall (tline_ok na nt) t -> inv m l o f p (size o) -> code_at (p + 1) (flat_map tline_bytes t ++ [0]) ->
     kt st r Q o res -> wp P (entry P "ploop_line") (mkcpu a x y c z g v m st r) Q).
Proof.
  apply items_table_ind; cbv beta.
  - (* end *) intros l o f b tail e st r Q m p BB OKI I C E K. cbn [items_bytes flat_map List.length ki] in *. replace p with e in * by lia. apply K. exact I.
  - (* a character *) intros d its l o f res _ IH b tail e st r Q m p BB OKI I C E K. pose proof (Forall_inv OKI) as O1. pose proof (Forall_inv_tail OKI) as O2. cbn [item_ok] in O1.
    rewrite items_cons in C, E. cbn [item_bytes app List.length] in C, E. pose proof (code_cons _ _ _ C) as (E0 & C1 & _). rewrite E0. split; [lia|]. intros _ x y z g v. to_code "ploop_tax". step1. step1; zb; [|lia]. to_label "match_char".
    eapply char_ok; eauto.
    + intros l' EL a2 x2 y2 c2 z2 g2 v2 m2 I2. injection EL as <-. pose proof C1 as C2. destruct (items_bytes its ++ b :: tail) as [|d2 t2] eqn:ED; [now destruct (items_bytes its)|]. pose proof (code_cons _ _ _ C1) as (E1 & _). eapply ploop_ok; [exact I2|exact C1|]. intros m3 I3. rewrite <- E1. rewrite <- ED in *.
      eapply IH with (e := e); eauto; [lia|]. eapply ki_less; eauto; [lia|]. exists []. now rewrite app_nil_r.
    + intros B97 l' EL. unfold letter in EL. rewrite (proj2 (Z.leb_le 97 d)) in EL by lia. injection EL as EL _. lia.
    + intros N. cbn [hd] in N. congruence.
  - (* an abbreviation *) intros d its l o f res B97 _ IH b tail e st r Q m p BB OKI I C E K. pose proof (Forall_inv OKI) as O1. pose proof (Forall_inv_tail OKI) as O2. cbn [item_ok] in O1.
    rewrite items_cons in C, E. cbn [item_bytes app List.length] in C, E. pose proof (code_cons _ _ _ C) as (E0 & C1 & _). rewrite E0. split; [lia|]. intros _ x y z g v. to_code "ploop_tax". step1. step1; zb; [|lia]. to_label "match_char".
    eapply char_ok; eauto.
    + intros l' EL. unfold letter in EL. rewrite (proj2 (Z.leb_le 97 d)) in EL by lia. injection EL as EL _. lia.
    + intros _ l' EL a2 x2 y2 c2 z2 g2 v2 m2 I2. injection EL as <-. eapply chars_ok; eauto. intros m3 p3 E3 I3. destruct (word_end_split its) as (its1 & ES). rewrite ES in C1. unfold items_bytes in C1. rewrite flat_map_app, <- app_assoc in C1. fold (items_bytes its1) (items_bytes (word_end its)) in C1.
      apply code_app in C1 as (_ & C1). assert (EL : List.length (items_bytes its) = (List.length (items_bytes its1) + List.length (items_bytes (word_end its)))%nat) by (rewrite ES at 1; unfold items_bytes; rewrite flat_map_app, app_length; reflexivity).
      replace (p + 1 + Z.of_nat (List.length (items_bytes its1))) with p3 in C1 by lia. eapply IH with (e := e); eauto; [apply word_end_ok; exact O2|lia|]. eapply ki_less; eauto; [lia|]. exists []. now rewrite app_nil_r.
    + intros _ N. cbn [hd] in N. now elim (N B97).
  - (* no match *) intros d its l o f N1 N2 b tail e st r Q m p BB OKI I C E K. pose proof (Forall_inv OKI) as O1. pose proof (Forall_inv_tail OKI) as O2. cbn [item_ok] in O1.
    rewrite items_cons in C, E. cbn [item_bytes app List.length] in C, E. pose proof (code_cons _ _ _ C) as (E0 & C1 & _). rewrite E0. split; [lia|]. intros _ x y z g v. to_code "ploop_tax". step1. step1; zb; [|lia]. to_label "match_char".
    eapply char_ok; eauto.
    + intros l' ->. now elim N1.
    + intros B97 l' ->. now elim (N2 B97).
    + intros _ _ a2 x2 y2 c2 z2 g2 v2. cbn [ki] in K. eapply K; eauto; lia.
  - (* output *) intros bs its l o f res SZ _ IH b tail e st r Q m p BB OKI I C E K. pose proof (Forall_inv OKI) as O1. pose proof (Forall_inv_tail OKI) as O2. cbn [item_ok] in O1.
    rewrite items_cons in C, E. cbn [item_bytes app List.length] in C, E. pose proof (code_cons _ _ _ C) as (E0 & C1 & _). rewrite E0. split; [lia|]. intros _ x y z g v. to_code "ploop_tax". step1. step1; zb; [lia|]. step1; zb; [lia|].
    step1. rewrite b8_small by lia. step1; zb; [lia|]. step1. rewrite b8_small by lia. step1; zb; [lia|]. step1. to_label "pemit". rewrite <- app_assoc in C1. pose proof C1 as C2. apply code_app in C2 as (_ & C2).
    destruct (items_bytes its ++ b :: tail) as [|d2 t2] eqn:ED; [now destruct (items_bytes its)|]. pose proof (code_cons _ _ _ C2) as (E1 & _). rewrite app_length in E.
    eapply emits_ok with (bs := bs); eauto; try (unfold size; lia).
    + intros ->. cbn in O1. lia.
    + intros _ m3 I3. rewrite <- E1. rewrite <- ED in *. replace (p + size bs + 1) with (p + 1 + Z.of_nat (List.length bs)) in I3 by (unfold size; lia). eapply IH with (e := e); eauto; [lia|]. eapply ki_less; eauto; lia.
    + unfold size in *. lia.
  - (* too much output *) intros bs its l o f SZ b tail e st r Q m p BB OKI I C E K. pose proof (Forall_inv OKI) as O1. pose proof (Forall_inv_tail OKI) as O2. cbn [item_ok] in O1.
    rewrite items_cons in C, E. cbn [item_bytes app List.length] in C, E. pose proof (code_cons _ _ _ C) as (E0 & C1 & _). rewrite E0. split; [lia|]. intros _ x y z g v. to_code "ploop_tax". step1. step1; zb; [lia|]. step1; zb; [lia|].
    step1. rewrite b8_small by lia. step1; zb; [lia|]. step1. rewrite b8_small by lia. step1; zb; [lia|]. step1. to_label "pemit". rewrite <- app_assoc in C1.
    destruct (items_bytes its ++ b :: tail) as [|d2 t2] eqn:ED; [now destruct (items_bytes its)|].
    eapply emits_ok with (bs := bs); eauto; try (unfold size in *; lia). intros ->. cbn in O1. lia.
  - (* a table *) intros k its l o f l' o' f' res HT IHT _ IH b tail e st r Q m p BB OKI I C E K. pose proof (Forall_inv OKI) as O1. pose proof (Forall_inv_tail OKI) as O2. cbn [item_ok] in O1.
    rewrite items_cons in C, E. cbn [item_bytes app List.length] in C, E. pose proof (code_cons _ _ _ C) as (E0 & C1 & BP & _). rewrite E0. pose proof C as (_ & CE & _). cbn [List.length] in CE. split; [|lia]. intros _ x y c z g v. destruct (LD k O1) as (CT & OT).
    apply call_ok with (l := l) (o := o) (g := f) (p := p); auto; [lia|]. intros a2 x2 y2 c2 z2 g2 v2 m2 I2. eapply IHT; eauto. intros m3 p3 e1 e2 a3 x3 y3 c3 z3 g3 v3 I3. eapply exit_ok; eauto; [zm|zm|]. intros a4 x4 y4 c4 z4 g4 v4 m4 I4. replace (p mod 256 + 256 * (p / 256)) with p in I4 by zm.
    destruct (items_bytes its ++ b :: tail) as [|d2 t2] eqn:ED; [now destruct (items_bytes its)|]. pose proof (code_cons _ _ _ C1) as (E1 & _). eapply ploop_ok; [exact I4|exact C1|]. intros m5 I5. rewrite <- E1. rewrite <- ED in *.
    eapply IH with (e := e); eauto; [lia|]. eapply ki_less; eauto; [lia|]. apply (proj2 (parse_grows n T act)) in HT. exact HT.
  - (* a table fails *) intros k its l o f l' f' HT IHT b tail e st r Q m p BB OKI I C E K. pose proof (Forall_inv OKI) as O1. pose proof (Forall_inv_tail OKI) as O2. cbn [item_ok] in O1.
    rewrite items_cons in C, E. cbn [item_bytes app List.length] in C, E. pose proof (code_cons _ _ _ C) as (E0 & C1 & BP & _). rewrite E0. pose proof C as (_ & CE & _). cbn [List.length] in CE. split; [|lia]. intros _ x y c z g v. destruct (LD k O1) as (CT & OT).
    apply call_ok with (l := l) (o := o) (g := f) (p := p); auto; [lia|]. intros a2 x2 y2 c2 z2 g2 v2 m2 I2. eapply IHT; eauto. intros m3 p3 e1 e2 a3 x3 y3 c3 z3 g3 v3 I3. eapply exit_err; eauto; [zm|zm|]. intros a4 x4 y4 c4 z4 g4 v4 m4 I4. replace (p mod 256 + 256 * (p / 256)) with p in I4 by zm.
    cbn [ki] in K. eapply K; eauto; lia.
  - (* a table has too much output *) intros k its l o f HT IHT b tail e st r Q m p BB OKI I C E K. pose proof (Forall_inv OKI) as O1. cbn [item_ok] in O1.
    rewrite items_cons in C, E. cbn [item_bytes app List.length] in C, E. pose proof (code_cons _ _ _ C) as (E0 & C1 & BP & _). rewrite E0. pose proof C as (_ & CE & _). cbn [List.length] in CE. split; [|lia]. intros _ x y c z g v. destruct (LD k O1) as (CT & OT).
    apply call_ok with (l := l) (o := o) (g := f) (p := p); auto; [lia|]. intros a2 x2 y2 c2 z2 g2 v2 m2 I2. eapply IHT; eauto.
  - (* a routine *) intros k its l o f l' bs res HR _ IH b tail e st r Q m p BB OKI I C E K. pose proof (Forall_inv OKI) as O1. pose proof (Forall_inv_tail OKI) as O2. cbn [item_ok] in O1.
    rewrite items_cons in C, E. cbn [item_bytes app List.length] in C, E. pose proof (code_cons _ _ _ C) as (E0 & C1 & BP & _). rewrite E0. split; [|lia]. intros _ x y c z g v.
    apply pact_ok with (l := l) (o := o) (g := f) (p := p); auto. rewrite HR. intros a4 x4 y4 c4 z4 g4 v4 m4 I4.
    destruct (items_bytes its ++ b :: tail) as [|d2 t2] eqn:ED; [now destruct (items_bytes its)|]. pose proof (code_cons _ _ _ C1) as (E1 & _). eapply ploop_ok; [exact I4|exact C1|]. intros m5 I5. rewrite <- E1. rewrite <- ED in *.
    eapply IH with (e := e); eauto; [lia|]. eapply ki_less; eauto; lia.
  - (* a routine fails *) intros k its l o f l' HR b tail e st r Q m p BB OKI I C E K. pose proof (Forall_inv OKI) as O1. pose proof (Forall_inv_tail OKI) as O2. cbn [item_ok] in O1.
    rewrite items_cons in C, E. cbn [item_bytes app List.length] in C, E. pose proof (code_cons _ _ _ C) as (E0 & C1 & BP & _). rewrite E0. split; [|lia]. intros _ x y c z g v.
    apply pact_ok with (l := l) (o := o) (g := f) (p := p); auto. rewrite HR. intros a4 x4 y4 c4 z4 g4 v4 m4 q I4. cbn [ki] in K. eapply K; eauto; lia.
  - (* a routine has too much output *) intros k its l o f HR b tail e st r Q m p BB OKI I C E K. pose proof (Forall_inv OKI) as O1. cbn [item_ok] in O1.
    rewrite items_cons in C, E. cbn [item_bytes app List.length] in C, E. pose proof (code_cons _ _ _ C) as (E0 & C1 & BP & _). rewrite E0. split; [|lia]. intros _ x y c z g v.
    apply pact_ok with (l := l) (o := o) (g := f) (p := p); auto. rewrite HR. exact K.
  - (* no line *) intros l o f st r Q m p a x y c z g v _ I C K. cbn [flat_map app] in C. to_code "ploop_line". cells. do 4 step1. step1. to_label "ploop". eapply ploop_ok; eauto. intros m2 I2. split; [lia|]. intros _ x2 y2 z2 g2 v2. to_code "ploop_tax". step1. step1; zb; [lia|]. step1; zb; [|nope]. to_label "pexit_err". cbn [kt] in K. eapply K; eauto.
  - (* a line that ends *) intros its t l o f l' o' f' _ IH st r Q m p a x y c z g v OT I C K. pose proof (Forall_inv OT) as (O1 & O3). cbn [fst] in O1. rewrite tbytes in C. cbn [end_bytes app] in C.
    destruct (items_bytes its ++ 1 :: flat_map tline_bytes t ++ [0]) as [|d2 t2] eqn:ED; [now destruct (items_bytes its)|]. eapply start_ok; eauto. intros m2 I2. rewrite <- ED in C.
    eapply IH with (b := 1); eauto; [lia|]. cbn [ki]. intros m3 I3. pose proof C as C1. apply code_app in C1 as (_ & C1). apply code_cons in C1 as (E1 & _). rewrite E1. split; [lia|]. intros _ x2 y2 z2 g2 v2. to_code "ploop_tax". step1. step1; zb; [lia|]. step1; zb; [lia|]. step1. step1; zb; [|nope]. to_label "pexit_ok". cbn [kt] in K. eapply K; eauto.
  - (* a line that ends with output *) intros its d t l o f l' o' f' _ IH SZ st r Q m p a x y c z g v OT I C K. pose proof (Forall_inv OT) as (O1 & O3). cbn [fst] in O1. rewrite tbytes in C. cbn [end_bytes app] in C.
    destruct (items_bytes its ++ 2 :: d :: flat_map tline_bytes t ++ [0]) as [|d2 t2] eqn:ED; [now destruct (items_bytes its)|]. eapply start_ok; eauto. intros m2 I2. rewrite <- ED in C.
    eapply IH with (b := 2); eauto; [lia|]. cbn [ki]. intros m3 I3. pose proof C as C1. apply code_app in C1 as (_ & C1). apply code_cons in C1 as (E1 & C1 & _). rewrite E1. split; [lia|]. intros _ x2 y2 z2 g2 v2. to_code "ploop_tax". step1. step1; zb; [lia|]. step1; zb; [lia|]. step1. step1; zb; [exfalso; match goal with H : b8 _ = 0 |- _ => discriminate H end|]. step1. step1; zb; [|nope].
    to_code "pemit_ret". jsr "emit_sub" kk. to_code "emit_sub". jsr "parser_fetch" k2. pose proof (code_byte _ _ _ _ _ _ _ _ _ I3 C1) as E2. eapply fetch_ok; eauto. intros m4 z4 I4. unfold k2. step1. to_label "parser_emit_byte".
    eapply table_emit_ok; eauto; [rewrite <- E2; apply (i_bytes _ _ _ _ _ _ I3)| |lia]. intros _ y5 z5 f5 m5 I5. unfold kk. step1. to_label "pexit_ok". cbn [kt] in K. eapply K; eauto.
  - (* too much *) intros its d t l o f l' o' f' _ IH SZ st r Q m p a x y c z g v OT I C K. pose proof (Forall_inv OT) as (O1 & O3). cbn [fst] in O1. rewrite tbytes in C. cbn [end_bytes app] in C.
    destruct (items_bytes its ++ 2 :: d :: flat_map tline_bytes t ++ [0]) as [|d2 t2] eqn:ED; [now destruct (items_bytes its)|]. eapply start_ok; eauto. intros m2 I2. rewrite <- ED in C.
    eapply IH with (b := 2); eauto; [lia|]. cbn [ki]. intros m3 I3. pose proof C as C1. apply code_app in C1 as (_ & C1). apply code_cons in C1 as (E1 & C1 & _). rewrite E1. split; [lia|]. intros _ x2 y2 z2 g2 v2. to_code "ploop_tax". step1. step1; zb; [lia|]. step1; zb; [lia|]. step1. step1; zb; [exfalso; match goal with H : b8 _ = 0 |- _ => discriminate H end|]. step1. step1; zb; [|nope].
    to_code "pemit_ret". jsr "emit_sub" kk. to_code "emit_sub". jsr "parser_fetch" k2. pose proof (code_byte _ _ _ _ _ _ _ _ _ I3 C1) as E2. eapply fetch_ok; eauto. intros m4 z4 I4. unfold k2. step1. to_label "parser_emit_byte".
    eapply table_emit_ok; eauto; [rewrite <- E2; apply (i_bytes _ _ _ _ _ _ I3)|lia].
  - (* the next line *) intros its e t l o f l' f' res _ IH _ IHT st r Q m p a x y c z g v OT I C K. pose proof (Forall_inv OT) as (O1 & O3). pose proof (Forall_inv_tail OT) as O2. cbn [fst] in O1. rewrite tbytes in C.
    pose proof (inv_line _ _ _ _ _ _ I) as (LN & L0).
    assert (EB' : exists b tl, end_bytes e = b :: tl /\ 0 <= b < 31) by (destruct e; cbn [end_bytes]; eexists _, _; (split; [reflexivity|lia])). destruct EB' as (b & tl & EE & BB).
    destruct (items_bytes its ++ end_bytes e ++ flat_map tline_bytes t ++ [0]) as [|d2 t2] eqn:ED; [rewrite EE in ED; now destruct (items_bytes its)|]. eapply start_ok; eauto. intros m2 I2. rewrite <- ED in C. pose proof C as C0. rewrite EE in C0. cbn [app] in C0.
    eapply IH with (b := b); eauto. cbn [ki]. intros m3 p3 q3 its3 a3 x3 y3 c3 z3 f3 v3 I3 OI3 C3 E3 LP. change (b :: tl ++ flat_map tline_bytes t ++ [0]) with ((b :: tl) ++ flat_map tline_bytes t ++ [0]) in C3. rewrite <- EE in C3.
    unfold tline_bytes in O3. cbn [fst snd] in O3. rewrite app_length in O3.
    eapply nextline_ok with (its := its3); eauto; [rewrite app_length; lia|]. intros a4 x4 y4 c4 z4 f4 v4 m4 I4. eapply IHT; eauto. rewrite app_assoc in C3. apply code_app in C3 as (_ & C3).
    replace (p3 + Z.of_nat (List.length (items_bytes its3 ++ end_bytes e)) + 1) with (p3 + 1 + Z.of_nat (List.length (items_bytes its3 ++ end_bytes e))) by lia. exact C3.
  - (* a line has too much output *) intros its e t l o f _ IH st r Q m p a x y c z g v OT I C K. pose proof (Forall_inv OT) as (O1 & O3). cbn [fst] in O1. rewrite tbytes in C.
    assert (EB' : exists b tl, end_bytes e = b :: tl /\ 0 <= b < 31) by (destruct e; cbn [end_bytes]; eexists _, _; (split; [reflexivity|lia])). destruct EB' as (b & tl & EE & BB). rewrite EE in C. cbn [app] in C.
    destruct (items_bytes its ++ b :: tl ++ flat_map tline_bytes t ++ [0]) as [|d2 t2] eqn:ED; [now destruct (items_bytes its)|]. eapply start_ok; eauto. intros m2 I2. rewrite <- ED in C.
    eapply IH with (b := b); eauto.
Qed.
End N.
