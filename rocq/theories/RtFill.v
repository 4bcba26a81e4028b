(* Filling memory and allocation: MSET and DIM. *)
From Verif Require Export RtCopy.

(* the n bytes from dst on, around the end of memory, are v *)
Definition within (dst n a : Z) : bool := (0 <=? a) && (a <? 65536) && ((a - dst) mod 65536 <? n).
Definition filled (m : Z -> Z) (dst n v : Z) : Z -> Z := fun a => if within dst n a then v else m a.
Lemma within_iff dst n a : 0 <= n <= 65536 -> within dst n a = true <-> exists i, 0 <= i < n /\ a = b16 (dst + i).
Proof.
  intros BN. unfold within. rewrite !andb_true_iff, Z.leb_le, !Z.ltb_lt. split.
  - intros ((A1 & A2) & A3). exists ((a - dst) mod 65536). split; [zm|]. zm.
  - intros (i & I & ->). zm.
Qed.
Lemma within_false dst n a : within dst n a = false <-> (0 <= a < 65536 -> n <= (a - dst) mod 65536).
Proof.
  unfold within. destruct (0 <=? a) eqn:A0, (a <? 65536) eqn:A1; cbn [andb]; zb; split; intros; zb; lia.
Qed.
Lemma within_mod dst n a : within (b16 dst) n a = within dst n a.
Proof. unfold within. do 2 f_equal. zm. Qed.
Lemma filled_add m dst n k v a : 0 <= n -> 0 <= k -> n + k <= 65536 ->
  filled (filled m (dst + n) k v) dst n v a = filled m dst (n + k) v a.
Proof.
  intros. unfold filled. destruct (within dst n a) eqn:E1, (within (dst + n) k a) eqn:E2, (within dst (n + k) a) eqn:E3; auto;
    unfold within in *; destruct (0 <=? a) eqn:A0, (a <? 65536) eqn:A1; cbn [andb] in *; try discriminate; zb; zm.
Qed.
Lemma filled_bytes m dst n v : bytes_in m -> 0 <= v < 256 -> bytes_in (filled m dst n v).
Proof. intros W V a. unfold filled. destruct (within _ _ _); auto. Qed.
Lemma filled_ext m m' dst n v a : m a = m' a -> filled m dst n v a = filled m' dst n v a.
Proof. unfold filled. intros ->. reflexivity. Qed.
Lemma filled_out m dst n v a : within dst n a = false -> filled m dst n v a = m a.
Proof. unfold filled. intros ->. reflexivity. Qed.
Lemma filled_0 m dst v a : filled m dst 0 v a = m a.
Proof. apply filled_out. apply within_false. intros _. zm. Qed.
Lemma filled_upd m dst n v a : 0 < n <= 65536 -> filled (upd m (b16 (dst + (n - 1))) v) dst (n - 1) v a = filled m dst n v a.
Proof.
  intros. unfold filled, upd. destruct (a =? b16 (dst + (n - 1))) eqn:K, (within dst (n - 1) a) eqn:E1, (within dst n a) eqn:E2; auto;
    unfold within in *; destruct (0 <=? a) eqn:A0, (a <? 65536) eqn:A1; cbn [andb] in *; try discriminate; zb; zm.
Qed.

Lemma wf_intro a x y c z f v m st r : 0 <= a < 256 -> 0 <= x < 256 -> 0 <= y < 256 -> bytes_in m ->
  wf (mkcpu a x y c z f v m st r).
Proof. intros. unfold wf. cbn [A X Y M]. auto. Qed.

Section T.
Variable L : lay.
Hypothesis OK : lay_ok L.
Notation P := (rt L).

(* src/interp/clearmem.asm:131-134 *)
Lemma fill_loop (Q : string -> cpu -> Prop) st r : forall n a x y c z f v m d,
  (0 < n <= 256)%nat -> y = b8 (Z.of_nat n) -> bytes_in m -> 0 <= a < 256 -> wordat m 150 = d ->
  within d (Z.of_nat n) 150 = false -> within d (Z.of_nat n) 151 = false ->
  (forall z' f' m', (forall b, m' b = filled m d (Z.of_nat n) a b) ->
     wp P (entry P "mem_set.nxt") (mkcpu a x 0 c z' f' v m' st r) Q) ->
  wp P (entry P "mem_set.loop") (mkcpu a x y c z f v m st r) Q.
Proof.
  induction n as [|n IH]; intros a x y c z f v m d BN -> WM BA ED N0 N1 K; [lia|].
  assert (forall w, within d (Z.of_nat (Datatypes.S n)) w = false -> within d (Z.of_nat n) w = false /\ w <> b16 (d + Z.of_nat n)) as NW.
  { intros w NWw. split; [|intros ->].
    - rewrite within_false in *. lia.
    - apply not_true_iff_false in NWw. apply NWw. apply within_iff; [lia|]. exists (Z.of_nat n). split; [lia|reflexivity]. }
  destruct (NW _ N0) as (N0' & N0'') , (NW _ N1) as (N1' & N1'').
  entry_tac. consts. step1. replace (b8 (b8 (Z.of_nat (Datatypes.S n)) - 1)) with (Z.of_nat n) by zm.
  unfold wordat in ED. step1. rewrite ED. change (150 + 1) with 151 in *.
  assert (forall b, filled (upd m (b16 (d + Z.of_nat n)) a) d (Z.of_nat n) a b = filled m d (Z.of_nat (Datatypes.S n)) a b) as FE.
  { intros b. rewrite <- (filled_upd m d (Z.of_nat (Datatypes.S n))) by lia. replace (Z.of_nat (Datatypes.S n) - 1) with (Z.of_nat n) by lia. reflexivity. }
  step1; zb.
  - at_label "mem_set.loop". eapply IH with (d := d); auto; try lia.
    + rewrite b8_small; lia.
    + apply bytes_upd; auto.
    + unfold wordat. change (150 + 1) with 151. rewrite !upd_ne by auto. exact ED.
    + intros z' f' m' E'. apply K. intros b. rewrite E'. apply FE.
  - step1. rewrite K0 in *. at_label "mem_set.nxt". apply K. intros b. rewrite <- FE. rewrite filled_0. reflexivity.
Qed.
(* the pages below *)
Lemma fill_pages k (Q : string -> cpu -> Prop) st r : forall p a c z f v m d,
  (p <= 255)%nat -> bytes_in m -> 0 <= a < 256 -> wordat m 150 = b16 (d + 256 * Z.of_nat p) ->
  within d (256 * Z.of_nat p) 150 = false -> within d (256 * Z.of_nat p) 151 = false ->
  (forall c' z' f' v' m', wordat m' 150 = b16 d -> (forall b, b <> 151 -> m' b = filled m d (256 * Z.of_nat p) a b) ->
     bytes_in m' -> wp P k (mkcpu a 0 0 c' z' f' v' m' st r) Q) ->
  wp P (entry P "mem_set.nxt") (mkcpu a (b8 (Z.of_nat p + 1)) 0 c z f v m (CRet k :: st) r) Q.
Proof.
  induction p as [|p IH]; intros a c z f v m d BP WM BA ED N0 N1 K; entry_tac; consts; step1.
  - change (b8 (b8 (Z.of_nat 0 + 1) - 1)) with 0. step1; zb; [lia|]. step1. apply K; auto.
    + rewrite ED. f_equal. lia.
    + intros b _. rewrite filled_0. reflexivity.
  - replace (b8 (b8 (Z.of_nat (Datatypes.S p) + 1) - 1)) with (b8 (Z.of_nat p + 1)) by zm. step1; zb; [|zm].
    step1. consts. change (150 + 1) with 151. norm. step1. at_label "mem_set.loop". pose proof (WM 150). pose proof (WM 151).
    assert (forall q w, within d (256 * Z.of_nat (Datatypes.S p)) w = false -> 0 <= q <= Z.of_nat p -> within (d + 256 * q) 256 w = false) as NW.
    { intros q w NWw Bq. rewrite within_false in *. intros Bw. specialize (NWw Bw). zm. }
    assert (forall w, within d (256 * Z.of_nat (Datatypes.S p)) w = false -> within d (256 * Z.of_nat p) w = false) as NW2.
    { intros w NWw. rewrite within_false in *. lia. }
    eapply fill_loop with (n := 256%nat) (d := b16 (d + 256 * Z.of_nat p)); auto; try lia.
    + bytes_tac.
    + unfold wordat in *. change (150 + 1) with 151 in *. norm. zm.
    + rewrite within_mod. apply NW; auto; lia.
    + rewrite within_mod. apply NW; auto; lia.
    + intros z' f' m' E'.
      assert (forall b, m' b = filled (upd m 151 (b8 (m 151 - 1))) (d + 256 * Z.of_nat p) 256 a b) as E2.
      { intros b. rewrite E'. unfold filled. rewrite within_mod. reflexivity. }
      assert (forall w, within d (256 * Z.of_nat (Datatypes.S p)) w = false -> m' w = upd m 151 (b8 (m 151 - 1)) w) as E3.
      { intros w NWw. rewrite E2. apply filled_out. apply NW; auto. lia. }
      apply IH with (d := d); auto; try lia.
      * intros b. rewrite E2. apply filled_bytes; auto. bytes_tac.
      * unfold wordat in *. change (150 + 1) with 151 in *. rewrite !E3 by auto. norm. zm.
      * intros c1 z1 f1 v1 m1 D1 E1 W1. apply K; auto.
        intros b Nb. rewrite E1 by auto. rewrite (filled_ext _ (filled (upd m 151 (b8 (m 151 - 1))) (d + 256 * Z.of_nat p) 256 a)) by auto.
        rewrite filled_add by lia. rewrite (filled_ext _ m) by (norm; reflexivity). f_equal. lia.
Qed.

(* src/interp/clearmem.asm:112-136: the n bytes at move_dest, n = 256 X + tmp1, get the value of Y *)
Lemma mem_set_ok k (Q : string -> cpu -> Prop) st r a x y c z f v m d n :
  0 <= x < 256 -> 0 <= y < 256 -> bytes_in m -> wordat m 150 = d -> n = 256 * x + m (tmp1 L) ->
  within d n 150 = false -> within d n 151 = false ->
  (forall c' z' f' v' m', wordat m' 150 = d -> bytes_in m' -> (forall b, m' b = filled m d n y b) ->
     wp P k (mkcpu y 0 0 c' z' f' v' m' st r) Q) ->
  wp P (entry P "mem_set") (mkcpu a x y c z f v m (CRet k :: st) r) Q.
Proof.
  pose proof OK as (?&?&?&?&?&?&?&?&?&?&?&?&?).
  intros BX BY WM ED -> N0 N1 K. pose proof (WM 150). pose proof (WM 151). pose proof (WM (tmp1 L)).
  unfold wordat in ED. change (150 + 1) with 151 in ED. assert (0 <= d < 65536) as BD by lia.
  set (t := m (tmp1 L)) in *.
  entry_tac. consts. change (150 + 1) with 151. do 7 (step1; norm). fold t.
  assert (forall b, b = 150 \/ b = 151 -> within d (256 * x + t) b = false) as N by (intros b [->| ->]; auto).
  assert (forall w, within d (256 * x + t) w = false -> within (d + 256 * x) t w = false) as NW.
  { intros w NWw. rewrite within_false in *. intros Bw. specialize (NWw Bw). zm. }
  assert (forall w, within d (256 * x + t) w = false -> within d (256 * x) w = false) as NW2.
  { intros w NWw. rewrite within_false in *. lia. }
  set (m1 := upd m 151 _).
  assert (bytes_in m1) as W1 by (unfold m1; bytes_tac).
  assert (wordat m1 150 = b16 (d + 256 * x)) as D1 by (unfold wordat, m1; change (150 + 1) with 151; norm; zm).
  assert (forall m2, bytes_in m2 -> wordat m2 150 = b16 (d + 256 * x) -> (forall b, b <> 151 -> m2 b = filled m (d + 256 * x) t y b) ->
    forall c2 z2 f2 v2, wp P (entry P "mem_set.nxt") (mkcpu y (b8 (x + 1)) 0 c2 z2 f2 v2 m2 (CRet k :: st) r) Q) as G.
  { intros m2 W2 D2 E2 c2 z2 f2 v2. replace (b8 (x + 1)) with (b8 (Z.of_nat (Z.to_nat x) + 1)) by (f_equal; lia).
    assert (256 * Z.of_nat (Z.to_nat x) = 256 * x) as EX by lia.
    apply fill_pages with (d := d); auto; try lia; rewrite ?EX; auto.
    intros c' z' f' v' m' D' E' W'. rewrite b16_small in D' by lia. apply K; auto. intros b.
    destruct (Z.eq_dec b 151) as [->|NB].
    - rewrite filled_out by auto. unfold wordat in D'. change (150 + 1) with 151 in D'.
      assert (m' 150 = m 150) as E150.
      { rewrite E' by lia. rewrite filled_out by auto. rewrite E2 by lia. apply filled_out. auto. }
      lia.
    - rewrite E' by auto. rewrite (filled_ext _ (filled m (d + 256 * x) t y)) by auto. apply filled_add; lia. }
  step1; zb.
  - at_label "mem_set.nxt". rewrite K0. apply G; auto. intros b Nb. rewrite K0. rewrite filled_0. unfold m1. norm. reflexivity.
  - step1; zb; [|lia]. at_label "mem_set.loop". eapply fill_loop with (n := Z.to_nat t) (d := b16 (d + 256 * x)); auto; try lia.
    + rewrite b8_small; lia.
    + rewrite within_mod, Z2Nat.id by lia. auto.
    + rewrite within_mod, Z2Nat.id by lia. auto.
    + intros z' f' m' E'. rewrite Z2Nat.id in E' by lia.
      assert (forall b, m' b = filled m1 (d + 256 * x) t y b) as E2.
      { intros b. rewrite E'. unfold filled. rewrite within_mod. reflexivity. }
      apply G.
      * intros b. rewrite E2. apply filled_bytes; auto.
      * unfold wordat in *. change (150 + 1) with 151 in *. rewrite !E2, !filled_out by auto. exact D1.
      * intros b Nb. rewrite E2. apply filled_ext. unfold m1. norm. reflexivity.
Qed.

Theorem mset_ok s : ready s -> M s sptr < 254 ->
  (forall b, b = sptr \/ b = 150 \/ b = 151 -> within (below s) (top s) b = false) ->
  exists s', calls P "EXE_MSET" s "next_instruction" s' /\
    wf s' /\ M s' sptr = M s sptr + 2 /\
    (forall b, within (below s) (top s) b = true -> M s' b = AX s mod 256) /\
    (forall b, within (below s) (top s) b = false -> b <> sptr -> b <> 150 -> b <> 151 -> ~ scratch L b -> M s' b = M s b) /\
    S s' = S s /\ rnd s' = rnd s.
Proof.
  intros R B N. unfold below in *. start OK s R. consts. pose proof (WM 142).
  pose proof (WM (1152 + m 142 + 1)). pose proof (WM (1192 + m 142 + 1)).
  set (d := m (1152 + m 142 + 1) + 256 * m (1192 + m 142 + 1)) in *.
  set (n := m (1152 + m 142) + 256 * m (1192 + m 142)) in *.
  do 8 (step1; consts; change (150 + 1) with 151; norm).
  replace (1152 + 1 + m 142) with (1152 + m 142 + 1) by lia. replace (1192 + 1 + m 142) with (1192 + m 142 + 1) by lia.
  set (m1 := upd _ (tmp1 L) _). eapply wp_jsr; [reflexivity|]. cpu_red. at_label "mem_set".
  assert (bytes_in m1) as W1 by (unfold m1; bytes_tac).
  apply mem_set_ok with (d := d) (n := n); auto; try lia.
  - unfold wordat, m1, d. change (150 + 1) with 151. norm. reflexivity.
  - unfold m1, n. norm. lia.
  - intros c' z' f' v' m' D' W' E'. do 2 step1. consts.
    assert (m' 142 = m 142) as E142 by (rewrite E', filled_out by auto; unfold m1; norm; reflexivity).
    rewrite E'. rewrite filled_out by auto. replace (m1 142) with (m 142) by (unfold m1; norm; reflexivity).
    rewrite (b8_small (m 142 + 1)) by lia. apply incsp; cbn [A X Y M S rnd]; consts.
    { unfold wf. cbn [A X Y M S rnd]. repeat split; try lia; bytes_tac. }
    { norm. lia. }
    intros z1 n1. norm. split; [reflexivity|].
    split; [unfold wf; cbn [A X Y M S rnd]; repeat split; try lia; bytes_tac|].
    split; [norm; lia|]. split; [|split; [|auto]].
    + intros b Hb. assert (b <> 142) by (intros ->; rewrite N in Hb by auto; discriminate).
      norm. rewrite E'. unfold filled. rewrite Hb. zm.
    + intros b Hb N1 N2 N3 N4. norm. rewrite E', filled_out by auto. unfold scratch in N4. unfold m1. norm. reflexivity.
Qed.

(* src/interp/clearmem.asm:89-110 *)
Definition free_ptr (s : cpu) : Z := wordat (M s) (aptr L).
Definition memtop (s : cpu) : Z := wordat (M s) MEMTOP.
Lemma alloc_ok k (Q : string -> cpu -> Prop) st r a x y c z f v m n p :
  0 <= a < 256 -> 0 <= x < 256 -> bytes_in m -> n = a + 256 * x -> p = wordat m (aptr L) -> 1024 <= p ->
  (p + n < wordat m MEMTOP ->
   forall c' z' f' v' m', bytes_in m' -> wordat m' 150 = p -> wordat m' (aptr L) = p + n ->
     (forall b, p <= b < p + n -> m' b = 0) ->
     (forall b, ~ p <= b < p + n -> b <> aptr L -> b <> aptr L + 1 -> b <> 150 -> b <> 151 -> b <> tmp1 L -> b <> tmp1 L + 1 -> m' b = m b) ->
     wp P k (mkcpu 0 0 0 c' z' f' v' m' st r) Q) ->
  (wordat m MEMTOP <= p + n -> forall s', wf s' -> Q "err_nomem" s') ->
  wp P (entry P "alloc_array") (mkcpu a x y c z f v m (CRet k :: st) r) Q.
Proof.
  pose proof OK as (?&?&?&?&?&?&?&?&?&?&?&?&?).
  intros BA BX WM En Ep BP K1 K2. unfold wordat in Ep. unfold MEMTOP in *. set (mt := wordat m 741) in *. assert (mt = m 741 + 256 * m 742) as EM by reflexivity. clearbody mt.
  pose proof (WM (aptr L)). pose proof (WM (aptr L + 1)). pose proof (WM 741). pose proof (WM 742).
  entry_tac. consts. change (150 + 1) with 151. change (741 + 1) with 742. unfold apart in *.
  do 12 (step1; norm).
  set (lo := b8 (m (aptr L) + a + 0)). set (cb := if 256 <=? m (aptr L) + a + 0 then 1 else 0).
  assert (m (aptr L) + a = 256 * cb + lo /\ 0 <= cb <= 1 /\ 0 <= lo < 256) as (EC & BC & BL).
  { unfold cb, lo. destruct (256 <=? m (aptr L) + a + 0) eqn:KK; zb; zm. }
  clearbody lo cb. set (hi := b8 (m (aptr L + 1) + x + cb)).
  assert (0 <= hi < 256) as BH by apply b8_range.
  set (m1 := upd _ (aptr L + 1) hi).
  assert (bytes_in m1) as W1 by (unfold m1; bytes_tac).
  assert (wordat m1 150 = p) as D1 by (unfold wordat, m1; change (150 + 1) with 151; norm; lia).
  assert (m1 (aptr L) = lo /\ m1 (aptr L + 1) = hi /\ m1 (tmp1 L) = a /\ m1 741 = m 741 /\ m1 742 = m 742) as (A1 & A2 & T1 & M1 & M2) by (unfold m1; norm; auto).
  assert (forall b, b <> aptr L -> b <> aptr L + 1 -> b <> 150 -> b <> 151 -> b <> tmp1 L -> b <> tmp1 L + 1 -> m1 b = m b) as F1.
  { intros b NB1 NB2 NB3 NB4 NB5 NB6. unfold m1. norm. reflexivity. }
  clearbody m1.
  step1; zb.
  { apply K2; [lia|]. apply wf_intro; auto; lia. }
  assert (p + n = lo + 256 * hi) as EN by (unfold hi; zm).
  do 2 (step1; norm). rewrite M1, M2. step1; zb.
  { apply K2; [destruct (m 741 <=? lo) eqn:?; zb; zm|]. apply wf_intro; auto; try lia; apply b8_range. }
  assert (p + n < mt) as LT by (destruct (m 741 <=? lo) eqn:?; zb; zm).
  specialize (K1 LT). step1. step1. step1. at_label "mem_set".
  assert (0 <= lo + 256 * hi < 65536) as BQ by lia.
  assert (forall b, b < 512 -> within p n b = false) as NW.
  { intros b Hb. apply within_false. intros Hb'. zm. }
  apply mem_set_ok with (d := p) (n := n); auto; try lia; try (apply NW; lia).
  intros c' z' f' v' m' D' W' E'. apply K1; auto.
  - unfold wordat. rewrite !E', !filled_out by (apply NW; lia). lia.
  - intros b Hb. rewrite E'. unfold filled. replace (within p n b) with true; auto. symmetry. apply within_iff; [lia|].
    exists (b - p). split; [lia|]. rewrite b16_small; lia.
  - intros b Hb N1 N2 N3 N4 N5 N6. rewrite E', filled_out; [apply F1; auto|]. apply within_false. intros Hb'. zm.
Qed.

(* src/interp/varaddr.asm:45-60: the address of the variable named in the byte code *)
Definition code_ptr (s : cpu) : Z := wordat (M s) cptr.
Definition var_at (m : Z -> Z) (i : Z) : Z := b16 (256 * m (smc L + 6) + 2 * i).
Lemma get_op_var k (Q : string -> cpu -> Prop) st r a x y c z f v m cp :
  bytes_in m -> cp = wordat m 131 ->
  (forall a' x' c' z' f' m', 0 <= a' < 256 -> 0 <= x' < 256 -> a' + 256 * x' = var_at m (m cp) ->
     bytes_in m' -> wordat m' 131 = b16 (cp + 1) -> (forall b, b <> 131 -> b <> 132 -> m' b = m b) ->
     wp P k (mkcpu a' x' 0 c' z' f' v m' st r) Q) ->
  wp P (entry P "get_op_var") (mkcpu a x y c z f v m (CRet k :: st) r) Q.
Proof.
  pose proof OK as (?&?&?&?&?&?&?&?&?&?&?&?&?).
  intros WM Ec K. pose proof (WM 131). pose proof (WM 132). unfold wordat in Ec. change (131 + 1) with 132 in Ec.
  pose proof (WM cp). pose proof (WM (smc L + 6)). unfold var_at in K.
  assert (forall c1 z1 f1 m1, bytes_in m1 -> wordat m1 131 = b16 (cp + 1) -> (forall b, b <> 131 -> b <> 132 -> m1 b = m b) ->
    wp P (entry P "varaddr.1") (mkcpu (m cp) x 0 c1 z1 f1 v m1 (CRet k :: st) r) Q) as G.
  { intros c1 z1 f1 m1 W1 E1 F1. entry_tac. step1. rewrite F1 by lia. step1. step1; zb.
    - step1. apply K; auto; try lia; try apply b8_range. zm.
    - step1. step1. step1. apply K; auto; try lia; try apply b8_range. zm. }
  entry_tac. consts. change (131 + 1) with 132. do 3 step1. change (131 + 1) with 132. rewrite <- Ec. rewrite Z.add_0_r, b16_small by lia. step1; zb.
  - at_label "varaddr.1". apply G.
    + bytes_tac.
    + unfold wordat. change (131 + 1) with 132. norm. zm.
    + intros. norm. reflexivity.
  - step1. norm. step1. at_label "varaddr.1". apply G.
    + bytes_tac.
    + unfold wordat. change (131 + 1) with 132. norm. zm.
    + intros. norm. reflexivity.
Qed.

(* Where the program, its variables and the free memory are: compiler/fastbasic.cfg:31-57 and
   src/standalone.asm:57-90, in this order. *)
Definition placed (s : cpu) : Prop :=
  1408 <= code_ptr s < heap L /\ heap L <= var_at (M s) (M s (code_ptr s)) /\
  var_at (M s) (M s (code_ptr s)) + 1 < free_ptr s.
Theorem dim_ok s : ready s -> placed s -> ~ smcell L (code_ptr s) ->
  let v := var_at (M s) (M s (code_ptr s)) in
  (free_ptr s + AX s < memtop s ->
   exists s', calls P "EXE_DIM" s "next_instruction" s' /\
     wf s' /\ wordat (M s') v = free_ptr s /\ free_ptr s' = free_ptr s + AX s /\ code_ptr s' = code_ptr s + 1 /\
     (forall b, free_ptr s <= b < free_ptr s + AX s -> M s' b = 0) /\
     (forall b, ~ free_ptr s <= b < free_ptr s + AX s -> b <> v -> b <> v + 1 -> b <> aptr L -> b <> aptr L + 1 ->
        b <> cptr -> b <> cptr + 1 -> b <> 150 -> b <> 151 -> ~ scratch L b -> ~ smcell L b -> M s' b = M s b) /\
     S s' = S s /\ rnd s' = rnd s) /\
  (memtop s <= free_ptr s + AX s -> exists s', calls P "EXE_DIM" s "err_nomem" s' /\ wf s').
Proof.
  intros R PL NS vv. pose proof OK as (?&?&?&?&?&?&?&?&?&?&?&?&?). destruct PL as (P1 & P2 & P3).
  destruct R as ((WA & WX & WY & WM) & HY). destruct s as [a x y c z f v m st r].
  unfold code_ptr, free_ptr, memtop, AX, smcell, vv in *. clear vv. cbn [A X Y M S rnd] in *. consts.
  set (cp := wordat m 131) in *. set (p := wordat m (aptr L)) in *. set (va := var_at m (m cp)) in *.
  assert (0 <= va < 65536) as BV by (unfold va, var_at; zm).
  assert (forall (Q : string -> cpu -> Prop),
    (p + (a + 256 * x) < wordat m 741 -> forall s', wf s' -> wordat (M s') va = p -> wordat (M s') (aptr L) = p + (a + 256 * x) ->
      wordat (M s') 131 = cp + 1 -> (forall b, p <= b < p + (a + 256 * x) -> M s' b = 0) ->
     (forall b, ~ p <= b < p + (a + 256 * x) -> b <> va -> b <> va + 1 -> b <> aptr L -> b <> aptr L + 1 ->
        b <> 131 -> b <> 132 -> b <> 150 -> b <> 151 -> ~ scratch L b -> ~ smcell L b -> M s' b = m b) ->
     S s' = st -> rnd s' = r -> Q "next_instruction" s') ->
    (wordat m 741 <= p + (a + 256 * x) -> forall s', wf s' -> Q "err_nomem" s') ->
    wp P (entry P "EXE_DIM") (mkcpu a x y c z f v m st r) Q) as G.
  2: { split.
    - intros LT. apply wp_calls. apply G; [|lia]. intros _ s' W' E1 E2 E3 E4 E5 E6 E7. auto 12.
    - intros LE. apply wp_calls. apply G; [lia|]. auto. }
  intros Q K1 K2. entry_tac. consts. eapply wp_jsr; [reflexivity|]. cpu_red. at_label "alloc_array".
  eapply alloc_ok with (p := p); auto; try lia. intros LT c1 z1 f1 v1 m1 W1 D1 A1 Z1 F1.
  specialize (K1 LT). clear K2. pose proof (W1 150). pose proof (W1 151).
  unfold wordat in D1. change (150 + 1) with 151 in *.
  do 4 step1. norm. step1. norm. eapply wp_jsr; [reflexivity|]. cpu_red. at_label "get_op_var".
  set (m2 := upd m1 _ _).
  assert (bytes_in m2) as W2 by (unfold m2; bytes_tac).
  assert (forall b, ~ scratch L b -> m2 b = m1 b) as F2 by (intros b NB; unfold scratch in NB; unfold m2; norm; reflexivity).
  assert (m2 (tmp2 L + 1) = m1 151) as T2 by (unfold m2; norm; reflexivity).
  clearbody m2.
  assert (wordat m2 131 = cp) as C2.
  { unfold wordat, cp. rewrite !F2, !F1 by (try (unfold scratch); lia). reflexivity. }
  apply get_op_var with (cp := cp); auto.
  replace (var_at m2 (m2 cp)) with va.
  2: { unfold va, var_at. rewrite (F2 (smc L + 6)), (F1 (smc L + 6)) by (try (unfold scratch); lia).
       rewrite F2, F1 by (try (unfold scratch); lia). reflexivity. }
  intros a3 x3 c3 z3 f3 m3 BA3 BX3 E3 W3 C3 F3. rewrite b16_small in C3 by lia.
  do 4 step1. do 2 step1. norm. replace (0 + 256 * x3 + a3) with va by lia. norm.
  step1. norm. replace (1 + 256 * x3 + a3) with (va + 1) by lia. norm. step1.
  apply K1; cbn [M S rnd]; auto.
  - apply wf_intro; auto; try lia. bytes_tac. 
  - unfold wordat. norm. rewrite F3, T2 by lia. lia.
  - unfold wordat. norm. unfold apart in *. rewrite !F3, !F2 by (try (unfold scratch); lia). exact A1.
  - unfold wordat. norm. exact C3.
  - intros b Hb. norm. rewrite F3, F2 by (try (unfold scratch); lia). auto.
  - intros b N0 N1 N2 N3 N4 N5 N6 N7 N8 N9 N10. unfold smcell, scratch in *. norm. rewrite F3, F2 by (unfold scratch; lia).
    apply F1; lia.
Qed.
End T.
