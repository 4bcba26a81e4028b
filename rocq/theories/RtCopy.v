(* Block copies: MOVE and -MOVE. *)
From Verif Require Export RtMem.

(* n bytes, one at a time, going up *)
Fixpoint copy_up (n : nat) (src dst : Z) (m : Z -> Z) : Z -> Z :=
  match n with
  | O => m
  | Datatypes.S k => copy_up k (src + 1) (dst + 1) (upd m (b16 dst) (m (b16 src)))
  end.
(* n bytes, one at a time, going down *)
Fixpoint copy_dn (n : nat) (src dst : Z) (m : Z -> Z) : Z -> Z :=
  match n with
  | O => m
  | Datatypes.S k =>
      copy_dn k src dst (upd m (b16 (dst + Z.of_nat k)) (m (b16 (src + Z.of_nat k))))
  end.

Lemma copy_up_add a b src dst m :
  copy_up (a + b) src dst m = copy_up b (src + Z.of_nat a) (dst + Z.of_nat a) (copy_up a src dst m).
Proof.
  revert src dst m. induction a as [|a IH]; intros; cbn [copy_up Nat.add].
  - rewrite !Z.add_0_r. reflexivity.
  - rewrite IH. f_equal; lia.
Qed.
Lemma copy_dn_add a b src dst m :
  copy_dn (a + b) src dst m = copy_dn a src dst (copy_dn b (src + Z.of_nat a) (dst + Z.of_nat a) m).
Proof.
  revert m. induction b as [|b IH]; intros m; [rewrite Nat.add_0_r; reflexivity|].
  replace (a + Datatypes.S b)%nat with (Datatypes.S (a + b)) by lia. cbn [copy_dn]. rewrite IH.
  do 2 f_equal. f_equal; [f_equal; lia|]. f_equal. f_equal. lia.
Qed.
Lemma copy_up_bytes n : forall src dst m, bytes_in m -> bytes_in (copy_up n src dst m).
Proof. induction n as [|n IH]; intros; cbn [copy_up]; auto. apply IH, bytes_upd; auto. Qed.
Lemma copy_dn_bytes n : forall src dst m, bytes_in m -> bytes_in (copy_dn n src dst m).
Proof. induction n as [|n IH]; intros; cbn [copy_dn]; auto. apply IH, bytes_upd; auto. Qed.
Lemma copy_up_frame n : forall src dst m a,
  (forall i, 0 <= i < Z.of_nat n -> a <> b16 (dst + i)) -> copy_up n src dst m a = m a.
Proof.
  induction n as [|n IH]; intros src dst m a H; cbn [copy_up]; auto. rewrite IH.
  - apply upd_ne. rewrite <- (Z.add_0_r dst). apply H. lia.
  - intros i I. rewrite <- Z.add_assoc. apply H. lia.
Qed.
Lemma copy_dn_frame n : forall src dst m a,
  (forall i, 0 <= i < Z.of_nat n -> a <> b16 (dst + i)) -> copy_dn n src dst m a = m a.
Proof.
  induction n as [|n IH]; intros src dst m a H; cbn [copy_dn]; auto. rewrite IH.
  - apply upd_ne. apply H. lia.
  - intros i I. apply H. lia.
Qed.
(* Going up no byte is overwritten before it is copied, unless the destination starts inside the
   source. *)
Lemma copy_up_exact n : forall src dst m i, (src - dst) mod 65536 <= 65536 - Z.of_nat n ->
  0 <= i < Z.of_nat n -> copy_up n src dst m (b16 (dst + i)) = m (b16 (src + i)).
Proof.
  induction n as [|n IH]; intros src dst m i D I; [lia|]. cbn [copy_up].
  destruct (Z.eq_dec i 0) as [->|NI].
  - rewrite copy_up_frame by (intros j J; zm). rewrite !Z.add_0_r. apply upd_eq. reflexivity.
  - replace (dst + i) with (dst + 1 + (i - 1)) by lia. rewrite IH by (try lia; replace (src + 1 - (dst + 1)) with (src - dst) by lia; lia).
    replace (src + 1 + (i - 1)) with (src + i) by lia. destruct (Z.eq_dec ((src - dst) mod 65536) 0) as [E0|N0].
    + apply upd_ne. zm.
    + apply upd_ne. zm.
Qed.
Lemma copy_dn_exact n : forall src dst m i, (dst - src) mod 65536 <= 65536 - Z.of_nat n ->
  0 <= i < Z.of_nat n -> copy_dn n src dst m (b16 (dst + i)) = m (b16 (src + i)).
Proof.
  induction n as [|n IH]; intros src dst m i D I; [lia|]. cbn [copy_dn].
  destruct (Z.eq_dec i (Z.of_nat n)) as [->|NI].
  - rewrite copy_dn_frame by (intros j J; zm). apply upd_eq. reflexivity.
  - rewrite IH by lia. apply upd_ne. zm.
Qed.

Lemma copy_up_mod n : forall s s' d d' m, b16 s = b16 s' -> b16 d = b16 d' ->
  copy_up n s d m = copy_up n s' d' m.
Proof.
  induction n as [|n IH]; intros s s' d d' m E F; cbn [copy_up]; auto. rewrite E, F. apply IH; zm.
Qed.
Lemma copy_dn_mod n : forall s s' d d' m, b16 s = b16 s' -> b16 d = b16 d' ->
  copy_dn n s d m = copy_dn n s' d' m.
Proof.
  induction n as [|n IH]; intros s s' d d' m E F; cbn [copy_dn]; auto.
  replace (b16 (s + Z.of_nat n)) with (b16 (s' + Z.of_nat n)) by zm.
  replace (b16 (d + Z.of_nat n)) with (b16 (d' + Z.of_nat n)) by zm. apply IH; auto.
Qed.
(* memories that agree but for the cells of W *)
Definition agree (W : Z -> Prop) (m m' : Z -> Z) : Prop := forall b, ~ W b -> m b = m' b.
Lemma agree_upd W m m' a v v' : agree W m m' -> (~ W a -> v = v') -> agree W (upd m a v) (upd m' a v').
Proof. intros H E b N. unfold upd. destruct (b =? a) eqn:K; zb; [subst; auto|auto]. Qed.
Lemma agree_in (W : Z -> Prop) m m' a v : agree W m m' -> W a -> agree W (upd m a v) m'.
Proof. intros H E b N. rewrite upd_ne; auto. congruence. Qed.
Lemma agree_trans W m m' m'' : agree W m m' -> agree W m' m'' -> agree W m m''.
Proof. intros H H' b N. rewrite H; auto. Qed.
Lemma agree_sym W m m' : agree W m m' -> agree W m' m.
Proof. intros H b N. symmetry. auto. Qed.
Lemma agree_refl W m : agree W m m.
Proof. intros b N. auto. Qed.
Lemma copy_up_agree W n : forall src dst m m', (forall i, 0 <= i < Z.of_nat n -> ~ W (b16 (src + i))) ->
  agree W m m' -> agree W (copy_up n src dst m) (copy_up n src dst m').
Proof.
  induction n as [|n IH]; intros src dst m m' H E; cbn [copy_up]; auto. apply IH.
  - intros i I. rewrite <- Z.add_assoc. apply H. lia.
  - apply agree_upd; auto. intros _. apply E. rewrite <- (Z.add_0_r src). apply H. lia.
Qed.
Lemma copy_dn_agree W n : forall src dst m m', (forall i, 0 <= i < Z.of_nat n -> ~ W (b16 (src + i))) ->
  agree W m m' -> agree W (copy_dn n src dst m) (copy_dn n src dst m').
Proof.
  induction n as [|n IH]; intros src dst m m' H E; cbn [copy_dn]; auto. apply IH.
  - intros i I. apply H. lia.
  - apply agree_upd; auto. intros _. apply E. apply H. lia.
Qed.

Section T.
Variable L : lay.
Hypothesis OK : lay_ok L.
Notation P := (rt L).

(* cells of the copy loop itself *)
Definition loopcell (a : Z) : Prop := 147 <= a < 153.
(* src/interpreter.asm:124-132, with DEY: from Y down to 1 *)
Lemma move_loop_dn k (Q : string -> cpu -> Prop) st r : forall n y a x c z f v m src dst,
  Z.of_nat n = y -> 0 < y < 256 ->
  bytes_in m -> wordat m 147 = src -> wordat m 150 = dst -> m 152 = 136 ->
  (forall i, 0 <= i < Z.of_nat n -> ~ loopcell (b16 (dst + 1 + i))) ->
  (forall a' z' f', 0 <= a' < 256 ->
     wp P k (mkcpu a' x 0 c z' f' v (copy_dn n (src + 1) (dst + 1) m) st r) Q) ->
  wp P (entry P "move_loop") (mkcpu a x y c z f v m (CRet k :: st) r) Q.
Proof.
  induction n as [|n IH]; intros y a x c z f v m src dst EN BY WM ES ED EI H K; [lia|].
  assert (forall b, loopcell b -> upd m (b16 (dst + y)) (m (b16 (src + y))) b = m b) as F.
  { intros b LB. apply upd_ne. intros ->. apply (H (Z.of_nat n)); [lia|]. replace (dst + 1 + Z.of_nat n) with (dst + y) by lia. exact LB. }
  unfold wordat in *. entry_tac. consts. step1. rewrite ES. step1. rewrite ED.
  eapply wp_i; [cbn [exec M]; rewrite F, EI by (unfold loopcell; lia); reflexivity|]. cpu_red.
  rewrite (b8_small (y - 1)) by lia.
  cbn [copy_dn] in K. replace (dst + 1 + Z.of_nat n) with (dst + y) in K by lia.
  replace (src + 1 + Z.of_nat n) with (src + y) in K by lia.
  step1; zb.
  - at_label "move_loop". eapply IH; [| | | | | | |exact K]; try lia.
    + apply bytes_upd; auto.
    + rewrite !F by (unfold loopcell; lia). exact ES.
    + rewrite !F by (unfold loopcell; lia). exact ED.
    + rewrite !F by (unfold loopcell; lia). exact EI.
    + intros i I. apply H. lia.
  - step1. replace n with O in * by lia. rewrite K0. apply K. auto.
Qed.
(* with INY: from Y up to 255 *)
Lemma move_loop_up k (Q : string -> cpu -> Prop) st r : forall n y a x c z f v m src dst,
  Z.of_nat n = 256 - y -> 0 <= y < 256 ->
  bytes_in m -> wordat m 147 = src -> wordat m 150 = dst -> m 152 = 200 ->
  (forall i, 0 <= i < Z.of_nat n -> ~ loopcell (b16 (dst + y + i))) ->
  (forall a' z' f', 0 <= a' < 256 ->
     wp P k (mkcpu a' x 0 c z' f' v (copy_up n (src + y) (dst + y) m) st r) Q) ->
  wp P (entry P "move_loop") (mkcpu a x y c z f v m (CRet k :: st) r) Q.
Proof.
  induction n as [|n IH]; intros y a x c z f v m src dst EN BY WM ES ED EI H K; [lia|].
  assert (forall b, loopcell b -> upd m (b16 (dst + y)) (m (b16 (src + y))) b = m b) as F.
  { intros b LB. apply upd_ne. intros ->. apply (H 0); [lia|]. rewrite Z.add_0_r. exact LB. }
  unfold wordat in *. entry_tac. consts. step1. rewrite ES. step1. rewrite ED.
  eapply wp_i; [cbn [exec M]; rewrite F, EI by (unfold loopcell; lia); reflexivity|]. cpu_red.
  cbn [copy_up] in K. step1; zb.
  - assert (y < 255) by zm. rewrite (b8_small (y + 1)) by lia. rewrite <- !Z.add_assoc in K.
    at_label "move_loop". eapply IH; [| | | | | | |exact K]; try lia.
    + apply bytes_upd; auto.
    + rewrite !F by (unfold loopcell; lia). exact ES.
    + rewrite !F by (unfold loopcell; lia). exact ED.
    + rewrite !F by (unfold loopcell; lia). exact EI.
    + intros i I. replace (dst + (y + 1) + i) with (dst + y + (1 + i)) by lia. apply H. lia.
  - step1. replace n with O in * by zm. rewrite K0. apply K. auto.
Qed.

(* src/interp/move.asm:64-82, the rest of MOVE after the first part of a page *)
Definition move_end (s0 d0 n : Z) (m m' : Z -> Z) : Prop :=
  bytes_in m' /\ m' 142 = m 142 + 2 /\ m' 152 = 136 /\
  agree (fun b => loopcell b \/ b = 142) m' (copy_up (Z.to_nat n) s0 d0 m).
Lemma move_pages (Q : string -> cpu -> Prop) st r : forall p a y c z f v m s0 d0,
  (p <= 255)%nat -> 0 <= a < 256 -> bytes_in m -> wordat m 147 = b16 (s0 - 256) -> wordat m 150 = b16 (d0 - 256) ->
  m 152 = 200 -> m 142 < 254 -> y = 0 ->
  (forall i, 0 <= i < 256 * Z.of_nat p -> ~ loopcell (b16 (s0 + i)) /\ ~ loopcell (b16 (d0 + i)) /\ b16 (d0 + i) <> 142) ->
  (forall s', wf s' -> S s' = st -> rnd s' = r -> move_end s0 d0 (256 * Z.of_nat p) m (M s') -> Q "next_instruction" s') ->
  wp P (entry P "move.cpage") (mkcpu a (b8 (Z.of_nat p + 1)) y c z f v m st r) Q.
Proof.
  induction p as [|p IH]; intros a y c z f v m s0 d0 BP BA WM ES ED EI B2 -> H K;
    pose proof (WM 147); pose proof (WM 148); pose proof (WM 150); pose proof (WM 151); pose proof (WM 142); pose proof (WM 152);
    unfold wordat in *; entry_tac; consts; do 2 (step1; norm);
    set (m1 := upd _ _ _);
    (assert (agree loopcell m1 m) as G1 by (intros b NB; unfold loopcell in NB; unfold m1; norm; reflexivity));
    (assert (wordat m1 147 = b16 s0) as S1 by (unfold wordat, m1; norm; change (147 + 1) with 148 in *; zm));
    (assert (wordat m1 150 = b16 d0) as D1 by (unfold wordat, m1; norm; change (150 + 1) with 151 in *; zm));
    (assert (m1 152 = 200) as I1 by (unfold m1; norm; exact EI));
    (assert (bytes_in m1) as W1 by (unfold m1; bytes_tac)).
  - change (b8 (Z.of_nat 0 + 1)) with 1. step1. change (b8 (1 - 1)) with 0. step1; zb; [lia|].
    do 4 step1. consts. norm. replace (m1 142) with (m 142) by (symmetry; apply G1; unfold loopcell; lia).
    rewrite (b8_small (m 142 + 1)) by lia. apply incsp; cbn [A X Y M S rnd]; consts.
    { unfold wf. cbn [A X Y M S rnd]. repeat split; try lia; bytes_tac. }
    { norm. lia. }
    intros z1 n1. norm. apply K; try reflexivity.
    { unfold wf. cbn [A X Y M S rnd]. repeat split; try lia; bytes_tac. }
    cbn [M]. split; [bytes_tac|]. split; [norm; lia|]. split; [norm; reflexivity|].
    intros b NB. unfold loopcell in NB. norm. cbn [Z.of_nat]. change (Z.to_nat (256 * 0)) with O. cbn [copy_up]. apply G1. unfold loopcell. lia.
  - replace (b8 (Z.of_nat (Datatypes.S p) + 1)) with (b8 (Z.of_nat p + 2)) by (f_equal; lia).
    step1. replace (b8 (b8 (Z.of_nat p + 2) - 1)) with (b8 (Z.of_nat p + 1)) by zm.
    step1; zb; [|zm]. at_label "move.cloop". entry_tac. eapply wp_jsr; [reflexivity|]. cpu_red.
    at_label "move_loop". eapply move_loop_up with (n := 256%nat) (src := b16 s0) (dst := b16 d0); auto; try lia.
    + intros i I. replace (b16 (b16 d0 + 0 + i)) with (b16 (d0 + i)) by zm. apply H. lia.
    + intros a' z' f' BA'. rewrite (copy_up_mod _ _ s0 _ d0) by zm. step1. at_label "move.cpage".
      assert (forall b, loopcell b \/ b = 142 -> copy_up 256 s0 d0 m1 b = m1 b) as FL.
      { intros b LB. apply copy_up_frame. intros i I ->. destruct (H i ltac:(lia)) as (_ & NL & NE). destruct LB; auto. }
      assert (m1 142 = m 142) as E142 by (apply G1; unfold loopcell; lia).
      apply IH with (s0 := s0 + 256) (d0 := d0 + 256); auto; try lia.
      * apply copy_up_bytes. auto.
      * unfold wordat in *. rewrite !FL by (unfold loopcell; lia). rewrite S1. f_equal. lia.
      * unfold wordat in *. rewrite !FL by (unfold loopcell; lia). rewrite D1. f_equal. lia.
      * rewrite FL by (unfold loopcell; lia). exact I1.
      * rewrite FL by auto. lia.
      * intros i I. rewrite <- !Z.add_assoc. apply H. lia.
      * intros s' W' ES' ER' (N1 & N2 & N3 & N4). apply K; auto. split; [auto|]. split; [rewrite N2, FL by auto; lia|].
        split; [auto|]. replace (Z.to_nat (256 * Z.of_nat (Datatypes.S p))) with (256 + Z.to_nat (256 * Z.of_nat p))%nat by lia.
        rewrite copy_up_add. eapply agree_trans; [exact N4|].
        assert (agree loopcell (copy_up 256 s0 d0 m1) (copy_up 256 s0 d0 m)) as G2.
        { apply copy_up_agree; auto. intros i I. apply H. lia. }
        intros b NB. apply (copy_up_agree loopcell); auto.
        intros i I. rewrite <- Z.add_assoc. apply H. lia.
Qed.
(* the value below the top of the stack *)
Definition below (s : cpu) : Z := M s (stack_l + M s sptr + 1) + 256 * M s (stack_h + M s sptr + 1).

(* src/interp/nmove.asm:47-58 *)
Lemma get_ptr k (Q : string -> cpu -> Prop) a x c z f v m st r :
  0 <= a < 256 -> bytes_in m -> 0 <= m 142 < 254 ->
  (forall z' f' m1, bytes_in m1 -> agree loopcell m1 m -> wordat m1 147 = m (1152 + m 142 + 1) + 256 * m (1192 + m 142 + 1) ->
     wordat m1 150 = m (1152 + m 142) + 256 * m (1192 + m 142) -> m1 152 = m 152 ->
     wp P k (mkcpu a x (m 142) c z' f' v m1 st r) Q) ->
  wp P (entry P "move_get_ptr") (mkcpu a x (m 142) c z f v m (CRet k :: st) r) Q.
Proof.
  intros BA WM BS K. entry_tac. consts. change (1152 + 1) with 1153. change (1192 + 1) with 1193.
  replace (1152 + m 142 + 1) with (1153 + m 142) in K by lia. replace (1192 + m 142 + 1) with (1193 + m 142) in K by lia.
  steps. step1. apply K; unfold wordat; norm; auto.
  - bytes_tac.
  - intros b NB. unfold loopcell in NB. norm. reflexivity.
Qed.

Theorem move_ok s : ready s -> M s sptr < 254 ->
  (forall i, 0 <= i < AX s -> ~ loopcell (b16 (below s + i)) /\ ~ loopcell (b16 (top s + i)) /\ b16 (top s + i) <> sptr) ->
  exists s', calls P "EXE_MOVE" s "next_instruction" s' /\
    wf s' /\ M s' sptr = M s sptr + 2 /\ M s' move_ins = 136 /\
    agree (fun a => loopcell a \/ a = sptr) (M s') (copy_up (Z.to_nat (AX s)) (below s) (top s) (M s)) /\
    S s' = S s /\ rnd s' = rnd s.
Proof.
  intros R B H. unfold below in *. start OK s R. consts. pose proof (WM 142).
  set (src := m (1152 + m 142 + 1) + 256 * m (1192 + m 142 + 1)) in *.
  set (dst := m (1152 + m 142) + 256 * m (1192 + m 142)) in *.
  eapply wp_jsr; [reflexivity|]. cpu_red. at_label "move_get_ptr". apply get_ptr; auto; try lia.
  fold src dst. intros z' f' m1 W1 G1 S1 D1 _.
  pose proof (W1 147). pose proof (W1 148). pose proof (W1 150). pose proof (W1 151).
  unfold wordat in S1, D1. change (147 + 1) with 148 in *. change (150 + 1) with 151 in *.
  set (fin_ := fun (x0 : string) (s' : cpu) => _).
  assert (forall m2 cc zz ff vv aa, bytes_in m2 -> agree loopcell m2 m -> wordat m2 147 = b16 (src + a - 256) ->
    wordat m2 150 = b16 (dst + a - 256) ->
    wp P (entry P "move.2") (mkcpu aa (b8 (x + 1)) a cc zz ff vv m2 st r) fin_) as G.
  { intros m2 cc zz ff vv aa W2 G2 S2 D2. entry_tac. consts.
    assert (forall n m3, bytes_in m3 -> m3 142 = m 142 -> agree loopcell m3 (copy_up n src dst m) -> Z.of_nat n = a ->
      forall s', wf s' -> S s' = st -> rnd s' = r -> move_end (src + a) (dst + a) (256 * Z.of_nat (Z.to_nat x)) m3 (M s') -> fin_ "next_instruction" s') as FIN.
    { intros n m3 W3 E3 G3 En s' W' E1 E2 (N1 & N2 & N3 & N4). unfold fin_. consts.
      destruct s' as [a4 x4 y4 c4 z4 n4 v4 m4 st4 r4]. cbn [M S rnd] in *. split; [reflexivity|].
      split; [auto|]. split; [lia|]. split; [auto|]. split; [|auto]. replace (Z.to_nat (a + 256 * x)) with (n + Z.to_nat (256 * x))%nat by lia.
      rewrite copy_up_add. rewrite En. rewrite Z2Nat.id in N4 by lia. eapply agree_trans; [exact N4|].
      intros b NB. apply (copy_up_agree loopcell); auto. intros i I. rewrite <- Z.add_assoc. apply H. lia. }
    do 2 (step1; consts; norm). set (m3 := upd m2 152 200).
    assert (bytes_in m3) as W3 by (unfold m3; bytes_tac).
    assert (agree loopcell m3 m) as G3 by (eapply agree_trans; [|exact G2]; intros b NB; unfold loopcell in NB; unfold m3; norm; reflexivity).
    assert (wordat m3 147 = b16 (src + a - 256)) as S3 by (unfold wordat, m3 in *; norm; auto).
    assert (wordat m3 150 = b16 (dst + a - 256)) as D3 by (unfold wordat, m3 in *; norm; auto).
    assert (m3 152 = 200) as I3 by (unfold m3; norm; auto).
    assert (m3 142 = m 142) as E3 by (apply G3; unfold loopcell; lia).
    step1. step1; zb.
    - at_label "move.cpage". replace (b8 (x + 1)) with (b8 (Z.of_nat (Z.to_nat x) + 1)) by (f_equal; lia).
      eapply move_pages with (s0 := src + a) (d0 := dst + a); auto; try lia.
      + intros i I. rewrite <- !Z.add_assoc. apply H. lia.
      + apply FIN with (n := O); auto.
    - do 3 step1. rewrite lxor_255 by lia. rewrite (b8_small (255 - a + 1)) by lia.
      step1. eapply wp_jsr; [reflexivity|]. cpu_red. at_label "move_loop".
      eapply move_loop_up with (n := Z.to_nat a); [| | |exact S3|exact D3| | |]; auto; try lia.
      + intros i I. replace (b16 (b16 (dst + a - 256) + (255 - a + 1) + i)) with (b16 (dst + i)) by zm. apply H. lia.
      + intros a' z2 f2 BA'. rewrite (copy_up_mod _ _ src _ dst) by zm. step1. at_label "move.cpage".
        assert (forall b, loopcell b \/ b = 142 -> copy_up (Z.to_nat a) src dst m3 b = m3 b) as FL.
        { intros b LB. apply copy_up_frame. intros i I ->. destruct (H i ltac:(lia)) as (_ & NL & NE). destruct LB; auto. }
        replace (b8 (x + 1)) with (b8 (Z.of_nat (Z.to_nat x) + 1)) by (f_equal; lia).
        eapply move_pages with (s0 := src + a) (d0 := dst + a); auto; try lia.
        * apply copy_up_bytes; auto.
        * unfold wordat in *. rewrite !FL by (unfold loopcell; lia). exact S3.
        * unfold wordat in *. rewrite !FL by (unfold loopcell; lia). exact D3.
        * rewrite FL by (unfold loopcell; lia). exact I3.
        * rewrite FL by auto. lia.
        * intros i I. rewrite <- !Z.add_assoc. apply H. lia.
        * apply FIN with (n := Z.to_nat a); try lia.
          -- apply copy_up_bytes; auto.
          -- rewrite FL by auto. lia.
          -- apply copy_up_agree; auto. intros i I. apply H. lia. }
  assert (forall m2 cc zz ff vv aa, bytes_in m2 -> agree loopcell m2 m -> wordat m2 147 = b16 (src + a - 256) ->
    m2 150 = m1 150 -> m2 151 = m1 151 ->
    wp P (entry P "move.1") (mkcpu aa (b8 (x + 1)) a cc zz ff vv m2 st r) fin_) as G0.
  { intros m2 cc zz ff vv aa W2 G2 S2 D2 D2'. entry_tac. consts. step1. step1. step1. step1. norm. rewrite D2.
    step1; zb.
    - at_label "move.2". apply G.
      + bytes_tac.
      + intros b NB. unfold loopcell in NB. norm. apply G2. exact NB.
      + unfold wordat in *. norm. exact S2.
      + unfold wordat. change (150 + 1) with 151. norm. rewrite D2'. zm.
    - step1. norm. step1. at_label "move.2". apply G.
      + bytes_tac.
      + intros b NB. unfold loopcell in NB. norm. apply G2. exact NB.
      + unfold wordat in *. norm. exact S2.
      + unfold wordat. change (150 + 1) with 151. norm. rewrite D2'. zm. }
  step1. step1. step1. step1. step1. norm. step1; zb.
  - at_label "move.1". apply G0; norm; auto.
    + bytes_tac.
    + intros b NB. unfold loopcell in NB. norm. apply G1. exact NB.
    + unfold wordat. change (147 + 1) with 148. norm. zm.
  - step1. norm. step1. at_label "move.1". apply G0; norm; auto.
    + bytes_tac.
    + intros b NB. unfold loopcell in NB. norm. apply G1. exact NB.
    + unfold wordat. change (147 + 1) with 148. norm. zm.
Qed.

(* src/interp/nmove.asm:120-137, both pointers 255 down *)
Lemma nmove_adj (Q : string -> cpu -> Prop) st r a x c z f v m :
  bytes_in m -> 0 <= x < 256 ->
  (forall f' m', bytes_in m' -> agree loopcell m' m -> wordat m' 147 = b16 (wordat m 147 - 255) ->
     wordat m' 150 = b16 (wordat m 150 - 255) -> m' 152 = m 152 ->
     wp P (tl (tl (entry P "nmove.3"))) (mkcpu a (b8 (x - 1)) 255 c (b8 (x - 1) =? 0) f' v m' st r) Q) ->
  wp P (tl (entry P "nmove.cloop")) (mkcpu a x 0 c z f v m st r) Q.
Proof.
  intros WM BX K. pose proof (WM 147); pose proof (WM 148); pose proof (WM 150); pose proof (WM 151).
  assert (forall m2 z2 f2, bytes_in m2 -> agree loopcell m2 m -> wordat m2 147 = b16 (wordat m 147 - 255) ->
     wordat m2 150 = b16 (wordat m 150 - 255) -> m2 152 = m 152 ->
     wp P (entry P "nmove.3") (mkcpu a x 0 c z2 f2 v m2 st r) Q) as G3.
  { intros m2 z2 f2 W2 G2 S2 D2 I2. entry_tac. do 2 step1. change (b8 (0 - 1)) with 255.
    apply K; auto. }
  assert (forall m2 z2 f2, bytes_in m2 -> agree loopcell m2 m -> wordat m2 147 = b16 (wordat m 147 - 255) ->
     m2 150 = m 150 -> m2 151 = m 151 -> m2 152 = m 152 ->
     wp P (entry P "nmove.2") (mkcpu a x 0 c z2 f2 v m2 st r) Q) as G2.
  { intros m2 z2 f2 W2 G2 S2 D2 D2' I2. entry_tac. consts. unfold wordat in *. change (150 + 1) with 151 in *.
    step1. rewrite D2. step1; zb.
    - at_label "nmove.3". apply G3; auto.
      + bytes_tac.
      + intros b NB. unfold loopcell in NB. norm. apply G2. exact NB.
      + norm. rewrite D2'. zm.
    - step1. norm. step1. at_label "nmove.3". apply G3; auto.
      + bytes_tac.
      + intros b NB. unfold loopcell in NB. norm. apply G2. exact NB.
      + norm. rewrite D2'. zm. }
  match goal with |- wp ?P ?k _ _ => let k' := eval cbv [tl entry find_lb find_in rt c_interp c_move_loop c_negax c_addsub c_absneg c_bit
       c_logic c_sgn c_shift c_comp0 c_mul c_div c_for c_for_exit c_incdec c_stack c_peek
       c_const c_varaddr c_varstore c_varadd c_constpoke c_jump c_return c_cmpstr c_copystr c_stridx c_move c_nmove
       String.eqb Ascii.eqb Bool.eqb] in k in change k with k' end.
  consts. unfold wordat in *. change (147 + 1) with 148 in *. step1. step1; zb.
  - at_label "nmove.2". apply G2; norm; auto.
    + bytes_tac.
    + intros b NB. unfold loopcell in NB. norm. reflexivity.
    + zm.
  - step1. norm. step1. at_label "nmove.2". apply G2; norm; auto.
    + bytes_tac.
    + intros b NB. unfold loopcell in NB. norm. reflexivity.
    + zm.
Qed.

(* src/interp/nmove.asm:117-141 *)
Lemma nmove_pages k (Q : string -> cpu -> Prop) st r : forall p a y c z f v m s0 d0,
  (p <= 255)%nat -> 0 < y < 256 -> 0 <= a < 256 -> bytes_in m ->
  wordat m 147 = b16 (s0 + 255 * Z.of_nat p - 1) -> wordat m 150 = b16 (d0 + 255 * Z.of_nat p - 1) ->
  m 152 = 136 ->
  (forall i, 0 <= i < 255 * Z.of_nat p + y -> ~ loopcell (b16 (s0 + i)) /\ ~ loopcell (b16 (d0 + i))) ->
  (forall a' x' y' c' z' f' v' m', 0 <= a' < 256 -> 0 <= x' < 256 -> 0 <= y' < 256 -> bytes_in m' -> m' 152 = 136 ->
     agree loopcell m' (copy_dn (Z.to_nat (255 * Z.of_nat p + y)) s0 d0 m) ->
     wp P k (mkcpu a' x' y' c' z' f' v' m' st r) Q) ->
  wp P (entry P "nmove.cloop") (mkcpu a (b8 (Z.of_nat p + 1)) y c z f v m (CRet k :: st) r) Q.
Proof.
  induction p as [|p IH]; intros a y c z f v m s0 d0 BP BY BA WM ES ED EI H K;
    entry_tac; consts; (eapply wp_jsr; [reflexivity|]); cpu_red; at_label "move_loop";
    (eapply move_loop_dn with (n := Z.to_nat y); [| | |exact ES|exact ED| | |]; auto; try lia).
  - intros i I. replace (b16 (b16 (d0 + 255 * Z.of_nat 0 - 1) + 1 + i)) with (b16 (d0 + i)) by zm. apply H. lia.
  - intros a1 z1 f1 B1. rewrite (copy_dn_mod _ _ s0 _ d0) by zm. set (m1 := copy_dn _ _ _ _).
    assert (m1 152 = m 152) as FL.
    { apply copy_dn_frame. intros i I LB. destruct (H i ltac:(lia)) as (_ & NL). apply NL. rewrite <- LB. unfold loopcell. lia. }
    assert (bytes_in m1) as W1 by (apply copy_dn_bytes; auto).
    lazymatch goal with |- wp _ _ ?s ?Q => change (wp P (tl (entry P "nmove.cloop")) s Q) end.
    apply nmove_adj; auto; [apply b8_range|]. change (b8 (b8 (Z.of_nat 0 + 1) - 1)) with 0.
    intros f' m' W' G' _ _ I'. lazymatch goal with |- wp _ _ ?s ?Q => change (wp P [In (Br NE "nmove.cloop"); Lb "nmove.xit"; In RTS] s Q) end.
    step1; zb; [lia|]. step1. step1. apply K; auto; try lia.
  - intros i I. replace (b16 (b16 (d0 + 255 * Z.of_nat (Datatypes.S p) - 1) + 1 + i)) with (b16 (d0 + (255 * Z.of_nat (Datatypes.S p) + i))) by zm. apply H. lia.
  - intros a1 z1 f1 B1. set (sp := s0 + 255 * Z.of_nat (Datatypes.S p)). set (dp := d0 + 255 * Z.of_nat (Datatypes.S p)).
    rewrite (copy_dn_mod _ _ sp _ dp) by (unfold sp, dp; zm). set (m1 := copy_dn _ _ _ _).
    assert (forall b, loopcell b -> m1 b = m b) as FL.
    { intros b LB. apply copy_dn_frame. intros i I ->. destruct (H (255 * Z.of_nat (Datatypes.S p) + i) ltac:(lia)) as (_ & NL). apply NL.
      unfold dp in LB. rewrite Z.add_assoc. exact LB. }
    assert (bytes_in m1) as W1 by (apply copy_dn_bytes; auto).
    lazymatch goal with |- wp _ _ ?s ?Q => change (wp P (tl (entry P "nmove.cloop")) s Q) end.
    apply nmove_adj; auto; [apply b8_range|].
    replace (b8 (b8 (Z.of_nat (Datatypes.S p) + 1) - 1)) with (b8 (Z.of_nat p + 1)) by zm.
    intros f' m' W' G' S' D' I'. lazymatch goal with |- wp _ _ ?s ?Q => change (wp P [In (Br NE "nmove.cloop"); Lb "nmove.xit"; In RTS] s Q) end.
    unfold wordat in S', D'. rewrite (FL 147), (FL (147 + 1)) in S' by (unfold loopcell; lia).
    rewrite (FL 150), (FL (150 + 1)) in D' by (unfold loopcell; lia). rewrite (FL 152) in I' by (unfold loopcell; lia). unfold wordat in ES, ED. rewrite ES in S'. rewrite ED in D'.
    step1; zb; [|zm]. at_label "nmove.cloop". eapply IH with (s0 := s0) (d0 := d0); auto; try lia.
    + unfold wordat. rewrite S'. zm.
    + unfold wordat. rewrite D'. zm.
    + intros i I. apply H. lia.
    + intros a2 x2 y2 c2 z2 f2 v2 m2 A2 X2 Y2 W2 I2 G2. apply K; auto.
      replace (Z.to_nat (255 * Z.of_nat (Datatypes.S p) + y)) with (Z.to_nat (255 * Z.of_nat p + 255) + Z.to_nat y)%nat by lia.
      rewrite copy_dn_add. replace (s0 + Z.of_nat (Z.to_nat (255 * Z.of_nat p + 255))) with sp by (unfold sp; lia).
      replace (d0 + Z.of_nat (Z.to_nat (255 * Z.of_nat p + 255))) with dp by (unfold dp; lia). fold m1.
      eapply agree_trans; [exact G2|]. apply copy_dn_agree; auto. intros i I. apply H. lia.
Qed.

Definition work (a : Z) : Prop := loopcell a \/ a = tmp3 L.
(* src/interp/nmove.asm:83-116: the pointers to the last block *)
Lemma nmove_go k (Q : string -> cpu -> Prop) st r p y a c z f v m src dst :
  (p <= 255)%nat -> 0 < y < 256 -> 0 <= a < 256 -> bytes_in m -> wordat m 147 = src -> wordat m 150 = dst -> m 152 = 136 ->
  (forall i, 0 <= i < 255 * Z.of_nat p + y -> ~ work (b16 (src + i)) /\ ~ loopcell (b16 (dst + i))) ->
  (forall a' x' y' c' z' f' v' m', 0 <= a' < 256 -> 0 <= x' < 256 -> 0 <= y' < 256 -> bytes_in m' -> m' 152 = 136 ->
     agree work m' (copy_dn (Z.to_nat (255 * Z.of_nat p + y)) src dst m) ->
     wp P k (mkcpu a' x' y' c' z' f' v' m' st r) Q) ->
  wp P (tl (entry P "nmove.1")) (mkcpu a (Z.of_nat p) y c z f v m (CRet k :: st) r) Q.
Proof.
  pose proof OK as (?&?&?&?&?&?&?&?&?&?&?&?&?).
  intros BP BY BA WM ES ED EI NW K. assert (0 <= Z.of_nat p < 256) as BU by lia.
  revert NW K. remember (Z.of_nat p) as u eqn:EU. intros NW K.
  match goal with |- wp ?P ?k _ _ => let k' := eval cbv [tl entry find_lb find_in rt c_interp c_move_loop c_negax c_addsub c_absneg c_bit
       c_logic c_sgn c_shift c_comp0 c_mul c_div c_for c_for_exit c_incdec c_stack c_peek
       c_const c_varaddr c_varstore c_varadd c_constpoke c_jump c_return c_cmpstr c_copystr c_stridx c_move c_nmove
       String.eqb Ascii.eqb Bool.eqb] in k in change k with k' end.
  consts. unfold wordat in ES, ED. change (147 + 1) with 148 in *. change (150 + 1) with 151 in *.
  pose proof (WM 147). pose proof (WM 148). pose proof (WM 150). pose proof (WM 151).
  do 4 (step1; norm).
  do 5 (step1; norm).
  set (m1 := upd _ 148 _).
  assert (bytes_in m1) as W1 by (unfold m1; bytes_tac).
  assert (m1 147 + 256 * m1 148 = b16 (src + 255 * u - 1)) as S1.
  { unfold m1. norm. match goal with |- context [0 <=? ?e] => destruct (0 <=? e) eqn:K1 end; zb; zm. }
  assert (m1 150 = m 150 /\ m1 151 = m 151 /\ m1 (tmp3 L) = u /\ m1 152 = 136) as (D1 & D1' & T1 & I1) by (unfold m1; norm; auto).
  assert (agree work m1 m) as G1 by (intros b NB; unfold work, loopcell, scratch in NB; unfold m1; norm; reflexivity).
  clearbody m1.
  do 3 (step1; norm). rewrite D1, T1.
  do 4 (step1; norm). rewrite D1'.
  set (m2 := upd _ 151 _).
  assert (bytes_in m2) as W2 by (unfold m2; bytes_tac).
  assert (wordat m2 150 = b16 (dst + 255 * u - 1)) as D2.
  { unfold wordat, m2. norm. match goal with |- context [0 <=? ?e] => destruct (0 <=? e) eqn:K1 end; zb; zm. }
  assert (wordat m2 147 = b16 (src + 255 * u - 1)) as S2 by (unfold wordat, m2; norm; exact S1).
  assert (m2 152 = 136) as I2 by (unfold m2; norm; auto).
  assert (agree work m2 m) as G2.
  { eapply agree_trans; [|exact G1]. intros b NB; unfold work, loopcell, scratch in NB; unfold m2; norm; reflexivity. }
  clearbody m2. do 3 step1.
  at_label "nmove.cloop". replace (b8 (b8 (b8 (u - 1) + 1) + 1)) with (b8 (Z.of_nat p + 1)) by zm.
  subst u. eapply nmove_pages with (s0 := src) (d0 := dst); auto; try lia; try apply b8_range.
  - intros i I. split; [|apply NW; lia]. intros F. destruct (NW i I) as (N & _). apply N. left. exact F.
  - intros a' x' y' c' z' f' v' m' BA' BX' BY' W' I' G'. apply K; auto.
    intros b NB. rewrite (G' b) by (intros F; apply NB; left; exact F). apply (copy_dn_agree work); auto.
    intros i I. apply NW. lia.
Qed.
(* the count that is used: from 65281 on the number of blocks does not fit in X *)
Definition nmoved (n : Z) : Z := if n <=? 65280 then n else n - 65280.
(* src/interp/nmove.asm:62-142 *)
Lemma move_dwn_ok k (Q : string -> cpu -> Prop) st r a x y c z f v m src dst :
  0 <= a < 256 -> 0 <= x < 256 -> bytes_in m -> wordat m 147 = src -> wordat m 150 = dst -> m 152 = 136 ->
  (forall i, 0 <= i < nmoved (a + 256 * x) -> ~ work (b16 (src + i)) /\ ~ loopcell (b16 (dst + i))) ->
  (forall a' x' y' c' z' f' v' m', 0 <= a' < 256 -> 0 <= x' < 256 -> 0 <= y' < 256 -> bytes_in m' -> m' 152 = 136 ->
     agree work m' (copy_dn (Z.to_nat (nmoved (a + 256 * x))) src dst m) ->
     wp P k (mkcpu a' x' y' c' z' f' v' m' st r) Q) ->
  wp P (entry P "move_dwn") (mkcpu a x y c z f v m (CRet k :: st) r) Q.
Proof.
  pose proof OK as (?&?&?&?&?&?&?&?&?&?&?&?&?).
  intros Ba Bx W1 S1 D1 I1. remember (nmoved (a + 256 * x)) as n eqn:EN0. unfold nmoved in EN0. intros HH KK.
  entry_tac. consts. pose proof (W1 147). pose proof (W1 148). pose proof (W1 150). pose proof (W1 151).
  unfold wordat in S1, D1. change (147 + 1) with 148 in *. change (150 + 1) with 151 in *.
  do 5 step1. norm.
  set (m2 := upd m (tmp3 L) a).
  assert (bytes_in m2) as W2 by (unfold m2; bytes_tac).
  assert (agree work m2 m) as G2 by (intros b NB; unfold work, loopcell in NB; unfold m2; norm; reflexivity).
  assert (wordat m2 147 = src) as S2 by (unfold wordat, m2; norm; auto).
  assert (wordat m2 150 = dst) as D2 by (unfold wordat, m2; norm; auto).
  assert (m2 152 = 136) as I2 by (unfold m2; norm; auto).
  assert (forall p y aa cc vv ff, (p <= 255)%nat -> 0 <= y < 256 -> 0 <= aa < 256 -> n = 255 * Z.of_nat p + y ->
    (y = 0 -> p = O) -> wp P (entry P "nmove.1") (mkcpu aa (Z.of_nat p) y cc (y =? 0) ff vv m2 (CRet k :: st) r) Q) as G.
  { intros p y0 aa cc vv ff BP BY BA EN PZ. entry_tac. consts. step1; zb.
    - step1. apply KK; auto; try lia.
      rewrite (PZ K) in EN. replace (Z.to_nat n) with O by lia. cbn [copy_dn]. exact G2.
    - lazymatch goal with |- wp _ _ ?s ?Q => change (wp P (tl (entry P "nmove.1")) s Q) end.
      apply nmove_go with (src := src) (dst := dst); auto; try lia.
      + intros i I. apply HH; lia.
      + intros a' x' y' c' z2 f2 v' m' BA' BX' BY' W' I' G'. apply KK; auto.
        rewrite EN. eapply agree_trans; [exact G'|]. apply copy_dn_agree; auto. intros i I. apply HH. lia. }
  step1; zb.
  - at_label "nmove.1". rewrite (b8_small (x + a + 0)) by lia. rewrite <- (Z2Nat.id x) at 2 by lia. apply G; destruct (a + 256 * x <=? 65280) eqn:?; zb; lia.
  - do 2 step1. step1. at_label "nmove.1".
    replace (b8 (b8 (x + a + 0) + 1)) with (x + a - 255) by zm. destruct (a + 256 * x <=? 65280) eqn:EB; zb.
    + replace (b8 (x + 1)) with (Z.of_nat (Z.to_nat (x + 1))) by zm. apply G; try lia. apply b8_range.
    + replace (b8 (x + 1)) with (Z.of_nat 0) by zm. apply G; try lia. apply b8_range.
Qed.
Theorem nmove_all s : ready s -> M s sptr < 254 -> M s move_ins = 136 ->
  (forall i, 0 <= i < nmoved (AX s) -> ~ work (b16 (below s + i)) /\ ~ loopcell (b16 (top s + i)) /\ b16 (top s + i) <> sptr) ->
  exists s', calls P "EXE_NMOVE" s "next_instruction" s' /\
    wf s' /\ M s' sptr = M s sptr + 2 /\ M s' move_ins = 136 /\
    agree (fun a => work a \/ a = sptr) (M s') (copy_dn (Z.to_nat (nmoved (AX s))) (below s) (top s) (M s)) /\
    S s' = S s /\ rnd s' = rnd s.
Proof.
  intros R B MI H. unfold below in *. remember (nmoved (AX s)) as n eqn:EN0. start OK s R. consts. pose proof (WM 142).
  unfold nmoved in EN0.
  set (src := m (1152 + m 142 + 1) + 256 * m (1192 + m 142 + 1)) in *.
  set (dst := m (1152 + m 142) + 256 * m (1192 + m 142)) in *.
  eapply wp_jsr; [reflexivity|]. cpu_red. at_label "move_get_ptr". apply get_ptr; auto; try lia.
  fold src dst. intros z' f' m1 W1 G1 S1 D1 I1. rewrite MI in I1.
  pose proof (W1 147). pose proof (W1 148). pose proof (W1 150). pose proof (W1 151).
  unfold wordat in S1, D1. change (147 + 1) with 148 in *. change (150 + 1) with 151 in *.
  set (fin_ := fun (x0 : string) (s' : cpu) => _).
  assert (forall kk aa xx yy cc zz ff vv m', 0 <= aa < 256 -> 0 <= xx < 256 -> 0 <= yy < 256 -> bytes_in m' -> m' 152 = 136 ->
    m' 142 = m 142 -> agree work m' (copy_dn (Z.to_nat n) src dst m) ->
    wp P (In (JMP "next_ins_incsp_2") :: kk) (mkcpu aa xx yy cc zz ff vv m' st r) fin_) as FIN.
  { intros kk aa xx yy cc zz ff vv m' BA BX BY W' I' E' G'. do 2 step1. consts. rewrite E'. rewrite (b8_small (m 142 + 1)) by lia.
    apply incsp; cbn [A X Y M S rnd]; consts.
    { unfold wf. cbn [A X Y M S rnd]. repeat split; try lia; bytes_tac. }
    { norm. lia. }
    intros z1 n1. norm. unfold fin_. consts. cbn [M S rnd]. split; [reflexivity|].
    split; [unfold wf; cbn [A X Y M S rnd]; repeat split; try lia; bytes_tac|].
    split; [norm; lia|]. split; [norm; auto|]. split; [|auto].
    intros b NB. norm. apply G'. tauto. }
  eapply wp_jsr; [reflexivity|]. cpu_red. at_label "move_dwn".
  assert (m1 142 = m 142) as E1 by (apply G1; unfold loopcell; lia).
  assert (agree work m1 m) as G2 by (intros b NB; apply G1; unfold work in NB; tauto).
  apply move_dwn_ok with (src := src) (dst := dst); auto.
  - intros i I. split; apply H; rewrite EN0; exact I.
  - change (nmoved (a + 256 * x)) with (if a + 256 * x <=? 65280 then a + 256 * x else a + 256 * x - 65280). rewrite <- EN0.
    intros a' x' y' c' z2 f2 v' m' BA' BX' BY' W' I' G'. apply FIN; auto.
    + rewrite (G' 142) by (unfold work, loopcell; lia). rewrite copy_dn_frame, E1; auto. intros i I E. apply (H i); [lia|]. auto.
    + eapply agree_trans; [exact G'|]. apply copy_dn_agree; auto. intros i I. apply H. lia.
Qed.
Theorem nmove_ok s : ready s -> M s sptr < 254 -> M s move_ins = 136 -> AX s <= 65280 ->
  (forall i, 0 <= i < AX s -> ~ work (b16 (below s + i)) /\ ~ loopcell (b16 (top s + i)) /\ b16 (top s + i) <> sptr) ->
  exists s', calls P "EXE_NMOVE" s "next_instruction" s' /\
    wf s' /\ M s' sptr = M s sptr + 2 /\ M s' move_ins = 136 /\
    agree (fun a => work a \/ a = sptr) (M s') (copy_dn (Z.to_nat (AX s)) (below s) (top s) (M s)) /\
    S s' = S s /\ rnd s' = rnd s.
Proof.
  intros R B MI BN H. assert (nmoved (AX s) = AX s) as E by (unfold nmoved; destruct (AX s <=? 65280) eqn:?; zb; lia).
  pose proof (nmove_all s R B MI) as G. rewrite E in G. exact (G H).
Qed.
End T.
