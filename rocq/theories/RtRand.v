(* Random numbers. *)
From Verif Require Export RtFill.

(* the first number below N of the stream of bytes, low byte first; the stream goes on with zeros *)
Fixpoint pick (N : Z) (l : list Z) : Z :=
  match l with
  | lo :: hi :: r => if lo + 256 * hi <? N then lo + 256 * hi else pick N r
  | _ => hd 0 l
  end.
Lemma pick_range N l : Forall (fun b => 0 <= b < 256) l -> 256 <= N -> 0 <= pick N l < N.
Proof.
  intros F B. assert (exists n, (List.length l < n)%nat) as (n & Hn) by (exists (Datatypes.S (List.length l)); lia).
  revert l F Hn. induction n as [|n IH]; intros l F Hn; [lia|].
  destruct l as [|lo [|hi r]]; cbn [pick hd].
  - lia.
  - inversion F; subst. lia.
  - inversion F as [|? ? H1 F1]; subst. inversion F1 as [|? ? H2 F2]; subst.
    destruct (lo + 256 * hi <? N) eqn:E; zb; [lia|]. apply IH; auto. cbn in Hn. lia.
Qed.

Section T.
Variable L : lay.
Hypothesis OK : lay_ok L.
Notation P := (rt L).

(* src/interp/atari/rand.asm:58-63 *)
Lemma rand_scale (Q : string -> cpu -> Prop) st r : forall k a x c z f v m,
  0 <= a < 256 -> bytes_in m -> (0 < k < 256)%nat ->
  (forall a' x' y' c' z' f' v' m', 0 <= a' < 256 -> 0 <= x' < 256 -> 0 <= y' < 256 -> bytes_in m' ->
     (forall b, b <> tmp2 L -> m' b = m b) ->
     a' + 256 * x' = (a + 256 * m (tmp2 L)) / 2 ^ Z.of_nat k ->
     Q "next_instruction" (mkcpu a' x' y' c' z' f' v' m' st r)) ->
  wp P (entry P "rand.scale") (mkcpu a x (Z.of_nat k) c z f v m st r) Q.
Proof.
  pose proof OK as (?&?&_).
  induction k as [|k IH]; intros a x c z f v m BA WM BK K; [lia|].
  entry_tac. consts. pose proof (WM (tmp2 L)).
  assert (HALF : 0 <= a / 2 + 128 * cin (Z.odd (m (tmp2 L))) < 256 /\ 0 <= m (tmp2 L) / 2 < 256 /\
    a / 2 + 128 * cin (Z.odd (m (tmp2 L))) + 256 * (m (tmp2 L) / 2) = (a + 256 * m (tmp2 L)) / 2).
  { pose proof (Zmod_odd (m (tmp2 L))) as O. unfold cin. destruct (Z.odd _); Z.div_mod_to_equations; lia. }
  destruct HALF as (H2 & H3 & H4). step1. step1. step1. rewrite (b8_small (Z.of_nat (Datatypes.S k) - 1)) by lia.
  assert (bytes_in (upd m (tmp2 L) (m (tmp2 L) / 2))) as W1 by (apply bytes_upd; auto).
  step1; zb.
  - at_label "rand.scale". replace (Z.of_nat (Datatypes.S k) - 1) with (Z.of_nat k) by lia. apply IH; auto; [lia|].
    intros a' x' y' c' z' f' v' m' Ba Bx By W' F' E'. apply K; auto.
    + intros b NB. rewrite F' by exact NB. norm. reflexivity.
    + rewrite E'. rewrite upd_eq by reflexivity. rewrite Nat2Z.inj_succ, Z.pow_succ_r, <- Z.div_div by lia. f_equal. exact H4.
  - assert (k = O) as -> by lia. step1. rewrite upd_eq by reflexivity. step1. apply K; auto; try lia.
    intros b NB. norm. reflexivity.
Qed.

(* src/interp/atari/rand.asm:48-56 *)
Lemma rand_retry (Q : string -> cpu -> Prop) st N k : 32768 <= N < 65536 -> (0 < k < 256)%nat ->
  forall n r a x c z f v m, (List.length r < n)%nat -> Forall (fun b => 0 <= b < 256) r ->
  bytes_in m -> wordat m (tmp1 L) = N ->
  (forall a' x' y' c' z' f' v' m' r', 0 <= a' < 256 -> 0 <= x' < 256 -> 0 <= y' < 256 -> bytes_in m' ->
     (forall b, b <> tmp2 L -> m' b = m b) ->
     a' + 256 * x' = pick N r / 2 ^ Z.of_nat k ->
     Q "next_instruction" (mkcpu a' x' y' c' z' f' v' m' st r')) ->
  wp P (entry P "rand.retry") (mkcpu a x (Z.of_nat k) c z f v m st r) Q.
Proof.
  pose proof OK as (?&?&_). intros BN BK.
  induction n as [|n IH]; intros r a x c z f v m LE FB WM EN K; [lia|].
  assert (0 <= hd 0 r < 256 /\ 0 <= hd 0 (tl r) < 256) as (B1 & B2).
  { destruct r as [|lo [|hi r]]; cbn [hd tl]; [lia|inversion FB; subst; lia|].
    inversion FB as [|? ? Ha Fb]; subst. inversion Fb; subst. lia. }
  entry_tac. consts. pose proof (WM (tmp1 L)). pose proof (WM (tmp1 L + 1)). unfold wordat in EN.
  step1. step1. step1. step1. norm. step1.
  set (lo := hd 0 r) in *. set (hi := hd 0 (tl r)) in *.
  assert (bytes_in (upd m (tmp2 L) hi)) as W1 by (apply bytes_upd; auto).
  norm. match goal with |- context [0 <=? ?e] => assert ((0 <=? e) = negb (lo + 256 * hi <? N)) as EC end.
  { unfold cin. destruct (m (tmp1 L) <=? lo) eqn:E1, (lo + 256 * hi <? N) eqn:E2; cbn [negb]; zb;
    try (apply Z.leb_le; lia); try (apply Z.leb_gt; lia). }
  rewrite EC. destruct (lo + 256 * hi <? N) eqn:E2; cbn [negb] in *; zb; step1; try discriminate.
  - step1. step1. at_label "rand.scale". apply rand_scale; auto.
    intros a' x' y' c' z' f' v' m' Ba Bx By W' F' E'. apply K; auto.
    + intros b NB. rewrite F' by exact NB. norm. reflexivity.
    + rewrite E'. rewrite upd_eq by reflexivity. f_equal.
      destruct r as [|l0 [|h0 r]]; cbn [pick hd tl] in *; subst lo hi; cbn [pick hd tl] in *; try lia.
      destruct (l0 + 256 * h0 <? N) eqn:?; zb; lia.
  - destruct r as [|l0 [|h0 r]]; cbn [pick hd tl] in *; subst lo hi; cbn [hd tl] in *; try lia.
    at_label "rand.retry". apply IH; auto.
    + cbn in LE. lia.
    + inversion FB as [|? ? ? F1]; subst. inversion F1; subst; auto.
    + unfold wordat. norm. exact EN.
    + intros a' x' y' c' z' f' v' m' r' Ba Bx By W' F' E'. apply K; auto.
      * intros b NB. rewrite F' by exact NB. norm. reflexivity.
      * destruct (l0 + 256 * h0 <? N) eqn:?; zb; [lia|]. exact E'.
Qed.

(* the number of places [n] is moved to the left, so that its top bit is the highest of the word *)
Definition places (n : Z) : Z := 15 - Z.log2 n.
Lemma places_spec n : 0 < n < 32768 -> 1 <= places n <= 15 /\ 32768 <= n * 2 ^ places n < 65536.
Proof.
  intros B. unfold places. pose proof (Z.log2_spec n ltac:(lia)) as (H1 & H2).
  assert (0 <= Z.log2 n < 15) by (split; [apply Z.log2_nonneg|apply Z.log2_lt_pow2; lia]).
  split; [lia|]. change 32768 with (2 ^ 15). change 65536 with (2 ^ 16).
  replace (2 ^ 15) with (2 ^ Z.log2 n * 2 ^ (15 - Z.log2 n)) by (rewrite <- Z.pow_add_r by lia; f_equal; lia).
  replace (2 ^ 16) with (2 ^ Z.succ (Z.log2 n) * 2 ^ (15 - Z.log2 n)) by (rewrite <- Z.pow_add_r by lia; f_equal; lia).
  assert (0 < 2 ^ (15 - Z.log2 n)) by (apply Z.pow_pos_nonneg; lia). nia.
Qed.

Theorem rand_ok s : ready s -> 1 <= AX s <= 32767 -> Forall (fun b => 0 <= b < 256) (rnd s) ->
  exists s', calls P "EXE_RAND" s "next_instruction" s' /\ wf s' /\
    AX s' = pick (AX s * 2 ^ places (AX s)) (rnd s) / 2 ^ places (AX s) /\
    (forall b, ~ scratch L b -> M s' b = M s b) /\ S s' = S s.
Proof.
  intros R B FB. pose proof (places_spec (AX s) ltac:(lia)) as (PB & PN). set (n := AX s) in *.
  assert (Z.log2 n = 15 - places n) as LG by (unfold places; lia). set (w := places n) in *.
  assert (n < 2 ^ (16 - w) /\ 2 ^ (15 - w) <= n) as (LG1 & LG2).
  { pose proof (Z.log2_spec n ltac:(lia)) as (H1 & H2). rewrite LG in *. replace (Z.succ (15 - w)) with (16 - w) in H2 by lia. auto. }
  start OK s R. consts. step1. step1.
  set (Q := fun (x0 : string) (s' : cpu) => _).
  assert (forall d k a' x' c' z' f' v' m', 0 <= k -> k + Z.of_nat d + 1 = w -> 0 <= a' < 256 -> bytes_in m' ->
     (forall b, b <> tmp1 L + 1 -> m' b = m b) -> a' + 256 * m' (tmp1 L + 1) = n * 2 ^ k ->
     wp P (entry P "rand.get_l") (mkcpu a' x' k c' z' f' v' m' st r) Q) as GO.
  { induction d as [|d IH]; intros k a' x' c' z' f' v' m' BK EK BA W' F' E'; entry_tac; consts;
    pose proof (W' (tmp1 L + 1));
    (assert (n * 2 ^ (k + 1) = 2 * (n * 2 ^ k)) as P2 by (rewrite Z.pow_add_r by lia; lia));
    step1; (rewrite (b8_small (k + 1)) by lia); step1; (replace (16 <=? k + 1) with false by (symmetry; apply Z.leb_gt; lia));
    step1; step1; cbn [cin].
    - assert (k + 1 = w) as EY by lia. rewrite EY in *. set (h := b8 (2 * m' (tmp1 L + 1) + _)).
      assert (b8 (2 * a' + 0) + 256 * h = n * 2 ^ w /\ 0 <= h < 256) as (HE & HB)
        by (unfold h; destruct (128 <=? a') eqn:?; zb; zm).
      step1; zb; [pose proof (b8_range (2 * a' + 0)); lia|]. step1. step1. at_label "rand.retry".
      rewrite <- (Z2Nat.id w) by lia.
      eapply rand_retry with (N := n * 2 ^ w) (n := Datatypes.S (List.length r)); auto; try lia; [bytes_tac|unfold wordat; norm; exact HE|].
      intros a1 x1 y1 c1 z1 f1 v1 m1 r1 Ba Bx By W1 F1 E1. rewrite Z2Nat.id in E1 by lia.
      unfold Q. split; [reflexivity|]. split; [apply wf_intro; auto|]. split; [exact E1|]. split; [|reflexivity].
      cbn [M]. intros b NB. unfold scratch in NB. rewrite F1 by lia. norm. apply F'. lia.
    - assert (n * 2 ^ (k + 1) < 32768) as SM.
      { assert (2 ^ (k + 1) <= 2 ^ (w - 1)) by (apply Z.pow_le_mono_r; lia).
        assert (2 ^ w = 2 * 2 ^ (w - 1)) by (rewrite <- Z.pow_succ_r by lia; f_equal; lia). nia. }
      set (h := b8 (2 * m' (tmp1 L + 1) + _)).
      assert (b8 (2 * a' + 0) + 256 * h = n * 2 ^ (k + 1) /\ 0 <= h < 256) as (HE & HB)
        by (unfold h; destruct (128 <=? a') eqn:?; zb; zm).
      step1; zb; [|pose proof (b8_range (2 * a' + 0)); lia].
      at_label "rand.get_l". apply IH; auto; try lia; [apply b8_range|bytes_tac|intros b NB; norm; auto|norm; exact HE]. }
  step1. at_label "rand.get_l". apply (GO (Z.to_nat (w - 1))); try lia; [bytes_tac|intros b NB; norm; reflexivity|].
  norm. change (2 ^ 0) with 1. unfold n. lia.
Qed.

(* RAND(0): ones are shifted in from the 16th place on, and everything is shifted out. *)
Definition ones (k : Z) : Z := if k <=? 15 then 0 else 2 ^ (k - 15) - 1.
Lemma ones_next k : 0 <= k -> ones (k + 1) = 2 * ones k + (if 16 <=? k + 1 then 1 else 0).
Proof.
  intros K. unfold ones. destruct (Z.leb_spec (k + 1) 15); destruct (Z.leb_spec k 15); destruct (Z.leb_spec 16 (k + 1)); try lia.
  - assert (k = 15) as -> by lia. reflexivity.
  - replace (k + 1 - 15) with (Z.succ (k - 15)) by lia. rewrite Z.pow_succ_r by lia. lia.
Qed.
Lemma ones_low k : 0 <= k < 31 -> 0 <= ones k < 32768.
Proof.
  intros K. unfold ones. destruct (Z.leb_spec k 15); [lia|]. pose proof (Z.pow_le_mono_r 2 (k - 15) 15 ltac:(lia) ltac:(lia)).
  pose proof (Z.pow_pos_nonneg 2 (k - 15) ltac:(lia) ltac:(lia)). change (2 ^ 15) with 32768 in *. lia.
Qed.
Theorem rand_zero s : ready s -> AX s = 0 -> Forall (fun b => 0 <= b < 256) (rnd s) ->
  exists s', calls P "EXE_RAND" s "next_instruction" s' /\ wf s' /\ AX s' = 0 /\
    (forall b, ~ scratch L b -> M s' b = M s b) /\ S s' = S s.
Proof.
  intros R B FB. start OK s R. consts. unfold AX in B. cbn [A X] in B.
  set (Q := fun (x0 : string) (s' : cpu) => _).
  assert (forall d k a' x' c' z' f' v' m', 0 <= k -> k + Z.of_nat d + 1 = 31 -> 0 <= a' < 256 -> bytes_in m' ->
     (forall b, b <> tmp1 L + 1 -> m' b = m b) -> a' + 256 * m' (tmp1 L + 1) = ones k ->
     wp P (entry P "rand.get_l") (mkcpu a' x' k c' z' f' v' m' st r) Q) as GO.
  { induction d as [|d IH]; intros k a' x' c' z' f' v' m' BK EK BA W' F' E'; entry_tac; consts;
    pose proof (W' (tmp1 L + 1)); pose proof (ones_next k BK) as P2; pose proof (ones_low k ltac:(lia)) as PL;
    step1; (rewrite (b8_small (k + 1)) by lia); step1; step1; step1; cbn [cin];
    set (e := if 16 <=? k + 1 then 1 else 0) in *; assert (0 <= e <= 1) as BE by (unfold e; destruct (16 <=? k + 1); lia).
    - assert (k = 30) as -> by lia. change (ones 30) with 32767 in *. change (ones (30 + 1)) with 65535 in *. change (30 + 1) with 31 in *. unfold e in *. change (16 <=? 31) with true in *. cbv iota in *.
      set (h := b8 (2 * m' (tmp1 L + 1) + _)).
      assert (b8 (2 * a' + 1) + 256 * h = 65535 /\ 0 <= h < 256) as (HE & HB)
        by (unfold h; destruct (128 <=? a') eqn:?; zb; zm).
      step1; zb; [pose proof (b8_range (2 * a' + 1)); lia|]. step1. step1. at_label "rand.retry".
      change 31 with (Z.of_nat 31).
      eapply rand_retry with (N := 65535) (n := Datatypes.S (List.length r)); auto; try lia; [bytes_tac|unfold wordat; norm; exact HE|].
      intros a1 x1 y1 c1 z1 f1 v1 m1 r1 Ba Bx By W1 F1 E1.
      pose proof (pick_range 65535 r FB ltac:(lia)) as PR. change (Z.of_nat 31) with 31 in E1.
      rewrite Z.div_small in E1 by (change (2 ^ 31) with 2147483648; lia).
      unfold Q. split; [reflexivity|]. split; [apply wf_intro; auto|]. split; [exact E1|]. split; [|reflexivity].
      cbn [M]. intros b NB. unfold scratch in NB. rewrite F1 by lia. norm. apply F'. lia.
    - pose proof (ones_low (k + 1) ltac:(lia)) as SM.
      set (h := b8 (2 * m' (tmp1 L + 1) + _)).
      assert (b8 (2 * a' + e) + 256 * h = ones (k + 1) /\ 0 <= h < 256) as (HE & HB)
        by (unfold h; destruct (128 <=? a') eqn:?; zb; zm).
      step1; zb; [|pose proof (b8_range (2 * a' + e)); lia].
      at_label "rand.get_l". apply IH; auto; try lia; [apply b8_range|bytes_tac|intros b NB; norm; auto|norm; exact HE]. }
  step1. step1. step1. at_label "rand.get_l". apply (GO 30%nat); try lia; [bytes_tac|intros b NB; norm; reflexivity|].
  norm. change (ones 0) with 0. lia.
Qed.
End T.
