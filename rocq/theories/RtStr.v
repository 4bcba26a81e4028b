(* Strings: comparison, copy, concatenation, part of a string. *)
From Verif Require Export RtMem.

(* the string at an address, and the order of strings *)
Definition str_at (m : Z -> Z) (p : Z) : list Z :=
  map (fun i => m (p + 1 + Z.of_nat i)) (seq 0 (Z.to_nat (m p))).
Fixpoint lex (a b : list Z) : comparison :=
  match a, b with
  | [], [] => Datatypes.Eq
  | [], _ :: _ => Datatypes.Lt
  | _ :: _, [] => Datatypes.Gt
  | x :: a, y :: b => match x ?= y with Datatypes.Eq => lex a b | c => c end
  end.

Lemma lex_skip k : forall a b, (k <= List.length a)%nat -> (k <= List.length b)%nat ->
  firstn k a = firstn k b -> lex a b = lex (skipn k a) (skipn k b).
Proof.
  induction k as [|k IH]; intros a b La Lb E; [reflexivity|].
  destruct a as [|x a], b as [|y b]; cbn in La, Lb; try lia. cbn in E. injection E as <- E.
  cbn. rewrite Z.compare_refl. apply IH; auto; lia.
Qed.
Lemma seq_firstn k a n : (k <= n)%nat -> firstn k (seq a n) = seq a k.
Proof.
  revert a k. induction n as [|n IH]; intros a k LE; [replace k with O by lia; reflexivity|].
  destruct k as [|k]; [reflexivity|]. cbn. f_equal. apply IH. lia.
Qed.
Lemma seq_skipn k a n : (k <= n)%nat -> skipn k (seq a n) = seq (a + k) (n - k).
Proof.
  revert a k. induction n as [|n IH]; intros a k LE; [replace k with O by lia; reflexivity|].
  destruct k as [|k]; [cbn [skipn]; f_equal; lia|].
  cbn [skipn seq]. rewrite IH by lia. f_equal; lia.
Qed.
Lemma str_len m p : List.length (str_at m p) = Z.to_nat (m p).
Proof. unfold str_at. rewrite map_length, seq_length. reflexivity. Qed.
Lemma str_same m m' p q : m' q = m p -> (forall i, 1 <= i <= m p -> m' (q + i) = m (p + i)) ->
  str_at m' q = str_at m p.
Proof.
  intros E0 E. unfold str_at. rewrite E0. apply map_ext_in. intros i I%in_seq.
  rewrite <- !Z.add_assoc. apply E. lia.
Qed.
(* the bytes from the k-th on *)
Lemma str_skip m p k : 0 <= k <= m p ->
  skipn (Z.to_nat k) (str_at m p) = map (fun i => m (p + 1 + Z.of_nat i)) (seq (Z.to_nat k) (Z.to_nat (m p) - Z.to_nat k)).
Proof. intros B. unfold str_at. rewrite skipn_map, seq_skipn by lia. reflexivity. Qed.
Lemma str_eq_skip m p q k : 0 <= k <= m p -> k <= m q -> (forall i, 1 <= i <= k -> m (p + i) = m (q + i)) ->
  lex (str_at m p) (str_at m q) = lex (skipn (Z.to_nat k) (str_at m p)) (skipn (Z.to_nat k) (str_at m q)).
Proof.
  intros B1 B2 E. apply lex_skip; [rewrite str_len; lia..|].
  unfold str_at. rewrite !firstn_map, !seq_firstn by lia. apply map_ext_in. intros i I%in_seq.
  rewrite <- !Z.add_assoc. apply E. lia.
Qed.
Lemma lex_differ m p q k : 0 <= k < m p -> k < m q -> (forall i, 1 <= i <= k -> m (p + i) = m (q + i)) ->
  m (p + (k + 1)) <> m (q + (k + 1)) ->
  lex (str_at m p) (str_at m q) = (m (p + (k + 1)) ?= m (q + (k + 1))).
Proof.
  intros B1 B2 E N. rewrite (str_eq_skip m p q k) by (auto; lia). rewrite !str_skip by lia.
  replace (Z.to_nat (m p) - Z.to_nat k)%nat with (Datatypes.S (Z.to_nat (m p) - Z.to_nat k - 1)) by lia.
  replace (Z.to_nat (m q) - Z.to_nat k)%nat with (Datatypes.S (Z.to_nat (m q) - Z.to_nat k - 1)) by lia.
  cbn [seq map lex]. replace (p + 1 + Z.of_nat (Z.to_nat k)) with (p + (k + 1)) by lia.
  replace (q + 1 + Z.of_nat (Z.to_nat k)) with (q + (k + 1)) by lia.
  destruct (_ ?= _) eqn:K; auto. apply Z.compare_eq in K. contradiction.
Qed.
Lemma lex_end m p q : 0 <= m p -> 0 <= m q -> (forall i, 1 <= i <= Z.min (m p) (m q) -> m (p + i) = m (q + i)) ->
  lex (str_at m p) (str_at m q) = (m p ?= m q).
Proof.
  intros B1 B2 E. rewrite (str_eq_skip m p q (Z.min (m p) (m q))) by (auto; lia). rewrite !str_skip by lia.
  destruct (Z.compare_spec (m p) (m q)) as [K|K|K].
  - replace (_ - _)%nat with O by lia. replace (Z.to_nat (m q) - _)%nat with O by lia. reflexivity.
  - replace (Z.to_nat (m p) - _)%nat with O by lia.
    replace (Z.to_nat (m q) - _)%nat with (Datatypes.S (Z.to_nat (m q) - Z.to_nat (m p) - 1)) by lia. reflexivity.
  - replace (Z.to_nat (m q) - _)%nat with O by lia.
    replace (Z.to_nat (m p) - _)%nat with (Datatypes.S (Z.to_nat (m p) - Z.to_nat (m q) - 1)) by lia. reflexivity.
Qed.

Section T.
Variable L : lay.
Hypothesis OK : lay_ok L.
Notation P := (rt L).

(* the cells of a string are not those the routine writes *)
Definition apart_from (m : Z -> Z) (p : Z) (w : Z -> Prop) : Prop :=
  0 <= p /\ p + m p < 65536 /\ forall i, 0 <= i <= m p -> ~ w (p + i).

(* the end of the comparison: X has the result *)
Lemma cmp_xit a x y c z n v m st r (Q : string -> cpu -> Prop) :
  0 <= x < 256 -> bytes_in m -> 0 <= m 142 < 255 ->
  (forall c' z' n' v' y', 0 <= y' < 256 -> Q "next_instruction" (mkcpu 0 0 y' c' z' n' v'
     (upd (upd (upd (upd m 142 (m 142 + 1)) (1152 + m 142) x) (1192 + m 142) x) 142 (m 142)) st r)) ->
  wp P (entry P "cmpstr.xit") (mkcpu a x y c z n v m st r) Q.
Proof.
  intros BX WM BS H. entry_tac. consts. steps. rewrite (b8_small (m 142 + 1)) by lia.
  step1. steps. step1. steps.
  replace (1152 - 1 + (m 142 + 1)) with (1152 + m 142) by lia.
  replace (1192 - 1 + (m 142 + 1)) with (1192 + m 142) by lia.
  rewrite (b8_small (m 142 + 1 - 1)) by lia. replace (m 142 + 1 - 1) with (m 142) by lia. step1. steps. step1.
  apply H. lia.
Qed.

Definition xcode (c : comparison) : Z :=
  match c with Datatypes.Eq => 0 | Datatypes.Lt => 255 | Datatypes.Gt => 1 end.
Lemma cmp_loop m st r p q (Q : string -> cpu -> Prop) :
  bytes_in m -> 0 <= m 142 < 255 -> wordat m (tmp1 L) = p -> wordat m (tmp2 L) = q ->
  p + m p < 65536 -> q + m q < 65536 -> m (tmp3 L) = Z.min (m p) (m q) ->
  (forall c' z' n' v' y', 0 <= y' < 256 -> Q "next_instruction" (mkcpu 0 0 y' c' z' n' v'
     (upd (upd (upd (upd m 142 (m 142 + 1)) (1152 + m 142) (xcode (lex (str_at m q) (str_at m p))))
        (1192 + m 142) (xcode (lex (str_at m q) (str_at m p)))) 142 (m 142)) st r)) ->
  forall d k a c z n v, 0 <= k <= Z.min (m p) (m q) -> Z.min (m p) (m q) = k + Z.of_nat d ->
  (forall i, 1 <= i <= k -> m (q + i) = m (p + i)) ->
  wp P (entry P "cmpstr.next_char") (mkcpu a (xcode (m q ?= m p)) k c z n v m st r) Q.
Proof.
  intros WM BS Ep Eq_ Bp Bq E3 H.
  assert (forall c, 0 <= xcode c < 256) as XR by (intros []; cbn; lia).
  pose proof (WM p). pose proof (WM q). unfold wordat in Ep, Eq_.
  assert (0 <= p /\ 0 <= q) as (P0 & Q0).
  { pose proof (WM (tmp1 L)). pose proof (WM (tmp1 L + 1)). pose proof (WM (tmp2 L)). pose proof (WM (tmp2 L + 1)). lia. }
  induction d as [|d IH]; intros k a c z n v BK ED PE; entry_tac; consts.
  - step1. rewrite E3. step1; zb; [|zm].
    at_label "cmpstr.xit". apply cmp_xit; auto.
    rewrite <- (lex_end m q p) by (try lia; intros; apply PE; lia). exact H.
  - step1. rewrite E3. step1; zb; [zm|]. step1. rewrite (b8_small (k + 1)) by lia.
    step1. rewrite Ep. norm. step1. rewrite Eq_. norm.
    pose proof (WM (p + (k + 1))). pose proof (WM (q + (k + 1))).
    step1; zb.
    + at_label "cmpstr.next_char". apply IH; try lia. intros i I. destruct (Z.eq_dec i (k + 1)) as [->|]; [|apply PE; lia].
      zm.
    + step1. step1; zb.
      * at_label "cmpstr.xit". apply cmp_xit; auto; [lia|].
        rewrite (lex_differ m q p k) in H by (try lia; auto; intros E; apply K0; rewrite E; zm).
        replace (_ ?= _) with Datatypes.Gt in H; [exact H|]. symmetry. apply Z.compare_gt_iff. lia.
      * step1. step1. at_label "cmpstr.xit". apply cmp_xit; auto; [lia|].
        assert (m (q + (k + 1)) <> m (p + (k + 1))) as NE by (intros E; apply K0; rewrite E; zm).
        rewrite (lex_differ m q p k) in H by (try lia; auto).
        replace (_ ?= _) with Datatypes.Lt in H; [exact H|]. symmetry. apply Z.compare_lt_iff. lia.
Qed.

(* Comparison of the string on the stack with the one in AX: the stack gets a number below, equal
   or above 0, to be compared with the 0 left in AX. *)
Theorem cmp_str_ok s : ready s -> M s sptr < 40 ->
  apart_from (M s) (top s) (scratch L) -> apart_from (M s) (AX s) (scratch L) ->
  exists s', calls P "EXE_CMP_STR" s "next_instruction" s' /\
    AX s' = 0 /\ wf s' /\ M s' sptr = M s sptr /\
    signed (top s') = match lex (str_at (M s) (top s)) (str_at (M s) (AX s)) with
                      | Datatypes.Lt => -1 | Datatypes.Eq => 0 | Datatypes.Gt => 257 end /\
    (forall a, a <> stack_l + M s sptr -> a <> stack_h + M s sptr -> ~ scratch L a -> M s' a = M s a) /\
    S s' = S s /\ rnd s' = rnd s.
Proof.
  intros R B A1 A2. start OK s R. destruct A1 as (Q0 & Q1 & Q2), A2 as (P0 & P1 & P2).
  set (p := a + 256 * x) in *. set (q := m (1152 + m 142) + 256 * m (1192 + m 142)) in *.
  do 6 (step1; consts; norm).
  set (m1 := upd _ _ _).
  assert (bytes_in m1) as W1 by (unfold m1; bytes_tac).
  assert (forall b, ~ scratch L b -> m1 b = m b) as F1 by (intros b NB; unfold scratch in NB; unfold m1; norm; reflexivity).
  assert (wordat m1 (tmp1 L) = p) as E1 by (unfold wordat, m1, p; norm; reflexivity).
  assert (wordat m1 (tmp2 L) = q) as E2 by (unfold wordat, m1, q; norm; reflexivity).
  assert (m1 p = m p) as Ep by (rewrite F1; auto; rewrite <- (Z.add_0_r p); apply P2; pose proof (WM p); lia).
  assert (m1 q = m q) as Eq_ by (rewrite F1; auto; rewrite <- (Z.add_0_r q); apply Q2; pose proof (WM q); lia).
  assert (m1 142 = m 142) as Es by (apply F1; unfold scratch; lia).
  assert (str_at m1 p = str_at m p) as Sp by (apply str_same; auto; intros; apply F1, P2; lia).
  assert (str_at m1 q = str_at m q) as Sq by (apply str_same; auto; intros; apply F1, Q2; lia).
  pose proof (WM p). pose proof (WM q). pose proof (WM 142).
  do 2 (step1; consts). step1. unfold wordat in E1, E2. rewrite E1, b16_small, Z.add_0_r by lia.
  step1. rewrite E2, b16_small, Z.add_0_r by lia. rewrite Ep, Eq_.
  set (m2 := upd m1 (tmp3 L) (Z.min (m p) (m q))).
  assert (forall b, ~ scratch L b -> m2 b = m1 b) as F2 by (intros b NB; unfold scratch in NB; unfold m2; norm; reflexivity).
  assert (forall b, ~ scratch L b -> m2 b = m b) as F3 by (intros; rewrite F2, F1 by auto; reflexivity).
  assert (m2 p = m p) as Ep2 by (rewrite F2; auto; rewrite <- (Z.add_0_r p); apply P2; lia).
  assert (m2 q = m q) as Eq2 by (rewrite F2; auto; rewrite <- (Z.add_0_r q); apply Q2; lia).
  assert (str_at m2 p = str_at m p) as Sp2 by (apply str_same; auto; intros; apply F3, P2; lia).
  assert (str_at m2 q = str_at m q) as Sq2 by (apply str_same; auto; intros; apply F3, Q2; lia).
  assert (bytes_in m2) as W2 by (unfold m2; bytes_tac).
  assert (forall a1 c1 z1 n1 v1, wp P (entry P "cmpstr.next_char")
    (mkcpu a1 (xcode (m q ?= m p)) 0 c1 z1 n1 v1 m2 st r)
    (fun y s' => y = "next_instruction" /\ AX s' = 0 /\ wf s' /\ M s' 142 = m 142 /\
    signed (top s') = match lex (str_at m q) (str_at m p) with
                      | Datatypes.Lt => -1 | Datatypes.Eq => 0 | Datatypes.Gt => 257 end /\
    (forall a, a <> 1152 + m 142 -> a <> 1192 + m 142 -> ~ scratch L a -> M s' a = m a) /\
    S s' = st /\ rnd s' = r)) as G.
  { intros. rewrite <- Ep2 at 1. rewrite <- Eq2 at 1.
    apply cmp_loop with (d := Z.to_nat (Z.min (m p) (m q))); auto; try lia.
    - unfold m2. norm. lia.
    - unfold wordat, m2. norm. exact E1.
    - unfold wordat, m2. norm. exact E2.
    - rewrite Ep2, Eq2. unfold m2. norm. reflexivity.
    - rewrite Sp2, Sq2. intros. set (xc := xcode _).
      assert (0 <= xc < 256) as XR by (unfold xc; destruct (lex _ _); cbn; lia).
      assert (m2 142 = m 142) as Es2 by (apply F3; unfold scratch; lia). rewrite Es2.
      split; [reflexivity|]. unfold AX, top, wf. cbn [A X Y M S rnd]. consts.
      split; [reflexivity|]. split; [repeat split; try lia; bytes_tac|]. split; [norm; reflexivity|].
      split; [norm; unfold xc; destruct (lex _ _); reflexivity|]. split; [|auto].
      intros b N1 N2 N3. destruct (Z.eq_dec b 142) as [->|]; [norm; reflexivity|]. norm. apply F3, N3. }
  assert (forall w x1, w = Z.min (m p) (m q) -> x1 = xcode (m q ?= m p) -> forall a1 c1 z1 n1 v1 (Q : string -> cpu -> Prop),
    (forall y s', (y = "next_instruction" /\ AX s' = 0 /\ wf s' /\ M s' 142 = m 142 /\
    signed (top s') = match lex (str_at m q) (str_at m p) with
                      | Datatypes.Lt => -1 | Datatypes.Eq => 0 | Datatypes.Gt => 257 end /\
    (forall a, a <> 1152 + m 142 -> a <> 1192 + m 142 -> ~ scratch L a -> M s' a = m a) /\
    S s' = st /\ rnd s' = r) -> Q y s') ->
    wp P (entry P "cmpstr.next_char") (mkcpu a1 x1 0 c1 z1 n1 v1 (upd m1 (tmp3 L) w) st r) Q) as G2.
  { intros w x1 -> -> a1 c1 z1 n1 v1 Q HQ. eapply wp_mono; [exact HQ|apply G]. }
  step1; zb.
  - assert (m p = m q) as E by zm. do 4 step1. at_label "cmpstr.next_char".
    apply G2; [lia|rewrite E, Z.compare_refl; reflexivity|auto].
  - assert (m p <> m q) as E by (intros E; apply K; rewrite E; zm).
    step1; zb.
    + do 2 step1. at_label "cmpstr.next_char".
      apply G2; [lia| |auto]. replace (_ ?= _) with Datatypes.Gt by (symmetry; apply Z.compare_gt_iff; lia). reflexivity.
    + do 7 (step1; try (rewrite E2, b16_small, Z.add_0_r, Eq_ by lia)). at_label "cmpstr.next_char".
      apply G2; [lia| |auto]. replace (_ ?= _) with Datatypes.Lt by (symmetry; apply Z.compare_lt_iff; lia). reflexivity.
Qed.
End T.
