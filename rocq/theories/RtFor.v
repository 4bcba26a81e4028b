(* FOR loops, INC and DEC, stores and loads. *)
From Verif Require Export RtCmp.

(* the entry of the evaluation stack [i] below the top, and the integer in two memory cells *)
Definition ent (s : cpu) (i : Z) : Z :=
  M s (stack_l + (M s sptr + i)) + 256 * M s (stack_h + (M s sptr + i)).
Definition wordat (m : Z -> Z) (p : Z) : Z := m p + 256 * m (p + 1).
(* the control variable is past the limit *)
Definition past (st lim v : Z) : bool :=
  if signed st <? 0 then signed v <? signed lim else signed lim <? signed v.

Ltac addr_eq := repeat match goal with |- context [?m (?k + (?a - 1 + ?i))] =>
   let j := eval vm_compute in (k + i - 1) in replace (k + (a - 1 + i)) with (j + a) by lia end;
   repeat match goal with |- context [?m (?k + (?a - 1))] =>
   let j := eval vm_compute in (k - 1) in replace (k + (a - 1)) with (j + a) by lia end; reflexivity.
Section T.
Variable L : lay.
Hypothesis OK : lay_ok L.
Notation P := (rt L).

(* the last part: the variable is stored, the comparison is left *)
Lemma wp_for_add c z n0 v0 a x mm st r p stp (Q : string -> cpu -> Prop) s1 c1 z1 v1 :
  0 <= a < 256 -> 0 <= x < 256 -> bytes_in mm -> 0 < mm 142 < 37 ->
  wordat mm (tmp3 L) = p -> 1536 <= p < 65535 ->
  (forall lo hi, 0 <= lo < 256 -> 0 <= hi < 256 -> lo + 256 * hi = word (wordat mm p + (a + 256 * x) + cin c) ->
   forall mm', mm' = upd (upd mm p lo) (p + 1) hi ->
   forall y' c' z' n' w', 0 <= y' < 256 ->
     Q "next_instruction" (mkcpu
       (truth (past stp (mm (1153 + mm 142) + 256 * mm (1193 + mm 142)) (lo + 256 * hi))) 0 y' c' z' n' w'
       (upd (upd mm' 142 (mm 142 - 1)) 142 (mm 142 - 1 + 1)) st r)) ->
  s1 = CFlags c1 z1 (signed stp <? 0) v1 :: st ->
  wp P (entry P "for.do_add") (mkcpu a x 0 c z n0 v0 mm s1 r) Q.
Proof.
  intros BA BX WM BS EP BP H ->. pose proof OK as (?&?&?&?&?&?&?&?&?&?&?&?&?).
  pose proof (WM p). pose proof (WM (p + 1)). unfold wordat in *.
  pose proof (WM (1153 + mm 142)). pose proof (WM (1193 + mm 142)).
  entry_tac. consts. step1. rewrite EP, b16_small, Z.add_0_r by lia.
  step1. rewrite EP, b16_small, Z.add_0_r by lia.
  do 3 step1. change (b8 (0 + 1)) with 1. step1. norm. rewrite !EP. norm.
  step1. norm. rewrite !EP. norm.
  set (s0 := a + mm p + (if c then 1 else 0)) in *.
  set (k0 := if 256 <=? s0 then 1 else 0) in *. set (s2 := x + mm (p + 1) + k0) in *.
  steps. rewrite (b8_small (mm 142 - 1)), (b8_small (mm 142 + 1)) by lia.
  specialize (H (b8 s0) (b8 s2) (b8_range _) (b8_range _)).
  assert (b8 s0 + 256 * b8 s2 = word (mm p + 256 * mm (p + 1) + (a + 256 * x) + cin c)) as E.
  { unfold s2, k0, s0. unfold cin. destruct c, (256 <=? _) eqn:?; zb; zm. }
  specialize (H E _ eq_refl).
  set (mm' := upd (upd mm p (b8 s0)) (p + 1) (b8 s2)) in *.
  assert (bytes_in mm') as W' by (unfold mm'; bytes_tac).
  assert (mm' (1152 + (mm 142 + 1)) = mm (1153 + mm 142)) as E1
    by (unfold mm'; norm; f_equal; lia).
  assert (mm' (1192 + (mm 142 + 1)) = mm (1193 + mm 142)) as E2
    by (unfold mm'; norm; f_equal; lia).
  pose proof (b8_range s0). pose proof (b8_range s2).
  step1.
  - at_label "EXE_GT".
    apply wp_gt; [repeat split; cbn [A X Y M]; try lia; apply bytes_upd; auto; lia|cbn [M]; consts; norm; lia|].
    intros ? ? ? ?. cbn [A X Y M S rnd]. unfold at_y, AX. cbn [A X Y M S rnd]. consts. norm. rewrite E1, E2.
    unfold past in H. rewrite K in H. apply H. lia.
  - step1. at_label "EXE_LT".
    apply wp_lt; [repeat split; cbn [A X Y M]; try lia; apply bytes_upd; auto; lia|cbn [M]; consts; norm; lia|].
    intros ? ? ? ?. cbn [A X Y M S rnd]. unfold at_y, AX. cbn [A X Y M S rnd]. consts. norm. rewrite E1, E2.
    unfold past in H. rewrite K in H. apply H. lia.
Qed.

(* What a loop instruction does: the control variable at [p] gets [v], the result says whether
   it is past the limit, nothing changes but scratch cells. *)
Definition steps_to (s : cpu) (p stp lim v : Z) (s' : cpu) : Prop :=
  AX s' = truth (past stp lim v) /\ wordat (M s') p = v /\ wf s' /\ M s' sptr = M s sptr /\
  (forall a, a <> p -> a <> p + 1 -> ~ scratch L a -> M s' a = M s a) /\ S s' = S s /\ rnd s' = rnd s.

Lemma signed_hi lo hi : 0 <= lo < 256 -> 0 <= hi < 256 -> (128 <=? hi) = (signed (lo + 256 * hi) <? 0).
Proof.
  intros. unfold signed. destruct (lo + 256 * hi <? 32768) eqn:?, (128 <=? hi) eqn:?; zb; symmetry;
    first [apply Z.ltb_lt; lia|apply Z.ltb_ge; lia].
Qed.
Lemma wp_for_go c a x z n0 v0 mm st r p stp lim s0 :
  0 <= a < 256 -> 0 <= x < 256 -> bytes_in mm -> 0 < mm 142 < 37 ->
  mm (1154 + mm 142) + 256 * mm (1194 + mm 142) = p -> 1536 <= p < 65535 ->
  mm (1152 + mm 142) + 256 * mm (1192 + mm 142) = stp ->
  mm (1153 + mm 142) + 256 * mm (1193 + mm 142) = lim ->
  M s0 = mm -> S s0 = st -> rnd s0 = r ->
  wp P (entry P "for.go") (mkcpu a x (mm 142) c z n0 v0 mm st r)
    (fun y s' => y = "next_instruction" /\
       steps_to s0 p stp lim (if c then wordat mm p else word (wordat mm p + stp)) s').
Proof.
  intros BA BX WM BS EP BP ES EL E0 E1 E2. pose proof OK as (?&?&?&?&?&?&?&?&?&?&?&?&?).
  pose proof (WM (1154 + mm 142)). pose proof (WM (1194 + mm 142)).
  pose proof (WM (1153 + mm 142)). pose proof (WM (1193 + mm 142)).
  pose proof (WM (1152 + mm 142)). pose proof (WM (1192 + mm 142)).
  entry_tac. consts. change (1192 + 2) with 1194. change (1152 + 2) with 1154.
  steps.
  set (m2 := upd (upd mm (tmp3 L + 1) (mm (1194 + mm 142))) (tmp3 L) (mm (1154 + mm 142))).
  assert (bytes_in m2) as W2 by (unfold m2; bytes_tac).
  assert (forall b, ~ scratch L b -> m2 b = mm b) as F2.
  { intros b NB. unfold scratch in NB. unfold m2. norm. reflexivity. }
  assert (wordat m2 (tmp3 L) = p) as T3 by (unfold wordat, m2; norm; lia).
  assert (forall b, b < tmp1 L \/ b > divmod_sign L -> m2 b = mm b) as F3
    by (intros b NB; apply F2; unfold scratch; lia).
  rewrite (signed_hi (mm (1152 + mm 142)) (mm (1192 + mm 142))) by lia. rewrite ES.
  assert (forall cc a2 x2 z1 n1 v1, 0 <= a2 < 256 -> 0 <= x2 < 256 ->
    word (wordat m2 p + (a2 + 256 * x2) + cin cc) = (if c then wordat mm p else word (wordat mm p + stp)) ->
    forall c3 z3 v3,
    wp P (entry P "for.do_add") (mkcpu a2 x2 0 cc z1 n1 v1 m2 (CFlags c3 z3 (signed stp <? 0) v3 :: st) r)
    (fun y s' => y = "next_instruction" /\
       steps_to s0 p stp lim (if c then wordat mm p else word (wordat mm p + stp)) s')) as G.
  { intros cc a2 x2 z1 n1 v1 V1 V2 V3 c3 z3 v3. eapply wp_for_add with (p := p) (stp := stp); auto.
    - rewrite F3 by lia. exact BS.
    - intros lo hi V4 V5 V6 mm' EM y' c' z' n' w' V7. split; [reflexivity|].
      rewrite (F3 142), (F3 (1153 + mm 142)), (F3 (1193 + mm 142)), EL by lia. rewrite V3 in V6. rewrite V6.
      assert (forall b, b <> p -> b <> p + 1 -> mm' b = m2 b) as F4 by (intros; subst mm'; norm; reflexivity).
      split; [|split; [|split; [|split; [|split]]]]; unfold AX, wf; cbn [A X Y M S rnd]; consts; auto.
      + lia.
      + unfold wordat. norm. subst mm'. norm. exact V6.
      + repeat split; auto; try lia; try (destruct (past _ _ _); cbn; lia).
        all: repeat apply bytes_upd; try lia; subst mm'; bytes_tac.
      + norm. rewrite E0. lia.
      + intros b N1 N2 N3. rewrite E0. destruct (Z.eq_dec b 142) as [->|]; norm; [lia|].
        rewrite F4 by auto. apply F2. exact N3. }
  assert (wordat m2 p = wordat mm p) as EV by (unfold wordat; rewrite !F3 by lia; reflexivity).
  assert (0 <= wordat mm p < 65536) as BV by (pose proof (WM p); pose proof (WM (p + 1)); unfold wordat; lia).
  step1; destruct c; try discriminate K.
  - at_label "for.do_add".
    apply G; auto. rewrite EV. unfold cin. f_equal. lia.
  - do 3 step1. at_label "for.do_add".
    apply G; try lia. rewrite EV. unfold cin.
    replace (wordat mm p + (255 + 256 * 255) + 1) with (wordat mm p + 1 * 65536) by lia.
    unfold word. rewrite Z.mod_add by lia. apply Z.mod_small. exact BV.
Qed.

Theorem for_next_ok s : ready s -> 0 < M s sptr < 37 -> 1536 <= ent s 2 < 65535 ->
  exists s', calls P "EXE_FOR_NEXT" s "next_instruction" s' /\
    steps_to s (ent s 2) (ent s 0) (ent s 1) (word (wordat (M s) (ent s 2) + ent s 0)) s'.
Proof.
  intros ((WA & WX & WY & WM) & HY) BS BP. apply wp_calls.
  destruct s as [a x y c z f v m st r]. unfold ent in *. cbn [A X Y M S rnd] in *. subst y.
  entry_tac. consts. do 2 step1. at_label "for.go".
  replace (1152 + (m 142 + 0)) with (1152 + m 142) by lia. replace (1192 + (m 142 + 0)) with (1192 + m 142) by lia.
  replace (1152 + (m 142 + 1)) with (1153 + m 142) by lia. replace (1192 + (m 142 + 1)) with (1193 + m 142) by lia.
  replace (1152 + (m 142 + 2)) with (1154 + m 142) in * by lia. replace (1192 + (m 142 + 2)) with (1194 + m 142) in * by lia.
  apply (wp_for_go false); auto.
Qed.
(* FOR pushes the step and compares. *)
Definition for_to (s : cpu) (p stp lim : Z) (s' : cpu) : Prop :=
  AX s' = truth (past stp lim (wordat (M s) p)) /\ wordat (M s') p = wordat (M s) p /\ wf s' /\
  M s' sptr = M s sptr - 1 /\ ent s' 0 = stp /\ ent s' 1 = lim /\ ent s' 2 = p /\
  (forall a, a <> sptr -> a <> stack_l + (M s sptr - 1) -> a <> stack_h + (M s sptr - 1) -> ~ scratch L a ->
     M s' a = M s a) /\ S s' = S s /\ rnd s' = rnd s.
Theorem for_ok s : ready s -> 1 < M s sptr < 38 -> 1536 <= ent s 1 < 65535 ->
  exists s', calls P "EXE_FOR" s "next_instruction" s' /\ for_to s (ent s 1) (AX s) (ent s 0) s'.
Proof.
  intros ((WA & WX & WY & WM) & HY) BS BP. apply wp_calls.
  destruct s as [a x y c z f v m st r]. unfold ent, AX in *. cbn [A X Y M S rnd] in *. subst y.
  pose proof OK as (?&?&?&?&?&?&?&?&?&?&?&?&?).
  entry_tac. consts. step1. change (1152 - 1) with 1151. change (1192 - 1) with 1191.
  cbv beta iota delta [stack_l stack_h]. steps. step1. steps. step1.
  replace (m 142 + 0) with (m 142) by lia.
  replace (1152 + (m 142 + 1)) with (1153 + m 142) in * by lia.
  replace (1192 + (m 142 + 1)) with (1193 + m 142) in * by lia.
  rewrite !b8_small by lia.
  change (1152 - 1) with 1151. change (1192 - 1) with 1191.
  set (p := m (1153 + m 142) + 256 * m (1193 + m 142)) in *.
  set (lim := m (1152 + m 142) + 256 * m (1192 + m 142)) in *.
  set (m2 := upd (upd (upd m (1151 + m 142) a) (1191 + m 142) x) 142 (m 142 - 1)).
  assert (bytes_in m2) as W2 by (unfold m2; bytes_tac).
  assert (m2 142 = m 142 - 1) as M142 by (unfold m2; norm; reflexivity).
  at_label "for.go". rewrite <- M142.
  assert (forall b, b <> 142 -> b <> 1151 + m 142 -> b <> 1191 + m 142 -> m2 b = m b) as F2
    by (intros; unfold m2; norm; reflexivity).
  assert (1151 + m 142 = 1152 + m2 142) as Q1 by lia. assert (1191 + m 142 = 1192 + m2 142) as Q2 by lia.
  eapply wp_mono; [|apply (wp_for_go true) with (p := p) (stp := a + 256 * x) (lim := lim)
    (s0 := mkcpu a x (m 142) c z f v m2 st r)]; auto; try lia.
  - intros l s' (EL & V1 & V2 & V3 & V4 & V5 & V6 & V7). split; [exact EL|]. cbn [M S rnd] in *. consts.
    assert (wordat m2 p = wordat m p) as EV by (unfold wordat; rewrite !F2 by lia; reflexivity).
    rewrite EV in *.
    assert (forall b, 1100 <= b < 1500 -> M s' b = m2 b) as FS.
    { intros b NB. apply V5; try lia. unfold scratch. lia. }
    assert (M s' p = m p /\ M s' (p + 1) = m (p + 1)) as (Ep1 & Ep2).
    { destruct V3 as (_ & _ & _ & V3). unfold wordat in V2. pose proof (V3 p). pose proof (V3 (p + 1)).
      pose proof (WM p). pose proof (WM (p + 1)). lia. }
    split; [exact V1|]. split; [exact V2|]. split; [exact V3|]. split; [cbn [M]; consts; lia|].
    unfold ent; consts; cbn [M S rnd].
    split; [|split; [|split; [|split; [|split]]]]; auto.
    + rewrite V4. rewrite !FS by lia. unfold m2 at 1 3. norm. reflexivity.
    + rewrite V4. rewrite !FS by lia. rewrite M142, !F2 by lia. unfold lim. addr_eq.
    + rewrite V4. rewrite !FS by lia. rewrite M142, !F2 by lia. unfold p. addr_eq.
    + intros b N1 N2 N3 N4. destruct (Z.eq_dec b p) as [->|]; [exact Ep1|].
      destruct (Z.eq_dec b (p + 1)) as [->|]; [exact Ep2|]. rewrite V5 by auto. apply F2; lia.
  - rewrite M142, !F2 by lia. unfold p. addr_eq.
  - unfold m2 at 1 3. norm. reflexivity.
  - rewrite M142, !F2 by lia. unfold lim. addr_eq.
Qed.

(* ---- whole loops ---- *)
(* The iterations after FOR or FOR_NEXT: while bit 0 of the result is clear the body runs, then
   FOR_NEXT; the list has the values of the control variable at the start of each round. *)
Inductive rounds (body : cpu -> cpu -> Prop) (p : Z) : cpu -> list Z -> cpu -> Prop :=
| rounds_end s : Z.odd (A s) = true -> rounds body p s [] s
| rounds_go s s1 s2 s3 vs : Z.odd (A s) = false -> body s s1 ->
    calls P "EXE_FOR_NEXT" s1 "next_instruction" s2 -> rounds body p s2 vs s3 ->
    rounds body p s (wordat (M s) p :: vs) s3.
(* The body leaves the loop data and the control variable alone. *)
Definition keeps (p : Z) (s s' : cpu) : Prop :=
  ready s' /\ M s' sptr = M s sptr /\ ent s' 0 = ent s 0 /\ ent s' 1 = ent s 1 /\ ent s' 2 = ent s 2 /\
  wordat (M s') p = wordat (M s) p.

Lemma odd_truth s b : AX s = truth b -> wf s -> Z.odd (A s) = b.
Proof.
  unfold AX. intros E (WA & WX & _). assert (A s = truth b) as -> by (destruct b; unfold truth in *; lia).
  destruct b; reflexivity.
Qed.
Lemma ent_same s s' p : lay_ok L -> M s' sptr = M s sptr -> 0 < M s sptr < 37 -> 1536 <= p < 65535 ->
  (forall a, a <> p -> a <> p + 1 -> ~ scratch L a -> M s' a = M s a) ->
  forall i, 0 <= i <= 2 -> ent s' i = ent s i.
Proof.
  intros (?&?&?&?&?&?&?&?&?&?&?&?&?) E B BP F i I. unfold ent. rewrite E. consts.
  rewrite !F; auto; unfold scratch; lia.
Qed.
(* A loop that is past the limit after n steps and not before has n rounds. *)
Lemma rounds_values (body : cpu -> cpu -> Prop) p : (forall s s', body s s' -> keeps p s s') ->
  forall s vs s', rounds body p s vs s' -> wf s -> 0 < M s sptr < 37 -> ent s 2 = p -> 1536 <= p < 65535 ->
  AX s = truth (past (ent s 0) (ent s 1) (wordat (M s) p)) ->
  let v k := word (wordat (M s) p + Z.of_nat k * ent s 0) in
  vs = map v (seq 0 (List.length vs)) /\
  (forall k, (k < List.length vs)%nat -> past (ent s 0) (ent s 1) (v k) = false) /\
  past (ent s 0) (ent s 1) (v (List.length vs)) = true.
Proof.
  intros KB s vs s' R. induction R as [s O|s s1 s2 s3 vs O B C R IH]; intros W BS E2 BP EA.
  - cbn [List.length map seq]. split; [reflexivity|]. split; [intros; lia|].
    rewrite (odd_truth _ _ EA W) in O. rewrite Z.mul_0_l, Z.add_0_r. unfold word.
    rewrite Z.mod_small; [exact O|]. destruct W as (_ & _ & _ & WM). unfold wordat.
    pose proof (WM p). pose proof (WM (p + 1)). lia.
  - destruct (KB _ _ B) as (R1 & K1 & K2 & K3 & K4 & K5).
    destruct (for_next_ok s1 R1) as (s2' & C' & V1 & V2 & V3 & V4 & V5 & V6 & V7); [lia|lia|].
    destruct (calls_det _ _ _ _ _ _ _ C C') as (_ & <-).
    assert (forall i, 0 <= i <= 2 -> ent s2 i = ent s1 i) as ES.
    { apply (ent_same _ _ p); auto; [lia|]. rewrite <- E2, <- K4. exact V5. }
    assert (ent s2 0 = ent s 0) as F0 by (rewrite ES by lia; exact K2).
    assert (ent s2 1 = ent s 1) as F1 by (rewrite ES by lia; exact K3).
    rewrite K2, K3, K4, E2 in *. rewrite K5 in *. clear ES.
    assert (ent s2 2 = p) as F2.
    { rewrite (ent_same s1 s2 p); auto; try lia. }
    destruct IH as (I1 & I2 & I3); auto; [lia|rewrite F0, F1, V2; exact V1|].
    rewrite F0, F1, V2 in *.
    assert (forall k, word (word (wordat (M s) p + ent s 0) + Z.of_nat k * ent s 0) =
            word (wordat (M s) p + Z.of_nat (Datatypes.S k) * ent s 0)) as SH.
    { intros k. unfold word. rewrite Z.add_mod_idemp_l by lia. f_equal. lia. }
    cbn zeta. cbn [List.length map seq]. split; [|split].
    + f_equal.
      * rewrite Z.mul_0_l, Z.add_0_r. symmetry. apply Z.mod_small. destruct W as (_ & _ & _ & WM).
        unfold wordat. pose proof (WM p). pose proof (WM (p + 1)). lia.
      * rewrite I1 at 1. rewrite <- seq_shift, map_map. apply map_ext. intros k. apply SH.
    + intros [|k] HK.
      * rewrite (odd_truth _ _ EA W) in O. rewrite Z.mul_0_l, Z.add_0_r. unfold word.
        rewrite Z.mod_small; [exact O|]. destruct W as (_ & _ & _ & WM). unfold wordat.
        pose proof (WM p). pose proof (WM (p + 1)). lia.
      * rewrite <- SH. apply I2. lia.
    + rewrite <- SH. exact I3.
Qed.
(* A loop reaches its end, if the limit is passed at some time and the body always ends. *)
Lemma rounds_end_reached (body : cpu -> cpu -> Prop) p n : (forall s s', body s s' -> keeps p s s') ->
  forall s, (forall s, wf s -> 0 < M s sptr < 37 -> exists s', body s s') -> wf s -> 0 < M s sptr < 37 -> ent s 2 = p -> 1536 <= p < 65535 ->
  AX s = truth (past (ent s 0) (ent s 1) (wordat (M s) p)) ->
  past (ent s 0) (ent s 1) (word (wordat (M s) p + Z.of_nat n * ent s 0)) = true ->
  exists vs s', rounds body p s vs s'.
Proof.
  intros KB. induction n as [|n IH]; intros s TB W BS E2 BP EA PN.
  - exists [], s. constructor. rewrite (odd_truth _ _ EA W). rewrite Z.mul_0_l, Z.add_0_r in PN.
    rewrite <- PN. f_equal. symmetry. apply Z.mod_small. destruct W as (_ & _ & _ & WM).
    unfold wordat. pose proof (WM p). pose proof (WM (p + 1)). lia.
  - destruct (Z.odd (A s)) eqn:O; [exists [], s; constructor; exact O|].
    destruct (TB s W BS) as (s1 & B). destruct (KB _ _ B) as (R1 & K1 & K2 & K3 & K4 & K5).
    destruct (for_next_ok s1 R1) as (s2 & C & V1 & V2 & V3 & V4 & V5 & V6 & V7); [lia|lia|].
    assert (forall i, 0 <= i <= 2 -> ent s2 i = ent s1 i) as ES.
    { apply (ent_same _ _ p); auto; [lia|]. rewrite <- E2, <- K4. exact V5. }
    assert (ent s2 0 = ent s 0) as F0 by (rewrite ES by lia; exact K2).
    assert (ent s2 1 = ent s 1) as F1 by (rewrite ES by lia; exact K3).
    assert (ent s2 2 = p) as F2 by (rewrite ES by lia; congruence).
    rewrite K2, K3, K4, E2 in *. rewrite K5 in *.
    destruct (IH s2) as (vs & s3 & R); auto; [lia|rewrite F0, F1, V2; exact V1| |].
    + rewrite F0, F1, V2. rewrite <- PN. f_equal. unfold word. rewrite Z.add_mod_idemp_l by lia. f_equal. lia.
    + exists (wordat (M s) p :: vs), s3. econstructor; eauto.
Qed.
End T.

(* The number of values start, start + step, ... up to the limit, of integers. *)
Definition for_count (a b c : Z) : Z := Z.max 0 ((b - a) / c + 1).
(* the k-th value is past the limit, for integers *)
Definition ipast (c b v : Z) : bool := if c <? 0 then v <? b else b <? v.
Lemma ipast_count a b c k : c <> 0 -> 0 <= k -> ipast c b (a + k * c) = (for_count a b c <=? k).
Proof.
  intros C K. unfold ipast, for_count. pose proof (Z.div_mod (b - a) c C) as D.
  set (q := (b - a) / c) in *. set (r := (b - a) mod c) in *.
  destruct (c <? 0) eqn:?; zb.
  - pose proof (Z.mod_neg_bound (b - a) c ltac:(lia)) as R. fold r in R.
    destruct (a + k * c <? b) eqn:E; zb; symmetry; [apply Z.leb_le|apply Z.leb_gt].
    + assert (q < k) by nia. lia.
    + assert (k <= q) by nia. lia.
  - pose proof (Z.mod_pos_bound (b - a) c ltac:(lia)) as R. fold r in R.
    destruct (b <? a + k * c) eqn:E; zb; symmetry; [apply Z.leb_le|apply Z.leb_gt].
    + assert (q < k) by nia. lia.
    + assert (k <= q) by nia. lia.
Qed.
Lemma signed_word z : -32768 <= z < 32768 -> signed (word z) = z.
Proof. intros H. unfold signed, word. destruct (_ <? _) eqn:?; zb; zm. Qed.
Lemma word_add_signed x y : word (word x + y) = word (x + y).
Proof. unfold word. apply Z.add_mod_idemp_l. lia. Qed.

Lemma past_int st lim v c b x : signed st = c -> signed lim = b -> signed v = x -> past st lim v = ipast c b x.
Proof. intros <- <- <-. reflexivity. Qed.
Lemma count_range a b c k : -32768 <= a < 32768 -> -32768 <= a + for_count a b c * c < 32768 ->
  0 <= k <= for_count a b c -> -32768 <= a + k * c < 32768.
Proof. intros. destruct (Z_lt_ge_dec c 0); nia. Qed.

(* A whole loop: start at [a] in the variable at [p], limit [b], step [c]. *)
Theorem for_loop L : lay_ok L -> forall (body : cpu -> cpu -> Prop) p s0 a b c,
  ready s0 -> 1 < M s0 sptr < 38 -> ent s0 1 = p -> 1536 <= p < 65535 ->
  signed (wordat (M s0) p) = a -> signed (ent s0 0) = b -> signed (AX s0) = c -> c <> 0 ->
  -32768 <= a + for_count a b c * c < 32768 ->
  (forall s s', body s s' -> keeps p s s') ->
  exists s1, calls (rt L) "EXE_FOR" s0 "next_instruction" s1 /\
  (forall vs s2, rounds L body p s1 vs s2 ->
     vs = map (fun k => word (a + Z.of_nat k * c)) (seq 0 (Z.to_nat (for_count a b c)))) /\
  ((forall s, wf s -> 0 < M s sptr < 37 -> exists s', body s s') -> exists vs s2, rounds L body p s1 vs s2).
Proof.
  intros OK body p s0 a b c R BS EP BP EA EB EC C0 BR KB. subst p.
  destruct (for_ok L OK s0 R BS BP) as (s1 & CL & V1 & V2 & V3 & V4 & V5 & V6 & V7 & V8 & V9 & V10).
  exists s1. split; [exact CL|]. set (p := ent s0 1) in *.
  destruct R as ((WA & WX & _ & WM) & _).
  assert (0 <= wordat (M s0) p < 65536) as RA by (unfold wordat; pose proof (WM p); pose proof (WM (p + 1)); lia).
  assert (0 <= AX s0 < 65536) as RC by (unfold AX; lia).
  pose proof (signed_range _ RA) as RA'. rewrite EA in RA'.
  assert (forall k, word (wordat (M s0) p + Z.of_nat k * AX s0) = word (a + Z.of_nat k * c)) as EW.
  { intros k. rewrite <- (word_signed _ RA), <- (word_signed _ RC), EA, EC. unfold word.
    rewrite Z.add_mod_idemp_l by lia. rewrite <- Z.add_mod_idemp_r by lia. rewrite Z.mul_mod_idemp_r by lia.
    rewrite Z.add_mod_idemp_r by lia. reflexivity. }
  assert (forall k, Z.of_nat k <= for_count a b c -> past (AX s0) (ent s0 0) (word (a + Z.of_nat k * c)) =
            (for_count a b c <=? Z.of_nat k)) as EPast.
  { intros k HK. rewrite (past_int _ _ _ c b (a + Z.of_nat k * c)); auto.
    - apply ipast_count; lia.
    - apply signed_word. apply count_range with b; auto. lia. }
  assert (0 <= for_count a b c) as NN by (unfold for_count; lia).
  split.
  - intros vs s2 RN. apply (rounds_values L OK body p KB) in RN as (I1 & I2 & I3); auto; try lia; [|rewrite V5, V6, V2; exact V1].
    rewrite V2, V5, V6 in *. 
    assert (List.length vs = Z.to_nat (for_count a b c)) as EL.
    { destruct (Z_lt_ge_dec (Z.of_nat (List.length vs)) (for_count a b c)) as [LT|GE].
      - rewrite EW, EPast in I3 by lia. zb. lia.
      - destruct (Z.eq_dec (Z.of_nat (List.length vs)) (for_count a b c)); [lia|].
        specialize (I2 (Z.to_nat (for_count a b c)) ltac:(lia)). rewrite EW, EPast in I2 by lia. zb. lia. }
    rewrite I1, EL. apply map_ext. intros k. apply EW.
  - intros TB. apply (rounds_end_reached L OK body p (Z.to_nat (for_count a b c)) KB s1 TB); auto; try lia.
    + rewrite V5, V6, V2. exact V1.
    + rewrite V2, V5, V6, EW, EPast by lia. apply Z.leb_le. lia.
Qed.
