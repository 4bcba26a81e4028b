(* Strings: assignment, concatenation, part of a string. *)
From Verif Require Export RtStr RtFill.

Lemma str_nth m p i : Z.of_nat i < m p -> nth i (str_at m p) 0 = m (p + 1 + Z.of_nat i).
Proof.
  intros I. unfold str_at.
  rewrite (nth_indep _ _ (m (p + 1 + Z.of_nat 0))) by (rewrite map_length, seq_length; lia).
  rewrite (map_nth (fun i => m (p + 1 + Z.of_nat i)) _ O i), seq_nth by lia. reflexivity.
Qed.
(* a string from its length and its bytes *)
Lemma str_is m p l : m p = Z.of_nat (List.length l) ->
  (forall i, (i < List.length l)%nat -> m (p + 1 + Z.of_nat i) = nth i l 0) -> str_at m p = l.
Proof.
  intros E H. apply (nth_ext _ _ 0 0); rewrite str_len; [lia|]. intros i I. rewrite str_nth by lia. apply H. lia.
Qed.

Lemma nth_firstn_lt {B} (n i : nat) (l : list B) d : (i < n)%nat -> nth i (firstn n l) d = nth i l d.
Proof.
  revert i l. induction n as [|n IH]; intros i l I; [lia|]. destruct l as [|b l]; [reflexivity|].
  destruct i as [|i]; [reflexivity|]. cbn. apply IH. lia.
Qed.

(* the n characters from position pos, the first character is at 1 *)
Definition part (l : list Z) (pos n : Z) : list Z :=
  if (pos <=? 0) || (n <=? 0) then [] else firstn (Z.to_nat n) (skipn (Z.to_nat (pos - 1)) l).
Lemma part_len l pos n : Z.of_nat (List.length (part l pos n)) =
  if pos <=? 0 then 0 else Z.max 0 (Z.min n (Z.of_nat (List.length l) - pos + 1)).
Proof.
  unfold part. destruct (pos <=? 0) eqn:E1, (n <=? 0) eqn:E2; cbn [orb List.length]; zb; try lia.
  rewrite firstn_length, skipn_length. lia.
Qed.
Lemma nth_skipn_at {B} (n i : nat) (l : list B) d : nth i (skipn n l) d = nth (n + i) l d.
Proof. revert l. induction n as [|n IH]; intros [|b l]; cbn; auto. destruct i; reflexivity. Qed.
Lemma part_nth l pos n i : 1 <= pos -> Z.of_nat i < n -> nth i (part l pos n) 0 = nth (Z.to_nat (pos - 1) + i) l 0.
Proof.
  intros P1 N1. unfold part. destruct (pos <=? 0) eqn:E1, (n <=? 0) eqn:E2; zb; try lia. cbn [orb].
  rewrite nth_firstn_lt by lia. apply nth_skipn_at.
Qed.

Section T.
Variable L : lay.
Hypothesis OK : lay_ok L.
Notation P := (rt L).

(* the block of the string variable at va: a new one if it has none *)
Definition fresh (m : Z -> Z) (va : Z) : bool := m (va + 1) =? 0.
Definition block (m : Z -> Z) (va : Z) : Z := if fresh m va then wordat m (aptr L) else wordat m va.
Definition str_work (m : Z -> Z) (va b : Z) : Prop :=
  loopcell b \/ scratch L b \/
  (fresh m va = true /\ (b = va \/ b = va + 1 \/ b = aptr L \/ b = aptr L + 1 \/ wordat m (aptr L) <= b < wordat m (aptr L) + 256)).
(* src/interp/copystr.asm:38-61 *)
Lemma get_pointers k (Q : string -> cpu -> Prop) st r a x y c z f v m va :
  0 <= a < 256 -> 0 <= x < 256 -> bytes_in m -> va = wordat m (saddr L) ->
  heap L <= va -> va + 1 < wordat m (aptr L) ->
  ((fresh m va = true -> wordat m (aptr L) + 256 < wordat m MEMTOP) ->
   forall a' x' c' z' f' v' m', bytes_in m' -> wordat m' 147 = a + 256 * x -> wordat m' 150 = block m va -> m' 152 = m 152 ->
     wordat m' va = block m va -> wordat m' (aptr L) = (if fresh m va then wordat m (aptr L) + 256 else wordat m (aptr L)) ->
     (fresh m va = true -> forall b, block m va <= b < block m va + 256 -> m' b = 0) ->
     agree (str_work m va) m' m -> 0 <= a' < 256 -> 0 <= x' < 256 ->
     wp P k (mkcpu a' x' 0 c' z' f' v' m' st r) Q) ->
  (fresh m va = true -> wordat m MEMTOP <= wordat m (aptr L) + 256 -> forall s', wf s' -> Q "err_nomem" s') ->
  wp P (entry P "get_pointers") (mkcpu a x y c z f v m (CRet k :: st) r) Q.
Proof.
  pose proof OK as (?&?&?&?&?&?&?&?&?&?&?&?&?).
  intros BA BX WM Ev B1 B2 K1 K2.
  pose proof (WM (aptr L)). pose proof (WM (aptr L + 1)). pose proof (WM va). pose proof (WM (va + 1)).
  entry_tac. consts. change (147 + 1) with 148. change (150 + 1) with 151.
  do 4 (step1; norm). unfold wordat in Ev. rewrite <- Ev.
  assert (va + 1 < 65536) as BV by (unfold wordat in *; lia).
  norm. unfold apart in *.
  step1; zb.
  - assert (fresh m va = true) as FR by (unfold fresh; rewrite K; reflexivity).
    unfold block, str_work in *. rewrite FR in *.
    do 7 (step1; change (b8 (1 - 1)) with 0; norm; rewrite <- ?Ev, ?Z.add_0_r; norm).
    eapply wp_jmp; [reflexivity|]. at_label "alloc_array".
    set (m1 := upd _ va _).
    assert (bytes_in m1) as W1 by (unfold m1; bytes_tac).
    assert (wordat m1 (aptr L) = wordat m (aptr L)) as A1 by (unfold wordat, m1; norm; reflexivity).
    assert (wordat m1 va = wordat m (aptr L)) as V1 by (unfold wordat, m1; norm; reflexivity).
    assert (wordat m1 147 = a + 256 * x) as S1 by (unfold wordat, m1; change (147 + 1) with 148; norm; reflexivity).
    assert (wordat m1 741 = wordat m 741) as T1 by (unfold wordat, m1; norm; reflexivity).
    assert (m1 152 = m 152) as I1 by (unfold m1; norm; reflexivity).
    assert (forall b, b <> 147 -> b <> 148 -> b <> va -> b <> va + 1 -> m1 b = m b) as F1 by (intros; unfold m1; norm; reflexivity).
    clearbody m1. eapply alloc_ok with (p := wordat m (aptr L)) (n := 256); auto; try lia.
    + unfold MEMTOP. rewrite T1. intros LT c' z' f' v' m' W' D' A' Z' F'. apply K1; auto; try lia.
      * rewrite <- S1. unfold wordat. rewrite !F' by lia. reflexivity.
      * rewrite F' by lia. exact I1.
      * rewrite <- V1. unfold wordat. rewrite !F' by lia. reflexivity.
      * intros b NB. unfold loopcell, scratch in NB. rewrite F' by (try lia; intros I; apply NB; auto). apply F1; lia.
    + unfold MEMTOP. rewrite T1. intros LE. apply K2; auto.
  - assert (fresh m va = false) as FR by (unfold fresh; apply Z.eqb_neq; auto).
    unfold block, str_work in *. rewrite FR in *.
    do 4 (step1; change (b8 (1 - 1)) with 0; norm; rewrite <- ?Ev, ?Z.add_0_r; norm). step1.
    apply K1; auto; try lia.
    all: try discriminate; try (unfold wordat; change (147 + 1) with 148; change (150 + 1) with 151; norm; reflexivity).
    + bytes_tac.
    + intros b NB. unfold loopcell in NB. norm. reflexivity.
Qed.

(* The variable is in the heap, and so is its block. *)
Definition var_ok (s : cpu) : Prop :=
  let va := to L s in
  heap L <= va /\ va + 1 < free_ptr L s /\ M s move_ins = 136 /\
  (fresh (M s) va = false ->
   heap L <= block (M s) va /\ block (M s) va + 256 <= free_ptr L s /\
   (va + 1 < block (M s) va \/ block (M s) va + 256 <= va)).
(* The source does not overlap the destination, unless it is the same string. *)
Definition src_ok (s : cpu) : Prop :=
  let va := to L s in
  apart_from (M s) (AX s) (str_work (M s) va) /\
  (AX s = block (M s) va \/ AX s + M s (AX s) < block (M s) va \/ block (M s) va + 256 <= AX s).
Definition roomy (s : cpu) : Prop := fresh (M s) (to L s) = true -> free_ptr L s + 256 < memtop s.
Definition assigned (s : cpu) (l : list Z) (s' : cpu) : Prop :=
  let va := to L s in let d := block (M s) va in
  wordat (M s') va = d /\ str_at (M s') d = l /\ wf s' /\ M s' move_ins = 136 /\
  free_ptr L s' = free_ptr L s + (if fresh (M s) va then 256 else 0) /\
  (forall b, ~ d <= b < d + 256 -> ~ str_work (M s) va b -> M s' b = M s b) /\ S s' = S s /\ rnd s' = rnd s.

Lemma assigned_intro s l a x y c z f v m st r :
  let va := to L s in let d := block (M s) va in
  lay_ok L -> var_ok s -> 0 <= a < 256 -> 0 <= x < 256 -> 0 <= y < 256 -> bytes_in m -> st = S s -> r = rnd s ->
  forall m1, wordat m1 va = d -> m1 152 = 136 -> wordat m1 (aptr L) = free_ptr L s + (if fresh (M s) va then 256 else 0) ->
  agree (str_work (M s) va) m1 (M s) -> (forall b, ~ d <= b < d + 256 -> ~ loopcell b -> ~ scratch L b -> m b = m1 b) -> m 152 = m1 152 ->
  m d = Z.of_nat (List.length l) -> (forall i, (i < List.length l)%nat -> m (d + 1 + Z.of_nat i) = nth i l 0) ->
  (List.length l <= 255)%nat -> bytes_in (M s) -> assigned s l (mkcpu a x y c z f v m st r).
Proof.
  intros va d (?&?&?&?&?&?&?&?&?&?&?&?&?) (V1 & V2 & V3 & V4) BA BX BY WM -> -> m1 E1 E2 E3 G1 F E4 ED EB BL WS.
  unfold assigned. fold va in V1, V2, V4 |- *. fold d in V4 |- *. cbn [M S rnd]. unfold free_ptr in *. cbn [M] in *.
  assert (heap L <= d /\ (va + 1 < d \/ d + 256 <= va)) as (D1 & D2).
  { unfold d, block in *. destruct (fresh (M s) va) eqn:FR; [split; lia|]. specialize (V4 eq_refl). tauto. }
  unfold apart in *.
  split; [unfold wordat in *; rewrite !F by (unfold loopcell, scratch; lia); exact E1|].
  split; [apply str_is; auto|]. split; [apply wf_intro; auto|]. split; [consts; congruence|].
  split; [unfold wordat in *; rewrite !F by (unfold loopcell, scratch; lia); exact E3|].
  split; [|auto]. intros b NB NW. rewrite F; auto; intros LB; apply NW; [left|right; left]; exact LB.
Qed.

Theorem copy_str_ok s : ready s -> var_ok s -> src_ok s ->
  (roomy s -> exists s', calls P "EXE_COPY_STR" s "next_instruction" s' /\ assigned s (str_at (M s) (AX s)) s') /\
  (~ roomy s -> exists s', calls P "EXE_COPY_STR" s "err_nomem" s').
Proof.
  intros R VO SO.
  assert (forall (Q : string -> cpu -> Prop), (roomy s -> forall s', assigned s (str_at (M s) (AX s)) s' -> Q "next_instruction" s') ->
    (~ roomy s -> forall s', Q "err_nomem" s') -> wp P (entry P "EXE_COPY_STR") s Q) as G.
  2: { split; intros RM.
    - apply wp_calls. apply G; [|tauto]. intros _ s' A'. auto.
    - destruct (wp_calls P "EXE_COPY_STR" s "err_nomem" (fun _ => True)) as (s' & C & _); [|eauto]. apply G; tauto. }
  intros Q K1 K2.
  assert (forall a x y c z f v m st r m1, 0 <= a < 256 -> 0 <= x < 256 -> 0 <= y < 256 -> bytes_in m -> st = S s -> r = rnd s -> roomy s ->
    wordat m1 (to L s) = block (M s) (to L s) -> m1 152 = 136 -> wordat m1 (aptr L) = free_ptr L s + (if fresh (M s) (to L s) then 256 else 0) ->
    agree (str_work (M s) (to L s)) m1 (M s) -> (forall b, ~ block (M s) (to L s) <= b < block (M s) (to L s) + 256 -> ~ loopcell b -> ~ scratch L b -> m b = m1 b) -> m 152 = m1 152 ->
    m (block (M s) (to L s)) = M s (AX s) -> (forall i, 0 <= i < M s (AX s) -> m (block (M s) (to L s) + 1 + i) = M s (AX s + 1 + i)) ->
    Q "next_instruction" (mkcpu a x y c z f v m st r)) as FIN.
  { intros. apply K1; auto. destruct R as ((_ & _ & _ & WM) & _). pose proof (WM (AX s)).
    eapply assigned_intro; eauto.
    - rewrite str_len. lia.
    - intros i I. rewrite str_len in I. rewrite str_nth by lia. apply H13. lia.
    - rewrite str_len. lia. }
  clear K1. destruct R as ((WA & WX & WY & WM) & HY). pose proof OK as (?&?&?&?&?&?&?&?&?&?&?&?&?).
  destruct VO as (V1 & V2 & V3 & V4), SO as ((P0 & P1 & P2) & SD).
  set (va := to L s) in *. set (d := block (M s) va) in *.
  destruct s as [a x y c z f v m st r]. unfold roomy, free_ptr, memtop, AX in *. cbn [A X Y M S rnd] in *. consts.
  set (src := a + 256 * x) in *. pose proof (WM src).
  entry_tac. consts. eapply wp_jsr; [reflexivity|]. cpu_red. at_label "get_pointers".
  apply get_pointers with (va := va); auto.
  2: { intros FR LE s' W'. apply K2. intros RM. specialize (RM FR). unfold va in LE. consts. lia. }
  consts. intros RM a1 x1 c1 z1 f1 v1 m1 W1 S1 D1 I1 E1 A1 Z1 G1 BA1 BX1. clear K2. fold d in S1, D1, E1, Z1. fold src in S1.
  assert (heap L <= d /\ d + 256 <= 65536) as (BD1 & BD2).
  { assert (0 <= wordat m (aptr L) < 65536 /\ 0 <= wordat m 741 < 65536) as (? & ?).
    { unfold wordat. pose proof (WM (aptr L)). pose proof (WM (aptr L + 1)). pose proof (WM 741). pose proof (WM (741 + 1)). lia. }
    unfold d, block in *. fold va in RM. destruct (fresh m va) eqn:FR; [specialize (RM eq_refl); lia|specialize (V4 eq_refl); lia]. }
  assert (m1 src = m src) as L1. { apply G1. rewrite <- (Z.add_0_r src). apply P2. lia. }
  unfold wordat in S1, D1. do 2 step1. rewrite S1, D1, !Z.add_0_r, !b16_small by lia. rewrite L1.
  set (m2 := upd m1 d (m src)).
  assert (bytes_in m2) as W2 by (unfold m2; bytes_tac).
  assert (forall b, loopcell b -> m2 b = m1 b) as F2 by (intros b LB; unfold loopcell in LB; unfold m2; norm; reflexivity).
  assert (wordat m1 (aptr L) = wordat m (aptr L) + (if fresh m va then 256 else 0)) as A1' by (rewrite A1; destruct (fresh m va); lia).
  step1. step1; zb.
  - step1. apply FIN with (m1 := m1); auto; try lia.
    + intros b NB _ _. unfold m2. norm. reflexivity.
    + apply F2. unfold loopcell. lia.
    + unfold m2. norm. reflexivity.
  - step1. eapply wp_jsr; [reflexivity|]. cpu_red. at_label "move_loop".
    eapply move_loop_dn with (n := Z.to_nat (m src)) (src := src) (dst := d); auto; try lia.
    + unfold wordat. rewrite !F2 by (unfold loopcell; lia). exact S1.
    + unfold wordat. rewrite !F2 by (unfold loopcell; lia). exact D1.
    + rewrite F2 by (unfold loopcell; lia). lia.
    + intros i I. rewrite b16_small by lia. unfold loopcell. lia.
    + intros a' z' f' BA'. step1. step1. apply FIN with (m1 := m1); auto; try lia.
      * apply copy_dn_bytes. auto.
      * intros b NB _ _. rewrite copy_dn_frame; [unfold m2; norm; reflexivity|]. intros i I. rewrite b16_small by lia. lia.
      * rewrite copy_dn_frame; [apply F2; unfold loopcell; lia|]. intros i I. rewrite b16_small by lia. lia.
      * rewrite copy_dn_frame; [unfold m2; norm; reflexivity|]. intros i I. rewrite b16_small by lia. lia.
      * intros i I. rewrite <- (b16_small (d + 1 + i)) by lia. rewrite copy_dn_exact; try lia; [|zm].
        rewrite b16_small by lia. unfold m2. destruct (Z.eq_dec (src + 1 + i) d) as [E|N].
        -- destruct SD as [SD|[SD|SD]]; lia.
        -- rewrite upd_ne by auto. apply G1. rewrite <- Z.add_assoc. apply P2. lia.
Qed.

(* what the variable at va has now *)
Definition held (s : cpu) : list Z :=
  if fresh (M s) (to L s) then [] else str_at (M s) (block (M s) (to L s)).
Theorem cat_str_ok s : ready s -> var_ok s -> src_ok s ->
  (roomy s -> exists s', calls P "EXE_CAT_STR" s "next_instruction" s' /\
     assigned s (firstn 255 (held s ++ str_at (M s) (AX s))) s') /\
  (~ roomy s -> exists s', calls P "EXE_CAT_STR" s "err_nomem" s').
Proof.
  intros R VO SO. set (res := firstn 255 (held s ++ str_at (M s) (AX s))).
  assert (forall (Q : string -> cpu -> Prop), (roomy s -> forall s', assigned s res s' -> Q "next_instruction" s') ->
    (~ roomy s -> forall s', Q "err_nomem" s') -> wp P (entry P "EXE_CAT_STR") s Q) as G.
  2: { split; intros RM.
    - apply wp_calls. apply G; [|tauto]. intros _ s' A'. auto.
    - destruct (wp_calls P "EXE_CAT_STR" s "err_nomem" (fun _ => True)) as (s' & C & _); [|eauto]. apply G; tauto. }
  intros Q K1 K2. pose proof R as ((_ & _ & _ & WM0) & _).
  set (l1 := if fresh (M s) (to L s) then 0 else M s (block (M s) (to L s))).
  set (l2 := M s (AX s)).
  assert (0 <= l1 < 256 /\ 0 <= l2 < 256) as (BL1 & BL2).
  { unfold l1, l2. pose proof (WM0 (block (M s) (to L s))). pose proof (WM0 (AX s)). destruct (fresh _ _); lia. }
  assert (Z.of_nat (List.length (held s)) = l1) as HL.
  { unfold held, l1. destruct (fresh _ _); [reflexivity|]. rewrite str_len. pose proof (WM0 (block (M s) (to L s))). lia. }
  assert (Z.of_nat (List.length res) = Z.min 255 (l1 + l2)) as RL.
  { unfold res. rewrite firstn_length, app_length, str_len. lia. }
  assert (forall a x y c z f v m st r m1, 0 <= a < 256 -> 0 <= x < 256 -> 0 <= y < 256 -> bytes_in m -> st = S s -> r = rnd s -> roomy s ->
    wordat m1 (to L s) = block (M s) (to L s) -> m1 152 = 136 -> wordat m1 (aptr L) = free_ptr L s + (if fresh (M s) (to L s) then 256 else 0) ->
    agree (str_work (M s) (to L s)) m1 (M s) -> (forall b, ~ block (M s) (to L s) <= b < block (M s) (to L s) + 256 -> ~ loopcell b -> ~ scratch L b -> m b = m1 b) -> m 152 = m1 152 ->
    m (block (M s) (to L s)) = Z.min 255 (l1 + l2) ->
    (fresh (M s) (to L s) = false -> forall i, 0 <= i < l1 -> m (block (M s) (to L s) + 1 + i) = M s (block (M s) (to L s) + 1 + i)) ->
    (forall i, 0 <= i < Z.min 255 (l1 + l2) - l1 -> m (block (M s) (to L s) + 1 + l1 + i) = M s (AX s + 1 + i)) ->
    Q "next_instruction" (mkcpu a x y c z f v m st r)) as FIN.
  { intros a x y c z f v m st r m1 BA BX BY W ES ER RM E1 I1 A1 G1 F1 I2 ED EO EN. apply K1; auto.
    eapply assigned_intro; eauto; try lia.
    intros i I. unfold res. rewrite nth_firstn_lt by lia. destruct (Z.ltb_spec (Z.of_nat i) l1) as [LT|GE].
    - rewrite app_nth1 by lia. unfold held in *. destruct (fresh (M s) (to L s)) eqn:FR; [unfold l1 in LT; lia|].
      rewrite str_nth by (unfold l1 in LT; lia). apply EO; auto; lia.
    - rewrite app_nth2 by lia. rewrite str_nth by (fold l2; lia).
      replace (block (M s) (to L s) + 1 + Z.of_nat i) with (block (M s) (to L s) + 1 + l1 + (Z.of_nat i - l1)) by lia.
      rewrite EN by lia. f_equal. lia. }
  clear K1. destruct R as ((WA & WX & WY & WM) & HY). pose proof OK as (?&?&?&?&?&?&?&?&?&?&?&?&?).
  destruct VO as (V1 & V2 & V3 & V4), SO as ((P0 & P1 & P2) & SD). clear HL RL. clearbody res.
  set (va := to L s) in *. set (d := block (M s) va) in *.
  destruct s as [a x y c z f v m st r]. unfold roomy, free_ptr, memtop, AX in *. cbn [A X Y M S rnd] in *. consts.
  set (src := a + 256 * x) in *. pose proof (WM src).
  entry_tac. consts. eapply wp_jsr; [reflexivity|]. cpu_red. at_label "get_pointers".
  apply get_pointers with (va := va); auto.
  2: { intros FR LE s' W'. apply K2. intros RM. specialize (RM FR). unfold va in LE. consts. lia. }
  consts. intros RM a1 x1 c1 z1 f1 v1 m1 W1 S1 D1 I1 E1 A1 Z1 G1 BA1 BX1. clear K2. fold d in S1, D1, E1, Z1. fold src in S1.
  assert (heap L <= d /\ d + 256 <= 65536) as (BD1 & BD2).
  { assert (0 <= wordat m (aptr L) < 65536 /\ 0 <= wordat m 741 < 65536) as (? & ?).
    { unfold wordat. pose proof (WM (aptr L)). pose proof (WM (aptr L + 1)). pose proof (WM 741). pose proof (WM (741 + 1)). lia. }
    unfold d, block in *. fold va in RM. destruct (fresh m va) eqn:FR; [specialize (RM eq_refl); lia|specialize (V4 eq_refl); lia]. }
  assert (m1 src = l2) as L1. { apply G1. rewrite <- (Z.add_0_r src). apply P2. fold l2. lia. }
  assert (fresh m va = false -> forall b, d <= b < d + 256 -> m1 b = m b) as L0.
  { intros FR b Hb. apply G1. unfold str_work. rewrite FR. unfold loopcell, scratch. intros [?|[?|[? ?]]]; [lia|lia|discriminate]. }
  assert (m1 d = l1) as L2.
  { unfold l1. destruct (fresh m va) eqn:FR; [apply Z1; auto; lia|apply L0; auto; lia]. }
  assert (wordat m1 (aptr L) = wordat m (aptr L) + (if fresh m va then 256 else 0)) as A1' by (rewrite A1; destruct (fresh m va); lia).
  set (tot := Z.min 255 (l1 + l2)) in *. fold l2 in P1, P2, SD.
  unfold wordat in S1, D1. change (150 + 1) with 151 in *. pose proof (W1 150). pose proof (W1 151).
  assert (~ scratch L src) as NSRC.
  { intros E. apply (P2 0); [lia|]. rewrite Z.add_0_r. right. left. exact E. }
  assert (forall m4, bytes_in m4 -> wordat m4 147 = src -> wordat m4 150 = d + l1 -> m4 152 = 136 ->
    (forall b, ~ loopcell b -> ~ scratch L b -> b <> d -> m4 b = m1 b) -> m4 d = tot -> 0 < tot - l1 ->
    forall aa xx cc zz ff vv, 0 <= xx < 256 -> wp P (entry P "copystr.cloop") (mkcpu aa xx (tot - l1) cc zz ff vv m4 st r) Q) as GL.
  { intros m4 W4 S4 D4 I4 F4 E4 BT aa xx cc zz ff vv BXX. entry_tac. eapply wp_jsr; [reflexivity|]. cpu_red. at_label "move_loop".
    eapply move_loop_dn with (n := Z.to_nat (tot - l1)) (src := src) (dst := d + l1); auto; try lia.
    + intros i I. rewrite b16_small by lia. unfold loopcell. lia.
    + intros a' z' f' BA'. step1. step1. apply FIN with (m1 := m1); auto; try lia.
      * apply copy_dn_bytes. auto.
      * intros b NB NL NS. rewrite copy_dn_frame; [apply F4; auto; lia|]. intros i I. rewrite b16_small by lia. lia.
      * rewrite copy_dn_frame; [lia|]. intros i I. rewrite b16_small by lia. lia.
      * rewrite copy_dn_frame; [exact E4|]. intros i I. rewrite b16_small by lia. lia.
      * intros FR i I. rewrite copy_dn_frame; [|intros j J; rewrite b16_small by lia; lia].
        rewrite F4 by (unfold loopcell, scratch; lia). apply L0; auto; lia.
      * intros i I. replace (d + 1 + l1 + i) with (d + l1 + 1 + i) by lia.
        rewrite <- (b16_small (d + l1 + 1 + i)) by lia. rewrite copy_dn_exact; try lia; [|zm].
        rewrite b16_small by lia.
        assert (~ str_work m va (src + 1 + i)) as NW by (rewrite <- Z.add_assoc; apply P2; lia).
        rewrite F4; [apply G1; exact NW| | |]; [intros E; apply NW; left; exact E|intros E; apply NW; right; left; exact E|].
        destruct SD as [SD|[SD|SD]]; lia. }
  step1. change (150 + 1) with 151. rewrite D1, Z.add_0_r, b16_small, L2 by lia.
  do 2 step1. norm.
  set (m2 := upd m1 (tmp1 L) l1).
  assert (bytes_in m2) as W2 by (unfold m2; bytes_tac).
  assert (forall b, ~ scratch L b -> m2 b = m1 b) as F2 by (intros b NB; unfold scratch in NB; unfold m2; norm; reflexivity).
  assert (m2 (tmp1 L) = l1) as T2 by (unfold m2; norm; reflexivity). clearbody m2.
  assert (m2 147 + 256 * m2 (147 + 1) = src) as S2 by (rewrite !F2 by (unfold scratch; lia); exact S1).
  assert (m2 150 + 256 * m2 151 = d) as D2 by (rewrite !F2 by (unfold scratch; lia); exact D1).
  step1. rewrite S2, (Z.add_0_r src), (b16_small src), (F2 src), L1 by (auto; lia). rewrite Z.add_0_r.
  assert (forall cc zz ff vv, wp P (entry P "copystr.ok_len") (mkcpu tot x1 0 cc zz ff vv m2 st r) Q) as G3.
  { intros cc zz ff vv. entry_tac. step1. consts. change (150 + 1) with 151. rewrite D2, Z.add_0_r, b16_small by lia.
    set (m3 := upd m2 d tot).
    assert (bytes_in m3) as W3 by (unfold m3; bytes_tac).
    assert (forall b, b <> d -> m3 b = m2 b) as F3 by (intros; unfold m3; norm; reflexivity).
    assert (m3 d = tot) as E3 by (unfold m3; norm; reflexivity). clearbody m3.
    do 2 step1. rewrite (F3 (tmp1 L)), T2 by lia. change (1 - 1) with 0. rewrite Z.sub_0_r, b8_small by lia.
    step1; zb.
    - step1. assert (tot = l1) as ET by lia. apply FIN with (m1 := m1); auto; try lia.
      + intros b NB NL NS. rewrite F3, F2 by (auto; lia). reflexivity.
      + rewrite F3, F2 by (unfold scratch; lia). reflexivity.
      + intros FR i I. rewrite F3, F2 by (unfold scratch; lia). apply L0; auto; lia.
    - do 3 step1. rewrite (F3 (tmp1 L)), T2 by lia. do 2 step1. rewrite (F3 150) by lia.
      pose proof (W2 150). pose proof (W2 151).
      step1; zb.
      + at_label "copystr.cloop". apply GL; try lia.
        * bytes_tac.
        * unfold wordat. norm. rewrite !F3 by lia. exact S2.
        * unfold wordat. change (150 + 1) with 151. norm. rewrite F3 by lia. zm.
        * norm. rewrite F3, F2 by (unfold scratch; lia). lia.
        * intros b NL NS ND. unfold loopcell in NL. norm. rewrite F3, F2 by auto. reflexivity.
        * norm. exact E3.
      + step1. step1; zb; [|lia]. at_label "copystr.cloop". apply GL; try lia.
        * bytes_tac.
        * unfold wordat. norm. rewrite !F3 by lia. exact S2.
        * unfold wordat. change (150 + 1) with 151. norm. rewrite F3 by lia. zm.
        * norm. rewrite F3, F2 by (unfold scratch; lia). lia.
        * intros b NL NS ND. unfold loopcell in NL. norm. rewrite F3, F2 by auto. reflexivity.
        * norm. exact E3. }
  step1; zb.
  - at_label "copystr.ok_len". replace (b8 (l1 + l2)) with tot by zm. apply G3.
  - do 2 step1. at_label "copystr.ok_len". replace 255 with tot by lia. apply G3.
Qed.
End T.
